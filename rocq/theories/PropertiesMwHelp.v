(** Helping in the multi-word compare-and-swap. *)
From Coq Require Import NArith Bool List.
From stdpp Require Import base list.
From Verif Require Import Word Codec CodecSpec MwCas MwSpec MwHelpSpec MwInv MwWitness MwHelpThm.
Import ListNotations.
Local Open Scope N_scope.

(** ** C61: a half-installed word can be completed by everybody, and only through an up-to-date reference *)

(** In every execution a word of the array that refers to a word descriptor refers to the present contents of this
    descriptor, which describes that word. *)
Theorem C61_up_to_date : forall C n todos sched, mcfg_ok C -> 0 < m_size C -> (forall v, client_value todos v -> mval v) ->
  Forall (Forall (legal_mop C)) todos -> helpable C (ms_mem (mafter C n mw_init todos sched)).
Proof. exact always_helpable. Qed.
Print Assumptions C61_up_to_date.

(** Completing the installation through any reference to a word descriptor: if it is up to date and still in the word, the
    word becomes what it has to become; otherwise nothing changes. *)
Theorem C61_complete : forall C s t m, mcfg_ok C -> word_ok C m t -> s < 2 ^ seqSize (2 ^ m_log C) ->
  let j := m (LWWord t WOff) in
  let b := (s =? wseq m t) && (contents m j =? as_word C (word_ref s t)) in
  exists m', mrun (completeInstall C (word_ref s t)) m = MOk b m' /\
    if b then cleaned_but (eq (LArr j)) m m' /\ contents m' j = outcome C m t else cleaned m m'.
Proof. exact c61_complete. Qed.
Print Assumptions C61_complete.

(** Installing: what was half installed in the word is completed first, and then the word is installed if it has the expected
    value. *)
Theorem C61_install : forall C n t m, mcfg_ok C -> word_ok C m t -> isMarked (m (LWWord t WOld)) RDCSSFlag = false -> helpable C m ->
  let j := m (LWWord t WOff) in
  exists m', mrun (install C (S (S n)) (word_ref (wseq m t) t)) m = MOk (settled C m j, true) m' /\ cleaned_but (eq (LArr j)) m m' /\
    contents m' j = if settled C m j =? m (LWWord t WOld) then outcome C m t else settled C m j.
Proof. exact c61_install. Qed.
Print Assumptions C61_install.
Theorem C61_install_stale : forall C n s t m, word_ok C m t -> s <> wseq m t ->
  exists m', mrun (install C (S n) (word_ref s t)) m = MOk (m (LWWord t WOld), false) m' /\ cleaned m m'.
Proof. exact c61_install_stale. Qed.
Print Assumptions C61_install_stale.

(** A new word descriptor has a new number and contains the word and the call that it belongs to, which may be one of another
    thread. *)
Theorem C61_create : forall C me h x kd m, me < 2 ^ m_log C -> h < 2 ^ m_log C ->
  let s := (wseq m me + 2) mod 2 ^ 63 in
  exists m', mrun (createW C me h x kd) m = MOk (word_ref (s mod 2 ^ seqSize (2 ^ m_log C)) me) m' /\
    wseq m' me = s /\ m' (LWWord me WOff) = o_off x /\ m' (LWWord me WOld) = o_old x /\ m' (LWWord me WNew) = o_new x /\
    m' (LWSeq me) = d_seq kd /\ m' (LWTid me) = h /\
    forall l, l <> LW me -> (forall f, l <> LWWord me f) -> l <> LWSeq me -> l <> LWTid me -> m' l = m l.
Proof. exact c61_create. Qed.
Print Assumptions C61_create.

(** Reading and changing a cell through a reference tell whether it is up to date, and an outdated one changes nothing. *)
Theorem C61_read : forall C d l m, a_ref d -> d_tid d < 2 ^ m_log C -> match l with LArr _ | LK _ | LW _ => True | _ => False end ->
  exists m', mrun (readField C d l) m = MOk (clean (m l), d_seq d =? now m d) m' /\ cleaned m m'.
Proof. exact c61_read. Qed.
Print Assumptions C61_read.
Theorem C61_cas : forall C d e v l m, a_ref d -> d_tid d < 2 ^ m_log C -> match l with LArr _ | LK _ | LW _ => True | _ => False end ->
  exists m', if (d_seq d =? now m d) && (clean (m l) =? e)
    then mrun (CASField C d e v l) m = MOk (true, e, true) m' /\ cleaned_but (eq l) m m' /\ m' l = dirty v
    else mrun (CASField C d e v l) m = MOk (false, (if d_seq d =? now m d then clean (m l) else e), d_seq d =? now m d) m' /\ cleaned m m'.
Proof. exact c61_cas. Qed.
Print Assumptions C61_cas.

(** The first pass of the recovery of what any execution leaves does not fail and completes every half-installed word. *)
Theorem C61_recovery : forall C n todos sched, mcfg_ok C -> 0 < m_size C -> (forall v, client_value todos v -> mval v) -> Forall (Forall (legal_mop C)) todos ->
  let m := ms_mem (mafter C n mw_init todos sched) in
  exists m', mrun (recover_words C (N.to_nat (2 ^ m_log C)) 0) m = MOk tt m' /\ cleaned_but (fun l => exists j, l = LArr j) m m' /\
    forall j, j < m_size C -> contents m' j = settled C m j /\ isMarked (contents m' j) RDCSSFlag = false.
Proof. exact c61_recovery. Qed.
Print Assumptions C61_recovery.

Example C61_example : word_ok mx_C mx_half 0 /\ half_installed mx_C mx_half 0 1 /\ under_way mx_half 0 = true /\ outcome mx_C mx_half 0 = as_word mx_C (call_ref 2 0) /\
  map (contents mx_half) [0; 1; 2; 3] = [18; 36; 0; 0] /\ map (settled mx_C mx_half) [0; 1; 2; 3] = [18; 18; 0; 0].
Proof. exact mx_half_ok. Qed.
Example C61_example_helpable : helpable mx_C mx_half.
Proof. exact mx_half_helpable. Qed.
Example C61_example_failed : word_ok mx_C mx_half_failed 0 /\ half_installed mx_C mx_half_failed 0 1 /\ under_way mx_half_failed 0 = false /\ outcome mx_C mx_half_failed 0 = 0.
Proof. exact mx_half_failed_ok. Qed.
Example C61_example_refs : a_ref (word_ref 4 0) /\ a_ref (call_ref 2 0) /\ wseq mx_half 0 = 4 /\ now mx_half (word_ref 4 0) = 4 /\ now mx_half (call_ref 2 0) = 2 /\
  isMarked (mx_half (LWWord 0 WOld)) RDCSSFlag = false.
Proof. exact mx_refs. Qed.
