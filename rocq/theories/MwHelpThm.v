(** Helping: the statements about runs. *)
From Coq Require Import NArith Bool List Lia.
From stdpp Require Import base list.
From Verif Require Import Word Bits Codec CodecSpec CodecThm MwCas MwSpec MwWp MwSeq MwRely MwRecover MwHelpSpec MwHelp MwInv MwWitness.
Import ListNotations.
Local Open Scope N_scope.

Lemma c61_read C d l m : a_ref d -> d_tid d < 2 ^ m_log C -> match l with LArr _ | LK _ | LW _ => True | _ => False end ->
  exists m', mrun (readField C d l) m = MOk (clean (m l), d_seq d =? now m d) m' /\ cleaned m m'.
Proof.
  intros Hd Ht Hl. destruct (mwp_run any (readField C d l) (fun r m' => r = (clean (m l), d_seq d =? now m d) /\ cleaned m m') m) as (r & m' & E & -> & H).
  - apply wph_readField; [exact Hd|exact Ht|exact Hl|]. intros m' H. split; [reflexivity|exact H].
  - exists m'. split; [exact E|exact H].
Qed.
Lemma c61_cas C d e v l m : a_ref d -> d_tid d < 2 ^ m_log C -> match l with LArr _ | LK _ | LW _ => True | _ => False end ->
  exists m', if (d_seq d =? now m d) && (clean (m l) =? e)
    then mrun (CASField C d e v l) m = MOk (true, e, true) m' /\ cleaned_but (eq l) m m' /\ m' l = dirty v
    else mrun (CASField C d e v l) m = MOk (false, (if d_seq d =? now m d then clean (m l) else e), d_seq d =? now m d) m' /\ cleaned m m'.
Proof.
  intros Hd Ht Hl.
  destruct (mwp_run any (CASField C d e v l) (fun r m' => if (d_seq d =? now m d) && (clean (m l) =? e)
    then r = (true, e, true) /\ cleaned_but (eq l) m m' /\ m' l = dirty v
    else r = (false, (if d_seq d =? now m d then clean (m l) else e), d_seq d =? now m d) /\ cleaned m m') m) as (r & m' & E & H).
  - apply wph_CASField; [exact Hd|exact Ht|exact Hl|]. intros m'. destruct (d_seq d =? now m d); cbn [andb]; [destruct (clean (m l) =? e)|]; auto.
  - exists m'. destruct ((d_seq d =? now m d) && (clean (m l) =? e)); destruct H as [-> H]; split; assumption.
Qed.
Lemma c61_create C me h x kd m : me < 2 ^ m_log C -> h < 2 ^ m_log C ->
  let s := (wseq m me + 2) mod 2 ^ 63 in
  exists m', mrun (createW C me h x kd) m = MOk (word_ref (s mod 2 ^ seqSize (2 ^ m_log C)) me) m' /\
    wseq m' me = s /\ m' (LWWord me WOff) = o_off x /\ m' (LWWord me WOld) = o_old x /\ m' (LWWord me WNew) = o_new x /\
    m' (LWSeq me) = d_seq kd /\ m' (LWTid me) = h /\
    forall l, l <> LW me -> (forall f, l <> LWWord me f) -> l <> LWSeq me -> l <> LWTid me -> m' l = m l.
Proof.
  intros Hme Hh s.
  destruct (mwp_run any (createW C me h x kd) (fun d m' => d = word_ref (s mod 2 ^ seqSize (2 ^ m_log C)) me /\
    wseq m' me = s /\ m' (LWWord me WOff) = o_off x /\ m' (LWWord me WOld) = o_old x /\ m' (LWWord me WNew) = o_new x /\
    m' (LWSeq me) = d_seq kd /\ m' (LWTid me) = h /\
    forall l, l <> LW me -> (forall f, l <> LWWord me f) -> l <> LWSeq me -> l <> LWTid me -> m' l = m l) m) as (r & m' & E & -> & H).
  - apply wph_createW; [exact Hme|exact Hh|]. intros m' q Hl -> Hq. intros. split; [reflexivity|]. auto 10.
  - exists m'. split; [exact E|exact H].
Qed.
Lemma c61_complete C s t m : mcfg_ok C -> word_ok C m t -> s < 2 ^ seqSize (2 ^ m_log C) ->
  let j := m (LWWord t WOff) in
  let b := (s =? wseq m t) && (contents m j =? as_word C (word_ref s t)) in
  exists m', mrun (completeInstall C (word_ref s t)) m = MOk b m' /\
    if b then cleaned_but (eq (LArr j)) m m' /\ contents m' j = outcome C m t else cleaned m m'.
Proof.
  intros HC Hw Hs j b.
  destruct (mwp_run any (completeInstall C (word_ref s t)) (fun r m' => r = b /\ if b then cleaned_but (eq (LArr j)) m m' /\ contents m' j = outcome C m t else cleaned m m') m) as (r & m' & E & -> & H).
  - apply (wph_complete C HC); [exact Hw|exact Hs|]. fold j. fold b. intros m'. destruct b; [|auto]. intros H1 H2. split; [reflexivity|]. split; [|exact H2].
    eapply cleaned_weaken; [|exact H1]. intros l ->. reflexivity.
  - exists m'. split; [exact E|exact H].
Qed.
Lemma c61_install C n t m : mcfg_ok C -> word_ok C m t -> isMarked (m (LWWord t WOld)) RDCSSFlag = false -> helpable C m ->
  let j := m (LWWord t WOff) in
  exists m', mrun (install C (S (S n)) (word_ref (wseq m t) t)) m = MOk (settled C m j, true) m' /\ cleaned_but (eq (LArr j)) m m' /\
    contents m' j = if settled C m j =? m (LWWord t WOld) then outcome C m t else settled C m j.
Proof.
  intros HC Hw Ho Hh j.
  destruct (mwp_run any (install C (S (S n)) (word_ref (wseq m t) t)) (fun r m' => r = (settled C m j, true) /\ cleaned_but (eq (LArr j)) m m' /\
    contents m' j = if settled C m j =? m (LWWord t WOld) then outcome C m t else settled C m j) m) as (r & m' & E & -> & H).
  - apply (wph_install C HC); [exact Hw|exact Ho|exact Hh|]. intros m' H1 H2. split; [reflexivity|]. split; [|exact H2]. eapply cleaned_weaken; [|exact H1]. intros l ->. reflexivity.
  - exists m'. split; [exact E|exact H].
Qed.
Lemma c61_install_stale C n s t m : word_ok C m t -> s <> wseq m t ->
  exists m', mrun (install C (S n) (word_ref s t)) m = MOk (m (LWWord t WOld), false) m' /\ cleaned m m'.
Proof.
  intros Hw Hs. destruct (mwp_run any (install C (S n) (word_ref s t)) (fun r m' => r = (m (LWWord t WOld), false) /\ cleaned m m') m) as (r & m' & E & -> & H).
  - apply wph_install_stale; [exact Hw|exact Hs|]. intros m' H. split; [reflexivity|exact H].
  - exists m'. split; [exact E|exact H].
Qed.
Lemma c61_first_pass C m : mcfg_ok C -> helpable C m ->
  exists m', mrun (recover_words C (N.to_nat (2 ^ m_log C)) 0) m = MOk tt m' /\ cleaned_but (fun l => exists j, l = LArr j) m m' /\
    forall j, j < m_size C -> contents m' j = settled C m j /\ isMarked (contents m' j) RDCSSFlag = false.
Proof.
  intros HC [H1 H2]. set (P := 2 ^ m_log C).
  destruct (mwp_run any (recover_words C (N.to_nat P) 0) (fun _ m' => cleaned_but (fun l => exists j, l = LArr j) m m' /\
    forall j, j < m_size C -> contents m' j = settled C m j /\ isMarked (contents m' j) RDCSSFlag = false) m) as ([] & m' & E & H).
  - apply (wph_recover_words C HC); [rewrite N2Nat.id; lia|exact H1| |].
    + intros j Hj Hm. destruct (H2 j Hj Hm) as (t & Ht & Ho). exists t. split; [lia|]. split; assumption.
    + intros m' A B. split; [exact A|]. intros j Hj. rewrite B by exact Hj. split; [reflexivity|]. apply (settled_mark C HC); [split; assumption|exact Hj].
  - exists m'. split; [exact E|exact H].
Qed.
Lemma c61_recovery C n todos sched : mcfg_ok C -> 0 < m_size C -> (forall v, client_value todos v -> mval v) -> Forall (Forall (legal_mop C)) todos ->
  let m := ms_mem (mafter C n mw_init todos sched) in
  exists m', mrun (recover_words C (N.to_nat (2 ^ m_log C)) 0) m = MOk tt m' /\ cleaned_but (fun l => exists j, l = LArr j) m m' /\
    forall j, j < m_size C -> contents m' j = settled C m j /\ isMarked (contents m' j) RDCSSFlag = false.
Proof. intros HC Hs Hv Hl m. apply c61_first_pass; [exact HC|]. apply always_helpable; assumption. Qed.

(** ** Examples *)

(** A call that stopped in the middle of its second word; and the same when the call has failed meanwhile. *)
Definition mx_half : mem := stopped mx_C mx_fuel mw_init (MwCas mx_ws) 75.
Definition mx_half_failed : mem := upd mx_half (LK 0) (kmut_encode (mkKmut false Failed 2)).
Lemma mx_one_values v : client_value [[MwCas mx_ws]] v -> mval v.
Proof.
  intros [->|(os & o & Hos & Ho & Hv)]; [value|]. rewrite elem_of_list_In in Hos. rewrite elem_of_list_In in Ho.
  destruct Hos as [<-|[]]; destruct Ho as [<-|[]]. destruct Hv as (x & [<-|[<-|[]]] & [->| ->]); value.
Qed.
Lemma mx_half_helpable : helpable mx_C mx_half.
Proof.
  apply always_helpable; [apply mx_cfg|reflexivity|exact mx_one_values|]. constructor; [|constructor]. constructor; [exact mx_legal|constructor].
Qed.
Lemma mx_half_ok : word_ok mx_C mx_half 0 /\ half_installed mx_C mx_half 0 1 /\ under_way mx_half 0 = true /\ outcome mx_C mx_half 0 = as_word mx_C (call_ref 2 0) /\
  map (contents mx_half) [0; 1; 2; 3] = [18; 36; 0; 0] /\ map (settled mx_C mx_half) [0; 1; 2; 3] = [18; 18; 0; 0].
Proof.
  assert (H : word_ok mx_C mx_half 0) by (split; vm_compute; reflexivity). split; [exact H|]. split; [split; [exact H|split; vm_compute; reflexivity]|]. vm_compute. repeat split.
Qed.
Lemma mx_half_failed_ok : word_ok mx_C mx_half_failed 0 /\ half_installed mx_C mx_half_failed 0 1 /\ under_way mx_half_failed 0 = false /\ outcome mx_C mx_half_failed 0 = 0.
Proof.
  assert (H : word_ok mx_C mx_half_failed 0) by (split; vm_compute; reflexivity). split; [exact H|]. split; [split; [exact H|split; vm_compute; reflexivity]|]. vm_compute. repeat split.
Qed.
Lemma mx_refs : a_ref (word_ref 4 0) /\ a_ref (call_ref 2 0) /\ wseq mx_half 0 = 4 /\ now mx_half (word_ref 4 0) = 4 /\ now mx_half (call_ref 2 0) = 2 /\
  isMarked (mx_half (LWWord 0 WOld)) RDCSSFlag = false.
Proof. split; [do 2 eexists; left; reflexivity|]. split; [do 2 eexists; right; reflexivity|]. vm_compute. repeat split. Qed.
