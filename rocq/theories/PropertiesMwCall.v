(** Calls of the multi-word compare-and-swap that are under way. *)
From Coq Require Import NArith Bool List Sorted.
From stdpp Require Import base list.
From Verif Require Import Word Codec CodecSpec MwCas MwSpec MwHelpSpec MwCallSpec MwWitness MwCallThm MwConflict.
Import ListNotations.
Local Open Scope N_scope.

(** ** C62: a call that is not decided can be completed by every thread, with the effect of the atomic operation *)

(** Thread [me] runs alone and takes over the call of thread [t], some words of which refer to the call already: the result,
    the status and the array are those of the atomic operation on the array without the call. *)
Theorem C62_help : forall C n me s t ws m, mcfg_ok C -> me < 2 ^ m_log C -> (length ws < n)%nat -> pending C m s t ws ->
  wseq m me + 2 * N.of_nat (length ws) < 2 ^ seqSize (2 ^ m_log C) ->
  exists m', mrun (pmwcas C (S n) me (call_ref s t) None) m = MOk (all_match (undone C m s t ws) ws) m' /\ completes C me m s t ws m'.
Proof. exact c62_help. Qed.
Print Assumptions C62_help.
(** A read of a word that refers to the call completes it and returns the value after it. *)
Theorem C62_read : forall C n me s t ws m x, mcfg_ok C -> me < 2 ^ m_log C -> (length ws < n)%nat -> pending C m s t ws ->
  wseq m me + 2 * N.of_nat (length ws) < 2 ^ seqSize (2 ^ m_log C) ->
  In x ws -> contents m (o_off x) = as_word C (call_ref s t) ->
  exists m', mrun (mop_prog C (S (S n)) me (MwRead (o_off x))) m = MOk (MWord (after_call C m s t ws (o_off x))) m' /\ completes C me m s t ws m'.
Proof. exact c62_read. Qed.
Print Assumptions C62_read.
(** So does the compare-and-swap of one word, which then acts on the value after it. *)
Theorem C62_cas : forall C n me s t ws m x old new, mcfg_ok C -> me < 2 ^ m_log C -> (length ws < n)%nat -> pending C m s t ws ->
  wseq m me + 2 * N.of_nat (length ws) < 2 ^ seqSize (2 ^ m_log C) ->
  In x ws -> contents m (o_off x) = as_word C (call_ref s t) -> mval old -> mval new ->
  let o := MwCas1 (o_off x) old new in
  exists m1 m', completes C me m s t ws m1 /\ mrun (mop_prog C (S (S n)) me o) m = MOk (fst (mspec (contents m1) o)) m' /\
    (forall j, contents m' j = snd (mspec (contents m1) o) j) /\ cleaned_but (eq (LArr (o_off x))) m1 m'.
Proof. exact c62_cas. Qed.
Print Assumptions C62_cas.

(** A call of a thread [me] with words that may refer to the call of [t]: it acts atomically after the call of [t], which it
    has completed, or atomically before it, and then the call of [t] is as pending as it was.  The words of the call of [t]
    are in the order of their offsets, and the first of them, [pre], refer to the call. *)
Theorem C62_conflict : forall C n me s t ws pre post ws' m, mcfg_ok C -> me < 2 ^ m_log C -> me <> t -> (length ws + length ws' + 3 <= n)%nat ->
  pending C m s t ws -> StronglySorted N.lt (map o_off ws) -> ws = pre ++ post -> refers C m s t pre ->
  let o := MwCas ws' in legal_mop C o -> Forall (fun x => mval (o_old x)) ws' ->
  (forall x, In x ws' -> contents m (o_off x) = as_word C (call_ref s t) \/ mval (contents m (o_off x))) ->
  kseq m me + 2 < 2 ^ seqSize (2 ^ m_log C) -> wseq m me + 2 * N.of_nat (length ws' + length ws + 1) < 2 ^ seqSize (2 ^ m_log C) ->
  let a := after_call C m s t ws in let b := undone C m s t ws in
  exists m',
    (mrun (mop_prog C n me o) m = MOk (fst (mspec a o)) m' /\ (forall j, contents m' j = snd (mspec a o) j) /\
       kseq m' t = s /\ kstat m' t = if all_match b ws then Succeeded else Failed) \/
    (mrun (mop_prog C n me o) m = MOk (fst (mspec b o)) m' /\ (forall j, undone C m' s t ws j = snd (mspec b o) j) /\
       pending C m' s t ws /\ refers C m' s t pre).
Proof. exact c62_conflict. Qed.
Print Assumptions C62_conflict.

(** Thread 1 has stopped when the first of its two words refers to its call; thread 0 is [me]. *)
Example C62_example : pending mx_C (mx_cut 60) 2 1 mx_ws /\ wseq (mx_cut 60) 0 + 2 * N.of_nat (length mx_ws) < 2 ^ seqSize (2 ^ m_log mx_C) /\
  map (undone mx_C (mx_cut 60) 2 1 mx_ws) [0; 1; 2; 3] = [0; 0; 0; 0] /\ map (after_call mx_C (mx_cut 60) 2 1 mx_ws) [0; 1; 2; 3] = [8; 16; 0; 0] /\
  contents (mx_cut 60) 0 = as_word mx_C (call_ref 2 1) /\ In (mkWord 0 0 8) mx_ws.
Proof. exact mx_pending. Qed.

(** Thread 0 calls with the word 0, which refers to the call of thread 1, or with the words 1 and 2, which do not: it comes
    after the call of thread 1 or before it. *)
Example C62_example_conflict : pending mx_C (mx_cut 60) 2 1 mx_ws /\ StronglySorted N.lt (map o_off mx_ws) /\ refers mx_C (mx_cut 60) 2 1 [mkWord 0 0 8] /\
  (forall ws', ws' = mx_after \/ ws' = mx_before -> legal_mop mx_C (MwCas ws') /\ Forall (fun x => mval (o_old x)) ws' /\
     forall x, In x ws' -> contents (mx_cut 60) (o_off x) = as_word mx_C (call_ref 2 1) \/ mval (contents (mx_cut 60) (o_off x))) /\
  kseq (mx_cut 60) 0 + 2 < 2 ^ seqSize (2 ^ m_log mx_C) /\ wseq (mx_cut 60) 0 + 2 * 5 < 2 ^ seqSize (2 ^ m_log mx_C) /\
  (exists m, mrun (mop_prog mx_C mx_fuel 0 (MwCas mx_after)) (mx_cut 60) = MOk (MBool true) m /\ map (contents m) [0; 1; 2; 3] = [24; 16; 32; 0] /\ kstat m 1 = Succeeded) /\
  (exists m, mrun (mop_prog mx_C mx_fuel 0 (MwCas mx_before)) (mx_cut 60) = MOk (MBool true) m /\ map (undone mx_C m 2 1 mx_ws) [0; 1; 2; 3] = [0; 40; 32; 0] /\ kstat m 1 = Undecided).
Proof. exact mx_conflict. Qed.

(** ** C51: recovery from a call that was not decided *)

(** A call of thread [t] stops after any number of steps, before it is decided.  If the check of the descriptors before [t]
    ends at once, the recovery does not fail, and the array is as before the call or, if the descriptor was complete, as the
    atomic operation leaves it. *)
Theorem C51_undecided_partial : forall C n m t r ws k, mcfg_ok C -> (mfuel C <= n)%nat -> (N.to_nat (2 ^ m_log C) <= n)%nat -> t < 2 ^ m_log C -> r < 2 ^ m_log C ->
  legal_mop C (MwCas ws) -> Forall (fun x => mval (o_old x)) ws -> ready C m t (N.of_nat (length ws)) ->
  (forall i, (i <= k)%nat -> ~ decided_in m t (stopped_in C n m t (MwCas ws) i)) ->
  let x := stopped_in C n m t (MwCas ws) k in
  exists m', mrun (mw_recover C n r) x = MOk tt m' /\ quiescent C m' /\
    forall j, j < m_size C -> contents m' j = if kseq x t =? kseq m t + 2 then snd (mspec (contents m) (MwCas ws)) j else contents m j.
Proof. exact c51_undecided. Qed.
Print Assumptions C51_undecided_partial.
(** Without this condition, [rd_first] of [ready], the recovery can fail in an assertion: the check looks at a word that
    refers to the call, which is only completed later. *)
Theorem C51_refuted_undecided : exists C n m t ws k m', mcfg_ok C /\ (mfuel C <= n)%nat /\ (N.to_nat (2 ^ m_log C) <= n)%nat /\ t < 2 ^ m_log C /\
  legal_mop C (MwCas ws) /\ Forall (fun x => mval (o_old x)) ws /\ quiescent C m /\
  (forall i, (i <= k)%nat -> ~ decided_in m t (stopped_in C n m t (MwCas ws) i)) /\
  mrun (mw_recover C n 0) (stopped_in C n m t (MwCas ws) k) = MFail MAssertFail m'.
Proof. exact c51_undecided_refuted. Qed.
Print Assumptions C51_refuted_undecided.

Example C51_example_ready : forall t, t < 4 -> ready mx_C mw_init t (N.of_nat (length mx_ws)).
Proof. exact mx_ready. Qed.
Example C51_example_undecided : (forall i, (i <= 90)%nat -> ~ decided_in mw_init 1 (mx_cut i)) /\
  map (contents (mx_cut 90)) [0; 1; 2; 3] = [as_word mx_C (call_ref 2 1); as_word mx_C (call_ref 2 1); 0; 0] /\
  map (contents (mx_cut 75)) [0; 1; 2; 3] = [as_word mx_C (call_ref 2 1); as_word mx_C (word_ref 4 1); 0; 0] /\
  map (contents (mx_cut 60)) [0; 1; 2; 3] = [as_word mx_C (call_ref 2 1); 0; 0; 0] /\
  map (fun k => kseq (mx_cut k) 1) [0%nat; 10%nat; 30%nat; 90%nat] = [0; 1; 2; 2].
Proof. exact mx_undecided. Qed.
