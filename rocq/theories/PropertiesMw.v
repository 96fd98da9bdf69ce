(** The multi-word compare-and-swap. *)
From Coq Require Import NArith Bool List.
From stdpp Require Import base list.
From Verif Require Import Word Codec CodecSpec MwCas MwSpec MwThm MwRely MwRecover MwCalmSpec MwCalm MwWitness.
Import ListNotations.
Local Open Scope N_scope.

(** ** C47: one call at a time, the operations are atomic *)

(** Calls that are made one after another, each by any of the threads, return what the atomic operations return and leave
    the array as they do; none fails or runs out of fuel. *)
Theorem C47_sequential : forall C n l m b, mcfg_ok C -> (mfuel C <= n)%nat ->
  (forall j, j < m_size C -> mval (contents m j)) -> (forall t, t < 2 ^ m_log C -> seqs_le m t b) ->
  Forall (fun x => fst x < 2 ^ m_log C /\ legal_mop C (snd x)) l -> b + mcosts (map snd l) < 2 ^ seqSize (2 ^ m_log C) ->
  exists m', run_calls C n l m = Some (fst (mspecs (contents m) (map snd l)), m') /\ forall j, contents m' j = snd (mspecs (contents m) (map snd l)) j.
Proof. exact run_calls_correct. Qed.
Print Assumptions C47_sequential.

Example C47_example : Forall (fun x => fst x < 2 ^ m_log mx_C /\ legal_mop mx_C (snd x)) mx_calls /\
  fst (mspecs (contents mw_init) (map snd mx_calls)) = [MBool true; MBool true; MBool false; MWord 24; MBool true; MWord 8] /\
  (forall j, j < m_size mx_C -> mval (contents mw_init j)) /\ (forall t, t < 2 ^ m_log mx_C -> seqs_le mw_init t 0) /\
  0 + mcosts (map snd mx_calls) < 2 ^ seqSize (2 ^ m_log mx_C).
Proof. exact (conj mx_calls_legal (conj mx_calls_results mx_init)). Qed.

(** ** C48: a successful call takes effect in all of its words *)

(** Full statement: when all calls have returned, a word that only one call writes, and that call reported success, holds
    the new value of this call.  False: a concurrent read undoes half of the call. *)
Theorem C48_refuted : exists C n todos sched i ws x,
  mcfg_ok C /\ (mfuel C <= n)%nat /\ Forall (Forall (legal_mop C)) todos /\ (forall v, client_value todos v -> mval v) /\
  todos !! i = Some [MwCas ws] /\ In x ws /\
  (forall k os o, todos !! k = Some os -> o ∈ os -> writes o (o_off x) -> k = i) /\
  let y := mafter C n mw_init todos sched in
  mdone y /\ In (MRes i (MwCas ws) (MBool true)) (ms_hist y) /\ contents (ms_mem y) (o_off x) <> o_new x.
Proof. exact c48_refuted. Qed.
Print Assumptions C48_refuted.

(** Proved for threads that access different words: in every schedule no thread fails, its results are those of the atomic
    operations, and its words are as these operations leave them whenever it is between two calls. *)
Theorem C48_disjoint_partial : forall C, mcfg_ok C -> forall n, (mfuel C <= n)%nat -> forall m todos b,
  N.of_nat (length todos) <= 2 ^ m_log C -> Forall (Forall (legal_mop C)) todos -> disjoint_todos todos ->
  (forall j, j < m_size C -> mval (contents m j)) -> (forall t, t < 2 ^ m_log C -> seqs_le m t b) ->
  Forall (fun os => b + mcosts os < 2 ^ seqSize (2 ^ m_log C)) todos ->
  forall sched i os, todos !! i = Some os ->
  let y := mafter C n m todos sched in
  ~ mstuck y i /\
  exists k, mresults i (ms_hist y) = take k (fst (mspecs (contents m) os)) /\
    forall left, midle y i left -> left = drop k os /\
      forall j, (exists o, o ∈ os /\ touches o j) -> contents (ms_mem y) j = snd (mspecs (contents m) (take k os)) j.
Proof. exact disjoint_correct. Qed.
Print Assumptions C48_disjoint_partial.

Example C48_example : N.of_nat (length mx_disjoint) <= 2 ^ m_log mx_C /\ Forall (Forall (legal_mop mx_C)) mx_disjoint /\ disjoint_todos mx_disjoint /\
  Forall (fun os => 0 + mcosts os < 2 ^ seqSize (2 ^ m_log mx_C)) mx_disjoint.
Proof. exact mx_disjoint_ok. Qed.
Example C48_example_run : let y := mafter mx_C mx_fuel mw_init mx_disjoint mx_disjoint_sched in
  mresults 0 (ms_hist y) = [MBool true; MWord 8] /\ mresults 1 (ms_hist y) = [MBool true; MBool false] /\ mdone y.
Proof. exact mx_disjoint_run. Qed.

(** More generally, in every execution in which calls that overlap in time access different words: no thread fails, the
    results are those of the atomic operations in the order of the responses, and every word that no unfinished call accesses
    is as these operations leave it. *)
Theorem C48_calm_partial : forall C, mcfg_ok C -> forall n, (mfuel C <= n)%nat -> forall m todos b,
  N.of_nat (length todos) <= 2 ^ m_log C -> Forall (Forall (legal_mop C)) todos ->
  (forall j, j < m_size C -> mval (contents m j)) -> (forall t, t < 2 ^ m_log C -> seqs_le m t b) ->
  Forall (fun os => b + mcosts os < 2 ^ seqSize (2 ^ m_log C)) todos ->
  forall sched, let y := mafter C n m todos sched in calm (ms_hist y) ->
  (forall i, ~ mstuck y i) /\ answers (contents m) (ms_hist y) /\
  forall j, (forall i o, running i (ms_hist y) = Some o -> ~ touches o j) ->
    contents (ms_mem y) j = replay (contents m) (ms_hist y) j.
Proof. exact calm_atomic. Qed.
Print Assumptions C48_calm_partial.

Example C48_example_calm : N.of_nat (length mx_calm) <= 2 ^ m_log mx_C /\ Forall (Forall (legal_mop mx_C)) mx_calm /\
  Forall (fun os => 0 + mcosts os < 2 ^ seqSize (2 ^ m_log mx_C)) mx_calm.
Proof. exact mx_calm_ok. Qed.
Example C48_example_calm_run : let y := mafter mx_C mx_fuel mw_init mx_calm mx_calm_sched in
  ms_hist y = [MRes 0 (MwRead 2) (MWord 16); MInv 0 (MwRead 2); MRes 1 (MwCas mx_calm_ws) (MBool true); MInv 1 (MwCas mx_calm_ws);
    MRes 1 (MwCas1 2 0 8) (MBool true); MRes 0 (MwCas mx_ws) (MBool true); MInv 1 (MwCas1 2 0 8); MInv 0 (MwCas mx_ws)] /\
  calm (ms_hist y) /\ map (contents (ms_mem y)) [0; 1; 2; 3] = [8; 24; 16; 0].
Proof. exact mx_calm_run. Qed.

(** ** C49: the outcome of a call is decided once *)

(** In every execution each step leaves the status of each descriptor as it is, decides it if it was undecided, or is one of
    the owner, who starts a new sequence number. *)
Theorem C49_decided_once : forall C n todos sched i t, mcfg_ok C -> (forall v, client_value todos v -> mval v) ->
  kchange (N.of_nat i) t (ms_mem (mafter C n mw_init todos sched)) (ms_mem (mafter C n mw_init todos (sched ++ [i]))).
Proof. exact decided_once. Qed.
Print Assumptions C49_decided_once.

Example C49_example : let y k := ms_mem (mafter mx_C mx_fuel mw_init mx_torn (replicate k 0%nat)) in
  (kseq (y 5%nat) 0, kseq (y 18%nat) 0, kseq (y 94%nat) 0, kseq (y 112%nat) 0) = (1, 2, 2, 2) /\
  (kstat (y 18%nat) 0, kstat (y 94%nat) 0, kstat (y 112%nat) 0) = (Undecided, Undecided, Succeeded).
Proof. exact mx_decided. Qed.
Example C49_example_values : forall v, client_value mx_torn v -> mval v.
Proof. exact mx_torn_values. Qed.

(** ** C50: a read returns a value, not a descriptor *)

(** In every execution a read returns 0 or a value that a call mentions as old or new; its flag bits are clear. *)
Theorem C50_reads_values : forall C n todos sched i o v, mcfg_ok C -> (forall v, client_value todos v -> mval v) ->
  MRes i o (MWord v) ∈ ms_hist (mafter C n mw_init todos sched) -> client_value todos v.
Proof. exact reads_known. Qed.
Print Assumptions C50_reads_values.

Example C50_example : let y := mafter mx_C mx_fuel mw_init mx_torn mx_torn_sched in
  ms_hist y = [MRes 0 (MwCas mx_ws) (MBool true); MRes 1 (MwRead 1) (MWord 0); MInv 1 (MwRead 1); MInv 0 (MwCas mx_ws)] /\
  ms_thr y = [mkMthread None []; mkMthread None []] /\ contents (ms_mem y) 0 = 8 /\ contents (ms_mem y) 1 = 0.
Proof. exact mx_torn_run. Qed.

(** ** C51: recovery completes or undoes the call that was interrupted *)

(** Full statement: the recovery of the memory that an execution leaves does not fail, and afterwards the words of an
    interrupted call have all their old or all their new values, and none of them is a reference to a descriptor.  False: the
    recovery can access a descriptor that does not exist, *)
Theorem C51_refuted_bounds : exists C n o m m',
  mcfg_ok C /\ (mfuel C <= n)%nat /\ legal_mop C o /\ mrun (mop_prog C n 0 o) mw_init = MOk (MBool true) m /\ mrun (mw_recover C n 0) m = MFail MOutOfBounds m'.
Proof. exact c51_bounds. Qed.
Print Assumptions C51_refuted_bounds.
(** and it can end with a descriptor in the array; the next read undoes half of the call. *)
Theorem C51_refuted_torn : exists C n ws k m1 rs m2,
  mcfg_ok C /\ (mfuel C <= n)%nat /\ legal_mop C (MwCas ws) /\
  mrun (mw_recover C n 0) (stopped C n mw_init (MwCas ws) k) = MOk tt m1 /\
  existsb is_ref (map (contents m1) (map o_off ws)) = true /\
  let reads := map (fun x => (0, MwRead (o_off x))) ws in
  run_calls C n reads m1 = Some (rs, m2) /\ rs <> map (fun x => MWord (o_old x)) ws /\ rs <> map (fun x => MWord (o_new x)) ws.
Proof. exact c51_torn. Qed.
Print Assumptions C51_refuted_torn.
(** Proved for memories in which no call is under way. *)
Theorem C51_quiescent_partial : forall C n me m, (N.to_nat (2 ^ m_log C) <= n)%nat -> quiescent C m ->
  exists m', mrun (mw_recover C n me) m = MOk tt m' /\ (forall j, contents m' j = contents m j) /\ quiescent C m'.
Proof. exact recover_quiescent. Qed.
Print Assumptions C51_quiescent_partial.

Example C51_example : quiescent mx_C mx_quiet /\ map (contents mx_quiet) [0; 1; 2; 3] = [8; 16; 0; 0] /\ (N.to_nat (2 ^ m_log mx_C) <= mx_fuel)%nat.
Proof. exact mx_quiescent. Qed.
