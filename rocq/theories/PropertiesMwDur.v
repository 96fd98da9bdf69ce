(** What a crash leaves of the calls of the multi-word compare-and-swap. *)
From Coq Require Import NArith Bool List.
From stdpp Require Import base list.
From Verif Require Import Word Codec CodecSpec MwCas MwSpec MwWitness MwDurSpec MwDur MwDurConc MwDurWitness.
Import ListNotations.
Local Open Scope N_scope.

(** ** C71: what the multi-word compare-and-swap has done, and what was read, survives a crash *)

(** A multi-word call that runs alone and finds its old values: when it returns, every word that a crash may leave of the words
    it names is the new value, whatever was flushed before. *)
Theorem C71_call_partial : forall C n me ws b s, mcfg_ok C -> (mfuel C <= n)%nat -> (forall j, j < m_size C -> mval (contents (ds_mem s) j)) ->
  (forall t, t < 2 ^ m_log C -> seqs_le (ds_mem s) t b) -> me < 2 ^ m_log C -> legal_mop C (MwCas ws) -> b + mcost (MwCas ws) < 2 ^ seqSize (2 ^ m_log C) ->
  all_match (contents (ds_mem s)) ws = true ->
  exists s', drun (PMwCAS C n me ws) s = DOk true s' /\ forall x v, In x ws -> v ∈ ds_per s' (LArr (o_off x)) -> clean v = o_new x.
Proof. exact call_outcome. Qed.
Print Assumptions C71_call_partial.
Example C71_call_example : mcfg_ok mx_C /\ (mfuel mx_C <= mx_fuel)%nat /\ (forall j, j < m_size mx_C -> mval (contents (ds_mem (dstart mw_init)) j)) /\
  (forall t, t < 2 ^ m_log mx_C -> seqs_le (ds_mem (dstart mw_init)) t 0) /\ legal_mop mx_C (MwCas mx_ws) /\
  0 + mcost (MwCas mx_ws) < 2 ^ seqSize (2 ^ m_log mx_C) /\ all_match (contents (ds_mem (dstart mw_init))) mx_ws = true.
Proof. exact dx_call. Qed.

(** A multi-word call that runs alone and returns true, from any memory, with calls of other threads under way or not: its words
    survive as they are when it returns. *)
Theorem C71_alone_partial : forall C n me ws s s', mcfg_ok C -> drun (PMwCAS C n me ws) s = DOk true s' ->
  forall x, In x ws -> survives s' (LArr (o_off x)).
Proof. exact call_survives. Qed.
Print Assumptions C71_alone_partial.
Example C71_alone_example : match drun (PMwCAS mx_C mx_fuel 0 mx_ws) (dstart mw_init) with
  | DOk r s => r = true /\ ds_per s (LArr 0) = [9] /\ ds_per s (LArr 1) = [17] /\ ds_per s (LArr 2) = [0]
  | DFail _ _ => False
  end.
Proof. exact dx_call_run. Qed.

(** A multi-word call that other threads disturb, in any execution, and that is about to return true: then and at any later time,
    whatever a crash leaves of its words was there at a moment when the call had been decided. *)
Theorem C71_decided_partial : forall C n m todos sched, mcfg_ok C -> let y := dafter C n true m todos sched in
  forall i ws os, dy_thr y !! i = Some (mkMthread (Some (MwCas ws, MRet (MBool true))) os) ->
  forall more x v, In x ws -> v ∈ ds_per (dy_st (dafter C n true m todos (sched ++ more))) (LArr (o_off x)) ->
  exists k, let z := ds_mem (dy_st (dafter C n true m todos (take k (sched ++ more)))) in z (LArr (o_off x)) = v /\
    ((length sched <= k)%nat \/ kseq z (N.of_nat i) = kseq (ds_mem (dy_st y)) (N.of_nat i) /\ kstat z (N.of_nat i) <> Undecided).
Proof. exact decided_forever. Qed.
Print Assumptions C71_decided_partial.
(** Another thread helps the call and then changes one of its words. *)
Example C71_decided_example : let y := dafter mx_C mx_fuel true mw_init dx_todos3 dx_sched3 in
  dy_thr y !! 0%nat = Some (mkMthread (Some (MwCas mx_ws, MRet (MBool true))) []) /\ mresults 1 (dy_hist y) = [MWord 8; MBool true] /\ ds_per (dy_st y) (LArr 0) = [24] /\
  ds_per (dy_st y) (LArr 1) = [16].
Proof. exact dx_helped. Qed.

(** And a crash leaves the decision itself. *)
Theorem C71_decision_partial : forall C n m todos sched, mcfg_ok C -> let y := dafter C n true m todos sched in
  forall i ws os, dy_thr y !! i = Some (mkMthread (Some (MwCas ws, MRet (MBool true))) os) ->
  kstat (ds_mem (dy_st y)) (N.of_nat i) <> Undecided /\ survives (dy_st y) (LK (N.of_nat i)).
Proof. exact decision_survives. Qed.
Print Assumptions C71_decision_partial.
(** The example of the previous theorem is one of this one too. *)
Example C71_decision_example : let y := dafter mx_C mx_fuel true mw_init dx_todos3 dx_sched3 in
  map (fun v => (kmut_decode v).(km_status)) (ds_per (dy_st y) (LK 0)) = map (fun _ => Succeeded) (ds_per (dy_st y) (LK 0)) /\ ds_per (dy_st y) (LK 0) <> [].
Proof. exact dx_decision. Qed.

(** A read that runs alone, from any memory in which cells without the dirty flag survive: the value it returns survives. *)
Theorem C71_read_partial : forall C n me j s v s', mcfg_ok C -> clean_survive s -> drun (PMwCASRead C n me (LArr j)) s = DOk v s' ->
  contents (ds_mem s') j = v /\ survives s' (LArr j).
Proof. exact read_survives. Qed.
Print Assumptions C71_read_partial.
(** The read flushes a word that a single-word compare-and-swap has left dirty. *)
Example C71_read_example : clean_survive (dstart mw_init) /\
  match drun (mwCAS mx_C mx_fuel 0 (LArr 0) 0 8) (dstart mw_init) with
  | DOk r s => r = (true, 0) /\ ds_per s (LArr 0) = [9; 0] /\
      match drun (PMwCASRead mx_C mx_fuel 1 (LArr 0)) s with DOk v s' => v = 8 /\ ds_per s' (LArr 0) = [8; 9] | DFail _ _ => False end
  | DFail _ _ => False
  end.
Proof. exact dx_read_run. Qed.

(** Several threads, any calls: if no thread comes between a flush and the compare-and-swap that clears the dirty flag, cells
    without the flag always survive. *)
Theorem C71_flag_partial : forall C n m todos sched, mcfg_ok C -> clean_survive (dy_st (dafter C n false m todos sched)).
Proof. exact always_clean_survive. Qed.
Print Assumptions C71_flag_partial.
Example C71_flag_example : let y := dafter mx_C mx_fuel false mw_init dx_todos dx_sched2 in
  mresults 1 (dy_hist y) = [MWord 8; MWord 8] /\ isMarked (ds_mem (dy_st y) (LArr 0)) DirtyFlag = false /\ ds_per (dy_st y) (LArr 0) = [8; 9].
Proof. exact dx_whole. Qed.

(** If one does, it is false: a word may be changed and changed back there, and then has no flag but was not flushed. *)
Theorem C71_flag_refuted : exists C n todos sched, Forall (Forall (legal_mop C)) todos /\ ~ clean_survive (dy_st (dafter C n true mw_init todos sched)).
Proof. exact flag_refuted. Qed.
Print Assumptions C71_flag_refuted.

(** So the value of a read may be lost, even of one that starts after every other call has returned. *)
Theorem C71_read_refuted : exists C n todos sched sched', let y := dafter C n true mw_init todos sched in let y' := dconc C n true sched' y in
  dy_thr y = [mkMthread None []; mkMthread None [MwRead 0]] /\ mresults 1 (dy_hist y') = [MWord 8; MWord 8] /\ 16 ∈ ds_per (dy_st y') (LArr 0).
Proof. exact read_refuted. Qed.
Print Assumptions C71_read_refuted.

(** A single-word compare-and-swap may be lost after it has returned true: it leaves its word dirty. *)
Theorem C71_cas_refuted : exists C n todos sched, let y := dafter C n true mw_init todos sched in
  mresults 0 (dy_hist y) = [MBool true] /\ contents (ds_mem (dy_st y)) 0 = 8 /\ 0 ∈ ds_per (dy_st y) (LArr 0).
Proof. exact cas_refuted. Qed.
Print Assumptions C71_cas_refuted.
