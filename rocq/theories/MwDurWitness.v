(** Concrete executions of the multi-word compare-and-swap with a crash. *)
From Coq Require Import NArith Bool List Lia.
From stdpp Require Import base list.
From Verif Require Import Word Codec CodecSpec MwCas MwSpec MwWitness MwDurSpec MwDur ConcWitness.
Import ListNotations.
Local Open Scope N_scope.

Lemma dx_call : mcfg_ok mx_C /\ (mfuel mx_C <= mx_fuel)%nat /\ (forall j, j < m_size mx_C -> mval (contents (ds_mem (dstart mw_init)) j)) /\
  (forall t, t < 2 ^ m_log mx_C -> seqs_le (ds_mem (dstart mw_init)) t 0) /\ legal_mop mx_C (MwCas mx_ws) /\
  0 + mcost (MwCas mx_ws) < 2 ^ seqSize (2 ^ m_log mx_C) /\ all_match (contents (ds_mem (dstart mw_init))) mx_ws = true.
Proof.
  split; [exact (proj1 mx_cfg)|]. split; [exact (proj2 mx_cfg)|]. split; [exact (proj1 mx_init)|]. split; [exact (proj1 (proj2 mx_init))|]. split; [exact mx_legal|].
  split; reflexivity.
Qed.
Lemma dx_call_run : match drun (PMwCAS mx_C mx_fuel 0 mx_ws) (dstart mw_init) with
  | DOk r s => r = true /\ ds_per s (LArr 0) = [9] /\ ds_per s (LArr 1) = [17] /\ ds_per s (LArr 2) = [0]
  | DFail _ _ => False
  end.
Proof. vm_compute. auto. Qed.

Lemma dx_read_run : clean_survive (dstart mw_init) /\
  match drun (mwCAS mx_C mx_fuel 0 (LArr 0) 0 8) (dstart mw_init) with
  | DOk r s => r = (true, 0) /\ ds_per s (LArr 0) = [9; 0] /\
      match drun (PMwCASRead mx_C mx_fuel 1 (LArr 0)) s with DOk v s' => v = 8 /\ ds_per s' (LArr 0) = [8; 9] | DFail _ _ => False end
  | DFail _ _ => False
  end.
Proof. split; [apply clean_survive_start|]. vm_compute. auto. Qed.

(** A single-word compare-and-swap returns before its word is flushed. *)
Definition dx_one : list (list mop) := [[MwCas1 0 0 8]].
Lemma dx_one_run : let y := dafter mx_C mx_fuel true mw_init dx_one (replicate 10 0%nat) in
  mresults 0 (dy_hist y) = [MBool true] /\ contents (ds_mem (dy_st y)) 0 = 8 /\ 0 ∈ ds_per (dy_st y) (LArr 0).
Proof. vm_compute. split; [reflexivity|]. split; [reflexivity|]. right. left. Qed.

(** A thread reads the dirty word 8 and flushes it; another one changes it to 16 and back to 8; then the first one clears the
    flag, and the last change is not flushed. *)
Definition dx_todos : list (list mop) := [[MwCas1 0 0 8; MwCas1 0 8 16; MwCas1 0 16 8]; [MwRead 0; MwRead 0]].
Definition dx_sched1 : list nat := segs [(0, 4); (1, 3); (0, 30); (1, 2)]%nat.
Lemma dx_back : let y := dafter mx_C mx_fuel true mw_init dx_todos dx_sched1 in
  Forall (Forall (legal_mop mx_C)) dx_todos /\ isMarked (ds_mem (dy_st y) (LArr 0)) DirtyFlag = false /\ contents (ds_mem (dy_st y)) 0 = 8 /\
  16 ∈ ds_per (dy_st y) (LArr 0).
Proof.
  split.
  { repeat constructor; cbn [touches]; try (intros j Hj; cbn in Hj; subst; reflexivity); try value. }
  vm_compute. split; [reflexivity|]. split; [reflexivity|]. first [left | right; left | right; right; left].
Qed.
Lemma dx_back_read : let y := dafter mx_C mx_fuel true mw_init dx_todos dx_sched1 in
  let y' := dconc mx_C mx_fuel true (replicate 10 1%nat) y in
  dy_thr y = [mkMthread None []; mkMthread None [MwRead 0]] /\ mresults 1 (dy_hist y') = [MWord 8; MWord 8] /\ 16 ∈ ds_per (dy_st y') (LArr 0).
Proof. vm_compute. split; [reflexivity|]. split; [reflexivity|]. first [left | right; left | right; right; left]. Qed.
(** In one step each. *)
Definition dx_sched2 : list nat := segs [(0, 4); (1, 2); (0, 30); (1, 2); (1, 10)]%nat.
Lemma dx_whole : let y := dafter mx_C mx_fuel false mw_init dx_todos dx_sched2 in
  mresults 1 (dy_hist y) = [MWord 8; MWord 8] /\ isMarked (ds_mem (dy_st y) (LArr 0)) DirtyFlag = false /\ ds_per (dy_st y) (LArr 0) = [8; 9].
Proof. vm_compute. auto. Qed.
Lemma flag_refuted : exists C n todos sched, Forall (Forall (legal_mop C)) todos /\ ~ clean_survive (dy_st (dafter C n true mw_init todos sched)).
Proof.
  exists mx_C, mx_fuel, dx_todos, dx_sched1. destruct dx_back as (H1 & H2 & H3 & H4). split; [exact H1|]. intros H. specialize (H (LArr 0) I H2 _ H4).
  unfold contents in H3. rewrite H3 in H. vm_compute in H. discriminate.
Qed.
Lemma read_refuted : exists C n todos sched sched', let y := dafter C n true mw_init todos sched in let y' := dconc C n true sched' y in
  dy_thr y = [mkMthread None []; mkMthread None [MwRead 0]] /\ mresults 1 (dy_hist y') = [MWord 8; MWord 8] /\ 16 ∈ ds_per (dy_st y') (LArr 0).
Proof. exists mx_C, mx_fuel, dx_todos, dx_sched1, (replicate 10 1%nat). exact dx_back_read. Qed.
Lemma cas_refuted : exists C n todos sched, let y := dafter C n true mw_init todos sched in
  mresults 0 (dy_hist y) = [MBool true] /\ contents (ds_mem (dy_st y)) 0 = 8 /\ 0 ∈ ds_per (dy_st y) (LArr 0).
Proof. exists mx_C, mx_fuel, dx_one, (replicate 10 0%nat). exact dx_one_run. Qed.

(** A thread that reads helps a call in the middle, and then changes a word of it, which the call flushes in the end. *)
Definition dx_todos3 : list (list mop) := [[MwCas mx_ws]; [MwRead 0; MwCas1 0 8 24]].
Definition dx_sched3 : list nat := segs [(0, 80); (1, 400); (0, 41)]%nat.
Lemma dx_helped : let y := dafter mx_C mx_fuel true mw_init dx_todos3 dx_sched3 in
  dy_thr y !! 0%nat = Some (mkMthread (Some (MwCas mx_ws, MRet (MBool true))) []) /\ mresults 1 (dy_hist y) = [MWord 8; MBool true] /\ ds_per (dy_st y) (LArr 0) = [24] /\
  ds_per (dy_st y) (LArr 1) = [16].
Proof. vm_compute. auto. Qed.
Lemma dx_decision : let y := dafter mx_C mx_fuel true mw_init dx_todos3 dx_sched3 in
  map (fun v => (kmut_decode v).(km_status)) (ds_per (dy_st y) (LK 0)) = map (fun _ => Succeeded) (ds_per (dy_st y) (LK 0)) /\ ds_per (dy_st y) (LK 0) <> [].
Proof. vm_compute. split; [reflexivity|discriminate]. Qed.
