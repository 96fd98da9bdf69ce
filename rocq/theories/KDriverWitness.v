(** Concrete runs of the test program with its own constants. *)
From Coq Require Import NArith Bool List Permutation.
From stdpp Require Import base list.
From Verif Require Import Word Codec MwCas MwSpec KDriver.
Import ListNotations.
Local Open Scope N_scope.

(** 8 threads, 1024 words (KCAS/define.hpp:11-12), at most 64 words in a call (KCAS/main.cpp:8); assertions are enabled. *)
Definition kd_C : mcfg := mkMcfg 3 1024 64 false.
Definition kd_fuel : nat := 67.
Lemma kd_cfg : mcfg_ok kd_C /\ (mfuel kd_C <= kd_fuel)%nat /\ (0 < m_K kd_C)%nat /\ m_size kd_C <> 0.
Proof. repeat split; discriminate || (unfold mfuel; cbn; apply Nat.leb_le; reflexivity). Qed.
Lemma kd_perm : forall s : list N, Permutation (id s) s.
Proof. reflexivity. Qed.
(** NUM_OPS is 10000 (KCAS/define.hpp:13). *)
Lemma kd_init : (forall j, j < m_size kd_C -> mval (contents mw_init j)) /\ seqs_le mw_init 0 0 /\
  0 + 2 * N.of_nat (N.to_nat 10000 * m_K kd_C) < 2 ^ seqSize (2 ^ m_log kd_C).
Proof.
  split; [intros j _; vm_compute; repeat split|]. split; [vm_compute; split; discriminate|].
  rewrite Nat2N.inj_mul, N2Nat.id. vm_compute. reflexivity.
Qed.

(** Two indexes, one of them drawn twice; the second new value has the sign bit of an int. *)
Definition kd_rands : list N := [1; 7; 1031; 9; 3; 2 ^ 28; 0; 7; 5].
Definition kd_calls : list (list mword * bool) :=
  [([mkWord 9 0 24; mkWord 7 0 0xffffffff80000000], true); ([mkWord 7 0xffffffff80000000 40], true)].
Lemma kd_run : match mrun (performOps kd_C kd_fuel 0 false id 2 kd_rands) mw_init with
  | MOk (DOk l) m => l = kd_calls /\ contents m 9 = 24 /\ contents m 7 = 40 | _ => False end.
Proof. vm_compute. repeat split. Qed.

(** A shift of 2^29. *)
Lemma kd_undefined : exists C n order rs m, mcfg_ok C /\ (mfuel C <= n)%nat /\ (forall s, Permutation (order s) s) /\ Forall (fun r => r < 2 ^ 31) rs /\
  mrun (performOps C n 0 false order 1 rs) mw_init = MOk DUndefined m.
Proof.
  destruct (mrun (performOps kd_C kd_fuel 0 false id 1 [0; 5; 2 ^ 29]) mw_init) as [r m|e m] eqn:E; [|exfalso].
  - exists kd_C, kd_fuel, id, [0; 5; 2 ^ 29], m. destruct kd_cfg as (A & B & _). split; [exact A|]. split; [exact B|]. split; [exact kd_perm|]. split; [repeat constructor|].
    assert (Er : r = DUndefined); [|rewrite Er in E; exact E].
    change (match MOk r m with MOk r' _ => r' = DUndefined | _ => False end). rewrite <- E. vm_compute. reflexivity.
  - change (match @MFail (dres (list (list mword * bool))) e m with MOk r' _ => True | _ => False end). rewrite <- E. vm_compute. exact I.
Qed.

(** Two threads that run in turn. *)
Definition kd_sched : list nat := concat (replicate 400 [0%nat; 1%nat]).
Lemma kd_conc : let y := dconc kd_sched (driver kd_C kd_fuel 1 false id [[0; 5; 1]; [1; 5; 6; 2; 3]]) in
  snd y = [MRet (DOk [([mkWord 5 0 8], true)]); MRet (DOk [([mkWord 6 0 16; mkWord 5 0 24], false)])].
Proof. vm_compute. reflexivity. Qed.
