(** Concrete executions of the multi-word compare-and-swap. *)
From Coq Require Import NArith Bool List Lia.
From stdpp Require Import base list.
From Verif Require Import Word Codec CodecSpec MwCas MwSpec MwCalmSpec ConcWitness.
Import ListNotations.
Local Open Scope N_scope.

Definition mx_C : mcfg := mkMcfg 2 4 2 false.
Definition mx_fuel : nat := 20.
Definition mx_ws : list mword := [mkWord 0 0 8; mkWord 1 0 16].

Ltac value := split; [reflexivity|split; [reflexivity|split; reflexivity]].
Lemma mx_cfg : mcfg_ok mx_C /\ (mfuel mx_C <= mx_fuel)%nat.
Proof. split; [discriminate|apply Nat.leb_le; reflexivity]. Qed.
Lemma mx_legal : legal_mop mx_C (MwCas mx_ws).
Proof.
  split.
  - intros j [<-|[<-|[]]]; reflexivity.
  - split; [discriminate|]. split; [apply Nat.leb_le; reflexivity|]. split.
    + apply (bool_decide_unpack _). vm_compute. exact I.
    + repeat constructor; value.
Qed.

(** ** Calls one after another *)

Definition mx_calls : list (N * mop) :=
  [(0, MwCas mx_ws); (1, MwCas [mkWord 1 16 24; mkWord 3 0 32]); (2, MwCas [mkWord 2 0 40; mkWord 0 0 48]); (3, MwRead 1); (0, MwCas1 2 0 56); (1, MwRead 0)].
Lemma mx_calls_legal : Forall (fun x => fst x < 2 ^ m_log mx_C /\ legal_mop mx_C (snd x)) mx_calls.
Proof.
  repeat constructor; cbn [fst snd touches]; try (intros j Hj; cbn in Hj; intuition subst; reflexivity); try discriminate;
    try (apply Nat.leb_le; reflexivity); try reflexivity; try (apply (bool_decide_unpack _); vm_compute; exact I); try value.
Qed.
Lemma mx_calls_results : fst (mspecs (contents mw_init) (map snd mx_calls)) =
  [MBool true; MBool true; MBool false; MWord 24; MBool true; MWord 8].
Proof. reflexivity. Qed.
Lemma mx_init : (forall j, j < m_size mx_C -> mval (contents mw_init j)) /\ (forall t, t < 2 ^ m_log mx_C -> seqs_le mw_init t 0) /\
  0 + mcosts (map snd mx_calls) < 2 ^ seqSize (2 ^ m_log mx_C).
Proof. split; [intros j _; value|]. split; [intros t _; split; discriminate|reflexivity]. Qed.

(** ** Threads on different words *)

Definition mx_disjoint : list (list mop) := [[MwCas mx_ws; MwRead 0]; [MwCas1 2 0 8; MwCas [mkWord 2 8 16; mkWord 3 8 16]]].
Definition mx_disjoint_sched : list nat := segs [(0, 40); (1, 30); (0, 40); (1, 40); (0, 100); (1, 200)]%nat.
Lemma mx_disjoint_ok : N.of_nat (length mx_disjoint) <= 2 ^ m_log mx_C /\ Forall (Forall (legal_mop mx_C)) mx_disjoint /\ disjoint_todos mx_disjoint /\
  Forall (fun os => 0 + mcosts os < 2 ^ seqSize (2 ^ m_log mx_C)) mx_disjoint.
Proof.
  split; [discriminate|]. split; [|split].
  - repeat constructor; cbn [fst snd touches]; try (intros j Hj; cbn in Hj; intuition subst; reflexivity); try discriminate;
      try (apply Nat.leb_le; reflexivity); try reflexivity; try (apply (bool_decide_unpack _); vm_compute; exact I); try value.
  - intros i k os os' o o' j Hi Hk Ho Ho' Ht Ht'.
    assert (Hw : forall os o, (os = [MwCas mx_ws; MwRead 0] -> o ∈ os -> touches o j -> j < 2) /\
      (os = [MwCas1 2 0 8; MwCas [mkWord 2 8 16; mkWord 3 8 16]] -> o ∈ os -> touches o j -> 2 <= j)).
    { intros x y. split; intros -> Hy Hj; rewrite elem_of_list_In in Hy; destruct Hy as [<-|[<-|[]]]; cbn in Hj; intuition subst; lia. }
    destruct i as [|[|i]], k as [|[|k]]; try discriminate; try reflexivity; exfalso; injection Hi as <-; injection Hk as <-.
    + pose proof (proj1 (Hw _ o) eq_refl Ho Ht). pose proof (proj2 (Hw _ o') eq_refl Ho' Ht'). lia.
    + pose proof (proj2 (Hw _ o) eq_refl Ho Ht). pose proof (proj1 (Hw _ o') eq_refl Ho' Ht'). lia.
  - repeat constructor.
Qed.
Lemma mx_disjoint_run : let y := mafter mx_C mx_fuel mw_init mx_disjoint mx_disjoint_sched in
  mresults 0 (ms_hist y) = [MBool true; MWord 8] /\ mresults 1 (ms_hist y) = [MBool true; MBool false] /\ mdone y.
Proof. vm_compute. repeat constructor. Qed.

(** ** Threads on the same words at different times *)

Definition mx_calm_ws : list mword := [mkWord 1 16 24; mkWord 2 8 16].
Definition mx_calm : list (list mop) := [[MwCas mx_ws; MwRead 2]; [MwCas1 2 0 8; MwCas mx_calm_ws]].
Definition mx_calm_sched : list nat := segs [(0, 40); (1, 3); (0, 83); (1, 250); (0, 40)]%nat.
Lemma mx_calm_ok : N.of_nat (length mx_calm) <= 2 ^ m_log mx_C /\ Forall (Forall (legal_mop mx_C)) mx_calm /\
  Forall (fun os => 0 + mcosts os < 2 ^ seqSize (2 ^ m_log mx_C)) mx_calm.
Proof.
  split; [discriminate|]. split.
  - repeat constructor; cbn [fst snd touches]; try (intros j Hj; cbn in Hj; intuition subst; reflexivity); try discriminate;
      try (apply Nat.leb_le; reflexivity); try reflexivity; try (apply (bool_decide_unpack _); vm_compute; exact I); try value.
  - repeat constructor.
Qed.
Lemma mx_calm_run : let y := mafter mx_C mx_fuel mw_init mx_calm mx_calm_sched in
  ms_hist y = [MRes 0 (MwRead 2) (MWord 16); MInv 0 (MwRead 2); MRes 1 (MwCas mx_calm_ws) (MBool true); MInv 1 (MwCas mx_calm_ws);
    MRes 1 (MwCas1 2 0 8) (MBool true); MRes 0 (MwCas mx_ws) (MBool true); MInv 1 (MwCas1 2 0 8); MInv 0 (MwCas mx_ws)] /\
  calm (ms_hist y) /\ map (contents (ms_mem y)) [0; 1; 2; 3] = [8; 24; 16; 0].
Proof.
  cbv zeta. assert (E : ms_hist (mafter mx_C mx_fuel mw_init mx_calm mx_calm_sched) =
    [MRes 0 (MwRead 2) (MWord 16); MInv 0 (MwRead 2); MRes 1 (MwCas mx_calm_ws) (MBool true); MInv 1 (MwCas mx_calm_ws);
    MRes 1 (MwCas1 2 0 8) (MBool true); MRes 0 (MwCas mx_ws) (MBool true); MInv 1 (MwCas1 2 0 8); MInv 0 (MwCas mx_ws)]) by (vm_compute; reflexivity).
  split; [exact E|]. split; [rewrite E; clear E|vm_compute; reflexivity].
  cbn [calm]. repeat split; intros k o' j Hk Hr Ht Ht'; destruct k as [|[|k]]; cbn in Hr; try congruence; injection Hr as <-; cbn in Ht, Ht'; intuition congruence.
Qed.

(** ** A read destroys a successful compare-and-swap *)

(** Thread 0 has decided that it succeeded and has installed the first word when thread 1 reads the second one, finds the
    descriptor there and helps: it sees the first word changed, takes this for a failure, does not notice that the status was
    decided otherwise, and puts the old value back into the second word.  Thread 0 still reports success. *)
Definition mx_torn : list (list mop) := [[MwCas mx_ws]; [MwRead 1]].
Definition mx_torn_sched : list nat := segs [(0, 112); (1, 300); (0, 100)]%nat.
Lemma mx_torn_run : let y := mafter mx_C mx_fuel mw_init mx_torn mx_torn_sched in
  ms_hist y = [MRes 0 (MwCas mx_ws) (MBool true); MRes 1 (MwRead 1) (MWord 0); MInv 1 (MwRead 1); MInv 0 (MwCas mx_ws)] /\
  ms_thr y = [mkMthread None []; mkMthread None []] /\ contents (ms_mem y) 0 = 8 /\ contents (ms_mem y) 1 = 0.
Proof. vm_compute. repeat split. Qed.
Lemma mx_torn_legal : Forall (Forall (legal_mop mx_C)) mx_torn.
Proof.
  repeat constructor; cbn [fst snd touches]; try (intros j Hj; cbn in Hj; intuition subst; reflexivity); try discriminate;
    try (apply Nat.leb_le; reflexivity); try reflexivity; try (apply (bool_decide_unpack _); vm_compute; exact I); try value.
Qed.
Lemma mx_torn_values v : client_value mx_torn v -> mval v.
Proof.
  intros [->|(os & o & Hos & Ho & Hv)]; [value|]. rewrite elem_of_list_In in Hos. rewrite elem_of_list_In in Ho.
  destruct Hos as [<-|[<-|[]]]; destruct Ho as [<-|[]]; [|contradiction]. destruct Hv as (x & [<-|[<-|[]]] & [->| ->]); value.
Qed.

Lemma c48_refuted : exists C n todos sched i ws x,
  mcfg_ok C /\ (mfuel C <= n)%nat /\ Forall (Forall (legal_mop C)) todos /\ (forall v, client_value todos v -> mval v) /\
  todos !! i = Some [MwCas ws] /\ In x ws /\
  (forall k os o, todos !! k = Some os -> o ∈ os -> writes o (o_off x) -> k = i) /\
  let y := mafter C n mw_init todos sched in
  mdone y /\ In (MRes i (MwCas ws) (MBool true)) (ms_hist y) /\ contents (ms_mem y) (o_off x) <> o_new x.
Proof.
  exists mx_C, mx_fuel, mx_torn, mx_torn_sched, 0%nat, mx_ws, (mkWord 1 0 16).
  split; [apply mx_cfg|]. split; [apply mx_cfg|]. split; [exact mx_torn_legal|]. split; [exact mx_torn_values|]. split; [reflexivity|].
  split; [right; left; reflexivity|]. split.
  - intros k os o Hk Ho Hw. destruct k as [|[|k]]; [reflexivity| |discriminate]. injection Hk as <-. rewrite elem_of_list_In in Ho. destruct Ho as [<-|[]]. contradiction.
  - destruct mx_torn_run as (E1 & E2 & _ & E3). cbn zeta. split; [unfold mdone; rewrite E2; repeat constructor|]. split; [rewrite E1; left; reflexivity|].
    cbn [o_off o_new]. rewrite E3. discriminate.
Qed.

(** ** The status is decided *)

Lemma mx_decided : let y k := ms_mem (mafter mx_C mx_fuel mw_init mx_torn (replicate k 0%nat)) in
  (kseq (y 5%nat) 0, kseq (y 18%nat) 0, kseq (y 94%nat) 0, kseq (y 112%nat) 0) = (1, 2, 2, 2) /\
  (kstat (y 18%nat) 0, kstat (y 94%nat) 0, kstat (y 112%nat) 0) = (Undecided, Undecided, Succeeded).
Proof. vm_compute. split; reflexivity. Qed.

(** ** Recovery *)

Definition oerr {A} (o : moutcome A) : option merr := match o with MOk _ _ => None | MFail e _ => Some e end.
Lemma oerr_fail {A} (o : moutcome A) e : oerr o = Some e -> exists m, o = MFail e m.
Proof. destruct o as [a m|e' m]; [discriminate|]. intros [= ->]. exists m. reflexivity. Qed.
Lemma oerr_ok {A} (o : moutcome A) : oerr o = None -> exists a m, o = MOk a m.
Proof. destruct o as [a m|e' m]; [|discriminate]. intros _. exists a, m. reflexivity. Qed.

Definition mx_C1 : mcfg := mkMcfg 0 4 2 false.
(** One thread, and one completed call: the recovery reads a second descriptor. *)
Lemma c51_bounds : exists C n o m m',
  mcfg_ok C /\ (mfuel C <= n)%nat /\ legal_mop C o /\ mrun (mop_prog C n 0 o) mw_init = MOk (MBool true) m /\ mrun (mw_recover C n 0) m = MFail MOutOfBounds m'.
Proof.
  set (o := MwCas [mkWord 0 0 8]).
  assert (E : match mrun (mop_prog mx_C1 10 0 o) mw_init with MOk (MBool true) m => oerr (mrun (mw_recover mx_C1 10 0) m) = Some MOutOfBounds | _ => False end)
    by (vm_compute; reflexivity).
  destruct (mrun (mop_prog mx_C1 10 0 o) mw_init) as [[[|]|] m|] eqn:E'; try contradiction. apply oerr_fail in E as [m' E].
  exists mx_C1, 10%nat, o, m, m'. split; [discriminate|]. split; [apply Nat.leb_le; reflexivity|]. split; [|split; assumption].
  split; [intros j [<-|[]]; reflexivity|]. split; [discriminate|]. split; [apply Nat.leb_le; reflexivity|].
  split; [apply (bool_decide_unpack _); vm_compute; exact I|]. repeat constructor; value.
Qed.
(** The call stops when it has installed the first of two words. *)
Lemma c51_torn : exists C n ws k m1 rs m2,
  mcfg_ok C /\ (mfuel C <= n)%nat /\ legal_mop C (MwCas ws) /\
  mrun (mw_recover C n 0) (stopped C n mw_init (MwCas ws) k) = MOk tt m1 /\
  existsb is_ref (map (contents m1) (map o_off ws)) = true /\
  let reads := map (fun x => (0, MwRead (o_off x))) ws in
  run_calls C n reads m1 = Some (rs, m2) /\ rs <> map (fun x => MWord (o_old x)) ws /\ rs <> map (fun x => MWord (o_new x)) ws.
Proof.
  assert (E : match mrun (mw_recover mx_C mx_fuel 0) (stopped mx_C mx_fuel mw_init (MwCas mx_ws) 112) with
    | MOk tt m1 => existsb is_ref (map (contents m1) (map o_off mx_ws)) = true /\
        option_map fst (run_calls mx_C mx_fuel (map (fun x => (0, MwRead (o_off x))) mx_ws) m1) = Some [MWord 8; MWord 0]
    | _ => False end) by (vm_compute; split; reflexivity).
  destruct (mrun _ _) as [[] m1|] eqn:E'; [|contradiction]. destruct E as [E1 E2].
  destruct (run_calls mx_C mx_fuel _ m1) as [[rs m2]|] eqn:E3; [|discriminate]. injection E2 as ->.
  exists mx_C, mx_fuel, mx_ws, 112%nat, m1, [MWord 8; MWord 0], m2. split; [apply mx_cfg|]. split; [apply mx_cfg|]. split; [exact mx_legal|].
  split; [exact E'|]. split; [exact E1|]. split; [exact E3|]. split; discriminate.
Qed.

Lemma below4 t : t < 4 -> t = 0 \/ t = 1 \/ t = 2 \/ t = 3.
Proof. lia. Qed.
(** After a call that has returned. *)
Definition mx_quiet : mem := stopped mx_C mx_fuel mw_init (MwCas mx_ws) 200.
Lemma mx_quiescent : quiescent mx_C mx_quiet /\ map (contents mx_quiet) [0; 1; 2; 3] = [8; 16; 0; 0] /\ (N.to_nat (2 ^ m_log mx_C) <= mx_fuel)%nat.
Proof.
  split; [|split; [vm_compute; reflexivity|apply Nat.leb_le; reflexivity]]. split.
  - intros j Hj. apply below4 in Hj. destruct Hj as [->|[->|[->| ->]]]; vm_compute; repeat split.
  - intros j Hj. apply below4 in Hj. destruct Hj as [->|[->|[->| ->]]]; vm_compute; reflexivity.
  - intros j Hj. apply below4 in Hj. destruct Hj as [->|[->|[->| ->]]]; vm_compute; reflexivity.
  - intros j Hj. apply below4 in Hj. destruct Hj as [->|[->|[->| ->]]]; vm_compute; discriminate.
  - exists 1. vm_compute. split; [reflexivity|discriminate].
Qed.

(** Calls outside the conditions: a word named twice, and one thread more than there are descriptors. *)
Definition mx_fails (C : mcfg) (todos : list (list mop)) (i : nat) : option merr :=
  match ms_thr (mafter C mx_fuel mw_init todos (replicate 40 i)) !! i with Some (mkMthread (Some (_, MErr e)) _) => Some e | _ => None end.
Lemma mx_torn_ok : Forall (Forall (legal_mop mx_C)) mx_torn /\ (forall v, client_value mx_torn v -> mval v) /\ mcfg_ok mx_C /\ 0 < m_size mx_C /\
  N.of_nat (length mx_torn) <= 2 ^ m_log mx_C /\ m_ndebug mx_C = false.
Proof. split; [exact mx_torn_legal|]. split; [exact mx_torn_values|]. split; [apply mx_cfg|]. split; [reflexivity|]. split; [discriminate|reflexivity]. Qed.
Lemma mx_outside : mx_fails mx_C [[MwCas [mkWord 0 0 8; mkWord 0 0 8]]] 0 = Some MAssertFail /\
  mx_fails mx_C1 [[]; [MwCas mx_ws]] 1 = Some MAssertFail /\ mx_fails (mkMcfg 0 4 2 true) [[]; [MwCas mx_ws]] 1 = Some MOutOfBounds /\
  mx_fails mx_C [[MwRead 4]] 0 = Some MOutOfBounds.
Proof. vm_compute. repeat split. Qed.
