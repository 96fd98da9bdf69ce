(** What a crash leaves of values that have been read when the map grows. *)
From Coq Require Import NArith Bool List Lia.
From stdpp Require Import base list.
From Verif Require Import Word Bits Prog HashMap Conc Spec ConcSpec Examples ConcInv ConcCmd ConcProg ConcThm ConcWitness CrashConcWitness.
Import ListNotations.
Open Scope nat_scope.

Section Frozen.
Context (C : cfg) (cap ppl n : nat) (maxcap : N) (todos : list (list op)).
Hypothesis Hc : good_cap cap maxcap.
Hypothesis Hl : Forall (Forall legal_op) todos.
Let at_ (sched : list nat) : sys := after C n (init_state cap ppl maxcap) todos sched.

(** A value marked for migration, in memory or in a crash image, means that the table has a successor. *)
Lemma marked_new sched t T v i p : st_tabs (sy_st (at_ sched)) !! t = Some T -> hist_entry T v i = Some p ->
  isMarked (snd p) MigrationFlag = true -> t_new T <> None.
Proof.
  intros HT Hp. pose proof (tabs_ok _ _ _ _ (after_inv C cap ppl n maxcap todos Hc Hl sched) HT) as (_ & _ & _ & _ & _ & _ & _ & _ & _ & A10).
  unfold hist_entry in Hp. destruct (versions T !! v) as [ps|] eqn:E; [|discriminate].
  exact (Forall_lookup_1 _ _ _ _ (A10 ps (proj1 (elem_of_list_In _ _) (elem_of_list_lookup_2 _ _ _ E))) Hp).
Qed.

Lemma crash_marked_new sched t T img i p : st_tabs (sy_st (at_ sched)) !! t = Some T -> crash_table (sy_st (at_ sched)) t img ->
  img !! i = Some p -> isMarked (snd p) MigrationFlag = true -> t_new T <> None.
Proof.
  intros HT Himg Hp. pose proof (crash_table_entry _ _ _ _ _ _ (after_inv C cap ppl n maxcap todos Hc Hl sched) Himg Hp) as (T' & b & v & ps & HT' & _ & _ & Hv & Hpi).
  assert (E : Some T' = Some T) by (rewrite <- HT, <- HT'; reflexivity). injection E as ->.
  apply (marked_new sched t T v i); [exact HT|]. unfold hist_entry. rewrite Hv. exact Hpi.
Qed.
End Frozen.

Lemma c55_until_growth : forall C cap ppl n maxcap todos sched h1 h2 i k v,
  good_cap cap maxcap -> Forall (Forall legal_op) todos ->
  let at_ sched := after C n (init_state cap ppl maxcap) todos sched in
  sy_hist (at_ sched) = h1 ++ ERes i (OGet k) (RVal v) :: h2 -> v <> NOTFOUND ->
  exists t j, forall sched2 img T, crash_table (sy_st (at_ (sched ++ sched2))) t img ->
    st_tabs (sy_st (at_ (sched ++ sched2))) !! t = Some T ->
    exists p, img !! j = Some p /\ same_word (fst p) k /\
      (isMarked (snd p) MigrationFlag = true -> t_new T <> None) /\
      (never_returns T j -> exists a b q, hist_entry T a j = Some q /\ same_word (snd q) v /\ a <= b /\ hist_entry T b j = Some p).
Proof.
  intros C cap ppl n maxcap todos sched h1 h2 i k v Hc Hl at_ Hh Hv.
  destruct (c24_durable C cap ppl n maxcap todos sched h1 h2 i k v Hc Hl Hh Hv) as (t & j & H). exists t, j.
  intros sched2 img T Himg HT. destruct (H sched2 img Himg) as (p & Hp & Hk & Hval). exists p. split; [exact Hp|]. split; [exact Hk|].
  split; [|intros Hn; exact (Hval T HT Hn)]. exact (crash_marked_new C cap ppl n maxcap todos Hc Hl _ t T img j p HT Himg Hp).
Qed.

Lemma c55_frozen : forall C cap ppl n maxcap todos sched t T i p,
  good_cap cap maxcap -> Forall (Forall legal_op) todos ->
  let s := sy_st (after C n (init_state cap ppl maxcap) todos sched) in
  st_tabs s !! t = Some T -> t_pairs T !! i = Some p -> isMarked (snd p) MigrationFlag = true -> t_new T <> None.
Proof.
  intros C cap ppl n maxcap todos sched t T i p Hc Hl s HT Hp.
  apply (marked_new C cap ppl n maxcap todos Hc Hl sched t T (length (t_past T)) i p HT).
  unfold hist_entry. rewrite versions_last. exact Hp.
Qed.

(** ** A crash after the map has grown loses a value that has been read *)

Definition w55_ops : list op := (map (fun k => OPut k 80) w19_keys ++ [OGet 468; OPut 24 88])%N.
Definition w55_y : sys := cw_after [w55_ops] [(0, 2000)].
Definition w55_imgs : list (list pair_) :=
  [pick_image (sy_st w55_y) 0 (fun _ => match st_tabs (sy_st w55_y) !! 0 with Some T => length (t_past T) | None => 0 end);
   oldest_image (sy_st w55_y) 1].

Definition lostb (k : N) (img : list pair_) : bool :=
  forallb (fun p => negb (clearMark (fst p) DirtyFlag =? k)%N || (payload (snd p) =? VINITIAL)%N || (payload (snd p) =? VTOMBSTONE)%N) img.
Lemma lostb_ok k img : clearMark k DirtyFlag = k -> lostb k img = true ->
  Forall (fun p => same_word (fst p) k -> payload (snd p) = VINITIAL \/ payload (snd p) = VTOMBSTONE) img.
Proof.
  intros Hk H. apply Forall_forall. intros p Hp Hs. unfold lostb in H. rewrite forallb_forall in H. apply elem_of_list_In in Hp. specialize (H p Hp).
  unfold same_word in Hs. rewrite Hk in Hs. rewrite Hs, N.eqb_refl in H. cbn [negb orb] in H.
  apply orb_true_iff in H as [H|H]; apply N.eqb_eq in H; auto.
Qed.

Lemma two_images (P : nat -> list pair_ -> Prop) a b : P 0 a -> P 1 b -> forall t img, [a; b] !! t = Some img -> P t img.
Proof. intros Ha Hb [|[|t]] img H; [| |discriminate]; cbn in H; injection H as <-; assumption. Qed.

Lemma c55_refuted : exists os sched h imgs, let y := after idcfg ex_fuel (init_state 8 4 1024) [os] sched in
  Forall legal_op os /\ Forall (fun o => op_key o = Some 468%N -> o = OPut 468 80 \/ o = OGet 468) os /\ idle y /\
  sy_hist y = ERes 0 (OPut 24 88) (RVal NOTFOUND) :: EInv 0 (OPut 24 88) :: ERes 0 (OGet 468) (RVal 80) :: h /\
  (exists s', run (get idcfg ex_fuel 468) (sy_st y) = Ok 80%N s') /\
  length imgs = length (st_tabs (sy_st y)) /\ (forall t img, imgs !! t = Some img -> crash_table (sy_st y) t img) /\
  Forall (Forall (fun p => same_word (fst p) 468 -> payload (snd p) = VINITIAL \/ payload (snd p) = VTOMBSTONE)) imgs.
Proof.
  exists w55_ops, (segs [(0, 2000)]), (drop 3 (sy_hist w55_y)), w55_imgs. cbn zeta. change (after _ _ _ _ _) with w55_y.
  assert (Hl : Forall (Forall legal_op) [w55_ops]) by (apply legal_todos_ok; vm_compute; reflexivity).
  assert (HI : Inv 8 (world_of w55_y)) by (apply (after_inv idcfg 8 4 ex_fuel 1024 [w55_ops] ex_cap8 Hl)).
  split; [inversion Hl; assumption|]. split; [repeat (apply List.Forall_cons; [cbn; intros H; try discriminate; auto|]); apply List.Forall_nil|].
  split; [apply idleb_ok; vm_compute; reflexivity|]. split; [vm_compute; reflexivity|].
  split; [eexists; apply ok_of; vm_compute; reflexivity|]. split; [vm_compute; reflexivity|]. split.
  - apply two_images.
    + apply (pick_crash 8 (world_of w55_y) 0); [exact HI|vm_compute; reflexivity].
    + assert (HT : exists T, st_tabs (sy_st w55_y) !! 1 = Some T).
      { destruct (st_tabs (sy_st w55_y) !! 1) eqn:E; [eauto|]. vm_compute in E. discriminate. }
      destruct HT as (T & HT). exact (oldest_image_ok 8 (world_of w55_y) 1 T HI HT).
  - constructor; [|constructor; [|constructor]]; (apply lostb_ok; [reflexivity|vm_compute; reflexivity]).
Qed.

(** A read, and a crash of the table it read, which has no successor yet. *)
Lemma c55_example : let y := after idcfg ex_fuel (init_state 8 4 1024) [[OPut 24 80]; [OGet 24]] (segs [(0, 22); (1, 40)]) in
  Forall (Forall legal_op) [[OPut 24 80]; [OGet 24]] /\ 80%N <> NOTFOUND /\
  (exists h2, sy_hist y = [] ++ ERes 1 (OGet 24) (RVal 80) :: h2) /\
  exists img T, crash_table (sy_st y) 0 img /\ st_tabs (sy_st y) !! 0 = Some T /\ t_new T = None /\ never_returns T 0.
Proof.
  assert (Hl : Forall (Forall legal_op) [[OPut 24 80]; [OGet 24]]) by (apply legal_todos_ok; vm_compute; reflexivity).
  cbn zeta. split; [exact Hl|]. split; [vm_compute; discriminate|]. split; [eexists; vm_compute; reflexivity|].
  set (y := after _ _ _ _ _).
  assert (HI : Inv 8 (world_of y)) by (apply (after_inv idcfg 8 4 ex_fuel 1024 [[OPut 24 80]; [OGet 24]] ex_cap8 Hl)).
  assert (HT : exists T, st_tabs (sy_st y) !! 0 = Some T /\ t_new T = None).
  { destruct (st_tabs (sy_st y) !! 0) as [T|] eqn:E; [|vm_compute in E; discriminate]. exists T. split; [reflexivity|].
    vm_compute in E. injection E as <-. reflexivity. }
  destruct HT as (T & HT & Hn). exists (oldest_image (sy_st y) 0), T. split; [exact (oldest_image_ok 8 (world_of y) 0 T HI HT)|].
  split; [exact HT|]. split; [exact Hn|].
  apply (never_check idcfg 8 4 ex_fuel 1024 [[OPut 24 80]; [OGet 24]] (segs [(0, 22); (1, 40)]) 0 0 T ex_cap8 Hl HT).
  clear Hn. vm_compute in HT. injection HT as <-. vm_compute. reflexivity.
Qed.

Lemma c55_frozen_example : exists T p, st_tabs (sy_st w55_y) !! 0 = Some T /\ t_pairs T !! 7 = Some p /\
  isMarked (snd p) MigrationFlag = true.
Proof.
  destruct (st_tabs (sy_st w55_y) !! 0) as [T|] eqn:E; [|vm_compute in E; discriminate].
  destruct (t_pairs T !! 7) as [p|] eqn:Ep.
  - exists T, p. split; [reflexivity|]. split; [exact Ep|]. vm_compute in E. injection E as <-. vm_compute in Ep. injection Ep as <-. vm_compute. reflexivity.
  - vm_compute in E. injection E as <-. vm_compute in Ep. discriminate.
Qed.
