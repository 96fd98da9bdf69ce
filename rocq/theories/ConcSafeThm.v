(** No thread of a concurrent execution stops with an error that ConcSafe.v excludes; and an execution in which an assertion
    does fail. *)
From Coq Require Import NArith Bool List Lia.
From stdpp Require Import base list relations.
From Verif Require Import Word Bits Prog HashMap Conc Spec ConcSpec SafeSpec LinSpec ConcInv ConcCmd ConcProg ConcMap ConcThm ConcSafe Examples ConcWitness.
Import ListNotations.
Open Scope nat_scope.

Section Sys.
Context (C : cfg) (cap ppl n : nat) (maxcap : N) (todos : list (list op)).
Hypothesis (Hc : good_cap cap maxcap) (Hl : Forall (Forall legal_op) todos).
Notation at_ sched := (after C n (init_state cap ppl maxcap) todos sched).

Lemma cap4 : 4 <= cap.
Proof.
  destruct Hc as ((e & -> & He) & _). change 4 with (2 ^ 2). apply Nat.pow_le_mono_r; lia.
Qed.

Definition tsafe (w : world) (th : thread) : Prop := match th_cur th with Some (_, p) => exists b, sf C cap b p w | None => True end.

Lemma tsafe_rel w w' th : Rel w w' -> tsafe w th -> tsafe w' th.
Proof.
  intros HR. unfold tsafe. destruct (th_cur th) as [[o p]|]; [|auto]. intros (b & H). exists b. exact (sf_rel C cap b p _ _ HR H).
Qed.

Lemma tstep_safe i y : sys_ok C cap y -> Forall (tsafe (world_of y)) (sy_thr y) ->
  Forall (tsafe (world_of (tstep C n i y))) (sy_thr (tstep C n i y)).
Proof.
  intros Hok HS. destruct (tstep_ok C cap n i y Hok) as (Hok' & HR & _). destruct Hok as (HI & HT & _).
  assert (HS' : Forall (tsafe (world_of (tstep C n i y))) (sy_thr y)).
  { eapply Forall_impl; [exact HS|]. intros th. apply tsafe_rel. exact HR. }
  revert Hok' HR HS'. unfold tstep. destruct (sy_thr y !! i) as [th|] eqn:Hth; [|auto].
  pose proof (Forall_lookup_1 _ _ _ _ HS Hth) as Hsf. pose proof (Forall_lookup_1 _ _ _ _ HT Hth) as [Hlt Hot].
  unfold tsafe in Hsf. destruct (th_cur th) as [[o [r|e|c k]]|] eqn:Hcur; [| auto| |].
  - intros _ _ HS'. cbn [sy_thr]. apply Forall_insert; [exact HS'|exact I].
  - destruct Hsf as (b & Hsf). cbn [sf] in Hsf. specialize (Hsf _ HI (Rel_refl _)). unfold world_of at 1 in Hsf. cbn [snd] in Hsf.
    destruct (exec c (sy_st y)) as [r s'] eqn:He. intros (HI' & _) HR HS'. cbn [sy_thr] in *.
    apply Forall_insert; [exact HS'|]. exists (loads_done c). apply Hsf; [exact HI'|exact HR].
  - destruct (th_todo th) as [|o os] eqn:Htd; [auto|]. apply Forall_cons in Hlt as [Ho _].
    intros (HI' & _) HR HS'. cbn [sy_thr]. apply Forall_insert; [exact HS'|]. exists false.
    apply sf_op; [exact cap4|exact HI'|exact Ho|left; reflexivity].
Qed.

Lemma after_safe sched : Forall (tsafe (world_of (at_ sched))) (sy_thr (at_ sched)).
Proof.
  induction sched as [|i l IH] using rev_ind.
  - cbn [after conc start sy_thr]. apply Forall_fmap, Forall_true. intros os. exact I.
  - rewrite after_app. cbn [conc]. apply tstep_safe; [exact (after_ok C cap ppl n maxcap todos Hc Hl l)|exact IH].
Qed.

Lemma after_error sched i th o e : sy_thr (at_ sched) !! i = Some th -> th_cur th = Some (o, Err e) ->
  e = OutOfFuel \/ e = AllocFail \/ (e = AssertFail /\ ndebug C = false).
Proof.
  intros Hth Hcur. pose proof (Forall_lookup_1 _ _ _ _ (after_safe sched) Hth) as H. unfold tsafe in H. rewrite Hcur in H.
  destruct H as (b & [H|[H|(H1 & H2 & _)]]); auto.
Qed.

(** The calls invoked are calls to make. *)
Lemma invoked_todos (P : op -> Prop) : Forall (Forall P) todos -> forall sched,
  Forall P (invoked (sy_hist (at_ sched))) /\ Forall (fun th => Forall P (th_todo th)) (sy_thr (at_ sched)).
Proof.
  intros HP. induction sched as [|i l [IH1 IH2]] using rev_ind.
  - split; [constructor|]. cbn [after conc start sy_thr]. apply Forall_fmap. exact HP.
  - rewrite after_app. cbn [conc]. set (y := at_ l) in *. unfold tstep. destruct (sy_thr y !! i) as [th|] eqn:Hth; [|auto].
    pose proof (Forall_lookup_1 _ _ _ _ IH2 Hth) as H. cbn beta in H.
    destruct (th_cur th) as [[o [r|e|c k]]|]; [| auto| |].
    + split; [exact IH1|]. apply Forall_insert; auto.
    + destruct (exec c (sy_st y)) as [r s']. split; [exact IH1|]. apply Forall_insert; auto.
    + destruct (th_todo th) as [|o os]; [auto|]. apply Forall_cons in H as [Ho H]. split; [constructor; assumption|].
      apply Forall_insert; auto.
Qed.

Lemma after_assert sched i th o : Forall (Forall not_increment) todos ->
  sy_thr (at_ sched) !! i = Some th -> th_cur th = Some (o, Err AssertFail) ->
  exists s1 s2 th1 c k, sched = s1 ++ i :: s2 /\ sy_thr (at_ s1) !! i = Some th1 /\ th_cur th1 = Some (o, Vis c k) /\
    k (fst (exec c (sy_st (at_ s1)))) = Err AssertFail /\ loads_done c = true.
Proof.
  intros Hni. revert th. induction sched as [|j l IH] using rev_ind; intros th Hth Hcur.
  { cbn [after conc start sy_thr] in Hth. rewrite list_lookup_fmap in Hth. destruct (todos !! i); [|discriminate].
    injection Hth as <-. discriminate. }
  assert (HIH : forall th', sy_thr (at_ l) !! i = Some th' -> th_cur th' = Some (o, Err AssertFail) ->
    exists s1 s2 th1 c k, l ++ [j] = s1 ++ i :: s2 /\ sy_thr (at_ s1) !! i = Some th1 /\ th_cur th1 = Some (o, Vis c k) /\
    k (fst (exec c (sy_st (at_ s1)))) = Err AssertFail /\ loads_done c = true).
  { intros th' H1 H2. destruct (IH th' H1 H2) as (s1 & s2 & th1 & c & k & E & H). exists s1, (s2 ++ [j]), th1, c, k.
    split; [rewrite E, <- app_assoc; reflexivity|exact H]. }
  pose proof (after_ok C cap ppl n maxcap todos Hc Hl l) as Hok. pose proof (tstep_ok C cap n j _ Hok) as (Hok' & HR & _).
  pose proof (after_safe l) as HS. pose proof (proj1 (invoked_todos _ Hni (l ++ [j]))) as Hinv.
  assert (Hinv' : Forall noinc (fst (world_of (tstep C n j (at_ l))))).
  { rewrite after_app in Hinv. cbn [conc] in Hinv. eapply Forall_impl; [exact Hinv|]. intros [] H; exact H. }
  clear Hinv. rewrite after_app in Hth. cbn [conc] in Hth. set (y := at_ l) in *. unfold tstep in Hth, Hok', HR, Hinv'.
  destruct (sy_thr y !! j) as [thj|] eqn:Hj; [|exact (HIH th Hth Hcur)].
  pose proof (Forall_lookup_1 _ _ _ _ HS Hj) as Hsf. unfold tsafe in Hsf.
  destruct (th_cur thj) as [[oj [r|e|c k]]|] eqn:Hcj; [|exact (HIH th Hth Hcur)| |].
  - cbn [sy_thr] in Hth. apply list_lookup_insert_Some in Hth as [(-> & <- & _)|[_ Hth]]; [discriminate|exact (HIH th Hth Hcur)].
  - destruct Hsf as (b & Hsf). cbn [sf] in Hsf. pose proof Hok as (HI & _). specialize (Hsf _ HI (Rel_refl _)).
    unfold world_of at 1 in Hsf. cbn [snd] in Hsf. destruct (exec c (sy_st y)) as [r s'] eqn:He. cbn [sy_thr] in *.
    apply list_lookup_insert_Some in Hth as [(-> & <- & _)|[_ Hth]]; [|exact (HIH th Hth Hcur)].
    cbn [th_cur] in Hcur. injection Hcur as -> Hk. exists l, [], thj, c, k. split; [reflexivity|]. split; [exact Hj|]. split; [exact Hcj|].
    split; [fold y; rewrite He; exact Hk|]. specialize (Hsf (proj1 Hok') HR). rewrite Hk in Hsf.
    destruct Hsf as [H|[H|(_ & _ & [H|H])]]; [discriminate|discriminate|exact H|]. exfalso. exact (H Hinv').
  - destruct (th_todo thj) as [|o' os] eqn:Htd; [exact (HIH th Hth Hcur)|]. cbn [sy_thr] in *.
    apply list_lookup_insert_Some in Hth as [(-> & <- & _)|[_ Hth]]; [|exact (HIH th Hth Hcur)].
    cbn [th_cur] in Hcur. injection Hcur as -> Hp. pose proof (Forall_lookup_1 _ _ _ _ (proj1 (proj2 Hok)) Hj) as [Hlt _].
    rewrite Htd in Hlt. apply Forall_cons in Hlt as [Ho _].
    pose proof (sf_op C cap cap4 n o (world_of (mkSys (sy_st y) (<[i:=mkThread (Some (o, op_prog C n o)) os]> (sy_thr y)) (EInv i o :: sy_hist y)))
                  (proj1 Hok') Ho (or_introl eq_refl)) as Hs.
    rewrite Hp in Hs. destruct Hs as [H|[H|(_ & _ & [H|H])]]; [discriminate|discriminate|discriminate|]. exfalso. exact (H Hinv').
Qed.

End Sys.

(** Theorems about every configuration, and the witness. *)
Lemma safe_memory C cap ppl maxcap n todos sched i th o e : good_cap cap maxcap -> Forall (Forall legal_op) todos ->
  sy_thr (after C n (init_state cap ppl maxcap) todos sched) !! i = Some th -> th_cur th = Some (o, Err e) ->
  e = OutOfFuel \/ e = AllocFail \/ (e = AssertFail /\ ndebug C = false).
Proof. intros Hc Hl. exact (after_error C cap ppl n maxcap todos Hc Hl sched i th o e). Qed.

Lemma safe_assertions C cap ppl maxcap n todos sched i th o : good_cap cap maxcap -> Forall (Forall legal_op) todos ->
  Forall (Forall not_increment) todos ->
  sy_thr (after C n (init_state cap ppl maxcap) todos sched) !! i = Some th -> th_cur th = Some (o, Err AssertFail) ->
  exists s1 s2 th1 c k, sched = s1 ++ i :: s2 /\
    sy_thr (after C n (init_state cap ppl maxcap) todos s1) !! i = Some th1 /\ th_cur th1 = Some (o, Vis c k) /\
    k (fst (exec c (sy_st (after C n (init_state cap ppl maxcap) todos s1)))) = Err AssertFail /\ loads_done c = true.
Proof. intros Hc Hl. exact (after_assert C cap ppl n maxcap todos Hc Hl sched i th o). Qed.

Definition w69_sched : list nat := segs w19_sched ++ [9] ++ segs [(1, 81)].
Definition w69_end : sys := after idcfg ex_fuel (init_state 8 4 1024) w19_todos w69_sched.
Definition stopped (y : sys) (i : nat) : option err :=
  match sy_thr y !! i with Some th => match th_cur th with Some (_, Err e) => Some e | _ => None end | None => None end.

Lemma stopped_at y i e : stopped y i = Some e -> exists th o, sy_thr y !! i = Some th /\ th_cur th = Some (o, Err e).
Proof.
  unfold stopped. destruct (sy_thr y !! i) as [th|]; [|discriminate]. destruct (th_cur th) as [[o [r|e'|c k]]|] eqn:E; try discriminate.
  intros H. injection H as <-. exists th, o. split; [reflexivity|exact E].
Qed.

Lemma w69 : Forall (Forall legal_op) w19_todos /\ Forall (Forall not_increment) w19_todos /\
  exists th o, sy_thr w69_end !! 1 = Some th /\ th_cur th = Some (o, Err AssertFail).
Proof.
  split; [exact (proj1 w19)|]. split; [repeat constructor|]. apply stopped_at. vm_compute. reflexivity.
Qed.

Lemma safe_refuted : exists todos sched i th o,
  good_cap 8 1024 /\ Forall (Forall legal_op) todos /\ Forall (Forall not_increment) todos /\
  sy_thr (after idcfg ex_fuel (init_state 8 4 1024) todos sched) !! i = Some th /\ th_cur th = Some (o, Err AssertFail).
Proof.
  destruct w69 as (H1 & H2 & th & o & H3 & H4). exists w19_todos, w69_sched, 1, th, o. split; [exact ex_cap8|].
  split; [exact H1|]. split; [exact H2|]. split; [exact H3|exact H4].
Qed.

(** With increments another assertion can fail.  Two increments meet the deletion mark with the unpersisted mark and each
    stores the word of an unused entry; a thread that copies the entry marks this word for migration, and the next thread
    hands it to putIfMatch. *)
Definition w69i_todos : list (list op) := ([map (fun k => OPut k 80) w19_keys; [OPut 32 88]; [OIncrement 16]; [OIncrement 16];
  [ORemove 16]; [OPut 16 80]; [ORemove 16]; [OPut 16 80]; [ORemove 16]; [OGet 16]])%N.
Definition w69i_sched : list nat := segs [(0, 260); (2, 9); (3, 9); (4, 12); (2, 1); (3, 1); (2, 4); (2, 1); (2, 2); (3, 4); (5, 12);
  (1, 88); (6, 12); (2, 1); (1, 1); (1, 4); (1, 1); (7, 12); (8, 15); (3, 1); (1, 1); (9, 15)].
Definition w69i_at : sys := after idcfg ex_fuel (init_state 8 4 1024) w69i_todos w69i_sched.
Definition not_counting (y : sys) (i : nat) : bool :=
  match sy_thr y !! i with Some th => match th_cur th with Some (_, Vis c _) => negb (loads_done c) | _ => false end | None => false end.

Lemma not_counting_at y i : not_counting y i = true ->
  exists th o c k, sy_thr y !! i = Some th /\ th_cur th = Some (o, Vis c k) /\ loads_done c = false.
Proof.
  unfold not_counting. destruct (sy_thr y !! i) as [th|]; [|discriminate]. destruct (th_cur th) as [[o [r|e'|c k]]|] eqn:E; try discriminate.
  intros H. exists th, o, c, k. split; [reflexivity|]. split; [exact E|]. apply negb_true_iff. exact H.
Qed.

Lemma safe_increment : exists todos sched i, good_cap 8 1024 /\ Forall (Forall legal_op) todos /\
  (exists th o c k, sy_thr (after idcfg ex_fuel (init_state 8 4 1024) todos sched) !! i = Some th /\
     th_cur th = Some (o, Vis c k) /\ loads_done c = false) /\
  (exists th o, sy_thr (after idcfg ex_fuel (init_state 8 4 1024) todos (sched ++ [i])) !! i = Some th /\
     th_cur th = Some (o, Err AssertFail)).
Proof.
  exists w69i_todos, w69i_sched, 9. split; [exact ex_cap8|]. split.
  { repeat first [apply List.Forall_cons | apply List.Forall_nil]; vm_compute; auto 10; repeat split; try discriminate. }
  split; [apply not_counting_at; vm_compute; reflexivity|apply stopped_at; vm_compute; reflexivity].
Qed.
