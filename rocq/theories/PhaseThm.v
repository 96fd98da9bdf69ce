(** Executions in phases are linearizable. *)
From Coq Require Import NArith Bool List Lia.
From stdpp Require Import base list gmap.
From Verif Require ConcSpec ConcInv ConcThm.
From Verif Require Import Word Bits Prog HashMap Conc Spec LinSpec PhaseSpec Abs Probe CodecThm SeqInv SeqCopy SeqPut SeqGet SeqApi SeqThm Lin LinThm LinNew LinNewAbs LinNewThm PhaseJ.
Import ListNotations.
Open Scope nat_scope.

(** ** Histories *)
Lemma atomic_idle spec m0 h m st i : atomic spec m0 h m st -> (forall o, ~ In (EInv i o) h) -> st i = LinSpec.Idle.
Proof.
  intros H. induction H as [|h m st j o H IH Hj|h m st j o r m' H IH Hj Hs|h m st j o r H IH Hj]; intros Hn.
  - reflexivity.
  - destruct (Nat.eq_dec i j) as [->|Hne]; [destruct (Hn o); left; reflexivity|]. rewrite put_at_other by exact Hne.
    apply IH. intros o' Ho. apply (Hn o'). right. exact Ho.
  - destruct (Nat.eq_dec i j) as [->|Hne]; [rewrite (IH Hn) in Hj; discriminate|]. rewrite put_at_other by exact Hne. apply IH, Hn.
  - destruct (Nat.eq_dec i j) as [->|Hne]; [apply put_at_same|]. rewrite put_at_other by exact Hne.
    apply IH. intros o' Ho. apply (Hn o'). right. exact Ho.
Qed.

(** Two histories one after the other. *)
Lemma atomic_app spec m0 h m st h' m' st' : atomic spec m0 h m st -> (forall i, st i = LinSpec.Idle) -> atomic spec m h' m' st' ->
  exists st'', atomic spec m0 (h' ++ h) m' st'' /\ forall i, st'' i = st' i.
Proof.
  intros H Hi H'. induction H' as [|h' m' st' i o H' IH Ho|h' m' st' i o r m2 H' IH Ho Hs|h' m' st' i o r H' IH Ho].
  - exists st. auto.
  - destruct IH as (s2 & A1 & A2). exists (put_at s2 i (LinSpec.Called o)). split; [apply at_inv; [exact A1|congruence]|].
    intros j. unfold put_at. destruct (Nat.eqb j i); auto.
  - destruct IH as (s2 & A1 & A2). exists (put_at s2 i (Took o r)). split; [eapply at_take; [exact A1|rewrite A2; exact Ho|exact Hs]|].
    intros j. unfold put_at. destruct (Nat.eqb j i); auto.
  - destruct IH as (s2 & A1 & A2). exists (put_at s2 i LinSpec.Idle). split; [apply at_res; [exact A1|congruence]|].
    intros j. unfold put_at. destruct (Nat.eqb j i); auto.
Qed.

Definition unhist (y : sys) : sys := mkSys (sy_st y) (sy_thr y) [].
Lemma tstep_hist C n i s ths h : exists h', tstep C n i (mkSys s ths h) = mkSys (sy_st (tstep C n i (mkSys s ths []))) (sy_thr (tstep C n i (mkSys s ths []))) (h' ++ h) /\
  sy_hist (tstep C n i (mkSys s ths [])) = h'.
Proof.
  unfold tstep. cbn [sy_thr sy_st sy_hist]. destruct (ths !! i) as [th|]; [|exists []; auto].
  destruct (th_cur th) as [[o [r|e|c k]]|].
  - exists [ERes i o r]. split; reflexivity.
  - exists []. auto.
  - destruct (exec c s) as [r s']. exists []. auto.
  - destruct (th_todo th) as [|o os]; [exists []; auto|]. exists [EInv i o]. split; reflexivity.
Qed.
Lemma conc_hist C n sched : forall s ths h h0, 
  conc C n sched (mkSys s ths (h ++ h0)) = mkSys (sy_st (conc C n sched (mkSys s ths h))) (sy_thr (conc C n sched (mkSys s ths h))) (sy_hist (conc C n sched (mkSys s ths h)) ++ h0).
Proof.
  induction sched as [|i l IH]; intros s ths h h0; [reflexivity|]. cbn [conc].
  destruct (tstep_hist C n i s ths (h ++ h0)) as (h1 & E1 & E2). destruct (tstep_hist C n i s ths h) as (h2 & E3 & E4).
  rewrite E1, E3. assert (h1 = h2) as -> by congruence. rewrite app_assoc. rewrite IH. reflexivity.
Qed.
Lemma conc_unhist C n sched y : let y' := conc C n sched (unhist y) in
  conc C n sched y = mkSys (sy_st y') (sy_thr y') (sy_hist y' ++ sy_hist y).
Proof. cbn zeta. destruct y as [s ths h]. unfold unhist. cbn [sy_st sy_thr sy_hist]. exact (conc_hist C n sched s ths [] h). Qed.

(** Only existing threads make calls, and only those on their lists. *)
Definition todo_ok (P : op -> Prop) (y : sys) : Prop := Forall (fun th => Forall P (th_todo th)) (sy_thr y) /\
  forall i o, In (EInv i o) (sy_hist y) -> P o /\ i < length (sy_thr y).
Lemma todo_step P C n i y : todo_ok P y -> todo_ok P (tstep C n i y).
Proof.
  intros [H1 H2]. unfold tstep. destruct (sy_thr y !! i) as [th|] eqn:Ei; [|split; auto].
  pose proof (Forall_lookup_1 _ _ _ _ H1 Ei) as Hth. pose proof (lookup_lt_Some _ _ _ Ei) as Hlt.
  destruct (th_cur th) as [[o [r|e|c k]]|].
  - split; cbn [sy_thr sy_hist].
    + apply Forall_insert; [exact H1|exact Hth].
    + intros j o' [E|E]; [discriminate|]. rewrite insert_length. auto.
  - split; auto.
  - destruct (exec c (sy_st y)) as [r s']. split; cbn [sy_thr sy_hist]; [apply Forall_insert; [exact H1|exact Hth]|]. rewrite insert_length. exact H2.
  - destruct (th_todo th) as [|o os] eqn:Et; [split; auto|]. cbn beta in Hth. rewrite Et in Hth. pose proof (Forall_inv Hth) as Ho. pose proof (Forall_inv_tail Hth) as Hos. split; cbn [sy_thr sy_hist].
    + apply Forall_insert; [exact H1|exact Hos].
    + rewrite insert_length. intros j o' [E|E]; [injection E as <- <-; auto|auto].
Qed.
Lemma todo_conc P C n sched : forall y, todo_ok P y -> todo_ok P (conc C n sched y).
Proof. induction sched as [|i l IH]; intros y H; [exact H|]. apply IH, todo_step, H. Qed.
Lemma todo_start P s todos : Forall (Forall P) todos -> todo_ok P (start s todos).
Proof. intros H. split; [|intros i o []]. cbn. apply Forall_map. exact H. Qed.

Lemma dstep_wstep m o r m' : not_increment o -> dstep m o r m' -> wstep m o r m'.
Proof.
  intros Hn H. destruct o as [k|k|k v|k v|k|k v|k ov v|k|]; cbn in *; try exact H.
  - destruct H as [-> ->]. split; [|reflexivity]. eexists. split; [reflexivity|]. left. reflexivity.
  - destruct H as [-> ->]. unfold lookup_result. destruct (m !! k) as [x|] eqn:E; [right|left; auto]. eexists. split; [reflexivity|].
    split; reflexivity.
  - destruct H as [-> ->]. split; [|reflexivity]. eexists. split; [reflexivity|]. intros Hb. apply bool_decide_eq_false in Hb.
    destruct (decide (m !! k = Some 0%N)) as [E|E]; [exact E|contradiction].
  - destruct H as [-> ->]. destruct (decide (m !! k = Some v)) as [E|E]; [left|right].
    + rewrite bool_decide_true by exact E. auto.
    + rewrite bool_decide_false by exact E. auto.
  - destruct H as [-> ->]. destruct (decide (m !! k = Some ov)) as [E|E]; [left|right].
    + rewrite bool_decide_true by exact E. auto.
    + rewrite bool_decide_false by exact E. auto.
  - contradiction.
Qed.

Section Phases.
Context (C : cfg) (cap ppl : nat) (maxcap : N) (n : nat) (todos : list (list op)).
Context (Hcap : good_cap cap maxcap) (Hmax : (maxcap <= 2 ^ 32)%N).
Let Pop (o : op) : Prop := legal_op o /\ not_increment o.
Context (Hleg : Forall (Forall Pop) todos).
Let y0 := start (init_state cap ppl maxcap) todos.

Definition base (y : sys) : Prop := exists m st sz, atomic wstep ∅ (sy_hist y) m st /\ (forall i, st i = LinSpec.Idle) /\ okstate C sz (abs (sy_st y)) m.

(** *** One thread alone *)
Definition others_idle (i : nat) (y : sys) : Prop := forall j th, j <> i -> sy_thr y !! j = Some th -> th_cur th = None.
Definition solo (i : nat) (y : sys) : Prop := others_idle i y /\
  ((base y /\ forall th, sy_thr y !! i = Some th -> th_cur th = None) \/
   exists th o p sb m st sz, sy_thr y !! i = Some th /\ th_cur th = Some (o, p) /\ Pop o /\ atomic wstep ∅ (sy_hist y) m st /\
     st i = LinSpec.Called o /\ (forall j, j <> i -> st j = LinSpec.Idle) /\ okstate C sz (abs sb) m /\
     run p (sy_st y) = run (op_prog C n o) sb).

Lemma others_insert i y th s h : others_idle i y -> others_idle i (mkSys s (<[i := th]> (sy_thr y)) h).
Proof. intros H j th' Hj E. cbn [sy_thr] in E. rewrite list_lookup_insert_ne in E by congruence. exact (H j th' Hj E). Qed.

Lemma solo_step i y : todo_ok Pop y -> solo i y -> solo i (tstep C n i y).
Proof.
  intros [Htd _] [Ho Hs]. unfold tstep. destruct (sy_thr y !! i) as [th|] eqn:Ei; [|split; [exact Ho|]; rewrite Ei; exact Hs].
  pose proof (lookup_lt_Some _ _ _ Ei) as Hlt. pose proof (Forall_lookup_1 _ _ _ _ Htd Ei) as Hth.
  destruct Hs as [[Hb Hn]|(th' & o & p & sb & m & st & sz & E1 & E2 & HP & Ha & Hi & Hj & Hok & Hr)].
  - rewrite (Hn th eq_refl). destruct (th_todo th) as [|o os] eqn:Et.
    + split; [exact Ho|]. left. split; [exact Hb|]. rewrite Ei. exact Hn.
    + split; [apply others_insert, Ho|]. right. destruct Hb as (m & st & sz & B1 & B2 & B3). cbn beta in Hth. rewrite Et in Hth. pose proof (Forall_inv Hth) as HP.
      exists (mkThread (Some (o, op_prog C n o)) os), o, (op_prog C n o), (sy_st y), m, (put_at st i (LinSpec.Called o)), sz. cbn [sy_thr sy_hist sy_st].
      split; [apply list_lookup_insert; exact Hlt|]. split; [reflexivity|]. split; [exact HP|].
      split; [apply at_inv; [exact B1|apply B2]|]. split; [apply put_at_same|]. split; [intros j Hj; rewrite put_at_other by exact Hj; apply B2|].
      split; [exact B3|reflexivity].
  - injection E1 as <-. rewrite E2. destruct p as [r|e|c k].
    + split; [apply others_insert, Ho|]. left. cbn [sy_thr sy_hist sy_st]. split; [|intros th2 E; cbn [sy_thr] in E; rewrite list_lookup_insert in E by exact Hlt; injection E as <-; reflexivity].
      cbn [run] in Hr. pose proof (op_any C n sz sb m o Hok (proj1 HP)) as Hop. rewrite <- Hr in Hop.
      destruct Hop as (m' & sz' & P1 & P2 & _). exists m', (put_at (put_at st i (Took o r)) i LinSpec.Idle), sz'. cbn [sy_hist sy_st].
      split; [apply at_res; [|apply put_at_same]; eapply at_take; [exact Ha|exact Hi|apply dstep_wstep; [apply HP|exact P2]]|].
      split; [|exact P1]. intros j. destruct (Nat.eq_dec j i) as [->|Hne]; [apply put_at_same|]. rewrite !put_at_other by exact Hne. apply Hj, Hne.
    + split; [exact Ho|]. right. exists th, o, (Err e), sb, m, st, sz. auto 12.
    + cbn [run] in Hr. destruct (exec c (sy_st y)) as [r s'] eqn:Ex. split; [apply others_insert, Ho|]. right.
      exists (mkThread (Some (o, k r)) (th_todo th)), o, (k r), sb, m, st, sz. cbn [sy_thr sy_hist sy_st].
      split; [apply list_lookup_insert; exact Hlt|]. auto 12.
Qed.

Lemma solo_conc i l : forall y, todo_ok Pop y -> solo i y -> solo i (conc C n (replicate l i) y).
Proof.
  induction l as [|l IH]; intros y Ht H; [exact H|]. cbn [replicate conc]. apply IH; [apply todo_step, Ht|apply solo_step; assumption].
Qed.

Lemma idle_at y i th : idle y -> sy_thr y !! i = Some th -> th_cur th = None.
Proof. intros H E. exact (Forall_lookup_1 _ _ _ _ H E). Qed.

Lemma alone_base i l y : todo_ok Pop y -> idle y -> base y -> idle (conc C n (replicate l i) y) -> base (conc C n (replicate l i) y).
Proof.
  intros Ht Hi Hb Hi'. destruct (solo_conc i l y Ht) as [_ [[H _]|(th & o & p & sb & m & st & sz & E1 & E2 & _)]].
  - split; [intros j th _; apply idle_at, Hi|]. left. split; [exact Hb|]. intros th. apply idle_at, Hi.
  - exact H.
  - rewrite (idle_at _ _ _ Hi' E1) in E2. discriminate.
Qed.

(** *** Several threads without growth *)
Lemma together_base sched y h : todo_ok Pop y -> ConcInv.Inv cap (ConcSpec.invoked (sy_hist y), sy_st y) -> idle y -> base y ->
  quiet (sy_st y) -> sy_hist (conc C n sched y) = h ++ sy_hist y -> no_insert_race_from (in_table (sy_st y)) h ->
  no_new_table (sy_st y) (sy_st (conc C n sched y)) ->
  (exists m st, atomic wstep ∅ (sy_hist (conc C n sched y)) m st) /\ (idle (conc C n sched y) -> base (conc C n sched y)).
Proof.
  intros Htd HI Hidle (md & st0 & sz & Ha0 & Hst0 & Hok) Hq Hh Hrace (Nt & Nl & Nf & Nq).
  assert (Hni : Forall ConcInv.noinc (ConcSpec.invoked (sy_hist y))).
  { destruct Htd as [_ Htd]. apply Forall_forall. intros o Ho. apply elem_of_list_In in Ho. unfold ConcSpec.invoked in Ho.
    apply in_flat_map in Ho as (e & He & Hoe). destruct e as [j o'|j o' r]; [|destruct Hoe]. destruct Hoe as [<-|[]].
    destruct (Htd _ _ He) as [[_ H] _]. exact H. }
  destruct (enter_J C cap sz (sy_st y) md _ Hok Hq HI Hni) as (L & A & m0 & HL & Hpow & H59 & Hsx & HJ & Hv & Hcont & HA & HK).
  set (z := conc C n sched (unhist y)).
  pose proof (conc_unhist C n sched y) as Ez. cbn zeta in Ez. fold z in Ez. rewrite Ez in *. cbn [sy_st sy_hist sy_thr] in *.
  apply app_inv_tail in Hh. subst h.
  assert (Htz : todo_ok Pop (unhist y)) by (split; [apply Htd|intros i o []]).
  pose proof (todo_conc Pop C n sched _ Htz) as Htz'. fold z in Htz'.
  assert (Hsim : sim C L false (st_top (sy_st y)) (sy_st y) (in_table (sy_st y)) m0 z).
  { apply sim_conc; try assumption; [split; [exact Hrace|discriminate]|]. right. constructor.
    - exists m0, (fun _ => LinSpec.Idle), A. cbn [unhist sy_st sy_thr sy_hist]. split; [constructor|]. split; [exact HJ|].
      split; [|split; [|split; [exact HK|split]]].
      + intros i th Ei. split; [|rewrite (idle_at _ _ _ Hidle Ei); reflexivity]. pose proof (Forall_lookup_1 _ _ _ _ (proj1 Htd) Ei) as H.
        eapply List.Forall_impl; [|exact H]. intros o [H1 _]. exact H1.
      + intros i Hi Hn. left. apply HA; assumption.
      + intros i o r k [].
      + intros i j th th' o p o' p' k k' _ Ei _ Ec. rewrite (idle_at _ _ _ Hidle Ei) in Ec. discriminate.
    - intros i th o p Ei Ec. cbn [unhist sy_thr] in Ei. rewrite (idle_at _ _ _ Hidle Ei) in Ec. discriminate. }
  destruct Hsim as [[Hb _]|[(m & st & A' & Ha & HJ' & Ht & _) _]].
  { exfalso. revert Hb Nq. unfold broken, quiet. rewrite Nt. destruct (st_tabs (sy_st z) !! st_top (sy_st y)); auto. }
  assert (Hw : atomic wstep (view m0) (sy_hist z) (view m) st /\ contents m).
  { destruct (atomic_map cstep wstep view (fun _ => contents) Pop (inv_count (sy_hist z)) m0) with (h := sy_hist z) (m := m) (st := st) as [H (n' & l & H' & _)].
    - exact Hcont.
    - intros n' m1 o r m2 _ H1 [H2 H3] H4. apply cstep_wstep; assumption.
    - exact Ha.
    - intros i o Ho. apply (proj2 Htz' i o Ho).
    - reflexivity.
    - auto. }
  rewrite Hv in Hw. destruct Hw as [Hw Hcm].
  destruct (atomic_app wstep ∅ _ _ _ _ _ _ Ha0 Hst0 Hw) as (st2 & H1 & H2). split; [eauto|].
  intros Hid. exists (view m), st2, None. cbn [sy_hist sy_st]. split; [exact H1|]. split.
  - intros i. rewrite H2. destruct (sy_thr z !! i) as [th|] eqn:Ei.
    + destruct (Ht i th Ei) as [_ Hc]. rewrite (Forall_lookup_1 _ _ _ _ Hid Ei) in Hc. exact Hc.
    + eapply atomic_idle; [exact Hw|]. intros o Ho. apply (proj2 Htz') in Ho as [_ Ho]. apply lookup_ge_None_1 in Ei. lia.
  - apply (leave_J C sz L (sy_st y) (sy_st z) md m A'); try assumption.
    intros T0 HT0. destruct (j_tab _ _ _ _ _ _ _ _ HJ) as (T & HT & E & _). rewrite HT in HT0. injection HT0 as <-. exact E.
Qed.

Lemma phased_lin y : phased C n y0 y -> (exists sched, y = conc C n sched y0) /\
  (exists m st, atomic wstep ∅ (sy_hist y) m st) /\ (idle y -> base y).
Proof.
  assert (Hl : Forall (Forall legal_op) todos).
  { eapply List.Forall_impl; [|exact Hleg]. intros l H. eapply List.Forall_impl; [|exact H]. intros o [H1 _]. exact H1. }
  intros H. induction H as [|y1 i l H IH Hi Hi'|y1 sched h H IH Hi Hq Hh Hr Hn].
  - split; [exists []; reflexivity|].
    assert (Hb : base y0).
    { destruct (init_ok C cap ppl maxcap Hcap Hmax) as [sz Hsz]. exists ∅, (fun _ => LinSpec.Idle), sz. split; [constructor|]. auto. }
    split; [|auto]. destruct Hb as (m & st & _ & Hb & _). eauto.
  - destruct IH as ([sched ->] & _ & Hb). split; [exists (sched ++ replicate l i); rewrite conc_app; reflexivity|].
    assert (Ht : todo_ok Pop (conc C n sched y0)) by (apply todo_conc, todo_start, Hleg).
    pose proof (alone_base i l _ Ht Hi (Hb Hi) Hi') as Hb'. split; [|auto]. destruct Hb' as (m & st & _ & Hb' & _). eauto.
  - destruct IH as ([sched0 ->] & _ & Hb). split; [exists (sched0 ++ sched); rewrite conc_app; reflexivity|].
    apply (together_base sched (conc C n sched0 y0) h); auto.
    + apply todo_conc, todo_start, Hleg.
    + exact (ConcThm.after_inv C cap ppl n maxcap todos Hcap Hl sched0).
Qed.
End Phases.

Lemma phased_linearizable C cap ppl maxcap n todos y : good_cap cap maxcap -> (maxcap <= 2 ^ 32)%N ->
  Forall (Forall legal_op) todos -> Forall (Forall not_increment) todos ->
  phased C n (start (init_state cap ppl maxcap) todos) y -> linearizable wstep ∅ (sy_hist y).
Proof.
  intros Hc Hm Hl Hn H. assert (HP : Forall (Forall (fun o => legal_op o /\ not_increment o)) todos).
  { apply Forall_forall. intros l Hin. apply Forall_forall. intros o Ho.
    rewrite Forall_forall in Hl, Hn. specialize (Hl l Hin). specialize (Hn l Hin). rewrite Forall_forall in Hl, Hn. auto. }
  destruct (phased_lin C cap ppl maxcap n todos Hc Hm HP y H) as (_ & H' & _). exact H'.
Qed.

(** ** Between the phases the map is the dictionary of the history *)

Lemma exec_maxcap c s : st_maxcap (snd (exec c s)) = st_maxcap s.
Proof.
  assert (Hw : forall t f, st_maxcap (with_tab t f s) = st_maxcap s) by (intros; unfold with_tab; destruct (st_tabs s !! t); reflexivity).
  destruct c; cbn [exec]; try reflexivity; try apply Hw.
  - destruct (_ =? _)%N; [apply Hw|reflexivity].
  - destruct (_ =? _)%N; [apply Hw|reflexivity].
  - destruct (option_nat_eqb _ _); [apply Hw|reflexivity].
  - destruct (Nat.eqb _ _); reflexivity.
  - destruct (mmap_table _ _ _ _ _); reflexivity.
Qed.
Lemma tstep_maxcap C n i y : st_maxcap (sy_st (tstep C n i y)) = st_maxcap (sy_st y).
Proof.
  unfold tstep. destruct (sy_thr y !! i) as [th|]; [|reflexivity]. destruct (th_cur th) as [[o [r|e|c k]]|]; try reflexivity.
  - pose proof (exec_maxcap c (sy_st y)) as E. destruct (exec c (sy_st y)). exact E.
  - destruct (th_todo th); reflexivity.
Qed.
Lemma conc_maxcap C n sched : forall y, st_maxcap (sy_st (conc C n sched y)) = st_maxcap (sy_st y).
Proof. induction sched as [|i l IH]; intros y; cbn [conc]; [reflexivity|]. rewrite IH. apply tstep_maxcap. Qed.

Lemma phased_total C cap ppl maxcap n todos y : good_cap cap maxcap -> (maxcap <= 2 ^ 32)%N ->
  Forall (Forall legal_op) todos -> Forall (Forall not_increment) todos ->
  phased C n (start (init_state cap ppl maxcap) todos) y -> idle y ->
  exists d st, atomic wstep ∅ (sy_hist y) d st /\ (forall i, st i = LinSpec.Idle) /\
    forall l os, CALL maxcap <= l -> Forall legal_op os ->
    match run (ops_prog C l os) (sy_st y) with
    | Ok rs _ => exists d', dsteps d os rs d'
    | Fail e _ => e = AllocFail
    end.
Proof.
  intros Hc Hm Hl Hn H Hi. assert (HP : Forall (Forall (fun o => legal_op o /\ not_increment o)) todos).
  { apply Forall_forall. intros l Hin. apply Forall_forall. intros o Ho.
    rewrite Forall_forall in Hl, Hn. specialize (Hl l Hin). specialize (Hn l Hin). rewrite Forall_forall in Hl, Hn. auto. }
  destruct (phased_lin C cap ppl maxcap n todos Hc Hm HP y H) as ((sched & E) & _ & Hb).
  destruct (Hb Hi) as (d & st & sz & H1 & H2 & H3). exists d, st. split; [exact H1|]. split; [exact H2|].
  intros l os Hl' Hos. assert (Em : st_maxcap (sy_st y) = maxcap) by (rewrite E, conc_maxcap; reflexivity).
  pose proof (ops_total C l os sz (sy_st y) d H3 Hos) as Ho. rewrite Em in Ho. specialize (Ho Hl').
  destruct (run _ _); [|exact Ho]. destruct Ho as (d' & ? & ? & _). eauto.
Qed.
