(** Executions with no racing insertions in which the map grows while several threads use it, or while it counts. *)
From Coq Require Import NArith Bool List Lia.
From stdpp Require Import base list gmap.
From Verif Require Import Word Bits Prog HashMap Conc Spec LinSpec Examples ConcWitness LinNewWitness CrashConcWitness.
Import ListNotations.
Open Scope nat_scope.

(** ** A put that has returned is not seen by a later get *)

(** Thread 0 fills the table, thread 1 then puts one more key; the others only read.  At the end thread 10 reads a key
    that was put long ago. *)
Definition gr_todos : list (list op) := w19_todos ++ [[OGet 468%N]].
Definition gr_sched : list nat := segs (w19_sched ++ [(9, 1); (10, 60)]).
Definition gr_y : sys := after idcfg ex_fuel (init_state 8 4 1024) gr_todos gr_sched.

(** Only gets, and puts that store 80 under the key 468. *)
Definition calm (o : op) : Prop := match o with OGet _ => True | OPut k v => k = 468%N -> v = 80%N | _ => False end.
(** The specifications considered below treat get and put as usual. *)
Definition gets_puts (spec : gmap N N -> op -> rsp -> gmap N N -> Prop) : Prop := forall m r m',
  (forall k, spec m (OGet k) r m' -> r = RVal (lookup_result m k) /\ m' = m) /\
  (forall k v, spec m (OPut k v) r m' -> m' = <[k := v]> m).

Lemma pa_same st i x : put_at st i x i = x.
Proof. unfold put_at. rewrite Nat.eqb_refl. reflexivity. Qed.
Lemma pa_other st i x j : j <> i -> put_at st i x j = st j.
Proof. unfold put_at. intros H. destruct (Nat.eqb_spec j i); [contradiction|reflexivity]. Qed.

Lemma kept spec h m st : gets_puts spec -> atomic spec ∅ h m st -> (forall i o, In (EInv i o) h -> calm o) ->
  (forall i o, st i = LinSpec.Called o -> calm o) /\
  ((exists i r, st i = Took (OPut 468 80) r \/ In (ERes i (OPut 468 80) r) h) -> m !! 468 = Some 80)%N.
Proof.
  intros Hsp. induction 1 as [|h m st i o H IH Hi|h m st i o r m' H IH Hi Hs|h m st i o r H IH Hi]; intros Hh.
  - split; [discriminate|]. intros (i & r & [E|E]); [discriminate|destruct E].
  - destruct IH as [I1 I2]. { intros j o' Hj. apply (Hh j). right. exact Hj. }
    split.
    + intros j o' E. destruct (Nat.eq_dec j i) as [->|Hj]; [rewrite pa_same in E; injection E as <-; apply (Hh i); left; reflexivity|].
      rewrite pa_other in E by exact Hj. eauto.
    + intros (j & r & E). apply I2. exists j, r. destruct E as [E|[E|E]]; [|discriminate E|right; exact E].
      destruct (Nat.eq_dec j i) as [->|Hj]; [rewrite pa_same in E; discriminate|]. rewrite pa_other in E by exact Hj. left. exact E.
  - destruct (IH Hh) as [I1 I2]. specialize (I1 i o Hi) as Ho. destruct (Hsp m r m') as [S1 S2].
    split.
    { intros j o' E. destruct (Nat.eq_dec j i) as [->|Hj]; [rewrite pa_same in E; discriminate|]. rewrite pa_other in E by exact Hj. eauto. }
    assert (Hold : (m !! 468 = Some 80 -> m' !! 468 = Some 80)%N).
    { intros E. destruct o; try contradiction.
      - apply S1 in Hs as [_ ->]. exact E.
      - apply S2 in Hs as ->. destruct (N.eq_dec k 468) as [->|Hk]; [rewrite lookup_insert, (Ho eq_refl); reflexivity|].
        rewrite lookup_insert_ne by congruence. exact E. }
    intros (j & r' & [E|E]); [|apply Hold, I2; eauto]. destruct (Nat.eq_dec j i) as [->|Hj].
    + rewrite pa_same in E. injection E as -> ->. apply S2 in Hs as ->. apply lookup_insert.
    + rewrite pa_other in E by exact Hj. apply Hold, I2. eauto.
  - destruct IH as [I1 I2]. { intros j o' Hj. apply (Hh j). right. exact Hj. }
    split.
    { intros j o' E. destruct (Nat.eq_dec j i) as [->|Hj]; [rewrite pa_same in E; discriminate|]. rewrite pa_other in E by exact Hj. eauto. }
    intros (j & r' & [E|[E|E]]); apply I2.
    + destruct (Nat.eq_dec j i) as [->|Hj]; [rewrite pa_same in E; discriminate|]. rewrite pa_other in E by exact Hj. eauto.
    + injection E as -> -> ->. eauto.
    + eauto.
Qed.

(** A get that starts after the put has returned. *)
Lemma get_after spec h m st : gets_puts spec -> atomic spec ∅ h m st -> (forall i o, In (EInv i o) h -> calm o) ->
  forall i h1 h2 j r, h = h1 ++ EInv i (OGet 468) :: h2 -> (forall e, In e h1 -> event_thread e <> i) ->
  In (ERes j (OPut 468 80) r) h2 -> st i = LinSpec.Called (OGet 468) \/ st i = Took (OGet 468) (RVal 80).
Proof.
  intros Hsp. induction 1 as [|h m st a o H IH Hi|h m st a o r m' H IH Hi Hs|h m st a o r H IH Hi]; intros Hh i h1 h2 j r' E Hn Hj.
  - destruct h1; discriminate.
  - destruct h1 as [|e h1]; cbn [app] in E.
    + injection E as -> -> _. rewrite pa_same. left. reflexivity.
    + injection E as <- E2. assert (Hne : a <> i) by (apply (Hn (EInv a o)); left; reflexivity). rewrite pa_other by congruence.
      eapply IH; [intros x y Hx; apply (Hh x); right; exact Hx|exact E2|intros e He; apply Hn; right; exact He|exact Hj].
  - destruct (Nat.eq_dec a i) as [->|Hne].
    + rewrite pa_same. right. destruct (IH Hh i h1 h2 j r' E Hn Hj) as [Hc|Hc]; rewrite Hi in Hc; [|discriminate]. injection Hc as ->.
      destruct (kept spec h m st Hsp H Hh) as [_ K]. destruct (Hsp m r m') as [S1 _]. apply S1 in Hs as [-> _]. f_equal. f_equal.
      unfold lookup_result. rewrite K; [reflexivity|]. exists j, r'. right. subst h. apply in_or_app. right. right. exact Hj.
    + rewrite pa_other by congruence. eapply IH; eauto.
  - destruct h1 as [|e h1]; [discriminate|]. cbn [app] in E. injection E as <- E2.
    assert (Hne : a <> i) by (apply (Hn (ERes a o r)); left; reflexivity). rewrite pa_other by congruence.
    eapply IH; [intros x y Hx; apply (Hh x); right; exact Hx|exact E2|intros e He; apply Hn; right; exact He|exact Hj].
Qed.
Lemma atomic_res spec m0 i o r h m st : atomic spec m0 (ERes i o r :: h) m st -> exists m1 st1, atomic spec m0 h m1 st1 /\ st1 i = Took o r.
Proof.
  remember (ERes i o r :: h) as h0 eqn:E. induction 1 as [|h' m st a o' H IH Hi|h' m st a o' r' m' H IH Hi Hs|h' m st a o' r' H IH Hi]; try discriminate.
  - exact (IH E).
  - injection E as -> -> -> ->. eauto.
Qed.
Lemma not_lin spec i h1 h2 j r : gets_puts spec -> (forall a o, In (EInv a o) (h1 ++ EInv i (OGet 468) :: h2) -> calm o) ->
  (forall e, In e h1 -> event_thread e <> i) -> In (ERes j (OPut 468 80) r) h2 ->
  ~ linearizable spec ∅ (ERes i (OGet 468) (RVal NOTFOUND) :: h1 ++ EInv i (OGet 468) :: h2).
Proof.
  intros Hsp Hh Hn Hj (m & st & H). apply atomic_res in H as (m1 & st1 & H & Hi).
  destruct (get_after spec _ m1 st1 Hsp H Hh i h1 h2 j r eq_refl Hn Hj) as [E|E]; rewrite Hi in E; [discriminate|].
  vm_compute in E. discriminate E.
Qed.

Lemma wstep_gp : gets_puts wstep.
Proof. intros m r m'. split; [intros k H; exact H|intros k v H; exact (proj2 H)]. Qed.
Lemma nstep_gp : gets_puts nstep.
Proof. intros m r m'. split; [intros k H; exact H|intros k v H; exact (proj2 H)]. Qed.

Lemma gr_refuted : exists todos sched, Forall (Forall legal_op) todos /\ Forall (Forall keeps) todos /\
  Forall (Forall not_increment) todos /\ inserts_alone (sy_hist (after idcfg ex_fuel (init_state 8 4 1024) todos sched)) /\
  ~ linearizable wstep ∅ (sy_hist (after idcfg ex_fuel (init_state 8 4 1024) todos sched)) /\
  ~ linearizable nstep ∅ (sy_hist (after idcfg ex_fuel (init_state 8 4 1024) todos sched)).
Proof.
  exists gr_todos, gr_sched. split; [apply legal_todos_ok; vm_compute; reflexivity|].
  split; [unfold gr_todos, w19_todos; repeat constructor|]. split; [unfold gr_todos, w19_todos; repeat constructor|].
  split; [apply aloneb_ok; vm_compute; reflexivity|]. change (after _ _ _ _ _) with gr_y.
  assert (E : sy_hist gr_y = ERes 10 (OGet 468) (RVal NOTFOUND) :: [] ++ EInv 10 (OGet 468) :: tl (tl (sy_hist gr_y))) by (vm_compute; reflexivity).
  assert (Hc : forall a o, In (EInv a o) ([] ++ EInv 10 (OGet 468) :: tl (tl (sy_hist gr_y))) -> calm o).
  { assert (Hb : forallb (fun e => match e with EInv _ (OGet _) => true | EInv _ (OPut k v) => negb (k =? 468)%N || (v =? 80)%N | EInv _ _ => false | _ => true end)
      ([] ++ EInv 10 (OGet 468) :: tl (tl (sy_hist gr_y))) = true) by (vm_compute; reflexivity).
    rewrite forallb_forall in Hb. intros a o Ho. specialize (Hb _ Ho). destruct o; try discriminate Hb; cbn; [exact I|].
    intros ->. cbn in Hb. apply N.eqb_eq in Hb. exact Hb. }
  assert (Hp : In (ERes 0 (OPut 468 80) (RVal NOTFOUND)) (tl (tl (sy_hist gr_y)))) by (vm_compute; tauto).
  assert (Hno : forall e : event, In e [] -> event_thread e <> 10) by (intros e []).
  rewrite E. split; [exact (not_lin wstep 10 [] _ 0 _ wstep_gp Hc Hno Hp)|exact (not_lin nstep 10 [] _ 0 _ nstep_gp Hc Hno Hp)].
Qed.

(** ** A count that is lost by growing *)
Definition gi_todos : list (list op) := [map OIncrement [24; 32; 40; 48; 56; 64; 72; 80; 88]; [OGet 88]]%N.
Definition gi_sched : list nat := segs [(0, 1500); (1, 60)].
Lemma gi_refuted : exists todos sched, Forall (Forall legal_op) todos /\ Forall (Forall counting) todos /\
  inserts_alone (sy_hist (after idcfg ex_fuel (init_state 8 4 1024) todos sched)) /\
  ~ counts_right (sy_hist (after idcfg ex_fuel (init_state 8 4 1024) todos sched)).
Proof.
  exists gi_todos, gi_sched. split; [apply legal_todos_ok; vm_compute; reflexivity|]. split; [repeat constructor|].
  split; [apply aloneb_ok; vm_compute; reflexivity|].
  set (h := sy_hist _).
  assert (E : h = [] ++ ERes 1 (OGet 88) (RVal INCREMENT_ARG) :: [] ++ EInv 1 (OGet 88) :: tl (tl h)) by (vm_compute; reflexivity).
  intros H. destruct (H [] [] (tl (tl h)) 1 88%N INCREMENT_ARG E) as (j & _ & H1 & H2); [intros e []|].
  assert (Hs : incs_started 88 ([] ++ tl (tl h)) = 1) by (vm_compute; reflexivity). rewrite Hs in H1.
  destruct j as [|[|j]]; [vm_compute in H2; discriminate H2|vm_compute in H2; discriminate H2|lia].
Qed.
