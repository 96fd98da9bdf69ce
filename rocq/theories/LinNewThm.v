(** Concurrent executions with first insertions, from a new map and from one that is already in use. *)
From Coq Require Import NArith Bool List Lia.
From stdpp Require Import base list gmap.
From Verif Require Import Word Bits Prog HashMap Conc Spec LinSpec Abs Probe CodecThm SeqInv SeqPut SeqGet SeqApi Lin LinThm LinNew LinNewAbs LinCount.
Import ListNotations.
Open Scope nat_scope.

Lemma broken_exec tb c s : broken tb s -> broken tb (snd (exec c s)).
Proof.
  assert (Hw : forall t f, (forall T, t_new T <> None -> t_new (f T) <> None) -> broken tb s -> broken tb (with_tab t f s)).
  { intros t f Hf. unfold broken, with_tab. cbn. destruct (Nat.eq_dec t tb) as [->|Hne].
    - rewrite list_lookup_alter. destruct (st_tabs s !! tb); cbn; auto.
    - rewrite list_lookup_alter_ne by exact Hne. auto. }
  intros H. destruct c; cbn [exec]; try exact H.
  - destruct (_ =? _)%N; [|exact H]. apply Hw; [|exact H]. auto.
  - apply Hw; [|exact H]. auto.
  - apply Hw; [|exact H]. intros T. destruct f; auto.
  - destruct (_ =? _)%N; [|exact H]. apply Hw; [|exact H]. intros T. destruct f; auto.
  - destruct (option_nat_eqb _ _); [|exact H]. apply Hw; [|exact H]. discriminate.
  - destruct (_ =? _); exact H.
  - destruct (mmap_table _ _ _ _ _) as [T|]; [|exact H]. unfold broken in *. cbn.
    destruct (st_tabs s !! tb) as [T0|] eqn:E; [rewrite lookup_app_l, E by (eapply lookup_lt_Some; eauto); exact H|contradiction].
Qed.

(** ** The system *)
Section Sys.
Context (C : cfg) (n L : nat) (strict : bool) (tb : nat) (s0 : state).
(** The keys and the contents at the start. *)
Context (K0 : N -> Prop) (m0 : gmap N N).
Context (HL : 8 <= L) (Hpow : exists e, L = 2 ^ e) (HL59 : (N.of_nat L < 2 ^ 59)%N) (Hsext : forall h, mask (sext32 h) L = mask h L).
Notation J := (J C L strict tb s0).
Notation lk := (lk C L strict tb s0).
Notation finished := (finished L).

Definition tsim (A : world) (th : thread) (x : status) : Prop :=
  Forall legal_op (th_todo th) /\
  match th_cur th with
  | None => x = LinSpec.Idle
  | Some (o, p) => legal_op o /\ exists d, x = standing o d /\ lk o p (finished o) d A
  end.

(** More keys than it takes to make a search long. *)
Definition busy (h : list event) : Prop := exists ks, NoDup ks /\ Nat.min L (S REPROBE_LIMIT) <= length ks /\
  forall k, k ∈ ks -> K0 k \/ exists i o, In (EInv i o) h /\ claim_key o = Some k.

Record good (y : sys) : Prop := mkGood {
  g_sim : exists m st A, atomic cstep m0 (sy_hist y) m st /\ J m A (sy_st y) /\
    (forall i th, sy_thr y !! i = Some th -> tsim A th (st i)) /\
    (forall i, i < L -> A i <> KINITIAL -> K0 (A i) \/ exists j o, In (EInv j o) (sy_hist y) /\ claim_key o = Some (A i)) /\
    (forall k, K0 k -> k <> KINITIAL /\ haskey L A k) /\
    (forall i o r k, In (ERes i o r) (sy_hist y) -> claim_key o = Some k -> k <> KINITIAL /\ haskey L A k) /\
    (forall i j th th' o p o' p' k k', i <> j -> sy_thr y !! i = Some th -> sy_thr y !! j = Some th' ->
       th_cur th = Some (o, p) -> th_cur th' = Some (o', p') -> claim_key o = Some k -> claim_key o' = Some k' ->
       k = k' \/ strict = true -> haskey L A k \/ haskey L A k');
  g_cur : forall i th o p, sy_thr y !! i = Some th -> th_cur th = Some (o, p) -> In (EInv i o) (sy_hist y)
}.

Definition sim (y : sys) : Prop := (broken tb (sy_st y) /\ busy (sy_hist y)) \/ good y.

Lemma busy_cons e h : busy h -> busy (e :: h).
Proof.
  intros (ks & H1 & H2 & H3). exists ks. split; [exact H1|]. split; [exact H2|]. intros k Hk.
  destruct (H3 k Hk) as [H|(i & o & H & H')]; [left; exact H|right]. exists i, o. split; [right; exact H|exact H'].
Qed.

Lemma many_busy m A s h : J m A s -> many L A ->
  (forall i, i < L -> A i <> KINITIAL -> K0 (A i) \/ exists j o, In (EInv j o) h /\ claim_key o = Some (A i)) -> busy h.
Proof.
  intros HJ Hm Hh. exists (map A (List.filter (used A) (seq 0 L))).
  assert (Hin : forall i, i ∈ List.filter (used A) (seq 0 L) -> i < L /\ A i <> KINITIAL).
  { intros i Hi. apply elem_of_list_In, filter_In in Hi as [H1 H2]. apply in_seq in H1. split; [lia|].
    unfold used in H2. apply negb_true_iff, N.eqb_neq in H2. exact H2. }
  split; [|split].
  - apply NoDup_fmap_2_strong.
    + intros x y Hx Hy E. destruct (Hin x Hx) as [X1 X2], (Hin y Hy) as [Y1 Y2].
      destruct (j_wp _ _ _ _ _ _ _ _ HJ x X1 X2) as (_ & c & Hc). destruct (j_wp _ _ _ _ _ _ _ _ HJ y Y1 Y2) as (_ & c' & Hc').
      rewrite <- E in Hc'. exact (proj1 (hm_unique _ _ _ _ _ _ _ _ _ Hc Hc')).

    + apply NoDup_ListNoDup. apply List.NoDup_filter. apply seq_NoDup.
  - rewrite map_length. exact Hm.
  - intros k Hk. apply elem_of_list_fmap in Hk as (i & -> & Hi). apply Hh; apply Hin, Hi.
Qed.

Lemma finished_closed o : closed L strict o (finished o).
Proof.
  intros a d A A' (H1 & H3) He. split; [exact H1|]. intros k Hk. destruct (H3 k Hk) as [H4 H5].
  split; [exact H4|]. eapply has_env; eauto.
Qed.

(** Another thread's step. *)
Lemma guar_env o o' A A' : guar L o A A' ->
  (forall k k', claim_key o = Some k -> claim_key o' = Some k' -> k = k' \/ strict = true -> haskey L A k \/ haskey L A k') ->
  env L strict o' A A'.
Proof.
  intros [H|(j & k & H1 & H2 & H3 & H4 & H5 & ->)] Hr; [apply env_mild, H|]. split; [|auto]. intros i. cbn.
  destruct (Nat.eqb_spec i j) as [->|_]; [|auto]. right. split; [exact H3|]. split.
  - intros E. assert (HK : haskey L A k) by (destruct (Hr k k H1 E) as [X|X]; auto). destruct HK as (i & Hi & Ei). exact (H5 i Hi Ei).
  - intros Es k' E. destruct (Hr k k' H1 E) as [(i & Hi & Ei)|X]; [auto|destruct (H5 i Hi Ei)|exact X].
Qed.
Lemma guar_has o A A' k : guar L o A A' -> k <> KINITIAL -> haskey L A k -> haskey L A' k.
Proof.
  intros [(H & _)|(j & k' & H1 & H2 & H3 & H4 & H5 & ->)] Hk (i & Hi & Ei); [exists i; rewrite H; auto..|]. exists i. split; [exact Hi|].
  rewrite claim_ne; [exact Ei|]. congruence.
Qed.

Definition orderly (h : list event) : Prop := no_insert_race_from K0 h /\ (strict = true -> inserts_alone h).
Lemma orderly_tail e h : orderly (e :: h) -> orderly h.
Proof.
  intros [H G]. split.
  - intros h1 h2 i j o o' k ->. apply (H (e :: h1)). reflexivity.
  - intros Hs h1 h2 i j o o' k k' ->. apply (G Hs (e :: h1)). reflexivity.
Qed.

Lemma legal_claim o k : legal_op o -> claim_key o = Some k -> k <> KINITIAL.
Proof.
  intros Hl E. assert (legal_key k).
  { destruct o; try discriminate E; injection E as <-; cbn in Hl; tauto. }
  apply (legal_client _ H).
Qed.

Lemma sim_step i y : orderly (sy_hist (tstep C n i y)) -> sim y -> sim (tstep C n i y).
Proof.
  intros Hrace [[Hb Hy]|[(m & st & A & Ha & HJ & Ht & Hu & H0 & Hr & Hc) Hcur]].
  - left. unfold tstep. destruct (sy_thr y !! i) as [th|]; [|auto]. destruct (th_cur th) as [[o [r|e|c k]]|]; [| | |].
    + split; [exact Hb|apply busy_cons, Hy].
    + auto.
    + pose proof (broken_exec tb c _ Hb) as Hb'. destruct (exec c (sy_st y)) as [r s]. split; assumption.
    + destruct (th_todo th); [auto|]. split; [exact Hb|apply busy_cons, Hy].
  - unfold tstep in *. destruct (sy_thr y !! i) as [th|] eqn:Hi; [|right; constructor; [exists m, st, A; auto 12|exact Hcur]].
    pose proof (lookup_lt_Some _ _ _ Hi) as Hilt.
    pose proof (Ht i th Hi) as [Htodo Hth]. destruct (th_cur th) as [[o p]|] eqn:Hcu.
    + destruct Hth as (Hleg & d & Hx & Hp). destruct p as [r|e|c k].
      * (* a call returns *)
        cbn [LinNew.lk] in Hp. destruct Hp as (-> & Hf). cbn [standing] in Hx. right. constructor; cbn [sy_hist sy_st sy_thr] in *.
        -- exists m, (put_at st i LinSpec.Idle), A. split; [exact (at_res _ _ _ _ _ _ _ _ Ha Hx)|].
           split; [exact HJ|]. split; [|split; [|split; [exact H0|split]]].
           ++ intros j th' Hj. apply list_lookup_insert_Some in Hj as [(<- & <- & _)|(Hne & Hj)].
              ** rewrite put_at_eq. split; [exact Htodo|]. cbn. auto.
              ** rewrite put_at_ne by congruence. apply Ht, Hj.
           ++ intros j Hj HA. destruct (Hu j Hj HA) as [H1|(j' & o' & H1 & H2)]; [left; exact H1|right]. exists j', o'. split; [right; exact H1|exact H2].
           ++ intros j o' r' k' [E|E] Hk'; [|eapply Hr; eauto]. injection E as <- <- <-. apply Hf, Hk'.
           ++ intros j j' t1 t2 o1 p1 o2 p2 k1 k2 Hne H1 H2 H3 H4.
              apply list_lookup_insert_Some in H1 as [(<- & <- & _)|(_ & H1)]; [discriminate H3|].
              apply list_lookup_insert_Some in H2 as [(<- & <- & _)|(_ & H2)]; [discriminate H4|]. eapply Hc; eauto.
        -- intros j th' o' p' H1 H2. apply list_lookup_insert_Some in H1 as [(<- & <- & _)|(_ & H1)]; [discriminate H2|].
           right. eapply Hcur; eauto.
      * right. constructor; [exists m, st, A; auto 12|exact Hcur].
      * (* a command *)
        cbn [LinNew.lk] in Hp. destruct (Hp A m (sy_st y) (env_refl _ _ _ _) HJ) as [[Hb Hmany]|(d' & m' & A' & Hs & Hg & HJ' & Hk)].
        { left. destruct (exec c (sy_st y)) as [r s] eqn:He. cbn [fst snd] in *. split; [exact Hb|]. eapply many_busy; eauto. }
        right. destruct (exec c (sy_st y)) as [r s] eqn:He. cbn [fst snd] in *. constructor; cbn [sy_hist sy_st sy_thr] in *.
        -- set (st' := match d', d with Some r', None => put_at st i (Took o r') | _, _ => st end).
           assert (Hst : atomic cstep m0 (sy_hist y) m' st' /\ st' i = standing o d' /\ forall j, j <> i -> st' j = st j).
           { destruct Hs as [[-> ->]|(-> & r' & -> & Hw)]; unfold st'.
             - destruct d; cbn; auto.
             - split; [exact (at_take _ _ _ _ _ _ _ _ _ Ha Hx Hw)|]. split; [apply put_at_eq|]. intros j Hj. apply put_at_ne, Hj. }
           destruct Hst as (Hat & Hsi & Hsj). exists m', st', A'. split; [exact Hat|].
           split; [exact HJ'|]. split; [|split; [|split; [|split]]].
           ++ intros j th' Hj. apply list_lookup_insert_Some in Hj as [(<- & <- & _)|(Hne & Hj)].
              ** rewrite Hsi. split; [exact Htodo|]. cbn. split; [exact Hleg|]. exists d'. auto.
              ** rewrite Hsj by congruence. destruct (Ht j th' Hj) as [H1 H2]. split; [exact H1|].
                 destruct (th_cur th') as [[o' p']|] eqn:Hcu'; [|exact H2]. destruct H2 as (Hleg' & d2 & H3 & H4).
                 split; [exact Hleg'|]. exists d2. split; [exact H3|]. eapply lk_env; [..|apply finished_closed|exact H4|]; try eassumption.
                 eapply guar_env; [exact Hg|]. intros k1 k2 K1 K2. eapply (Hc i j); eauto.
           ++ intros j Hj HA. destruct Hg as [(Hm & _)|(j0 & k0 & G1 & G2 & G3 & G4 & G5 & ->)]; [rewrite Hm in *; exact (Hu j Hj HA)|]. cbn in *.
              destruct (Nat.eqb_spec j j0) as [->|_]; [|auto]. right. exists i, o. split; [|exact G1]. eapply Hcur; eauto.
           ++ intros k' H1. destruct (H0 k' H1) as [H3 H4]. split; [exact H3|]. eapply guar_has; eauto.
           ++ intros j o' r' k' H1 H2. destruct (Hr j o' r' k' H1 H2) as [H3 H4]. split; [exact H3|]. eapply guar_has; eauto.
           ++ intros j j' t1 t2 o1 p1 o2 p2 k1 k2 Hne H1 H2 H3 H4 H5 H6.
              assert (HL1 : exists t1' p1', sy_thr y !! j = Some t1' /\ th_cur t1' = Some (o1, p1')).
              { apply list_lookup_insert_Some in H1 as [(<- & <- & _)|(_ & H1)]; [|eauto]. cbn in H3. injection H3 as <- <-. eauto. }
              assert (HL2 : exists t2' p2', sy_thr y !! j' = Some t2' /\ th_cur t2' = Some (o2, p2')).
              { apply list_lookup_insert_Some in H2 as [(<- & <- & _)|(_ & H2)]; [|eauto]. cbn in H4. injection H4 as <- <-. eauto. }
              destruct HL1 as (t1' & p1' & L1 & L2), HL2 as (t2' & p2' & L3 & L4).
              assert (Hk1 : k1 <> KINITIAL).
              { destruct (Ht j t1' L1) as [_ Hx1]. rewrite L2 in Hx1. destruct Hx1 as [Hx1 _]. eapply legal_claim; eauto. }
              assert (Hk2 : k2 <> KINITIAL).
              { destruct (Ht j' t2' L3) as [_ Hx1]. rewrite L4 in Hx1. destruct Hx1 as [Hx1 _]. eapply legal_claim; eauto. }
              intros Hor. destruct (Hc j j' t1' t2' o1 p1' o2 p2' k1 k2) as [X|X]; try assumption; [left|right]; eapply guar_has; eauto.
        -- intros j th' o' p' H1 H2. apply list_lookup_insert_Some in H1 as [(<- & <- & _)|(_ & H1)]; [|eapply Hcur; eauto].
           cbn in H2. injection H2 as <- <-. eapply Hcur; eauto.
    + (* a call starts *)
      rename Hth into Hidle. destruct (th_todo th) as [|o os] eqn:Etd; [right; constructor; [exists m, st, A; auto 12|exact Hcur]|].
      apply Forall_cons in Htodo as [Hleg Hos]. right. constructor; cbn [sy_hist sy_st sy_thr] in *.
      * exists m, (put_at st i (LinSpec.Called o)), A. split; [exact (at_inv _ _ _ _ _ _ _ Ha Hidle)|].
        split; [exact HJ|]. split; [|split; [|split; [exact H0|split]]].
        -- intros j th' Hj. apply list_lookup_insert_Some in Hj as [(<- & <- & _)|(Hne & Hj)].
           ++ rewrite put_at_eq. split; [exact Hos|]. cbn. split; [exact Hleg|]. exists None. split; [reflexivity|].
              apply lk_op; auto.
           ++ rewrite put_at_ne by congruence. apply Ht, Hj.
        -- intros j Hj HA. destruct (Hu j Hj HA) as [H1|(j' & o' & H1 & H2)]; [left; exact H1|right]. exists j', o'. split; [right; exact H1|exact H2].
        -- intros j o' r' k' [E|E] Hk'; [discriminate|eapply Hr; eauto].
        -- assert (Hset : forall k', settled (sy_hist y) k' -> haskey L A k').
           { intros k' (i' & o'' & r & H5 & H6). apply (Hr i' o'' r k' H5 H6). }
           assert (Hnew : forall j t2 o2 p2 k1 k2, i <> j -> sy_thr y !! j = Some t2 -> th_cur t2 = Some (o2, p2) ->
             claim_key o = Some k1 -> claim_key o2 = Some k2 -> k1 = k2 \/ strict = true -> haskey L A k1 \/ haskey L A k2).
           { intros j t2 o2 p2 k1 k2 Hne H1 H2 H3 H4 [<-|Es].
             - left. destruct (proj1 Hrace [] (sy_hist y) i j o o2 k1 eq_refl H3 (Hcur _ _ _ _ H1 H2) H4 (not_eq_sym Hne)) as [X|X]; [apply H0, X|apply Hset, X].
             - destruct (proj2 Hrace Es [] (sy_hist y) i j o o2 k1 k2 eq_refl H3 (Hcur _ _ _ _ H1 H2) H4 (not_eq_sym Hne)); auto. }
           intros j j' t1 t2 o1 p1 o2 p2 k1 k2 Hne H1 H2 H3 H4 H5 H6 H7.
           apply list_lookup_insert_Some in H1 as [(<- & <- & _)|(_ & H1)];
             apply list_lookup_insert_Some in H2 as [(<- & <- & _)|(_ & H2)].
           ++ contradiction.
           ++ cbn in H3. injection H3 as <- <-. eapply (Hnew j'); eauto.
           ++ cbn in H4. injection H4 as <- <-. destruct (Hnew j t1 o1 p1 k2 k1); auto. destruct H7; auto.
           ++ eapply Hc; eauto.
      * intros j th' o' p' H1 H2. apply list_lookup_insert_Some in H1 as [(<- & <- & _)|(_ & H1)].
        -- cbn in H2. injection H2 as <- <-. left. reflexivity.
        -- right. eapply Hcur; eauto.
Qed.

Lemma hist_step i y : sy_hist (tstep C n i y) = sy_hist y \/ exists e, sy_hist (tstep C n i y) = e :: sy_hist y.
Proof.
  unfold tstep. destruct (sy_thr y !! i) as [th|]; [|auto]. destruct (th_cur th) as [[o [r|e|c k]]|]; cbn; eauto.
  - destruct (exec c (sy_st y)). auto.
  - destruct (th_todo th); cbn; eauto.
Qed.

Lemma orderly_conc sched : forall y, orderly (sy_hist (conc C n sched y)) -> orderly (sy_hist y).
Proof.
  induction sched as [|i l IH]; intros y H; [exact H|]. apply IH in H. destruct (hist_step i y) as [E|[e E]]; rewrite E in H; [exact H|].
  eapply orderly_tail; eauto.
Qed.

Lemma sim_conc sched : forall y, orderly (sy_hist (conc C n sched y)) -> sim y -> sim (conc C n sched y).
Proof.
  induction sched as [|i l IH]; intros y H Hs; [exact Hs|]. cbn [conc] in *. apply IH; [exact H|]. apply sim_step; [|exact Hs].
  eapply orderly_conc; eauto.
Qed.
End Sys.

(** ** From a new map *)
Definition world0 (cap : nat) : world := W (fun i => if i <? cap then KINITIAL else 0%N) (fun _ _ => false) (fun _ => false).
Lemma J_init C cap strict ppl maxcap : 0 < cap -> J C cap strict 0 (init_state cap ppl maxcap) ∅ (world0 cap) (init_state cap ppl maxcap).
Proof.
  intros Hcap.
  assert (HA : forall i, i < cap -> world0 cap i = KINITIAL) by (intros i Hi; unfold world0; cbn [ky]; apply Nat.ltb_lt in Hi; rewrite Hi; reflexivity).
  constructor.
  - reflexivity.
  - intros i Hi HA'. rewrite HA in HA' by exact Hi. contradiction.
  - intros k x. rewrite lookup_empty. discriminate.
  - intros k. unfold word. rewrite lookup_empty. split; reflexivity.
  - eexists. split; [reflexivity|]. cbn [fresh_table t_len t_pairs t_new]. split; [reflexivity|]. split; [apply replicate_length|]. split; [reflexivity|]. split.
    + intros i Hi. rewrite (HA i Hi). unfold keyat, valat. rewrite lookup_replicate_2 by exact Hi. split; [reflexivity|].
      intros _. split; [reflexivity|]. split; discriminate.
    + intros k i c (_ & E1 & E2 & E3 & _). exfalso. apply E3. rewrite <- E2. apply HA. rewrite E1. apply pos_lt, Hcap.
  - discriminate.
  - apply frame_refl.
Qed.

(** Every call is invoked at most once. *)
Definition remaining (ths : list thread) : nat := length (concat (map th_todo ths)).
Lemma remaining_insert ths i th th' : ths !! i = Some th ->
  remaining (<[i := th']> ths) + length (th_todo th) = remaining ths + length (th_todo th').
Proof.
  intros Hi. pose proof (lookup_lt_Some _ _ _ Hi) as Hlt. rewrite insert_take_drop by exact Hlt.
  rewrite <- (take_drop_middle ths i th Hi) at 3. unfold remaining. rewrite !map_app, !concat_app, !app_length. cbn [map concat].
  rewrite !app_length. lia.
Qed.
Lemma calls_conc C n sched : forall y, inv_count (sy_hist (conc C n sched y)) <= inv_count (sy_hist y) + remaining (sy_thr y).
Proof.
  induction sched as [|i l IH]; intros y; [cbn; lia|]. cbn [conc]. etransitivity; [apply IH|].
  unfold tstep. destruct (sy_thr y !! i) as [th|] eqn:Hi; [|lia]. destruct (th_cur th) as [[o [r|e|c k]]|].
  - cbn [sy_hist sy_thr]. pose proof (remaining_insert _ _ _ (mkThread None (th_todo th)) Hi) as H. cbn [th_todo] in H.
    unfold inv_count in *. cbn. lia.
  - lia.
  - destruct (exec c (sy_st y)) as [r s]. cbn [sy_hist sy_thr].
    pose proof (remaining_insert _ _ _ (mkThread (Some (o, k r)) (th_todo th)) Hi) as H. cbn [th_todo] in H. lia.
  - destruct (th_todo th) as [|o os] eqn:Et; [lia|]. cbn [sy_hist sy_thr].
    pose proof (remaining_insert _ _ _ (mkThread (Some (o, op_prog C n o)) os) Hi) as H. rewrite Et in H. cbn [th_todo length] in H.
    unfold inv_count in *. cbn. lia.
Qed.

Section Main.
Context (C : cfg) (cap ppl : nat) (maxcap : N) (n : nat) (todos : list (list op)) (sched : list nat).
Context (Hcap : good_cap cap maxcap) (Hmax : (maxcap <= 2 ^ 32)%N) (Hleg : Forall (Forall legal_op) todos).
Let s0 := init_state cap ppl maxcap.
Notation none := (fun _ : N => False).
Notation broken := (broken 0).
Notation J := (fun strict => J C cap strict 0 s0).
Let y := after C n (init_state cap ppl maxcap) todos sched.

Lemma cap_facts : 8 <= cap /\ (exists e, cap = 2 ^ e) /\ (N.of_nat cap < 2 ^ 59)%N /\ forall h, mask (sext32 h) cap = mask h cap.
Proof.
  destruct Hcap as [(e & He & He3) Ha]. unfold can_alloc in Ha. apply andb_true_iff in Ha as [_ Ha].
  assert (Hle : (N.of_nat cap <= 2 ^ 32)%N) by (apply N.leb_le in Ha; lia).
  split; [|split; [eauto|split]].
  - rewrite He. change 8 with (2 ^ 3). apply Nat.pow_le_mono_r; lia.
  - eapply N.le_lt_trans; [exact Hle|]. reflexivity.
  - intros h. rewrite He. apply mask_sext32. rewrite He, Nat2N.inj_pow in Hle. apply N.pow_le_mono_r_iff in Hle; lia.
Qed.

Lemma sim_init strict : sim C cap strict 0 s0 none ∅ (start (init_state cap ppl maxcap) todos).
Proof.
  right. constructor.
  - exists ∅, (fun _ => LinSpec.Idle), (world0 cap). split; [constructor|]. split; [apply J_init; pose proof (proj1 cap_facts); lia|].
    split; [|split; [|split; [intros k []|split]]].
    + intros i th Hi. cbn in Hi. rewrite lookup_map in Hi. destruct (todos !! i) as [os|] eqn:E; [|discriminate].
      injection Hi as <-. split; [|reflexivity]. exact (Forall_lookup_1 _ _ _ _ Hleg E).
    + intros i Hi HA. exfalso. apply HA. unfold world0; cbn [ky]. apply Nat.ltb_lt in Hi. rewrite Hi. reflexivity.
    + intros i o r k [].
    + intros i j th th' o p o' p' k k' _ Hi _ Hc. cbn in Hi. rewrite lookup_map in Hi. destruct (todos !! i); [|discriminate].
      injection Hi as <-. discriminate.
  - intros i th o p Hi Hc. cbn in Hi. rewrite lookup_map in Hi. destruct (todos !! i); [|discriminate]. injection Hi as <-. discriminate.
Qed.

Lemma sim_final strict : orderly strict none (sy_hist y) -> sim C cap strict 0 s0 none ∅ y.
Proof.
  intros Hord. destruct cap_facts as (H1 & H2 & H3 & H4). apply sim_conc; try assumption. apply sim_init.
Qed.

(** With one thread at a time inserting, an entry is used only when the keys before it on its search are persistent. *)
Lemma alone_race h : inserts_alone h -> no_insert_race h.
Proof. intros H h1 h2 i j o o' k E1 E2 E3 E4 E5. destruct (H h1 h2 i j o o' k k E1 E2 E3 E4 E5); assumption. Qed.
Lemma race_none h : no_insert_race h -> no_insert_race_from none h.
Proof. intros H h1 h2 i j o o' k E1 E2 E3 E4 E5. right. eapply H; eauto. Qed.
Lemma new_strict : inserts_alone (sy_hist y) -> unresized (sy_st y) -> exists m A, J true m A (sy_st y).
Proof.
  intros Ha Hun. destruct (sim_final true) as [[H _]|[(m & st & A & _ & HJ & _) _]]; [split; [apply race_none, alone_race, Ha|auto]| |eauto].
  exfalso. revert H Hun. unfold broken, unresized. destruct (st_tabs (sy_st y) !! 0); auto.
Qed.

Context (Hrace : no_insert_race (sy_hist y)).
Lemma new_main : (broken (sy_st y) /\ busy cap none (sy_hist y)) \/
  (unresized (sy_st y) /\ linearizable cstep ∅ (sy_hist y) /\
   forall i th o e, sy_thr y !! i = Some th -> th_cur th = Some (o, Err e) -> e = OutOfFuel \/ busy cap none (sy_hist y)).
Proof.
  destruct (sim_final false) as [H|[(m & st & A & Ha & HJ & Ht & Hu & _) _]]; [split; [apply race_none, Hrace|discriminate]|left; exact H|right].
  split; [|split].
  - unfold unresized. destruct (j_tab _ _ _ _ _ _ _ _ HJ) as (T & HT & _ & _ & HN & _). rewrite HT. exact HN.
  - exists m, st. exact Ha.
  - intros i th o e Hi Hc. destruct (Ht i th Hi) as [_ Hth]. rewrite Hc in Hth. destruct Hth as (_ & d & _ & Hk). cbn in Hk.
    destruct Hk as [Hk|Hk]; [auto|right]. destruct cap_facts as (F1 & F2 & F3 & F4).
    eapply many_busy; eassumption.
Qed.

Lemma new_history P : Forall (Forall P) todos -> invoked P (sy_hist y).
Proof. intros H i o. apply (hist_todos P). exact H. Qed.

(** Few keys. *)
Lemma few_not_busy ks : writes_among ks todos -> length ks < Nat.min cap (S REPROBE_LIMIT) -> ~ busy cap none (sy_hist y).
Proof.
  intros Hw Hl (ks' & Hn & Hlen & Hin).
  assert (Hle : length ks' <= length ks); [|lia]. apply NoDup_incl_length; [apply NoDup_ListNoDup, Hn|].
  intros k Hk. apply elem_of_list_In in Hk. destruct (Hin k Hk) as [[]|(i & o & H1 & H2)].
  apply (new_history (fun o => forall k, claim_key o = Some k -> In k ks) Hw i o H1 k H2).
Qed.

Lemma broken_unresized s : broken s -> unresized s -> False.
Proof. unfold broken, unresized. destruct (st_tabs s !! 0); [|auto]. intros H H'. contradiction. Qed.

Lemma new_lin : Forall (Forall not_increment) todos -> unresized (sy_st y) -> linearizable wstep ∅ (sy_hist y).
Proof.
  intros Hni Hun. destruct new_main as [[H _]|(_ & (m & st & Ha) & _)]; [destruct (broken_unresized _ H Hun)|].
  assert (HP : Forall (Forall (fun o => legal_op o /\ not_increment o)) todos).
  { apply Forall_forall. intros l Hl. apply Forall_forall. intros o Ho.
    rewrite Forall_forall in Hleg, Hni. specialize (Hleg l Hl). specialize (Hni l Hl). rewrite Forall_forall in Hleg, Hni. auto. }
  destruct (atomic_map cstep wstep view (fun _ => contents) (fun o => legal_op o /\ not_increment o) (inv_count (sy_hist y)) ∅) with (h := sy_hist y) (m := m) (st := st) as [H _].
  - intros k x. rewrite lookup_empty. discriminate.
  - intros n' m1 o r m2 _ H1 [H2 H3] H4. apply cstep_wstep; assumption.
  - exact Ha.
  - apply new_history, HP.
  - reflexivity.
  - rewrite view_empty in H. exists (view m), st. exact H.
Qed.

Lemma new_few ks : writes_among ks todos -> length ks < Nat.min cap (S REPROBE_LIMIT) -> unresized (sy_st y) /\
  forall i th o e, sy_thr y !! i = Some th -> th_cur th = Some (o, Err e) -> e = OutOfFuel.
Proof.
  intros Hw Hl. pose proof (few_not_busy ks Hw Hl) as Hnb. destruct new_main as [[_ H]|(Hun & _ & He)]; [contradiction|].
  split; [exact Hun|]. intros i th o e Hi Hc. destruct (He i th o e Hi Hc); [assumption|contradiction].
Qed.

Lemma new_nstep : Forall (Forall keeps) todos -> (N.of_nat (length (concat todos)) < 2 ^ 59)%N -> unresized (sy_st y) ->
  linearizable nstep ∅ (sy_hist y).
Proof.
  intros Hk HB Hun. destruct new_main as [[H _]|(_ & (m & st & Ha) & _)]; [destruct (broken_unresized _ H Hun)|].
  assert (HP : Forall (Forall (fun o => legal_op o /\ keeps o)) todos).
  { apply Forall_forall. intros l Hl. apply Forall_forall. intros o Ho.
    rewrite Forall_forall in Hleg, Hk. specialize (Hleg l Hl). specialize (Hk l Hl). rewrite Forall_forall in Hleg, Hk. auto. }
  destruct (atomic_map cstep nstep id (bounded (2 ^ 63)) (fun o => legal_op o /\ keeps o) (length (concat todos)) ∅)
    with (h := sy_hist y) (m := m) (st := st) as [H _].
  - intros k x. rewrite lookup_empty. discriminate.
  - intros n' m1 o r m2 Hn H1 [H2 [H3 H3']] H4. apply (cstep_nstep (2 ^ 63)); try assumption.
    + rewrite NO_MATCH_OLD_val. change (2 ^ 63)%N with 9223372036854775808%N. change (2 ^ 59)%N with 576460752303423488%N in HB. lia.
    + discriminate.
    + eapply List.Forall_impl; [|exact H3']. cbn. intros v. apply N.lt_le_incl.
  - exact Ha.
  - apply new_history, HP.
  - unfold y, after. etransitivity; [apply calls_conc|]. cbn [start sy_hist sy_thr]. unfold remaining, inv_count. cbn.
    rewrite map_map. cbn. rewrite map_id. reflexivity.
  - exists m, st. exact H.
Qed.

Lemma new_counts : Forall (Forall counting) todos -> (N.of_nat (length (concat todos)) < 2 ^ 59)%N -> unresized (sy_st y) ->
  counts_right (sy_hist y) /\ tickets_distinct (sy_hist y).
Proof.
  intros Hc HB Hun. destruct new_nstep as (m & st & Ha); [|exact HB|exact Hun|].
  { eapply List.Forall_impl; [|exact Hc]. intros l Hl. eapply List.Forall_impl; [|exact Hl]. intros o Ho.
    split; destruct o; try contradiction; try exact I; constructor. }
  eapply counting_main; [exact Ha|apply new_history, Hc|].
  eapply N.le_lt_trans; [|exact HB]. apply N.lt_eq_cases. assert (Hle : inv_count (sy_hist y) <= length (concat todos)).
  { unfold y, after. etransitivity; [apply calls_conc|]. cbn [start sy_hist sy_thr]. unfold remaining, inv_count. cbn.
    rewrite map_map. cbn. rewrite map_id. reflexivity. }
  unfold inv_count in Hle. lia.
Qed.
End Main.
