(** Completing a call that is under way. *)
From Coq Require Import NArith Bool List Lia.
From stdpp Require Import base list.
From Verif Require Import Word Bits Codec CodecSpec CodecThm MwCas MwSpec MwWp MwSeq MwRely MwRecover MwHelpSpec MwHelp MwCallSpec.
Import ListNotations.
Local Open Scope N_scope.

Section Call.
Context (C : mcfg) (HC : mcfg_ok C).
Local Notation P := (2 ^ m_log C)%N.
Local Notation wp := (mwp any).
Context (me t s : N) (Hme : me < P) (Ht : t < P) (Hs : s < 2 ^ seqSize P).
Local Notation d := (call_ref s t).
Local Notation K := (as_word C (call_ref s t)).

Definition arr_of (ws : list mword) (l : loc) : Prop := exists x, In x ws /\ l = LArr (o_off x).
Definition wcell (l : loc) : Prop := l = LW me \/ (exists f, l = LWWord me f) \/ l = LWSeq me \/ l = LWTid me.
Definition placed (ws : list mword) (l : loc) : Prop := wcell l \/ arr_of ws l.
Definition words_at (m : mem) (i : nat) (ws : list mword) : Prop :=
  forall k x, nth_error ws k = Some x -> m (LKWord t (i + k) WOff) = o_off x /\ m (LKWord t (i + k) WOld) = o_old x /\ m (LKWord t (i + k) WNew) = o_new x.
Lemma words_cons m i x ws : words_at m i (x :: ws) ->
  (m (LKWord t i WOff) = o_off x /\ m (LKWord t i WOld) = o_old x /\ m (LKWord t i WNew) = o_new x) /\ words_at m (S i) ws.
Proof.
  intros H. split.
  - specialize (H 0%nat x eq_refl). rewrite Nat.add_0_r in H. exact H.
  - intros k y Hy. specialize (H (S k) y Hy). rewrite <- plus_n_Sm in H. exact H.
Qed.

Lemma K_facts : clean K = K /\ N.testbit K 1 = true /\ N.testbit K 2 = false /\ desc_decode P K = d.
Proof. destruct (kref_facts _ s t HC Hs Ht) as (R1 & R2 & R3 & R4 & R5). repeat split; assumption. Qed.
Lemma K_mval : ~ mval K.
Proof. intros (_ & _ & H & _). destruct K_facts as (_ & E & _). congruence. Qed.

Lemma wpc_more i (c : N) (Q : bool -> mem -> Prop) (m : mem) : m (LKCount t) = c -> Q (N.of_nat i <? c) m -> wp (more t i) Q m.
Proof. intros Hc H. unfold more. apply mwp_bind, mwp_load; [exact I|]. cbn. rewrite Hc. exact H. Qed.
Lemma wpc_word_address i j (Q : loc -> mem -> Prop) (m : mem) : m (LKWord t i WOff) = j -> j < m_size C -> Q (LArr j) m -> wp (word_address C t i) Q m.
Proof. intros E Hj H. unfold word_address. apply mwp_bind, mwp_load; [exact I|]. rewrite E. apply wpa_address; assumption. Qed.

(** The words that are not yet in the call have the expected values. *)
Definition fits (m : mem) (x : mword) : bool := (contents m (o_off x) =? K) || (contents m (o_off x) =? o_old x).
(** What placing does to a word. *)
Definition installed (m m' : mem) (x : mword) : Prop :=
  (contents m' (o_off x) = K /\ fits m x = true) \/ contents m' (o_off x) = contents m (o_off x).

(** The word descriptor of the thread. *)
Definition moved (m m' : mem) (k : nat) : Prop :=
  wseq m' me <= wseq m me + 2 * N.of_nat k /\ (m (LWWord me WOff) < m_size C -> m' (LWWord me WOff) < m_size C).

Lemma wpc_place rec n ws i (Q : N -> mem -> Prop) (m : mem) : (length ws < n)%nat ->
  clean (m (LK t)) = kenc Undecided s -> m (LKCount t) = N.of_nat (i + length ws) -> words_at m i ws -> NoDup (map o_off ws) ->
  (forall x, In x ws -> o_off x < m_size C /\ mval (o_old x)) ->
  (forall x, In x ws -> contents m (o_off x) = K \/ mval (contents m (o_off x))) ->
  wseq m me + 2 * N.of_nat (length ws) < 2 ^ seqSize P ->
  (forall m', cleaned_but (placed ws) m m' -> (forall x, In x ws -> installed m m' x) ->
     (forallb (fits m) ws = true -> forall x, In x ws -> contents m' (o_off x) = K) ->
     moved m m' (length ws) ->
     Q (if forallb (fits m) ws then Succeeded else Failed) m') ->
  wp (place C n rec me d i false) Q m.
Proof.
  revert ws i Q m. induction n as [|n IH]; intros ws i Q m Hn Hk Hc Hkw Hnd Hws Ha Hq H; [lia|]. cbn [place]. cbn [d_tid call_ref].
  change (mkDesc false true false s t) with d. apply mwp_bind. eapply wpc_more; [exact Hc|]. destruct ws as [|x ws].
  - rewrite (proj2 (N.ltb_ge _ _)) by (cbn; lia). cbn. apply H; [apply cleaned_refl|intros x []|intros _ x []|split; [lia|tauto]].
  - rewrite (proj2 (N.ltb_lt _ _)) by (cbn; lia). cbn [negb]. apply words_cons in Hkw as [(K1 & K2 & K3) Hkw].
    destruct (kenc_facts Undecided s eq_refl (seq_61 _ _ HC Hs)) as (D0 & E0 & F0).
    apply mwp_bind. unfold load_word. do 3 (apply mwp_bind, mwp_load; [exact I|]). cbn [mwp]. rewrite K1, K2, K3.
    destruct (Hws x (or_introl eq_refl)) as [Hx Hold]. pose proof (Ha x (or_introl eq_refl)) as Hvx.
    cbn [length] in Hq. apply mwp_bind, wph_createW; [exact Hme|exact Ht|].
    intros m1 s1 Hm1 Es1 Hs1 W1 W2 W3 W4 W5. cbn [o_off o_old o_new call_ref d_seq] in W1, W2, W3, W4.
    assert (Es1' : s1 = wseq m me + 2). { rewrite Es1. apply N.mod_small. apply (seq_63 _ _ HC). lia. }
    rewrite (N.mod_small s1) by (rewrite Es1'; lia). 
    assert (A1 : cleaned_but wcell m m1).
    { intros l. unfold wcell. destruct (decide (l = LW me)); [tauto|]. destruct (decide (l = LWSeq me)); [tauto|]. destruct (decide (l = LWTid me)); [tauto|].
      destruct l as [?|?|?|? ? ?|?|u f|?|?]; try (right; left; apply Hm1; congruence).
      destruct (decide (u = me)) as [->|Hu]; [left; right; left; eexists; reflexivity|]. right; left; apply Hm1; congruence. }
    assert (Ec1 : forall j, contents m1 j = contents m j). { intros j. apply (cb_contents _ _ _ A1). intros [?|[[? ?]|[?|?]]]; discriminate. }
    assert (Hk1 : clean (m1 (LK t)) = kenc Undecided s). { rewrite (cb_clean _ _ _ A1); [exact Hk|]. intros [?|[[? ?]|[?|?]]]; discriminate. }
    assert (G1 : word_ok C m1 me). { split; rewrite ?W1, ?W2, ?W4, ?W5, ?Hs1; [exact Hme|rewrite Es1'; lia|exact Hx|exact Ht|exact Hs|apply mval_clean, Hold]. }
    assert (U1 : outcome C m1 me = K).
    { unfold outcome, under_way. rewrite W4, W5. unfold kseq, kstat. change (km_seq (kmut_decode (m1 (LK t)))) with (sq (m1 (LK t))). change (km_status (kmut_decode (m1 (LK t)))) with (stt (m1 (LK t))).
      rewrite <- (sq_clean (m1 (LK t))), <- (stt_clean (m1 (LK t))), Hk1. unfold sq, stt. rewrite D0. cbn [km_seq km_status]. rewrite !N.eqb_refl. reflexivity. }
    destruct K_facts as (Kc & Kk & Kr & Kd).
    apply mwp_bind. destruct n as [|n]; [cbn in Hn; lia|]. rewrite <- Hs1.
    eapply (wph_install1 C HC n me); [exact G1| |].
    { rewrite W1, Ec1, isMarked_rdcss. destruct Hvx as [-> |(_ & _ & _ & Hv)]; [exact Kr|exact Hv]. }
    rewrite W1, W2, U1, !Ec1. intros m2 A2 E2. cbn [negb]. apply mwp_bind, mwp_load; [exact I|]. cbn [d_tid word_ref].
    assert (W2' : m2 (LWWord me WOld) = o_old x). { rewrite (cb_plain _ _ _ A2); [exact W2|discriminate|exact I]. }
    rewrite W2'. assert (W1' : m2 (LWWord me WOff) < m_size C). { rewrite (cb_plain _ _ _ A2); [rewrite W1; exact Hx|discriminate|exact I]. }
    assert (A12 : cleaned_but (placed (x :: ws)) m m2).
    { eapply cleaned_trans; [eapply cleaned_weaken; [|exact A1]|eapply cleaned_weaken; [|exact A2]]; intros l Hl; [left; exact Hl|]. right. exists x. split; [left; reflexivity|exact Hl]. }
    assert (Ec2 : forall j, j <> o_off x -> contents m2 j = contents m j). { intros j Hj. rewrite <- Ec1. apply (cb_contents _ _ _ A2). intros E. injection E. exact Hj. }
    assert (Hcont : contents m2 (o_off x) = K -> fits m x = true ->
      wp (place C (S n) rec me d (S i) false) Q m2).
    { intros E2k Hfit. change (NoDup (o_off x :: map o_off ws)) in Hnd. apply NoDup_cons in Hnd as [Hni Hnd]. rewrite elem_of_list_In in Hni.
      assert (Hne : forall y, In y ws -> o_off y <> o_off x) by (intros y Hy E; apply Hni; rewrite <- E; apply in_map, Hy).
      assert (Hfits : forall l', (forall y, In y l' -> In y ws) -> forallb (fits m2) l' = forallb (fits m) l').
      { intros l'. induction l' as [|y l' IHl]; [reflexivity|]. intros Hin. cbn. unfold fits at 1 3. rewrite Ec2 by (apply Hne, Hin; left; reflexivity). f_equal. apply IHl. intros z Hz. apply Hin. right. exact Hz. }
      assert (Q2 : wseq m2 me = wseq m me + 2). { rewrite (ca_wseq m1 m2 (at_in_arr _ _ _ A2)), Hs1. exact Es1'. }
      apply (IH ws (S i)); [cbn in Hn; lia| | | |exact Hnd| | |rewrite Q2; lia|].
      - rewrite (cb_clean _ _ _ A2) by discriminate. exact Hk1.
      - rewrite (cb_plain _ _ _ A12); [rewrite Hc; cbn [length]; f_equal; lia| |exact I]. intros [[?|[[? ?]|[?|?]]]|(? & _ & ?)]; discriminate.
      - intros k y Hy. rewrite !(cb_plain _ _ _ A12); try exact I; try (intros [[?|[[? ?]|[?|?]]]|(? & _ & ?)]; discriminate). apply Hkw, Hy.
      - intros y Hy. apply Hws. right. exact Hy.
      - intros y Hy. rewrite Ec2 by (apply Hne, Hy). apply Ha. right. exact Hy.
      - intros m' A' I' S' [Q' Q'']. rewrite (Hfits ws) in S' |- * by tauto.
        assert (Ex : contents m' (o_off x) = K).
        { rewrite (cb_contents _ _ _ A'); [exact E2k|]. intros [[?|[[? ?]|[?|?]]]|(y & Hy & E)]; try discriminate. injection E. intros E'. apply (Hne y Hy). congruence. }
        replace (forallb (fits m) ws) with (forallb (fits m) (x :: ws)) by (cbn; rewrite Hfit; reflexivity). apply H.
        + eapply cleaned_trans; [exact A12|]. eapply cleaned_weaken; [|exact A']. intros l [Hl|(y & Hy & El)]; [left; exact Hl|right; exists y; split; [right; exact Hy|exact El]].
        + intros y [<-|Hy]; [left; split; assumption|]. specialize (I' y Hy). unfold installed, fits in *. rewrite Ec2 in I' by (apply Hne, Hy). exact I'.
        + cbn [forallb]. rewrite Hfit. cbn [andb]. intros Hf y [<-|Hy]; [exact Ex|]. apply S'; assumption.
        + cbn [length]. split; [lia|auto]. }
    destruct (contents m (o_off x) =? o_old x) eqn:Em.
    + apply Hcont; [exact E2|]. unfold fits. rewrite Em. apply orb_true_r.
    + destruct Hvx as [Ek|Hv].
      * rewrite Ek in E2 |- *. rewrite Kd. cbn [d_isKCAS call_ref d_isDirty d_tid d_seq]. apply mwp_bind. cbn [mwp]. rewrite !N.eqb_refl. cbn [andb].
        apply Hcont; [exact E2|]. unfold fits. rewrite Ek, N.eqb_refl. reflexivity.
      * rewrite decode_kcas. destruct (Hv) as (_ & _ & -> & _). cbn [mwp].
        assert (Hfit : fits m x = false). { unfold fits. rewrite Em. apply orb_false_iff. split; [|reflexivity]. apply N.eqb_neq. intros E. apply K_mval. rewrite <- E. exact Hv. }
        replace Failed with (if forallb (fits m) (x :: ws) then Succeeded else Failed) by (cbn; rewrite Hfit; reflexivity). apply H.
        -- exact A12.
        -- intros y [<-|Hy]; right; [exact E2|]. apply Ec2. change (NoDup (o_off x :: map o_off ws)) in Hnd. apply NoDup_cons in Hnd as [Hni _]. rewrite elem_of_list_In in Hni.
           intros E. apply Hni. rewrite <- E. apply in_map, Hy.
        -- cbn [forallb]. rewrite Hfit. discriminate.
        -- split; [|auto]. rewrite (ca_wseq m1 m2 (at_in_arr _ _ _ A2)), Hs1. cbn [length]. lia.
Qed.

Lemma wpc_persist_words n ws i (Q : unit -> mem -> Prop) (m : mem) : (length ws < n)%nat -> (forall x, In x ws -> o_off x < m_size C) ->
  m (LKCount t) = N.of_nat (i + length ws) -> words_at m i ws -> (forall m', cleaned m m' -> Q tt m') -> wp (persist_words C n t i) Q m.
Proof.
  revert ws i Q m. induction n as [|n IH]; intros ws i Q m Hn Hws Hc Hkw H; [lia|]. cbn [persist_words].
  apply mwp_bind. eapply wpc_more; [exact Hc|]. destruct ws as [|x ws].
  - rewrite (proj2 (N.ltb_ge _ _)) by (cbn; lia). cbn. apply H, cleaned_refl.
  - rewrite (proj2 (N.ltb_lt _ _)) by (cbn; lia). apply words_cons in Hkw as [(K1 & K2 & K3) Hkw].
    apply mwp_bind. eapply wpc_word_address; [exact K1|apply Hws; left; reflexivity|]. apply mwp_bind, wph_read; [exact I|]. intros m1 A1.
    apply (IH ws (S i)); [cbn in Hn; lia|intros y Hy; apply Hws; right; exact Hy| | |].
    + rewrite (cb_plain _ _ _ A1); [rewrite Hc; cbn [length]; f_equal; lia|tauto|exact I].
    + intros k y Hy. rewrite !(cb_plain _ _ _ A1); try exact I; try tauto. apply Hkw, Hy.
    + intros m2 A2. apply H. eapply cleaned_trans; eassumption.
Qed.

(** Installing the final values. *)
Lemma wpc_finish n st ws i (Q : unit -> mem -> Prop) (m : mem) : (length ws < n)%nat ->
  kseq m t = s -> m (LKCount t) = N.of_nat (i + length ws) -> words_at m i ws -> NoDup (map o_off ws) ->
  (forall x, In x ws -> o_off x < m_size C /\ mval (o_old x) /\ mval (o_new x)) ->
  (forall m', cleaned_but (arr_of ws) m m' ->
     (forall x, In x ws -> contents m' (o_off x) = if contents m (o_off x) =? K then (if st =? Succeeded then o_new x else o_old x) else contents m (o_off x)) -> Q tt m') ->
  wp (finish C n d st i) Q m.
Proof.
  revert ws i Q m. induction n as [|n IH]; intros ws i Q m Hn Hk Hc Hkw Hnd Hws H; [lia|]. cbn [finish]. cbn [d_tid call_ref].
  change (mkDesc false true false s t) with d. apply mwp_bind. eapply wpc_more; [exact Hc|]. destruct ws as [|x ws].
  { rewrite (proj2 (N.ltb_ge _ _)) by (cbn; lia). cbn. apply H; [apply cleaned_refl|intros x []]. }
  rewrite (proj2 (N.ltb_lt _ _)) by (cbn; lia). apply words_cons in Hkw as [(K1 & K2 & K3) Hkw].
  fold K. destruct K_facts as (Kc & Kk & Kr & Kd).
  assert (Elor : N.lor K PMwCASFlag = K).
  { apply N.bits_inj. intros b. rewrite N.lor_spec. destruct (decide (b = 1)) as [->|Hb]; [rewrite Kk; reflexivity|].
    change PMwCASFlag with (2 ^ 1). rewrite N.pow2_bits_false by congruence. apply orb_false_r. }
  rewrite Elor. change (N.lor K DirtyFlag) with (dirty K).
  assert (Eld : N.ldiff (dirty K) DirtyFlag = K). { change (clean (dirty K) = K). rewrite clean_dirty. exact Kc. }
  rewrite Eld. set (v := if st =? Succeeded then o_new x else o_old x) in *. destruct (Hws x (or_introl eq_refl)) as (Hx & Hvo & Hvn).
  assert (Hv : mval v) by (unfold v; destruct (st =? Succeeded); assumption).
  apply mwp_bind, mwp_load; [exact I|].
  replace (m (LKWord t i (if st =? Succeeded then WNew else WOld))) with v by (unfold v; destruct (st =? Succeeded); congruence).
  assert (Hd : a_ref d) by (do 2 eexists; right; reflexivity).
  apply mwp_bind. eapply wpc_word_address; [exact K1|exact Hx|]. apply mwp_bind, wph_CASField; [exact Hd|exact Ht|exact I|].
  intros m1. unfold now. cbn [call_ref d_seq d_isKCAS d_tid]. rewrite Hk, N.eqb_refl. fold (contents m (o_off x)).
  replace (contents m (o_off x) =? dirty K) with false.
  2: { symmetry. apply N.eqb_neq. unfold contents. apply isclean_neq_dirty, clean_isclean. }
  intros A1. cbn [fst snd negb]. change (mkDesc false true false s t) with d.
  assert (Ec1 : forall j, contents m1 j = contents m j) by (intros j; apply (cb_contents _ _ _ A1); tauto).
  change (NoDup (o_off x :: map o_off ws)) in Hnd. apply NoDup_cons in Hnd as [Hni Hnd]. rewrite elem_of_list_In in Hni.
  assert (Hne : forall y, In y ws -> o_off y <> o_off x) by (intros y Hy E; apply Hni; rewrite <- E; apply in_map, Hy).
  (* the state after the two attempts *)
  enough (Hrest : forall m2, cleaned_but (at_arr (o_off x)) m m2 -> contents m2 (o_off x) = (if contents m (o_off x) =? K then v else contents m (o_off x)) ->
    wp (a <-- word_address C t i;; m_persist a v ;;; finish C n d st (S i))%mprog Q m2).
  { apply mwp_bind. destruct (contents m (o_off x) =? K) eqn:Ek.
    - apply mwp_bind. eapply wpc_word_address; [|exact Hx|]; [rewrite (cb_plain _ _ _ A1); [exact K1|tauto|exact I]|].
      apply mwp_bind, wph_CASField; [exact Hd|exact Ht|exact I|]. intros m2. unfold now. cbn [call_ref d_seq d_isKCAS d_tid].
      rewrite (cb_kseq _ _ _ A1), Hk, N.eqb_refl by tauto. fold (contents m1 (o_off x)). rewrite Ec1, Ek. intros A2 E2. cbn [mwp snd negb]. apply Hrest.
      + eapply cleaned_trans; [apply cleaned_any, A1|]. eapply cleaned_weaken; [|exact A2]. intros l <-. reflexivity.
      + unfold contents. rewrite E2, clean_dirty. apply mval_clean, Hv.
    - cbn [mwp negb]. apply Hrest; [apply cleaned_any, A1|apply Ec1]. }
  intros m2 A2 E2. assert (Hno : forall l, match l with LArr _ => False | _ => True end -> ~ at_arr (o_off x) l) by (intros l Hl ->; exact Hl).
  apply mwp_bind. eapply wpc_word_address; [|exact Hx|]; [rewrite (cb_plain _ _ _ A2); [exact K1|apply Hno; exact I|exact I]|].
  apply mwp_bind, mwp_persist; [exact I|]. intros m3 O3 E3. rewrite (mval_clean v Hv) in E3.
  assert (E3' : m3 (LArr (o_off x)) = m2 (LArr (o_off x))). { rewrite E3. destruct (N.eqb_spec (m2 (LArr (o_off x))) v); congruence. }
  assert (A3 : cleaned m2 m3). { intros l. right. left. destruct (decide (l = LArr (o_off x))) as [->|Hl]; [exact E3'|apply O3; congruence]. }
  assert (B3 : cleaned_but (at_arr (o_off x)) m m3) by (eapply cleaned_trans; [exact A2|apply cleaned_any, A3]).
  assert (Ec3 : forall j, j <> o_off x -> contents m3 j = contents m j). { intros j Hj. apply (cb_contents _ _ _ B3). intros E. injection E. exact Hj. }
  apply (IH ws (S i)); [cbn in Hn; lia| | | |exact Hnd|intros y Hy; apply Hws; right; exact Hy|].
  - rewrite (cb_kseq _ _ _ B3) by (apply Hno; exact I). exact Hk.
  - rewrite (cb_plain _ _ _ B3); [rewrite Hc; cbn [length]; f_equal; lia|apply Hno; exact I|exact I].
  - intros k y Hy. rewrite !(cb_plain _ _ _ B3); try exact I; try (apply Hno; exact I). apply Hkw, Hy.
  - intros m' A' G'. apply H.
    + eapply cleaned_trans; [eapply cleaned_weaken; [|exact B3]|eapply cleaned_weaken; [|exact A']].
      * intros l ->. exists x. split; [left; reflexivity|reflexivity].
      * intros l (y & Hy & ->). exists y. split; [right; exact Hy|reflexivity].
    + intros y [<-|Hy].
      * rewrite (cb_contents _ _ _ A'). 2: { intros (y & Hy & E). injection E. intros E'. apply (Hne y Hy). congruence. }
        unfold contents at 1. rewrite E3'. exact E2.
      * rewrite G' by exact Hy. rewrite Ec3 by (apply Hne, Hy). reflexivity.
Qed.

(** ** The whole call *)

Lemma old_of_in ws x : NoDup (map o_off ws) -> In x ws -> old_of ws (o_off x) = o_old x.
Proof.
  induction ws as [|y ws IH]; [intros _ []|]. intros Hnd Hi. change (NoDup (o_off y :: map o_off ws)) in Hnd. apply NoDup_cons in Hnd as [Hni Hnd].
  rewrite elem_of_list_In in Hni. cbn. destruct (N.eqb_spec (o_off x) (o_off y)) as [E|E].
  - destruct Hi as [->|Hi]; [reflexivity|]. exfalso. apply Hni. rewrite <- E. apply in_map, Hi.
  - destruct Hi as [->|Hi]; [contradiction|]. apply IH; assumption.
Qed.
Lemma fits_match m ws : NoDup (map o_off ws) -> forallb (fits m) ws = all_match (undone C m s t ws) ws.
Proof.
  intros Hnd. unfold all_match. assert (Hin : forall x, In x ws -> fits m x = (undone C m s t ws (o_off x) =? o_old x)).
  { intros x Hx. unfold fits, undone. destruct (contents m (o_off x) =? K) eqn:E; [|reflexivity]. rewrite old_of_in by assumption. symmetry. apply N.eqb_refl. }
  assert (E : forall f g (l : list mword), (forall x, In x l -> f x = g x) -> forallb f l = forallb g l).
  { intros f g l. induction l as [|x l IH]; [reflexivity|]. intros Hl. cbn. rewrite (Hl x) by (left; reflexivity). rewrite IH; [reflexivity|]. intros y Hy. apply Hl. right. exact Hy. }
  apply E, Hin.
Qed.

(** What a completed call has changed. *)
Definition completed (ws : list mword) (l : loc) : Prop := placed ws l \/ l = LK t.

(** The words before [i] refer to the call already. *)
Lemma wpc_rest n ws i pre post (Q : bool -> mem -> Prop) (m : mem) : (length ws < n)%nat -> pending C m s t ws ->
  ws = pre ++ post -> i = length pre -> (forall x, In x pre -> contents m (o_off x) = K) ->
  wseq m me + 2 * N.of_nat (length ws) < 2 ^ seqSize P ->
  let r := all_match (undone C m s t ws) ws in
  (forall m', cleaned_but (completed ws) m m' -> clean (m' (LK t)) = kenc (if r then Succeeded else Failed) s ->
     (forall x, In x ws -> contents m' (o_off x) = if r then o_new x else undone C m s t ws (o_off x)) ->
     moved m m' (length ws) -> Q r m') ->
  wp (st <-- place C n (fun d' a => pmwcas C n me d' (Some a)) me d i false;;
      (if (st =? Succeeded)%N then persist_words C n t 0 else MRet tt) ;;;
      let mOld := kmut_encode (mkKmut false Undecided s) in
      let mNew := kmut_encode (mkKmut true st s) in
      c <-- CASField C d mOld mNew (LK t);;
      m_persist (LK t) mNew ;;;
      if negb (snd c) then MRet false
      else finish C n d st 0 ;;; MRet (st =? Succeeded)%N)%mprog Q m.
Proof.
  intros Hn [P1 P2 P3 P4 P5 P6 P7 P8] Hw Hi Hpre Hq r H. assert (Er0 : r = forallb (fits m) ws) by (unfold r; symmetry; apply fits_match, P6). clearbody r.
  assert (Hpost : forall x, In x post -> In x ws) by (intros x Hx; rewrite Hw, in_app_iff; right; exact Hx).
  assert (Hwords : words_at m 0 ws) by (intros k x Hx; apply P5, Hx).
  assert (Hfp : forallb (fits m) ws = forallb (fits m) post).
  { rewrite Hw, forallb_app. replace (forallb (fits m) pre) with true; [reflexivity|]. symmetry. apply forallb_forall. intros x Hx. unfold fits. rewrite (Hpre x Hx), N.eqb_refl. reflexivity. }
  assert (Hlen : length ws = (length pre + length post)%nat) by (rewrite Hw; apply app_length).
  destruct (kenc_facts Undecided s eq_refl (seq_61 _ _ HC Hs)) as (D0 & E0 & F0).
  assert (Hnopost : NoDup (map o_off post) /\ forall x, In x pre -> ~ arr_of post (LArr (o_off x))).
  { rewrite Hw, List.map_app in P6. apply NoDup_app in P6 as (_ & Hno & Hnd). split; [exact Hnd|]. intros x Hx (y & Hy & E). injection E as E.
    apply (Hno (o_off x)); rewrite elem_of_list_In; [apply in_map, Hx|rewrite E; apply in_map, Hy]. }
  destruct Hnopost as [Hndp Hnop].
  apply mwp_bind, (wpc_place _ n post i); [lia|exact P3|rewrite P4, Hlen, Hi; reflexivity| |exact Hndp| | |lia|].
  { intros k x Hx. apply P5. rewrite Hw, Hi. rewrite nth_error_app2 by lia. rewrite <- Hx. f_equal. lia. }
  { intros x Hx. destruct (P7 x (Hpost x Hx)) as (A & B & _). split; assumption. }
  { intros x Hx. apply P8, Hpost, Hx. }
  rewrite <- Hfp, <- Er0. intros m1 A1 I1 S1 [Q1 Q1'].
  assert (A1' : cleaned_but (placed ws) m m1). { eapply cleaned_weaken; [|exact A1]. intros l [Hl|(x & Hx & E)]; [left; exact Hl|right; exists x; split; [apply Hpost, Hx|exact E]]. }
  assert (I1' : forall x, In x ws -> installed m m1 x).
  { intros x Hx. rewrite Hw in Hx. apply in_app_or in Hx as [Hx|Hx]; [|apply I1, Hx]. right. apply (cb_contents _ _ _ A1). intros [[?|[[? ?]|[?|?]]]|F]; try discriminate. apply (Hnop x Hx F). }
  assert (S1' : r = true -> forall x, In x ws -> contents m1 (o_off x) = K).
  { intros Hr x Hx. rewrite Hw in Hx. apply in_app_or in Hx as [Hx|Hx]; [|apply S1; assumption]. rewrite (cb_contents _ _ _ A1); [apply Hpre, Hx|]. intros [[?|[[? ?]|[?|?]]]|F]; try discriminate. apply (Hnop x Hx F). }
  set (st := if r then Succeeded else Failed). assert (Hst : st < 4) by (unfold st; destruct r; reflexivity).
  destruct (kenc_facts st s Hst (seq_61 _ _ HC Hs)) as (D1 & E1 & F1).
  assert (Hsr : (st =? Succeeded) = r) by (unfold st; destruct r; reflexivity).
  assert (Hk1 : clean (m1 (LK t)) = kenc Undecided s). { rewrite (cb_clean _ _ _ A1'); [exact P3|]. intros [[?|[[? ?]|[?|?]]]|(? & _ & ?)]; discriminate. }
  assert (Hpl : forall l, match l with LKCount _ | LKWord _ _ _ => True | _ => False end -> m1 l = m l).
  { intros l Hl. apply (cb_plain _ _ _ A1'); [|destruct l; contradiction || exact I]. intros [[->|[[? ->]|[->| ->]]]|(? & _ & ->)]; exact Hl. }
  assert (Hrest : forall m2, cleaned m1 m2 -> wp (let mOld := kmut_encode (mkKmut false Undecided s) in
      let mNew := kmut_encode (mkKmut true st s) in
      c <-- CASField C d mOld mNew (LK t);;
      m_persist (LK t) mNew ;;;
      if negb (snd c) then MRet false
      else finish C n d st 0 ;;; MRet (st =? Succeeded)%N)%mprog Q m2).
  { intros m2 A2. cbn zeta. fold (kenc Undecided s). apply mwp_bind, wph_CASField; [do 2 eexists; right; reflexivity|exact Ht|exact I|].
    intros m3. unfold now. cbn [call_ref d_seq d_isKCAS d_tid]. 
    assert (Hk2 : clean (m2 (LK t)) = kenc Undecided s) by (rewrite (cb_clean _ _ _ A2) by tauto; exact Hk1).
    assert (Hks : kseq m2 t = s). { unfold kseq. change (sq (m2 (LK t)) = s). rewrite <- sq_clean, Hk2. unfold sq. rewrite D0. reflexivity. }
    rewrite Hks, Hk2, !N.eqb_refl. intros A3 G3. rewrite F1 in G3. rewrite (dirty_id (dirty _)) in G3 by apply isMarked_dirty_dirty. rewrite F1.
    apply mwp_bind, mwp_persist; [exact I|]. rewrite G3, N.eqb_refl, clean_dirty, E1. intros m4 O4 G4. cbn [snd negb]. change (mkDesc false true false s t) with d. rewrite Hsr. apply mwp_bind.
    assert (A4 : cleaned_but (eq (LK t)) m1 m4).
    { eapply cleaned_trans; [apply cleaned_any, A2|]. eapply cleaned_trans; [exact A3|]. intros l. destruct (decide (LK t = l)) as [<-|Hl]; [left; reflexivity|right; left; apply O4; exact Hl]. }
    assert (Hc4 : forall j, contents m4 j = contents m1 j) by (intros j; apply (cb_contents _ _ _ A4); discriminate).
    assert (Hpl4 : forall l, match l with LKCount _ | LKWord _ _ _ => True | _ => False end -> m4 l = m l).
    { intros l Hl. rewrite (cb_plain _ _ _ A4); [apply Hpl, Hl|intros <-; exact Hl|destruct l; contradiction || exact I]. }
    apply (wpc_finish n st ws); [lia| | | |exact P6|exact P7|].
    - unfold kseq. rewrite G4, D1. reflexivity.
    - rewrite Hpl4 by exact I. rewrite P4. reflexivity.
    - intros k x Hx. rewrite !Hpl4 by exact I. apply Hwords, Hx.
    - intros m5 A5 G5. cbn [mwp]. apply H.
      + eapply cleaned_trans; [eapply cleaned_weaken; [|exact A1']; intros l Hl; left; exact Hl|]. eapply cleaned_trans; [eapply cleaned_weaken; [|exact A4]; intros l <-; right; reflexivity|].
        eapply cleaned_weaken; [|exact A5]. intros l Hl. left. right. exact Hl.
      + rewrite (cb_clean _ _ _ A5) by (intros (? & _ & ?); discriminate). rewrite G4, E1. reflexivity.
      + intros x Hx. rewrite G5 by exact Hx. rewrite Hc4, Hsr. destruct r eqn:Er.
        * rewrite (S1' eq_refl x Hx), N.eqb_refl. reflexivity.
        * unfold undone. destruct (I1' x Hx) as [[-> Hf]| ->].
          -- rewrite N.eqb_refl. unfold fits in Hf. destruct (contents m (o_off x) =? K); [symmetry; apply old_of_in; assumption|]. symmetry. apply N.eqb_eq, Hf.
          -- destruct (contents m (o_off x) =? K); [symmetry; apply old_of_in; assumption|reflexivity].
      + split; [rewrite (cb_wseq _ _ _ A5) by (intros (? & _ & ?); discriminate); rewrite (cb_wseq _ _ _ A4) by discriminate; lia|].
        rewrite (cb_plain _ _ _ A5); [|intros (? & _ & ?); discriminate|exact I]. rewrite (cb_plain _ _ _ A4) by (discriminate || exact I). exact Q1'. }
  apply mwp_bind. fold st. rewrite Hsr. clear Hsr. destruct r eqn:Er.
  - apply (wpc_persist_words n ws); [lia|intros x Hx; apply P7, Hx|rewrite Hpl by exact I; rewrite P4; reflexivity| |exact Hrest].
    intros k x Hx. rewrite !Hpl by exact I. apply Hwords, Hx.
  - cbn [mwp]. apply Hrest, cleaned_refl.
Qed.

Lemma wpc_pmwcas n ws (Q : bool -> mem -> Prop) (m : mem) : (length ws < n)%nat -> pending C m s t ws ->
  wseq m me + 2 * N.of_nat (length ws) < 2 ^ seqSize P ->
  let r := all_match (undone C m s t ws) ws in
  (forall m', cleaned_but (completed ws) m m' -> clean (m' (LK t)) = kenc (if r then Succeeded else Failed) s ->
     (forall x, In x ws -> contents m' (o_off x) = if r then o_new x else undone C m s t ws (o_off x)) ->
     moved m m' (length ws) -> Q r m') ->
  wp (pmwcas C (S n) me d None) Q m.
Proof.
  intros Hn Hp Hq r H. cbn [pmwcas]. cbn [d_tid d_seq call_ref]. change (mkDesc false true false s t) with d.
  apply mwp_bind, wph_thread; [exact Ht|]. apply mwp_bind. cbn [mwp].
  apply (wpc_rest n ws 0 [] ws); [exact Hn|exact Hp|reflexivity|reflexivity|intros x []|exact Hq|exact H].
Qed.
End Call.
