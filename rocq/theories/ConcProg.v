(** The functions of the map respect the invariant of ConcInv.v, whatever the other threads do. *)
From Coq Require Import NArith Bool List Lia.
From stdpp Require Import base list relations.
From Verif Require Import Word Bits Prog HashMap Conc Spec ConcSpec ConcInv ConcCmd SeqCopy.
Import ListNotations.
Open Scope nat_scope.
Open Scope prog_scope.

(** Chains of [Rel]. *)
Ltac rel :=
  match goal with
  | |- Rel ?a ?a => apply Rel_refl
  | H : Rel ?a ?b |- Rel ?a ?b => exact H
  | H : Step ?a ?b |- Rel ?a ?b => exact (proj1 H)
  | H : Rel ?a ?x |- Rel ?a ?b => apply (Rel_trans a x b H); rel
  | H : Step ?a ?x |- Rel ?a ?b => apply (Rel_trans a x b (proj1 H)); rel
  end.

(** ** Facts that stay true *)

Definition Ex (t L : nat) (w : world) : Prop := exists T, st_tabs (snd w) !! t = Some T /\ t_len T = L.
Definition InR (t i : nat) (w : world) : Prop := exists L, Ex t L w /\ i < L.
(** Entry [i] was [p] in version [v]. *)
Definition Ver (t i v : nat) (p : pair_) (w : world) : Prop :=
  exists T ps, st_tabs (snd w) !! t = Some T /\ versions T !! v = Some ps /\ ps !! i = Some p.
Definition KeyIs (t i : nat) (k : N) (w : world) : Prop :=
  k <> KINITIAL /\ exists v p, Ver t i v p w /\ clean (fst p) = k.
Definition Seen (t i : nat) (V : N) (w : world) : Prop := exists v p, Ver t i v p w /\ clean (snd p) = clean V.
(** The value has been read, or written, since the table was made. *)
Definition Read (t i : nat) (w : world) : Prop := exists v p, Ver t i v p w /\ snd p <> dirty VINITIAL.
Definition PersGe (t i x : nat) (w : world) : Prop :=
  exists T b, st_tabs (snd w) !! t = Some T /\ t_pers T !! (i / st_ppl (snd w)) = Some b /\ x <= b.
(** The key is in persistent memory for good. *)
Definition KPer (t i : nat) (k : N) (w : world) : Prop :=
  exists T b, st_tabs (snd w) !! t = Some T /\ t_pers T !! (i / st_ppl (snd w)) = Some b /\
    forall v ps q, b <= v -> versions T !! v = Some ps -> ps !! i = Some q -> clean (fst q) = k.
(** Unless values are reused, the value or a later one is in persistent memory for good. *)
Definition DurVal (t i : nat) (V : N) (w : world) : Prop :=
  forall T, st_tabs (snd w) !! t = Some T -> no_reuse T i ->
    exists a p, Ver t i a p w /\ clean (snd p) = V /\ PersGe t i a w.

(** The value was read at a moment after [w]. *)
Definition Later (t i : nat) (V : N) (w w' : world) : Prop :=
  forall v p, Ver t i v p w -> exists a q, Ver t i a q w' /\ v <= a /\ clean (snd q) = V.

Lemma Ex_rel t L w w' : Rel w w' -> Ex t L w -> Ex t L w'.
Proof.
  intros (_ & _ & H & _) (T & HT & HL). destruct (H _ _ HT) as (T' & HT' & R). exists T'. split; [exact HT'|].
  destruct R as [-> _]. exact HL.
Qed.
Lemma InR_rel t i w w' : Rel w w' -> InR t i w -> InR t i w'.
Proof. intros R (L & H & Hi). exists L. split; [exact (Ex_rel _ _ _ _ R H)|exact Hi]. Qed.
Lemma Ver_rel t i v p w w' : Rel w w' -> Ver t i v p w -> Ver t i v p w'.
Proof.
  intros (_ & _ & H & _) (T & ps & HT & Hv & Hp). destruct (H _ _ HT) as (T' & HT' & R). exists T', ps.
  split; [exact HT'|]. split; [|exact Hp]. destruct R as (_ & (ext & -> & _) & _). apply lookup_app_l_Some. exact Hv.
Qed.
Lemma KeyIs_rel t i k w w' : Rel w w' -> KeyIs t i k w -> KeyIs t i k w'.
Proof. intros R (Hk & v & p & H & E). split; [exact Hk|]. exists v, p. split; [exact (Ver_rel _ _ _ _ _ _ R H)|exact E]. Qed.
Lemma Seen_rel t i V w w' : Rel w w' -> Seen t i V w -> Seen t i V w'.
Proof. intros R (v & p & H & E). exists v, p. split; [exact (Ver_rel _ _ _ _ _ _ R H)|exact E]. Qed.
Lemma Read_rel t i w w' : Rel w w' -> Read t i w -> Read t i w'.
Proof. intros R (v & p & H & E). exists v, p. split; [exact (Ver_rel _ _ _ _ _ _ R H)|exact E]. Qed.
Lemma PersGe_rel t i x w w' : Rel w w' -> PersGe t i x w -> PersGe t i x w'.
Proof.
  intros (_ & Hp & H & _) (T & b & HT & Hb & Hx). destruct (H _ _ HT) as (T' & HT' & R).
  destruct R as (_ & _ & R & _). rewrite <- Hp in Hb. destruct (Forall2_lookup_l _ _ _ _ _ R Hb) as (b' & Hb' & Hle).
  exists T', b'. split; [exact HT'|]. split; [exact Hb'|lia].
Qed.

Lemma KPer_rel t i k w w' cap0 : Inv cap0 w -> k <> KINITIAL -> InR t i w -> Rel w w' -> KPer t i k w -> KPer t i k w'.
Proof.
  intros HI Hk HR (_ & Hp & H & _) (T & b & HT & Hb & Hx). destruct (H _ _ HT) as (T' & HT' & R).
  destruct R as (_ & (ext & HE & Hext) & R & _). rewrite <- Hp in Hb.
  destruct (Forall2_lookup_l _ _ _ _ _ R Hb) as (b' & Hb' & Hle).
  exists T', b'. split; [exact HT'|]. split; [exact Hb'|]. intros v ps q Hv Hps Hq. rewrite HE in Hps.
  apply lookup_app_Some in Hps as [Hps|[_ Hps]]; [apply (Hx v ps q); [lia|exact Hps|exact Hq]|].
  destruct HI as (_ & _ & _ & Htabs & _). destruct (Htabs _ _ HT) as (_ & A2 & _ & _ & _ & A6 & _).
  destruct HR as (L & (T0 & HT0 & HL) & Hi). rewrite HT in HT0. injection HT0 as <-. rewrite <- HL, <- A2 in Hi.
  destruct (lookup_lt_is_Some_2 _ _ Hi) as (p & Hpi).
  assert (Hpk : clean (fst p) = k).
  { apply (Hx (length (t_past T)) (t_pairs T) p); [|apply versions_last|exact Hpi].
    rewrite Hp in Hb. exact (Forall_lookup_1 _ _ _ _ A6 Hb). }
  rewrite Forall_lookup in Hext. pose proof (Hext _ _ Hps) as HF.
  destruct (Forall2_lookup_l _ _ _ _ _ HF Hpi) as (q' & Hq' & Hrel). rewrite Hq in Hq'. injection Hq' as <-.
  rewrite <- Hpk. apply (proj1 Hrel). rewrite Hpk. exact Hk.
Qed.

Lemma DurVal_rel t i V w w' : (exists L, Ex t L w) -> Rel w w' -> DurVal t i V w -> DurVal t i V w'.
Proof.
  intros (L & T & HT & _) HR H T' HT' Hn. pose proof HR as (_ & _ & Htr & _). destruct (Htr _ _ HT) as (T2 & HT2 & R).
  rewrite HT' in HT2. injection HT2 as <-. destruct R as (_ & (ext & HE & _) & _).
  destruct (H T HT (no_reuse_prefix _ _ _ _ HE Hn)) as (a & p & H1 & H2 & H3). exists a, p.
  split; [exact (Ver_rel _ _ _ _ _ _ HR H1)|]. split; [exact H2|exact (PersGe_rel _ _ _ _ _ HR H3)].
Qed.

Section Prog.
Context (C : cfg) (cap0 : nat).
Notation Inv := (Inv cap0).
Notation ok p Q w := (ok cap0 p Q w).

Lemma tabs_ok (w : world) t T : Inv w -> st_tabs (snd w) !! t = Some T -> tab_ok cap0 w T.
Proof. intros (_ & _ & _ & H & _). apply H. Qed.

(** The current contents of an entry. *)
Lemma InR_cur t i w : Inv w -> InR t i w -> exists T p, st_tabs (snd w) !! t = Some T /\ t_pairs T !! i = Some p.
Proof.
  intros HI (L & (T & HT & HL) & Hi). destruct (tabs_ok _ _ _ HI HT) as (_ & A2 & _).
  rewrite <- HL, <- A2 in Hi. destruct (lookup_lt_is_Some_2 _ _ Hi) as (p & Hp). eauto.
Qed.

Lemma read_cur (w : world) t i c T p : st_tabs (snd w) !! t = Some T -> t_pairs T !! i = Some p -> read_cell (snd w) t i c = get_cell c p.
Proof. intros H1 H2. unfold read_cell. rewrite H1, H2. reflexivity. Qed.

Lemma cur_ver (w : world) t i T p : st_tabs (snd w) !! t = Some T -> t_pairs T !! i = Some p -> Ver t i (length (t_past T)) p w.
Proof. intros H1 H2. exists T, (t_pairs T). split; [exact H1|]. split; [apply versions_last|exact H2]. Qed.

Lemma Ver_ok t i v p w : Inv w -> Ver t i v p w -> pair_ok (fst w) p.
Proof.
  intros HI (T & ps & HT & Hv & Hp). destruct (tabs_ok _ _ _ HI HT) as (_ & _ & _ & A4 & _).
  apply (Forall_lookup_1 _ ps i p); [|exact Hp]. apply A4. apply elem_of_list_In, elem_of_list_lookup. eauto.
Qed.

Lemma Ver_rel2 t i v v' p p' w : Inv w -> Ver t i v p w -> Ver t i v' p' w -> v <= v' -> prel p p'.
Proof.
  intros HI (T & ps & HT & Hv & Hp) (T' & ps' & HT' & Hv' & Hp') Hle. rewrite HT in HT'. injection HT' as <-.
  destruct (tabs_ok _ _ _ HI HT) as (_ & _ & _ & _ & A5 & _). pose proof (A5 _ _ _ _ Hle Hv Hv') as HF.
  destruct (Forall2_lookup_l _ _ _ _ _ HF Hp) as (q & Hq & Hrel). rewrite Hp' in Hq. injection Hq as <-. exact Hrel.
Qed.

Lemma Ver_last t i v p w T : Ver t i v p w -> st_tabs (snd w) !! t = Some T -> v <= length (t_past T).
Proof.
  intros (T' & ps & HT & Hv & _) HT'. rewrite HT' in HT. injection HT as <-. apply lookup_lt_Some in Hv.
  rewrite versions_len in Hv. lia.
Qed.

Lemma Ver_InR t i v p w : Inv w -> Ver t i v p w -> InR t i w.
Proof.
  intros HI HV. pose proof HV as (T & ps & HT & Hv & Hp). exists (t_len T). split; [exists T; auto|].
  destruct (tabs_ok _ _ _ HI HT) as (_ & A2 & _ & _ & A5 & _).
  assert (HF : Forall2 prel ps (t_pairs T)).
  { apply (A5 v (length (t_past T))); [exact (Ver_last _ _ _ _ _ _ HV HT)|exact Hv|apply versions_last]. }
  rewrite <- A2, <- (Forall2_length _ _ _ HF). exact (lookup_lt_Some _ _ _ Hp).
Qed.

Lemma KeyIs_InR t i k w : Inv w -> KeyIs t i k w -> InR t i w.
Proof. intros HI (_ & v & p & H & _). exact (Ver_InR _ _ _ _ _ HI H). Qed.

Lemma KeyIs_ver t i k w v p : Inv w -> KeyIs t i k w -> Ver t i v p w -> clean (fst p) = KINITIAL \/ clean (fst p) = k.
Proof.
  intros HI (Hk & v' & p' & H & E) Hv. destruct (N.eq_dec (clean (fst p)) KINITIAL) as [Hi|Hi]; [auto|right].
  destruct (le_ge_dec v v') as [Hle|Hle].
  - rewrite <- E. symmetry. apply (proj1 (Ver_rel2 _ _ _ _ _ _ _ HI Hv H Hle)). exact Hi.
  - rewrite <- E. apply (proj1 (Ver_rel2 _ _ _ _ _ _ _ HI H Hv Hle)). rewrite E. exact Hk.
Qed.

Lemma KeyIs_cur t i k w T p : Inv w -> KeyIs t i k w -> st_tabs (snd w) !! t = Some T -> t_pairs T !! i = Some p ->
  clean (fst p) = k.
Proof.
  intros HI (Hk & v' & p' & H & E) HT Hp. pose proof (cur_ver _ _ _ _ _ HT Hp) as Hv. rewrite <- E.
  apply (proj1 (Ver_rel2 _ _ _ _ _ _ _ HI H Hv (Ver_last _ _ _ _ _ _ H HT))). rewrite E. exact Hk.
Qed.

Definition keyOK (w : world) (k : N) : Prop := isclean k /\ k <> KINITIAL /\ (k = KTOMBSTONE \/ called (fst w) k).
Definition valOK (w : world) (k v : N) : Prop := unmarked v /\ val_ok (fst w) k v.

Lemma keyOK_rel w w' k : Rel w w' -> keyOK w k -> keyOK w' k.
Proof. intros (Hi & _) (H1 & H2 & H3). split; [exact H1|]. split; [exact H2|]. destruct H3 as [H|H]; [auto|right; exact (called_mono _ _ _ Hi H)]. Qed.
Lemma valOK_rel w w' k v : Rel w w' -> valOK w k v -> valOK w' k v.
Proof. intros (Hi & _) (H1 & H2). split; [exact H1|exact (val_ok_mono _ _ _ _ Hi H2)]. Qed.

Lemma KeyIs_keyOK t i k w : Inv w -> KeyIs t i k w -> keyOK w k.
Proof.
  intros HI (Hk & v & p & H & E). subst k. split; [apply clean_isclean|]. split; [exact Hk|].
  destruct (Ver_ok _ _ _ _ _ HI H) as ([H1|H1] & _); [congruence|exact H1].
Qed.

Lemma strip_clean v v' : clean v = clean v' -> strip v = strip v'.
Proof. unfold strip. intros ->. reflexivity. Qed.

Lemma Seen_val t i k V w : Inv w -> KeyIs t i k w -> Seen t i V w -> val_ok (fst w) k V.
Proof.
  intros HI HK (v & p & H & E). pose proof (Ver_ok _ _ _ _ _ HI H) as (_ & H2 & H3).
  unfold val_ok. rewrite <- (strip_clean _ _ E). destruct H3 as [H3 _]. destruct (KeyIs_ver _ _ _ _ _ _ HI HK H) as [Hi|Hi].
  - left. unfold strip. rewrite (H2 Hi). apply unmark_id. exact VINITIAL_unmarked.
  - rewrite Hi in H3. exact H3.
Qed.

Lemma Seen_tight t i k V w : Inv w -> KeyIs t i k w -> Seen t i V w -> isclean V -> tight (fst w) k V.
Proof.
  intros HI HK (v & p & H & E) HV Hn Hs. pose proof (Ver_ok _ _ _ _ _ HI H) as (_ & H2 & _ & H4). rewrite (clean_id _ HV) in E.
  destruct (KeyIs_ver _ _ _ _ _ _ HI HK H) as [Hi|Hi].
  - rewrite <- E. exact (H2 Hi).
  - assert (HK0 : clean (fst p) <> KINITIAL) by (rewrite Hi; apply HK). specialize (H4 HK0). rewrite Hi in H4. rewrite <- E.
    apply (H4 Hn). rewrite <- Hs. apply strip_clean. rewrite E, (clean_id _ HV). reflexivity.
Qed.

Definition Frozen (t i : nat) (w : world) : Prop := exists V, Seen t i V w /\ isMarked V MIG = true.
Lemma Frozen_rel t i w w' : Rel w w' -> Frozen t i w -> Frozen t i w'.
Proof. intros R (V & H & E). exists V. split; [exact (Seen_rel _ _ _ _ _ R H)|exact E]. Qed.

Lemma Frozen_cur t i w T p : Inv w -> Frozen t i w -> st_tabs (snd w) !! t = Some T -> t_pairs T !! i = Some p ->
  isMarked (snd p) MIG = true.
Proof.
  intros HI (V & (v & q & H & E) & HM) HT Hp. pose proof (cur_ver _ _ _ _ _ HT Hp) as Hv.
  rewrite (marked_clean_eq _ _ E) in HM.
  destruct (proj1 (proj2 (Ver_rel2 _ _ _ _ _ _ _ HI H Hv (Ver_last _ _ _ _ _ _ H HT))) HM) as [E2|E2].
  - rewrite <- (marked_clean_eq _ _ E2). exact HM.
  - exact (marked_TOMBPRIME _ E2).
Qed.

(** ** persistence.hpp *)

Lemma ok_assert b (Q : unit -> world -> Prop) w : (forall w', Inv w' -> Rel w w' -> Q tt w') -> ok (assert_ C b) Q w.
Proof. intros H. unfold assert_. destruct (b || ndebug C); [exact H|exact I]. Qed.

Lemma pair_ok_clean ops p p' : clean (fst p') = clean (fst p) -> clean (snd p') = clean (snd p) -> snd p' = snd p \/ isclean (snd p') ->
  pair_ok ops p -> pair_ok ops p'.
Proof.
  intros E1 E2 E3 (H1 & H2 & H3 & H4). unfold pair_ok, val_ok, tight0. rewrite E1, E2, (strip_clean _ _ E2). split; [exact H1|]. split; [exact H2|].
  split; [exact H3|]. intros Hk Hn Hs. destruct (H4 Hk Hn Hs) as [Ea Eb]. split; [exact Ea|]. intros Ht. specialize (Eb Ht).
  destruct E3 as [->|E3]; [exact Eb|]. rewrite <- (clean_id _ E3), E2, Eb. reflexivity.
Qed.
Lemma prel_clean p p' : clean (fst p') = clean (fst p) -> clean (snd p') = clean (snd p) -> snd p' = snd p \/ isclean (snd p') -> prel p p'.
Proof.
  intros E1 E2 E3. split; [auto|]. split; [auto|]. intros _ H. destruct E3 as [->|E3]; [exact H|]. exact (isclean_neq_dirty _ _ E3).
Qed.

Lemma ok_persist t i c word v p w (Q : N -> world -> Prop) : Inv w -> Ver t i v p w -> get_cell c p = word ->
  (forall r w', Inv w' -> Rel w w' -> PersGe t i v w' -> (c = CVal -> Read t i w') -> Q r w') -> ok (persist t i c word) Q w.
Proof.
  intros HI HV Hc HQ. unfold persist, do; cbn [bind].
  apply ok_read; [reflexivity|]. intros w1 HI1 HR1. cbn [exec fst].
  pose proof (Ver_rel _ _ _ _ _ _ HR1 HV) as HV1. pose proof HV1 as (T1 & ps1 & HT1 & _). rewrite HT1.
  pose proof (Ver_last _ _ _ _ _ _ HV1 HT1) as Hle. set (x := length (t_past T1)) in *.
  assert (Hx : forall w' T, Rel w1 w' -> st_tabs (snd w') !! t = Some T -> x <= length (t_past T)).
  { intros w' T (_ & _ & H & _) HT. destruct (H _ _ HT1) as (T' & HT' & R). rewrite HT in HT'. injection HT' as <-.
    destruct R as (_ & (ext & HE & _) & _). apply (f_equal length) in HE. rewrite app_length, !versions_len in HE. unfold x. lia. }
  apply ok_cmd. intros w2 HI2 HR2.
  assert (HR12 : Rel w w2) by exact (Rel_trans _ _ _ HR1 HR2).
  destruct (fence_ok cap0 w2 t i x HI2 (fun T HT => Hx w2 T HR2 HT)) as [F1 F2].
  cbn [exec] in F1, F2 |- *. cbn [snd] in F1, F2. split; [exact F1|]. split; [exact F2|]. intros _ HR3.
  set (w3 := (fst w2, with_tab t _ (snd w2))) in *.
  assert (HP3 : PersGe t i v w3).
  { pose proof (Ver_rel _ _ _ _ _ _ HR2 HV1) as HV2. pose proof HV2 as (T2 & ps2 & HT2 & _).
    destruct (tabs_ok _ _ _ HI2 HT2) as (_ & A2 & A3 & _). pose proof (Ver_InR _ _ _ _ _ HI2 HV2) as (L & (T2' & HT2' & HL) & Hi).
    rewrite HT2 in HT2'. injection HT2' as <-.
    assert (Hline : i / st_ppl (snd w2) < length (t_pers T2)).
    { rewrite A3, HL. destruct (st_ppl (snd w2)) as [|m]; [cbn; lia|]. pose proof (Nat.div_le_upper_bound i (S m) i) as Hd. assert (i / S m <= i) by (apply Hd; nia). lia. }
    destruct (lookup_lt_is_Some_2 _ _ Hline) as (b & Hb).
    exists (set_pers (alter (Nat.max x) (line_of (snd w2) i) (t_pers T2)) T2), (Nat.max x b).
    split; [unfold w3; cbn; rewrite list_lookup_alter, HT2; reflexivity|]. split; [|lia].
    unfold w3, line_of. cbn. rewrite list_lookup_alter, Hb. reflexivity. }
  apply ok_cmd. intros w4 HI4 HR4.
  assert (HR34 : Rel w w4) by rel.
  pose proof (Ver_rel _ _ _ _ _ _ HR34 HV) as HV4. pose proof (PersGe_rel _ _ _ _ _ HR4 HP3) as HP4.
  destruct (InR_cur _ _ _ HI4 (Ver_InR _ _ _ _ _ HI4 HV4)) as (T & p0 & HT & Hp0).
  cbn [exec]. rewrite (read_cur _ _ _ c _ _ HT Hp0). destruct (N.eqb_spec (get_cell c p0) word) as [Heq|Hne].
  - enough (Hw : Inv (fst w4, with_tab t (write_cell i c (clean word)) (snd w4)) /\
              Step w4 (fst w4, with_tab t (write_cell i c (clean word)) (snd w4))).
    { destruct Hw as [W1 W2]. split; [exact W1|]. split; [exact W2|]. intros HI5 HR5. cbn [snd]. apply ok_ret.
      intros w6 HI6 HR6. apply HQ; [exact HI6|rel| |].
      - exact (PersGe_rel _ _ _ _ _ HR6 (PersGe_rel _ _ _ _ _ (proj1 W2) HP4)).
      - intros ->. apply (Read_rel _ _ _ _ HR6). exists (length (versions T)), (set_cell CVal (clean word) p0).
        split; [|exact (isclean_neq_dirty _ _ (clean_isclean word))].
        exists (write_cell i CVal (clean word) T), (alter (set_cell CVal (clean word)) i (t_pairs T)).
        split; [cbn; rewrite list_lookup_alter, HT; reflexivity|].
        split; [rewrite versions_write, lookup_app_r, Nat.sub_diag by lia; reflexivity|].
        rewrite list_lookup_alter, Hp0. reflexivity. }
    assert (E1 : clean (fst (set_cell c (clean word) p0)) = clean (fst p0)).
    { destruct c; cbn in Heq |- *; [rewrite clean_clean, Heq|]; reflexivity. }
    assert (E2 : clean (snd (set_cell c (clean word) p0)) = clean (snd p0)).
    { destruct c; cbn in Heq |- *; [|rewrite clean_clean, Heq]; reflexivity. }
    assert (E3 : snd (set_cell c (clean word) p0) = snd p0 \/ isclean (snd (set_cell c (clean word) p0))).
    { destruct c; cbn; [left; reflexivity|right; apply clean_isclean]. }
    apply (write_ok cap0 w4 t T i c (clean word) p0); auto.
    + exact (prel_clean _ _ E1 E2 E3).
    + apply (pair_ok_clean _ _ _ E1 E2 E3). exact (Ver_ok _ _ _ _ _ HI4 (cur_ver _ _ _ _ _ HT Hp0)).
    + intros -> _ b v' ps q Hb Hv' Hps Hq. cbn in Heq, Hc. rewrite clean_clean.
      destruct HP4 as (T' & b' & HT' & Hb' & Hvb). rewrite HT in HT'. injection HT' as <-. rewrite Hb in Hb'. injection Hb' as <-.
      assert (HVq : Ver t i v' q w4) by (exists T, ps; auto).
      assert (Hvv : v <= v') by lia. destruct (Ver_rel2 _ _ _ _ _ _ _ HI4 HV4 HVq Hvv) as [HKr _].
      destruct (N.eq_dec (clean word) KINITIAL) as [Hi|Hi].
      * destruct (N.eq_dec (clean (fst q)) KINITIAL) as [Hi2|Hi2]; [congruence|].
        destruct (Ver_rel2 _ _ _ _ _ _ _ HI4 HVq (cur_ver _ _ _ _ _ HT Hp0) (Ver_last _ _ _ _ _ _ HVq HT)) as [HK2 _].
        rewrite <- (HK2 Hi2), Heq. reflexivity.
      * rewrite <- Hc. apply HKr. rewrite Hc. exact Hi.
    + intros -> _ b v' ps q Hn Hb Hv' Hps Hq. cbn in Heq, Hc. rewrite clean_clean.
      destruct HP4 as (T' & b' & HT' & Hb' & Hvb). rewrite HT in HT'. injection HT' as <-. rewrite Hb in Hb'. injection Hb' as <-.
      pose proof HV4 as (T' & psv & HT' & Hpsv & Hpv). rewrite HT in HT'. injection HT' as <-.
      destruct (decide (v' = v)) as [->|Hvne].
      { rewrite Hpsv in Hps. injection Hps as <-. rewrite Hpv in Hq. injection Hq as <-. rewrite Hc. reflexivity. }
      assert (Hvv : v < v') by lia. pose proof (lookup_lt_Some _ _ _ Hps) as Hlt.
      assert (Hlk : alter (set_cell CVal (clean word)) i (t_pairs T) !! i = Some (set_cell CVal (clean word) p0))
        by (rewrite list_lookup_alter, Hp0; reflexivity).
      rewrite <- Hc. refine (Hn v v' (length (versions T)) psv ps _ p q _ Hvv Hlt _ _ _ Hpv Hq Hlk _).
      * rewrite versions_write. apply lookup_app_l_Some. exact Hpsv.
      * rewrite versions_write. apply lookup_app_l_Some. exact Hps.
      * rewrite versions_write. rewrite lookup_app_r, Nat.sub_diag by lia. reflexivity.
      * cbn. rewrite clean_clean, Hc. reflexivity.
    + intros ->. left. exact E2.
    + intros -> HMn. cbn in Heq. rewrite isMarked_clean_mig, <- Heq in HMn.
      destruct (tabs_ok _ _ _ HI4 HT) as (_ & _ & _ & _ & _ & _ & _ & _ & _ & A10).
      exact (Forall_lookup_1 _ _ _ _ (A10 _ (cur_in T)) Hp0 HMn).
  - destruct (same_ok cap0 w4 HI4) as [S1 S2]. split; [exact S1|]. split; [exact S2|]. intros _ HR5. apply ok_ret.
    intros w6 HI6 HR6. apply HQ; [exact HI6|rel| |].
    + exact (PersGe_rel _ _ _ _ _ HR6 (PersGe_rel _ _ _ _ _ (proj1 S2) HP4)).
    + intros ->. apply (Read_rel _ _ _ _ (Rel_trans _ _ _ (proj1 S2) HR6)). destruct (N.eq_dec word (dirty VINITIAL)) as [Ew|Ew].
      * eexists _, p0. split; [exact (cur_ver _ _ _ _ _ HT Hp0)|]. rewrite <- Ew. exact Hne.
      * exists v, p. split; [exact HV4|]. cbn in Hc. rewrite Hc. exact Ew.
Qed.

Lemma line_some (w : world) t i T : Inv w -> InR t i w -> st_tabs (snd w) !! t = Some T -> exists b, t_pers T !! (i / st_ppl (snd w)) = Some b.
Proof.
  intros HI (L & (T' & HT' & HL) & Hi) HT. rewrite HT in HT'. injection HT' as <-.
  destruct (tabs_ok _ _ _ HI HT) as (_ & A2 & A3 & _).
  assert (Hline : i / st_ppl (snd w) < length (t_pers T)).
  { rewrite A3, HL. destruct (st_ppl (snd w)) as [|m]; [cbn; lia|]. pose proof (Nat.div_le_upper_bound i (S m) i) as Hd. assert (i / S m <= i) by (apply Hd; nia). lia. }
  exact (lookup_lt_is_Some_2 _ _ Hline).
Qed.

Lemma ok_read_key t i w : Inv w -> InR t i w ->
  ok (pcas_read t i CKey) (fun K w' => isclean K /\ (K <> KINITIAL -> KeyIs t i K w' /\ KPer t i K w')) w.
Proof.
  intros HI HR. unfold pcas_read, do; cbn [bind]. apply ok_read; [reflexivity|]. intros w1 HI1 HR1. cbn [exec fst].
  pose proof (InR_rel _ _ _ _ HR1 HR) as Hin1. destruct (InR_cur _ _ _ HI1 Hin1) as (T & p & HT & Hp).
  rewrite (read_cur _ _ _ _ _ _ HT Hp). cbn [get_cell]. pose proof (cur_ver _ _ _ _ _ HT Hp) as HV.
  apply (ok_seq cap0 _ _ (fun _ w2 => clean (fst p) <> KINITIAL -> KeyIs t i (clean (fst p)) w2 /\ KPer t i (clean (fst p)) w2)); [exact HI1| |].
  - destruct (isMarked (fst p) DirtyFlag) eqn:HD.
    + apply ok_bind; [exact HI1|]. eapply ok_persist; [exact HI1|exact HV|reflexivity|].
      intros r w2 HI2 HR2 HP2 _. apply ok_ret. intros w3 HI3 HR3 Hk.
      pose proof (Rel_trans _ _ _ HR2 HR3) as HR13. pose proof (Ver_rel _ _ _ _ _ _ HR13 HV) as HV3.
      split; [split; [exact Hk|]; eexists _, p; split; [exact HV3|reflexivity]|].
      destruct (PersGe_rel _ _ _ _ _ HR3 HP2) as (T3 & b & HT3 & Hb & Hle). exists T3, b.
      split; [exact HT3|]. split; [exact Hb|]. intros v ps q Hv Hps Hq.
      assert (HVq : Ver t i v q w3) by (exists T3, ps; auto). assert (Hlv : length (t_past T) <= v) by lia.
      apply (proj1 (Ver_rel2 _ _ _ _ _ _ _ HI3 HV3 HVq Hlv)). exact Hk.
    + apply ok_ret. intros w3 HI3 HR3 Hk. split.
      { split; [exact Hk|]. eexists _, p. split; [exact (Ver_rel _ _ _ _ _ _ HR3 HV)|reflexivity]. }
      apply (KPer_rel _ _ _ w1 w3 cap0); auto. destruct (line_some _ _ _ _ HI1 Hin1 HT) as (b & Hb).
      exists T, b. split; [exact HT|]. split; [exact Hb|]. intros v ps q Hv Hps Hq.
      destruct (tabs_ok _ _ _ HI1 HT) as (_ & _ & _ & _ & _ & _ & A7 & _).
      exact (A7 i p b v ps q Hp HD Hb Hv Hps Hq).
  - intros ? w2 HI2 HR2 HK. apply ok_ret. intros w3 HI3 HR3. split; [apply clean_isclean|]. intros Hk.
    destruct (HK Hk) as [H1 H2]. split; [exact (KeyIs_rel _ _ _ _ _ HR3 H1)|].
    apply (KPer_rel _ _ _ w2 w3 cap0); auto. exact (KeyIs_InR _ _ _ _ HI2 H1).
Qed.

Lemma ok_read_val t i w : Inv w -> InR t i w ->
  ok (pcas_read t i CVal) (fun V w' => isclean V /\ Seen t i V w' /\ DurVal t i V w' /\ (Frozen t i w -> isMarked V MIG = true) /\ Later t i V w w' /\ Read t i w') w.
Proof.
  intros HI HR. unfold pcas_read, do; cbn [bind]. apply ok_read; [reflexivity|]. intros w1 HI1 HR1. cbn [exec fst].
  pose proof (InR_rel _ _ _ _ HR1 HR) as Hin1. destruct (InR_cur _ _ _ HI1 Hin1) as (T & p & HT & Hp).
  rewrite (read_cur _ _ _ _ _ _ HT Hp). cbn [get_cell]. pose proof (cur_ver _ _ _ _ _ HT Hp) as HV.
  assert (HEx1 : exists L, Ex t L w1) by (destruct Hin1 as (L & H & _); eauto).
  apply (ok_seq cap0 _ _ (fun _ w2 => DurVal t i (clean (snd p)) w2 /\ Read t i w2)); [exact HI1| |].
  - destruct (isMarked (snd p) DirtyFlag) eqn:HD.
    + apply ok_bind; [exact HI1|]. eapply ok_persist; [exact HI1|exact HV|reflexivity|].
      intros r w2 HI2 HR2 HP2 HRd. apply ok_ret. intros w3 HI3 HR3. split; [|exact (Read_rel _ _ _ _ HR3 (HRd eq_refl))]. intros T3 HT3 _.
      exists (length (t_past T)), p. split; [exact (Ver_rel _ _ _ _ _ _ (Rel_trans _ _ _ HR2 HR3) HV)|].
      split; [reflexivity|]. exact (PersGe_rel _ _ _ _ _ HR3 HP2).
    + apply ok_ret. intros w3 HI3 HR3. split.
      2:{ apply (Read_rel _ _ _ _ HR3). eexists _, p. split; [exact HV|exact (isclean_neq_dirty _ _ HD)]. }
      apply (DurVal_rel _ _ _ w1 w3); auto.
      intros T1 HT1 Hn. rewrite HT in HT1. injection HT1 as <-.
      destruct (line_some _ _ _ _ HI1 Hin1 HT) as (b & Hb).
      destruct (tabs_ok _ _ _ HI1 HT) as (_ & A2 & _ & _ & A5 & A6 & _ & A8 & _).
      pose proof (Forall_lookup_1 _ _ _ _ A6 Hb) as Hble. cbn in Hble.
      assert (Hbl : b < length (versions T)) by (rewrite versions_len; lia).
      destruct (lookup_lt_is_Some_2 _ _ Hbl) as (ps & Hps).
      pose proof (A5 _ _ _ _ Hble Hps (versions_last T)) as HF.
      destruct (Forall2_lookup_r _ _ _ _ _ HF Hp) as (q & Hq & _).
      exists b, q. split; [exists T, ps; auto|]. split; [exact (A8 i p b b ps q Hn Hp HD Hb (le_n b) Hps Hq)|].
      exists T, b. auto.
  - intros ? w2 HI2 HR2 [HD HRd]. apply ok_ret. intros w3 HI3 HR3. split; [apply clean_isclean|].
    split; [eexists _, p; split; [exact (Ver_rel _ _ _ _ _ _ (Rel_trans _ _ _ HR2 HR3) HV)|rewrite clean_clean; reflexivity]|].
    split; [apply (DurVal_rel _ _ _ w2 w3); auto; destruct HEx1 as (L & HL); exists L; exact (Ex_rel _ _ _ _ HR2 HL)|].
    split; [intros HF; rewrite isMarked_clean_mig; exact (Frozen_cur _ _ _ _ _ HI1 (Frozen_rel _ _ _ _ HR1 HF) HT Hp)|].
    split; [|exact (Read_rel _ _ _ _ HR3 HRd)].
    intros v q Hv. exists (length (t_past T)), p. split; [exact (Ver_rel _ _ _ _ _ _ (Rel_trans _ _ _ HR2 HR3) HV)|]. split; [|reflexivity].
    exact (Ver_last _ _ _ _ _ _ (Ver_rel _ _ _ _ _ _ HR1 Hv) HT).
Qed.

(** ** class Table *)

Lemma ok_bounds t i w : Inv w -> ok (bounds C t i) (fun _ w' => InR t i w') w.
Proof.
  intros HI. unfold bounds, do; cbn [bind]. apply ok_read; [reflexivity|]. intros w1 HI1 HR1. cbn [exec fst].
  destruct (Nat.ltb_spec i (match st_tabs (snd w1) !! t with Some T => t_len T | None => 0 end)) as [Hlt|]; [|exact I].
  apply ok_ret. intros w2 HI2 HR2. apply (InR_rel _ _ _ _ HR2). destruct (st_tabs (snd w1) !! t) as [T|] eqn:HT; [|lia].
  exists (t_len T). split; [exists T; auto|exact Hlt].
Qed.

Lemma ok_key t i w : Inv w ->
  ok (key C t i) (fun K w' => isclean K /\ InR t i w' /\ (K <> KINITIAL -> KeyIs t i K w' /\ KPer t i K w')) w.
Proof.
  intros HI. unfold key. eapply ok_seq; [exact HI|apply ok_bounds; exact HI|]. intros ? w1 HI1 HR1 Hin. cbn beta.
  eapply ok_mono; [apply ok_read_key; assumption|]. intros K w2 HI2 HR2 [H1 H2]. split; [exact H1|].
  split; [exact (InR_rel _ _ _ _ HR2 Hin)|exact H2].
Qed.

Lemma ok_value t i w : Inv w ->
  ok (value C t i) (fun V w' => isclean V /\ Seen t i V w' /\ DurVal t i V w' /\ (Frozen t i w -> isMarked V MIG = true) /\ Later t i V w w' /\ Read t i w') w.
Proof.
  intros HI. unfold value. eapply ok_seq; [exact HI|apply ok_bounds; exact HI|]. intros ? w1 HI1 HR1 Hin. cbn beta.
  eapply ok_mono; [apply ok_read_val; assumption|]. intros V w2 HI2 HR2 (H1 & H2 & H3 & H4 & H5 & H6). split; [exact H1|].
  split; [exact H2|]. split; [exact H3|]. split; [intros HF; apply H4; exact (Frozen_rel _ _ _ _ HR1 HF)|]. split; [|exact H6].
  intros v q Hv. apply H5 with q. exact (Ver_rel _ _ _ _ _ _ HR1 Hv).
Qed.

Lemma ok_any_read t i c w : Inv w -> InR t i w -> ok (pcas_read t i c) (fun _ _ => True) w.
Proof.
  intros HI HR. destruct c; (eapply ok_mono; [first [apply ok_read_key|apply ok_read_val]; assumption|auto]).
Qed.

(** hashMap.hpp:514-520 *)
Lemma ok_CASkey t i k w : Inv w -> keyOK w k -> (k <> KTOMBSTONE -> Read t i w) ->
  ok (CASkey C t i KINITIAL k)
    (fun r w' => (r = KINITIAL -> KeyIs t i k w') /\ (clean r <> KINITIAL -> KeyIs t i (clean r) w')) w.
Proof.
  intros HI HK HRd. unfold CASkey, pcas. eapply ok_seq; [exact HI|apply ok_bounds; exact HI|]. intros ? w1 HI1 HR1 Hin. cbn beta.
  apply ok_bind; [exact HI1|]. eapply ok_seq; [exact HI1|apply ok_any_read; assumption|]. intros ? w2 HI2 HR2 _. cbn beta.
  unfold do; cbn [bind]. apply ok_cmd. intros w3 HI3 HR3.
  pose proof (Rel_trans _ _ _ HR2 HR3) as HR13. pose proof (InR_rel _ _ _ _ HR13 Hin) as Hin3.
  destruct (InR_cur _ _ _ HI3 Hin3) as (T & p0 & HT & Hp0).
  cbn [exec]. rewrite (read_cur _ _ _ _ _ _ HT Hp0). cbn [get_cell].
  destruct (N.eqb_spec (fst p0) KINITIAL) as [Heq|Hne].
  - pose proof (keyOK_rel _ _ _ (Rel_trans _ _ _ HR1 HR13) HK) as HK3.
    pose proof (Ver_ok _ _ _ _ _ HI3 (cur_ver _ _ _ _ _ HT Hp0)) as (P1 & P2 & P3 & P4).
    destruct HK3 as (K1 & K2 & K3).
    assert (Hck : clean (fst p0) = KINITIAL) by (rewrite Heq; reflexivity).
    destruct (write_ok cap0 w3 t T i CKey (dirty k) p0) as [W1 W2]; auto.
    { split; [|split]; cbn; [congruence|auto|auto]. }
    { cbn. rewrite Hck in P2. split; [|split; [|split]]; cbn; rewrite clean_dirty, (clean_id _ K1).
      - right. exact K3.
      - congruence.
      - left. unfold strip. rewrite (P2 eq_refl). apply unmark_id. exact VINITIAL_unmarked.
      - intros _ _ _. split; [exact (P2 eq_refl)|]. intros Hkt. destruct (Read_rel _ _ _ _ (Rel_trans _ _ _ HR1 HR13) (HRd Hkt)) as (v & q & HV & Hq).
        pose proof (proj2 (proj2 (Ver_rel2 _ _ _ _ _ _ _ HI3 HV (cur_ver _ _ _ _ _ HT Hp0) (Ver_last _ _ _ _ _ _ HV HT))) (or_introl Hck) Hq) as Hq'.
        specialize (P2 eq_refl). destruct (isMarked (snd p0) DirtyFlag) eqn:E.
        + exfalso. apply Hq'. rewrite <- P2, dirty_clean. symmetry. apply dirty_id, E.
        + rewrite <- P2. symmetry. apply clean_id, E. }
    { intros _ Hcl. exfalso. exact (isclean_neq_dirty _ k Hcl eq_refl). }
    { discriminate. }
    { discriminate. }
    split; [exact W1|]. split; [exact W2|]. intros HI4 HR4. set (w4 := (fst w3, with_tab _ _ _)) in *.
    assert (HKI : KeyIs t i k w4).
    { split; [exact K2|]. exists (length (versions T)), (dirty k, snd p0). split; [|cbn; rewrite clean_dirty; apply clean_id; exact K1].
      exists (write_cell i CKey (dirty k) T), (alter (set_cell CKey (dirty k)) i (t_pairs T)).
      split; [unfold w4; cbn; rewrite list_lookup_alter, HT; reflexivity|].
      split; [rewrite versions_write, lookup_app_r, Nat.sub_diag by lia; reflexivity|].
      rewrite list_lookup_alter, Hp0. reflexivity. }
    cbn [fst snd]. apply ok_bind; [exact HI4|]. apply ok_assert. intros w5 HI5 HR5.
    apply ok_ret. intros w6 HI6 HR6. apply ok_ret. intros w7 HI7 HR7. cbn [snd].
    pose proof (KeyIs_rel _ _ _ _ _ (Rel_trans _ _ _ HR5 (Rel_trans _ _ _ HR6 HR7)) HKI) as HKI7.
    split; [auto|]. intros Hc. exfalso. apply Hc. reflexivity.
  - destruct (same_ok cap0 w3 HI3) as [S1 S2]. split; [exact S1|]. split; [exact S2|]. intros HI4 HR4. cbn [fst snd].
    apply ok_bind; [exact HI4|]. apply ok_assert. intros w5 HI5 HR5.
    apply ok_ret. intros w6 HI6 HR6. apply ok_ret. intros w7 HI7 HR7. cbn [snd].
    split; [congruence|]. intros Hc. apply (KeyIs_rel _ _ _ w3 w7).
    + exact (Rel_trans _ _ _ (proj1 S2) (Rel_trans _ _ _ HR5 (Rel_trans _ _ _ HR6 HR7))).
    + split; [exact Hc|]. eexists _, p0. split; [exact (cur_ver _ _ _ _ _ HT Hp0)|reflexivity].
Qed.

(** A pcas on a value. *)
Definition newOK (w : world) (k v : N) : Prop := k = KTOMBSTONE \/ Forall noinc (fst w) -> strip v <> VINITIAL.
Lemma newOK_rel w w' k v : Rel w w' -> newOK w k v -> newOK w' k v.
Proof. intros (Hi & _) H Hn. apply H. exact (noinc_mono _ _ _ Hi Hn). Qed.
Lemma tight_rel w w' k v : Rel w w' -> tight (fst w) k v -> tight (fst w') k v.
Proof. intros (Hi & _). apply tight_mono, Hi. Qed.

Lemma ok_pcas_val t i k old new w : Inv w -> KeyIs t i k w -> Seen t i old w -> unmarked old \/ clean new = TOMBPRIME ->
  unmarked new \/ (exists nt, link (snd w) t nt) ->
  val_ok (fst w) k new -> newOK w k new ->
  ok (r <-- pcas C t i CVal old new;; Ret (snd r)) (fun r w' => (r = old /\ Seen t i new w') \/ (r <> old /\ Seen t i r w' /\ tight (fst w') k r)) w.
Proof.
  intros HI HKI HSo Hold HMN Hnew Hnew'. pose proof (KeyIs_InR _ _ _ _ HI HKI) as Hin. unfold pcas.
  apply ok_bind; [exact HI|]. eapply ok_seq; [exact HI|apply ok_read_val; assumption|]. intros V0 w2 HI2 HR2 (_ & _ & HDV & _ & HLa & HRd). cbn beta.
  unfold do; cbn [bind]. apply ok_cmd. intros w3 HI3 HR3.
  pose proof (Rel_trans _ _ _ HR2 HR3) as HR13. pose proof (InR_rel _ _ _ _ HR13 Hin) as Hin3.
  destruct (InR_cur _ _ _ HI3 Hin3) as (T & p0 & HT & Hp0).
  cbn [exec]. rewrite (read_cur _ _ _ _ _ _ HT Hp0). cbn [get_cell].
  destruct (N.eqb_spec (snd p0) old) as [Heq|Hne].
  - pose proof (KeyIs_rel _ _ _ _ _ HR13 HKI) as HKI3.
    pose proof (KeyIs_cur _ _ _ _ _ _ HI3 HKI3 HT Hp0) as Hk.
    pose proof (Ver_ok _ _ _ _ _ HI3 (cur_ver _ _ _ _ _ HT Hp0)) as (P1 & P2 & P3 & P4).
    destruct (write_ok cap0 w3 t T i CVal (dirty new) p0) as [W1 W2]; auto.
    { split; [|split]; cbn; [auto| |intros [E|E]; [exfalso; apply (proj1 HKI); congruence|]; intros _ Hd; rewrite Hk in E; apply (newOK_rel _ _ _ _ HR13 Hnew' (or_introl E)); unfold strip; rewrite <- (clean_dirty new), Hd; reflexivity]. intros HM. rewrite Heq in HM. rewrite clean_dirty. destruct Hold as [Hu|Hu]; [|auto].
      unfold unmarked in Hu. congruence. }
    { split; [exact P1|]. cbn. split; [|split].
      - rewrite Hk. intros E. exfalso. apply (proj1 HKI). exact E.
      - rewrite Hk. unfold val_ok, strip. rewrite clean_dirty. exact (val_ok_mono _ _ _ _ (proj1 HR13) Hnew).
      - intros _ Hn Hs. exfalso. rewrite Hk in Hn. unfold strip in Hs. rewrite clean_dirty in Hs.
        exact (newOK_rel _ _ _ _ HR13 Hnew' Hn Hs). }
    { discriminate. }
    { intros _ Hcl. exfalso. exact (isclean_neq_dirty _ new Hcl eq_refl). }
    { intros _. right. intros b v ps q Hn Hb Hv Hps Hq.
      pose proof (no_reuse_prefix T _ i _ (versions_write T i CVal (dirty new)) Hn) as Hn'.
      destruct HSo as (v1 & p1 & HV1 & E1). destruct (HLa v1 p1 HV1) as (a0 & q0 & HVa0 & Hle0 & E0).
      pose proof (Ver_rel _ _ _ _ _ _ HR13 HV1) as HV1'. pose proof (Ver_rel _ _ _ _ _ _ HR3 HVa0) as HVa0'.
      assert (Hbetween : forall a c x y, Ver t i a x w3 -> Ver t i c y w3 -> a <= c -> clean (snd x) = clean old -> clean (snd y) = clean old).
      { intros a c x y Ha Hc Hac Ex. pose proof (Ver_last _ _ _ _ _ _ Hc HT) as Hcl.
        destruct Ha as (Ta & pa & HTa & Hpa & Hxa). destruct Hc as (Tc & pc & HTc & Hpc & Hyc). rewrite HT in HTa, HTc. injection HTa as <-. injection HTc as <-.
        destruct (decide (a = c)) as [->|Hne]; [rewrite Hpa in Hpc; injection Hpc as <-; congruence|].
        destruct (decide (c = length (t_past T))) as [->|Hne'].
        { rewrite versions_last in Hpc. injection Hpc as <-. rewrite Hp0 in Hyc. injection Hyc as <-. rewrite Heq. reflexivity. }
        rewrite <- Ex. refine (Hn' a c (length (t_past T)) pa pc (t_pairs T) x y p0 _ _ Hpa Hpc (versions_last T) Hxa Hyc Hp0 _); [lia|lia|].
        rewrite Ex, Heq. reflexivity. }
      pose proof (Hbetween _ _ _ _ HV1' HVa0' Hle0 E1) as Ea0. rewrite E0 in Ea0.
      assert (HEx : exists L, Ex t L w2).
      { destruct HVa0 as (T2 & ? & HT2 & _). exists (t_len T2), T2. auto. }
      destruct (DurVal_rel _ _ _ _ _ HEx HR3 HDV T HT Hn') as (a & pa & HVa & Epa & T' & b' & HT' & Hb' & Hab).
      rewrite HT in HT'. injection HT' as <-. rewrite Hb in Hb'. injection Hb' as <-. rewrite Heq.
      apply (Hbetween a v pa q); [exact HVa|exists T, ps; auto|lia|congruence]. }
    { intros _ HMn. rewrite <- isMarked_clean_mig, clean_dirty, isMarked_clean_mig in HMn.
      destruct HMN as [Hu|(nt & Hl)]; [unfold unmarked in Hu; congruence|].
      destruct (link_mono _ _ _ _ HR13 Hl) as (T' & HT' & Hn). rewrite HT in HT'. injection HT' as <-. rewrite Hn. discriminate. }
    split; [exact W1|]. split; [exact W2|]. intros HI4 HR4. set (w4 := (fst w3, with_tab _ _ _)) in *. cbn [fst snd].
    assert (HS : Seen t i new w4).
    { exists (length (versions T)), (fst p0, dirty new). split; [|cbn; apply clean_dirty].
      exists (write_cell i CVal (dirty new) T), (alter (set_cell CVal (dirty new)) i (t_pairs T)).
      split; [unfold w4; cbn; rewrite list_lookup_alter, HT; reflexivity|].
      split; [rewrite versions_write, lookup_app_r, Nat.sub_diag by lia; reflexivity|].
      rewrite list_lookup_alter, Hp0. reflexivity. }
    apply ok_bind; [exact HI4|]. apply ok_assert. intros w5 HI5 HR5.
    apply ok_ret. intros w6 HI6 HR6. apply ok_ret. intros w7 HI7 HR7. left. split; [reflexivity|].
    apply (Seen_rel _ _ _ w4 w7); [rel|exact HS].
  - destruct (same_ok cap0 w3 HI3) as [S1 S2]. split; [exact S1|]. split; [exact S2|]. intros HI4 HR4. cbn [fst snd].
    apply ok_bind; [exact HI4|]. apply ok_assert. intros w5 HI5 HR5.
    apply ok_ret. intros w6 HI6 HR6. apply ok_ret. intros w7 HI7 HR7. cbn [snd]. right. split; [exact Hne|].
    assert (HR37 : Rel w3 w7) by exact (Rel_trans _ _ _ (proj1 S2) (Rel_trans _ _ _ HR5 (Rel_trans _ _ _ HR6 HR7))).
    split; [apply (Seen_rel _ _ _ w3 w7); [exact HR37|]|apply (tight_rel w3 w7); [exact HR37|]].
    + eexists _, p0. split; [exact (cur_ver _ _ _ _ _ HT Hp0)|reflexivity].
    + pose proof (KeyIs_cur _ _ _ _ _ _ HI3 (KeyIs_rel _ _ _ _ _ HR13 HKI) HT Hp0) as Hk.
      pose proof (Ver_ok _ _ _ _ _ HI3 (cur_ver _ _ _ _ _ HT Hp0)) as (_ & _ & _ & P4). rewrite Hk in P4. specialize (P4 (proj1 HKI)).
      intros Hn Hs. destruct (P4 Hn Hs) as [Ea Eb]. destruct (N.eq_dec k KTOMBSTONE) as [Ek|Ek]; [|exact (Eb Ek)].
      destruct (Read_rel _ _ _ _ HR3 HRd) as (v & q & HV & Hq).
      assert (Hck : clean (fst p0) = KINITIAL \/ clean (fst p0) = KTOMBSTONE) by (right; congruence).
      pose proof (proj2 (proj2 (Ver_rel2 _ _ _ _ _ _ _ HI3 HV (cur_ver _ _ _ _ _ HT Hp0) (Ver_last _ _ _ _ _ _ HV HT))) Hck Hq) as Hq'.
      destruct (isMarked (snd p0) DirtyFlag) eqn:E.
      * exfalso. apply Hq'. rewrite <- Ea, dirty_clean. symmetry. apply dirty_id, E.
      * rewrite <- Ea. symmetry. apply clean_id, E.
Qed.

(** hashMap.hpp:523-529 *)
Lemma ok_CASvalue t i k old new w : Inv w -> KeyIs t i k w -> Seen t i old w -> unmarked old \/ clean new = TOMBPRIME ->
  unmarked new \/ (exists nt, link (snd w) t nt) ->
  val_ok (fst w) k new -> newOK w k new ->
  ok (CASvalue C t i old new) (fun r w' => (r = old /\ Seen t i new w') \/ (r <> old /\ Seen t i r w' /\ tight (fst w') k r)) w.
Proof.
  intros HI HKI HSo Hold HMN Hnew Hnew'. unfold CASvalue. eapply ok_seq; [exact HI|apply ok_bounds; exact HI|].
  intros ? w1 HI1 HR1 _. cbn beta. apply (ok_pcas_val t i k); auto.
  - exact (KeyIs_rel _ _ _ _ _ HR1 HKI).
  - exact (Seen_rel _ _ _ _ _ HR1 HSo).
  - destruct HMN as [Hu|(nt & Hl)]; [left; exact Hu|right; exists nt; exact (link_mono _ _ _ _ HR1 Hl)].
  - exact (val_ok_mono _ _ _ _ (proj1 HR1) Hnew).
  - exact (newOK_rel _ _ _ _ HR1 Hnew').
Qed.

End Prog.
