(** Each kind of command preserves the invariant of ConcInv.v. *)
From Coq Require Import NArith Bool List Lia.
From stdpp Require Import base list relations.
From Verif Require Import Word Bits Prog HashMap Conc Spec ConcSpec ConcInv.
Import ListNotations.
Open Scope nat_scope.

Lemma state_eta s : mkState (st_tabs s) (st_top s) (st_fctr s) (st_files s) (st_ppl s) (st_maxcap s) = s.
Proof. destruct s; reflexivity. Qed.

Lemma with_tab_none t f s : st_tabs s !! t = None -> with_tab t f s = s.
Proof.
  intros H. unfold with_tab. replace (alter f t (st_tabs s)) with (st_tabs s); [apply state_eta|].
  apply list_eq. intros j. destruct (decide (j = t)) as [->|Hne].
  - rewrite list_lookup_alter, H. reflexivity.
  - rewrite list_lookup_alter_ne; auto.
Qed.

Lemma list_lookup_alter_Some {A} (f : A -> A) (i : nat) (l : list A) (j : nat) (y : A) : alter f i l !! j = Some y <->
  (j = i /\ exists x, l !! i = Some x /\ y = f x) \/ (j <> i /\ l !! j = Some y).
Proof.
  destruct (decide (j = i)) as [->|Hne].
  - rewrite list_lookup_alter. destruct (l !! i) as [x|]; cbn; split.
    + intros [= <-]. left. eauto.
    + intros [(_ & z & [= ->] & ->)|[H _]]; [reflexivity|congruence].
    + discriminate.
    + intros [(_ & z & [=] & _)|[H _]]; congruence.
  - rewrite list_lookup_alter_ne by auto. split; [auto|]. intros [[H _]|[_ H]]; congruence.
Qed.

Section Cmd.
Context (cap0 : nat).
Notation Inv := (Inv cap0).
Notation tab_ok := (tab_ok cap0).

(** *** Changing one table *)

Lemma with_tab_ok w t T f : Inv w -> st_tabs (snd w) !! t = Some T -> TR T (f T) -> tab_ok w (f T) ->
  (forall nt, t_new (f T) = Some nt -> exists NT, st_tabs (snd w) !! nt = Some NT /\ t_len NT = 2 * t_len T) ->
  Inv (fst w, with_tab t f (snd w)) /\ Step w (fst w, with_tab t f (snd w)).
Proof.
  intros HI HT HR Hok Hnew. destruct HI as (Hl & Hf & Htop & Htabs & Hlinks).
  assert (Hlen : t_len (f T) = t_len T) by apply HR.
  assert (Hlook : forall x X, st_tabs (snd w) !! x = Some X ->
            exists X', alter f t (st_tabs (snd w)) !! x = Some X' /\ TR X X' /\ t_len X' = t_len X).
  { intros x X HX. destruct (decide (x = t)) as [->|Hne].
    - rewrite HX in HT. injection HT as ->. exists (f T). rewrite list_lookup_alter, HX. auto.
    - exists X. rewrite list_lookup_alter_ne by auto. auto using TR_refl. }
  split.
  - split; [exact Hl|]. split; [exact Hf|]. cbn. rewrite alter_length. split; [exact Htop|]. split.
    + intros x X HX. destruct (decide (x = t)) as [->|Hne].
      * rewrite list_lookup_alter, HT in HX. injection HX as <-. exact Hok.
      * rewrite list_lookup_alter_ne in HX by auto. exact (Htabs _ _ HX).
    + intros x X nt HX Hn.
      assert (exists NT, st_tabs (snd w) !! nt = Some NT /\ t_len NT = 2 * t_len X) as (NT & HN & HL).
      { destruct (decide (x = t)) as [->|Hne].
        - rewrite list_lookup_alter, HT in HX. injection HX as <-. rewrite Hlen. exact (Hnew _ Hn).
        - rewrite list_lookup_alter_ne in HX by auto. exact (Hlinks _ _ _ HX Hn). }
      destruct (Hlook _ _ HN) as (NT' & HN' & _ & HL'). exists NT'. split; [exact HN'|rewrite HL'; exact HL].
  - split; [|split; [reflexivity|left; reflexivity]].
    split; [intros o; auto|]. split; [reflexivity|]. split; [|apply rtc_refl].
    intros x X HX. destruct (Hlook _ _ HX) as (X' & H1 & H2 & _). exists X'. auto.
Qed.

Lemma same_ok w : Inv w -> Inv (fst w, snd w) /\ Step w (fst w, snd w).
Proof. intros H. rewrite <- surjective_pairing. split; [exact H|apply Step_refl]. Qed.

(** *** Counters *)

Lemma set_fld_ok w t f v : Inv w ->
  Inv (fst w, with_tab t (fun T => set_fld f (v T) T) (snd w)) /\
  Step w (fst w, with_tab t (fun T => set_fld f (v T) T) (snd w)).
Proof.
  intros HI. destruct (st_tabs (snd w) !! t) as [T|] eqn:HT; [|rewrite with_tab_none by exact HT; apply same_ok; exact HI].
  apply (with_tab_ok w t T); auto.
  - destruct (TR_refl T) as (H1 & H2 & H3 & H4). split; [reflexivity|]. split; [exact H2|]. split; [exact H3|exact H4].
  - destruct HI as (_ & _ & _ & H & _). exact (H _ _ HT).
  - destruct HI as (_ & _ & _ & _ & H). intros nt Hn. exact (H t T nt HT Hn).
Qed.

(** *** Fences *)

Lemma Forall_alter_max (l : list nat) j x n : Forall (fun b => b <= n) l -> x <= n -> Forall (fun b => b <= n) (alter (Nat.max x) j l).
Proof.
  intros H Hx. apply Forall_lookup. intros i y. rewrite list_lookup_alter_Some.
  rewrite Forall_lookup in H. intros [(-> & z & Hz & ->)|[_ Hy]]; [specialize (H _ _ Hz); lia|exact (H _ _ Hy)].
Qed.

Lemma Forall2_alter_max (l : list nat) j x : Forall2 Peano.le l (alter (Nat.max x) j l).
Proof.
  apply Forall2_same_length_lookup. split; [rewrite alter_length; reflexivity|].
  intros i y z Hy Hz. rewrite list_lookup_alter_Some in Hz. destruct Hz as [(-> & u & Hu & ->)|[_ Hz]].
  - rewrite Hy in Hu. injection Hu as <-. lia.
  - rewrite Hy in Hz. injection Hz as <-. lia.
Qed.

Lemma alter_max_ge (l : list nat) j x i b : alter (Nat.max x) j l !! i = Some b -> exists b0, l !! i = Some b0 /\ b0 <= b.
Proof.
  rewrite list_lookup_alter_Some. intros [(-> & u & Hu & ->)|[_ Hz]]; eexists; (split; [eassumption|lia]).
Qed.

Lemma fence_ok w t i x : Inv w ->
  (forall T, st_tabs (snd w) !! t = Some T -> x <= length (t_past T)) ->
  let s' := snd (exec (Fence t i x) (snd w)) in Inv (fst w, s') /\ Step w (fst w, s').
Proof.
  intros HI Hx. cbn. destruct (st_tabs (snd w) !! t) as [T|] eqn:HT; [|rewrite with_tab_none by exact HT; apply same_ok; exact HI].
  specialize (Hx T eq_refl). apply (with_tab_ok w t T); auto.
  - split; [reflexivity|]. split; [exists []; rewrite app_nil_r; split; [reflexivity|constructor]|].
    split; [apply Forall2_alter_max|auto].
  - destruct HI as (_ & _ & _ & H & _). destruct (H _ _ HT) as (A1 & A2 & A3 & A4 & A5 & A6 & A7 & A8 & A9 & A10).
    split; [exact A1|]. split; [exact A2|]. split; [cbn; rewrite alter_length; exact A3|]. split; [exact A4|].
    split; [exact A5|]. split; [apply Forall_alter_max; assumption|]. split; [|split; [|split; [|exact A10]]].
    + intros j p b v ps q Hp Hc Hb Hv Hps Hq. cbn in Hb. apply alter_max_ge in Hb as (b0 & Hb0 & Hle).
      apply (A7 j p b0 v ps q Hp Hc Hb0); auto. lia.
    + intros j p b v ps q Hn Hp Hc Hb Hv Hps Hq. cbn in Hb. apply alter_max_ge in Hb as (b0 & Hb0 & Hle).
      apply (A8 j p b0 v ps q Hn Hp Hc Hb0); auto. lia.
    + intros j p b v v' ps ps' q q' Hn Hp Hb Hv. cbn in Hb. apply alter_max_ge in Hb as (b0 & Hb0 & Hle).
      apply (A9 j p b0 v v' ps ps' q q' Hn Hp Hb0). lia.
  - destruct HI as (_ & _ & _ & _ & H). intros nt Hn. exact (H t T nt HT Hn).
Qed.

(** *** Writing a cell *)

Lemma no_reuse_prefix T T' i ext : versions T' = versions T ++ ext -> no_reuse T' i -> no_reuse T i.
Proof.
  intros HE H a b c A B D p q r H1 H2 HA HB HD. apply (H a b c A B D p q r H1 H2).
  - rewrite HE. apply lookup_app_l_Some. exact HA.
  - rewrite HE. apply lookup_app_l_Some. exact HB.
  - rewrite HE. apply lookup_app_l_Some. exact HD.
Qed.

Lemma versions_in T ps : In ps (versions T) -> exists v, versions T !! v = Some ps.
Proof. intros H. apply elem_of_list_In, elem_of_list_lookup in H. exact H. Qed.

Lemma write_ok w t T i c n p : Inv w -> st_tabs (snd w) !! t = Some T -> t_pairs T !! i = Some p ->
  prel p (set_cell c n p) -> pair_ok (fst w) (set_cell c n p) ->
  (c = CKey -> isclean n -> forall b v ps q, t_pers T !! (i / st_ppl (snd w)) = Some b -> b <= v ->
     versions T !! v = Some ps -> ps !! i = Some q -> clean (fst q) = clean n) ->
  (c = CVal -> isclean n -> forall b v ps q, no_reuse (write_cell i c n T) i ->
     t_pers T !! (i / st_ppl (snd w)) = Some b -> b <= v ->
     versions T !! v = Some ps -> ps !! i = Some q -> clean (snd q) = clean n) ->
  (c = CVal -> clean n = clean (snd p) \/ forall b v ps q, no_reuse (write_cell i c n T) i ->
     t_pers T !! (i / st_ppl (snd w)) = Some b -> b <= v ->
     versions T !! v = Some ps -> ps !! i = Some q -> clean (snd q) = clean (snd p)) ->
  (c = CVal -> isMarked n MIG = true -> t_new T <> None) ->
  Inv (fst w, with_tab t (write_cell i c n) (snd w)) /\ Step w (fst w, with_tab t (write_cell i c n) (snd w)).
Proof.
  intros HI HT Hp Hprel Hpok HK HV H2V HMN.
  assert (Hver := versions_write T i c n).
  assert (HF : Forall2 prel (t_pairs T) (alter (set_cell c n) i (t_pairs T))).
  { apply Forall2_same_length_lookup. split; [rewrite alter_length; reflexivity|].
    intros j x y Hx Hy. rewrite list_lookup_alter_Some in Hy. destruct Hy as [(-> & u & Hu & ->)|[_ Hy]].
    - rewrite Hx in Hu. injection Hu as <-. rewrite Hp in Hx. injection Hx as <-. exact Hprel.
    - rewrite Hx in Hy. injection Hy as <-. apply prel_refl. }
  apply (with_tab_ok w t T); auto.
  - split; [reflexivity|]. split; [|split; [apply Forall2_le_refl|auto]].
    eexists. split; [exact Hver|]. repeat constructor. exact HF.
  - destruct HI as (_ & _ & _ & H & _). destruct (H _ _ HT) as (A1 & A2 & A3 & A4 & A5 & A6 & A7 & A8 & A9 & A10).
    split; [exact A1|]. split; [cbn; rewrite alter_length; exact A2|]. split; [exact A3|].
    assert (Hcur : In (t_pairs T) (versions T)) by (unfold versions; apply in_or_app; right; left; reflexivity).
    assert (Hsplit : forall v ps, versions (write_cell i c n T) !! v = Some ps ->
              versions T !! v = Some ps \/ (v = length (versions T) /\ ps = alter (set_cell c n) i (t_pairs T))).
    { intros v ps. rewrite Hver. rewrite lookup_app_Some. intros [Hl|[Hge Hl]]; [left; exact Hl|].
      apply list_lookup_singleton_Some in Hl as [Hz <-]. right. split; [lia|reflexivity]. }
    split; [|split; [|split; [|split; [|split; [|split]]]]].
    + intros ps Hin. rewrite Hver in Hin. apply in_app_or in Hin as [Hin|[<-|[]]]; [exact (A4 _ Hin)|].
      apply Forall_lookup. intros j y Hy. rewrite list_lookup_alter_Some in Hy. destruct Hy as [(-> & u & Hu & ->)|[_ Hy]].
      * rewrite Hp in Hu. injection Hu as <-. exact Hpok.
      * exact (Forall_lookup_1 _ _ _ _ (A4 _ Hcur) Hy).
    + intros v v' ps ps' Hle Hv1 Hv2. apply Hsplit in Hv1, Hv2.
      destruct Hv1 as [Hv1|[Ev1 ->]], Hv2 as [Hv2|[Ev2 ->]].
      * exact (A5 _ _ _ _ Hle Hv1 Hv2).
      * pose proof (lookup_lt_Some _ _ _ Hv1) as Hlt. rewrite versions_len in Hlt.
        assert (Hl : Forall2 prel ps (t_pairs T)) by (apply (A5 v (length (t_past T))); [lia|exact Hv1|apply versions_last]).
        exact (Forall2_prel_trans _ _ _ Hl HF).
      * pose proof (lookup_lt_Some _ _ _ Hv2) as Hlt. lia.
      * apply Forall2_prel_refl.
    + cbn. eapply Forall_impl; [exact A6|]. cbn. intros b Hb. lia.
    + intros j pj b v ps q Hpj Hc Hb Hle Hv Hq. cbn [t_pairs write_cell set_pairs] in Hpj. cbn [t_pers write_cell set_pairs] in Hb.
      apply Hsplit in Hv. destruct Hv as [Hv|[_ ->]]; [|rewrite Hpj in Hq; injection Hq as <-; reflexivity].
      rewrite list_lookup_alter_Some in Hpj. destruct Hpj as [(Eij & u & Hu & Epj)|[_ Hpj]].
      * subst j. rewrite Hp in Hu. injection Hu as <-. subst pj. destruct c; cbn in Hc |- *.
        -- exact (HK eq_refl Hc b v ps q Hb Hle Hv Hq).
        -- exact (A7 i p b v ps q Hp Hc Hb Hle Hv Hq).
      * exact (A7 j pj b v ps q Hpj Hc Hb Hle Hv Hq).
    + intros j pj b v ps q Hn Hpj Hc Hb Hle Hv Hq. cbn [t_pairs write_cell set_pairs] in Hpj. cbn [t_pers write_cell set_pairs] in Hb.
      apply Hsplit in Hv. destruct Hv as [Hv|[_ ->]]; [|rewrite Hpj in Hq; injection Hq as <-; reflexivity].
      pose proof (no_reuse_prefix T _ j _ Hver Hn) as Hn'.
      rewrite list_lookup_alter_Some in Hpj. destruct Hpj as [(Eij & u & Hu & Epj)|[_ Hpj]].
      * subst j. rewrite Hp in Hu. injection Hu as <-. subst pj. destruct c; cbn in Hc |- *.
        -- exact (A8 i p b v ps q Hn' Hp Hc Hb Hle Hv Hq).
        -- exact (HV eq_refl Hc b v ps q Hn Hb Hle Hv Hq).
      * exact (A8 j pj b v ps q Hn' Hpj Hc Hb Hle Hv Hq).
    + intros j pj b v v' ps ps' q q' Hn Hpj Hb Hle Hvv Hv Hv' Hq Hq'. cbn [t_pairs write_cell set_pairs] in Hpj. cbn [t_pers write_cell set_pairs] in Hb.
      apply Hsplit in Hv'. destruct Hv' as [Hv'|[_ ->]]; [|right; rewrite Hpj in Hq'; injection Hq' as <-; reflexivity].
      apply Hsplit in Hv. destruct Hv as [Hv|[Ev ->]]; [|apply lookup_lt_Some in Hv'; lia].
      pose proof (no_reuse_prefix T _ j _ Hver Hn) as Hn'.
      rewrite list_lookup_alter_Some in Hpj. destruct Hpj as [(Eij & u & Hu & Epj)|[_ Hpj]].
      * subst j. rewrite Hp in Hu. injection Hu as <-. subst pj. destruct c; cbn.
        -- exact (A9 i p b v v' ps ps' q q' Hn' Hp Hb Hle Hvv Hv Hv' Hq Hq').
        -- destruct (H2V eq_refl) as [E|E].
           ++ rewrite E. exact (A9 i p b v v' ps ps' q q' Hn' Hp Hb Hle Hvv Hv Hv' Hq Hq').
           ++ left. rewrite (E b v ps q Hn Hb Hle Hv Hq). apply (E b v' ps' q' Hn Hb); [lia|exact Hv'|exact Hq'].
      * exact (A9 j pj b v v' ps ps' q q' Hn' Hpj Hb Hle Hvv Hv Hv' Hq Hq').
    + intros ps Hin. change (t_new (write_cell i c n T)) with (t_new T). rewrite Hver in Hin.
      apply in_app_or in Hin as [Hin|[<-|[]]]; [exact (A10 _ Hin)|].
      apply Forall_lookup. intros j y Hy. rewrite list_lookup_alter_Some in Hy. destruct Hy as [(-> & u & Hu & ->)|[_ Hy]].
      * rewrite Hp in Hu. injection Hu as <-. destruct c; cbn; [exact (Forall_lookup_1 _ _ _ _ (A10 _ Hcur) Hp)|auto].
      * exact (Forall_lookup_1 _ _ _ _ (A10 _ Hcur) Hy).
  - destruct HI as (_ & _ & _ & _ & H). intros nt Hn. exact (H t T nt HT Hn).
Qed.

(** *** Successor and current table *)

Lemma casnew_ok w t T n NT : Inv w -> st_tabs (snd w) !! t = Some T -> st_tabs (snd w) !! n = Some NT ->
  t_len NT = 2 * t_len T -> t_new T = None ->
  Inv (fst w, with_tab t (set_new (Some n)) (snd w)) /\ Step w (fst w, with_tab t (set_new (Some n)) (snd w)).
Proof.
  intros HI HT HN HL Hnone. apply (with_tab_ok w t T); auto.
  - split; [reflexivity|]. split; [exists []; rewrite app_nil_r; split; [reflexivity|constructor]|].
    split; [apply Forall2_le_refl|]. rewrite Hnone. discriminate.
  - destruct HI as (_ & _ & _ & H & _). destruct (H _ _ HT) as (A1 & A2 & A3 & A4 & A5 & A6 & A7 & A8 & A9 & A10).
    repeat (split; [assumption|]). intros ps Hin. apply Forall_forall. intros p _ _. discriminate.
  - intros nt Hn. cbn in Hn. injection Hn as <-. exists NT. auto.
Qed.

Lemma castop_ok w n : Inv w -> link (snd w) (st_top (snd w)) n ->
  let s' := mkState (st_tabs (snd w)) n (st_fctr (snd w)) (st_files (snd w)) (st_ppl (snd w)) (st_maxcap (snd w)) in
  Inv (fst w, s') /\ Step w (fst w, s').
Proof.
  intros HI Hlink. pose proof HI as HI0. destruct HI as (Hl & Hf & Htop & Htabs & Hlinks). cbn zeta. split.
  - split; [exact Hl|]. split; [exact Hf|]. split; [|split; [exact Htabs|exact Hlinks]].
    destruct Hlink as (T & HT & Hn). destruct (Hlinks _ _ _ HT Hn) as (NT & HN & _). exact (lookup_lt_Some _ _ _ HN).
  - split; [|split; [reflexivity|right; exact Hlink]].
    split; [intros o; auto|]. split; [reflexivity|]. split; [intros t T HT; exists T; split; [exact HT|apply TR_refl]|].
    apply rtc_once. exact Hlink.
Qed.

Lemma fctr_ok w f : Inv w ->
  let s' := mkState (st_tabs (snd w)) (st_top (snd w)) f (st_files (snd w)) (st_ppl (snd w)) (st_maxcap (snd w)) in
  Inv (fst w, s') /\ Step w (fst w, s').
Proof.
  intros HI. destruct HI as (Hl & Hf & Htop & Htabs & Hlinks). cbn zeta. split.
  - split; [exact Hl|]. split; [exact Hf|]. split; [exact Htop|]. split; [exact Htabs|exact Hlinks].
  - split; [|split; [reflexivity|left; reflexivity]].
    split; [intros o; auto|]. split; [reflexivity|]. split; [intros t T HT; exists T; split; [exact HT|apply TR_refl]|].
    apply rtc_refl.
Qed.

(** *** Allocation *)

Lemma fresh_versions cap e id : versions (fresh_table cap e id) = [replicate cap (dirty KINITIAL, dirty VINITIAL)].
Proof. reflexivity. Qed.

Lemma fresh_pair_ok ops : pair_ok ops (dirty KINITIAL, dirty VINITIAL).
Proof.
  split; [|split; [|split]]; cbn; rewrite !clean_dirty.
  - left. reflexivity.
  - reflexivity.
  - left. unfold strip. rewrite clean_dirty. reflexivity.
  - intros H. exfalso. apply H. reflexivity.
Qed.

Lemma fresh_ok w cap e id : (exists x, cap = cap0 * 2 ^ x) -> (N.of_nat cap < 2 ^ 59)%N -> tab_ok w (fresh_table cap e id).
Proof.
  intros Hcap H59. split; [split; [exact Hcap|exact H59]|]. split; [apply replicate_length|]. split; [apply replicate_length|].
  assert (Hone : forall v ps, versions (fresh_table cap e id) !! v = Some ps ->
            v = 0 /\ ps = t_pairs (fresh_table cap e id)).
  { intros v ps. rewrite fresh_versions. intros H. apply list_lookup_singleton_Some in H as [-> <-]. auto. }
  split; [|split; [|split; [|split; [|split; [|split]]]]].
  - intros ps Hin. rewrite fresh_versions in Hin. destruct Hin as [<-|[]]. apply Forall_replicate. apply fresh_pair_ok.
  - intros v v' ps ps' _ H1 H2. apply Hone in H1 as [_ ->]. apply Hone in H2 as [_ ->]. apply Forall2_prel_refl.
  - cbn. apply Forall_replicate. lia.
  - intros i p b v ps q Hp _ _ _ Hv Hq. apply Hone in Hv as [_ ->]. rewrite Hp in Hq. injection Hq as <-. reflexivity.
  - intros i p b v ps q _ Hp _ _ _ Hv Hq. apply Hone in Hv as [_ ->]. rewrite Hp in Hq. injection Hq as <-. reflexivity.
  - intros i p b v v' ps ps' q q' _ Hp _ _ _ _ Hv' _ Hq'. apply Hone in Hv' as [_ ->]. rewrite Hp in Hq'. injection Hq' as <-. auto.
  - intros ps Hin. rewrite fresh_versions in Hin. destruct Hin as [<-|[]]. apply Forall_replicate. vm_compute. discriminate.
Qed.

Lemma alloc_ok w T : Inv w -> tab_ok w T -> t_new T = None ->
  let s' := mkState (st_tabs (snd w) ++ [T]) (st_top (snd w)) (st_fctr (snd w)) (st_files (snd w)) (st_ppl (snd w)) (st_maxcap (snd w)) in
  Inv (fst w, s') /\ Step w (fst w, s').
Proof.
  intros HI Hok Hnew. destruct HI as (Hl & Hf & Htop & Htabs & Hlinks). cbn zeta. split.
  - split; [exact Hl|]. split; [exact Hf|]. cbn [snd fst st_tabs st_top]. split; [rewrite app_length; cbn; lia|]. split.
    + intros t X HX. apply lookup_app_Some in HX as [HX|[_ HX]]; [exact (Htabs _ _ HX)|].
      apply list_lookup_singleton_Some in HX as [_ <-]. exact Hok.
    + intros t X nt HX Hn. apply lookup_app_Some in HX as [HX|[_ HX]].
      * destruct (Hlinks _ _ _ HX Hn) as (NT & HN & HL). exists NT. split; [apply lookup_app_l_Some; exact HN|exact HL].
      * apply list_lookup_singleton_Some in HX as [_ <-]. congruence.
  - split; [|split; [reflexivity|left; reflexivity]].
    split; [intros o; auto|]. split; [reflexivity|]. split; [|apply rtc_refl].
    intros t X HX. exists X. split; [apply lookup_app_l_Some; exact HX|apply TR_refl].
Qed.

(** *** New calls *)

Lemma invoke_ok w o : Inv w -> legal_op o -> Inv (o :: fst w, snd w) /\ Rel w (o :: fst w, snd w).
Proof.
  intros HI Ho. destruct HI as (Hl & Hf & Htop & Htabs & Hlinks). split.
  - split; [constructor; assumption|]. split; [exact Hf|]. split; [exact Htop|]. split; [|exact Hlinks].
    intros t T HT. destruct (Htabs _ _ HT) as (A1 & A2 & A3 & A4 & A5).
    split; [exact A1|]. split; [exact A2|]. split; [exact A3|]. split; [|exact A5].
    intros ps Hin. eapply Forall_impl; [exact (A4 _ Hin)|]. intros p. apply pair_ok_mono. intros x. right. assumption.
  - split; [intros x; right; assumption|]. split; [reflexivity|].
    split; [intros t T HT; exists T; split; [exact HT|apply TR_refl]|apply rtc_refl].
Qed.

End Cmd.
