(** A map with a single table, used by several threads, that crashes anywhere and is constructed again. *)
From Coq Require Import NArith Bool List Lia Arith.
From stdpp Require Import base list gmap relations.
From Verif Require Import Word Bits Prog HashMap Conc Spec ConcSpec ConcInv ConcCmd ConcProg ConcMap ConcThm ConcWitness Abs Probe SeqInv SeqCopy SeqApi SeqThm ReopenThm.
From Verif Require Import DurableSpec Durable DurableMap DurableThm OneWrite CrashReopen LinSpec LinNew LinNewThm CrashSpec.
Import ListNotations.
Open Scope nat_scope.

(** ** At most the last change of an entry is lost *)

Lemma never_no_reuse T i : never_returns T i -> no_reuse T i.
Proof.
  intros H a b c A B D p q r H1 H2 HA HB HD Hp Hq Hr E. refine (H a b c p q r H1 H2 _ _ _ E); unfold hist_entry; [rewrite HA|rewrite HB|rewrite HD]; assumption.
Qed.

Section Last.
Context (C : cfg) (cap ppl n : nat) (maxcap : N) (todos : list (list op)).
Context (Hc : good_cap cap maxcap) (Hl : Forall (Forall legal_op) todos).
Notation st_ x := (sy_st (after C n (init_state cap ppl maxcap) todos x)).

Lemma entry_two sched t T i b p cur : st_tabs (st_ sched) !! t = Some T -> never_returns T i -> t_pers T !! line_of (st_ sched) i = Some b ->
  t_pairs T !! i = Some cur ->
  forall v, b <= v -> hist_entry T v i = Some p -> forall v' q, v <= v' -> hist_entry T v' i = Some q -> same_word (snd q) (snd p) \/ same_word (snd q) (snd cur).
Proof.
  intros HT Hn Hb Hcur v Hv Hp v' q Hv' Hq. pose proof (tabs_ok _ _ _ _ (after_inv C cap ppl n maxcap todos Hc Hl sched) HT) as (_ & _ & _ & _ & _ & _ & _ & _ & A9 & _).
  unfold hist_entry in Hp, Hq. destruct (versions T !! v) as [ps|] eqn:Ev; [|discriminate]. destruct (versions T !! v') as [ps'|] eqn:Ev'; [|discriminate].
  exact (A9 i cur b v v' ps ps' p q (never_no_reuse _ _ Hn) Hcur Hb Hv Hv' Ev Ev' Hp Hq).
Qed.

Lemma last_change sched t T img i p cur : crash_table (st_ sched) t img -> img !! i = Some p -> st_tabs (st_ sched) !! t = Some T -> entry (st_ sched) t i = Some cur ->
  never_returns T i ->
  exists v, hist_entry T v i = Some p /\ forall v' q, v <= v' -> hist_entry T v' i = Some q -> same_word (snd q) (snd p) \/ same_word (snd q) (snd cur).
Proof.
  intros HC Hp HT Hcur Hn. pose proof (after_inv C cap ppl n maxcap todos Hc Hl sched) as HI.
  destruct (crash_table_entry _ _ _ _ _ _ HI HC Hp) as (T' & b & v & ps & HT' & Hb & Hv & Hps & Hpi). cbn [world_of snd] in HT', Hb. rewrite HT in HT'. injection HT' as <-.
  unfold entry in Hcur. rewrite HT in Hcur.
  assert (Hh : hist_entry T v i = Some p) by (unfold hist_entry; rewrite Hps; exact Hpi).
  exists v. split; [exact Hh|]. exact (entry_two sched t T i b p cur HT Hn Hb Hcur v Hv Hh).
Qed.
End Last.

(** What a read returns is a value. *)
Lemma get_live C cap ppl n maxcap todos (Hc : good_cap cap maxcap) (Hl : Forall (Forall legal_op) todos) sched h1 h2 i k v :
  sy_hist (after C n (init_state cap ppl maxcap) todos sched) = h1 ++ ERes i (OGet k) (RVal v) :: h2 -> v <> NOTFOUND -> live v.
Proof.
  intros E Hv. destruct (after_res C cap ppl n maxcap todos Hc Hl _ _ _ _ _ _ E) as (w2 & A1 & A2 & A3 & _). cbn [resOK] in A3.
  destruct A3 as [->|(H1 & H2 & H3 & _)]; [destruct (Hv eq_refl)|]. split; [exact H2|]. split; [exact Hv|exact H3].
Qed.

(** ** Versions of the table and moments of the execution *)

Lemma exec_past c s T : st_tabs s !! 0 = Some T -> exists T', st_tabs (snd (exec c s)) !! 0 = Some T' /\
  (length (t_past T') = length (t_past T) \/ length (t_past T') = S (length (t_past T))).
Proof.
  intros HT.
  assert (Hw : forall t f, (forall U, length (t_past (f U)) = length (t_past U) \/ length (t_past (f U)) = S (length (t_past U))) ->
    exists T', st_tabs (with_tab t f s) !! 0 = Some T' /\ (length (t_past T') = length (t_past T) \/ length (t_past T') = S (length (t_past T)))).
  { intros t f Hf. unfold with_tab. cbn. destruct (decide (t = 0)) as [->|Ht].
    - rewrite list_lookup_alter, HT. cbn. eauto.
    - rewrite list_lookup_alter_ne, HT by exact Ht. eauto. }
  assert (Hf : forall f v U, length (t_past (set_fld f v U)) = length (t_past U)) by (intros [] v U; reflexivity).
  destruct c; cbn [exec snd]; cbn zeta; repeat match goal with |- context [if ?b then _ else _] => destruct b end; cbn [snd st_tabs]; try solve [eauto];
    try solve [apply Hw; intros U; left; apply Hf]; try solve [apply Hw; intros U; left; reflexivity]; try solve [apply Hw; intros U; right; reflexivity].
  destruct (mmap_table _ _ _ _ _); cbn [snd st_tabs]; [|eauto]. exists T. split; [|auto]. apply lookup_app_l_Some. exact HT.
Qed.

Lemma tstep_past C n i y T : st_tabs (sy_st y) !! 0 = Some T -> exists T', st_tabs (sy_st (tstep C n i y)) !! 0 = Some T' /\
  (length (t_past T') = length (t_past T) \/ length (t_past T') = S (length (t_past T))).
Proof.
  intros HT. unfold tstep. destruct (sy_thr y !! i) as [th|]; [|eauto]. destruct (th_cur th) as [[o [r|e|c k]]|]; try solve [eauto].
  - pose proof (exec_past c _ _ HT) as H. destruct (exec c (sy_st y)) as [r s]. exact H.
  - destruct (th_todo th); eauto.
Qed.

Section Moments.
Context (C : cfg) (cap ppl n : nat) (maxcap : N) (todos : list (list op)).
Context (Hc : good_cap cap maxcap) (Hl : Forall (Forall legal_op) todos).
Notation st_ x := (sy_st (after C n (init_state cap ppl maxcap) todos x)).

Lemma moment sched : forall T, st_tabs (st_ sched) !! 0 = Some T -> forall v, v <= length (t_past T) ->
  exists x y X, sched = x ++ y /\ st_tabs (st_ x) !! 0 = Some X /\ length (t_past X) = v.
Proof.
  induction sched as [|i sched IH] using rev_ind; intros T HT v Hv.
  - exists [], [], T. split; [reflexivity|]. split; [exact HT|]. cbn in HT. injection HT as <-. cbn in *. lia.
  - assert (HX : exists X, st_tabs (st_ sched) !! 0 = Some X).
    { apply lookup_lt_is_Some_2. pose proof (after_inv C cap ppl n maxcap todos Hc Hl sched) as (_ & _ & H & _). cbn in H. lia. }
    destruct HX as (X & HX). destruct (tstep_past C n i _ _ HX) as (T' & HT' & HP). rewrite after_app in HT. cbn [conc] in HT. rewrite HT in HT'. injection HT' as <-.
    destruct (decide (v <= length (t_past X))) as [Hle|Hgt].
    + destruct (IH X HX v Hle) as (x & y & Y & -> & H1 & H2). exists x, (y ++ [i]), Y. rewrite app_assoc. auto.
    + exists (sched ++ [i]), [], T. rewrite app_nil_r. split; [reflexivity|]. split; [rewrite after_app; exact HT|lia].
Qed.

(** The contents at a moment are a version. *)
Lemma moment_version x y X T : st_tabs (st_ x) !! 0 = Some X -> st_tabs (st_ (x ++ y)) !! 0 = Some T ->
  length (t_past X) <= length (t_past T) /\ versions T !! length (t_past X) = Some (t_pairs X).
Proof.
  intros HX HT. destruct (tab_later C cap ppl n maxcap todos Hc Hl x y 0 X HX) as (T' & HT' & HR). rewrite HT in HT'. injection HT' as <-.
  destruct HR as (_ & (e & E & _) & _). split; [exact (ext_past _ _ _ E)|]. rewrite E. apply lookup_app_l_Some, versions_last.
Qed.
End Moments.

(** ** One thread at a time inserts *)

Lemma J_placed C L s0 m A s T : J C L true 0 s0 m A s -> st_tabs s !! 0 = Some T -> t_len T = L /\ t_new T = None /\ placed C T /\ unfrozen T.
Proof.
  intros HJ HT. pose proof HJ as [J1 J2 J3 J4 (T' & HT' & HTL & HPL & HN & HA & HH) J6]. rewrite HT in HT'. injection HT' as <-.
  assert (HK : forall i q, t_pairs T !! i = Some q -> i < L /\ clean (fst q) = A i /\ keyat (t_pairs T) i = fst q /\ valat (t_pairs T) i = snd q).
  { intros i q Hq. pose proof (lookup_lt_Some _ _ _ Hq) as Hlt. rewrite HPL in Hlt. split; [exact Hlt|]. destruct (HA i Hlt) as (E & _).
    unfold keyat, valat in *. rewrite Hq in *. auto. }
  split; [exact HTL|]. split; [exact HN|]. split.
  - intros i q Hq H1 H2. destruct (HK i q Hq) as (Hi & EK & _). rewrite EK in *. destruct (J2 i Hi H1) as (_ & c & Hc1 & Hc2 & _ & _ & Hc3).
    exists c. rewrite HTL. split; [exact Hc1|]. split; [exact Hc2|]. intros c' Hc'. destruct (Hc3 c' Hc') as (P1 & P2 & P3 & P4). specialize (P4 eq_refl).
    rewrite HTL. assert (Hlt : pos (hash C (A i)) L c' < L) by (apply pos_lt; lia).
    destruct (lookup_lt_is_Some_2 (t_pairs T) (pos (hash C (A i)) L c')) as (q' & Hq'); [lia|]. exists q'. split; [exact Hq'|].
    destruct (J6 _ Hlt P4) as (_ & Hcl). destruct (HK _ _ Hq') as (_ & EK' & _). unfold read_cell in Hcl. rewrite HT, Hq' in Hcl. cbn in Hcl.
    rewrite (clean_id _ Hcl) in EK'. rewrite EK'. rewrite <- EK'. split; [exact Hcl|]. rewrite EK'. auto.
  - intros _ i q Hq. destruct (HK i q Hq) as (Hi & EK & E1 & E2). rewrite EK. rewrite <- isMarked_clean_mig. destruct (N.eq_dec (A i) KINITIAL) as [E|E].
    + destruct (HA i Hi) as (_ & HV). destruct (HV E) as (HV' & _). rewrite E2 in HV'. rewrite HV', E. split; [exact VINITIAL_unmarked|].
      rewrite KTOMBSTONE_val, KINITIAL_val, VTOMBSTONE_val, VINITIAL_val. discriminate.
    + destruct (J2 i Hi E) as (H1 & c & Hc). split; [|exact H1]. pose proof (HH _ _ _ Hc) as (HW & _). rewrite E2 in HW. rewrite HW. apply J4.
Qed.

Lemma isdict_img img (m : gmap N N) : (forall k v, m !! k = Some v <-> exists i, map clean2 img !! i = Some (k, v) /\ live v) -> isdict img m.
Proof.
  intros Hm k v. rewrite Hm. split.
  - intros (i & Hi & Hlv). rewrite list_lookup_fmap in Hi. destruct (img !! i) as [p|] eqn:Ep; [|discriminate]. injection Hi as E1 E2. exists i, p. auto.
  - intros (i & p & Hp & E1 & E2 & Hlv). exists i. rewrite list_lookup_fmap, Hp. cbn. unfold clean2. rewrite E1, E2. auto.
Qed.

Lemma find_key (ps : list pair_) k : {i : nat & {q | ps !! i = Some q /\ clean (fst q) = k}} + {forall i q, ps !! i = Some q -> clean (fst q) <> k}.
Proof.
  induction ps as [|q l IH]; [right; discriminate|]. destruct (N.eq_dec (clean (fst q)) k) as [E|E].
  - left. exists 0, q. auto.
  - destruct IH as [(i & q' & H1 & H2)|H]; [left; exists (S i), q'; auto|right]. intros [|i] q' H'; [injection H' as <-; exact E|exact (H i q' H')].
Qed.

Lemma held_interp w : unmarked (clean w) -> held w = interp w.
Proof.
  intros Hu. unfold held, interp. change (clearMark w DirtyFlag) with (clean w). destruct (live_dec (clean w)) as [(_ & L1 & L2)|L].
  - apply N.eqb_neq in L1, L2. rewrite L1, L2. reflexivity.
  - destruct (N.eqb_spec (clean w) VINITIAL) as [E|E1]; [reflexivity|]. destruct (N.eqb_spec (clean w) VTOMBSTONE) as [E|E2]; [reflexivity|].
    exfalso. apply L. split; auto.
Qed.

Theorem crash_conc : forall C cap ppl n maxcap todos sched img files cap' ppl',
  good_cap cap maxcap -> (maxcap <= 2 ^ 32)%N -> Forall (Forall legal_op) todos ->
  let at_ x := after C n (init_state cap ppl maxcap) todos x in let st_ x := sy_st (at_ x) in
  inserts_alone (sy_hist (at_ sched)) -> length (st_tabs (st_ sched)) = 1 -> crash_table (st_ sched) 0 img ->
  find_file 0 files = Some img -> (forall x, (0 < x)%N -> find_file x files = None) ->
  exists s1 m, init_state_files cap' ppl' maxcap files = Some s1 /\
    (forall k, legal_key k -> exists x y, sched = x ++ y /\ says (st_ x) k (m !! k) /\
       (never_back (st_ sched) k ->
          (forall z z' r, y = z ++ z' -> says (st_ (x ++ z)) k r -> r = m !! k \/ says (st_ sched) k r) /\
          (forall h1 h2 i v, sy_hist (at_ sched) = h1 ++ ERes i (OGet k) (RVal v) :: h2 -> v <> NOTFOUND ->
             exists x0 x1, x = x0 ++ x1 /\ says (st_ x0) k (Some v)))) /\
    (forall x s2, run size s1 = Ok x s2 -> x = N.of_nat (base.size m)) /\
    (forall os rs s2, reach C s1 os rs s2 -> Forall legal_op os -> exists m', dsteps m os rs m').
Proof.
  intros C cap ppl n maxcap todos sched img files cap' ppl' Hcap Hmax Hleg at_ st_ Halone H1 HC Hf Hfs.
  pose proof (after_inv C cap ppl n maxcap todos Hcap Hleg sched) as HI. fold (at_ sched) in HI. unfold world_of in HI. fold (st_ sched) in HI.
  destruct (st_tabs (st_ sched)) as [|T [|]] eqn:Etabs; try discriminate. pose proof (Inv_one cap maxcap Hcap Hmax _ _ _ HI Etabs) as HO.
  assert (HTs : st_tabs (st_ sched) !! 0 = Some T) by (rewrite Etabs; reflexivity).
  assert (Hun : unresized (st_ sched)) by (unfold unresized; rewrite HTs; exact (proj2 HO)).
  destruct (new_strict C cap ppl maxcap n todos sched Hcap Hmax Hleg Halone Hun) as (mm & A & HJ).
  destruct (J_placed _ _ _ _ _ _ T HJ HTs) as (HTL & HTN & HP & HU).
  set (ops := ConcSpec.invoked (sy_hist (at_ sched))) in *.
  destruct (img_dict C cap ops (st_ sched) T img HI HO HP HU HC) as (m & Hm). pose proof (isdict_img _ _ Hm) as Hd.
  pose proof (img_ent C cap ops (st_ sched) T img HI HO HP HU HC) as Hent. pose proof (img_len _ T img HO HC) as Hil.
  destruct Hcap as [(e & He & He3) Hca]. pose proof (conj (ex_intro _ e (conj He He3)) Hca : good_cap cap maxcap) as Hcap.
  destruct (reopen_dict C img files cap' ppl' maxcap m) as (s1 & Hs1 & Hsz & Hlater); try assumption.
  { exists e. rewrite Hil, HTL. auto. }
  { rewrite Hil, HTL. exact Hca. }
  exists s1, m. split; [exact Hs1|]. split; [|split; [exact Hsz|exact Hlater]].
  intros k Hk. pose proof (legal_client _ Hk) as Hck.
  assert (Hclk : clean k = k) by (apply clean_id; destruct Hck as (K & _); exact K).
  assert (Hread : forall h1 h2 i v, sy_hist (at_ sched) = h1 ++ ERes i (OGet k) (RVal v) :: h2 -> v <> NOTFOUND ->
    exists j, j < t_len T /\ forall p, crash_entry (st_ sched) 0 j p -> clean (fst p) = k /\ (no_reuse T j ->
       exists a q b, hist_entry T a j = Some q /\ clean (snd q) = v /\ a <= b /\ hist_entry T b j = Some p)).
  { intros h1 h2 i v Hh Hv. destruct (read_durable_in C cap ppl n maxcap todos Hcap Hleg sched h1 h2 i k v Hh Hv) as (t & j & L & Hj & H).
    destruct (H []) as (T' & HT' & HL' & Hp). rewrite app_nil_r in *. change (sy_st (after C n (init_state cap ppl maxcap) todos sched)) with (st_ sched) in *.
    rewrite Etabs in HT'. destruct t as [|t]; [|discriminate]. injection HT' as <-. exists j. split; [lia|]. intros p Hc. destruct (Hp p Hc) as (B1 & _ & B2).
    split; [exact B1|]. exact (B2 T HTs). }
  destruct (find_key (t_pairs T) k) as [(i & q & Hq & Eq)|Hno].
  2:{ exists sched, []. rewrite app_nil_r. split; [reflexivity|].
      assert (Hnone : m !! k = None).
      { apply (dict_none cap ops (st_ sched) T HI HO img m k); [exact (versioned_img cap ops _ T img HI HO HC)|exact Hd|apply Hck|exact Hno]. }
      assert (Hsn : says (st_ sched) k None).
      { apply says_none. intros i p Hp. unfold entry in Hp. rewrite HTs in Hp. intros E. change (clean (fst p) = clean k) in E. rewrite Hclk in E. exact (Hno i p Hp E). }
      rewrite Hnone. split; [exact Hsn|]. intros _. split.
      - intros z z' r Hz Hr. right. destruct z; [|discriminate]. rewrite app_nil_r in Hr. exact Hr.
      - intros h1 h2 i v Hh Hv. exfalso. destruct (Hread h1 h2 i v Hh Hv) as (j & Hj & Hp).
        destruct (lookup_lt_is_Some_2 img j) as (p & Hpj); [lia|].
        destruct (Hp p (crash_table_entry cap _ _ _ _ _ HI HC Hpj)) as (E & _).
        destruct (img_entry cap ops _ T img HI HO HC j p Hpj) as (b & v' & _ & _ & Hhe).
        destruct (hist_prel cap ops _ T HI HO _ _ _ Hhe) as (q & Hq & R1 & _). apply (Hno j q Hq). rewrite R1; [exact E|]. rewrite E. apply Hck. }
  assert (Hi : i < t_len T) by (rewrite <- (plen cap ops _ T HI HO); exact (lookup_lt_Some _ _ _ Hq)).
  destruct (lookup_lt_is_Some_2 img i) as (p & Hp); [lia|].
  destruct (img_entry cap ops _ T img HI HO HC i p Hp) as (b & v & Hb & Hv & Hh).
  (* what memory says at a version *)
  assert (Hsays : forall x X, st_tabs (st_ x) !! 0 = Some X -> versions T !! length (t_past X) = Some (t_pairs X) -> 
     exists o, t_pairs X !! i = Some o /\ hist_entry T (length (t_past X)) i = Some o /\ says (st_ x) k (interp (snd o)) /\ forall r, says (st_ x) k r -> r = interp (snd o)).
  { intros x X HX HV. destruct (lookup_lt_is_Some_2 (t_pairs X) i) as (o & Ho); [rewrite (vlen cap ops _ T HI HO _ _ HV); exact Hi|].
    assert (Hho : hist_entry T (length (t_past X)) i = Some o) by (unfold hist_entry; rewrite HV; exact Ho).
    exists o. split; [exact Ho|]. split; [exact Hho|].
    assert (Hu : unmarked (clean (snd o))).
    { destruct (hist_fine cap ops _ T HI HO HU _ _ _ Hho) as [(_ & ->)|(_ & H)]; [exact VINITIAL_unmarked|exact H]. }
    assert (Hother : forall j o', t_pairs X !! j = Some o' -> clean (fst o') = k -> j = i).
    { intros j o' Ho' E. assert (Hho' : hist_entry T (length (t_past X)) j = Some o') by (unfold hist_entry; rewrite HV; exact Ho').
      destruct (hist_prel cap ops _ T HI HO _ _ _ Hho') as (q' & Hq' & R1 & _).
      apply (home_unique C T HP j i q' q Hq' Hq); rewrite R1; rewrite ?E; try apply Hck; auto. }
    destruct (N.eq_dec (clean (fst o)) k) as [E|E].
    - split.
      + rewrite <- (held_interp _ Hu). apply says_entry with i; [unfold entry; rewrite HX; exact Ho|]. change (clean (fst o) = clean k). congruence.
      + intros r [j o' Hj Ej|Hno].
        * unfold entry in Hj. rewrite HX in Hj. change (clean (fst o') = clean k) in Ej. rewrite Hclk in Ej. rewrite (Hother _ _ Hj Ej) in Hj. rewrite Ho in Hj. injection Hj as <-.
          exact (held_interp _ Hu).
        * exfalso. apply (Hno i o); [unfold entry; rewrite HX; exact Ho|]. change (clean (fst o) = clean k). congruence.
    - assert (Hini : clean (fst o) = KINITIAL).
      { destruct (N.eq_dec (clean (fst o)) KINITIAL) as [|Hn]; [assumption|exfalso]. apply E. rewrite <- Eq. exact (hist_key cap ops _ T HI HO _ _ _ _ Hho Hq Hn). }
      assert (Hsv : interp (snd o) = None).
      { unfold interp. rewrite (proj1 (proj2 (hist_pair cap ops _ T HI HO _ _ _ Hho)) Hini). destruct (live_dec VINITIAL) as [(_ & L & _)|]; [contradiction|reflexivity]. }
      assert (Hnk : forall j o', entry (st_ x) 0 j = Some o' -> ~ same_word (fst o') k).
      { intros j o' Hj Ej. unfold entry in Hj. rewrite HX in Hj. change (clean (fst o') = clean k) in Ej. rewrite Hclk in Ej.
        rewrite (Hother _ _ Hj Ej) in Hj. rewrite Ho in Hj. injection Hj as <-. contradiction. }
      rewrite Hsv. split; [apply says_none; exact Hnk|]. intros r [j o' Hj Ej|_]; [destruct (Hnk _ _ Hj Ej)|reflexivity]. }
  assert (Hvl : v <= length (t_past T)).
  { unfold hist_entry in Hh. destruct (versions T !! v) eqn:E; [|discriminate]. apply lookup_lt_Some in E. rewrite versions_len in E. lia. }
  assert (Hmk : m !! k = interp (snd p)).
  { apply (dict_home C cap ops (st_ sched) T HI HO HP img m k i p q); [exact (versioned_img cap ops _ T img HI HO HC)|exact Hd|exact Hck|exact Hq|exact Eq|exact Hp]. }
  assert (Hint : forall w w', clean w = clean w' -> interp w = interp w') by (intros w w' E; unfold interp; rewrite E; reflexivity).
  destruct (moment C cap ppl n maxcap todos Hcap Hleg sched T HTs v Hvl) as (x & y & X & -> & HX & HXv).
  destruct (moment_version C cap ppl n maxcap todos Hcap Hleg x y X T HX HTs) as (_ & HVX).
  destruct (Hsays x X HX HVX) as (o & Ho & Hho & Hs & _). rewrite HXv, Hh in Hho. injection Hho as <-.
  exists x, y. split; [reflexivity|]. rewrite Hmk. split; [exact Hs|]. intros Hnb.
  assert (Hnr : never_returns T i).
  { apply (Hnb T i q HTs Hq). change (clean (fst q) = clean k). congruence. }
  destruct (Hsays (x ++ y) T HTs (versions_last T)) as (q' & Hq' & _ & Hsq & _). rewrite Hq in Hq'. injection Hq' as <-.
  split.
  - intros z z' r -> Hr.
    assert (HZ : exists Z, st_tabs (st_ (x ++ z)) !! 0 = Some Z).
    { destruct (tab_later C cap ppl n maxcap todos Hcap Hleg x z 0 X HX) as (Z & HZ & _). eauto. }
    destruct HZ as (Z & HZ). pose proof HTs as HTs'. unfold st_, at_ in HTs'. rewrite app_assoc in HTs'.
    destruct (moment_version C cap ppl n maxcap todos Hcap Hleg (x ++ z) z' Z T HZ HTs') as (_ & HVZ).
    destruct (moment_version C cap ppl n maxcap todos Hcap Hleg x z X Z HX HZ) as (Hle & _).
    destruct (Hsays _ Z HZ HVZ) as (oz & Hoz & Hhz & _ & Hsz'). rewrite (Hsz' r Hr).
    destruct (entry_two C cap ppl n maxcap todos Hcap Hleg (x ++ z ++ z') 0 T i b p q HTs Hnr Hb Hq v Hv Hh (length (t_past Z)) oz ltac:(lia) Hhz) as [E|E].
    + left. exact (Hint _ _ E).
    + right. rewrite (Hint _ _ E). exact Hsq.
  - intros h1 h2 g u Hhist Hu. destruct (Hread h1 h2 g u Hhist Hu) as (j & Hj & Hpj).
    assert (j = i) as ->.
    { destruct (lookup_lt_is_Some_2 img j) as (pj & Hpj'); [lia|].
      destruct (Hpj pj (crash_table_entry cap _ _ _ _ _ HI HC Hpj')) as (E & _).
      destruct (img_entry cap ops _ T img HI HO HC j pj Hpj') as (b' & v' & _ & _ & Hhe).
      destruct (hist_prel cap ops _ T HI HO _ _ _ Hhe) as (qj & Hqj & R1 & _). 
      apply (home_unique C T HP j i qj q Hqj Hq); rewrite R1; rewrite ?E; try apply Hck; auto. }
    assert (Hce : crash_entry (st_ (x ++ y)) 0 i p).
    { unfold hist_entry in Hh. destruct (versions T !! v) as [ps|] eqn:Ev; [|discriminate]. exists T, b, v, ps. auto 10. }
    destruct (Hpj p Hce) as (_ & Hw). destruct (Hw (never_no_reuse _ _ Hnr)) as (a & o & c & A1 & A2 & A3 & A4).
    pose proof (get_live C cap ppl n maxcap todos Hcap Hleg _ _ _ _ _ _ Hhist Hu) as Hlive.
    assert (Hgoal : forall a0 o0, a0 <= v -> hist_entry T a0 i = Some o0 -> clean (snd o0) = u -> exists x0 x1, x = x0 ++ x1 /\ says (st_ x0) k (Some u)).
    { intros a0 o0 Hle Ho0 Eo0. rewrite <- HXv in Hle. destruct (moment C cap ppl n maxcap todos Hcap Hleg x X HX a0 Hle) as (x0 & x1 & X0 & -> & HX0 & HXa).
      exists x0, x1. split; [reflexivity|]. pose proof HTs as HTs'. unfold st_, at_ in HTs'. rewrite <- app_assoc in HTs'.
      destruct (moment_version C cap ppl n maxcap todos Hcap Hleg x0 (x1 ++ y) X0 T HX0 HTs') as (_ & HV0).
      destruct (Hsays x0 X0 HX0 HV0) as (o1 & _ & Ho1 & Hs1' & _). rewrite HXa, Ho0 in Ho1. injection Ho1 as <-.
      unfold interp in Hs1'. rewrite Eo0 in Hs1'. destruct (live_dec u); [exact Hs1'|contradiction]. }
    destruct (decide (a <= v)) as [Hle|Hgt]; [exact (Hgoal a o Hle A1 A2)|].
    apply (Hgoal v p (le_n v) Hh). rewrite <- A2. destruct (decide (a = c)) as [->|Hne]; [congruence|].
    symmetry. exact (Hnr v a c p o p ltac:(lia) ltac:(lia) Hh A1 A4 eq_refl).
Qed.

Lemma c53_last_change : forall C cap ppl n maxcap todos sched t T img i p cur,
  good_cap cap maxcap -> Forall (Forall legal_op) todos ->
  let st_ x := sy_st (after C n (init_state cap ppl maxcap) todos x) in
  crash_table (st_ sched) t img -> img !! i = Some p ->
  st_tabs (st_ sched) !! t = Some T -> entry (st_ sched) t i = Some cur -> never_returns T i ->
  exists v, hist_entry T v i = Some p /\
    forall v' q, v <= v' -> hist_entry T v' i = Some q -> same_word (snd q) (snd p) \/ same_word (snd q) (snd cur).
Proof. intros C cap ppl n maxcap todos sched t T img i p cur Hc Hl. exact (last_change C cap ppl n maxcap todos Hc Hl sched t T img i p cur). Qed.
