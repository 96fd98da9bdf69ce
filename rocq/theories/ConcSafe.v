(** Concurrent executions follow no null pointer and access no entry out of range, and the only assertion that can fail
    in them is the one about the number of copied entries.  The postconditions come from ConcMap.v. *)
From Coq Require Import NArith Bool List Lia.
From stdpp Require Import base list relations.
From Verif Require Import Word Bits Prog HashMap Conc Spec ConcSpec SafeSpec ConcInv ConcCmd ConcProg ConcMap SeqCopy Probe.
Import ListNotations.
Open Scope nat_scope.
Open Scope prog_scope.

Section Safe.
Context (C : cfg) (cap0 : nat) (Hcap : 4 <= cap0).
Notation Inv := (Inv cap0).
Notation ok p Q w := (ok cap0 p Q w).

(** The errors a program may stop with; [b] tells whether the last command loaded the number of copied entries. *)
Definition allowed (b : bool) (w : world) (e : err) : Prop :=
  e = OutOfFuel \/ e = AllocFail \/ (e = AssertFail /\ ndebug C = false /\ (b = true \/ ~ Forall noinc (fst w))).

Lemma allowed_rel b w w' e : Rel w w' -> allowed b w e -> allowed b w' e.
Proof.
  intros (Hi & _) [H|[H|(H1 & Hd & [H2|H2])]]; unfold allowed; auto 10. right. right. split; [exact H1|]. split; [exact Hd|]. right. intros H. apply H2.
  apply List.Forall_forall. intros o Ho. rewrite List.Forall_forall in H. auto.
Qed.

(** [sf b p w]: from [w] on, whatever the other threads do, [p] stops with no other error. *)
Fixpoint sf {A} (b : bool) (p : prog A) (w : world) : Prop :=
  match p with
  | Ret _ => True
  | Err e => allowed b w e
  | Vis c k => forall w', Inv w' -> Rel w w' -> let '(r, s') := exec c (snd w') in
      Inv (fst w', s') -> Rel w' (fst w', s') -> sf (loads_done c) (k r) (fst w', s')
  end.

Lemma sf_flag {A} b (p : prog A) w : sf false p w -> sf b p w.
Proof.
  destruct p as [a|e|c k]; cbn; auto. intros [H|[H|(H1 & Hd & [H2|H2])]]; unfold allowed; auto 10. discriminate.
Qed.

Lemma sf_rel {A} b (p : prog A) w w' : Rel w w' -> sf b p w -> sf b p w'.
Proof.
  intros HR. destruct p as [a|e|c k]; cbn; auto; [apply allowed_rel; exact HR|].
  intros H w2 HI HR2. apply H; [exact HI|exact (Rel_trans _ _ _ HR HR2)].
Qed.

Lemma sf_seq {A B} b (p : prog A) (f : A -> prog B) (P : A -> world -> Prop) w : Inv w -> sf b p w -> ok p P w ->
  (forall a w', Inv w' -> Rel w w' -> P a w' -> sf false (f a) w') -> sf b (bind p f) w.
Proof.
  revert b w. induction p as [a|e|c k IH]; intros b w HI Hs Ho Hf; cbn [bind sf].
  - apply sf_flag. apply Hf; [exact HI|apply Rel_refl|]. apply Ho; [exact HI|apply Rel_refl].
  - exact Hs.
  - intros w' HI' HR'. cbn [sf] in Hs. cbn [ConcInv.ok] in Ho. specialize (Hs w' HI' HR'). specialize (Ho w' HI' HR').
    destruct (exec c (snd w')) as [r s']. destruct Ho as (H1 & H2 & H3). intros _ _.
    apply IH; [exact H1|apply Hs; [exact H1|apply H2]|exact H3|]. intros a w2 HI2 HR2. apply Hf; [exact HI2|rel].
Qed.

(** When what follows fails only if its flag says so. *)
Lemma sf_map {A B} b (p : prog A) (g : A -> B) w : sf b p w -> sf b (bind p (fun a => Ret (g a))) w.
Proof.
  revert b w. induction p as [a|e|c k IH]; intros b w Hs; cbn [bind sf] in *; auto.
  intros w' HI HR. specialize (Hs w' HI HR). destruct (exec c (snd w')) as [r s']. auto.
Qed.

Lemma sf_read {A} b (c : cmd) (k : res c -> prog A) w : (forall s, snd (exec c s) = s) ->
  (forall w', Inv w' -> Rel w w' -> sf (loads_done c) (k (fst (exec c (snd w')))) w') -> sf b (Vis c k) w.
Proof.
  intros Hs H w' HI HR. specialize (H w' HI HR). specialize (Hs (snd w')).
  destruct (exec c (snd w')) as [r s']. cbn in Hs, H. subst s'. rewrite <- surjective_pairing. intros _ _. exact H.
Qed.

Lemma sf_assert b x w : (Forall noinc (fst w) -> x = true) -> sf b (assert_ C x) w.
Proof.
  intros H. unfold assert_. destruct x; cbn [orb]; [exact I|]. destruct (ndebug C) eqn:Hd; [exact I|].
  right. right. split; [reflexivity|]. split; [exact Hd|]. right. intros Hn. discriminate (H Hn).
Qed.
Lemma sf_assert_true x w : sf true (assert_ C x) w.
Proof.
  unfold assert_. destruct x; cbn [orb]; [exact I|]. destruct (ndebug C) eqn:Hd; [exact I|]. right. right. auto.
Qed.

Lemma ok_assert_T x w : Inv w -> ok (assert_ C x) (fun _ _ => True) w.
Proof. intros _. apply ok_assert. auto. Qed.

(** ** Tables *)

Lemma Ex_len t L w : Ex t L w -> match st_tabs (snd w) !! t with Some T => t_len T | None => 0 end = L.
Proof. intros (T & -> & HL). exact HL. Qed.
Lemma Ex_pos t L w : Inv w -> Ex t L w -> 4 <= L.
Proof.
  intros HI (T & HT & HL). destruct (tabs_ok cap0 _ _ _ HI HT) as (((e & He) & _) & _). rewrite <- HL, He.
  pose proof (Nat.pow_nonzero 2 e). nia.
Qed.
Lemma Ex_InR t L x w : Inv w -> Ex t L w -> InR t (mask x L) w.
Proof. intros HI HE. exists L. split; [exact HE|]. apply mask_lt. pose proof (Ex_pos _ _ _ HI HE). lia. Qed.
Lemma link_ex t nt (w : world) : Inv w -> link (snd w) t nt -> exists L, Ex t L w /\ Ex nt (2 * L) w.
Proof.
  intros HI (T & HT & Hn). destruct HI as (_ & _ & _ & _ & HI). destruct (HI _ _ _ HT Hn) as (NT & HNT & HL).
  exists (t_len T). split; [exists T; auto|exists NT; auto].
Qed.
Lemma link_load t nt (w : world) : link (snd w) t nt -> match st_tabs (snd w) !! t with Some T => t_new T | None => None end = Some nt.
Proof. intros (T & -> & Hn). exact Hn. Qed.
Lemma top_ex (w : world) : Inv w -> exists L, Ex (st_top (snd w)) L w.
Proof.
  intros (_ & _ & Htop & _). destruct (lookup_lt_is_Some_2 _ _ Htop) as (T & HT). exists (t_len T), T. auto.
Qed.
Lemma Frozen_link t i w : Inv w -> Frozen t i w -> exists nt, link (snd w) t nt.
Proof.
  intros HI (V & (v & p & (T & ps & HT & Hv & Hp) & E) & HM).
  destruct (tabs_ok cap0 _ _ _ HI HT) as (_ & _ & _ & _ & _ & _ & _ & _ & _ & A10).
  assert (HMp : isMarked (snd p) MIG = true) by (rewrite <- (marked_clean_eq _ _ E); exact HM).
  apply elem_of_list_lookup_2, elem_of_list_In in Hv. pose proof (Forall_lookup_1 _ _ _ _ (A10 _ Hv) Hp HMp) as Hn.
  destruct (t_new T) as [nt|] eqn:Hnt; [|congruence]. exists nt, T. auto.
Qed.

(** ** persistence.hpp and class Table *)

Lemma sf_pcas_read b t i c w : sf b (pcas_read t i c) w.
Proof.
  unfold pcas_read, do; cbn [bind sf]. intros w1 HI1 HR1. cbn [exec]. intros _ _.
  destruct (isMarked _ _); cbn [bind sf]; [|exact I]. unfold persist, do; cbn [bind sf].
  intros w2 HI2 HR2. cbn [exec]. intros _ _ w3 HI3 HR3. cbn [exec]. intros _ _ w4 HI4 HR4. cbn [exec].
  destruct (_ =? _)%N; intros; exact I.
Qed.

Lemma sf_pcas b t i c old new w : Inv w -> InR t i w -> sf b (pcas C t i c old new) w.
Proof.
  intros HI Hin. unfold pcas. eapply sf_seq; [exact HI|apply sf_pcas_read|apply ok_any_read; assumption|].
  intros ? w1 HI1 HR1 _. unfold do; cbn [bind sf]. intros w2 HI2 HR2. cbn [exec].
  destruct (N.eqb_spec (read_cell (snd w2) t i c) old) as [Heq|Hne]; intros HI3 HR3; cbn [fst snd].
  - rewrite N.eqb_refl. exact I.
  - destruct (N.eqb_spec old (read_cell (snd w2) t i c)) as [|_]; [congruence|]. exact I.
Qed.

Lemma sf_bounds b t i w : InR t i w -> sf b (bounds C t i) w.
Proof.
  intros Hin. unfold bounds, do; cbn [bind]. apply sf_read; [reflexivity|]. intros w1 HI1 HR1. cbn [exec fst].
  destruct (InR_rel _ _ _ _ HR1 Hin) as (L & HL & Hi). rewrite (Ex_len _ _ _ HL).
  destruct (Nat.ltb_spec i L); [exact I|lia].
Qed.

Lemma sf_key b t i w : Inv w -> InR t i w -> sf b (key C t i) w.
Proof.
  intros HI Hin. unfold key. eapply sf_seq; [exact HI|apply sf_bounds; exact Hin|apply ok_bounds; exact HI|].
  intros. apply sf_pcas_read.
Qed.
Lemma sf_value b t i w : Inv w -> InR t i w -> sf b (value C t i) w.
Proof.
  intros HI Hin. unfold value. eapply sf_seq; [exact HI|apply sf_bounds; exact Hin|apply ok_bounds; exact HI|].
  intros. apply sf_pcas_read.
Qed.
Lemma sf_CASkey b t i o k w : Inv w -> InR t i w -> sf b (CASkey C t i o k) w.
Proof.
  intros HI Hin. unfold CASkey. eapply sf_seq; [exact HI|apply sf_bounds; exact Hin|apply ok_bounds; exact HI|].
  intros ? w1 HI1 HR1 Hin1. apply (sf_map _ (pcas C t i CKey o k) snd). apply sf_pcas; assumption.
Qed.

Definition casSF (CAS : casfun) : Prop := forall t i V nv w, Inv w -> InR t i w -> sf false (CAS t i V nv) w.

Lemma sf_CASvalue : casSF (CASvalue C).
Proof.
  intros t i V nv w HI Hin. unfold CASvalue. eapply sf_seq; [exact HI|apply sf_bounds; exact Hin|apply ok_bounds; exact HI|].
  intros ? w1 HI1 HR1 Hin1. apply (sf_map _ (pcas C t i CVal V nv) snd). apply sf_pcas; assumption.
Qed.
Lemma sf_increment : casSF (increment C).
Proof.
  intros t i V nv w HI Hin. unfold increment. eapply sf_seq; [exact HI|apply sf_bounds; exact Hin|apply ok_bounds; exact HI|].
  intros ? w1 HI1 HR1 Hin1. cbn zeta. apply (sf_map _ (pcas C t i CVal V _) snd). apply sf_pcas; assumption.
Qed.

(** ** Copying *)

Definition putSF (put : nat -> N -> N -> N -> prog N) : Prop := forall t k nv ov w,
  Inv w -> keyOK w k -> putval w k nv -> unmarked ov -> (exists L, Ex t L w) -> sf false (put t k nv ov) w.

Lemma sf_copySlot_key t i : forall n w, Inv w -> InR t i w -> sf false (copySlot_key C n t i) w.
Proof.
  induction n as [|n IH]; intros w HI Hin; cbn [copySlot_key]; [left; reflexivity|].
  eapply sf_seq; [exact HI|apply sf_key; assumption|apply ok_key; exact HI|]. intros k w1 HI1 HR1 (H1 & H2 & H3).
  destruct (N.eqb_spec k KINITIAL) as [->|Hne]; [|exact I].
  eapply sf_seq; [exact HI1|apply sf_CASkey; assumption|apply ok_CASkey; [exact HI1|apply KTOMBSTONE_keyOK|congruence]|].
  intros ? w2 HI2 HR2 _. apply IH; [exact HI2|exact (InR_rel _ _ _ _ HR2 H2)].
Qed.

Lemma sf_copySlot_mark t i k nt : forall n v w, Inv w -> link (snd w) t nt -> KeyIs t i k w -> Seen t i v w -> tight (fst w) k v ->
  sf false (copySlot_mark C n t i v) w.
Proof.
  induction n as [|n IH]; intros v w HI HLk HK HS HTi; cbn [copySlot_mark]; [left; reflexivity|].
  destruct (isMarked v MIG) eqn:HM; [exact I|].
  set (mark := if ((v =? VINITIAL) || (v =? VTOMBSTONE))%N then TOMBPRIME else setMark v MIG).
  assert (HN : newOK w k mark).
  { intros Hn Hs. unfold mark in Hs. destruct (N.eqb_spec v VINITIAL) as [->|Hv0]; cbn [orb] in Hs; [rewrite strip_TOMBPRIME in Hs; discriminate|].
    destruct (v =? VTOMBSTONE)%N; [rewrite strip_TOMBPRIME in Hs; discriminate|]. rewrite strip_mark in Hs. exact (Hv0 (HTi Hn Hs)). }
  eapply sf_seq; [exact HI|apply sf_CASvalue; [exact HI|exact (KeyIs_InR cap0 _ _ _ _ HI HK)]
                 |apply (ok_CASvalue C cap0 t i k); [exact HI|exact HK|exact HS|left; exact HM|right; eauto| |exact HN]|].
  { unfold mark. destruct (_ || _).
    - right. left. exact strip_TOMBPRIME.
    - unfold val_ok. rewrite strip_mark. exact (Seen_val cap0 t i k v w HI HK HS). }
  intros r w1 HI1 HR1 Hr. cbn beta in Hr. destruct (N.eqb_spec r v) as [->|Hne].
  - destruct (mark =? TOMBPRIME)%N; exact I.
  - destruct Hr as [[Hr _]|(_ & Hr & Ht)]; [congruence|]. apply IH; auto; [exact (link_mono _ _ _ _ HR1 HLk)|exact (KeyIs_rel _ _ _ _ _ HR1 HK)].
Qed.

Lemma sf_copySlot_finish t i k nt : forall n v w, Inv w -> link (snd w) t nt -> KeyIs t i k w -> Seen t i v w ->
  sf false (copySlot_finish C n t i v) w.
Proof.
  induction n as [|n IH]; intros v w HI HLk HK HS; cbn [copySlot_finish]; [left; reflexivity|].
  eapply sf_seq; [exact HI|apply sf_CASvalue; [exact HI|exact (KeyIs_InR cap0 _ _ _ _ HI HK)]
                 |apply (ok_CASvalue C cap0 t i k); [exact HI|exact HK|exact HS|right; apply clean_id; exact TOMBPRIME_clean|right; eauto| |]|].
  { right. left. exact strip_TOMBPRIME. }
  { intros _. rewrite strip_TOMBPRIME. discriminate. }
  intros r w1 HI1 HR1 Hr. destruct (N.eqb_spec r v) as [->|Hne]; [exact I|].
  destruct Hr as [[Hr _]|(_ & Hr & _)]; [congruence|]. apply IH; auto; [exact (link_mono _ _ _ _ HR1 HLk)|exact (KeyIs_rel _ _ _ _ _ HR1 HK)].
Qed.

Lemma unmark_tomb v : isMarked v MIG = true -> clearMark v MIG = VTOMBSTONE -> v = TOMBPRIME.
Proof.
  intros HM HC. apply N.bits_inj. intros m. pose proof (f_equal (fun x => N.testbit x m) HC) as Hb. cbn beta in Hb.
  rewrite unmark_spec in Hb. rewrite isMarked_mig in HM.
  pose proof (f_equal (fun x => N.testbit x m) unmark_TOMBPRIME) as Hb'. cbn beta in Hb'. rewrite unmark_spec in Hb'.
  pose proof TOMBPRIME_marked as HT. rewrite isMarked_mig in HT.
  destruct (N.eqb_spec m 1) as [Em|Hne]; [rewrite Em; congruence|]. cbn [negb] in Hb, Hb'. rewrite andb_true_r in Hb, Hb'. congruence.
Qed.

Lemma sf_copySlot n put i t nt w : putOK cap0 put -> putSF put -> Inv w -> link (snd w) t nt -> InR t i w ->
  sf false (copySlot C n put i t nt) w.
Proof.
  intros Hput Hps HI HLk Hin. unfold copySlot.
  eapply sf_seq; [exact HI|apply sf_copySlot_key; assumption|apply ok_copySlot_key; exact HI|]. intros k w1 HI1 HR1 HK. cbn beta in HK |- *.
  eapply sf_seq; [exact HI1|apply sf_value; [exact HI1|exact (InR_rel _ _ _ _ HR1 Hin)]|apply ok_value; exact HI1|]. intros v0 w2 HI2 HR2 (Hcl & HS & _). cbn beta.
  pose proof (KeyIs_rel _ _ _ _ _ HR2 HK) as HK2. pose proof (Seen_tight cap0 _ _ _ _ _ HI2 HK2 HS Hcl) as HTi.
  assert (HL2 : link (snd w2) t nt) by (apply (link_mono w w2); [rel|exact HLk]).
  eapply sf_seq; [exact HI2|apply (sf_copySlot_mark t i k nt); assumption|apply (ok_copySlot_mark C cap0 t i k nt); assumption|].
  intros [u|v] w3 HI3 HR3 Hm; cbn beta iota in Hm |- *; [exact I|]. destruct Hm as (Hm1 & Hm2 & Hm3).
  destruct (N.eqb_spec v TOMBPRIME) as [|HvT]; [exact I|]. cbn zeta.
  eapply sf_seq; [exact HI3| |apply ok_assert_T; exact HI3|].
  { apply sf_assert. intros _. destruct (N.eqb_spec (clearMark v MIG) VTOMBSTONE) as [E|]; [|reflexivity].
    exfalso. exact (HvT (unmark_tomb _ Hm2 E)). }
  intros ? w4 HI4 HR4 _.
  assert (HK4 : KeyIs t i k w4) by (apply (KeyIs_rel _ _ _ w2 w4); [rel|exact HK2]).
  assert (HS4 : Seen t i v w4) by (apply (Seen_rel _ _ _ w3 w4); [rel|exact Hm1]).
  assert (HL4 : link (snd w4) t nt) by (apply (link_mono w w4); [rel|exact HLk]).
  assert (Hpv : putval w4 k (clearMark v MIG)).
  { split; [split; [apply unmark_unmarked|]|].
    - unfold val_ok. rewrite strip_unmark. exact (Seen_val cap0 _ _ _ _ _ HI4 HK4 HS4).
    - intros Hn. rewrite strip_unmark. exact (newOK_rel _ _ _ _ HR4 Hm3 Hn). }
  pose proof (KeyIs_keyOK cap0 _ _ _ _ HI4 HK4) as HKO.
  eapply sf_seq; [exact HI4|apply Hps; [exact HI4|exact HKO|exact Hpv|exact VINITIAL_unmarked|]|apply Hput; assumption|].
  { destruct (link_ex _ _ _ HI4 HL4) as (L & _ & HL). eauto. }
  intros r w5 HI5 HR5 _. cbn zeta.
  assert (HL5 : link (snd w5) t nt) by exact (link_mono _ _ _ _ HR5 HL4).
  pose proof (KeyIs_rel _ _ _ _ _ HR5 HK4) as HK5. pose proof (Seen_rel _ _ _ _ _ HR5 HS4) as HS5.
  eapply sf_seq; [exact HI5|apply (sf_copySlot_finish t i k nt); assumption|apply (ok_copySlot_finish C cap0 t i k nt); assumption|].
  intros. exact I.
Qed.

Lemma sf_promote t nt wd w : Inv w -> link (snd w) t nt -> sf false (copyCheckAndPromote C t wd) w.
Proof.
  intros HI HLk. unfold copyCheckAndPromote, do; cbn [bind].
  apply sf_read; [reflexivity|]. intros w1 HI1 HR1. apply sf_read; [reflexivity|]. intros w2 HI2 HR2. cbn [loads_done].
  eapply sf_seq; [exact HI2|apply sf_assert_true|apply ok_assert_T; exact HI2|]. intros ? w3 HI3 HR3 _.
  eapply sf_seq with (P := fun _ _ => True); [exact HI3| | |].
  { destruct (0 <? wd)%N; [|exact I]. cbn [bind sf]. intros w4 HI4 HR4. cbn [exec]. intros; exact I. }
  { destruct (0 <? wd)%N; [|apply ok_ret; auto]. cbn [bind]. apply ok_cmd. intros w4 HI4 HR4. cbn [exec].
    destruct (set_fld_ok cap0 w4 t FCopyDone (fun T => add64 (get_fld FCopyDone T) wd) HI4) as [S1 S2].
    split; [exact S1|]. split; [exact S2|]. intros _ _. apply ok_ret. auto. }
  intros ? w4 HI4 HR4 _. destruct (_ =? _)%N; [|exact I].
  apply sf_read; [reflexivity|]. intros w5 HI5 HR5. cbn [exec fst].
  assert (HL5 : link (snd w5) t nt) by (apply (link_mono w w5); [rel|exact HLk]). rewrite (link_load _ _ _ HL5).
  cbn [bind sf]. intros w6 HI6 HR6. cbn [exec]. destruct (_ =? _); intros; exact I.
Qed.

(** ** resize *)

Lemma sf_resize t L w : Inv w -> Ex t L w -> sf false (resize C t) w.
Proof.
  intros HI HE. unfold resize, CASNewTable, do; cbn [bind].
  assert (Hbig : forall w' nt, Inv w' -> Rel w w' -> link (snd w') t nt -> Ex nt (2 * L) w' /\ L < 2 * L).
  { intros w' nt HI' HR' HL'. pose proof (Ex_rel _ _ _ _ HR' HE) as HE'. pose proof (Ex_pos _ _ _ HI' HE').
    split; [|lia]. destruct (link_ex _ _ _ HI' HL') as (L' & HLa & HLb).
    destruct HE' as (T & HT & <-). destruct HLa as (T' & HT' & <-). rewrite HT in HT'. injection HT' as <-. exact HLb. }
  apply sf_read; [reflexivity|]. intros w1 HI1 HR1. cbn [exec fst].
  destruct (match st_tabs (snd w1) !! t with Some T => t_new T | None => None end) as [nt|] eqn:HLd1.
  { apply load_link in HLd1. apply sf_read; [reflexivity|]. intros w2 HI2 HR2. apply sf_read; [reflexivity|]. intros w3 HI3 HR3.
    eapply sf_seq; [exact HI3| |apply ok_assert_T; exact HI3|intros; exact I].
    apply sf_assert. intros _. apply Nat.ltb_lt. cbn [exec fst].
    destruct (Hbig w2 nt HI2) as [Hb1 Hb2]; [rel|apply (link_mono w1 w2); [rel|exact HLd1]|]. rewrite (Ex_len _ _ _ Hb1).
    rewrite (Ex_len t L w3); [exact Hb2|]. apply (Ex_rel _ _ w); [rel|exact HE]. }
  apply sf_read; [reflexivity|]. intros w2 HI2 HR2. cbn [exec fst].
  assert (HE2 : Ex t L w2) by (apply (Ex_rel _ _ w); [rel|exact HE]). rewrite (Ex_len _ _ _ HE2).
  destruct HE2 as (T2 & HT2 & HL2). destruct (tabs_ok cap0 _ _ _ HI2 HT2) as ((He & H59) & _).
  rewrite HL2 in He, H59.
  apply sf_read; [reflexivity|]. intros w3 HI3 HR3. set (size := fst _). clearbody size. cbn in size. cbn zeta.
  apply sf_read; [reflexivity|]. intros w4 HI4 HR4. cbn [exec fst].
  destruct (match st_tabs (snd w4) !! t with Some T => t_new T | None => None end) as [nt|] eqn:HLd4.
  { apply load_link in HLd4. apply sf_read; [reflexivity|]. intros w5 HI5 HR5.
    eapply sf_seq; [exact HI5| |apply ok_assert_T; exact HI5|intros; exact I].
    apply sf_assert. intros _. apply Nat.ltb_lt. cbn [exec fst].
    destruct (Hbig w5 nt HI5) as [Hb1 Hb2]; [rel|apply (link_mono w4 w5); [rel|exact HLd4]|]. rewrite (Ex_len _ _ _ Hb1). exact Hb2. }
  cbn [sf]. intros w5 HI5 HR5. cbn [exec]. intros HI6 HR6. set (w6 := (fst w5, mkState _ _ _ _ _ _)) in *. set (file := st_fctr (snd w5)). clearbody file.
  rewrite newSizeFor_double by exact H59.
  intros w7 HI7 HR7. cbn [exec]. unfold mmap_table.
  destruct HI7 as (I7a & I7f & I7b). rewrite I7f. cbn [find_file]. assert (HI7 : Inv w7) by (split; [|split]; assumption).
  destruct (can_alloc (2 * L) (st_maxcap (snd w7))) eqn:Hca; [|intros; right; left; reflexivity].
  intros HI8 HR8. set (w8 := (fst w7, mkState _ _ _ _ _ _)) in *. set (nt := length (st_tabs (snd w7))).
  assert (HN8 : Ex nt (2 * L) w8).
  { exists (fresh_table (2 * L) size file). split; [|reflexivity]. unfold w8, nt. cbn.
    rewrite lookup_app_r, Nat.sub_diag by lia. reflexivity. }
  clearbody w8 nt.
  intros w9 HI9 HR9. cbn [exec]. intros HI9' HR9'. rewrite <- surjective_pairing in *.
  assert (HN9 : Ex nt (2 * L) w9) by exact (Ex_rel _ _ _ _ HR9 HN8). rewrite (Ex_len _ _ _ HN9).
  eapply sf_seq; [exact HI9'| |apply ok_assert_T; exact HI9'|].
  { apply sf_assert. intros _. apply andb_true_iff. split.
    - apply Nat.even_spec. exists L. reflexivity.
    - apply Nat.leb_le. assert (HE9 : Ex t L w9) by (apply (Ex_rel _ _ w); [rel|exact HE]).
      pose proof (Ex_pos _ _ _ HI9 HE9). lia. }
  intros ? w10 HI10 HR10 _.
  assert (Hk : forall (won : bool) w11, Inv w11 -> Rel w w11 -> (if won then link (snd w11) t nt else exists x, link (snd w11) t x) ->
    sf false (newTable' <-- (if won then Ret nt else Vis (Unmap nt) (fun _ => Vis (LoadNew t)
          (fun r => match r with Some x => Ret x | None => Err NullDeref end)));;
        Vis (Len newTable') (fun r0 => assert_ C (L <? r0);;; Ret newTable')) w11).
  { intros won w11 HI11 HR11 Hwon. eapply sf_seq with (P := fun nt w' => link (snd w') t nt); [exact HI11| | |].
    { destruct won; [exact I|]. apply sf_read; [reflexivity|]. intros w12 HI12 HR12.
      apply sf_read; [reflexivity|]. intros w13 HI13 HR13. cbn [exec fst]. destruct Hwon as (x & Hx).
      assert (Hx13 : link (snd w13) t x) by (apply (link_mono w11 w13); [rel|exact Hx]). rewrite (link_load _ _ _ Hx13). exact I. }
    { destruct won; [apply ok_ret; intros w12 HI12 HR12; exact (link_mono _ _ _ _ HR12 Hwon)|]. apply ok_read; [reflexivity|]. intros w12 HI12 HR12.
      apply ok_read; [reflexivity|]. intros w13 HI13 HR13. ldnew; [|exact I]. apply load_link in HLd. apply ok_ret. intros w14 HI14 HR14.
      exact (link_mono _ _ _ _ HR14 HLd). }
    intros nt' w12 HI12 HR12 Hl12. apply sf_read; [reflexivity|]. intros w13 HI13 HR13.
    eapply sf_seq; [exact HI13| |apply ok_assert_T; exact HI13|intros; exact I].
    apply sf_assert. intros _. apply Nat.ltb_lt. cbn [exec fst].
    destruct (Hbig w13 nt' HI13) as [Hb1 Hb2]; [rel|apply (link_mono w12 w13); [rel|exact Hl12]|]. rewrite (Ex_len _ _ _ Hb1). exact Hb2. }
  cbn [sf]. intros w11 HI11 HR11. cbn [exec].
  assert (HR2b : Rel w2 w11) by rel.
  assert (HT11 : Ex t L w11) by (apply (Ex_rel _ _ w2); [exact HR2b|exists T2; auto]).
  destruct HT11 as (T & HT & HL). rewrite HT.
  destruct (t_new T) as [y|] eqn:Hn; cbn [option_nat_eqb]; intros HI12 HR12.
  - apply (Hk false); [exact HI12|rel|]. exists y, T. auto.
  - apply (Hk true); [exact HI12|rel|]. eexists. cbn [snd with_tab st_tabs]. rewrite list_lookup_alter, HT. split; reflexivity.
Qed.

(** ** Helping *)

Lemma sf_claimChunk t len work : forall n i w, sf false (claimChunk n t len work i) w.
Proof.
  induction n as [|n IH]; intros i w; cbn [claimChunk]; [left; reflexivity|].
  destruct (_ <? _)%N; [|exact I]. unfold do; cbn [bind sf]. intros w1 HI1 HR1. cbn [exec].
  destruct (_ =? i)%N; intros _ _; [exact I|]. apply IH.
Qed.

Lemma sf_copyChunk n put t nt len c : putOK cap0 put -> putSF put -> forall cnt i wd w, Inv w -> link (snd w) t nt -> Ex t len w ->
  sf false (copyChunk C n put t nt len c i cnt wd) w.
Proof.
  intros Hput Hps. induction cnt as [|cnt IH]; intros i wd w HI HLk HE; cbn [copyChunk]; [exact I|].
  eapply sf_seq; [exact HI|apply sf_copySlot; try assumption; apply Ex_InR; assumption|apply ok_copySlot; assumption|].
  intros b w1 HI1 HR1 _. apply IH; [exact HI1|exact (link_mono _ _ _ _ HR1 HLk)|exact (Ex_rel _ _ _ _ HR1 HE)].
Qed.

Lemma sf_helpLoop put t nt len work : putOK cap0 put -> putSF put -> forall n pk c w, Inv w -> link (snd w) t nt -> Ex t len w ->
  sf false (helpLoop C n put t nt len work pk c) w.
Proof.
  intros Hput Hps. induction n as [|n IH]; intros pk c w HI HLk HE; cbn [helpLoop]; [left; reflexivity|].
  unfold do; cbn [bind]. apply sf_read; [reflexivity|]. intros w1 HI1 HR1. apply sf_flag.
  destruct (_ <? _)%N; [|exact I].
  eapply sf_seq with (P := fun _ _ => True); [exact HI1| | |].
  { destruct pk; [exact I|]. apply sf_read; [reflexivity|]. intros w2 HI2 HR2. apply sf_claimChunk. }
  { destruct pk; [apply ok_ret; auto|]. apply ok_read; [reflexivity|]. intros w2 HI2 HR2. apply ok_claimChunk. exact HI2. }
  intros c' w2 HI2 HR2 _. cbn zeta.
  assert (HL2 : link (snd w2) t nt) by (apply (link_mono w w2); [rel|exact HLk]).
  assert (HE2 : Ex t len w2) by (apply (Ex_rel _ _ w); [rel|exact HE]).
  eapply sf_seq; [exact HI2|apply sf_copyChunk; assumption|apply ok_copyChunk; assumption|]. intros wd w3 HI3 HR3 _.
  assert (HL3 : link (snd w3) t nt) by exact (link_mono _ _ _ _ HR3 HL2).
  eapply sf_seq with (P := fun _ _ => True); [exact HI3| | |].
  { destruct (0 <? wd)%N; [apply (sf_promote t nt); assumption|exact I]. }
  { destruct (0 <? wd)%N; [apply ok_promote; exact HI3|apply ok_ret; auto]. }
  intros ? w4 HI4 HR4 _. apply IH; [exact HI4|exact (link_mono _ _ _ _ HR4 HL3)|]. apply (Ex_rel _ _ w2); [rel|exact HE2].
Qed.

Lemma sf_helpCopyImpl n put t nt w : putOK cap0 put -> putSF put -> Inv w -> link (snd w) t nt -> sf false (helpCopyImpl C n put t) w.
Proof.
  intros Hput Hps HI HLk. unfold helpCopyImpl, do; cbn [bind]. apply sf_read; [reflexivity|]. intros w1 HI1 HR1. cbn [exec fst].
  pose proof (link_mono _ _ _ _ HR1 HLk) as HL1. rewrite (link_load _ _ _ HL1).
  apply sf_read; [reflexivity|]. intros w2 HI2 HR2. cbn zeta. pose proof (link_mono _ _ _ _ HR2 HL1) as HL2.
  destruct (link_ex _ _ _ HI2 HL2) as (L & HE & _). cbn [exec fst]. rewrite (Ex_len _ _ _ HE).
  eapply sf_seq; [exact HI2|apply sf_helpLoop; assumption|apply ok_helpLoop; assumption|]. intros ? w3 HI3 HR3 _.
  apply (sf_promote t nt); [exact HI3|exact (link_mono _ _ _ _ HR3 HL2)].
Qed.

Lemma sf_helpCopy n put h w : putOK cap0 put -> putSF put -> Inv w -> sf false (helpCopy C n put h) w.
Proof.
  intros Hput Hps HI. unfold helpCopy, do; cbn [bind]. apply sf_read; [reflexivity|]. intros w1 HI1 HR1.
  apply sf_read; [reflexivity|]. intros w2 HI2 HR2. ldnew; [|exact I]. apply load_link in HLd.
  eapply sf_seq; [exact HI2|eapply sf_helpCopyImpl; eassumption|apply ok_helpCopyImpl; assumption|]. intros. exact I.
Qed.

Lemma sf_copySlotAndCheck n put t i sh w : putOK cap0 put -> putSF put -> Inv w -> (exists nt, link (snd w) t nt) -> InR t i w ->
  sf false (copySlotAndCheck C n put t i sh) w.
Proof.
  intros Hput Hps HI (nt & HLk) Hin. unfold copySlotAndCheck, do; cbn [bind]. apply sf_read; [reflexivity|]. intros w1 HI1 HR1. cbn [exec fst].
  pose proof (link_mono _ _ _ _ HR1 HLk) as HL1. pose proof (InR_rel _ _ _ _ HR1 Hin) as Hin1. rewrite (link_load _ _ _ HL1).
  eapply sf_seq; [exact HI1|apply sf_copySlot; assumption|apply ok_copySlot; assumption|]. intros b w2 HI2 HR2 _.
  pose proof (link_mono _ _ _ _ HR2 HL1) as HL2.
  eapply sf_seq with (P := fun _ _ => True); [exact HI2| | |].
  { destruct b; [apply (sf_promote t nt); assumption|exact I]. }
  { destruct b; [apply ok_promote; exact HI2|apply ok_ret; auto]. }
  intros ? w3 HI3 HR3 _. destruct sh; [exact I|apply sf_helpCopy; assumption].
Qed.

(** ** putIfMatch *)

Lemma sf_claimSlot t k nv len : forall n x rp w, Inv w -> keyOK w k -> Ex t len w ->
  sf false (claimSlot C n t k nv len (mask x len) rp) w.
Proof.
  induction n as [|n IH]; intros x rp w HI HK HE; cbn [claimSlot]; [left; reflexivity|]. cbn zeta.
  pose proof (Ex_InR t len x w HI HE) as Hin. set (idx := mask x len) in *.
  eapply sf_seq; [exact HI|apply sf_key; assumption|apply ok_key; exact HI|]. intros K w1 HI1 HR1 (H1 & H2 & H3). cbn beta.
  eapply sf_seq; [exact HI1|apply sf_value; assumption|apply ok_value; exact HI1|]. intros V w2 HI2 HR2 (_ & HS & _ & _ & _ & HRd). cbn beta.
  assert (Hcheck : forall K' w', Inv w' -> Rel w2 w' ->
    sf false (if (K' =? k)%N then Ret (CSlot idx V rp)
        else if (reprobeLimit len <=? S rp)%nat || (K' =? KTOMBSTONE)%N then Ret CFull
        else claimSlot C n t k nv len (mask (N.of_nat idx + 1) len) (S rp)) w').
  { intros K' w' HI' HR'. destruct (K' =? k)%N; [exact I|]. destruct (_ || _); [exact I|].
    apply IH; [exact HI'|apply (keyOK_rel w w'); [rel|exact HK]|apply (Ex_rel _ _ w); [rel|exact HE]]. }
  destruct (K =? VINITIAL)%N; [|apply Hcheck; [exact HI2|apply Rel_refl]].
  destruct (nv =? VTOMBSTONE)%N; [exact I|].
  assert (HK2 : keyOK w2 k) by (apply (keyOK_rel w w2); [rel|exact HK]).
  eapply sf_seq; [exact HI2|apply sf_CASkey; [exact HI2|exact (InR_rel _ _ _ _ HR2 H2)]|apply ok_CASkey; [exact HI2|exact HK2|intros _; exact HRd]|].
  intros aK w3 HI3 HR3 _. cbn beta. destruct (aK =? KINITIAL)%N.
  - unfold do; cbn [bind sf]. intros w4 HI4 HR4. cbn [exec]. intros; exact I.
  - apply Hcheck; [exact HI3|exact HR3].
Qed.

Lemma sf_countChange t V nv ov w : sf false (countChange t V nv ov) w.
Proof.
  assert (HA : forall d w', sf false (do (AddF t FSize d) ;;; Ret tt) w').
  { intros d w'. unfold do; cbn [bind sf]. intros w1 HI1 HR1. cbn [exec]. intros; exact I. }
  unfold countChange. destruct (negb _); [|exact I]. destruct (_ && _); [apply HA|]. destruct (_ && _); [apply HA|exact I].
Qed.

Lemma sf_updateLoop CAS fwd t idx k nv ov : casSF CAS -> forall n V w, Inv w -> casOK cap0 CAS k nv w ->
  (forall w', Inv w' -> Rel w w' -> (exists nt, link (snd w') t nt) -> sf false fwd w') ->
  KeyIs t idx k w -> unmarked V -> Seen t idx V w ->
  sf false (updateLoop C n CAS fwd t idx nv ov V) w.
Proof.
  intros HcS. induction n as [|n IH]; intros V w HI HCAS Hfwd HK HU HS; cbn [updateLoop]; [left; reflexivity|].
  eapply sf_seq; [exact HI|apply sf_assert; intros _; rewrite HU; reflexivity|apply ok_assert_T; exact HI|]. intros ? w1 HI1 HR1 _.
  assert (HK1 := KeyIs_rel _ _ _ _ _ HR1 HK). assert (HS1 := Seen_rel _ _ _ _ _ HR1 HS).
  destruct (noMatch V ov); [exact I|].
  eapply sf_seq; [exact HI1|apply HcS; [exact HI1|exact (KeyIs_InR cap0 _ _ _ _ HI1 HK1)]|apply HCAS; auto|]. intros av w2 HI2 HR2 Ha. cbn beta in Ha |- *.
  assert (HK2 := KeyIs_rel _ _ _ _ _ HR2 HK1). assert (HS2 := Seen_rel _ _ _ _ _ HR2 HS1).
  destruct (N.eqb_spec av V) as [->|Hne].
  - eapply sf_seq; [exact HI2|apply sf_countChange|apply ok_countChange; exact HI2|]. intros. exact I.
  - destruct Ha as [Ha|[_ Ha]]; [congruence|].
    eapply sf_seq; [exact HI2|apply sf_value; [exact HI2|exact (KeyIs_InR cap0 _ _ _ _ HI2 HK2)]|apply ok_value; exact HI2|]. intros x w3 HI3 HR3 (Hxc & Hxs & _ & HF & _). cbn beta.
    destruct (isMarked x MIG) eqn:HM.
    { apply Hfwd; [exact HI3|rel|]. apply (Frozen_link t idx); [exact HI3|]. exists x. auto. }
    apply IH; [exact HI3|apply (casOK_rel _ _ _ _ w); [rel|exact HCAS]| | | |].
    + intros w' HI' HR'. apply Hfwd; [exact HI'|rel].
    + exact (KeyIs_rel _ _ _ _ _ HR3 HK2).
    + unfold unmarked. destruct (isMarked av MIG) eqn:HMa; [|reflexivity]. symmetry. apply HF. exists av. auto.
    + exact (Seen_rel _ _ _ _ _ HR3 Ha).
Qed.

Lemma sf_putBody n put CAS t k nv ov w : putOK cap0 put -> putSF put -> casSF CAS -> Inv w -> keyOK w k -> putval w k nv -> casOK cap0 CAS k nv w ->
  unmarked ov -> (exists L, Ex t L w) -> sf false (putBody C n put CAS t k nv ov) w.
Proof.
  intros Hput Hps HcS HI HK HV HCAS Hov (L & HE). unfold putBody.
  eapply sf_seq; [exact HI| |apply ok_assert_T; exact HI|].
  { apply sf_assert. intros Hn. destruct (N.eqb_spec nv VINITIAL) as [->|]; [|reflexivity]. exfalso.
    apply (proj2 HV (or_intror Hn)). apply strip_id; [exact VINITIAL_clean|exact VINITIAL_unmarked]. }
  intros ? w1 HI1 HR1 _.
  eapply sf_seq; [exact HI1|apply sf_assert; intros _; rewrite (proj1 (proj1 HV)); reflexivity|apply ok_assert_T; exact HI1|]. intros ? w2 HI2 HR2 _.
  eapply sf_seq; [exact HI2|apply sf_assert; intros _; rewrite Hov; reflexivity|apply ok_assert_T; exact HI2|]. intros ? w3 HI3 HR3 _.
  unfold do; cbn [bind]. apply sf_read; [reflexivity|]. intros w4 HI4 HR4. cbn [exec fst loads_done].
  assert (HE4 : Ex t L w4) by (apply (Ex_rel _ _ w); [rel|exact HE]). rewrite (Ex_len _ _ _ HE4).
  assert (HR04 : Rel w w4) by rel. pose proof (keyOK_rel _ _ _ HR04 HK) as HK4.
  eapply sf_seq; [exact HI4|apply sf_claimSlot; assumption|apply ok_claimSlot; assumption|]. intros c w5 HI5 HR5 Hc. cbn beta in Hc |- *.
  assert (HR05 : Rel w w5) by rel.
  assert (Hp : forall t' w', Inv w' -> Rel w5 w' -> (exists L, Ex t' L w') -> sf false (put t' k nv ov) w').
  { intros t' w' HI' HR' HE'. apply Hps; [exact HI'|apply (keyOK_rel w); [rel|exact HK]|apply (putval_rel w); [rel|exact HV]|exact Hov|exact HE']. }
  destruct c as [|idx V rp|]; cbn [claimOK] in Hc.
  - exact I.
  - destruct Hc as [HKI HS]. destruct (N.eqb_spec nv V) as [HeqV|HneV]; [exact I|]. cbn zeta.
    assert (Hfwd : forall w', Inv w' -> Rel w5 w' -> (exists nt, link (snd w') t nt) ->
      sf false (nt <-- copySlotAndCheck C n put t idx (ov =? VINITIAL)%N;; put nt k nv ov) w').
    { intros w' HI' HR' HL'. pose proof (KeyIs_InR cap0 _ _ _ _ HI' (KeyIs_rel _ _ _ _ _ HR' HKI)) as Hin'.
      eapply sf_seq; [exact HI'|apply sf_copySlotAndCheck; assumption|apply ok_copySlotAndCheck; assumption|].
      intros nt w6 HI6 HR6 Hl6. apply Hp; [exact HI6|rel|]. destruct (link_ex _ _ _ HI6 Hl6) as (L6 & _ & HL6). eauto. }
    eapply sf_seq with (P := fun _ _ => True); [exact HI5| | |].
    { destruct (V =? VINITIAL)%N; [|exact I]. unfold tableFull. destruct (_ <=? _)%nat; [|exact I].
      unfold do; cbn [bind]. apply sf_read; [reflexivity|]. intros. exact I. }
    { destruct (V =? VINITIAL)%N; [|apply ok_ret; auto]. unfold tableFull. destruct (_ <=? _)%nat; [|apply ok_ret; auto].
      unfold do; cbn [bind]. apply ok_read; [reflexivity|]. intros w6 HI6 HR6. apply ok_ret. auto. }
    intros full w6 HI6 HR6 _.
    assert (HE6 : Ex t L w6) by (apply (Ex_rel _ _ w); [rel|exact HE]).
    destruct (full || isMarked V MIG) eqn:Hf.
    + eapply sf_seq; [exact HI6|apply (sf_resize t L); assumption|apply (ok_resize C cap0 t L); assumption|].
      intros nt w7 HI7 HR7 Hl7. apply Hfwd; [exact HI7|rel|exists nt; exact Hl7].
    + apply orb_false_iff in Hf as [_ Hf]. apply sf_updateLoop with (k := k); auto.
      * apply (casOK_rel _ _ _ _ w); [rel|exact HCAS].
      * intros w' HI' HR'. apply Hfwd; [exact HI'|rel].
      * exact (KeyIs_rel _ _ _ _ _ HR6 HKI).
      * exact (Seen_rel _ _ _ _ _ HR6 HS).
  - assert (HE5 : Ex t L w5) by (apply (Ex_rel _ _ w); [rel|exact HE]).
    eapply sf_seq; [exact HI5|apply (sf_resize t L); assumption|apply (ok_resize C cap0 t L); assumption|]. intros nt w6 HI6 HR6 Hl6.
    eapply sf_seq with (P := fun _ _ => True); [exact HI6| | |].
    { destruct (negb _); [|exact I]. apply (sf_map _ (helpCopy C n put nt) (fun _ => tt)). apply sf_helpCopy; assumption. }
    { destruct (negb _); [|apply ok_ret; auto]. eapply ok_seq; [exact HI6|apply ok_helpCopy; assumption|].
      intros ? w7 HI7 HR7 _. apply ok_ret. auto. }
    intros ? w7 HI7 HR7 _. apply Hp; [exact HI7|rel|].
    destruct (link_ex _ _ _ HI7 (link_mono _ _ _ _ HR7 Hl6)) as (L6 & _ & HL6). eauto.
Qed.

Lemma sf_putIfMatch : forall n CAS t k nv ov w, casSF CAS -> Inv w -> keyOK w k -> putval w k nv -> casOK cap0 CAS k nv w ->
  unmarked ov -> (exists L, Ex t L w) -> sf false (putIfMatch C n CAS t k nv ov) w.
Proof.
  induction n as [|n IH]; intros CAS t k nv ov w HcS HI HK HV HCAS Hov HE; cbn [putIfMatch]; [left; reflexivity|].
  apply sf_putBody; auto; [apply putOK_put|]. intros t' k' nv' ov' w' HI' HK' HV' Hov' HE'.
  apply IH; auto; [exact sf_CASvalue|]. apply casOK_CASvalue. exact HV'.
Qed.

Lemma putSF_put n : putSF (putIfMatch C n (CASvalue C)).
Proof.
  intros t k nv ov w HI HK HV Hov HE. apply sf_putIfMatch; auto; [exact sf_CASvalue|]. apply casOK_CASvalue. exact HV.
Qed.

(** ** get *)

Lemma sf_getLoop put rec t k len : putOK cap0 put -> putSF put ->
  (forall t' w, Inv w -> (exists L, Ex t' L w) -> sf false (rec t') w) -> forall n x rp w, Inv w -> Ex t len w ->
  sf false (getLoop C n put rec t k len (mask x len) rp) w.
Proof.
  intros Hput Hps Hrec. induction n as [|n IH]; intros x rp w HI HE; cbn [getLoop]; [left; reflexivity|].
  pose proof (Ex_InR t len x w HI HE) as Hin. set (idx := mask x len) in *.
  eapply sf_seq; [exact HI|apply sf_key; assumption|apply ok_key; exact HI|]. intros K w1 HI1 HR1 (H1 & H2 & H3). cbn beta.
  eapply sf_seq; [exact HI1|apply sf_value; assumption|apply ok_value; exact HI1|]. intros V w2 HI2 HR2 (HVc & HS & HD & _). cbn beta.
  destruct (N.eqb_spec K KINITIAL) as [->|HKne]; [exact I|].
  unfold do; cbn [bind]. apply sf_read; [reflexivity|]. intros w3 HI3 HR3. cbn [exec fst loads_done].
  pose proof (InR_rel _ _ _ _ (Rel_trans _ _ _ HR2 HR3) H2) as Hin3.
  destruct (K =? k)%N.
  - destruct (isMarked V MIG) eqn:HM; cbn [negb]; [|exact I].
    assert (HLk : exists nt, link (snd w3) t nt).
    { apply (Frozen_link t idx); [exact HI3|]. exists V. split; [exact (Seen_rel _ _ _ _ _ HR3 HS)|exact HM]. }
    eapply sf_seq; [exact HI3|apply sf_copySlotAndCheck; assumption|apply ok_copySlotAndCheck; assumption|].
    intros nt w4 HI4 HR4 Hl4. apply Hrec; [exact HI4|]. destruct (link_ex _ _ _ HI4 Hl4) as (L6 & _ & HL6). eauto.
  - destruct (_ || _).
    + destruct (match st_tabs (snd w3) !! t with Some T => t_new T | None => None end) as [nt|] eqn:HLd; [|exact I]. apply load_link in HLd.
      eapply sf_seq; [exact HI3|apply sf_helpCopy; assumption|apply ok_helpCopy; assumption|]. intros h w4 HI4 HR4 ->. apply Hrec; [exact HI4|].
      destruct (link_ex _ _ _ HI4 (link_mono _ _ _ _ HR4 HLd)) as (L6 & _ & HL6). eauto.
    + apply IH; [exact HI3|]. apply (Ex_rel _ _ w); [rel|exact HE].
Qed.

Lemma sf_getImpl k fh : forall n t w, Inv w -> (exists L, Ex t L w) -> sf false (getImpl C n t k fh) w.
Proof.
  induction n as [|n IH]; intros t w HI (L & HE); cbn [getImpl]; [left; reflexivity|]. unfold do; cbn [bind].
  apply sf_read; [reflexivity|]. intros w1 HI1 HR1. cbn [exec fst loads_done].
  pose proof (Ex_rel _ _ _ _ HR1 HE) as HE1. rewrite (Ex_len _ _ _ HE1).
  apply sf_getLoop; [apply putOK_put|apply putSF_put| |exact HI1|exact HE1]. intros t' w' HI' HE'. apply IH; assumption.
Qed.

Lemma sf_get n k w : Inv w -> sf false (get C n k) w.
Proof.
  intros HI. unfold get, do; cbn [bind]. apply sf_read; [reflexivity|]. intros w1 HI1 HR1. cbn [exec fst loads_done].
  eapply sf_seq; [exact HI1|apply sf_getImpl; [exact HI1|exact (top_ex _ HI1)]|apply ok_getImpl; exact HI1|]. intros V w2 HI2 HR2 HV. cbn beta in HV.
  eapply sf_seq; [exact HI2| |apply ok_assert_T; exact HI2|intros; exact I].
  apply sf_assert. intros _. destruct HV as [->|(_ & HU & _)]; [reflexivity|]. rewrite HU. reflexivity.
Qed.

(** ** The API *)

Lemma sf_pub n CAS k nv ov w : casSF CAS -> Inv w -> keyOK w k -> putval w k nv -> casOK cap0 CAS k nv w ->
  unmarked ov -> ov <> VINITIAL -> sf false (putIfMatchPub C n k nv ov CAS) w.
Proof.
  intros HcS HI HK HV HCAS Hov Hov2. unfold putIfMatchPub.
  eapply sf_seq; [exact HI| |apply ok_assert_T; exact HI|].
  { apply sf_assert. intros Hn. destruct (N.eqb_spec nv VINITIAL) as [->|]; [|reflexivity]. exfalso.
    apply (proj2 HV (or_intror Hn)). apply strip_id; [exact VINITIAL_clean|exact VINITIAL_unmarked]. }
  intros ? w1 HI1 HR1 _.
  eapply sf_seq; [exact HI1| |apply ok_assert_T; exact HI1|].
  { apply sf_assert. intros _. destruct (N.eqb_spec ov VINITIAL); [contradiction|reflexivity]. }
  intros ? w2 HI2 HR2 _.
  unfold do; cbn [bind]. apply sf_read; [reflexivity|]. intros w3 HI3 HR3. cbn [exec fst loads_done].
  assert (HR03 : Rel w w3) by rel.
  pose proof (keyOK_rel _ _ _ HR03 HK) as HK3. pose proof (putval_rel _ _ _ _ HR03 HV) as HV3. pose proof (casOK_rel _ _ _ _ _ _ HR03 HCAS) as HC3.
  eapply sf_seq; [exact HI3|apply sf_putIfMatch; auto; exact (top_ex _ HI3)|apply ok_putIfMatch with (k := k); assumption|].
  intros r w4 HI4 HR4 Hr. cbn beta in Hr.
  eapply sf_seq; [exact HI4| |apply ok_assert_T; exact HI4|intros; exact I].
  apply sf_assert. intros _. rewrite (proj1 Hr). reflexivity.
Qed.

Lemma legal_val_old v : legal_val v -> unmarked v /\ v <> VINITIAL.
Proof. intros (H1 & H2 & H3 & H4). split; [exact H3|]. intros ->. discriminate H4. Qed.

Theorem sf_op n o w : Inv w -> legal_op o -> In o (fst w) -> sf false (op_prog C n o) w.
Proof.
  intros HI Hl Hin. destruct o as [k|k|k v|k v|k|k v|k ov v|k|]; cbn [op_prog legal_op] in *; unfold containsKey, put, putIfAbsent, remove, removeVal, replace, incrementOp, update;
    repeat apply sf_map.
  - apply sf_get. exact HI.
  - apply sf_get. exact HI.
  - destruct Hl as [Hk Hv]. pose proof (legal_supplied _ _ w Hv (sup_put _ _ _ Hin)) as HV.
    apply sf_pub; [exact sf_CASvalue|exact HI|exact (legal_called _ _ _ Hin eq_refl Hk)|exact HV|apply casOK_CASvalue; exact HV|reflexivity|discriminate].
  - destruct Hl as [Hk Hv]. pose proof (legal_supplied _ _ w Hv (sup_putIfAbsent _ _ _ Hin)) as HV.
    apply sf_pub; [exact sf_CASvalue|exact HI|exact (legal_called _ _ _ Hin eq_refl Hk)|exact HV|apply casOK_CASvalue; exact HV|reflexivity|discriminate].
  - pose proof (tomb_valOK w k) as HV.
    apply sf_pub; [exact sf_CASvalue|exact HI|exact (legal_called _ _ _ Hin eq_refl Hl)|exact HV|apply casOK_CASvalue; exact HV|reflexivity|discriminate].
  - destruct Hl as [Hk Hv]. pose proof (tomb_valOK w k) as HV. destruct (legal_val_old _ Hv) as [Hv1 Hv2].
    apply sf_pub; [exact sf_CASvalue|exact HI|exact (legal_called _ _ _ Hin eq_refl Hk)|exact HV|apply casOK_CASvalue; exact HV|exact Hv1|exact Hv2].
  - destruct Hl as (Hk & Ho & Hv). pose proof (legal_supplied _ _ w Hv (sup_replace _ _ _ _ Hin)) as HV. destruct (legal_val_old _ Ho) as [Hv1 Hv2].
    apply sf_pub; [exact sf_CASvalue|exact HI|exact (legal_called _ _ _ Hin eq_refl Hk)|exact HV|apply casOK_CASvalue; exact HV|exact Hv1|exact Hv2].
  - pose proof (arg_valOK w k Hin) as HV.
    apply sf_pub; [exact sf_increment|exact HI|exact (legal_called _ _ _ Hin eq_refl Hl)|exact HV|apply casOK_increment; exact Hin|reflexivity|discriminate].
  - unfold size, do; cbn [bind]. apply sf_read; [reflexivity|]. intros w1 HI1 HR1.
    apply sf_read; [reflexivity|]. intros w2 HI2 HR2. exact I.
Qed.
End Safe.
