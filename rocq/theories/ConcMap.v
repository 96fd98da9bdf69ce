(** The rest of the map under concurrency: copying, helping, putIfMatch, get, and the API. *)
From Coq Require Import NArith Bool List Lia.
From stdpp Require Import base list relations.
From Verif Require Import Word Bits Prog HashMap Conc Spec ConcSpec ConcInv ConcCmd ConcProg SeqCopy Probe.
Import ListNotations.
Open Scope nat_scope.
Open Scope prog_scope.

(** Case split on a loaded successor pointer. *)
Ltac ldnew := cbn [exec fst]; match goal with
  |- context [match ?x with Some T => t_new T | None => None end] =>
    let nt := fresh "nt" in let HL := fresh "HLd" in destruct (match x with Some T => t_new T | None => None end) as [nt|] eqn:HL end.

Lemma load_link s t nt : match st_tabs s !! t with Some T => t_new T | None => None end = Some nt -> link s t nt.
Proof. destruct (st_tabs s !! t) as [T|] eqn:E; [|discriminate]. intros H. exists T. auto. Qed.

Section Map.
Context (C : cfg) (cap0 : nat).
Notation Inv := (Inv cap0).
Notation ok p Q w := (ok cap0 p Q w).

(** ** Values *)

Lemma strip_mark v : strip (setMark v MIG) = strip v.
Proof. unfold strip. bits. Qed.
Lemma strip_unmark v : strip (clearMark v MIG) = strip v.
Proof. unfold strip. bits. Qed.
Lemma strip_TOMBPRIME : strip TOMBPRIME = VTOMBSTONE.
Proof. unfold strip. rewrite (clean_id _ TOMBPRIME_clean). exact unmark_TOMBPRIME. Qed.
Lemma strip_id v : isclean v -> unmarked v -> strip v = v.
Proof. intros H1 H2. unfold strip. rewrite (clean_id _ H1). apply unmark_id. exact H2. Qed.

Lemma shr3_strip v : shr64 (strip v) 3 = shr64 v 3.
Proof.
  unfold shr64, strip. apply N.bits_inj. intros n. rewrite !N.shiftr_spec', unmark_spec, clean_spec.
  destruct (N.eqb_spec (n + 3) 0) as [|]; [lia|]. destruct (N.eqb_spec (n + 3) 1) as [|]; [lia|].
  rewrite !andb_true_r. reflexivity.
Qed.

Lemma shl3_bits v : isclean (shl64 v 3) /\ unmarked (shl64 v 3).
Proof.
  unfold isclean, unmarked. rewrite isMarked_dirty, isMarked_mig. unfold shl64, two64.
  split; rewrite N.mod_pow2_bits_low by lia; rewrite N.shiftl_spec_low by lia; reflexivity.
Qed.

Lemma next_some v : shl64 (shr64 v 3 + 1) 3 = next_count (Some v).
Proof.
  unfold next_count, shl64, shr64, two64. rewrite N.shiftl_mul_pow2, N.shiftr_div_pow2.
  change (2 ^ 3)%N with 8%N. reflexivity.
Qed.

(** ** increment *)

Definition casOK (CAS : casfun) (k nv : N) (w0 : world) : Prop := forall t i V w,
  Inv w -> Rel w0 w -> KeyIs t i k w -> unmarked V -> Seen t i V w ->
  ok (CAS t i V nv) (fun r w' => r = V \/ (r <> V /\ Seen t i r w')) w.

Lemma casOK_rel CAS k nv w w' : Rel w w' -> casOK CAS k nv w -> casOK CAS k nv w'.
Proof. intros HR H t i V w2 HI HR2. apply H; [exact HI|rel]. Qed.

(** A value that may be stored: it is never the word of an unused entry. *)
Definition putval (w : world) (k v : N) : Prop := valOK w k v /\ newOK w k v.
Lemma putval_rel w w' k v : Rel w w' -> putval w k v -> putval w' k v.
Proof. intros HR [H1 H2]. split; [exact (valOK_rel _ _ _ _ HR H1)|exact (newOK_rel _ _ _ _ HR H2)]. Qed.

Lemma casOK_CASvalue k nv w : putval w k nv -> casOK (CASvalue C) k nv w.
Proof.
  intros [Hv Hn] t i V w1 HI HR HK HU HS. eapply ok_mono.
  - apply (ok_CASvalue C cap0 t i k); auto; [left; exact (proj1 Hv)| |]. exact (proj2 (valOK_rel _ _ _ _ HR Hv)).
    exact (newOK_rel _ _ _ _ HR Hn).
  - intros r w2 _ _ [[H _]|(H & H' & _)]; auto.
Qed.

Lemma casOK_increment k nv w : In (OIncrement k) (fst w) -> casOK (increment C) k nv w.
Proof.
  intros Hin t i V w1 HI HR HK HU HS. unfold increment.
  eapply ok_seq; [exact HI|apply ok_bounds; exact HI|]. intros ? w2 HI2 HR2 _. cbn beta zeta.
  eapply ok_mono; [apply (ok_pcas_val C cap0 t i k)|].
  - exact HI2.
  - exact (KeyIs_rel _ _ _ _ _ HR2 HK).
  - exact (Seen_rel _ _ _ _ _ HR2 HS).
  - left. exact HU.
  - left. apply shl3_bits.
  - assert (Hin2 : In (OIncrement k) (fst w2)) by (apply HR2, HR; exact Hin).
    set (x := shl64 _ _). right. right.
    assert (Hx : strip x = x) by (apply strip_id; apply shl3_bits). rewrite Hx. unfold x. clear x Hx.
    destruct ((V =? VINITIAL) || (V =? VTOMBSTONE))%N eqn:E.
    + exact (sup_inc_first _ _ Hin2).
    + pose proof (Seen_val cap0 t i k V w2 HI2 (KeyIs_rel _ _ _ _ _ HR2 HK) (Seen_rel _ _ _ _ _ HR2 HS)) as Hv.
      change BITS_MARKED with 3%N. rewrite <- (shr3_strip V), next_some. destruct Hv as [Hv|[Hv|Hv]].
      * apply sup_inc_mark; auto.
      * apply sup_inc_mark; auto.
      * apply sup_inc; auto.
  - assert (Hin2 : In (OIncrement k) (fst w2)) by (apply HR2, HR; exact Hin). intros [Hk|Hn]; exfalso.
    + pose proof (proj1 HI2) as Hl. rewrite List.Forall_forall in Hl. destruct (Hl _ Hin2) as (_ & _ & _ & H4). subst k. discriminate H4.
    + rewrite List.Forall_forall in Hn. exact (Hn _ Hin2).
  - intros r w3 _ _ [[H _]|(H & H' & _)]; auto.
Qed.

(** ** Copying *)

Definition putOK (put : nat -> N -> N -> N -> prog N) : Prop := forall t k nv ov w,
  Inv w -> keyOK w k -> putval w k nv -> ok (put t k nv ov) (fun r w' => valOK w' k r) w.

Lemma KTOMBSTONE_keyOK w : keyOK w KTOMBSTONE.
Proof. split; [reflexivity|]. split; [discriminate|auto]. Qed.

Lemma ok_copySlot_key t i : forall n w, Inv w -> ok (copySlot_key C n t i) (fun k w' => KeyIs t i k w') w.
Proof.
  induction n as [|n IH]; intros w HI; cbn [copySlot_key]; [exact I|].
  eapply ok_seq; [exact HI|apply ok_key; exact HI|]. intros k w1 HI1 HR1 (H1 & H2 & H3). cbn beta.
  destruct (N.eqb_spec k KINITIAL) as [->|Hne].
  - eapply ok_seq; [exact HI1|apply ok_CASkey; [exact HI1|apply KTOMBSTONE_keyOK|congruence]|]. intros ? w2 HI2 HR2 _. apply IH. exact HI2.
  - apply ok_ret. intros w2 HI2 HR2. exact (KeyIs_rel _ _ _ _ _ HR2 (proj1 (H3 Hne))).
Qed.

Lemma ok_copySlot_mark t i k nt : forall n v w, Inv w -> link (snd w) t nt -> KeyIs t i k w -> Seen t i v w -> tight (fst w) k v ->
  ok (copySlot_mark C n t i v) (fun m w' => match m with inl _ => True | inr x => Seen t i x w' /\ isMarked x MIG = true /\ newOK w' k x end) w.
Proof.
  induction n as [|n IH]; intros v w HI HLk HK HS HTi; cbn [copySlot_mark]; [exact I|].
  destruct (isMarked v MIG) eqn:HM.
  - apply ok_ret. intros w1 HI1 HR1. split; [exact (Seen_rel _ _ _ _ _ HR1 HS)|]. split; [exact HM|].
    intros Hn Hs. pose proof (tight_rel _ _ _ _ HR1 HTi Hn Hs) as E. rewrite E in HM. discriminate HM.
  - set (mark := if ((v =? VINITIAL) || (v =? VTOMBSTONE))%N then TOMBPRIME else setMark v MIG).
    assert (Hmark : isMarked mark MIG = true).
    { unfold mark. destruct (_ || _); [exact TOMBPRIME_marked|apply mark_marked]. }
    assert (HN : newOK w k mark).
    { intros Hn Hs. unfold mark in Hs. destruct (N.eqb_spec v VINITIAL) as [->|Hv0]; cbn [orb] in Hs; [rewrite strip_TOMBPRIME in Hs; discriminate|].
      destruct (v =? VTOMBSTONE)%N; [rewrite strip_TOMBPRIME in Hs; discriminate|]. rewrite strip_mark in Hs. exact (Hv0 (HTi Hn Hs)). }
    eapply ok_seq; [exact HI|apply (ok_CASvalue C cap0 t i k); [exact HI|exact HK|exact HS|left; exact HM|right; eauto| |exact HN]|].
    { unfold mark. destruct (_ || _).
      - right. left. exact strip_TOMBPRIME.
      - unfold val_ok. rewrite strip_mark. exact (Seen_val cap0 t i k v w HI HK HS). }
    intros r w1 HI1 HR1 Hr. cbn beta in Hr. destruct (N.eqb_spec r v) as [->|Hne].
    + destruct (mark =? TOMBPRIME)%N; apply ok_ret; intros w2 HI2 HR2; [exact I|].
      destruct Hr as [[_ Hr]|[Hr _]]; [|congruence]. split; [exact (Seen_rel _ _ _ _ _ HR2 Hr)|]. split; [exact Hmark|].
      exact (newOK_rel _ _ _ _ (Rel_trans _ _ _ HR1 HR2) HN).
    + destruct Hr as [[Hr _]|(_ & Hr & Ht)]; [congruence|]. apply IH; auto; [exact (link_mono _ _ _ _ HR1 HLk)|exact (KeyIs_rel _ _ _ _ _ HR1 HK)].
Qed.

Lemma ok_copySlot_finish t i k nt : forall n v w, Inv w -> link (snd w) t nt -> KeyIs t i k w -> Seen t i v w ->
  ok (copySlot_finish C n t i v) (fun _ _ => True) w.
Proof.
  induction n as [|n IH]; intros v w HI HLk HK HS; cbn [copySlot_finish]; [exact I|].
  eapply ok_seq; [exact HI|apply (ok_CASvalue C cap0 t i k); [exact HI|exact HK|exact HS|right; apply clean_id; exact TOMBPRIME_clean|right; eauto| |]|].
  { right. left. exact strip_TOMBPRIME. }
  { intros _. rewrite strip_TOMBPRIME. discriminate. }
  intros r w1 HI1 HR1 Hr. destruct (N.eqb_spec r v) as [->|Hne]; [apply ok_ret; auto|].
  destruct Hr as [[Hr _]|(_ & Hr & _)]; [congruence|]. apply IH; auto; [exact (link_mono _ _ _ _ HR1 HLk)|exact (KeyIs_rel _ _ _ _ _ HR1 HK)].
Qed.

Lemma ok_copySlot n put i t nt w : putOK put -> Inv w -> link (snd w) t nt -> ok (copySlot C n put i t nt) (fun _ _ => True) w.
Proof.
  intros Hput HI HLk. unfold copySlot. eapply ok_seq; [exact HI|apply ok_copySlot_key; exact HI|]. intros k w1 HI1 HR1 HK. cbn beta in HK |- *.
  eapply ok_seq; [exact HI1|apply ok_value; exact HI1|]. intros v0 w2 HI2 HR2 (Hcl & HS & _). cbn beta.
  pose proof (KeyIs_rel _ _ _ _ _ HR2 HK) as HK2.
  eapply ok_seq; [exact HI2|apply (ok_copySlot_mark t i k nt); [exact HI2|apply (link_mono w w2); [rel|exact HLk]|exact HK2|exact HS|exact (Seen_tight cap0 _ _ _ _ _ HI2 HK2 HS Hcl)]|]. intros [u|v] w3 HI3 HR3 Hm; cbn beta iota in Hm |- *.
  - apply ok_ret. auto.
  - destruct (v =? TOMBPRIME)%N; [apply ok_ret; auto|]. cbn zeta.
    eapply ok_seq with (P := fun _ _ => True); [exact HI3|apply ok_assert; auto|]. intros ? w4 HI4 HR4 _.
    assert (HK4 : KeyIs t i k w4) by (apply (KeyIs_rel _ _ _ w2 w4); [rel|exact HK2]).
    assert (HS4 : Seen t i v w4) by (apply (Seen_rel _ _ _ w3 w4); [rel|apply Hm]).
    eapply ok_seq; [exact HI4|apply Hput; [exact HI4|exact (KeyIs_keyOK cap0 _ _ _ _ HI4 HK4)|]|].
    { split; [split; [apply unmark_unmarked|]|].
      - unfold val_ok. rewrite strip_unmark. exact (Seen_val cap0 _ _ _ _ _ HI4 HK4 HS4).
      - intros Hn. rewrite strip_unmark. exact (newOK_rel _ _ _ _ HR4 (proj2 (proj2 Hm)) Hn). }
    intros r w5 HI5 HR5 _. cbn zeta.
    eapply ok_seq; [exact HI5|apply (ok_copySlot_finish t i k nt); [exact HI5|apply (link_mono w w5); [rel|exact HLk]|exact (KeyIs_rel _ _ _ _ _ HR5 HK4)|exact (Seen_rel _ _ _ _ _ HR5 HS4)]|].
    intros ? w6 HI6 HR6 _. apply ok_ret. auto.
Qed.

Lemma ok_promote t wd w : Inv w -> ok (copyCheckAndPromote C t wd) (fun _ _ => True) w.
Proof.
  intros HI. unfold copyCheckAndPromote, do; cbn [bind].
  apply ok_read; [reflexivity|]. intros w1 HI1 HR1. apply ok_read; [reflexivity|]. intros w2 HI2 HR2.
  eapply ok_seq with (P := fun _ _ => True); [exact HI2|apply ok_assert; auto|]. intros ? w3 HI3 HR3 _.
  eapply ok_seq with (P := fun _ _ => True); [exact HI3| |].
  { destruct (0 <? wd)%N; [|apply ok_ret; auto]. apply ok_cmd. intros w4 HI4 HR4. cbn [exec].
    destruct (set_fld_ok cap0 w4 t FCopyDone (fun T => add64 (get_fld FCopyDone T) wd) HI4) as [S1 S2].
    split; [exact S1|]. split; [exact S2|]. intros _ _. apply ok_ret. auto. }
  intros ? w4 HI4 HR4 _. destruct (_ =? _)%N; [|apply ok_ret; auto].
  apply ok_read; [reflexivity|]. intros w5 HI5 HR5. cbn [exec fst].
  destruct (st_tabs (snd w5) !! t) as [T|] eqn:HT; [|exact I]. destruct (t_new T) as [nt|] eqn:Hn; [|exact I].
  apply ok_cmd. intros w6 HI6 HR6. cbn [exec]. destruct (Nat.eqb_spec (st_top (snd w6)) t) as [Ht|_].
  - assert (HL : link (snd w6) t nt) by (apply (link_mono w5 w6 _ _ HR6); exists T; auto).
    rewrite <- Ht in HL. destruct (castop_ok cap0 w6 nt HI6 HL) as [S1 S2]. split; [exact S1|]. split; [exact S2|].
    intros _ _. apply ok_ret. auto.
  - destruct (same_ok cap0 w6 HI6) as [S1 S2]. split; [exact S1|]. split; [exact S2|]. intros _ _. apply ok_ret. auto.
Qed.

(** ** resize *)

Lemma ok_resize t L w : Inv w -> Ex t L w -> ok (resize C t) (fun nt w' => link (snd w') t nt) w.
Proof.
  intros HI HE. unfold resize, CASNewTable, do; cbn [bind].
  apply ok_read; [reflexivity|]. intros w1 HI1 HR1. cbn [exec fst].
  destruct (match st_tabs (snd w1) !! t with Some T => t_new T | None => None end) as [nt|] eqn:HLd1.
  { apply load_link in HLd1. apply ok_read; [reflexivity|]. intros w2 HI2 HR2. apply ok_read; [reflexivity|]. intros w3 HI3 HR3.
    eapply ok_seq with (P := fun _ _ => True); [exact HI3|apply ok_assert; auto|]. intros ? w4 HI4 HR4 _. apply ok_ret.
    intros w5 HI5 HR5. apply (link_mono w1 w5); [rel|exact HLd1]. }
  apply ok_read; [reflexivity|]. intros w2 HI2 HR2. cbn [exec fst].
  assert (HE2 : Ex t L w2) by (apply (Ex_rel _ _ w); [rel|exact HE]).
  destruct HE2 as (T2 & HT2 & HL2). rewrite HT2, HL2. destruct (tabs_ok cap0 _ _ _ HI2 HT2) as ((He & H59) & _).
  rewrite HL2 in He, H59.
  apply ok_read; [reflexivity|]. intros w3 HI3 HR3. set (size := fst _). clearbody size. cbn in size. cbn zeta.
  apply ok_read; [reflexivity|]. intros w4 HI4 HR4. cbn [exec fst].
  destruct (match st_tabs (snd w4) !! t with Some T => t_new T | None => None end) as [nt|] eqn:HLd4.
  { apply load_link in HLd4. apply ok_read; [reflexivity|]. intros w5 HI5 HR5.
    eapply ok_seq with (P := fun _ _ => True); [exact HI5|apply ok_assert; auto|]. intros ? w6 HI6 HR6 _. apply ok_ret.
    intros w7 HI7 HR7. apply (link_mono w4 w7); [rel|exact HLd4]. }
  apply ok_cmd. intros w5 HI5 HR5. cbn [exec].
  destruct (fctr_ok cap0 w5 (add64 (st_fctr (snd w5)) 1) HI5) as [S1 S2]. split; [exact S1|]. split; [exact S2|].
  intros HI6 HR6. set (w6 := (fst w5, mkState _ _ _ _ _ _)) in *. set (file := st_fctr (snd w5)). clearbody file.
  rewrite newSizeFor_double by exact H59.
  apply ok_cmd. intros w7 HI7 HR7. cbn [exec]. unfold mmap_table.
  destruct HI7 as (I7a & I7f & I7b). rewrite I7f. cbn [find_file]. assert (HI7 : Inv w7) by (split; [|split]; assumption).
  destruct (can_alloc (2 * L) (st_maxcap (snd w7))) eqn:Hca.
  2:{ destruct (same_ok cap0 w7 HI7) as [A1 A2]. split; [exact A1|]. split; [exact A2|]. intros _ _. exact I. }
  assert (Hok : tab_ok cap0 w7 (fresh_table (2 * L) size file)).
  { apply fresh_ok.
    - destruct He as (e & ->). exists (S e). cbn [Nat.pow]. lia.
    - unfold can_alloc in Hca. apply andb_true_iff in Hca as [Hca _]. apply N.ltb_lt in Hca. exact Hca. }
  destruct (alloc_ok cap0 w7 _ HI7 Hok eq_refl) as [A1 A2].
  rewrite I7f in A1, A2. split; [exact A1|]. split; [exact A2|]. intros HI8 HR8.
  set (w8 := (fst w7, mkState _ _ _ _ _ _)) in *. set (nt := length (st_tabs (snd w7))).
  assert (HN8 : Ex nt (2 * L) w8).
  { exists (fresh_table (2 * L) size file). split; [|reflexivity]. unfold w8, nt. cbn.
    rewrite lookup_app_r, Nat.sub_diag by lia. reflexivity. }
  clearbody w8 nt. clear S1 S2.
  apply ok_read; [reflexivity|]. intros w9 HI9 HR9. cbn [exec fst].
  eapply ok_seq with (P := fun _ _ => True); [exact HI9|apply ok_assert; auto|]. intros ? w10 HI10 HR10 _.
  assert (Hk : forall (won : bool) w11, Inv w11 -> (won = true -> link (snd w11) t nt) ->
    ok (newTable' <-- (if won then Ret nt else Vis (Unmap nt) (fun _ => Vis (LoadNew t)
          (fun r => match r with Some x => Ret x | None => Err NullDeref end)));;
        Vis (Len newTable') (fun r0 => assert_ C (L <? r0);;; Ret newTable')) (fun nt w' => link (snd w') t nt) w11).
  { intros won w11 HI11 Hwon. eapply ok_seq with (P := fun nt w' => link (snd w') t nt); [exact HI11| |].
    { destruct won; [apply ok_ret; intros w12 HI12 HR12; exact (link_mono _ _ _ _ HR12 (Hwon eq_refl))|]. apply ok_read; [reflexivity|]. intros w12 HI12 HR12.
      apply ok_read; [reflexivity|]. intros w13 HI13 HR13. ldnew; [|exact I]. apply load_link in HLd. apply ok_ret. intros w14 HI14 HR14.
      exact (link_mono _ _ _ _ HR14 HLd). }
    intros nt' w12 HI12 HR12 Hl12. apply ok_read; [reflexivity|]. intros w13 HI13 HR13.
    eapply ok_seq with (P := fun _ _ => True); [exact HI13|apply ok_assert; auto|]. intros ? w14 HI14 HR14 _. apply ok_ret.
    intros w15 HI15 HR15. apply (link_mono w12 w15); [rel|exact Hl12]. }
  apply ok_cmd. intros w11 HI11 HR11. cbn [exec].
  assert (HN11 : Ex nt (2 * L) w11) by (apply (Ex_rel _ _ w8); [rel|exact HN8]).
  assert (HR2b : Rel w2 w11) by rel.
  assert (HT11 : Ex t L w11) by (apply (Ex_rel _ _ w2); [exact HR2b|exists T2; auto]).
  destruct HT11 as (T & HT & HL). destruct HN11 as (NT & HNT & HLN). rewrite HT.
  destruct (t_new T) as [y|] eqn:Hn; cbn [option_nat_eqb].
  - destruct (same_ok cap0 w11 HI11) as [B1 B2]. split; [exact B1|]. split; [exact B2|]. intros HI12 _. apply (Hk false); [exact HI12|discriminate].
  - destruct (casnew_ok cap0 w11 t T nt NT HI11 HT HNT) as [B1 B2]; [rewrite HLN, HL; reflexivity|exact Hn|].
    split; [exact B1|]. split; [exact B2|]. intros HI12 _. apply (Hk true); [exact HI12|]. intros _. eexists. cbn [snd with_tab st_tabs]. rewrite list_lookup_alter, HT. split; reflexivity.
Qed.

(** ** Helping *)

Lemma ok_claimChunk t len work : forall n i w, Inv w -> ok (claimChunk n t len work i) (fun _ _ => True) w.
Proof.
  induction n as [|n IH]; intros i w HI; cbn [claimChunk]; [exact I|].
  destruct (_ <? _)%N; [|apply ok_ret; auto]. unfold do; cbn [bind]. apply ok_cmd. intros w1 HI1 HR1. cbn [exec].
  destruct (_ =? i)%N.
  - destruct (set_fld_ok cap0 w1 t FCopyIdx (fun _ => add64 i work) HI1) as [S1 S2].
    split; [exact S1|]. split; [exact S2|]. intros _ _. apply ok_ret. auto.
  - destruct (same_ok cap0 w1 HI1) as [S1 S2]. split; [exact S1|]. split; [exact S2|]. intros HI2 HR2. apply IH. exact HI2.
Qed.

Lemma ok_copyChunk n put t nt len c : putOK put -> forall cnt i wd w, Inv w -> link (snd w) t nt ->
  ok (copyChunk C n put t nt len c i cnt wd) (fun _ _ => True) w.
Proof.
  intros Hput. induction cnt as [|cnt IH]; intros i wd w HI HLk; cbn [copyChunk]; [apply ok_ret; auto|].
  eapply ok_seq; [exact HI|apply ok_copySlot; assumption|]. intros b w1 HI1 HR1 _. apply IH; [exact HI1|exact (link_mono _ _ _ _ HR1 HLk)].
Qed.

Lemma ok_helpLoop put t nt len work : putOK put -> forall n pk c w, Inv w -> link (snd w) t nt ->
  ok (helpLoop C n put t nt len work pk c) (fun _ _ => True) w.
Proof.
  intros Hput. induction n as [|n IH]; intros pk c w HI HLk; cbn [helpLoop]; [exact I|].
  unfold do; cbn [bind]. apply ok_read; [reflexivity|]. intros w1 HI1 HR1.
  destruct (_ <? _)%N; [|apply ok_ret; auto].
  eapply ok_seq with (P := fun _ _ => True); [exact HI1| |].
  { destruct pk; [apply ok_ret; auto|]. apply ok_read; [reflexivity|]. intros w2 HI2 HR2. apply ok_claimChunk. exact HI2. }
  intros c' w2 HI2 HR2 _. cbn zeta.
  eapply ok_seq; [exact HI2|apply ok_copyChunk; [assumption|exact HI2|apply (link_mono w w2); [rel|exact HLk]]|]. intros wd w3 HI3 HR3 _.
  eapply ok_seq with (P := fun _ _ => True); [exact HI3| |].
  { destruct (0 <? wd)%N; [apply ok_promote; exact HI3|apply ok_ret; auto]. }
  intros ? w4 HI4 HR4 _. apply IH; [exact HI4|]. apply (link_mono w w4); [rel|exact HLk].
Qed.

Lemma ok_helpCopyImpl n put t w : putOK put -> Inv w -> ok (helpCopyImpl C n put t) (fun _ _ => True) w.
Proof.
  intros Hput HI. unfold helpCopyImpl, do; cbn [bind]. apply ok_read; [reflexivity|]. intros w1 HI1 HR1.
  ldnew; [|exact I]. apply ok_read; [reflexivity|]. intros w2 HI2 HR2. cbn zeta.
  apply load_link in HLd.
  eapply ok_seq; [exact HI2|apply ok_helpLoop; [assumption|exact HI2|exact (link_mono _ _ _ _ HR2 HLd)]|]. intros ? w3 HI3 HR3 _. apply ok_promote. exact HI3.
Qed.

Lemma ok_helpCopy n put h w : putOK put -> Inv w -> ok (helpCopy C n put h) (fun r _ => r = h) w.
Proof.
  intros Hput HI. unfold helpCopy, do; cbn [bind]. apply ok_read; [reflexivity|]. intros w1 HI1 HR1.
  apply ok_read; [reflexivity|]. intros w2 HI2 HR2. ldnew; [|apply ok_ret; auto].
  eapply ok_seq; [exact HI2|apply ok_helpCopyImpl; assumption|]. intros ? w3 HI3 HR3 _. apply ok_ret. auto.
Qed.

Lemma ok_copySlotAndCheck n put t i sh w : putOK put -> Inv w -> ok (copySlotAndCheck C n put t i sh) (fun nt w' => link (snd w') t nt) w.
Proof.
  intros Hput HI. unfold copySlotAndCheck, do; cbn [bind]. apply ok_read; [reflexivity|]. intros w1 HI1 HR1.
  ldnew; [|exact I].
  apply load_link in HLd.
  eapply ok_seq; [exact HI1|apply ok_copySlot; assumption|]. intros b w2 HI2 HR2 _.
  eapply ok_seq with (P := fun _ _ => True); [exact HI2|destruct b; [apply ok_promote; exact HI2|apply ok_ret; auto]|].
  intros ? w3 HI3 HR3 _. destruct sh.
  - apply ok_ret. intros w4 HI4 HR4. apply (link_mono w1 w4); [rel|exact HLd].
  - eapply ok_mono; [apply ok_helpCopy; assumption|]. intros r w4 HI4 HR4 ->. apply (link_mono w1 w4); [rel|exact HLd].
Qed.

(** ** putIfMatch *)

Definition claimOK (t : nat) (k : N) (c : claimed) (w : world) : Prop :=
  match c with
  | CRemoved => True
  | CFull => exists L, Ex t L w
  | CSlot idx V _ => KeyIs t idx k w /\ Seen t idx V w
  end.

Lemma ok_claimSlot t k nv len : forall n idx rp w, Inv w -> keyOK w k ->
  ok (claimSlot C n t k nv len idx rp) (fun c w' => claimOK t k c w') w.
Proof.
  induction n as [|n IH]; intros idx rp w HI HK; cbn [claimSlot]; [exact I|]. cbn zeta.
  eapply ok_seq; [exact HI|apply ok_key; exact HI|]. intros K w1 HI1 HR1 (H1 & H2 & H3). cbn beta.
  eapply ok_seq; [exact HI1|apply ok_value; exact HI1|]. intros V w2 HI2 HR2 (_ & HS & _ & _ & _ & HRd). cbn beta.
  assert (Hcheck : forall K' w', Inv w' -> Rel w2 w' -> (K' = k -> KeyIs t idx k w') ->
    ok (if (K' =? k)%N then Ret (CSlot idx V rp)
        else if (reprobeLimit len <=? S rp)%nat || (K' =? KTOMBSTONE)%N then Ret CFull
        else claimSlot C n t k nv len (mask (N.of_nat idx + 1) len) (S rp)) (fun c w' => claimOK t k c w') w').
  { intros K' w' HI' HR' HKK. destruct (N.eqb_spec K' k) as [->|Hne].
    - apply ok_ret. intros w3 HI3 HR3. split; [exact (KeyIs_rel _ _ _ _ _ HR3 (HKK eq_refl))|].
      apply (Seen_rel _ _ _ w2 w3); [rel|exact HS].
    - destruct (_ || _).
      + apply ok_ret. intros w3 HI3 HR3. destruct H2 as (L & HL & _). exists L. apply (Ex_rel _ _ w1); [rel|exact HL].
      + apply IH; [exact HI'|]. apply (keyOK_rel w w'); [rel|exact HK]. }
  change VINITIAL with KINITIAL. destruct (N.eqb_spec K KINITIAL) as [->|Hne].
  - destruct (nv =? VTOMBSTONE)%N; [apply ok_ret; auto; intros; exact I|].
    assert (HK2 : keyOK w2 k) by (apply (keyOK_rel w w2); [rel|exact HK]).
    eapply ok_seq; [exact HI2|apply ok_CASkey; [exact HI2|exact HK2|intros _; exact HRd]|]. intros aK w3 HI3 HR3 [HA HB]. cbn beta.
    destruct (N.eqb_spec aK KINITIAL) as [->|HaK].
    + unfold do; cbn [bind]. apply ok_cmd. intros w4 HI4 HR4. cbn [exec].
      destruct (set_fld_ok cap0 w4 t FSlots (fun T => add64 (get_fld FSlots T) 1) HI4) as [S1 S2].
      split; [exact S1|]. split; [exact S2|]. intros HI5 HR5. apply ok_ret. intros w6 HI6 HR6.
      set (w5 := (fst w4, _)) in *. split; [apply (KeyIs_rel _ _ _ w3 w6); [rel|auto]|apply (Seen_rel _ _ _ w2 w6); [rel|exact HS]].
    + apply Hcheck; [exact HI3|exact HR3|]. intros ->. destruct HK2 as (K1 & K2 & _).
      rewrite (clean_id _ K1) in HB. exact (HB K2).
  - apply Hcheck; [exact HI2|apply Rel_refl|]. intros ->. exact (KeyIs_rel _ _ _ _ _ HR2 (proj1 (H3 Hne))).
Qed.

Lemma ok_countChange t V nv ov w : Inv w -> ok (countChange t V nv ov) (fun _ _ => True) w.
Proof.
  intros HI.
  assert (HA : forall d w', Inv w' -> ok (do (AddF t FSize d) ;;; Ret tt) (fun _ _ => True) w').
  { intros d w' HI'. unfold do; cbn [bind]. apply ok_cmd. intros w1 HI1 HR1. cbn [exec].
    destruct (set_fld_ok cap0 w1 t FSize (fun T => add64 (get_fld FSize T) d) HI1) as [S1 S2].
    split; [exact S1|]. split; [exact S2|]. intros _ _. apply ok_ret. auto. }
  unfold countChange. destruct (negb _); [|apply ok_ret; auto]. destruct (_ && _); [apply HA; exact HI|].
  destruct (_ && _); [apply HA; exact HI|apply ok_ret; auto].
Qed.

Lemma ok_updateLoop CAS fwd t idx k nv ov : forall n V w, Inv w -> casOK CAS k nv w ->
  (forall w', Inv w' -> Rel w w' -> ok fwd (fun r w2 => valOK w2 k r) w') ->
  KeyIs t idx k w -> unmarked V -> Seen t idx V w ->
  ok (updateLoop C n CAS fwd t idx nv ov V) (fun r w' => valOK w' k r) w.
Proof.
  induction n as [|n IH]; intros V w HI HCAS Hfwd HK HU HS; cbn [updateLoop]; [exact I|].
  eapply ok_seq with (P := fun _ _ => True); [exact HI|apply ok_assert; auto|]. intros ? w1 HI1 HR1 _.
  assert (HK1 := KeyIs_rel _ _ _ _ _ HR1 HK). assert (HS1 := Seen_rel _ _ _ _ _ HR1 HS).
  destruct (noMatch V ov).
  { apply ok_ret. intros w2 HI2 HR2. split; [exact HU|].
    apply (Seen_val cap0 t idx); [exact HI2|exact (KeyIs_rel _ _ _ _ _ HR2 HK1)|exact (Seen_rel _ _ _ _ _ HR2 HS1)]. }
  eapply ok_seq; [exact HI1|apply HCAS; auto|]. intros av w2 HI2 HR2 Ha. cbn beta in Ha |- *.
  assert (HK2 := KeyIs_rel _ _ _ _ _ HR2 HK1). assert (HS2 := Seen_rel _ _ _ _ _ HR2 HS1).
  destruct (N.eqb_spec av V) as [->|Hne].
  - eapply ok_seq; [exact HI2|apply ok_countChange; exact HI2|]. intros ? w3 HI3 HR3 _. apply ok_ret. intros w4 HI4 HR4.
    destruct (_ && _); [split; [exact VTOMBSTONE_unmarked|right; left; apply strip_id; [exact VTOMBSTONE_clean|exact VTOMBSTONE_unmarked]]|].
    split; [exact HU|]. apply (Seen_val cap0 t idx); [exact HI4|apply (KeyIs_rel _ _ _ w2); [rel|exact HK2]|apply (Seen_rel _ _ _ w2); [rel|exact HS2]].
  - destruct Ha as [Ha|[_ Ha]]; [congruence|].
    eapply ok_seq; [exact HI2|apply ok_value; exact HI2|]. intros x w3 HI3 HR3 (_ & _ & _ & HF & _). cbn beta.
    destruct (isMarked x MIG) eqn:HM; [apply Hfwd; [exact HI3|rel]|].
    apply IH; [exact HI3|apply (casOK_rel _ _ _ w); [rel|exact HCAS]| | | |].
    + intros w' HI' HR'. apply Hfwd; [exact HI'|rel].
    + exact (KeyIs_rel _ _ _ _ _ HR3 HK2).
    + unfold unmarked. destruct (isMarked av MIG) eqn:HMa; [|reflexivity]. symmetry. apply HF. exists av. auto.
    + exact (Seen_rel _ _ _ _ _ HR3 Ha).
Qed.

Lemma ok_putBody n put CAS t k nv ov w : putOK put -> Inv w -> keyOK w k -> putval w k nv -> casOK CAS k nv w ->
  ok (putBody C n put CAS t k nv ov) (fun r w' => valOK w' k r) w.
Proof.
  intros Hput HI HK HV HCAS. unfold putBody.
  eapply ok_seq with (P := fun _ _ => True); [exact HI|apply ok_assert; auto|]. intros ? w1 HI1 HR1 _.
  eapply ok_seq with (P := fun _ _ => True); [exact HI1|apply ok_assert; auto|]. intros ? w2 HI2 HR2 _.
  eapply ok_seq with (P := fun _ _ => True); [exact HI2|apply ok_assert; auto|]. intros ? w3 HI3 HR3 _.
  unfold do; cbn [bind]. apply ok_read; [reflexivity|]. intros w4 HI4 HR4.
  set (len := fst _). clearbody len. cbn in len.
  assert (HR04 : Rel w w4) by rel.
  eapply ok_seq; [exact HI4|apply ok_claimSlot; [exact HI4|exact (keyOK_rel _ _ _ HR04 HK)]|]. intros c w5 HI5 HR5 Hc. cbn beta in Hc |- *.
  assert (HR05 : Rel w w5) by rel.
  assert (Hp : forall t' w', Inv w' -> Rel w5 w' -> ok (put t' k nv ov) (fun r w2 => valOK w2 k r) w').
  { intros t' w' HI' HR'. apply Hput; [exact HI'|apply (keyOK_rel w); [rel|exact HK]|apply (putval_rel w); [rel|exact HV]]. }
  destruct c as [|idx V rp|]; cbn [claimOK] in Hc.
  - apply ok_ret. intros w6 HI6 HR6. apply (valOK_rel w); [rel|exact (proj1 HV)].
  - destruct Hc as [HKI HS]. destruct (N.eqb_spec nv V) as [HeqV|HneV].
    { apply ok_ret. intros w6 HI6 HR6. rewrite <- HeqV. apply (valOK_rel w); [rel|exact (proj1 HV)]. }
    cbn zeta.
    assert (Hfwd : forall w', Inv w' -> Rel w5 w' ->
      ok (nt <-- copySlotAndCheck C n put t idx (ov =? VINITIAL)%N;; put nt k nv ov) (fun r w2 => valOK w2 k r) w').
    { intros w' HI' HR'. eapply ok_seq; [exact HI'|apply ok_copySlotAndCheck; assumption|].
      intros nt w6 HI6 HR6 _. apply Hp; [exact HI6|rel]. }
    eapply ok_seq with (P := fun _ _ => True); [exact HI5| |].
    { destruct (V =? VINITIAL)%N; [|apply ok_ret; auto]. unfold tableFull. destruct (_ <=? _)%nat; [|apply ok_ret; auto].
      unfold do; cbn [bind]. apply ok_read; [reflexivity|]. intros w6 HI6 HR6. apply ok_ret. auto. }
    intros full w6 HI6 HR6 _. destruct (full || isMarked V MIG) eqn:Hf.
    + destruct HKI as (HKa & v & p & HVer & HE). pose proof (Ver_InR cap0 _ _ _ _ _ HI5 HVer) as (L & HL & _).
      eapply ok_seq; [exact HI6|apply (ok_resize t L); [exact HI6|exact (Ex_rel _ _ _ _ HR6 HL)]|].
      intros ? w7 HI7 HR7 _. apply Hfwd; [exact HI7|rel].
    + apply orb_false_iff in Hf as [_ Hf]. apply ok_updateLoop with (k := k); auto.
      * apply (casOK_rel _ _ _ w); [rel|exact HCAS].
      * intros w' HI' HR'. apply Hfwd; [exact HI'|rel].
      * exact (KeyIs_rel _ _ _ _ _ HR6 HKI).
      * exact (Seen_rel _ _ _ _ _ HR6 HS).
  - destruct Hc as (L & HL). eapply ok_seq; [exact HI5|apply (ok_resize t L); assumption|]. intros nt w6 HI6 HR6 _.
    eapply ok_seq with (P := fun _ _ => True); [exact HI6| |].
    { destruct (negb _); [|apply ok_ret; auto]. eapply ok_seq; [exact HI6|apply ok_helpCopy; assumption|].
      intros ? w7 HI7 HR7 _. apply ok_ret. auto. }
    intros ? w7 HI7 HR7 _. apply Hp; [exact HI7|rel].
Qed.

Lemma ok_putIfMatch : forall n CAS t k nv ov w, Inv w -> keyOK w k -> putval w k nv -> casOK CAS k nv w ->
  ok (putIfMatch C n CAS t k nv ov) (fun r w' => valOK w' k r) w.
Proof.
  induction n as [|n IH]; intros CAS t k nv ov w HI HK HV HCAS; cbn [putIfMatch]; [exact I|].
  apply ok_putBody; auto. intros t' k' nv' ov' w' HI' HK' HV'. apply IH; auto. apply casOK_CASvalue. exact HV'.
Qed.

Lemma putOK_put n : putOK (putIfMatch C n (CASvalue C)).
Proof. intros t k nv ov w HI HK HV. apply ok_putIfMatch; auto. apply casOK_CASvalue. exact HV. Qed.

(** ** get *)

(** The search for [k] in table [t] that starts at the hash [h] passes [d] entries with other keys, which are in persistent
    memory. *)
Definition Passed (t : nat) (h k : N) (L d : nat) (w : world) : Prop := Ex t L w /\ (d = 0 \/ d < reprobeLimit L) /\
  forall c, c < d -> exists K, K <> KINITIAL /\ K <> k /\ K <> KTOMBSTONE /\ KeyIs t (pos h L c) K w /\ KPer t (pos h L c) K w.

Lemma Passed_rel t h k L d w w' : Inv w -> Rel w w' -> Passed t h k L d w -> Passed t h k L d w'.
Proof.
  intros HI HR (H1 & H2 & H3). split; [exact (Ex_rel _ _ _ _ HR H1)|]. split; [exact H2|].
  intros c Hc. destruct (H3 c Hc) as (K & A1 & A2 & A3 & A4 & A5). exists K.
  do 3 (split; [assumption|]). split; [exact (KeyIs_rel _ _ _ _ _ HR A4)|].
  exact (KPer_rel _ _ _ _ _ cap0 HI A1 (KeyIs_InR cap0 _ _ _ _ HI A4) HR A5).
Qed.

(** What get returns is the not-found word, or a value seen in an entry of the key that is in
    persistent memory; so are, for the first table, the keys of the entries before it. *)
Definition getOK (h k V : N) (w : world) : Prop :=
  V = VINITIAL \/ (isclean V /\ unmarked V /\ V <> VTOMBSTONE /\ exists t i, KeyIs t i k w /\ KPer t i k w /\ Seen t i V w /\ DurVal t i V w /\
    (t = 0 -> exists L d, i = pos h L d /\ Passed t h k L d w)).

Lemma getOK_rel h k V w w' : Inv w -> Rel w w' -> getOK h k V w -> getOK h k V w'.
Proof.
  intros HI HR [H|(H1 & H2 & H3 & t & i & H4 & H5 & H6 & H7 & H8)]; [left; exact H|right].
  split; [exact H1|]. split; [exact H2|]. split; [exact H3|]. exists t, i.
  pose proof (KeyIs_InR cap0 _ _ _ _ HI H4) as Hin.
  split; [exact (KeyIs_rel _ _ _ _ _ HR H4)|]. split; [exact (KPer_rel _ _ _ _ _ cap0 HI (proj1 H4) Hin HR H5)|].
  split; [exact (Seen_rel _ _ _ _ _ HR H6)|]. split.
  - apply (DurVal_rel _ _ _ w w'); auto. destruct Hin as (L & HL & _). eauto.
  - intros Ht. destruct (H8 Ht) as (L & d & E & HP). exists L, d. split; [exact E|]. exact (Passed_rel _ _ _ _ _ _ _ HI HR HP).
Qed.

Lemma ok_getLoop put rec t h k len : putOK put -> 
  (forall t' w, Inv w -> ok (rec t') (fun r w' => getOK h k r w') w) -> forall n rp w, Inv w -> (t = 0 -> Passed t h k len rp w) ->
  ok (getLoop C n put rec t k len (pos h len rp) rp) (fun r w' => getOK h k r w') w.
Proof.
  intros Hput Hrec. induction n as [|n IH]; intros rp w HI HP; cbn [getLoop]; [exact I|].
  eapply ok_seq; [exact HI|apply ok_key; exact HI|]. intros K w1 HI1 HR1 (H1 & H2 & H3). cbn beta.
  eapply ok_seq; [exact HI1|apply ok_value; exact HI1|]. intros V w2 HI2 HR2 (HVc & HS & HD & _). cbn beta.
  destruct (N.eqb_spec K KINITIAL) as [->|HKne]; [apply ok_ret; intros; left; reflexivity|].
  destruct (H3 HKne) as [HK1 HK2].
  assert (HK1' : KeyIs t (pos h len rp) K w2) by exact (KeyIs_rel _ _ _ _ _ HR2 HK1).
  assert (HK2' : KPer t (pos h len rp) K w2) by exact (KPer_rel _ _ _ _ _ cap0 HI1 HKne H2 HR2 HK2).
  assert (HP2 : t = 0 -> Passed t h k len rp w2).
  { intros Ht. apply (Passed_rel _ _ _ _ _ w); [exact HI|rel|exact (HP Ht)]. }
  unfold do; cbn [bind]. apply ok_read; [reflexivity|]. intros w3 HI3 HR3. cbn [exec fst].
  set (nt := match st_tabs (snd w3) !! t with Some T => t_new T | None => None end). clearbody nt.
  destruct (N.eqb_spec K k) as [->|HneK].
  - destruct (isMarked V MIG) eqn:HM; cbn [negb].
    + eapply ok_seq; [exact HI3|apply ok_copySlotAndCheck; assumption|]. intros t' w4 HI4 HR4 _. apply Hrec. exact HI4.
    + apply ok_ret. intros w4 HI4 HR4. destruct (N.eqb_spec V VTOMBSTONE) as [|HneV]; [left; reflexivity|].
      apply (getOK_rel _ _ _ w2 w4 HI2); [rel|]. right. split; [exact HVc|]. split; [exact HM|]. split; [exact HneV|].
      exists t, (pos h len rp). do 4 (split; [assumption|]). intros Ht. exists len, rp. auto.
  - destruct (reprobeLimit len <=? S rp)%nat eqn:Hlim; cbn [orb]; [|destruct (N.eqb_spec K KTOMBSTONE) as [|HKt]].
    1, 2: destruct nt as [x|]; [|apply ok_ret; intros; left; reflexivity];
      eapply ok_seq; [exact HI3|apply ok_helpCopy; assumption|]; intros t' w4 HI4 HR4 _; apply Hrec; exact HI4.
    apply (IH (S rp)); [exact HI3|]. intros Ht. apply (Passed_rel _ _ _ _ _ w2); [exact HI2|rel|].
    destruct (HP2 Ht) as (P1 & P2 & P3). split; [exact P1|]. apply Nat.leb_gt in Hlim. split; [right; exact Hlim|].
    intros c Hc. destruct (Nat.eq_dec c rp) as [->|Hne]; [|apply P3; lia]. exists K. auto.
Qed.

Lemma ok_getImpl k fh : forall n t w, Inv w -> ok (getImpl C n t k fh) (fun r w' => getOK (sext32 fh) k r w') w.
Proof.
  induction n as [|n IH]; intros t w HI; cbn [getImpl]; [exact I|]. unfold do; cbn [bind].
  apply ok_read; [reflexivity|]. intros w1 HI1 HR1. cbn [exec fst].
  apply (ok_getLoop _ _ t (sext32 fh) k _ (putOK_put n)) with (rp := 0); [|exact HI1|].
  - intros t' w' HI'. apply IH. exact HI'.
  - intros ->. pose proof HI1 as (_ & _ & Htop & _). destruct (lookup_lt_is_Some_2 (st_tabs (snd w1)) 0) as (T & HT); [lia|]. rewrite HT.
    split; [exists T; auto|]. split; [left; reflexivity|]. intros c Hc. lia.
Qed.

Lemma ok_get n k w : Inv w -> ok (get C n k) (fun r w' => getOK (sext32 (hash C k)) k r w') w.
Proof.
  intros HI. unfold get, do; cbn [bind]. apply ok_read; [reflexivity|]. intros w1 HI1 HR1.
  eapply ok_seq; [exact HI1|apply ok_getImpl; exact HI1|]. intros V w2 HI2 HR2 HV. cbn beta in HV.
  eapply ok_seq with (P := fun _ _ => True); [exact HI2|apply ok_assert; auto|]. intros ? w3 HI3 HR3 _.
  apply ok_ret. intros w4 HI4 HR4. apply (getOK_rel _ _ _ w2 w4 HI2); [rel|exact HV].
Qed.

(** ** The API *)

Lemma ok_pub n CAS k nv ov w : Inv w -> keyOK w k -> putval w k nv -> casOK CAS k nv w ->
  ok (putIfMatchPub C n k nv ov CAS) (fun r w' => valOK w' k r) w.
Proof.
  intros HI HK HV HCAS. unfold putIfMatchPub.
  eapply ok_seq with (P := fun _ _ => True); [exact HI|apply ok_assert; auto|]. intros ? w1 HI1 HR1 _.
  eapply ok_seq with (P := fun _ _ => True); [exact HI1|apply ok_assert; auto|]. intros ? w2 HI2 HR2 _.
  unfold do; cbn [bind]. apply ok_read; [reflexivity|]. intros w3 HI3 HR3.
  eapply ok_seq; [exact HI3|apply ok_putIfMatch with (k := k)|].
  - exact HI3.
  - apply (keyOK_rel w); [rel|exact HK].
  - apply (putval_rel w); [rel|exact HV].
  - apply (casOK_rel _ _ _ w); [rel|exact HCAS].
  - intros r w4 HI4 HR4 Hr. cbn beta in Hr.
    eapply ok_seq with (P := fun _ _ => True); [exact HI4|apply ok_assert; auto|]. intros ? w5 HI5 HR5 _.
    apply ok_ret. intros w6 HI6 HR6. destruct (r =? VTOMBSTONE)%N.
    + split; [exact VINITIAL_unmarked|left; apply strip_id; [exact VINITIAL_clean|exact VINITIAL_unmarked]].
    + apply (valOK_rel w4); [rel|exact Hr].
Qed.

(** What a call may return. *)
Definition resOK (o : op) (r : rsp) (w : world) : Prop :=
  match o, r with
  | OGet k, RVal v => getOK (sext32 (hash C k)) k v w
  | OPut k _, RVal v | OPutIfAbsent k _, RVal v | OIncrement k, RVal v => valOK w k v
  | _, _ => True
  end.

Lemma resOK_rel o r w w' : Inv w -> Rel w w' -> resOK o r w -> resOK o r w'.
Proof.
  intros HI HR. destruct o, r; cbn [resOK]; auto; try (apply valOK_rel; exact HR). apply getOK_rel; assumption.
Qed.

Lemma legal_called o k w : In o (fst w) -> op_key o = Some k -> legal_key k -> keyOK w k.
Proof.
  intros Hin Ho (H1 & H2 & H3 & H4). split; [exact H2|]. split.
  - intros ->. unfold isKeyReserved in H4. rewrite N.eqb_refl in H4. discriminate.
  - right. exists o. auto.
Qed.

Lemma legal_supplied k v w : legal_val v -> supplied (fst w) k v -> putval w k v.
Proof.
  intros (H1 & H2 & H3 & H4) Hs. split; [split; [exact H3|]|].
  - right. right. rewrite strip_id; [exact Hs|exact H2|exact H3].
  - intros _. rewrite strip_id; [|exact H2|exact H3]. intros ->. discriminate H4.
Qed.

Lemma tomb_valOK w k : putval w k VTOMBSTONE.
Proof.
  assert (E : strip VTOMBSTONE = VTOMBSTONE) by (apply strip_id; [exact VTOMBSTONE_clean|exact VTOMBSTONE_unmarked]).
  split; [split; [exact VTOMBSTONE_unmarked|right; left; exact E]|]. intros _. rewrite E. discriminate.
Qed.

Lemma arg_valOK w k : In (OIncrement k) (fst w) -> putval w k INCREMENT_ARG.
Proof.
  intros H. assert (isclean INCREMENT_ARG) by reflexivity. assert (unmarked INCREMENT_ARG) by reflexivity.
  split; [split; [assumption|]|].
  - right. right. rewrite strip_id by assumption. apply sup_inc_arg. exact H.
  - intros _. rewrite strip_id by assumption. discriminate.
Qed.

Theorem ok_op n o w : Inv w -> legal_op o -> In o (fst w) -> ok (op_prog C n o) (fun r w' => resOK o r w') w.
Proof.
  intros HI Hl Hin. destruct o as [k|k|k v|k v|k|k v|k ov v|k|]; cbn [op_prog legal_op] in *.
  - eapply ok_seq; [exact HI|apply ok_get; exact HI|]. intros r w1 HI1 HR1 Hr. apply ok_ret. intros w2 HI2 HR2.
    exact (getOK_rel _ _ _ _ _ HI1 HR2 Hr).
  - unfold containsKey. apply ok_bind; [exact HI|]. eapply ok_seq; [exact HI|apply ok_get; exact HI|].
    intros r w1 HI1 HR1 _. apply ok_ret. intros w2 HI2 HR2. apply ok_ret. intros w3 HI3 HR3. exact I.
  - destruct Hl as [Hk Hv]. eapply ok_seq; [exact HI|apply ok_pub with (k := k)|].
    + exact HI.
    + exact (legal_called _ _ _ Hin eq_refl Hk).
    + apply legal_supplied; [exact Hv|apply sup_put; exact Hin].
    + apply casOK_CASvalue. apply legal_supplied; [exact Hv|apply sup_put; exact Hin].
    + intros r w1 HI1 HR1 Hr. apply ok_ret. intros w2 HI2 HR2. exact (valOK_rel _ _ _ _ HR2 Hr).
  - destruct Hl as [Hk Hv]. eapply ok_seq; [exact HI|apply ok_pub with (k := k)|].
    + exact HI.
    + exact (legal_called _ _ _ Hin eq_refl Hk).
    + apply legal_supplied; [exact Hv|apply sup_putIfAbsent; exact Hin].
    + apply casOK_CASvalue. apply legal_supplied; [exact Hv|apply sup_putIfAbsent; exact Hin].
    + intros r w1 HI1 HR1 Hr. apply ok_ret. intros w2 HI2 HR2. exact (valOK_rel _ _ _ _ HR2 Hr).
  - unfold remove. apply ok_bind; [exact HI|]. eapply ok_seq; [exact HI|apply ok_pub with (k := k)|].
    + exact HI.
    + exact (legal_called _ _ _ Hin eq_refl Hl).
    + apply tomb_valOK.
    + apply casOK_CASvalue. apply tomb_valOK.
    + intros r w1 HI1 HR1 Hr. apply ok_ret. intros w2 HI2 HR2. apply ok_ret. intros w3 HI3 HR3. exact I.
  - destruct Hl as [Hk Hv]. unfold removeVal. apply ok_bind; [exact HI|]. eapply ok_seq; [exact HI|apply ok_pub with (k := k)|].
    + exact HI.
    + exact (legal_called _ _ _ Hin eq_refl Hk).
    + apply tomb_valOK.
    + apply casOK_CASvalue. apply tomb_valOK.
    + intros r w1 HI1 HR1 Hr. apply ok_ret. intros w2 HI2 HR2. apply ok_ret. intros w3 HI3 HR3. exact I.
  - destruct Hl as (Hk & Ho & Hv). unfold replace. apply ok_bind; [exact HI|]. eapply ok_seq; [exact HI|apply ok_pub with (k := k)|].
    + exact HI.
    + exact (legal_called _ _ _ Hin eq_refl Hk).
    + apply legal_supplied; [exact Hv|eapply sup_replace; exact Hin].
    + apply casOK_CASvalue. apply legal_supplied; [exact Hv|eapply sup_replace; exact Hin].
    + intros r w1 HI1 HR1 Hr. apply ok_ret. intros w2 HI2 HR2. apply ok_ret. intros w3 HI3 HR3. exact I.
  - eapply ok_seq; [exact HI|apply ok_pub with (k := k)|].
    + exact HI.
    + exact (legal_called _ _ _ Hin eq_refl Hl).
    + apply arg_valOK. exact Hin.
    + apply casOK_increment. exact Hin.
    + intros r w1 HI1 HR1 Hr. apply ok_ret. intros w2 HI2 HR2. exact (valOK_rel _ _ _ _ HR2 Hr).
  - unfold size, do; cbn [bind]. apply ok_read; [reflexivity|]. intros w1 HI1 HR1.
    apply ok_read; [reflexivity|]. intros w2 HI2 HR2. apply ok_ret. intros w3 HI3 HR3. exact I.
Qed.

End Map.
