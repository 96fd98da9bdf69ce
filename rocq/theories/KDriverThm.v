(** What the test program of the multi-word compare-and-swap does. *)
From Coq Require Import NArith Bool List Permutation Lia Arith.
From stdpp Require Import base list.
From Verif Require Import Word Bits Codec CodecSpec CodecThm MwCas MwSpec MwWp MwSeq MwRely KDriver.
Import ListNotations.
Local Open Scope N_scope.

(** ** The words it stores *)

Lemma mval_times8 y : y * 8 < two64 -> mval (y * 8).
Proof. intros Hy. split; [exact Hy|]. change 8 with (2 ^ 3). rewrite <- N.shiftl_mul_pow2. rewrite !N.shiftl_spec_low by reflexivity. auto. Qed.
Lemma shift3_mval b r v : shift3 b r = Some v -> mval v.
Proof.
  unfold shift3. destruct (b || _); [|discriminate]. cbv zeta. intros H.
  assert (E : exists q, q < 536870912 /\ (r * 8) mod 2 ^ 32 = q * 8).
  { exists (r mod 2 ^ 29). split; [apply N.mod_lt; discriminate|]. change (2 ^ 32) with (2 ^ 29 * 8). rewrite N.mul_mod_distr_r by discriminate. reflexivity. }
  destruct E as (q & Hq & E). rewrite E in H. revert H. generalize (2 ^ 31). intros z. change (2 ^ 64 - 2 ^ 32) with 18446744069414584320. destruct (q * 8 <? z).
  - intros [= <-]. apply mval_times8. unfold two64. lia.
  - intros H. assert (E' : v = (q + 2305843008676823040) * 8) by (injection H as H; lia). rewrite E'. apply mval_times8. unfold two64. lia.
Qed.
Lemma driver_mval v : driver_value v -> mval v.
Proof. intros [->|(r & _ & H)]; [repeat split|exact (shift3_mval _ _ _ H)]. Qed.
Lemma shift3_20 b r v : shift3 b r = Some v -> shift3 true r = Some v.
Proof. unfold shift3. destruct b; [trivial|]. cbn [orb]. destruct (r * 8 <? 2 ^ 32); [trivial|discriminate]. Qed.
Lemma shift3_none b r : shift3 b r = None -> b = false /\ 2 ^ 29 <= r.
Proof.
  unfold shift3. destruct b; [discriminate|]. cbn [orb]. destruct (N.ltb_spec (r * 8) (2 ^ 32)) as [H|H]; [discriminate|]. intros _. split; [reflexivity|].
  change (2 ^ 32) with 4294967296 in H. change (2 ^ 29) with 536870912. lia.
Qed.

(** ** The indexes *)

Lemma draw_ok C count set rs set' rs' : m_size C <> 0 -> draw C count set rs = Some (set', rs') -> NoDup set -> Forall (fun i => i < m_size C) set -> (length set <= count)%nat ->
  NoDup set' /\ Forall (fun i => i < m_size C) set' /\ length set' = count /\ (forall r, In r rs' -> In r rs).
Proof.
  intros Hs. revert set. induction rs as [|r rs IH]; intros set; cbn [draw]; destruct (Nat.leb_spec count (length set)) as [Hl|Hl]; try discriminate.
  - intros [= <- <-] H1 H2 H3. repeat split; auto; lia.
  - intros [= <- <-] H1 H2 H3. repeat split; auto; lia.
  - intros E H1 H2 H3. assert (Hlt : r mod m_size C < m_size C) by (apply N.mod_lt, Hs).
    destruct (existsb (N.eqb (r mod m_size C)) set) eqn:Ex.
    + destruct (IH _ E H1 H2 H3) as (A & B & D & F). repeat split; auto. intros x Hx. right. apply F, Hx.
    + destruct (IH _ E) as (A & B & D & F).
      * constructor; [|exact H1]. intros Hin. apply elem_of_list_In in Hin. assert (T : existsb (N.eqb (r mod m_size C)) set = true) by (apply existsb_exists; exists (r mod m_size C); split; [exact Hin|apply N.eqb_refl]). congruence.
      * constructor; assumption.
      * cbn. lia.
      * repeat split; auto. intros x Hx. right. apply F, Hx.
Qed.

Section Thm.
Context (C : mcfg) (HC : mcfg_ok C) (HK : (0 < m_K C)%nat) (Hsz : m_size C <> 0) (n : nat) (cxx20 : bool).
Context (order : list N -> list N) (Horder : forall s, Permutation (order s) s).

Lemma drawn count rs set rs' r : draw C (N.to_nat (r mod N.of_nat (m_K C)) + 1) [] rs = Some (set, rs') -> count = (N.to_nat (r mod N.of_nat (m_K C)) + 1)%nat ->
  NoDup (order set) /\ Forall (fun i => i < m_size C) (order set) /\ (0 < length (order set) <= m_K C)%nat /\ forall x, In x rs' -> In x rs.
Proof.
  intros E ->. destruct (draw_ok C _ _ _ _ _ Hsz E) as (A & B & D & F); [apply NoDup_nil_2|apply List.Forall_nil|apply Nat.le_0_l|]. split; [rewrite (Horder set); exact A|]. split; [apply List.Forall_forall; intros i Hi; rewrite List.Forall_forall in B; apply B; eapply Permutation_in; [apply Horder|exact Hi]|]. split; [|exact F].
  rewrite (Permutation_length (Horder set)), D. assert (r mod N.of_nat (m_K C) < N.of_nat (m_K C)) by (apply N.mod_lt; lia). revert H. generalize (r mod N.of_nat (m_K C)). clear. intros x Hx. lia.
Qed.
Lemma filled_legal is ws : NoDup is -> Forall (fun i => i < m_size C) is -> (0 < length is <= m_K C)%nat -> map o_off ws = is ->
  Forall (fun x => mval (o_new x)) ws -> legal_mop C (MwCas ws).
Proof.
  intros H1 H2 H3 <- H4. rewrite map_length in H3. split; [intros j Hj; rewrite List.Forall_forall in H2; apply H2, Hj|]. split; [destruct ws; [cbn in H3; lia|discriminate]|].
  split; [lia|]. split; assumption.
Qed.

(** ** In every execution *)

Section Conc.
Context (me : N).
Local Notation rgd := (rg driver_value me).
Lemma rg_dthen {A B} (p : mprog (dres A)) (f : A -> mprog (dres B)) (Q : dres A -> Prop) (R : dres B -> N -> Prop) s :
  rgd p (fun r _ => Q r) s -> (forall a s', Q (DOk a) -> rgd (f a) R s') -> (forall s', R DUndefined s') -> (forall s', R DNoRand s') -> rgd (dthen p f) R s.
Proof. intros Hp Hf H1 H2. unfold dthen. apply rg_bind. eapply rg_mono; [exact Hp|]. intros [a| |] s' Hq; cbn [rg]; auto. Qed.

Lemma rg_fill is rs s : Forall (fun r => r < 2 ^ 31) rs ->
  rgd (fill C n me cxx20 is rs) (fun r _ => match r with DOk (ws, rs') => map o_off ws = is /\ Forall (fun x => driver_value (o_old x) /\ driver_value (o_new x)) ws /\ Forall (fun r => r < 2 ^ 31) rs' | _ => True end) s.
Proof.
  revert rs s. induction is as [|i is IH]; intros rs s Hrs; cbn [fill]; [cbn; auto|].
  apply rg_bind, rg_address. apply rg_bind, (rg_PMwCASRead C HC driver_value driver_mval). intros old Hold.
  destruct rs as [|r rs]; [exact I|]. apply List.Forall_cons_iff in Hrs as [Hr Hrs]. destruct (shift3 cxx20 r) as [new|] eqn:Es; [|exact I].
  eapply rg_dthen; [apply IH, Hrs| |intros; exact I|intros; exact I]. intros [ws rs'] s' (E1 & E2 & E3). cbn [fst snd rg]. cbn [map]. split; [f_equal; exact E1|]. split; [|exact E3].
  constructor; [|exact E2]. split; [exact Hold|]. right. exists r. split; [exact Hr|exact (shift3_20 _ _ _ Es)].
Qed.
Definition calls_ok (r : dres (list (list mword * bool))) : Prop := match r with DOk l => Forall (fun c => driver_call C (fst c)) l | _ => True end.
Lemma rg_performOps k rs s : Forall (fun r => r < 2 ^ 31) rs ->
  rgd (performOps C n me cxx20 order k rs) (fun r _ => calls_ok r /\ forall l, r = DOk l -> length l = k) s.
Proof.
  revert rs s. induction k as [|k IH]; intros rs s Hrs; cbn [performOps]; [cbn; split; [constructor|intros l [= <-]; reflexivity]|].
  destruct rs as [|r rs1]; [split; [exact I|discriminate]|]. destruct (draw _ _ _ _) as [[set rs2]|] eqn:Ed; [|split; [exact I|discriminate]].
  destruct (drawn _ _ _ _ _ Ed eq_refl) as (D1 & D2 & D3 & D4). apply List.Forall_cons_iff in Hrs as [Hr Hrs].
  assert (Hrs2 : Forall (fun r => r < 2 ^ 31) rs2). { apply List.Forall_forall. intros x Hx. rewrite List.Forall_forall in Hrs. apply Hrs, D4, Hx. }
  eapply rg_dthen; [apply rg_fill, Hrs2| |intros; split; [exact I|discriminate]|intros; split; [exact I|discriminate]]. intros [ws rs3] s' (E1 & E2 & E3). cbn [fst snd]. apply rg_bind.
  unfold PMwCAS. apply rg_bind, rg_assert. intros _. apply rg_bind, (rg_createK C driver_value driver_mval); [exact E2|]. intros d s2 Hd.
  apply (rg_pmwcas C HC driver_value driver_mval); [exact Hd|]. intros b. eapply rg_dthen; [apply IH, E3| |intros; split; [exact I|discriminate]|intros; split; [exact I|discriminate]].
  intros l s3 [Hl Hlen]. cbn [rg]. split; [|intros l' [= <-]; cbn; f_equal; apply Hlen; reflexivity]. constructor; [|exact Hl]. cbn [fst]. split; [|exact E2].
  eapply filled_legal; [exact D1|exact D2|exact D3|exact E1|]. eapply List.Forall_impl; [|exact E2]. intros x [_ Hx]. apply driver_mval, Hx.
Qed.
End Conc.

Definition dsys_ok (k : nat) (y : dsys) : Prop :=
  typed driver_value (fst y) /\
  forall i p, snd y !! i = Some p -> rg driver_value (N.of_nat i) p (fun r _ => calls_ok r /\ forall l, r = DOk l -> length l = k) (kseq (fst y) (N.of_nat i)).
Lemma dstep_ok k i y : dsys_ok k y -> dsys_ok k (dstep i y).
Proof.
  intros [Ht Hp]. unfold dstep. destruct (snd y !! i) as [p|] eqn:Ep; [|split; assumption]. destruct p as [r|e|c f]; [split; assumption|split; assumption|].
  pose proof (Hp i _ Ep) as Hi. cbn [rg] in Hi. specialize (Hi (fst y) (conj eq_refl Ht)). destruct (mexec c (fst y)) as [r m']. destruct Hi as (Hg & s' & [Hs' Ht'] & Hr).
  split; [exact Ht'|]. cbn [fst snd]. intros i' p' H. apply list_lookup_insert_Some in H as [(-> & <- & _)|[Hne H]].
  - rewrite (Hs' : kseq m' (N.of_nat i') = s'). exact Hr.
  - specialize (Hp i' p' H). destruct (Hg (N.of_nat i')) as [[E _]|[E _]]; [rewrite E; exact Hp|lia].
Qed.
Lemma driver_ok k rss sched : Forall (Forall (fun r => r < 2 ^ 31)) rss -> dsys_ok k (dconc sched (driver C n k cxx20 order rss)).
Proof.
  intros Hr. assert (Hs : dsys_ok k (driver C n k cxx20 order rss)).
  { split.
    - intros l. destruct l as [| | |t i []| |t []| |]; cbn; try exact I; try (left; reflexivity). left. left. reflexivity.
    - intros i p Hi. cbn [driver snd fst] in *. rewrite list_lookup_imap in Hi. destruct (rss !! i) as [rs|] eqn:E; [|discriminate]. injection Hi as <-.
      apply rg_performOps. rewrite List.Forall_forall in Hr. apply Hr, elem_of_list_In. eapply elem_of_list_lookup_2, E. }
  revert Hs. generalize (driver C n k cxx20 order rss). induction sched as [|i l IH]; intros y Hs; [exact Hs|]. cbn. apply IH, dstep_ok, Hs.
Qed.
Lemma driver_calls k rss sched i l : Forall (Forall (fun r => r < 2 ^ 31)) rss ->
  snd (dconc sched (driver C n k cxx20 order rss)) !! i = Some (MRet (DOk l)) -> length l = k /\ Forall (fun c => driver_call C (fst c)) l.
Proof. intros Hr H. destruct (driver_ok k rss sched Hr) as [_ Hp]. destruct (Hp i _ H) as [H1 H2]. split; [apply H2; reflexivity|exact H1]. Qed.
Lemma driver_array k rss sched j : Forall (Forall (fun r => r < 2 ^ 31)) rss ->
  let v := contents (fst (dconc sched (driver C n k cxx20 order rss))) j in driver_value v \/ is_ref v = true.
Proof.
  intros Hr v. destruct (driver_ok k rss sched Hr) as [Ht _]. specialize (Ht (LArr j)). cbn in Ht. fold v in Ht. unfold is_ref. rewrite isMarked_kcas, isMarked_rdcss.
  destruct Ht as [H|[H|H]]; [left; exact H| |]; right; unfold v, contents; rewrite H; [reflexivity|apply orb_true_r].
Qed.

(** ** One thread *)

Section Alone.
Context (me : N) (Hme : me < 2 ^ m_log C) (Hn : (mfuel C <= n)%nat).
Local Notation O := (fun j => j < m_size C).
Local Notation wpd := (mwp (own me O)).
Lemma wp_dthen {A B} (p : mprog (dres A)) (f : A -> mprog (dres B)) (R : dres B -> mem -> Prop) m :
  wpd p (fun r m' => match r with DOk a => wpd (f a) R m' | DUndefined => R DUndefined m' | DNoRand => R DNoRand m' end) m -> wpd (dthen p f) R m.
Proof. intros H. unfold dthen. apply mwp_bind. eapply mwp_mono; [exact H|]. intros [a| |] m' Hm; exact Hm. Qed.

Lemma wp_fill is rs a b (Q : dres (list mword * list N) -> mem -> Prop) m : Forall O is -> inv me O a b m ->
  (forall m' r, inv me O a b m' -> match r with
     | DOk (ws, rs') => map o_off ws = is /\ (forall x, In x ws -> o_old x = a (o_off x)) /\ Forall (fun x => mval (o_new x)) ws /\ (forall x, In x rs' -> In x rs)
     | DUndefined => cxx20 = false /\ exists r, In r rs /\ 2 ^ 29 <= r
     | DNoRand => True end -> Q r m') ->
  wpd (fill C n me cxx20 is rs) Q m.
Proof.
  revert rs m Q. induction is as [|i is IH]; intros rs m Q His Hinv HQ; cbn [fill].
  { cbn. apply HQ; [exact Hinv|]. cbn. repeat split; auto; contradiction. }
  apply List.Forall_cons_iff in His as [Hi His]. apply mwp_bind, wp_address; [intros j Hj; exact Hj|exact Hi|]. apply mwp_bind.
  destruct Hinv as [Ha Hsq]. destruct (Ha i Hi) as [Ei Vi].
  apply (wp_PMwCASRead C me Hme O); [unfold mfuel in Hn; lia|exact Hi|rewrite Ei; exact Vi|]. intros m' Hm' E'. rewrite Ei.
  assert (Hinv' : inv me O a b m').
  { split; [|unfold seqs_le in *; rewrite !Hm' by discriminate; exact Hsq]. intros j Hj. destruct (decide (j = i)) as [->|Hne]; [rewrite E'; apply Ha, Hj|]. unfold contents. rewrite Hm' by congruence. apply Ha, Hj. }
  destruct rs as [|r rs]; [apply HQ; [exact Hinv'|exact I]|]. destruct (shift3 cxx20 r) as [new|] eqn:Es.
  - apply wp_dthen. apply IH; [exact His|exact Hinv'|]. intros m2 [[ws rs']| |] Hinv2; cbn [mwp fst snd].
    + intros (E1 & E2 & E3 & E4). apply HQ; [exact Hinv2|]. cbn [map o_off]. split; [f_equal; exact E1|]. split; [|split; [constructor; [exact (shift3_mval _ _ _ Es)|exact E3]|intros x Hx; right; apply E4, Hx]].
      intros x [<-|Hx]; [reflexivity|apply E2, Hx].
    + intros (E1 & r' & E2 & E3). apply HQ; [exact Hinv2|]. split; [exact E1|]. exists r'. split; [right; exact E2|exact E3].
    + intros _. apply HQ; [exact Hinv2|exact I].
  - apply HQ; [exact Hinv'|]. destruct (shift3_none _ _ Es) as [-> Hr]. split; [reflexivity|]. exists r. split; [left; reflexivity|exact Hr].
Qed.

Definition result_ok (k : nat) (rs : list N) (a : N -> N) (r : dres (list (list mword * bool))) (m : mem) : Prop :=
  match r with
  | DOk calls => length calls = k /\ Forall (fun c => legal_mop C (MwCas (fst c)) /\ snd c = true) calls /\
      forall j, j < m_size C -> contents m j = fold_left put_all (map fst calls) a j
  | DUndefined => cxx20 = false /\ exists r, In r rs /\ 2 ^ 29 <= r
  | DNoRand => True
  end.
Lemma wp_performOps k rs a b m : inv me O a b m -> b + 2 * N.of_nat (k * m_K C) < 2 ^ seqSize (2 ^ m_log C) ->
  wpd (performOps C n me cxx20 order k rs) (result_ok k rs a) m.
Proof.
  revert rs a b m. induction k as [|k IH]; intros rs a b m Hinv Hb; cbn [performOps].
  { cbn. split; [reflexivity|]. split; [constructor|]. intros j Hj. apply Hinv, Hj. }
  destruct rs as [|r rs1]; [exact I|]. destruct (draw _ _ _ _) as [[set rs2]|] eqn:Ed; [|exact I].
  destruct (drawn _ _ _ _ _ Ed eq_refl) as (D1 & D2 & D3 & D4). apply wp_dthen. eapply wp_fill; [exact D2|exact Hinv|]. intros m1 [[ws rs3]| |] Hinv1.
  - intros (E1 & E2 & E3 & E4). cbn [fst snd]. pose proof (filled_legal _ _ D1 D2 D3 E1 E3) as Hlegal. destruct Hlegal as (L1 & L2 & L3 & L4 & L5).
    assert (Hfit : b + 2 * N.of_nat (length ws) < 2 ^ seqSize (2 ^ m_log C)) by (cbn [Nat.mul] in Hb; lia).
    apply mwp_bind. eapply (wp_PMwCAS C HC me Hme O (fun j H => H)); [exact Hn|exact L2|exact L3|exact L4|exact L5|exact L1|exact Hinv1|exact Hfit|]. intros m2 Hinv2.
    assert (Em : all_match a ws = true) by (apply all_match_iff; intros x Hx; symmetry; apply E2, Hx). rewrite Em in *.
    apply wp_dthen. eapply mwp_mono; [apply (IH rs3 _ _ _ Hinv2); cbn [Nat.mul] in Hb; lia|]. intros [l| |] m3; cbn [result_ok mwp].
    + intros (F1 & F2 & F3). split; [cbn; f_equal; exact F1|]. split; [constructor; [split; [split; [exact L1|auto]|reflexivity]|exact F2]|]. exact F3.
    + intros (F1 & r' & F2 & F3). split; [exact F1|]. exists r'. split; [right; apply D4, E4, F2|exact F3].
    + trivial.
  - intros (F1 & r' & F2 & F3). cbn. split; [exact F1|]. exists r'. split; [right; apply D4, F2|exact F3].
  - intros _. exact I.
Qed.
Lemma alone k rs m b : (forall j, j < m_size C -> mval (contents m j)) -> seqs_le m me b -> b + 2 * N.of_nat (k * m_K C) < 2 ^ seqSize (2 ^ m_log C) ->
  exists r m', mrun (performOps C n me cxx20 order k rs) m = MOk r m' /\ result_ok k rs (contents m) r m'.
Proof.
  intros Hv Hb Hfit. eapply mwp_run. eapply (wp_performOps k rs (contents m) b); [|exact Hfit]. split; [|exact Hb]. intros j Hj. split; [reflexivity|apply Hv, Hj].
Qed.
End Alone.
End Thm.
