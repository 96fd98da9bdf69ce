(** The test program of the multi-word compare-and-swap does not fail, whatever its threads do. *)
From Coq Require Import NArith Bool List Permutation Lia Arith.
From stdpp Require Import base list.
From Verif Require Import Word Bits Codec CodecSpec CodecThm MwCas MwSpec MwWp MwSeq MwRely MwHelpSpec MwSafeSpec MwInv KDriver KDriverThm.
Import ListNotations.
Local Open Scope N_scope.

Section Safe.
Context (C : mcfg) (HC : mcfg_ok C) (HK : (0 < m_K C)%nat) (Hsz : m_size C <> 0) (n : nat) (cxx20 : bool).
Context (order : list N -> list N) (Horder : forall s, Permutation (order s) s).
Local Notation P := (2 ^ m_log C)%N.
Local Notation rqd := (rq C driver_value).
Local Notation know := (know2 C driver_value).

Section Thread.
Context (me : N).
Lemma rq_dthen {A B} (p : mprog (dres A)) (f : A -> mprog (dres B)) (Q : dres A -> Prop) (R : dres B -> gst -> Prop) g :
  rqd me p (fun r g' => Q r /\ out g') g -> (forall a g', Q (DOk a) -> out g' -> rqd me (f a) R g') -> (forall g', out g' -> R DUndefined g') -> (forall g', out g' -> R DNoRand g') -> rqd me (dthen p f) R g.
Proof. intros Hp Hf H1 H2. unfold dthen. apply rq_bind. eapply rq_mono; [exact Hp|]. intros [a| |] s' [Hq Ho]; cbn [rq]; auto. Qed.
Lemma rq_fill is rs g : out g -> Forall (fun i => i < m_size C) is -> Forall (fun r => r < 2 ^ 31) rs ->
  rqd me (fill C n me cxx20 is rs) (fun r g' => match r with DOk (ws, rs') => map o_off ws = is /\ Forall (word_fits C driver_value) ws /\ Forall (fun r => r < 2 ^ 31) rs' | _ => True end /\ out g') g.
Proof.
  revert rs g. induction is as [|i is IH]; intros rs g Hg His Hrs; cbn [fill]; [cbn; auto|]. apply List.Forall_cons_iff in His as [Hi His].
  apply rq_bind, rq_address; [exact Hi|]. apply rq_bind, (rq_PMwCASRead C HC driver_value driver_mval); [exact Hi|exact Hg|]. intros old g1 Hold Hg1.
  destruct rs as [|r rs]; [split; [exact I|exact Hg1]|]. apply List.Forall_cons_iff in Hrs as [Hr Hrs]. destruct (shift3 cxx20 r) as [new|] eqn:Es; [|split; [exact I|exact Hg1]].
  eapply rq_dthen; [apply IH; assumption| |intros; split; [exact I|assumption]|intros; split; [exact I|assumption]]. intros [ws rs'] g' (E1 & E2 & E3) Hg'. cbn [fst snd rq]. cbn [map]. split; [|exact Hg'].
  split; [f_equal; exact E1|]. split; [|exact E3]. constructor; [|exact E2]. split; [exact Hi|]. split; [exact Hold|]. right. exists r. split; [exact Hr|exact (shift3_20 _ _ _ Es)].
Qed.
Lemma rq_performOps k rs g : out g -> Forall (fun r => r < 2 ^ 31) rs -> rqd me (performOps C n me cxx20 order k rs) (fun _ => out) g.
Proof.
  intros Hg Hrs. eapply rq_mono with (Q := fun _ g' => True /\ out g'); [|tauto]. revert rs g Hg Hrs. induction k as [|k IH]; intros rs g Hg Hrs; cbn [performOps]; [split; [exact I|exact Hg]|].
  destruct rs as [|r rs1]; [split; [exact I|exact Hg]|]. destruct (draw _ _ _ _) as [[set rs2]|] eqn:Ed; [|split; [exact I|exact Hg]].
  destruct (drawn C HK Hsz order Horder _ _ _ _ _ Ed eq_refl) as (D1 & D2 & D3 & D4). apply List.Forall_cons_iff in Hrs as [Hr Hrs].
  assert (Hrs2 : Forall (fun r => r < 2 ^ 31) rs2). { apply List.Forall_forall. intros x Hx. rewrite List.Forall_forall in Hrs. apply Hrs, D4, Hx. }
  eapply rq_dthen; [apply rq_fill; [exact Hg|exact D2|exact Hrs2]| |intros; split; [exact I|assumption]|intros; split; [exact I|assumption]]. intros [ws rs3] g' (E1 & E2 & E3) Hg'. cbn [fst snd]. apply rq_bind.
  rewrite <- E1, map_length in D3. rewrite <- E1 in D1. assert (Hne : ws <> []) by (destruct ws; [cbn in D3; lia|discriminate]).
  unfold PMwCAS. apply rq_bind, rq_assert; [intros _; apply Nat.ltb_lt, D3|]. apply rq_bind, (rq_createK C HC driver_value); [exact Hg'|exact E2|exact Hne|apply D3|exact D1|]. intros d Hd Hgd Hk.
  apply (rq_pmwcas C HC driver_value driver_mval); [exact Hg'|exact Hd|exact Hgd|exact Hk|]. intros b g2 Hg2.
  eapply rq_dthen; [apply IH; [exact Hg2|exact E3]| |intros; split; [exact I|assumption]|intros; split; [exact I|assumption]]. intros l g3 _ Hg3. split; [exact I|exact Hg3].
Qed.
End Thread.

Definition dsafe (y : dsys) : Prop := cells C driver_value (fst y) /\
  forall t, exists g, know t g (fst y) /\ match snd y !! N.to_nat t with Some p => rqd t p (fun _ => out) g | None => True end.
Lemma dsafe_step i y : dsafe y -> dsafe (dstep i y).
Proof.
  intros [Hc Hk]. unfold dstep. destruct (snd y !! i) as [p|] eqn:Ep; [|split; assumption]. destruct p as [r|e|c f]; [split; assumption|split; assumption|].
  destruct (Hk (N.of_nat i)) as (g & Kg & Rg). rewrite Nat2N.id, Ep in Rg. cbn [rq] in Rg. destruct Rg as [_ Rg]. specialize (Rg _ Kg). destruct (mexec c (fst y)) as [r m'] eqn:Em.
  destruct Rg as (G & g' & K' & R'). assert (Hlt : (i < length (snd y))%nat) by (eapply lookup_lt_Some, Ep). assert (Hc' : cells C driver_value m') by apply (proj1 K').
  split; [exact Hc'|]. cbn [fst snd]. intros t. destruct (decide (N.to_nat t = i)) as [E|E].
  - exists g'. assert (Et : t = N.of_nat i) by lia. rewrite Et, Nat2N.id, list_lookup_insert by exact Hlt. split; [exact K'|exact R'].
  - destruct (Hk t) as (g0 & K0 & R0). exists g0. rewrite list_lookup_insert_ne by congruence. split; [|exact R0]. eapply know_stable; [|exact G|exact Hc'|exact K0]. lia.
Qed.
Lemma driver_safe k rss sched : Forall (Forall (fun r => r < 2 ^ 31)) rss -> dsafe (dconc sched (driver C n k cxx20 order rss)).
Proof.
  intros Hr. assert (Hs : dsafe (driver C n k cxx20 order rss)).
  { destruct (start2 C driver_value (or_introl eq_refl) driver_mval []) as (Hc & _ & Hk); [apply N.neq_0_lt_0, Hsz|constructor|]. split; [exact Hc|]. intros t. destruct (Hk t) as (g & K & R). exists g. split; [exact K|].
    unfold running in R. cbn [driver snd]. rewrite list_lookup_imap. destruct (rss !! N.to_nat t) as [rs|] eqn:E; [|exact I]. cbn. rewrite N2Nat.id. apply rq_performOps; [exact R|].
    rewrite List.Forall_forall in Hr. apply Hr, elem_of_list_In. eapply elem_of_list_lookup_2, E. }
  revert Hs. generalize (driver C n k cxx20 order rss). induction sched as [|i l IH]; intros y Hs; [exact Hs|]. cbn. apply IH, dsafe_step, Hs.
Qed.
Lemma dconc_length sched y : length (snd (dconc sched y)) = length (snd y).
Proof.
  revert y. induction sched as [|i l IH]; intros y; [reflexivity|]. cbn [dconc]. rewrite IH. unfold dstep. destruct (snd y !! i) as [[| |c f]|]; try reflexivity.
  destruct (mexec c (fst y)). cbn. apply insert_length.
Qed.
Lemma driver_error k rss sched i e : Forall (Forall (fun r => r < 2 ^ 31)) rss -> N.of_nat (length rss) <= P ->
  snd (dconc sched (driver C n k cxx20 order rss)) !! i = Some (MErr e) -> e = MOutOfFuel.
Proof.
  intros Hr Hlen Hi. destruct (driver_safe k rss sched Hr) as [_ Hk]. destruct (Hk (N.of_nat i)) as (g & _ & R). rewrite Nat2N.id, Hi in R. apply R.
  apply lookup_lt_Some in Hi. rewrite dconc_length in Hi. cbn [driver snd] in Hi. rewrite imap_length in Hi. lia.
Qed.
Lemma driver_range k rss sched i c f : Forall (Forall (fun r => r < 2 ^ 31)) rss ->
  snd (dconc sched (driver C n k cxx20 order rss)) !! i = Some (MVis c f) -> in_range C (accesses c).
Proof. intros Hr Hi. destruct (driver_safe k rss sched Hr) as [_ Hk]. destruct (Hk (N.of_nat i)) as (g & _ & R). rewrite Nat2N.id, Hi in R. apply R. Qed.
End Safe.
