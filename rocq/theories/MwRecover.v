(** Recovery of a memory in which no call is under way. *)
From Coq Require Import NArith Bool List Lia.
From stdpp Require Import base list.
From Verif Require Import Word Bits Codec CodecSpec CodecThm MwCas MwSpec MwWp MwSeq MwRely.
Import ListNotations.
Local Open Scope N_scope.

Section Recover.
Context (C : mcfg).
Local Notation P := (2 ^ m_log C)%N.
Definition any : loc -> Prop := fun _ => True.
Local Notation wp := (mwp any).

Lemma wpa_address j (Q : loc -> mem -> Prop) (m : mem) : j < m_size C -> Q (LArr j) m -> wp (address C j) Q m.
Proof. intros H HQ. unfold address. rewrite (proj2 (N.ltb_lt _ _) H). exact HQ. Qed.

(** What recovery preserves: it only cleans words and clears the number of words of descriptors. *)
Definition keeps (m m' : mem) : Prop :=
  (forall j, contents m' j = contents m j) /\
  (forall t, m' (LWWord t WOff) = m (LWWord t WOff)) /\ (forall t i, m' (LKWord t i WOff) = m (LKWord t i WOff)) /\
  (forall t, m' (LKCount t) <= m (LKCount t)) /\
  (forall t, (kseq m' t = kseq m t /\ kstat m' t = kstat m t) \/ (kseq m' t = 0 /\ kstat m' t = Succeeded)).
Lemma keeps_refl m : keeps m m.
Proof. repeat split; try reflexivity. intros t. left. split; reflexivity. Qed.
Lemma keeps_trans m1 m2 m3 : keeps m1 m2 -> keeps m2 m3 -> keeps m1 m3.
Proof.
  intros (A1 & B1 & C1 & D1 & E1) (A2 & B2 & C2 & D2 & E2). split; [|split; [|split; [|split]]].
  - intros j. rewrite A2. apply A1.
  - intros t. rewrite B2. apply B1.
  - intros t i. rewrite C2. apply C1.
  - intros t. specialize (D1 t). specialize (D2 t). lia.
  - intros t. destruct (E2 t) as [[-> ->]|H]; [apply E1|right; exact H].
Qed.
Lemma keeps_quiescent m m' : keeps m m' -> quiescent C m -> quiescent C m'.
Proof.
  intros (A & B & D & E & F) [H1 H2 H3 H4 H5]. split.
  - intros j Hj. rewrite A. apply H1, Hj.
  - intros t Ht. rewrite B. apply H2, Ht.
  - intros t Ht. rewrite D. apply H3, Ht.
  - intros t Ht. destruct (F t) as [[-> ->]|[-> ->]]; [apply H4, Ht|discriminate].
  - destruct H5 as (t & Ht & H5). exists t. split; [exact Ht|]. specialize (E t). lia.
Qed.
Lemma keeps_clean l m m' : only (eq l) m m' -> m' l = clean (m l) ->
  match l with LArr _ | LK _ => True | _ => False end -> keeps m m'.
Proof.
  intros Ho E Hl. split; [|split; [|split; [|split]]].
  - intros j. unfold contents. destruct (decide (LArr j = l)) as [<-|Hn]; [rewrite E; apply clean_clean|rewrite Ho by congruence; reflexivity].
  - intros t. apply Ho. intros ->. contradiction.
  - intros t i. apply Ho. intros ->. contradiction.
  - intros t. rewrite Ho; [lia|]. intros ->. contradiction.
  - intros t. left. unfold kseq, kstat. destruct (decide (LK t = l)) as [<-|Hn]; [|rewrite Ho by congruence; split; reflexivity].
    rewrite E. split; [apply sq_clean|apply stt_clean].
Qed.
Lemma wp_read_keeps l (Q : N -> mem -> Prop) (m : mem) : match l with LArr _ | LK _ => True | _ => False end ->
  (forall m', keeps m m' -> Q (clean (m l)) m') -> wp (m_read l) Q m.
Proof. intros Hl H. apply mwp_read; [exact I|]. intros m' Ho E. apply H. eapply keeps_clean; eassumption. Qed.

Lemma wp_recover_words cnt t (Q : unit -> mem -> Prop) (m : mem) : t + N.of_nat cnt <= P -> quiescent C m ->
  (forall m', keeps m m' -> Q tt m') -> wp (recover_words C cnt t) Q m.
Proof.
  revert t Q m. induction cnt as [|cnt IH]; intros t Q m Hc Hq H; [apply H, keeps_refl|]. cbn [recover_words].
  assert (Ht : t < P) by lia. apply mwp_bind, mwp_load; [exact I|]. apply mwp_bind, wpa_address; [apply Hq, Ht|].
  apply mwp_bind, wp_read_keeps; [exact I|]. intros m1 K1. pose proof (keeps_quiescent _ _ K1 Hq) as Hq1.
  assert (Hv : mval (contents m (m (LWWord t WOff)))) by apply Hq, Hq, Ht. fold (contents m (m (LWWord t WOff))).
  rewrite decode_rdcss, decode_kcas. destruct Hv as (_ & _ & V1 & V2). rewrite V1, V2. cbn [andb negb]. apply mwp_bind. cbn [mwp].
  apply mwp_bind, mwp_load; [exact I|]. apply mwp_bind, wpa_address; [apply Hq1, Ht|].
  apply mwp_bind, wp_read_keeps; [exact I|]. intros m2 K2. fold (contents m1 (m1 (LWWord t WOff))).
  assert (Hv : mval (contents m1 (m1 (LWWord t WOff)))) by apply Hq1, Hq1, Ht. rewrite decode_rdcss. destruct Hv as (_ & _ & _ & ->).
  apply mwp_bind, mwp_assert; [reflexivity|]. apply IH; [lia|eapply keeps_quiescent; eassumption|].
  intros m3 K3. apply H. eapply keeps_trans; [exact K1|]. eapply keeps_trans; eassumption.
Qed.
Lemma wp_recover_check n i (Q : unit -> mem -> Prop) (m : mem) : quiescent C m -> (N.to_nat P <= n + i)%nat ->
  (exists t, t < P /\ N.of_nat i <= t /\ m (LKCount t) <= t) ->
  (forall m', keeps m m' -> Q tt m') -> wp (recover_check C n i) Q m.
Proof.
  revert i Q m. induction n as [|n IH]; intros i Q m Hq Hn (t & Ht & Hit & Hct) H; [lia|]. cbn [recover_check].
  assert (Hi : N.of_nat i < P) by lia.
  apply mwp_bind. unfold thread_ok. rewrite (proj2 (N.ltb_lt _ _) Hi). cbn [mwp]. apply mwp_bind. unfold more. apply mwp_bind, mwp_load; [exact I|]. cbn [mwp].
  destruct (N.of_nat i <? m (LKCount (N.of_nat i))) eqn:Em; [|apply H, keeps_refl]. apply N.ltb_lt in Em.
  assert (Hne : N.of_nat i <> t) by (intros <-; lia).
  assert (Hoff : m (LKWord (N.of_nat i) i WOff) < m_size C). { pose proof (qu_koffs C m Hq _ Hi) as Hk. rewrite Nnat.Nat2N.id in Hk. exact Hk. }
  apply mwp_bind. unfold word_address at 1. apply mwp_bind, mwp_load; [exact I|]. apply wpa_address; [exact Hoff|].
  apply mwp_bind, wp_read_keeps; [exact I|]. intros m1 K1. fold (contents m (m (LKWord (N.of_nat i) i WOff))).
  rewrite decode_rdcss, decode_kcas. destruct (qu_values C m Hq _ Hoff) as (_ & _ & V1 & V2). rewrite V1, V2. cbn [andb negb orb].
  apply mwp_bind, mwp_assert; [reflexivity|]. apply mwp_bind. cbn [mwp]. rewrite decode_rdcss, decode_kcas, V1, V2.
  apply mwp_bind, mwp_assert; [reflexivity|]. apply IH; [eapply keeps_quiescent; eassumption|lia| |].
  - exists t. split; [exact Ht|]. split; [lia|]. destruct K1 as (_ & _ & _ & K & _). specialize (K t). lia.
  - intros m2 K2. apply H. eapply keeps_trans; eassumption.
Qed.
Lemma wp_recover_descs n me cnt t (Q : unit -> mem -> Prop) (m : mem) : (N.to_nat P <= n)%nat -> t + N.of_nat cnt <= P -> quiescent C m ->
  (forall m', keeps m m' -> Q tt m') -> wp (recover_descs C n cnt me t) Q m.
Proof.
  intros Hn. revert t Q m. induction cnt as [|cnt IH]; intros t Q m Hc Hq H; [apply H, keeps_refl|]. cbn [recover_descs]. assert (Ht : t < P) by lia.
  apply mwp_bind, wp_read_keeps; [exact I|]. intros m1 K1. pose proof (keeps_quiescent _ _ K1 Hq) as Hq1.
  change (km_seq (kmut_decode (clean (m (LK t))))) with (sq (clean (m (LK t)))). rewrite sq_clean. destruct (sq (m (LK t)) mod 2 =? 0) eqn:Eodd; cbn [negb].
  - apply mwp_bind, wp_read_keeps; [exact I|]. intros m2 K2. change (km_status (kmut_decode (clean (m1 (LK t))))) with (stt (clean (m1 (LK t)))). rewrite stt_clean.
    assert (Hd : kstat m1 t <> Undecided).
    { destruct K1 as (_ & _ & _ & _ & K). destruct (K t) as [[_ ->]|[_ ->]]; [|discriminate]. apply Hq; [exact Ht|]. apply N.eqb_eq, Eodd. }
    change (stt (m1 (LK t))) with (kstat m1 t). rewrite (proj2 (N.eqb_neq _ _) Hd). apply mwp_bind. cbn [mwp].
    pose proof (keeps_quiescent _ _ K2 Hq1) as Hq2. apply mwp_bind, wp_recover_check; [exact Hq2|lia| |].
    + destruct (qu_ends C m2 Hq2) as (t' & Ht' & Hc'). exists t'. split; [exact Ht'|]. split; [lia|exact Hc'].
    + intros m3 K3. apply IH; [lia|eapply keeps_quiescent; eassumption|]. intros m4 K4. apply H. eapply keeps_trans; [exact K1|]. eapply keeps_trans; [exact K2|]. eapply keeps_trans; eassumption.
  - apply mwp_bind, mwp_store; [exact I|]. apply mwp_bind, mwp_store; [exact I|].
    set (m2 := upd (upd m1 (LK t) (kmut_encode (mkKmut true Succeeded 0))) (LKCount t) 0).
    assert (K2 : keeps m1 m2).
    { unfold m2. split; [|split; [|split; [|split]]].
      - intros j. unfold contents. rewrite !upd_other by discriminate. reflexivity.
      - intros t'. rewrite !upd_other by discriminate. reflexivity.
      - intros t' i. rewrite !upd_other by discriminate. reflexivity.
      - intros t'. destruct (decide (t' = t)) as [->|Hn']; [rewrite upd_same; lia|rewrite !upd_other by congruence; lia].
      - intros t'. unfold kseq, kstat. rewrite (upd_other _ (LKCount t)) by discriminate. destruct (decide (t' = t)) as [->|Hn'].
        + right. rewrite upd_same. split; reflexivity.
        + left. rewrite upd_other by congruence. split; reflexivity. }
    apply IH; [lia|eapply keeps_quiescent; eassumption|]. intros m3 K3. apply H. eapply keeps_trans; [exact K1|]. eapply keeps_trans; eassumption.
Qed.
Lemma recover_quiescent n me m : (N.to_nat P <= n)%nat -> quiescent C m ->
  exists m', mrun (mw_recover C n me) m = MOk tt m' /\ (forall j, contents m' j = contents m j) /\ quiescent C m'.
Proof.
  intros Hn Hq. assert (W : wp (mw_recover C n me) (fun _ m' => keeps m m') m).
  { unfold mw_recover. apply mwp_bind, wp_recover_words; [rewrite N2Nat.id; lia|exact Hq|]. intros m1 K1.
    apply wp_recover_descs; [exact Hn|rewrite N2Nat.id; lia|eapply keeps_quiescent; eassumption|]. intros m2 K2. eapply keeps_trans; eassumption. }
  apply mwp_run in W. destruct W as ([] & m' & E & K). exists m'. split; [exact E|]. split; [apply K|]. eapply keeps_quiescent; eassumption.
Qed.
End Recover.
