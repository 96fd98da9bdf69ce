(** Calls that overlap in time and access different words are atomic. *)
From Coq Require Import NArith Bool List Lia.
From stdpp Require Import base list.
From Verif Require Import Word Bits Codec CodecSpec CodecThm MwCas MwSpec MwWp MwSeq MwThm MwRely MwCalmSpec.
Import ListNotations.
Local Open Scope N_scope.

(** An operation depends on its words only. *)
Lemma all_match_local a a' ws : (forall j, In j (map o_off ws) -> a j = a' j) -> all_match a ws = all_match a' ws.
Proof.
  intros H. unfold all_match. induction ws as [|x ws IH]; [reflexivity|]. cbn [forallb]. rewrite (H (o_off x)) by (left; reflexivity). f_equal. apply IH. intros j Hj. apply H. right. exact Hj.
Qed.
Lemma put_all_local a a' ws j : a j = a' j -> put_all a ws j = put_all a' ws j.
Proof. intros H. induction ws as [|x ws IH]; [exact H|]. cbn. destruct (j =? o_off x); [reflexivity|exact IH]. Qed.
Lemma mspec_local a a' o : (forall j, touches o j -> a j = a' j) ->
  fst (mspec a o) = fst (mspec a' o) /\ forall j, touches o j -> snd (mspec a o) j = snd (mspec a' o) j.
Proof.
  intros H. destruct o as [ws|i|i old new]; cbn [mspec touches] in *.
  - rewrite (all_match_local a a' ws H). destruct (all_match a' ws); cbn [fst snd]; (split; [reflexivity|]); intros j Hj; [apply put_all_local, H, Hj|apply H, Hj].
  - cbn [fst snd]. split; [f_equal; apply H; reflexivity|exact H].
  - rewrite (H i eq_refl). destruct (a' i =? old); cbn [fst snd]; (split; [reflexivity|]); intros j Hj; [destruct (j =? i); [reflexivity|apply H, Hj]|apply H, Hj].
Qed.
Lemma mspec_out a o j : ~ touches o j -> snd (mspec a o) j = a j.
Proof.
  intros H. destruct o as [ws|i|i old new]; cbn [mspec touches] in *; [|reflexivity|].
  - destruct (all_match a ws); [|reflexivity]. cbn. apply put_all_out, H.
  - destruct (a i =? old); [|reflexivity]. cbn. rewrite (proj2 (N.eqb_neq j i) H). reflexivity.
Qed.

Section Calm.
Context (C : mcfg) (HC : mcfg_ok C) (n : nat) (Hn : (mfuel C <= n)%nat) (m0 : mem) (todos : list (list mop)) (b0 : N).
Context (Hlen : N.of_nat (length todos) <= 2 ^ m_log C).
Context (Hlegal : Forall (Forall (legal_mop C)) todos).
Context (Hv : forall j, j < m_size C -> mval (contents m0 j)).
Context (Hb0 : forall t, t < 2 ^ m_log C -> seqs_le m0 t b0).
Context (Hcost : Forall (fun os => b0 + mcosts os < 2 ^ seqSize (2 ^ m_log C)) todos).
Local Notation a0 := (contents m0).

Definition fp (i : nat) (o : mop) : loc -> Prop := own (N.of_nat i) (touches o).
Definition tinv (y : msys) (i : nat) (os : list mop) : Prop :=
  exists th k, ms_thr y !! i = Some th /\
    match mt_cur th with
    | None => mt_todo th = drop k os /\ running i (ms_hist y) = None /\ seqs_le (ms_mem y) (N.of_nat i) (b0 + mcosts (take k os))
    | Some (o, p) => os !! k = Some o /\ mt_todo th = drop (S k) os /\ running i (ms_hist y) = Some o /\
        exists a, (forall j, touches o j -> replay a0 (ms_hist y) j = a j) /\
          mwp (fp i o) p (fun r m => r = fst (mspec a o) /\ inv (N.of_nat i) (touches o) (snd (mspec a o)) (b0 + mcosts (take (S k) os)) m) (ms_mem y)
    end.
Record sinv (y : msys) : Prop := {
  si_len : length (ms_thr y) = length todos;
  si_thr : forall i os, todos !! i = Some os -> tinv y i os;
  si_run : forall i o, running i (ms_hist y) = Some o -> exists os, todos !! i = Some os /\ o ∈ os;
  si_disj : forall i k o o' j, i <> k -> running i (ms_hist y) = Some o -> running k (ms_hist y) = Some o' -> touches o j -> ~ touches o' j;
  si_mem : forall j, (forall i o, running i (ms_hist y) = Some o -> ~ touches o j) ->
    contents (ms_mem y) j = replay a0 (ms_hist y) j /\ (j < m_size C -> mval (replay a0 (ms_hist y) j));
  si_ok : answers a0 (ms_hist y);
}.

Lemma legal_in i os o : todos !! i = Some os -> o ∈ os -> legal_mop C o.
Proof. intros Hos Ho. eapply (proj1 (Forall_forall _ os)); [|exact Ho]. eapply Forall_lookup_1; [exact Hlegal|exact Hos]. Qed.

Lemma fp_disj i k o o' l : i <> k -> (forall j, touches o j -> ~ touches o' j) -> fp i o l -> ~ fp k o' l.
Proof.
  intros Hne Hd H1 H2. unfold fp, own, kset, wset, aset in *. destruct l as [j|t|t|t ? ?|t|t ?|t|t].
  all: try (assert (t = N.of_nat i /\ t = N.of_nat k) as [? ?] by (destruct H1 as [?|[?|?]], H2 as [?|[?|?]]; tauto); apply Hne; lia).
  destruct H1 as [[]|[[]|H1]], H2 as [[]|[[]|H2]]. exact (Hd j H1 H2).
Qed.
Lemma inv_agree_o i o a b m m' : agree (fp i o) m m' -> inv (N.of_nat i) (touches o) a b m -> inv (N.of_nat i) (touches o) a b m'.
Proof.
  intros Ha [H1 [H2 H3]]. split; [|split].
  - intros j Hj. unfold contents. rewrite <- Ha by (apply own_a; exact Hj). apply H1, Hj.
  - rewrite <- Ha by (apply own_k; reflexivity). exact H2.
  - rewrite <- Ha by (apply own_w; reflexivity). exact H3.
Qed.

(** A thread does not notice changes outside of its descriptors and words. *)
Lemma tinv_frame y y' i os : tinv y i os -> ms_thr y' !! i = ms_thr y !! i -> running i (ms_hist y') = running i (ms_hist y) ->
  (forall o j, running i (ms_hist y) = Some o -> touches o j -> replay a0 (ms_hist y') j = replay a0 (ms_hist y) j) ->
  (forall l, kset (N.of_nat i) l \/ wset (N.of_nat i) l -> ms_mem y' l = ms_mem y l) ->
  (forall o j, running i (ms_hist y) = Some o -> touches o j -> ms_mem y' (LArr j) = ms_mem y (LArr j)) -> tinv y' i os.
Proof.
  intros (th & k & H1 & H2) E1 E2 Er Ed Ea. exists th, k. rewrite E1, E2. split; [exact H1|]. destruct (mt_cur th) as [[o p]|].
  - destruct H2 as (H3 & H4 & H5 & a & H6 & H7). split; [exact H3|]. split; [exact H4|]. split; [exact H5|]. exists a. split; [intros j Hj; rewrite (Er o j H5 Hj); apply H6, Hj|].
    eapply mwp_agree; [|  |exact H7].
    + intros r x z Hxz [-> Hi]. split; [reflexivity|]. eapply inv_agree_o; eassumption.
    + intros l [Hl|[Hl|Hl]]; [symmetry; apply Ed; auto|symmetry; apply Ed; auto|]. destruct l; try contradiction. symmetry. apply (Ea o); assumption.
  - destruct H2 as (H3 & H4 & H5). split; [exact H3|]. split; [exact H4|]. unfold seqs_le in *. rewrite !Ed by (cbn; auto). exact H5.
Qed.

Lemma running_inv_other i k o h : k <> i -> running k (MInv i o :: h) = running k h.
Proof. intros H. cbn. destruct (Nat.eqb_spec i k); [congruence|reflexivity]. Qed.
Lemma running_res_other i k o r h : k <> i -> running k (MRes i o r :: h) = running k h.
Proof. intros H. cbn. destruct (Nat.eqb_spec i k); [congruence|reflexivity]. Qed.

Lemma step_sinv y i : sinv y -> calm (ms_hist (mtstep C n i y)) -> sinv (mtstep C n i y).
Proof.
  intros Hs. pose proof Hs as [Hl Hthr Hrun Hdisj Hmem Hok]. unfold mtstep. destruct (ms_thr y !! i) as [th|] eqn:Eth; [|intros _; exact Hs].
  assert (Hlti : (i < length (ms_thr y))%nat) by (eapply lookup_lt_Some, Eth).
  destruct (lookup_lt_is_Some_2 todos i) as [os Hos]; [rewrite <- Hl; exact Hlti|].
  pose proof (Hthr i os Hos) as (th' & k & E' & Hcur). rewrite Eth in E'. injection E' as <-.
  assert (Hi : N.of_nat i < 2 ^ m_log C) by lia.
  destruct (mt_cur th) as [[o p]|].
  - destruct Hcur as (Ho & Htodo & Hri & a & Ha & Hwp). destruct p as [r|e|c kont].
    + (* the call returns *)
      intros _. cbn in Hwp. destruct Hwp as [-> [Hc Hsq]]. destruct (mspec_local (replay a0 (ms_hist y)) a o Ha) as [Ef Es].
      set (h := ms_hist y) in *. assert (Hri' : forall r, running i (MRes i o r :: h) = None) by (intros r; cbn; rewrite Nat.eqb_refl; reflexivity).
      constructor; cbn [ms_thr ms_hist ms_mem].
      * rewrite insert_length. exact Hl.
      * intros i' os' Hos'. destruct (decide (i' = i)) as [->|Hne].
        -- rewrite Hos in Hos'. injection Hos' as <-. exists (mkMthread None (mt_todo th)), (S k). cbn [ms_thr ms_hist ms_mem mt_cur mt_todo].
           split; [apply list_lookup_insert, Hlti|]. split; [exact Htodo|]. split; [apply Hri'|exact Hsq].
        -- eapply tinv_frame; [apply Hthr, Hos'|cbn; apply list_lookup_insert_ne; congruence|cbn [ms_hist]; rewrite running_res_other by exact Hne; reflexivity| |reflexivity|reflexivity].
           intros o' j Ho' Hj. cbn [ms_hist replay]. apply mspec_out. intros F. exact (Hdisj i i' o o' j (fun E => Hne (eq_sym E)) Hri Ho' F Hj).
      * intros i' o' H. destruct (decide (i' = i)) as [->|Hne]; [rewrite Hri' in H; discriminate|]. rewrite running_res_other in H by exact Hne. apply Hrun with (1 := H).
      * intros i1 i2 o1 o2 j Hne H1 H2. destruct (decide (i1 = i)) as [->|N1]; [rewrite Hri' in H1; discriminate|]. destruct (decide (i2 = i)) as [->|N2]; [rewrite Hri' in H2; discriminate|].
        rewrite running_res_other in H1, H2 by assumption. apply Hdisj with (i := i1) (k := i2); assumption.
      * intros j Hj. cbn [replay]. assert (Hdec : touches o j \/ ~ touches o j).
        { destruct o as [ws|x|x old new]; cbn [touches]; [destruct (in_dec N.eq_dec j (map o_off ws)); auto|destruct (N.eq_dec j x); auto|destruct (N.eq_dec j x); auto]. }
        destruct Hdec as [Ht|Ht].
        -- rewrite Es by exact Ht. destruct (Hc j Ht) as [A B]. split; [exact A|intros _; exact B].
        -- rewrite mspec_out by exact Ht. apply Hmem. intros i' o' Hr F. destruct (decide (i' = i)) as [->|Hne]; [fold h in Hri, Hr; rewrite Hri in Hr; injection Hr as <-; contradiction|].
           apply (Hj i' o'); [rewrite running_res_other by exact Hne; exact Hr|exact F].
      * cbn [answers]. split; [symmetry; exact Ef|exact Hok].
    + cbn in Hwp. contradiction.
    + (* a step of the call *)
      intros _. cbn [mwp] in Hwp. destruct Hwp as [Hfp Hwp]. pose proof (mexec_only c (ms_mem y)) as Honly. destruct (mexec c (ms_mem y)) as [r m']. cbn [snd] in Honly.
      assert (Hsame : forall l, ~ fp i o l -> m' l = ms_mem y l). { intros l Hnl. apply Honly. intros <-. contradiction. }
      constructor; cbn [ms_thr ms_hist ms_mem].
      * rewrite insert_length. exact Hl.
      * intros i' os' Hos'. destruct (decide (i' = i)) as [->|Hne].
        -- rewrite Hos in Hos'. injection Hos' as <-. exists (mkMthread (Some (o, kont r)) (mt_todo th)), k. cbn [ms_thr ms_hist ms_mem mt_cur mt_todo].
           split; [apply list_lookup_insert, Hlti|]. split; [exact Ho|]. split; [exact Htodo|]. split; [exact Hri|]. exists a. split; [exact Ha|exact Hwp].
        -- eapply tinv_frame; [apply Hthr, Hos'|cbn; apply list_lookup_insert_ne; congruence|reflexivity|reflexivity| |].
           ++ intros l Hl'. apply Hsame. intros F. eapply (fp_disj i i' o (MwCas [])); [congruence|intros j _ []|exact F|]. destruct Hl' as [Hl'|Hl']; [left; exact Hl'|right; left; exact Hl'].
           ++ intros o' j Ho' Hj. apply Hsame. intros [[]|[[]|F]]. exact (Hdisj i i' o o' j (fun E => Hne (eq_sym E)) Hri Ho' F Hj).
      * exact Hrun.
      * exact Hdisj.
      * intros j Hj. destruct (Hmem j Hj) as [A B]. split; [|exact B]. rewrite <- A. unfold contents. rewrite Hsame; [reflexivity|]. intros [[]|[[]|F]]. exact (Hj i o Hri F).
      * exact Hok.
  - destruct Hcur as (Htodo & Hri & Hsq). destruct (mt_todo th) as [|o os'] eqn:Et; [intros _; exact Hs|].
    (* a call starts *)
    cbn [ms_hist calm]. intros [Hcalm _]. destruct (drop_cons_inv _ _ _ _ Htodo) as [Ho Hos']. set (h := ms_hist y) in *.
    assert (Hin : o ∈ os) by (eapply elem_of_list_lookup_2, Ho). pose proof (legal_in i os o Hos Hin) as Hlo.
    assert (Hri' : running i (MInv i o :: h) = Some o) by (cbn; rewrite Nat.eqb_refl; reflexivity).
    constructor; cbn [ms_thr ms_hist ms_mem].
    + rewrite insert_length. exact Hl.
    + intros i' os2 Hos2. destruct (decide (i' = i)) as [->|Hne].
      * rewrite Hos in Hos2. injection Hos2 as <-. exists (mkMthread (Some (o, mop_prog C n (N.of_nat i) o)) os'), k. cbn [ms_thr ms_hist ms_mem mt_cur mt_todo].
        split; [apply list_lookup_insert, Hlti|]. split; [exact Ho|]. split; [exact Hos'|]. split; [exact Hri'|]. exists (replay a0 h). split; [reflexivity|].
        pose proof (mcosts_take os k o Ho) as Ec. pose proof (mcosts_take_le os (S k)) as Hle.
        assert (Hco : b0 + mcosts os < 2 ^ seqSize (2 ^ m_log C)) by (eapply (Forall_lookup_1 _ _ _ _ Hcost Hos)).
        eapply (wp_mop C HC (N.of_nat i) Hi (touches o)) with (a := replay a0 h) (b := b0 + mcosts (take k os)).
        -- exact (proj1 Hlo).
        -- exact Hn.
        -- exact Hlo.
        -- exact (fun j Hj => Hj).
        -- split; [|exact Hsq]. intros j Hj. assert (Hfree : forall i' o', running i' h = Some o' -> ~ touches o' j).
           { intros i' o' Hr. destruct (decide (i' = i)) as [->|Hne]; [rewrite Hri in Hr; discriminate|]. exact (Hcalm i' o' j Hne Hr Hj). }
           destruct (Hmem j Hfree) as [A B]. split; [exact A|]. apply B, (proj1 Hlo), Hj.
        -- lia.
        -- intros m' Hm'. split; [reflexivity|]. rewrite Ec, N.add_assoc. exact Hm'.
      * eapply tinv_frame; [apply Hthr, Hos2|cbn; apply list_lookup_insert_ne; congruence|cbn [ms_hist]; apply running_inv_other, Hne|reflexivity|reflexivity|reflexivity].
    + intros i' o' H. destruct (decide (i' = i)) as [->|Hne]; [rewrite Hri' in H; injection H as <-; exists os; auto|]. rewrite running_inv_other in H by exact Hne. apply Hrun with (1 := H).
    + intros i1 i2 o1 o2 j Hne H1 H2. destruct (decide (i1 = i)) as [->|N1]; [rewrite Hri' in H1; injection H1 as <-|rewrite running_inv_other in H1 by exact N1].
      * rewrite running_inv_other in H2 by congruence. apply (Hcalm i2 o2 j); [congruence|exact H2].
      * destruct (decide (i2 = i)) as [->|N2]; [rewrite Hri' in H2; injection H2 as <-|rewrite running_inv_other in H2 by exact N2; apply Hdisj with (i := i1) (k := i2); assumption].
        intros Hj F. exact (Hcalm i1 o1 j N1 H1 F Hj).
    + intros j Hj. cbn [replay]. apply Hmem. intros i' o' Hr. destruct (decide (i' = i)) as [->|Hne]; [fold h in Hri, Hr; rewrite Hri in Hr; discriminate|]. apply (Hj i' o').
      rewrite running_inv_other by exact Hne. exact Hr.
    + cbn [answers]. exact Hok.
Qed.
Lemma start_sinv : sinv (mstart m0 todos).
Proof.
  constructor; cbn [mstart ms_thr ms_hist ms_mem running replay answers].
  - apply map_length.
  - intros i os Hos. exists (mkMthread None os), 0%nat. cbn [mstart ms_thr ms_hist ms_mem mt_cur mt_todo]. split; [rewrite list_lookup_fmap, Hos; reflexivity|].
    split; [reflexivity|]. split; [reflexivity|]. rewrite take_0. cbn [mcosts]. rewrite N.add_0_r. apply Hb0. apply lookup_lt_Some in Hos. lia.
  - discriminate.
  - discriminate.
  - intros j _. split; [reflexivity|apply Hv].
  - exact I.
Qed.
Lemma step_calm y i : calm (ms_hist (mtstep C n i y)) -> calm (ms_hist y).
Proof.
  unfold mtstep. destruct (ms_thr y !! i) as [th|]; [|auto]. destruct (mt_cur th) as [[o [r|e|c k]]|]; [auto|auto| |].
  - destruct (mexec c (ms_mem y)). auto.
  - destruct (mt_todo th); [auto|]. cbn. tauto.
Qed.
Lemma calm_sinv sched : calm (ms_hist (mafter C n m0 todos sched)) -> sinv (mafter C n m0 todos sched).
Proof.
  induction sched as [|i sched IH] using rev_ind; [intros _; exact start_sinv|]. unfold mafter in *. rewrite mconc_app. cbn [mconc]. intros H.
  apply step_sinv; [|exact H]. apply IH. eapply step_calm, H.
Qed.
Lemma calm_atomic sched : let y := mafter C n m0 todos sched in calm (ms_hist y) ->
  (forall i, ~ mstuck y i) /\ answers a0 (ms_hist y) /\
  forall j, (forall i o, running i (ms_hist y) = Some o -> ~ touches o j) -> contents (ms_mem y) j = replay a0 (ms_hist y) j.
Proof.
  intros y H. destruct (calm_sinv sched H) as [Hl Hthr _ _ Hmem Hok]. fold y in Hl, Hthr, Hmem, Hok. split; [|split; [exact Hok|intros j Hj; apply Hmem, Hj]].
  intros i (th & o & e & Eth & Ecur). destruct (lookup_lt_is_Some_2 todos i) as [os Hos]; [rewrite <- Hl; eapply lookup_lt_Some, Eth|].
  destruct (Hthr i os Hos) as (th' & k & E' & Hcur). rewrite Eth in E'. injection E' as <-. rewrite Ecur in Hcur. destruct Hcur as (_ & _ & _ & a & _ & []).
Qed.
End Calm.
