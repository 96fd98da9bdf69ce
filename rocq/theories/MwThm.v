(** Calls one after another, and threads on different words. *)
From Coq Require Import NArith Bool List Lia.
From stdpp Require Import base list.
From Verif Require Import Word Bits Codec CodecSpec CodecThm MwCas MwSpec MwWp MwSeq.
Import ListNotations.
Local Open Scope N_scope.

(** ** Calls one after another *)

Lemma run_calls_correct C n l m b : mcfg_ok C -> (mfuel C <= n)%nat ->
  (forall j, j < m_size C -> mval (contents m j)) -> (forall t, t < 2 ^ m_log C -> seqs_le m t b) ->
  Forall (fun x => fst x < 2 ^ m_log C /\ legal_mop C (snd x)) l -> b + mcosts (map snd l) < 2 ^ seqSize (2 ^ m_log C) ->
  exists m', run_calls C n l m = Some (fst (mspecs (contents m) (map snd l)), m') /\ forall j, contents m' j = snd (mspecs (contents m) (map snd l)) j.
Proof.
  intros HC Hn Hv Hb Hl Hc.
  enough (G : forall a m, (forall j, contents m j = a j) -> (forall j, j < m_size C -> mval (a j)) -> (forall t, t < 2 ^ m_log C -> seqs_le m t b) ->
    exists m', run_calls C n l m = Some (fst (mspecs a (map snd l)), m') /\ forall j, contents m' j = snd (mspecs a (map snd l)) j).
  { apply (G (contents m) m); [reflexivity|exact Hv|exact Hb]. }
  clear m Hv Hb. revert b Hc Hl. induction l as [|[t o] l IH]; intros b Hc Hl a m Ha Hv Hb; [exists m; split; [reflexivity|exact Ha]|].
  apply List.Forall_cons_iff in Hl as [[Ht Ho] Hl]. cbn [map snd fst mcosts] in *.
  pose proof (fun Q => wp_mop C HC t Ht (fun j => j < m_size C) (fun j H => H) n o a b Q m Hn Ho (proj1 Ho)) as W.
  assert (Hinv : inv t (fun j => j < m_size C) a b m).
  { split; [intros j Hj; split; [apply Ha|apply Hv, Hj]|apply Hb, Ht]. }
  specialize (W (fun r m' => r = fst (mspec a o) /\ inv t (fun j => j < m_size C) (snd (mspec a o)) (b + mcost o) m') Hinv ltac:(lia) (fun m' H => conj eq_refl H)).
  apply mwp_only, mwp_run in W. destruct W as (r & m' & E & [-> [Hc' Hs']] & Honly).
  assert (Ha' : forall j, contents m' j = snd (mspec a o) j).
  { intros j. destruct (N.lt_ge_cases j (m_size C)) as [Hj|Hj]; [apply Hc', Hj|].
    assert (E' : contents m' j = contents m j). { unfold contents. rewrite Honly; [reflexivity|]. intros [[]|[[]|F]]. cbn in F. lia. }
    rewrite E', Ha. assert (Hnt : ~ touches o j) by (intros F; apply (proj1 Ho) in F; lia).
    destruct o as [ws|i|i old new]; cbn [mspec touches] in *.
    - destruct (all_match a ws); [|reflexivity]. cbn. symmetry. apply put_all_out, Hnt.
    - reflexivity.
    - destruct (a i =? old); [|reflexivity]. cbn. rewrite (proj2 (N.eqb_neq j i) Hnt). reflexivity. }
  destruct (IH (b + mcost o) ltac:(lia) Hl (snd (mspec a o)) m' Ha') as (m'' & E2 & Hm'').
  - intros j Hj. apply Hc', Hj.
  - intros t' Ht'. destruct (decide (t' = t)) as [->|Hne]; [exact Hs'|]. specialize (Hb t' Ht'). unfold seqs_le in *.
    rewrite !Honly by (intros [F|[F|F]]; cbn in F; congruence || contradiction). lia.
  - cbn [run_calls]. rewrite E, E2. cbn [mspecs]. destruct (mspec a o) as [r a'] eqn:Es. cbn [fst snd] in *.
    destruct (mspecs a' (map snd l)) as [rs a''] eqn:Ess. cbn [fst snd] in *. exists m''. split; [reflexivity|exact Hm''].
Qed.

(** ** Threads on different words *)

Lemma mspecs_take a os k o : os !! k = Some o ->
  take (S k) (fst (mspecs a os)) = take k (fst (mspecs a os)) ++ [fst (mspec (snd (mspecs a (take k os))) o)] /\
  snd (mspecs a (take (S k) os)) = snd (mspec (snd (mspecs a (take k os))) o).
Proof.
  revert a k. induction os as [|x os IH]; intros a k Hk; [discriminate|]. destruct k as [|k]; cbn in Hk.
  - injection Hk as ->. cbn. destruct (mspec a o) as [r a'] eqn:E. destruct (mspecs a' os) as [rs a'']. cbn. rewrite take_0. cbn. auto.
  - change (take (S (S k)) (x :: os)) with (x :: take (S k) os). change (take (S k) (x :: os)) with (x :: take k os). cbn [mspecs].
    destruct (mspec a x) as [r a']. specialize (IH a' k Hk). destruct (mspecs a' os) as [rs a2], (mspecs a' (take (S k) os)) as [rs3 a3], (mspecs a' (take k os)) as [rs4 a4].
    cbn [fst snd] in *. destruct IH as [I1 I2]. cbn [take]. rewrite I1. split; [reflexivity|exact I2].
Qed.
Lemma mcosts_take os k o : os !! k = Some o -> mcosts (take (S k) os) = mcosts (take k os) + mcost o.
Proof.
  revert k. induction os as [|x os IH]; intros k Hk; [discriminate|]. destruct k as [|k]; cbn in Hk.
  - injection Hk as ->. cbn. rewrite take_0. cbn. lia.
  - change (take (S (S k)) (x :: os)) with (x :: take (S k) os). change (take (S k) (x :: os)) with (x :: take k os). cbn [mcosts]. rewrite IH by exact Hk. lia.
Qed.
Lemma mcosts_take_le os k : mcosts (take k os) <= mcosts os.
Proof. revert k. induction os as [|x os IH]; intros [|k]; cbn; try lia. specialize (IH k). lia. Qed.

Section Disjoint.
Context (C : mcfg) (HC : mcfg_ok C) (n : nat) (Hn : (mfuel C <= n)%nat) (m0 : mem) (todos : list (list mop)) (b0 : N).
Context (Hlen : N.of_nat (length todos) <= 2 ^ m_log C).
Context (Hlegal : Forall (Forall (legal_mop C)) todos).
Context (Hdisj : disjoint_todos todos).
Context (Hv : forall j, j < m_size C -> mval (contents m0 j)).
Context (Hb0 : forall t, t < 2 ^ m_log C -> seqs_le m0 t b0).
Context (Hcost : Forall (fun os => b0 + mcosts os < 2 ^ seqSize (2 ^ m_log C)) todos).
Local Notation a0 := (contents m0).

Definition words_of (os : list mop) (j : N) : Prop := exists o, o ∈ os /\ touches o j.
Definition fp_of (i : nat) (os : list mop) : loc -> Prop := own (N.of_nat i) (words_of os).
Definition inv_of (i : nat) (os : list mop) (k : nat) : mem -> Prop :=
  inv (N.of_nat i) (words_of os) (snd (mspecs a0 (take k os))) (b0 + mcosts (take k os)).

(** Thread [i] has finished its first [k] calls. *)
Definition thread_inv (y : msys) (i : nat) (os : list mop) : Prop :=
  exists th k, ms_thr y !! i = Some th /\ mresults i (ms_hist y) = take k (fst (mspecs a0 os)) /\ (k <= length os)%nat /\
    match mt_cur th with
    | None => mt_todo th = drop k os /\ inv_of i os k (ms_mem y)
    | Some (o, p) => os !! k = Some o /\ mt_todo th = drop (S k) os /\
        mwp (fp_of i os) p (fun r m => r = fst (mspec (snd (mspecs a0 (take k os))) o) /\ inv_of i os (S k) m) (ms_mem y)
    end.
Definition all_inv (y : msys) : Prop :=
  length (ms_thr y) = length todos /\ (forall i os, todos !! i = Some os -> thread_inv y i os) /\
  forall j, (forall i os, todos !! i = Some os -> ~ words_of os j) -> ms_mem y (LArr j) = m0 (LArr j).

Lemma fp_disj i k os os' l : todos !! i = Some os -> todos !! k = Some os' -> i <> k -> fp_of i os l -> ~ fp_of k os' l.
Proof.
  intros Hi Hk Hne H1 H2. unfold fp_of, own, kset, wset, aset in *. destruct l as [j|t|t|t ? ?|t|t ?|t|t].
  all: try (assert (t = N.of_nat i /\ t = N.of_nat k) as [? ?] by (destruct H1 as [?|[?|?]], H2 as [?|[?|?]]; tauto); apply Hne; lia).
  destruct H1 as [[]|[[]|(o & Ho & Ht)]], H2 as [[]|[[]|(o' & Ho' & Ht')]]. apply Hne. eapply Hdisj; eassumption.
Qed.
Lemma inv_agree i os k m m' : agree (fp_of i os) m m' -> inv_of i os k m -> inv_of i os k m'.
Proof.
  intros Ha [H1 [H2 H3]]. split; [|split].
  - intros j Hj. unfold contents. rewrite <- Ha by (apply own_a; exact Hj). apply H1, Hj.
  - rewrite <- Ha by (apply own_k; reflexivity). exact H2.
  - rewrite <- Ha by (apply own_w; reflexivity). exact H3.
Qed.
(** A thread does not notice changes outside of its words. *)
Lemma thread_inv_frame y y' i os : thread_inv y i os -> ms_thr y' !! i = ms_thr y !! i -> mresults i (ms_hist y') = mresults i (ms_hist y) ->
  agree (fp_of i os) (ms_mem y) (ms_mem y') -> thread_inv y' i os.
Proof.
  intros (th & k & H1 & H2 & H3 & H4) E1 E2 Ha. exists th, k. rewrite E1, E2. split; [exact H1|]. split; [exact H2|]. split; [exact H3|].
  destruct (mt_cur th) as [[o p]|].
  - destruct H4 as (H5 & H6 & H7). split; [exact H5|]. split; [exact H6|]. eapply mwp_agree; [|exact Ha|exact H7].
    intros r x z Hxz [-> Hi]. split; [reflexivity|]. eapply inv_agree; eassumption.
  - destruct H4 as [H5 H6]. split; [exact H5|]. eapply inv_agree; eassumption.
Qed.

Lemma drop_cons_inv {A} (l : list A) k x l' : x :: l' = drop k l -> l !! k = Some x /\ l' = drop (S k) l.
Proof.
  revert k. induction l as [|y l IH]; intros k H; [destruct k; discriminate|]. destruct k as [|k].
  - injection H as -> ->. split; reflexivity.
  - apply IH in H. exact H.
Qed.

Lemma step_inv y i : all_inv y -> all_inv (mtstep C n i y).
Proof.
  intros (Hl & Hthr & Hrest). unfold mtstep. destruct (ms_thr y !! i) as [th|] eqn:Eth; [|split; [exact Hl|split; assumption]].
  destruct (lookup_lt_is_Some_2 todos i) as [os Hos]. { rewrite <- Hl. eapply lookup_lt_Some, Eth. }
  pose proof (Hthr i os Hos) as (th' & k & E' & Hr & Hk & Hcur). rewrite Eth in E'. injection E' as <-.
  assert (Hlti : (i < length (ms_thr y))%nat) by (eapply lookup_lt_Some, Eth).
  assert (Hi : N.of_nat i < 2 ^ m_log C) by lia.
  assert (Hother : forall y', length (ms_thr y') = length (ms_thr y) -> thread_inv y' i os ->
    (forall i', i' <> i -> ms_thr y' !! i' = ms_thr y !! i' /\ mresults i' (ms_hist y') = mresults i' (ms_hist y)) ->
    only (fp_of i os) (ms_mem y) (ms_mem y') -> all_inv y').
  { intros y' Hl' Hself Hfr Honly. split; [congruence|]. split.
    - intros i' os' Hos'. destruct (decide (i' = i)) as [->|Hne]; [rewrite Hos in Hos'; injection Hos' as <-; exact Hself|].
      eapply thread_inv_frame; [apply Hthr, Hos'|apply Hfr, Hne|apply Hfr, Hne|]. intros l Hfp. symmetry. apply Honly. intros Hfi.
      eapply fp_disj; [exact Hos'|exact Hos|exact Hne|exact Hfp|exact Hfi].
    - intros j Hj. rewrite Honly; [apply Hrest, Hj|]. intros [[]|[[]|F]]. exact (Hj i os Hos F). }
  destruct (mt_cur th) as [[o p]|].
  - destruct Hcur as (Ho & Htodo & Hwp). destruct p as [r|e|c kont].
    + cbn in Hwp. destruct Hwp as [-> Hinv]. apply Hother; cbn [ms_thr ms_hist ms_mem].
      * apply insert_length.
      * exists (mkMthread None (mt_todo th)), (S k). cbn [ms_thr ms_hist ms_mem mt_cur mt_todo mresults]. rewrite Nat.eqb_refl. split; [apply list_lookup_insert, Hlti|].
        rewrite (proj1 (mspecs_take a0 os k o Ho)), Hr. split; [reflexivity|]. split; [apply lookup_lt_Some in Ho; lia|]. split; [exact Htodo|exact Hinv].
      * intros i' Hne. split; [apply list_lookup_insert_ne; congruence|]. cbn [mresults]. destruct (Nat.eqb_spec i i'); [congruence|reflexivity].
      * apply only_refl.
    + cbn in Hwp. contradiction.
    + cbn [mwp] in Hwp. destruct Hwp as [Hfp Hwp]. pose proof (mexec_only c (ms_mem y)) as Honly. destruct (mexec c (ms_mem y)) as [r m']. cbn [snd] in Honly.
      apply Hother; cbn [ms_thr ms_hist ms_mem].
      * apply insert_length.
      * exists (mkMthread (Some (o, kont r)) (mt_todo th)), k. cbn [ms_thr ms_hist ms_mem mt_cur mt_todo]. split; [apply list_lookup_insert, Hlti|].
        split; [exact Hr|]. split; [exact Hk|]. split; [exact Ho|]. split; [exact Htodo|exact Hwp].
      * intros i' Hne. split; [apply list_lookup_insert_ne; congruence|reflexivity].
      * intros l Hnl. apply Honly. intros <-. contradiction.
  - destruct Hcur as [Htodo Hinv]. destruct (mt_todo th) as [|o os'] eqn:Et; [split; [exact Hl|split; assumption]|].
    destruct (drop_cons_inv _ _ _ _ Htodo) as [Ho Hos']. apply Hother; cbn [ms_thr ms_hist ms_mem].
    + apply insert_length.
    + exists (mkMthread (Some (o, mop_prog C n (N.of_nat i) o)) os'), k. cbn [ms_thr ms_hist ms_mem mt_cur mt_todo mresults]. split; [apply list_lookup_insert, Hlti|].
      split; [exact Hr|]. split; [exact Hk|]. split; [exact Ho|]. split; [exact Hos'|].
      destruct (mspecs_take a0 os k o Ho) as [_ Es]. pose proof (mcosts_take os k o Ho) as Ec. pose proof (mcosts_take_le os (S k)) as Hle.
      assert (Hin : o ∈ os) by (eapply elem_of_list_lookup_2, Ho).
      assert (Hlo : legal_mop C o). { rewrite List.Forall_forall in Hlegal. specialize (Hlegal os). rewrite <- elem_of_list_In in Hlegal.
        specialize (Hlegal (elem_of_list_lookup_2 _ _ _ Hos)). rewrite List.Forall_forall in Hlegal. apply Hlegal. rewrite <- elem_of_list_In. exact Hin. }
      assert (Hco : b0 + mcosts os < 2 ^ seqSize (2 ^ m_log C)). { rewrite List.Forall_forall in Hcost. apply Hcost. rewrite <- elem_of_list_In. eapply elem_of_list_lookup_2, Hos. }
      eapply (wp_mop C HC (N.of_nat i) Hi (words_of os)) with (a := snd (mspecs a0 (take k os))) (b := b0 + mcosts (take k os)).
      * intros j (o' & Ho' & Ht'). rewrite List.Forall_forall in Hlegal. specialize (Hlegal os). rewrite <- elem_of_list_In in Hlegal.
        specialize (Hlegal (elem_of_list_lookup_2 _ _ _ Hos)). rewrite List.Forall_forall in Hlegal. rewrite elem_of_list_In in Ho'. apply (proj1 (Hlegal o' Ho')), Ht'.
      * exact Hn.
      * exact Hlo.
      * intros j Hj. exists o. split; assumption.
      * exact Hinv.
      * lia.
      * intros m' Hm'. split; [reflexivity|]. unfold inv_of. rewrite Es, Ec, N.add_assoc. exact Hm'.
    + intros i' Hne. split; [apply list_lookup_insert_ne; congruence|reflexivity].
    + apply only_refl.
Qed.

Lemma start_inv : all_inv (mstart m0 todos).
Proof.
  split; [apply map_length|]. split; [|reflexivity]. intros i os Hos. exists (mkMthread None os), 0%nat. cbn [mstart ms_thr ms_hist ms_mem mt_cur mt_todo mresults].
  split; [rewrite list_lookup_fmap, Hos; reflexivity|]. split; [rewrite take_0; reflexivity|]. split; [lia|]. split; [reflexivity|].
  unfold inv_of. rewrite take_0. cbn [mspecs snd mcosts]. split.
  - intros j (o & Ho & Ht). split; [reflexivity|]. apply Hv. rewrite List.Forall_forall in Hlegal. specialize (Hlegal os). rewrite <- elem_of_list_In in Hlegal.
    specialize (Hlegal (elem_of_list_lookup_2 _ _ _ Hos)). rewrite List.Forall_forall in Hlegal. rewrite elem_of_list_In in Ho. apply (proj1 (Hlegal o Ho)), Ht.
  - rewrite N.add_0_r. apply Hb0. apply lookup_lt_Some in Hos. lia.
Qed.
Lemma conc_inv sched y : all_inv y -> all_inv (mconc C n sched y).
Proof. revert y. induction sched as [|i l IH]; intros y H; [exact H|]. cbn. apply IH, step_inv, H. Qed.

Lemma disjoint_correct sched i os : todos !! i = Some os ->
  let y := mafter C n m0 todos sched in
  ~ mstuck y i /\
  exists k, mresults i (ms_hist y) = take k (fst (mspecs a0 os)) /\
    forall left, midle y i left -> left = drop k os /\ forall j, words_of os j -> contents (ms_mem y) j = snd (mspecs a0 (take k os)) j.
Proof.
  intros Hos y. destruct (conc_inv sched _ start_inv) as (_ & H & _). fold (mafter C n m0 todos sched) in H. fold y in H. specialize (H i os Hos).
  destruct H as (th & k & E & Hr & Hk & Hcur). split.
  - intros (th' & o & e & E' & Ec). rewrite E in E'. injection E' as <-. rewrite Ec in Hcur. destruct Hcur as (_ & _ & []).
  - exists k. split; [exact Hr|]. intros left Hidle. unfold midle in Hidle. rewrite E in Hidle. injection Hidle as ->. cbn in Hcur. destruct Hcur as [-> [Ha _]].
    split; [reflexivity|]. intros j Hj. apply Ha, Hj.
Qed.
Lemma untouched sched j : (forall os, os ∈ todos -> ~ words_of os j) -> ms_mem (mafter C n m0 todos sched) (LArr j) = m0 (LArr j).
Proof.
  intros H. destruct (conc_inv sched _ start_inv) as (_ & _ & H'). apply H'. intros i os Hos. apply H. eapply elem_of_list_lookup_2, Hos.
Qed.
End Disjoint.
