(** A YCSB trace run by one thread. *)
From Coq Require Import NArith Bool List Ascii String Lia Permutation.
From stdpp Require Import base list gmap.
From Verif Require Import Word Prog HashMap Spec Codec Abs Container ContainerSpec ContainerThm Harness HarnessSpec HarnessText
  HarnessYcsb.
Import ListNotations.
Open Scope nat_scope.

Lemma creach_length C s0 os rs s : creach C s0 os rs s -> List.length rs = List.length os.
Proof. induction 1; [reflexivity|]. rewrite !app_length. cbn. lia. Qed.
(** The state in which a call was made. *)
Lemma creach_split C s0 os rs s : creach C s0 os rs s -> forall a o b, os = a ++ o :: b ->
  exists ra r rb sa sb n, creach C s0 a ra sa /\ run (cop_prog C n o) sa = Ok r sb /\ rs = ra ++ r :: rb.
Proof.
  induction 1 as [|os rs s n o r s' Hr IH Hs]; intros a o' b E; [destruct a; discriminate|].
  destruct (decide (b = [])) as [->|Hne].
  - apply app_inj_tail in E. destruct E as (-> & ->). exists rs, r, [], s, s', n. auto.
  - destruct (exists_last Hne) as (b' & x & ->). rewrite app_comm_cons, app_assoc in E. apply app_inj_tail in E.
    destruct E as (E & ->). destruct (IH _ _ _ E) as (ra & r' & rb & sa & sb & n' & H1 & H2 & ->).
    exists ra, r', (rb ++ [r]), sa, sb, n'. split; [exact H1|]. split; [exact H2|]. now rewrite <- app_assoc.
Qed.

Lemma member_app el a : forall b now, member el (a ++ b) now = member el b (member el a now).
Proof. induction a as [|[] a IH]; intros b now; cbn [app member]; auto. Qed.
Lemma member_inserts el vs : forall now, member el (map CInsert vs) now = existsb (N.eqb el) vs || now.
Proof.
  induction vs as [|v vs IH]; intros now; [reflexivity|]. cbn [map member existsb]. rewrite IH, (N.eqb_sym el v).
  destruct (v =? el)%N; [now rewrite orb_true_r|reflexivity].
Qed.
Lemma member_ops el os : forall now, member el (map yop_cop os) now = in_db el now os.
Proof. induction os as [|[[] v] os IH]; intros now; cbn; auto. Qed.
Lemma holds_db vs os el : holds (map CInsert vs ++ map yop_cop os) el = in_db_from vs os el.
Proof. unfold holds, in_db_from. now rewrite member_app, member_inserts, member_ops, orb_false_r. Qed.

Lemma inserts_legal items : Forall (fun o => legal_el (y_val o)) (ops_of items) -> Forall legal_el (inserts_of items).
Proof.
  unfold ops_of, inserts_of. induction items as [|[[[] v]|] items IH]; cbn [flat_map app]; intros H; auto;
    apply Forall_cons in H as [H1 H]; auto; constructor; auto.
Qed.
Lemma share_one items : forall j, share 1 0 j items = items.
Proof. induction items as [|i items IH]; intros j; [reflexivity|]. cbn [share]. rewrite N.mod_1_r. cbn. now rewrite IH. Qed.

Lemma c56_run nd cap ls1 ls2 f1 f2 items1 items2 buf :
  Forall2 line_is ls1 items1 -> Forall2 line_is ls2 items2 -> Forall one_line ls1 -> Forall one_line ls2 ->
  Forall fits ls1 -> Forall fits ls2 -> text_of ls1 f1 -> text_of ls2 f2 -> List.length buf = 1024 ->
  (1 <= cap)%N -> (N.of_nat (List.length items2) <= cap)%N ->
  Forall (fun o => legal_el (y_val o)) (ops_of items1) -> Forall (fun o => legal_el (y_val o)) (ops_of items2) ->
  exists vs q, ycsb_prefix nd cap 1 f1 f2 buf = HOk (vs, [q]) /\ vs = inserts_of items1 /\ q = ops_of items2 /\
  forall C tcap ppl maxcap n rs s, good_cap tcap maxcap -> (maxcap <= 2 ^ 32)%N ->
    run (cops_prog C n (map CInsert vs ++ map yop_cop q)) (init_state tcap ppl maxcap) = Ok rs s ->
    List.length rs = List.length vs + List.length q /\
    (forall j o, q !! j = Some o -> y_kind o <> YDelete ->
       rs !! (List.length vs + j) = Some (CBool (in_db_from vs (firstn j q) (y_val o)))) /\
    (forall n' el b s', legal_el el -> run (c_contains C n' el) s = Ok b s' -> b = in_db_from vs q el).
Proof.
  intros Hl1 Hl2 Ho1 Ho2 Hf1 Hf2 Ht1 Ht2 Hb Hc Hlen He1 He2.
  assert (Hfn : firstn (N.to_nat (cap + 1)) items2 = items2) by (apply firstn_all2; lia).
  destruct (c56_queues nd cap 1 ls1 ls2 f1 f2 items1 items2 buf Hl1 Hl2 Ho1 Ho2 Hf1 Hf2 Ht1 Ht2 Hb Hc) as (qs & E & Hq1 & Hq2 & _);
    [lia|right; rewrite Hfn; pose proof (ops_of_length items2); lia|].
  rewrite Hfn in Hq2. specialize (Hq2 0%N ltac:(lia)). rewrite share_one in Hq2.
  destruct qs as [|q [|q' qs]]; cbn [List.length] in Hq1; try lia. cbn in Hq2. apply Some_inj in Hq2. subst q.
  exists (inserts_of items1), (ops_of items2). split; [exact E|]. split; [reflexivity|]. split; [reflexivity|].
  pose proof (inserts_legal _ He1) as Hv. revert Hv He2. clear. generalize (inserts_of items1), (ops_of items2). intros vs q Hv Hq.
  intros C tcap ppl maxcap n rs s Hg Hm Hrun. apply cops_reach in Hrun.
  assert (Hlv : Forall legal_cop (map CInsert vs)) by (apply List.Forall_map; exact Hv).
  assert (Hlq : Forall legal_cop (map yop_cop q)).
  { apply List.Forall_map. eapply List.Forall_impl; [|exact Hq]. intros [[] v] H; exact H. }
  assert (Hl : Forall legal_cop (map CInsert vs ++ map yop_cop q)) by (apply List.Forall_app; auto).
  split; [|split].
  - rewrite (creach_length _ _ _ _ _ Hrun), app_length, !map_length. reflexivity.
  - intros j o Hj Hk. destruct (elem_of_list_split_length _ _ _ Hj) as (q1 & q2 & -> & Hj1). 
    rewrite List.map_app, app_assoc in Hrun. cbn [map] in Hrun.
    destruct (creach_split _ _ _ _ _ Hrun _ _ _ eq_refl) as (ra & r & rb & sa & sb & n' & H1 & H2 & ->).
    pose proof (creach_length _ _ _ _ _ H1) as Hra. rewrite app_length, !map_length in Hra.
    rewrite Hj1, <- Hra, list_lookup_middle by reflexivity. f_equal.
    rewrite List.map_app in Hlq. apply List.Forall_app in Hlq. destruct Hlq as (Hlq1 & Hlq2). apply List.Forall_inv in Hlq2.
    pose proof (c_answer C tcap ppl maxcap Hg Hm _ _ _ n' _ _ _ H1 (proj2 (List.Forall_app _ _ _) (conj Hlv Hlq1)) Hlq2 H2) as Ha.
    replace (firstn (List.length q1) (q1 ++ o :: q2)) with q1
      by (rewrite firstn_app, firstn_all, Nat.sub_diag; cbn; now rewrite app_nil_r).
    destruct o as [[] v]; cbn [yop_cop y_kind y_val answer] in Ha |- *; try rewrite Ha, holds_db; try reflexivity. now destruct Hk.
  - intros n' el b s' Hel Hs.
    assert (Hs' : run (cop_prog C n' (CContains el)) s = Ok (CBool b) s').
    { cbn [cop_prog]. rewrite run_bind, Hs. reflexivity. }
    pose proof (c_answer C tcap ppl maxcap Hg Hm _ _ _ n' (CContains el) _ _ Hrun Hl Hel Hs') as Ha.
    cbn [answer] in Ha. rewrite holds_db in Ha. now injection Ha.
Qed.
