(** The lemmas behind PropertiesContainer.v, in the form stated there. *)
From Coq Require Import NArith Bool List Lia.
From stdpp Require Import base list gmap.
From Verif Require Import Word Prog HashMap Spec Abs Fuel SeqThm Codec Container ContainerSpec ContainerThm Examples.
Import ListNotations.
Open Scope nat_scope.

Lemma c33_insert_inverted : forall C cap ppl maxcap os rs s n el b s',
  good_cap cap maxcap -> (maxcap <= 2 ^ 32)%N ->
  creach C (init_state cap ppl maxcap) os rs s -> Forall legal_cop os -> legal_el el ->
  run (c_insert C n el) s = Ok b s' -> b = holds os el.
Proof.
  intros C cap ppl maxcap os rs s n el b s' Hc Hm Hr Hl He Hs.
  assert (run (cop_prog C n (CInsert el)) s = Ok (CBool b) s') as Hop by (cbn [cop_prog]; rewrite run_bind, Hs; reflexivity).
  pose proof (c_answer C cap ppl maxcap Hc Hm os rs s n (CInsert el) _ s' Hr Hl He Hop) as H. cbn in H. congruence.
Qed.

Lemma c34_contains : forall C cap ppl maxcap os rs s n el b s',
  good_cap cap maxcap -> (maxcap <= 2 ^ 32)%N ->
  creach C (init_state cap ppl maxcap) os rs s -> Forall legal_cop os -> legal_el el ->
  run (c_contains C n el) s = Ok b s' -> b = holds os el.
Proof.
  intros C cap ppl maxcap os rs s n el b s' Hc Hm Hr Hl He Hs.
  assert (run (cop_prog C n (CContains el)) s = Ok (CBool b) s') as Hop by (cbn [cop_prog]; rewrite run_bind, Hs; reflexivity).
  pose proof (c_answer C cap ppl maxcap Hc Hm os rs s n (CContains el) _ s' Hr Hl He Hop) as H. cbn in H. congruence.
Qed.

Lemma c34_get : forall C cap ppl maxcap os rs s n el v s',
  good_cap cap maxcap -> (maxcap <= 2 ^ 32)%N ->
  creach C (init_state cap ppl maxcap) os rs s -> Forall legal_cop os -> legal_el el ->
  run (c_get C n el) s = Ok v s' -> (v = el <-> holds os el = true).
Proof.
  intros C cap ppl maxcap os rs s n el v s' Hc Hm Hr Hl He Hs.
  assert (run (cop_prog C n (CGet el)) s = Ok (CNum v) s') as Hop by (cbn [cop_prog]; rewrite run_bind, Hs; reflexivity).
  pose proof (c_answer C cap ppl maxcap Hc Hm os rs s n (CGet el) _ s' Hr Hl He Hop) as H. cbn in H.
  injection H as ->. unfold legal_el in He. change (2 ^ 61)%N with 2305843009213693952%N in *.
  destruct (holds os el); [tauto|]. split; [lia|discriminate].
Qed.

Definition after_stl (os : list cop) (m : gmap N N) : gmap N N := fold_left (fun m o => fst (stl_step m o)) os m.

Lemma stl_member os el : Forall legal_cop os -> forall m,
  bool_decide (is_Some (after_stl os m !! el)) = member el os (bool_decide (is_Some (m !! el))).
Proof.
  unfold after_stl. induction 1 as [|o os Ho Hl IH]; intros m; [reflexivity|]. cbn [fold_left].
  rewrite IH. clear IH. destruct o as [e|e|e|e| |e]; cbn; try reflexivity; [| |contradiction]; f_equal.
  - destruct (m !! e) as [v|] eqn:Em; cbn; destruct (N.eqb_spec e el) as [->|Hne]; try reflexivity.
    + rewrite Em. reflexivity.
    + rewrite lookup_insert. reflexivity.
    + rewrite lookup_insert_ne by assumption. reflexivity.
  - destruct (N.eqb_spec e el) as [->|Hne].
    + rewrite lookup_delete. reflexivity.
    + rewrite lookup_delete_ne by assumption. reflexivity.
Qed.

Lemma c34_reference : forall os el, Forall legal_cop os -> legal_el el ->
  snd (stl_step (fold_left (fun m o => fst (stl_step m o)) os ∅) (CContains el)) = CBool (holds os el).
Proof. intros os el Hl _. cbn. f_equal. exact (stl_member os el Hl ∅). Qed.

Lemma c33_refuted : exists el s s', legal_el el /\
  run (c_insert idcfg ex_fuel el) (init_state 16 4 4096) = Ok false s /\
  snd (stl_step ∅ (CInsert el)) = CBool true /\
  run (c_insert idcfg ex_fuel el) s = Ok true s' /\
  snd (stl_step (fst (stl_step ∅ (CInsert el))) (CInsert el)) = CBool false.
Proof.
  exists 5%N, (st_of (run (c_insert idcfg ex_fuel 5) (init_state 16 4 4096))). eexists.
  split; [reflexivity|]. split; [apply ok_of; vm_compute; reflexivity|]. split; [reflexivity|].
  split; [evalrun|reflexivity].
Qed.

Lemma c34_example : exists rs s s1 s2 s3,
  let os := map (fun i => CInsert (N.of_nat i)) (seq 0 17) ++ [CErase 3; CCount] in
  creach idcfg (init_state 16 4 4096) os rs s /\ Forall legal_cop os /\ st_top s <> 0 /\
  run (c_contains idcfg ex_fuel 5) s = Ok true s1 /\ run (c_contains idcfg ex_fuel 3) s = Ok false s2 /\
  run (c_get idcfg ex_fuel 7) s = Ok 7%N s3 /\ last rs = Some (CNum 16).
Proof.
  set (os := map (fun i => CInsert (N.of_nat i)) (seq 0 17) ++ [CErase 3; CCount]).
  exists (default [] (ret_of (run (cops_prog idcfg ex_fuel os) (init_state 16 4 4096)))).
  exists (st_of (run (cops_prog idcfg ex_fuel os) (init_state 16 4 4096))). do 3 eexists. cbv zeta.
  split; [apply (cops_reach _ ex_fuel); apply ok_of; vm_compute; reflexivity|].
  split; [repeat constructor|]. split; [vm_compute; discriminate|].
  split; [evalrun|]. split; [evalrun|]. split; [evalrun|]. vm_compute. reflexivity.
Qed.

Lemma c34_results_refuted : exists s1 s2 s3 s4,
  run (c_erase idcfg ex_fuel 5) (init_state 16 4 4096) = Ok true s1 /\
  snd (stl_step ∅ (CErase 5)) = CBool false /\
  run (cops_prog idcfg ex_fuel [CInsert 0]) (init_state 16 4 4096) = Ok [CBool false] s2 /\
  run (c_erase idcfg ex_fuel 0) s2 = Ok false s3 /\
  snd (stl_step (fst (stl_step ∅ (CInsert 0))) (CErase 0)) = CBool true /\
  run (c_get idcfg ex_fuel 5) (init_state 16 4 4096) = Ok (2 ^ 61 - 1)%N s4 /\
  snd (stl_step ∅ (CGet 5)) = CNum 0.
Proof.
  eexists _, (st_of (run (cops_prog idcfg ex_fuel [CInsert 0]) (init_state 16 4 4096))), _, _.
  split; [evalrun|]. split; [reflexivity|]. split; [apply ok_of; vm_compute; reflexivity|].
  split; [evalrun|]. split; [reflexivity|]. split; [evalrun|reflexivity].
Qed.
