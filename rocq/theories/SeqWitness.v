(** Proofs of the refutations of single-threaded properties, and of the steps between SeqThm.v and
    the statements in PropertiesSeq.v. *)
From Coq Require Import NArith Bool List Lia.
From stdpp Require Import base list gmap.
From Verif Require Import Word Prog HashMap Spec Abs Fuel SeqInv SeqApi SeqThm Examples.
Import ListNotations.
Open Scope nat_scope.

Definition alloc_failed {A} (o : outcome A) : bool := match o with Fail AllocFail _ => true | _ => false end.

Lemma ex_coll_run : exists s, run (ops_prog idcfg ex_fuel ex_colliding) (init_state 8 4 1024) = Fail AllocFail s.
Proof.
  assert (H : alloc_failed (run (ops_prog idcfg ex_fuel ex_colliding) (init_state 8 4 1024)) = true)
    by (evalrun).
  destruct (run _ _) as [? ?|[] s]; try discriminate H. exists s. reflexivity.
Qed.

Lemma c04_no_failure : forall C cap ppl maxcap n os e s,
  good_cap cap maxcap -> (maxcap <= 2 ^ 32)%N -> Forall legal_op os ->
  run (ops_prog C n os) (init_state cap ppl maxcap) = Fail e s ->
  e <> AssertFail /\ e <> NullDeref /\ e <> OutOfBounds.
Proof.
  intros C cap ppl maxcap n os e s Hc Hm Hl H.
  pose proof (seq_refines C cap ppl maxcap Hc Hm n os Hl) as P. rewrite H in P.
  destruct P as [->| ->]; repeat split; discriminate.
Qed.

Lemma c05_refuted : exists os, Forall legal_op os /\ length os = 11 /\
  forall n rs s, run (ops_prog idcfg n os) (init_state 8 4 1024) <> Ok rs s.
Proof.
  exists ex_colliding. split; [apply legal_ops_ok; evalrun|]. split; [reflexivity|].
  destruct ex_coll_run as [s Hs].
  exact (fail_for_all_fuel idcfg ex_fuel ex_colliding _ AllocFail s Hs ltac:(discriminate)).
Qed.

Lemma c06_refuted : exists os rs s s' m,
  Forall legal_op os /\ Forall no_increment os /\ reach idcfg (init_state 16 4 4096) os rs s /\ quiet s /\
  dsteps ∅ os rs m /\ base.size m = 15 /\ run size s = Ok 14%N s'.
Proof.
  set (os := ex_ops ++ [OGet (ex_key 4 9)]).
  assert (Hrun : run (ops_prog idcfg ex_fuel os) (init_state 16 4 4096) =
          Ok (results_of ex_fuel os ex_s0) (state_after ex_fuel os ex_s0)) by (evalrun).
  assert (Hl : Forall legal_op os) by (apply legal_ops_ok; evalrun).
  exists os, (results_of ex_fuel os ex_s0), (state_after ex_fuel os ex_s0), (st_of (run size (state_after ex_fuel os ex_s0))).
  assert (Hd : exists m, dsteps ∅ os (results_of ex_fuel os ex_s0) m /\ base.size m = 15).
  { eexists. split.
    - assert (Hres : results_of ex_fuel os ex_s0 = repeat (RVal NOTFOUND) 15 ++ [RVal 80]) by (evalrun).
      rewrite Hres. clear. subst os. unfold ex_ops. cbn [map seq app N.of_nat repeat].
      repeat first [apply dsteps_nil | eapply dsteps_cons; [split; [evalrun|reflexivity]|]].
    - evalrun. }
  destruct Hd as (m & Hd & Hsz). exists m. split; [exact Hl|]. split; [unfold os, ex_ops; cbn; repeat constructor|].
  split; [exact (ops_reach _ _ _ _ _ _ Hrun)|]. split; [evalrun|]. split; [exact Hd|].
  split; [exact Hsz|]. evalrun.
Qed.

Lemma c06_refuted_empty : exists os rs s s' s'' k m,
  Forall legal_op os /\ Forall no_increment os /\ reach idcfg (init_state 16 4 4096) os rs s /\ quiet s /\
  dsteps ∅ os rs m /\ m !! k = Some 96%N /\ run isEmpty s = Ok true s' /\ run (get idcfg ex_fuel k) s = Ok 96%N s''.
Proof.
  set (os := ex_ops ++ [OGet (ex_key 4 9)] ++ map (fun i => ORemove (ex_key 4 (N.of_nat i))) (seq 0 10) ++ map (fun i => ORemove (ex_key 12 (N.of_nat i))) (seq 0 4)).
  assert (Hrun : run (ops_prog idcfg ex_fuel os) (init_state 16 4 4096) =
          Ok (results_of ex_fuel os ex_s0) (state_after ex_fuel os ex_s0)) by (evalrun).
  assert (Hl : Forall legal_op os) by (apply legal_ops_ok; evalrun).
  exists os, (results_of ex_fuel os ex_s0), (state_after ex_fuel os ex_s0), (st_of (run isEmpty (state_after ex_fuel os ex_s0))),
    (st_of (run (get idcfg ex_fuel (ex_key 20 0)) (state_after ex_fuel os ex_s0))), (ex_key 20 0).
  assert (Hd : exists m, dsteps ∅ os (results_of ex_fuel os ex_s0) m /\ m !! ex_key 20 0 = Some 96%N).
  { eexists. split.
    - assert (Hres : results_of ex_fuel os ex_s0 = repeat (RVal NOTFOUND) 15 ++ [RVal 80] ++ repeat (RBool true) 14) by (evalrun).
      rewrite Hres. clear. subst os. unfold ex_ops. cbn [map seq app N.of_nat repeat].
      repeat first [apply dsteps_nil | eapply dsteps_cons; [split; [evalrun|reflexivity]|]].
    - evalrun. }
  destruct Hd as (m & Hd & Hk). exists m. split; [exact Hl|]. split; [unfold os, ex_ops; cbn; repeat constructor|].
  split; [exact (ops_reach _ _ _ _ _ _ Hrun)|]. split; [evalrun|]. split; [exact Hd|].
  split; [exact Hk|]. split; evalrun.
Qed.

Lemma c07_refuted :
  (exists s1 s2, run (get idcfg ex_fuel 8) (init_state 16 4 4096) = Ok NOTFOUND s1 /\
                 run (remove idcfg ex_fuel 8) (init_state 16 4 4096) = Ok true s2) /\
  (exists rs s s1 s2, Forall legal_op [OPut 8 0] /\ reach idcfg (init_state 16 4 4096) [OPut 8 0] rs s /\
                 run (get idcfg ex_fuel 8) s = Ok 0%N s1 /\ run (remove idcfg ex_fuel 8) s = Ok false s2).
Proof.
  split; [eexists _, _; split; evalrun|].
  exists (results_of ex_fuel [OPut 8 0] ex_s0), (state_after ex_fuel [OPut 8 0] ex_s0). eexists _, _.
  split; [apply legal_ops_ok; reflexivity|].
  split; [apply (ops_reach _ ex_fuel); evalrun|]. split; evalrun.
Qed.

Lemma c09_increment_partial : forall C cap ppl maxcap os rs s n k r s' n1 g s1 n2 g2 s2,
  good_cap cap maxcap -> (maxcap <= 2 ^ 32)%N ->
  reach C (init_state cap ppl maxcap) os rs s -> Forall legal_op os -> legal_key k ->
  run (incrementOp C n k) s = Ok r s' -> run (get C n1 k) s = Ok g s1 -> run (get C n2 k) s' = Ok g2 s2 ->
  r = g /\ (st_top s' = st_top s ->
            (g = NOTFOUND -> g2 = (8 * 1)%N) /\
            (forall c, g = (8 * c)%N -> (c + 3 < 2 ^ 61)%N -> g2 = (8 * (c + 1))%N)).
Proof.
  intros C cap ppl maxcap os rs s n k r s' n1 g s1 n2 g2 s2 Hc Hm Hr Hl Hk Hs Hg Hg2.
  destruct (seq_increment C cap ppl maxcap Hc Hm os rs s n k r s' n1 g s1 n2 g2 s2 Hr Hl Hk Hs Hg Hg2) as (H1 & _ & H2).
  split; [exact H1|]. intros Ht. split.
  - intros ->. rewrite (H2 Ht) by discriminate. reflexivity.
  - intros c -> Hb. rewrite (H2 Ht); [apply (counted_small maxcap Hm); exact Hb|].
    assert (2 ^ 61 = 2305843009213693952)%N as H61 by reflexivity. rewrite H61 in Hb.
    assert (INCREMENT_ARG = 18446744073709551592)%N as -> by reflexivity. lia.
Qed.

Lemma c09_refuted : exists os rs s k s' s1 s2,
  Forall legal_op os /\ legal_key k /\ reach idcfg (init_state 16 4 4096) os rs s /\
  run (get idcfg ex_fuel k) s = Ok NOTFOUND s1 /\
  run (incrementOp idcfg ex_fuel k) s = Ok NOTFOUND s' /\
  run (get idcfg ex_fuel k) s' = Ok MATCH_ANY s2 /\ MATCH_ANY <> (8 * 1)%N.
Proof.
  set (os := firstn 10 ex_ops).
  exists os, (results_of ex_fuel os ex_s0), (state_after ex_fuel os ex_s0), (ex_key 20 0). eexists _, _, _.
  split; [apply legal_ops_ok; evalrun|]. split; [apply legal_keyb_ok; reflexivity|].
  split; [apply (ops_reach _ ex_fuel); evalrun|].
  split; [evalrun|]. split; [evalrun|]. split; [evalrun|discriminate].
Qed.

Lemma c39_reads : forall C cap ppl maxcap os rs s n k r s',
  good_cap cap maxcap -> (maxcap <= 2 ^ 32)%N ->
  reach C (init_state cap ppl maxcap) os rs s -> Forall legal_op os -> legal_key k ->
  (run (get C n k) s = Ok r s' \/ exists b, run (containsKey C n k) s = Ok b s') ->
  (forall k' n1 g1 s1 n2 g2 s2, legal_key k' ->
     run (get C n1 k') s = Ok g1 s1 -> run (get C n2 k') s' = Ok g2 s2 -> g2 = g1) /\
  (quiet s ->
     st_top s' = st_top s /\ length (st_tabs s') = length (st_tabs s) /\
     (forall t i c, same_word (read_cell s' t i c) (read_cell s t i c)) /\
     (forall t T T', st_tabs s !! t = Some T -> st_tabs s' !! t = Some T' ->
        t_len T' = t_len T /\ t_size T' = t_size T /\ t_slots T' = t_slots T /\ t_copyIdx T' = t_copyIdx T /\
        t_copyDone T' = t_copyDone T /\ t_new T' = t_new T)).
Proof.
  intros C cap ppl maxcap os rs s n k r s' Hc Hm Hr Hl Hk Hs.
  destruct (seq_read_only C cap ppl maxcap Hc Hm os rs s n k r s' Hr Hl Hk Hs) as [H1 H2].
  split; [exact H1|]. intros Hq. exact (abs_eq s s' (H2 Hq)).
Qed.

