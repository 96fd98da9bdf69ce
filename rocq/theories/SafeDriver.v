(** The random driver with several threads: its calls are legal, so ConcSafeThm.v applies. *)
From Coq Require Import NArith Bool List Lia.
From stdpp Require Import base list.
From Verif Require Import Word Prog HashMap Abs Conc Spec Codec Container ContainerSpec ContainerThm Harness HarnessSpec HarnessMisc
  SafeSpec LinSpec ConcSafeThm Examples.
Import ListNotations.
Open Scope nat_scope.

Lemma cop_op C n o s : run (cop_prog C n o) s =
  match run (op_prog C n (map_op o)) s with Ok r s' => Ok (conv o r) s' | Fail e s' => Fail e s' end.
Proof.
  destruct o; cbn [cop_prog map_op op_prog]; unfold c_insert, c_erase, c_contains, c_get, c_count;
    try (rewrite !run_bind; match goal with |- context [run ?p s] => destruct (run p s) end; reflexivity).
  change (c_increment C n el) with (incrementOp C n (encode_el el)).
  rewrite !run_bind. destruct (run (incrementOp C n (encode_el el)) s); reflexivity.
Qed.

Lemma drawn_legal os : drawn os -> Forall legal_rop os.
Proof.
  intros (k1 & k2 & rs & rs' & os1 & os2 & Hr & H1 & H2 & ->). assert (Hr' : forall r, In r rs -> legal_el r).
  { intros r Hi. specialize (Hr r Hi). unfold legal_el. assert (2 ^ 31 = 2147483648)%N as E1 by reflexivity.
    assert (2 ^ 61 = 2305843009213693952)%N as E2 by reflexivity. rewrite E1 in Hr. rewrite E2. lia. }
  destruct (c59_prefix _ _ _ _ Hr' H1) as (L1 & Hin).
  pose proof (c59_main _ _ _ (fun r Hi => Hr' r (Hin r Hi)) H2) as L2. apply Forall_app. split; assumption.
Qed.

Lemma driver_threads C cap ppl maxcap n oss sched i th o e : good_cap cap maxcap -> Forall drawn oss ->
  sy_thr (after C n (init_state cap ppl maxcap) (map (map map_op) oss) sched) !! i = Some th -> th_cur th = Some (o, Err e) ->
  e = OutOfFuel \/ e = AllocFail \/ (e = AssertFail /\ ndebug C = false).
Proof.
  intros Hc Hd. apply safe_memory; [exact Hc|]. apply List.Forall_forall. intros l Hl. apply in_map_iff in Hl as (os & <- & Ho).
  apply List.Forall_forall. intros x Hx. apply in_map_iff in Hx as (c & <- & Hx). apply legal_rop_op.
  rewrite List.Forall_forall in Hd. pose proof (drawn_legal _ (Hd _ Ho)) as H. rewrite List.Forall_forall in H. exact (H _ Hx).
Qed.

Example drawn_example : drawn [CInsert 6; CInsert 9; CIncrement 9].
Proof.
  exists 2, 2, [1; 6; 4; 9; 8; 9; 5]%N, [9; 8; 9; 5]%N, [CInsert 6], [CInsert 9; CIncrement 9].
  split; [|split; [reflexivity|split; reflexivity]]. intros r Hr. apply N.ltb_lt. revert r Hr. apply List.forallb_forall. vm_compute. reflexivity.
Qed.
