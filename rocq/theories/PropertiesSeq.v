(** Single-threaded properties.  Each theorem is followed by an example showing that its hypotheses
    are met by a concrete run. *)
From Coq Require Import NArith Bool List Lia.
From stdpp Require Import base list gmap.
From Verif Require Import Word Prog HashMap Spec Abs Fuel SeqInv SeqApi SeqThm Examples SeqWitness.
Import ListNotations.
Open Scope nat_scope.

(** ** C01: sequential map semantics across resizes *)

(** Any sequence of legal calls on a new map returns what the dictionary of Spec.v returns, call by
    call; or an allocation failure is reported; or the fuel did not suffice. *)
Theorem C01_sequential_map : forall C cap ppl maxcap n os,
  good_cap cap maxcap -> (maxcap <= 2 ^ 32)%N -> Forall legal_op os ->
  match run (ops_prog C n os) (init_state cap ppl maxcap) with
  | Ok rs _ => exists m, dsteps ∅ os rs m
  | Fail e _ => e = AllocFail \/ e = OutOfFuel
  end.
Proof. intros C cap ppl maxcap n os Hc Hm Hl. exact (seq_refines C cap ppl maxcap Hc Hm n os Hl). Qed.
Print Assumptions C01_sequential_map.

(** A run with two resizes, the second in the middle of the first. *)
Example C01_example : good_cap 16 4096 /\ Forall legal_op ex_ops /\
  run (ops_prog idcfg ex_fuel ex_ops) (init_state 16 4 4096) = Ok ex_rs ex_s /\
  map t_len (st_tabs ex_s) = [16; 32; 64]%nat.
Proof. split; [exact ex_cap16|]. split; [exact ex_legal|]. split; [exact ex_run|]. evalrun. Qed.

(** The same in terms of get at the end: [m] is the dictionary of the calls made so far. *)
Theorem C01_get_returns_last_write : forall C cap ppl maxcap os rs s,
  good_cap cap maxcap -> (maxcap <= 2 ^ 32)%N -> Forall legal_op os ->
  reach C (init_state cap ppl maxcap) os rs s ->
  exists m, dsteps ∅ os rs m /\
    forall k n g s', legal_key k -> run (get C n k) s = Ok g s' -> g = lookup_result m k.
Proof. intros C cap ppl maxcap os rs s Hc Hm Hl Hr. exact (seq_dict C cap ppl maxcap Hc Hm os rs s Hr Hl). Qed.
Print Assumptions C01_get_returns_last_write.

Example C01_get_example : reach idcfg (init_state 16 4 4096) ex_ops ex_rs ex_s /\
  exists s', run (get idcfg ex_fuel (ex_key 4 9)) ex_s = Ok 80%N s' /\ st_top s' <> st_top ex_s.
Proof.
  split; [exact (ops_reach _ _ _ _ _ _ ex_run)|].
  exists (state_after ex_fuel [OGet (ex_key 4 9)] ex_s). split; [evalrun|vm_compute; discriminate].
Qed.

(** ** C02: operations touch only their own key *)

Theorem C02_frame : forall C cap ppl maxcap os rs s n o r s' k n1 n2 g1 s1 g2 s2,
  good_cap cap maxcap -> (maxcap <= 2 ^ 32)%N ->
  reach C (init_state cap ppl maxcap) os rs s -> Forall legal_op os -> legal_op o ->
  legal_key k -> op_key o <> Some k ->
  run (op_prog C n o) s = Ok r s' ->
  run (get C n1 k) s = Ok g1 s1 -> run (get C n2 k) s' = Ok g2 s2 -> g2 = g1.
Proof.
  intros C cap ppl maxcap os rs s n o r s' k n1 n2 g1 s1 g2 s2 Hc Hm Hr Hl Ho Hk Hne Hs Hg1 Hg2.
  exact (seq_frame C cap ppl maxcap Hc Hm os rs s n o r s' k n1 n2 g1 s1 g2 s2 Hr Hl Ho Hk Hne Hs Hg1 Hg2).
Qed.
Print Assumptions C02_frame.

(** An insert that makes the table grow, seen by a get of another key. *)
Example C02_example : let os := firstn 14 ex_ops in let s := state_after ex_fuel os ex_s0 in
  let o := OPut (ex_key 20 0) 96 in let s' := state_after ex_fuel [o] s in
  run (ops_prog idcfg ex_fuel os) (init_state 16 4 4096) = Ok (results_of ex_fuel os ex_s0) s /\
  run (op_prog idcfg ex_fuel o) s = Ok (RVal NOTFOUND) s' /\
  st_top s' <> st_top s /\ op_key o <> Some (ex_key 4 9) /\
  (exists s1, run (get idcfg ex_fuel (ex_key 4 9)) s = Ok 80%N s1) /\
  (exists s2, run (get idcfg ex_fuel (ex_key 4 9)) s' = Ok 80%N s2).
Proof.
  cbv zeta. split; [evalrun|]. split; [evalrun|]. split; [vm_compute; discriminate|].
  split; [vm_compute; discriminate|]. split; eexists; evalrun.
Qed.

(** ** C03: conditional writes act only when their condition holds *)

(** [before] and [after] are what get returns for the key before and after the call. *)
Theorem C03_putIfAbsent : forall C cap ppl maxcap os rs s n k v r s' n1 n2 before s1 after s2,
  good_cap cap maxcap -> (maxcap <= 2 ^ 32)%N ->
  reach C (init_state cap ppl maxcap) os rs s -> Forall legal_op os -> legal_key k -> legal_val v ->
  run (putIfAbsent C n k v) s = Ok r s' ->
  run (get C n1 k) s = Ok before s1 -> run (get C n2 k) s' = Ok after s2 ->
  r = before /\ after = if (before =? NOTFOUND)%N then v else before.
Proof.
  intros C cap ppl maxcap os rs s n k v r s' n1 n2 b s1 a s2 Hc Hm Hr Hl Hk Hv Hs Hg1 Hg2.
  exact (seq_putIfAbsent C cap ppl maxcap Hc Hm os rs s n k v r s' n1 n2 b s1 a s2 Hr Hl Hk Hv Hs Hg1 Hg2).
Qed.
Print Assumptions C03_putIfAbsent.

Theorem C03_replace : forall C cap ppl maxcap os rs s n k old new r s' n1 n2 before s1 after s2,
  good_cap cap maxcap -> (maxcap <= 2 ^ 32)%N ->
  reach C (init_state cap ppl maxcap) os rs s -> Forall legal_op os -> legal_key k -> legal_val old -> legal_val new ->
  run (replace C n k old new) s = Ok r s' ->
  run (get C n1 k) s = Ok before s1 -> run (get C n2 k) s' = Ok after s2 ->
  r = (before =? old)%N /\ after = if (before =? old)%N then new else before.
Proof.
  intros C cap ppl maxcap os rs s n k old new r s' n1 n2 b s1 a s2 Hc Hm Hr Hl Hk Ho Hv Hs Hg1 Hg2.
  exact (seq_replace C cap ppl maxcap Hc Hm os rs s n k old new r s' n1 n2 b s1 a s2 Hr Hl Hk Ho Hv Hs Hg1 Hg2).
Qed.
Print Assumptions C03_replace.

Theorem C03_removeVal : forall C cap ppl maxcap os rs s n k v r s' n1 n2 before s1 after s2,
  good_cap cap maxcap -> (maxcap <= 2 ^ 32)%N ->
  reach C (init_state cap ppl maxcap) os rs s -> Forall legal_op os -> legal_key k -> legal_val v ->
  run (removeVal C n k v) s = Ok r s' ->
  run (get C n1 k) s = Ok before s1 -> run (get C n2 k) s' = Ok after s2 ->
  r = (before =? v)%N /\ after = if (before =? v)%N then NOTFOUND else before.
Proof.
  intros C cap ppl maxcap os rs s n k v r s' n1 n2 b s1 a s2 Hc Hm Hr Hl Hk Hv Hs Hg1 Hg2.
  exact (seq_removeVal C cap ppl maxcap Hc Hm os rs s n k v r s' n1 n2 b s1 a s2 Hr Hl Hk Hv Hs Hg1 Hg2).
Qed.
Print Assumptions C03_removeVal.

(** In a map in the middle of a migration: each condition once true, once false. *)
Example C03_example : reach idcfg (init_state 16 4 4096) ex_ops ex_rs ex_s /\ ~ quiet ex_s /\
  (exists s', run (putIfAbsent idcfg ex_fuel (ex_key 4 9) 8) ex_s = Ok 80%N s') /\
  (exists s', run (putIfAbsent idcfg ex_fuel (ex_key 28 0) 8) ex_s = Ok NOTFOUND s') /\
  (exists s', run (replace idcfg ex_fuel (ex_key 4 9) 80 8) ex_s = Ok true s') /\
  (exists s', run (replace idcfg ex_fuel (ex_key 4 9) 88 8) ex_s = Ok false s') /\
  (exists s', run (removeVal idcfg ex_fuel (ex_key 12 1) 88) ex_s = Ok true s') /\
  (exists s', run (removeVal idcfg ex_fuel (ex_key 12 1) 80) ex_s = Ok false s').
Proof.
  split; [exact (ops_reach _ _ _ _ _ _ ex_run)|]. split; [vm_compute; discriminate|].
  repeat split; eexists; evalrun.
Qed.

(** ** C04: no assertion failure or undefined access in single-threaded use *)

Theorem C04_no_failure : forall C cap ppl maxcap n os e s,
  good_cap cap maxcap -> (maxcap <= 2 ^ 32)%N -> Forall legal_op os ->
  run (ops_prog C n os) (init_state cap ppl maxcap) = Fail e s ->
  e <> AssertFail /\ e <> NullDeref /\ e <> OutOfBounds.
Proof. exact c04_no_failure. Qed.
Print Assumptions C04_no_failure.

Example C04_example : Forall legal_op ex_colliding /\
  exists s, run (ops_prog idcfg ex_fuel ex_colliding) (init_state 8 4 64) = Fail AllocFail s.
Proof.
  split; [apply legal_ops_ok; evalrun|]. eexists. evalrun.
Qed.

(** ** C05: every single-threaded operation terminates *)

(** With an amount of fuel that depends only on the device, every call returns or reports that
    no further table can be allocated.  What is missing: that no allocation fails on a large enough
    device; that is false, see [C05_refuted]. *)
Theorem C05_termination_partial : forall C cap ppl maxcap n os,
  good_cap cap maxcap -> (maxcap <= 2 ^ 32)%N -> Forall legal_op os -> CALL maxcap <= n ->
  match run (ops_prog C n os) (init_state cap ppl maxcap) with
  | Ok rs _ => exists m, dsteps ∅ os rs m
  | Fail e _ => e = AllocFail
  end.
Proof. intros C cap ppl maxcap n os Hc Hm Hl Hn. exact (seq_total C cap ppl maxcap Hc Hm n os Hl Hn). Qed.
Print Assumptions C05_termination_partial.

Example C05_example : CALL 64 <= ex_fuel /\ Forall legal_op (firstn 14 ex_ops) /\
  exists rs s, run (ops_prog idcfg ex_fuel (firstn 14 ex_ops)) (init_state 16 4 64) = Ok rs s.
Proof.
  split; [vm_compute; lia|]. split; [apply legal_ops_ok; evalrun|]. eexists _, _. evalrun.
Qed.

(** Eleven keys with the same home position: on a device of 1024 entries the eleventh insert returns for no
    fuel at all; the map keeps doubling the table (the number of slots in use is initialised
    with the capacity, hashMap.hpp:701-746, so ten reprobes always count as "full"). *)
Theorem C05_refuted : exists os, Forall legal_op os /\ length os = 11 /\
  forall n rs s, run (ops_prog idcfg n os) (init_state 8 4 1024) <> Ok rs s.
Proof. exact c05_refuted. Qed.
Print Assumptions C05_refuted.

(** ** C06: size() counts the present keys *)

(** As long as no call leaves a migration in progress.  What is missing: calls that do leave one,
    where the property is false ([C06_refuted]), and increments, which may store a reserved word. *)
Theorem C06_size_partial : forall C cap ppl maxcap os rs s x s',
  good_cap cap maxcap -> (maxcap <= 2 ^ 32)%N ->
  reach_quiet C (init_state cap ppl maxcap) os rs s -> Forall legal_op os -> Forall no_increment os ->
  run size s = Ok x s' -> exists m, dsteps ∅ os rs m /\ x = N.of_nat (base.size m).
Proof.
  intros C cap ppl maxcap os rs s x s' Hc Hm Hr Hl Hn Hs.
  exact (seq_size C cap ppl maxcap Hc Hm os rs s x s' Hr Hl Hn Hs).
Qed.
Print Assumptions C06_size_partial.

(** A history with a resize that leaves no migration in progress. *)
Example C06_example : exists rs s s',
  let os := map (fun i => OPut (ex_key (4 * N.of_nat i) 0) 80) (seq 0 9) ++ [ORemove (ex_key 4 0)] in
  reach_quiet idcfg (init_state 8 4 4096) os rs s /\ Forall legal_op os /\ Forall no_increment os /\
  length (st_tabs s) = 2 /\ run size s = Ok 8%N s'.
Proof.
  set (os := map _ _ ++ _). exists (default [] (ret_of (run_quiet idcfg ex_fuel os (init_state 8 4 4096)))).
  exists (st_of (run_quiet idcfg ex_fuel os (init_state 8 4 4096))). eexists. cbv zeta.
  split; [apply (run_quiet_ok _ ex_fuel); evalrun|].
  split; [apply legal_ops_ok; evalrun|]. split; [repeat constructor|].
  split; evalrun.
Qed.

(** After the nested resize of [ex_ops] fifteen keys are present, and size() reports fourteen. *)
Theorem C06_refuted : exists os rs s s' m,
  Forall legal_op os /\ Forall no_increment os /\ reach idcfg (init_state 16 4 4096) os rs s /\ quiet s /\
  dsteps ∅ os rs m /\ base.size m = 15 /\ run size s = Ok 14%N s'.
Proof. exact c06_refuted. Qed.
Print Assumptions C06_refuted.

(** isEmpty() says whether there is a key, under the same conditions. *)
Theorem C06_isEmpty_partial : forall C cap ppl maxcap os rs s b s',
  good_cap cap maxcap -> (maxcap <= 2 ^ 32)%N ->
  reach_quiet C (init_state cap ppl maxcap) os rs s -> Forall legal_op os -> Forall no_increment os ->
  run isEmpty s = Ok b s' -> exists m, dsteps ∅ os rs m /\ (b = true <-> m = ∅).
Proof.
  intros C cap ppl maxcap os rs s b s' Hc Hm Hr Hl Hn Hs.
  exact (seq_empty C cap ppl maxcap Hc Hm os rs s b s' Hr Hl Hn Hs).
Qed.
Print Assumptions C06_isEmpty_partial.

Example C06_example_isEmpty : exists rs s s',
  let os := [OPut (ex_key 4 0) 80; OPut (ex_key 8 0) 80; ORemove (ex_key 4 0); ORemove (ex_key 8 0)] in
  reach_quiet idcfg (init_state 8 4 4096) os rs s /\ Forall legal_op os /\ Forall no_increment os /\ run isEmpty s = Ok true s'.
Proof.
  set (os := [_; _; _; _]). exists (default [] (ret_of (run_quiet idcfg ex_fuel os (init_state 8 4 4096)))).
  exists (st_of (run_quiet idcfg ex_fuel os (init_state 8 4 4096))). eexists. cbv zeta.
  split; [apply (run_quiet_ok _ ex_fuel); evalrun|].
  split; [apply legal_ops_ok; evalrun|]. split; [repeat constructor|]. evalrun.
Qed.

(** When fourteen of the fifteen keys have been removed, isEmpty() returns true, and get finds the last one. *)
Theorem C06_refuted_isEmpty : exists os rs s s' s'' k m,
  Forall legal_op os /\ Forall no_increment os /\ reach idcfg (init_state 16 4 4096) os rs s /\ quiet s /\
  dsteps ∅ os rs m /\ m !! k = Some 96%N /\ run isEmpty s = Ok true s' /\ run (get idcfg ex_fuel k) s = Ok 96%N s''.
Proof. exact c06_refuted_empty. Qed.
Print Assumptions C06_refuted_isEmpty.

(** ** C07: remove(key) reports whether the key was present *)

(** What it reports instead: whether get would have returned something other than the word 0.
    In particular it is true for every absent key. *)
Theorem C07_remove_partial : forall C cap ppl maxcap os rs s n k b s' n1 g s1 n2 g2 s2,
  good_cap cap maxcap -> (maxcap <= 2 ^ 32)%N ->
  reach C (init_state cap ppl maxcap) os rs s -> Forall legal_op os -> legal_key k ->
  run (remove C n k) s = Ok b s' -> run (get C n1 k) s = Ok g s1 -> run (get C n2 k) s' = Ok g2 s2 ->
  b = negb (g =? 0)%N /\ g2 = NOTFOUND.
Proof.
  intros C cap ppl maxcap os rs s n k b s' n1 g s1 n2 g2 s2 Hc Hm Hr Hl Hk Hs Hg Hg2.
  exact (seq_remove C cap ppl maxcap Hc Hm os rs s n k b s' n1 g s1 n2 g2 s2 Hr Hl Hk Hs Hg Hg2).
Qed.
Print Assumptions C07_remove_partial.

(** True for an absent key, and false for a present one that maps to 0. *)
Theorem C07_refuted :
  (exists s1 s2, run (get idcfg ex_fuel 8) (init_state 16 4 4096) = Ok NOTFOUND s1 /\
                 run (remove idcfg ex_fuel 8) (init_state 16 4 4096) = Ok true s2) /\
  (exists rs s s1 s2, Forall legal_op [OPut 8 0] /\ reach idcfg (init_state 16 4 4096) [OPut 8 0] rs s /\
                 run (get idcfg ex_fuel 8) s = Ok 0%N s1 /\ run (remove idcfg ex_fuel 8) s = Ok false s2).
Proof. exact c07_refuted. Qed.
Print Assumptions C07_refuted.

(** ** C08: containsKey agrees with get *)

Theorem C08_containsKey : forall C cap ppl maxcap os rs s n k b s' n1 g s1,
  good_cap cap maxcap -> (maxcap <= 2 ^ 32)%N ->
  reach C (init_state cap ppl maxcap) os rs s -> Forall legal_op os -> legal_key k ->
  run (containsKey C n k) s = Ok b s' -> run (get C n1 k) s = Ok g s1 -> b = negb (g =? NOTFOUND)%N.
Proof.
  intros C cap ppl maxcap os rs s n k b s' n1 g s1 Hc Hm Hr Hl Hk Hs Hg.
  exact (seq_contains C cap ppl maxcap Hc Hm os rs s n k b s' n1 g s1 Hr Hl Hk Hs Hg).
Qed.
Print Assumptions C08_containsKey.

Example C08_example : reach idcfg (init_state 16 4 4096) ex_ops ex_rs ex_s /\
  (exists s', run (containsKey idcfg ex_fuel (ex_key 4 9)) ex_s = Ok true s') /\
  (exists s', run (containsKey idcfg ex_fuel (ex_key 28 0)) ex_s = Ok false s').
Proof. split; [exact (ops_reach _ _ _ _ _ _ ex_run)|]. split; eexists; evalrun. Qed.

(** ** C09: increment adds exactly one *)

(** Counts are stored shifted by three bits.  If the call does not move the map to another table, it stores
    count 1 for an absent key and adds one to a present count (below the reserved words); it always returns the
    previous word.  What is missing: calls during which the table grows, where the property is
    false ([C09_refuted]). *)
Theorem C09_increment_partial : forall C cap ppl maxcap os rs s n k r s' n1 g s1 n2 g2 s2,
  good_cap cap maxcap -> (maxcap <= 2 ^ 32)%N ->
  reach C (init_state cap ppl maxcap) os rs s -> Forall legal_op os -> legal_key k ->
  run (incrementOp C n k) s = Ok r s' -> run (get C n1 k) s = Ok g s1 -> run (get C n2 k) s' = Ok g2 s2 ->
  r = g /\ (st_top s' = st_top s ->
            (g = NOTFOUND -> g2 = (8 * 1)%N) /\
            (forall c, g = (8 * c)%N -> (c + 3 < 2 ^ 61)%N -> g2 = (8 * (c + 1))%N)).
Proof. exact c09_increment_partial. Qed.
Print Assumptions C09_increment_partial.

Example C09_example : let os := [OIncrement 8; OIncrement 8] in
  reach idcfg (init_state 16 4 4096) os (results_of ex_fuel os ex_s0) (state_after ex_fuel os ex_s0) /\
  st_top (state_after ex_fuel (os ++ [OIncrement 8]) ex_s0) = st_top (state_after ex_fuel os ex_s0) /\
  results_of ex_fuel (os ++ [OIncrement 8; OGet 8]) ex_s0 = [RVal NOTFOUND; RVal 8; RVal 16; RVal 24].
Proof.
  cbv zeta. split; [apply (ops_reach _ ex_fuel); evalrun|]. split; evalrun.
Qed.

(** An increment of an absent key during which the table grows stores the caller's dummy argument, a
    reserved word, instead of the count 1. *)
Theorem C09_refuted : exists os rs s k s' s1 s2,
  Forall legal_op os /\ legal_key k /\ reach idcfg (init_state 16 4 4096) os rs s /\
  run (get idcfg ex_fuel k) s = Ok NOTFOUND s1 /\
  run (incrementOp idcfg ex_fuel k) s = Ok NOTFOUND s' /\
  run (get idcfg ex_fuel k) s' = Ok MATCH_ANY s2 /\ MATCH_ANY <> (8 * 1)%N.
Proof. exact c09_refuted. Qed.
Print Assumptions C09_refuted.

(** ** C19, single-threaded: promotion loses nothing *)

(** Whatever a call on another key (or a get of this key) does to the tables, in particular when it moves
    the map to the next table, get returns the same for the key afterwards.  What is missing: concurrent
    calls; see [C19_refuted]. *)
Theorem C19_promotion_partial : forall C cap ppl maxcap os rs s n o r s' k n1 n2 g1 s1 g2 s2,
  good_cap cap maxcap -> (maxcap <= 2 ^ 32)%N ->
  reach C (init_state cap ppl maxcap) os rs s -> Forall legal_op os -> legal_op o -> legal_key k ->
  op_key o <> Some k \/ o = OGet k ->
  run (op_prog C n o) s = Ok r s' -> st_top s' <> st_top s ->
  run (get C n1 k) s = Ok g1 s1 -> run (get C n2 k) s' = Ok g2 s2 -> g2 = g1.
Proof.
  intros C cap ppl maxcap os rs s n o r s' k n1 n2 g1 s1 g2 s2 Hc Hm Hr Hl Ho Hk Hor Hs _ Hg1 Hg2.
  exact (seq_promote C cap ppl maxcap Hc Hm os rs s n o r s' k n1 n2 g1 s1 g2 s2 Hr Hl Ho Hk Hor Hs Hg1 Hg2).
Qed.
Print Assumptions C19_promotion_partial.

Example C19_example : reach idcfg (init_state 16 4 4096) ex_ops ex_rs ex_s /\
  exists s1, run (op_prog idcfg ex_fuel (OGet (ex_key 4 9))) ex_s = Ok (RVal 80) s1 /\ st_top s1 <> st_top ex_s.
Proof.
  split; [exact (ops_reach _ _ _ _ _ _ ex_run)|]. exists (state_after ex_fuel [OGet (ex_key 4 9)] ex_s).
  split; [evalrun|vm_compute; discriminate].
Qed.

(** ** C21, single-threaded: removed keys stay removed *)

(** What is missing: concurrent calls; see [C21_refuted]. *)
Theorem C21_removed_partial : forall C cap ppl maxcap os1 k os2 rs s n g s',
  good_cap cap maxcap -> (maxcap <= 2 ^ 32)%N ->
  reach C (init_state cap ppl maxcap) (os1 ++ ORemove k :: os2) rs s ->
  Forall legal_op (os1 ++ ORemove k :: os2) -> Forall (fun o => ~ writes o k) os2 ->
  run (get C n k) s = Ok g s' -> g = NOTFOUND.
Proof.
  intros C cap ppl maxcap os1 k os2 rs s n g s' Hc Hm Hr Hl Hf Hg.
  exact (seq_removed C cap ppl maxcap Hc Hm os1 k os2 rs s n g s' Hr Hl Hf Hg).
Qed.
Print Assumptions C21_removed_partial.

(** The removal is followed by two resizes. *)
Example C21_example : let os1 := firstn 5 ex_ops ++ [OPut (ex_key 8 0) 88] in
  let os2 := map (fun i => OPut (ex_key 4 (N.of_nat i)) 80) (seq 5 6) in
  let os := os1 ++ ORemove (ex_key 8 0) :: os2 in
  reach idcfg (init_state 8 4 4096) os (results_of ex_fuel os (init_state 8 4 4096)) (state_after ex_fuel os (init_state 8 4 4096)) /\
  st_top (state_after ex_fuel os (init_state 8 4 4096)) <> 0 /\
  Forall (fun o => ~ writes o (ex_key 8 0)) os2 /\
  exists s', run (get idcfg ex_fuel (ex_key 8 0)) (state_after ex_fuel os (init_state 8 4 4096)) = Ok NOTFOUND s'.
Proof.
  cbv zeta. split; [apply (ops_reach _ ex_fuel); evalrun|]. split; [vm_compute; discriminate|].
  split; [repeat constructor; cbn; discriminate|]. eexists. evalrun.
Qed.

(** ** C39: reads do not change the map *)

Theorem C39_reads : forall C cap ppl maxcap os rs s n k r s',
  good_cap cap maxcap -> (maxcap <= 2 ^ 32)%N ->
  reach C (init_state cap ppl maxcap) os rs s -> Forall legal_op os -> legal_key k ->
  (run (get C n k) s = Ok r s' \/ exists b, run (containsKey C n k) s = Ok b s') ->
  (forall k' n1 g1 s1 n2 g2 s2, legal_key k' ->
     run (get C n1 k') s = Ok g1 s1 -> run (get C n2 k') s' = Ok g2 s2 -> g2 = g1) /\
  (quiet s ->
     st_top s' = st_top s /\ length (st_tabs s') = length (st_tabs s) /\
     (forall t i c, same_word (read_cell s' t i c) (read_cell s t i c)) /\
     (forall t T T', st_tabs s !! t = Some T -> st_tabs s' !! t = Some T' ->
        t_len T' = t_len T /\ t_size T' = t_size T /\ t_slots T' = t_slots T /\ t_copyIdx T' = t_copyIdx T /\
        t_copyDone T' = t_copyDone T /\ t_new T' = t_new T)).
Proof. exact c39_reads. Qed.
Print Assumptions C39_reads.

(** A get that clears an unpersisted mark, and one that finishes a migration. *)
Example C39_example : let s := state_after ex_fuel [OPut 8 80] ex_s0 in let s' := state_after ex_fuel [OGet 8] s in
  reach idcfg (init_state 16 4 4096) [OPut 8 80] (results_of ex_fuel [OPut 8 80] ex_s0) s /\ quiet s /\
  run (get idcfg ex_fuel 8) s = Ok 80%N s' /\ read_cell s 0 8 CVal = 81%N /\ read_cell s' 0 8 CVal = 80%N /\
  reach idcfg (init_state 16 4 4096) ex_ops ex_rs ex_s /\
  st_top (state_after ex_fuel [OGet (ex_key 4 9)] ex_s) <> st_top ex_s.
Proof.
  cbv zeta. split; [apply (ops_reach _ ex_fuel); evalrun|]. split; [evalrun|].
  split; [evalrun|]. split; [evalrun|]. split; [evalrun|].
  split; [exact (ops_reach _ _ _ _ _ _ ex_run)|]. vm_compute. discriminate.
Qed.
