(** What can stop a thread of the map while other threads run. *)
From Coq Require Import NArith Bool List.
From stdpp Require Import base list.
From Verif Require Import Word Prog HashMap Conc Spec Container ContainerThm SafeSpec LinSpec ConcSafeThm SafeDriver
  Examples ConcWitness.
Import ListNotations.
Open Scope nat_scope.

(** ** C69: concurrent calls stay inside the tables and their assertions hold *)

(** Whatever the threads call and however they interleave, resizes included, no thread follows a null pointer or
    indexes a table out of its range.  A thread of a build without assertions can only run out of the model's loop
    fuel or fail to allocate a table. *)
Theorem C69_memory : forall C cap ppl maxcap n todos sched i th o e,
  good_cap cap maxcap -> Forall (Forall legal_op) todos ->
  sy_thr (after C n (init_state cap ppl maxcap) todos sched) !! i = Some th -> th_cur th = Some (o, Err e) ->
  e = OutOfFuel \/ e = AllocFail \/ (e = AssertFail /\ ndebug C = false).
Proof. exact safe_memory. Qed.
Print Assumptions C69_memory.

(** Full statement, false (below): no assertion fails.  Proved, without increments: a thread that stops at a failed
    assertion has just loaded copyDone, so the assertion is [copyDone + workDone <= oldLen] (hashMap.hpp:131).  All
    the other assertions hold. *)
Theorem C69_assertions_partial : forall C cap ppl maxcap n todos sched i th o,
  good_cap cap maxcap -> Forall (Forall legal_op) todos -> Forall (Forall not_increment) todos ->
  sy_thr (after C n (init_state cap ppl maxcap) todos sched) !! i = Some th -> th_cur th = Some (o, Err AssertFail) ->
  exists s1 s2 th1 c k, sched = s1 ++ i :: s2 /\
    sy_thr (after C n (init_state cap ppl maxcap) todos s1) !! i = Some th1 /\ th_cur th1 = Some (o, Vis c k) /\
    k (fst (exec c (sy_st (after C n (init_state cap ppl maxcap) todos s1)))) = Err AssertFail /\ loads_done c = true.
Proof. exact safe_assertions. Qed.
Print Assumptions C69_assertions_partial.

(** That assertion can fail: an entry is counted as copied by two threads.  Ten threads put and get; the second one
    stops at the assertion.  This is also an example of the hypotheses of both theorems. *)
Theorem C69_refuted : exists todos sched i th o,
  good_cap 8 1024 /\ Forall (Forall legal_op) todos /\ Forall (Forall not_increment) todos /\
  sy_thr (after idcfg ex_fuel (init_state 8 4 1024) todos sched) !! i = Some th /\ th_cur th = Some (o, Err AssertFail).
Proof. exact safe_refuted. Qed.
Print Assumptions C69_refuted.

(** With increments it is not the only one: a thread stops at [newVal != VINITIAL] (hashMap.hpp:1046) after a command other
    than a load of copyDone. *)
Theorem C69_increment_refuted : exists todos sched i, good_cap 8 1024 /\ Forall (Forall legal_op) todos /\
  (exists th o c k, sy_thr (after idcfg ex_fuel (init_state 8 4 1024) todos sched) !! i = Some th /\
     th_cur th = Some (o, Vis c k) /\ loads_done c = false) /\
  (exists th o, sy_thr (after idcfg ex_fuel (init_state 8 4 1024) todos (sched ++ [i])) !! i = Some th /\
     th_cur th = Some (o, Err AssertFail)).
Proof. exact safe_increment. Qed.
Print Assumptions C69_increment_refuted.

Example C69_example : Forall (Forall legal_op) w19_todos /\ Forall (Forall not_increment) w19_todos /\
  exists th o, sy_thr w69_end !! 1 = Some th /\ th_cur th = Some (o, Err AssertFail).
Proof. exact w69. Qed.

(** ** C59: the random driver, with several threads *)

(** A call of the container is one call of the map and a conversion of its result. *)
Theorem C59_container : forall C n o s, run (cop_prog C n o) s =
  match run (op_prog C n (map_op o)) s with Ok r s' => Ok (conv o r) s' | Fail e s' => Fail e s' end.
Proof. exact cop_op. Qed.
Print Assumptions C59_container.

(** With the C library's 31-bit random numbers, however the threads of the driver interleave, none follows a null pointer
    or leaves an array. *)
Theorem C59_threads : forall C cap ppl maxcap n oss sched i th o e, good_cap cap maxcap -> Forall drawn oss ->
  sy_thr (after C n (init_state cap ppl maxcap) (map (map map_op) oss) sched) !! i = Some th -> th_cur th = Some (o, Err e) ->
  e = OutOfFuel \/ e = AllocFail \/ (e = AssertFail /\ ndebug C = false).
Proof. exact driver_threads. Qed.
Print Assumptions C59_threads.

Example C59_threads_example : drawn [CInsert 6; CInsert 9; CIncrement 9].
Proof. exact drawn_example. Qed.
