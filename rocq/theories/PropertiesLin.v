(** Linearizability of concurrent executions on stored keys. *)
From Coq Require Import NArith Bool List.
From stdpp Require Import base list gmap.
From Verif Require Import Word Prog HashMap Conc Spec LinSpec LinThm Examples LinWitness.
Import ListNotations.
Open Scope nat_scope.

(** ** C11: get, put and remove on present keys are linearizable *)

(** Full statement, false (below): with [lstep] instead of [wstep], for all calls of get, put and remove.  Proved: the
    same with [wstep], which lets put return the deletion mark with the unpersisted mark for an absent key; and this for
    all calls except increment.  The dictionary [m] is what the single-threaded calls [os] left; the
    keys concerned are those [m] holds when the threads start. *)
Theorem C11_linearizable_partial : forall C cap ppl maxcap os rs s,
  good_cap cap maxcap -> (maxcap <= 2 ^ 32)%N -> Forall legal_op os ->
  reach C (init_state cap ppl maxcap) os rs s -> quiet s ->
  exists m, dsteps ∅ os rs m /\ forall n todos sched, calls_on_stored m not_increment todos ->
    linearizable wstep m (sy_hist (after C n s todos sched)).
Proof. exact lin_main. Qed.
Print Assumptions C11_linearizable_partial.

(** The full statement for executions without removals (get, containsKey and put). *)
Theorem C11_without_removals : forall C cap ppl maxcap os rs s,
  good_cap cap maxcap -> (maxcap <= 2 ^ 32)%N -> Forall legal_op os ->
  reach C (init_state cap ppl maxcap) os rs s -> quiet s ->
  exists m, dsteps ∅ os rs m /\ forall n todos sched, calls_on_stored m readput todos ->
    linearizable lstep m (sy_hist (after C n s todos sched)).
Proof. exact lin_readput. Qed.
Print Assumptions C11_without_removals.

(** In these executions no assertion fails, no null pointer is followed and no access is out of range. *)
Theorem C11_no_failure : forall C cap ppl maxcap os rs s,
  good_cap cap maxcap -> (maxcap <= 2 ^ 32)%N -> Forall legal_op os ->
  reach C (init_state cap ppl maxcap) os rs s -> quiet s ->
  exists m, dsteps ∅ os rs m /\ forall n todos sched i th o e, calls_on_stored m not_increment todos ->
    sy_thr (after C n s todos sched) !! i = Some th -> th_cur th = Some (o, Err e) -> e = OutOfFuel.
Proof. exact lin_no_failure. Qed.
Print Assumptions C11_no_failure.

Example C11_example_start : good_cap 8 1024 /\ (1024 <= 2 ^ 32)%N /\ Forall legal_op [OPut 24 80]%N /\
  reach idcfg (init_state 8 4 1024) [OPut 24 80]%N [RVal NOTFOUND] lw_s /\ quiet lw_s /\
  (forall m, dsteps ∅ [OPut 24 80]%N [RVal NOTFOUND] m -> m = lw_m).
Proof. exact lw_start. Qed.
Example C11_example_calls : calls_on_stored lw_m readput lx_todos.
Proof. exact lx_ops. Qed.
Example C11_example_history : sy_hist (after idcfg ex_fuel lw_s lx_todos lx_sched) =
  [ERes 0 (OGet 24) (RVal 88); EInv 0 (OGet 24); ERes 0 (OPut 24 88) (RVal 96); ERes 2 (OContains 24) (RBool true);
   EInv 2 (OContains 24); ERes 1 (OPut 24 96) (RVal 80); EInv 1 (OPut 24 96); EInv 0 (OPut 24 88)]%N.
Proof. exact lx_hist. Qed.

(** A put that loses twice against removals returns the deletion mark, which is not "not found". *)
Theorem C11_refuted : exists os rs s m todos sched, Forall legal_op os /\
  reach idcfg (init_state 8 4 1024) os rs s /\ quiet s /\ dsteps ∅ os rs m /\ calls_on_stored m getputremove todos /\
  ~ linearizable lstep m (sy_hist (after idcfg ex_fuel s todos sched)).
Proof. exact c11_refuted. Qed.
Print Assumptions C11_refuted.
