(** Linearizability and counting in a map that starts empty. *)
From Coq Require Import NArith Bool List.
From stdpp Require Import base list gmap.
From Verif Require Import Word Prog HashMap Conc Spec LinSpec LinNewThm Examples ConcWitness LinNewWitness.
Import ListNotations.
Open Scope nat_scope.

(** ** C45: calls on an initially empty map are linearizable *)

(** Full statement, false (below): without the condition [no_insert_race].  Proved: when no two threads insert the same
    new key at the same time, for all calls except increment, as long as the table has not been given a successor.  As
    in C11, [wstep] lets put return the deletion mark with the unpersisted mark for an absent key.  After a
    resize by one thread alone: C45_phases in PropertiesPhase.v.  During a resize that several threads take part in it is
    false: C45_refuted_growth there. *)
Theorem C45_linearizable_partial : forall C cap ppl maxcap n todos sched,
  good_cap cap maxcap -> (maxcap <= 2 ^ 32)%N -> Forall (Forall legal_op) todos ->
  no_insert_race (sy_hist (after C n (init_state cap ppl maxcap) todos sched)) ->
  Forall (Forall not_increment) todos ->
  unresized (sy_st (after C n (init_state cap ppl maxcap) todos sched)) ->
  linearizable wstep ∅ (sy_hist (after C n (init_state cap ppl maxcap) todos sched)).
Proof. exact new_lin. Qed.
Print Assumptions C45_linearizable_partial.

(** Without removals, with increments: results are exact up to the unpersisted mark. *)
Theorem C45_without_removals : forall C cap ppl maxcap n todos sched,
  good_cap cap maxcap -> (maxcap <= 2 ^ 32)%N -> Forall (Forall legal_op) todos ->
  no_insert_race (sy_hist (after C n (init_state cap ppl maxcap) todos sched)) ->
  Forall (Forall keeps) todos -> (N.of_nat (length (concat todos)) < 2 ^ 59)%N ->
  unresized (sy_st (after C n (init_state cap ppl maxcap) todos sched)) ->
  linearizable nstep ∅ (sy_hist (after C n (init_state cap ppl maxcap) todos sched)).
Proof. exact new_nstep. Qed.
Print Assumptions C45_without_removals.

(** With few keys the table is never given a successor, and no assertion fails, no null pointer is followed and no access
    is out of range. *)
Theorem C45_few_keys : forall C cap ppl maxcap n todos sched,
  good_cap cap maxcap -> (maxcap <= 2 ^ 32)%N -> Forall (Forall legal_op) todos ->
  no_insert_race (sy_hist (after C n (init_state cap ppl maxcap) todos sched)) ->
  forall ks, writes_among ks todos -> length ks < Nat.min cap (S REPROBE_LIMIT) ->
  unresized (sy_st (after C n (init_state cap ppl maxcap) todos sched)) /\
  forall i th o e, sy_thr (after C n (init_state cap ppl maxcap) todos sched) !! i = Some th ->
    th_cur th = Some (o, Err e) -> e = OutOfFuel.
Proof. exact new_few. Qed.
Print Assumptions C45_few_keys.

Example C45_example_capacity : good_cap 8 1024 /\ (1024 <= 2 ^ 32)%N.
Proof. exact nw_cap. Qed.
Example C45_example_execution : nw_y = after idcfg ex_fuel (init_state 8 4 1024) nw_todos (segs nw_sched).
Proof. exact eq_refl. Qed.
Example C45_example_hypotheses : Forall (Forall legal_op) nw_todos /\ Forall (Forall not_increment) nw_todos /\
  no_insert_race (sy_hist nw_y) /\ unresized (sy_st nw_y) /\ writes_among [24; 32; 40]%N nw_todos /\ 3 < Nat.min 8 (S REPROBE_LIMIT).
Proof. exact nw_hyps. Qed.
Example C45_example_history : sy_hist nw_y =
  [ERes 2 (OGet 32) (RVal 88); EInv 2 (OGet 32); ERes 2 (OReplace 40 96 104) (RBool true); EInv 2 (OReplace 40 96 104);
   ERes 2 (OPut 40 96) (RVal NOTFOUND); ERes 0 (OPutIfAbsent 32 88) (RVal NOTFOUND); EInv 0 (OPutIfAbsent 32 88);
   ERes 0 (OPut 24 80) (RVal NOTFOUND); EInv 2 (OPut 40 96); ERes 1 (ORemove 24) (RBool true); EInv 1 (ORemove 24);
   ERes 1 (OGet 24) (RVal NOTFOUND); EInv 1 (OGet 24); EInv 0 (OPut 24 80)]%N.
Proof. exact nw_hist. Qed.

(** Two threads put the same new key, and both find no previous value. *)
Theorem C45_refuted : exists todos sched, Forall (Forall legal_op) todos /\ Forall (Forall not_increment) todos /\
  unresized (sy_st (after idcfg ex_fuel (init_state 8 4 1024) todos sched)) /\
  ~ linearizable wstep ∅ (sy_hist (after idcfg ex_fuel (init_state 8 4 1024) todos sched)).
Proof. exact np_refuted. Qed.
Print Assumptions C45_refuted.

(** ** C46: concurrent increments are not lost *)

(** Full statement, false (below): without the condition [no_insert_race].  Proved: when the first increment of each key
    has returned before another thread starts to increment it, as long as the table has not been given a successor.  When
    the map grows it is false: C46_refuted_growth in PropertiesPhase.v. *)
Theorem C46_not_lost_partial : forall C cap ppl maxcap n todos sched,
  good_cap cap maxcap -> (maxcap <= 2 ^ 32)%N -> Forall (Forall legal_op) todos ->
  no_insert_race (sy_hist (after C n (init_state cap ppl maxcap) todos sched)) ->
  Forall (Forall counting) todos -> (N.of_nat (length (concat todos)) < 2 ^ 59)%N ->
  unresized (sy_st (after C n (init_state cap ppl maxcap) todos sched)) ->
  counts_right (sy_hist (after C n (init_state cap ppl maxcap) todos sched)) /\
  tickets_distinct (sy_hist (after C n (init_state cap ppl maxcap) todos sched)).
Proof. exact new_counts. Qed.
Print Assumptions C46_not_lost_partial.

Example C46_example_execution : nc_y = after idcfg ex_fuel (init_state 8 4 1024) nc_todos (segs nc_sched).
Proof. exact eq_refl. Qed.
Example C46_example_hypotheses : Forall (Forall legal_op) nc_todos /\ Forall (Forall counting) nc_todos /\ Forall (Forall keeps) nc_todos /\
  no_insert_race (sy_hist nc_y) /\ unresized (sy_st nc_y) /\ (N.of_nat (length (concat nc_todos)) < 2 ^ 59)%N.
Proof. exact nc_hyps. Qed.
Example C46_example_history : sy_hist nc_y =
  [ERes 2 (OGet 24) (RVal 16); ERes 1 (OIncrement 24) (RVal 16); EInv 2 (OGet 24); ERes 0 (OIncrement 24) (RVal 8);
   EInv 1 (OIncrement 24); EInv 0 (OIncrement 24); ERes 0 (OIncrement 24) (RVal NOTFOUND); EInv 0 (OIncrement 24)]%N.
Proof. exact nc_hist. Qed.

(** Two threads increment a new counter; both are told that there was none, and it stands at one. *)
Theorem C46_refuted : exists todos sched, Forall (Forall legal_op) todos /\ Forall (Forall counting) todos /\
  unresized (sy_st (after idcfg ex_fuel (init_state 8 4 1024) todos sched)) /\
  ~ counts_right (sy_hist (after idcfg ex_fuel (init_state 8 4 1024) todos sched)) /\
  ~ tickets_distinct (sy_hist (after idcfg ex_fuel (init_state 8 4 1024) todos sched)).
Proof. exact ni_refuted. Qed.
Print Assumptions C46_refuted.
