(** Linearizability of executions in which the map grows between the concurrent phases. *)
From Coq Require Import NArith Bool List.
From stdpp Require Import base list gmap.
From Verif Require Import Word Prog HashMap Conc Spec LinSpec PhaseSpec PhaseThm Examples ConcWitness LinNewWitness PhaseWitness GrowWitness SeqApi.
Import ListNotations.
Open Scope nat_scope.

(** ** C45: calls on an initially empty map are linearizable, when it only grows while one thread runs *)

(** Not covered by [phased]: threads that run together while the map grows; then it is false, see [C45_refuted_growth]. *)
Theorem C45_phases : forall C cap ppl maxcap n todos y,
  good_cap cap maxcap -> (maxcap <= 2 ^ 32)%N -> Forall (Forall legal_op) todos -> Forall (Forall not_increment) todos ->
  phased C n (start (init_state cap ppl maxcap) todos) y ->
  linearizable wstep ∅ (sy_hist y).
Proof. exact phased_linearizable. Qed.
Print Assumptions C45_phases.

(** The map grows, two threads use it together, the map grows again. *)
Example C45_phases_example_capacity : good_cap 8 1024 /\ (1024 <= 2 ^ 32)%N.
Proof. exact nw_cap. Qed.
Example C45_phases_example_calls : ps_start = start (init_state 8 4 1024) ps_todos /\
  Forall (Forall legal_op) ps_todos /\ Forall (Forall not_increment) ps_todos.
Proof. exact (conj eq_refl ps_hyps). Qed.
Example C45_phases_example_phases : phased idcfg ex_fuel ps_start ps_3.
Proof. exact ps_phased. Qed.
Example C45_phases_example_grown : st_top (sy_st ps_start) = 0 /\ st_top (sy_st ps_1) = 1 /\ st_top (sy_st ps_2) = 1 /\
  st_top (sy_st ps_3) = 2 /\ length (sy_hist ps_3) = 48.
Proof. exact ps_grown. Qed.
Example C45_phases_example_together : sy_hist ps_2 = ps_hist ++ sy_hist ps_1.
Proof. exact ps_together. Qed.

(** When the map grows while several threads use it, this is false, also without removals and when the insertions come one
    after the other: of the threads below, one has inserted its keys before another one starts to insert, and the others
    only read.  A put that has returned is not seen by a later get. *)
Theorem C45_refuted_growth : exists todos sched, Forall (Forall legal_op) todos /\ Forall (Forall keeps) todos /\
  Forall (Forall not_increment) todos /\ inserts_alone (sy_hist (after idcfg ex_fuel (init_state 8 4 1024) todos sched)) /\
  ~ linearizable wstep ∅ (sy_hist (after idcfg ex_fuel (init_state 8 4 1024) todos sched)) /\
  ~ linearizable nstep ∅ (sy_hist (after idcfg ex_fuel (init_state 8 4 1024) todos sched)).
Proof. exact gr_refuted. Qed.
Print Assumptions C45_refuted_growth.

(** ** C46: when the map grows, counts are lost, even with one thread *)
Theorem C46_refuted_growth : exists todos sched, Forall (Forall legal_op) todos /\ Forall (Forall counting) todos /\
  inserts_alone (sy_hist (after idcfg ex_fuel (init_state 8 4 1024) todos sched)) /\
  ~ counts_right (sy_hist (after idcfg ex_fuel (init_state 8 4 1024) todos sched)).
Proof. exact gi_refuted. Qed.
Print Assumptions C46_refuted_growth.

(** ** C41: a call that runs alone between the phases returns *)

(** Whenever nobody is in a call, the map is the dictionary that the atomic operations of the history leave: every sequence of
    calls that one thread then makes alone returns their results, or reports that there is no room for a larger table. *)
Theorem C41_phases_partial : forall C cap ppl maxcap n todos y,
  good_cap cap maxcap -> (maxcap <= 2 ^ 32)%N -> Forall (Forall legal_op) todos -> Forall (Forall not_increment) todos ->
  phased C n (start (init_state cap ppl maxcap) todos) y -> idle y ->
  exists d st, atomic wstep ∅ (sy_hist y) d st /\ (forall i, st i = LinSpec.Idle) /\
    forall l os, CALL maxcap <= l -> Forall legal_op os ->
    match run (ops_prog C l os) (sy_st y) with
    | Ok rs _ => exists d', dsteps d os rs d'
    | Fail e _ => e = AllocFail
    end.
Proof. exact phased_total. Qed.
Print Assumptions C41_phases_partial.

(** The execution above; twenty-five more puts make the map grow again. *)
Example C41_phases_example : idle ps_3 /\
  exists rs s, run (ops_prog idcfg (CALL 1024) ps_more) (sy_st ps_3) = Ok rs s /\ Forall legal_op ps_more /\ st_top s = 3.
Proof. exact ps_alone. Qed.
