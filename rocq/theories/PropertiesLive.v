(** Progress in a table that has no successor. *)
From Coq Require Import NArith Bool List.
From stdpp Require Import base list gmap.
From Verif Require Import Word Prog HashMap Conc Spec LinSpec LiveSpec LiveThm Examples ConcWitness LinNewWitness LiveWitness.
Import ListNotations.
Open Scope nat_scope.

(** ** C20: lock-freedom *)

(** Full statement, false (C20_refuted): every thread that keeps running completes its calls, also while a table is being
    copied.  Proved: as long as the table has not been given a successor, nothing fails, and a thread that has made a
    number of steps proportional to the number of its calls has completed all of them, whatever the other threads do;
    they may be suspended anywhere or race for the same keys.  The bound for one call grows with the number of calls of
    all threads, because each write of another call can make it retry. *)
Theorem C20_unresized_partial : forall C cap ppl maxcap n todos sched,
  good_cap cap maxcap -> (2 * N.of_nat cap <= maxcap)%N -> (maxcap <= 2 ^ 32)%N -> Forall (Forall legal_op) todos ->
  enough_fuel cap (length (concat todos)) n ->
  unresized (sy_st (after C n (init_state cap ppl maxcap) todos sched)) ->
  ~ some_failure (after C n (init_state cap ppl maxcap) todos sched) /\
  forall i os, todos !! i = Some os -> length os * call_steps cap (length (concat todos)) <= steps_of i sched ->
    all_returned (after C n (init_state cap ppl maxcap) todos sched) i.
Proof. exact live_final. Qed.
Print Assumptions C20_unresized_partial.

(** With few keys, and no two threads that insert the same new key at the same time, the table never gets a successor. *)
Theorem C20_few_keys_partial : forall C cap ppl maxcap n todos sched,
  good_cap cap maxcap -> (2 * N.of_nat cap <= maxcap)%N -> (maxcap <= 2 ^ 32)%N -> Forall (Forall legal_op) todos ->
  enough_fuel cap (length (concat todos)) n ->
  no_insert_race (sy_hist (after C n (init_state cap ppl maxcap) todos sched)) ->
  forall ks, writes_among ks todos -> length ks < Nat.min cap (S REPROBE_LIMIT) ->
  ~ some_failure (after C n (init_state cap ppl maxcap) todos sched) /\
  forall i os, todos !! i = Some os -> length os * call_steps cap (length (concat todos)) <= steps_of i sched ->
    all_returned (after C n (init_state cap ppl maxcap) todos sched) i.
Proof. exact live_few. Qed.
Print Assumptions C20_few_keys_partial.

Example C20_example_execution : lv_y = after idcfg ex_fuel (init_state 8 4 1024) lv_todos (segs lv_sched).
Proof. exact eq_refl. Qed.
Example C20_example_hypotheses : good_cap 8 1024 /\ (2 * N.of_nat 8 <= 1024)%N /\ (1024 <= 2 ^ 32)%N /\ Forall (Forall legal_op) lv_todos /\
  enough_fuel 8 (length (concat lv_todos)) ex_fuel /\ enough_fuel 8 1 ex_fuel /\ unresized (sy_st lv_y) /\
  length (nth 0 lv_todos []) * call_steps 8 (length (concat lv_todos)) <= steps_of 0 (segs lv_sched).
Proof. exact lv_hyps. Qed.
(** The hypotheses of the second theorem. *)
Example C20_example_few_keys : Forall (Forall legal_op) nw_todos /\ Forall (Forall not_increment) nw_todos /\
  no_insert_race (sy_hist nw_y) /\ unresized (sy_st nw_y) /\ writes_among [24; 32; 40]%N nw_todos /\ 3 < Nat.min 8 (S REPROBE_LIMIT).
Proof. exact nw_hyps. Qed.
(** The other two threads are suspended in the middle of calls on the same key. *)
Example C20_example_suspended : exists th1 th2 o1 p1 o2 p2, sy_thr lv_y !! 1 = Some th1 /\ th_cur th1 = Some (o1, p1) /\
  sy_thr lv_y !! 2 = Some th2 /\ th_cur th2 = Some (o2, p2).
Proof. exact lv_stuck. Qed.
Example C20_example_history : sy_hist lv_y =
  [ERes 0 (ORemove 24) (RBool true); EInv 0 (ORemove 24); ERes 0 (OPut 24 80) (RVal NOTFOUND); EInv 2 (OIncrement 24); EInv 1 (OPut 24 88);
   EInv 0 (OPut 24 80)]%N.
Proof. exact lv_hist. Qed.

(** ** C41: a call that runs alone returns *)

(** Full statement, false (C41_refuted): also when the table has a successor or gets one during the call.  Proved: in every
    state that concurrent calls can reach without giving the table a successor, even with calls of other threads
    suspended anywhere, a call that runs alone returns, or it has given the table a successor. *)
Theorem C41_unresized_partial : forall C cap ppl maxcap n todos sched,
  good_cap cap maxcap -> (2 * N.of_nat cap <= maxcap)%N -> (maxcap <= 2 ^ 32)%N -> Forall (Forall legal_op) todos ->
  enough_fuel cap (length (concat todos)) n ->
  unresized (sy_st (after C n (init_state cap ppl maxcap) todos sched)) ->
  forall m o, legal_op o -> enough_fuel cap 1 m ->
  returned_or_resized (run (op_prog C m o) (sy_st (after C n (init_state cap ppl maxcap) todos sched))).
Proof. exact live_alone. Qed.
Print Assumptions C41_unresized_partial.

Example C41_example : exists s', run (op_prog idcfg ex_fuel (OPut 24 96)) (sy_st lv_y) = Ok (RVal NOTFOUND) s' /\ unresized s'.
Proof. exact lv_alone. Qed.
