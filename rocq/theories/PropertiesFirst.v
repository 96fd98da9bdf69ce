(** Who reports a first insertion. *)
From Coq Require Import NArith Bool List.
From stdpp Require Import base list.
From Verif Require Import Word Prog HashMap Conc Spec ConcSpec LinSpec TraceSpec FirstPutSpec FirstPutThm Examples ConcWitness FirstPutWitness.
Import ListNotations.
Open Scope nat_scope.

(** ** C12: concurrent first inserts of one key agree on a single winner (false, see C12_refuted) *)

(** Full statement, false: exactly one of the calls put(k, v), putIfAbsent(k, v) on an absent key reports that the key was
    absent.  Proved, for the calls that neither remove nor count, as long as the table has no successor, and for every
    schedule: at most as many calls report it as the key has entries, and, once calls on the key have returned and none is
    in progress, at least one does. *)
Theorem C12_per_entry_partial : forall C cap ppl maxcap n todos sched k,
  Forall (Forall legal_op) todos -> Forall (Forall stores) todos -> legal_key k ->
  let y := after C n (init_state cap ppl maxcap) todos sched in
  unresized (sy_st y) ->
  winners k (sy_hist y) <= entries_of k (sy_st y) /\
  ((exists i o r, In (ERes i o r) (sy_hist y) /\ putting k o = true) ->
   (forall i o, in_call y i o -> putting k o = false) -> 1 <= winners k (sy_hist y)).
Proof. exact c12_per_entry. Qed.
Print Assumptions C12_per_entry_partial.

(** When no two threads insert the same new key at the same time, there is exactly one winner. *)
Theorem C12_no_race_partial : forall C cap ppl maxcap n todos sched k,
  good_cap cap maxcap -> (maxcap <= 2 ^ 32)%N ->
  Forall (Forall legal_op) todos -> Forall (Forall stores) todos -> legal_key k ->
  let y := after C n (init_state cap ppl maxcap) todos sched in
  no_insert_race (sy_hist y) -> unresized (sy_st y) ->
  winners k (sy_hist y) <= 1 /\
  ((exists i o r, In (ERes i o r) (sy_hist y) /\ putting k o = true) ->
   (forall i o, in_call y i o -> putting k o = false) -> winners k (sy_hist y) = 1).
Proof. exact c12_no_race. Qed.
Print Assumptions C12_no_race_partial.

(** A race with two winners and two entries. *)
Example C12_example_race : Forall (Forall legal_op) fw_todos /\ Forall (Forall stores) fw_todos /\ legal_key 24 /\ unresized (sy_st fw_y) /\
  (exists i o r, In (ERes i o r) (sy_hist fw_y) /\ putting 24 o = true) /\ (forall i o, in_call fw_y i o -> putting 24 o = false).
Proof. exact fw_hyps. Qed.
Example C12_example_race_counts : winners 24 (sy_hist fw_y) = 2 /\ entries_of 24 (sy_st fw_y) = 2.
Proof. exact fw_counts. Qed.

Example C12_example_no_race : Forall (Forall legal_op) fn_todos /\ Forall (Forall stores) fn_todos /\ legal_key 24 /\ no_insert_race (sy_hist fn_y) /\
  unresized (sy_st fn_y) /\ (exists i o r, In (ERes i o r) (sy_hist fn_y) /\ putting 24 o = true) /\
  (forall i o, in_call fn_y i o -> putting 24 o = false).
Proof. exact fn_hyps. Qed.
Example C12_example_no_race_counts : winners 24 (sy_hist fn_y) = 1 /\ entries_of 24 (sy_st fn_y) = 1.
Proof. exact fn_counts. Qed.
