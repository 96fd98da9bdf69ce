(** What single calls did in a concurrent execution, whatever the schedule and whatever resizes go on. *)
From Coq Require Import NArith Bool List.
From stdpp Require Import base list.
From Verif Require Import Word Prog HashMap Conc Spec ConcSpec TraceSpec TraceThm Examples ConcWitness.
Import ListNotations.
Open Scope nat_scope.

(** ** C44: every call takes effect on one entry in one step *)

(** For every call that returned there is a step of this call, between its invocation and its response, that explains
    the result ([explained]): for a writing call a step on an entry of its key, in a table that was current during the
    call or is a successor of one, whose value word before and after the step is as [writes] says; for a reading call
    a step at which a search of such a table ends with the returned value. *)
Theorem C44_one_step : forall C cap ppl n maxcap todos sched h1 i o r h2,
  good_cap cap maxcap -> Forall (Forall legal_op) todos ->
  sy_hist (after C n (init_state cap ppl maxcap) todos sched) = h1 ++ ERes i o r :: h2 ->
  explained C o r (moment (after C n (init_state cap ppl maxcap) todos) sched i o h2).
Proof. exact c44_one_step. Qed.
Print Assumptions C44_one_step.

Example C44_example : Forall (Forall legal_op) tx_todos /\ sy_hist (cw_after tx_todos tx_sched) =
  [ERes 1 (ORemoveVal 24 96) (RBool false); ERes 0 (ORemove 24) (RBool true); EInv 1 (ORemoveVal 24 96);
   ERes 1 (OIncrement 32) (RVal NOTFOUND); EInv 0 (ORemove 24); ERes 0 (OReplace 24 88 96) (RBool false);
   EInv 0 (OReplace 24 88 96); ERes 0 (OGet 24) (RVal 80); EInv 0 (OGet 24); ERes 0 (OPut 24 80) (RVal 88);
   EInv 1 (OIncrement 32); ERes 1 (OContains 24) (RBool true); EInv 1 (OContains 24);
   ERes 1 (OPutIfAbsent 24 88) (RVal NOTFOUND); EInv 1 (OPutIfAbsent 24 88); EInv 0 (OPut 24 80)]%N.
Proof. exact tx_hist. Qed.

(** Not every result is explained. *)
Example C44_example_wrong : forall w', ~ writes (ORemoveVal 24 96) (RBool true) 80 w' /\ ~ writes (OPut 24 96) (RVal 88) 80 w' /\
  ~ writes (OPutIfAbsent 24 96) (RVal NOTFOUND) 80 w'.
Proof. exact tx_wrong. Qed.

(** ** C14: putIfAbsent fails only if the key was present *)

(** Full statement, false (PropertiesConc.v): the same without the first two alternatives.  Proved: unless the reported
    value is a deletion mark or the word of an unused entry with the unpersisted mark, the key was mapped to the
    reported value (with or without the unpersisted mark) at a step of the call, and this step changed nothing. *)
Theorem C14_present_partial : forall C cap ppl n maxcap todos sched h1 i k v r h2,
  good_cap cap maxcap -> Forall (Forall legal_op) todos ->
  sy_hist (after C n (init_state cap ppl maxcap) todos sched) = h1 ++ ERes i (OPutIfAbsent k v) (RVal r) :: h2 ->
  r <> NOTFOUND ->
  same_word r VTOMBSTONE \/ same_word r VINITIAL \/
  moment (after C n (init_state cap ppl maxcap) todos) sched i (OPutIfAbsent k v) h2 (fun t s s' e =>
    mapped s k /\ step_on k (clearMark r DirtyFlag) (clearMark r DirtyFlag) t s s' e \/
    mapped s k /\ step_on k (setMark r DirtyFlag) (setMark r DirtyFlag) t s s' e).
Proof. exact c14_present. Qed.
Print Assumptions C14_present_partial.

Example C14_present_example : let todos := [[OPutIfAbsent 24 80]; [OPut 24 88]] in Forall (Forall legal_op) todos /\
  In (ERes 0 (OPutIfAbsent 24 80) (RVal 89)) (sy_hist (cw_after todos [(0, 19); (1, 18); (0, 40)])).
Proof. exact w13a. Qed.
