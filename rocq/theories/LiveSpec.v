(** Progress: what it means that calls return. *)
From Coq Require Import NArith Bool List.
From stdpp Require Import base list gmap.
From Verif Require Import Word Prog HashMap Conc Spec LinSpec.
Import ListNotations.
Open Scope nat_scope.

(** The number of steps of thread [i] in a schedule. *)
Definition steps_of (i : nat) (sched : list nat) : nat := count_occ Nat.eq_dec sched i.
(** A thread that has made all its calls, and all of them have returned. *)
Definition all_returned (y : sys) (i : nat) : Prop := sy_thr y !! i = Some (mkThread None []).
(** A thread has failed: an assertion, a null pointer, an access out of range, a failed allocation, or a loop that ran
    out of fuel. *)
Definition some_failure (y : sys) : Prop := exists i th o e, sy_thr y !! i = Some th /\ th_cur th = Some (o, Err e).

(** A bound on the number of steps of one call in a table of [cap] entries, when all threads together make [M] calls:
    a search looks at no more than [10 + cap / 4] entries, and every lost race is a write of another call. *)
Definition call_steps (cap M : nat) : nat := 17 * (10 + cap / 4) + 22 * M + 22.
(** Fuel that the loops of such a call cannot use up. *)
Definition enough_fuel (cap M n : nat) : Prop := (10 + cap / 4) + 2 * M + 2 <= n.

(** A call that ran alone has returned, or it has given the table a successor. *)
Definition returned_or_resized (x : outcome rsp) : Prop :=
  match x with Ok _ _ => True | Fail _ s => ~ unresized s end.
