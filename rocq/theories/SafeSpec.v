(** What a failed assertion tells, stated without the proofs. *)
From Coq Require Import NArith Bool List.
From stdpp Require Import base list.
From Verif Require Import Word Prog HashMap Conc Spec Container Harness.
Import ListNotations.

(** The command loads the number of copied entries of a table (copyDone). *)
Definition loads_done (c : cmd) : bool := match c with LoadF _ FCopyDone => true | _ => false end.

(** Calls that the random driver may make: those of its prefix and those of one thread, for 31-bit random numbers. *)
Definition drawn (os : list cop) : Prop := exists k1 k2 rs rs' os1 os2, (forall r, In r rs -> (r < 2 ^ 31)%N) /\
  random_prefix k1 rs = Some (os1, rs') /\ random_main k2 rs' = Some os2 /\ os = os1 ++ os2.
