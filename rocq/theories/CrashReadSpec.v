(** Calls that do not change a key: vocabulary for C22. *)
From Coq Require Import NArith List.
From Verif Require Import HashMap Spec.

Definition leaves (k : N) (o : op) : Prop := op_key o <> Some k \/ o = OGet k \/ o = OContains k.
