(** The wrapped containers against the reference: vocabulary. *)
From Coq Require Import NArith Bool List.
From stdpp Require Import base.
From Verif Require Import Container.

Definition no_increment (o : cop) : Prop := match o with CIncrement _ => False | _ => True end.
Definition no_count (o : cop) : Prop := match o with CCount => False | _ => True end.
(** Calls that need no temporary entry. *)
Definition no_insert (o : cop) : Prop := match o with CInsert _ | CIncrement _ => False | _ => True end.
