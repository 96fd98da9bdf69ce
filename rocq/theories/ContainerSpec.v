(** What the containers should do, in terms of the calls made so far. *)
From Coq Require Import NArith Bool List.
From stdpp Require Import base gmap.
From Verif Require Import Word Prog HashMap Container.
Import ListNotations.

(** Elements that fit above the three reserved bits and are not encoded as reserved words (see C32). *)
Definition legal_el (el : N) : Prop := (el + 4 < 2 ^ 61)%N.
Definition legal_cop (o : cop) : Prop :=
  match o with
  | CInsert el | CErase el | CContains el | CGet el => legal_el el
  | CCount => True
  | CIncrement _ => False
  end.

(** [el] was inserted and not erased since. *)
Fixpoint member (el : N) (os : list cop) (now : bool) : bool :=
  match os with
  | [] => now
  | CInsert e :: os' => member el os' (if (e =? el)%N then true else now)
  | CErase e :: os' => member el os' (if (e =? el)%N then false else now)
  | _ :: os' => member el os' now
  end.
Definition holds (os : list cop) (el : N) : bool := member el os false.

(** One thread issues the container calls [os] in the state [s0], they all return, with the results [rs]. *)
Inductive creach (C : cfg) (s0 : state) : list cop -> list cres -> state -> Prop :=
| creach_nil : creach C s0 [] [] s0
| creach_snoc os rs s n o r s' : creach C s0 os rs s -> run (cop_prog C n o) s = Ok r s' ->
    creach C s0 (os ++ [o]) (rs ++ [r]) s'.
