(** Specification: which calls report that they inserted a key, and how many entries a key has. *)
From Coq Require Import NArith Bool List.
From stdpp Require Import base list.
From Verif Require Import Word Prog HashMap Conc Spec.
Import ListNotations.

(** put(k, v) or putIfAbsent(k, v). *)
Definition putting (k : N) (o : op) : bool :=
  match o with OPut k' _ | OPutIfAbsent k' _ => (k' =? k)%N | _ => false end.

(** The number of calls put(k, v) and putIfAbsent(k, v) in the history that returned that [k] was not there. *)
Definition reports_new (k : N) (e : event) : bool :=
  match e with ERes _ o (RVal r) => putting k o && (r =? NOTFOUND)%N | _ => false end.
Definition winners (k : N) (h : list event) : nat := length (List.filter (reports_new k) h).

(** The number of entries of the first table that have the key [k]. *)
Definition entries_of (k : N) (s : state) : nat :=
  match st_tabs s !! 0 with
  | Some T => length (List.filter (fun p => clearMark (fst p) DirtyFlag =? k)%N (t_pairs T))
  | None => 0
  end.

(** The calls that neither remove nor count. *)
Definition stores (o : op) : Prop :=
  match o with ORemove _ | ORemoveVal _ _ | OIncrement _ => False | _ => True end.
