(** What memory says about a key, for maps with a single table. *)
From Coq Require Import NArith Bool List.
From stdpp Require Import base list.
From Verif Require Import Word Prog HashMap Spec ConcSpec.
Import ListNotations.

(** The value a word stands for. *)
Definition held (w : N) : option N :=
  let v := clearMark w DirtyFlag in if (v =? VINITIAL)%N || (v =? VTOMBSTONE)%N then None else Some v.

(** [says s k r]: in state [s] there is an entry with key [k] that stands for [r], or there is no entry with key [k] and
    [r] is nothing. *)
Inductive says (s : state) (k : N) : option N -> Prop :=
| says_entry i p : entry s 0 i = Some p -> same_word (fst p) k -> says s k (held (snd p))
| says_none : (forall i p, entry s 0 i = Some p -> ~ same_word (fst p) k) -> says s k None.

(** The entry with key [k] never takes a value it had before. *)
Definition never_back (s : state) (k : N) : Prop := forall T i p,
  st_tabs s !! 0 = Some T -> t_pairs T !! i = Some p -> same_word (fst p) k -> never_returns T i.
