(** Vocabulary for the statements about crashes of single-threaded executions. *)
From Coq Require Import NArith Bool List.
From stdpp Require Import base list gmap.
From Verif Require Import Word Prog HashMap Spec ConcSpec.
Import ListNotations.
Open Scope nat_scope.

(** [during p s s']: the call [p], started alone in [s], passes through [s'] (possibly before its first or after its
    last memory access). *)
Inductive during {A} : prog A -> state -> state -> Prop :=
| during_now p s : during p s s
| during_step c k s s' : during (k (fst (exec c s))) (snd (exec c s)) s' -> during (Vis c k) s s'.

(** [x] is the word now in field [c] of entry [i], or, while that word carries the unpersisted mark, the word that
    was there immediately before it. *)
Definition last_or_previous (T : table) (i : nat) (c : cell) (x : N) : Prop :=
  exists q, t_pairs T !! i = Some q /\
    (same_word x (get_cell c q) \/
     (isMarked (get_cell c q) DirtyFlag = true /\
      exists v old, hist_entry T v i = Some old /\ same_word x (get_cell c old) /\
        forall w new, v < w -> hist_entry T w i = Some new -> same_word (get_cell c new) (get_cell c q))).

(** Since the contents number [n] of the table, field [c] of entry [i] has held [x]. *)
Definition since (T : table) (n i : nat) (c : cell) (x : N) : Prop :=
  exists w p, n <= w /\ hist_entry T w i = Some p /\ same_word x (get_cell c p).

(** The dictionaries a history goes through: [ms] starts with the empty one and has one more after each call. *)
Inductive dtrace : list (gmap N N) -> list op -> list rsp -> Prop :=
| dtrace_nil : dtrace [∅] [] []
| dtrace_snoc ms m os rs o r m' : dtrace (ms ++ [m]) os rs -> dstep m o r m' ->
    dtrace (ms ++ [m; m']) (os ++ [o]) (rs ++ [r]).

(** What is left of key [k] is what it was at a moment [j] of the history that is not before [j0], and that is the
    last moment but for one change of [k]: all later dictionaries agree on [k]. *)
Definition lost_at_most_last (ms : list (gmap N N)) (j0 : nat) (k : N) (x : option N) : Prop :=
  exists j m, j0 <= j /\ ms !! j = Some m /\ x = m !! k /\
    forall j' m' z, j < j' -> ms !! j' = Some m' -> last ms = Some z -> m' !! k = z !! k.

(** The moment [j0] is right after a call of [get] that has found [k]; or it is the beginning. *)
Definition found_before (os : list op) (rs : list rsp) (k : N) (j0 : nat) : Prop := j0 = 0 \/
  exists g v, j0 = S g /\ os !! g = Some (OGet k) /\ rs !! g = Some (RVal v) /\ v <> NOTFOUND.
