(** Executions of the multi-word compare-and-swap in which calls that overlap in time access different words: vocabulary. *)
From Coq Require Import NArith Bool List.
From stdpp Require Import base list.
From Verif Require Import Word Codec MwCas MwSpec.
Import ListNotations.
Local Open Scope N_scope.

(** The call of thread [i] that is under way, given the history (most recent event first). *)
Fixpoint running (i : nat) (h : list mevent) : option mop :=
  match h with
  | [] => None
  | MInv k o :: h' => if Nat.eqb k i then Some o else running i h'
  | MRes k _ _ :: h' => if Nat.eqb k i then None else running i h'
  end.
(** A call starts only while no call of another thread with one of its words is under way. *)
Fixpoint calm (h : list mevent) : Prop :=
  match h with
  | [] => True
  | MInv i o :: h' => (forall k o' j, k <> i -> running k h' = Some o' -> touches o j -> ~ touches o' j) /\ calm h'
  | MRes _ _ _ :: h' => calm h'
  end.
(** The array after the atomic operations in the order of the responses, and whether the responses are theirs. *)
Fixpoint replay (a : N -> N) (h : list mevent) : N -> N :=
  match h with
  | [] => a
  | MInv _ _ :: h' => replay a h'
  | MRes _ o _ :: h' => snd (mspec (replay a h') o)
  end.
Fixpoint answers (a : N -> N) (h : list mevent) : Prop :=
  match h with
  | [] => True
  | MInv _ _ :: h' => answers a h'
  | MRes _ o r :: h' => r = fst (mspec (replay a h') o) /\ answers a h'
  end.
