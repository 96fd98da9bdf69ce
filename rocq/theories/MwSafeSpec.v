(** The accesses of the multi-word compare-and-swap: vocabulary for its properties. *)
From Coq Require Import NArith.
From Verif Require Import MwCas.
Local Open Scope N_scope.

(** The cell that a command accesses. *)
Definition accesses (c : mcmd) : loc := match c with MLoad l | MStore l _ | MCas l _ _ => l end.
(** A cell that exists: a word of the array, a descriptor of one of the threads for which there are some (pmwcas.hpp:309),
    and one of the K words in a descriptor of a call (259). *)
Definition in_range (C : mcfg) (l : loc) : Prop :=
  match l with
  | LArr j => j < m_size C
  | LK t | LKCount t | LW t | LWWord t _ | LWSeq t | LWTid t => t < 2 ^ m_log C
  | LKWord t i _ => t < 2 ^ m_log C /\ (i < m_K C)%nat
  end.
