(** A call of the multi-word compare-and-swap that is under way, and what it amounts to: vocabulary for its properties. *)
From Coq Require Import NArith Bool List.
From stdpp Require Import base list.
From Verif Require Import Word Codec MwCas MwSpec MwHelpSpec.
Import ListNotations.
Local Open Scope N_scope.

(** The expected value that a call with the words [ws] has for the word [j]. *)
Fixpoint old_of (ws : list mword) (j : N) : N :=
  match ws with
  | [] => 0
  | x :: ws' => if j =? o_off x then o_old x else old_of ws' j
  end.
(** The array without the call: the words that refer to it have the expected values. *)
Definition undone (C : mcfg) (m : mem) (s t : N) (ws : list mword) : N -> N :=
  fun j => if contents m j =? as_word C (call_ref s t) then old_of ws j else contents m j.
(** The descriptor of thread [t] has the words [ws] and the number [s], and is not decided; the words of the array that it
    describes contain values or references to it. *)
Record pending (C : mcfg) (m : mem) (s t : N) (ws : list mword) : Prop := {
  pe_thread : t < 2 ^ m_log C;
  pe_seq : s < 2 ^ seqSize (2 ^ m_log C);
  pe_mut : clean (m (LK t)) = kmut_encode (mkKmut false Undecided s);
  pe_count : m (LKCount t) = N.of_nat (length ws);
  pe_word : forall i x, nth_error ws i = Some x -> m (LKWord t i WOff) = o_off x /\ m (LKWord t i WOld) = o_old x /\ m (LKWord t i WNew) = o_new x;
  pe_distinct : NoDup (map o_off ws);
  pe_ws : forall x, In x ws -> o_off x < m_size C /\ mval (o_old x) /\ mval (o_new x);
  pe_array : forall x, In x ws -> contents m (o_off x) = as_word C (call_ref s t) \/ mval (contents m (o_off x));
}.

(** The words of the array that refer to the call are those of [pre]. *)
Definition refers (C : mcfg) (m : mem) (s t : N) (pre : list mword) : Prop :=
  forall j, contents m j = as_word C (call_ref s t) <-> In j (map o_off pre).

(** The array after the call. *)
Definition after_call (C : mcfg) (m : mem) (s t : N) (ws : list mword) : N -> N := snd (mspec (undone C m s t ws) (MwCas ws)).
(** What a thread [me] may change when it completes a call of thread [t] with the words [ws]. *)
Definition help_cells (me t : N) (ws : list mword) (l : loc) : Prop :=
  match l with
  | LArr j => In j (map o_off ws)
  | LK u => u = t
  | LW u | LWWord u _ | LWSeq u | LWTid u => u = me
  | _ => False
  end.
(** Thread [me] has completed the call: the descriptor has the status that the atomic operation would give, and the words of
    the array are as this operation leaves them. *)
Record completes (C : mcfg) (me : N) (m : mem) (s t : N) (ws : list mword) (m' : mem) : Prop := {
  co_status : kseq m' t = s /\ kstat m' t = if all_match (undone C m s t ws) ws then Succeeded else Failed;
  co_words : forall x, In x ws -> contents m' (o_off x) = after_call C m s t ws (o_off x);
  co_others : forall j, ~ In j (map o_off ws) -> contents m' j = contents m j;
  co_frame : cleaned_but (help_cells me t ws) m m';
}.

(** The memory when thread [t] has done [k] steps of a call and then stopped; the other threads did nothing. *)
Definition stopped_in (C : mcfg) (n : nat) (m : mem) (t : N) (o : mop) (k : nat) : mem :=
  ms_mem (mafter C n m (replicate (N.to_nat t) [] ++ [[o]]) (replicate k (N.to_nat t))).
(** The call that thread [t] made in the memory [m0] is decided. *)
Definition decided_in (m0 : mem) (t : N) (m : mem) : Prop := kseq m t = kseq m0 t + 2 /\ kstat m t <> Undecided.
(** A memory without work for the recovery in which thread [t] makes a call with [c] words, and can be recovered from:
    the numbers suffice for the call and for the recovery, and the check that recover makes after each descriptor of the
    threads before [t] ends at once, as it must not meet the words of the call. *)
Record ready (C : mcfg) (m : mem) (t c : N) : Prop := {
  rd_quiet : quiescent C m;
  rd_even : kseq m t mod 2 = 0;
  rd_koffs : forall i, m (LKWord t i WOff) < m_size C;
  rd_first : t = 0 \/ m (LKCount 0) = 0;
  rd_ends : exists u, u <> t /\ u < 2 ^ m_log C /\ m (LKCount u) <= u;
  rd_kseq : kseq m t + 2 < 2 ^ seqSize (2 ^ m_log C);
  rd_wseq : forall u, u < 2 ^ m_log C -> wseq m u + 4 * c < 2 ^ seqSize (2 ^ m_log C);
}.
