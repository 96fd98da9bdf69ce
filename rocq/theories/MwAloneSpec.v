(** Any number of calls of the multi-word compare-and-swap that are under way: vocabulary for the properties of a thread that
    runs alone among them. *)
From Coq Require Import NArith Bool List Sorted.
From stdpp Require Import base list.
From Verif Require Import Word Codec MwCas MwSpec MwHelpSpec MwCallSpec.
Import ListNotations.
Local Open Scope N_scope.

(** A call: its thread, the number of the descriptor, and its words in the order of their offsets. *)
Record pcall := mkPcall { c_tid : N; c_seq : N; c_ws : list mword }.
(** The reference to a call in the array. *)
Definition c_word (C : mcfg) (u : pcall) : N := as_word C (call_ref (c_seq u) (c_tid u)).
(** The descriptor of the call, which is not decided. *)
Record call_ok (C : mcfg) (m : mem) (u : pcall) : Prop := {
  ca_thread : c_tid u < 2 ^ m_log C;
  ca_num : c_seq u < 2 ^ seqSize (2 ^ m_log C);
  ca_mut : clean (m (LK (c_tid u))) = kmut_encode (mkKmut false Undecided (c_seq u));
  ca_count : m (LKCount (c_tid u)) = N.of_nat (length (c_ws u));
  ca_word : forall i x, nth_error (c_ws u) i = Some x ->
    m (LKWord (c_tid u) i WOff) = o_off x /\ m (LKWord (c_tid u) i WOld) = o_old x /\ m (LKWord (c_tid u) i WNew) = o_new x;
  ca_sorted : StronglySorted N.lt (map o_off (c_ws u));
  ca_vals : forall x, In x (c_ws u) -> o_off x < m_size C /\ mval (o_old x) /\ mval (o_new x);
}.
(** The calls that are under way belong to different threads.  The array contains values, references to these calls, and words
    that are half installed (RDCSS).  Such a word stands for the reference to the call if this is under way, and for the value
    that was there before otherwise: [settled].  A call is referred to in words of its own, from the first one on; all but the
    last one of them are completely installed.  What is half installed describes the value that its call expects, and no call
    that is yet to come.  (The addresses beyond the array, which the program never touches, are taken to contain values.) *)
Record calls_ok (C : mcfg) (m : mem) (L : list pcall) : Prop := {
  co_threads : NoDup (map c_tid L);
  co_each : forall u, In u L -> call_ok C m u;
  co_array : forall j, mval (settled C m j) \/ exists u, In u L /\ settled C m j = c_word C u;
  co_refs : forall u j, In u L -> settled C m j = c_word C u -> In j (map o_off (c_ws u));
  co_first : forall u x y, In u L -> In x (c_ws u) -> In y (c_ws u) -> o_off x < o_off y ->
    settled C m (o_off y) = c_word C u -> contents m (o_off x) = c_word C u;
  co_half : forall j, isMarked (contents m j) RDCSSFlag = true ->
    exists t, half_installed C m t j /\ mval (m (LWWord t WOld)) /\ m (LWSeq t) <= kseq m (m (LWTid t));
  co_expects : forall t u x, half_installed C m t (o_off x) -> In u L -> In x (c_ws u) -> settled C m (o_off x) = c_word C u ->
    m (LWWord t WOld) = o_old x;
}.
(** The thread has not left a word half installed. *)
Definition tidy (C : mcfg) (m : mem) (t : N) : Prop := forall j, ~ half_installed C m t j.

(** The array [a] without the calls: the words that refer to one have the value that it expects. *)
Fixpoint without (C : mcfg) (L : list pcall) (a : N -> N) (j : N) : N :=
  match L with
  | [] => a j
  | u :: L' => if a j =? c_word C u then old_of (c_ws u) j else without C L' a j
  end.
(** The array after some calls, one after the other. *)
Fixpoint one_by_one (a : N -> N) (D : list pcall) : N -> N :=
  match D with
  | [] => a
  | u :: D' => one_by_one (snd (mspec a (MwCas (c_ws u)))) D'
  end.
(** Each of them has the status that it has when they are executed in this order. *)
Fixpoint statuses (m : mem) (a : N -> N) (D : list pcall) : Prop :=
  match D with
  | [] => True
  | u :: D' => kseq m (c_tid u) = c_seq u /\ kstat m (c_tid u) = (if all_match a (c_ws u) then Succeeded else Failed) /\
      statuses m (snd (mspec a (MwCas (c_ws u)))) D'
  end.
(** The numbers that a thread needs to complete the calls. *)
Fixpoint words_in (L : list pcall) : nat := match L with [] => 0 | u :: L' => S (length (c_ws u)) + words_in L' end.

(** The number of words of a multi-word compare-and-swap. *)
Definition op_words (o : mop) : nat := match o with MwCas ws => length ws | _ => 0 end.
(** The expected values are values. *)
Definition expects_values (o : mop) : Prop :=
  match o with MwCas ws => Forall (fun x => mval (o_old x)) ws | MwRead _ => True | MwCas1 _ old _ => mval old end.
