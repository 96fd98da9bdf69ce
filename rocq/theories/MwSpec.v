(** What the multi-word compare-and-swap of MwCas.v should do: vocabulary for its properties. *)
From Coq Require Import NArith Bool List.
From stdpp Require Import base list.
From Verif Require Import Word Codec MwCas.
Import ListNotations.
Local Open Scope N_scope.

(** The array as its users see it, without the dirty bits. *)
Definition contents (m : mem) : N -> N := fun j => clean (m (LArr j)).

(** An atomic multi-word compare-and-swap. *)
Definition all_match (a : N -> N) (ws : list mword) : bool := forallb (fun x => a (o_off x) =? o_old x) ws.
Fixpoint put_all (a : N -> N) (ws : list mword) : N -> N :=
  match ws with
  | [] => a
  | x :: ws' => fun j => if j =? o_off x then o_new x else put_all a ws' j
  end.
(** The atomic operations. *)
Definition mspec (a : N -> N) (o : mop) : mrsp * (N -> N) :=
  match o with
  | MwCas ws => if all_match a ws then (MBool true, put_all a ws) else (MBool false, a)
  | MwRead i => (MWord (a i), a)
  | MwCas1 i old new => if a i =? old then (MBool true, fun j => if j =? i then new else a j) else (MBool false, a)
  end.
(** A sequence of them: the results and the final array. *)
Fixpoint mspecs (a : N -> N) (os : list mop) : list mrsp * (N -> N) :=
  match os with
  | [] => ([], a)
  | o :: os' => let (r, a') := mspec a o in let (rs, a'') := mspecs a' os' in (r :: rs, a'')
  end.

(** A word that a client stores has its three flag bits clear (pmwcas.hpp:28-30). *)
Definition mval (v : N) : Prop := v < two64 /\ N.testbit v 0 = false /\ N.testbit v 1 = false /\ N.testbit v 2 = false.
(** The words that a call accesses. *)
Definition touches (o : mop) (j : N) : Prop :=
  match o with
  | MwCas ws => In j (map o_off ws)
  | MwRead i => j = i
  | MwCas1 i _ _ => j = i
  end.
(** The calls for which the code is written: distinct words of the array, at most K of them, and values with clear flags. *)
Definition legal_mop (C : mcfg) (o : mop) : Prop :=
  (forall j, touches o j -> j < m_size C) /\
  match o with
  | MwCas ws => ws <> [] /\ (length ws <= m_K C)%nat /\ NoDup (map o_off ws) /\ Forall (fun x => mval (o_new x)) ws
  | MwRead _ => True
  | MwCas1 _ _ new => mval new
  end.
(** How far a call moves the sequence numbers of the descriptors. *)
Definition mcost (o : mop) : N := match o with MwCas ws => 2 * N.of_nat (length ws) | _ => 0 end.
Fixpoint mcosts (os : list mop) : N := match os with [] => 0 | o :: os' => mcost o + mcosts os' end.
(** The configurations: at most 2^16 threads. *)
Definition mcfg_ok (C : mcfg) : Prop := m_log C <= 16.
Definition mfuel (C : mcfg) : nat := (m_K C + 3)%nat.
(** A thread's descriptors have sequence numbers at most [b]. *)
Definition seqs_le (m : mem) (t b : N) : Prop :=
  km_seq (kmut_decode (clean (m (LK t)))) <= b /\ wm_seq (wmut_decode (clean (m (LW t)))) <= b.

(** The results of thread [i] in a history (most recent first), oldest first. *)
Fixpoint mresults (i : nat) (h : list mevent) : list mrsp :=
  match h with
  | [] => []
  | MInv _ _ :: h' => mresults i h'
  | MRes k _ r :: h' => if Nat.eqb k i then mresults i h' ++ [r] else mresults i h'
  end.
(** The threads access different words. *)
Definition disjoint_todos (todos : list (list mop)) : Prop :=
  forall i k os os' o o' j, todos !! i = Some os -> todos !! k = Some os' -> o ∈ os -> o' ∈ os' -> touches o j -> touches o' j -> i = k.
(** A thread has stopped in an error. *)
Definition mstuck (y : msys) (i : nat) : Prop := exists th o e, ms_thr y !! i = Some th /\ mt_cur th = Some (o, MErr e).
(** A thread is between two calls. *)
Definition midle (y : msys) (i : nat) (left : list mop) : Prop := ms_thr y !! i = Some (mkMthread None left).

(** Calls of several threads one after another: the results and the memory, [None] after an error. *)
Fixpoint run_calls (C : mcfg) (n : nat) (l : list (N * mop)) (m : mem) : option (list mrsp * mem) :=
  match l with
  | [] => Some ([], m)
  | (t, o) :: l' =>
      match mrun (mop_prog C n t o) m with
      | MOk r m' => match run_calls C n l' m' with Some (rs, m'') => Some (r :: rs, m'') | None => None end
      | MFail _ _ => None
      end
  end.

(** Sequence number and status of a descriptor. *)
Definition kseq (m : mem) (t : N) : N := km_seq (kmut_decode (m (LK t))).
Definition kstat (m : mem) (t : N) : N := km_status (kmut_decode (m (LK t))).
(** How a step of thread [i] may change the descriptor of thread [t]: an undecided status may be decided, otherwise it
    stays; and the owner may go on to the next sequence number (they have 61 bits), undecided again. *)
Definition kchange (i t : N) (m m' : mem) : Prop :=
  (kseq m' t = kseq m t /\ (kstat m' t = kstat m t \/ kstat m t = Undecided)) \/
  (i = t /\ kseq m' t = ((kseq m t + 1) mod 2 ^ 61) /\ kstat m' t = Undecided).
(** The values that the calls mention, and the initial value 0. *)
Definition op_value (o : mop) (v : N) : Prop :=
  match o with
  | MwCas ws => exists x, In x ws /\ (v = o_old x \/ v = o_new x)
  | MwRead _ => False
  | MwCas1 _ _ new => v = new
  end.
Definition client_value (todos : list (list mop)) (v : N) : Prop := v = 0 \/ exists os o, os ∈ todos /\ o ∈ os /\ op_value o v.

(** A call may write the word. *)
Definition writes (o : mop) (j : N) : Prop := match o with MwRead _ => False | _ => touches o j end.
(** All calls have returned. *)
Definition mdone (y : msys) : Prop := Forall (fun th => th = mkMthread None []) (ms_thr y).
(** The memory when one thread has done [k] steps of a call and then stopped. *)
Definition stopped (C : mcfg) (n : nat) (m : mem) (o : mop) (k : nat) : mem := ms_mem (mafter C n m [[o]] (replicate k 0%nat)).
(** A word of the array that is a reference to a descriptor. *)
Definition is_ref (w : N) : bool := isMarked w PMwCASFlag || isMarked w RDCSSFlag.
(** A memory without work for the recovery: no call is under way, the offsets are those of the array, and some descriptor
    has at most as many words as its number (so that the last loop of recover ends, see MwCas.v). *)
Record quiescent (C : mcfg) (m : mem) : Prop := {
  qu_values : forall j, j < m_size C -> mval (contents m j);
  qu_woffs : forall t, t < 2 ^ m_log C -> m (LWWord t WOff) < m_size C;
  qu_koffs : forall t, t < 2 ^ m_log C -> m (LKWord t (N.to_nat t) WOff) < m_size C;
  qu_decided : forall t, t < 2 ^ m_log C -> kseq m t mod 2 = 0 -> kstat m t <> Undecided;
  qu_ends : exists t, t < 2 ^ m_log C /\ m (LKCount t) <= t;
}.
