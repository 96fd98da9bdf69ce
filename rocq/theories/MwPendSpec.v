(** Executions of the multi-word compare-and-swap in which no call has been decided yet: vocabulary for their properties. *)
From Coq Require Import NArith Bool List.
From stdpp Require Import base list.
From Verif Require Import Word Codec MwCas MwSpec MwHelpSpec MwCallSpec MwAloneSpec.
Import ListNotations.
Local Open Scope N_scope.

(** A memory in which no call is under way: the array contains values, the word descriptors are not about to be filled and
    refer to threads and words that exist, and each thread can make one more call.  (As in MwAloneSpec.v, the addresses beyond the array are taken to contain values.) *)
Record at_rest (C : mcfg) (m : mem) : Prop := {
  ar_values : forall j, mval (contents m j);
  ar_word : forall t, wseq m t mod 2 = 0;
  ar_fields : forall t, t < 2 ^ m_log C -> m (LWTid t) < 2 ^ m_log C /\ m (LWWord t WOff) < m_size C;
  ar_call : forall t, t < 2 ^ m_log C -> kseq m t + 2 < 2 ^ seqSize (2 ^ m_log C);
}.
(** No call that was made since [m0] is decided, and the numbers of the word descriptors have not run out. *)
Definition none_decided (C : mcfg) (m0 m : mem) : Prop :=
  forall t, t < 2 ^ m_log C -> (kseq m t = kseq m0 t \/ kstat m t = Undecided) /\ wseq m t + 2 < 2 ^ seqSize (2 ^ m_log C).
(** The calls of PMwCAS and PMwCASRead for which the code is written. *)
Definition multi_op (C : mcfg) (o : mop) : Prop :=
  legal_mop C o /\ expects_values o /\ match o with MwCas1 _ _ _ => False | _ => True end.

(** The call that a descriptor describes. *)
Definition call_of (m : mem) (t : N) : pcall :=
  mkPcall t (kseq m t) (map (fun i => mkWord (m (LKWord t i WOff)) (m (LKWord t i WOld)) (m (LKWord t i WNew))) (seq 0 (N.to_nat (m (LKCount t))))).
(** The threads. *)
Definition tids (C : mcfg) : list N := map N.of_nat (seq 0 (N.to_nat (2 ^ m_log C))).
(** The calls that were made since [m0]: their descriptors are complete. *)
Definition made (C : mcfg) (m0 m : mem) : list pcall :=
  map (call_of m) (List.filter (fun t => kseq m t =? kseq m0 t + 2) (tids C)).
(** The responses so far are those of reads, which return the initial values. *)
Definition reads_only (m0 : mem) (h : list mevent) : Prop :=
  forall i o r, In (MRes i o r) h -> exists j, o = MwRead j /\ r = MWord (contents m0 j).
(** The same at every moment of an execution. *)
Definition never_decided (C : mcfg) (n : nat) (m0 : mem) (todos : list (list mop)) (sched : list nat) : Prop :=
  forall pre post, sched = pre ++ post -> none_decided C m0 (ms_mem (mafter C n m0 todos pre)).
