(** A thread that runs alone among calls of the multi-word compare-and-swap that are under way. *)
From Coq Require Import NArith Bool List Sorted Permutation.
From stdpp Require Import base list.
From Verif Require Import Word Codec CodecSpec MwCas MwSpec MwHelpSpec MwCallSpec MwWitness MwAloneSpec MwAlone.
Import ListNotations.
Local Open Scope N_scope.

(** ** C67: a thread that runs alone completes its call, whatever calls the other threads have left behind *)

(** The calls [L] of other threads are under way, and not decided; any words of the array may refer to them, or be half
    installed for them or for calls that are over.  Thread [me] runs alone and makes a call of any kind: it returns, after some of
    these calls, [D], have been executed atomically in some order, and its own one after them.  The others are under way as before;
    nothing more is half installed. *)
Theorem C67_alone : forall C n me L o m, mcfg_ok C -> me < 2 ^ m_log C -> ~ In me (map c_tid L) -> calls_ok C m L -> tidy C m me -> legal_mop C o -> expects_values o ->
  (forall u, In u L -> (length (c_ws u) + length L + 5 <= n)%nat) -> (op_words o + length L + 5 <= n)%nat ->
  kseq m me + 2 < 2 ^ seqSize (2 ^ m_log C) -> wseq m me + 2 * N.of_nat (op_words o + words_in L) < 2 ^ seqSize (2 ^ m_log C) ->
  let a := without C L (settled C m) in
  exists D L' m', Permutation L (D ++ L') /\ mrun (mop_prog C n me o) m = MOk (fst (mspec (one_by_one a D) o)) m' /\
    (forall j, without C L' (settled C m') j = snd (mspec (one_by_one a D) o) j) /\ statuses m' a D /\ calls_ok C m' L' /\
    (forall t j, half_installed C m' t j -> half_installed C m t j).
Proof. exact c67_alone. Qed.
Print Assumptions C67_alone.

(** Threads 1, 2 and 3 have stopped: the first words of the calls of threads 1 and 3 refer to them, the one of thread 2 is half
    installed.  The call of thread 0 meets the one of thread 1, which meets the one of thread 2, which meets the one of thread 3:
    they are executed in the reverse order, and the one of thread 2 fails.  To read the word 1 leads to the calls of the threads 2
    and 3 only. *)
Example C67_example : calls_ok mx_C mx_three mx_calls3 /\ tidy mx_C mx_three 0 /\ half_installed mx_C mx_three 2 1 /\ ~ In 0 (map c_tid mx_calls3) /\ legal_mop mx_C mx_last /\ expects_values mx_last /\
  (forall u, In u mx_calls3 -> (length (c_ws u) + length mx_calls3 + 5 <= mx_fuel)%nat) /\ (op_words mx_last + length mx_calls3 + 5 <= mx_fuel)%nat /\
  kseq mx_three 0 + 2 < 2 ^ seqSize (2 ^ m_log mx_C) /\ wseq mx_three 0 + 2 * N.of_nat (op_words mx_last + words_in mx_calls3) < 2 ^ seqSize (2 ^ m_log mx_C) /\
  mx_view (mrun (mop_prog mx_C mx_fuel 0 mx_last) mx_three) = Some (MBool true, [56; 16; 40; 64], [Succeeded; Failed; Succeeded]) /\
  mx_view (mrun (mop_prog mx_C mx_fuel 0 (MwRead 1)) mx_three) = Some (MWord 0, [as_word mx_C (call_ref 2 1); 0; 40; 48], [Undecided; Failed; Succeeded]).
Proof. exact mx_alone. Qed.
