(** Any number of threads that make calls of the multi-word compare-and-swap, before the first call is decided. *)
From Coq Require Import NArith Bool List Sorted Permutation.
From stdpp Require Import base list.
From Verif Require Import Word Codec CodecSpec MwCas MwSpec MwHelpSpec MwCallSpec MwWitness MwAloneSpec MwAlone MwPendSpec MwPend.
Import ListNotations.
Local Open Scope N_scope.

(** ** C68: until a call is decided, the threads only prepare calls, whatever the schedule *)

(** From a memory at rest, any number of threads execute calls of PMwCAS and PMwCASRead in any interleaving, up to a point where
    no call has been decided.  The calls that have been made, [L], are those that the threads were asked to make; their words
    are installed as C67 requires, each from the first one on.  The array without them is the initial one; reads return
    the initial values; no thread has met a failing assertion, an address out of bounds or an exception; and a thread that is between two calls has left nothing behind. *)
Theorem C68_under_way : forall C n m0 todos sched, mcfg_ok C -> at_rest C m0 -> N.of_nat (length todos) <= 2 ^ m_log C -> (forall os o, In os todos -> In o os -> multi_op C o) ->
  never_decided C n m0 todos sched ->
  let y := mafter C n m0 todos sched in let L := made C m0 (ms_mem y) in
  calls_ok C (ms_mem y) L /\ (forall j, without C L (settled C (ms_mem y)) j = contents m0 j) /\ reads_only m0 (ms_hist y) /\
  (forall u, In u L -> exists os ws, todos !! N.to_nat (c_tid u) = Some os /\ In (MwCas ws) os /\ Permutation (c_ws u) ws) /\
  (forall i th o e, ms_thr y !! i = Some th -> mt_cur th = Some (o, MErr e) -> e = MOutOfFuel) /\
  forall i th, ms_thr y !! i = Some th -> mt_cur th = None ->
    tidy C (ms_mem y) (N.of_nat i) /\ ~ In (N.of_nat i) (map c_tid L) /\ kseq (ms_mem y) (N.of_nat i) = kseq m0 (N.of_nat i).
Proof. exact c68_under_way. Qed.
Print Assumptions C68_under_way.

(** All other threads stop there, and one that is between two calls runs alone: whatever call it makes, this returns.  Some of the
    calls that are under way, [D], take effect in some order, and then its own one. *)
Theorem C68_completes : forall C n m0 todos sched i th n' o, mcfg_ok C -> at_rest C m0 -> N.of_nat (length todos) <= 2 ^ m_log C -> (forall os o, In os todos -> In o os -> multi_op C o) ->
  never_decided C n m0 todos sched ->
  let y := mafter C n m0 todos sched in let m := ms_mem y in
  ms_thr y !! i = Some th -> mt_cur th = None -> legal_mop C o -> expects_values o -> (m_K C + N.to_nat (2 ^ m_log C) + 5 <= n')%nat ->
  wseq m (N.of_nat i) + 2 * (N.of_nat (S (m_K C)) * (2 ^ m_log C + 1)) < 2 ^ seqSize (2 ^ m_log C) ->
  exists D L m', Permutation (made C m0 m) (D ++ L) /\ mrun (mop_prog C n' (N.of_nat i) o) m = MOk (fst (mspec (one_by_one (contents m0) D) o)) m' /\
    (forall j, without C L (settled C m') j = snd (mspec (one_by_one (contents m0) D) o) j) /\ statuses m' (contents m0) D /\ calls_ok C m' L.
Proof. exact c68_completes. Qed.
Print Assumptions C68_completes.

(** Threads 1, 2 and 3 take turns.  When they stop, thread 3 has read the word 1, the words 0 and 1 refer to the call of thread 1, the word 2 refers to
    the one of thread 3 and the word 3 is half installed for it; thread 2 has its call described only.  A call of thread 0 on the words 3 and 0 completes the calls of the threads 1 and 3 first. *)
Example C68_example : at_rest mx_C mw_init /\ N.of_nat (length px_todos) <= 2 ^ m_log mx_C /\ (forall os o, In os px_todos -> In o os -> multi_op mx_C o) /\ never_decided mx_C mx_fuel mw_init px_todos px_sched /\
  made mx_C mw_init (ms_mem px_sys) = [mkPcall 1 2 [mkWord 0 0 8; mkWord 1 0 16]; mkPcall 2 2 [mkWord 1 0 24; mkWord 2 0 32]; mkPcall 3 2 [mkWord 2 0 40; mkWord 3 0 48]] /\
  map (contents (ms_mem px_sys)) [0; 1; 2; 3] = [as_word mx_C (call_ref 2 1); as_word mx_C (call_ref 2 1); as_word mx_C (call_ref 2 3); as_word mx_C (word_ref 4 3)] /\
  map (settled mx_C (ms_mem px_sys)) [0; 1; 2; 3] = [as_word mx_C (call_ref 2 1); as_word mx_C (call_ref 2 1); as_word mx_C (call_ref 2 3); as_word mx_C (call_ref 2 3)] /\
  In (MRes 3 (MwRead 1) (MWord 0)) (ms_hist px_sys) /\ option_map mt_cur (ms_thr px_sys !! 0%nat) = Some None /\
  (m_K mx_C + N.to_nat (2 ^ m_log mx_C) + 5 <= mx_fuel)%nat /\ wseq (ms_mem px_sys) 0 + 2 * (N.of_nat (S (m_K mx_C)) * (2 ^ m_log mx_C + 1)) < 2 ^ seqSize (2 ^ m_log mx_C) /\
  legal_mop mx_C mx_last /\ expects_values mx_last /\
  mx_view (mrun (mop_prog mx_C mx_fuel 0 mx_last) (ms_mem px_sys)) = Some (MBool true, [56; 16; 40; 64], [Succeeded; Undecided; Succeeded]).
Proof. exact px_example. Qed.
