(** No execution of the multi-word compare-and-swap fails. *)
From Coq Require Import NArith Bool List.
From stdpp Require Import base list.
From Verif Require Import Word Codec CodecSpec MwCas MwSpec MwHelpSpec MwSafeSpec MwInv MwWitness.
Import ListNotations.
Local Open Scope N_scope.

(** ** C70: concurrent calls of the multi-word compare-and-swap fail no assertion, throw nothing and stay inside the arrays *)

(** In every execution, a thread that is stuck is so only because the model bounds the iterations of loops. *)
Theorem C70_no_error : forall C n todos sched, mcfg_ok C -> 0 < m_size C -> (forall v, client_value todos v -> mval v) ->
  Forall (Forall (legal_mop C)) todos -> N.of_nat (length todos) <= 2 ^ m_log C ->
  forall i o e os, ms_thr (mafter C n mw_init todos sched) !! i = Some (mkMthread (Some (o, MErr e)) os) -> e = MOutOfFuel.
Proof. exact always_running. Qed.
Print Assumptions C70_no_error.

(** Every cell that a thread is about to access exists, however many threads there are: words of the array, descriptors, and
    words in a descriptor. *)
Theorem C70_in_range : forall C n todos sched, mcfg_ok C -> 0 < m_size C -> (forall v, client_value todos v -> mval v) ->
  Forall (Forall (legal_mop C)) todos ->
  forall i o c k os, ms_thr (mafter C n mw_init todos sched) !! i = Some (mkMthread (Some (o, MVis c k)) os) -> in_range C (accesses c).
Proof. exact always_in_range. Qed.
Print Assumptions C70_in_range.

(** Two calls for the same words, with the second helping the first and the first going on afterwards. *)
Example C70_example : Forall (Forall (legal_mop mx_C)) mx_torn /\ (forall v, client_value mx_torn v -> mval v) /\ mcfg_ok mx_C /\ 0 < m_size mx_C /\
  N.of_nat (length mx_torn) <= 2 ^ m_log mx_C /\ m_ndebug mx_C = false.
Proof. exact mx_torn_ok. Qed.
(** The conditions matter: a word named twice, one thread more than there are descriptors, without and with NDEBUG, and a word
    behind the array. *)
Example C70_example_outside : mx_fails mx_C [[MwCas [mkWord 0 0 8; mkWord 0 0 8]]] 0 = Some MAssertFail /\
  mx_fails mx_C1 [[]; [MwCas mx_ws]] 1 = Some MAssertFail /\ mx_fails (mkMcfg 0 4 2 true) [[]; [MwCas mx_ws]] 1 = Some MOutOfBounds /\
  mx_fails mx_C [[MwRead 4]] 0 = Some MOutOfBounds.
Proof. exact mx_outside. Qed.
