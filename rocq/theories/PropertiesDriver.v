(** The test program of the multi-word compare-and-swap. *)
From Coq Require Import NArith Bool List Permutation.
From stdpp Require Import base list.
From Verif Require Import Word Codec MwCas MwSpec MwSafeSpec KDriver KDriverThm KDriverSafe KDriverWitness.
Import ListNotations.
Local Open Scope N_scope.

(** ** C65: the test program makes the calls for which the compare-and-swap is written *)

(** Full statement: whatever rand() returns, the program has no undefined behaviour, and its calls have distinct words of the
    array, at most K of them, and values with clear flags.  False of the program as C++17: it shifts an int out of its range. *)
Theorem C65_refuted : exists C n order rs m, mcfg_ok C /\ (mfuel C <= n)%nat /\ (forall s, Permutation (order s) s) /\ Forall (fun r => r < 2 ^ 31) rs /\
  mrun (performOps C n 0 false order 1 rs) mw_init = MOk DUndefined m.
Proof. exact kd_undefined. Qed.
Print Assumptions C65_refuted.

(** Proved, in C++17 and C++20, for any number of threads and in every schedule: the calls of a thread that has not met
    undefined behaviour are such calls; their values, and those in the array, are 0 or results of the shift. *)
Theorem C65_calls_partial : forall C, mcfg_ok C -> (0 < m_K C)%nat -> m_size C <> 0 -> forall n cxx20 order, (forall s, Permutation (order s) s) ->
  forall k rss sched i l, Forall (Forall (fun r => r < 2 ^ 31)) rss ->
  snd (dconc sched (driver C n k cxx20 order rss)) !! i = Some (MRet (DOk l)) -> length l = k /\ Forall (fun c => driver_call C (fst c)) l.
Proof. exact driver_calls. Qed.
Print Assumptions C65_calls_partial.
Theorem C65_array_partial : forall C, mcfg_ok C -> (0 < m_K C)%nat -> m_size C <> 0 -> forall n cxx20 order, (forall s, Permutation (order s) s) ->
  forall k rss sched j, Forall (Forall (fun r => r < 2 ^ 31)) rss ->
  let v := contents (fst (dconc sched (driver C n k cxx20 order rss))) j in driver_value v \/ is_ref v = true.
Proof. exact driver_array. Qed.
Print Assumptions C65_array_partial.

(** One thread alone: no call fails, and the array is as the calls one after another leave it, unless rand() returns 2^29 or
    more in C++17 or the list of its results is used up. *)
Theorem C65_alone_partial : forall C, mcfg_ok C -> (0 < m_K C)%nat -> m_size C <> 0 -> forall n cxx20 order, (forall s, Permutation (order s) s) ->
  forall me, me < 2 ^ m_log C -> (mfuel C <= n)%nat -> forall k rs m b,
  (forall j, j < m_size C -> mval (contents m j)) -> seqs_le m me b -> b + 2 * N.of_nat (k * m_K C) < 2 ^ seqSize (2 ^ m_log C) ->
  exists r m', mrun (performOps C n me cxx20 order k rs) m = MOk r m' /\
    match r with
    | DOk calls => length calls = k /\ Forall (fun c => legal_mop C (MwCas (fst c)) /\ snd c = true) calls /\
        forall j, j < m_size C -> contents m' j = fold_left put_all (map fst calls) (contents m) j
    | DUndefined => cxx20 = false /\ exists r, In r rs /\ 2 ^ 29 <= r
    | DNoRand => True
    end.
Proof. exact alone. Qed.
Print Assumptions C65_alone_partial.

(** In every schedule, no thread fails an assertion, throws or leaves the array or the descriptors: the bound that the model
    puts on loops is the only error. *)
Theorem C65_threads_partial : forall C, mcfg_ok C -> (0 < m_K C)%nat -> m_size C <> 0 -> forall n cxx20 order, (forall s, Permutation (order s) s) ->
  forall k rss sched i e, Forall (Forall (fun r => r < 2 ^ 31)) rss -> N.of_nat (length rss) <= 2 ^ m_log C ->
  snd (dconc sched (driver C n k cxx20 order rss)) !! i = Some (MErr e) -> e = MOutOfFuel.
Proof. exact driver_error. Qed.
Print Assumptions C65_threads_partial.
Theorem C65_range_partial : forall C, mcfg_ok C -> (0 < m_K C)%nat -> m_size C <> 0 -> forall n cxx20 order, (forall s, Permutation (order s) s) ->
  forall k rss sched i c f, Forall (Forall (fun r => r < 2 ^ 31)) rss ->
  snd (dconc sched (driver C n k cxx20 order rss)) !! i = Some (MVis c f) -> in_range C (accesses c).
Proof. exact driver_range. Qed.
Print Assumptions C65_range_partial.

Example C65_example : mcfg_ok kd_C /\ (mfuel kd_C <= kd_fuel)%nat /\ (0 < m_K kd_C)%nat /\ m_size kd_C <> 0.
Proof. exact kd_cfg. Qed.
Example C65_example_init : (forall j, j < m_size kd_C -> mval (contents mw_init j)) /\ seqs_le mw_init 0 0 /\
  0 + 2 * N.of_nat (N.to_nat 10000 * m_K kd_C) < 2 ^ seqSize (2 ^ m_log kd_C).
Proof. exact kd_init. Qed.
Example C65_example_alone : match mrun (performOps kd_C kd_fuel 0 false id 2 kd_rands) mw_init with
  | MOk (DOk l) m => l = [([mkWord 9 0 24; mkWord 7 0 0xffffffff80000000], true); ([mkWord 7 0xffffffff80000000 40], true)] /\
      contents m 9 = 24 /\ contents m 7 = 40
  | _ => False
  end.
Proof. exact kd_run. Qed.
(** Two threads that run in turn: the call of the second one fails. *)
Example C65_example_threads : let y := dconc kd_sched (driver kd_C kd_fuel 1 false id [[0; 5; 1]; [1; 5; 6; 2; 3]]) in
  snd y = [MRet (DOk [([mkWord 5 0 8], true)]); MRet (DOk [([mkWord 6 0 16; mkWord 5 0 24], false)])].
Proof. exact kd_conc. Qed.
