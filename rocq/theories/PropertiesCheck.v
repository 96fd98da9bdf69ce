(** The calls of the alternating test as run_test makes them, and the check after recovery. *)
From Coq Require Import NArith Bool List.
From stdpp Require Import base list gmap.
From Verif Require Import Word Prog HashMap Spec ConcSpec Examples DurableSpec Codec CodecSpec CodecThm Container RecCheck RecCheckSpec RecCheckRun RecCheckWitness.
Import ListNotations.
Local Open Scope N_scope.

(** ** C38, for the calls that run_test makes *)

Theorem C38_run_partial : forall n total, n <> 0 -> total < 2 ^ 64 -> n * (total / n + total mod n) <= 2 ^ 32 ->
  exists ls, map (alt_run n total) (threads n) = map Some ls /\
    NoDup (flat_map (fun r => inserts (fst r ++ snd r)) ls).
Proof. exact c38_run. Qed.
Print Assumptions C38_run_partial.

Example C38_run_example : map (alt_run 2 10) (threads 2) =
  [Some ([], [BInsert 0; BErase 0; BInsert 1; BErase 1; BInsert 2]); Some ([], [BInsert 5; BErase 5; BInsert 6; BErase 6; BInsert 7])].
Proof. vm_compute. reflexivity. Qed.

(** With ten operations or more per thread, all threads but the first execute less: the elements that the prefix should
    insert are missing. *)
Theorem C38_prefix_refuted : exists n total thr pre main numops, thr < n /\
  opsPerThread n total thr = Some numops /\ alt_run n total thr = Some (pre, main) /\ N.of_nat (length (pre ++ main)) < numops.
Proof. exact c38_prefix_refuted. Qed.
Print Assumptions C38_prefix_refuted.

(** ** C52: the check after recovery accepts the container of an interrupted test *)

(** The container holds what it should after each thread was stopped somewhere in its main loop, or at its end.  The
    check succeeds if each thread makes an odd number of calls, or less than four, or at least ten, and all but the
    first less than 20.  Missing: the other numbers of calls and the interrupted prefix, where it is false, and elements
    that do not fit into an int. *)
Theorem C52_accepts_partial : forall C fuel s m n total js has b s',
  n <> 0 -> total < 2 ^ 64 -> n * width n total < 2 ^ 31 ->
  behaves C s m -> keys_are n total m has -> stopped n total js has ->
  run (consistency_check C (c_contains C fuel) c_count total n) s = Ok b s' ->
  checkable n total -> b = true.
Proof. exact recovered_accepts. Qed.
Print Assumptions C52_accepts_partial.

Example C52_example : exists s m js has s', checkable 2 10 /\ behaves idcfg s m /\ keys_are 2 10 m has /\ stopped 2 10 js has /\
  run (consistency_check idcfg (c_contains idcfg ex_fuel) c_count 10 2) s = Ok true s' /\ (exists a b, has a = true /\ has b = true /\ a <> b).
Proof. exact c52_example. Qed.

(** One thread on a new map, from the calls to the check (C06 says why no resize may be under way). *)
Theorem C52_one_thread_partial : forall C cap ppl maxcap total j pre main rs s fuel b s',
  good_cap cap maxcap -> maxcap <= 2 ^ 32 -> total < 2 ^ 31 -> checkable 1 total -> alt_run 1 total 0 = Some (pre, main) ->
  reach_quiet C (init_state cap ppl maxcap) (map bcall (pre ++ firstn j main)) rs s ->
  run (consistency_check C (c_contains C fuel) c_count total 1) s = Ok b s' -> b = true.
Proof. exact one_thread_accepts. Qed.
Print Assumptions C52_one_thread_partial.

Example C52_one_thread_example : exists pre main rs s s',
  checkable 1 11 /\ alt_run 1 11 0 = Some (pre, main) /\
  reach_quiet idcfg (init_state 16 4 4096) (map bcall (pre ++ firstn 5 main)) rs s /\
  run (consistency_check idcfg (c_contains idcfg ex_fuel) c_count 11 1) s = Ok true s'.
Proof. exact c52_one_example. Qed.

(** When all calls were made, these are the only numbers of calls for which the check succeeds. *)
Theorem C52_complete : forall C fuel s m n total js has b s',
  n <> 0 -> total < 2 ^ 64 -> n * width n total < 2 ^ 31 ->
  behaves C s m -> keys_are n total m has -> stopped n total js has ->
  run (consistency_check C (c_contains C fuel) c_count total n) s = Ok b s' ->
  complete n total js -> (b = true <-> checkable n total).
Proof. exact recovered_complete. Qed.
Print Assumptions C52_complete.

Example C52_complete_example :
  (exists s m js has s', complete 2 10 js /\ behaves idcfg s m /\ keys_are 2 10 m has /\ stopped 2 10 js has /\
     run (consistency_check idcfg (c_contains idcfg ex_fuel) c_count 10 2) s = Ok true s') /\
  (exists s m js has s', complete 1 4 js /\ behaves idcfg s m /\ keys_are 1 4 m has /\ stopped 1 4 js has /\
     run (consistency_check idcfg (c_contains idcfg ex_fuel) c_count 4 1) s = Ok false s').
Proof. exact c52_complete_example. Qed.

(** If a thread other than the first has 20 calls or more, the check fails wherever the threads stopped: it asks for
    elements that nobody inserted. *)
Theorem C52_threads : forall C fuel s m n total js has b s',
  n <> 0 -> total < 2 ^ 64 -> n * width n total < 2 ^ 31 ->
  behaves C s m -> keys_are n total m has -> stopped n total js has ->
  run (consistency_check C (c_contains C fuel) c_count total n) s = Ok b s' ->
  forall thr numops, 0 < thr < n -> opsPerThread n total thr = Some numops -> 20 <= numops -> b = false.
Proof. exact recovered_threads. Qed.
Print Assumptions C52_threads.

Example C52_threads_example : exists s m js has s', opsPerThread 2 40 1 = Some 20 /\ behaves idcfg s m /\ keys_are 2 40 m has /\ stopped 2 40 js has /\
  run (consistency_check idcfg (c_contains idcfg ex_fuel) c_count 40 2) s = Ok false s'.
Proof. exact c52_threads_example. Qed.

(** Four calls by one thread; the file has everything that was written.  The check fails. *)
Theorem C52_refuted : exists total pre main rs s img s1 s',
  alt_run 1 total 0 = Some (pre, main) /\ reach idcfg (init_state 16 4 4096) (map bcall (pre ++ main)) rs s /\
  (exists T, st_tabs s = [T] /\ img = t_pairs T) /\ crash_table s 0 img /\ init_state_files 16 4 4096 [(0, img)] = Some s1 /\
  run (consistency_check idcfg (c_contains idcfg ex_fuel) c_count total 1) s1 = Ok false s'.
Proof. exact c52_refuted. Qed.
Print Assumptions C52_refuted.

(** A crash after the first of the prefix's four inserts. *)
Theorem C52_prefix_refuted : exists total pre main rs s img s1 s',
  alt_run 1 total 0 = Some (pre, main) /\ checkable 1 total /\ reach idcfg (init_state 16 4 4096) (map bcall (firstn 1 pre)) rs s /\
  (exists T, st_tabs s = [T] /\ img = t_pairs T) /\ crash_table s 0 img /\ init_state_files 16 4 4096 [(0, img)] = Some s1 /\
  run (consistency_check idcfg (c_contains idcfg ex_fuel) c_count total 1) s1 = Ok false s'.
Proof. exact c52_prefix_refuted. Qed.
Print Assumptions C52_prefix_refuted.

(** The values of finished inserts need not be in the file (C43).  One thread, the crash comes when the two inserts of
    the prefix have returned: whether the check succeeds depends on what was written back. *)
Theorem C52_crash_refuted : exists total pre main rs s img img' s1 s1' s' s'',
  alt_run 1 total 0 = Some (pre, main) /\ checkable 1 total /\ reach idcfg (init_state 16 4 4096) (map bcall pre) rs s /\
  crash_table s 0 img /\ init_state_files 16 4 4096 [(0, img)] = Some s1 /\
  run (consistency_check idcfg (c_contains idcfg ex_fuel) c_count total 1) s1 = Ok false s' /\
  crash_table s 0 img' /\ init_state_files 16 4 4096 [(0, img')] = Some s1' /\
  run (consistency_check idcfg (c_contains idcfg ex_fuel) c_count total 1) s1' = Ok true s''.
Proof. exact c52_crash_refuted. Qed.
Print Assumptions C52_crash_refuted.
