(** Crashes of single-threaded executions, also in the middle of a call. *)
From Coq Require Import NArith Bool List.
From stdpp Require Import base list gmap.
From Verif Require Import Word Prog HashMap Spec ConcSpec Examples DurableSpec DurableThm CrashReopen CrashReadSpec CrashRead DurableWitness.
Import ListNotations.
Open Scope nat_scope.

(** ** C23: a crash loses at most the last write of an entry, and never a value that was read *)

(** Whatever the directory held when the map was constructed, whatever calls (with any arguments) have finished, and
    wherever the call under way is interrupted: the key and the value found in persistent memory are the last ones
    written, or, unless these are known to be persistent, the ones before. *)
Theorem C23_last_or_previous : forall C cap ppl maxcap files s0 os rs s n o s' t i p T,
  init_state_files cap ppl maxcap files = Some s0 -> reach C s0 os rs s -> during (op_prog C n o) s s' ->
  st_tabs s' !! t = Some T -> crash_entry s' t i p ->
  last_or_previous T i CKey (fst p) /\ last_or_previous T i CVal (snd p).
Proof. exact crash_last_or_previous. Qed.
Print Assumptions C23_last_or_previous.

Example C23_example : exists s' T,
  init_state_files 16 4 4096 [] = Some (init_state 16 4 4096) /\
  reach idcfg (init_state 16 4 4096) [OPut 40 80; OGet 40]%N [RVal NOTFOUND; RVal 80]%N dx_s /\
  during (op_prog idcfg ex_fuel (OPut 40 88)) dx_s s' /\ st_tabs s' !! 0 = Some T /\
  crash_entry s' 0 8 (40, 80)%N /\ crash_entry s' 0 8 (40, dirty 88)%N.
Proof. exact c23_example. Qed.

(** A value that [get] has returned is in an entry whose persistent copy, from then on and wherever the execution is
    interrupted, has the same key and that value or one written after it. *)
Theorem C23_read : forall C cap ppl maxcap files s0 os rs s n k v s1,
  init_state_files cap ppl maxcap files = Some s0 -> reach C s0 os rs s -> run (get C n k) s = Ok v s1 -> v <> NOTFOUND ->
  exists t i T1, st_tabs s1 !! t = Some T1 /\ t_pairs T1 !! i = Some (k, v) /\
    forall os2 rs2 s2 n2 o2 s3, reach C s1 os2 rs2 s2 -> during (op_prog C n2 o2) s2 s3 ->
    exists T3, st_tabs s3 !! t = Some T3 /\
    forall p, crash_entry s3 t i p -> same_word (fst p) k /\ since T3 (length (t_past T1)) i CVal (snd p).
Proof. exact read_survives. Qed.
Print Assumptions C23_read.

(** Before the read, a crash could still bring back the value 80. *)
Example C23_read_example : exists s s1 s2,
  reach idcfg (init_state 16 4 4096) [OPut 40 80; OGet 40; OPut 40 88]%N [RVal NOTFOUND; RVal 80; RVal 80]%N s /\
  run (get idcfg ex_fuel 40) s = Ok 88%N s1 /\ crash_entry s 0 8 (40, 80)%N /\
  during (op_prog idcfg ex_fuel (OPut 40 96)) s1 s2 /\ crash_entry s2 0 8 (40, dirty 96)%N.
Proof. exact c23_read_example. Qed.

(** ** C43: a map that has not grown survives a crash when it is constructed again *)

(** The execution of one thread is interrupted anywhere; each cache line of the table file is as it was at any moment
    since it was last known to be written back.  Constructing the map from that file gives a map that behaves as a dictionary
    [m].  For each key, [m] has what the history says, but for at most the last change of this key; and nothing from
    before the last [get] that found the key.  (The call under way counts as part of the history or not.) *)
Theorem C43_crash_reopen : forall C cap ppl maxcap os rs s n o s' img files cap' ppl',
  good_cap cap maxcap -> (maxcap <= 2 ^ 32)%N ->
  reach C (init_state cap ppl maxcap) os rs s -> Forall legal_op os -> legal_op o ->
  during (op_prog C n o) s s' -> length (st_tabs s') = 1 -> crash_table s' 0 img ->
  find_file 0 files = Some img -> (forall x, (0 < x)%N -> find_file x files = None) ->
  exists s1 m ms, init_state_files cap' ppl' maxcap files = Some s1 /\
    (dtrace ms os rs \/ exists r s2, run (op_prog C n o) s = Ok r s2 /\ dtrace ms (os ++ [o]) (rs ++ [r])) /\
    (forall k j0, legal_key k -> found_before os rs k j0 -> lost_at_most_last ms j0 k (m !! k)) /\
    (forall x s2, run size s1 = Ok x s2 -> x = N.of_nat (base.size m)) /\
    (forall os' rs' s2, reach C s1 os' rs' s2 -> Forall legal_op os' -> exists m', dsteps m os' rs' m').
Proof. exact crash_reopen. Qed.
Print Assumptions C43_crash_reopen.

Example C43_example :
  reach idcfg (init_state 16 4 4096) [OPut 40 80; OGet 40]%N [RVal NOTFOUND; RVal 80]%N dx_s /\
  during (op_prog idcfg ex_fuel (OPut 40 88)) dx_s (dx_cut 9) /\ length (st_tabs (dx_cut 9)) = 1 /\
  found_before [OPut 40 80; OGet 40]%N [RVal NOTFOUND; RVal 80]%N 40 2 /\
  (forall v, v = 5 \/ v = 7 -> crash_table (dx_cut 9) 0 (image_at (dx_cut 9) v) /\
     init_state_files 16 4 4096 (dx_img v) = Some (dx_reopened v)) /\
  (exists s2, reach idcfg (dx_reopened 5) [OGet 40; OSize]%N [RVal 80; RVal 1]%N s2) /\
  (exists s2, reach idcfg (dx_reopened 7) [OGet 40; OSize]%N [RVal 88; RVal 1]%N s2).
Proof. exact c43_example. Qed.

(** ** C22: acknowledged writes survive a crash *)

(** Full statement, false (C22_refuted): a [put] that has returned survives every crash.  Proved for one thread and a map that
    has not grown: it survives if the key has since been read by a [get], and not been written again; [get] in the map
    constructed from the file returns its value. *)
Theorem C22_read_partial : forall C cap ppl maxcap os1 os2 os3 rs k v s n o s' img files cap' ppl',
  good_cap cap maxcap -> (maxcap <= 2 ^ 32)%N ->
  reach C (init_state cap ppl maxcap) (os1 ++ OPut k v :: os2 ++ OGet k :: os3) rs s ->
  Forall legal_op (os1 ++ OPut k v :: os2 ++ OGet k :: os3) -> legal_op o ->
  Forall (leaves k) os2 -> Forall (leaves k) os3 -> leaves k o ->
  during (op_prog C n o) s s' -> length (st_tabs s') = 1 -> crash_table s' 0 img ->
  find_file 0 files = Some img -> (forall x, (0 < x)%N -> find_file x files = None) ->
  exists s1, init_state_files cap' ppl' maxcap files = Some s1 /\ forall n' r s2, run (get C n' k) s1 = Ok r s2 -> r = v.
Proof. exact read_reopen. Qed.
Print Assumptions C22_read_partial.

(** A crash while another key is inserted. *)
Example C22_read_example :
  reach idcfg (init_state 16 4 4096) ([] ++ OPut 40 80 :: [] ++ OGet 40 :: [])%N [RVal NOTFOUND; RVal 80]%N dx_s /\
  during (op_prog idcfg ex_fuel (OPut 56 88)) dx_s (dy_cut 9) /\ length (st_tabs (dy_cut 9)) = 1 /\
  Forall legal_op [OPut 40 80; OGet 40; OPut 56 88]%N /\ op_key (OPut 56 88)%N <> Some 40%N /\
  exists v, crash_table (dy_cut 9) 0 (image_at (dy_cut 9) v).
Proof. exact c22_read_example. Qed.
