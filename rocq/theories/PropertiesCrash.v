(** Crashes of executions of several threads. *)
From Coq Require Import NArith Bool List.
From stdpp Require Import base list gmap.
From Verif Require Import Word Prog HashMap Conc Spec ConcSpec LinSpec Examples ConcWitness CrashSpec CrashConc CrashConcWitness CrashGet CrashGrow.
Import ListNotations.
Open Scope nat_scope.

(** ** C53: a crash loses at most the last change of an entry, with several threads *)

(** Full statement, false (below): whatever a crash finds in an entry, the entry has since then taken at most one other
    value, the current one.  Proved for entries that never take a value a second time.  Any number of tables. *)
Theorem C53_last_change_partial : forall C cap ppl n maxcap todos sched t T img i p cur,
  good_cap cap maxcap -> Forall (Forall legal_op) todos ->
  let st_ x := sy_st (after C n (init_state cap ppl maxcap) todos x) in
  crash_table (st_ sched) t img -> img !! i = Some p ->
  st_tabs (st_ sched) !! t = Some T -> entry (st_ sched) t i = Some cur -> never_returns T i ->
  exists v, hist_entry T v i = Some p /\
    forall v' q, v <= v' -> hist_entry T v' i = Some q -> same_word (snd q) (snd p) \/ same_word (snd q) (snd cur).
Proof. exact c53_last_change. Qed.
Print Assumptions C53_last_change_partial.

(** The second value of the key 24 is lost. *)
Example C53_example : let y := after idcfg ex_fuel (init_state 8 4 1024) w53_todos (segs w53_sched) in
  Forall (Forall legal_op) w53_todos /\ exists img T, crash_table (sy_st y) 0 img /\ img !! 0 = Some (24, 81)%N /\
  st_tabs (sy_st y) !! 0 = Some T /\ entry (sy_st y) 0 0 = Some (24, 89)%N /\ never_returns T 0.
Proof. exact c53_example. Qed.

(** The values 80, 88, 80 and 96 have been written to the key 24 one after another, and all calls have returned.  A crash may
    find 88, and so lose two changes. *)
Theorem C53_refuted : exists todos sched img T p cur, let y := after idcfg ex_fuel (init_state 8 4 1024) todos sched in
  Forall (Forall legal_op) todos /\ idle y /\ crash_table (sy_st y) 0 img /\ img !! 0 = Some p /\
  st_tabs (sy_st y) !! 0 = Some T /\ entry (sy_st y) 0 0 = Some cur /\
  forall v, hist_entry T v 0 = Some p ->
    exists v' q, v <= v' /\ hist_entry T v' 0 = Some q /\ ~ same_word (snd q) (snd p) /\ ~ same_word (snd q) (snd cur).
Proof. exact c53_refuted. Qed.
Print Assumptions C53_refuted.

(** ** C54: a map used by several threads survives a crash when it is constructed again *)

(** Full statement, false (below): the map constructed from the file that any crash of any execution leaves behind
    behaves as a dictionary that has, for each key, what the memory said at some moment before the crash.
    Proved for maps with a single table, if only one thread at a time inserts new keys.  Moreover, for a key whose entry never
    takes a value twice, at most the last change is lost, and no value from before one that some [get] has returned. *)
Theorem C54_crash_reopen_partial : forall C cap ppl n maxcap todos sched img files cap' ppl',
  good_cap cap maxcap -> (maxcap <= 2 ^ 32)%N -> Forall (Forall legal_op) todos ->
  let at_ x := after C n (init_state cap ppl maxcap) todos x in let st_ x := sy_st (at_ x) in
  inserts_alone (sy_hist (at_ sched)) -> length (st_tabs (st_ sched)) = 1 -> crash_table (st_ sched) 0 img ->
  find_file 0 files = Some img -> (forall x, (0 < x)%N -> find_file x files = None) ->
  exists s1 m, init_state_files cap' ppl' maxcap files = Some s1 /\
    (forall k, legal_key k -> exists x y, sched = x ++ y /\ says (st_ x) k (m !! k) /\
       (never_back (st_ sched) k ->
          (forall z z' r, y = z ++ z' -> says (st_ (x ++ z)) k r -> r = m !! k \/ says (st_ sched) k r) /\
          (forall h1 h2 i v, sy_hist (at_ sched) = h1 ++ ERes i (OGet k) (RVal v) :: h2 -> v <> NOTFOUND ->
             exists x0 x1, x = x0 ++ x1 /\ says (st_ x0) k (Some v)))) /\
    (forall x s2, run size s1 = Ok x s2 -> x = N.of_nat (base.size m)) /\
    (forall os rs s2, reach C s1 os rs s2 -> Forall legal_op os -> exists m', dsteps m os rs m').
Proof. exact crash_conc. Qed.
Print Assumptions C54_crash_reopen_partial.

(** Three threads; the crash loses the last value of the key 24 and keeps the one that a [get] has returned. *)
Example C54_example : let y := after idcfg ex_fuel (init_state 8 4 1024) w54_todos (segs w54_sched) in
  Forall (Forall legal_op) w54_todos /\ inserts_alone (sy_hist y) /\ length (st_tabs (sy_st y)) = 1 /\ never_back (sy_st y) 24 /\
  In (ERes 2 (OGet 24) (RVal 88)) (sy_hist y) /\ entry (sy_st y) 0 0 = Some (24, 97)%N /\
  exists img, crash_table (sy_st y) 0 img /\ img !! 0 = Some (24, 88)%N /\ img !! 1 = Some (32, 96)%N.
Proof. exact c54_example. Qed.

(** Two threads insert one key each, and both calls have returned.  The key 44 went to the entry after the one of
    the other key, which was not written back.  In the map constructed again [get] does not find 44 until another
    key is inserted. *)
Theorem C54_refuted : exists C todos sched img s1 s2, let y := after C ex_fuel (init_state 8 4 1024) todos sched in
  Forall (Forall legal_op) todos /\ idle y /\ Forall (fun os => length os = 1) todos /\ length (st_tabs (sy_st y)) = 1 /\
  crash_table (sy_st y) 0 img /\ init_state_files 8 4 1024 [(0%N, img)] = Some s1 /\
  reach C s1 [OGet 44; OPut 76 80; OGet 44]%N [RVal NOTFOUND; RVal NOTFOUND; RVal 88]%N s2 /\
  forall m m', ~ dsteps m [OGet 44; OPut 76 80; OGet 44]%N [RVal NOTFOUND; RVal NOTFOUND; RVal 88]%N m'.
Proof. exact c54_refuted. Qed.
Print Assumptions C54_refuted.

(** Proved for any number of inserting threads: a key that some [get] has returned is found again.  [get] in the map constructed
    again returns what the memory said about the key at some moment; if the entry of the key never takes a value twice, this
    moment is not before one at which the memory had the value that was returned. *)
Theorem C54_read_partial : forall C cap ppl n maxcap todos sched h1 h2 i k v img files cap' ppl',
  good_cap cap maxcap -> (maxcap <= 2 ^ 32)%N -> Forall (Forall legal_op) todos ->
  let at_ x := after C n (init_state cap ppl maxcap) todos x in let st_ x := sy_st (at_ x) in
  sy_hist (at_ sched) = h1 ++ ERes i (OGet k) (RVal v) :: h2 -> v <> NOTFOUND ->
  length (st_tabs (st_ sched)) = 1 -> crash_table (st_ sched) 0 img -> find_file 0 files = Some img ->
  exists s1 r x y, init_state_files cap' ppl' maxcap files = Some s1 /\ sched = x ++ y /\ says (st_ x) k r /\
    (never_back (st_ sched) k -> exists x0 x1, x = x0 ++ x1 /\ says (st_ x0) k (Some v)) /\
    (forall n' g s2, run (get C n' k) s1 = Ok g s2 -> g = default NOTFOUND r) /\
    exists n' s2, run (get C n' k) s1 = Ok (default NOTFOUND r) s2.
Proof. exact crash_get. Qed.
Print Assumptions C54_read_partial.

(** The execution of [C54_refuted], followed by a [get] of 44, which writes back the key before it. *)
Example C54_read_example : let y := after quarter ex_fuel (init_state 8 4 1024) w54g_todos (segs w54g_sched) in
  Forall (Forall legal_op) w54g_todos /\ ~ inserts_alone (sy_hist y) /\ length (st_tabs (sy_st y)) = 1 /\ never_back (sy_st y) 44 /\
  (exists h, sy_hist y = ERes 1 (OGet 44) (RVal 88)%N :: h) /\
  exists img, crash_table (sy_st y) 0 img /\ img !! 3 = Some (12, 81)%N /\ img !! 4 = Some (44, 89)%N.
Proof. exact c54_read_example. Qed.

(** ** C55: what has been read survives a crash while the map grows *)

(** Full statement, false (below): after a [get] of [k] has returned [v], and if [k] is not written any more, every later crash
    finds an entry with [k] and [v] in some table.  Proved: the entry that was read has [k], and (if it never takes a value twice)
    [v] or a later value; and this is not a value marked for migration unless the table has a successor. *)
Theorem C55_until_growth_partial : forall C cap ppl n maxcap todos sched h1 h2 i k v,
  good_cap cap maxcap -> Forall (Forall legal_op) todos ->
  let at_ sched := after C n (init_state cap ppl maxcap) todos sched in
  sy_hist (at_ sched) = h1 ++ ERes i (OGet k) (RVal v) :: h2 -> v <> NOTFOUND ->
  exists t j, forall sched2 img T, crash_table (sy_st (at_ (sched ++ sched2))) t img ->
    st_tabs (sy_st (at_ (sched ++ sched2))) !! t = Some T ->
    exists p, img !! j = Some p /\ same_word (fst p) k /\
      (isMarked (snd p) MigrationFlag = true -> t_new T <> None) /\
      (never_returns T j -> exists a b q, hist_entry T a j = Some q /\ same_word (snd q) v /\ a <= b /\ hist_entry T b j = Some p).
Proof. exact c55_until_growth. Qed.
Print Assumptions C55_until_growth_partial.

(** A read, and a crash of the table it read, which has no successor yet. *)
Example C55_example : let y := after idcfg ex_fuel (init_state 8 4 1024) [[OPut 24 80]; [OGet 24]] (segs [(0, 22); (1, 40)]) in
  Forall (Forall legal_op) [[OPut 24 80]; [OGet 24]] /\ 80%N <> NOTFOUND /\
  (exists h2, sy_hist y = [] ++ ERes 1 (OGet 24) (RVal 80) :: h2) /\
  exists img T, crash_table (sy_st y) 0 img /\ st_tabs (sy_st y) !! 0 = Some T /\ t_new T = None /\ never_returns T 0.
Proof. exact c55_example. Qed.

(** In memory, too, no value is marked for migration in a table without a successor. *)
Theorem C55_frozen_partial : forall C cap ppl n maxcap todos sched t T i p,
  good_cap cap maxcap -> Forall (Forall legal_op) todos ->
  let s := sy_st (after C n (init_state cap ppl maxcap) todos sched) in
  st_tabs s !! t = Some T -> t_pairs T !! i = Some p -> isMarked (snd p) MigrationFlag = true -> t_new T <> None.
Proof. exact c55_frozen. Qed.
Print Assumptions C55_frozen_partial.

Example C55_frozen_example : exists T p, st_tabs (sy_st w55_y) !! 0 = Some T /\ t_pairs T !! 7 = Some p /\
  isMarked (snd p) MigrationFlag = true.
Proof. exact c55_frozen_example. Qed.

(** A single thread inserts eight keys and reads the key 468.  Then it inserts a ninth key, for which the map
    grows.  All calls have returned and 468 is found.  But a crash may find it in no table: the mark that it has been
    migrated reaches persistent memory before the copy does. *)
Theorem C55_refuted : exists os sched h imgs, let y := after idcfg ex_fuel (init_state 8 4 1024) [os] sched in
  Forall legal_op os /\ Forall (fun o => op_key o = Some 468%N -> o = OPut 468 80 \/ o = OGet 468) os /\ idle y /\
  sy_hist y = ERes 0 (OPut 24 88) (RVal NOTFOUND) :: EInv 0 (OPut 24 88) :: ERes 0 (OGet 468) (RVal 80) :: h /\
  (exists s', run (get idcfg ex_fuel 468) (sy_st y) = Ok 80%N s') /\
  length imgs = length (st_tabs (sy_st y)) /\ (forall t img, imgs !! t = Some img -> crash_table (sy_st y) t img) /\
  Forall (Forall (fun p => same_word (fst p) 468 -> payload (snd p) = VINITIAL \/ payload (snd p) = VTOMBSTONE)) imgs.
Proof. exact c55_refuted. Qed.
Print Assumptions C55_refuted.
