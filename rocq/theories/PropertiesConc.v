(** Properties of concurrent executions.  [after C n s todos sched] is the system after the threads, issuing the calls
    [todos] on the initial state [s], have made the steps of the schedule [sched]; schedules are arbitrary lists of
    thread numbers.  Each theorem is followed by an example showing that its hypotheses are met by a
    concrete execution. *)
From Coq Require Import NArith Bool List Lia.
From stdpp Require Import base list.
From Verif Require Import Word Prog HashMap Spec Conc ConcSpec ConcThm Examples ConcWitness.
Import ListNotations.
Open Scope nat_scope.

(** ** C10: reads return only values that some client supplied for that key *)

(** [h2] is the history up to the response. *)
Theorem C10_reads : forall C cap ppl n maxcap todos sched h1 h2 i k v,
  good_cap cap maxcap -> Forall (Forall legal_op) todos ->
  sy_hist (after C n (init_state cap ppl maxcap) todos sched) = h1 ++ ERes i (OGet k) (RVal v) :: h2 ->
  v = NOTFOUND \/ supplied (invoked h2) k v.
Proof. intros C cap ppl n maxcap todos sched h1 h2 i k v Hc Hl. exact (read_supplied C cap ppl n maxcap todos Hc Hl sched h1 h2 i k v). Qed.
Print Assumptions C10_reads.

(** A read of an entry that is being migrated. *)
Example C10_example : good_cap 8 1024 /\ Forall (Forall legal_op) w19_todos /\ exists h1 h2,
  sy_hist (after idcfg ex_fuel (init_state 8 4 1024) w19_todos (segs (w19_sched ++ [(4, 500)]))) = h1 ++ ERes 4 (OGet 144) (RVal 80) :: h2 /\
  supplied (invoked h2) 144 80.
Proof.
  split; [exact ex_cap8|]. split; [exact (proj1 w19)|]. exists []. eexists. split; [vm_compute; reflexivity|].
  apply sup_put. vm_compute. tauto.
Qed.

(** The previous values that put, putIfAbsent and increment return, apart from the unpersisted mark (see C13). *)
Theorem C10_previous_values : forall C cap ppl n maxcap todos sched h1 h2 i o k v,
  good_cap cap maxcap -> Forall (Forall legal_op) todos ->
  sy_hist (after C n (init_state cap ppl maxcap) todos sched) = h1 ++ ERes i o (RVal v) :: h2 ->
  o = OIncrement k \/ (exists x, o = OPut k x \/ o = OPutIfAbsent k x) ->
  let w := clearMark v DirtyFlag in w = NOTFOUND \/ w = VTOMBSTONE \/ supplied (invoked h2) k w.
Proof.
  intros C cap ppl n maxcap todos sched h1 h2 i o k v Hc Hl E Ho.
  exact (proj2 (write_supplied C cap ppl n maxcap todos Hc Hl sched h1 h2 i o k v E Ho)).
Qed.
Print Assumptions C10_previous_values.

Example C10_previous_example : exists h1 h2,
  sy_hist (after idcfg ex_fuel (init_state 8 4 1024) w24_todos (segs [(0, 22); (1, 11); (2, 80); (1, 10); (3, 30)])) =
    h1 ++ ERes 2 (OPut 24 80) (RVal 88) :: h2.
Proof. exists [ERes 3 (OGet 24) (RVal 80); EInv 3 (OGet 24); ERes 1 (OGet 24) (RVal 80)]. eexists. vm_compute. reflexivity. Qed.

(** ** C12: concurrent first inserts of one key agree on a single winner (false) *)

(** Two puts of the absent key 24 both report that it was absent, and it has two entries afterwards. *)
Theorem C12_refuted : exists todos sched y, Forall (Forall legal_op) todos /\
  Forall (Forall (fun o => exists v, o = OPut 24 v)) todos /\
  y = after idcfg ex_fuel (init_state 8 4 1024) todos sched /\
  In (ERes 0 (OPut 24 80) (RVal NOTFOUND)) (sy_hist y) /\ In (ERes 1 (OPut 24 88) (RVal NOTFOUND)) (sy_hist y) /\
  exists p q, entry (sy_st y) 0 0 = Some p /\ entry (sy_st y) 0 1 = Some q /\ same_word (fst p) 24 /\ same_word (fst q) 24.
Proof. exact c12_refuted. Qed.
Print Assumptions C12_refuted.

(** ** C13: values returned to callers never carry reserved marker bits *)

(** Full statement, false for put and putIfAbsent (below): no result of get, put, putIfAbsent has one of the two
    marker bits.  Proved: get never returns one, and no call returns the migration mark. *)
Theorem C13_marker_bits_partial : forall C cap ppl n maxcap todos sched h1 h2 i o k v,
  good_cap cap maxcap -> Forall (Forall legal_op) todos ->
  sy_hist (after C n (init_state cap ppl maxcap) todos sched) = h1 ++ ERes i o (RVal v) :: h2 ->
  (o = OGet k -> isMarked v DirtyFlag = false /\ isMarked v MigrationFlag = false) /\
  (o = OIncrement k \/ (exists x, o = OPut k x \/ o = OPutIfAbsent k x) -> isMarked v MigrationFlag = false).
Proof. exact c13_bits. Qed.
Print Assumptions C13_marker_bits_partial.

Example C13_example : exists h1 h2,
  sy_hist (after idcfg ex_fuel (init_state 8 4 1024) w24_todos (segs [(0, 22); (1, 11); (2, 80); (1, 10); (3, 30)])) =
    h1 ++ ERes 3 (OGet 24) (RVal 80) :: h2.
Proof. exists []. eexists. vm_compute. reflexivity. Qed.

Theorem C13_refuted :
  (exists todos sched v, Forall (Forall legal_op) todos /\ isMarked v DirtyFlag = true /\
     In (ERes 0 (OPut 24 80) (RVal v)) (sy_hist (after idcfg ex_fuel (init_state 8 4 1024) todos sched))) /\
  (exists todos sched v, Forall (Forall legal_op) todos /\ isMarked v DirtyFlag = true /\
     In (ERes 0 (OPutIfAbsent 24 80) (RVal v)) (sy_hist (after idcfg ex_fuel (init_state 8 4 1024) todos sched))).
Proof. exact c13_refuted. Qed.
Print Assumptions C13_refuted.

(** ** C14: putIfAbsent fails only if the key was present (false) *)

(** putIfAbsent reports an existing value although the key has no value at any moment of the execution, and has none
    at the end. *)
Theorem C14_refuted : exists todos sched v, Forall (Forall legal_op) todos /\ v <> NOTFOUND /\
  In (ERes 0 (OPutIfAbsent 24 80) (RVal v)) (sy_hist (after idcfg ex_fuel (init_state 8 4 1024) todos sched)) /\
  forall s1 s2, sched = s1 ++ s2 -> ~ mapped (sy_st (after idcfg ex_fuel (init_state 8 4 1024) todos s1)) 24.
Proof. exact c14_refuted. Qed.
Print Assumptions C14_refuted.

(** [mapped] is not always false: the key is mapped after a put. *)
Example C14_mapped_example : mapped (sy_st (after idcfg ex_fuel (init_state 8 4 1024) [[OPut 24 80]] (segs [(0, 22)]))) 24.
Proof. exists 0, 0. eexists. split; [vm_compute; reflexivity|]. vm_compute. repeat split; discriminate. Qed.

(** ** C15: a claimed key slot is permanent *)

Theorem C15_key_permanent : forall C cap ppl n maxcap todos s1 s2 t i p,
  good_cap cap maxcap -> Forall (Forall legal_op) todos ->
  entry (sy_st (after C n (init_state cap ppl maxcap) todos s1)) t i = Some p -> ~ same_word (fst p) KINITIAL ->
  exists p', entry (sy_st (after C n (init_state cap ppl maxcap) todos (s1 ++ s2))) t i = Some p' /\ same_word (fst p') (fst p).
Proof. exact c15_key. Qed.
Print Assumptions C15_key_permanent.

(** ** C16: entries frozen for migration are never written again *)

(** A value with the migration mark stays or becomes TOMBPRIME, the 'migrated' marker, which stays. *)
Theorem C16_frozen : forall C cap ppl n maxcap todos s1 s2 t i p,
  good_cap cap maxcap -> Forall (Forall legal_op) todos ->
  entry (sy_st (after C n (init_state cap ppl maxcap) todos s1)) t i = Some p -> isMarked (snd p) MigrationFlag = true ->
  exists p', entry (sy_st (after C n (init_state cap ppl maxcap) todos (s1 ++ s2))) t i = Some p' /\
    (same_word (snd p') (snd p) \/ same_word (snd p') TOMBPRIME) /\
    (same_word (snd p) TOMBPRIME -> same_word (snd p') TOMBPRIME).
Proof. exact c16_frozen. Qed.
Print Assumptions C16_frozen.

(** A frozen entry, and the same entry after its migration. *)
Example C15_C16_example : let at_ l := sy_st (after idcfg ex_fuel (init_state 8 4 1024) w19_todos (segs l)) in
  exists v v', entry (at_ [(0, 400); (1, 86)]) 0 0 = Some (16%N, v) /\ isMarked v MigrationFlag = true /\ ~ same_word 16 KINITIAL /\
    entry (at_ [(0, 400); (1, 86); (2, 400)]) 0 0 = Some (16%N, v') /\ same_word v' TOMBPRIME /\ ~ same_word v TOMBPRIME.
Proof. do 2 eexists. split; [vm_compute; reflexivity|]. do 2 (split; [vm_compute; (reflexivity||discriminate)|]).
  split; [vm_compute; reflexivity|]. split; vm_compute; (reflexivity||discriminate). Qed.

(** ** C17: each table gets at most one successor, exactly twice as large *)

Theorem C17_successor : forall C cap ppl n maxcap todos s1 s2 t T x,
  good_cap cap maxcap -> Forall (Forall legal_op) todos ->
  let at_ sched := sy_st (after C n (init_state cap ppl maxcap) todos sched) in
  st_tabs (at_ s1) !! t = Some T -> t_new T = Some x ->
  (exists T', st_tabs (at_ (s1 ++ s2)) !! t = Some T' /\ t_new T' = Some x) /\
  exists X, st_tabs (at_ s1) !! x = Some X /\ t_len X = 2 * t_len T.
Proof. exact c17_successor. Qed.
Print Assumptions C17_successor.

Theorem C17_capacity : forall C cap ppl n maxcap todos sched t T,
  good_cap cap maxcap -> Forall (Forall legal_op) todos ->
  st_tabs (sy_st (after C n (init_state cap ppl maxcap) todos sched)) !! t = Some T ->
  (exists e, t_len T = 2 ^ e) /\ cap <= t_len T /\
  forall s2, exists T', st_tabs (sy_st (after C n (init_state cap ppl maxcap) todos (sched ++ s2))) !! t = Some T' /\ t_len T' = t_len T.
Proof. exact c17_capacity. Qed.
Print Assumptions C17_capacity.

(** Two threads resize at the same time; one of them discards its table. *)
Example C17_example : let y := after idcfg ex_fuel (init_state 8 4 1024) w17_todos (segs w17_sched) in
  map t_len (st_tabs (sy_st y)) = [8; 16; 16] /\ map t_new (st_tabs (sy_st y)) = [Some 2; None; None].
Proof. vm_compute. split; reflexivity. Qed.

(** ** C18: the map's current table only moves forward *)

Theorem C18_forward : forall C cap ppl n maxcap todos sched i,
  good_cap cap maxcap -> Forall (Forall legal_op) todos ->
  let s := sy_st (after C n (init_state cap ppl maxcap) todos sched) in
  let s' := sy_st (after C n (init_state cap ppl maxcap) todos (sched ++ [i])) in
  st_top s' = st_top s \/ exists T, st_tabs s !! st_top s = Some T /\ t_new T = Some (st_top s').
Proof. intros C cap ppl n maxcap todos sched i Hc Hl. exact (top_forward C cap ppl n maxcap todos Hc Hl sched i). Qed.
Print Assumptions C18_forward.

Example C18_example : st_top (sy_st w19_before) = 0 /\ st_top (sy_st w19_after) = 1.
Proof. vm_compute. split; reflexivity. Qed.

(** ** C19: promotion loses nothing (concurrently false) *)

(** The key 468 was put once, and the put has returned.  The step of thread 9 that replaces the current table makes it
    disappear. *)
Theorem C19_refuted : exists todos sched i, let y := after idcfg ex_fuel (init_state 8 4 1024) todos sched in
  let y' := after idcfg ex_fuel (init_state 8 4 1024) todos (sched ++ [i]) in
  Forall (Forall legal_op) todos /\ Forall (Forall (fun o => op_key o = Some 468%N -> o = OPut 468 80)) todos /\
  In (ERes 0 (OPut 468 80) (RVal NOTFOUND)) (sy_hist y) /\
  st_top (sy_st y) <> st_top (sy_st y') /\
  (exists s', run (get idcfg ex_fuel 468) (sy_st y) = Ok 80%N s') /\
  (exists s', run (get idcfg ex_fuel 468) (sy_st y') = Ok NOTFOUND s').
Proof. exact c19_refuted. Qed.
Print Assumptions C19_refuted.

(** ** C20: lock-freedom (false) *)

(** Thread 1 is suspended in the middle of its call, thread 0 has finished.  Whatever call is made now (other than
    size), it does not return, however long it runs. *)
Theorem C20_refuted : exists todos sched, let y := after idcfg ex_fuel (init_state 8 4 1024) todos sched in
  Forall (Forall legal_op) todos /\ Forall (fun th => th_todo th = []) (sy_thr y) /\
  (exists th o p, sy_thr y !! 0 = Some th /\ th_cur th = None /\
     exists th', sy_thr y !! 1 = Some th' /\ th_cur th' = Some (o, p)) /\
  forall n o, legal_op o -> o <> OSize -> exists s', run (op_prog idcfg n o) (sy_st y) = Fail OutOfFuel s'.
Proof. exact c20_refuted. Qed.
Print Assumptions C20_refuted.

(** The same calls do return a little earlier or later: thread 1 alone completes the migration. *)
Example C20_contrast : exists s1 s2 r1 r2,
  run (op_prog idcfg ex_fuel (OGet 16)) (sy_st (after idcfg ex_fuel (init_state 8 4 1024) w20_todos (segs [(0, 400); (1, 50)]))) = Ok r1 s1 /\
  run (op_prog idcfg ex_fuel (OGet 16)) (sy_st (after idcfg ex_fuel (init_state 8 4 1024) w20_todos (segs [(0, 400); (1, 420)]))) = Ok r2 s2.
Proof. do 4 eexists. split; apply ok_of; vm_compute; reflexivity. Qed.

(** ** C21: removed keys stay removed (concurrently false) *)

(** All writes of the key 24 returned before it was removed, and a get confirmed that it was gone; after a resize it
    is back. *)
Theorem C21_refuted : exists todos sched h r v h0, Forall (Forall legal_op) todos /\ v <> NOTFOUND /\
  sy_hist (after idcfg ex_fuel (init_state 8 4 1024) todos sched) = [ERes 2 (OGet 24) (RVal v); EInv 2 (OGet 24)] ++ h ++
    [ERes 2 (OGet 24) (RVal NOTFOUND); EInv 2 (OGet 24); ERes 2 (ORemove 24) r; EInv 2 (ORemove 24)] ++ h0 /\
  h0 = [ERes 0 (OPut 24 80) (RVal NOTFOUND); ERes 1 (OPut 24 88) (RVal NOTFOUND); EInv 1 (OPut 24 88); EInv 0 (OPut 24 80)] /\
  Forall (fun o => op_key o <> Some 24%N) (invoked h).
Proof. exact c21_refuted. Qed.
Print Assumptions C21_refuted.

(** ** C22: acknowledged writes survive a crash (false) *)

(** A single put has returned; a crash may find persistent memory without its key. *)
Theorem C22_refuted : exists todos sched, let y := after idcfg ex_fuel (init_state 8 4 1024) todos sched in
  Forall (Forall legal_op) todos /\ sy_hist y = [ERes 0 (OPut 24 80) (RVal NOTFOUND); EInv 0 (OPut 24 80)] /\
  exists img, crash_table (sy_st y) 0 img /\ Forall (fun p => ~ same_word (fst p) 24) img.
Proof. exact c22_refuted. Qed.
Print Assumptions C22_refuted.

(** ** C24: what a concurrent reader has seen survives a crash *)

(** Full statement, false for values (below): after a read of [k] has returned [v], every later crash finds an entry
    with [k] and with [v] or a value written later.  Proved: some entry has [k] in every crash image from
    then on; and it has [v] or a later value in all tables in which that entry never takes a value a second time. *)
Theorem C24_read_durable_partial : forall C cap ppl n maxcap todos sched h1 h2 i k v,
  good_cap cap maxcap -> Forall (Forall legal_op) todos ->
  let at_ sched := after C n (init_state cap ppl maxcap) todos sched in
  sy_hist (at_ sched) = h1 ++ ERes i (OGet k) (RVal v) :: h2 -> v <> NOTFOUND ->
  exists t j, forall sched2 img, crash_table (sy_st (at_ (sched ++ sched2))) t img ->
    exists p, img !! j = Some p /\ same_word (fst p) k /\
    forall T, st_tabs (sy_st (at_ (sched ++ sched2))) !! t = Some T -> never_returns T j ->
      exists a b q, hist_entry T a j = Some q /\ same_word (snd q) v /\ a <= b /\ hist_entry T b j = Some p.
Proof. exact c24_durable. Qed.
Print Assumptions C24_read_durable_partial.

(** A read, a crash image, and an entry that never takes a value twice. *)
Example C24_example : let y := after idcfg ex_fuel (init_state 8 4 1024) [[OPut 24 80]; [OGet 24]] (segs [(0, 22); (1, 40)]) in
  sy_hist y = ERes 1 (OGet 24) (RVal 80) :: [EInv 1 (OGet 24); ERes 0 (OPut 24 80) (RVal NOTFOUND); EInv 0 (OPut 24 80)] /\
  (exists img, crash_table (sy_st y) 0 img) /\ exists T, st_tabs (sy_st y) !! 0 = Some T /\ never_returns T 0.
Proof. exact c24_example. Qed.

(** Threads 0 and 2 have written 80, 88 and 80 to the key 24, and all calls have returned.  A read that starts after
    that returns 80, but a crash may find 88. *)
Theorem C24_refuted : exists todos sched h img, let y := after idcfg ex_fuel (init_state 8 4 1024) todos sched in
  Forall (Forall legal_op) todos /\ idle y /\
  sy_hist y = ERes 3 (OGet 24) (RVal 80) :: EInv 3 (OGet 24) :: h /\ In (ERes 2 (OPut 24 80) (RVal 88)) h /\
  crash_table (sy_st y) 0 img /\ In (24, 89)%N img /\ Forall (fun p => ~ same_word (snd p) 80) img.
Proof. exact c24_refuted. Qed.
Print Assumptions C24_refuted.

(** ** C25: no value without its key in persistent memory *)

Theorem C25_no_orphan_value : forall C cap ppl n maxcap todos sched t img i p,
  good_cap cap maxcap -> Forall (Forall legal_op) todos ->
  crash_table (sy_st (after C n (init_state cap ppl maxcap) todos sched)) t img -> img !! i = Some p ->
  ~ same_word (snd p) VINITIAL -> ~ same_word (fst p) KINITIAL.
Proof. exact c25_key. Qed.
Print Assumptions C25_no_orphan_value.

(** ** C26: persistent entries contain only client data *)

Theorem C26_client_data : forall C cap ppl n maxcap todos sched t img i p,
  good_cap cap maxcap -> Forall (Forall legal_op) todos ->
  let y := after C n (init_state cap ppl maxcap) todos sched in
  crash_table (sy_st y) t img -> img !! i = Some p -> client_entry (invoked (sy_hist y)) p.
Proof. intros C cap ppl n maxcap todos sched t img i p Hc Hl. exact (crash_client C cap ppl n maxcap todos Hc Hl sched t img i p). Qed.
Print Assumptions C26_client_data.

(** There are crash images at any time: a crash in the middle of a migration. *)
Theorem C26_images_exist : forall C cap ppl n maxcap todos sched t,
  good_cap cap maxcap -> Forall (Forall legal_op) todos ->
  let s := sy_st (after C n (init_state cap ppl maxcap) todos sched) in
  t < length (st_tabs s) -> exists img, crash_table s t img.
Proof. exact c26_exist. Qed.
Print Assumptions C26_images_exist.

Example C25_C26_example : exists img i p,
  crash_table (sy_st w19_before) 1 img /\ img !! i = Some p /\ same_word (fst p) 144 /\ same_word (snd p) 80.
Proof. exact c26_example. Qed.

(** ** C41: a call that runs alone returns (false) *)

(** All calls have returned; the put of a new key does not, however long it runs, although no other thread does
    anything. *)
Theorem C41_refuted : exists todos sched, let y := after idcfg ex_fuel (init_state 8 4 1024) todos sched in
  Forall (Forall legal_op) todos /\ idle y /\ legal_op (OPut 68 80) /\
  forall n, exists s', run (op_prog idcfg n (OPut 68 80)) (sy_st y) = Fail OutOfFuel s'.
Proof. exact c41_refuted. Qed.
Print Assumptions C41_refuted.
