(** Properties of the benchmark drivers. *)
From Coq Require Import NArith Bool List Ascii String Lia Permutation.
From stdpp Require Import base list gmap.
From Verif Require Import Word Prog HashMap Spec Codec Container ContainerSpec Harness HarnessSpec HarnessYcsb HarnessCount
  HarnessMisc HarnessRun HarnessWitness Examples.
Import ListNotations.
Open Scope nat_scope.

(** ** C56: the YCSB driver deals out the trace *)

(** With at least two threads, or no more operations than a queue has room for: every INSERT line of the load file is
    inserted; line j of the run file goes to thread j modulo the number of threads, every thread gets its lines in the
    file's order, nothing is lost or doubled, and no queue overflows.  Only the first operationCount + 1 lines are used.
    What is missing: one thread and a longer trace ([C56_one_thread]), and lines that name an operation without a number
    ([C56_malformed_refuted]). *)
Theorem C56_queues_partial : forall nd cap T ls1 ls2 f1 f2 items1 items2 buf,
  Forall2 line_is ls1 items1 -> Forall2 line_is ls2 items2 -> Forall one_line ls1 -> Forall one_line ls2 ->
  Forall fits ls1 -> Forall fits ls2 -> text_of ls1 f1 -> text_of ls2 f2 -> List.length buf = 1024 ->
  (1 <= cap)%N -> (1 <= T)%N ->
  (2 <= T)%N \/ (N.of_nat (List.length (ops_of (firstn (N.to_nat (cap + 1)) items2))) <= cap)%N ->
  exists qs, ycsb_prefix nd cap T f1 f2 buf = HOk (inserts_of items1, qs) /\
    List.length qs = N.to_nat T /\
    (forall t, (t < T)%N -> qs !! N.to_nat t = Some (ops_of (share T t 0 (firstn (N.to_nat (cap + 1)) items2)))) /\
    Permutation (concat qs) (ops_of (firstn (N.to_nat (cap + 1)) items2)).
Proof. exact c56_queues. Qed.
Print Assumptions C56_queues_partial.

Example C56_example :
  Forall2 line_is ex_load ex_load_items /\ Forall2 line_is ex_trace ex_trace_items /\
  Forall one_line ex_load /\ Forall one_line ex_trace /\ Forall fits ex_load /\ Forall fits ex_trace /\
  text_of ex_load (file_of ex_load) /\ text_of ex_trace ex_trace_file /\ List.length zeros = 1024 /\
  ycsb_prefix false operationCount 2 (file_of ex_load) ex_trace_file zeros =
    HOk ([7; 12]%N, [[mkYop YRead 7; mkYop YInsert 3]; [mkYop YUpdate 12; mkYop YDelete 7; mkYop YRead 9]]).
Proof. exact c56_example. Qed.
(** Signs and further blanks. *)
Example C56_signs_example : Forall2 line_is [txt "READ  -3"; txt "INSERT +4"] [Some (mkYop YRead (2 ^ 64 - 3)%N); Some (mkYop YInsert 4)] /\
  ycsb_prefix false operationCount 2 (file_of []) (file_of [txt "READ  -3"; txt "INSERT +4"]) zeros = HOk ([], [[mkYop YRead (2 ^ 64 - 3)%N]; [mkYop YInsert 4]]).
Proof. exact c56_signs. Qed.

(** One thread runs the trace on the map, whatever its hash function, capacity and growth: READ, INSERT and UPDATE answer
    whether the element was in the database, and so does a lookup afterwards.  What is missing: DELETE, which answers
    true also for absent elements ([C34_results_refuted]). *)
Theorem C56_run_partial : forall nd cap ls1 ls2 f1 f2 items1 items2 buf,
  Forall2 line_is ls1 items1 -> Forall2 line_is ls2 items2 -> Forall one_line ls1 -> Forall one_line ls2 ->
  Forall fits ls1 -> Forall fits ls2 -> text_of ls1 f1 -> text_of ls2 f2 -> List.length buf = 1024 ->
  (1 <= cap)%N -> (N.of_nat (List.length items2) <= cap)%N ->
  Forall (fun o => legal_el (y_val o)) (ops_of items1) -> Forall (fun o => legal_el (y_val o)) (ops_of items2) ->
  exists vs q, ycsb_prefix nd cap 1 f1 f2 buf = HOk (vs, [q]) /\ vs = inserts_of items1 /\ q = ops_of items2 /\
  forall C tcap ppl maxcap n rs s, good_cap tcap maxcap -> (maxcap <= 2 ^ 32)%N ->
    run (cops_prog C n (map CInsert vs ++ map yop_cop q)) (init_state tcap ppl maxcap) = Ok rs s ->
    List.length rs = List.length vs + List.length q /\
    (forall j o, q !! j = Some o -> y_kind o <> YDelete ->
       rs !! (List.length vs + j) = Some (CBool (in_db_from vs (firstn j q) (y_val o)))) /\
    (forall n' el b s', legal_el el -> run (c_contains C n' el) s = Ok b s' -> b = in_db_from vs q el).
Proof. exact c56_run. Qed.
Print Assumptions C56_run_partial.

Example C56_run_example : exists s,
  Forall (fun o => legal_el (y_val o)) (ops_of ex_load_items) /\ Forall (fun o => legal_el (y_val o)) (ops_of ex_trace_items) /\
  ycsb_prefix false operationCount 1 (file_of ex_load) ex_trace_file zeros = HOk ([7; 12]%N, [ops_of ex_trace_items]) /\
  run (cops_prog idcfg ex_fuel (map CInsert [7; 12]%N ++ map yop_cop (ops_of ex_trace_items))) (init_state 16 4 4096) =
    Ok [CBool false; CBool false; CBool true; CBool true; CBool true; CBool false; CBool false] s.
Proof. exact c56_run_example. Qed.

(** With one thread, every trace of more operations than the queue has room for is written past its end: the loop
    stops after operationCount + 1 lines, and the assertion looks at the index after the write. *)
Theorem C56_one_thread : forall nd cap ls1 ls2 f1 f2 items1 items2 buf,
  Forall2 line_is ls1 items1 -> Forall2 line_is ls2 items2 -> Forall one_line ls1 -> Forall one_line ls2 ->
  Forall fits ls1 -> Forall fits ls2 -> text_of ls1 f1 -> text_of ls2 f2 -> List.length buf = 1024 ->
  forall os, items2 = map Some os -> (cap < N.of_nat (List.length os))%N ->
  ycsb_prefix nd cap 1 f1 f2 buf = HBad WritePast.
Proof. exact c56_one_thread. Qed.
Print Assumptions C56_one_thread.

Theorem C56_refuted : exists ls os,
  Forall2 line_is ls (map Some os) /\ Forall one_line ls /\ Forall fits ls /\
  N.of_nat (List.length ls) = (operationCount + 1)%N /\
  forall nd, ycsb_prefix nd operationCount 1 (file_of []) (file_of ls) zeros = HBad WritePast.
Proof. exact c56_refuted. Qed.
Print Assumptions C56_refuted.

(** A line without a number repeats the number of the line before, or uses an indeterminate one; a line of 1023
    characters makes getline reallocate an array on the stack; after a last line without a number and a line feed, what the array
    contained before is read, beyond its end if there is no zero byte. *)
Theorem C56_malformed_refuted :
  ycsb_prefix false operationCount 2 [] (file_of [txt "READ 5"; txt "DELETE five"]) zeros =
    HOk ([], [[mkYop YRead 5]; [mkYop YDelete 5]]) /\
  ycsb_prefix false operationCount 2 [] (file_of [txt "DELETE five"]) zeros = HBad Uninit /\
  ycsb_prefix false operationCount 2 [] (file_of [repeat "#"%char 1023]) zeros = HBad BadRealloc /\
  ycsb_prefix false operationCount 2 (txt "INSERT") [] (repeat "7"%char 1023 ++ [NUL]) = HOk ([2 ^ 64 - 1]%N, [[]; []]) /\
  ycsb_prefix false operationCount 2 [] (txt "DELETE") (repeat "7"%char 1024) = HBad ReadPast.
Proof. exact c56_malformed_refuted. Qed.
Print Assumptions C56_malformed_refuted.

(** ** C57: the counting drivers report how often each number occurs *)

(** Files whose lines begin with a number: exactly these numbers are incremented, in order; numbers from 2^64 on count as
    2^64 - 1, and negative ones count down from 2^64. *)
Theorem C57_reddit : forall ls vs f, Forall2 begins_with ls vs -> Forall one_line ls -> text_of ls f ->
  reddit_keys f = HOk vs.
Proof. exact c57_reddit. Qed.
Print Assumptions C57_reddit.

(** All files: a line that begins with no number counts as 0, a blank one as the line before; a blank first line is the only
    error. *)
Theorem C57_reddit_all : forall ls f, Forall one_line ls -> text_of ls f ->
  (forall xs, reads_all None ls xs <-> reddit_keys f = HOk xs) /\
  (forall e, reddit_keys f = HBad e <-> e = Uninit /\ exists l ls', ls = l :: ls' /\ blank l).
Proof. exact c57_reddit_all. Qed.
Print Assumptions C57_reddit_all.
Theorem C57_every_file : forall f, exists ls, Forall one_line ls /\ text_of ls f.
Proof. exact c57_every_file. Qed.
Print Assumptions C57_every_file.

Example C57_reddit_all_example : reads_all None [txt "5"; txt " "; txt "five"] [5; 5; 0]%N /\
  Forall one_line [txt "5"; txt " "; txt "five"] /\ text_of [txt "5"; txt " "; txt "five"] (file_of [txt "5"; txt " "] ++ txt "five").
Proof. exact c57_reddit_all_example. Qed.

(** Files of pairs: the second numbers are incremented.  (The comment at degree.hpp:7 promises the outbound
    connections, which are the first numbers.) *)
Theorem C57_degree : forall ls ps f, Forall2 pair_line ls ps -> Forall one_line ls -> text_of ls f ->
  degree_keys f = HOk (map snd ps).
Proof. exact c57_degree. Qed.
Print Assumptions C57_degree.

(** All files: every line has columns, which are unique, and they determine what is counted. *)
Theorem C57_degree_all : forall ls nss f, Forall2 columns ls nss -> Forall one_line ls -> text_of ls f ->
  degree_keys f = second_numbers None nss.
Proof. exact c57_degree_all. Qed.
Print Assumptions C57_degree_all.
Theorem C57_every_line : forall l, exists ns, columns l ns.
Proof. exact c57_every_line. Qed.
Print Assumptions C57_every_line.
Theorem C57_one_reading : forall l ns ns', columns l ns -> columns l ns' -> ns = ns'.
Proof. exact columns_unique. Qed.
Print Assumptions C57_one_reading.

Example C57_degree_all_example : Forall2 columns [txt "1-2 x"; txt "7"] [[1; 2 ^ 64 - 2]; [7]]%N /\
  second_numbers None [[1; 2 ^ 64 - 2]; [7]]%N = HOk [2 ^ 64 - 2; 2 ^ 64 - 2]%N /\
  degree_keys (file_of [txt "1-2 x"; txt "7"]) = HOk [2 ^ 64 - 2; 2 ^ 64 - 2]%N.
Proof. exact c57_degree_all_example. Qed.

Example C57_degree_example :
  Forall2 pair_line ex_edges [(1, 2); (3, 20)]%N /\ Forall one_line ex_edges /\ degree_keys (file_of ex_edges) = HOk [2; 20]%N.
Proof. exact c57_degree_example. Qed.

Example C57_signs_example : Forall2 begins_with [txt "-3"; txt " +4 x"] [(2 ^ 64 - 3)%N; 4%N] /\
  reddit_keys (file_of [txt "-3"; txt " +4 x"]) = HOk [(2 ^ 64 - 3)%N; 4%N] /\
  pair_line (txt "+1 -2") (1, 2 ^ 64 - 2)%N /\ degree_keys (file_of [txt "+1 -2"]) = HOk [(2 ^ 64 - 2)%N].
Proof. exact c57_signs. Qed.

(** While one thread counts and the table does not grow, the container holds the numbers of occurrences.  What is
    missing: growth, where it is false ([C57_growth_refuted]), and elements from 2^61 on ([C57_shift_refuted]). *)
Theorem C57_counts_partial : forall C cap ppl maxcap, good_cap cap maxcap -> (maxcap <= 2 ^ 32)%N ->
  forall els s n el, counted_to C (init_state cap ppl maxcap) els s -> Forall legal_el els ->
  (N.of_nat (List.length els) + 3 < 2 ^ 61)%N -> legal_el el ->
  (forall b s', run (c_contains C n el) s = Ok b s' -> b = (0 <? occurrences el els)%N) /\
  (forall v s', run (c_get C n el) s = Ok v s' -> (0 < occurrences el els)%N -> v = occurrences el els).
Proof. exact c57_counts. Qed.
Print Assumptions C57_counts_partial.

(** The report then lists, with their counts, exactly the counted numbers that are smaller than the container's
    size.  What is missing: the others ([C57_report_refuted]). *)
Theorem C57_report_partial : forall C cap ppl maxcap, good_cap cap maxcap -> (maxcap <= 2 ^ 32)%N ->
  forall els s n c s1 out s2, counted_to C (init_state cap ppl maxcap) els s -> Forall legal_el els ->
  (N.of_nat (List.length els) + 3 < 2 ^ 61)%N -> run c_count s = Ok c s1 -> (c + 4 <= 2 ^ 61)%N ->
  run (report C n) s = Ok out s2 ->
  forall el v, In (el, v) out <-> (el < c)%N /\ (0 < occurrences el els)%N /\ v = occurrences el els.
Proof. exact c57_report. Qed.
Print Assumptions C57_report_partial.

Example C57_example : exists s1 s2,
  Forall2 begins_with ex_numbers [0; 2; 2; 7]%N /\ Forall one_line ex_numbers /\
  reddit_keys (file_of ex_numbers) = HOk [0; 2; 2; 7]%N /\
  counted_to idcfg (init_state 16 4 4096) [0; 2; 2; 7]%N counted_s /\ Forall legal_el [0; 2; 2; 7]%N /\
  run c_count counted_s = Ok 3%N s1 /\ run (report idcfg ex_fuel) counted_s = Ok [(0, 1); (2, 2)]%N s2.
Proof. exact c57_example. Qed.

Theorem C57_report_refuted : exists s, counted_to idcfg (init_state 16 4 4096) [0; 2; 2; 7]%N counted_s /\
  occurrences 7 [0; 2; 2; 7]%N = 1%N /\
  run (report idcfg ex_fuel) counted_s = Ok [(0, 1); (2, 2)]%N s.
Proof. exact c57_report_refuted. Qed.
Print Assumptions C57_report_refuted.

(** A file of seventeen different numbers and a table of sixteen entries: the last number occurs once and is
    counted 2^61 - 3 times. *)
Theorem C57_growth_refuted : exists els rs s s1,
  reddit_keys ex_grow_file = HOk els /\ Forall legal_el els /\
  run (cops_prog idcfg ex_fuel (map CIncrement els)) (init_state 16 4 4096) = Ok rs s /\
  occurrences 16 els = 1%N /\ run (c_get idcfg ex_fuel 16) s = Ok (2 ^ 61 - 3)%N s1.
Proof. exact c57_growth_refuted. Qed.
Print Assumptions C57_growth_refuted.

(** The elements of the reddit file are 64-bit hashes; two that differ only in the upper three bits are counted
    together. *)
Theorem C57_shift_refuted : exists els rs s s1,
  reddit_keys (file_of [txt "1"; txt "2305843009213693953"]) = HOk els /\
  run (cops_prog idcfg ex_fuel (map CIncrement els)) (init_state 16 4 4096) = Ok rs s /\
  occurrences 1 els = 1%N /\ run (c_get idcfg ex_fuel 1) s = Ok 2%N s1.
Proof. exact c57_shift_refuted. Qed.
Print Assumptions C57_shift_refuted.

(** An empty line counts the number of the line before again, or an indeterminate one; text counts as 0; a pair
    without its second number counts the previous one; a third number ends the program. *)
Theorem C57_lines_refuted :
  reddit_keys (file_of [txt "5"; txt ""; txt "five"]) = HOk [5; 5; 0]%N /\
  reddit_keys (file_of [txt ""]) = HBad Uninit /\
  degree_keys (file_of [txt "1 2"; txt "3"]) = HOk [2; 2]%N /\
  degree_keys (file_of [txt "1 2 3"]) = HBad Throws.
Proof. exact c57_lines_refuted. Qed.
Print Assumptions C57_lines_refuted.

(** ** C58: the command line sets what its options say *)

(** Well-formed options in any order; a later option overrides an earlier one.  Numbers may have signs, a switch is on
    for every number but zero, and a path is the first word of its value. *)
Theorem C58_options_partial : forall os vs s, Forall2 option_value os vs ->
  parse_args (concat (zip_with (fun o v => [option_name o; v]) os vs)) s = HOk (CRun (fold_left apply_setting os s)).
Proof. exact c58_parse. Qed.
Print Assumptions C58_options_partial.

(** What every list of arguments leads to. *)
Theorem C58_all : forall args s r, command_line args s r <-> parse_args args s = r.
Proof. exact c58_all. Qed.
Print Assumptions C58_all.

Example C58_all_example :
  command_line [txt "-timeout"; txt " 3"; txt "-r"; txt "true"; txt "-f"; txt " "; txt "-n"] default_settings (HBad Throws) /\
  command_line [txt "-t"; txt "many"; txt "-w"; txt "-1"] default_settings (HOk (CRun (mkSet 0 40 1 16 (set_file default_settings) (set_recover default_settings) true))).
Proof. exact c58_all_example. Qed.

(** -h ends the program with the help text, also when more characters follow; an argument that begins with no option
    ends it with an error. *)
Theorem C58_help : forall os vs s h rest, Forall2 option_value os vs ->
  parse_args (concat (zip_with (fun o v => [option_name o; v]) os vs) ++ (txt "-h" ++ h) :: rest) s = HOk CHelp.
Proof. exact c58_help. Qed.
Print Assumptions C58_help.

Theorem C58_unknown : forall os vs s a rest, Forall2 option_value os vs -> ~ is_option a ->
  parse_args (concat (zip_with (fun o v => [option_name o; v]) os vs) ++ a :: rest) s = HOk (CUnknown a).
Proof. exact c58_unknown. Qed.
Print Assumptions C58_unknown.

(** The average that is printed is the mean of the runs, rounded down. *)
Theorem C58_average : forall total s, (0 < set_runs s)%N ->
  exists a, average total s = HOk a /\ (a * set_runs s <= total < (a + 1) * set_runs s)%N.
Proof. exact c58_average. Qed.
Print Assumptions C58_average.

Example C58_end_example :
  parse_args [txt "-t"; txt "18446744073709551617"; txt "-help"; txt "-x"] default_settings = HOk CHelp /\
  parse_args [txt "-t"; txt "18446744073709551617"] default_settings = HOk (CRun (with_threads (2 ^ 64 - 1)%N default_settings)) /\
  ~ is_option (txt "-") /\ ~ is_option (txt "x") /\
  parse_args [txt "-t"; txt "4"; txt "-"; txt "-h"] default_settings = HOk (CUnknown (txt "-")) /\
  average 41 (with_runs 4 default_settings) = HOk 10%N.
Proof. exact c58_end_example. Qed.

Theorem C58_capacity_partial : forall c, (c < 31)%N -> real_capacity c = HOk (2 ^ c)%N.
Proof. exact c58_capacity. Qed.
Print Assumptions C58_capacity_partial.

(** The other capacities: the sign of the int is extended, or the int is shifted too far. *)
Theorem C58_capacity_refuted : real_capacity 31 = HOk (2 ^ 64 - 2 ^ 31)%N /\ forall c, (32 <= c)%N -> real_capacity c = HBad BadShift.
Proof. exact c58_capacity_refuted. Qed.
Print Assumptions C58_capacity_refuted.

(** The file name is the first word of the value; the assertion in the threads asks for at least one. *)
Theorem C58_file : forall a w rest s, Forall (fun c => N_of_ascii c = 32 \/ 9 <= N_of_ascii c <= 13)%N a ->
  Forall (fun c => ~ (N_of_ascii c = 32 \/ 9 <= N_of_ascii c <= 13))%N w -> w <> [] ->
  match rest with [] => True | c :: _ => (N_of_ascii c = 32 \/ 9 <= N_of_ascii c <= 13)%N end ->
  parse_args [txt "-f"; a ++ w ++ rest] s = HOk (CRun (apply_setting s (SFile w))).
Proof. exact c58_file. Qed.
Print Assumptions C58_file.
Theorem C58_threads : forall nd s, check_threads nd s = HOk tt <-> nd = true \/ (1 <= set_threads s)%N.
Proof. exact c58_threads. Qed.
Print Assumptions C58_threads.

Example C58_example : Forall2 option_value [SThreads 4; SFile (txt "/tmp/x"); SThreads 12; SRecover false; SWipe true]
    [txt "4"; txt " /tmp/x y"; txt "+12 "; txt "0"; txt "7"] /\
  parse_args [txt "-t"; txt "4"; txt "-f"; txt " /tmp/x y"; txt "-t"; txt "+12 "; txt "-r"; txt "0"; txt "-w"; txt "7"] default_settings =
    HOk (CRun (mkSet 12 40 1 16 (txt "/tmp/x") false true)).
Proof. exact c58_example. Qed.

(** What is missing above, where the property is false: -r true switches recovery off; a negative number of threads
    is a huge one; text counts as 0 threads; everything that begins with an option is that option; a missing value
    ends the program; an empty one leaves the field indeterminate; a capacity of 2^32 shifts an int too far; no runs divide
    by zero; no threads fail an assertion; a file name ends at its first space. *)
Theorem C58_refuted :
  parse_args [txt "-r"; txt "true"] default_settings =
    HOk (CRun (with_recover false default_settings)) /\
  parse_args [txt "-t"; txt "-1"] default_settings = HOk (CRun (with_threads (2 ^ 64 - 1)%N default_settings)) /\
  parse_args [txt "-t"; txt "many"] default_settings = HOk (CRun (with_threads 0%N default_settings)) /\
  parse_args [txt "-timeout"; txt "3"] default_settings = HOk (CRun (with_threads 3%N default_settings)) /\
  parse_args [txt "-t"] default_settings = HBad Throws /\
  parse_args [txt "-t"; []] default_settings = HBad Uninit /\
  real_capacity 32 = HBad BadShift /\
  (forall total, average total (with_runs 0%N default_settings) = HBad DivZero) /\
  check_threads false (with_threads 0%N default_settings) = HBad HAssert /\
  parse_args [txt "-f"; txt "/mnt/my pool"] default_settings = HOk (CRun (with_file (txt "/mnt/my") default_settings)).
Proof. exact c58_refuted. Qed.
Print Assumptions C58_refuted.

(** ** C59: the random driver makes only legal calls *)

Theorem C59_main : forall n rs os, (forall r, In r rs -> legal_el r) -> random_main n rs = Some os -> Forall legal_rop os.
Proof. exact c59_main. Qed.
Print Assumptions C59_main.

Theorem C59_prefix : forall n rs os rs', (forall r, In r rs -> legal_el r) -> random_prefix n rs = Some (os, rs') ->
  Forall legal_rop os /\ (forall r, In r rs' -> In r rs).
Proof. exact c59_prefix. Qed.
Print Assumptions C59_prefix.

(** Values that are not reserved are used as they are drawn, and the choice decides the call. *)
Theorem C59_calls : forall ps rs, Forall (fun p => legal_el (fst p)) ps ->
  random_main (List.length ps) (flat_map (fun p => [fst p; snd p]) ps ++ rs) =
    Some (flat_map (fun p => random_call (fst p) (snd p)) ps).
Proof. exact c59_calls. Qed.
Print Assumptions C59_calls.

Theorem C59_inserts : forall ps rs, Forall (fun p => forall v, p = Some v -> legal_el v) ps ->
  random_prefix (List.length ps) (flat_map (fun p => match p with Some v => [1; v]%N | None => [0%N] end) ps ++ rs) =
    Some (flat_map (fun p => match p with Some v => [CInsert v] | None => [] end) ps, rs).
Proof. exact c59_inserts. Qed.
Print Assumptions C59_inserts.

Example C59_calls_example :
  Forall (fun p => legal_el (fst p)) [(9, 8); (4, 7); (4, 5); (4, 3); (0, 1)]%N /\
  random_main 5 [9; 8; 4; 7; 4; 5; 4; 3; 0; 1]%N = Some [CInsert 9; CIncrement 4; CGet 4; CErase 0].
Proof. exact c59_calls_example. Qed.

(** With the C library's 31-bit random numbers, a single-threaded run of the driver never fails an assertion, follows a
    null pointer or leaves an array; it can only fail to allocate a table (or exceed the model's fuel). *)
Theorem C59_safe : forall C cap ppl maxcap n os1 os2 k1 k2 rs rs' e s',
  good_cap cap maxcap -> (maxcap <= 2 ^ 32)%N -> (forall r, In r rs -> (r < 2 ^ 31)%N) ->
  random_prefix k1 rs = Some (os1, rs') -> random_main k2 rs' = Some os2 ->
  run (cops_prog C n (os1 ++ os2)) (init_state cap ppl maxcap) = Fail e s' -> e = AllocFail \/ e = OutOfFuel.
Proof. exact c59_safe. Qed.
Print Assumptions C59_safe.

Example C59_example : random_prefix 2 [1; 6; 4]%N = Some ([CInsert 6], []) /\
  random_main 4 [9; 0; 9; 8; 9; 7; 9; 5]%N = Some [CInsert 9; CInsert 9; CIncrement 9].
Proof. exact c59_example. Qed.

(** The driver's own test for reserved words would not prevent illegal calls if rand() returned larger numbers: unlike
    the prefix, the main loop tests the element and not the key made of it. *)
Theorem C59_refuted : exists v, (v < two64)%N /\ random_main 1 [v; 0]%N = Some [CInsert v] /\
  isKeyReserved (encode_el v) = true /\ random_prefix 1 [1; v]%N = None.
Proof. exact c59_refuted. Qed.
Print Assumptions C59_refuted.

(** ** C60: the start barrier *)

(** For every number of threads and every schedule: the assertion holds, and when a thread has left the barrier every
    thread has arrived at it. *)
Theorem C60_barrier : forall nd T sched, (N.of_nat T < two64)%N ->
  exists s, brun nd sched (bst0 T) = Some s /\ List.length (b_pcs s) = T /\
    forall i, b_pcs s !! i = Some BGo -> forall j p, b_pcs s !! j = Some p -> p = BSpin \/ p = BGo.
Proof. exact c60_safe. Qed.
Print Assumptions C60_barrier.

(** Every thread leaves it once every thread has taken two steps and then each another one. *)
Theorem C60_released : forall nd T sched1 sched2 s, (N.of_nat T < two64)%N ->
  (forall i, i < T -> 2 <= turns i sched1 /\ 1 <= turns i sched2) ->
  brun nd (sched1 ++ sched2) (bst0 T) = Some s -> b_pcs s = repeat BGo T.
Proof. exact c60_live. Qed.
Print Assumptions C60_released.

Example C60_example : brun false [0; 1; 0; 0; 1; 0; 1; 1] (bst0 2) = Some (mkBst 0 [BGo; BGo]) /\
  (forall i, i < 2 -> 2 <= turns i [0; 1; 0; 0; 1] /\ 1 <= turns i [0; 1; 1]) /\
  brun false [0; 1; 0; 0] (bst0 2) = Some (mkBst 1 [BSpin; BDec]).
Proof. exact c60_example. Qed.
