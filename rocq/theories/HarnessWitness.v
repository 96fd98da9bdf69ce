(** Concrete runs of the benchmark drivers. *)
From Coq Require Import NArith Bool List Ascii String Lia.
From stdpp Require Import base list gmap.
From Verif Require Import Word Prog HashMap Spec Codec Container ContainerSpec Harness HarnessSpec HarnessText HarnessYcsb
  HarnessCount HarnessMisc HarnessRun Examples.
Import ListNotations.
Open Scope nat_scope.

Definition dec (ds : list N) : text := map (fun d => ascii_of_N (48 + d)) ds.
Lemma decimal_dec ds : ds <> [] -> forallb (fun d => d <? 10)%N ds = true ->
  decimal (dec ds) (fold_left (fun a d => (10 * a + d)%N) ds 0%N).
Proof.
  intros Hne H. exists ds. split; [exact Hne|]. split; [|split; reflexivity].
  apply List.Forall_forall. intros d Hd. rewrite forallb_forall in H. apply N.ltb_lt. now apply H.
Qed.
Ltac isdec ds := exact (decimal_dec ds ltac:(discriminate) eq_refl).

(** ** YCSB *)
Definition zeros : text := repeat NUL 1024.
Definition ex_load : list text := [txt "INSERT 7"; txt "# load"; txt "INSERT 12"].
Definition ex_load_items : list (option yop) := [Some (mkYop YInsert 7); None; Some (mkYop YInsert 12)].
Definition ex_trace : list text := [txt "READ 7"; txt "UPDATE 12 x"; txt ""; txt "DELETE 7"; txt "INSERT 3"; txt "READ 9"].
Definition ex_trace_items : list (option yop) :=
  [Some (mkYop YRead 7); Some (mkYop YUpdate 12); None; Some (mkYop YDelete 7); Some (mkYop YInsert 3); Some (mkYop YRead 9)].

(** The last line of the trace lacks its newline. *)
Definition ex_trace_file : text := file_of [txt "READ 7"; txt "UPDATE 12 x"; txt ""; txt "DELETE 7"; txt "INSERT 3"] ++ txt "READ 9".
Lemma ex_trace_text : text_of ex_trace ex_trace_file.
Proof.
  right. exists [txt "READ 7"; txt "UPDATE 12 x"; txt ""; txt "DELETE 7"; txt "INSERT 3"], (txt "READ 9").
  split; [reflexivity|]. split; [discriminate|reflexivity].
Qed.

Lemma line_op k ds rest v : ds <> [] -> forallb (fun d => d <? 10)%N ds = true ->
  word_value (fold_left (fun a d => (10 * a + d)%N) ds 0%N) = v -> no_digit rest ->
  line_is (keyword k ++ txt " " ++ dec ds ++ rest) (Some (mkYop k v)).
Proof.
  intros Hne Hd <- Hr. exists [], None, (dec ds), rest, (fold_left (fun a d => (10 * a + d)%N) ds 0%N).
  split; [reflexivity|]. split; [constructor|]. split; [exact (decimal_dec ds Hne Hd)|]. split; [reflexivity|exact Hr].
Qed.
Lemma ex_load_lines : Forall2 line_is ex_load ex_load_items.
Proof.
  repeat constructor.
  - apply (line_op YInsert [7%N] [] 7); try reflexivity; try discriminate; try exact I.
  - intros []; discriminate.
  - apply (line_op YInsert [1%N; 2%N] [] 12); try reflexivity; try discriminate; try exact I.
Qed.
Lemma ex_trace_lines : Forall2 line_is ex_trace ex_trace_items.
Proof.
  repeat constructor.
  - apply (line_op YRead [7%N] [] 7); try reflexivity; try discriminate; try exact I.
  - apply (line_op YUpdate [1%N; 2%N] (txt " x") 12); try reflexivity; try discriminate; left; reflexivity.
  - intros []; discriminate.
  - apply (line_op YDelete [7%N] [] 7); try reflexivity; try discriminate; try exact I.
  - apply (line_op YInsert [3%N] [] 3); try reflexivity; try discriminate; try exact I.
  - apply (line_op YRead [9%N] [] 9); try reflexivity; try discriminate; try exact I.
Qed.
Definition one_lineb (l : text) : bool := forallb (fun c => negb (Ascii.eqb c NL)) l.
Lemma one_line_ok ls : forallb one_lineb ls = true -> Forall one_line ls.
Proof.
  intros H. apply List.Forall_forall. intros l Hl. rewrite forallb_forall in H. specialize (H l Hl).
  unfold one_lineb in H. rewrite forallb_forall in H. intros Hn. specialize (H NL Hn). now rewrite Ascii.eqb_refl in H.
Qed.
Lemma fits_ok ls : forallb (fun l => List.length l <? 1023) ls = true -> Forall fits ls.
Proof.
  intros H. apply List.Forall_forall. intros l Hl. rewrite forallb_forall in H. specialize (H l Hl).
  apply Nat.ltb_lt in H. exact H.
Qed.

Lemma c56_example :
  Forall2 line_is ex_load ex_load_items /\ Forall2 line_is ex_trace ex_trace_items /\
  Forall one_line ex_load /\ Forall one_line ex_trace /\ Forall fits ex_load /\ Forall fits ex_trace /\
  text_of ex_load (file_of ex_load) /\ text_of ex_trace ex_trace_file /\ List.length zeros = 1024 /\
  ycsb_prefix false operationCount 2 (file_of ex_load) ex_trace_file zeros =
    HOk ([7; 12]%N, [[mkYop YRead 7; mkYop YInsert 3]; [mkYop YUpdate 12; mkYop YDelete 7; mkYop YRead 9]]).
Proof.
  split; [exact ex_load_lines|]. split; [exact ex_trace_lines|].
  split; [apply one_line_ok; reflexivity|]. split; [apply one_line_ok; reflexivity|].
  split; [apply fits_ok; reflexivity|]. split; [apply fits_ok; reflexivity|]. split; [now left|].
  split; [exact ex_trace_text|]. split; vm_compute; reflexivity.
Qed.
(** The same trace with one thread and a table of sixteen entries. *)
Lemma c56_run_example : exists s,
  Forall (fun o => legal_el (y_val o)) (ops_of ex_load_items) /\ Forall (fun o => legal_el (y_val o)) (ops_of ex_trace_items) /\
  ycsb_prefix false operationCount 1 (file_of ex_load) ex_trace_file zeros = HOk ([7; 12]%N, [ops_of ex_trace_items]) /\
  run (cops_prog idcfg ex_fuel (map CInsert [7; 12]%N ++ map yop_cop (ops_of ex_trace_items))) (init_state 16 4 4096) =
    Ok [CBool false; CBool false; CBool true; CBool true; CBool true; CBool false; CBool false] s.
Proof.
  eexists. split; [repeat constructor|]. split; [repeat constructor|]. split; [vm_compute; reflexivity|].
  apply ok_of. vm_compute. reflexivity.
Qed.

Lemma Forall2_repeat {A B} (P : A -> B -> Prop) a b n : P a b -> Forall2 P (repeat a n) (repeat b n).
Proof. intros H. induction n; cbn; constructor; auto. Qed.
Lemma Forall_repeat {A} (P : A -> Prop) a n : P a -> Forall P (repeat a n).
Proof. intros H. induction n; cbn; constructor; auto. Qed.
Lemma map_repeat_ {A B} (f : A -> B) a n : map f (repeat a n) = repeat (f a) n.
Proof. induction n; cbn; congruence. Qed.

Lemma c56_refuted : exists ls os,
  Forall2 line_is ls (map Some os) /\ Forall one_line ls /\ Forall fits ls /\
  N.of_nat (List.length ls) = (operationCount + 1)%N /\
  forall nd, ycsb_prefix nd operationCount 1 (file_of []) (file_of ls) zeros = HBad WritePast.
Proof.
  set (n := N.to_nat (operationCount + 1)). exists (repeat (txt "READ 7") n), (repeat (mkYop YRead 7) n).
  assert (Hl : Forall2 line_is (repeat (txt "READ 7") n) (map Some (repeat (mkYop YRead 7) n))).
  { rewrite map_repeat_. apply Forall2_repeat. apply (line_op YRead [7%N] [] 7); try reflexivity; try discriminate; try exact I. }
  assert (Ho : Forall one_line (repeat (txt "READ 7") n)).
  { apply Forall_repeat. intros H. cbn in H. repeat (destruct H as [H|H]; [discriminate|]). exact H. }
  assert (Hf : Forall fits (repeat (txt "READ 7") n)).
  { apply Forall_repeat. unfold fits. apply Nat.ltb_lt. reflexivity. }
  assert (Hn : N.of_nat (List.length (repeat (txt "READ 7") n)) = (operationCount + 1)%N).
  { rewrite repeat_length. apply N2Nat.id. }
  split; [exact Hl|]. split; [exact Ho|]. split; [exact Hf|]. split; [exact Hn|].
  intros nd. apply (c56_one_thread nd operationCount [] (repeat (txt "READ 7") n) _ _ [] _ zeros (List.Forall2_nil _) Hl (List.Forall_nil _) Ho
    (List.Forall_nil _) Hf (or_introl eq_refl) (or_introl eq_refl) eq_refl (repeat (mkYop YRead 7) n)); [reflexivity|].
  rewrite repeat_length. unfold n. rewrite N2Nat.id. reflexivity.
Qed.

Lemma c56_malformed_refuted :
  ycsb_prefix false operationCount 2 [] (file_of [txt "READ 5"; txt "DELETE five"]) zeros =
    HOk ([], [[mkYop YRead 5]; [mkYop YDelete 5]]) /\
  ycsb_prefix false operationCount 2 [] (file_of [txt "DELETE five"]) zeros = HBad Uninit /\
  ycsb_prefix false operationCount 2 [] (file_of [repeat "#"%char 1023]) zeros = HBad BadRealloc /\
  ycsb_prefix false operationCount 2 (txt "INSERT") [] (repeat "7"%char 1023 ++ [NUL]) = HOk ([2 ^ 64 - 1]%N, [[]; []]) /\
  ycsb_prefix false operationCount 2 [] (txt "DELETE") (repeat "7"%char 1024) = HBad ReadPast.
Proof. split; [|split; [|split; [|split]]]; vm_compute; reflexivity. Qed.

(** ** Counting *)
Fixpoint count_flat (C : cfg) (n : nat) (els : list N) (s : state) : option state :=
  match els with
  | [] => Some s
  | el :: els' => match run (c_increment C n el) s with
                  | Ok _ s' => if Nat.eqb (st_top s') (st_top s) then count_flat C n els' s' else None
                  | Fail _ _ => None
                  end
  end.
Lemma counted_cons C s0 el els n r s1 s : run (c_increment C n el) s0 = Ok r s1 -> st_top s1 = st_top s0 ->
  counted_to C s1 els s -> counted_to C s0 (el :: els) s.
Proof.
  intros H Ht Hr. induction Hr as [|els s n' el' r' s' Hr IH Hs Htop].
  - apply (counted_snoc C s0 [] s0 n el r s1); [constructor|exact H|exact Ht].
  - apply (counted_snoc C s0 (el :: els) s n' el' r' s'); assumption.
Qed.
Lemma count_flat_ok C n els : forall s0 s, count_flat C n els s0 = Some s -> counted_to C s0 els s.
Proof.
  induction els as [|el els IH]; intros s0 s H; cbn [count_flat] in H; [injection H as <-; constructor|].
  destruct (run (c_increment C n el) s0) as [r s1|] eqn:E; [|discriminate].
  destruct (Nat.eqb_spec (st_top s1) (st_top s0)) as [Ht|]; [|discriminate].
  eapply counted_cons; eauto.
Qed.
Definition some_of {A} (d : A) (o : option A) : A := match o with Some a => a | None => d end.
Lemma some_of_ok {A} (d : A) o : match o with Some _ => true | None => false end = true -> o = Some (some_of d o).
Proof. destruct o; [reflexivity|discriminate]. Qed.

Definition ex_numbers : list text := [txt "0"; txt " 2 two"; txt "2"; txt "7"].
Definition counted_s : state := some_of ex_s0 (count_flat idcfg ex_fuel [0; 2; 2; 7]%N ex_s0).

Lemma ex_numbers_begin : Forall2 begins_with ex_numbers [0; 2; 2; 7]%N.
Proof.
  assert (H : forall ws ds rest v, blank ws -> ds <> [] -> forallb (fun d => d <? 10)%N ds = true ->
     word_value (fold_left (fun a d => (10 * a + d)%N) ds 0%N) = v -> no_digit rest -> begins_with (ws ++ dec ds ++ rest) v).
  { intros ws ds rest v Hw Hne Hd <- Hr. exists ws, None, (dec ds), rest, (fold_left (fun a d => (10 * a + d)%N) ds 0%N).
    split; [reflexivity|]. split; [exact Hw|]. split; [exact (decimal_dec ds Hne Hd)|]. split; [reflexivity|exact Hr]. }
  repeat constructor.
  - apply (H [] [0%N] [] 0%N); try reflexivity; try discriminate; try exact I; constructor.
  - apply (H (txt " ") [2%N] (txt " two") 2%N); try reflexivity; try discriminate; try (left; reflexivity); repeat constructor.
  - apply (H [] [2%N] [] 2%N); try reflexivity; try discriminate; try exact I; constructor.
  - apply (H [] [7%N] [] 7%N); try reflexivity; try discriminate; try exact I; constructor.
Qed.
Lemma ex_counted : counted_to idcfg (init_state 16 4 4096) [0; 2; 2; 7]%N counted_s.
Proof. apply (count_flat_ok _ ex_fuel). apply some_of_ok. vm_compute. reflexivity. Qed.

Lemma c57_example : exists s1 s2,
  Forall2 begins_with ex_numbers [0; 2; 2; 7]%N /\ Forall one_line ex_numbers /\
  reddit_keys (file_of ex_numbers) = HOk [0; 2; 2; 7]%N /\
  counted_to idcfg (init_state 16 4 4096) [0; 2; 2; 7]%N counted_s /\ Forall legal_el [0; 2; 2; 7]%N /\
  run c_count counted_s = Ok 3%N s1 /\ run (report idcfg ex_fuel) counted_s = Ok [(0, 1); (2, 2)]%N s2.
Proof.
  do 2 eexists. split; [exact ex_numbers_begin|]. split; [apply one_line_ok; reflexivity|]. split; [vm_compute; reflexivity|].
  split; [exact ex_counted|]. split; [repeat constructor|]. split; apply ok_of; vm_compute; reflexivity.
Qed.

Definition ex_edges : list text := [txt "1 2"; txt "3 	20 "].
Lemma c57_degree_example :
  Forall2 pair_line ex_edges [(1, 2); (3, 20)]%N /\ Forall one_line ex_edges /\ degree_keys (file_of ex_edges) = HOk [2; 20]%N.
Proof.
  split; [|split; [apply one_line_ok; reflexivity|vm_compute; reflexivity]]. repeat constructor.
  - exists [], None, (dec [1%N]), 1%N, (txt " "), None, (dec [2%N]), 2%N, []. split; [reflexivity|]. split; [constructor|]. split; [repeat constructor|].
    split; [discriminate|]. split; [constructor|]. split; [isdec [1%N]|]. split; [isdec [2%N]|]. repeat split; reflexivity.
  - exists [], None, (dec [3%N]), 3%N, (txt " 	"), None, (dec [2%N; 0%N]), 20%N, (txt " "). split; [reflexivity|]. split; [constructor|].
    split; [constructor; [left; reflexivity|constructor; [right; split; discriminate|constructor]]|].
    split; [discriminate|]. split; [repeat constructor|]. split; [isdec [3%N]|]. split; [isdec [2%N; 0%N]|]. repeat split; reflexivity.
Qed.

(** The number 7 is counted and not reported: only the numbers below the size of the container are looked at. *)
Lemma c57_report_refuted : exists s, counted_to idcfg (init_state 16 4 4096) [0; 2; 2; 7]%N counted_s /\
  occurrences 7 [0; 2; 2; 7]%N = 1%N /\
  run (report idcfg ex_fuel) counted_s = Ok [(0, 1); (2, 2)]%N s.
Proof.
  eexists. split; [exact ex_counted|]. split; [reflexivity|]. apply ok_of. vm_compute. reflexivity.
Qed.

(** Seventeen different numbers in a table of sixteen entries. *)
Definition ex_grow_file : text :=
  file_of (map txt ["0";"1";"2";"3";"4";"5";"6";"7";"8";"9";"10";"11";"12";"13";"14";"15";"16"]%string).
Lemma c57_growth_refuted : exists els rs s s1,
  reddit_keys ex_grow_file = HOk els /\ Forall legal_el els /\
  run (cops_prog idcfg ex_fuel (map CIncrement els)) (init_state 16 4 4096) = Ok rs s /\
  occurrences 16 els = 1%N /\ run (c_get idcfg ex_fuel 16) s = Ok (2 ^ 61 - 3)%N s1.
Proof.
  exists [0;1;2;3;4;5;6;7;8;9;10;11;12;13;14;15;16]%N. do 3 eexists. split; [vm_compute; reflexivity|].
  split; [repeat constructor|]. split; [apply ok_of; vm_compute; reflexivity|]. split; [reflexivity|].
  apply ok_of. vm_compute. reflexivity.
Qed.

(** Two numbers that differ by 2^61 have one count. *)
Lemma c57_shift_refuted : exists els rs s s1,
  reddit_keys (file_of [txt "1"; txt "2305843009213693953"]) = HOk els /\
  run (cops_prog idcfg ex_fuel (map CIncrement els)) (init_state 16 4 4096) = Ok rs s /\
  occurrences 1 els = 1%N /\ run (c_get idcfg ex_fuel 1) s = Ok 2%N s1.
Proof.
  exists [1; 2305843009213693953]%N. do 3 eexists. split; [vm_compute; reflexivity|].
  split; [apply ok_of; vm_compute; reflexivity|]. split; [reflexivity|]. apply ok_of. vm_compute. reflexivity.
Qed.

Lemma c57_lines_refuted :
  reddit_keys (file_of [txt "5"; txt ""; txt "five"]) = HOk [5; 5; 0]%N /\
  reddit_keys (file_of [txt ""]) = HBad Uninit /\
  degree_keys (file_of [txt "1 2"; txt "3"]) = HOk [2; 2]%N /\
  degree_keys (file_of [txt "1 2 3"]) = HBad Throws.
Proof. repeat split; vm_compute; reflexivity. Qed.

(** ** Options *)
Lemma c58_example : Forall2 option_value [SThreads 4; SFile (txt "/tmp/x"); SThreads 12; SRecover false; SWipe true]
    [txt "4"; txt " /tmp/x y"; txt "+12 "; txt "0"; txt "7"] /\
  parse_args [txt "-t"; txt "4"; txt "-f"; txt " /tmp/x y"; txt "-t"; txt "+12 "; txt "-r"; txt "0"; txt "-w"; txt "7"] default_settings =
    HOk (CRun (mkSet 12 40 1 16 (txt "/tmp/x") false true)).
Proof.
  split; [|vm_compute; reflexivity]. constructor; [|constructor; [|constructor; [|constructor; [|constructor; [|constructor]]]]].
  - exists [], None, (dec [4%N]), [], 4%N. split; [reflexivity|]. split; [constructor|]. split; [isdec [4%N]|]. split; [reflexivity|exact I].
  - exists (txt " "), (txt " y"). split; [reflexivity|]. split; [constructor; [left; reflexivity|constructor]|]. split; [discriminate|].
    split; [constructor; [left; reflexivity|constructor]|]. repeat constructor; intros [H|[H1 H2]]; try discriminate; apply H2; reflexivity.
  - exists [], (Some false), (dec [1%N; 2%N]), (txt " "), 12%N. split; [reflexivity|]. split; [constructor|]. split; [isdec [1%N; 2%N]|].
    split; [reflexivity|left; reflexivity].
  - exists [], None, (dec [0%N]), [], 0%N. split; [reflexivity|]. split; [constructor|]. split; [isdec [0%N]|]. split; [exact I|].
    split; [discriminate|contradiction].
  - exists [], None, (dec [7%N]), [], 7%N. split; [reflexivity|]. split; [constructor|]. split; [isdec [7%N]|]. split; [exact I|].
    split; [discriminate|reflexivity].
Qed.
(** A number that does not fit is the largest one; words that begin with a single dash only, or not at all, are unknown. *)
Lemma c58_end_example :
  parse_args [txt "-t"; txt "18446744073709551617"; txt "-help"; txt "-x"] default_settings = HOk CHelp /\
  parse_args [txt "-t"; txt "18446744073709551617"] default_settings = HOk (CRun (with_threads (2 ^ 64 - 1)%N default_settings)) /\
  ~ is_option (txt "-") /\ ~ is_option (txt "x") /\
  parse_args [txt "-t"; txt "4"; txt "-"; txt "-h"] default_settings = HOk (CUnknown (txt "-")) /\
  average 41 (with_runs 4 default_settings) = HOk 10%N.
Proof.
  split; [vm_compute; reflexivity|]. split; [vm_compute; reflexivity|].
  split; [intros (c & r & _ & E); discriminate|]. split; [intros (c & r & _ & E); discriminate|].
  split; vm_compute; reflexivity.
Qed.

Lemma c58_refuted :
  parse_args [txt "-r"; txt "true"] default_settings =
    HOk (CRun (with_recover false default_settings)) /\
  parse_args [txt "-t"; txt "-1"] default_settings = HOk (CRun (with_threads (2 ^ 64 - 1)%N default_settings)) /\
  parse_args [txt "-t"; txt "many"] default_settings = HOk (CRun (with_threads 0%N default_settings)) /\
  parse_args [txt "-timeout"; txt "3"] default_settings = HOk (CRun (with_threads 3%N default_settings)) /\
  parse_args [txt "-t"] default_settings = HBad Throws /\
  parse_args [txt "-t"; []] default_settings = HBad Uninit /\
  real_capacity 32 = HBad BadShift /\
  (forall total, average total (with_runs 0%N default_settings) = HBad DivZero) /\
  check_threads false (with_threads 0%N default_settings) = HBad HAssert /\
  parse_args [txt "-f"; txt "/mnt/my pool"] default_settings = HOk (CRun (with_file (txt "/mnt/my") default_settings)).
Proof. repeat split; vm_compute; reflexivity. Qed.

(** ** Random *)
Lemma c59_calls_example :
  Forall (fun p => legal_el (fst p)) [(9, 8); (4, 7); (4, 5); (4, 3); (0, 1)]%N /\
  random_main 5 [9; 8; 4; 7; 4; 5; 4; 3; 0; 1]%N = Some [CInsert 9; CIncrement 4; CGet 4; CErase 0].
Proof. split; [repeat constructor|vm_compute; reflexivity]. Qed.
Lemma c59_example : random_prefix 2 [1; 6; 4]%N = Some ([CInsert 6], []) /\
  random_main 4 [9; 0; 9; 8; 9; 7; 9; 5]%N = Some [CInsert 9; CInsert 9; CIncrement 9].
Proof. split; vm_compute; reflexivity. Qed.
(** The test of the main loop does not reject the elements whose key is reserved. *)
Lemma c59_refuted : exists v, (v < two64)%N /\ random_main 1 [v; 0]%N = Some [CInsert v] /\
  isKeyReserved (encode_el v) = true /\ random_prefix 1 [1; v]%N = None.
Proof. exists (2 ^ 61 - 1)%N. repeat split; vm_compute; reflexivity. Qed.

(** ** Barrier *)
Lemma c60_example : brun false [0; 1; 0; 0; 1; 0; 1; 1] (bst0 2) = Some (mkBst 0 [BGo; BGo]) /\
  (forall i, i < 2 -> 2 <= turns i [0; 1; 0; 0; 1] /\ 1 <= turns i [0; 1; 1]) /\
  brun false [0; 1; 0; 0] (bst0 2) = Some (mkBst 1 [BSpin; BDec]).
Proof.
  split; [reflexivity|]. split; [|reflexivity]. intros [|[|i]] Hi; [| |lia]; cbn; lia.
Qed.

(** Signs and further blanks. *)
Lemma c56_signs : Forall2 line_is [txt "READ  -3"; txt "INSERT +4"] [Some (mkYop YRead (2 ^ 64 - 3)%N); Some (mkYop YInsert 4)] /\
  ycsb_prefix false operationCount 2 (file_of []) (file_of [txt "READ  -3"; txt "INSERT +4"]) zeros = HOk ([], [[mkYop YRead (2 ^ 64 - 3)%N]; [mkYop YInsert 4]]).
Proof.
  split; [|vm_compute; reflexivity].
  constructor; [|constructor; [|constructor]].
  - exists (txt " "), (Some true), (dec [3%N]), [], 3%N. split; [reflexivity|]. split; [constructor; [left; reflexivity|constructor]|]. split; [apply (decimal_dec [3%N]); [discriminate|reflexivity]|]. split; [reflexivity|exact I].
  - exists [], (Some false), (dec [4%N]), [], 4%N. split; [reflexivity|]. split; [constructor|]. split; [apply (decimal_dec [4%N]); [discriminate|reflexivity]|]. split; [reflexivity|exact I].
Qed.

Lemma c57_signs : Forall2 begins_with [txt "-3"; txt " +4 x"] [(2 ^ 64 - 3)%N; 4%N] /\
  reddit_keys (file_of [txt "-3"; txt " +4 x"]) = HOk [(2 ^ 64 - 3)%N; 4%N] /\
  pair_line (txt "+1 -2") (1, 2 ^ 64 - 2)%N /\ degree_keys (file_of [txt "+1 -2"]) = HOk [(2 ^ 64 - 2)%N].
Proof.
  split; [|split; [vm_compute; reflexivity|split; [|vm_compute; reflexivity]]].
  - constructor; [|constructor; [|constructor]].
    + exists [], (Some true), (dec [3%N]), [], 3%N. split; [reflexivity|]. split; [constructor|]. split; [isdec [3%N]|]. split; [reflexivity|exact I].
    + exists (txt " "), (Some false), (dec [4%N]), (txt " x"), 4%N. split; [reflexivity|]. split; [constructor; [left; reflexivity|constructor]|].
      split; [isdec [4%N]|]. split; [reflexivity|left; reflexivity].
  - exists [], (Some false), (dec [1%N]), 1%N, (txt " "), (Some true), (dec [2%N]), 2%N, []. split; [reflexivity|]. split; [constructor|].
    split; [constructor; [left; reflexivity|constructor]|]. split; [discriminate|]. split; [constructor|].
    split; [isdec [1%N]|]. split; [isdec [2%N]|]. repeat split; reflexivity.
Qed.
Lemma c57_reddit_all_example : reads_all None [txt "5"; txt " "; txt "five"] [5; 5; 0]%N /\
  Forall one_line [txt "5"; txt " "; txt "five"] /\ text_of [txt "5"; txt " "; txt "five"] (file_of [txt "5"; txt " "] ++ txt "five").
Proof.
  assert (Ho : Forall one_line [txt "5"; txt " "; txt "five"]) by (apply one_line_ok; reflexivity).
  assert (Hf : text_of [txt "5"; txt " "; txt "five"] (file_of [txt "5"; txt " "] ++ txt "five")).
  { right. exists [txt "5"; txt " "], (txt "five"). split; [reflexivity|]. split; [discriminate|reflexivity]. }
  split; [|split; [exact Ho|exact Hf]]. apply (c57_reddit_all _ _ Ho Hf). vm_compute. reflexivity.
Qed.
Lemma columns_of l : columns l [] \/ exists x rest, extract l = EGot x rest.
Proof.
  destruct (c57_every_line l) as ([|a ns] & H); [now left|]. right. destruct (columns_extract _ _ H) as (r & E & _). eauto.
Qed.
Lemma c57_degree_all_example : Forall2 columns [txt "1-2 x"; txt "7"] [[1; 2 ^ 64 - 2]; [7]]%N /\
  second_numbers None [[1; 2 ^ 64 - 2]; [7]]%N = HOk [2 ^ 64 - 2; 2 ^ 64 - 2]%N /\
  degree_keys (file_of [txt "1-2 x"; txt "7"]) = HOk [2 ^ 64 - 2; 2 ^ 64 - 2]%N.
Proof.
  split; [|split; vm_compute; reflexivity]. constructor; [|constructor; [|constructor]].
  - apply (columns_number [] None (dec [1%N]) (txt "-2 x") 1 [2 ^ 64 - 2]%N); [constructor|isdec [1%N]|left; reflexivity|reflexivity|].
    apply (columns_number [] (Some true) (dec [2%N]) (txt " x") 2 []); [constructor|isdec [2%N]|left; reflexivity|reflexivity|].
    destruct (columns_of (txt " x")) as [H|(x & r & E)]; [exact H|vm_compute in E; discriminate].
  - apply (columns_number [] None (dec [7%N]) [] 7 []); [constructor|isdec [7%N]|exact I|reflexivity|].
    destruct (columns_of []) as [H|(x & r & E)]; [exact H|vm_compute in E; discriminate].
Qed.
Lemma c58_all_example :
  command_line [txt "-timeout"; txt " 3"; txt "-r"; txt "true"; txt "-f"; txt " "; txt "-n"] default_settings (HBad Throws) /\
  command_line [txt "-t"; txt "many"; txt "-w"; txt "-1"] default_settings (HOk (CRun (mkSet 0 40 1 16 (set_file default_settings) (set_recover default_settings) true))).
Proof. split; apply c58_all; vm_compute; reflexivity. Qed.
