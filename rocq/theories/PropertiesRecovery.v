(** Properties of the table files: names, reopening, left-over files, repair. *)
From Coq Require Import NArith Bool List Ascii String Sorting.Sorted.
From stdpp Require Import base list strings gmap.
From Verif Require Import Word Prog HashMap Spec Examples Recovery RecoverySpec RecoveryThm RecoveryNames ReopenThm RecoveryWitness.
Import ListNotations.
Open Scope nat_scope.

(** ** C27: reopening a map restores its contents *)

(** As written, constructing a map with recovery enabled is undefined behaviour for every state of the
    directory: the bare file names contain no '/', which numFromName looks for outside the string. *)
Theorem C27_refuted : forall dir cwd cap maxcap fs,
  recover written dir cwd cap maxcap fs = inr (OutOfBounds, fs).
Proof. exact recover_written. Qed.
Print Assumptions C27_refuted.

(** Whatever that scan comes up with, and even if the files are looked up where they are and freed tables
    can still be used: recovery deletes every table file and then fails, because mmapTable is told to
    create the tables instead of opening them. *)
Theorem C27_deletes_refuted : forall f dir cwd cap maxcap fs, can_alloc cap maxcap = true ->
  exists fs', recover (charitable f) dir cwd cap maxcap fs = inr (OutOfBounds, fs') /\
    (forall name, no_slash name = true -> fs' !! (dir ++ name)%string = None) /\
    (forall path, (forall name, no_slash name = true -> path <> (dir ++ name)%string) -> fs' !! path = fs !! path).
Proof. exact c27_deletes. Qed.
Print Assumptions C27_deletes_refuted.

(** What does restore the contents is constructing the map _without_ the recovery flag, if the map never
    grew: it opens file 0.  Every later call then behaves as on the old contents. *)
Theorem C27_reopen_partial : forall C cap ppl maxcap os rs s files cap' ppl',
  good_cap cap maxcap -> (maxcap <= 2 ^ 32)%N ->
  reach C (init_state cap ppl maxcap) os rs s -> Forall legal_op os ->
  length (st_tabs s) = 1 -> left_by s files ->
  exists s1 m, init_state_files cap' ppl' maxcap files = Some s1 /\ dsteps ∅ os rs m /\
    (forall x s2, run size s1 = Ok x s2 -> x = N.of_nat (base.size m)) /\
    (forall os' rs' s', reach C s1 os' rs' s' -> Forall legal_op os' -> exists m', dsteps m os' rs' m').
Proof. exact c27_reopen. Qed.
Print Assumptions C27_reopen_partial.

Example C27_reopen_example : exists rs s s1 s2,
  let os := [OPut 40 80; OPut 48 88; OPut 40 96; ORemove 48; OPut 56 104] in
  reach idcfg (init_state 16 4 4096) os rs s /\ Forall legal_op os /\ length (st_tabs s) = 1 /\
  left_by s (files_of s) /\ init_state_files 16 4 4096 (files_of s) = Some s1 /\
  reach idcfg s1 [OGet 40; OGet 48; OGet 56; OSize]%N [RVal 96; RVal NOTFOUND; RVal 104; RVal 2]%N s2.
Proof. exact c27_reopen_example. Qed.

(** Once the map has grown, that loses everything: no key is found again. *)
Theorem C27_resized_refuted : forall C cap ppl maxcap os rs s files cap' ppl' maxcap' s1,
  good_cap cap maxcap -> (maxcap <= 2 ^ 32)%N ->
  reach C (init_state cap ppl maxcap) os rs s -> Forall legal_op os ->
  0 < st_top s -> left_by s files -> init_state_files cap' ppl' maxcap' files = Some s1 ->
  forall n k r s2, run (get C n k) s1 = Ok r s2 -> r = NOTFOUND.
Proof. exact c27_resized. Qed.
Print Assumptions C27_resized_refuted.

Example C27_resized_example : exists rs s s1 s2,
  reach idcfg (init_state 16 4 4096) ex_ops rs s /\ Forall legal_op ex_ops /\ 0 < st_top s /\
  init_state_files 16 4 4096 (files_of s) = Some s1 /\
  run (get idcfg ex_fuel (ex_key 20 0)) s = Ok 96%N s2 /\
  (forall n g s3, run (get idcfg n (ex_key 20 0)) s1 = Ok g s3 -> g = NOTFOUND).
Proof. exact c27_resized_example. Qed.

(** ** C28: a map created without recovery starts empty *)

(** With an empty directory: the map starts empty, and every later call behaves as on a dictionary that
    was empty at the start. *)
Theorem C28_clean_partial : forall C cap ppl maxcap files,
  good_cap cap maxcap -> (maxcap <= 2 ^ 32)%N -> (forall n, find_file n files = None) ->
  exists s0, init_state_files cap ppl maxcap files = Some s0 /\
    (forall x s', run size s0 = Ok x s' -> x = 0%N) /\
    forall os rs s, reach C s0 os rs s -> Forall legal_op os -> exists m, dsteps ∅ os rs m /\
      forall k n g s', legal_key k -> run (get C n k) s = Ok g s' -> g = lookup_result m k.
Proof. exact c28_clean. Qed.
Print Assumptions C28_clean_partial.

(** Without a file of the number 0 the map starts empty, whatever other files there are. *)
Theorem C28_empty_partial : forall C cap ppl maxcap files, good_cap cap maxcap -> find_file 0 files = None ->
  exists s0, init_state_files cap ppl maxcap files = Some s0 /\
    (forall n k r s', run (get C n k) s0 = Ok r s' -> r = NOTFOUND) /\
    (forall r s', run size s0 = Ok r s' -> r = 0%N).
Proof. exact fresh_files. Qed.
Print Assumptions C28_empty_partial.

(** A file of the number 0 that an earlier map left: its entry is found in the new map. *)
Theorem C28_refuted : exists rs s s0 s1,
  reach idcfg (init_state 16 4 4096) [OPut 40 80]%N rs s /\ left_by s (files_of s) /\
  init_state_files 16 4 4096 (files_of s) = Some s0 /\
  run (get idcfg ex_fuel 40) s0 = Ok 80%N s1 /\ (80 <> NOTFOUND)%N.
Proof. exact c28_stale. Qed.
Print Assumptions C28_refuted.

(** A file of the number 1: the map starts empty, but once it has grown it returns a value that was never
    inserted. *)
Theorem C28_grow_refuted : exists s0 rs s s1 s2,
  find_file 0 old_file1 = None /\ init_state_files 16 4 4096 old_file1 = Some s0 /\ legal_key 8 /\
  run (get idcfg ex_fuel 8) s0 = Ok NOTFOUND s1 /\
  reach idcfg s0 ex_ops rs s /\ Forall legal_op ex_ops /\ ~ In (OPut 8 800) ex_ops /\
  run (get idcfg ex_fuel 8) s = Ok 800%N s2.
Proof. exact c28_grow. Qed.
Print Assumptions C28_grow_refuted.

(** A table's file holds exactly the table's entries from the start, no other file is touched, and a new file holds neither
    keys nor values. *)
Theorem C28_file : forall P b cap ex maxcap name path fs T fs',
  mmap_named P b cap ex maxcap name path fs = inl (T, fs') ->
  fs' !! path = Some (t_pairs T) /\ (forall path', path' <> path -> fs' !! path' = fs !! path') /\
  t_len T = List.length (t_pairs T).
Proof. exact mmap_named_file. Qed.
Print Assumptions C28_file.

Theorem C28_new_file : forall P b cap ex maxcap name path fs T fs',
  mmap_named P b cap ex maxcap name path fs = inl (T, fs') -> (b = true -> fs !! path = None) ->
  t_len T = cap /\ forall i, i < cap -> exists k v, t_pairs T !! i = Some (k, v) /\ same_word k KINITIAL /\ same_word v VINITIAL.
Proof. exact mmap_named_new. Qed.
Print Assumptions C28_new_file.

Example C28_file_example : exists T fs,
  mmap_named repaired true 4 0 4096 "0.dat" "/mnt/0.dat" ∅ = inl (T, fs) /\ t_len T = 4.
Proof. exact c28_file_example. Qed.

(** ** C29: table file names encode their creation order *)

Theorem C29_parse : forall n, (n < 2 ^ 31)%N -> numFromName (getOrderedFileName n) = Some n.
Proof. exact numFromName_ordered. Qed.
Print Assumptions C29_parse.
(** The repairs below change nothing for such names. *)
Theorem C29_parse_policy : forall P n, (n < 2 ^ 31)%N -> parse P (getOrderedFileName n) = Some n.
Proof. exact parse_policy. Qed.
Print Assumptions C29_parse_policy.

Example C29_parse_example : (2147483647 < 2 ^ 31)%N /\
  getOrderedFileName 2147483647 = "/mnt/pmem/pm1/tables/2147483647.dat"%string.
Proof. exact (conj eq_refl eq_refl). Qed.

(** Other names: white space before the number is skipped, and what follows it up to the last dot is ignored. *)
Theorem C29_parse_any : forall dir ws t v rest ext, spaces ws -> spells t v rest -> (v < 2 ^ 31)%N ->
  without "/" (ws ++ t ++ rest ++ ext) -> without "." ext -> List.length (ws ++ t ++ rest) < 240 ->
  numFromName (string_of_list_ascii (dir ++ ["/"%char] ++ (ws ++ t ++ rest) ++ ["."%char] ++ ext)) = Some v.
Proof. exact numFromName_any. Qed.
Print Assumptions C29_parse_any.

Example C29_parse_any_example :
  spaces (list_ascii_of_string " ") /\ spells (list_ascii_of_string "12") 12 (list_ascii_of_string "x") /\
  numFromName "/tmp/a.b/ 12x.dat" = Some 12%N.
Proof. exact c29_any_example. Qed.

(** Tables whose numbers have the same number of digits are visited in creation order. *)
Theorem C29_order_partial : forall fs dir ns d, StronglySorted N.lt ns -> numbered fs dir ns -> Forall (has_digits d) ns ->
  table_names fs dir = map bare_name ns.
Proof. exact order_same_digits. Qed.
Print Assumptions C29_order_partial.

Example C29_order_example : forall dir, exists fs, numbered fs dir [10; 11; 12]%N /\ StronglySorted N.lt [10; 11; 12]%N /\
  Forall (has_digits 2) [10; 11; 12]%N /\ table_names fs dir = ["10.dat"; "11.dat"; "12.dat"]%string.
Proof. exact c29_example. Qed.

(** Whenever tables 2 and 10 both exist, table 10 is visited first. *)
Theorem C29_order_refuted : forall fs dir,
  is_Some (fs !! (dir ++ bare_name 2)%string) -> is_Some (fs !! (dir ++ bare_name 10)%string) ->
  before (table_names fs dir) (bare_name 10) (bare_name 2).
Proof. exact c29_order_refuted. Qed.
Print Assumptions C29_order_refuted.

(** With recovery's errors other than the sorting repaired, and numbers with the same number of digits: the tables
    whose file holds a value are kept, in creation order, each linked to the next; and each is the repaired
    content of its file. *)
Theorem C29_chain_partial : forall dir cwd cap maxcap fs ns d R,
  StronglySorted N.lt ns -> numbered fs dir ns -> Forall (has_digits d) ns -> Forall (fun n => (n < 2 ^ 31)%N) ns ->
  recover repaired dir cwd cap maxcap fs = inl R ->
  map t_id (r_tabs R) = List.filter (file_used fs dir) ns /\
  forall i T, r_tabs R !! i = Some T ->
    t_new T = (if (S i <? length (r_tabs R))%nat then Some (S i) else None) /\
    exists content, fs !! (dir ++ bare_name (t_id T))%string = Some content /\ length (t_pairs T) = length content /\
      r_fs R !! (dir ++ bare_name (t_id T))%string = Some (t_pairs T) /\
      forall j k v k' v', content !! j = Some (k, v) -> t_pairs T !! j = Some (k', v') ->
        same_word k' k /\ (half_done (k, v) -> v' = VTOMBSTONE) /\ (~ half_done (k, v) -> same_word v' v).
Proof. exact c29_chain. Qed.
Print Assumptions C29_chain_partial.

Example C29_chain_example : exists R, numbered c29_fs table_dir [1; 2; 3]%N /\ StronglySorted N.lt [1; 2; 3]%N /\
  Forall (has_digits 1) [1; 2; 3]%N /\ recover repaired table_dir "/" 16 4096 c29_fs = inl R /\
  map t_id (r_tabs R) = [1; 3]%N /\ map t_new (r_tabs R) = [Some 1%nat; None].
Proof. exact c29_chain_example. Qed.

(** ** C30: tables created after recovery get fresh files *)

(** Even with all of recovery's other errors repaired: the counter for the next table is the number of the
    table visited last, so the next table uses the file of a recovered table. *)
Theorem C30_refuted : forall dir cwd cap maxcap fs ns R,
  NoDup ns -> numbered fs dir ns -> Forall (fun n => (n < 2 ^ 31)%N) ns ->
  recover repaired dir cwd cap maxcap fs = inl R ->
  In (r_counter R) ns /\ bare_name (r_counter R) = List.last (table_names fs dir) ""%string.
Proof. exact repaired_counter. Qed.
Print Assumptions C30_refuted.

Example C30_example : exists R T, numbered c30_fs table_dir [7]%N /\
  recover repaired table_dir "/" 16 4096 c30_fs = inl R /\ r_counter R = 7%N /\
  mmap_table (r_counter R) 32 0 4096 [(7%N, <[8 := (8, 800)%N]> (blank 16))] = Some T /\ t_pairs T !! 8 = Some (8, 800)%N.
Proof. exact c30_example. Qed.

(** Without recovery: no two tables of a map share a file, and the next table's file is a new one. *)
Theorem C30_fresh_partial : forall C cap ppl maxcap os rs s i j T T',
  good_cap cap maxcap -> (maxcap <= 2 ^ 32)%N ->
  reach C (init_state cap ppl maxcap) os rs s -> Forall legal_op os ->
  st_tabs s !! i = Some T -> st_tabs s !! j = Some T' ->
  (t_id T <> st_fctr s)%N /\ (i <> j -> t_id T <> t_id T').
Proof. exact c30_ids. Qed.
Print Assumptions C30_fresh_partial.

Example C30_fresh_example : exists T0 T1, reach idcfg (init_state 16 4 4096) ex_ops ex_rs ex_s /\ Forall legal_op ex_ops /\
  st_tabs ex_s !! 0 = Some T0 /\ st_tabs ex_s !! 1 = Some T1.
Proof. exact c30_ids_example. Qed.

(** ** C40: mapping an existing table file repairs half-finished inserts and keeps the rest *)

Theorem C40_repair : forall C t content id s,
  st_tabs s !! t = Some (raw_table content id) -> (N.of_nat (length content) < 2 ^ 64)%N ->
  exists s' T, run (repair_loop C t 0 (length content)) s = Ok tt s' /\ st_tabs s' !! t = Some T /\
    t_len T = length content /\ length (t_pairs T) = length content /\
    (forall i k v k' v', content !! i = Some (k, v) -> t_pairs T !! i = Some (k', v') ->
       same_word k' k /\ (half_done (k, v) -> v' = VTOMBSTONE) /\ (~ half_done (k, v) -> same_word v' v)) /\
    t_size T = N.of_nat (length (filter (fun p => with_value p = true) content)) /\
    (forall j, j <> t -> st_tabs s' !! j = st_tabs s !! j).
Proof. exact c40_repair. Qed.
Print Assumptions C40_repair.

(** The closed form that the map's model uses for an opened table file agrees with the loop. *)
Theorem C40_model : forall C t content id s,
  st_tabs s !! t = Some (raw_table content id) -> (N.of_nat (length content) < 2 ^ 64)%N ->
  exists s' T, run (repair_loop C t 0 (length content)) s = Ok tt s' /\ st_tabs s' !! t = Some T /\
    t_pairs T = t_pairs (existing_table content id) /\ t_size T = t_size (existing_table content id) /\
    t_slots T = t_slots (existing_table content id) /\ t_len T = t_len (existing_table content id) /\
    t_new T = t_new (existing_table content id).
Proof. exact c40_model. Qed.
Print Assumptions C40_model.

Example C40_example : exists s' T,
  let content := [(40, 80); (48, setMark VINITIAL DirtyFlag); (KINITIAL, VINITIAL); (setMark 56 DirtyFlag, 88)]%N in
  run (repair_loop idcfg 0 0 4) (mkState [raw_table content 0] 0 1 [] 4 4096) = Ok tt s' /\
  st_tabs s' !! 0 = Some T /\ t_pairs T = [(40, 80); (48, VTOMBSTONE); (KINITIAL, VINITIAL); (56, 88)]%N /\ t_size T = 2%N.
Proof. exact c40_example. Qed.

(** ** C42: a table whose creation was interrupted holds no entries *)

(** Interrupted after the last entry was initialised: the map is empty. *)
Theorem C42_complete_partial : forall C cap ppl maxcap files, good_cap cap maxcap -> (maxcap <= 2 ^ 32)%N ->
  find_file 0 files = Some (half_created cap cap) -> (forall n, (0 < n)%N -> find_file n files = None) ->
  exists s0, init_state_files cap ppl maxcap files = Some s0 /\
    (forall x s', run size s0 = Ok x s' -> x = 0%N) /\
    forall os rs s, reach C s0 os rs s -> Forall legal_op os -> exists m, dsteps ∅ os rs m.
Proof. exact c42_complete. Qed.
Print Assumptions C42_complete_partial.

(** Interrupted at any earlier point: every entry not yet initialised counts as an element. *)
Theorem C42_refuted : forall cap ppl maxcap files i, i < cap -> find_file 0 files = Some (half_created cap i) ->
  exists s0 s', init_state_files cap ppl maxcap files = Some s0 /\ run size s0 = Ok (N.of_nat (cap - i)) s'.
Proof. exact c42_refuted. Qed.
Print Assumptions C42_refuted.

(** And the key 0 is found in the map, with the value 0. *)
Example C42_example : exists s0 s', init_state_files 16 4 4096 [(0%N, half_created 16 0)] = Some s0 /\
  run (get idcfg ex_fuel 0) s0 = Ok 0%N s' /\ legal_key 0.
Proof. exact c42_example. Qed.
