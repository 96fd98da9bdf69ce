(** Table files, their names, and the map's constructor (hashMap.hpp:548-875). *)
From Coq Require Import NArith ZArith Bool List Ascii String DecimalString.
From stdpp Require Import base list strings gmap.
From Verif Require Import Word Prog HashMap.
Import ListNotations.
Open Scope prog_scope.

(** ** File names *)

(** [std::to_string] of an unsigned number. *)
Definition to_dec (n : N) : string := NilEmpty.string_of_uint (N.to_uint n).

(** hashMap.hpp:550 *)
Definition table_dir : string := "/mnt/pmem/pm1/tables/".
(** hashMap.hpp:548-551 *)
Definition bare_name (count : N) : string := (to_dec count ++ ".dat")%string.
Definition getOrderedFileName (count : N) : string := (table_dir ++ bare_name count)%string.

(** The position of the last occurrence of [c]; the C++ loops (hashMap.hpp:565-584) run from the end
    towards the front with an unsigned counter and the condition [i >= 0], so that without an occurrence
    they leave the string: [None]. *)
Fixpoint last_index (c : ascii) (l : list ascii) : option nat :=
  match l with
  | [] => None
  | x :: l' => match last_index c l' with
               | Some i => Some (S i)
               | None => if Ascii.eqb x c then Some 0 else None
               end
  end.

(** ISO C [isspace] in the default locale. *)
Definition isspace (c : ascii) : bool :=
  let n := N_of_ascii c in ((n =? 32) || ((9 <=? n) && (n <=? 13)))%N.
Definition digit (c : ascii) : option N :=
  let n := N_of_ascii c in if ((48 <=? n) && (n <=? 57))%N then Some (n - 48)%N else None.

(** Digits up to the first other character. *)
Fixpoint atoi_digits (l : list ascii) (acc : N) : N :=
  match l with
  | [] => acc
  | c :: l' => match digit c with Some d => atoi_digits l' (acc * 10 + d)%N | None => acc end
  end.

(** atoi on the characters [l] followed by a newline and then by uninitialised memory (hashMap.hpp:586-589:
    the buffer is terminated with '\n', not with '\0').  [None] is undefined behaviour: the result does not
    fit an int, or white space only, in which case the newline is skipped too and the uninitialised
    memory is read. *)
Fixpoint atoi (l : list ascii) : option Z :=
  match l with
  | [] => None
  | c :: l' =>
      if isspace c then atoi l'
      else
        let '(neg, ds) := if Ascii.eqb c "-" then (true, l') else if Ascii.eqb c "+" then (false, l') else (false, l) in
        let v := atoi_digits ds 0%N in
        if neg then if (v <=? 2 ^ 31)%N then Some (- Z.of_N v)%Z else None
        else if (v <? 2 ^ 31)%N then Some (Z.of_N v) else None
  end.

(** hashMap.hpp:553-594.  [None] is undefined behaviour: no '.' or no '/' in the name, more characters than
    the buffer of 30 * sizeof(char* ) = 240 bytes holds, or atoi's. *)
Definition numFromName (source : string) : option N :=
  let l := list_ascii_of_string source in
  match last_index "." l, last_index "/" l with
  | Some e, Some s =>
      let text := take (e - (s + 1)) (drop (s + 1) l) in
      if (length text <? 240)%nat then option_map (fun z => Z.to_N (z mod Z.of_N two64)) (atoi text) else None
  | _, _ => None
  end.

(** ** Mapping an existing file: the repair loop, hashMap.hpp:668-699 *)

(** The table right after [new Table(...)] and the two stores (hashMap.hpp:665-670). *)
Definition raw_table (content : list pair_) (id : N) : table :=
  mkTable (length content) content [] (replicate (length content) 0) 0 0 0 0 None id.

Section Repair.
Context (C : cfg).

(** One iteration, hashMap.hpp:672-698. *)
Definition repair_step (t i : nat) : prog unit :=
  V <-- value C t i;;
  K <-- key C t i;;
  V <-- (if negb (K =? KINITIAL)%N && (V =? VINITIAL)%N then
           CASvalue C t i VINITIAL VTOMBSTONE ;;;
           V' <-- value C t i;;
           assert_ C (V' =? VTOMBSTONE)%N ;;;
           Ret V'
         else Ret V);;
  if (negb (V =? VINITIAL) && negb (V =? VTOMBSTONE) && negb (V =? TOMBPRIME))%N
  then do (AddF t FSize 1%N) ;;; Ret tt
  else if (negb (V =? VTOMBSTONE) && negb (V =? TOMBPRIME))%N
  then do (AddF t FSlots 1%N) ;;; Ret tt
  else Ret tt.

(** [cnt] iterations from [i]. *)
Fixpoint repair_loop (t i cnt : nat) : prog unit :=
  match cnt with
  | O => Ret tt
  | S cnt' => repair_step t i ;;; repair_loop t (S i) cnt'
  end.
End Repair.

(** ** The file system *)

(** Regular files by absolute path. *)
Notation fsys := (gmap string (list pair_)).

Definition no_slash (s : string) : bool :=
  forallb (fun c => negb (Ascii.eqb c "/")) (list_ascii_of_string s).

(** [s] without the prefix [p]. *)
Fixpoint strip_prefix (p s : string) : option string :=
  match p, s with
  | EmptyString, _ => Some s
  | String a p', String b s' => if Ascii.eqb a b then strip_prefix p' s' else None
  | String _ _, EmptyString => None
  end.
(** The name of [path] in the directory [dir] (which ends in a slash), if it is there. *)
Definition name_in (dir path : string) : option string :=
  match strip_prefix dir path with
  | Some name => if no_slash name then Some name else None
  | None => None
  end.

Fixpoint insert_name (x : string) (l : list string) : list string :=
  match l with
  | [] => [x]
  | y :: l' => if String.leb x y then x :: l else y :: insert_name x l'
  end.
(** std::sort with [a.compare(b) < 0], hashMap.hpp:783-788. *)
Definition sort_names (l : list string) : list string := fold_right insert_name [] l.

(** hashMap.hpp:772-788: the file names in the directory, without the directory, sorted. *)
Definition table_names (fs : fsys) (dir : string) : list string :=
  sort_names (omap (fun f => name_in dir (fst f)) (map_to_list fs)).

(** ** mmapTable with a file name, hashMap.hpp:595-752 *)

(** The code as written is [written].  The other choices replace undefined behaviour or a slip by a
    behaviour that is as favourable as possible, to show what goes wrong next:
    - [p_bare]: what the out-of-bounds scan of a name without '/' comes up with;
    - [p_freed]: freed tables can still be used;
    - [p_flag]: the constructor passes [reconstruct] instead of [!reconstruct] to mmapTable;
    - [p_path]: files are looked up in the directory that was scanned instead of in the working
      directory. *)
Record policy := mkPolicy {
  p_bare : option (string -> N); p_freed : bool; p_flag : bool; p_path : bool
}.
Definition written : policy := mkPolicy None false false false.

Definition parse (P : policy) (name : string) : option N :=
  match numFromName name with
  | Some n => Some n
  | None => match p_bare P with Some f => Some (f name) | None => None end
  end.

(** The contents of a new file after hashMap.hpp:733-738. *)
Definition blank (cap : nat) : list pair_ := replicate cap (dirty KINITIAL, dirty VINITIAL).

(** [path] is where the operating system finds [name]. *)
Definition mmap_named (P : policy) (newTable : bool) (cap : nat) (existing maxcap : N) (name path : string)
    (fs : fsys) : (table * fsys) + (err * fsys) :=
  match parse P name with
  | None => inr (OutOfBounds, fs)
  | Some count =>
      match (if newTable then fs !! path else None) with
      | Some [] => inr (AllocFail, fs)
      | Some content =>
          let T := existing_table content count in inl (T, <[path := t_pairs T]> fs)
      | None =>
          if can_alloc cap maxcap then inl (fresh_table cap existing count, <[path := blank cap]> fs)
          else inr (AllocFail, fs)
      end
  end.

(** ** The constructor with recovery, hashMap.hpp:766-861 *)

(** hashMap.hpp:803-826 *)
Definition migrationDone (T : table) : bool :=
  forallb (fun p => let v := clean (snd p) in (v =? VTOMBSTONE) || (v =? VINITIAL) || (v =? TOMBPRIME))%N (t_pairs T).

(** hashMap.hpp:793-840: the loop over the names.  Accumulates the tables that are kept. *)
Fixpoint visit (P : policy) (dir cwd : string) (cap : nat) (maxcap : N) (names : list string) (kept : list table)
    (fs : fsys) : (list table * fsys) + (err * fsys) :=
  match names with
  | [] => inl (kept, fs)
  | name :: names' =>
      let path := ((if p_path P then dir else cwd) ++ name)%string in
      match mmap_named P (p_flag P) cap 0 maxcap name path fs with
      | inr e => inr e
      | inl (T, fs1) =>
          let freed := (t_size T =? 0)%N in       (* 798-801: munmapTable, and no [continue] *)
          if freed && negb (p_freed P) then inr (OutOfBounds, fs1)
          else if migrationDone T
          then visit P dir cwd cap maxcap names' kept (delete path fs1)   (* 828-838 *)
          else visit P dir cwd cap maxcap names' (kept ++ [T]) fs1        (* 839-843 *)
      end
  end.

(** hashMap.hpp:847-858: each kept table is linked to the next one. *)
Fixpoint link (i : nat) (l : list table) : list table :=
  match l with
  | [] => []
  | [T] => [T]
  | T :: l' => set_new (Some (S i)) T :: link (S i) l'
  end.

Record recovered := mkRec {
  r_tabs : list table;      (* the kept tables; the map's current table is the first *)
  r_counter : N;            (* fileNameCounter *)
  r_fs : fsys
}.

(** [tables[0]] of an empty vector is an access out of bounds (hashMap.hpp:862). *)
Definition recover (P : policy) (dir cwd : string) (cap : nat) (maxcap : N) (fs : fsys) : recovered + (err * fsys) :=
  let names := table_names fs dir in
  match visit P dir cwd cap maxcap names [] fs with
  | inr e => inr e
  | inl (kept, fs1) =>
      match kept with
      | [] => inr (OutOfBounds, fs1)
      | _ :: _ =>
          match parse P (List.last names ""%string) with
          | None => inr (OutOfBounds, fs1)
          | Some count => inl (mkRec (link 0 kept) count fs1)
          end
      end
  end.
