(** Vocabulary for the statements about table files. *)
From Coq Require Import NArith Bool List Ascii String.
From stdpp Require Import base list strings gmap.
From Verif Require Import Word Prog HashMap Spec Recovery.
Import ListNotations.

(** The directory [dir] holds the files of the tables [ns] and nothing else. *)
Definition numbered (fs : fsys) (dir : string) (ns : list N) : Prop :=
  forall name, no_slash name = true ->
    (is_Some (fs !! (dir ++ name)%string) <-> exists n, In n ns /\ name = bare_name n).

(** The number of decimal digits is [d]. *)
Definition has_digits (d : nat) (n : N) : Prop :=
  (n < 10 ^ N.of_nat d /\ (d = 1%nat \/ 10 ^ N.of_nat (d - 1) <= n))%N.

(** [x] comes before [y] in the list [l]. *)
Definition before {A} (l : list A) (x y : A) : Prop := exists l1 l2, l = l1 ++ l2 /\ In x l1 /\ In y l2.

(** Everything favourable except that the flag is passed the wrong way round. *)
Definition charitable (f : string -> N) : policy := mkPolicy (Some f) true false true.

(** The file name parsed as if the directory had been passed along, files looked up where they were found, freed
    memory intact, and the flag passed the right way round. *)
Definition repaired : policy :=
  mkPolicy (Some (fun name => default 0%N (numFromName (table_dir ++ name)))) true true true.

(** The directory holds the files of the map [s] and no other table files.  A table's file holds its entries. *)
Definition left_by (s : state) (files : list (N * list pair_)) : Prop :=
  forall n, find_file n files = option_map t_pairs (List.find (fun T => (t_id T =? n)%N) (st_tabs s)).

(** An insert that was interrupted between writing the key and writing the value. *)
Definition half_done (p : pair_) : Prop := ~ same_word (fst p) KINITIAL /\ same_word (snd p) VINITIAL.
(** The entry holds a value (not: never written, deleted, migrated). *)
Definition with_value (p : pair_) : bool :=
  forallb (fun w => negb (clearMark (snd p) DirtyFlag =? w)%N) [VINITIAL; VTOMBSTONE; TOMBPRIME].

(** A file of [cap] entries whose creation was interrupted after [i] entries had been initialised: the rest are
    the zero bytes that ftruncate put there (hashMap.hpp:713-738). *)
Definition half_created (cap i : nat) : list pair_ :=
  replicate i (setMark KINITIAL DirtyFlag, setMark VINITIAL DirtyFlag) ++ replicate (cap - i) (0, 0)%N.

(** The file of the table [n] holds a value. *)
Definition file_used (fs : fsys) (dir : string) (n : N) : bool :=
  match fs !! (dir ++ bare_name n)%string with Some content => existsb with_value content | None => false end.

(** ** Names that are not of the map's own making *)
(** [t] is the number [v] in decimal, and does not go on in [rest]. *)
Definition spells (t : list ascii) (v : N) (rest : list ascii) : Prop :=
  exists ds, ds <> [] /\ Forall (fun d => (d < 10)%N) ds /\ t = map (fun d => ascii_of_N (48 + d)) ds /\
    v = fold_left (fun a d => (10 * a + d)%N) ds 0%N /\
    match rest with c :: _ => (N_of_ascii c < 48 \/ 57 < N_of_ascii c)%N | [] => True end.
Definition spaces (t : list ascii) : Prop := Forall (fun c => N_of_ascii c = 32 \/ 9 <= N_of_ascii c <= 13)%N t.
Definition without (c : ascii) (t : list ascii) : Prop := ~ In c t.
