(** Specifications for concurrent executions and crashes, independent of how the map works. *)
From Coq Require Import NArith Bool List.
From stdpp Require Import base list.
From Verif Require Import Word Prog HashMap Conc Spec.
Import ListNotations.

(** The calls invoked in a history. *)
Definition invoked (h : list event) : list op :=
  flat_map (fun e => match e with EInv _ o => [o] | ERes _ _ _ => [] end) h.

(** Some call in [ops] is about the key [k]. *)
Definition called (ops : list op) (k : N) : Prop := exists o, In o ops /\ op_key o = Some k.

(** [supplied ops k v]: one of the calls [ops] supplied [v] as a value for [k]: as the new value of a write, or as
    a count produced by increment from no count, from a supplied value, or from a deletion mark;
    the dummy argument of increment counts too (see C09). *)
Inductive supplied (ops : list op) (k : N) : N -> Prop :=
| sup_put v : In (OPut k v) ops -> supplied ops k v
| sup_putIfAbsent v : In (OPutIfAbsent k v) ops -> supplied ops k v
| sup_replace old v : In (OReplace k old v) ops -> supplied ops k v
| sup_inc_arg : In (OIncrement k) ops -> supplied ops k INCREMENT_ARG
| sup_inc_first : In (OIncrement k) ops -> supplied ops k (next_count None)
| sup_inc_mark w : In (OIncrement k) ops -> w = VINITIAL \/ w = VTOMBSTONE -> supplied ops k (next_count (Some w))
| sup_inc v : In (OIncrement k) ops -> supplied ops k v -> supplied ops k (next_count (Some v)).

(** All contents the entry array of a table has had, oldest first; the last one is the current one. *)
Definition versions (T : table) : list (list pair_) := rev (t_past T) ++ [t_pairs T].

(** Entry [i] of table [t]; entry [i] of the [v]-th contents of a table. *)
Definition entry (s : state) (t i : nat) : option pair_ :=
  match st_tabs s !! t with Some T => t_pairs T !! i | None => None end.
Definition hist_entry (T : table) (v i : nat) : option pair_ :=
  match versions T !! v with Some ps => ps !! i | None => None end.

(** [crash_entry s t i p]: after a crash in state [s], entry [i] of table [t] may be found to be [p] in
    persistent memory: its cache line may be as it was at any moment since it was last known
    to be written back.  (Entries do not straddle lines, and the words of one line reach memory in
    the order they were written.) *)
Definition crash_entry (s : state) (t i : nat) (p : pair_) : Prop :=
  exists T b v ps, st_tabs s !! t = Some T /\ t_pers T !! line_of s i = Some b /\ b <= v /\
    versions T !! v = Some ps /\ ps !! i = Some p.

(** A crash image of a table: one moment per line. *)
Definition crash_table (s : state) (t : nat) (img : list pair_) : Prop :=
  exists T (pick : nat -> nat), st_tabs s !! t = Some T /\ length img = t_len T /\
    (forall l b, t_pers T !! l = Some b -> b <= pick l /\ pick l < length (versions T)) /\
    (forall i ps, i < t_len T -> versions T !! pick (line_of s i) = Some ps -> img !! i = ps !! i).

(** A word without its two marker bits. *)
Definition payload (w : N) : N := clearMark (clearMark w DirtyFlag) MigrationFlag.

(** An entry that holds nothing but what the calls [ops] put there: it is unused, or it is blocked (its key
    is the key tombstone) and holds no value, or it holds a key one of the calls is about and no value,
    a deletion mark, or a value supplied for that key. *)
Definition client_entry (ops : list op) (p : pair_) : Prop :=
  let k := clearMark (fst p) DirtyFlag in let v := payload (snd p) in
  (k = KINITIAL /\ clearMark (snd p) DirtyFlag = VINITIAL) \/
  (k = KTOMBSTONE /\ (v = VINITIAL \/ v = VTOMBSTONE)) \/
  (called ops k /\ (v = VINITIAL \/ v = VTOMBSTONE \/ supplied ops k v)).

(** The key [k] is mapped to a value somewhere in memory. *)
Definition mapped (s : state) (k : N) : Prop := exists t i p, entry s t i = Some p /\
  clearMark (fst p) DirtyFlag = k /\ payload (snd p) <> VINITIAL /\ payload (snd p) <> VTOMBSTONE.

(** Every call has returned. *)
Definition idle (y : sys) : Prop := Forall (fun th => th_cur th = None) (sy_thr y).

(** Entry [i] of the table never takes a value it had before: between two moments at which its value is the same, it
    does not change. *)
Definition never_returns (T : table) (i : nat) : Prop := forall a b c p q r, a < b -> b < c ->
  hist_entry T a i = Some p -> hist_entry T b i = Some q -> hist_entry T c i = Some r ->
  same_word (snd p) (snd r) -> same_word (snd q) (snd p).
