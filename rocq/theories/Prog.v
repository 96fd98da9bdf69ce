(** Programs over the map's shared memory, and the memory itself.

    A program performs atomic memory accesses ("commands") one at a time.  The same program
    text is given a sequential semantics ([run]) and a concurrent one (Conc.v). *)
From Coq Require Import NArith Bool List.
From stdpp Require Import base list.
From Verif Require Import Word.
Import ListNotations.

(** ** Memory *)

(** One key-value entry as stored in memory, marker bits included (hashMap.hpp:95-99).
    16 bytes, so an aligned cache line holds [st_ppl] = 4 of them. *)
Notation pair_ := (N * N)%type.

(** A table (hashMap.hpp:102-485) with its control block CHM (hashMap.hpp:106-279).
    [t_past] and [t_pers] are not fields of the C++ object: they describe which contents can be
    found in persistent memory after a crash.  [t_past] lists the former contents of the entry
    array, most recent first (the current contents are version [length t_past]);
    [t_pers !! l] is a version such that everything line [l] contained at that version is known
    to have been written back. *)
Record table := mkTable {
  t_len : nat;                  (* len, hashMap.hpp:483 *)
  t_pairs : list pair_;         (* pairs, hashMap.hpp:474 *)
  t_past : list (list pair_);
  t_pers : list nat;
  t_size : N;                   (* chm.size, hashMap.hpp:234 *)
  t_slots : N;                  (* chm.slots, hashMap.hpp:238 *)
  t_copyIdx : N;                (* chm.copyIdx, hashMap.hpp:112 *)
  t_copyDone : N;               (* chm.copyDone, hashMap.hpp:115 *)
  t_new : option nat;           (* chm.newTable, hashMap.hpp:246; None is nullptr *)
  t_id : N                      (* chm.id, hashMap.hpp:242 *)
}.

(** The whole shared state.  Tables are named by their allocation order; they are never reused. *)
Record state := mkState {
  st_tabs : list table;
  st_top : nat;                           (* ConcurrentHashMap::table, hashMap.hpp:1324 *)
  st_fctr : N;                            (* fileNameCounter, include/define.hpp:36 *)
  st_files : list (N * list pair_);       (* table files left by earlier runs: number, contents *)
  st_ppl : nat;                           (* entries per cache line *)
  st_maxcap : N                           (* largest table (in entries) the device can hold *)
}.

Definition set_pairs (ps : list pair_) (past : list (list pair_)) (T : table) : table :=
  mkTable (t_len T) ps past (t_pers T) (t_size T) (t_slots T) (t_copyIdx T) (t_copyDone T) (t_new T) (t_id T).
Definition set_pers (pe : list nat) (T : table) : table :=
  mkTable (t_len T) (t_pairs T) (t_past T) pe (t_size T) (t_slots T) (t_copyIdx T) (t_copyDone T) (t_new T) (t_id T).
Definition set_new (o : option nat) (T : table) : table :=
  mkTable (t_len T) (t_pairs T) (t_past T) (t_pers T) (t_size T) (t_slots T) (t_copyIdx T) (t_copyDone T) o (t_id T).

Inductive fld := FSize | FSlots | FCopyIdx | FCopyDone.
Global Instance fld_eq_dec : EqDecision fld.
Proof. solve_decision. Defined.
Definition get_fld (f : fld) (T : table) : N :=
  match f with FSize => t_size T | FSlots => t_slots T | FCopyIdx => t_copyIdx T | FCopyDone => t_copyDone T end.
Definition set_fld (f : fld) (v : N) (T : table) : table :=
  mkTable (t_len T) (t_pairs T) (t_past T) (t_pers T)
    (match f with FSize => v | _ => t_size T end)
    (match f with FSlots => v | _ => t_slots T end)
    (match f with FCopyIdx => v | _ => t_copyIdx T end)
    (match f with FCopyDone => v | _ => t_copyDone T end)
    (t_new T) (t_id T).

Inductive cell := CKey | CVal.
Global Instance cell_eq_dec : EqDecision cell.
Proof. solve_decision. Defined.
Definition get_cell (c : cell) (p : pair_) : N := match c with CKey => fst p | CVal => snd p end.
Definition set_cell (c : cell) (w : N) (p : pair_) : pair_ :=
  match c with CKey => (w, snd p) | CVal => (fst p, w) end.

Definition with_tab (t : nat) (f : table -> table) (s : state) : state :=
  mkState (alter f t (st_tabs s)) (st_top s) (st_fctr s) (st_files s) (st_ppl s) (st_maxcap s).

(** Store [w] into one cell: the contents so far become a past version. *)
Definition write_cell (i : nat) (c : cell) (w : N) (T : table) : table :=
  set_pairs (alter (set_cell c w) i (t_pairs T)) (t_pairs T :: t_past T) T.

(** The word in one cell; 0 when out of range (programs check the range first). *)
Definition read_cell (s : state) (t i : nat) (c : cell) : N :=
  match st_tabs s !! t with
  | Some T => match t_pairs T !! i with Some p => get_cell c p | None => 0%N end
  | None => 0%N
  end.

(** Cache line of an entry. *)
Definition line_of (s : state) (i : nat) : nat := Nat.div i (st_ppl s).

(** ** Table creation *)

(** mmapTable on a file that does not exist yet (hashMap.hpp:701-746) and the Table/CHM
    constructors (hashMap.hpp:269-279, 485-494).  Every word starts as the initial value with the
    unpersisted bit set, and is persisted before the table is published.  Simplification: the
    creation is one step; the table is private to its creator until it is published, and crashes
    inside the creation are considered in Recovery.v. *)
Definition fresh_table (cap : nat) (existing id : N) : table :=
  mkTable cap (replicate cap (dirty KINITIAL, dirty VINITIAL)) [] (replicate cap 0)
    existing (N.of_nat cap) 0 0 None id.

(** The repair of one entry of an existing file, hashMap.hpp:673-687.  Reading an entry clears
    its unpersisted bits (pcas_read); a key without value gets a tombstone. *)
Definition repair_entry (p : pair_) : pair_ :=
  let K := clean (fst p) in
  let V := clean (snd p) in
  (K, if negb (K =? KINITIAL)%N && (V =? VINITIAL)%N then VTOMBSTONE else V).

(** hashMap.hpp:690-693 *)
Definition counts_as_value (V : N) : bool :=
  negb (V =? VINITIAL)%N && negb (V =? VTOMBSTONE)%N && negb (V =? TOMBPRIME)%N.
(** hashMap.hpp:695-698 (the [else if] branch) *)
Definition counts_as_free (V : N) : bool :=
  negb (counts_as_value V) && negb (V =? VTOMBSTONE)%N && negb (V =? TOMBPRIME)%N.

(** mmapTable on an existing file (hashMap.hpp:637-700).  Same simplification as [fresh_table]. *)
Definition existing_table (content : list pair_) (id : N) : table :=
  let ps := map repair_entry content in
  mkTable (length content) ps [] (replicate (length content) 0)
    (N.of_nat (length (filter (fun p => counts_as_value (snd p) = true) ps)))
    (N.of_nat (length (filter (fun p => counts_as_free (snd p) = true) ps)))
    0 0 None id.

Fixpoint find_file (n : N) (fs : list (N * list pair_)) : option (list pair_) :=
  match fs with
  | [] => None
  | (m, c) :: fs' => if (m =? n)%N then Some c else find_file n fs'
  end.

(** A table of [cap] entries can be allocated: ftruncate takes a signed 64-bit length and
    sizeof(KVpair) = 16 (hashMap.hpp:713-720), and the device holds at most [maxcap] entries. *)
Definition can_alloc (cap : nat) (maxcap : N) : bool :=
  (N.of_nat cap <? 2 ^ 59)%N && (N.of_nat cap <=? maxcap)%N.

(** mmapTable(true, cap, existing, "<file>.dat"), hashMap.hpp:595-752: an existing file of that
    name is mapped, otherwise a file is created.  [None] is the thrown exception (file too large,
    hashMap.hpp:715-720; empty existing file, hashMap.hpp:653-660). *)
Definition mmap_table (file : N) (cap : nat) (existing maxcap : N) (fs : list (N * list pair_)) : option table :=
  match find_file file fs with
  | Some [] => None
  | Some c => Some (existing_table c file)
  | None => if can_alloc cap maxcap then Some (fresh_table cap existing file) else None
  end.

(** ** Commands *)

Inductive cmd : Type :=
| Load (t i : nat) (c : cell)               (* atomic load of a key or value word *)
| Cas (t i : nat) (c : cell) (e n : N)      (* compare_exchange_strong on a key or value word *)
| Flush (t i : nat)                         (* clflush of the line holding entry i *)
| Fence (t i v : nat)                       (* sfence completing the flush that saw version v *)
| Len (t : nat)                             (* read Table::len (immutable) *)
| LoadF (t : nat) (f : fld)                 (* load of a control-block counter *)
| AddF (t : nat) (f : fld) (d : N)          (* fetch_add on a control-block counter *)
| CasF (t : nat) (f : fld) (e n : N)        (* compare_exchange_strong on a control-block counter *)
| LoadNew (t : nat)                         (* load of chm.newTable *)
| CasNew (t : nat) (e : option nat) (n : nat)  (* compare_exchange_strong on chm.newTable *)
| LoadTop                                   (* load of ConcurrentHashMap::table *)
| CasTop (e n : nat)                        (* compare_exchange_strong on ConcurrentHashMap::table *)
| NextFile                                  (* fileNameCounter.fetch_add(1) *)
| Mmap (file : N) (cap : nat) (existing : N)   (* mmapTable(true, ...) *)
| Unmap (t : nat).                          (* munmapTable of a table that was never published *)

(** What each command returns. [Cas] returns success and the word it observed. *)
Definition res (c : cmd) : Type :=
  match c with
  | Load _ _ _ => N
  | Cas _ _ _ _ _ => bool * N
  | Flush _ _ => nat
  | Fence _ _ _ => unit
  | Len _ => nat
  | LoadF _ _ => N
  | AddF _ _ _ => N
  | CasF _ _ _ _ => bool * N
  | LoadNew _ => option nat
  | CasNew _ _ _ => bool * option nat
  | LoadTop => nat
  | CasTop _ _ => bool
  | NextFile => N
  | Mmap _ _ _ => option nat
  | Unmap _ => unit
  end%type.

Definition option_nat_eqb (a b : option nat) : bool :=
  match a, b with
  | None, None => true
  | Some x, Some y => Nat.eqb x y
  | _, _ => false
  end.

(** One atomic access.  Memory is sequentially consistent: every atomic in the code uses the
    default memory order.  [Flush] reports the version of the table it saw; the write-back is only
    guaranteed once the following [Fence] completes (persistence.hpp:72-73). *)
Definition exec (c : cmd) (s : state) : res c * state :=
  match c return res c * state with
  | Load t i c => (read_cell s t i c, s)
  | Cas t i c e n =>
      let w := read_cell s t i c in
      if (w =? e)%N then ((true, w), with_tab t (write_cell i c n) s) else ((false, w), s)
  | Flush t i => (match st_tabs s !! t with Some T => length (t_past T) | None => 0 end, s)
  | Fence t i v =>
      (tt, with_tab t (fun T => set_pers (alter (Nat.max v) (line_of s i) (t_pers T)) T) s)
  | Len t => (match st_tabs s !! t with Some T => t_len T | None => 0 end, s)
  | LoadF t f => (match st_tabs s !! t with Some T => get_fld f T | None => 0%N end, s)
  | AddF t f d =>
      (match st_tabs s !! t with Some T => get_fld f T | None => 0%N end,
       with_tab t (fun T => set_fld f (add64 (get_fld f T) d) T) s)
  | CasF t f e n =>
      let w := match st_tabs s !! t with Some T => get_fld f T | None => 0%N end in
      if (w =? e)%N then ((true, w), with_tab t (set_fld f n) s) else ((false, w), s)
  | LoadNew t => (match st_tabs s !! t with Some T => t_new T | None => None end, s)
  | CasNew t e n =>
      let w := match st_tabs s !! t with Some T => t_new T | None => None end in
      if option_nat_eqb w e then ((true, w), with_tab t (set_new (Some n)) s) else ((false, w), s)
  | LoadTop => (st_top s, s)
  | CasTop e n =>
      if Nat.eqb (st_top s) e
      then (true, mkState (st_tabs s) n (st_fctr s) (st_files s) (st_ppl s) (st_maxcap s))
      else (false, s)
  | NextFile => (st_fctr s, mkState (st_tabs s) (st_top s) (add64 (st_fctr s) 1) (st_files s) (st_ppl s) (st_maxcap s))
  | Mmap file cap existing =>
      match mmap_table file cap existing (st_maxcap s) (st_files s) with
      | Some T => (Some (length (st_tabs s)),
                   mkState (st_tabs s ++ [T]) (st_top s) (st_fctr s) (st_files s) (st_ppl s) (st_maxcap s))
      | None => (None, s)
      end
  | Unmap t => (tt, s)
  end.

(** ** Programs *)

Inductive err := OutOfFuel | AssertFail | NullDeref | OutOfBounds | AllocFail.

Inductive prog (A : Type) : Type :=
| Ret (a : A)
| Err (e : err)
| Vis (c : cmd) (k : res c -> prog A).
Arguments Ret {A} a.
Arguments Err {A} e.
Arguments Vis {A} c k.

Fixpoint bind {A B : Type} (p : prog A) (f : A -> prog B) : prog B :=
  match p with
  | Ret a => f a
  | Err e => Err e
  | Vis c k => Vis c (fun r => bind (k r) f)
  end.

Declare Scope prog_scope.
Delimit Scope prog_scope with prog.
Notation "x <-- p ;; q" := (bind p (fun x => q))
  (at level 60, p at next level, right associativity) : prog_scope.
Notation "p ;;; q" := (bind p (fun _ => q)) (at level 60, right associativity) : prog_scope.

(** Issue one command. *)
Definition do (c : cmd) : prog (res c) := Vis c Ret.

(** ** Sequential semantics *)

Inductive outcome (A : Type) : Type :=
| Ok (a : A) (s : state)
| Fail (e : err) (s : state).
Arguments Ok {A} a s.
Arguments Fail {A} e s.

Fixpoint run {A : Type} (p : prog A) (s : state) : outcome A :=
  match p with
  | Ret a => Ok a s
  | Err e => Fail e s
  | Vis c k => let (r, s') := exec c s in run (k r) s'
  end.
