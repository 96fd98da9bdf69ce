(** The containers that wrap libpmemobj++ maps: containers/pmemMap.hpp and containers/levelMap.hpp.  The wrappers are modelled
    line by line.  Of the library maps only what their calls return and the arrays the wrapper must size correctly are modelled:
    one call on a map of keys to values, as documented in concurrent_hash_map.hpp (insert 2620-2634, erase 2805-2820, find
    2508-2525, size 2380-2388) and as coded in clevel_hash.hpp (ret 177-208, generic_insert 984-1096, erase 1100-1213, search
    545-605), and that allocation does not fail.  [onefileMap.hpp] is in OneFile.v. *)
From Coq Require Import NArith Bool List.
From stdpp Require Import base gmap.
From Verif Require Import Word Container.
Import ListNotations.
Local Open Scope N_scope.

(** ** pmemMap.hpp *)

(** A pool file: it may be missing, and its root may not yet point to a map (line 24). *)
Inductive pfile := PMissing | PFile (root : option (gmap N N)).
(** A container: the handle of its pool is null after a failed open (110-114), otherwise it holds a map. *)
Inductive pcont := PNull | PMap (m : gmap N N).

(** 86-134, the constructor: [access(path, F_OK) != 0] means that the file is missing; the test "could not allocate" never
    succeeds, since make_persistent throws. *)
Definition pm_new (reconstruct : bool) (f : pfile) : pcont :=
  match f with
  | PMissing => if reconstruct then PNull else PMap ∅
  | PFile None => PMap ∅
  | PFile (Some m) => PMap m
  end.

(** The outcome of a call: a result, the exception pool_error "Invalid pool handle" (pool.hpp:651-658), or an access to
    persistent memory outside of the array it belongs to. *)
Inductive wres (S : Type) := WOk (r : cres) (s : S) | WThrow | WBounds.
Arguments WOk {S} r s.
Arguments WThrow {S}.
Arguments WBounds {S}.

(** 33-36 insert, which keeps the value of a key that is present *)
Definition lib_insert (m : gmap N N) (k v : N) : bool * gmap N N :=
  match m !! k with Some _ => (false, m) | None => (true, <[k := v]> m) end.
Definition b2n (b : bool) : N := if b then 1 else 0.

(** 33-66; increment (68-71) inserts the key and returns whether it was new, the code behind the return is dead. *)
Definition pm_step (c : pcont) (o : cop) : wres pcont :=
  match c with
  | PNull => WThrow
  | PMap m =>
    match o with
    | CInsert el => let '(b, m') := lib_insert m el el in WOk (CBool b) (PMap m')
    | CErase el => WOk (CBool (bool_decide (is_Some (m !! el)))) (PMap (delete el m))
    | CContains el => WOk (CBool (bool_decide (is_Some (m !! el)))) c
    | CGet el => WOk (CNum (match m !! el with Some v => v | None => 0 end)) c
    | CCount => WOk (CNum (N.of_nat (base.size m))) c
    | CIncrement el => let '(b, m') := lib_insert m el el in WOk (CNum (b2n b)) (PMap m')
    end
  end.

(** ** levelMap.hpp *)

(** The map, its number of slots, and the length of the arrays with one temporary entry per thread
    (clevel_hash.hpp:450-494; they are allocated by set_thread_num). *)
Record clcont := mkCl { cl_map : gmap N N; cl_slots : N; cl_threads : N }.

(** clevel_hash.hpp:81,128,295-306: a level of 2^14 and one of 2^13 buckets of 8 slots. *)
Definition cl_initial : N := (2 ^ 14 + 2 ^ 13) * 8.

(** levelMap.hpp:99-124, the constructor; a new map is told that there is one thread (115).  Opening a missing file throws. *)
Definition cl_new (reconstruct : bool) (f : option clcont) : option clcont :=
  match f with
  | None => if reconstruct then None else Some (mkCl ∅ cl_initial 1)
  | Some c => Some c
  end.

(** 41-97, executed by thread [t].  The insert of the library writes to [tmp_entry[t]] first (clevel_hash.hpp:995-997, the
    index is not checked); [grow] is the number of slots after the insert, which may expand the map.  The library's erase does
    not use its thread number.  get (75-85) returns the key itself, count (87-95) the number of slots, increment (97-101)
    inserts. *)
Definition cl_insert (grow : clcont -> N -> N) (t : N) (c : clcont) (el : N) : wres clcont :=
  if t <? cl_threads c then
    let '(b, m') := lib_insert (cl_map c) el el in
    WOk (CBool b) (mkCl m' (if b then grow c el else cl_slots c) (cl_threads c))
  else WBounds.
Definition cl_step (grow : clcont -> N -> N) (t : N) (c : clcont) (o : cop) : wres clcont :=
  match o with
  | CInsert el => cl_insert grow t c el
  | CErase el => WOk (CBool (bool_decide (is_Some (cl_map c !! el)))) (mkCl (delete el (cl_map c)) (cl_slots c) (cl_threads c))
  | CContains el => WOk (CBool (bool_decide (is_Some (cl_map c !! el)))) c
  | CGet el => WOk (CNum (if bool_decide (is_Some (cl_map c !! el)) then el else 0)) c
  | CCount => WOk (CNum (cl_slots c)) c
  | CIncrement el =>
    match cl_insert grow t c el with
    | WOk (CBool b) c' => WOk (CNum (b2n b)) c'
    | r => r
    end
  end.

(** ** Call sequences *)

Fixpoint wrun {S T} (step : S -> T -> wres S) (s : S) (os : list T) : option (list cres * S) :=
  match os with
  | [] => Some ([], s)
  | o :: os' =>
    match step s o with
    | WOk r s' => match wrun step s' os' with Some (rs, s'') => Some (r :: rs, s'') | None => None end
    | _ => None
    end
  end.
Definition pm_run (c : pcont) (os : list cop) : option (list cres * pcont) := wrun pm_step c os.
(** Calls with the number of the thread that makes them, one after another. *)
Definition cl_run (grow : clcont -> N -> N) (c : clcont) (os : list (N * cop)) : option (list cres * clcont) :=
  wrun (fun s x => cl_step grow (fst x) s (snd x)) c os.

(** The reference container. *)
Fixpoint stl_run (m : gmap N N) (os : list cop) : list cres :=
  match os with
  | [] => []
  | o :: os' => let '(m', r) := stl_step m o in r :: stl_run m' os'
  end.
