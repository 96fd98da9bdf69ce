(** The container that wraps OneFile's hash map: containers/onefileMap.hpp.  The library is not in the repository.  The wrapper is
    modelled line by line; of the library it is assumed that add, remove, contains and size act on a map of keys to values as
    their names say (add stores the key as its value), that innerGet assigns the value of a key that is present and leaves its
    reference parameter alone otherwise, and that allocation does not fail. *)
From Coq Require Import NArith Bool List.
From stdpp Require Import base gmap.
From Verif Require Import Word Container Wrappers.
Import ListNotations.
Local Open Scope N_scope.

(** onefileMap.hpp:74-87, the constructor, which ignores [reconstruct]; [1 << opt.capacity] is a shift of an int (line 78),
    which is undefined unless the capacity is less than 32 (C++17 allows 2^31, which becomes negative and, converted to
    size_t, more memory than there is: excluded too). *)
Definition of_new (capacity : N) : option (gmap N N) := if capacity <? 31 then Some ∅ else None.

(** The outcome of a call; [OIndet] is the use of a variable that was never assigned. *)
Inductive ores := OOk (r : cres) (m : gmap N N) | OIndet.

(** onefileMap.hpp:27-71.  get (42-47) returns its uninitialised variable [v] if the key is absent.  increment (54-72) returns
    insert(el), a bool converted to a number; the code behind the return is dead. *)
Definition of_step (m : gmap N N) (o : cop) : ores :=
  match o with
  | CInsert el => let '(b, m') := lib_insert m el el in OOk (CBool b) m'
  | CErase el => OOk (CBool (bool_decide (is_Some (m !! el)))) (delete el m)
  | CContains el => OOk (CBool (bool_decide (is_Some (m !! el)))) m
  | CGet el => match m !! el with Some v => OOk (CNum v) m | None => OIndet end
  | CCount => OOk (CNum (N.of_nat (base.size m))) m
  | CIncrement el => let '(b, m') := lib_insert m el el in OOk (CNum (b2n b)) m'
  end.

(** A sequence of calls: the results, and whether an unassigned variable was used in the call after them. *)
Fixpoint of_run (m : gmap N N) (os : list cop) : list cres * bool :=
  match os with
  | [] => ([], false)
  | o :: os' =>
    match of_step m o with
    | OOk r m' => let '(rs, b) := of_run m' os' in (r :: rs, b)
    | OIndet => ([], true)
    end
  end.
