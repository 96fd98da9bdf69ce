(** The dictionary specification the map is compared with.  Nothing here mentions tables, probing,
    marker bits or migration. *)
From Coq Require Import NArith Bool List.
From stdpp Require Import base gmap.
From Verif Require Import Word Prog HashMap.
Import ListNotations.

(** The word get returns for an absent key (the public constant the callers compare with). *)
Definition NOTFOUND : N := VINITIAL.
Definition lookup_result (m : gmap N N) (k : N) : N := default NOTFOUND (m !! k).

(** Counts are stored shifted by three bits; the next count after the word [v]. *)
Definition next_count (prev : option N) : N :=
  match prev with None => 8%N | Some v => ((v / 8 + 1) * 8) mod 2 ^ 64 end%N.

(** [dstep m o r m']: the call [o] on the dictionary [m] may return [r] and leave [m'].
    - remove(key) returns false only for the stored word 0 (the code converts the previous value to
      bool); see C07;
    - increment either stores the next count (a result that is a reserved word counts as absent), or
      the reserved word its caller passes as dummy argument; see C09;
    - size is specified separately; see C06. *)
Definition dstep (m : gmap N N) (o : op) (r : rsp) (m' : gmap N N) : Prop :=
  match o with
  | OGet k => r = RVal (lookup_result m k) /\ m' = m
  | OContains k => r = RBool (bool_decide (is_Some (m !! k))) /\ m' = m
  | OPut k v => r = RVal (lookup_result m k) /\ m' = <[k := v]> m
  | OPutIfAbsent k v => r = RVal (lookup_result m k) /\
      m' = match m !! k with None => <[k := v]> m | Some _ => m end
  | ORemove k => r = RBool (bool_decide (m !! k <> Some 0%N)) /\ m' = delete k m
  | ORemoveVal k v => r = RBool (bool_decide (m !! k = Some v)) /\
      m' = if decide (m !! k = Some v) then delete k m else m
  | OReplace k old new => r = RBool (bool_decide (m !! k = Some old)) /\
      m' = if decide (m !! k = Some old) then <[k := new]> m else m
  | OIncrement k => r = RVal (lookup_result m k) /\
      (m' = (if decide (next_count (m !! k) = VINITIAL \/ next_count (m !! k) = VTOMBSTONE)
             then delete k m else <[k := next_count (m !! k)]> m) \/
       m' = <[k := INCREMENT_ARG]> m)
  | OSize => (exists x, r = RVal x) /\ m' = m
  end.

Definition legal_op (o : op) : Prop :=
  match o with
  | OGet k | OContains k | ORemove k | OIncrement k => legal_key k
  | OPut k v | OPutIfAbsent k v | ORemoveVal k v => legal_key k /\ legal_val v
  | OReplace k old new => legal_key k /\ legal_val old /\ legal_val new
  | OSize => True
  end.

Definition op_key (o : op) : option N :=
  match o with
  | OGet k | OContains k | ORemove k | OIncrement k | OPut k _ | OPutIfAbsent k _
  | ORemoveVal k _ | OReplace k _ _ => Some k
  | OSize => None
  end.

Inductive dsteps : gmap N N -> list op -> list rsp -> gmap N N -> Prop :=
| dsteps_nil m : dsteps m [] [] m
| dsteps_cons m o r m1 os rs m2 : dstep m o r m1 -> dsteps m1 os rs m2 -> dsteps m (o :: os) (r :: rs) m2.

(** A new map: a power-of-two capacity of at least 8 (the constructor's assertion asks for an even
    capacity of at least 8, hashMap.hpp:487-488, and masking needs a power of two), at most [maxcap], the
    size limit of the device. *)
Definition good_cap (cap : nat) (maxcap : N) : Prop :=
  (exists e, cap = 2 ^ e /\ 3 <= e) /\ can_alloc cap maxcap = true.

(** [reach C s0 os rs s]: one thread issues the calls [os] in the state [s0], they all return, with the
    results [rs], and leave the state [s].  Every call may have its own fuel. *)
Inductive reach (C : cfg) (s0 : state) : list op -> list rsp -> state -> Prop :=
| reach_nil : reach C s0 [] [] s0
| reach_snoc os rs s n o r s' : reach C s0 os rs s -> run (op_prog C n o) s = Ok r s' ->
    reach C s0 (os ++ [o]) (rs ++ [r]) s'.

(** No migration is in progress: the current table has no successor. *)
Definition quiet (s : state) : Prop :=
  match st_tabs s !! st_top s with Some T => t_new T = None | None => False end.

(** The same, where moreover no call left a migration in progress. *)
Inductive reach_quiet (C : cfg) (s0 : state) : list op -> list rsp -> state -> Prop :=
| reachq_nil : quiet s0 -> reach_quiet C s0 [] [] s0
| reachq_snoc os rs s n o r s' : reach_quiet C s0 os rs s -> run (op_prog C n o) s = Ok r s' -> quiet s' ->
    reach_quiet C s0 (os ++ [o]) (rs ++ [r]) s'.

(** Two words are the same except for the unpersisted mark. *)
Definition same_word (w w' : N) : Prop := clearMark w DirtyFlag = clearMark w' DirtyFlag.
