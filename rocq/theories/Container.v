(** The benchmark containers: containers/ucfMap.hpp, which wraps the map, and the reference containers/stlMap.hpp. *)
From Coq Require Import NArith Bool List.
From stdpp Require Import base gmap.
From Verif Require Import Word Prog HashMap Codec.
Import ListNotations.

Section Ucf.
Context (C : cfg).

(** ucfMap.hpp:13-21 insert *)
Definition c_insert (n : nat) (el : N) : prog bool :=
  x <-- put C n (encode_el el) (encode_el el);; Ret (x =? encode_el el)%N.
(** 23-26 erase *)
Definition c_erase (n : nat) (el : N) : prog bool := remove C n (encode_el el).
(** 28-31 contains *)
Definition c_contains (n : nat) (el : N) : prog bool := containsKey C n (encode_el el).
(** 33-36 get *)
Definition c_get (n : nat) (el : N) : prog N := x <-- get C n (encode_el el);; Ret (decode_el x).
(** 38-41 count *)
Definition c_count : prog N := size.
(** 43-46 increment *)
Definition c_increment (n : nat) (el : N) : prog N :=
  update C n (encode_el el) (shl64 (N.shiftl 1 61 - 3) BITS_MARKED) (increment C).

(** The container interface (containers/container.hpp:7-27; isConsistent is constant). *)
Inductive cop := CInsert (el : N) | CErase (el : N) | CContains (el : N) | CGet (el : N) | CCount | CIncrement (el : N).
Inductive cres := CBool (b : bool) | CNum (x : N).

Definition cop_prog (n : nat) (o : cop) : prog cres :=
  match o with
  | CInsert el => r <-- c_insert n el;; Ret (CBool r)
  | CErase el => r <-- c_erase n el;; Ret (CBool r)
  | CContains el => r <-- c_contains n el;; Ret (CBool r)
  | CGet el => r <-- c_get n el;; Ret (CNum r)
  | CCount => r <-- c_count;; Ret (CNum r)
  | CIncrement el => r <-- c_increment n el;; Ret (CNum r)
  end.

Fixpoint cops_prog (n : nat) (os : list cop) : prog (list cres) :=
  match os with
  | [] => Ret []
  | o :: os' => r <-- cop_prog n o;; rs <-- cops_prog n os';; Ret (r :: rs)
  end.
End Ucf.

(** The reference, stlMap.hpp:22-72: one call on the std::map [m]. *)
Definition stl_step (m : gmap N N) (o : cop) : gmap N N * cres :=
  match o with
  | CInsert el => match m !! el with Some _ => (m, CBool false) | None => (<[el := el]> m, CBool true) end
  | CErase el => (delete el m, CBool (bool_decide (is_Some (m !! el))))
  | CContains el => (m, CBool (bool_decide (is_Some (m !! el))))
  | CGet el => (m, CNum (default 0%N (m !! el)))
  | CCount => (m, CNum (N.of_nat (base.size m)))
  | CIncrement el => let t := ((default 0 (m !! el) + 1) mod two64)%N in (<[el := t]> m, CNum t)
  end.
