(** Vocabulary for the statements about the encodings of Codec.v. *)
From Coq Require Import NArith Bool List.
From Verif Require Import Word Codec.
Import ListNotations.
Local Open Scope N_scope.

(** The reserved words (hashMap.hpp:1350-1363) and the marker bits. *)
Definition reserved_vals : list N := [VINITIAL; VTOMBSTONE; TOMBPRIME; MATCH_ANY; NO_MATCH_OLD].
Definition reserved_keys : list N := [KINITIAL; KTOMBSTONE].
Definition is_flag (f : N) : Prop := f = DirtyFlag \/ f = MigrationFlag.

(** A word with the unpersisted bit set if [d] and the migration bit set if [m]. *)
Definition marked (w : N) (d m : bool) : N :=
  let w := if d then setMark w DirtyFlag else w in if m then setMark w MigrationFlag else w.

(** The sequence number and thread number fit their bit fields. *)
Definition desc_fits (P : N) (d : descref) : Prop := d_seq d < 2 ^ seqSize P /\ d_tid d < 2 ^ tidSize P.

(** The threads 0 .. n-1, and sums. *)
Definition threads (n : N) : list N := map N.of_nat (seq 0 (N.to_nat n)).
Definition sumN (l : list N) : N := fold_right N.add 0 l.

(** The elements inserted by a list of benchmark operations, in order. *)
Definition inserted (o : bop) : list N := match o with BInsert e => [e] | BErase _ => [] end.
Definition inserts (l : list bop) : list N := flat_map inserted l.
