(** 64-bit words, marker bits and reserved values.

    Models include/marking.hpp and the sentinel definitions of
    containers/cliffMap/hashMap.hpp.  Words are elements of [N]; a C++
    [size_t]/[uintptr_t] operation that can overflow is written with an explicit
    reduction modulo 2^64. *)
From Coq Require Import NArith Bool.
Local Open Scope N_scope.

(** 2^64: the modulus of [size_t] / [uintptr_t] arithmetic. *)
Definition two64 : N := 2 ^ 64.

(** [x << n] on size_t. *)
Definition shl64 (x n : N) : N := (N.shiftl x n) mod two64.
(** [x >> n] on size_t. *)
Definition shr64 (x n : N) : N := N.shiftr x n.
(** [x + y] on size_t. *)
Definition add64 (x y : N) : N := (x + y) mod two64.
(** The size_t value of the C++ expression [-1], as passed to [fetch_add(-1)]. *)
Definition minus_one64 : N := two64 - 1.

(** include/marking.hpp:7 *)
Definition DirtyFlag : N := 1.
(** include/marking.hpp:16 *)
Definition MigrationFlag : N := 2.
(** include/marking.hpp:18: [~(DirtyFlag | MigrationFlag)]. *)
Definition AddressMask : N := N.lxor (two64 - 1) (N.lor DirtyFlag MigrationFlag).

(** include/marking.hpp:22-25 *)
Definition setMark (p flag : N) : N := N.lor p flag.
(** include/marking.hpp:26-29: [p & ~flag]. *)
Definition clearMark (p flag : N) : N := N.ldiff p flag.
(** include/marking.hpp:30-33: the C++ function returns [p & flag] as a pointer and every
    caller uses it as a truth value. *)
Definition isMarked (p flag : N) : bool := negb (N.land p flag =? 0).

(** hashMap.hpp:91 *)
Definition BITS_MARKED : N := 3.

(** hashMap.hpp:1350 *)
Definition VINITIAL : N := shl64 (N.shiftl 1 62 - 1) BITS_MARKED.
(** hashMap.hpp:1352 *)
Definition VTOMBSTONE : N := shl64 (N.shiftl 1 62 - 2) BITS_MARKED.
(** hashMap.hpp:1354 *)
Definition TOMBPRIME : N := setMark VTOMBSTONE MigrationFlag.
(** hashMap.hpp:1356 *)
Definition MATCH_ANY : N := shl64 (N.shiftl 1 62 - 3) BITS_MARKED.
(** hashMap.hpp:1358 *)
Definition NO_MATCH_OLD : N := shl64 (N.shiftl 1 62 - 4) BITS_MARKED.
(** hashMap.hpp:1361 *)
Definition KINITIAL : N := shl64 (N.shiftl 1 62 - 1) BITS_MARKED.
(** hashMap.hpp:1363 *)
Definition KTOMBSTONE : N := shl64 (N.shiftl 1 62 - 2) BITS_MARKED.

(** hashMap.hpp:1311-1314 *)
Definition isKeyReserved (k : N) : bool := (k =? KINITIAL) || (k =? KTOMBSTONE).
(** hashMap.hpp:1317-1320 *)
Definition isValueReserved (v : N) : bool :=
  (v =? VINITIAL) || (v =? VTOMBSTONE) || (v =? TOMBPRIME) || (v =? MATCH_ANY) || (v =? NO_MATCH_OLD).

(** Client words.  include/define.hpp:17-19 states the requirement on key and value types:
    64 bits, the two least significant bits reserved, the sentinels reserved. *)
Definition legal_key (k : N) : Prop :=
  k < two64 /\ isMarked k DirtyFlag = false /\ isMarked k MigrationFlag = false /\ isKeyReserved k = false.
Definition legal_val (v : N) : Prop :=
  v < two64 /\ isMarked v DirtyFlag = false /\ isMarked v MigrationFlag = false /\ isValueReserved v = false.

(** Boolean versions, for executable checks. *)
Definition legal_keyb (k : N) : bool :=
  (k <? two64) && negb (isMarked k DirtyFlag) && negb (isMarked k MigrationFlag) && negb (isKeyReserved k).
Definition legal_valb (v : N) : bool :=
  (v <? two64) && negb (isMarked v DirtyFlag) && negb (isMarked v MigrationFlag) && negb (isValueReserved v).

(** [(U)((uintptr_t)word & ~DirtyFlag)], include/persistence.hpp:74, 89. *)
Definition clean (w : N) : N := clearMark w DirtyFlag.
(** [(U)((uintptr_t)newVal | DirtyFlag)], include/persistence.hpp:101. *)
Definition dirty (w : N) : N := setMark w DirtyFlag.

(** The conversion of a 64-bit hash to the parameter [int fullHash] of getImpl
    (hashMap.hpp:960) and back to size_t in [fullHash & (len - 1)] (hashMap.hpp:966):
    keep 32 bits, then sign-extend to 64 bits. *)
Definition sext32 (h : N) : N :=
  let lo := h mod 2 ^ 32 in
  if lo <? 2 ^ 31 then lo else two64 - 2 ^ 32 + lo.
