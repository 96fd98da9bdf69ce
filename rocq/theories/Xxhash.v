(** The 64-bit xxHash of hashing/xxhash.hpp and its wrapper in hashing/hash.hpp. *)
From Coq Require Import Arith NArith Bool List.
From Verif Require Import Word.
Import ListNotations.
Local Open Scope N_scope.

(** Bytes are numbers below 256.  The code reads them in little-endian order on every machine (readLE). *)

(** uint64_t multiplication. *)
Definition mul64 (a b : N) : N := (a * b) mod two64.
(** uint64_t subtraction. *)
Definition sub64 (a b : N) : N := (a + (two64 - b mod two64)) mod two64.
(** xxhash.hpp:253 *)
Definition rotl64 (x r : N) : N := N.lor (shl64 x r) (shr64 x (64 - r)).

(** xxhash.hpp:762 *)
Definition PRIME1 : N := 11400714785074694791.
Definition PRIME2 : N := 14029467366897019727.
Definition PRIME3 : N := 1609587929392839161.
Definition PRIME4 : N := 9650029242287828579.
Definition PRIME5 : N := 2870177450012600261.

(** readLE of the bytes [l]. *)
Fixpoint readLE (l : list N) : N := match l with [] => 0 | b :: l' => b + 256 * readLE l' end.
(** The eight bytes from position [i] on. *)
Definition word_at (l : list N) (i : nat) : N := readLE (firstn 8 (skipn i l)).

(** xxhash.hpp:781-796 *)
Definition round (seed input : N) : N := mul64 (rotl64 (add64 seed (mul64 input PRIME2)) 31) PRIME1.
(** xxhash.hpp:798-804 *)
Definition mergeRound (acc val : N) : N := add64 (mul64 (N.lxor acc (round 0 val)) PRIME1) PRIME4.

(** The four accumulators. *)
Definition accs : Type := N * N * N * N.
(** xxhash.hpp:890-893, 1914-1917 *)
Definition acc0 (seed : N) : accs := (add64 (add64 seed PRIME1) PRIME2, add64 seed PRIME2, seed, sub64 seed PRIME1).
(** One turn of the loop over the input, xxhash.hpp:896-904. *)
Definition stripe (v : accs) (l : list N) : accs :=
  let '(v1, v2, v3, v4) := v in
  (round v1 (word_at l 0), round v2 (word_at l 8), round v3 (word_at l 16), round v4 (word_at l 24)).
(** [while (p <= limit)]: as long as there are 32 bytes; [n] bounds the number of turns. *)
Fixpoint stripes (n : nat) (v : accs) (l : list N) : accs * list N :=
  match n with
  | O => (v, l)
  | S n' => if (32 <=? length l)%nat then stripes n' (stripe v l) (skipn 32 l) else (v, l)
  end.
(** xxhash.hpp:906-911 *)
Definition converge (v : accs) : N :=
  let '(v1, v2, v3, v4) := v in
  let h := add64 (add64 (add64 (rotl64 v1 1) (rotl64 v2 7)) (rotl64 v3 12)) (rotl64 v4 18) in
  mergeRound (mergeRound (mergeRound (mergeRound h v1) v2) v3) v4.

(** endian_align_sub_ending, xxhash.hpp:842-851 *)
Fixpoint ending8 (h : N) (l : list N) : N * list N :=
  match l with
  | b0 :: b1 :: b2 :: b3 :: b4 :: b5 :: b6 :: b7 :: l' =>
      ending8 (add64 (mul64 (rotl64 (N.lxor h (round 0 (readLE [b0; b1; b2; b3; b4; b5; b6; b7]))) 27) PRIME1) PRIME4) l'
  | _ => (h, l)
  end.
(** xxhash.hpp:853-858 *)
Definition ending4 (h : N) (l : list N) : N * list N :=
  match l with
  | b0 :: b1 :: b2 :: b3 :: l' => (add64 (mul64 (rotl64 (N.lxor h (mul64 (readLE [b0; b1; b2; b3]) PRIME1)) 23) PRIME2) PRIME3, l')
  | _ => (h, l)
  end.
(** xxhash.hpp:860-865 *)
Definition ending1 (h : N) (l : list N) : N :=
  fold_left (fun h b => mul64 (rotl64 (N.lxor h (mul64 b PRIME5)) 11) PRIME1) l h.
(** xxhash.hpp:867-871 *)
Definition avalanche (h : N) : N :=
  let h := N.lxor h (shr64 h 33) in
  let h := mul64 h PRIME2 in
  let h := N.lxor h (shr64 h 29) in
  let h := mul64 h PRIME3 in
  N.lxor h (shr64 h 32).
(** xxhash.hpp:814-874 *)
Definition ending (h : N) (l : list N) : N :=
  let (h, l) := ending8 h l in
  let (h, l) := ending4 h l in
  avalanche (ending1 h l).

(** endian_align<64>, xxhash.hpp:876-920; xxhash<64> (1713-1718) calls it. *)
Definition xxhash64 (input : list N) (seed : N) : N :=
  let (h, l) :=
    if (32 <=? length input)%nat
    then let (v, l) := stripes (length input) (acc0 seed) input in (converge v, l)
    else (add64 seed PRIME5, input) in
  ending (add64 h (N.of_nat (length input))) l.

(** The bytes of a 64-bit object, on a little-endian machine. *)
Fixpoint bytes_of (n : nat) (x : N) : list N := match n with O => [] | S n' => x mod 256 :: bytes_of n' (x / 256) end.
(** hash.hpp:11-17: the hash of a 64-bit key, an array of one element. *)
Definition xxhash_key (k : N) : N := xxhash64 (bytes_of 8 k) 0.

(** ** The streaming interface, xxhash.hpp:1823-1960 *)
Record hstate := mkH { h_total : N; h_acc : accs; h_mem : list N; h_memsize : nat }.
(** xxhash.hpp:1911-1918 *)
Definition h_new (seed : N) : hstate := mkH 0 (acc0 seed) (repeat 0 32) 0.
(** memcpy of [src] to [mem + off]. *)
Definition memcpy (mem : list N) (off : nat) (src : list N) : list N :=
  firstn off mem ++ src ++ skipn (off + length src) mem.
(** update_impl, xxhash.hpp:1831-1884 *)
Definition h_update (s : hstate) (input : list N) : hstate :=
  let total := add64 (h_total s) (N.of_nat (length input)) in
  if (h_memsize s + length input <? 32)%nat
  then mkH total (h_acc s) (memcpy (h_mem s) (h_memsize s) input) (h_memsize s + length input)
  else
    let '(acc, mem, msize, p) :=
      if (0 <? h_memsize s)%nat then
        let take := (32 - h_memsize s)%nat in
        let mem := memcpy (h_mem s) (h_memsize s) (firstn take input) in
        (stripe (h_acc s) mem, mem, 0%nat, skipn take input)
      else (h_acc s, h_mem s, h_memsize s, input) in
    let (acc, p) := stripes (length p) acc p in
    if (0 <? length p)%nat then mkH total acc (memcpy mem 0 p) (length p) else mkH total acc mem msize.
(** digest_impl, xxhash.hpp:1886-1908 *)
Definition h_digest (s : hstate) : N :=
  let h := if 32 <=? h_total s then converge (h_acc s) else let '(_, _, v3, _) := h_acc s in add64 v3 PRIME5 in
  ending (add64 h (h_total s)) (firstn (h_memsize s) (h_mem s)).
