(** The 64-bit xxHash. *)
From Coq Require Import NArith List.
From Verif Require Import Word Xxhash XxhashThm.
Import ListNotations.
Local Open Scope N_scope.

(** ** C63: the xxhash wrapper maps distinct 64-bit keys to distinct 64-bit hashes *)
Theorem C63_no_collisions : forall k k', k < 2 ^ 64 -> k' < 2 ^ 64 -> xxhash_key k = xxhash_key k' -> k = k'.
Proof. exact xxhash_key_inj. Qed.
Print Assumptions C63_no_collisions.
Theorem C63_range : forall k, k < 2 ^ 64 -> xxhash_key k < 2 ^ 64.
Proof. exact xxhash_key_lt. Qed.
Print Assumptions C63_range.
Example C63_example : xxhash_key 24 = 4214145611094629054 /\ xxhash_key 32 = 10768723726475110847.
Proof. vm_compute. repeat split. Qed.

(** The published test values of XXH64 for the empty input, "a", "abc", and for
    "Nobody inspects the spammish repetition", which has more than 32 bytes. *)
Example C63_example_vectors : xxhash64 [] 0 = 0xef46db3751d8e999 /\ xxhash64 [97] 0 = 0xd24ec4f1a98c6e5b /\
  xxhash64 [97; 98; 99] 0 = 0x44bc2cf5ad770999 /\
  xxhash64 [78; 111; 98; 111; 100; 121; 32; 105; 110; 115; 112; 101; 99; 116; 115; 32; 116; 104; 101; 32; 115; 112; 97; 109; 109; 105; 115; 104; 32; 114; 101; 112; 101; 116; 105; 116; 105; 111; 110] 0 = 0xfbcea83c8a378bf1.
Proof. vm_compute. repeat split. Qed.

(** ** C64: hashing piecewise is hashing at once *)

(** The size of the input is a size_t in both interfaces. *)
Theorem C64_streaming : forall seed chunks, N.of_nat (length (concat chunks)) < 2 ^ 64 ->
  h_digest (fold_left h_update chunks (h_new seed)) = xxhash64 (concat chunks) seed.
Proof. exact streaming. Qed.
Print Assumptions C64_streaming.
(** Pieces that fill the buffer exactly, overfill it, and none at all. *)
Example C64_example : let chunks := [repeat 1 20; []; repeat 2 12; repeat 3 40; repeat 4 7] in
  h_digest (fold_left h_update chunks (h_new 5)) = 886430804560745875 /\ length (concat chunks) = 79%nat.
Proof. vm_compute. repeat split. Qed.
