(** Properties of the encodings: marker bits, container elements, home positions, range persistence,
    descriptor references, work distribution. *)
From Coq Require Import Arith NArith Bool List Lia.
From Verif Require Import Word Codec CodecSpec CodecThm CodecWitness.
Import ListNotations.
Local Open Scope N_scope.

(** ** C31: marker bits and reserved values never collide with client data *)

Theorem C31_marks_lossless : forall w f g, is_flag f -> is_flag g -> f <> g ->
  isMarked (setMark w f) f = true /\ isMarked (clearMark w f) f = false /\
  (isMarked w f = false -> clearMark (setMark w f) f = w) /\
  isMarked (setMark w f) g = isMarked w g /\ isMarked (clearMark w f) g = isMarked w g.
Proof. exact c31_marks. Qed.
Print Assumptions C31_marks_lossless.

Theorem C31_reserved_distinct : NoDup reserved_vals /\ NoDup reserved_keys /\
  Forall (fun r => r < 2 ^ 64 /\ isMarked r DirtyFlag = false) (reserved_vals ++ reserved_keys).
Proof. exact c31_reserved. Qed.
Print Assumptions C31_reserved_distinct.

(** No client word, however marked, is a reserved word, however marked. *)
Theorem C31_client_words : forall w d m d' m',
  (legal_val w -> forall r, In r reserved_vals -> marked w d m <> marked r d' m') /\
  (legal_key w -> forall r, In r reserved_keys -> marked w d m <> marked r d' m').
Proof. exact c31_client. Qed.
Print Assumptions C31_client_words.

(** The address mask removes exactly the two marker bits. *)
Theorem C31_address_mask : forall w, w < 2 ^ 64 ->
  N.land w AddressMask = clearMark (clearMark w DirtyFlag) MigrationFlag.
Proof. exact c31_mask. Qed.
Print Assumptions C31_address_mask.

Example C31_example : is_flag DirtyFlag /\ is_flag MigrationFlag /\ DirtyFlag <> MigrationFlag /\
  legal_val 80 /\ legal_key 80 /\ marked 80 true true = 83 /\ clearMark (setMark 80 MigrationFlag) MigrationFlag = 80.
Proof. exact c31_example. Qed.

(** ** C32: distinct container elements are stored under distinct keys *)

(** For elements below 2^61; the largest four of them are encoded as reserved words.  What is missing: larger
    elements, for which it is false ([C32_refuted]). *)
Theorem C32_encoding_partial : forall el, el < 2 ^ 61 ->
  decode_el (encode_el el) = el /\
  (forall el', el' < 2 ^ 61 -> encode_el el = encode_el el' -> el = el') /\
  (el + 4 < 2 ^ 61 -> legal_key (encode_el el) /\ legal_val (encode_el el)).
Proof. exact c32_encoding. Qed.
Print Assumptions C32_encoding_partial.

Example C32_example : 41 + 4 < 2 ^ 61 /\ encode_el 41 = 328.
Proof. split; vm_compute; reflexivity. Qed.

(** Elements that differ by 2^61 share a key, and the largest small ones are reserved words: storing the element
    2^61 - 3 stores the word that means "any value". *)
Theorem C32_refuted :
  (exists el el', el < 2 ^ 64 /\ el' < 2 ^ 64 /\ el <> el' /\ encode_el el = encode_el el') /\
  (exists el, el < 2 ^ 64 /\ decode_el (encode_el el) <> el) /\
  encode_el (2 ^ 61 - 1) = KINITIAL /\ encode_el (2 ^ 61 - 2) = KTOMBSTONE /\
  encode_el (2 ^ 61 - 3) = MATCH_ANY /\ encode_el (2 ^ 61 - 4) = NO_MATCH_OLD.
Proof. exact c32_refuted. Qed.
Print Assumptions C32_refuted.

(** ** C35: readers and writers use the same home position *)

(** For capacities up to 2^32.  What is missing: larger ones, for which it is false. *)
Theorem C35_home_partial : forall h e, h < 2 ^ 64 -> (e <= 32)%nat -> get_home h (Nat.pow 2 e) = put_home h (Nat.pow 2 e).
Proof. exact c35_home. Qed.
Print Assumptions C35_home_partial.

(** A hash that does not survive the conversion to int unchanged, in a table of 16 entries. *)
Example C35_example : let h := 12297829382473034411 in h < 2 ^ 64 /\ sext32 h <> h /\ put_home h (Nat.pow 2 4) = 11%nat.
Proof. cbv zeta. split; [reflexivity|]. split; [vm_compute; discriminate|reflexivity]. Qed.

(** In every larger table some hash has two home positions. *)
Theorem C35_refuted : forall e, (33 <= e <= 64)%nat ->
  exists h, h < 2 ^ 64 /\ get_home h (Nat.pow 2 e) <> put_home h (Nat.pow 2 e).
Proof. exact c35_refuted. Qed.
Print Assumptions C35_refuted.

(** ** C36: range persistence flushes exactly the covering cache lines *)

(** For non-empty ranges that end before the last line of the address space.  What is missing: the other
    ranges, for which it is false ([C36_refuted]). *)
Theorem C36_persist_partial : forall addr len, 0 < len -> addr + len <= 2 ^ 64 - 64 ->
  exists lines n0, (forall n, (n0 <= n)%nat ->
      PERSIST n addr len = Some (map EvFlush lines ++ [EvFence]) /\
      PERSIST_FLUSH_ONLY n addr len = Some (map EvFlush lines)) /\
    NoDup lines /\
    (forall l, In l lines <-> l mod 64 = 0 /\ exists a, addr <= a < addr + len /\ l <= a < l + 64).
Proof. exact c36_persist. Qed.
Print Assumptions C36_persist_partial.

Example C36_example : PERSIST 10 100 130 = Some [EvFlush 64; EvFlush 128; EvFlush 192; EvFence].
Proof. reflexivity. Qed.

(** A range that touches the last line of the address space is flushed forever; an empty range that is not
    aligned flushes a line. *)
Theorem C36_refuted :
  (forall addr len, 0 < len -> 2 ^ 64 - 64 < addr + len < 2 ^ 64 -> forall n, PERSIST n addr len = None) /\
  PERSIST 10 100 0 = Some [EvFlush 64; EvFence].
Proof. exact c36_refuted. Qed.
Print Assumptions C36_refuted.

(** ** C37: descriptor references survive encoding into a word *)

(** For a power-of-two number of threads up to 2^16 (the thread number is an unsigned short). *)
Theorem C37_descref : forall p d, p <= 16 -> desc_fits (2 ^ p) d ->
  desc_encode (2 ^ p) d < 2 ^ 64 /\ desc_decode (2 ^ p) (desc_encode (2 ^ p) d) = d /\
  (forall d', desc_fits (2 ^ p) d' -> desc_encode (2 ^ p) d = desc_encode (2 ^ p) d' -> d = d') /\
  negb (N.land (desc_encode (2 ^ p) d) DirtyFlag =? 0) = d_isDirty d /\
  negb (N.land (desc_encode (2 ^ p) d) PMwCASFlag =? 0) = d_isKCAS d /\
  negb (N.land (desc_encode (2 ^ p) d) RDCSSFlag =? 0) = d_isRDCSS d.
Proof. exact c37_descref. Qed.
Print Assumptions C37_descref.

(** Every thread number fits, and every word is the encoding of exactly one reference. *)
Theorem C37_descref_onto : forall p, p <= 16 ->
  (forall d, d_tid d < 2 ^ p -> d_seq d < 2 ^ seqSize (2 ^ p) -> desc_fits (2 ^ p) d) /\
  (forall w, w < 2 ^ 64 -> desc_fits (2 ^ p) (desc_decode (2 ^ p) w) /\ desc_encode (2 ^ p) (desc_decode (2 ^ p) w) = w).
Proof. exact c37_onto. Qed.
Print Assumptions C37_descref_onto.

Theorem C37_status_words :
  (forall m, wm_seq m < 2 ^ 63 ->
     wmut_decode (wmut_encode m) = m /\ wmut_encode m < 2 ^ 64 /\
     negb (N.land (wmut_encode m) DirtyFlag =? 0) = wm_isDirty m) /\
  (forall m, km_seq m < 2 ^ 61 -> km_status m < 4 ->
     kmut_decode (kmut_encode m) = m /\ kmut_encode m < 2 ^ 64 /\
     negb (N.land (kmut_encode m) DirtyFlag =? 0) = km_isDirty m).
Proof. exact c37_status. Qed.
Print Assumptions C37_status_words.

Example C37_example : let d := mkDesc false true false 12345 5 in
  desc_fits (2 ^ 3) d /\ tidSize (2 ^ 3) = 3 /\ seqSize (2 ^ 3) = 58 /\
  desc_encode (2 ^ 3) d = 5 * 2 ^ 61 + 12345 * 8 + 2 /\
  kmut_decode (kmut_encode (mkKmut true 2 77)) = mkKmut true 2 77.
Proof. cbv zeta. repeat split. Qed.

(** ** C38: the benchmark splits work without loss or overlap *)

Theorem C38_counts : forall n total, n <> 0 -> total < 2 ^ 64 ->
  exists counts, map (opsPerThread n total) (threads n) = map Some counts /\ sumN counts = total.
Proof. exact c38_counts. Qed.
Print Assumptions C38_counts.

Theorem C38_elements : forall num thr num' thr' maxOps e,
  thr * maxOps + num < 2 ^ 64 -> thr' * maxOps + num' < 2 ^ 64 ->
  genElem num thr maxOps = Some e -> genElem num' thr' maxOps = Some e -> num = num' /\ thr = thr'.
Proof. exact c38_elements. Qed.
Print Assumptions C38_elements.

(** What the threads of the alternating test pass to the container if each executes its prefix and its main
    loop: no assertion fails, every thread executes its number of operations, and no element is inserted twice.
    The test stores each element in an int, so this needs all elements to be below 2^32 ([C38_refuted]).
    As run_test calls them, only thread 0 executes its prefix: see [C38_run_partial] and [C38_prefix_refuted] in
    PropertiesCheck.v. *)
Theorem C38_alternating_partial : forall n total, n <> 0 -> total < 2 ^ 64 ->
  n * (total / n + total mod n) <= 2 ^ 32 ->
  exists ls, map (alt_thread n total) (threads n) = map Some ls /\
    Forall2 (fun t l => opsPerThread n total t = Some (N.of_nat (length l))) (threads n) ls /\
    NoDup (flat_map inserts ls).
Proof. exact c38_alternating. Qed.
Print Assumptions C38_alternating_partial.

Example C38_example : map (opsPerThread 3 40) (threads 3) = [Some 14; Some 13; Some 13] /\
  3 * (40 / 3 + 40 mod 3) <= 2 ^ 32 /\
  alt_thread 3 40 1 = Some [BInsert 14; BErase 14; BInsert 15; BErase 15; BInsert 16; BErase 16; BInsert 17;
    BErase 17; BInsert 18; BErase 18; BInsert 19; BErase 19; BInsert 20].
Proof. split; [reflexivity|]. split; [discriminate|reflexivity]. Qed.

(** With 2^33 operations on two threads, the first elements of both threads are the same int. *)
Theorem C38_refuted : exists n total maxops e e', n <> 0 /\ total < 2 ^ 64 /\ opsPerThread n total 0 = Some maxops /\
  genElem 0 0 maxops = Some e /\ genElem 0 1 maxops = Some e' /\ e <> e' /\ passed e = passed e'.
Proof. exact c38_refuted. Qed.
Print Assumptions C38_refuted.
