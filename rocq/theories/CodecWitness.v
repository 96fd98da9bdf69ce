(** The lemmas behind PropertiesCodec.v, in the form stated there. *)
From Coq Require Import Arith NArith Bool List Lia.
From Verif Require Import Word Codec CodecSpec CodecThm.
Import ListNotations.
Local Open Scope N_scope.
Local Transparent VINITIAL VTOMBSTONE TOMBPRIME MATCH_ANY NO_MATCH_OLD KINITIAL KTOMBSTONE.
Local Transparent isMarked setMark clearMark.

Lemma c31_marks : forall w f g, is_flag f -> is_flag g -> f <> g ->
  isMarked (setMark w f) f = true /\ isMarked (clearMark w f) f = false /\
  (isMarked w f = false -> clearMark (setMark w f) f = w) /\
  isMarked (setMark w f) g = isMarked w g /\ isMarked (clearMark w f) g = isMarked w g.
Proof.
  intros w f g Hf Hg Hne. split; [now apply set_test|]. split; [now apply clear_test|].
  split; [now apply clear_set|]. now apply set_other.
Qed.

Lemma c31_reserved : NoDup reserved_vals /\ NoDup reserved_keys /\
  Forall (fun r => r < 2 ^ 64 /\ isMarked r DirtyFlag = false) (reserved_vals ++ reserved_keys).
Proof.
  split; [exact reserved_distinct|]. split.
  - unfold reserved_keys. repeat constructor; simpl; intuition discriminate.
  - repeat constructor.
Qed.

Lemma c31_client : forall w d m d' m',
  (legal_val w -> forall r, In r reserved_vals -> marked w d m <> marked r d' m') /\
  (legal_key w -> forall r, In r reserved_keys -> marked w d m <> marked r d' m').
Proof.
  intros w d m d' m'. split; intros H r Hr; [now apply reserved_val_disjoint|now apply reserved_key_disjoint].
Qed.

Lemma c31_mask : forall w, w < 2 ^ 64 ->
  N.land w AddressMask = clearMark (clearMark w DirtyFlag) MigrationFlag.
Proof. exact mask_strip. Qed.

Lemma c31_example : is_flag DirtyFlag /\ is_flag MigrationFlag /\ DirtyFlag <> MigrationFlag /\
  legal_val 80 /\ legal_key 80 /\ marked 80 true true = 83 /\ clearMark (setMark 80 MigrationFlag) MigrationFlag = 80.
Proof.
  split; [now left|]. split; [now right|]. split; [discriminate|]. repeat split.
Qed.

Lemma c32_encoding : forall el, el < 2 ^ 61 ->
  decode_el (encode_el el) = el /\
  (forall el', el' < 2 ^ 61 -> encode_el el = encode_el el' -> el = el') /\
  (el + 4 < 2 ^ 61 -> legal_key (encode_el el) /\ legal_val (encode_el el)).
Proof.
  intros el H. split; [now apply decode_encode|]. split; [intros; now apply encode_inj|].
  intros H4. split; [apply encode_legal_key|apply encode_legal_val]; try assumption. lia.
Qed.

Lemma c32_refuted :
  (exists el el', el < 2 ^ 64 /\ el' < 2 ^ 64 /\ el <> el' /\ encode_el el = encode_el el') /\
  (exists el, el < 2 ^ 64 /\ decode_el (encode_el el) <> el) /\
  encode_el (2 ^ 61 - 1) = KINITIAL /\ encode_el (2 ^ 61 - 2) = KTOMBSTONE /\
  encode_el (2 ^ 61 - 3) = MATCH_ANY /\ encode_el (2 ^ 61 - 4) = NO_MATCH_OLD.
Proof.
  split; [exists 5, (5 + 2 ^ 61); repeat split; discriminate|].
  split; [exists (5 + 2 ^ 61); split; [reflexivity|vm_compute; discriminate]|]. repeat split.
Qed.

Lemma c35_home : forall h e, h < 2 ^ 64 -> (e <= 32)%nat -> get_home h (Nat.pow 2 e) = put_home h (Nat.pow 2 e).
Proof. intros h e Hh He. now apply homes_agree. Qed.

Lemma c35_refuted : forall e, (33 <= e <= 64)%nat ->
  exists h, h < 2 ^ 64 /\ get_home h (Nat.pow 2 e) <> put_home h (Nat.pow 2 e).
Proof. exact homes_differ. Qed.

Lemma c36_persist : forall addr len, 0 < len -> addr + len <= 2 ^ 64 - 64 ->
  exists lines n0, (forall n, (n0 <= n)%nat ->
      PERSIST n addr len = Some (map EvFlush lines ++ [EvFence]) /\
      PERSIST_FLUSH_ONLY n addr len = Some (map EvFlush lines)) /\
    NoDup lines /\
    (forall l, In l lines <-> l mod 64 = 0 /\ exists a, addr <= a < addr + len /\ l <= a < l + 64).
Proof. intros addr len Hl Hw. apply persist_ok; [assumption|]. unfold two64. lia. Qed.

Lemma c36_refuted :
  (forall addr len, 0 < len -> 2 ^ 64 - 64 < addr + len < 2 ^ 64 -> forall n, PERSIST n addr len = None) /\
  PERSIST 10 100 0 = Some [EvFlush 64; EvFence].
Proof. split; [exact persist_diverges|reflexivity]. Qed.

Lemma c37_descref : forall p d, p <= 16 -> desc_fits (2 ^ p) d ->
  desc_encode (2 ^ p) d < 2 ^ 64 /\ desc_decode (2 ^ p) (desc_encode (2 ^ p) d) = d /\
  (forall d', desc_fits (2 ^ p) d' -> desc_encode (2 ^ p) d = desc_encode (2 ^ p) d' -> d = d') /\
  negb (N.land (desc_encode (2 ^ p) d) DirtyFlag =? 0) = d_isDirty d /\
  negb (N.land (desc_encode (2 ^ p) d) PMwCASFlag =? 0) = d_isKCAS d /\
  negb (N.land (desc_encode (2 ^ p) d) RDCSSFlag =? 0) = d_isRDCSS d.
Proof.
  intros p d Hp Hd. split; [now apply desc_encode_val|]. split; [now apply desc_roundtrip|].
  split; [intros; now apply (desc_inj p)|]. now apply desc_flags.
Qed.

Lemma c37_onto : forall p, p <= 16 ->
  (forall d, d_tid d < 2 ^ p -> d_seq d < 2 ^ seqSize (2 ^ p) -> desc_fits (2 ^ p) d) /\
  (forall w, w < 2 ^ 64 -> desc_fits (2 ^ p) (desc_decode (2 ^ p) w) /\ desc_encode (2 ^ p) (desc_decode (2 ^ p) w) = w).
Proof.
  intros p Hp. split.
  - intros d Ht Hs. split; [assumption|now apply tidSize_fits].
  - intros w Hw. now apply desc_surj.
Qed.

Lemma c37_status :
  (forall m, wm_seq m < 2 ^ 63 ->
     wmut_decode (wmut_encode m) = m /\ wmut_encode m < 2 ^ 64 /\
     negb (N.land (wmut_encode m) DirtyFlag =? 0) = wm_isDirty m) /\
  (forall m, km_seq m < 2 ^ 61 -> km_status m < 4 ->
     kmut_decode (kmut_encode m) = m /\ kmut_encode m < 2 ^ 64 /\
     negb (N.land (kmut_encode m) DirtyFlag =? 0) = km_isDirty m).
Proof. split; [exact wmut_roundtrip|exact kmut_roundtrip]. Qed.

Lemma c38_counts : forall n total, n <> 0 -> total < 2 ^ 64 ->
  exists counts, map (opsPerThread n total) (threads n) = map Some counts /\ sumN counts = total.
Proof. exact ops_sum. Qed.

Lemma c38_elements : forall num thr num' thr' maxOps e,
  thr * maxOps + num < 2 ^ 64 -> thr' * maxOps + num' < 2 ^ 64 ->
  genElem num thr maxOps = Some e -> genElem num' thr' maxOps = Some e -> num = num' /\ thr = thr'.
Proof. exact genElem_inj. Qed.

Lemma c38_alternating : forall n total, n <> 0 -> total < 2 ^ 64 ->
  n * (total / n + total mod n) <= 2 ^ 32 ->
  exists ls, map (alt_thread n total) (threads n) = map Some ls /\
    Forall2 (fun t l => opsPerThread n total t = Some (N.of_nat (length l))) (threads n) ls /\
    NoDup (flat_map inserts ls).
Proof. exact alt_distinct. Qed.

Lemma c38_refuted : exists n total maxops e e', n <> 0 /\ total < 2 ^ 64 /\ opsPerThread n total 0 = Some maxops /\
  genElem 0 0 maxops = Some e /\ genElem 0 1 maxops = Some e' /\ e <> e' /\ passed e = passed e'.
Proof.
  exists 2, (2 ^ 33), (2 ^ 32), 0, (2 ^ 32). repeat split; discriminate.
Qed.
