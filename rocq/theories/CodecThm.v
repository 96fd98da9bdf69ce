(** Proofs about the encodings of Codec.v. *)
From Coq Require Import Arith NArith Bool List Lia Permutation.
From Verif Require Import Word Bits Prog HashMap Codec CodecSpec.
Import ListNotations.
Local Open Scope N_scope.

Local Transparent VINITIAL VTOMBSTONE TOMBPRIME MATCH_ANY NO_MATCH_OLD KINITIAL KTOMBSTONE.

(** ** Marks and reserved words *)

Lemma set_test w f : is_flag f -> isMarked (setMark w f) f = true.
Proof.
  intros [->| ->].
  - change (setMark w DirtyFlag) with (dirty w). apply isMarked_dirty_dirty.
  - apply mark_marked.
Qed.

Lemma clear_test w f : is_flag f -> isMarked (clearMark w f) f = false.
Proof.
  intros [->| ->].
  - change (clearMark w DirtyFlag) with (clean w). apply clean_isclean.
  - apply unmark_unmarked.
Qed.

Lemma clear_set w f : is_flag f -> isMarked w f = false -> clearMark (setMark w f) f = w.
Proof.
  intros [->| ->] H.
  - change (clean (dirty w) = w). rewrite clean_dirty. now apply clean_id.
  - now apply unmark_mark.
Qed.

Lemma set_other w f g : is_flag f -> is_flag g -> f <> g ->
  isMarked (setMark w f) g = isMarked w g /\ isMarked (clearMark w f) g = isMarked w g.
Proof.
  intros [->| ->] [->| ->] Hne; try congruence.
  - change (setMark w DirtyFlag) with (dirty w). change (clearMark w DirtyFlag) with (clean w).
    split; [apply isMarked_dirty_mig|apply isMarked_clean_mig].
  - rewrite !isMarked_dirty, mark_spec, unmark_spec. change (0 =? 1) with false.
    now rewrite orb_false_r, andb_true_r.
Qed.

Definition strip (w : N) : N := clearMark (clearMark w DirtyFlag) MigrationFlag.

Lemma strip_spec w n : N.testbit (strip w) n = N.testbit w n && negb (n =? 0) && negb (n =? 1).
Proof. unfold strip. rewrite unmark_spec. change (clearMark w DirtyFlag) with (clean w). now rewrite clean_spec. Qed.

Lemma strip_marked w d m : strip (marked w d m) = strip w.
Proof.
  apply N.bits_inj. intros n. rewrite !strip_spec. unfold marked.
  change (setMark w DirtyFlag) with (dirty w).
  destruct d, m; rewrite ?mark_spec, ?dirty_spec;
    destruct (N.eqb_spec n 0), (N.eqb_spec n 1); simpl; rewrite ?orb_false_r, ?andb_true_r, ?andb_false_r; auto.
Qed.

Lemma strip_id w : isMarked w DirtyFlag = false -> isMarked w MigrationFlag = false -> strip w = w.
Proof.
  intros H1 H2. unfold strip. change (clearMark w DirtyFlag) with (clean w).
  rewrite clean_id by exact H1. now apply unmark_id.
Qed.

Lemma reserved_distinct : NoDup reserved_vals.
Proof.
  unfold reserved_vals. repeat constructor; simpl; intuition discriminate.
Qed.

Lemma reserved_range : Forall (fun r => r < two64 /\ isMarked r DirtyFlag = false) reserved_vals.
Proof. unfold reserved_vals. repeat constructor. Qed.

Lemma reserved_val_disjoint v r d m d' m' : legal_val v -> In r reserved_vals -> marked v d m <> marked r d' m'.
Proof.
  intros (Hlt & Hd & Hm & Hr) Hin E. apply (f_equal strip) in E. rewrite !strip_marked, (strip_id v) in E by assumption.
  unfold isValueReserved in Hr. rewrite !orb_false_iff, !N.eqb_neq in Hr.
  destruct Hr as ((((H1 & H2) & H3) & H4) & H5).
  unfold reserved_vals in Hin. simpl in Hin.
  destruct Hin as [<-|[<-|[<-|[<-|[<-|[]]]]]]; vm_compute in E; subst v; auto.
Qed.

Lemma reserved_key_disjoint k r d m d' m' : legal_key k -> In r reserved_keys -> marked k d m <> marked r d' m'.
Proof.
  intros (Hlt & Hd & Hm & Hr) Hin E. apply (f_equal strip) in E. rewrite !strip_marked, (strip_id k) in E by assumption.
  unfold isKeyReserved in Hr. rewrite !orb_false_iff, !N.eqb_neq in Hr.
  destruct Hr as (H1 & H2). unfold reserved_keys in Hin. simpl in Hin.
  destruct Hin as [<-|[<-|[]]]; vm_compute in E; subst k; auto.
Qed.

Lemma mask_strip w : w < two64 -> N.land w AddressMask = strip w.
Proof.
  intros H. apply N.bits_inj. intros n. rewrite strip_spec, N.land_spec.
  destruct (N.ltb_spec n 64) as [Hn|Hn].
  - unfold AddressMask. rewrite N.lxor_spec, N.lor_spec.
    unfold DirtyFlag, MigrationFlag. rewrite testbit_1, testbit_2.
    change (two64 - 1) with (N.ones 64). rewrite N.ones_spec_low by assumption.
    destruct (n =? 0), (n =? 1), (N.testbit w n); reflexivity.
  - assert (N.testbit w n = false) as ->.
    { destruct (N.eq_dec w 0) as [->|Hw]; [apply N.bits_0|]. apply N.bits_above_log2.
      change two64 with (2 ^ 64) in H. apply N.log2_lt_pow2 in H; [|lia]. lia. }
    reflexivity.
Qed.

(** ** Container elements *)

Lemma encode_small el : el < 2 ^ 61 -> encode_el el = 8 * el.
Proof.
  intros H. unfold encode_el, shl64, BITS_MARKED. rewrite N.shiftl_mul_pow2. change (2 ^ 3) with 8.
  rewrite N.mod_small; [lia|]. change two64 with (2 ^ 61 * 8). lia.
Qed.

Lemma encode_mod el : encode_el el = 8 * (el mod 2 ^ 61).
Proof.
  unfold encode_el, shl64, BITS_MARKED. rewrite N.shiftl_mul_pow2. change (2 ^ 3) with 8.
  change two64 with (2 ^ 61 * 8). rewrite N.mul_mod_distr_r by discriminate. apply N.mul_comm.
Qed.

Lemma decode_encode el : el < 2 ^ 61 -> decode_el (encode_el el) = el.
Proof.
  intros H. rewrite encode_small by assumption. unfold decode_el, shr64, BITS_MARKED.
  rewrite N.shiftr_div_pow2. change (2 ^ 3) with 8. rewrite N.mul_comm. apply N.div_mul. discriminate.
Qed.

Lemma encode_inj el el' : el < 2 ^ 61 -> el' < 2 ^ 61 -> encode_el el = encode_el el' -> el = el'.
Proof. intros H H' E. rewrite <- (decode_encode el H), E. now apply decode_encode. Qed.

Lemma encode_bits el : isMarked (encode_el el) DirtyFlag = false /\ isMarked (encode_el el) MigrationFlag = false.
Proof.
  rewrite isMarked_dirty, isMarked_mig, encode_mod. set (x := el mod 2 ^ 61).
  split.
  - change 8 with (2 ^ 3). rewrite N.mul_comm. apply N.mul_pow2_bits_low. reflexivity.
  - change 8 with (2 ^ 3). rewrite N.mul_comm. apply N.mul_pow2_bits_low. reflexivity.
Qed.

Lemma encode_lt el : encode_el el < two64.
Proof. unfold encode_el, shl64. apply N.mod_lt. discriminate. Qed.

(** The elements the container can store. *)
Lemma encode_legal_key el : el < 2 ^ 61 -> (legal_key (encode_el el) <-> el + 2 < 2 ^ 61).
Proof.
  intros H. destruct (encode_bits el) as [Hd Hm].
  unfold legal_key, isKeyReserved. rewrite encode_small in * by assumption.
  rewrite !orb_false_iff, !N.eqb_neq.
  change KINITIAL with 18446744073709551608. change KTOMBSTONE with 18446744073709551600.
  change (2 ^ 61) with 2305843009213693952 in *. change two64 with 18446744073709551616.
  split; [intros (_ & _ & _ & H1 & H2); lia|intros H1; repeat split; auto; lia].
Qed.

Lemma encode_legal_val el : el < 2 ^ 61 -> (legal_val (encode_el el) <-> el + 4 < 2 ^ 61).
Proof.
  intros H. destruct (encode_bits el) as [Hd Hm].
  unfold legal_val, isValueReserved. rewrite encode_small in * by assumption.
  rewrite !orb_false_iff, !N.eqb_neq.
  change VINITIAL with 18446744073709551608. change VTOMBSTONE with 18446744073709551600.
  change TOMBPRIME with 18446744073709551602. change MATCH_ANY with 18446744073709551592.
  change NO_MATCH_OLD with 18446744073709551584.
  change (2 ^ 61) with 2305843009213693952 in *. change two64 with 18446744073709551616.
  split; [intros (_ & _ & _ & (((H1 & H2) & H3) & H4) & H5); lia|intros H1; repeat split; auto; lia].
Qed.

(** ** Home positions *)

Lemma land_ones_mask x e : N.land x (N.of_nat (Nat.pow 2 e) - 1) = x mod 2 ^ N.of_nat e.
Proof.
  rewrite Nat2N.inj_pow. change (N.of_nat 2) with 2. rewrite N.sub_1_r, <- N.ones_equiv. apply N.land_ones.
Qed.

Lemma mask_pow2 x e : mask x (Nat.pow 2 e) = N.to_nat (x mod 2 ^ N.of_nat e).
Proof. unfold mask. now rewrite land_ones_mask. Qed.

Lemma sext32_mod h e : (e <= 32)%nat -> h < two64 -> sext32 h mod 2 ^ N.of_nat e = h mod 2 ^ N.of_nat e.
Proof.
  intros He Hh. set (E := N.of_nat e).
  assert (2 ^ 32 = 2 ^ E * 2 ^ (32 - E)) as H32.
  { rewrite <- N.pow_add_r. f_equal. unfold E. lia. }
  assert (2 ^ E <> 0) as HE by (apply N.pow_nonzero; discriminate).
  assert (2 ^ (32 - E) <> 0) as HE' by (apply N.pow_nonzero; discriminate).
  assert ((h mod 2 ^ 32) mod 2 ^ E = h mod 2 ^ E) as Hm.
  { rewrite H32. rewrite N.mod_mul_r by assumption. rewrite N.add_comm.
    rewrite (N.mul_comm (2 ^ E)), N.add_comm at 1. rewrite N.mod_add by assumption. now apply N.mod_mod. }
  unfold sext32. destruct (h mod 2 ^ 32 <? 2 ^ 31); [exact Hm|].
  replace (two64 - 2 ^ 32) with (2 ^ 32 * (2 ^ 32 - 1)) by reflexivity.
  set (x := h mod 2 ^ 32) in *. clearbody x.
  replace (2 ^ 32 * (2 ^ 32 - 1) + x) with (x + (2 ^ (32 - E) * (2 ^ 32 - 1)) * 2 ^ E).
  - rewrite N.mod_add by assumption. exact Hm.
  - rewrite H32 at 2. generalize (2 ^ 32 - 1). intros y. lia.
Qed.

Lemma homes_agree h e : (e <= 32)%nat -> h < two64 -> get_home h (Nat.pow 2 e) = put_home h (Nat.pow 2 e).
Proof.
  intros He Hh. unfold get_home, put_home. rewrite !mask_pow2. f_equal. now apply sext32_mod.
Qed.

Lemma homes_differ e : (33 <= e <= 64)%nat -> exists h, h < two64 /\ get_home h (Nat.pow 2 e) <> put_home h (Nat.pow 2 e).
Proof.
  intros He. exists (2 ^ 32). split; [reflexivity|].
  unfold get_home, put_home. rewrite !mask_pow2. intros E. apply N2Nat.inj in E.
  change (sext32 (2 ^ 32)) with 0 in E.
  rewrite N.mod_0_l in E by (apply N.pow_nonzero; discriminate).
  rewrite N.mod_small in E; [discriminate|]. apply N.pow_lt_mono_r; lia.
Qed.

(** ** Range persistence *)

Definition flushed_lines (a e : N) : list N :=
  map (fun i => a + 64 * N.of_nat i) (seq 0 (N.to_nat ((e - a + 63) / 64))).

Lemma flush_loop_ok n a e : a mod 64 = 0 -> e + 64 <= two64 -> (N.to_nat ((e - a + 63) / 64) < n)%nat ->
  flush_loop n a e = Some (map EvFlush (flushed_lines a e)).
Proof.
  revert a. induction n as [|n IH]; intros a Ha He Hn; [now apply Nat.nlt_0_r in Hn|].
  simpl. destruct (N.ltb_spec a e) as [Hlt|Hge].
  - unfold add64, FLUSH_ALIGN. rewrite (N.mod_small (a + 64)) by lia.
    assert ((e - a + 63) / 64 = (e - (a + 64) + 63) / 64 + 1) as Hs.
    { destruct (N.le_gt_cases (a + 64) e) as [H1|H1].
      - replace (e - a + 63) with (e - (a + 64) + 63 + 1 * 64) by lia. apply N.div_add. discriminate.
      - replace (e - (a + 64)) with 0 by lia. change ((0 + 63) / 64) with 0.
        symmetry. apply (N.div_unique _ _ _ (e - a - 1)); lia. }
    rewrite IH.
    + simpl. f_equal. unfold flushed_lines. rewrite Hs.
      replace (N.to_nat ((e - (a + 64) + 63) / 64 + 1)) with (S (N.to_nat ((e - (a + 64) + 63) / 64))) by lia.
      cbn [seq map]. f_equal. { f_equal. lia. }
      rewrite <- seq_shift, !map_map. apply map_ext. intros i. f_equal. lia.
    + rewrite <- N.add_mod_idemp_l, Ha by discriminate. reflexivity.
    + assumption.
    + rewrite Hs in Hn. lia.
  - unfold flushed_lines. replace (e - a) with 0 by lia. reflexivity.
Qed.

Lemma align_down a : N.ldiff a (FLUSH_ALIGN - 1) = a - a mod 64.
Proof.
  change (FLUSH_ALIGN - 1) with (N.ones 6). rewrite N.ldiff_ones_r, N.shiftr_div_pow2, N.shiftl_mul_pow2.
  change (2 ^ 6) with 64. pose proof (N.div_mod a 64 ltac:(discriminate)).
  set (q := a / 64) in *. set (r := a mod 64) in *. lia.
Qed.

Lemma persist_ok addr len : 0 < len -> addr + len + 64 <= two64 ->
  exists lines n0, (forall n, (n0 <= n)%nat ->
      PERSIST n addr len = Some (map EvFlush lines ++ [EvFence]) /\
      PERSIST_FLUSH_ONLY n addr len = Some (map EvFlush lines)) /\
    NoDup lines /\
    (forall l, In l lines <-> l mod 64 = 0 /\ exists a, addr <= a < addr + len /\ l <= a < l + 64).
Proof.
  intros Hl Hw. pose proof (align_down addr) as Hal.
  pose proof (N.mod_lt addr 64 ltac:(discriminate)) as Hm.
  pose proof (N.div_mod addr 64 ltac:(discriminate)) as Hd.
  set (q0 := addr / 64) in *. set (r0 := addr mod 64) in *. clearbody q0 r0.
  set (a := addr - r0) in *. assert (a = q0 * 64) as Haq by lia. clearbody a.
  assert (a mod 64 = 0) as Ha by (rewrite Haq; apply N.mod_mul; discriminate).
  exists (flushed_lines a (addr + len)), (S (N.to_nat ((addr + len - a + 63) / 64))).
  split; [|split].
  - intros n Hn.
    assert (PERSIST_FLUSH_ONLY n addr len = Some (map EvFlush (flushed_lines a (addr + len)))) as E.
    { unfold PERSIST_FLUSH_ONLY, add64. rewrite Hal. rewrite N.mod_small by lia.
      apply flush_loop_ok; [assumption|lia|lia]. }
    split; [|exact E]. unfold PERSIST. rewrite E. reflexivity.
  - unfold flushed_lines. apply FinFun.Injective_map_NoDup; [|apply seq_NoDup].
    intros i j E. lia.
  - intros l. unfold flushed_lines. rewrite in_map_iff. split.
    + intros (i & <- & Hi). apply in_seq in Hi. split.
      { rewrite <- N.add_mod_idemp_l, Ha by discriminate. rewrite N.mul_comm. apply N.mod_mul. discriminate. }
      assert (N.of_nat i < (addr + len - a + 63) / 64) as Hi' by lia.
      assert (64 * (N.of_nat i + 1) <= addr + len - a + 63) as Hi2.
      { pose proof (N.mul_div_le (addr + len - a + 63) 64 ltac:(discriminate)).
        assert (N.of_nat i + 1 <= (addr + len - a + 63) / 64) by lia.
        etransitivity; [|exact H]. apply N.mul_le_mono_l. assumption. }
      exists (N.max addr (a + 64 * N.of_nat i)). lia.
    + intros (Hl64 & x & Hx & Hlx).
      assert (exists q, l = 64 * q) as [q ->].
      { exists (l / 64). pose proof (N.div_mod l 64 ltac:(discriminate)). lia. }
      assert (exists p, a = 64 * p) as [p Hp].
      { exists q0. lia. }
      exists (N.to_nat (q - p)). split; [lia|]. apply in_seq. split; [lia|].
      assert (p <= q) by lia.
      assert (q - p < (addr + len - a + 63) / 64); [|lia].
      apply N.lt_le_trans with (q - p + 1); [lia|].
      apply N.div_le_lower_bound; [discriminate|]. lia.
Qed.

(** The last line of the address space: the loop variable wraps to zero and the loop starts over. *)
Lemma flush_loop_wrap n a e : a mod 64 = 0 -> two64 - 64 < e < two64 -> a < two64 -> flush_loop n a e = None.
Proof.
  revert a. induction n as [|n IH]; intros a Ha He Hlt; [reflexivity|].
  simpl. change two64 with 18446744073709551616 in *.
  pose proof (N.div_mod a 64 ltac:(discriminate)) as Hd.
  destruct (N.ltb_spec a e) as [H|H]; [|lia].
  assert (flush_loop n (add64 a FLUSH_ALIGN) e = None) as ->; [|reflexivity].
  apply IH; unfold add64, FLUSH_ALIGN; change two64 with 18446744073709551616.
  - destruct (N.lt_ge_cases (a + 64) 18446744073709551616) as [H1|H1].
    + rewrite (N.mod_small (a + 64)) by lia. rewrite <- N.add_mod_idemp_l, Ha by discriminate. reflexivity.
    + replace (a + 64) with 18446744073709551616 by lia. reflexivity.
  - assumption.
  - apply N.mod_lt. discriminate.
Qed.

Lemma persist_diverges addr len : 0 < len -> two64 - 64 < addr + len < two64 ->
  forall n, PERSIST n addr len = None.
Proof.
  intros Hl Hw n. unfold PERSIST, PERSIST_FLUSH_ONLY, add64. rewrite align_down, (N.mod_small (addr + len)) by lia.
  pose proof (N.div_mod addr 64 ltac:(discriminate)) as Hd.
  set (q := addr / 64) in *. set (r := addr mod 64) in *. clearbody q r.
  rewrite flush_loop_wrap; [reflexivity| |lia|lia].
  replace (addr - r) with (q * 64) by lia. apply N.mod_mul. discriminate.
Qed.

(** ** Descriptor references *)

Lemma shl64_small x n : x * 2 ^ n < two64 -> shl64 x n = x * 2 ^ n.
Proof. intros H. unfold shl64. rewrite N.shiftl_mul_pow2. now apply N.mod_small. Qed.

Lemma field_spec w sh sz : sz < 64 -> field w sh sz = (w / 2 ^ sh) mod 2 ^ sz.
Proof.
  intros H. unfold field, shr64. rewrite N.shiftr_div_pow2, shl64_small.
  - rewrite N.mul_1_l, N.sub_1_r, <- N.ones_equiv. apply N.land_ones.
  - rewrite N.mul_1_l. apply N.pow_lt_mono_r; [reflexivity|assumption].
Qed.

Lemma field_lt w sh sz : sz < 64 -> field w sh sz < 2 ^ sz.
Proof. intros H. rewrite field_spec by assumption. apply N.mod_lt, N.pow_nonzero. discriminate. Qed.

Lemma b2n_lt b : N.b2n b < 2.
Proof. destruct b; reflexivity. Qed.
Lemma b2n_field b : negb (N.b2n b =? 0) = b.
Proof. destruct b; reflexivity. Qed.
Lemma field_b2n w sh : N.b2n (negb (field w sh 1 =? 0)) = field w sh 1.
Proof.
  pose proof (field_lt w sh 1 eq_refl) as H. change (2 ^ 1) with 2 in H.
  destruct (N.eqb_spec (field w sh 1) 0) as [->|]; [reflexivity|]. simpl. lia.
Qed.

Lemma tidSize_range p : p <= 16 -> 1 <= tidSize (2 ^ p) <= 16.
Proof. intros H. unfold tidSize. rewrite N.log2_pow2 by lia. destruct (N.eqb_spec p 0); lia. Qed.
Lemma tidSize_fits p tid : tid < 2 ^ p -> tid < 2 ^ tidSize (2 ^ p).
Proof.
  intros H. unfold tidSize. rewrite N.log2_pow2 by lia. destruct (N.eqb_spec p 0) as [->|]; [|assumption].
  change (2 ^ 0) with 1 in H. change (2 ^ 1) with 2. lia.
Qed.

Lemma sizes p : p <= 16 -> exists A B, 2 ^ seqSize (2 ^ p) = A /\ 2 ^ tidSize (2 ^ p) = B /\ A * 8 * B = two64 /\
  0 < A /\ 0 < B /\ 2 ^ (seqSize (2 ^ p) + 1 + 1 + 1) = A * 8.
Proof.
  intros H. pose proof (tidSize_range p H) as Ht. eexists _, _. split; [reflexivity|]. split; [reflexivity|].
  assert (forall x, 0 < 2 ^ x) as Hp by (intros x; pose proof (N.pow_nonzero 2 x ltac:(discriminate)); lia).
  split; [|split; [apply Hp|split; [apply Hp|]]].
  - change 8 with (2 ^ 3). rewrite <- !N.pow_add_r. unfold seqSize.
    change two64 with (2 ^ 64). f_equal. lia.
  - change 8 with (2 ^ 3). rewrite <- !N.pow_add_r. f_equal. lia.
Qed.

Lemma desc_encode_val p d : p <= 16 -> desc_fits (2 ^ p) d ->
  desc_encode (2 ^ p) d = d_tid d * (2 ^ seqSize (2 ^ p) * 8) + d_seq d * 8 + N.b2n (d_isRDCSS d) * 4
                          + N.b2n (d_isKCAS d) * 2 + N.b2n (d_isDirty d) /\
  desc_encode (2 ^ p) d < two64.
Proof.
  intros Hp [Hs Ht]. destruct (sizes p Hp) as (A & B & EA & EB & EAB & HA & HB & E3).
  unfold desc_encode. rewrite EA in *. rewrite EB in *.
  pose proof (b2n_lt (d_isRDCSS d)). pose proof (b2n_lt (d_isKCAS d)). pose proof (b2n_lt (d_isDirty d)).
  set (r := N.b2n (d_isRDCSS d)) in *. set (k := N.b2n (d_isKCAS d)) in *. set (y := N.b2n (d_isDirty d)) in *.
  assert (d_tid d * (A * 8) + A * 8 <= two64) as Hb.
  { rewrite <- EAB. replace (d_tid d * (A * 8) + A * 8) with (A * 8 * (d_tid d + 1)) by lia.
    apply N.mul_le_mono_l. lia. }
  rewrite !shl64_small.
  2-5: rewrite ?E3; change (2 ^ (1 + 1 + 1)) with 8; change (2 ^ (1 + 1)) with 4; change (2 ^ 1) with 2;
       change two64 with 18446744073709551616 in *; nia.
  rewrite E3. change (2 ^ (1 + 1 + 1)) with 8. change (2 ^ (1 + 1)) with 4. change (2 ^ 1) with 2.
  unfold add64.
  rewrite (N.mod_small (d_tid d * (A * 8) + d_seq d * 8)) by lia.
  rewrite (N.mod_small (_ + _ + r * 4)) by lia.
  rewrite (N.mod_small (_ + _ + k * 2)) by lia.
  rewrite N.mod_small by lia. split; [reflexivity|]. lia.
Qed.

Lemma desc_roundtrip p d : p <= 16 -> desc_fits (2 ^ p) d -> desc_decode (2 ^ p) (desc_encode (2 ^ p) d) = d.
Proof.
  intros Hp Hf. destruct (desc_encode_val p d Hp Hf) as [E _]. rewrite E. clear E.
  destruct Hf as [Hs Ht]. pose proof (tidSize_range p Hp) as Hr.
  destruct (sizes p Hp) as (A & B & EA & EB & EAB & HA & HB & E3).
  destruct d as [y k r s t]. cbn [d_isDirty d_isKCAS d_isRDCSS d_seq d_tid] in *.
  unfold desc_decode. rewrite !field_spec by (unfold seqSize; lia). rewrite EA in *. rewrite EB in *. rewrite E3.
  change (2 ^ 0) with 1. change (2 ^ 1) with 2. change (2 ^ 2) with 4. change (2 ^ 3) with 8.
  pose proof (b2n_lt r). pose proof (b2n_lt k). pose proof (b2n_lt y).
  f_equal.
  - rewrite N.div_1_r.
    rewrite <- (N.mod_unique _ 2 (t * (A * 4) + s * 4 + N.b2n r * 2 + N.b2n k) (N.b2n y)) by lia. apply b2n_field.
  - rewrite <- (N.div_unique _ 2 (t * (A * 4) + s * 4 + N.b2n r * 2 + N.b2n k) (N.b2n y)) by lia.
    rewrite <- (N.mod_unique _ 2 (t * (A * 2) + s * 2 + N.b2n r) (N.b2n k)) by lia. apply b2n_field.
  - rewrite <- (N.div_unique _ 4 (t * (A * 2) + s * 2 + N.b2n r) (N.b2n k * 2 + N.b2n y)) by lia.
    rewrite <- (N.mod_unique _ 2 (t * A + s) (N.b2n r)) by lia. apply b2n_field.
  - rewrite <- (N.div_unique _ 8 (t * A + s) (N.b2n r * 4 + N.b2n k * 2 + N.b2n y)) by lia.
    symmetry. apply (N.mod_unique _ A t s); lia.
  - rewrite <- (N.div_unique _ (A * 8) t (s * 8 + N.b2n r * 4 + N.b2n k * 2 + N.b2n y)) by nia.
    apply N.mod_small. assumption.
Qed.

Lemma desc_inj p d d' : p <= 16 -> desc_fits (2 ^ p) d -> desc_fits (2 ^ p) d' ->
  desc_encode (2 ^ p) d = desc_encode (2 ^ p) d' -> d = d'.
Proof. intros Hp H H' E. rewrite <- (desc_roundtrip p d Hp H), E. now apply desc_roundtrip. Qed.

Lemma land_pow2 w i : negb (N.land w (2 ^ i) =? 0) = N.testbit w i.
Proof.
  destruct (N.testbit w i) eqn:E.
  - apply negb_true_iff, N.eqb_neq. intros H. assert (N.testbit (N.land w (2 ^ i)) i = false) as H1 by (rewrite H; apply N.bits_0).
    rewrite N.land_spec, E, N.pow2_bits_true in H1. discriminate.
  - apply negb_false_iff, N.eqb_eq. apply N.bits_inj. intros j. rewrite N.land_spec, N.bits_0, N.pow2_bits_eqb.
    destruct (N.eqb_spec i j); subst; rewrite ?E, ?andb_false_r; reflexivity.
Qed.

Lemma field_bit w i : negb (field w i 1 =? 0) = N.testbit w i.
Proof.
  rewrite field_spec by reflexivity. change (2 ^ 1) with 2. rewrite <- N.testbit_spec'. apply b2n_field.
Qed.

(** The kind flags are the low bits, as the code tests them (pmwcas.hpp:726-743, 773-797). *)
Lemma desc_flags p d : p <= 16 -> desc_fits (2 ^ p) d ->
  negb (N.land (desc_encode (2 ^ p) d) DirtyFlag =? 0) = d_isDirty d /\
  negb (N.land (desc_encode (2 ^ p) d) PMwCASFlag =? 0) = d_isKCAS d /\
  negb (N.land (desc_encode (2 ^ p) d) RDCSSFlag =? 0) = d_isRDCSS d.
Proof.
  intros Hp H. pose proof (desc_roundtrip p d Hp H) as E. set (w := desc_encode (2 ^ p) d) in *.
  rewrite <- E. unfold desc_decode. cbn [d_isDirty d_isKCAS d_isRDCSS]. rewrite !field_bit.
  change DirtyFlag with (2 ^ 0). change PMwCASFlag with (2 ^ 1). change RDCSSFlag with (2 ^ 2).
  rewrite !land_pow2. auto.
Qed.

(** Every word decodes to a reference that encodes back to it. *)
Lemma desc_surj p w : p <= 16 -> w < two64 ->
  desc_fits (2 ^ p) (desc_decode (2 ^ p) w) /\ desc_encode (2 ^ p) (desc_decode (2 ^ p) w) = w.
Proof.
  intros Hp Hw. pose proof (tidSize_range p Hp) as Hr.
  assert (desc_fits (2 ^ p) (desc_decode (2 ^ p) w)) as Hf.
  { split; cbn [desc_decode d_seq d_tid]; apply field_lt; unfold seqSize; lia. }
  split; [exact Hf|]. destruct (desc_encode_val p _ Hp Hf) as [E _]. rewrite E. clear E Hf.
  cbn [desc_decode d_isDirty d_isKCAS d_isRDCSS d_seq d_tid]. rewrite !field_b2n.
  destruct (sizes p Hp) as (A & B & EA & EB & EAB & HA & HB & E3).
  rewrite !field_spec by (unfold seqSize; lia). rewrite EA, EB, E3.
  change (2 ^ 0) with 1. change (2 ^ 1) with 2. change (2 ^ 2) with 4. change (2 ^ 3) with 8.
  assert (w / (A * 8) < B) as HB2 by (apply N.div_lt_upper_bound; [lia|]; lia).
  rewrite (N.mod_small (w / (A * 8))) by assumption.
  rewrite N.div_1_r.
  pose proof (N.div_mod w 2 ltac:(discriminate)).
  pose proof (N.div_mod (w / 2) 2 ltac:(discriminate)).
  pose proof (N.div_mod (w / 4) 2 ltac:(discriminate)).
  pose proof (N.div_mod (w / 8) A ltac:(lia)).
  rewrite (N.div_div w 2 2) in H0 by discriminate. change (2 * 2) with 4 in H0.
  rewrite (N.div_div w 4 2) in H1 by discriminate. change (4 * 2) with 8 in H1.
  rewrite (N.div_div w 8 A) in H2 by lia. rewrite (N.mul_comm 8 A) in H2.
  set (q := w / (A * 8)) in *. nia.
Qed.

Lemma wmut_roundtrip m : wm_seq m < 2 ^ 63 ->
  wmut_decode (wmut_encode m) = m /\ wmut_encode m < two64 /\
  negb (N.land (wmut_encode m) DirtyFlag =? 0) = wm_isDirty m.
Proof.
  intros H. destruct m as [d s]. cbn [wm_isDirty wm_seq] in *. pose proof (b2n_lt d).
  assert (wmut_encode (mkWmut d s) = s * 2 + N.b2n d) as E.
  { unfold wmut_encode. cbn [wm_isDirty wm_seq]. change (2 ^ 63) with 9223372036854775808 in H.
    rewrite shl64_small; change (2 ^ 1) with 2; unfold add64; change two64 with 18446744073709551616; [|lia].
    apply N.mod_small. lia. }
  rewrite E. assert (wmut_decode (s * 2 + N.b2n d) = mkWmut d s) as E2.
  { unfold wmut_decode. rewrite !field_spec by reflexivity. change (2 ^ 0) with 1. change (2 ^ 1) with 2. f_equal.
    - rewrite N.div_1_r, <- (N.mod_unique _ 2 s (N.b2n d)) by lia. apply b2n_field.
    - rewrite <- (N.div_unique _ 2 s (N.b2n d)) by lia. now apply N.mod_small. }
  split; [exact E2|]. split; [change two64 with (2 * 2 ^ 63); lia|].
  change DirtyFlag with (2 ^ 0). rewrite land_pow2, <- field_bit.
  apply (f_equal wm_isDirty) in E2. exact E2.
Qed.

Lemma kmut_roundtrip m : km_seq m < 2 ^ 61 -> km_status m < 4 ->
  kmut_decode (kmut_encode m) = m /\ kmut_encode m < two64 /\
  negb (N.land (kmut_encode m) DirtyFlag =? 0) = km_isDirty m.
Proof.
  intros H H4. destruct m as [d st s]. cbn [km_isDirty km_status km_seq] in *. pose proof (b2n_lt d).
  assert (kmut_encode (mkKmut d st s) = s * 8 + st * 2 + N.b2n d) as E.
  { unfold kmut_encode. cbn [km_isDirty km_status km_seq]. change (2 ^ 61) with 2305843009213693952 in H.
    rewrite !shl64_small; change (2 ^ (2 + 1)) with 8; change (2 ^ 1) with 2; unfold add64; change two64 with 18446744073709551616; try lia.
    rewrite (N.mod_small (s * 8 + st * 2)) by lia. apply N.mod_small. lia. }
  rewrite E. assert (kmut_decode (s * 8 + st * 2 + N.b2n d) = mkKmut d st s) as E2.
  { unfold kmut_decode. rewrite !field_spec by reflexivity.
    change (2 ^ 0) with 1. change (2 ^ 3) with 8. change (2 ^ 2) with 4. change (2 ^ 1) with 2. f_equal.
    - rewrite N.div_1_r, <- (N.mod_unique _ 2 (s * 4 + st) (N.b2n d)) by lia. apply b2n_field.
    - rewrite <- (N.div_unique _ 2 (s * 4 + st) (N.b2n d)) by lia. symmetry. apply (N.mod_unique _ 4 s st); lia.
    - rewrite <- (N.div_unique _ 8 s (st * 2 + N.b2n d)) by lia. now apply N.mod_small. }
  split; [exact E2|]. split; [change two64 with (8 * 2 ^ 61); lia|].
  change DirtyFlag with (2 ^ 0). rewrite land_pow2, <- field_bit.
  apply (f_equal km_isDirty) in E2. exact E2.
Qed.

(** ** Work distribution *)

Lemma opsPerThread_val n total t : n <> 0 -> t < n -> total < two64 ->
  opsPerThread n total t = Some (if t =? 0 then total / n + total mod n else total / n).
Proof.
  intros Hn Ht Hlt. unfold opsPerThread. apply N.ltb_lt in Ht as Ht'. rewrite Ht'. f_equal.
  pose proof (N.div_mod total n Hn) as Hd. pose proof (N.mod_lt total n Hn) as Hm.
  set (q := total / n) in *. set (r := total mod n) in *. clearbody q r.
  destruct (N.eqb_spec t 0) as [->|]; rewrite ?andb_false_r, ?andb_true_r; [|reflexivity].
  destruct (N.ltb_spec 0 r).
  - unfold add64. apply N.mod_small. nia.
  - lia.
Qed.

Lemma sumN_const q (l : list N) : sumN (map (fun _ => q) l) = q * N.of_nat (length l).
Proof. induction l as [|x l IH]; simpl; [lia|]. rewrite IH. lia. Qed.

Lemma ops_sum n total : n <> 0 -> total < two64 ->
  exists counts, map (opsPerThread n total) (threads n) = map Some counts /\ sumN counts = total.
Proof.
  intros Hn Ht. exists (map (fun t => if t =? 0 then total / n + total mod n else total / n) (threads n)).
  split.
  - rewrite map_map. apply map_ext_in. intros t Hin. unfold threads in Hin. apply in_map_iff in Hin as (i & <- & Hi).
    apply in_seq in Hi. rewrite opsPerThread_val; [reflexivity|assumption|lia|assumption].
  - pose proof (N.div_mod total n Hn) as Hd.
    set (q := total / n) in *. set (r := total mod n) in *. clearbody q r.
    unfold threads. destruct (N.to_nat n) as [|m] eqn:Em; [lia|].
    cbn [seq map]. change (N.of_nat 0 =? 0) with true. cbn [sumN fold_right].
    change (fold_right N.add 0) with sumN.
    rewrite map_map, (map_ext_in _ (fun _ => q)).
    + rewrite <- (map_map (fun x : nat => N.of_nat x) (fun _ => q)), sumN_const, map_length, seq_length. nia.
    + intros i Hi. apply in_seq in Hi. destruct (N.eqb_spec (N.of_nat i) 0); [lia|reflexivity].
Qed.

Lemma genElem_inj num thr num' thr' maxOps e : thr * maxOps + num < two64 -> thr' * maxOps + num' < two64 ->
  genElem num thr maxOps = Some e -> genElem num' thr' maxOps = Some e -> num = num' /\ thr = thr'.
Proof.
  intros H H'. unfold genElem. destruct (N.ltb_spec num maxOps); [|discriminate].
  destruct (N.ltb_spec num' maxOps); [|discriminate]. unfold add64.
  rewrite !(N.mod_small (_ * _)), !N.mod_small by lia. intros [= <-] [= E].
  assert (thr = thr'); [|subst; lia].
  rewrite (N.div_unique (thr * maxOps + num) maxOps thr num) by lia.
  rewrite (N.div_unique (thr' * maxOps + num') maxOps thr' num') by lia. now rewrite E.
Qed.

Lemma sext32_inj a b : a < 2 ^ 32 -> b < 2 ^ 32 -> sext32 a = sext32 b -> a = b.
Proof.
  intros Ha Hb. unfold sext32. rewrite !N.mod_small by assumption. change (two64 - 2 ^ 32) with 18446744069414584320.
  change (2 ^ 31) with 2147483648. change (2 ^ 32) with 4294967296 in *.
  destruct (N.ltb_spec a 2147483648), (N.ltb_spec b 2147483648); lia.
Qed.

(** The element with index [num] of thread [thr], as it reaches the container. *)
Definition elem (thr maxops num : N) : N := passed (thr * maxops + num).

Lemma genElem_val num thr maxops : num < maxops -> thr * maxops + maxops <= two64 ->
  genElem num thr maxops = Some (thr * maxops + num).
Proof.
  intros H Hb. unfold genElem, add64. apply N.ltb_lt in H as H'. rewrite H'.
  rewrite (N.mod_small (thr * maxops)), N.mod_small by lia. reflexivity.
Qed.

Lemma alt_prefix_ok thr maxops cnt wrid : thr * maxops + maxops <= two64 -> wrid + N.of_nat cnt <= maxops ->
  exists l, alt_prefix cnt thr maxops wrid = Some l /\ length l = cnt /\
    inserts l = map (fun i => elem thr maxops (wrid + N.of_nat i)) (seq 0 cnt).
Proof.
  intros Hb. revert wrid. induction cnt as [|cnt IH]; intros wrid Hw.
  - exists []. auto.
  - simpl. rewrite genElem_val by lia. destruct (IH (wrid + 1)) as (l & E & Hl & Hi); [lia|].
    rewrite E. eexists. split; [reflexivity|]. split; [simpl; lia|].
    simpl. rewrite Hi, N.add_0_r. f_equal.
    rewrite <- seq_shift, map_map. apply map_ext. intros i. f_equal. lia.
Qed.

(** The number of insertions among the last [m] operations. *)
Definition nins (m : nat) : nat := Nat.div (m + 1) 2.

Lemma nins_S m : nins (S m) = if Nat.odd (S m) then S (nins m) else nins m.
Proof.
  unfold nins. destruct (Nat.odd (S m)) eqn:E.
  - apply Nat.odd_spec in E as [k Hk]. assert (m = 2 * k)%nat as -> by lia.
    replace (S (2 * k) + 1)%nat with ((k + 1) * 2)%nat by lia. rewrite Nat.div_mul by lia.
    rewrite <- (Nat.div_unique (2 * k + 1) 2 k 1) by lia. lia.
  - assert (Nat.even (S m) = true) as E2 by (rewrite <- Nat.negb_odd, E; reflexivity).
    apply Nat.even_spec in E2 as [k Hk].
    rewrite <- (Nat.div_unique (S m + 1) 2 k 1) by lia.
    rewrite <- (Nat.div_unique (m + 1) 2 k 0) by lia. reflexivity.
Qed.

Lemma alt_main_ok thr maxops m wrid rdid : thr * maxops + maxops <= two64 ->
  wrid + N.of_nat (nins m) <= maxops -> rdid + N.of_nat m / 2 <= maxops ->
  exists l, alt_main m thr maxops wrid rdid = Some l /\ length l = m /\
    inserts l = map (fun i => elem thr maxops (wrid + N.of_nat i)) (seq 0 (nins m)).
Proof.
  intros Hb. revert wrid rdid. induction m as [|m IH]; intros wrid rdid Hw Hr.
  - exists []. auto.
  - cbn [alt_main]. rewrite nins_S in Hw |- *. destruct (Nat.odd (S m)) eqn:Eo.
    + rewrite genElem_val by lia. destruct (IH (wrid + 1) rdid) as (l & E & Hl & Hi).
      * lia.
      * etransitivity; [|exact Hr]. apply N.add_le_mono_l, N.div_le_mono; lia.
      * rewrite E. eexists. split; [reflexivity|]. split; [simpl; lia|].
        cbn [inserts flat_map inserted]. change (flat_map inserted l) with (inserts l). rewrite Hi.
        cbn [seq map]. rewrite N.add_0_r. simpl. f_equal.
        rewrite <- seq_shift, map_map. apply map_ext. intros i. f_equal. lia.
    + assert (Nat.even (S m) = true) as E2 by (rewrite <- Nat.negb_odd, Eo; reflexivity).
      apply Nat.even_spec in E2 as [k Hk].
      assert (N.of_nat (S m) / 2 = N.of_nat k) as Hd.
      { symmetry. apply (N.div_unique _ 2 _ 0); lia. }
      rewrite Hd in Hr.
      assert (N.of_nat m / 2 = N.of_nat k - 1) as Hd'.
      { symmetry. apply (N.div_unique _ 2 _ 1); lia. }
      rewrite genElem_val by lia. destruct (IH wrid (rdid + 1)) as (l & E & Hl & Hi); [lia|lia|].
      rewrite E. eexists. split; [reflexivity|]. split; [simpl; lia|]. exact Hi.
Qed.

(** What one thread inserts: its elements 0, 1, 2, ... in this order. *)
Lemma alt_thread_ok n total thr : n <> 0 -> thr < n -> total < two64 ->
  n * (total / n + total mod n) <= two64 ->
  exists l c maxops numops, alt_thread n total thr = Some l /\ opsPerThread n total 0 = Some maxops /\
    opsPerThread n total thr = Some numops /\ length l = N.to_nat numops /\ (c <= N.to_nat maxops)%nat /\
    inserts l = map (fun i => elem thr maxops (N.of_nat i)) (seq 0 c).
Proof.
  intros Hn Ht Htot Hb.
  pose proof (opsPerThread_val n total 0 Hn ltac:(lia) Htot) as E0. change (0 =? 0) with true in E0. cbn [negb] in E0.
  pose proof (opsPerThread_val n total thr Hn Ht Htot) as E1.
  unfold alt_thread. rewrite E0, E1.
  set (q := total / n) in *. set (r := total mod n) in *. clearbody q r. clear E0 E1 total Htot.
  set (maxops := q + r) in *. set (numops := if thr =? 0 then maxops else q).
  assert (numops <= maxops) as Hle by (unfold numops, maxops; destruct (thr =? 0); lia).
  clearbody numops maxops.
  assert (thr * maxops + maxops <= two64) as Hb2.
  { etransitivity; [|exact Hb]. replace (thr * maxops + maxops) with ((thr + 1) * maxops) by lia.
    apply N.mul_le_mono_r. lia. }
  set (nm := opsMainLoop numops).
  assert (nm <= numops) as Hnm by (unfold nm, opsMainLoop; apply N.le_sub_l).
  clearbody nm.
  destruct (alt_prefix_ok thr maxops (N.to_nat (numops - nm)) 0 Hb2) as (l1 & E1 & L1 & I1); [lia|].
  rewrite E1.
  assert (numops - nm + N.of_nat (nins (N.to_nat nm)) <= maxops) as Hwr.
  { unfold nins. destruct (N.to_nat nm) as [|m] eqn:Em; [simpl; lia|].
    assert (Nat.div (S m + 1) 2 <= S m)%nat; [|lia].
    apply Nat.div_le_upper_bound; lia. }
  assert ((numops - nm) / 2 + N.of_nat (N.to_nat nm) / 2 <= maxops) as Hrd.
  { rewrite N2Nat.id. etransitivity; [|exact Hle].
    pose proof (N.mul_div_le (numops - nm) 2 ltac:(discriminate)).
    pose proof (N.mul_div_le nm 2 ltac:(discriminate)).
    set (x := (numops - nm) / 2) in *. set (y := nm / 2) in *. lia. }
  destruct (alt_main_ok thr maxops (N.to_nat nm) (numops - nm) ((numops - nm) / 2) Hb2 Hwr Hrd) as (l2 & E2 & L2 & I2).
  rewrite E2.
  exists (l1 ++ l2), (N.to_nat (numops - nm) + nins (N.to_nat nm))%nat, maxops, numops.
  repeat split.
  - rewrite app_length. lia.
  - lia.
  - unfold inserts in *. rewrite flat_map_app, I1, I2, seq_app, map_app. f_equal.
    rewrite Nat.add_0_l. set (a := N.to_nat (numops - nm)).
    assert (forall c s, seq (a + s) c = map (fun i => a + i)%nat (seq s c)) as Hs.
    { intros c. induction c as [|c IHc]; intros s; simpl; [reflexivity|]. f_equal.
      rewrite <- IHc. f_equal. lia. }
    specialize (Hs (nins (N.to_nat nm)) O). rewrite Nat.add_0_r in Hs. rewrite Hs, map_map.
    apply map_ext. intros i. f_equal. lia.
Qed.

Lemma NoDup_flat_map {A B} (f : A -> list B) (l : list A) :
  NoDup l -> (forall a, In a l -> NoDup (f a)) ->
  (forall a a' b, In a l -> In a' l -> In b (f a) -> In b (f a') -> a = a') -> NoDup (flat_map f l).
Proof.
  induction l as [|x l IH]; intros Hl Hf Hd; simpl; [constructor|].
  inversion Hl as [|? ? Hx Hl']; subst.
  assert (NoDup (flat_map f l)) as IH'.
  { apply IH; [assumption| |]; intros; [apply Hf; now right|eapply Hd; try (right; eassumption); eassumption]. }
  assert (NoDup (f x)) as Hfx by (apply Hf; now left).
  assert (forall b, In b (f x) -> ~ In b (flat_map f l)) as Hdis.
  { intros b Hb Hin. apply in_flat_map in Hin as (a & Ha & Hba).
    assert (x = a) as -> by (eapply Hd; [now left|now right|exact Hb|exact Hba]). contradiction. }
  clear -Hfx IH' Hdis. induction (f x) as [|b fx IHx]; simpl; [assumption|].
  inversion Hfx; subst. constructor.
  - rewrite in_app_iff. intros [|H]; [contradiction|]. exact (Hdis b (or_introl eq_refl) H).
  - apply IHx; [assumption|]. intros c Hc. apply Hdis. now right.
Qed.

(** No element is inserted twice by the whole benchmark, if all of them fit an [int]. *)
Lemma alt_distinct n total : n <> 0 -> total < two64 -> n * (total / n + total mod n) <= 2 ^ 32 ->
  exists ls, map (alt_thread n total) (threads n) = map Some ls /\
    Forall2 (fun t l => opsPerThread n total t = Some (N.of_nat (length l))) (threads n) ls /\
    NoDup (flat_map inserts ls).
Proof.
  intros Hn Ht Hb.
  assert (n * (total / n + total mod n) <= two64) as Hb' by (etransitivity; [exact Hb|discriminate]).
  set (f := fun t => match alt_thread n total t with Some l => l | None => [] end).
  assert (forall t, In t (threads n) -> t < n) as Hin.
  { intros t H. unfold threads in H. apply in_map_iff in H as (i & <- & Hi). apply in_seq in Hi. lia. }
  exists (map f (threads n)). split; [|split].
  - rewrite map_map. apply map_ext_in. intros t H. apply Hin in H.
    destruct (alt_thread_ok n total t Hn H Ht Hb') as (l & c & mo & no & E & _). unfold f. now rewrite E.
  - clear Hb. induction (threads n) as [|t ts IH]; simpl; constructor; [|apply IH; intros; apply Hin; now right].
    destruct (alt_thread_ok n total t Hn ltac:(apply Hin; now left) Ht Hb') as (l & c & mo & no & E & _ & E2 & L & _).
    unfold f. rewrite E, E2, L. f_equal. lia.
  - rewrite flat_map_concat_map, map_map, <- flat_map_concat_map.
    pose proof (opsPerThread_val n total 0 Hn ltac:(lia) Ht) as E0. change (0 =? 0) with true in E0. cbn [negb] in E0.
    assert (forall t, In t (threads n) -> exists c, (c <= N.to_nat (total / n + total mod n))%nat /\
       inserts (f t) = map (fun i => elem t (total / n + total mod n) (N.of_nat i)) (seq 0 c)) as Hf.
    { intros t H. apply Hin in H. destruct (alt_thread_ok n total t Hn H Ht Hb') as (l & c & mo & no & E & E1 & _ & _ & Hc & I).
      rewrite E0 in E1. injection E1 as <-. exists c. unfold f. rewrite E. auto. }
    set (mo := total / n + total mod n) in *. clearbody mo.
    assert (forall t i c, In t (threads n) -> (c <= N.to_nat mo)%nat -> In i (seq 0 c) -> t * mo + N.of_nat i < 2 ^ 32 /\ N.of_nat i < mo) as Hr.
    { intros t i c H1 H2 H3. apply Hin in H1. apply in_seq in H3. split; [|lia].
      apply N.lt_le_trans with (t * mo + mo); [lia|]. etransitivity; [|exact Hb].
      replace (t * mo + mo) with ((t + 1) * mo) by lia. apply N.mul_le_mono_r. lia. }
    apply NoDup_flat_map.
    + unfold threads. apply FinFun.Injective_map_NoDup; [|apply seq_NoDup]. intros i j. lia.
    + intros t H. destruct (Hf t H) as (c & Hc & ->).
      assert (forall k, (k <= c)%nat -> NoDup (map (fun i => elem t mo (N.of_nat i)) (seq 0 k))) as Hk.
      { intros k Hk. apply NoDup_nth with (d := 0). rewrite map_length, seq_length. intros i j Hi Hj E.
        rewrite !(nth_indep _ 0 (elem t mo (N.of_nat 0))) in E by (rewrite map_length, seq_length; assumption).
        rewrite !(map_nth (fun i => elem t mo (N.of_nat i))), !seq_nth in E by assumption. simpl in E.
        unfold elem, passed in E. apply sext32_inj in E; [lia| |].
        - apply (Hr t i c); [assumption|assumption|apply in_seq; lia].
        - apply (Hr t j c); [assumption|assumption|apply in_seq; lia]. }
      apply Hk. lia.
    + intros t t' b H H' Hb1 Hb2. destruct (Hf t H) as (c & Hc & E1). destruct (Hf t' H') as (c' & Hc' & E2).
      rewrite E1 in Hb1. rewrite E2 in Hb2. apply in_map_iff in Hb1 as (i & Ei & Hi). apply in_map_iff in Hb2 as (j & Ej & Hj).
      destruct (Hr t i c H Hc Hi) as [R1 R2]. destruct (Hr t' j c' H' Hc' Hj) as [R3 R4].
      rewrite <- Ej in Ei. unfold elem, passed in Ei. apply sext32_inj in Ei; [|assumption|assumption].
      rewrite (N.div_unique (t * mo + N.of_nat i) mo t (N.of_nat i)) by lia.
      rewrite (N.div_unique (t' * mo + N.of_nat j) mo t' (N.of_nat j)) by lia. now rewrite Ei.
Qed.
