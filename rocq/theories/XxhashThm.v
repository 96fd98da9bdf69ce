(** Proofs about the 64-bit xxHash. *)
From Coq Require Import Arith NArith Bool List Lia.
From Verif Require Import Word Xxhash.
Import ListNotations.
Local Open Scope N_scope.

Lemma two64_pos : two64 <> 0. Proof. discriminate. Qed.
Lemma mul64_lt a b : mul64 a b < two64. Proof. apply N.mod_lt, two64_pos. Qed.
Lemma add64_lt a b : add64 a b < two64. Proof. apply N.mod_lt, two64_pos. Qed.

Lemma mul64_inj p q a b : mul64 p q = 1 -> a < two64 -> b < two64 -> mul64 a p = mul64 b p -> a = b.
Proof.
  unfold mul64. intros H Ha Hb E.
  assert (K : forall x, x < two64 -> ((x * p) mod two64 * q) mod two64 = x).
  { intros x Hx. rewrite N.mul_mod_idemp_l by apply two64_pos. rewrite <- N.mul_assoc. rewrite <- N.mul_mod_idemp_r by apply two64_pos.
    rewrite H, N.mul_1_r. apply N.mod_small, Hx. }
  rewrite <- (K a Ha), <- (K b Hb), E. reflexivity.
Qed.
Lemma add64_inj p a b : a < two64 -> b < two64 -> add64 a p = add64 b p -> a = b.
Proof.
  unfold add64. intros Ha Hb E.
  assert (K : forall x, x < two64 -> ((x + p) mod two64 + (two64 - p mod two64)) mod two64 = x).
  { intros x Hx. rewrite N.add_mod_idemp_l by apply two64_pos.
    pose proof (N.mod_lt p two64 two64_pos) as Hp. rewrite (N.div_mod p two64 two64_pos) at 1.
    replace (x + (two64 * (p / two64) + p mod two64) + (two64 - p mod two64)) with (x + (p / two64 + 1) * two64) by lia.
    rewrite N.mod_add by apply two64_pos. apply N.mod_small, Hx. }
  rewrite <- (K a Ha), <- (K b Hb), E. reflexivity.
Qed.
Lemma lxor_inj_l x a b : N.lxor x a = N.lxor x b -> a = b.
Proof. intros E. rewrite <- (N.lxor_0_l a), <- (N.lxor_0_l b), <- (N.lxor_nilpotent x), !N.lxor_assoc, E. reflexivity. Qed.

Lemma bits_high x i : x < two64 -> 64 <= i -> N.testbit x i = false.
Proof.
  intros Hx Hi. destruct (N.eq_dec x 0) as [->|H0]; [apply N.bits_0|]. apply N.bits_above_log2.
  apply N.lt_le_trans with 64; [|exact Hi]. apply N.log2_lt_pow2; [lia|exact Hx].
Qed.
Lemma high_bits x : (forall i, 64 <= i -> N.testbit x i = false) -> x < two64.
Proof.
  intros H. destruct (N.eq_dec x 0) as [->|H0]; [reflexivity|]. apply N.log2_lt_pow2; [lia|].
  destruct (N.lt_ge_cases (N.log2 x) 64) as [L|L]; [exact L|]. specialize (H _ L). rewrite N.bit_log2 in H by exact H0. discriminate.
Qed.
Lemma lxor_lt a b : a < two64 -> b < two64 -> N.lxor a b < two64.
Proof. intros Ha Hb. apply high_bits. intros i Hi. rewrite N.lxor_spec, !bits_high by assumption. reflexivity. Qed.
Lemma shr64_lt a n : a < two64 -> shr64 a n < two64.
Proof. intros Ha. apply high_bits. intros i Hi. unfold shr64. rewrite N.shiftr_spec by lia. apply bits_high; [exact Ha|lia]. Qed.

(** [h ^= h >> s] *)
Lemma xorshift_inj s a b : 0 < s -> a < two64 -> b < two64 -> N.lxor a (shr64 a s) = N.lxor b (shr64 b s) -> a = b.
Proof.
  intros Hs Ha Hb E.
  assert (K : forall n i, 64 - i <= N.of_nat n -> N.testbit a i = N.testbit b i).
  { induction n as [|n IH]; intros i Hi; [rewrite !bits_high by (assumption || lia); reflexivity|].
    destruct (N.le_gt_cases 64 i) as [L|L]; [rewrite !bits_high by (assumption || lia); reflexivity|].
    assert (Ei : N.testbit (N.lxor a (shr64 a s)) i = N.testbit (N.lxor b (shr64 b s)) i) by (rewrite E; reflexivity).
    unfold shr64 in Ei. rewrite !N.lxor_spec, !N.shiftr_spec in Ei by lia. rewrite (IH (i + s)) in Ei by lia.
    destruct (N.testbit a i), (N.testbit b i), (N.testbit b (i + s)); cbn in Ei; congruence. }
  apply N.bits_inj. intros i. apply (K 64%nat). lia.
Qed.

Lemma rotl_bits x r i : x < two64 -> r <= 64 -> i < 64 ->
  N.testbit (rotl64 x r) i = if i <? r then N.testbit x (64 - r + i) else N.testbit x (i - r).
Proof.
  intros Hx Hr Hi. unfold rotl64, shl64, shr64. rewrite N.lor_spec. change two64 with (2 ^ 64). rewrite N.mod_pow2_bits_low by exact Hi.
  rewrite N.shiftr_spec by lia. destruct (N.ltb_spec i r) as [L|L].
  - rewrite N.shiftl_spec_low by exact L. cbn. f_equal. lia.
  - rewrite N.shiftl_spec_high by lia. rewrite (bits_high x (i + (64 - r))) by (assumption || lia). apply orb_false_r.
Qed.
Lemma rotl_lt x r : x < two64 -> rotl64 x r < two64.
Proof.
  intros Hx. unfold rotl64. apply high_bits. intros i Hi. rewrite N.lor_spec.
  rewrite (bits_high (shl64 x r)) by (try exact Hi; apply N.mod_lt, two64_pos).
  rewrite (bits_high (shr64 x (64 - r))) by (try exact Hi; apply shr64_lt, Hx). reflexivity.
Qed.
Lemma rotl_inj r a b : r <= 64 -> a < two64 -> b < two64 -> rotl64 a r = rotl64 b r -> a = b.
Proof.
  intros Hr Ha Hb E. apply N.bits_inj. intros i. destruct (N.le_gt_cases 64 i) as [L|L]; [rewrite !bits_high by assumption; reflexivity|].
  destruct (N.le_gt_cases (64 - r) i) as [M|M].
  - assert (Ei : N.testbit (rotl64 a r) (i - (64 - r)) = N.testbit (rotl64 b r) (i - (64 - r))) by (rewrite E; reflexivity).
    rewrite !rotl_bits in Ei by (assumption || lia). destruct (N.ltb_spec (i - (64 - r)) r); [|lia].
    replace (64 - r + (i - (64 - r))) with i in Ei by lia. exact Ei.
  - assert (Ei : N.testbit (rotl64 a r) (i + r) = N.testbit (rotl64 b r) (i + r)) by (rewrite E; reflexivity).
    rewrite !rotl_bits in Ei by (assumption || lia). destruct (N.ltb_spec (i + r) r); [lia|].
    replace (i + r - r) with i in Ei by lia. exact Ei.
Qed.

(** The inverses of the multipliers modulo 2^64. *)
Lemma inv1 : mul64 PRIME1 614540362697595703 = 1. Proof. vm_compute. reflexivity. Qed.
Lemma inv2 : mul64 PRIME2 839798700976720815 = 1. Proof. vm_compute. reflexivity. Qed.
Lemma inv3 : mul64 PRIME3 16855272203555305545 = 1. Proof. vm_compute. reflexivity. Qed.

Lemma round_lt a b : round a b < two64. Proof. apply mul64_lt. Qed.
Lemma round_inj a x y : x < two64 -> y < two64 -> round a x = round a y -> x = y.
Proof.
  unfold round. intros Hx Hy E.
  apply (mul64_inj _ _ _ _ inv1) in E; [|apply rotl_lt, add64_lt|apply rotl_lt, add64_lt].
  apply rotl_inj in E; [|discriminate|apply add64_lt|apply add64_lt].
  unfold add64 in E. rewrite (N.add_comm a), (N.add_comm a) in E. apply add64_inj in E; [|apply mul64_lt|apply mul64_lt].
  apply (mul64_inj _ _ _ _ inv2) in E; assumption.
Qed.
Lemma avalanche_inj a b : a < two64 -> b < two64 -> avalanche a = avalanche b -> a = b.
Proof.
  unfold avalanche. cbn zeta. intros Ha Hb E.
  apply xorshift_inj in E; [|reflexivity|apply mul64_lt|apply mul64_lt].
  apply (mul64_inj _ _ _ _ inv3) in E; [|apply lxor_lt; [|apply shr64_lt]; apply mul64_lt|apply lxor_lt; [|apply shr64_lt]; apply mul64_lt].
  apply xorshift_inj in E; [|reflexivity|apply mul64_lt|apply mul64_lt].
  apply (mul64_inj _ _ _ _ inv2) in E; [|apply lxor_lt; [|apply shr64_lt]; assumption|apply lxor_lt; [|apply shr64_lt]; assumption].
  apply xorshift_inj in E; [exact E|reflexivity|exact Ha|exact Hb].
Qed.
Lemma avalanche_lt a : avalanche a < two64.
Proof. unfold avalanche. cbn zeta. apply lxor_lt; [|apply shr64_lt]; apply mul64_lt. Qed.

Lemma readLE_bytes n x : x < 256 ^ N.of_nat n -> readLE (bytes_of n x) = x.
Proof.
  revert x. induction n as [|n IH]; intros x Hx; [cbn in *; lia|]. cbn [bytes_of readLE].
  rewrite IH; [symmetry; rewrite N.add_comm; apply N.div_mod; discriminate|].
  apply N.div_lt_upper_bound; [discriminate|]. rewrite Nat2N.inj_succ, N.pow_succ_r' in Hx. exact Hx.
Qed.
Lemma xxhash_key_eq k : k < two64 ->
  xxhash_key k = avalanche (add64 (mul64 (rotl64 (N.lxor (add64 (add64 0 PRIME5) 8) (round 0 k)) 27) PRIME1) PRIME4).
Proof.
  intros Hk. rewrite <- (readLE_bytes 8 k Hk) at 2. reflexivity.
Qed.
Lemma xxhash_key_lt k : k < two64 -> xxhash_key k < two64.
Proof. intros Hk. rewrite xxhash_key_eq by exact Hk. apply avalanche_lt. Qed.
Lemma xxhash_key_inj k k' : k < two64 -> k' < two64 -> xxhash_key k = xxhash_key k' -> k = k'.
Proof.
  intros Hk Hk' E. rewrite !xxhash_key_eq in E by assumption.
  apply avalanche_inj in E; [|apply add64_lt|apply add64_lt]. apply add64_inj in E; [|apply mul64_lt|apply mul64_lt].
  assert (Hx : forall x, N.lxor (add64 (add64 0 PRIME5) 8) (round 0 x) < two64) by (intros x; apply lxor_lt; [apply add64_lt|apply round_lt]).
  apply (mul64_inj _ _ _ _ inv1) in E; [|apply rotl_lt, Hx|apply rotl_lt, Hx].
  apply rotl_inj in E; [|discriminate|apply Hx|apply Hx]. apply lxor_inj_l in E. apply round_inj in E; assumption.
Qed.

(** ** Streaming *)
Lemma stripes_fuel n v l : (length l <= n)%nat -> stripes n v l = stripes (length l) v l.
Proof.
  revert v l. induction n as [n IH] using lt_wf_ind. intros v l H. destruct n as [|n]; [destruct l; [reflexivity|cbn in H; lia]|].
  cbn [stripes]. destruct (32 <=? length l)%nat eqn:E.
  - apply Nat.leb_le in E. destruct (length l) as [|m] eqn:El; [lia|]. cbn [stripes]. rewrite El.
    assert (Hs : (length (skipn 32 l) = S m - 32)%nat) by (rewrite skipn_length, El; reflexivity).
    replace (32 <=? S m)%nat with true by (symmetry; apply Nat.leb_le; exact E).
    rewrite IH by (rewrite ?Hs; lia). symmetry. apply IH; rewrite ?Hs; lia.
  - destruct (length l) as [|m] eqn:El; [reflexivity|]. cbn [stripes]. rewrite El, E. reflexivity.
Qed.
Definition strp (v : accs) (l : list N) : accs * list N := stripes (length l) v l.
Lemma strp_short v l : (length l < 32)%nat -> strp v l = (v, l).
Proof. intros H. unfold strp. destruct (length l) as [|n] eqn:E; [reflexivity|]. cbn [stripes]. rewrite E. destruct (Nat.leb_spec 32 (S n)); [lia|reflexivity]. Qed.
Lemma strp_long v l : (32 <= length l)%nat -> strp v l = strp (stripe v l) (skipn 32 l).
Proof.
  intros H. unfold strp at 1. destruct (length l) as [|n] eqn:E; [lia|]. cbn [stripes]. rewrite E.
  destruct (Nat.leb_spec 32 (S n)); [|lia]. apply stripes_fuel. rewrite skipn_length, E. lia.
Qed.
Lemma word_app l l' i : (i + 8 <= length l)%nat -> word_at (l ++ l') i = word_at l i.
Proof.
  intros H. unfold word_at. rewrite skipn_app, firstn_app. rewrite skipn_length.
  replace (8 - (length l - i))%nat with 0%nat by lia. cbn [firstn]. rewrite app_nil_r. reflexivity.
Qed.
Lemma stripe_app v l l' : (32 <= length l)%nat -> stripe v (l ++ l') = stripe v l.
Proof. intros H. destruct v as [[[v1 v2] v3] v4]. cbn [stripe]. rewrite !word_app by lia. reflexivity. Qed.
Lemma strp_app v l l' : strp v (l ++ l') = strp (fst (strp v l)) (snd (strp v l) ++ l').
Proof.
  remember (length l) as n eqn:E. revert v l E. induction n as [n IH] using lt_wf_ind. intros v l ->.
  destruct (Nat.le_gt_cases 32 (length l)) as [L|L].
  - rewrite (strp_long v l L), (strp_long v (l ++ l')) by (rewrite app_length; lia). rewrite stripe_app by exact L.
    rewrite skipn_app. replace (32 - length l)%nat with 0%nat by lia. cbn [skipn].
    apply (IH (length (skipn 32 l))); [rewrite skipn_length; lia|reflexivity].
  - rewrite (strp_short v l L). reflexivity.
Qed.
Lemma strp_rest v l : (length (snd (strp v l)) < 32)%nat.
Proof.
  remember (length l) as n eqn:E. revert v l E. induction n as [n IH] using lt_wf_ind. intros v l ->.
  destruct (Nat.le_gt_cases 32 (length l)) as [L|L].
  - rewrite (strp_long v l L). apply (IH (length (skipn 32 l))); [rewrite skipn_length; lia|reflexivity].
  - rewrite (strp_short v l L). exact L.
Qed.

(** The state after the input [d]. *)
Definition holds (seed : N) (d : list N) (s : hstate) : Prop :=
  h_total s = N.of_nat (length d) /\ h_acc s = fst (strp (acc0 seed) d) /\ length (h_mem s) = 32%nat /\
  h_memsize s = length (snd (strp (acc0 seed) d)) /\ firstn (h_memsize s) (h_mem s) = snd (strp (acc0 seed) d).
Lemma holds_new seed : holds seed [] (h_new seed).
Proof. repeat split. Qed.

Lemma memcpy_length mem off src : (off + length src <= length mem)%nat -> length (memcpy mem off src) = length mem.
Proof. intros H. unfold memcpy. rewrite !app_length, firstn_length, skipn_length. lia. Qed.
Lemma memcpy_first mem off src : (off + length src <= length mem)%nat -> firstn (off + length src) (memcpy mem off src) = firstn off mem ++ src.
Proof.
  intros H. unfold memcpy. rewrite app_assoc, firstn_app. rewrite app_length, firstn_length.
  replace (off + length src - (Nat.min off (length mem) + length src))%nat with 0%nat by lia. cbn [firstn]. rewrite app_nil_r.
  apply firstn_all2. rewrite app_length, firstn_length. lia.
Qed.

Lemma holds_update seed d s input : holds seed d s -> N.of_nat (length (d ++ input)) < two64 -> holds seed (d ++ input) (h_update s input).
Proof.
  intros (H1 & H2 & H3 & H4 & H5) Hlt. unfold h_update.
  assert (Ht : add64 (h_total s) (N.of_nat (length input)) = N.of_nat (length (d ++ input))).
  { rewrite H1. unfold add64. rewrite <- Nat2N.inj_add, <- app_length. apply N.mod_small, Hlt. }
  rewrite Ht. pose proof (strp_rest (acc0 seed) d) as Hr. pose proof (strp_app (acc0 seed) d input) as Ha.
  remember (fst (strp (acc0 seed) d)) as acc eqn:Eacc. remember (snd (strp (acc0 seed) d)) as rest eqn:Er.
  rewrite <- H4 in Hr.
  destruct (Nat.ltb_spec (h_memsize s + length input) 32) as [L|L].
  - assert (Hs : strp (acc0 seed) (d ++ input) = (acc, rest ++ input)).
    { rewrite Ha. apply strp_short. rewrite app_length. lia. }
    unfold holds. rewrite Hs. cbn [h_total h_acc h_mem h_memsize fst snd]. repeat split.
    + exact H2.
    + rewrite memcpy_length by lia. exact H3.
    + rewrite app_length. lia.
    + rewrite memcpy_first by lia. rewrite H5. reflexivity.
  - assert (Hend : forall acc' mem p, length mem = 32%nat -> strp acc' p = strp acc (rest ++ input) ->
      holds seed (d ++ input) (let (a2, p2) := strp acc' p in
        if (0 <? length p2)%nat then mkH (N.of_nat (length (d ++ input))) a2 (memcpy mem 0 p2) (length p2)
        else mkH (N.of_nat (length (d ++ input))) a2 mem 0)).
    { intros acc' mem p Hmem E. rewrite E, <- Ha. pose proof (strp_rest (acc0 seed) (d ++ input)) as Hr'.
      unfold holds. destruct (strp (acc0 seed) (d ++ input)) as [a2 p2] eqn:Es. cbn [fst snd] in *.
      destruct (Nat.ltb_spec 0 (length p2)) as [M|M]; cbn [h_total h_acc h_mem h_memsize].
      - repeat split; [rewrite memcpy_length by (cbn; lia); exact Hmem|]. exact (memcpy_first mem 0 p2 ltac:(cbn; lia)).
      - destruct p2; [|cbn in M; lia]. repeat split. exact Hmem. }
    destruct (Nat.ltb_spec 0 (h_memsize s)) as [M|M]; cbn zeta.
    + set (take := (32 - h_memsize s)%nat). set (mem := memcpy (h_mem s) (h_memsize s) (firstn take input)).
      assert (Hf : length (firstn take input) = take) by (rewrite firstn_length; unfold take; lia).
      assert (Hm : mem = rest ++ firstn take input).
      { assert (E : firstn (h_memsize s + length (firstn take input)) mem = rest ++ firstn take input).
        { unfold mem. rewrite memcpy_first by (rewrite Hf; unfold take; lia). rewrite H5. reflexivity. }
        rewrite <- E, Hf. symmetry. apply firstn_all2. unfold mem. rewrite memcpy_length by (rewrite Hf; unfold take; lia). unfold take. lia. }
      assert (Hlen : length mem = 32%nat) by (rewrite Hm, app_length, Hf; unfold take; lia).
      apply Hend; [exact Hlen|]. rewrite <- (firstn_skipn take input) at 2. rewrite app_assoc, <- Hm.
      rewrite (strp_long acc (mem ++ skipn take input)) by (rewrite app_length; lia). rewrite stripe_app by lia. rewrite H2.
      f_equal. rewrite skipn_app, Hlen. cbn [Nat.sub]. rewrite (skipn_all2 mem) by lia. reflexivity.
    + assert (Z : h_memsize s = 0%nat) by lia. rewrite Z. apply Hend; [exact H3|]. rewrite H2.
      assert (rest = []) as -> by (destruct rest; [reflexivity|cbn in H4; lia]). reflexivity.
Qed.

Lemma digest_holds seed d s : holds seed d s -> h_digest s = xxhash64 d seed.
Proof.
  intros (H1 & H2 & _ & H4 & H5). unfold h_digest, xxhash64. rewrite H5, H1, H2.
  change (stripes (length d) (acc0 seed) d) with (strp (acc0 seed) d).
  destruct (Nat.leb_spec 32 (length d)) as [L|L].
  - replace (32 <=? N.of_nat (length d)) with true by (symmetry; apply N.leb_le; lia).
    destruct (strp (acc0 seed) d) as [v l]. reflexivity.
  - replace (32 <=? N.of_nat (length d)) with false by (symmetry; apply N.leb_gt; lia).
    rewrite strp_short by exact L. reflexivity.
Qed.
Lemma streaming seed chunks : N.of_nat (length (concat chunks)) < two64 ->
  h_digest (fold_left h_update chunks (h_new seed)) = xxhash64 (concat chunks) seed.
Proof.
  intros Hlt. apply digest_holds.
  assert (K : forall cs d s, holds seed d s -> N.of_nat (length (d ++ concat cs)) < two64 -> holds seed (d ++ concat cs) (fold_left h_update cs s)).
  { induction cs as [|c cs IH]; intros d s Hs Hl; cbn [concat fold_left] in *; [rewrite app_nil_r; exact Hs|].
    rewrite app_assoc in *. apply IH; [|exact Hl]. apply holds_update; [exact Hs|]. rewrite app_length in Hl. lia. }
  apply (K chunks [] (h_new seed) (holds_new seed) Hlt).
Qed.
