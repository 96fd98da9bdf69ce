(** Single-threaded get. *)
From Coq Require Import NArith Bool List Lia.
From stdpp Require Import base list gmap.
From Verif Require Import Word Bits Prog HashMap Abs Probe SeqInv SeqCopy SeqHelp SeqPut.
Import ListNotations.

(** get and put agree on the home position in tables of at most 2^32 entries. *)
Lemma sext32_mod h e : e <= 32 -> (sext32 h mod 2 ^ N.of_nat e = h mod 2 ^ N.of_nat e)%N.
Proof.
  intros He. unfold sext32. cbv zeta.
  assert (Hlo : ((h mod 2 ^ 32) mod 2 ^ N.of_nat e = h mod 2 ^ N.of_nat e)%N).
  { apply N.bits_inj. intros b. destruct (N.lt_ge_cases b (N.of_nat e)).
    - rewrite !N.mod_pow2_bits_low by lia. reflexivity.
    - rewrite !N.mod_pow2_bits_high by lia. reflexivity. }
  destruct (_ <? _)%N; [exact Hlo|].
  rewrite <- Hlo. set (lo := (h mod 2 ^ 32)%N).
  assert (Hd : (two64 - 2 ^ 32 = (2 ^ 32 - 1) * 2 ^ (32 - N.of_nat e) * 2 ^ N.of_nat e)%N).
  { rewrite <- N.mul_assoc, <- N.pow_add_r. replace (32 - N.of_nat e + N.of_nat e)%N with 32%N by lia. reflexivity. }
  rewrite Hd, N.add_comm, N.mod_add by (apply N.pow_nonzero; lia). reflexivity.
Qed.

Lemma mask_sext32 h e : e <= 32 -> mask (sext32 h) (2 ^ e) = mask h (2 ^ e).
Proof.
  intros He. unfold mask. rewrite Nat2N.inj_pow. change (N.of_nat 2) with 2%N.
  replace (2 ^ N.of_nat e - 1)%N with (N.ones (N.of_nat e)) by (rewrite N.ones_equiv; lia).
  rewrite !N.land_ones, sext32_mod by exact He. reflexivity.
Qed.

Section Get.
Context (C : cfg) (E : err -> Prop).
Context (HAF : E AllocFail).

Definition get_post (k : N) (m : gmap N N) (sz : option N) (a : state) (r : N) (a' : state) : Prop :=
  ready C sz a' m /\ r = default VINITIAL (m !! k) /\ st_maxcap a' = st_maxcap a /\ st_top a <= st_top a'.

Lemma wp_getLoop n2 rec t k T a (Q : N -> state -> Prop) :
  st_tabs a !! t = Some T -> 0 < t_len T -> k <> KINITIAL ->
  forall n c f, c + f = reprobeLimit (t_len T) -> 0 < f -> FU E n (f + HELP (st_maxcap a)) ->
  match probe f (t_pairs T) (t_len T) (hash C k) k c with
  | PEmpty i _ => Q VINITIAL a
  | PFound i _ =>
      if isMarked (valat (t_pairs T) i) MigrationFlag
      then forall n', FU E n' (HELP (st_maxcap a)) ->
        wp E (nt <-- copySlotAndCheck C n' (putIfMatch C n2 (CASvalue C)) t i false;; rec nt)%prog Q a
      else Q (if (valat (t_pairs T) i =? VTOMBSTONE)%N then VINITIAL else valat (t_pairs T) i) a
  | PFull =>
      match t_new T with
      | None => Q VINITIAL a
      | Some nt => forall n', FU E n' (HELP (st_maxcap a)) ->
          wp E (h <-- helpCopy C n' (putIfMatch C n2 (CASvalue C)) nt;; rec h)%prog Q a
      end
  end ->
  wp E (getLoop C n (putIfMatch C n2 (CASvalue C)) rec t k (t_len T) (pos (hash C k) (t_len T) c) c) Q a.
Proof.
  intros HT Hlen Hk. induction n as [|n IH]; intros c f Hf Hpos HF H.
  { cbn. apply wp_err. destruct HF; [assumption|lia]. }
  cbn [getLoop]. destruct f as [|f]; [lia|]. cbn [probe] in H.
  set (idx := pos (hash C k) (t_len T) c) in *.
  assert (Hidx : idx < t_len T) by (apply pos_lt; auto).
  assert (FU' : FU E n (f + HELP (st_maxcap a))) by (destruct HF; [left; assumption|right; lia]).
  assert (FUH : FU E n (HELP (st_maxcap a))) by (eapply FU_le; [exact FU'|lia]).
  apply wp_bind. eapply wp_key; [exact HT|exact Hidx|]. rewrite (read_key _ _ _ _ HT).
  apply wp_bind. eapply wp_value; [exact HT|exact Hidx|]. rewrite (read_val _ _ _ _ HT).
  destruct (N.eqb_spec (keyat (t_pairs T) idx) KINITIAL) as [HK|HK].
  { apply wp_ret. exact H. }
  apply wp_bind. eapply wp_LoadNew; [exact HT|].
  destruct (N.eqb_spec (keyat (t_pairs T) idx) k) as [HKk|HKk].
  - destruct (isMarked (valat (t_pairs T) idx) MigrationFlag) eqn:Hmk; cbn [negb].
    + assert ((k =? KINITIAL)%N = false) as -> by (apply N.eqb_neq; exact Hk). apply H. exact FUH.
    + apply wp_ret. exact H.
  - destruct (N.eqb_spec (keyat (t_pairs T) idx) KTOMBSTONE) as [HKt|HKt].
    + rewrite orb_true_r. destruct (t_new T); [apply H; exact FUH|apply wp_ret; exact H].
    + rewrite orb_false_r. destruct (Nat.leb_spec (reprobeLimit (t_len T)) (S c)).
      * assert (f = 0) as -> by lia. cbn [probe] in H. destruct (t_new T); [apply H; exact FUH|apply wp_ret; exact H].
      * apply (IH (S c) f); auto; lia.
Qed.

Lemma wp_getImpl n : forall sz a m j T k (Q : N -> state -> Prop),
  ready C sz a m -> j <= st_top a -> st_tabs a !! j = Some T -> client_key k ->
  (st_maxcap a <= 2 ^ 32)%N ->
  FU E n (S (FUEL (st_maxcap a) + lv (st_maxcap a) (t_len T))) ->
  (forall r a', get_post k m sz a r a' -> (S j = length (st_tabs a) -> a' = a) -> Q r a') ->
  wp E (getImpl C n j k (hash C k)) Q a.
Proof.
  induction n as [|n IH]; intros sz a m j T k Q HR Hj HT Hck Hmax HF HQ.
  { apply wp_err. destruct HF; [assumption|lia]. }
  apply FU_S in HF. cbn [getImpl].
  pose proof HR as [HS HD Hcz]. pose proof Hck as (Hkc & Hk1 & Hk2).
  pose proof (s_tw _ _ _ _ _ HS _ _ HT) as HTW. pose proof (LIM_ge _ _ _ HTW) as HLIM.
  apply wp_bind. eapply wp_Len; [exact HT|].
  assert (Hpos0 : mask (sext32 (hash C k)) (t_len T) = pos (hash C k) (t_len T) 0).
  { destruct (tw_pow _ _ _ HTW) as (e & He & _). rewrite He. cbn [pos]. apply mask_sext32.
    pose proof (tw_le_max _ _ _ HTW) as Hle. rewrite He, Nat2N.inj_pow in Hle.
    assert (2 ^ N.of_nat e <= 2 ^ 32)%N by (eapply N.le_trans; eassumption).
    apply N.pow_le_mono_r_iff in H; lia. }
  rewrite Hpos0.
  assert (Hfwd : forall j' T', j' < j -> st_tabs a !! j' = Some T' -> fwd C T' k).
  { intros j' T' Hj' HT'. eapply dead_fwd; [exact HS| |exact HT']. lia. }
  assert (Hself : forall r, r = default VINITIAL (m !! k) -> Q r a).
  { intros r Hr. apply HQ; [|reflexivity]. split; [exact HR|]. split; [exact Hr|]. split; [reflexivity|lia]. }
  assert (Hrec : forall a1, moved C j T sz m a a1 -> S j <> length (st_tabs a) ->
             wp E (getImpl C n (S j) k (hash C k)) Q a1).
  { intros a1 (M1 & M2 & M3 & M4 & TN & M5 & M6) Hne.
    eapply (IH sz a1 m (S j) TN); auto.
    - lia.
    - pose proof (s_tw _ _ _ _ _ (r_si _ _ _ _ M1) _ _ M5) as HTWN.
      rewrite M2 in *. pose proof (lv_step _ _ _ _ HTW HTWN M6) as Hlv.
      eapply FU_le; [exact HF|]. lia.
    - intros r a2 (G1 & G2 & G3 & G4) _. apply HQ; [|intros; contradiction].
      split; [exact G1|]. split; [exact G2|]. split; [congruence|lia]. }
  assert (HF2 : FU E n (FUEL (st_maxcap a))) by (eapply FU_le; [exact HF|lia]).
  apply (wp_getLoop n _ j k T a Q HT) with (f := reprobeLimit (t_len T)); auto.
  { apply (tw_pos _ _ _ HTW). }
  { unfold reprobeLimit, REPROBE_LIMIT. lia. }
  { eapply FU_le; [exact HF|]. unfold FUEL. lia. }
  fold (probeT C T k). destruct (probeT C T k) as [i c|i c|] eqn:Hp.
  - assert (Hi : i < t_len T) by (eapply probeT_lt; [exact HTW|left; exact Hp]).
    destruct (isMarked (valat (t_pairs T) i) MigrationFlag) eqn:Hmk.
    + intros n' HF'.
      assert (Hl : S j < length (st_tabs a)).
      { pose proof (lookup_lt_Some _ _ _ HT). destruct (Nat.eq_dec (S j) (length (st_tabs a))) as [He|]; [|lia].
        exfalso. eapply marked_unmarked; [exact Hmk|]. eapply (proj1 (s_last _ _ _ _ _ HS _ _ _ HT ltac:(lia) ltac:(eauto))). }
      apply wp_bind. eapply (wp_copySlotAndCheck C E HAF n' n a sz m j T i); auto.
      * apply not_live_marked. exact Hmk.
      * intros a1 Hmv. apply Hrec; [exact Hmv|lia].
    + apply Hself. rewrite (dict_found _ _ _ _ _ _ _ _ _ _ _ HS HD HT Hck Hp Hmk).
      set (V := valat (t_pairs T) i) in *. destruct (live_dec V) as [(_ & _ & H)|Hl].
      * apply N.eqb_neq in H. rewrite H. reflexivity.
      * cbn. destruct (N.eqb_spec V VTOMBSTONE) as [|H2]; [reflexivity|].
        destruct (N.eq_dec V VINITIAL) as [|H1]; [assumption|]. exfalso. apply Hl. repeat split; assumption.
  - apply Hself. rewrite (dict_empty _ _ _ _ _ _ _ _ _ _ _ HS HD HT Hck Hfwd Hp). reflexivity.
  - rewrite (s_new _ _ _ _ _ HS _ _ HT). destruct (Nat.ltb_spec (S j) (length (st_tabs a))) as [Hl|Hl].
    + intros n' HF'. apply wp_bind.
      eapply (wp_helpCopy C E n' _ a (S j) m sz); auto.
      * intros _. apply put_ok_intro; [exact HAF|exact HF2].
      * intros a1 H1. apply Hrec; [|lia]. eapply moved_help; eauto.
    + apply Hself. rewrite (dict_none _ _ _ _ _ _ _ HS HD Hck); [reflexivity|].
      intros j' T' HT' _. destruct (lt_eq_lt_dec j' j) as [[Hlt|Heq]|Hgt].
      * eapply Hfwd; eauto.
      * subst j'. assert (T' = T) as -> by congruence. apply fwd_full. exact Hp.
      * apply lookup_lt_Some in HT'. lia.
Qed.

End Get.
