(** Probing one table: where the search for a key ends. *)
From Coq Require Import NArith Bool List Lia.
From stdpp Require Import base list.
From Verif Require Import Word Bits Prog HashMap Abs.
Import ListNotations.

Definition keyat (ps : list pair_) (i : nat) : N := match ps !! i with Some p => fst p | None => 0%N end.
Definition valat (ps : list pair_) (i : nat) : N := match ps !! i with Some p => snd p | None => 0%N end.

(** The [c]-th position visited for hash [h]. *)
Fixpoint pos (h : N) (len c : nat) : nat :=
  match c with
  | O => mask h len
  | S c' => mask (N.of_nat (pos h len c') + 1) len
  end.

Inductive pres := PFound (i c : nat) | PEmpty (i c : nat) | PFull.

Fixpoint probe (f : nat) (ps : list pair_) (len : nat) (h k : N) (c : nat) : pres :=
  match f with
  | O => PFull
  | S f' =>
      let i := pos h len c in
      let K := keyat ps i in
      if (K =? KINITIAL)%N then PEmpty i c
      else if (K =? k)%N then PFound i c
      else if (K =? KTOMBSTONE)%N then PFull
      else probe f' ps len h k (S c)
  end.

Definition probeT (C : cfg) (T : table) (k : N) : pres :=
  probe (reprobeLimit (t_len T)) (t_pairs T) (t_len T) (hash C k) k 0.

Lemma land_le_r a b : (N.land a b <= b)%N.
Proof.
  apply N.ldiff_le. apply N.bits_inj. intros n. rewrite N.ldiff_spec, N.land_spec, N.bits_0.
  destruct (N.testbit a n), (N.testbit b n); reflexivity.
Qed.

Lemma mask_lt x len : 0 < len -> mask x len < len.
Proof.
  intros H. unfold mask. pose proof (land_le_r x (N.of_nat len - 1)).
  assert (N.land x (N.of_nat len - 1) < N.of_nat len)%N by lia. lia.
Qed.

Lemma pos_lt h len c : 0 < len -> pos h len c < len.
Proof. intros H. destruct c; apply mask_lt; auto. Qed.

Definition nonstop (ps : list pair_) (k : N) (i : nat) : Prop :=
  keyat ps i <> KINITIAL /\ keyat ps i <> k /\ keyat ps i <> KTOMBSTONE.

Lemma probe_found f ps len h k c0 i c :
  probe f ps len h k c0 = PFound i c ->
  c0 <= c < c0 + f /\ i = pos h len c /\ keyat ps i = k /\ k <> KINITIAL /\
  forall c', c0 <= c' < c -> nonstop ps k (pos h len c').
Proof.
  revert c0. induction f as [|f IH]; cbn [probe]; intros c0 H; [discriminate|].
  destruct (N.eqb_spec (keyat ps (pos h len c0)) KINITIAL) as [|H1]; [discriminate|].
  destruct (N.eqb_spec (keyat ps (pos h len c0)) k) as [H2|H2].
  - injection H as <- <-. repeat split; try lia; try congruence.
  - destruct (N.eqb_spec (keyat ps (pos h len c0)) KTOMBSTONE) as [|H3]; [discriminate|].
    apply IH in H as (Hc & Hi & Hk & Hn & Hp). split; [lia|]. do 3 (split; [assumption|]).
    intros c' Hc'. destruct (Nat.eq_dec c' c0) as [->|]; [repeat split; assumption|]. apply Hp. lia.
Qed.

Lemma found_intro f ps len h k c0 c :
  c0 <= c < c0 + f -> keyat ps (pos h len c) = k -> k <> KINITIAL ->
  (forall c', c0 <= c' < c -> nonstop ps k (pos h len c')) ->
  probe f ps len h k c0 = PFound (pos h len c) c.
Proof.
  revert c0. induction f as [|f IH]; cbn [probe]; intros c0 Hc Hk Hn Hp; [lia|].
  destruct (Nat.eq_dec c c0) as [<-|Hne].
  - rewrite Hk. apply N.eqb_neq in Hn. rewrite Hn, N.eqb_refl. reflexivity.
  - destruct (Hp c0) as (H1 & H2 & H3); [lia|].
    apply N.eqb_neq in H1, H2, H3. rewrite H1, H2, H3. apply IH; auto; [lia|]. intros; apply Hp; lia.
Qed.

Lemma probe_empty f ps len h k c0 i c :
  probe f ps len h k c0 = PEmpty i c ->
  c0 <= c < c0 + f /\ i = pos h len c /\ keyat ps i = KINITIAL /\
  forall c', c0 <= c' < c -> nonstop ps k (pos h len c').
Proof.
  revert c0. induction f as [|f IH]; cbn [probe]; intros c0 H; [discriminate|].
  destruct (N.eqb_spec (keyat ps (pos h len c0)) KINITIAL) as [H1|H1].
  - injection H as <- <-. repeat split; try lia; try congruence.
  - destruct (N.eqb_spec (keyat ps (pos h len c0)) k) as [H2|H2]; [discriminate|].
    destruct (N.eqb_spec (keyat ps (pos h len c0)) KTOMBSTONE) as [|H3]; [discriminate|].
    apply IH in H as (Hc & Hi & Hk & Hp). split; [lia|]. do 2 (split; [assumption|]).
    intros c' Hc'. destruct (Nat.eq_dec c' c0) as [->|]; [repeat split; assumption|]. apply Hp. lia.
Qed.

Lemma empty_intro f ps len h k c0 c :
  c0 <= c < c0 + f -> keyat ps (pos h len c) = KINITIAL ->
  (forall c', c0 <= c' < c -> nonstop ps k (pos h len c')) ->
  probe f ps len h k c0 = PEmpty (pos h len c) c.
Proof.
  revert c0. induction f as [|f IH]; cbn [probe]; intros c0 Hc Hk Hp; [lia|].
  destruct (Nat.eq_dec c c0) as [<-|Hne].
  - rewrite Hk, N.eqb_refl. reflexivity.
  - destruct (Hp c0) as (H1 & H2 & H3); [lia|].
    apply N.eqb_neq in H1, H2, H3. rewrite H1, H2, H3. apply IH; auto; [lia|]. intros; apply Hp; lia.
Qed.

Lemma probe_ext f ps ps' len h k c :
  (forall i, keyat ps i = keyat ps' i) -> probe f ps len h k c = probe f ps' len h k c.
Proof.
  intros H. revert c. induction f as [|f IH]; cbn [probe]; intros c; [reflexivity|].
  rewrite H, IH. reflexivity.
Qed.

(** *** Changing cells *)

Lemma keyat_set_val ps i w j : keyat (alter (set_cell CVal w) i ps) j = keyat ps j.
Proof.
  unfold keyat. destruct (Nat.eq_dec i j) as [->|Hne].
  - rewrite list_lookup_alter. destruct (ps !! j); reflexivity.
  - rewrite list_lookup_alter_ne by auto. reflexivity.
Qed.

Lemma valat_set_val ps i w : i < length ps -> valat (alter (set_cell CVal w) i ps) i = w.
Proof.
  intros H. unfold valat. rewrite list_lookup_alter.
  destruct (lookup_lt_is_Some_2 ps i H) as [p ->]. reflexivity.
Qed.

Lemma valat_set_val_ne ps i w j : i <> j -> valat (alter (set_cell CVal w) i ps) j = valat ps j.
Proof. intros H. unfold valat. rewrite list_lookup_alter_ne by auto. reflexivity. Qed.

Lemma valat_set_key ps i w j : valat (alter (set_cell CKey w) i ps) j = valat ps j.
Proof.
  unfold valat. destruct (Nat.eq_dec i j) as [->|Hne].
  - rewrite list_lookup_alter. destruct (ps !! j); reflexivity.
  - rewrite list_lookup_alter_ne by auto. reflexivity.
Qed.

Lemma keyat_set_key ps i w : i < length ps -> keyat (alter (set_cell CKey w) i ps) i = w.
Proof.
  intros H. unfold keyat. rewrite list_lookup_alter.
  destruct (lookup_lt_is_Some_2 ps i H) as [p ->]. reflexivity.
Qed.

Lemma keyat_set_key_ne ps i w j : i <> j -> keyat (alter (set_cell CKey w) i ps) j = keyat ps j.
Proof. intros H. unfold keyat. rewrite list_lookup_alter_ne by auto. reflexivity. Qed.

Lemma lookup_keyval (ps : list pair_) i : i < length ps -> ps !! i = Some (keyat ps i, valat ps i).
Proof.
  intros H. unfold keyat, valat. destruct (lookup_lt_is_Some_2 ps i H) as [[k v] ->]. reflexivity.
Qed.

Lemma lookup_keyat (ps : list pair_) i k v : ps !! i = Some (k, v) -> keyat ps i = k /\ valat ps i = v /\ i < length ps.
Proof.
  intros H. unfold keyat, valat. rewrite H. repeat split; auto. eapply lookup_lt_Some; eauto.
Qed.

Lemma probe_set_val f ps len h k c i w :
  probe f (alter (set_cell CVal w) i ps) len h k c = probe f ps len h k c.
Proof. apply probe_ext. intros. apply keyat_set_val. Qed.

Section SetKey.
Context (ps : list pair_) (i0 : nat) (w : N).
Context (Hi0 : i0 < length ps) (Hk0 : keyat ps i0 = KINITIAL) (Hw : w <> KINITIAL).
Let ps' := alter (set_cell CKey w) i0 ps.

Lemma nonstop_set_key k i : nonstop ps k i -> nonstop ps' k i.
Proof.
  intros H. assert (i0 <> i) by (intros <-; destruct H; congruence).
  unfold nonstop, ps'. rewrite keyat_set_key_ne by auto. exact H.
Qed.

Lemma found_set_key f len h k c0 i c :
  probe f ps len h k c0 = PFound i c -> probe f ps' len h k c0 = PFound i c.
Proof.
  intros H. apply probe_found in H as (Hc & -> & Hk & Hn & Hp).
  apply found_intro; auto.
  - unfold ps'. rewrite keyat_set_key_ne; auto. intros ->. congruence.
  - intros. apply nonstop_set_key, Hp. lia.
Qed.

Lemma found_claim f len h c0 c :
  probe f ps len h w c0 = PEmpty i0 c -> probe f ps' len h w c0 = PFound i0 c.
Proof.
  intros H. apply probe_empty in H as (Hc & Hi & Hk & Hp). rewrite Hi. apply found_intro; auto.
  - rewrite <- Hi. apply keyat_set_key. exact Hi0.
  - intros. apply nonstop_set_key, Hp. lia.
Qed.

Lemma empty_set_key f len h k c0 i c :
  probe f ps' len h k c0 = PEmpty i c -> exists i' c', probe f ps len h k c0 = PEmpty i' c'.
Proof.
  revert c0. induction f as [|f IH]; cbn [probe]; intros c0 H; [discriminate|].
  destruct (Nat.eq_dec i0 (pos h len c0)) as [He|Hne].
  - rewrite <- He, Hk0, N.eqb_refl. eauto.
  - unfold ps' in H. rewrite keyat_set_key_ne in H by auto. fold ps' in H.
    destruct (_ =? KINITIAL)%N; [eauto|]. destruct (_ =? k)%N; [discriminate|].
    destruct (_ =? KTOMBSTONE)%N; [discriminate|]. apply IH, H.
Qed.
End SetKey.

(** The probe of an absent key does not find it. *)
Lemma found_key C T k i c : probeT C T k = PFound i c -> keyat (t_pairs T) i = k.
Proof. intros H. apply probe_found in H as (_ & _ & H & _). exact H. Qed.

Lemma read_key a t T i : st_tabs a !! t = Some T -> read_cell a t i CKey = keyat (t_pairs T) i.
Proof. intros H. unfold read_cell, keyat. rewrite H. destruct (t_pairs T !! i); reflexivity. Qed.
Lemma read_val a t T i : st_tabs a !! t = Some T -> read_cell a t i CVal = valat (t_pairs T) i.
Proof. intros H. unfold read_cell, valat. rewrite H. destruct (t_pairs T !! i); reflexivity. Qed.

(** ** The probe loop of putIfMatch *)

Definition upd_slots (T : table) : table := set_fld FSlots (add64 (t_slots T) 1) T.

Section Claim.
Context (C : cfg) (E : err -> Prop).

(** Enough fuel, or running out of fuel is tolerated. *)
Definition FU (n b : nat) : Prop := E OutOfFuel \/ b <= n.

Definition claim_post (T : table) (t : nat) (k newVal : N) (p : pres) (a : state)
    (Q : claimed -> state -> Prop) : Prop :=
  match p with
  | PFull => Q CFull a
  | PFound i c => Q (CSlot i (valat (t_pairs T) i) c) a
  | PEmpty i c =>
      if (newVal =? VTOMBSTONE)%N then Q CRemoved a
      else Q (CSlot i (valat (t_pairs T) i) c)
             (with_tab t upd_slots (with_tab t (aset i CKey k) a))
  end.

Lemma wp_claimSlot n t k newVal T a Q c f :
  st_tabs a !! t = Some T -> 0 < t_len T -> isclean k ->
  c + f = reprobeLimit (t_len T) -> 0 < f -> FU n f ->
  claim_post T t k newVal (probe f (t_pairs T) (t_len T) (hash C k) k c) a Q ->
  wp E (claimSlot C n t k newVal (t_len T) (pos (hash C k) (t_len T) c) c) Q a.
Proof.
  intros HT Hlen Hcl. revert c f. induction n as [|n IH]; intros c f Hf Hpos HF H.
  - cbn. apply wp_err. destruct HF; [assumption|lia].
  - cbn [claimSlot]. destruct f as [|f]; [lia|]. cbn [probe] in H.
    set (idx := pos (hash C k) (t_len T) c) in *.
    assert (Hidx : idx < t_len T) by (apply pos_lt; auto).
    assert (FU' : FU n f) by (destruct HF; [left; assumption|right; lia]).
    apply wp_bind. eapply wp_key; [exact HT|exact Hidx|]. rewrite (read_key _ _ _ _ HT).
    apply wp_bind. eapply wp_value; [exact HT|exact Hidx|]. rewrite (read_val _ _ _ _ HT).
    rewrite <- KINITIAL_val.
    destruct (N.eqb_spec (keyat (t_pairs T) idx) KINITIAL) as [HK|HK].
    + unfold claim_post in H. destruct (newVal =? VTOMBSTONE)%N; [apply wp_ret; exact H|].
      apply wp_bind. eapply wp_CASkey; [exact HT|exact Hidx|].
      unfold cas_post. rewrite (read_key _ _ _ _ HT), HK, N.eqb_refl.
      rewrite clean_id by exact Hcl.
      apply wp_bind. eapply wp_AddF with (T := aset idx CKey k T).
      { unfold with_tab; cbn. rewrite list_lookup_alter, HT. reflexivity. }
      apply wp_ret. exact H.
    + destruct (N.eqb_spec (keyat (t_pairs T) idx) k) as [HKk|HKk].
      * apply wp_ret. exact H.
      * destruct (N.eqb_spec (keyat (t_pairs T) idx) KTOMBSTONE) as [HKt|HKt].
        -- rewrite orb_true_r. apply wp_ret. exact H.
        -- rewrite orb_false_r. destruct (Nat.leb_spec (reprobeLimit (t_len T)) (S c)).
           ++ assert (f = 0) as -> by lia. cbn [probe claim_post] in H. apply wp_ret. exact H.
           ++ apply (IH (S c) f); auto; lia.
Qed.

End Claim.
