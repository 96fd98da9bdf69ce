(** The invariant of single-threaded use, and how memory writes affect it. *)
From Coq Require Import NArith Bool List Lia.
From stdpp Require Import base list gmap.
From Verif Require Import Word Bits Prog HashMap Abs Probe.
Import ListNotations.

Definition client_key (k : N) : Prop := isclean k /\ k <> KINITIAL /\ k <> KTOMBSTONE.
Definition marked (v : N) : Prop := isMarked v MigrationFlag = true.
(** A word that counts as a stored value. *)
Definition live (v : N) : Prop := unmarked v /\ v <> VINITIAL /\ v <> VTOMBSTONE.

Lemma marked_unmarked v : marked v -> unmarked v -> False.
Proof. unfold marked, unmarked. congruence. Qed.
Lemma marked_dec v : {marked v} + {unmarked v}.
Proof. unfold marked, unmarked. destruct (isMarked v MigrationFlag); auto. Qed.
Lemma live_dec v : {live v} + {~ live v}.
Proof.
  unfold live. destruct (marked_dec v) as [H|H].
  - right. intros (H' & _). eauto using marked_unmarked.
  - destruct (N.eq_dec v VINITIAL); [right; tauto|]. destruct (N.eq_dec v VTOMBSTONE); [right; tauto|left; tauto].
Qed.
Lemma TOMBPRIME_not_unmarked : ~ unmarked TOMBPRIME.
Proof. unfold unmarked. rewrite TOMBPRIME_marked. discriminate. Qed.

Definition tombs (ps : list pair_) : nat := length (filter (fun p => snd p = TOMBPRIME) ps).
Definition has_key (T : table) (k : N) : Prop :=
  exists i, i < length (t_pairs T) /\ keyat (t_pairs T) i = k.

Section Inv.
Context (C : cfg).

(** A search for [k] passes through table [T] to the next one. *)
Definition fwd (T : table) (k : N) : Prop :=
  (forall i c, probeT C T k <> PEmpty i c) /\
  (forall i c, probeT C T k = PFound i c -> marked (valat (t_pairs T) i)).

Definition ent_ok (T : table) (i : nat) : Prop :=
  let k := keyat (t_pairs T) i in
  let v := valat (t_pairs T) i in
  (k = KINITIAL /\ v = VINITIAL) \/
  (k = KTOMBSTONE /\ (v = VINITIAL \/ v = TOMBPRIME)) \/
  (client_key k /\ isclean v /\ exists c, probeT C T k = PFound i c).

Record TW (maxcap : N) (T : table) : Prop := {
  tw_pow : exists e, t_len T = 2 ^ e /\ 3 <= e;
  tw_cap : can_alloc (t_len T) maxcap = true;
  tw_length : length (t_pairs T) = t_len T;
  tw_ent : forall i, i < t_len T -> ent_ok T i
}.

(** [ex]: an entry that is being copied; [pd j]: entries of table [j] already replaced by the
    migrated marker but not yet reported; [sz]: the value of all size counters from the current
    table on, if known. *)
Record SI0 (ex : option (nat * nat)) (pd : nat -> nat) (sz : option N) (a : state) : Prop := {
  s_files : forall n, (0 < n)%N -> find_file n (st_files a) = None;
  s_fctr : st_fctr a = N.of_nat (length (st_tabs a));
  s_id : forall j T, st_tabs a !! j = Some T -> t_id T = N.of_nat j;
  s_top : st_top a < length (st_tabs a);
  s_tw : forall j T, st_tabs a !! j = Some T -> TW (st_maxcap a) T;
  s_new : forall j T, st_tabs a !! j = Some T ->
    t_new T = if S j <? length (st_tabs a) then Some (S j) else None;
  s_len : forall j T T', st_tabs a !! j = Some T -> st_tabs a !! S j = Some T' -> t_len T' = 2 * t_len T;
  s_last : forall j T i, st_tabs a !! j = Some T -> S j = length (st_tabs a) ->
    i < t_len T -> unmarked (valat (t_pairs T) i) /\ keyat (t_pairs T) i <> KTOMBSTONE;
  s_uniq : forall j j' T T' k, j < j' -> st_tabs a !! j = Some T -> st_tabs a !! j' = Some T' ->
    client_key k -> has_key T' k -> fwd T k;
  s_dead : forall j T i, j < st_top a -> st_tabs a !! j = Some T -> i < t_len T ->
    valat (t_pairs T) i = TOMBPRIME;
  s_cidx : forall j T, st_top a < j -> st_tabs a !! j = Some T -> t_copyIdx T = 0%N;
  s_done : forall j T, st_tabs a !! j = Some T ->
    N.of_nat (tombs (t_pairs T)) = (t_copyDone T + N.of_nat (pd j))%N;
  s_nm : forall j T i, st_tabs a !! j = Some T -> i < t_len T -> ex <> Some (j, i) ->
    valat (t_pairs T) i = TOMBPRIME \/ unmarked (valat (t_pairs T) i);
  s_size : forall x j T, sz = Some x -> st_top a <= j -> st_tabs a !! j = Some T -> t_size T = x
}.

(** *** Basic consequences *)

Lemma tw_pos m T : TW m T -> 0 < t_len T.
Proof. intros []. destruct tw_pow0 as (e & -> & _). apply Nat.neq_0_lt_0, Nat.pow_nonzero. lia. Qed.

Lemma tw_ge8 m T : TW m T -> 8 <= t_len T.
Proof.
  intros []. destruct tw_pow0 as (e & -> & H). change 8 with (2 ^ 3). apply Nat.pow_le_mono_r; lia.
Qed.

Lemma tw_lt59 m T : TW m T -> (N.of_nat (t_len T) < 2 ^ 59)%N.
Proof. intros []. unfold can_alloc in tw_cap0. apply andb_true_iff in tw_cap0 as [H _]. apply N.ltb_lt, H. Qed.

Lemma tw_le_max m T : TW m T -> (N.of_nat (t_len T) <= m)%N.
Proof. intros []. unfold can_alloc in tw_cap0. apply andb_true_iff in tw_cap0 as [_ H]. apply N.leb_le, H. Qed.

Lemma probeT_lt m T k i c : TW m T -> (probeT C T k = PFound i c \/ probeT C T k = PEmpty i c) -> i < t_len T.
Proof.
  intros H [H1|H1]; [apply probe_found in H1 as (_ & -> & _)|apply probe_empty in H1 as (_ & -> & _)];
    apply pos_lt; eauto using tw_pos.
Qed.

(** A client key sits where its probe ends. *)
Lemma key_probe m T i k : TW m T -> i < t_len T -> keyat (t_pairs T) i = k -> client_key k ->
  exists c, probeT C T k = PFound i c.
Proof.
  intros HT Hi <- (_ & H1 & H2). destruct (tw_ent _ _ HT i Hi) as [[? _]|[[? _]|(_ & _ & H)]]; tauto.
Qed.

Lemma not_fwd_found T k i c : probeT C T k = PFound i c -> unmarked (valat (t_pairs T) i) -> ~ fwd T k.
Proof. intros H1 H2 (_ & H3). eapply marked_unmarked; eauto. Qed.

Lemma not_fwd_empty T k i c : probeT C T k = PEmpty i c -> ~ fwd T k.
Proof. intros H1 (H3 & _). eapply H3; eauto. Qed.

Lemma fwd_full T k : probeT C T k = PFull -> fwd T k.
Proof. intros H. split; intros; rewrite H in *; discriminate. Qed.

Lemma fwd_found T k i c : probeT C T k = PFound i c -> marked (valat (t_pairs T) i) -> fwd T k.
Proof. intros H Hm. split; intros; rewrite H in *; [discriminate|]. congruence. Qed.

(** *** Table updates *)

Lemma with_tab_lookup a t f j :
  st_tabs (with_tab t f a) !! j = if decide (j = t) then f <$> (st_tabs a !! j) else st_tabs a !! j.
Proof.
  unfold with_tab; cbn. destruct (decide (j = t)) as [->|].
  - apply list_lookup_alter.
  - apply list_lookup_alter_ne; auto.
Qed.

Lemma with_tab_same a t f T : st_tabs a !! t = Some T -> st_tabs (with_tab t f a) !! t = Some (f T).
Proof. intros H. rewrite with_tab_lookup, decide_True by auto. rewrite H. reflexivity. Qed.

Lemma with_tab_ne a t f j : j <> t -> st_tabs (with_tab t f a) !! j = st_tabs a !! j.
Proof. intros H. rewrite with_tab_lookup, decide_False by auto. reflexivity. Qed.

Lemma with_tab_length a t f : length (st_tabs (with_tab t f a)) = length (st_tabs a).
Proof. apply alter_length. Qed.

Lemma SI0_upd ex pd sz a t f T ex' pd' sz' :
  SI0 ex pd sz a ->
  st_tabs a !! t = Some T ->
  t_id (f T) = t_id T -> t_len (f T) = t_len T -> t_new (f T) = t_new T -> length (t_pairs (f T)) = length (t_pairs T) ->
  (forall i, i < t_len T -> ent_ok (f T) i) ->
  (S t = length (st_tabs a) -> forall i, i < t_len T ->
     unmarked (valat (t_pairs (f T)) i) /\ keyat (t_pairs (f T)) i <> KTOMBSTONE) ->
  (forall k, client_key k -> has_key (f T) k ->
     has_key T k \/ forall j' T'', j' < t -> st_tabs a !! j' = Some T'' -> fwd T'' k) ->
  (forall k, client_key k -> fwd T k -> fwd (f T) k) ->
  (t < st_top a -> forall i, i < t_len T -> valat (t_pairs (f T)) i = TOMBPRIME) ->
  (st_top a < t -> t_copyIdx (f T) = 0%N) ->
  N.of_nat (tombs (t_pairs (f T))) = (t_copyDone (f T) + N.of_nat (pd' t))%N ->
  (forall j, j <> t -> pd' j = pd j) ->
  (forall i, i < t_len T -> ex' <> Some (t, i) ->
     valat (t_pairs (f T)) i = TOMBPRIME \/ unmarked (valat (t_pairs (f T)) i)) ->
  (forall j i, j <> t -> ex = Some (j, i) -> ex' = Some (j, i)) ->
  (forall x, sz' = Some x -> st_top a <= t -> t_size (f T) = x) ->
  (forall x, sz' = Some x -> sz = Some x) ->
  SI0 ex' pd' sz' (with_tab t f a).
Proof.
  intros HS HT Hid Hlen Hnew Hlp Hent Hlast Hkeys Hfwd Hdead Hcidx Hdone Hpd Hnm Hex Hsz Hsz'.
  destruct HS. constructor;
    change (st_files (with_tab t f a)) with (st_files a); change (st_fctr (with_tab t f a)) with (st_fctr a); change (st_top (with_tab t f a)) with (st_top a);
    change (st_maxcap (with_tab t f a)) with (st_maxcap a); rewrite ?with_tab_length.
  - assumption.
  - assumption.
  - intros j T0. rewrite (with_tab_lookup a t f j). destruct (decide (j = t)) as [->|Hne].
    + rewrite HT; cbn [fmap option_fmap option_map]. intros [= <-]. rewrite Hid. eauto.
    + eauto.
  - assumption.
  - intros j T0. rewrite (with_tab_lookup a t f j). destruct (decide (j = t)) as [->|Hne].
    + rewrite HT; cbn [fmap option_fmap option_map]. intros [= <-]. destruct (s_tw0 t T HT). constructor.
      * rewrite Hlen. assumption.
      * rewrite Hlen. assumption.
      * congruence.
      * rewrite Hlen. assumption.
    + intros. eauto.
  - intros j T0. rewrite (with_tab_lookup a t f j). destruct (decide (j = t)) as [->|Hne].
    + rewrite HT; cbn [fmap option_fmap option_map]. intros [= <-]. rewrite Hnew. eauto.
    + eauto.
  - intros j T0 T1. rewrite !(with_tab_lookup a t f).
    destruct (decide (j = t)) as [->|Hne].
    + rewrite decide_False by lia. rewrite HT; cbn [fmap option_fmap option_map].
      intros [= <-] H1. rewrite Hlen. eauto.
    + destruct (decide (S j = t)) as [<-|Hne'].
      * rewrite HT; cbn [fmap option_fmap option_map]. intros H1 [= <-]. rewrite Hlen. eauto.
      * eauto.
  - intros j T0 i. rewrite (with_tab_lookup a t f). destruct (decide (j = t)) as [->|Hne].
    + rewrite HT; cbn [fmap option_fmap option_map]. intros [= <-] H1 H2. apply Hlast; auto. congruence.
    + eauto.
  - intros j j' T0 T1 k Hj. rewrite !(with_tab_lookup a t f).
    destruct (decide (j = t)) as [->|Hne].
    + rewrite decide_False by lia. rewrite HT; cbn [fmap option_fmap option_map].
      intros [= <-] H1 Hc Hk. apply Hfwd; auto. eapply s_uniq0 with (j := t); eauto.
    + destruct (decide (j' = t)) as [->|Hne'].
      * rewrite HT; cbn [fmap option_fmap option_map]. intros H1 [= <-] Hc Hk. destruct (Hkeys k Hc Hk) as [H|H].
        -- eapply s_uniq0 with (j := j) (j' := t); eauto.
        -- eapply H; eauto.
      * intros. eapply s_uniq0; eauto.
  - intros j T0 i Hj. rewrite (with_tab_lookup a t f). destruct (decide (j = t)) as [->|Hne].
    + rewrite HT; cbn [fmap option_fmap option_map]. intros [= <-] H. apply Hdead; auto. congruence.
    + eauto.
  - intros j T0 Hj. rewrite (with_tab_lookup a t f). destruct (decide (j = t)) as [->|Hne].
    + rewrite HT; cbn [fmap option_fmap option_map]. intros [= <-]. auto.
    + eauto.
  - intros j T0. rewrite (with_tab_lookup a t f). destruct (decide (j = t)) as [->|Hne].
    + rewrite HT; cbn [fmap option_fmap option_map]. intros [= <-]. auto.
    + rewrite Hpd by auto. eauto.
  - intros j T0 i. rewrite (with_tab_lookup a t f). destruct (decide (j = t)) as [->|Hne].
    + rewrite HT; cbn [fmap option_fmap option_map]. intros [= <-] H. apply Hnm. congruence.
    + intros H1 H2 H3. eapply s_nm0; eauto.
  - intros x j T0 Hx Hj. rewrite (with_tab_lookup a t f). destruct (decide (j = t)) as [->|Hne].
    + rewrite HT; cbn [fmap option_fmap option_map]. intros [= <-]. eauto.
    + eauto.
Qed.

(** Changing a control-block counter. *)
Lemma SI0_fld ex pd sz a t fl x T pd' sz' :
  SI0 ex pd sz a -> st_tabs a !! t = Some T ->
  (fl = FCopyIdx -> t <= st_top a) ->
  (fl <> FCopyDone -> pd' t = pd t) ->
  (fl = FCopyDone -> (x + N.of_nat (pd' t) = t_copyDone T + N.of_nat (pd t))%N) ->
  (forall j, j <> t -> pd' j = pd j) ->
  (fl <> FSize -> sz' = sz) -> (fl = FSize -> sz' = None) ->
  SI0 ex pd' sz' (with_tab t (set_fld fl x) a).
Proof.
  intros HS HT Hc Hp1 Hp2 Hp Hs1 Hs2. pose proof HS as [].
  assert (HP : t_pairs (set_fld fl x T) = t_pairs T) by reflexivity.
  assert (HL : t_len (set_fld fl x T) = t_len T) by reflexivity.
  eapply SI0_upd with (T := T) (ex := ex) (pd := pd) (sz := sz); eauto; try reflexivity.
  - intros i Hi. apply (tw_ent _ _ (s_tw0 _ _ HT) i Hi).
  - intros Hl i Hi. rewrite HP. eauto.
  - intros Hd. rewrite HP. eauto.
  - intros Hj. destruct fl; cbn; eauto. exfalso. specialize (Hc eq_refl). lia.
  - rewrite HP, (s_done0 _ _ HT).
    assert (t_copyDone (set_fld fl x T) = if decide (fl = FCopyDone) then x else t_copyDone T) as ->.
    { destruct fl; reflexivity. }
    destruct (decide (fl = FCopyDone)) as [He|He].
    + symmetry. auto.
    + rewrite Hp1 by auto. reflexivity.
  - intros i Hi Hex. rewrite HP. eauto.
  - intros y Hy Ht. destruct (decide (fl = FSize)) as [He|He].
    + rewrite Hs2 in Hy by auto. discriminate.
    + rewrite Hs1 in Hy by auto. replace (t_size (set_fld fl x T)) with (t_size T); eauto.
      destruct fl; try reflexivity. congruence.
  - intros y Hy. destruct (decide (fl = FSize)) as [He|He].
    + rewrite Hs2 in Hy by auto. discriminate.
    + rewrite Hs1 in Hy by auto. exact Hy.
Qed.

Lemma tombs_set_key ps i w : tombs (alter (set_cell CKey w) i ps) = tombs ps.
Proof.
  unfold tombs. revert i. induction ps as [|p ps IH]; intros i; [reflexivity|].
  destruct i; cbn -[filter].
  - rewrite !filter_cons. cbn. destruct (decide _); reflexivity.
  - rewrite !filter_cons. destruct (decide _); cbn; rewrite ?IH; reflexivity.
Qed.

Lemma tombs_set_val ps i w : i < length ps -> valat ps i <> TOMBPRIME ->
  tombs (alter (set_cell CVal w) i ps) = (if decide (w = TOMBPRIME) then S (tombs ps) else tombs ps).
Proof.
  unfold tombs. revert i. induction ps as [|p ps IH]; intros i Hi Hv; cbn in Hi; [lia|].
  destruct i; cbn -[filter].
  - rewrite !filter_cons. unfold valat in Hv. cbn in Hv. cbn.
    rewrite (decide_False (P := p.2 = TOMBPRIME)) by auto. destruct (decide _); reflexivity.
  - assert (Hv' : valat ps i <> TOMBPRIME) by exact Hv. specialize (IH i ltac:(lia) Hv').
    rewrite !filter_cons. destruct (decide (p.2 = TOMBPRIME)); cbn [length]; rewrite IH;
      destruct (decide _); reflexivity.
Qed.

Lemma tombs_le ps : tombs ps <= length ps.
Proof. unfold tombs. apply filter_length. Qed.

Lemma tombs_full ps : tombs ps = length ps -> forall i, i < length ps -> valat ps i = TOMBPRIME.
Proof.
  unfold tombs. induction ps as [|p ps IH]; cbn [length]; intros H i Hi; [lia|].
  rewrite filter_cons in H. pose proof (filter_length (fun p => snd p = TOMBPRIME) ps).
  destruct (decide (p.2 = TOMBPRIME)) as [He|He]; cbn [length] in H; [|lia].
  destruct i; [exact He|]. apply IH; lia.
Qed.

Lemma tombs_all ps : (forall i, i < length ps -> valat ps i = TOMBPRIME) -> tombs ps = length ps.
Proof.
  unfold tombs. induction ps as [|p ps IH]; cbn [length]; intros H; [reflexivity|].
  rewrite filter_cons, decide_True by (apply (H 0); lia). cbn [length]. f_equal.
  apply IH. intros i Hi. apply (H (S i)). lia.
Qed.

(** Giving an unused entry a key: a client key that hashes there, or the key tombstone. *)
Lemma SI0_setkey ex pd sz a t T i k :
  SI0 ex pd sz a -> st_tabs a !! t = Some T ->
  i < t_len T -> keyat (t_pairs T) i = KINITIAL ->
  ((k = KTOMBSTONE /\ S t < length (st_tabs a)) \/
   (client_key k /\ (exists c, probeT C T k = PEmpty i c) /\
    forall j' T'', j' < t -> st_tabs a !! j' = Some T'' -> fwd T'' k)) ->
  SI0 ex pd sz (with_tab t (aset i CKey k) a).
Proof.
  intros HS HT Hi HK Hk. pose proof HS as []. pose proof (s_tw0 _ _ HT) as HTW.
  assert (Hil : i < length (t_pairs T)) by (rewrite (tw_length _ _ HTW); exact Hi).
  assert (Hki : k <> KINITIAL).
  { destruct Hk as [[-> _]|((_ & H & _) & _)]; [|exact H]. rewrite KTOMBSTONE_val, KINITIAL_val.
    rewrite VTOMBSTONE_val, VINITIAL_val. discriminate. }
  assert (HP : t_pairs (aset i CKey k T) = alter (set_cell CKey k) i (t_pairs T)) by reflexivity.
  assert (Hpf : forall k' i' c, probeT C T k' = PFound i' c -> probeT C (aset i CKey k T) k' = PFound i' c).
  { intros k' i' c H. unfold probeT. rewrite HP. apply found_set_key; auto. }
  assert (Hkey : forall k', client_key k' -> has_key (aset i CKey k T) k' -> has_key T k' \/ k' = k).
  { intros k' Hc (i' & H1 & H2). rewrite HP in H1, H2. rewrite alter_length in H1.
    destruct (Nat.eq_dec i i') as [<-|Hne].
    - rewrite keyat_set_key in H2 by auto. auto.
    - rewrite keyat_set_key_ne in H2 by auto. left. exists i'. auto. }
  eapply SI0_upd with (T := T) (ex := ex) (pd := pd) (sz := sz); eauto.
  - cbn. apply alter_length.
  - intros i' Hi'. unfold ent_ok. rewrite HP, valat_set_key.
    destruct (Nat.eq_dec i i') as [<-|Hne].
    + rewrite keyat_set_key by auto. destruct (tw_ent _ _ HTW i Hi) as [[_ Hv]|[[H _]|((_ & H & _) & _)]].
      * rewrite Hv. destruct Hk as [[-> _]|(Hc & (c & Hp) & _)]; [right; left; auto|].
        right; right. split; [exact Hc|]. split; [apply VINITIAL_clean|].
        exists c. unfold probeT. rewrite HP. apply found_claim; auto.
      * exfalso. rewrite HK in H. revert H. rewrite KTOMBSTONE_val, KINITIAL_val, VTOMBSTONE_val, VINITIAL_val. discriminate.
      * exfalso. auto.
    + rewrite keyat_set_key_ne by auto. destruct (tw_ent _ _ HTW i' Hi') as [H|[H|(H1 & H2 & c & H3)]].
      * left. exact H.
      * right; left. exact H.
      * right; right. split; [exact H1|]. split; [exact H2|]. exists c. apply Hpf, H3.
  - intros Hl i' Hi'. rewrite HP, valat_set_key. destruct (s_last0 t T i' HT Hl Hi') as [L1 L2]. split; [exact L1|].
    destruct (Nat.eq_dec i i') as [<-|Hne].
    + rewrite keyat_set_key by auto. destruct Hk as [[_ Hk]|((_ & _ & Hk) & _)]; [lia|exact Hk].
    + rewrite keyat_set_key_ne by auto. exact L2.
  - intros k' Hc Hh. destruct (Hkey k' Hc Hh) as [H| ->]; [left; exact H|right].
    destruct Hk as [[-> _]|(_ & _ & H)]; [|exact H]. destruct Hc as (_ & _ & H). congruence.
  - intros k' Hc (Hf1 & Hf2). split.
    + intros i' c Hp. unfold probeT in Hp. rewrite HP in Hp.
      apply empty_set_key in Hp as (i2 & c2 & Hp); auto. eapply Hf1. exact Hp.
    + intros i' c Hp. rewrite HP, valat_set_key.
      assert (Hi' : i' < t_len T).
      { apply probe_found in Hp as (_ & -> & _). apply pos_lt. eapply tw_pos; eauto. }
      pose proof (found_key _ _ _ _ _ Hp) as Hka. rewrite HP in Hka.
      destruct (Nat.eq_dec i i') as [<-|Hne].
      * rewrite keyat_set_key in Hka by auto. subst k'.
        destruct Hk as [[-> _]|(_ & (c2 & Hp2) & _)]; [destruct Hc as (_ & _ & ?); congruence|].
        exfalso. eapply Hf1; eauto.
      * rewrite keyat_set_key_ne in Hka by auto.
        destruct (key_probe _ _ _ _ HTW Hi' Hka Hc) as (c2 & Hp2). eapply Hf2; eauto.
  - intros Hd i' Hi'. rewrite HP, valat_set_key. eauto.
  - intros. cbn. eauto.
  - rewrite HP, tombs_set_key. cbn. eauto.
  - intros i' Hi' Hex. rewrite HP, valat_set_key. eauto.
  - intros x Hx Ht. cbn. eauto.
Qed.

(** Writing a value into an entry that has a key. *)
Lemma SI0_setval ex pd sz a t T i w ex' pd' :
  SI0 ex pd sz a -> st_tabs a !! t = Some T ->
  i < t_len T -> keyat (t_pairs T) i <> KINITIAL ->
  (keyat (t_pairs T) i = KTOMBSTONE -> w = TOMBPRIME) ->
  valat (t_pairs T) i <> TOMBPRIME ->
  isclean w ->
  (marked (valat (t_pairs T) i) -> marked w) ->
  (marked w -> S t < length (st_tabs a)) ->
  (forall j, pd' j = if decide (j = t /\ w = TOMBPRIME) then S (pd j) else pd j) ->
  (ex' <> Some (t, i) -> w = TOMBPRIME \/ unmarked w) ->
  (forall j i', (j, i') <> (t, i) -> ex = Some (j, i') -> ex' = Some (j, i')) ->
  SI0 ex' pd' sz (with_tab t (aset i CVal w) a).
Proof.
  intros HS HT Hi HK HKT Hv Hw Hmono Hlastw Hpd Hex Hex'. pose proof HS as []. pose proof (s_tw0 _ _ HT) as HTW.
  assert (Hil : i < length (t_pairs T)) by (rewrite (tw_length _ _ HTW); exact Hi).
  assert (HP : t_pairs (aset i CVal w T) = alter (set_cell CVal w) i (t_pairs T)) by reflexivity.
  assert (Hpr : forall k, probeT C (aset i CVal w T) k = probeT C T k).
  { intros k. unfold probeT. rewrite HP. apply probe_set_val. }
  assert (Hnd : t < st_top a -> False).
  { intros H. apply Hv. eauto. }
  eapply SI0_upd with (T := T) (ex := ex) (pd := pd) (sz := sz); eauto.
  - cbn. apply alter_length.
  - intros i' Hi'. unfold ent_ok. rewrite HP, keyat_set_val.
    destruct (Nat.eq_dec i i') as [<-|Hne].
    + rewrite valat_set_val by auto. destruct (tw_ent _ _ HTW i Hi) as [[H _]|[[H _]|(H1 & H2 & c & H3)]].
      * congruence.
      * right; left. auto.
      * right; right. split; [exact H1|]. split; [exact Hw|]. exists c. rewrite Hpr. exact H3.
    + rewrite valat_set_val_ne by auto. destruct (tw_ent _ _ HTW i' Hi') as [H|[H|(H1 & H2 & c & H3)]].
      * left. exact H.
      * right; left. exact H.
      * right; right. split; [exact H1|]. split; [exact H2|]. exists c. rewrite Hpr. exact H3.
  - intros Hl i' Hi'. rewrite HP, keyat_set_val. split; [|apply (s_last0 t T i' HT Hl Hi')]. destruct (Nat.eq_dec i i') as [<-|Hne].
    + rewrite valat_set_val by auto. destruct (marked_dec w) as [H|H]; [|exact H].
      specialize (Hlastw H). lia.
    + rewrite valat_set_val_ne by auto. apply (s_last0 t T i' HT Hl Hi').
  - intros k Hc (i' & H1 & H2). left. exists i'. rewrite HP, keyat_set_val in H2.
    rewrite HP, alter_length in H1. auto.
  - intros k Hc (Hf1 & Hf2). split.
    + intros i' c. rewrite Hpr. auto.
    + intros i' c. rewrite Hpr. intros Hp. specialize (Hf2 _ _ Hp). rewrite HP.
      destruct (Nat.eq_dec i i') as [<-|Hne].
      * rewrite valat_set_val by auto. auto.
      * rewrite valat_set_val_ne by auto. auto.
  - intros H. destruct (Hnd H).
  - intros H. cbn. eauto.
  - rewrite HP, tombs_set_val by auto. rewrite Hpd. cbn [aset t_copyDone].
    specialize (s_done0 _ _ HT). destruct (decide (w = TOMBPRIME)) as [He|He].
    + rewrite decide_True by auto. lia.
    + rewrite decide_False by tauto. lia.
  - intros j Hj. rewrite Hpd, decide_False by tauto. reflexivity.
  - intros i' Hi' Hx. rewrite HP. destruct (Nat.eq_dec i i') as [<-|Hne].
    + rewrite valat_set_val by auto. auto.
    + rewrite valat_set_val_ne by auto. eapply s_nm0; eauto.
      intros He. apply Hx. apply (Hex' t i'); [congruence|exact He].
  - intros j i' Hj He. apply Hex'; [congruence|exact He].
  - intros x Hx Ht. cbn. eauto.
Qed.

(** Making the successor of a table whose migration is complete the current one. *)
Lemma SI0_settop ex pd sz a T :
  SI0 ex pd sz a -> st_tabs a !! st_top a = Some T -> S (st_top a) < length (st_tabs a) ->
  tombs (t_pairs T) = t_len T ->
  SI0 ex pd sz (set_top (S (st_top a)) a).
Proof.
  intros HS HT Hl Hd. destruct HS. constructor; cbn [set_top st_files st_fctr st_top st_tabs st_maxcap]; eauto.
  - intros j T0 i Hj H1 H2. destruct (Nat.eq_dec j (st_top a)) as [->|Hne].
    + assert (T0 = T) as -> by congruence. apply tombs_full; rewrite (tw_length _ _ (s_tw0 _ _ HT)); auto.
    + eapply s_dead0; eauto. lia.
  - intros j T0 Hj H. apply (s_cidx0 j T0); [lia|exact H].
  - intros x j T0 Hx Hj H. apply (s_size0 x j T0); [exact Hx|lia|exact H].
Qed.

(** There are few tables, so the file counter does not wrap around. *)
Lemma tabs_pow ex pd sz a : SI0 ex pd sz a -> forall j T, st_tabs a !! j = Some T -> 2 ^ j <= t_len T.
Proof.
  intros HS. induction j as [|j IH]; intros T HT.
  - destruct (tw_pow _ _ (s_tw _ _ _ _ HS _ _ HT)) as (e & -> & _). apply Nat.pow_le_mono_r; lia.
  - destruct (lookup_lt_is_Some_2 (st_tabs a) j) as (T0 & HT0); [apply lookup_lt_Some in HT; lia|].
    rewrite (s_len _ _ _ _ HS _ _ _ HT0 HT), Nat.pow_succ_r'. specialize (IH T0 HT0). lia.
Qed.

Lemma tabs_few ex pd sz a : SI0 ex pd sz a -> length (st_tabs a) <= 59.
Proof.
  intros HS. destruct (length (st_tabs a)) as [|j] eqn:E; [lia|].
  destruct (lookup_lt_is_Some_2 (st_tabs a) j) as (T & HT); [lia|].
  pose proof (tabs_pow _ _ _ _ HS _ _ HT) as Hp. pose proof (tw_cap _ _ (s_tw _ _ _ _ HS _ _ HT)) as Hc.
  unfold can_alloc in Hc. apply andb_true_iff in Hc. destruct Hc as (Hc & _). apply N.ltb_lt in Hc.
  assert (H : (2 ^ N.of_nat j < 2 ^ 59)%N).
  { eapply N.le_lt_trans; [|exact Hc]. change 2%N with (N.of_nat 2). rewrite <- Nat2N.inj_pow. lia. }
  apply N.pow_lt_mono_r_iff in H; [|reflexivity]. lia.
Qed.

Lemma fctr_next ex pd sz a : SI0 ex pd sz a -> add64 (st_fctr a) 1 = N.of_nat (S (length (st_tabs a))).
Proof.
  intros HS. rewrite (s_fctr _ _ _ _ HS). pose proof (tabs_few _ _ _ _ HS) as Hf.
  unfold add64. rewrite N.mod_small; [lia|]. assert (60 < two64)%N by reflexivity. lia.
Qed.

Lemma ent_ok_fresh cap ex id i : i < cap -> ent_ok (afresh cap ex id) i.
Proof.
  intros H. left. unfold afresh, keyat, valat; cbn. rewrite lookup_replicate_2 by auto. auto.
Qed.

Lemma tombs_fresh cap : tombs (replicate cap (KINITIAL, VINITIAL)) = 0.
Proof.
  unfold tombs. induction cap; [reflexivity|]. cbn -[filter]. rewrite filter_cons, decide_False; auto.
Qed.

(** Appending a fresh successor to the last table. *)
Lemma SI0_grow ex pd sz a t T ex_size :
  SI0 ex pd sz a -> st_tabs a !! t = Some T -> S t = length (st_tabs a) ->
  can_alloc (2 * t_len T) (st_maxcap a) = true ->
  pd (S t) = 0 -> (forall i, ex <> Some (S t, i)) ->
  (forall x, sz = Some x -> ex_size = x) ->
  SI0 ex pd sz (with_tab t (set_new (Some (S t)))
    (add_tab (afresh (2 * t_len T) ex_size (st_fctr a)) (set_fctr (add64 (st_fctr a) 1) a))).
Proof.
  intros HS HT Hlast Hcap Hpd Hex Hsz. pose proof (fctr_next _ _ _ _ HS) as Hctr. destruct HS. pose proof (s_tw0 _ _ HT) as HTW.
  set (F := afresh (2 * t_len T) ex_size (st_fctr a)).
  set (a' := with_tab t (set_new (Some (S t))) (add_tab F (set_fctr (add64 (st_fctr a) 1) a))).
  assert (L : forall j, st_tabs a' !! j =
      if decide (j = t) then Some (set_new (Some (S t)) T)
      else if decide (j = S t) then Some F else st_tabs a !! j).
  { intros j. unfold a'. rewrite with_tab_lookup. cbn [add_tab set_fctr st_tabs].
    destruct (decide (j = t)) as [->|Hne].
    - rewrite lookup_app_l by lia. rewrite HT. reflexivity.
    - destruct (decide (j = S t)) as [->|Hne'].
      + rewrite lookup_app_r by lia. rewrite Hlast, Nat.sub_diag. reflexivity.
      + destruct (le_lt_dec (length (st_tabs a)) j).
        * rewrite !lookup_ge_None_2; auto. rewrite app_length; cbn; lia.
        * rewrite lookup_app_l by lia. reflexivity. }
  assert (Len : length (st_tabs a') = S (length (st_tabs a))).
  { unfold a'. rewrite with_tab_length. cbn. rewrite app_length. cbn. lia. }
  assert (HFk : forall k, client_key k -> ~ has_key F k).
  { intros k (_ & Hk & _) (i & Hi & Hke). apply Hk. rewrite <- Hke. unfold F, afresh, keyat; cbn.
    unfold F, afresh in Hi; cbn in Hi. rewrite replicate_length in Hi.
    rewrite lookup_replicate_2 by exact Hi. reflexivity. }
  assert (Sm : forall j T', st_tabs a' !! j = Some T' ->
     (exists T0, st_tabs a !! j = Some T0 /\ j <> S t /\ t_len T' = t_len T0 /\ t_pairs T' = t_pairs T0 /\
        t_copyIdx T' = t_copyIdx T0 /\ t_copyDone T' = t_copyDone T0 /\ t_size T' = t_size T0 /\ t_id T' = t_id T0) \/ (j = S t /\ T' = F)).
  { intros j T'. rewrite L. destruct (decide (j = t)) as [->|Hne].
    - intros [= <-]. left. exists T. repeat split; auto.
    - destruct (decide (j = S t)) as [->|Hne']; intros H.
      + right. injection H as <-. auto.
      + left. exists T'. repeat split; auto. }
  assert (Fw : forall T0 T' k, t_len T' = t_len T0 -> t_pairs T' = t_pairs T0 -> fwd T0 k -> fwd T' k).
  { intros T0 T' k H1 H2. unfold fwd, probeT. rewrite H1, H2. auto. }
  constructor.
  - assumption.
  - rewrite Len. exact Hctr.
  - intros j T' H. apply Sm in H as [(T0 & H & _ & _ & _ & _ & _ & _ & H1)|[-> ->]].
    + rewrite H1. eauto.
    + cbn [F afresh t_id]. rewrite Hlast. exact s_fctr0.
  - rewrite Len. cbn. lia.
  - intros j T' H. change (st_maxcap a') with (st_maxcap a).
    apply Sm in H as [(T0 & H & _ & H1 & H2 & _)|[-> ->]].
    + destruct (s_tw0 _ _ H). constructor; rewrite ?H1, ?H2; auto.
      intros i Hi. specialize (tw_ent0 i Hi). unfold ent_ok, probeT in *. rewrite H1, H2. exact tw_ent0.
    + constructor; cbn [F afresh t_len t_pairs].
      * destruct (tw_pow _ _ HTW) as (e & He & He3). exists (S e). cbn [Nat.pow]. split; [lia|lia].
      * exact Hcap.
      * apply replicate_length.
      * intros i Hi. apply ent_ok_fresh. exact Hi.
  - intros j T' H. rewrite Len. rewrite L in H. destruct (decide (j = t)) as [->|Hne].
    + injection H as <-. cbn [set_new t_new]. destruct (Nat.ltb_spec (S t) (S (length (st_tabs a)))); [reflexivity|lia].
    + destruct (decide (j = S t)) as [->|Hne'].
      * injection H as <-. cbn [F afresh t_new]. destruct (Nat.ltb_spec (S (S t)) (S (length (st_tabs a)))); [lia|reflexivity].
      * rewrite (s_new0 _ _ H). pose proof (lookup_lt_Some _ _ _ H).
        destruct (Nat.ltb_spec (S j) (length (st_tabs a))), (Nat.ltb_spec (S j) (S (length (st_tabs a)))); auto; lia.
  - intros j T1 T2 H1 H2. apply Sm in H1 as [(T10 & H1 & _ & -> & _)|[-> ->]].
    + apply Sm in H2 as [(T20 & H2 & _ & -> & _)|[? ->]]; [eauto|].
      assert (j = t) as -> by lia. assert (T10 = T) as -> by congruence. reflexivity.
    + apply lookup_lt_Some in H2. lia.
  - intros j T' i H Hl Hi. rewrite Len in Hl. assert (j = S t) as -> by lia.
    apply Sm in H as [(? & _ & ? & _)|[_ ->]]; [congruence|]. cbn in Hi. unfold F, afresh, valat, keyat; cbn.
    rewrite lookup_replicate_2 by auto. split; [apply VINITIAL_unmarked|].
    cbn [fst]. rewrite KTOMBSTONE_val, KINITIAL_val, VTOMBSTONE_val, VINITIAL_val. discriminate.
  - intros j j' T1 T2 k Hj H1 H2 Hc Hk. apply Sm in H2 as [(T20 & H2 & _ & HL2 & HP2 & _)|[-> ->]].
    + apply Sm in H1 as [(T10 & H1 & _ & HL1 & HP1 & _)|[-> ->]].
      * eapply Fw; eauto. eapply s_uniq0 with (j := j) (j' := j'); eauto. unfold has_key in *. rewrite <- HP2. exact Hk.
      * apply lookup_lt_Some in H2. lia.
    + destruct (HFk k Hc Hk).
  - intros j T' i Hj H Hi. change (st_top a') with (st_top a) in Hj.
    apply Sm in H as [(T0 & H & _ & HL & HP & _)|[-> ->]]; [|lia]. rewrite HP. rewrite HL in Hi. eauto.
  - intros j T' Hj H. change (st_top a') with (st_top a) in Hj.
    apply Sm in H as [(T0 & H & _ & _ & _ & -> & _)|[-> ->]]; [eauto|reflexivity].
  - intros j T' H. apply Sm in H as [(T0 & H & _ & _ & -> & _ & -> & _)|[-> ->]]; [eauto|].
    cbn [F afresh t_pairs t_copyDone]. rewrite tombs_fresh, Hpd. reflexivity.
  - intros j T' i H Hi Hx. apply Sm in H as [(T0 & H & _ & HL & HP & _)|[-> ->]].
    + rewrite HP. rewrite HL in Hi. eauto.
    + right. cbn in Hi. unfold F, afresh, valat; cbn. rewrite lookup_replicate_2 by auto. apply VINITIAL_unmarked.
  - intros x j T' Hx Hj H. change (st_top a') with (st_top a) in Hj.
    apply Sm in H as [(T0 & H & _ & _ & _ & _ & _ & -> & _)|[-> ->]]; [eauto|]. cbn. auto.
Qed.

(** ** The dictionary held by a state *)

Definition live_entry (a : state) (k v : N) : Prop :=
  exists j T i, st_tabs a !! j = Some T /\ i < t_len T /\
    keyat (t_pairs T) i = k /\ valat (t_pairs T) i = v /\ live v.

Definition Dict (a : state) (m : gmap N N) : Prop :=
  forall k v, m !! k = Some v <-> live_entry a k v.

Lemma live_client m T i : TW m T -> i < t_len T -> live (valat (t_pairs T) i) -> client_key (keyat (t_pairs T) i).
Proof.
  intros HT Hi (H1 & H2 & H3). destruct (tw_ent _ _ HT i Hi) as [[_ H]|[[_ [H|H]]|(H & _)]]; auto.
  - congruence.
  - congruence.
  - rewrite H in H1. exfalso. apply TOMBPRIME_not_unmarked, H1.
Qed.

(** If the entry found for [k] in some table is unmarked, no other table holds [k] unmarked. *)
Lemma other_marked ex pd sz a t T k i c :
  SI0 ex pd sz a -> st_tabs a !! t = Some T -> client_key k ->
  probeT C T k = PFound i c -> unmarked (valat (t_pairs T) i) ->
  forall j T' i', st_tabs a !! j = Some T' -> i' < t_len T' -> keyat (t_pairs T') i' = k ->
    (j = t /\ i' = i) \/ marked (valat (t_pairs T') i').
Proof.
  intros HS HT Hc Hp Hu j T' i' HT' Hi' Hk. destruct HS.
  pose proof (s_tw0 _ _ HT) as HTW. pose proof (s_tw0 _ _ HT') as HTW'.
  destruct (key_probe _ _ _ _ HTW' Hi' Hk Hc) as (c' & Hp').
  destruct (lt_eq_lt_dec j t) as [[Hlt|Heq]|Hgt].
  - right. assert (Hf : fwd T' k).
    { eapply s_uniq0 with (j := j) (j' := t); eauto. exists i. split.
      - rewrite (tw_length _ _ HTW). eapply probeT_lt; [exact HTW|left; exact Hp].
      - eapply found_key; eauto. }
    destruct Hf as (_ & Hf). eauto.
  - subst j. assert (T' = T) as -> by congruence. left. split; [reflexivity|]. congruence.
  - exfalso. assert (Hf : fwd T k).
    { eapply s_uniq0 with (j := t) (j' := j); eauto. exists i'. rewrite (tw_length _ _ HTW'). auto. }
    exact (not_fwd_found _ _ _ _ Hp Hu Hf).
Qed.

Lemma dict_found ex pd sz a t T k i c m :
  SI0 ex pd sz a -> Dict a m -> st_tabs a !! t = Some T -> client_key k ->
  probeT C T k = PFound i c -> unmarked (valat (t_pairs T) i) ->
  m !! k = if live_dec (valat (t_pairs T) i) then Some (valat (t_pairs T) i) else None.
Proof.
  intros HS HD HT Hc Hp Hu.
  assert (Hi : i < t_len T) by (eapply probeT_lt; [eapply s_tw; eauto|left; exact Hp]).
  assert (Hk : keyat (t_pairs T) i = k) by (eapply found_key; eauto).
  destruct (live_dec (valat (t_pairs T) i)) as [Hl|Hl].
  - apply HD. exists t, T, i. auto.
  - destruct (m !! k) as [v|] eqn:Hm; [|reflexivity]. apply HD in Hm as (j & T' & i' & H1 & H2 & H3 & H4 & H5).
    destruct (other_marked _ _ _ _ _ _ _ _ _ HS HT Hc Hp Hu j T' i' H1 H2 H3) as [[-> ->]|H].
    + assert (T' = T) as -> by congruence. subst v. tauto.
    + destruct H5 as (H5 & _). subst v. destruct (marked_unmarked _ H H5).
Qed.

Lemma dict_none ex pd sz a m k :
  SI0 ex pd sz a -> Dict a m -> client_key k ->
  (forall j T, st_tabs a !! j = Some T -> has_key T k -> fwd T k) -> m !! k = None.
Proof.
  intros HS HD Hc H. destruct (m !! k) as [v|] eqn:Hm; [|reflexivity].
  apply HD in Hm as (j & T & i & H1 & H2 & H3 & H4 & H5). exfalso.
  pose proof (s_tw _ _ _ _ HS _ _ H1) as HTW. destruct (key_probe _ _ _ _ HTW H2 H3 Hc) as (c & Hp).
  assert (Hf : fwd T k). { eapply H; eauto. exists i. rewrite (tw_length _ _ HTW). auto. }
  destruct H5 as (H5 & _). subst v. exact (not_fwd_found _ _ _ _ Hp H5 Hf).
Qed.

Lemma dict_empty ex pd sz a t T k i c m :
  SI0 ex pd sz a -> Dict a m -> st_tabs a !! t = Some T -> client_key k ->
  (forall j T', j < t -> st_tabs a !! j = Some T' -> fwd T' k) ->
  probeT C T k = PEmpty i c -> m !! k = None.
Proof.
  intros HS HD HT Hc Hf Hp. eapply dict_none; eauto. intros j T' H1 H2.
  destruct (lt_eq_lt_dec j t) as [[Hlt|Heq]|Hgt]; [eauto| |].
  - subst j. assert (T' = T) as -> by congruence. exfalso.
    destruct H2 as (i' & H2 & H3). pose proof (s_tw _ _ _ _ HS _ _ HT) as HTW. rewrite (tw_length _ _ HTW) in H2.
    destruct (key_probe _ _ _ _ HTW H2 H3 Hc). congruence.
  - exfalso. apply (not_fwd_empty _ _ _ _ Hp). eapply s_uniq with (j := t) (j' := j); eauto.
Qed.

Lemma dict_above ex pd sz a t k m :
  SI0 ex pd sz a -> Dict a m -> client_key k ->
  (forall j T', j < t -> st_tabs a !! j = Some T' -> fwd T' k) ->
  (forall j T', t <= j -> st_tabs a !! j = Some T' -> ~ has_key T' k) -> m !! k = None.
Proof.
  intros HS HD Hc Hf Hn. eapply dict_none; eauto. intros j T' H1 H2.
  destruct (le_lt_dec t j); [|eauto]. exfalso. eapply Hn; eauto.
Qed.

(** Nobody above an empty probe holds the key. *)
Lemma empty_above ex pd sz a t T k i c :
  SI0 ex pd sz a -> st_tabs a !! t = Some T -> client_key k -> probeT C T k = PEmpty i c ->
  forall j T', t < j -> st_tabs a !! j = Some T' -> ~ has_key T' k.
Proof.
  intros HS HT Hc Hp j T' Hj H1 H2. apply (not_fwd_empty _ _ _ _ Hp). eapply s_uniq with (j := t) (j' := j); eauto.
Qed.

Lemma found_above ex pd sz a t T k i c :
  SI0 ex pd sz a -> st_tabs a !! t = Some T -> client_key k -> probeT C T k = PFound i c ->
  unmarked (valat (t_pairs T) i) ->
  forall j T', t < j -> st_tabs a !! j = Some T' -> ~ has_key T' k.
Proof.
  intros HS HT Hc Hp Hu j T' Hj H1 H2. apply (not_fwd_found _ _ _ _ Hp Hu). eapply s_uniq with (j := t) (j' := j); eauto.
Qed.

(** *** Effect of writes on the dictionary *)

Lemma dict_setkey ex pd sz a t T i k m :
  SI0 ex pd sz a -> st_tabs a !! t = Some T -> i < t_len T -> keyat (t_pairs T) i = KINITIAL ->
  Dict a m -> Dict (with_tab t (aset i CKey k) a) m.
Proof.
  intros HS HT Hi HK HD k' v. rewrite (HD k' v).
  pose proof (s_tw _ _ _ _ HS _ _ HT) as HTW.
  assert (Hdead : ~ live (valat (t_pairs T) i)).
  { intros Hl. pose proof (live_client _ _ _ HTW Hi Hl) as (_ & H & _). congruence. }
  split; intros (j & T' & i' & H1 & H2 & H3 & H4 & H5).
  - destruct (Nat.eq_dec j t) as [->|Hne].
    + assert (T' = T) as -> by congruence. exists t, (aset i CKey k T), i'.
      rewrite (with_tab_same _ _ _ _ HT). cbn [aset t_len t_pairs]. rewrite valat_set_key.
      assert (i <> i') by (intros <-; subst v; auto).
      rewrite keyat_set_key_ne by auto. auto.
    + exists j, T', i'. rewrite with_tab_ne by auto. auto.
  - destruct (Nat.eq_dec j t) as [->|Hne].
    + rewrite (with_tab_same _ _ _ _ HT) in H1. injection H1 as <-. cbn [aset t_len t_pairs] in *.
      rewrite valat_set_key in H4. assert (i <> i') by (intros <-; subst v; auto).
      rewrite keyat_set_key_ne in H3 by auto. exists t, T, i'. auto.
    + rewrite with_tab_ne in H1 by auto. exists j, T', i'. auto.
Qed.

(** A write over an unmarked value. *)
Lemma dict_setval ex pd sz a t T i c k w m :
  SI0 ex pd sz a -> st_tabs a !! t = Some T -> client_key k -> probeT C T k = PFound i c ->
  unmarked (valat (t_pairs T) i) -> Dict a m ->
  Dict (with_tab t (aset i CVal w) a) (if live_dec w then <[k := w]> m else delete k m).
Proof.
  intros HS HT Hc Hp Hu HD k' v.
  pose proof (s_tw _ _ _ _ HS _ _ HT) as HTW.
  assert (Hi : i < t_len T) by (eapply probeT_lt; [exact HTW|left; exact Hp]).
  assert (Hil : i < length (t_pairs T)) by (rewrite (tw_length _ _ HTW); exact Hi).
  assert (Hk : keyat (t_pairs T) i = k) by (eapply found_key; eauto).
  pose proof (other_marked _ _ _ _ _ _ _ _ _ HS HT Hc Hp Hu) as Hoth.
  destruct (N.eq_dec k' k) as [->|Hkk].
  - transitivity (live w /\ v = w).
    + destruct (live_dec w).
      * rewrite lookup_insert. split; [intros [= <-]; auto|intros [_ ->]; reflexivity].
      * rewrite lookup_delete. split; [discriminate|tauto].
    + split.
      * intros [Hl ->]. exists t, (aset i CVal w T), i. rewrite (with_tab_same _ _ _ _ HT).
        cbn [aset t_len t_pairs]. rewrite keyat_set_val, valat_set_val by auto. auto.
      * intros (j & T' & i' & H1 & H2 & H3 & H4 & H5). destruct (Nat.eq_dec j t) as [->|Hne].
        -- rewrite (with_tab_same _ _ _ _ HT) in H1. injection H1 as <-. cbn [aset t_len t_pairs] in *.
           rewrite keyat_set_val in H3. destruct (Hoth t T i' HT H2 H3) as [[_ ->]|H].
           ++ rewrite valat_set_val in H4 by auto. subst v. auto.
           ++ assert (i <> i') by (intros <-; eapply marked_unmarked; eauto).
              rewrite valat_set_val_ne in H4 by auto. subst v. destruct H5 as (H5 & _).
              destruct (marked_unmarked _ H H5).
        -- rewrite with_tab_ne in H1 by auto. destruct (Hoth j T' i' H1 H2 H3) as [[-> _]|H]; [congruence|].
           subst v. destruct H5 as (H5 & _). destruct (marked_unmarked _ H H5).
  - assert ((if live_dec w then <[k := w]> m else delete k m) !! k' = m !! k') as ->.
    { destruct (live_dec w); [apply lookup_insert_ne|apply lookup_delete_ne]; auto. }
    rewrite (HD k' v). split; intros (j & T' & i' & H1 & H2 & H3 & H4 & H5).
    + destruct (Nat.eq_dec j t) as [->|Hne].
      * assert (T' = T) as -> by congruence. assert (i <> i') by (intros <-; congruence).
        exists t, (aset i CVal w T), i'. rewrite (with_tab_same _ _ _ _ HT). cbn [aset t_len t_pairs].
        rewrite keyat_set_val, valat_set_val_ne by auto. auto.
      * exists j, T', i'. rewrite with_tab_ne by auto. auto.
    + destruct (Nat.eq_dec j t) as [->|Hne].
      * rewrite (with_tab_same _ _ _ _ HT) in H1. injection H1 as <-. cbn [aset t_len t_pairs] in *.
        rewrite keyat_set_val in H3. assert (i <> i') by (intros <-; congruence).
        rewrite valat_set_val_ne in H4 by auto. exists t, T, i'. auto.
      * rewrite with_tab_ne in H1 by auto. exists j, T', i'. auto.
Qed.

(** A write of a dead word over a dead word. *)
Lemma dict_setval_dead a t T i w m :
  st_tabs a !! t = Some T -> i < length (t_pairs T) ->
  ~ live (valat (t_pairs T) i) -> ~ live w -> Dict a m ->
  Dict (with_tab t (aset i CVal w) a) m.
Proof.
  intros HT Hi H1 H2 HD k v. rewrite (HD k v). split; intros (j & T' & i' & G1 & G2 & G3 & G4 & G5).
  - destruct (Nat.eq_dec j t) as [->|Hne].
    + assert (T' = T) as -> by congruence. assert (i <> i') by (intros <-; congruence).
      exists t, (aset i CVal w T), i'. rewrite (with_tab_same _ _ _ _ HT). cbn [aset t_len t_pairs].
      rewrite keyat_set_val, valat_set_val_ne by auto. auto.
    + exists j, T', i'. rewrite with_tab_ne by auto. auto.
  - destruct (Nat.eq_dec j t) as [->|Hne].
    + rewrite (with_tab_same _ _ _ _ HT) in G1. injection G1 as <-. cbn [aset t_len t_pairs] in *.
      rewrite keyat_set_val in G3. assert (i <> i').
      { intros <-. rewrite valat_set_val in G4 by auto. congruence. }
      rewrite valat_set_val_ne in G4 by auto. exists t, T, i'. auto.
    + rewrite with_tab_ne in G1 by auto. exists j, T', i'. auto.
Qed.

(** Changes that keep keys and values. *)
Lemma dict_same a a' m :
  (forall j, (fun T => (t_len T, t_pairs T)) <$> (st_tabs a' !! j) = (fun T => (t_len T, t_pairs T)) <$> (st_tabs a !! j)) ->
  Dict a m -> Dict a' m.
Proof.
  intros H HD k v. rewrite (HD k v). split; intros (j & T & i & G1 & G2 & G3).
  - specialize (H j). rewrite G1 in H. destruct (st_tabs a' !! j) as [T'|] eqn:E; cbn in H; [|discriminate].
    injection H as H1 H2. exists j, T', i. rewrite H1, H2. auto.
  - specialize (H j). rewrite G1 in H. destruct (st_tabs a !! j) as [T'|] eqn:E; cbn in H; [|discriminate].
    injection H as H1 H2. exists j, T', i. rewrite <- H1, <- H2. auto.
Qed.

Lemma dict_fld a t fl x m : Dict a m -> Dict (with_tab t (set_fld fl x) a) m.
Proof.
  apply dict_same. intros j. rewrite with_tab_lookup. destruct (decide _); [|reflexivity].
  destruct (st_tabs a !! j); reflexivity.
Qed.

Lemma dict_settop a x m : Dict a m -> Dict (set_top x a) m.
Proof. apply dict_same. reflexivity. Qed.
Lemma dict_setfctr a x m : Dict a m -> Dict (set_fctr x a) m.
Proof. apply dict_same. reflexivity. Qed.

Lemma dict_grow a t T cap ex id m :
  st_tabs a !! t = Some T -> S t = length (st_tabs a) -> Dict a m ->
  Dict (with_tab t (set_new (Some (S t))) (add_tab (afresh cap ex id) a)) m.
Proof.
  intros HT Hl HD. apply dict_same with (a := add_tab (afresh cap ex id) a).
  { intros j. rewrite with_tab_lookup. destruct (decide _); [|reflexivity].
    destruct (st_tabs _ !! j); reflexivity. }
  intros k v. rewrite (HD k v). split; intros (j & T' & i & G1 & G2 & G3 & G4 & G5).
  - exists j, T', i. cbn. rewrite lookup_app_l by (eapply lookup_lt_Some; eauto). auto.
  - cbn in G1. apply lookup_app_Some in G1 as [G1|[G1 G1']].
    + exists j, T', i. auto.
    + apply list_lookup_singleton_Some in G1' as [_ <-]. cbn in *. exfalso.
      unfold valat in G4. cbn in G4. rewrite lookup_replicate_2 in G4 by exact G2. cbn in G4. subst v.
      destruct G5 as (_ & G5 & _). congruence.
Qed.

End Inv.
