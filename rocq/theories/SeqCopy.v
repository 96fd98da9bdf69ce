(** Single-threaded migration: resize, copying one entry, helping a migration to completion. *)
From Coq Require Import NArith Bool List Lia.
From stdpp Require Import base list gmap.
From Verif Require Import Word Bits Prog HashMap Abs Probe SeqInv.
Import ListNotations.

Section Copy.
Context (C : cfg) (E : err -> Prop).
Context (HAF : E AllocFail).

(** Same table up to the successor pointer. *)
Definition ctl (T T' : table) : Prop :=
  t_len T' = t_len T /\ t_pairs T' = t_pairs T /\ t_size T' = t_size T /\ t_slots T' = t_slots T /\
  t_copyIdx T' = t_copyIdx T /\ t_copyDone T' = t_copyDone T.

Lemma ctl_refl T : ctl T T.
Proof. repeat split. Qed.

(** Tables below [t] and the current-table pointer are untouched. *)
Definition below (t : nat) (a a' : state) : Prop :=
  st_top a' = st_top a /\ st_maxcap a' = st_maxcap a /\ length (st_tabs a) <= length (st_tabs a') /\
  forall j, j < t -> st_tabs a' !! j = st_tabs a !! j.

Lemma below_refl t a : below t a a.
Proof. repeat split; auto. Qed.
Lemma below_trans t a b c : below t a b -> below t b c -> below t a c.
Proof.
  intros (A1 & A2 & A3 & A4) (B1 & B2 & B3 & B4). repeat split; try congruence; try lia.
  intros j Hj. rewrite B4, A4; auto.
Qed.
Lemma below_mono t t' a b : t' <= t -> below t a b -> below t' a b.
Proof. intros H (A1 & A2 & A3 & A4). repeat split; auto. intros j Hj. apply A4. lia. Qed.
Lemma below_with_tab t j f a : t <= j -> below t a (with_tab j f a).
Proof.
  intros H. repeat split; auto.
  - rewrite with_tab_length. lia.
  - intros j' Hj'. apply with_tab_ne. lia.
Qed.

(** ** resize *)

Lemma newSizeFor_double len size :
  (N.of_nat len < 2 ^ 59)%N -> N.to_nat (newSizeFor len size) = 2 * len.
Proof.
  intros H. unfold newSizeFor. cbv zeta.
  assert (Hs : shl64 (N.of_nat len) 1 = (2 * N.of_nat len)%N).
  { unfold shl64. rewrite N.shiftl_mul_pow2. change (2 ^ 1)%N with 2%N. rewrite N.mod_small; [lia|].
    unfold two64. change (2 ^ 64)%N with (32 * 2 ^ 59)%N. lia. }
  rewrite Hs.
  destruct (N.leb_spec (N.of_nat len / 4) size) as [H4|H4].
  - destruct (N.of_nat len / 2 <=? size)%N;
      destruct (N.leb_spec (2 * N.of_nat len) (N.of_nat len)); lia.
  - assert (size < N.of_nat len)%N.
    { eapply N.lt_le_trans; [exact H4|]. apply N.div_le_upper_bound; lia. }
    destruct (N.leb_spec size (N.of_nat len)); lia.
Qed.

Lemma wp_resize ex pd sz a t T m (Q : nat -> state -> Prop) :
  SI0 C ex pd sz a -> Dict a m -> st_tabs a !! t = Some T ->
  (forall j, t < j -> pd j = 0) -> (forall j i, t < j -> ex <> Some (j, i)) ->
  (forall a' T', SI0 C ex pd sz a' -> Dict a' m -> below t a a' ->
     (forall j, j < length (st_tabs a) -> j <> t -> st_tabs a' !! j = st_tabs a !! j) ->
     st_tabs a' !! t = Some T' -> ctl T T' -> S t < length (st_tabs a') ->
     (forall j T'', length (st_tabs a) <= j -> st_tabs a' !! j = Some T'' -> forall k, client_key k -> ~ has_key T'' k) ->
     Q (S t) a') ->
  wp E (resize C t) Q a.
Proof.
  intros HS HD HT Hpd Hex HQ. unfold resize.
  pose proof (s_tw _ _ _ _ _ HS _ _ HT) as HTW.
  pose proof (tw_lt59 _ _ _ HTW) as H59. pose proof (tw_ge8 _ _ _ HTW) as H8.
  pose proof (s_new _ _ _ _ _ HS _ _ HT) as Hnew.
  pose proof (lookup_lt_Some _ _ _ HT) as Hlt.
  apply wp_bind. eapply wp_LoadNew; [exact HT|]. rewrite Hnew.
  destruct (Nat.ltb_spec (S t) (length (st_tabs a))) as [Hl|Hl].
  - destruct (lookup_lt_is_Some_2 _ _ Hl) as (T1 & HT1).
    apply wp_bind. eapply wp_Len; [exact HT1|]. apply wp_bind. eapply wp_Len; [exact HT|].
    apply wp_bind, wp_assert.
    { apply Nat.ltb_lt. rewrite (s_len _ _ _ _ _ HS _ _ _ HT HT1). lia. }
    apply wp_ret. eapply HQ; eauto using below_refl, ctl_refl.
    intros j T'' Hj H. apply lookup_lt_Some in H. lia.
  - assert (Hlast : S t = length (st_tabs a)) by lia.
    apply wp_bind. eapply wp_Len; [exact HT|].
    apply wp_bind. eapply wp_LoadF; [exact HT|]. cbn [get_fld].
    apply wp_bind. eapply wp_LoadNew; [exact HT|]. rewrite Hnew.
    destruct (Nat.ltb_spec (S t) (length (st_tabs a))); [lia|].
    apply wp_bind, wp_NextFile.
    apply wp_bind, wp_Mmap; [apply (s_files _ _ _ _ _ HS); rewrite (s_fctr _ _ _ _ _ HS); lia|].
    rewrite newSizeFor_double by exact H59.
    change (st_maxcap (set_fctr _ a)) with (st_maxcap a).
    change (st_tabs (set_fctr _ a)) with (st_tabs a).
    destruct (can_alloc (2 * t_len T) (st_maxcap a)) eqn:Hcap; [|apply wp_err, HAF].
    set (a1 := set_fctr _ a). set (F := afresh _ _ _).
    assert (HT1 : st_tabs (add_tab F a1) !! t = Some T).
    { cbn. rewrite lookup_app_l by lia. exact HT. }
    assert (HF1 : st_tabs (add_tab F a1) !! (S t) = Some F).
    { cbn. rewrite lookup_app_r by lia. rewrite Hlast, Nat.sub_diag. reflexivity. }
    rewrite <- Hlast.
    apply wp_bind. eapply wp_Len; [exact HF1|].
    apply wp_bind, wp_assert.
    { cbn [F afresh t_len]. apply andb_true_iff. split.
      - apply Nat.even_spec. exists (t_len T). lia.
      - apply Nat.leb_le. lia. }
    unfold CASNewTable. apply wp_bind, wp_bind. eapply wp_CasNew; [exact HT1|].
    rewrite Hnew. destruct (Nat.ltb_spec (S t) (length (st_tabs a))); [lia|]. cbn [option_nat_eqb].
    set (a2 := with_tab t (set_new (Some (S t))) (add_tab F a1)).
    apply wp_ret. cbn [fst]. apply wp_bind, wp_ret.
    assert (HF2 : st_tabs a2 !! (S t) = Some F).
    { unfold a2. rewrite with_tab_ne by lia. exact HF1. }
    apply wp_bind. eapply wp_Len; [exact HF2|].
    apply wp_bind, wp_assert; [apply Nat.ltb_lt; cbn; lia|].
    apply wp_ret. eapply HQ with (T' := set_new (Some (S t)) T).
    + apply (SI0_grow C ex pd sz a t T); [exact HS|exact HT|exact Hlast|exact Hcap|apply Hpd; lia| |].
      * intros i. apply Hex. lia.
      * intros x Hx. pose proof (s_top _ _ _ _ _ HS). apply (s_size _ _ _ _ _ HS x t T Hx); [lia|exact HT].
    + eapply dict_grow; eauto.
    + repeat split.
      * unfold a2. rewrite with_tab_length. cbn. rewrite app_length. lia.
      * intros j Hj. unfold a2. rewrite with_tab_ne by lia. cbn. apply lookup_app_l. lia.
    + intros j Hj Hne. unfold a2. rewrite with_tab_ne by lia. cbn. apply lookup_app_l. lia.
    + unfold a2. rewrite (with_tab_same _ _ _ _ HT1). reflexivity.
    + repeat split.
    + unfold a2. rewrite with_tab_length. cbn. rewrite app_length. cbn. lia.
    + intros j T'' Hj HT'' k (_ & Hk & _) (i & Hi & Hke).
      assert (j = S t) as ->.
      { apply lookup_lt_Some in HT''. unfold a2 in HT''. rewrite with_tab_length in HT''.
        cbn in HT''. rewrite app_length in HT''. cbn in HT''. lia. }
      rewrite HF2 in HT''. injection HT'' as <-. cbn in Hi. rewrite replicate_length in Hi.
      apply Hk. rewrite <- Hke. unfold keyat. cbn. rewrite lookup_replicate_2 by exact Hi. reflexivity.
Qed.

(** ** copyCheckAndPromote *)

Definition reset (pd : nat -> nat) (t : nat) : nat -> nat := fun j => if decide (j = t) then 0 else pd j.
Definition bump (pd : nat -> nat) (t : nat) : nat -> nat := fun j => if decide (j = t) then S (pd j) else pd j.

(** The current table's copy index is 0. *)
Definition cz (a : state) : Prop := forall T, st_tabs a !! st_top a = Some T -> t_copyIdx T = 0%N.

Lemma SI0_pd ex pd pd' sz a : (forall j, pd' j = pd j) -> SI0 C ex pd sz a -> SI0 C ex pd' sz a.
Proof.
  intros H []. constructor; auto. intros j T HT. rewrite H. auto.
Qed.

Definition add_done (w : nat) (T : table) : table := set_fld FCopyDone (t_copyDone T + N.of_nat w) T.

Lemma with_tab_ext a t f g T : st_tabs a !! t = Some T -> f T = g T -> with_tab t f a = with_tab t g a.
Proof.
  intros HT H. unfold with_tab. f_equal. apply list_eq. intros j. destruct (decide (j = t)) as [->|Hne].
  - rewrite !list_lookup_alter, HT. cbn. congruence.
  - rewrite !list_lookup_alter_ne by auto. reflexivity.
Qed.

Lemma with_tab_id a t f T : st_tabs a !! t = Some T -> f T = T -> with_tab t f a = a.
Proof.
  intros HT H. unfold with_tab. rewrite alter_id; [destruct a; reflexivity|]. intros T' HT'. congruence.
Qed.

Lemma add_done_0 T : add_done 0 T = T.
Proof. unfold add_done, set_fld. destruct T; cbn. f_equal. lia. Qed.

Lemma wp_promote ex pd sz a t T m (Q : unit -> state -> Prop) w :
  SI0 C ex pd sz a -> Dict a m -> st_tabs a !! t = Some T -> S t < length (st_tabs a) ->
  pd t = w ->
  (forall a', SI0 C ex (reset pd t) sz a' -> Dict a' m ->
     st_tabs a' = st_tabs (with_tab t (add_done w) a) -> st_maxcap a' = st_maxcap a ->
     ((st_top a' = st_top a /\ (tombs (t_pairs T) <> t_len T \/ st_top a <> t)) \/
      (st_top a = t /\ st_top a' = S t /\ tombs (t_pairs T) = t_len T /\ cz a')) -> Q tt a') ->
  wp E (copyCheckAndPromote C t (N.of_nat w)) Q a.
Proof.
  intros HS HD HT Hl Hw HQ. unfold copyCheckAndPromote.
  pose proof (s_tw _ _ _ _ _ HS _ _ HT) as HTW.
  pose proof (tw_lt59 _ _ _ HTW) as H59.
  pose proof (s_done _ _ _ _ _ HS _ _ HT) as Hdone. rewrite Hw in Hdone.
  pose proof (tombs_le (t_pairs T)) as Hle. rewrite (tw_length _ _ _ HTW) in Hle.
  assert (Hadd : add64 (t_copyDone T) (N.of_nat w) = (t_copyDone T + N.of_nat w)%N).
  { unfold add64. apply N.mod_small. unfold two64. change (2 ^ 64)%N with (32 * 2 ^ 59)%N. lia. }
  apply wp_bind. eapply wp_Len; [exact HT|].
  apply wp_bind. eapply wp_LoadF; [exact HT|]. cbn [get_fld]. rewrite Hadd.
  apply wp_bind, wp_assert; [apply N.leb_le; lia|].
  set (a1 := with_tab t (add_done w) a).
  assert (HT1 : st_tabs a1 !! t = Some (add_done w T)) by (apply with_tab_same; exact HT).
  assert (HS1 : SI0 C ex (reset pd t) sz a1).
  { unfold a1. replace (with_tab t (add_done w) a) with (with_tab t (set_fld FCopyDone (t_copyDone T + N.of_nat w)) a).
    - eapply SI0_fld; eauto; try congruence.
      + intros _. unfold reset. rewrite decide_True by reflexivity. rewrite Hw. lia.
      + intros j Hj. unfold reset. rewrite decide_False by auto. reflexivity.
    - apply with_tab_ext with (T := T); auto. }
  assert (HD1 : Dict a1 m).
  { eapply dict_same; [|exact HD]. intros j. unfold a1. rewrite with_tab_lookup. destruct (decide _); [|reflexivity].
    destruct (st_tabs a !! j); reflexivity. }
  apply wp_bind.
  assert (Hk : wp E (if (t_copyDone T + N.of_nat w =? N.of_nat (t_len T))%N
       then nt <-- do (LoadNew t);; match nt with Some newTable => do (CasTop t newTable);;; Ret () | None => Err NullDeref end
       else Ret ())%prog Q a1).
  { destruct (N.eqb_spec (t_copyDone T + N.of_nat w) (N.of_nat (t_len T))) as [Heq|Hne].
    - apply wp_bind. eapply wp_LoadNew; [exact HT1|]. cbn [add_done set_fld t_new].
      rewrite (s_new _ _ _ _ _ HS _ _ HT). destruct (Nat.ltb_spec (S t) (length (st_tabs a))); [|lia].
      apply wp_bind, wp_CasTop. change (st_top a1) with (st_top a).
      destruct (Nat.eqb_spec (st_top a) t) as [Ht|Ht].
      + apply wp_ret. apply HQ; auto.
        * assert (S t = S (st_top a1)) as -> by (change (st_top a1) with (st_top a); lia).
          eapply SI0_settop; eauto.
          -- change (st_top a1) with (st_top a). rewrite Ht. exact HT1.
          -- change (st_top a1) with (st_top a). unfold a1. rewrite with_tab_length. lia.
          -- cbn [add_done set_fld t_pairs t_len]. lia.
        * right. repeat split; auto; [lia|]. intros T' HT'. cbn [set_top st_top st_tabs] in HT'.
          unfold a1 in HT'. rewrite with_tab_ne in HT' by lia. apply (s_cidx _ _ _ _ _ HS (S t) T'); [lia|exact HT'].
      + apply wp_ret. apply HQ; auto.
    - apply wp_ret. apply HQ; auto. left. split; [reflexivity|]. left. lia. }
  destruct (N.ltb_spec 0 (N.of_nat w)) as [Hp|Hp].
  - apply wp_bind. eapply wp_AddF; [exact HT|]. apply wp_ret.
    replace (with_tab t (fun T0 => set_fld FCopyDone (add64 (get_fld FCopyDone T0) (N.of_nat w)) T0) a) with a1; [exact Hk|].
    apply with_tab_ext with (T := T); auto. cbn [get_fld]. rewrite Hadd. reflexivity.
  - assert (w = 0) as -> by lia. apply wp_ret.
    replace a with a1 at 1; [exact Hk|]. unfold a1. eapply with_tab_id; eauto. apply add_done_0.
Qed.

(** ** copySlot *)

(** What copySlot does to the table itself. *)
Definition tombed (T : table) (i : nat) (T' : table) : Prop :=
  t_len T' = t_len T /\ t_copyIdx T' = t_copyIdx T /\ t_copyDone T' = t_copyDone T /\
  valat (t_pairs T') i = TOMBPRIME /\
  (forall i', i' <> i -> valat (t_pairs T') i' = valat (t_pairs T) i') /\
  (keyat (t_pairs T) i <> KINITIAL -> forall i', keyat (t_pairs T') i' = keyat (t_pairs T) i').

Lemma not_live_VINITIAL : ~ live VINITIAL. Proof. intros (_ & H & _). auto. Qed.
Lemma not_live_VTOMBSTONE : ~ live VTOMBSTONE. Proof. intros (_ & _ & H). auto. Qed.
Lemma not_live_marked v : marked v -> ~ live v.
Proof. intros Hm (H & _). eapply marked_unmarked; eauto. Qed.
Lemma not_live_TOMBPRIME : ~ live TOMBPRIME. Proof. apply not_live_marked, TOMBPRIME_marked. Qed.
Lemma VINITIAL_neq_TOMBPRIME : VINITIAL <> TOMBPRIME.
Proof. rewrite VINITIAL_val, TOMBPRIME_val. discriminate. Qed.
Lemma VTOMBSTONE_neq_TOMBPRIME : VTOMBSTONE <> TOMBPRIME.
Proof. rewrite VTOMBSTONE_val, TOMBPRIME_val. discriminate. Qed.
Lemma KTOMBSTONE_neq_KINITIAL : KTOMBSTONE <> KINITIAL.
Proof. rewrite KTOMBSTONE_val, KINITIAL_val, VTOMBSTONE_val, VINITIAL_val. discriminate. Qed.
Lemma VTOMBSTONE_neq_VINITIAL : VTOMBSTONE <> VINITIAL.
Proof. rewrite VTOMBSTONE_val, VINITIAL_val. discriminate. Qed.

(** Outcome of marking a dead value. *)
Lemma wp_mark_dead ex pd sz a t T m i n (Q : unit + N -> state -> Prop) :
  SI0 C ex pd sz a -> Dict a m -> st_tabs a !! t = Some T -> S t < length (st_tabs a) ->
  i < t_len T -> keyat (t_pairs T) i <> KINITIAL ->
  valat (t_pairs T) i = VINITIAL \/ valat (t_pairs T) i = VTOMBSTONE ->
  FU E n 1 ->
  (forall a', a' = with_tab t (aset i CVal TOMBPRIME) a -> SI0 C ex (bump pd t) sz a' -> Dict a' m -> Q (inl tt) a') ->
  wp E (copySlot_mark C n t i (valat (t_pairs T) i)) Q a.
Proof.
  intros HS HD HT Hl Hi HK Hv HF HQ.
  pose proof (s_tw _ _ _ _ _ HS _ _ HT) as HTW.
  assert (Hil : i < length (t_pairs T)) by (rewrite (tw_length _ _ _ HTW); exact Hi).
  destruct n as [|n]; [destruct HF as [HF|HF]; [apply wp_err, HF|lia]|].
  cbn [copySlot_mark].
  assert (Hu : isMarked (valat (t_pairs T) i) MigrationFlag = false).
  { destruct Hv as [-> | ->]; [apply VINITIAL_unmarked|apply VTOMBSTONE_unmarked]. }
  rewrite Hu.
  assert (((valat (t_pairs T) i =? VINITIAL) || (valat (t_pairs T) i =? VTOMBSTONE))%N = true) as ->.
  { destruct Hv as [-> | ->]; rewrite N.eqb_refl, ?orb_true_r; reflexivity. }
  apply wp_bind. eapply wp_CASvalue; [exact HT|exact Hi|].
  unfold cas_post. rewrite (read_val _ _ _ _ HT), N.eqb_refl.
  rewrite N.eqb_refl. rewrite (clean_id TOMBPRIME) by apply TOMBPRIME_clean.
  apply wp_ret. apply HQ; auto.
  - eapply SI0_setval; eauto.
    + destruct Hv as [-> | ->]; [apply VINITIAL_neq_TOMBPRIME|apply VTOMBSTONE_neq_TOMBPRIME].
    + apply TOMBPRIME_clean.
    + intros _. apply TOMBPRIME_marked.
    + intros j. unfold bump. destruct (decide (j = t)), (decide (j = t /\ TOMBPRIME = TOMBPRIME)); tauto.
  - eapply dict_setval_dead; eauto.
    + destruct Hv as [-> | ->]; [apply not_live_VINITIAL|apply not_live_VTOMBSTONE].
    + apply not_live_TOMBPRIME.
Qed.

Definition wp_put_copy (put : nat -> N -> N -> N -> prog N) (t : nat) (maxcap : N) : Prop :=
  forall ex pd sz a T k v m (Q : N -> state -> Prop),
  SI0 C ex pd sz a -> Dict a m -> st_tabs a !! t = Some T -> st_maxcap a = maxcap -> st_top a < t ->
  client_key k -> isclean v -> live v ->
  (forall j', t <= j' -> pd j' = 0) -> (forall j' i, t <= j' -> ex <> Some (j', i)) ->
  (forall j' T', j' < t -> st_tabs a !! j' = Some T' -> fwd C T' k) ->
  (forall j' T', t <= j' -> st_tabs a !! j' = Some T' -> ~ has_key T' k) ->
  (forall a', SI0 C ex pd sz a' -> Dict a' (<[k := v]> m) -> below t a a' -> Q VINITIAL a') ->
  wp E (put t k v VINITIAL) Q a.

Lemma wp_copySlot pd sz a t T m i n put (Q : bool -> state -> Prop) :
  SI0 C None pd sz a -> Dict a m -> st_tabs a !! t = Some T -> S t < length (st_tabs a) ->
  i < t_len T -> FU E n 2 ->
  (forall j', t < j' -> pd j' = 0) ->
  (live (valat (t_pairs T) i) -> wp_put_copy put (S t) (st_maxcap a)) ->
  (live (valat (t_pairs T) i) -> st_top a <= t) ->
  (forall a' T' (b : bool), SI0 C None (if b then bump pd t else pd) sz a' -> Dict a' m -> below t a a' ->
     st_tabs a' !! t = Some T' -> tombed T i T' -> b = negb (valat (t_pairs T) i =? TOMBPRIME)%N ->
     (live (valat (t_pairs T) i) \/ forall j, j <> t -> st_tabs a' !! j = st_tabs a !! j) -> Q b a') ->
  wp E (copySlot C n put i t (S t)) Q a.
Proof.
  intros HS HD HT Hl Hi HF Hpd Hput Htop HQ.
  pose proof (s_tw _ _ _ _ _ HS _ _ HT) as HTW.
  assert (Hil : i < length (t_pairs T)) by (rewrite (tw_length _ _ _ HTW); exact Hi).
  unfold copySlot.
  assert (HF1 : FU E n 1) by (destruct HF; [left; auto|right; lia]).
  (* after the key loop *)
  set (T1 := if decide (keyat (t_pairs T) i = KINITIAL) then aset i CKey KTOMBSTONE T else T).
  set (a1 := if decide (keyat (t_pairs T) i = KINITIAL) then with_tab t (aset i CKey KTOMBSTONE) a else a).
  assert (HT1 : st_tabs a1 !! t = Some T1).
  { unfold a1, T1. destruct (decide _); [apply with_tab_same|]; exact HT. }
  assert (HS1 : SI0 C None pd sz a1).
  { unfold a1. destruct (decide _); [|exact HS]. eapply SI0_setkey; eauto. }
  assert (HD1 : Dict a1 m).
  { unfold a1. destruct (decide _); [|exact HD]. eapply dict_setkey; eauto. }
  assert (Hb1 : below t a a1).
  { unfold a1. destruct (decide _); [apply below_with_tab; lia|apply below_refl]. }
  assert (Ho1 : forall j, j <> t -> st_tabs a1 !! j = st_tabs a !! j).
  { intros j Hj. unfold a1. destruct (decide _); [apply with_tab_ne; exact Hj|reflexivity]. }
  assert (Hl1 : S t < length (st_tabs a1)).
  { destruct Hb1 as (_ & _ & ? & _). lia. }
  assert (HL1 : t_len T1 = t_len T) by (unfold T1; destruct (decide _); reflexivity).
  assert (HV1 : forall j, valat (t_pairs T1) j = valat (t_pairs T) j).
  { intros j. unfold T1. destruct (decide _); [|reflexivity]. apply valat_set_key. }
  assert (HK1 : keyat (t_pairs T1) i <> KINITIAL).
  { unfold T1. destruct (decide _) as [H|H]; [|exact H]. cbn. rewrite keyat_set_key by exact Hil.
    apply KTOMBSTONE_neq_KINITIAL. }
  assert (HKs : keyat (t_pairs T) i <> KINITIAL -> T1 = T).
  { intros H. unfold T1. rewrite decide_False by exact H. reflexivity. }
  apply wp_bind.
  assert (Hkeyl : forall Q' : N -> state -> Prop, Q' (keyat (t_pairs T1) i) a1 -> wp E (copySlot_key C n t i) Q' a).
  { intros Q' H. destruct n as [|n]; [destruct HF as [?|?]; [apply wp_err; assumption|lia]|].
    cbn [copySlot_key]. apply wp_bind. eapply wp_key; [exact HT|exact Hi|]. rewrite (read_key _ _ _ _ HT).
    destruct (N.eqb_spec (keyat (t_pairs T) i) KINITIAL) as [He|He].
    - apply wp_bind. eapply wp_CASkey; [exact HT|exact Hi|]. unfold cas_post.
      rewrite (read_key _ _ _ _ HT), He, N.eqb_refl. rewrite (clean_id _ KTOMBSTONE_clean).
      replace (with_tab t (aset i CKey KTOMBSTONE) a) with a1 by (unfold a1; rewrite decide_True by exact He; reflexivity).
      destruct n as [|n]; [destruct HF as [?|?]; [apply wp_err; assumption|lia]|].
      cbn [copySlot_key]. apply wp_bind. eapply wp_key; [exact HT1|rewrite HL1; exact Hi|]. rewrite (read_key _ _ _ _ HT1).
      destruct (N.eqb_spec (keyat (t_pairs T1) i) KINITIAL) as [He'|He'].
      + congruence.
      + apply wp_ret. exact H.
    - apply wp_ret. rewrite <- (HKs He). replace a with a1 at 1; [exact H|]. unfold a1. rewrite decide_False by exact He. reflexivity. }
  apply Hkeyl. clear Hkeyl.
  apply wp_bind. eapply wp_value; [exact HT1|rewrite HL1; exact Hi|]. rewrite (read_val _ _ _ _ HT1).
  pose proof (s_tw _ _ _ _ _ HS1 _ _ HT1) as HTW1.
  assert (Hcase : valat (t_pairs T) i = TOMBPRIME \/
                  (valat (t_pairs T) i = VINITIAL \/ valat (t_pairs T) i = VTOMBSTONE) \/
                  live (valat (t_pairs T) i)).
  { destruct (s_nm _ _ _ _ _ HS _ _ i HT Hi) as [H|H]; [congruence|auto|].
    destruct (N.eq_dec (valat (t_pairs T) i) VINITIAL); [auto|].
    destruct (N.eq_dec (valat (t_pairs T) i) VTOMBSTONE); [auto|]. right; right. repeat split; auto. }
  destruct Hcase as [Htp|[Hdead|Hlive]].
  - (* already migrated *)
    apply wp_bind. rewrite HV1, Htp.
    destruct n as [|n]; [destruct HF as [?|?]; [apply wp_err; assumption|lia]|].
    cbn [copySlot_mark]. rewrite TOMBPRIME_marked. apply wp_ret. rewrite N.eqb_refl. apply wp_ret.
    eapply (HQ a1 T1 false); eauto.
    + repeat split; try (unfold T1; destruct (decide _); reflexivity).
      * rewrite HV1. exact Htp.
      * intros i' _. apply HV1.
      * intros H i'. rewrite (HKs H). reflexivity.
    + rewrite Htp, N.eqb_refl. reflexivity.
  - (* nothing to copy *)
    apply wp_bind. eapply wp_mark_dead; eauto.
    + rewrite HL1. exact Hi.
    + rewrite HV1. exact Hdead.
    + intros a2 -> HS2 HD2. apply wp_ret.
      eapply (HQ _ (aset i CVal TOMBPRIME T1) true); eauto.
      * eapply below_trans; [exact Hb1|]. apply below_with_tab. lia.
      * apply with_tab_same. exact HT1.
      * repeat split; try (unfold T1; destruct (decide _); reflexivity).
        -- cbn. apply valat_set_val. rewrite (tw_length _ _ _ HTW1), HL1. exact Hi.
        -- intros i' Hi'. cbn. rewrite valat_set_val_ne by auto. apply HV1.
        -- intros H i'. rewrite (HKs H). cbn. apply keyat_set_val.
      * destruct Hdead as [-> | ->]; [apply VINITIAL_neq_TOMBPRIME, N.eqb_neq in HK1 || idtac|]; symmetry; apply negb_true_iff, N.eqb_neq;
          [apply VINITIAL_neq_TOMBPRIME|apply VTOMBSTONE_neq_TOMBPRIME].
      * right. intros j Hj. rewrite with_tab_ne by exact Hj. auto.
  - (* copy the value *)
    pose proof (live_client _ _ _ _ HTW Hi Hlive) as Hck.
    set (k := keyat (t_pairs T) i) in *.
    assert (HKn : k <> KINITIAL) by (destruct Hck as (_ & ? & _); assumption).
    assert (T1 = T) as HTT by (apply HKs; exact HKn). rewrite HTT in *. clear HKs HV1 HL1 HK1 T1 HTT.
    fold k.
    assert (a1 = a) as Haa by (unfold a1; rewrite decide_False by exact HKn; reflexivity). rewrite Haa in *.
    clear Haa a1 HS1 HD1 Hb1 Ho1 Hl1 HT1 HTW1.
    set (v := valat (t_pairs T) i) in *.
    destruct Hlive as (Hu & Hn1 & Hn2).
    assert (Hlive : live v) by (repeat split; assumption).
    assert (Hvc : isclean v).
    { destruct (tw_ent _ _ _ HTW i Hi) as [[H _]|[[H _]|(_ & H & _)]]; [|destruct Hck as (_ & _ & ?)|exact H]; fold k in H; congruence. }
    destruct (key_probe _ _ _ _ _ HTW Hi eq_refl Hck) as (c & Hp). fold k in Hp.
    set (w := setMark v MigrationFlag).
    assert (Hwm : marked w) by apply mark_marked.
    assert (Hwc : isclean w) by (apply mark_isclean; exact Hvc).
    assert (Hwt : w <> TOMBPRIME).
    { intros H. apply Hn2. apply mark_eq_TOMBPRIME; auto. }
    apply wp_bind.
    destruct n as [|n]; [destruct HF as [?|?]; [apply wp_err; assumption|lia]|].
    cbn [copySlot_mark]. rewrite Hu.
    assert (((v =? VINITIAL) || (v =? VTOMBSTONE))%N = false) as ->.
    { apply orb_false_iff. split; apply N.eqb_neq; assumption. }
    fold w.
    apply wp_bind. eapply wp_CASvalue; [exact HT|exact Hi|].
    unfold cas_post. rewrite (read_val _ _ _ _ HT). fold v. rewrite N.eqb_refl.
    rewrite (clean_id w) by exact Hwc.
    destruct (N.eqb_spec w TOMBPRIME) as [?|_]; [congruence|].
    apply wp_ret.
    destruct (N.eqb_spec w TOMBPRIME) as [?|_]; [congruence|].
    assert (Huw : clearMark w MigrationFlag = v) by (apply unmark_mark; exact Hu).
    rewrite Huw. cbv zeta.
    apply wp_bind, wp_assert; [apply negb_true_iff, N.eqb_neq; exact Hn2|].
    set (a2 := with_tab t (aset i CVal w) a).
    assert (HT2 : st_tabs a2 !! t = Some (aset i CVal w T)) by (apply with_tab_same; exact HT).
    assert (HS2 : SI0 C (Some (t, i)) pd sz a2).
    { eapply SI0_setval; eauto.
      - intros HH. destruct Hck as (_ & _ & Hnt). fold k in HH. congruence.
      - fold v. intros H. rewrite H in Hu. apply TOMBPRIME_not_unmarked, Hu.
      - intros j. rewrite decide_False; [reflexivity|]. tauto.
      - congruence.
      - intros j i' _ [=]. }
    assert (HD2 : Dict a2 (delete k m)).
    { unfold a2. pose proof (dict_setval _ _ _ _ _ _ _ _ _ _ w _ HS HT Hck Hp Hu HD) as H.
      destruct (live_dec w) as [H'|_]; [|exact H]. exfalso. eapply not_live_marked; eauto. }
    assert (Hm : m !! k = Some v).
    { rewrite (dict_found _ _ _ _ _ _ _ _ _ _ _ HS HD HT Hck Hp Hu). fold v.
      destruct (live_dec v); [reflexivity|contradiction]. }
    specialize (Hput Hlive). specialize (Htop Hlive).
    assert (Hl2 : S t < length (st_tabs a2)) by (unfold a2; rewrite with_tab_length; exact Hl).
    destruct (lookup_lt_is_Some_2 _ _ Hl2) as (TN & HTN).
    apply wp_bind. eapply (Hput _ _ _ _ TN k v _ _ HS2 HD2 HTN).
    + reflexivity.
    + cbn. lia.
    + exact Hck.
    + exact Hvc.
    + exact Hlive.
    + intros j' Hj'. apply Hpd. lia.
    + intros j' i' Hj' [= -> ->]. lia.
    + intros j' T' Hj' HT'. destruct (Nat.eq_dec j' t) as [->|Hne].
      * rewrite HT2 in HT'. injection HT' as <-. eapply fwd_found with (i := i) (c := c).
        -- unfold probeT. cbn [aset t_pairs t_len]. rewrite probe_set_val. exact Hp.
        -- cbn. rewrite valat_set_val by exact Hil. exact Hwm.
      * unfold a2 in HT'. rewrite with_tab_ne in HT' by auto.
        eapply (s_uniq _ _ _ _ _ HS j' t); eauto; [lia|]. exists i. auto.
    + intros j' T' Hj' HT'. unfold a2 in HT'. rewrite with_tab_ne in HT' by lia.
      apply (found_above C _ _ _ a t T k i c HS HT Hck Hp Hu j' T'); [lia|exact HT'].
    + intros a3 HS3 HD3 Hb3. rewrite N.eqb_refl.
      assert (HT3 : st_tabs a3 !! t = Some (aset i CVal w T)).
      { destruct Hb3 as (_ & _ & _ & H). rewrite H by lia. exact HT2. }
      assert (Hl3 : S t < length (st_tabs a3)) by (destruct Hb3 as (_ & _ & ? & _); lia).
      assert (HV3 : valat (t_pairs (aset i CVal w T)) i = w).
      { cbn. apply valat_set_val. exact Hil. }
      cbn [copySlot_finish].
      apply wp_bind, wp_bind. eapply wp_CASvalue; [exact HT3|exact Hi|].
      unfold cas_post. rewrite (read_val _ _ _ _ HT3), HV3, N.eqb_refl.
      rewrite (clean_id TOMBPRIME) by apply TOMBPRIME_clean.
      apply wp_ret, wp_ret.
      set (a4 := with_tab t (aset i CVal TOMBPRIME) a3).
      assert (HK3 : keyat (t_pairs (aset i CVal w T)) i = k).
      { cbn. rewrite keyat_set_val. reflexivity. }
      eapply (HQ a4 (aset i CVal TOMBPRIME (aset i CVal w T)) true).
      * eapply SI0_setval with (ex := Some (t, i)); eauto.
        -- rewrite HK3. exact HKn.
        -- rewrite HV3. exact Hwt.
        -- apply TOMBPRIME_clean.
        -- intros _. apply TOMBPRIME_marked.
        -- intros j. unfold bump. destruct (decide (j = t)), (decide (j = t /\ TOMBPRIME = TOMBPRIME)); tauto.
        -- intros j i' H1 [= <- <-]. congruence.
      * assert (Dict a4 (<[k := v]> (delete k m))).
        { eapply dict_setval_dead; eauto.
          - cbn. rewrite alter_length. exact Hil.
          - rewrite HV3. apply not_live_marked, Hwm.
          - apply not_live_TOMBPRIME. }
        rewrite insert_delete in H by exact Hm. exact H.
      * eapply below_trans; [apply below_with_tab with (j := t) (f := aset i CVal w); lia|]. fold a2.
        eapply below_trans; [eapply below_mono; [|exact Hb3]; lia|]. apply below_with_tab. lia.
      * apply with_tab_same. exact HT3.
      * repeat split.
        -- cbn. apply valat_set_val. rewrite alter_length. exact Hil.
        -- intros i' Hi'. cbn. rewrite !valat_set_val_ne by auto. reflexivity.
        -- intros _ i'. cbn. rewrite !keyat_set_val. reflexivity.
      * symmetry. apply negb_true_iff, N.eqb_neq. fold v. intros H. rewrite H in Hu.
        apply TOMBPRIME_not_unmarked, Hu.
      * left. exact Hlive.
Qed.

(** ** Fuel *)

(** Enough for one probe sequence and a few extra steps. *)
Definition LIM (maxcap : N) : nat := reprobeLimit (N.to_nat maxcap) + 3.
(** How many more times a table of this length can be doubled. *)
Definition lv (maxcap : N) (len : nat) : nat := N.to_nat (N.log2 maxcap) - Nat.log2 len.

Lemma reprobeLimit_mono a b : a <= b -> reprobeLimit a <= reprobeLimit b.
Proof. intros H. unfold reprobeLimit. apply Nat.add_le_mono_l. apply Nat.div_le_mono; [lia|exact H]. Qed.

Lemma LIM_ge m T : TW C m T -> reprobeLimit (t_len T) + 3 <= LIM m.
Proof.
  intros H. unfold LIM. pose proof (tw_le_max _ _ _ H).
  pose proof (reprobeLimit_mono (t_len T) (N.to_nat m)). lia.
Qed.

Lemma log2_le_max m T : TW C m T -> Nat.log2 (t_len T) <= N.to_nat (N.log2 m).
Proof.
  intros H. pose proof (tw_le_max _ _ _ H) as Hm. destruct (tw_pow _ _ _ H) as (e & He & _).
  rewrite He in *. rewrite Nat.log2_pow2 by lia. rewrite Nat2N.inj_pow in Hm.
  assert (0 < 2 ^ N.of_nat e)%N by (apply N.neq_0_lt_0, N.pow_nonzero; lia).
  assert (N.of_nat e <= N.log2 m)%N.
  { apply N.log2_le_pow2; [lia|exact Hm]. }
  lia.
Qed.

Lemma lv_step m T T' : TW C m T -> TW C m T' -> t_len T' = 2 * t_len T -> lv m (t_len T) = S (lv m (t_len T')).
Proof.
  intros H H' He. pose proof (log2_le_max _ _ H'). unfold lv. rewrite He in *.
  pose proof (tw_pos _ _ _ H). rewrite Nat.log2_double in * by lia. lia.
Qed.

Lemma wp_tableFull t rc len a T (Q : bool -> state -> Prop) :
  st_tabs a !! t = Some T -> (forall b, Q b a) -> wp E (tableFull t rc len) Q a.
Proof.
  intros HT H. unfold tableFull. destruct (_ <=? _)%nat; [|apply wp_ret, H].
  apply wp_bind. eapply wp_LoadF; [exact HT|]. apply wp_ret, H.
Qed.

(** Claiming a free slot for [k]. *)
Lemma claim_SI0 ex pd sz a t T k i c m :
  SI0 C ex pd sz a -> Dict a m -> st_tabs a !! t = Some T -> client_key k ->
  probeT C T k = PEmpty i c ->
  (forall j' T', j' < t -> st_tabs a !! j' = Some T' -> fwd C T' k) ->
  let T1 := upd_slots (aset i CKey k T) in
  let a1 := with_tab t upd_slots (with_tab t (aset i CKey k) a) in
  SI0 C ex pd sz a1 /\ Dict a1 m /\ st_tabs a1 !! t = Some T1 /\ probeT C T1 k = PFound i c /\
  keyat (t_pairs T) i = KINITIAL /\ valat (t_pairs T) i = VINITIAL /\ valat (t_pairs T1) i = VINITIAL /\
  (forall j, j <> t -> st_tabs a1 !! j = st_tabs a !! j).
Proof.
  intros HS HD HT Hck Hp Hf T1 a1.
  pose proof (s_tw _ _ _ _ _ HS _ _ HT) as HTW.
  assert (Hi : i < t_len T) by (eapply probeT_lt; eauto).
  assert (Hil : i < length (t_pairs T)) by (rewrite (tw_length _ _ _ HTW); exact Hi).
  assert (HK : keyat (t_pairs T) i = KINITIAL).
  { apply probe_empty in Hp as (_ & _ & H & _). exact H. }
  assert (HV : valat (t_pairs T) i = VINITIAL).
  { destruct (tw_ent _ _ _ HTW i Hi) as [[_ H]|[[H _]|((_ & H & _) & _)]]; [exact H| |congruence].
    exfalso. apply KTOMBSTONE_neq_KINITIAL. congruence. }
  set (a0 := with_tab t (aset i CKey k) a) in *.
  assert (HT0 : st_tabs a0 !! t = Some (aset i CKey k T)) by (apply with_tab_same; exact HT).
  assert (HS0 : SI0 C ex pd sz a0).
  { apply (SI0_setkey C ex pd sz a t T i k HS HT Hi HK). right. split; [exact Hck|]. split; [exists c; exact Hp|exact Hf]. }
  assert (Heq : a1 = with_tab t (set_fld FSlots (add64 (t_slots T) 1)) a0).
  { eapply with_tab_ext; [exact HT0|]. reflexivity. }
  split; [rewrite Heq; eapply SI0_fld; eauto; congruence|].
  split; [rewrite Heq; apply dict_fld; eapply dict_setkey; eauto|].
  split; [unfold a1; rewrite (with_tab_same _ _ _ _ HT0); reflexivity|].
  split; [unfold probeT; cbn [T1 upd_slots set_fld aset t_pairs t_len]; apply found_claim; auto; apply Hck|].
  split; [exact HK|]. split; [exact HV|].
  split; [cbn [T1 upd_slots set_fld aset t_pairs]; rewrite valat_set_key; exact HV|].
  intros j Hj. unfold a1, a0. rewrite !with_tab_ne by exact Hj. reflexivity.
Qed.

(** ** The put that copies a value into a newer table *)

Lemma SI0_slots ex pd sz a t T x :
  SI0 C ex pd sz a -> st_tabs a !! t = Some T -> SI0 C ex pd sz (with_tab t (set_fld FSlots x) a).
Proof. intros HS HT. eapply SI0_fld; eauto; congruence. Qed.

Lemma FU_le n b b' : FU E n b -> b' <= b -> FU E n b'.
Proof. intros [H|H] Hb; [left; exact H|right; lia]. Qed.
Lemma FU_S n b : FU E (S n) (S b) -> FU E n b.
Proof. intros [H|H]; [left; exact H|right; lia]. Qed.

Lemma fwd_ctl T T' k : t_len T' = t_len T -> t_pairs T' = t_pairs T -> fwd C T k -> fwd C T' k.
Proof. intros H1 H2. unfold fwd, probeT. rewrite H1, H2. auto. Qed.

Lemma wp_copy_put n : forall j ex pd sz a T k v m (Q : N -> state -> Prop),
  SI0 C ex pd sz a -> Dict a m -> st_tabs a !! j = Some T -> st_top a < j ->
  client_key k -> isclean v -> live v ->
  (forall j', j <= j' -> pd j' = 0) -> (forall j' i, j <= j' -> ex <> Some (j', i)) ->
  (forall j' T', j' < j -> st_tabs a !! j' = Some T' -> fwd C T' k) ->
  (forall j' T', j <= j' -> st_tabs a !! j' = Some T' -> ~ has_key T' k) ->
  FU E n (S (LIM (st_maxcap a) + lv (st_maxcap a) (t_len T))) ->
  (forall a', SI0 C ex pd sz a' -> Dict a' (<[k := v]> m) -> below j a a' -> Q VINITIAL a') ->
  wp E (putIfMatch C n (CASvalue C) j k v VINITIAL) Q a.
Proof.
  induction n as [|n IH]; intros j ex pd sz a T k v m Q HS HD HT Htop Hck Hvc Hlive Hpd Hex Hfwd Habs HF HQ.
  { apply wp_err. destruct HF; [assumption|lia]. }
  apply FU_S in HF.
  pose proof (s_tw _ _ _ _ _ HS _ _ HT) as HTW. pose proof (LIM_ge _ _ HTW) as HLIM.
  destruct Hck as (Hkc & Hk1 & Hk2).
  assert (Hck : client_key k) by (repeat split; assumption).
  destruct Hlive as (Hu & Hn1 & Hn2).
  assert (Hlive : live v) by (repeat split; assumption).
  cbn [putIfMatch]. unfold putBody.
  apply wp_bind, wp_assert; [apply negb_true_iff, N.eqb_neq; exact Hn1|].
  apply wp_bind, wp_assert; [rewrite Hu; reflexivity|].
  apply wp_bind, wp_assert; [rewrite VINITIAL_unmarked; reflexivity|].
  apply wp_bind. eapply wp_Len; [exact HT|].
  apply wp_bind. apply (wp_claimSlot C E n j k v T a _ 0 (reprobeLimit (t_len T))); auto.
  { apply (tw_pos _ _ _ HTW). }
  { unfold reprobeLimit, REPROBE_LIMIT. lia. }
  { eapply FU_le; [exact HF|lia]. }
  rewrite N.eqb_refl. cbn [negb].
  (* continuing in the next table *)
  assert (Hnext : forall a' T', SI0 C ex pd sz a' -> Dict a' m -> below j a a' ->
      st_tabs a' !! j = Some T' -> t_len T' = t_len T -> S j < length (st_tabs a') -> fwd C T' k ->
      (forall j' T'', j < j' -> st_tabs a' !! j' = Some T'' -> ~ has_key T'' k) ->
      wp E (putIfMatch C n (CASvalue C) (S j) k v VINITIAL) Q a').
  { intros a' T' HS' HD' Hb' HT' Hlen Hl' Hf' Habs'.
    destruct (lookup_lt_is_Some_2 _ _ Hl') as (TN & HTN).
    pose proof (s_tw _ _ _ _ _ HS' _ _ HT') as HTW'. pose proof (s_tw _ _ _ _ _ HS' _ _ HTN) as HTWN.
    pose proof (s_len _ _ _ _ _ HS' _ _ _ HT' HTN) as HLN.
    pose proof (lv_step _ _ _ HTW' HTWN HLN) as Hlv.
    destruct Hb' as (B1 & B2 & B3 & B4).
    apply (IH (S j) ex pd sz a' TN k v m Q HS' HD' HTN); auto.
    - lia.
    - intros j' Hj'. apply Hpd. lia.
    - intros j' i Hj'. apply Hex. lia.
    - intros j' T'' Hj' HT''. destruct (Nat.eq_dec j' j) as [->|Hne].
      + assert (T'' = T') as -> by congruence. exact Hf'.
      + rewrite B4 in HT'' by lia. apply (Hfwd j' T''); [lia|exact HT''].
    - rewrite B2 in *. rewrite Hlen in Hlv. eapply FU_le; [exact HF|lia].
    - intros a'' HS'' HD'' Hb''. apply HQ; auto.
      apply (below_trans j a a'); [repeat split; assumption|].
      eapply below_mono; [|exact Hb'']. lia. }
  unfold claim_post. fold (probeT C T k).
  destruct (probeT C T k) as [i c|i c|] eqn:Hp.
  - (* the key would be present *)
    exfalso. apply (Habs j T (le_n j) HT). exists i. split.
    + rewrite (tw_length _ _ _ HTW). eapply probeT_lt; [exact HTW|left; exact Hp].
    + eapply found_key; exact Hp.
  - destruct (N.eqb_spec v VTOMBSTONE) as [?|_]; [congruence|].
    destruct (claim_SI0 _ _ _ _ _ _ _ _ _ _ HS HD HT Hck Hp Hfwd)
      as (HS1 & HD1 & HT1 & Hp1 & HK & HV & HV1 & Ho1).
    set (a1 := with_tab j upd_slots (with_tab j (aset i CKey k) a)) in *.
    set (T1 := upd_slots (aset i CKey k T)) in *.
    assert (Hi : i < t_len T) by (eapply probeT_lt; [exact HTW|right; exact Hp]).
    assert (Hb1 : below j a a1).
    { eapply below_trans; apply below_with_tab; lia. }
    assert (Hab1 : forall j' T'', j < j' -> st_tabs a1 !! j' = Some T'' -> ~ has_key T'' k).
    { intros j' T'' Hj' HT''. rewrite Ho1 in HT'' by lia. apply (Habs j' T''); [lia|exact HT'']. }
    rewrite HV. destruct (N.eqb_spec v VINITIAL) as [?|_]; [congruence|].
    rewrite N.eqb_refl, VINITIAL_unmarked.
    apply wp_bind. eapply wp_tableFull; [exact HT1|]. intros full.
    rewrite orb_false_r. destruct full.
    + (* the table is full: go to the next one *)
      apply wp_bind. eapply (wp_resize ex pd sz a1 j T1 m); [exact HS1|exact HD1|exact HT1| | |].
      { intros j' Hj'. apply Hpd. lia. }
      { intros j' i' Hj'. apply Hex. lia. }
      intros a2 T2 HS2 HD2 Hb2 Ho2 HT2 Hctl2 Hl2 Hnew2.
      destruct Hctl2 as (L1 & L2 & L3 & L4 & L5 & L6).
      apply wp_bind. unfold copySlotAndCheck.
      apply wp_bind. eapply wp_LoadNew; [exact HT2|]. rewrite (s_new _ _ _ _ _ HS2 _ _ HT2).
      destruct (Nat.ltb_spec (S j) (length (st_tabs a2))); [|lia].
      assert (HV2 : valat (t_pairs T2) i = VINITIAL) by (rewrite L2; exact HV1).
      assert (HK2 : keyat (t_pairs T2) i = k).
      { rewrite L2. eapply found_key; exact Hp1. }
      apply wp_bind.
      (* copySlot on the claimed, still empty slot *)
      unfold copySlot.
      assert (HT1len : t_len T2 = t_len T) by (rewrite L1; reflexivity).
      destruct n as [|n']; [destruct HF as [HF|HF]; [apply wp_bind, wp_err, HF|exfalso; lia]|].
      apply wp_bind. cbn [copySlot_key].
      apply wp_bind. eapply wp_key; [exact HT2|lia|]. rewrite (read_key _ _ _ _ HT2), HK2.
      destruct (N.eqb_spec k KINITIAL) as [?|_]; [congruence|]. apply wp_ret.
      apply wp_bind. eapply wp_value; [exact HT2|lia|]. rewrite (read_val _ _ _ _ HT2).
      apply wp_bind. eapply (wp_mark_dead ex pd sz a2 j T2 m i); [exact HS2|exact HD2|exact HT2|exact Hl2|lia| | | |].
      { rewrite HK2. exact Hk1. }
      { left. exact HV2. }
      { right. lia. }
      intros a3 -> HS3 HD3. apply wp_ret.
      assert (Hil2 : i < length (t_pairs T2)).
      { rewrite (tw_length _ _ _ (s_tw _ _ _ _ _ HS2 _ _ HT2)). lia. }
      set (T3 := aset i CVal TOMBPRIME T2).
      set (a3 := with_tab j (aset i CVal TOMBPRIME) a2) in *.
      assert (HT3 : st_tabs a3 !! j = Some T3) by (apply with_tab_same; exact HT2).
      apply wp_bind.
      eapply (wp_promote ex (bump pd j) sz a3 j T3 m _ 1); [exact HS3|exact HD3|exact HT3| | |].
      { unfold a3. rewrite with_tab_length. exact Hl2. }
      { unfold bump. rewrite decide_True by reflexivity. rewrite Hpd by lia. reflexivity. }
      intros a4 HS4 HD4 Htabs4 Hmax4 Htop4. apply wp_ret.
      assert (Htop3 : st_top a3 = st_top a).
      { destruct Hb2 as (B & _), Hb1 as (B' & _). change (st_top a2 = st_top a). congruence. }
      assert (Htop4' : st_top a4 = st_top a).
      { destruct Htop4 as [[H4 _]|(H4 & _)]; [congruence|lia]. }
      assert (Hb3 : below j a2 a3) by (apply below_with_tab; lia).
      assert (Hb4 : below j a3 a4).
      { split; [congruence|]. split; [exact Hmax4|]. rewrite Htabs4. split; [rewrite with_tab_length; lia|].
        intros j' Hj'. apply with_tab_ne. lia. }
      eapply (Hnext a4 (add_done 1 T3)).
      * eapply SI0_pd; [|exact HS4]. intros j'. unfold reset, bump.
        destruct (decide (j' = j)) as [->|]; [apply Hpd; lia|reflexivity].
      * exact HD4.
      * eapply below_trans; [exact Hb1|]. eapply below_trans; [exact Hb2|].
        eapply below_trans; [exact Hb3|exact Hb4].
      * rewrite Htabs4. apply with_tab_same. exact HT3.
      * exact HT1len.
      * rewrite Htabs4, with_tab_length. unfold a3. rewrite with_tab_length. exact Hl2.
      * apply (fwd_ctl T3); [reflexivity|reflexivity|].
        eapply fwd_found with (i := i) (c := c).
        -- unfold probeT, T3. cbn [aset t_pairs t_len]. rewrite probe_set_val, L1, L2. exact Hp1.
        -- unfold T3. cbn [aset t_pairs]. rewrite valat_set_val by exact Hil2. apply TOMBPRIME_marked.
      * intros j' T'' Hj' HT''. rewrite Htabs4 in HT''. rewrite with_tab_ne in HT'' by lia.
        unfold a3 in HT''. rewrite with_tab_ne in HT'' by lia.
        destruct (le_lt_dec (length (st_tabs a1)) j') as [Hge|Hlt].
        -- apply (Hnew2 j' T'' Hge HT'' k Hck).
        -- rewrite Ho2 in HT'' by lia. apply (Hab1 j' T'' Hj' HT'').
    + (* store the value *)
      destruct n as [|n']; [destruct HF as [HF|HF]; [apply wp_err, HF|exfalso; lia]|].
      cbn [updateLoop].
      apply wp_bind, wp_assert; [rewrite VINITIAL_unmarked; reflexivity|].
      assert (noMatch VINITIAL VINITIAL = false) as ->.
      { unfold noMatch. rewrite N.eqb_refl. cbn. rewrite ?andb_false_r. reflexivity. }
      apply wp_bind. eapply wp_CASvalue; [exact HT1|exact Hi|].
      unfold cas_post. rewrite (read_val _ _ _ _ HT1), HV1, N.eqb_refl.
      rewrite (clean_id v) by exact Hvc. rewrite ?N.eqb_refl.
      unfold countChange. rewrite N.eqb_refl. cbn [negb andb].
      apply wp_bind, wp_ret, wp_ret. apply HQ.
      * eapply SI0_setval; [exact HS1|exact HT1|exact Hi| | | |exact Hvc| | | | |].
        -- rewrite (found_key _ _ _ _ _ Hp1). exact Hk1.
        -- rewrite (found_key _ _ _ _ _ Hp1). intros ?. congruence.
        -- rewrite HV1. apply VINITIAL_neq_TOMBPRIME.
        -- rewrite HV1. intros Hm. exfalso. eapply marked_unmarked; [exact Hm|apply VINITIAL_unmarked].
        -- intros Hm. exfalso. eapply marked_unmarked; [exact Hm|exact Hu].
        -- intros j'. rewrite decide_False; [reflexivity|]. intros [_ ->]. apply TOMBPRIME_not_unmarked, Hu.
        -- intros _. right. exact Hu.
        -- auto.
      * assert (Hu1 : unmarked (valat (t_pairs T1) i)) by (rewrite HV1; apply VINITIAL_unmarked).
        pose proof (dict_setval C _ _ _ _ _ _ _ _ _ v _ HS1 HT1 Hck Hp1 Hu1 HD1) as H.
        destruct (live_dec v); [exact H|contradiction].
      * eapply below_trans; [exact Hb1|]. apply below_with_tab. lia.
  - (* no room within the reprobe limit *)
    apply wp_bind. eapply (wp_resize ex pd sz a j T m); [exact HS|exact HD|exact HT| | |].
    { intros j' Hj'. apply Hpd. lia. }
    { intros j' i' Hj'. apply Hex. lia. }
    intros a2 T2 HS2 HD2 Hb2 Ho2 HT2 Hctl2 Hl2 Hnew2.
    destruct Hctl2 as (L1 & L2 & L3 & L4 & L5 & L6).
    apply wp_bind, wp_ret.
    eapply (Hnext a2 T2); auto.
    + apply (fwd_ctl T); auto. apply fwd_full. exact Hp.
    + intros j' T'' Hj' HT''. destruct (le_lt_dec (length (st_tabs a)) j') as [Hge|Hlt].
      * apply (Hnew2 j' T'' Hge HT'' k Hck).
      * rewrite Ho2 in HT'' by lia. apply (Habs j' T''); [lia|exact HT''].
Qed.

End Copy.
