(** A migration that has nothing left to copy but whose work counter will never reach the end: every call
    waits for it forever. *)
From Coq Require Import NArith Bool List Lia.
From stdpp Require Import base list.
From Verif Require Import Word Bits Prog HashMap Spec Abs Probe.
Import ListNotations.
Open Scope nat_scope.

(** The current table has a larger successor, every entry is marked as migrated, but fewer than all entries have been
    counted. *)
Definition stuckT (T : table) : Prop :=
  0 < t_len T /\ length (t_pairs T) = t_len T /\
  Forall (fun p => clean (fst p) <> KINITIAL /\ clean (snd p) = TOMBPRIME) (t_pairs T) /\
  (t_copyDone T < N.of_nat (t_len T))%N.
Definition stuck (s : state) : Prop := exists T nt N,
  st_tabs s !! st_top s = Some T /\ t_new T = Some nt /\ st_tabs s !! nt = Some N /\ t_len T < t_len N /\ stuckT T.

Definition stuckb (s : state) : bool :=
  match st_tabs s !! st_top s with
  | Some T => match t_new T with
    | Some nt => match st_tabs s !! nt with
      | Some N => (t_len T <? t_len N) && (0 <? t_len T) && (length (t_pairs T) =? t_len T) &&
          forallb (fun p => negb (clean (fst p) =? KINITIAL)%N && (clean (snd p) =? TOMBPRIME)%N) (t_pairs T) &&
          (t_copyDone T <? N.of_nat (t_len T))%N
      | None => false end
    | None => false end
  | None => false end.

Lemma stuckb_ok s : stuckb s = true -> stuck s.
Proof.
  unfold stuckb, stuck. destruct (st_tabs s !! st_top s) as [T|]; [|discriminate].
  destruct (t_new T) as [nt|] eqn:Hn; [|discriminate]. destruct (st_tabs s !! nt) as [N|] eqn:HN; [|discriminate].
  rewrite !andb_true_iff, !Nat.ltb_lt, Nat.eqb_eq, N.ltb_lt, forallb_forall. intros ((((H1 & H2) & H3) & H4) & H5).
  exists T, nt, N. split; [reflexivity|]. split; [exact Hn|]. split; [exact HN|]. split; [exact H1|].
  split; [exact H2|]. split; [exact H3|]. split; [|exact H5].
  apply Forall_forall. intros p Hp. apply elem_of_list_In in Hp. specialize (H4 p Hp).
  apply andb_true_iff in H4 as [H4 H6]. apply negb_true_iff, N.eqb_neq in H4. apply N.eqb_eq in H6. auto.
Qed.

Section Stuck.
Context (C : cfg).
Notation E0 := (fun e => e = OutOfFuel).

(** Stuck on abstract states. *)
Definition astuck (t nt len : nat) (a : state) : Prop := exists T N,
  st_top a = t /\ st_tabs a !! t = Some T /\ t_len T = len /\ t_new T = Some nt /\ st_tabs a !! nt = Some N /\ len < t_len N /\
  0 < len /\ length (t_pairs T) = len /\ (t_copyDone T < N.of_nat len)%N /\
  Forall (fun p => fst p <> KINITIAL /\ snd p = TOMBPRIME) (t_pairs T).

Lemma stuck_abs s : stuck s -> exists nt len, astuck (st_top s) nt len (abs s).
Proof.
  intros (T & nt & N & HT & Hn & HN & Hl & H1 & H2 & H3 & H4). exists nt, (t_len T), (absT T), (absT N).
  rewrite !abs_tab, HT, HN. cbn. rewrite map_length. repeat (split; [assumption||reflexivity|]).
  apply Forall_fmap. eapply Forall_impl; [exact H3|]. intros p Hp. exact Hp.
Qed.

Lemma read_stuck t nt len a i : astuck t nt len a -> i < len ->
  exists T, st_tabs a !! t = Some T /\ t_len T = len /\ read_cell a t i CKey <> KINITIAL /\ read_cell a t i CVal = TOMBPRIME.
Proof.
  intros (T & N & H1 & H2 & H3 & H4 & H5 & H6 & H7 & H8 & H9 & H10) Hi. exists T. split; [exact H2|]. split; [exact H3|].
  unfold read_cell. rewrite H2. rewrite <- H8 in Hi. destruct (lookup_lt_is_Some_2 _ _ Hi) as (p & Hp). rewrite Hp.
  exact (Forall_lookup_1 _ _ _ _ H10 Hp).
Qed.

Lemma mask_lt x len : 0 < len -> mask x len < len.
Proof.
  intros H. unfold mask. pose proof (land_le_r x (N.of_nat len - 1)). lia.
Qed.

Lemma wp_slot_stuck n put t nt len i nt' a (Q : bool -> state -> Prop) : astuck t nt len a -> i < len -> Q false a ->
  wp E0 (copySlot C n put i t nt') Q a.
Proof.
  intros Hs Hi HQ. destruct (read_stuck _ _ _ _ _ Hs Hi) as (T & HT & HL & HK & HV). unfold copySlot. apply wp_bind.
  destruct n as [|n]; [apply wp_err; reflexivity|]. cbn [copySlot_key]. apply wp_bind. eapply wp_key; [exact HT|lia|].
  destruct (N.eqb_spec (read_cell a t i CKey) KINITIAL) as [|_]; [contradiction|]. apply wp_ret.
  apply wp_bind. eapply wp_value; [exact HT|lia|]. rewrite HV. apply wp_bind. cbn [copySlot_mark].
  rewrite TOMBPRIME_marked. apply wp_ret. rewrite N.eqb_refl. apply wp_ret. exact HQ.
Qed.

Lemma wp_chunk_stuck n put t nt len nt' c a (Q : N -> state -> Prop) : astuck t nt len a -> forall cnt i wd,
  Q wd a -> wp E0 (copyChunk C n put t nt' len c i cnt wd) Q a.
Proof.
  intros Hs. induction cnt as [|cnt IH]; intros i wd HQ; cbn [copyChunk]; [apply wp_ret; exact HQ|].
  apply wp_bind. eapply wp_slot_stuck; [exact Hs| |].
  - apply mask_lt. destruct Hs as (T & N & H). tauto.
  - apply IH. exact HQ.
Qed.

Lemma astuck_copyIdx t nt len a x : astuck t nt len a -> astuck t nt len (with_tab t (set_fld FCopyIdx x) a).
Proof.
  intros (T & N & H1 & H2 & H3 & H4 & H5 & H6 & H7 & H8 & H9 & H10).
  exists (set_fld FCopyIdx x T). destruct (Nat.eq_dec t nt) as [->|Hne].
  - exfalso. rewrite H2 in H5. injection H5 as <-. lia.
  - exists N. unfold with_tab; cbn. rewrite list_lookup_alter, H2, list_lookup_alter_ne by exact Hne.
    repeat (split; [assumption||reflexivity|]). exact H10.
Qed.

Lemma wp_claim_stuck t nt len w : forall n i a (Q : N -> state -> Prop), astuck t nt len a ->
  (forall c a', astuck t nt len a' -> Q c a') -> wp E0 (claimChunk n t len w i) Q a.
Proof.
  induction n as [|n IH]; intros i a Q Hs HQ; cbn [claimChunk]; [apply wp_err; reflexivity|].
  destruct (_ <? _)%N; [|apply wp_ret; apply HQ; exact Hs].
  pose proof Hs as (T & N & H1 & H2 & _). apply wp_bind. eapply wp_CasF; [exact H2|].
  destruct (_ =? _)%N; cbn [fst snd].
  - apply wp_ret. apply HQ. apply astuck_copyIdx. exact Hs.
  - apply IH; assumption.
Qed.

Lemma wp_help_stuck put t nt len nt' w (Q : unit -> state -> Prop) : forall n pk c a, astuck t nt len a ->
  wp E0 (helpLoop C n put t nt' len w pk c) Q a.
Proof.
  induction n as [|n IH]; intros pk c a Hs; cbn [helpLoop]; [apply wp_err; reflexivity|].
  pose proof Hs as (T & N & H1 & H2 & H3 & H4 & H5 & H6 & H7 & H8 & H9 & H10).
  apply wp_bind. eapply wp_LoadF; [exact H2|]. cbn [get_fld]. destruct (N.ltb_spec (t_copyDone T) (N.of_nat len)) as [_|]; [|lia].
  assert (Hk : forall c' a', astuck t nt len a' ->
    wp E0 (let panicked' := pk || (2 * N.of_nat len <=? c')%N in
      workDone <-- copyChunk C n put t nt' len c' 0 w 0%N;;
      (if (0 <? workDone)%N then copyCheckAndPromote C t workDone else Ret tt) ;;;
      helpLoop C n put t nt' len w panicked' (add64 c' (N.of_nat w)))%prog Q a').
  { intros c' a' Hs'. cbn zeta. apply wp_bind. eapply wp_chunk_stuck; [exact Hs'|]. change (0 <? 0)%N with false. cbn iota.
    apply wp_bind, wp_ret. apply IH. exact Hs'. }
  apply wp_bind. destruct pk.
  - apply wp_ret. apply Hk. exact Hs.
  - apply wp_bind. eapply wp_LoadF; [exact H2|]. eapply wp_claim_stuck; [exact Hs|]. exact Hk.
Qed.

Lemma wp_helpCopy_stuck put t nt len n h (Q : nat -> state -> Prop) a : astuck t nt len a -> wp E0 (helpCopy C n put h) Q a.
Proof.
  intros Hs. pose proof Hs as (T & N & H1 & H2 & H3 & H4 & _). unfold helpCopy. apply wp_bind, wp_LoadTop. rewrite H1.
  apply wp_bind. eapply wp_LoadNew; [exact H2|]. rewrite H4. apply wp_bind. unfold helpCopyImpl. apply wp_bind.
  eapply wp_LoadNew; [exact H2|]. rewrite H4. apply wp_bind. eapply wp_Len; [exact H2|]. cbn zeta. rewrite H3. apply wp_bind.
  eapply wp_help_stuck. exact Hs.
Qed.

Lemma wp_check_stuck put t nt len n i (Q : nat -> state -> Prop) a : astuck t nt len a -> i < len ->
  wp E0 (copySlotAndCheck C n put t i false) Q a.
Proof.
  intros Hs Hi. pose proof Hs as (T & N & H1 & H2 & H3 & H4 & _). unfold copySlotAndCheck. apply wp_bind.
  eapply wp_LoadNew; [exact H2|]. rewrite H4. apply wp_bind. eapply wp_slot_stuck; [exact Hs|exact Hi|]. cbn iota.
  apply wp_bind, wp_ret. eapply wp_helpCopy_stuck. exact Hs.
Qed.

Lemma wp_resize_stuck t nt len a (Q : nat -> state -> Prop) : astuck t nt len a -> (forall x, Q x a) -> wp E0 (resize C t) Q a.
Proof.
  intros Hs HQ. pose proof Hs as (T & N & H1 & H2 & H3 & H4 & H5 & H6 & _). unfold resize. apply wp_bind.
  eapply wp_LoadNew; [exact H2|]. rewrite H4. apply wp_bind. eapply wp_Len; [exact H5|].
  apply wp_bind. eapply wp_Len; [exact H2|]. rewrite H3. apply wp_bind, wp_assert; [apply Nat.ltb_lt; exact H6|]. apply wp_ret, HQ.
Qed.

(** Probing ends with the key's entry or too far. *)
Lemma wp_claimSlot_stuck t nt len k new (Q : claimed -> state -> Prop) : forall n i rp a, astuck t nt len a -> i < len ->
  Q CFull a -> (forall idx r, idx < len -> Q (CSlot idx TOMBPRIME r) a) ->
  wp E0 (claimSlot C n t k new len i rp) Q a.
Proof.
  induction n as [|n IH]; intros i rp a Hs Hi HF HS; cbn [claimSlot]; [apply wp_err; reflexivity|].
  destruct (read_stuck _ _ _ _ _ Hs Hi) as (T & HT & HL & HK & HV). cbn zeta. apply wp_bind. eapply wp_key; [exact HT|lia|].
  apply wp_bind. eapply wp_value; [exact HT|lia|]. rewrite HV. rewrite <- KINITIAL_val.
  destruct (N.eqb_spec (read_cell a t i CKey) KINITIAL) as [|_]; [contradiction|].
  destruct (_ =? k)%N; [apply wp_ret, HS; exact Hi|]. destruct (_ || _); [apply wp_ret; exact HF|].
  apply IH; auto. apply mask_lt. lia.
Qed.

Lemma wp_pub_stuck n k new old CAS (Q : N -> state -> Prop) t nt len a : astuck t nt len a ->
  new <> VINITIAL -> unmarked new -> old <> VINITIAL -> unmarked old ->
  wp E0 (putIfMatchPub C n k new old CAS) Q a.
Proof.
  intros Hs Hn1 Hn2 Ho1 Ho2. pose proof Hs as (T & N & H1 & H2 & H3 & H4 & H5 & H6 & H7 & _).
  apply N.eqb_neq in Hn1, Ho1. unfold unmarked in Hn2, Ho2.
  unfold putIfMatchPub. rewrite Hn1, Ho1. cbn [negb]. do 2 (apply wp_bind, wp_assert; [reflexivity|]).
  apply wp_bind, wp_LoadTop. rewrite H1. apply wp_bind. destruct n as [|n]; [apply wp_err; reflexivity|]. cbn [putIfMatch].
  unfold putBody. rewrite Hn1, Hn2, Ho2. cbn [negb]. do 3 (apply wp_bind, wp_assert; [reflexivity|]).
  apply wp_bind. eapply wp_Len; [exact H2|]. rewrite H3. apply wp_bind.
  eapply wp_claimSlot_stuck; [exact Hs|apply mask_lt; exact H7| |].
  - apply wp_bind. eapply wp_resize_stuck; [exact Hs|]. intros x. rewrite Ho1. cbn [negb].
    apply wp_bind, wp_bind. eapply wp_helpCopy_stuck. exact Hs.
  - intros idx r Hi. destruct (N.eqb_spec new TOMBPRIME) as [->|_].
    { rewrite TOMBPRIME_marked in Hn2. discriminate. }
    cbn zeta. rewrite Ho1. destruct (N.eqb_spec TOMBPRIME VINITIAL) as [Hx|_].
    { exfalso. pose proof TOMBPRIME_marked as Hm. rewrite Hx in Hm. pose proof VINITIAL_unmarked as Hu. unfold unmarked in Hu. congruence. }
    apply wp_bind, wp_ret. rewrite TOMBPRIME_marked. cbn [orb]. apply wp_bind. eapply wp_resize_stuck; [exact Hs|]. intros x.
    apply wp_bind. eapply wp_check_stuck; [exact Hs|exact Hi].
Qed.

Lemma wp_getLoop_stuck put rec t nt len k (Q : N -> state -> Prop) : k <> KINITIAL -> forall n i rp a, astuck t nt len a -> i < len ->
  wp E0 (getLoop C n put rec t k len i rp) Q a.
Proof.
  intros Hk. induction n as [|n IH]; intros i rp a Hs Hi; cbn [getLoop]; [apply wp_err; reflexivity|].
  destruct (read_stuck _ _ _ _ _ Hs Hi) as (T & HT & HL & HK & HV).
  pose proof Hs as (T' & N & H1 & H2 & H3 & H4 & _). rewrite HT in H2. injection H2 as <-.
  apply wp_bind. eapply wp_key; [exact HT|lia|]. apply wp_bind. eapply wp_value; [exact HT|lia|].
  destruct (N.eqb_spec (read_cell a t i CKey) KINITIAL) as [|_]; [contradiction|].
  apply wp_bind. eapply wp_LoadNew; [exact HT|]. rewrite H4, HV, TOMBPRIME_marked. cbn [negb].
  destruct (_ =? k)%N.
  - apply N.eqb_neq in Hk. rewrite Hk. apply wp_bind. eapply wp_check_stuck; [exact Hs|exact Hi].
  - destruct (_ || _).
    + apply wp_bind. eapply wp_helpCopy_stuck. exact Hs.
    + apply IH; [exact Hs|]. apply mask_lt. lia.
Qed.

Lemma wp_get_stuck n k (Q : N -> state -> Prop) t nt len a : astuck t nt len a -> k <> KINITIAL -> wp E0 (get C n k) Q a.
Proof.
  intros Hs Hk. pose proof Hs as (T & N & H1 & H2 & H3 & H4 & H5 & H6 & H7 & _). unfold get. apply wp_bind, wp_LoadTop. rewrite H1.
  apply wp_bind. destruct n as [|n]; [apply wp_err; reflexivity|]. cbn [getImpl]. apply wp_bind. eapply wp_Len; [exact H2|].
  rewrite H3. eapply wp_getLoop_stuck; [exact Hk|exact Hs|]. apply mask_lt. exact H7.
Qed.

Lemma legal_val_ne v : legal_val v -> v <> VINITIAL /\ unmarked v.
Proof.
  intros (H1 & H2 & H3 & H4). split; [|exact H3]. intros ->. unfold isValueReserved in H4. rewrite N.eqb_refl in H4. discriminate.
Qed.
Lemma legal_key_ne k : legal_key k -> k <> KINITIAL.
Proof. intros (H1 & H2 & H3 & H4) ->. unfold isKeyReserved in H4. rewrite N.eqb_refl in H4. discriminate. Qed.

(** In a stuck state no call but size returns. *)
Theorem stuck_forever s o n : stuck s -> legal_op o -> o <> OSize ->
  exists s', run (op_prog C n o) s = Fail OutOfFuel s'.
Proof.
  intros Hs Hl Hne. destruct (stuck_abs s Hs) as (nt & len & Ha).
  assert (H : wp E0 (op_prog C n o) (fun _ _ => False) (abs s)).
  { assert (VT : VTOMBSTONE <> VINITIAL) by (intros H; discriminate (f_equal (fun x => N.testbit x 3) H)).
    assert (NM : NO_MATCH_OLD <> VINITIAL) by (intros H; discriminate (f_equal (fun x => N.testbit x 3) H)).
    destruct o as [k|k|k v|k v|k|k v|k ov v|k|]; cbn [op_prog legal_op] in *; [..|congruence].
    - apply wp_bind. eapply wp_get_stuck; [exact Ha|apply legal_key_ne; exact Hl].
    - unfold containsKey. apply wp_bind, wp_bind. eapply wp_get_stuck; [exact Ha|apply legal_key_ne; exact Hl].
    - destruct Hl as [_ Hl]. apply legal_val_ne in Hl as [V1 V2]. unfold put. apply wp_bind.
      eapply wp_pub_stuck; [exact Ha|exact V1|exact V2|exact NM|exact NO_MATCH_OLD_unmarked].
    - destruct Hl as [_ Hl]. apply legal_val_ne in Hl as [V1 V2]. unfold putIfAbsent. apply wp_bind.
      eapply wp_pub_stuck; [exact Ha|exact V1|exact V2|exact VT|exact VTOMBSTONE_unmarked].
    - unfold remove. apply wp_bind, wp_bind.
      eapply wp_pub_stuck; [exact Ha|exact VT|exact VTOMBSTONE_unmarked|exact NM|exact NO_MATCH_OLD_unmarked].
    - destruct Hl as [_ Hl]. apply legal_val_ne in Hl as [V1 V2]. unfold removeVal. apply wp_bind, wp_bind.
      eapply wp_pub_stuck; [exact Ha|exact VT|exact VTOMBSTONE_unmarked|exact V1|exact V2].
    - destruct Hl as (_ & Hl1 & Hl2). apply legal_val_ne in Hl1 as [V1 V2]. apply legal_val_ne in Hl2 as [V3 V4].
      unfold replace. apply wp_bind, wp_bind. eapply wp_pub_stuck; eassumption.
    - unfold incrementOp, update. apply wp_bind.
      eapply wp_pub_stuck; [exact Ha| |reflexivity|exact NM|exact NO_MATCH_OLD_unmarked].
      intros H. discriminate (f_equal (fun x => N.testbit x 4) H). }
  specialize (H s eq_refl). destruct (run (op_prog C n o) s) as [r s'|e s']; [contradiction|]. exists s'. rewrite H. reflexivity.
Qed.

End Stuck.
