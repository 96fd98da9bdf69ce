(** The calls of MwCas.v when nobody else accesses their words and descriptors. *)
From Coq Require Import NArith Bool List Lia Permutation.
From stdpp Require Import base list.
From Verif Require Import Word Bits Codec CodecSpec CodecThm MwCas MwSpec MwWp.
Import ListNotations.
Local Open Scope N_scope.

(** ** The words in the order of their offsets *)

Lemma insert_word_perm x l : Permutation (insert_word x l) (x :: l).
Proof. induction l as [|y l IH]; cbn; [reflexivity|]. destruct (_ <? _); [reflexivity|]. rewrite IH. apply perm_swap. Qed.
Lemma sort_words_perm l : Permutation (sort_words l) l.
Proof. induction l as [|y l IH]; cbn; [reflexivity|]. rewrite insert_word_perm. apply perm_skip, IH. Qed.
Lemma sort_words_length l : length (sort_words l) = length l.
Proof. apply Permutation_length, sort_words_perm. Qed.
Lemma insert_word_sorted x l : strictly_sorted l = true -> ~ In (o_off x) (map o_off l) -> strictly_sorted (insert_word x l) = true.
Proof.
  induction l as [|y l IH]; intros Hs Hn; [reflexivity|]. cbn [insert_word]. destruct (o_off x <? o_off y) eqn:E.
  - change (strictly_sorted (x :: y :: l)) with ((o_off x <? o_off y) && strictly_sorted (y :: l)). rewrite E, Hs. reflexivity.
  - assert (Hxy : o_off y < o_off x). { apply N.ltb_ge in E. cbn in Hn. lia. }
    destruct l as [|z l]; cbn [insert_word].
    + change (strictly_sorted [y; x]) with ((o_off y <? o_off x) && true). rewrite andb_true_r. apply N.ltb_lt, Hxy.
    + change (strictly_sorted (y :: z :: l)) with ((o_off y <? o_off z) && strictly_sorted (z :: l)) in Hs. apply andb_prop in Hs as [H1 H2].
      specialize (IH H2 ltac:(cbn in Hn |- *; tauto)). cbn [insert_word] in IH. destruct (o_off x <? o_off z).
      * change (strictly_sorted (y :: x :: z :: l)) with ((o_off y <? o_off x) && strictly_sorted (x :: z :: l)). rewrite IH, andb_true_r. apply N.ltb_lt, Hxy.
      * change (strictly_sorted (y :: z :: insert_word x l)) with ((o_off y <? o_off z) && strictly_sorted (z :: insert_word x l)). rewrite IH, H1. reflexivity.
Qed.
Lemma sort_words_sorted l : NoDup (map o_off l) -> strictly_sorted (sort_words l) = true.
Proof.
  induction l as [|x l IH]; [reflexivity|]. cbn [map sort_words fold_right]. rewrite NoDup_cons, elem_of_list_In. intros [H1 H2].
  apply insert_word_sorted; [exact (IH H2)|]. intros Hi. apply H1. eapply Permutation_in; [|exact Hi]. apply Permutation_map, sort_words_perm.
Qed.

(** ** What a thread owns *)

(** The cells of the two descriptors of thread [t]. *)
Definition kset (t : N) (l : loc) : Prop := match l with LK t' | LKCount t' | LKWord t' _ _ => t' = t | _ => False end.
Definition wset (t : N) (l : loc) : Prop := match l with LW t' | LWWord t' _ | LWSeq t' | LWTid t' => t' = t | _ => False end.
Definition aset (S : N -> Prop) (l : loc) : Prop := match l with LArr j => S j | _ => False end.

Section Seq.
Context (C : mcfg) (HC : mcfg_ok C) (me : N) (Hme : me < 2 ^ m_log C) (O : N -> Prop) (HO : forall j, O j -> j < m_size C).
Local Notation P := (2 ^ m_log C)%N.

Definition own (l : loc) : Prop := kset me l \/ wset me l \/ aset O l.
Local Notation wp := (mwp own).

Lemma own_k l : kset me l -> own l.
Proof. unfold own; tauto. Qed.
Lemma own_w l : wset me l -> own l.
Proof. unfold own; tauto. Qed.
Lemma own_a j : O j -> own (LArr j).
Proof. unfold own, aset; tauto. Qed.

Lemma wp_thread (Q : unit -> mem -> Prop) (m : mem) : Q tt m -> wp (thread_ok C me) Q m.
Proof. intros H. unfold thread_ok. rewrite (proj2 (N.ltb_lt _ _) Hme). exact H. Qed.
Lemma wp_address j (Q : loc -> mem -> Prop) (m : mem) : O j -> Q (LArr j) m -> wp (address C j) Q m.
Proof. intros H HQ. unfold address. rewrite (proj2 (N.ltb_lt _ _) (HO j H)). exact HQ. Qed.

(** A clean word is not changed by reading it. *)
Lemma wp_read_clean l (Q : N -> mem -> Prop) (m : mem) : own l -> clean (m l) = m l ->
  (forall m', (forall x, m' x = m x) -> Q (m l) m') -> wp (m_read l) Q m.
Proof.
  intros Ho Hc H. apply mwp_read; [exact Ho|]. intros m' Hm' E. rewrite Hc. apply H. intros x.
  destruct (decide (x = l)) as [->|Hn]; [rewrite E; exact Hc|]. apply Hm'. congruence.
Qed.
Lemma wp_getSeqK s (Q : N -> mem -> Prop) (m : mem) st : st < 4 -> s < 2 ^ seqSize P -> m (LK me) = kenc st s ->
  (forall m', (forall x, m' x = m x) -> Q s m') -> wp (getSeq C (kdesc s me)) Q m.
Proof.
  intros Hst Hs Hm H. destruct (kenc_facts st s Hst (seq_61 _ _ HC Hs)) as (D & E & _). unfold getSeq, kdesc. cbn [d_isKCAS d_isRDCSS d_tid andb negb].
  apply mwp_bind, wp_thread, mwp_bind, wp_read_clean; [apply own_k; reflexivity|rewrite Hm; exact E|]. intros m' Hm'. cbn [mwp]. rewrite Hm, D. apply H, Hm'.
Qed.
Lemma wp_getSeqW s (Q : N -> mem -> Prop) (m : mem) : s < 2 ^ seqSize P -> m (LW me) = wenc s ->
  (forall m', (forall x, m' x = m x) -> Q s m') -> wp (getSeq C (wdesc s me)) Q m.
Proof.
  intros Hs Hm H. destruct (wenc_facts s (seq_63 _ _ HC Hs)) as (D & E & _). unfold getSeq, wdesc. cbn [d_isKCAS d_isRDCSS d_tid andb negb].
  apply mwp_bind, wp_thread, mwp_bind, wp_read_clean; [apply own_w; reflexivity|rewrite Hm; exact E|]. intros m' Hm'. cbn [mwp]. rewrite Hm, D. apply H, Hm'.
Qed.

(** CASField through a reference that is still valid. *)
Lemma wp_CASField_gen d l e n (Q : bool * N * bool -> mem -> Prop) (m : mem) : own l ->
  (forall m1, (forall x, x <> l -> m1 x = m x) -> m1 l = clean (m l) ->
     forall Q' : N -> mem -> Prop, (forall m', (forall x, m' x = m1 x) -> Q' (d_seq d) m') -> wp (getSeq C d) Q' m1) ->
  (forall m', only (eq l) m m' ->
     if clean (m l) =? e then m' l = dirty n -> Q (true, e, true) m' else m' l = clean (m l) -> Q (false, clean (m l), true) m') ->
  wp (CASField C d e n l) Q m.
Proof.
  intros Ho Hg H. unfold CASField. apply mwp_bind, mwp_read; [exact Ho|]. intros m1 Hm1 E1. apply mwp_bind, Hg; [|exact E1|].
  { intros x Hx. apply Hm1. congruence. }
  intros m2 Hm2. rewrite N.eqb_refl. cbn [negb]. destruct (clean (m l) =? e) eqn:E; cbn [negb].
  - apply mwp_bind, mwp_pcas; [exact Ho|]. intros m3 Hm3. rewrite Hm2, E1, clean_clean, E. intros E3. cbn. specialize (H m3).
    apply H; [|exact E3]. intros x Hx. rewrite Hm3, Hm2, Hm1 by exact Hx. reflexivity.
  - specialize (H m2). apply H; [|rewrite Hm2; exact E1]. intros x Hx. rewrite Hm2, Hm1 by exact Hx. reflexivity.
Qed.
Lemma wp_CASField_K s st j e n (Q : bool * N * bool -> mem -> Prop) (m : mem) : O j -> st < 4 -> s < 2 ^ seqSize P -> m (LK me) = kenc st s ->
  (forall m', only (eq (LArr j)) m m' ->
     if contents m j =? e then m' (LArr j) = dirty n -> Q (true, e, true) m' else m' (LArr j) = contents m j -> Q (false, contents m j, true) m') ->
  wp (CASField C (kdesc s me) e n (LArr j)) Q m.
Proof.
  intros Hj Hst Hs Hm H. apply wp_CASField_gen; [apply own_a; exact Hj| |exact H]. intros m1 H1 _ Q' HQ'. eapply wp_getSeqK; [exact Hst|exact Hs| |exact HQ'].
  rewrite H1 by discriminate. exact Hm.
Qed.
Lemma wp_CASField_W s j e n (Q : bool * N * bool -> mem -> Prop) (m : mem) : O j -> s < 2 ^ seqSize P -> m (LW me) = wenc s ->
  (forall m', only (eq (LArr j)) m m' ->
     if contents m j =? e then m' (LArr j) = dirty n -> Q (true, e, true) m' else m' (LArr j) = contents m j -> Q (false, contents m j, true) m') ->
  wp (CASField C (wdesc s me) e n (LArr j)) Q m.
Proof.
  intros Hj Hs Hm H. apply wp_CASField_gen; [apply own_a; exact Hj| |exact H]. intros m1 H1 _ Q' HQ'. eapply wp_getSeqW; [exact Hs| |exact HQ'].
  rewrite H1 by discriminate. exact Hm.
Qed.
(** The status is decided. *)
Lemma wp_CASField_status s st n (Q : bool * N * bool -> mem -> Prop) (m : mem) : st < 4 -> s < 2 ^ seqSize P -> m (LK me) = kenc st s ->
  (forall m', only (eq (LK me)) m m' -> m' (LK me) = dirty n -> Q (true, kenc st s, true) m') ->
  wp (CASField C (kdesc s me) (kenc st s) n (LK me)) Q m.
Proof.
  intros Hst Hs Hm H. destruct (kenc_facts st s Hst (seq_61 _ _ HC Hs)) as (_ & E & _). apply wp_CASField_gen; [apply own_k; reflexivity| |].
  - intros m1 _ H1 Q' HQ'. eapply wp_getSeqK; [exact Hst|exact Hs| |exact HQ']. rewrite H1, Hm. exact E.
  - intros m' Ho. rewrite Hm, E, N.eqb_refl. apply H, Ho.
Qed.

(** ** The descriptors *)

(** The K descriptor holds the words [ws] from index [i] on. *)
Definition kwords (m : mem) (i : nat) (ws : list mword) : Prop :=
  forall k x, ws !! k = Some x -> m (LKWord me (i + k) WOff) = o_off x /\ m (LKWord me (i + k) WOld) = o_old x /\ m (LKWord me (i + k) WNew) = o_new x.
Lemma kwords_cons m i x ws : kwords m i (x :: ws) ->
  (m (LKWord me i WOff) = o_off x /\ m (LKWord me i WOld) = o_old x /\ m (LKWord me i WNew) = o_new x) /\ kwords m (S i) ws.
Proof.
  intros H. split.
  - specialize (H 0%nat x eq_refl). rewrite Nat.add_0_r in H. exact H.
  - intros k y Hy. specialize (H (S k) y Hy). replace (i + S k)%nat with (S i + k)%nat in H by lia. exact H.
Qed.
Definition wfull (m : mem) (s ws : N) (x : mword) : Prop :=
  m (LW me) = wenc ws /\ m (LWWord me WOff) = o_off x /\ m (LWWord me WOld) = o_old x /\ m (LWWord me WNew) = o_new x /\ m (LWSeq me) = s /\ m (LWTid me) = me.

Lemma wp_store_words ws i (Q : unit -> mem -> Prop) (m : mem) :
  (forall m', (forall l, match l with LKWord t k _ => t = me -> (k < i)%nat | _ => True end -> m' l = m l) -> only (kset me) m m' -> kwords m' i ws -> Q tt m') ->
  wp (store_words me i ws) Q m.
Proof.
  revert i Q m. induction ws as [|x ws IH]; intros i Q m H; cbn [store_words].
  - cbn. apply H; [reflexivity|apply only_refl|]. intros k y Hy. discriminate.
  - do 3 (apply mwp_bind, mwp_store; [apply own_k; reflexivity|]). apply IH. intros m' H1 H2 H3. apply H.
    + intros l Hl. rewrite H1. 2: { destruct l; try exact I. intros E. specialize (Hl E). lia. }
      rewrite !upd_other; [reflexivity| | |]; intros ->; specialize (Hl eq_refl); lia.
    + intros l Hl. rewrite H2 by exact Hl. rewrite !upd_other; [reflexivity| | |]; intros ->; apply Hl; reflexivity.
    + intros k y Hy. destruct k as [|k]; cbn in Hy.
      * injection Hy as <-. rewrite Nat.add_0_r. rewrite !H1 by (intros _; lia).
        split; [|split]; repeat (rewrite upd_other by discriminate); apply upd_same.
      * replace (i + S k)%nat with (S i + k)%nat by lia. apply H3, Hy.
Qed.

Lemma wp_createK ws s (Q : descref -> mem -> Prop) (m : mem) :
  ws <> [] -> (length ws <= m_K C)%nat -> NoDup (map o_off ws) ->
  km_seq (kmut_decode (clean (m (LK me)))) = s -> s + 2 < 2 ^ seqSize P ->
  (forall m', only (kset me) m m' -> m' (LK me) = kenc Undecided (s + 2) -> m' (LKCount me) = N.of_nat (length ws) ->
     kwords m' 0 (sort_words ws) -> Q (kdesc (s + 2) me) m') ->
  wp (createK C me ws) Q m.
Proof.
  intros Hne HK Hnd Hs Hfit H. pose proof (seq_61 _ _ HC Hfit) as H61. unfold createK.
  apply mwp_bind, mwp_assert; [apply N.ltb_lt, Hme|].
  apply mwp_bind, mwp_assert. { destruct ws; [contradiction|]. apply andb_true_intro. split; [reflexivity|apply Nat.leb_le; exact HK]. }
  apply mwp_bind, wp_thread, mwp_bind, mwp_read; [apply own_k; reflexivity|]. intros m1 Hm1 _.
  rewrite Hs. rewrite (N.mod_small (s + 1)) by lia. replace (s + 1 + 1) with (s + 2) by lia. rewrite (N.mod_small (s + 2)) by lia. rewrite (N.mod_small (s + 2) (2 ^ seqSize P)) by lia.
  destruct (kenc_facts Undecided (s + 1) eq_refl ltac:(lia)) as (D1 & E1 & F1). destruct (kenc_facts Undecided (s + 2) eq_refl H61) as (D2 & E2 & F2).
  rewrite F1, F2. cbn zeta.
  apply mwp_bind, mwp_store; [apply own_k; reflexivity|]. apply mwp_bind, mwp_persist; [apply own_k; reflexivity|].
  intros m2 Hm2. rewrite upd_same, N.eqb_refl, clean_dirty, E1. intros G2.
  apply mwp_bind, mwp_assert; [apply sort_words_sorted, Hnd|]. apply mwp_bind, mwp_store; [apply own_k; reflexivity|].
  apply mwp_bind, wp_store_words. intros m3 H3a H3b H3c. apply mwp_bind, mwp_load; [apply own_k; reflexivity|].
  rewrite H3a by exact I. rewrite upd_other by discriminate. rewrite G2, D1.
  apply mwp_bind, mwp_assert; [reflexivity|]. apply mwp_bind, mwp_store; [apply own_k; reflexivity|]. apply mwp_bind, mwp_persist; [apply own_k; reflexivity|].
  intros m4 Hm4. rewrite upd_same, N.eqb_refl, clean_dirty, E2. intros G4. cbn.
  assert (Hoff : forall l, kset me l -> forall l', ~ kset me l' -> l <> l') by (intros l Hl l' Hl' ->; contradiction).
  apply H.
  - intros l Hl. rewrite Hm4 by (apply Hoff; [reflexivity|exact Hl]). rewrite upd_other by (intros ->; apply Hl; reflexivity).
    rewrite H3b by exact Hl. rewrite upd_other by (intros ->; apply Hl; reflexivity). rewrite Hm2 by (apply Hoff; [reflexivity|exact Hl]).
    rewrite upd_other by (intros ->; apply Hl; reflexivity). apply Hm1, Hoff; [reflexivity|exact Hl].
  - exact G4.
  - rewrite Hm4 by discriminate. rewrite upd_other by discriminate. rewrite H3a by exact I. apply upd_same.
  - intros k x Hx. rewrite !Hm4 by discriminate. rewrite !upd_other by discriminate. apply H3c, Hx.
Qed.

Lemma wp_createW x s ws (Q : descref -> mem -> Prop) (m : mem) :
  wm_seq (wmut_decode (clean (m (LW me)))) = ws -> ws + 2 < 2 ^ seqSize P ->
  (forall m', only (wset me) m m' -> wfull m' s (ws + 2) x -> Q (wdesc (ws + 2) me) m') ->
  wp (createW C me me x (kdesc s me)) Q m.
Proof.
  intros Hs Hfit H. pose proof (seq_63 _ _ HC Hfit) as H63. unfold createW.
  do 2 (apply mwp_bind, mwp_assert; [apply N.ltb_lt, Hme|]).
  apply mwp_bind, wp_thread, mwp_bind, mwp_read; [apply own_w; reflexivity|]. intros m1 Hm1 _.
  rewrite Hs. rewrite (N.mod_small (ws + 1)) by lia. replace (ws + 1 + 1) with (ws + 2) by lia. rewrite (N.mod_small (ws + 2)) by lia. rewrite (N.mod_small (ws + 2) (2 ^ seqSize P)) by lia.
  destruct (wenc_facts (ws + 1) ltac:(lia)) as (D1 & E1 & F1). destruct (wenc_facts (ws + 2) H63) as (D2 & E2 & F2).
  rewrite F1, F2. cbn zeta. cbn [d_seq kdesc].
  apply mwp_bind, mwp_store; [apply own_w; reflexivity|]. apply mwp_bind, mwp_persist; [apply own_w; reflexivity|].
  intros m2 Hm2. rewrite upd_same, N.eqb_refl, clean_dirty, E1. intros G2.
  do 6 (apply mwp_bind, mwp_store; [apply own_w; reflexivity|]). apply mwp_bind, mwp_persist; [apply own_w; reflexivity|].
  intros m4 Hm4. rewrite upd_same, N.eqb_refl, clean_dirty, E2. intros G4. cbn.
  assert (Hoff : forall l, wset me l -> forall l', ~ wset me l' -> l <> l') by (intros l Hl l' Hl' ->; contradiction).
  apply H.
  - intros l Hl. rewrite Hm4 by (apply Hoff; [reflexivity|exact Hl]). rewrite !upd_other by (intros ->; apply Hl; reflexivity).
    rewrite Hm2 by (apply Hoff; [reflexivity|exact Hl]).
    rewrite upd_other by (intros ->; apply Hl; reflexivity). apply Hm1, Hoff; [reflexivity|exact Hl].
  - unfold wfull. rewrite G4. rewrite !Hm4 by discriminate. repeat (first [rewrite upd_same | rewrite upd_other by discriminate]). tauto.
Qed.

(** The references. *)
Definition kref (s : N) : N := desc_encode P (kdesc s me).
Definition wref (s : N) : N := desc_encode P (wdesc s me).
Lemma mval_dec v : mval v -> d_isRDCSS (desc_decode P v) = false /\ d_isKCAS (desc_decode P v) = false.
Proof. intros (_ & _ & H1 & H2). rewrite decode_rdcss, decode_kcas. tauto. Qed.
Lemma mval_kref v s : s < 2 ^ seqSize P -> mval v -> v <> kref s.
Proof. intros Hs (_ & _ & H1 & _) ->. destruct (kref_facts _ s me HC Hs Hme) as (_ & _ & H & _). unfold kref in H1. congruence. Qed.

Lemma wp_completeInstall s ws x (Q : bool -> mem -> Prop) (m : mem) :
  O (o_off x) -> s < 2 ^ seqSize P -> ws < 2 ^ seqSize P -> m (LK me) = kenc Undecided s -> wfull m s ws x -> contents m (o_off x) = wref ws ->
  (forall m', only (eq (LArr (o_off x))) m m' -> m' (LArr (o_off x)) = dirty (kref s) -> Q true m') ->
  wp (completeInstall C (wdesc ws me)) Q m.
Proof.
  intros Hx Hs Hws Hk (W1 & W2 & W3 & W4 & W5 & W6) Ha H. unfold completeInstall. cbn [d_tid wdesc].
  destruct (kenc_facts Undecided s eq_refl (seq_61 _ _ HC Hs)) as (D & E & _).
  apply mwp_bind, wp_thread. do 3 (apply mwp_bind, mwp_load; [apply own_w; reflexivity|]). rewrite W5, W6.
  rewrite (N.mod_small s) by exact Hs. rewrite (N.mod_small me) by (apply tidSize_fits; exact Hme).
  apply mwp_bind, wp_thread. apply mwp_bind. unfold readField. apply mwp_bind, wp_read_clean; [apply own_k; reflexivity|rewrite Hk; exact E|].
  intros m1 Hm1. apply mwp_bind. change (mkDesc false true false s me) with (kdesc s me). eapply wp_getSeqK; [|exact Hs|rewrite Hm1; exact Hk|]; [reflexivity|].
  intros m2 Hm2. cbn [mwp fst snd]. rewrite Hk, D. cbn [km_status]. rewrite !N.eqb_refl. cbn [andb d_seq kdesc]. rewrite ?N.eqb_refl.
  apply mwp_bind, mwp_assert. { rewrite isMarked_rdcss. apply (wref_facts _ ws me HC Hws Hme). }
  do 2 (apply mwp_bind, mwp_load; [apply own_w; reflexivity|]). rewrite !Hm2, !Hm1, W2. apply mwp_bind, wp_address; [exact Hx|].
  apply mwp_bind. change (mkDesc false false true ws me) with (wdesc ws me). apply wp_CASField_W; [exact Hx|exact Hws|rewrite Hm2, Hm1; exact W1|].
  intros m3 Hm3. unfold contents. rewrite Hm2, Hm1. fold (contents m (o_off x)). rewrite Ha. fold (wref ws). rewrite N.eqb_refl. intros E3. cbn. apply H; [|exact E3].
  intros l Hl. rewrite Hm3, Hm2, Hm1 by exact Hl. reflexivity.
Qed.

Lemma wp_install n s ws x (Q : N * bool -> mem -> Prop) (m : mem) :
  O (o_off x) -> s < 2 ^ seqSize P -> ws < 2 ^ seqSize P -> m (LK me) = kenc Undecided s -> wfull m s ws x -> mval (contents m (o_off x)) ->
  (forall m', only (eq (LArr (o_off x))) m m' ->
     m' (LArr (o_off x)) = (if contents m (o_off x) =? o_old x then dirty (kref s) else contents m (o_off x)) -> Q (contents m (o_off x), true) m') ->
  wp (install C (S n) (wdesc ws me)) Q m.
Proof.
  intros Hx Hs Hws Hk Hw Hv H. pose proof Hw as (W1 & W2 & W3 & W4 & W5 & W6). cbn [install]. cbn [d_tid wdesc].
  do 2 (apply mwp_bind, mwp_load; [apply own_w; reflexivity|]). rewrite W2, W3. apply mwp_bind, wp_address; [exact Hx|].
  apply mwp_bind. change (mkDesc false false true ws me) with (wdesc ws me). apply wp_CASField_W; [exact Hx|exact Hws|exact W1|].
  intros m1 Hm1. destruct (contents m (o_off x) =? o_old x) eqn:Em; intros E1.
  - cbn [fst snd]. apply mwp_bind, mwp_assert; [rewrite N.eqb_refl; reflexivity|]. apply N.eqb_eq in Em. rewrite <- Em.
    rewrite (proj1 (mval_dec _ Hv)). cbn [negb]. rewrite N.eqb_refl. apply mwp_bind, mwp_bind.
    assert (Hd : forall l, l <> LArr (o_off x) -> m1 l = m l) by (intros l Hl; apply Hm1; congruence).
    eapply wp_completeInstall with (s := s) (x := x); [exact Hx|exact Hs|exact Hws|rewrite Hd by discriminate; exact Hk| | |].
    + unfold wfull. rewrite !Hd by discriminate. tauto.
    + unfold contents. rewrite E1, clean_dirty. apply (wref_facts _ ws me HC Hws Hme).
    + intros m2 Hm2 E2. cbn. apply H; [|exact E2]. eapply only_trans; eassumption.
  - cbn [fst snd]. apply mwp_bind, mwp_assert; [reflexivity|]. cbn [negb]. rewrite (proj1 (mval_dec _ Hv)). cbn. apply H; [exact Hm1|exact E1].
Qed.

Lemma wp_more i (c : N) (Q : bool -> mem -> Prop) (m : mem) : m (LKCount me) = c -> Q (N.of_nat i <? c) m -> wp (more me i) Q m.
Proof. intros Hc H. unfold more. apply mwp_bind, mwp_load; [apply own_k; reflexivity|]. cbn. rewrite Hc. exact H. Qed.
Lemma wp_word_address i j (Q : loc -> mem -> Prop) (m : mem) : m (LKWord me i WOff) = j -> O j -> Q (LArr j) m -> wp (word_address C me i) Q m.
Proof. intros E Hj H. unfold word_address. apply mwp_bind, mwp_load; [apply own_k; reflexivity|]. rewrite E. apply wp_address; assumption. Qed.

(** ** The phases *)

Definition offs (ws : list mword) (j : N) : Prop := In j (map o_off ws).

(** Placing the descriptor: the words before the first mismatch hold the descriptor. *)
Lemma wp_place rec n s ws i q (Q : N -> mem -> Prop) (m : mem) : (length ws < n)%nat ->
  (forall j, offs ws j -> O j) -> NoDup (map o_off ws) -> (forall j, offs ws j -> mval (contents m j)) ->
  s < 2 ^ seqSize P -> m (LK me) = kenc Undecided s -> m (LKCount me) = N.of_nat (i + length ws) -> kwords m i ws ->
  wm_seq (wmut_decode (clean (m (LW me)))) <= q -> q + 2 * N.of_nat (length ws) < 2 ^ seqSize P ->
  (forall st m' pre post, ws = pre ++ post -> all_match (contents m) pre = true ->
     match post with [] => st = Succeeded | x :: _ => st = Failed /\ contents m (o_off x) <> o_old x end ->
     only (fun l => wset me l \/ aset (offs ws) l) m m' ->
     (forall j, contents m' j = if in_dec N.eq_dec j (map o_off pre) then kref s else contents m j) ->
     wm_seq (wmut_decode (clean (m' (LW me)))) <= q + 2 * N.of_nat (length ws) -> Q st m') ->
  wp (place C n rec me (kdesc s me) i false) Q m.
Proof.
  revert ws i q Q m. induction n as [|n IH]; intros ws i q Q m Hn HO' Hnd Hv Hs Hk Hc Hkw Hq Hqf H; [lia|]. cbn [place]. cbn [d_tid kdesc].
  apply mwp_bind. eapply wp_more; [exact Hc|]. destruct ws as [|x ws].
  - rewrite (proj2 (N.ltb_ge _ _)) by (cbn; lia). cbn. apply (H Succeeded m [] []); [reflexivity|reflexivity|reflexivity|apply only_refl|intros j; destruct (in_dec _ j _) as [[]|_]; reflexivity|cbn [length]; lia].
  - rewrite (proj2 (N.ltb_lt _ _)) by (cbn; lia). cbn [negb]. apply kwords_cons in Hkw as [(K1 & K2 & K3) Hkw].
    apply mwp_bind. unfold load_word. do 3 (apply mwp_bind, mwp_load; [apply own_k; reflexivity|]). cbn [mwp]. rewrite K1, K2, K3.
    assert (Hx : O (o_off x)) by (apply HO'; left; reflexivity).
    assert (Hvx : mval (contents m (o_off x))) by (apply Hv; left; reflexivity).
    cbn [length] in Hqf. apply mwp_bind. change (mkDesc false true false s me) with (kdesc s me). eapply wp_createW; [reflexivity|lia|]. intros m1 Hm1 Hw1.
    assert (Ec1 : forall j, contents m1 j = contents m j) by (intros j; unfold contents; rewrite Hm1; [reflexivity|exact (fun F => F)]).
    set (q1 := wm_seq (wmut_decode (clean (m (LW me)))) + 2) in *.
    apply mwp_bind. destruct n as [|n]; [cbn in Hn; lia|].
    eapply wp_install with (s := s) (x := mkWord (o_off x) (o_old x) (o_new x)); cbn [o_off o_old o_new];
      [exact Hx|exact Hs|unfold q1; lia|rewrite Hm1 by (intros F; exact F); exact Hk|exact Hw1|rewrite Ec1; exact Hvx|].
    intros m2 Hm2. rewrite Ec1. intros E2. cbn [negb]. apply mwp_bind, mwp_load; [apply own_w; reflexivity|].
    assert (Hd : forall l, ~ aset (offs (x :: ws)) l -> m2 l = m1 l). { intros l Hl. apply Hm2. intros <-. apply Hl. left. reflexivity. }
    rewrite Hd by (intros F; exact F). cbn [d_tid wdesc]. destruct Hw1 as (W1 & W2 & W3 & W4 & W5 & W6). rewrite W3. cbn [o_old].
    destruct (contents m (o_off x) =? o_old x) eqn:Em.
    + change (NoDup (o_off x :: map o_off ws)) in Hnd. apply NoDup_cons in Hnd as [Hni Hnd]. rewrite elem_of_list_In in Hni.
      assert (Ec2 : forall j, contents m2 j = if decide (j = o_off x) then kref s else contents m j).
      { intros j. destruct (decide (j = o_off x)) as [->|Hj].
        - unfold contents. rewrite E2, clean_dirty. apply (kref_facts _ s me HC Hs Hme).
        - rewrite <- Ec1. unfold contents. rewrite Hm2; [reflexivity|congruence]. }
      destruct (wenc_facts q1) as (D1 & D2 & _). { apply (seq_63 _ _ HC). unfold q1. lia. }
      apply (IH ws (S i) q1); [cbn in Hn; lia| |exact Hnd| |exact Hs| | | | |cbn [length] in Hqf; unfold q1; lia|].
      * intros j Hj. apply HO'. right. exact Hj.
      * intros j Hj. rewrite Ec2. rewrite decide_False by (intros ->; contradiction). apply Hv. right. exact Hj.
      * rewrite Hd, Hm1 by (intros F; exact F). exact Hk.
      * rewrite Hd, Hm1 by (intros F; exact F). rewrite Hc. cbn [length]. f_equal. lia.
      * intros k y Hy. rewrite !Hd, !Hm1 by (intros F; exact F). apply Hkw, Hy.
      * rewrite Hd, W1, D2, D1 by (intros F; exact F). cbn. lia.
      * intros st m' pre post Hws Hm Hpost Ho' Hcon Hq'. apply (H st m' (x :: pre) post).
        -- rewrite Hws. reflexivity.
        -- cbn. rewrite Em. cbn. rewrite <- Hm. unfold all_match. assert (Hpre : forall y, In y pre -> o_off y <> o_off x).
           { intros y Hy E. apply Hni. rewrite <- E, Hws, List.map_app, in_app_iff. left. apply in_map, Hy. }
           clear -Ec2 Hpre. induction pre as [|y pre IHp]; [reflexivity|]. cbn. rewrite Ec2, decide_False by (apply Hpre; left; reflexivity).
           rewrite IHp by (intros z Hz; apply Hpre; right; exact Hz). reflexivity.
        -- destruct post as [|y post]; [exact Hpost|]. destruct Hpost as [-> Hp]. split; [reflexivity|]. rewrite Ec2, decide_False in Hp; [exact Hp|].
           intros E. apply Hni. rewrite <- E, Hws, List.map_app, in_app_iff. right. left. reflexivity.
        -- intros l Hl. rewrite Ho'. 2: { intros [F|F]; apply Hl; [left; exact F|right]. destruct l; try contradiction. right. exact F. }
           rewrite Hd by (intros F; apply Hl; right; exact F). apply Hm1. intros F. apply Hl. left. exact F.
        -- intros j. rewrite Hcon, Ec2. cbn [map]. destruct (in_dec _ j (map o_off pre)) as [Hj|Hj].
           ++ destruct (in_dec _ j (o_off x :: map o_off pre)) as [_|Hn']; [reflexivity|]. exfalso. apply Hn'. right. exact Hj.
           ++ destruct (decide (j = o_off x)) as [->|Hjx]; destruct (in_dec _ _ (o_off x :: map o_off pre)) as [Hi|Hi]; try reflexivity.
              ** exfalso. apply Hi. left. reflexivity.
              ** exfalso. destruct Hi as [E|E]; [congruence|contradiction].
        -- cbn [length]. unfold q1 in Hq'. lia.
    + rewrite (proj2 (mval_dec _ Hvx)). cbn [mwp].
      assert (Ec2 : forall j, contents m2 j = contents m j).
      { intros j. rewrite <- Ec1. destruct (decide (j = o_off x)) as [->|Hj].
        - unfold contents at 1. rewrite E2. rewrite mval_clean by exact Hvx. rewrite Ec1. reflexivity.
        - unfold contents. rewrite Hm2; [reflexivity|congruence]. }
      destruct (wenc_facts q1) as (D1 & D2 & _). { apply (seq_63 _ _ HC). unfold q1. lia. }
      apply (H Failed m2 [] (x :: ws)); [reflexivity|reflexivity| | | |].
      * split; [reflexivity|]. apply N.eqb_neq, Em.
      * intros l Hl. rewrite Hd by (intros F; apply Hl; right; exact F). apply Hm1. intros F. apply Hl. left. exact F.
      * intros j. destruct (in_dec _ j _) as [[]|_]. apply Ec2.
      * rewrite Hd, W1, D2, D1 by (intros F; exact F). cbn [wm_seq length]. unfold q1. lia.
Qed.

Lemma wp_persist_words n ws i (Q : unit -> mem -> Prop) (m : mem) : (length ws < n)%nat ->
  (forall j, offs ws j -> O j) -> m (LKCount me) = N.of_nat (i + length ws) -> kwords m i ws ->
  (forall m', only (aset (offs ws)) m m' -> (forall j, contents m' j = contents m j) -> Q tt m') ->
  wp (persist_words C n me i) Q m.
Proof.
  revert ws i Q m. induction n as [|n IH]; intros ws i Q m Hn HO' Hc Hkw H; [lia|]. cbn [persist_words].
  apply mwp_bind. eapply wp_more; [exact Hc|]. destruct ws as [|x ws].
  - rewrite (proj2 (N.ltb_ge _ _)) by (cbn; lia). cbn. apply H; [apply only_refl|reflexivity].
  - rewrite (proj2 (N.ltb_lt _ _)) by (cbn; lia). apply kwords_cons in Hkw as [(K1 & K2 & K3) Hkw].
    apply mwp_bind. eapply wp_word_address; [exact K1|apply HO'; left; reflexivity|]. apply mwp_bind, mwp_read; [apply own_a, HO'; left; reflexivity|].
    intros m1 Hm1 E1.
    apply (IH ws (S i)); [cbn in Hn; lia|intros j Hj; apply HO'; right; exact Hj|rewrite Hm1 by discriminate; rewrite Hc; cbn [length]; f_equal; lia| |].
    { intros k y Hy. rewrite !Hm1 by discriminate. apply Hkw, Hy. }
    intros m' Ho Hcon. apply H.
    + intros l Hl. rewrite Ho by (intros F; apply Hl; destruct l; try contradiction; right; exact F). apply Hm1. intros <-. apply Hl. left. reflexivity.
    + intros j. rewrite Hcon. unfold contents. destruct (decide (j = o_off x)) as [->|Hj]; [rewrite E1; apply clean_clean|]. rewrite Hm1; [reflexivity|congruence].
Qed.

(** Installing the final values: the words that hold the descriptor get them. *)
Lemma wp_finish n s st ws i (Q : unit -> mem -> Prop) (m : mem) : (length ws < n)%nat -> st < 4 ->
  (forall j, offs ws j -> O j) -> NoDup (map o_off ws) -> s < 2 ^ seqSize P -> m (LK me) = kenc st s ->
  m (LKCount me) = N.of_nat (i + length ws) -> kwords m i ws ->
  (forall x, In x ws -> contents m (o_off x) = kref s -> mval (if st =? Succeeded then o_new x else o_old x)) ->
  (forall m', only (aset (offs ws)) m m' ->
     (forall j, ~ offs ws j -> contents m' j = contents m j) ->
     (forall x, In x ws -> contents m' (o_off x) = if contents m (o_off x) =? kref s then (if st =? Succeeded then o_new x else o_old x) else contents m (o_off x)) -> Q tt m') ->
  wp (finish C n (kdesc s me) st i) Q m.
Proof.
  revert ws i Q m. induction n as [|n IH]; intros ws i Q m Hn Hst HO' Hnd Hs Hk Hc Hkw Hval H; [lia|]. cbn [finish]. cbn [d_tid kdesc].
  change (mkDesc false true false s me) with (kdesc s me). apply mwp_bind. eapply wp_more; [exact Hc|]. destruct ws as [|x ws].
  { rewrite (proj2 (N.ltb_ge _ _)) by (cbn; lia). cbn. apply H; [apply only_refl|reflexivity|intros x []]. }
  rewrite (proj2 (N.ltb_lt _ _)) by (cbn; lia). apply kwords_cons in Hkw as [(K1 & K2 & K3) Hkw].
  destruct (kref_facts _ s me HC Hs Hme) as (R1 & R2 & R3 & R4 & R5). fold (kref s) in R1, R2, R3, R4, R5 |- *.
  assert (Elor : N.lor (kref s) PMwCASFlag = kref s).
  { apply N.bits_inj. intros b. rewrite N.lor_spec. destruct (decide (b = 1)) as [->|Hb]; [rewrite R3; reflexivity|].
    change PMwCASFlag with (2 ^ 1). rewrite N.pow2_bits_false by congruence. apply orb_false_r. }
  rewrite Elor. change (N.lor (kref s) DirtyFlag) with (dirty (kref s)).
  assert (Eld : N.ldiff (dirty (kref s)) DirtyFlag = kref s).
  { change (clean (dirty (kref s)) = kref s). rewrite clean_dirty. exact R5. }
  rewrite Eld. set (v := if st =? Succeeded then o_new x else o_old x) in *.
  assert (Hx : O (o_off x)) by (apply HO'; left; reflexivity).
  apply mwp_bind, mwp_load; [apply own_k; reflexivity|].
  replace (m (LKWord me i (if st =? Succeeded then WNew else WOld))) with v by (unfold v; destruct (st =? Succeeded); congruence).
  apply mwp_bind. eapply wp_word_address; [exact K1|exact Hx|]. apply mwp_bind. eapply wp_CASField_K; [exact Hx|exact Hst|exact Hs|exact Hk|].
  intros m1 Hm1. replace (contents m (o_off x) =? dirty (kref s)) with false.
  2: { symmetry. apply N.eqb_neq. unfold contents. apply isclean_neq_dirty, clean_isclean. }
  intros E1. cbn [fst snd negb]. assert (Hd1 : forall l, ~ aset (offs (x :: ws)) l -> m1 l = m l). { intros l Hl. apply Hm1. intros <-. apply Hl. left. reflexivity. }
  assert (Ec1 : forall j, contents m1 j = contents m j).
  { intros j. unfold contents. destruct (decide (j = o_off x)) as [->|Hj]; [rewrite E1; apply clean_clean|]. rewrite Hm1; [reflexivity|congruence]. }
  change (NoDup (o_off x :: map o_off ws)) in Hnd. apply NoDup_cons in Hnd as [Hni Hnd]. rewrite elem_of_list_In in Hni.
  (* the state after the two attempts *)
  enough (Hrest : forall m2, only (eq (LArr (o_off x))) m m2 -> contents m2 (o_off x) = (if contents m (o_off x) =? kref s then v else contents m (o_off x)) ->
    wp (a <-- word_address C me i;; m_persist a v ;;; finish C n (kdesc s me) st (S i))%mprog Q m2).
  { apply mwp_bind. destruct (contents m (o_off x) =? kref s) eqn:Ek.
    - apply mwp_bind. eapply wp_word_address; [rewrite Hd1 by (intros F; exact F); exact K1|exact Hx|].
      apply mwp_bind. eapply wp_CASField_K; [exact Hx|exact Hst|exact Hs|rewrite Hd1 by (intros F; exact F); exact Hk|].
      intros m2 Hm2. rewrite Ec1, Ek. intros E2. cbn [mwp snd negb]. apply Hrest.
      + eapply only_trans; eassumption.
      + unfold contents. rewrite E2, clean_dirty. apply mval_clean. apply N.eqb_eq in Ek. apply Hval; [left; reflexivity|exact Ek].
    - cbn [mwp negb]. apply Hrest; [exact Hm1|apply Ec1]. }
  intros m2 Hm2 E2.
  assert (Hd2 : forall l, ~ aset (offs (x :: ws)) l -> m2 l = m l). { intros l Hl. apply Hm2. intros <-. apply Hl. left. reflexivity. }
  apply mwp_bind. eapply wp_word_address; [rewrite Hd2 by (intros F; exact F); exact K1|exact Hx|]. apply mwp_bind, mwp_persist; [apply own_a, Hx|].
  intros m3 Hm3 E3. assert (Hm3' : only (eq (LArr (o_off x))) m m3) by (eapply only_trans; eassumption).
  assert (Ec3 : contents m3 (o_off x) = contents m2 (o_off x)).
  { unfold contents. rewrite E3. destruct (m2 (LArr (o_off x)) =? v) eqn:Ev; [|reflexivity]. apply N.eqb_eq in Ev. rewrite Ev. apply clean_clean. }
  assert (Hd3 : forall l, ~ aset (offs (x :: ws)) l -> m3 l = m l). { intros l Hl. apply Hm3'. intros <-. apply Hl. left. reflexivity. }
  assert (Ec3' : forall j, j <> o_off x -> contents m3 j = contents m j). { intros j Hj. unfold contents. rewrite Hm3'; [reflexivity|congruence]. }
  assert (Hin : forall y, In y ws -> o_off y <> o_off x). { intros y Hy E. apply Hni. rewrite <- E. apply in_map, Hy. }
  apply (IH ws (S i)); [cbn in Hn; lia|exact Hst|intros j Hj; apply HO'; right; exact Hj|exact Hnd|exact Hs|rewrite Hd3 by (intros F; exact F); exact Hk
    |rewrite Hd3 by (intros F; exact F); rewrite Hc; cbn [length]; f_equal; lia| | |].
  - intros k y Hy. rewrite !Hd3 by (intros F; exact F). apply Hkw, Hy.
  - intros y Hy. rewrite Ec3' by (apply Hin, Hy). intros E. apply Hval; [right; exact Hy|exact E].
  - intros m' Ho Hcon1 Hcon2. apply H.
    + intros l Hl. rewrite Ho by (intros F; apply Hl; destruct l; try contradiction; right; exact F). apply Hd3, Hl.
    + intros j Hj. rewrite Hcon1 by (intros F; apply Hj; right; exact F). apply Ec3'. intros ->. apply Hj. left. reflexivity.
    + intros y [<-|Hy]; [|rewrite Hcon2 by exact Hy; rewrite Ec3' by (apply Hin, Hy); reflexivity].
      rewrite Hcon1 by exact Hni. rewrite Ec3, E2. reflexivity.
Qed.

(** ** The calls *)

Lemma put_all_in a ws x : NoDup (map o_off ws) -> In x ws -> put_all a ws (o_off x) = o_new x.
Proof.
  induction ws as [|y ws IH]; [intros _ []|]. intros Hnd Hi. change (NoDup (o_off y :: map o_off ws)) in Hnd. apply NoDup_cons in Hnd as [Hni Hnd].
  rewrite elem_of_list_In in Hni. cbn. destruct (N.eqb_spec (o_off x) (o_off y)) as [E|E].
  - destruct Hi as [->|Hi]; [reflexivity|]. exfalso. apply Hni. rewrite <- E. apply in_map, Hi.
  - destruct Hi as [->|Hi]; [contradiction|]. apply IH; assumption.
Qed.
Lemma put_all_out a ws j : ~ offs ws j -> put_all a ws j = a j.
Proof.
  induction ws as [|y ws IH]; [reflexivity|]. intros H. cbn. destruct (N.eqb_spec j (o_off y)) as [E|E]; [exfalso; apply H; left; congruence|].
  apply IH. intros F. apply H. right. exact F.
Qed.
Lemma all_match_iff a ws : all_match a ws = true <-> forall x, In x ws -> a (o_off x) = o_old x.
Proof. unfold all_match. rewrite forallb_forall. split; intros H x Hx; [apply N.eqb_eq, H, Hx|apply N.eqb_eq, H, Hx]. Qed.

(** A state in which the owner sees the array [a]. *)
Definition inv (a : N -> N) (b : N) (m : mem) : Prop := (forall j, O j -> contents m j = a j /\ mval (a j)) /\ seqs_le m me b.

Lemma wp_PMwCAS n ws a b (Q : bool -> mem -> Prop) (m : mem) : (mfuel C <= n)%nat ->
  ws <> [] -> (length ws <= m_K C)%nat -> NoDup (map o_off ws) -> Forall (fun x => mval (o_new x)) ws -> (forall j, offs ws j -> O j) ->
  inv a b m -> b + 2 * N.of_nat (length ws) < 2 ^ seqSize P ->
  (forall m', inv (if all_match a ws then put_all a ws else a) (b + 2 * N.of_nat (length ws)) m' -> Q (all_match a ws) m') ->
  wp (PMwCAS C n me ws) Q m.
Proof.
  intros Hn Hne HK Hnd Hnew HOw [Ha [Hbk Hbw]] Hb H. unfold PMwCAS. unfold mfuel in Hn.
  assert (Hl : (0 < length ws)%nat) by (destruct ws; [contradiction|cbn; lia]).
  apply mwp_bind, mwp_assert; [apply Nat.ltb_lt, Hl|]. apply mwp_bind. set (s := km_seq (kmut_decode (clean (m (LK me))))) in *.
  eapply wp_createK; [exact Hne|exact HK|exact Hnd|reflexivity|fold s; lia|]. fold s. intros m1 Hm1 Ek1 Ec1 Hw1.
  set (q := sort_words ws) in *. pose proof (sort_words_perm ws) as Hperm. fold q in Hperm.
  assert (Hlen : length q = length ws) by apply sort_words_length.
  assert (Hin : forall x, In x q <-> In x ws) by (intros x; split; apply Permutation_in; [exact Hperm|symmetry; exact Hperm]).
  assert (Hoffs : forall j, offs q j <-> offs ws j). { intros j. unfold offs. split; apply Permutation_in, Permutation_map; [exact Hperm|symmetry; exact Hperm]. }
  assert (Hndq : NoDup (map o_off q)). { rewrite (Permutation_map o_off Hperm). exact Hnd. }
  assert (HOq : forall j, offs q j -> O j) by (intros j Hj; apply HOw, Hoffs, Hj).
  assert (Hcon1 : forall j, contents m1 j = contents m j). { intros j. unfold contents. rewrite Hm1; [reflexivity|exact (fun F => F)]. }
  assert (Hfit : s + 2 < 2 ^ seqSize P) by lia.
  destruct n as [|n]; [lia|]. cbn [pmwcas]. cbn [d_tid kdesc]. apply mwp_bind, wp_thread. apply mwp_bind. cbn [mwp]. change (mkDesc false true false (s + 2) me) with (kdesc (s + 2) me). apply mwp_bind.
  eapply wp_place with (ws := q) (q := b);
    [lia|exact HOq|exact Hndq|intros j Hj; rewrite Hcon1; destruct (Ha j (HOq j Hj)) as [-> Hv]; exact Hv|exact Hfit|exact Ek1|rewrite Ec1, Hlen; reflexivity|exact Hw1| |rewrite Hlen; exact Hb|].
  { rewrite Hm1 by (intros F; exact F). exact Hbw. }
  intros st m2 pre post Hq Hpre Hpost Hm2 Hcon2 Hseq2. rewrite Hlen in Hseq2.
  assert (Hd2 : forall l, kset me l -> m2 l = m1 l) by (intros l Hl'; apply Hm2; destruct l; cbn in *; tauto).
  assert (Hst : st < 4) by (destruct post; [|destruct Hpost as [Hpost _]]; rewrite Hpost; reflexivity).
  destruct (kenc_facts Undecided (s + 2) eq_refl (seq_61 _ _ HC Hfit)) as (D0 & E0 & F0). destruct (kenc_facts st (s + 2) Hst (seq_61 _ _ HC Hfit)) as (D1 & E1 & F1).
  (* flushing the words *)
  assert (Hrest : forall m3, only (aset (offs q)) m2 m3 -> (forall j, contents m3 j = contents m2 j) ->
    wp (let mOld := kmut_encode (mkKmut false Undecided (d_seq (kdesc (s + 2) me))) in
      let mNew := kmut_encode (mkKmut true st (d_seq (kdesc (s + 2) me))) in
      c <-- CASField C (kdesc (s + 2) me) mOld mNew (LK me);;
      m_persist (LK me) mNew ;;;
      if negb (snd c) then MRet false
      else finish C n (kdesc (s + 2) me) st 0 ;;; MRet (st =? Succeeded)%N)%mprog Q m3).
  { intros m3 Hm3 Hcon3. cbn zeta. cbn [d_seq kdesc]. change (mkDesc false true false (s + 2) me) with (kdesc (s + 2) me). fold (kenc Undecided (s + 2)).
    assert (Hd3 : forall l, kset me l -> m3 l = m1 l). { intros l Hl'. rewrite Hm3 by (destruct l; cbn in *; tauto). apply Hd2, Hl'. }
    apply mwp_bind, wp_CASField_status; [reflexivity|exact Hfit|rewrite Hd3 by reflexivity; exact Ek1|]. intros m4 Hm4 E4. rewrite F1 in E4 |- *.
    apply mwp_bind, mwp_persist; [apply own_k; reflexivity|]. intros m5 Hm5 E5. rewrite E4, (dirty_id (dirty _)) in E5 by apply isMarked_dirty_dirty.
    rewrite N.eqb_refl, clean_dirty, E1 in E5. cbn [snd negb]. apply mwp_bind.
    assert (Hd5 : forall l, l <> LK me -> m5 l = m3 l). { intros l Hl'. rewrite Hm5, Hm4 by congruence. reflexivity. }
    assert (Hcon5 : forall j, contents m5 j = if in_dec N.eq_dec j (map o_off pre) then kref (s + 2) else contents m j).
    { intros j. unfold contents at 1. rewrite Hd5 by discriminate. change (contents m3 j = if in_dec N.eq_dec j (map o_off pre) then kref (s + 2) else contents m j).
      rewrite Hcon3, Hcon2, Hcon1. reflexivity. }
    assert (Hval : forall j, offs q j -> mval (contents m j)) by (intros j Hj; destruct (Ha j (HOq j Hj)) as [-> Hv]; exact Hv).
    assert (Hprein : forall x, In x q -> In (o_off x) (map o_off pre) -> In x pre).
    { intros x Hx Hi. rewrite Hq in Hx. apply in_app_or in Hx as [Hx|Hx]; [exact Hx|]. exfalso. rewrite Hq, List.map_app in Hndq. apply NoDup_app in Hndq as (_ & Hno & _).
      apply (Hno (o_off x)); rewrite elem_of_list_In; [exact Hi|apply in_map, Hx]. }
    assert (Hk5 : forall x, In x q -> contents m5 (o_off x) = kref (s + 2) <-> In x pre).
    { intros x Hx. rewrite Hcon5. destruct (in_dec _ (o_off x) _) as [Hi|Hi]; split; intros Hp.
      - apply Hprein; assumption.
      - reflexivity.
      - exfalso. eapply mval_kref; [exact Hfit|apply Hval, in_map, Hx|exact Hp].
      - exfalso. apply Hi, in_map, Hp. }
    assert (Hold : forall x, In x pre -> contents m (o_off x) = o_old x). { intros x Hx. rewrite <- Hcon1. revert x Hx. apply all_match_iff. exact Hpre. }
    assert (Hsub : forall x, In x pre -> In x q) by (intros x Hx; rewrite Hq, in_app_iff; left; exact Hx).
    eapply wp_finish with (ws := q);
      [lia|exact Hst|exact HOq|exact Hndq|exact Hfit|exact E5|rewrite Hd5, Hd3, Ec1, Hlen by (discriminate || reflexivity); reflexivity| | |].
    - intros k x Hx. rewrite !Hd5, !Hd3 by (discriminate || reflexivity). apply Hw1, Hx.
    - intros x Hx Hp. apply Hk5 in Hp; [|exact Hx]. destruct (st =? Succeeded).
      + rewrite List.Forall_forall in Hnew. apply Hnew, Hin, Hx.
      + rewrite <- Hold by exact Hp. apply Hval, in_map, Hx.
    - intros m6 Hm6 Hout Hins. cbn [mwp].
      assert (Hex : forall j, offs q j -> exists x, In x q /\ o_off x = j). { intros j Hj. apply in_map_iff in Hj as (x & E & Hx). exists x. split; assumption. }
      assert (Hseq : seqs_le m6 me (b + 2 * N.of_nat (length ws))).
      { split.
        - rewrite Hm6 by (intros F; exact F). rewrite E5, E1, D1. cbn [km_seq]. lia.
        - rewrite Hm6 by (intros F; exact F). rewrite Hd5 by discriminate. rewrite Hm3 by (intros F; exact F). exact Hseq2. }
      assert (Hout' : forall j, ~ offs q j -> contents m6 j = contents m j).
      { intros j Hj. rewrite Hout by exact Hj. rewrite Hcon5. destruct (in_dec _ j _) as [Hi|_]; [|reflexivity]. exfalso. apply Hj.
        apply in_map_iff in Hi as (x & <- & Hx). apply in_map, Hsub, Hx. }
      destruct post as [|x0 post].
      + rewrite app_nil_r in Hq. subst pre. rewrite Hpost in *. cbn [N.eqb Succeeded Pos.eqb] in *.
        assert (Em : all_match a ws = true). { apply all_match_iff. intros x Hx. apply Hin in Hx. rewrite <- Hold by exact Hx. symmetry. apply Ha, HOq, in_map, Hx. }
        rewrite Em in H. apply H. split; [|exact Hseq]. intros j Hj. destruct (in_dec N.eq_dec j (map o_off q)) as [Hi|Hi].
        * destruct (Hex j Hi) as (x & Hx & <-). rewrite Hins by exact Hx. rewrite (proj2 (Hk5 x Hx) Hx), N.eqb_refl.
          rewrite put_all_in by (try exact Hnd; apply Hin, Hx). split; [reflexivity|]. rewrite List.Forall_forall in Hnew. apply Hnew, Hin, Hx.
        * rewrite Hout' by exact Hi. rewrite put_all_out by (intros F; apply Hi, Hoffs, F). apply Ha, Hj.
      + destruct Hpost as [Est Hbad]. rewrite Est in *. cbn [N.eqb Succeeded Failed Pos.eqb] in *.
        assert (Hx0 : In x0 q) by (rewrite Hq, in_app_iff; right; left; reflexivity).
        assert (Em : all_match a ws = false).
        { destruct (all_match a ws) eqn:Em; [|reflexivity]. exfalso. rewrite all_match_iff in Em. apply Hbad. rewrite Hcon1, (proj1 (Ha _ (HOq _ (in_map _ _ _ Hx0)))). apply Em, Hin, Hx0. }
        rewrite Em in H. apply H. split; [|exact Hseq]. intros j Hj. destruct (in_dec N.eq_dec j (map o_off q)) as [Hi|Hi]; [|rewrite Hout' by exact Hi; apply Ha, Hj].
        destruct (Hex j Hi) as (x & Hx & <-). rewrite Hins by exact Hx. destruct (N.eqb_spec (contents m5 (o_off x)) (kref (s + 2))) as [E|E].
        * apply Hk5 in E; [|exact Hx]. rewrite <- Hold by exact E. apply Ha, Hj.
        * rewrite Hcon5. destruct (in_dec _ (o_off x) _) as [Hi'|_]; [|apply Ha, Hj]. exfalso. apply E, Hk5; [exact Hx|]. apply Hprein; assumption. }
  apply mwp_bind. destruct (st =? Succeeded).
  - eapply wp_persist_words with (ws := q); [lia|exact HOq|rewrite Hd2, Ec1, Hlen by reflexivity; reflexivity| |exact Hrest].
    intros k x Hx. rewrite !Hd2 by reflexivity. apply Hw1, Hx.
  - cbn [mwp]. apply Hrest; [apply only_refl|reflexivity].
Qed.

Lemma wp_PMwCASRead n j (Q : N -> mem -> Prop) (m : mem) : (0 < n)%nat -> O j -> mval (contents m j) ->
  (forall m', only (eq (LArr j)) m m' -> contents m' j = contents m j -> Q (contents m j) m') -> wp (PMwCASRead C n me (LArr j)) Q m.
Proof.
  intros Hn Hj Hv H. destruct n as [|n]; [lia|]. cbn [PMwCASRead]. apply mwp_bind, mwp_load; [apply own_a, Hj|]. destruct Hv as (_ & _ & V1 & V2).
  unfold contents in V1, V2. rewrite clean_spec in V1, V2. rewrite isMarked_rdcss. cbn [N.eqb negb] in V1, V2. rewrite andb_true_r in V1, V2. rewrite V2. apply mwp_bind.
  assert (Hrest : forall m', only (eq (LArr j)) m m' -> contents m' j = contents m j ->
    wp (if isMarked (clean (m (LArr j))) PMwCASFlag then pmwcas C n me (desc_decode P (clean (m (LArr j)))) None ;;; PMwCASRead C n me (LArr j) else MRet (clean (m (LArr j)))) Q m').
  { intros m' Hm' E. rewrite isMarked_kcas, clean_spec, V1. cbn. apply H; assumption. }
  destruct (isMarked (m (LArr j)) DirtyFlag).
  - apply mwp_persist; [apply own_a, Hj|]. intros m' Hm' E. apply Hrest; [exact Hm'|]. unfold contents. rewrite E, N.eqb_refl. apply clean_clean.
  - cbn [mwp]. apply Hrest; [apply only_refl|reflexivity].
Qed.
Lemma wp_mwCAS n j old new (Q : bool * N -> mem -> Prop) (m : mem) : (0 < n)%nat -> O j -> mval (contents m j) -> mval new ->
  (forall m', only (eq (LArr j)) m m' -> contents m' j = (if contents m j =? old then new else contents m j) -> Q (contents m j =? old, contents m j) m') ->
  wp (mwCAS C n me (LArr j) old new) Q m.
Proof.
  intros Hn Hj Hv Hnew H. destruct n as [|n]; [lia|]. cbn [mwCAS]. apply mwp_bind, mwp_pcas; [apply own_a, Hj|]. intros m' Hm'. fold (contents m j).
  destruct (contents m j =? old) eqn:E.
  - intros E'. cbn [fst mwp]. apply N.eqb_eq in E. rewrite <- E. apply H; [exact Hm'|]. unfold contents. rewrite E', clean_dirty. apply mval_clean, Hnew.
  - intros E'. cbn [fst snd]. rewrite isMarked_rdcss, isMarked_kcas, isMarked_dirty. destruct Hv as (_ & -> & -> & ->). cbn [negb andb mwp].
    apply H; [exact Hm'|]. unfold contents at 1. rewrite E'. apply clean_clean.
Qed.

(** Every call does what the atomic operation does. *)
Lemma wp_mop n o a b (Q : mrsp -> mem -> Prop) (m : mem) : (mfuel C <= n)%nat -> legal_mop C o -> (forall j, touches o j -> O j) ->
  inv a b m -> b + mcost o < 2 ^ seqSize P ->
  (forall m', inv (snd (mspec a o)) (b + mcost o) m' -> Q (fst (mspec a o)) m') -> wp (mop_prog C n me o) Q m.
Proof.
  intros Hn Hlegal Ht Hinv Hb H. assert (Hn0 : (0 < n)%nat) by (unfold mfuel in Hn; lia). destruct o as [ws|j|j old new]; cbn [mop_prog mcost mspec touches legal_mop] in *.
  - destruct Hlegal as (_ & Hne & HK & Hnd & Hnew). apply mwp_bind. eapply wp_PMwCAS; try eassumption. intros m' Hinv'. cbn [mwp].
    destruct (all_match a ws); apply H; exact Hinv'.
  - apply mwp_bind, wp_address; [apply Ht; reflexivity|]. destruct Hinv as [Ha Hs]. destruct (Ha j (Ht j eq_refl)) as [Ej Hv]. apply mwp_bind, wp_PMwCASRead; [exact Hn0|apply Ht; reflexivity|rewrite Ej; exact Hv|].
    intros m' Hm' E. cbn [mwp fst snd] in *. rewrite Ej. apply H. split.
    + intros i Hi. destruct (decide (i = j)) as [->|Hne]; [rewrite E; apply Ha, Hi|]. unfold contents. rewrite Hm' by congruence. apply Ha, Hi.
    + unfold seqs_le in *. rewrite !Hm' by discriminate. lia.
  - apply mwp_bind, wp_address; [apply Ht; reflexivity|]. destruct Hinv as [Ha Hs]. destruct Hlegal as [_ Hnew]. destruct (Ha j (Ht j eq_refl)) as [Ej Hv]. apply mwp_bind, wp_mwCAS; [exact Hn0|apply Ht; reflexivity|rewrite Ej; exact Hv|exact Hnew|].
    intros m' Hm' E. rewrite Ej in E |- *. cbn [mwp fst snd] in *.
    assert (Hs' : seqs_le m' me (b + 0)) by (unfold seqs_le in *; rewrite !Hm' by discriminate; lia).
    assert (Ho : forall i, i <> j -> contents m' i = contents m i) by (intros i Hi; unfold contents; rewrite Hm' by congruence; reflexivity).
    destruct (a j =? old); cbn [fst snd] in *; apply H; split; try exact Hs'; intros i Hi; destruct (decide (i = j)) as [->|Hne].
    + rewrite N.eqb_refl, E. split; [reflexivity|exact Hnew].
    + rewrite (proj2 (N.eqb_neq i j) Hne), Ho by exact Hne. apply Ha, Hi.
    + rewrite E. split; [reflexivity|apply Ha, Hi].
    + rewrite Ho by exact Hne. apply Ha, Hi.
Qed.
End Seq.
