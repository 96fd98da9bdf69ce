(** In every execution the references to word descriptors in the array are up to date. *)
From Coq Require Import NArith Bool List Lia.
From stdpp Require Import base list.
From Verif Require Import Word Bits Codec CodecSpec CodecThm MwCas MwSpec MwWp MwSeq MwRely MwRecover MwHelpSpec MwSafeSpec MwHelp.
Import ListNotations.
Local Open Scope N_scope.

Lemma clean_or_dirty w x : clean w = x -> w = x \/ w = dirty x.
Proof.
  intros <-. destruct (isMarked w DirtyFlag) eqn:E; [right|left].
  - rewrite dirty_clean. symmetry. apply dirty_id. exact E.
  - symmetry. apply clean_id. exact E.
Qed.

Section Inv.
Context (C : mcfg) (HC : mcfg_ok C) (V : N -> Prop) (HV0 : V 0) (HV : forall v, V v -> mval v).
Local Notation P := (2 ^ m_log C)%N.

(** A reference to a descriptor of a thread, of one of the two kinds; the numbers of calls are even.  Other words are values. *)
Definition good (d : descref) : Prop := d_tid d < P /\ d_isKCAS d = negb (d_isRDCSS d) /\ (d_isKCAS d = true -> N.odd (d_seq d) = false).
Definition ref_ok (v : N) : Prop := (isMarked v RDCSSFlag = true \/ isMarked v PMwCASFlag = true -> good (desc_decode P v)) /\
  (isMarked v RDCSSFlag = false -> isMarked v PMwCASFlag = false -> V (clean v)).

(** What the cells contain. *)
Definition cell (l : loc) (v : N) : Prop :=
  match l with
  | LKWord _ _ WOld | LKWord _ _ WNew | LWWord _ WOld => V v
  | LKWord _ _ WOff | LWWord _ WOff => v < m_size C
  | LWSeq _ => v < 2 ^ seqSize P /\ N.odd v = false
  | LWTid _ => v < P
  | LArr _ => ref_ok v
  | LKCount _ => v <= N.of_nat (m_K C)
  | _ => True
  end.
Definition cells (m : mem) : Prop := forall l, cell l (m l).
Lemma decode_clean w : let d := desc_decode P (clean w) in let e := desc_decode P w in
  d_isKCAS d = d_isKCAS e /\ d_isRDCSS d = d_isRDCSS e /\ d_seq d = d_seq e /\ d_tid d = d_tid e.
Proof.
  cbn zeta. rewrite !decode_kcas, !decode_rdcss, !clean_spec, !andb_true_r. split; [reflexivity|]. split; [reflexivity|]. cbn. split; apply field_clean; lia.
Qed.
Lemma ref_ok_clean w : ref_ok (clean w) <-> ref_ok w.
Proof.
  unfold ref_ok, good. destruct (decode_clean w) as (-> & -> & -> & ->). rewrite !isMarked_rdcss, !isMarked_kcas, !clean_spec, !andb_true_r, clean_clean. reflexivity.
Qed.
Lemma ref_ok_dirty w : ref_ok (dirty w) <-> ref_ok w.
Proof. rewrite <- (ref_ok_clean (dirty w)), clean_dirty. apply ref_ok_clean. Qed.
Lemma V_ref_ok v : V v -> ref_ok v.
Proof. intros H. split; [|intros _ _; rewrite mval_clean by (apply HV, H); exact H]. intros [H'|H']; [rewrite isMarked_rdcss in H'|rewrite isMarked_kcas in H']; apply HV in H as (_ & _ & A & B); congruence. Qed.
Lemma kref_ok q t : q < 2 ^ seqSize P -> t < P -> N.odd q = false -> ref_ok (desc_encode P (kdesc q t)).
Proof.
  intros Hq Ht Ho. assert (Hf : desc_fits P (kdesc q t)) by (split; [exact Hq|apply tidSize_fits, Ht]). split.
  - intros _. rewrite desc_roundtrip; [|exact HC|exact Hf]. split; [exact Ht|]. split; [reflexivity|]. intros _. exact Ho.
  - intros _ Hk. destruct (desc_flags (m_log C) _ HC Hf) as (_ & H1 & _). change PMwCASFlag with (2 ^ 1) in H1. rewrite land_pow2 in H1. rewrite isMarked_kcas, H1 in Hk. discriminate.
Qed.
Lemma wref_ok s t : s < 2 ^ seqSize P -> t < P -> ref_ok (desc_encode P (wdesc s t)).
Proof.
  intros Hq Ht. assert (Hf : desc_fits P (wdesc s t)) by (split; [exact Hq|apply tidSize_fits, Ht]). split.
  - intros _. rewrite desc_roundtrip; [|exact HC|exact Hf]. split; [exact Ht|]. split; [reflexivity|discriminate].
  - intros Hk _. destruct (desc_flags (m_log C) _ HC Hf) as (_ & _ & H1). change RDCSSFlag with (2 ^ 2) in H1. rewrite land_pow2 in H1. rewrite isMarked_rdcss, H1 in Hk. discriminate.
Qed.
Lemma good_w s t : t < P -> good (wdesc s t).
Proof. intros H. split; [exact H|]. split; [reflexivity|discriminate]. Qed.
Lemma good_k q t : t < P -> N.odd q = false -> good (kdesc q t).
Proof. intros H Ho. split; [exact H|]. split; [reflexivity|intros _; exact Ho]. Qed.
Lemma odd_mod a n : 0 < n -> N.odd (a mod 2 ^ n) = N.odd a.
Proof. intros H. rewrite <- !N.bit0_odd. apply N.mod_pow2_bits_low, H. Qed.
Lemma cell_clean l v : flagged l -> cell l v -> cell l (clean v).
Proof. destruct l; cbn; try tauto. intros _ H. apply ref_ok_clean, H. Qed.

(** A word that refers to the word descriptor of thread [t]. *)
Definition mine (t w : N) : Prop := isMarked w RDCSSFlag = true /\ d_tid (desc_decode P w) = t.
Lemma mine_clean t w : mine t (clean w) <-> mine t w.
Proof.
  unfold mine. rewrite !isMarked_rdcss, clean_spec, andb_true_r.
  assert (E : d_tid (desc_decode P (clean w)) = d_tid (desc_decode P w)); [|rewrite E; reflexivity]. cbn. apply field_clean. lia.
Qed.
Lemma mine_dirty t w : mine t (dirty w) <-> mine t w.
Proof. rewrite <- (mine_clean t (dirty w)), clean_dirty. apply mine_clean. Qed.
Lemma mine_unmarked t w : isMarked w RDCSSFlag = false -> ~ mine t w.
Proof. intros H [H' _]. congruence. Qed.
Lemma V_unmarked v : V v -> isMarked v RDCSSFlag = false.
Proof. intros H. rewrite isMarked_rdcss. apply HV, H. Qed.
Lemma kref_unmarked q t : q < 2 ^ seqSize P -> t < 2 ^ tidSize P -> isMarked (desc_encode P (kdesc q t)) RDCSSFlag = false.
Proof.
  intros Hq Ht. destruct (desc_flags (m_log C) (kdesc q t) HC) as (_ & _ & H1); [split; assumption|]. change RDCSSFlag with (2 ^ 2) in H1. rewrite land_pow2 in H1.
  rewrite isMarked_rdcss. exact H1.
Qed.
Definition wref (s t : N) : N := desc_encode P (wdesc s t).
Lemma mine_wref t s t' : s < 2 ^ seqSize P -> t' < P -> mine t (wref s t') -> t = t'.
Proof. intros Hs Ht' [_ H]. destruct (wref_facts (m_log C) s t' HC Hs Ht') as (E & _). unfold wref in H. rewrite E in H. symmetry. exact H. Qed.
Lemma wref_mine s t : s < 2 ^ seqSize P -> t < P -> mine t (wref s t).
Proof. intros Hs Ht. destruct (wref_facts (m_log C) s t HC Hs Ht) as (E & _ & _ & E2 & _). split; [rewrite isMarked_rdcss; exact E2|]. unfold wref. rewrite E. reflexivity. Qed.
Lemma wref_clean s t : s < 2 ^ seqSize P -> t < P -> clean (wref s t) = wref s t.
Proof. intros Hs Ht. apply (wref_facts (m_log C) s t HC Hs Ht). Qed.

(** What thread [t] knows about its word descriptor: its sequence number and offset, and where the array may refer to it:
    nowhere, or only in the word that it describes and with its number; then whether the reference may be dirty.  About its
    other descriptor: whether it is filling it, then the number is odd and the call undecided. *)
Record gst := mkG { g_in : option bool; g_s : N; g_off : N; g_ko : bool }.
Definition kown (t : N) (o : bool) (m : mem) : Prop := N.odd (kseq m t) = o /\ (o = true -> kstat m t = Undecided).
Definition know2 (t : N) (g : gst) (m : mem) : Prop :=
  (cells m /\ kown t (g_ko g) m) /\ wseq m t = g_s g /\ m (LWWord t WOff) = g_off g /\
  match g_in g with
  | None => forall j, ~ mine t (m (LArr j))
  | Some b => t < P /\ g_s g < 2 ^ seqSize P /\
      forall j, mine t (m (LArr j)) -> j = g_off g /\ clean (m (LArr j)) = wref (g_s g) t /\ (b = false -> m (LArr j) = wref (g_s g) t)
  end.
(** What a step of thread [me] leaves to the others. *)
Definition kguar (me : N) (m m' : mem) : Prop := forall t, t <> me -> kseq m' t = kseq m t /\ (N.odd (kseq m t) = true -> kstat m' t = kstat m t).
Definition guar2 (me : N) (m m' : mem) : Prop := kguar me m m' /\ forall t, t <> me ->
  wseq m' t = wseq m t /\ m' (LWWord t WOff) = m (LWWord t WOff) /\
  forall j, mine t (m' (LArr j)) -> m' (LArr j) = m (LArr j) \/ m' (LArr j) = clean (m (LArr j)).
Lemma kown_eq t o m m' : m' (LK t) = m (LK t) -> kown t o m -> kown t o m'.
Proof. intros E. unfold kown, kseq, kstat. rewrite E. exact (fun H => H). Qed.
Lemma kguar_eq me m m' : (forall t, t <> me -> m' (LK t) = m (LK t)) -> kguar me m m'.
Proof. intros E t Ht. unfold kseq, kstat. rewrite E by exact Ht. auto. Qed.
Lemma know_stable me t g m m' : t <> me -> guar2 me m m' -> cells m' -> know2 t g m -> know2 t g m'.
Proof.
  intros Ht [Hk Hg] Hc ((_ & K1 & K2) & H2 & H3 & H4). destruct (Hg t Ht) as (G1 & G2 & G3). destruct (Hk t Ht) as [G4 G5].
  split; [split; [exact Hc|split; [congruence|intros E; rewrite G5 by congruence; apply K2, E]]|]. split; [congruence|]. split; [congruence|].
  destruct (g_in g) as [b|].
  - destruct H4 as (H4 & H5 & H6). split; [exact H4|]. split; [exact H5|]. intros j Hj. destruct (G3 j Hj) as [E|E].
    + rewrite E in *. apply H6, Hj.
    + rewrite E in *. rewrite mine_clean in Hj. destruct (H6 j Hj) as (A1 & A2 & A3). rewrite clean_clean. split; [exact A1|]. split; [exact A2|]. intros _. exact A2.
  - intros j Hj. apply (H4 j). destruct (G3 j Hj) as [E|E]; rewrite E in Hj; [exact Hj|]. apply mine_clean, Hj.
Qed.

Section Thread.
Context (me : N).

Fixpoint rq {A : Type} (p : mprog A) (Q : A -> gst -> Prop) (g : gst) : Prop :=
  match p with
  | MRet a => Q a g
  | MErr e => me < P -> e = MOutOfFuel
  | MVis c k => in_range C (accesses c) /\ forall m, know2 me g m -> let (r, m') := mexec c m in guar2 me m m' /\ exists g', know2 me g' m' /\ rq (k r) Q g'
  end.
Lemma rq_bind {A B} (p : mprog A) (f : A -> mprog B) Q g : rq p (fun a g' => rq (f a) Q g') g -> rq (mbind p f) Q g.
Proof.
  revert g. induction p as [a|e|c k IH]; intros g; cbn; [auto|auto|]. intros [Hr H]. split; [exact Hr|]. intros m Hm. specialize (H m Hm). destruct (mexec c m) as [r m'].
  destruct H as (Hg & s' & Hs' & H). split; [exact Hg|]. exists s'. split; [exact Hs'|]. apply IH, H.
Qed.
Lemma rq_mono {A} (p : mprog A) (Q Q' : A -> gst -> Prop) g : rq p Q g -> (forall a g', Q a g' -> Q' a g') -> rq p Q' g.
Proof.
  revert g. induction p as [a|e|c k IH]; intros g; cbn; [auto|auto|]. intros [Hr H] HQ. split; [exact Hr|]. intros m Hm. specialize (H m Hm). destruct (mexec c m) as [r m'].
  destruct H as (Hg & s' & Hs' & H). split; [exact Hg|]. exists s'. split; [exact Hs'|]. apply IH; assumption.
Qed.
Definition out (g : gst) : Prop := g_in g = None /\ g_ko g = false.

(** What a thread sees in a cell. *)
Definition sees (g : gst) (l : loc) (v : N) : Prop :=
  cell l v /\ (l = LW me -> wm_seq (wmut_decode v) = g_s g) /\ (l = LWWord me WOff -> v = g_off g) /\
  (forall j, l = LArr j -> out g -> ~ mine me v) /\ (l = LK me -> N.odd (sq v) = g_ko g /\ (g_ko g = true -> stt v = Undecided)).
Lemma know_sees g m l : know2 me g m -> sees g l (m l).
Proof.
  intros ((H1 & HK) & H2 & H3 & H4). split; [apply H1|]. split; [intros ->; exact H2|]. split; [intros ->; exact H3|]. split; [|intros ->; exact HK].
  intros j -> [Ho _]. rewrite Ho in H4. apply H4.
Qed.
Lemma sees_clean g l v : flagged l -> sees g l v -> sees g l (clean v).
Proof.
  intros Hl (H1 & H2 & H3 & H4 & H5). split; [apply cell_clean; assumption|]. split; [intros ->; rewrite wseq_clean; apply H2; reflexivity|]. split; [intros ->; contradiction|].
  split; [intros j E Ho; rewrite mine_clean; eapply H4; eassumption|]. rewrite sq_clean, stt_clean. exact H5.
Qed.

Lemma guar2_refl m : guar2 me m m.
Proof. split; [apply kguar_eq; reflexivity|]. intros t _. split; [reflexivity|]. split; [reflexivity|]. intros j _. left. reflexivity. Qed.

Lemma rq_load l (Q : N -> gst -> Prop) g : in_range C l -> (forall v, sees g l v -> Q v g) -> rq (mdo (MLoad l)) Q g.
Proof. intros Hr H. split; [exact Hr|]. intros m Hm. cbn. split; [apply guar2_refl|]. exists g. split; [exact Hm|]. apply H, know_sees, Hm. Qed.

(** Cells that do not matter here. *)
Definition other (l : loc) : Prop := match l with LKCount _ | LKWord _ _ _ => True | _ => False end.
Lemma upd_other_know g m l v : other l -> cell l v -> know2 me g m -> guar2 me m (upd m l v) /\ know2 me g (upd m l v).
Proof.
  intros Hl Hc ((H1 & HK) & H2 & H3 & H4). assert (E : forall x, match x with LArr _ | LK _ | LW _ | LWWord _ _ => True | _ => False end -> upd m l v x = m x).
  { intros x Hx. apply upd_other. intros ->. destruct l; contradiction. }
  split.
  - split; [apply kguar_eq; intros; apply E; exact I|]. intros t _. unfold wseq. rewrite !E by exact I. split; [reflexivity|]. split; [reflexivity|]. intros j _. left. apply E. exact I.
  - split; [|split; [unfold wseq; rewrite E by exact I; exact H2|split; [rewrite E by exact I; exact H3|]]].
    + split; [|eapply kown_eq; [|exact HK]; apply E; exact I]. intros x. unfold upd. destruct (decide (x = l)) as [->|]; [exact Hc|apply H1].
    + destruct (g_in g) as [b|]; [|intros j; rewrite E by exact I; apply H4]. destruct H4 as (A & B & D). split; [exact A|]. split; [exact B|]. intros j. rewrite E by exact I. apply D.
Qed.
Lemma rq_store l v (Q : unit -> gst -> Prop) g : in_range C l -> other l -> cell l v -> Q tt g -> rq (mdo (MStore l v)) Q g.
Proof. intros Hr Hl Hc H. split; [exact Hr|]. intros m Hm. cbn. destruct (upd_other_know g m l v Hl Hc Hm) as [G K]. split; [exact G|]. exists g. split; [exact K|exact H]. Qed.

(** The own call descriptor. *)
Lemma rq_store_k v (Q : unit -> gst -> Prop) g : me < P -> (N.odd (sq v) = true -> stt v = Undecided) -> Q tt (mkG (g_in g) (g_s g) (g_off g) (N.odd (sq v))) -> rq (mdo (MStore (LK me) v)) Q g.
Proof.
  intros Hme Hv H. split; [exact Hme|]. intros m ((H1 & HK) & H2 & H3 & H4). cbn. assert (E : forall x, x <> LK me -> upd m (LK me) v x = m x) by (intros x Hx; apply upd_other, Hx). split.
  - split; [apply kguar_eq; intros t Ht; apply E; congruence|]. intros t _. unfold wseq. rewrite !E by discriminate. split; [reflexivity|]. split; [reflexivity|]. intros j _. left. apply E. discriminate.
  - eexists. split; [|exact H]. split; [|split; [unfold wseq; rewrite E by discriminate; exact H2|split; [rewrite E by discriminate; exact H3|]]].
    + split; [intros x; destruct (decide (x = LK me)) as [->|Hn]; [exact I|rewrite E by exact Hn; apply H1]|]. unfold kown, kseq, kstat. rewrite upd_same. split; [reflexivity|exact Hv].
    + cbn [g_in g_s g_off g_ko]. destruct (g_in g) as [b|]; [|intros j; rewrite E by discriminate; apply H4]. destruct H4 as (A & B & D). split; [exact A|]. split; [exact B|]. intros j. rewrite E by discriminate. apply D.
Qed.

(** The cells of the own word descriptor, while nothing refers to it. *)
Definition own2 (l : loc) : Prop := match l with LW t | LWWord t _ | LWSeq t | LWTid t => t = me | _ => False end.
Definition after (l : loc) (v : N) (g : gst) : gst :=
  match l with LW _ => mkG (g_in g) (wm_seq (wmut_decode v)) (g_off g) (g_ko g) | LWWord _ WOff => mkG (g_in g) (g_s g) v (g_ko g) | _ => g end.
Lemma rq_store_own l v (Q : unit -> gst -> Prop) g : me < P -> own2 l -> cell l v -> out g -> Q tt (after l v g) -> rq (mdo (MStore l v)) Q g.
Proof.
  intros Hme Hl Hc [Ho Hko] H. split; [destruct l; try contradiction; cbn in *; subst; exact Hme|]. intros m ((H1 & HK) & H2 & H3 & H4). cbn. rewrite Ho in H4. assert (E : forall j, upd m l v (LArr j) = m (LArr j)).
  { intros j. apply upd_other. intros <-. contradiction. }
  assert (EK : forall t, upd m l v (LK t) = m (LK t)). { intros j. apply upd_other. intros <-. contradiction. }
  split; [|exists (after l v g); split; [|exact H]].
  - split; [apply kguar_eq; intros; apply EK|]. intros t Ht. unfold wseq. rewrite !upd_other; [|intros <-; cbn in Hl; congruence|intros <-; cbn in Hl; congruence]. split; [reflexivity|]. split; [reflexivity|]. intros j _. left. apply E.
  - split; [|].
    { split; [intros x; unfold upd; destruct (decide (x = l)) as [->|]; [exact Hc|apply H1]|]. assert (E3 : g_ko (after l v g) = g_ko g) by (destruct l as [| | | | |t []| |]; reflexivity).
      rewrite E3. eapply kown_eq; [apply EK|exact HK]. }
    assert (Hi : g_in (after l v g) = None) by (destruct l as [| | | | |t []| |]; exact Ho). rewrite Hi.
    split; [|split; [|intros j; rewrite E; apply H4]].
    + unfold wseq. destruct l as [| | | |t|t []| |]; try contradiction; cbn in Hl; subst t; cbn [after g_s]; first [rewrite upd_same; reflexivity | rewrite upd_other by discriminate; exact H2].
    + destruct l as [| | | |t|t []| |]; try contradiction; cbn in Hl; subst t; cbn [after g_off]; first [rewrite upd_same; reflexivity | rewrite upd_other by discriminate; exact H3].
Qed.

(** A CAS that cannot add a reference. *)
Definition harmless (l : loc) (e n : N) : Prop :=
  match l with LArr _ => n = clean e \/ isMarked n RDCSSFlag = false /\ ref_ok n | LK _ => n = clean e \/ sq n = sq e /\ N.odd (sq e) = false | LW _ => n = clean e | _ => False end.
Lemma harmless_know g m l n : harmless l (m l) n -> know2 me g m -> guar2 me m (upd m l n) /\ know2 me g (upd m l n).
Proof.
  intros Hl Hm. destruct l as [j|t|t|t i f|t|t f|t|t]; try contradiction.
  - destruct Hm as ((H1 & HK) & H2 & H3 & H4). assert (E : forall x, (forall k, x <> LArr k) -> upd m (LArr j) n x = m x) by (intros x Hx; apply upd_other, Hx).
    assert (Hn : ref_ok n) by (destruct Hl as [->|[_ Hl]]; [apply ref_ok_clean; exact (H1 (LArr j))|exact Hl]).
    assert (Hl' : n = clean (m (LArr j)) \/ isMarked n RDCSSFlag = false) by (destruct Hl as [Hl|[Hl _]]; auto). clear Hl. rename Hl' into Hl. split.
    + split; [apply kguar_eq; intros; apply E; discriminate|]. intros t _. unfold wseq. rewrite !E by discriminate. split; [reflexivity|]. split; [reflexivity|]. intros k Hk. destruct (decide (k = j)) as [->|Hne].
      * rewrite upd_same in *. destruct Hl as [->|Hl]; [right; reflexivity|destruct Hk; congruence].
      * left. apply upd_other. congruence.
    + split; [|split; [unfold wseq; rewrite E by discriminate; exact H2|split; [rewrite E by discriminate; exact H3|]]].
      * split; [|eapply kown_eq; [|exact HK]; apply E; discriminate]. intros x. unfold upd. destruct (decide (x = LArr j)) as [->|]; [exact Hn|apply H1].
      * destruct (g_in g) as [b|].
        -- destruct H4 as (A & B & D). split; [exact A|]. split; [exact B|]. intros k Hk. destruct (decide (k = j)) as [->|Hne]; [|rewrite upd_other in * by congruence; apply D, Hk].
           rewrite upd_same in *. destruct Hl as [->|Hl]; [|destruct Hk; congruence]. rewrite mine_clean in Hk. destruct (D j Hk) as (D1 & D2 & _). rewrite clean_clean. repeat split; [exact D1|exact D2|intros _; exact D2].
        -- intros k Hk. destruct (decide (k = j)) as [->|Hne]; [|rewrite upd_other in Hk by congruence; exact (H4 k Hk)].
           rewrite upd_same in Hk. destruct Hl as [->|Hl]; [|destruct Hk; congruence]. rewrite mine_clean in Hk. exact (H4 j Hk).
  - destruct Hm as ((H1 & HK) & H2 & H3 & H4). assert (E : forall x, x <> LK t -> upd m (LK t) n x = m x) by (intros x Hx; apply upd_other, Hx).
    assert (W : forall t', kseq (upd m (LK t) n) t' = kseq m t' /\ (N.odd (kseq m t') = true -> kstat (upd m (LK t) n) t' = kstat m t')).
    { intros t'. unfold kseq, kstat. destruct (decide (t' = t)) as [->|Hn]; [|rewrite E by congruence; auto]. rewrite upd_same.
      change (sq n = sq (m (LK t)) /\ (N.odd (sq (m (LK t))) = true -> stt n = stt (m (LK t)))). destruct Hl as [->|[Hl1 Hl2]].
      - rewrite sq_clean, stt_clean. auto.
      - split; [exact Hl1|congruence]. }
    split.
    + split; [intros t' _; apply W|]. intros t' _. unfold wseq. rewrite !E by discriminate. split; [reflexivity|]. split; [reflexivity|]. intros j _. left. apply E. discriminate.
    + split; [|split; [unfold wseq; rewrite E by discriminate; exact H2|split; [rewrite E by discriminate; exact H3|]]].
      * split; [intros x; destruct (decide (x = LK t)) as [->|Hn]; [exact I|rewrite E by exact Hn; apply H1]|]. destruct HK as [K1 K2]. destruct (W me) as [W1 W2].
        split; [congruence|]. intros Eo. rewrite W2 by congruence. apply K2, Eo.
      * destruct (g_in g) as [b|]; [|intros j; rewrite E by discriminate; apply H4]. destruct H4 as (A & B & D). split; [exact A|]. split; [exact B|]. intros j. rewrite E by discriminate. apply D.
  - cbn in Hl. subst n. destruct Hm as ((H1 & HK) & H2 & H3 & H4).
    assert (E : forall x, x <> LW t -> upd m (LW t) (clean (m (LW t))) x = m x) by (intros x Hx; apply upd_other, Hx).
    assert (W : forall t', wseq (upd m (LW t) (clean (m (LW t)))) t' = wseq m t').
    { intros t'. unfold wseq. destruct (decide (t' = t)) as [->|Hn]; [rewrite upd_same; apply wseq_clean|rewrite E by congruence; reflexivity]. }
    split.
    + split; [apply kguar_eq; intros; apply E; discriminate|]. intros t' _. rewrite W, E by discriminate. split; [reflexivity|]. split; [reflexivity|]. intros j _. left. apply E. discriminate.
    + split; [|split; [rewrite W; exact H2|split; [rewrite E by discriminate; exact H3|]]].
      * split; [|eapply kown_eq; [|exact HK]; apply E; discriminate]. intros x. destruct (decide (x = LW t)) as [->|Hn]; [exact I|rewrite E by exact Hn; apply H1].
      * destruct (g_in g) as [b|]; [|intros j; rewrite E by discriminate; apply H4]. destruct H4 as (A & B & D). split; [exact A|]. split; [exact B|]. intros j. rewrite E by discriminate. apply D.
Qed.
Lemma rq_cas l e n (Q : bool * N -> gst -> Prop) g : in_range C l -> harmless l e n -> (forall b v, sees g l v -> (b = true <-> v = e) -> Q (b, v) g) -> rq (mdo (MCas l e n)) Q g.
Proof.
  intros Hr Hl H. split; [exact Hr|]. intros m Hm. cbn. pose proof (know_sees g m l Hm) as Hs. destruct (N.eqb_spec (m l) e) as [E|E].
  - subst e. destruct (harmless_know g m l n Hl Hm) as [G K]. split; [exact G|]. exists g. split; [exact K|]. apply H; [exact Hs|tauto].
  - split; [apply guar2_refl|]. exists g. split; [exact Hm|]. apply H; [exact Hs|]. split; [discriminate|intros; contradiction].
Qed.
Lemma rq_persist l v (Q : unit -> gst -> Prop) g : in_range C l -> flagged l -> Q tt g -> rq (m_persist l v) Q g.
Proof. intros Hr Hl H. unfold m_persist. apply rq_bind, rq_cas; [exact Hr|destruct l; try contradiction; cbn; auto|]. intros b w _ _. exact H. Qed.
Lemma rq_read l (Q : N -> gst -> Prop) g : in_range C l -> flagged l -> (forall v, sees g l v -> Q v g) -> rq (m_read l) Q g.
Proof.
  intros Hr Hl H. unfold m_read. apply rq_bind, rq_load; [exact Hr|]. intros v Hv. apply rq_bind.
  assert (Hrest : rq (MRet (clean v)) Q g) by (cbn; apply H, sees_clean; assumption).
  destruct (isMarked v DirtyFlag); [apply rq_persist; [exact Hr|exact Hl|exact Hrest]|exact Hrest].
Qed.
Lemma rq_assert b (Q : unit -> gst -> Prop) g : (me < P -> b = true) -> Q tt g -> rq (massert C b) Q g.
Proof. intros Hb H. unfold massert. destruct b; [exact H|]. destruct (m_ndebug C); cbn; [exact H|]. intros Hme. discriminate (Hb Hme). Qed.
Lemma pcas_sane (b : bool) v e : (b = true <-> v = e) -> (b && (e =? (if b then e else v))) || (negb b && negb (e =? (if b then e else v))) = true.
Proof. intros [H1 H2]. destruct b; cbn; [rewrite N.eqb_refl; reflexivity|]. apply negb_true_iff, N.eqb_neq. intros E. discriminate H2. symmetry. exact E. Qed.
Lemma rq_pcas l e n (Q : bool * N -> gst -> Prop) g : in_range C l -> flagged l -> harmless l e (dirty n) -> (forall b v, b = true /\ v = e \/ b = false /\ v <> e /\ sees g l v -> Q (b, v) g) -> rq (m_pcas C l e n) Q g.
Proof.
  intros Hr Hl Hh H. unfold m_pcas. apply rq_bind, rq_read; [exact Hr|exact Hl|]. intros _ _. apply rq_bind, rq_cas; [exact Hr|exact Hh|]. intros b v Hv Hb. cbn [fst snd].
  apply rq_bind, rq_assert; [intros _; apply pcas_sane, Hb|]. cbn. apply H. destruct b; [left; auto|right]. split; [reflexivity|]. split; [intros E; apply Hb in E; discriminate|exact Hv].
Qed.
Lemma rq_thread t (Q : unit -> gst -> Prop) g : (me < P -> t < P) -> (t < P -> Q tt g) -> rq (thread_ok C t) Q g.
Proof. intros Ht H. unfold thread_ok. destruct (N.ltb_spec t P) as [E|E]; [apply H, E|]. intros Hme. specialize (Ht Hme). apply N.lt_nge in Ht. contradiction. Qed.
Lemma rq_address off (Q : loc -> gst -> Prop) g : off < m_size C -> Q (LArr off) g -> rq (address C off) Q g.
Proof. intros Ho H. unfold address. rewrite (proj2 (N.ltb_lt _ _) Ho). exact H. Qed.
Lemma rq_getSeq d (Q : N -> gst -> Prop) g : good d -> (forall v, (d_isKCAS d = false -> d_tid d = me -> v = g_s g) -> Q v g) -> rq (getSeq C d) Q g.
Proof.
  intros (Ht & Hf & _) H. unfold getSeq. destruct (d_isKCAS d) eqn:Ek; cbn [andb negb].
  - rewrite <- Hf. apply rq_bind, rq_thread; [intros _; exact Ht|]. intros _. apply rq_bind, rq_read; [exact Ht|exact I|]. intros v _. cbn. apply H. discriminate.
  - destruct (d_isRDCSS d); [|discriminate]. apply rq_bind, rq_thread; [intros _; exact Ht|]. intros _. apply rq_bind, rq_read; [exact Ht|exact I|]. intros v Hv. cbn. apply H. intros _ E. apply Hv. congruence.
Qed.
Lemma rq_readField d l (Q : N * bool -> gst -> Prop) g : in_range C l -> good d -> flagged l -> (forall r, Q r g) -> rq (readField C d l) Q g.
Proof. intros Hr Hd Hl H. unfold readField. apply rq_bind, rq_read; [exact Hr|exact Hl|]. intros v _. apply rq_bind, rq_getSeq; [exact Hd|]. intros q _. apply H. Qed.
Lemma rq_CASField d l e n (Q : bool * N * bool -> gst -> Prop) g : in_range C l -> good d -> flagged l -> harmless l e (dirty n) ->
  (forall b v ok, Q (b, v, ok) g) -> rq (CASField C d e n l) Q g.
Proof.
  intros Hr Hd Hl Hh H. unfold CASField. apply rq_bind, rq_read; [exact Hr|exact Hl|]. intros v Hv. apply rq_bind, rq_getSeq; [exact Hd|]. intros q _. destruct (negb _); [apply H|].
  destruct (negb (v =? e)); [apply H|]. apply rq_bind, rq_pcas; [exact Hr|exact Hl|exact Hh|]. intros b w _. apply H.
Qed.
Lemma unmarked_dirty n : isMarked n RDCSSFlag = false -> isMarked (dirty n) RDCSSFlag = false.
Proof. rewrite !isMarked_rdcss, dirty_spec. cbn. rewrite orb_false_r. exact (fun H => H). Qed.
Lemma rq_CAS_arr d j e n (Q : bool * N * bool -> gst -> Prop) g : j < m_size C -> good d -> isMarked n RDCSSFlag = false -> ref_ok n ->
  (forall b v ok, Q (b, v, ok) g) -> rq (CASField C d e n (LArr j)) Q g.
Proof. intros Hj Hd Hn Hr H. apply rq_CASField; [exact Hj|exact Hd|exact I|right; split; [apply unmarked_dirty, Hn|apply ref_ok_dirty, Hr]|exact H]. Qed.

(** ** CompleteInstall *)

(** References to word descriptors as they are found in the array. *)
Definition found (d : descref) : Prop := good d /\ isMarked (desc_encode P d) RDCSSFlag = true.
Lemma marked_found w : isMarked w RDCSSFlag = true -> ref_ok w -> found (desc_decode P w).
Proof.
  intros Hm Hr. split; [apply Hr; left; exact Hm|]. destruct (desc_flags (m_log C) (desc_decode P w) HC) as (_ & _ & H1).
  { split; [apply decode_seq_lt, HC|]. cbn. apply field_lt. pose proof (tidSize_range (m_log C) HC). lia. }
  change RDCSSFlag with (2 ^ 2) in H1. rewrite land_pow2, decode_rdcss in H1. rewrite isMarked_rdcss, H1, <- isMarked_rdcss. exact Hm.
Qed.
Lemma wdesc_found s : s < 2 ^ seqSize P -> me < P -> found (wdesc s me).
Proof. intros Hs Hme. split; [apply good_w, Hme|]. destruct (wref_facts (m_log C) s me HC Hs Hme) as (_ & _ & _ & E & _). rewrite isMarked_rdcss. exact E. Qed.
Lemma dummy_good kq kt : cell (LWSeq 0) kq -> cell (LWTid 0) kt -> good (kdesc (kq mod 2 ^ seqSize P) (kt mod 2 ^ tidSize P)) /\
  ref_ok (desc_encode P (kdesc (kq mod 2 ^ seqSize P) (kt mod 2 ^ tidSize P))).
Proof.
  cbn [cell]. intros [Hq Ho] Ht. rewrite (N.mod_small kt) by (apply tidSize_fits, Ht). rewrite (N.mod_small kq) by exact Hq. split; [apply good_k|apply kref_ok]; assumption.
Qed.
Lemma rq_completeInstall d (Q : bool -> gst -> Prop) g : found d -> (forall b, Q b g) -> rq (completeInstall C d) Q g.
Proof.
  intros [Hd Hf] H. unfold completeInstall. apply rq_bind, rq_thread; [intros _; apply Hd|]. intros Ht. apply rq_bind, rq_load; [exact Ht|]. intros kq [Hq _]. apply rq_bind, rq_load; [exact Ht|]. intros kt [Hkt _].
  destruct (dummy_good kq kt Hq Hkt) as [Hg Hr].
  apply rq_bind, rq_load; [exact Ht|]. intros kt' [Hkt' _]. apply rq_bind, rq_thread; [intros _; exact Hkt'|]. intros _. apply rq_bind, rq_readField; [exact Hkt'|exact Hg|exact I|]. intros r. apply rq_bind, rq_assert; [intros _; exact Hf|].
  apply rq_bind, rq_load; [exact Ht|]. intros old Hold. apply rq_bind, rq_load; [exact Ht|]. intros off [Hoff _]. apply rq_bind, rq_address; [exact Hoff|]. apply rq_bind, rq_CAS_arr; [exact Hoff|exact Hd| | |].
  - destruct (_ && _); [|apply V_unmarked, Hold]. apply kref_unmarked; [apply mod_seq|]. apply N.mod_lt, N.pow_nonzero. discriminate.
  - destruct (_ && _); [exact Hr|apply V_ref_ok, Hold].
  - intros b v ok. apply H.
Qed.

(** Reading the word that the own word descriptor describes. *)
Lemma rq_read_own b s off (Q : N -> gst -> Prop) : off < m_size C ->
  Q (wref s me) (mkG (Some false) s off false) -> (forall w, w <> wref s me -> Q w (mkG None s off false)) -> rq (m_read (LArr off)) Q (mkG (Some b) s off false).
Proof.
  intros Hoff Hin Hout. unfold m_read. apply rq_bind. split; [exact Hoff|]. intros m Hm. cbn [mdo mexec]. split; [apply guar2_refl|].
  destruct (Hm) as (H1 & H2 & H3 & (A & B & D)). cbn [g_in g_s g_off] in *.
  destruct (N.eq_dec (clean (m (LArr off))) (wref s me)) as [E|E].
  - (* it is there *)
    destruct (isMarked (m (LArr off)) DirtyFlag) eqn:Ed.
    + exists (mkG (Some b) s off false). split; [exact Hm|]. cbn [rq]. apply rq_bind. rewrite ?Ed. unfold m_persist. apply rq_bind. rewrite E.
      set (v := m (LArr off)) in *. split; [exact Hoff|]. intros m1 (K1 & K2 & K3 & (_ & _ & K4)). cbn [mdo mexec g_in g_s g_off] in *. rewrite ?E. destruct (N.eqb_spec (m1 (LArr off)) v) as [Ev|Ev].
      * destruct (harmless_know (mkG (Some b) s off false) m1 (LArr off) (wref s me)) as [G (L1 & L2 & L3 & L4)].
        { left. rewrite Ev. symmetry. exact E. }
        { split; [exact K1|]. split; [exact K2|]. split; [exact K3|]. cbn. auto. }
        split; [exact G|]. exists (mkG (Some false) s off false). split; [|exact Hin]. split; [exact L1|]. split; [exact L2|]. split; [exact L3|]. cbn [g_in g_s g_off] in *.
        split; [exact A|]. split; [exact B|]. destruct L4 as (_ & _ & L4). intros j Hj. destruct (L4 j Hj) as (-> & M2 & _). split; [reflexivity|]. split; [exact M2|]. intros _. apply upd_same.
      * split; [apply guar2_refl|]. exists (mkG (Some false) s off false). split; [|exact Hin]. split; [exact K1|]. split; [exact K2|]. split; [exact K3|]. cbn [g_in g_s g_off].
        split; [exact A|]. split; [exact B|]. intros j Hj. destruct (K4 j Hj) as (-> & M2 & _). split; [reflexivity|]. split; [exact M2|]. intros _.
        destruct (clean_or_dirty _ _ M2) as [M|M]; [exact M|]. exfalso. apply Ev. rewrite M. unfold v. symmetry. destruct (clean_or_dirty _ _ E) as [F|F]; [|exact F].
        fold v in F. assert (Hd : isMarked (wref s me) DirtyFlag = false) by (destruct (wref_facts (m_log C) s me HC B A) as (_ & F0 & _); rewrite isMarked_dirty; exact F0). congruence.
    + exists (mkG (Some false) s off false). split; [|cbn [rq mbind]; rewrite ?Ed; cbn [rq mbind]; rewrite E; exact Hin]. split; [exact H1|]. split; [exact H2|]. split; [exact H3|]. cbn [g_in g_s g_off].
      split; [exact A|]. split; [exact B|]. intros j Hj. destruct (D j Hj) as (-> & M2 & _). split; [reflexivity|]. split; [exact M2|]. intros _. rewrite <- E. symmetry. apply clean_id. exact Ed.
  - (* it is not *)
    exists (mkG None s off false). split; [|].
    + split; [exact H1|]. split; [exact H2|]. split; [exact H3|]. cbn [g_in]. intros j Hj. destruct (D j Hj) as (-> & M2 & _). congruence.
    + cbn [rq]. apply rq_bind. destruct (isMarked (m (LArr off)) DirtyFlag); [apply rq_persist; [exact Hoff|exact I|]|]; cbn; apply Hout, E.
Qed.
Lemma rq_complete_own s off (Q : bool -> gst -> Prop) g : s < 2 ^ seqSize P -> me < P -> g_in g <> None -> g_s g = s -> g_off g = off -> g_ko g = false ->
  (forall b, Q b (mkG None s off false)) -> rq (completeInstall C (wdesc s me)) Q g.
Proof.
  intros Hss Hme Hin <- <- Hko H. destruct g as [[b|] s off ko]; [clear Hin|contradiction]. cbn [g_s g_off g_ko] in *. subst ko. destruct (wdesc_found s Hss Hme) as [Hd Hf].
  unfold completeInstall. cbn [d_tid wdesc]. apply rq_bind, rq_thread; [exact (fun H => H)|]. intros _. apply rq_bind, rq_load; [exact Hme|]. intros kq [Hkq _]. apply rq_bind, rq_load; [exact Hme|]. intros kt [Hkt _].
  destruct (dummy_good kq kt Hkq Hkt) as [Hg Hr].
  apply rq_bind, rq_load; [exact Hme|]. intros kt' [Hkt' _]. apply rq_bind, rq_thread; [intros _; exact Hkt'|]. intros _. apply rq_bind, rq_readField; [exact Hkt'|exact Hg|exact I|]. intros r. apply rq_bind, rq_assert; [intros _; exact Hf|].
  apply rq_bind, rq_load; [exact Hme|]. intros old Hold. apply rq_bind, rq_load; [exact Hme|]. intros off' Hoff. assert (off' = off) as -> by (apply Hoff; reflexivity). apply rq_bind, rq_address; [apply Hoff|].
  change (mkDesc false false true s me) with (wdesc s me). change (desc_encode P (wdesc s me)) with (wref s me).
  assert (Hn : forall c : bool, isMarked (if c then desc_encode P (kdesc (kq mod 2 ^ seqSize P) (kt mod 2 ^ tidSize P)) else old) RDCSSFlag = false).
  { intros [|]; [|apply V_unmarked, Hold]. apply kref_unmarked; [apply mod_seq|]. apply N.mod_lt, N.pow_nonzero. discriminate. }
  assert (Hnr : forall c : bool, ref_ok (if c then desc_encode P (kdesc (kq mod 2 ^ seqSize P) (kt mod 2 ^ tidSize P)) else old)).
  { intros [|]; [exact Hr|apply V_ref_ok, Hold]. }
  match goal with |- context [CASField _ _ _ ?n _] => set (new := n) end. specialize (Hn ((km_status (kmut_decode (fst r)) =? Undecided) && snd r)). change (isMarked new RDCSSFlag = false) in Hn.
  specialize (Hnr ((km_status (kmut_decode (fst r)) =? Undecided) && snd r)). change (ref_ok new) in Hnr. clearbody new.
  apply rq_bind. unfold CASField. apply rq_bind, rq_read_own; [apply Hoff| |].
  - apply rq_bind, rq_getSeq; [exact Hd|]. intros q Hq. rewrite (Hq eq_refl eq_refl). cbn [g_s d_seq wdesc]. rewrite N.eqb_refl. cbn [negb]. rewrite N.eqb_refl. cbn [negb].
    apply rq_bind. unfold m_pcas. apply rq_bind, rq_read; [apply Hoff|exact I|]. intros _ _. apply rq_bind. split; [apply Hoff|]. intros m Hm. cbn [mdo mexec]. destruct (Hm) as (H1 & H2 & H3 & (A & B & D)). cbn [g_in g_s g_off] in *.
    destruct (N.eqb_spec (m (LArr off)) (wref s me)) as [E|E].
    + destruct (harmless_know (mkG (Some false) s off false) m (LArr off) (dirty new)) as [G (L1 & L2 & L3 & L4)]; [right; split; [apply unmarked_dirty, Hn|apply ref_ok_dirty, Hnr]|exact Hm|].
      split; [exact G|]. exists (mkG None s off false). split; [|cbn [rq fst snd]; apply rq_bind, rq_assert; [intros _; apply (pcas_sane true (wref s me)); tauto|]; cbn; apply H]. split; [exact L1|]. split; [exact L2|]. split; [exact L3|]. cbn [g_in g_s g_off] in *.
      intros j Hj. destruct L4 as (_ & _ & L4). destruct (L4 j Hj) as (-> & _). rewrite upd_same in Hj. destruct Hj as [Hj _]. rewrite unmarked_dirty in Hj by exact Hn. discriminate.
    + split; [apply guar2_refl|]. exists (mkG None s off false). split; [|cbn [rq fst snd]; apply rq_bind, rq_assert; [intros _; apply (pcas_sane false (m (LArr off))); split; [discriminate|intros; contradiction]|]; cbn; apply H]. split; [exact H1|]. split; [exact H2|]. split; [exact H3|]. cbn [g_in].
      intros j Hj. destruct (D j Hj) as (-> & _ & M). apply E, M. reflexivity.
  - intros w Hw. apply rq_bind, rq_getSeq; [exact Hd|]. intros q _. rewrite (proj2 (N.eqb_neq _ _) Hw). cbn [negb]. destruct (negb _); apply H.
Qed.

(** ** InstallMwCASDescriptor *)

Lemma install_sane (b : bool) v e : (b = true <-> v = e) -> (b && ((if b then e else v) =? e)) || (negb b && negb ((if b then e else v) =? e)) || (negb b && negb true) = true.
Proof. intros [H1 H2]. destruct b; cbn; [rewrite N.eqb_refl; reflexivity|]. rewrite orb_false_r. apply negb_true_iff, N.eqb_neq. intros E. discriminate H2. exact E. Qed.
Lemma rq_install n g (Q : N * bool -> gst -> Prop) : out g -> me < P -> (forall v b, ref_ok v -> Q (v, b) g) -> rq (install C n (wdesc (g_s g mod 2 ^ seqSize P) me)) Q g.
Proof.
  intros Hg Hme H. revert Q H. induction n as [|n IH]; intros Q H; [intros _; reflexivity|]. cbn [install]. apply rq_bind, rq_load; [exact Hme|]. intros old Hold. apply rq_bind, rq_load; [exact Hme|]. intros off Hoff.
  assert (off = g_off g) as -> by (apply Hoff; reflexivity). apply rq_bind, rq_address; [apply Hoff|]. apply rq_bind. unfold CASField. apply rq_bind, rq_read; [apply Hoff|exact I|]. intros v Hv.
  apply rq_bind, rq_getSeq; [apply good_w, Hme|]. intros q Hq. rewrite (Hq eq_refl eq_refl). cbn [d_seq d_tid wdesc]. set (s := g_s g) in *.
  change (mkDesc false false true (s mod 2 ^ seqSize P) me) with (wdesc (s mod 2 ^ seqSize P) me) in *.
  destruct (N.eqb_spec (s mod 2 ^ seqSize P) s) as [Es|Es]; cbn [negb].
  2:{ cbn [rq]. apply rq_bind, rq_assert; [intros _; cbn; apply orb_true_r|]. apply H, V_ref_ok, Hold. }
  assert (Hs : s < 2 ^ seqSize P) by (rewrite <- Es; apply mod_seq). assert (Hold' : V old) by apply Hold.
  assert (Hfail : forall w ok, w <> old -> sees g (LArr (g_off g)) w ->
    rq (if negb ok then MRet (w, false) else if d_isRDCSS (desc_decode P w) then completeInstall C (desc_decode P w) ;;; install C n (wdesc (s mod 2 ^ seqSize P) me)
        else (if (w =? old)%N then completeInstall C (wdesc (s mod 2 ^ seqSize P) me) ;;; MRet tt else MRet tt) ;;; MRet (w, true))%mprog Q g).
  { intros w ok Hne Hw. assert (Hr : ref_ok w) by apply Hw. destruct (negb ok); [apply H, Hr|]. destruct (d_isRDCSS (desc_decode P w)) eqn:Er.
    - apply rq_bind, rq_completeInstall; [apply marked_found; [rewrite isMarked_rdcss, <- (decode_rdcss P); exact Er|exact Hr]|]. intros _. apply IH, H.
    - apply rq_bind. rewrite (proj2 (N.eqb_neq _ _) Hne). apply H, Hr. }
  destruct (N.eqb_spec v old) as [Ev|Ev]; cbn [negb].
  2:{ cbn [rq]. apply rq_bind, rq_assert; [intros _; apply (install_sane false); split; [discriminate|intros; contradiction]|]. apply (Hfail v true); [exact Ev|exact Hv]. }
  apply rq_bind. unfold m_pcas. apply rq_bind, rq_read; [apply Hoff|exact I|]. intros _ _. apply rq_bind. split; [apply Hoff|]. intros m Hm. cbn [mdo mexec].
  change (desc_encode P (wdesc (s mod 2 ^ seqSize P) me)) with (wref (s mod 2 ^ seqSize P) me). rewrite Es. destruct (N.eqb_spec (m (LArr (g_off g))) old) as [E|E].
  - (* installed *)
    destruct (Hm) as ((H1 & HK) & H2 & H3 & H4). destruct Hg as [Hg Hko]. rewrite Hg in H4. split; [|exists (mkG (Some true) s (g_off g) false); split].
    + split; [apply kguar_eq; intros; apply upd_other; discriminate|].
      intros t Ht. unfold wseq. rewrite !upd_other by discriminate. split; [reflexivity|]. split; [reflexivity|]. intros j Hj. left. destruct (decide (j = g_off g)) as [->|Hn]; [|apply upd_other; congruence].
      rewrite upd_same, mine_dirty in Hj. apply mine_wref in Hj; [contradiction|exact Hs|exact Hme].
    + split; [split; [intros x; unfold upd; destruct (decide (x = LArr (g_off g))) as [->|]; [apply ref_ok_dirty, wref_ok; assumption|apply H1]|
        rewrite Hko in HK; eapply kown_eq; [|exact HK]; apply upd_other; discriminate]|]. unfold wseq. rewrite !upd_other by discriminate.
      split; [exact H2|]. split; [exact H3|]. cbn [g_in g_s g_off]. split; [exact Hme|]. split; [exact Hs|]. intros j Hj. destruct (decide (j = g_off g)) as [->|Hn].
      * split; [reflexivity|]. rewrite upd_same, clean_dirty. split; [apply wref_clean; assumption|discriminate].
      * rewrite upd_other in Hj by congruence. destruct (H4 j Hj).
    + cbn [rq fst snd]. apply rq_bind, rq_assert; [intros _; apply (pcas_sane true old); tauto|]. cbn [rq]. apply rq_bind, rq_assert; [intros _; apply (install_sane true old); tauto|]. cbn [negb snd].
      assert (Er : d_isRDCSS (desc_decode P old) = false) by (rewrite decode_rdcss, <- isMarked_rdcss; apply V_unmarked, Hold'). rewrite Er, N.eqb_refl.
      apply rq_bind, rq_bind. apply (rq_complete_own s (g_off g)); [exact Hs|exact Hme|discriminate|reflexivity|reflexivity|reflexivity|]. intros b. cbn. destruct g as [gi gs go ko]. cbn in *. subst gi ko. unfold s. apply H, V_ref_ok, Hold'.
  - split; [apply guar2_refl|]. exists g. split; [exact Hm|]. cbn [rq fst snd]. apply rq_bind, rq_assert; [intros _; apply (pcas_sane false); split; [discriminate|intros; contradiction]|].
    cbn [rq]. apply rq_bind, rq_assert; [intros _; apply (install_sane false); split; [discriminate|intros; contradiction]|]. cbn [snd]. rewrite Es in Hfail. apply (Hfail _ true); [exact E|apply know_sees, Hm].
Qed.

(** ** The other functions *)

Lemma rq_more t i (Q : bool -> gst -> Prop) g : t < P -> (forall b, (b = true -> (i < m_K C)%nat) -> Q b g) -> rq (more t i) Q g.
Proof. intros Ht H. unfold more. apply rq_bind, rq_load; [exact Ht|]. intros v [Hv _]. cbn in Hv. apply H. intros E. apply N.ltb_lt in E. lia. Qed.
Lemma rq_word_address t i (Q : loc -> gst -> Prop) g : t < P -> (i < m_K C)%nat -> (forall j, j < m_size C -> Q (LArr j) g) -> rq (word_address C t i) Q g.
Proof. intros Ht Hi H. unfold word_address. apply rq_bind, rq_load; [split; assumption|]. intros v [Hv _]. apply rq_address; [exact Hv|]. apply H, Hv. Qed.
Definition word_fits (x : mword) : Prop := o_off x < m_size C /\ V (o_old x) /\ V (o_new x).
Lemma rq_load_word t i (Q : mword -> gst -> Prop) g : t < P -> (i < m_K C)%nat -> (forall x, word_fits x -> Q x g) -> rq (load_word t i) Q g.
Proof.
  intros Ht Hi H. assert (Hr : forall f, in_range C (LKWord t i f)) by (intros f; split; assumption). unfold load_word. apply rq_bind, rq_load; [apply Hr|]. intros a Ha.
  apply rq_bind, rq_load; [apply Hr|]. intros b Hb. apply rq_bind, rq_load; [apply Hr|]. intros c Hc. apply H. split; [apply Ha|]. split; [apply Hb|apply Hc].
Qed.
Lemma rq_createW h x kd (Q : descref -> gst -> Prop) g : out g -> word_fits x -> d_seq kd < 2 ^ seqSize P -> N.odd (d_seq kd) = false -> h < P ->
  (forall g', out g' -> me < P -> Q (wdesc (g_s g' mod 2 ^ seqSize P) me) g') -> rq (createW C me h x kd) Q g.
Proof.
  intros Hg (X1 & X2 & X3) Hk Hko Hh H. unfold createW. apply rq_bind, rq_assert; [apply N.ltb_lt|]. apply rq_bind, rq_assert; [intros _; apply N.ltb_lt, Hh|]. apply rq_bind, rq_thread; [exact (fun H => H)|]. intros Hme. apply rq_bind, rq_read; [exact Hme|exact I|]. intros w _. cbn zeta.
  apply rq_bind, rq_store_own; [exact Hme|reflexivity|exact I|exact Hg|]. apply rq_bind, rq_persist; [exact Hme|exact I|].
  apply rq_bind, rq_store_own; [exact Hme|reflexivity|exact X1|exact Hg|]. apply rq_bind, rq_store_own; [exact Hme|reflexivity|exact X2|exact Hg|]. apply rq_bind, rq_store_own; [exact Hme|reflexivity|exact I|exact Hg|].
  apply rq_bind, rq_store_own; [exact Hme|reflexivity|split; [exact Hk|exact Hko]|exact Hg|]. apply rq_bind, rq_store_own; [exact Hme|reflexivity|exact Hh|exact Hg|]. apply rq_bind, rq_store_own; [exact Hme|reflexivity|exact I|exact Hg|].
  apply rq_bind, rq_persist; [exact Hme|exact I|]. cbn [rq]. match goal with |- Q _ ?G => specialize (H G Hg Hme) end. cbn [after g_s] in H.
  destruct (wmut_roundtrip (mkWmut true (((wm_seq (wmut_decode w) + 1) mod 2 ^ 63 + 1) mod 2 ^ 63))) as (E & _); [apply N.mod_lt; discriminate|].
  cbn [after] in *. rewrite E in H |- *. exact H.
Qed.
Lemma rq_find_start n t a i (Q : nat -> gst -> Prop) g : t < P -> (forall k, Q k g) -> rq (find_start C n t a i) Q g.
Proof.
  intros Ht H. revert i. induction n as [|n IH]; intros i; [intros _; reflexivity|]. cbn [find_start]. apply rq_bind, rq_more; [exact Ht|]. intros [|] Hi; [|apply H].
  apply rq_bind, rq_word_address; [exact Ht|apply Hi; reflexivity|]. intros j _. destruct (decide _); [apply H|apply IH].
Qed.
Lemma rq_place n rec d i retry (Q : N -> gst -> Prop) g : (retry = true -> (i < m_K C)%nat) -> out g -> d_seq d < 2 ^ seqSize P -> N.odd (d_seq d) = false -> d_tid d < P ->
  (forall w a g' (Q' : bool -> gst -> Prop), out g' -> good (desc_decode P w) -> d_isKCAS (desc_decode P w) = true -> (forall b g'', out g'' -> Q' b g'') -> rq (rec (desc_decode P w) a) Q' g') ->
  (forall st g', st < 4 -> out g' -> Q st g') -> rq (place C n rec me d i retry) Q g.
Proof.
  intros Hi Hg Hd Hdo Ht Hrec H. revert i retry g Hi Hg. induction n as [|n IH]; intros i retry g Hi Hg; [intros _; reflexivity|]. cbn [place]. apply rq_bind.
  assert (Hrest : forall b : bool, (b = true -> (i < m_K C)%nat) -> rq (if negb b then MRet Succeeded else
        word <-- load_word (d_tid d) i;;
        wd <-- createW C me (d_tid d) word d;;
        r <-- install C n wd;;
        let '(rval, success) := r in
        if negb (success : bool) then MRet Succeeded
        else
          o <-- mdo (MLoad (LWWord (d_tid wd) WOld));;
          if (rval =? o)%N then place C n rec me d (S i) false
          else if d_isKCAS (desc_decode P rval) then
            (if d_isDirty (desc_decode P rval)
             then a <-- word_address C (d_tid d) i;; m_persist a rval
             else MRet tt) ;;;
            if (d_tid (desc_decode P rval) =? d_tid d)%N && (d_seq (desc_decode P rval) =? d_seq d)%N
            then place C n rec me d (S i) false
            else
              a <-- word_address C (d_tid d) i;;
              rec (desc_decode P rval) a ;;; place C n rec me d i true
          else MRet Failed)%mprog Q g).
  { intros b Hib. destruct b; cbn [negb]; [|apply H; [reflexivity|exact Hg]]. specialize (Hib eq_refl). apply rq_bind, rq_load_word; [exact Ht|exact Hib|]. intros x Hx. apply rq_bind, rq_createW; [exact Hg|exact Hx|exact Hd|exact Hdo|exact Ht|]. intros g1 Hg1 Hme.
    apply rq_bind, rq_install; [exact Hg1|exact Hme|]. intros v ok Hv. destruct (negb ok); [apply H; [reflexivity|exact Hg1]|]. apply rq_bind, rq_load; [exact Hme|]. intros o _.
    destruct (v =? o); [apply IH; [discriminate|exact Hg1]|]. destruct (d_isKCAS (desc_decode P v)) eqn:Ek; [|apply H; [reflexivity|exact Hg1]]. apply rq_bind.
    assert (Hgo : rq (if (d_tid (desc_decode P v) =? d_tid d)%N && (d_seq (desc_decode P v) =? d_seq d)%N
            then place C n rec me d (S i) false
            else
              a <-- word_address C (d_tid d) i;;
              rec (desc_decode P v) a ;;; place C n rec me d i true)%mprog Q g1).
    { destruct (_ && _); [apply IH; [discriminate|exact Hg1]|]. apply rq_bind, rq_word_address; [exact Ht|exact Hib|]. intros j _. apply rq_bind, Hrec; [exact Hg1|apply Hv; right; rewrite isMarked_kcas, <- (decode_kcas P); exact Ek|exact Ek|]. intros _ g2 Hg2. apply IH; [intros _; exact Hib|exact Hg2]. }
    destruct (d_isDirty (desc_decode P v)); [|exact Hgo]. apply rq_bind, rq_word_address; [exact Ht|exact Hib|]. intros j Hj. apply rq_persist; [exact Hj|exact I|]. exact Hgo. }
  destruct retry; [apply Hrest, Hi|apply rq_more; [exact Ht|exact Hrest]].
Qed.
Lemma rq_persist_words n t i (Q : unit -> gst -> Prop) g : t < P -> Q tt g -> rq (persist_words C n t i) Q g.
Proof.
  intros Ht H. revert i. induction n as [|n IH]; intros i; [intros _; reflexivity|]. cbn [persist_words]. apply rq_bind, rq_more; [exact Ht|]. intros [|] Hi; [|exact H].
  apply rq_bind, rq_word_address; [exact Ht|apply Hi; reflexivity|]. intros j Hj. apply rq_bind, rq_read; [exact Hj|exact I|]. intros _ _. apply IH.
Qed.
Lemma rq_finish n d st i (Q : unit -> gst -> Prop) g : good d -> Q tt g -> rq (finish C n d st i) Q g.
Proof.
  intros Hd H. assert (Ht : d_tid d < P) by apply Hd. revert i. induction n as [|n IH]; intros i; [intros _; reflexivity|]. cbn [finish]. apply rq_bind, rq_more; [exact Ht|]. intros [|] Hi; [|exact H]. specialize (Hi eq_refl).
  apply rq_bind, rq_load; [split; assumption|]. intros v [Hv _]. assert (Hv' : V v) by (destruct (st =? Succeeded); exact Hv). apply rq_bind, rq_word_address; [exact Ht|exact Hi|]. intros j Hj.
  apply rq_bind, rq_CAS_arr; [exact Hj|exact Hd|apply V_unmarked; exact Hv'|apply V_ref_ok; exact Hv'|]. intros b w ok. destruct (negb _); [exact H|]. apply rq_bind.
  assert (Hrest : forall ok' : bool, rq (if negb ok' then MRet tt else a <-- word_address C (d_tid d) i;; m_persist a v ;;; finish C n d st (S i))%mprog Q g).
  { intros ok'. destruct (negb ok'); [exact H|]. apply rq_bind, rq_word_address; [exact Ht|exact Hi|]. intros k Hk. apply rq_bind, rq_persist; [exact Hk|exact I|]. apply IH. }
  match goal with |- rq (if ?c then _ else _) _ _ => destruct c end; [|apply Hrest]. apply rq_bind, rq_word_address; [exact Ht|exact Hi|]. intros k Hk.
  apply rq_bind, rq_CAS_arr; [exact Hk|exact Hd|apply V_unmarked; exact Hv'|apply V_ref_ok; exact Hv'|]. intros b' w' ok'. apply Hrest.
Qed.
Lemma rq_pmwcas n d addr (Q : bool -> gst -> Prop) g : out g -> d_seq d < 2 ^ seqSize P -> good d -> d_isKCAS d = true -> (forall b g', out g' -> Q b g') -> rq (pmwcas C n me d addr) Q g.
Proof.
  revert d addr Q g. induction n as [|n IH]; intros d addr Q g Hg Hd Hgd Hk H; [intros _; reflexivity|]. cbn [pmwcas]. apply rq_bind, rq_thread; [intros _; apply Hgd|]. intros Ht. assert (Hdo : N.odd (d_seq d) = false) by (apply Hgd, Hk). apply rq_bind.
  assert (Hrest : forall i, rq (
      st <-- place C n (fun d' a => pmwcas C n me d' (Some a)) me d i false;;
      (if (st =? Succeeded)%N then persist_words C n (d_tid d) 0 else MRet tt) ;;;
      let mOld := kmut_encode (mkKmut false Undecided (d_seq d)) in
      let mNew := kmut_encode (mkKmut true st (d_seq d)) in
      c <-- CASField C d mOld mNew (LK (d_tid d));;
      m_persist (LK (d_tid d)) mNew ;;;
      if negb (snd c) then MRet false
      else finish C n d st 0 ;;; MRet (st =? Succeeded)%N)%mprog Q g).
  { intros i. apply rq_bind. apply rq_place; [discriminate|exact Hg|exact Hd|exact Hdo|exact Ht|intros w a g' Q' Hg' Hgd' Hk' HQ'; apply IH; [exact Hg'|apply decode_seq_lt, HC|exact Hgd'|exact Hk'|exact HQ']|]. intros st g1 Hst Hg1. apply rq_bind.
    assert (Hgo : rq (let mOld := kmut_encode (mkKmut false Undecided (d_seq d)) in
      let mNew := kmut_encode (mkKmut true st (d_seq d)) in
      c <-- CASField C d mOld mNew (LK (d_tid d));;
      m_persist (LK (d_tid d)) mNew ;;;
      if negb (snd c) then MRet false
      else finish C n d st 0 ;;; MRet (st =? Succeeded)%N)%mprog Q g1).
    { cbn zeta. apply rq_bind, rq_CASField; [exact Ht|exact Hgd|exact I| |].
      { right. pose proof (seq_61 (m_log C) _ HC Hd) as H61. rewrite sq_dirty. unfold sq. rewrite !(fun a b => proj1 (kmut_roundtrip _ a b)) by first [exact H61|exact Hst|reflexivity]. split; [reflexivity|exact Hdo]. }
      intros b v ok. apply rq_bind, rq_persist; [exact Ht|exact I|]. destruct (negb _); [apply H, Hg1|]. apply rq_bind, rq_finish; [exact Hgd|]. apply H, Hg1. }
    destruct (st =? Succeeded); [apply rq_persist_words; [exact Ht|]|]; exact Hgo. }
  destruct addr; [apply rq_find_start; [exact Ht|exact Hrest]|exact (Hrest 0%nat)].
Qed.
Lemma rq_store_words t i l (Q : unit -> gst -> Prop) g : t < P -> (i + length l <= m_K C)%nat -> Forall word_fits l -> Q tt g -> rq (store_words t i l) Q g.
Proof.
  intros Ht Hi Hl H. revert i Hi. induction l as [|x l IH]; intros i Hi; [exact H|]. apply List.Forall_cons_iff in Hl as [(H1 & H2 & H3) Hl]. cbn [store_words length] in *.
  assert (Hr : forall f, in_range C (LKWord t i f)) by (intros f; split; [exact Ht|lia]).
  apply rq_bind, rq_store; [apply Hr|exact I|exact H1|]. apply rq_bind, rq_store; [apply Hr|exact I|exact H2|]. apply rq_bind, rq_store; [apply Hr|exact I|exact H3|]. apply IH; [exact Hl|lia].
Qed.
Lemma rq_createK ws (Q : descref -> gst -> Prop) g : out g -> Forall word_fits ws -> ws <> [] -> (length ws <= m_K C)%nat -> NoDup (map o_off ws) ->
  (forall d, d_seq d < 2 ^ seqSize P -> good d -> d_isKCAS d = true -> Q d g) -> rq (createK C me ws) Q g.
Proof.
  intros Hg Hws Hne HK Hnd H. unfold createK. apply rq_bind, rq_assert; [apply N.ltb_lt|].
  apply rq_bind, rq_assert; [intros _; destruct ws; [contradiction|]; apply andb_true_iff; split; [reflexivity|apply Nat.leb_le, HK]|].
  apply rq_bind, rq_thread; [exact (fun H => H)|]. intros Hme. apply rq_bind, rq_read; [exact Hme|exact I|]. intros w Hw. cbn zeta.
  destruct Hw as (_ & _ & _ & _ & Hw). destruct (Hw eq_refl) as [Hodd _]. destruct Hg as [Hi Hko]. rewrite Hko in Hodd. unfold sq in Hodd.
  set (s1 := (km_seq (kmut_decode w) + 1) mod 2 ^ 61). set (s2 := (s1 + 1) mod 2 ^ 61).
  assert (O1 : N.odd s1 = true). { unfold s1. rewrite odd_mod by reflexivity. rewrite N.odd_add, Hodd. reflexivity. }
  assert (O2 : N.odd s2 = false). { unfold s2. rewrite odd_mod by reflexivity. rewrite N.odd_add, O1. reflexivity. }
  assert (B1 : s1 < 2 ^ 61) by (apply N.mod_lt; discriminate). assert (B2 : s2 < 2 ^ 61) by (apply N.mod_lt; discriminate).
  destruct (kmut_roundtrip (mkKmut true Undecided s1) B1 eq_refl) as (E1 & _). destruct (kmut_roundtrip (mkKmut true Undecided s2) B2 eq_refl) as (E2 & _).
  assert (D1 : sq (kmut_encode (mkKmut true Undecided s1)) = s1 /\ stt (kmut_encode (mkKmut true Undecided s1)) = Undecided) by (unfold sq, stt; rewrite E1; split; reflexivity).
  assert (D2 : sq (kmut_encode (mkKmut true Undecided s2)) = s2 /\ stt (kmut_encode (mkKmut true Undecided s2)) = Undecided) by (unfold sq, stt; rewrite E2; split; reflexivity).
  clear E1 E2. destruct D1 as [D1 D1']. destruct D2 as [D2 D2']. clearbody s1 s2.
  apply rq_bind, rq_store_k; [exact Hme|intros _; exact D1'|]. rewrite D1, O1. apply rq_bind, rq_persist; [exact Hme|exact I|]. apply rq_bind, rq_assert; [intros _; apply sort_words_sorted, Hnd|].
  apply rq_bind, rq_store; [exact Hme|exact I|cbn; lia|]. apply rq_bind, rq_store_words; [exact Hme|rewrite sort_words_length; exact HK| |].
  { rewrite List.Forall_forall in *. intros x Hx. apply Hws. eapply Permutation.Permutation_in; [apply sort_words_perm|exact Hx]. }
  apply rq_bind, rq_load; [exact Hme|]. intros w' (_ & _ & _ & _ & Hw'). apply rq_bind, rq_assert; [intros _; apply N.eqb_eq; apply (Hw' eq_refl); reflexivity|].
  apply rq_bind, rq_store_k; [exact Hme|intros _; exact D2'|]. rewrite D2, O2. apply rq_bind, rq_persist; [exact Hme|exact I|]. cbn.
  assert (Eg : mkG (g_in g) (g_s g) (g_off g) false = g) by (destruct g; cbn in *; subst; reflexivity). rewrite Eg.
  apply H; [apply mod_seq|apply good_k; [exact Hme|]|reflexivity]. rewrite odd_mod; [exact O2|]. pose proof (seqSize_le (m_log C) HC). lia.
Qed.
Lemma not_mine_tid j g v : out g -> sees g (LArr j) v -> isMarked v RDCSSFlag = true -> negb (d_tid (desc_decode P v) =? me) = true.
Proof. intros Hg (_ & _ & _ & Hv & _) Er. apply negb_true_iff, N.eqb_neq. intros E. apply (Hv j eq_refl Hg). split; assumption. Qed.
Lemma clean_k v : ref_ok v -> isMarked (clean v) PMwCASFlag = true -> good (desc_decode P (clean v)) /\ d_isKCAS (desc_decode P (clean v)) = true.
Proof. intros Hv Hm. split; [apply ref_ok_clean in Hv; apply Hv; right; exact Hm|]. rewrite decode_kcas, <- isMarked_kcas. exact Hm. Qed.
Lemma rq_PMwCASRead n j (Q : N -> gst -> Prop) g : j < m_size C -> out g -> (forall v g', V v -> out g' -> Q v g') -> rq (PMwCASRead C n me (LArr j)) Q g.
Proof.
  intros Hj Hg H. revert g Hg. induction n as [|n IH]; intros g Hg; [intros _; reflexivity|]. cbn [PMwCASRead]. apply rq_bind, rq_load; [exact Hj|]. intros v Hv. assert (Hr : ref_ok v) by apply Hv. destruct (isMarked v RDCSSFlag) eqn:Er.
  - apply rq_bind, rq_assert; [intros _; apply not_mine_tid with j g; assumption|]. apply rq_bind, rq_completeInstall; [apply marked_found; assumption|]. intros _. apply IH, Hg.
  - apply rq_bind. assert (Hrest : rq (if isMarked (clean v) PMwCASFlag then pmwcas C n me (desc_decode P (clean v)) None ;;; PMwCASRead C n me (LArr j) else MRet (clean v))%mprog Q g).
    { destruct (isMarked (clean v) PMwCASFlag) eqn:Ek; [|apply H; [apply (proj2 Hr); [exact Er|rewrite isMarked_kcas, clean_spec, andb_true_r, <- isMarked_kcas in Ek; exact Ek]|exact Hg]]. destruct (clean_k v Hr Ek) as [Hk1 Hk2]. apply rq_bind, rq_pmwcas; [exact Hg|apply decode_seq_lt, HC|exact Hk1|exact Hk2|]. intros _ g1 Hg1. apply IH, Hg1. }
    destruct (isMarked v DirtyFlag); [apply rq_persist; [exact Hj|exact I|]|]; exact Hrest.
Qed.
Lemma rq_mwCAS n j old new (Q : bool * N -> gst -> Prop) g : j < m_size C -> out g -> V new -> (forall r g', out g' -> Q r g') -> rq (mwCAS C n me (LArr j) old new) Q g.
Proof.
  intros Hj Hg Hnew H. revert g Hg. induction n as [|n IH]; intros g Hg; [intros _; reflexivity|]. cbn [mwCAS]. apply rq_bind, rq_pcas; [exact Hj|exact I|right; split; [apply unmarked_dirty, V_unmarked, Hnew|apply ref_ok_dirty, V_ref_ok, Hnew]|].
  intros b v Hbv. cbn [fst snd]. destruct b; [apply H, Hg|]. destruct Hbv as [[Hbv _]|(_ & _ & Hv)]; [discriminate|]. assert (Hr : ref_ok v) by apply Hv. destruct (negb _ && negb _ && negb _); [apply H, Hg|]. apply rq_bind.
  assert (H3 : rq ((if isMarked (clean v) PMwCASFlag then pmwcas C n me (desc_decode P (clean v)) None ;;; MRet tt else MRet tt) ;;; mwCAS C n me (LArr j) old new)%mprog Q g).
  { apply rq_bind. destruct (isMarked (clean v) PMwCASFlag) eqn:Ek; [|apply IH, Hg]. destruct (clean_k v Hr Ek) as [Hk1 Hk2]. apply rq_bind, rq_pmwcas; [exact Hg|apply decode_seq_lt, HC|exact Hk1|exact Hk2|]. intros _ g1 Hg1. apply IH, Hg1. }
  assert (H2 : rq ((if isMarked v DirtyFlag then m_persist (LArr j) v else MRet tt) ;;;
    (if isMarked (clean v) PMwCASFlag then pmwcas C n me (desc_decode P (clean v)) None ;;; MRet tt else MRet tt) ;;; mwCAS C n me (LArr j) old new)%mprog Q g).
  { apply rq_bind. destruct (isMarked v DirtyFlag); [apply rq_persist; [exact Hj|exact I|]|]; exact H3. }
  destruct (isMarked v RDCSSFlag) eqn:Er; [|exact H2]. apply rq_bind, rq_assert; [intros _; apply not_mine_tid with j g; assumption|]. apply rq_bind, rq_completeInstall; [apply marked_found; assumption|]. intros _. exact H2.
Qed.
Definition op_fits (o : mop) : Prop := (forall v, op_value o v -> V v) /\ legal_mop C o.
Lemma rq_mop n o g : out g -> op_fits o -> rq (mop_prog C n me o) (fun _ => out) g.
Proof.
  intros Hg [Ho [Hf Hl]]. destruct o as [ws|j|j old new]; cbn [mop_prog op_value touches] in *.
  - destruct Hl as (L1 & L2 & L3 & L4). apply rq_bind. unfold PMwCAS. apply rq_bind, rq_assert; [intros _; destruct ws; [contradiction|reflexivity]|]. apply rq_bind, rq_createK; [exact Hg| |exact L1|exact L2|exact L3|].
    + rewrite List.Forall_forall in *. intros x Hx. split; [apply Hf, in_map, Hx|]. split; apply Ho; exists x; tauto.
    + intros d Hd Hgd Hk. apply rq_pmwcas; [exact Hg|exact Hd|exact Hgd|exact Hk|]. intros b g' Hg'. exact Hg'.
  - apply rq_bind, rq_address; [apply Hf; reflexivity|]. apply rq_bind, rq_PMwCASRead; [apply Hf; reflexivity|exact Hg|]. intros v g' _ Hg'. exact Hg'.
  - apply rq_bind, rq_address; [apply Hf; reflexivity|]. apply rq_bind, rq_mwCAS; [apply Hf; reflexivity|exact Hg|apply Ho; reflexivity|]. intros r g' Hg'. exact Hg'.
Qed.
End Thread.

(** ** All executions *)

Definition running (y : msys) (t : N) (g : gst) : Prop :=
  match ms_thr y !! N.to_nat t with
  | Some (mkMthread (Some (_, p)) _) => rq t p (fun _ => out) g
  | _ => out g
  end.
Definition sys2 (y : msys) : Prop :=
  cells (ms_mem y) /\ (forall i th, ms_thr y !! i = Some th -> Forall op_fits (mt_todo th)) /\ forall t, exists g, know2 t g (ms_mem y) /\ running y t g.

Lemma step2 n y i : sys2 y -> sys2 (mtstep C n i y).
Proof.
  intros (Hc & Ht & Hk). unfold mtstep. destruct (ms_thr y !! i) as [[cur todo]|] eqn:Eth; [|exact (conj Hc (conj Ht Hk))].
  assert (Hlti : (i < length (ms_thr y))%nat) by (eapply lookup_lt_Some, Eth). pose proof (Ht i _ Eth) as Hi. cbn [mt_cur mt_todo] in *.
  destruct (Hk (N.of_nat i)) as (g & Kg & Rg). unfold running in Rg. rewrite Nat2N.id, Eth in Rg.
  assert (Hother : forall m th h t, N.to_nat t <> i -> running (mkMsys m (<[i:=th]> (ms_thr y)) h) t = running y t).
  { intros m th h t Hn. unfold running. cbn [ms_thr]. rewrite list_lookup_insert_ne by congruence. reflexivity. }
  assert (Hto : forall m th h, Forall op_fits (mt_todo th) -> forall k th', ms_thr (mkMsys m (<[i:=th]> (ms_thr y)) h) !! k = Some th' -> Forall op_fits (mt_todo th')).
  { intros m th h H k th' Hl. cbn in Hl. apply list_lookup_insert_Some in Hl as [(_ & <- & _)|[_ Hl]]; [exact H|]. eapply Ht, Hl. }
  assert (Hset : forall m th h g', Forall op_fits (mt_todo th) -> cells m -> guar2 (N.of_nat i) (ms_mem y) m -> know2 (N.of_nat i) g' m ->
    match th with mkMthread (Some (_, p)) _ => rq (N.of_nat i) p (fun _ => out) g' | _ => out g' end -> sys2 (mkMsys m (<[i:=th]> (ms_thr y)) h)).
  { intros m th h g' H1 H2 H3 H4 H5. split; [exact H2|]. split; [apply Hto, H1|]. intros t. destruct (decide (N.to_nat t = i)) as [E|E].
    - exists g'. assert (t = N.of_nat i) as -> by lia. split; [exact H4|]. unfold running. cbn [ms_thr]. rewrite Nat2N.id, list_lookup_insert by exact Hlti. destruct th as [[[o p]|] td]; exact H5.
    - destruct (Hk t) as (g0 & K0 & R0). exists g0. split; [|rewrite Hother by exact E; exact R0]. eapply know_stable; [|exact H3|exact H2|exact K0]. lia. }
  destruct cur as [[o p]|].
  - destruct p as [r|e|c k].
    + eapply Hset; [exact Hi|exact Hc|apply guar2_refl|exact Kg|exact Rg].
    + exact (conj Hc (conj Ht Hk)).
    + cbn [rq] in Rg. destruct Rg as [_ Rg]. specialize (Rg _ Kg). destruct (mexec c (ms_mem y)) as [r m']. destruct Rg as (G & g' & K' & R'). eapply Hset; [exact Hi|apply (proj1 K')|exact G|exact K'|exact R'].
  - destruct todo as [|o os]; [exact (conj Hc (conj Ht Hk))|]. apply List.Forall_cons_iff in Hi as [Ho Hos]. eapply Hset; [exact Hos|exact Hc|apply guar2_refl|exact Kg|]. apply rq_mop; [exact Rg|exact Ho].
Qed.
Lemma conc2 n sched y : sys2 y -> sys2 (mconc C n sched y).
Proof. revert y. induction sched as [|i l IH]; intros y H; [exact H|]. cbn. apply IH, step2, H. Qed.
Lemma start2 todos : 0 < m_size C -> Forall (Forall op_fits) todos -> sys2 (mstart mw_init todos).
Proof.
  intros Hsz H. assert (Hc : cells mw_init).
  { assert (HP : 0 < P) by (apply N.neq_0_lt_0, N.pow_nonzero; discriminate). assert (HS : 0 < 2 ^ seqSize P) by (apply N.neq_0_lt_0, N.pow_nonzero; discriminate).
    intros l. destruct l as [| | |t i []| |t []| |]; cbn; try exact I; try exact HV0; try assumption; [|lia|split; [exact HS|reflexivity]]. apply V_ref_ok, HV0. }
  split; [exact Hc|]. split.
  - intros i th Hth. cbn [mstart ms_thr] in Hth. rewrite list_lookup_fmap in Hth. destruct (todos !! i) as [os|] eqn:E; [|discriminate]. injection Hth as <-. cbn.
    rewrite List.Forall_forall in H. apply H. apply elem_of_list_In. eapply elem_of_list_lookup_2, E.
  - intros t. exists (mkG None 0 0 false). split; [|].
    + split; [split; [exact Hc|split; [reflexivity|discriminate]]|]. split; [reflexivity|]. split; [reflexivity|]. cbn. intros j [Hj _]. rewrite isMarked_rdcss in Hj. discriminate.
    + unfold running. cbn [mstart ms_thr]. rewrite list_lookup_fmap. destruct (todos !! N.to_nat t); split; reflexivity.
Qed.
Lemma sys2_helpable y : sys2 y -> helpable C (ms_mem y).
Proof.
  intros (Hc & _ & Hk). set (m := ms_mem y) in *. split; [intros t _; exact (Hc (LWWord t WOff))|]. intros j Hj Hm.
  set (t := d_tid (desc_decode P (contents m j))). assert (Hmine : mine t (m (LArr j))) by (apply mine_clean; split; [exact Hm|reflexivity]).
  exists t. destruct (Hk t) as (g & (_ & K2 & K3 & K4) & _). destruct (g_in g) as [b|]; [|destruct (K4 j Hmine)]. destruct K4 as (A & B & D). destruct (D j Hmine) as (-> & E & _).
  pose proof (Hc (LWWord t WOld)) as Ho. split; [|apply V_unmarked, Ho]. split; [|split; [exact K3|]].
  - split; [exact A|rewrite K2; exact B|rewrite K3; exact Hj|exact (Hc (LWTid t))|exact (proj1 (Hc (LWSeq t)))|]. apply mval_clean, HV, Ho.
  - rewrite K2. exact E.
Qed.
End Inv.

Lemma always2 C n todos sched : mcfg_ok C -> 0 < m_size C -> (forall v, client_value todos v -> mval v) -> Forall (Forall (legal_mop C)) todos ->
  sys2 C (client_value todos) (mafter C n mw_init todos sched).
Proof.
  intros HC Hsz Hv Hl. apply conc2; [exact HC|exact Hv|]. apply start2; [left; reflexivity|exact Hv|exact Hsz|].
  rewrite List.Forall_forall. intros os Hos. rewrite List.Forall_forall. intros o Ho. split.
  - intros v Hval. right. exists os, o. rewrite !elem_of_list_In. auto.
  - rewrite List.Forall_forall in Hl. specialize (Hl os Hos). rewrite List.Forall_forall in Hl. exact (Hl o Ho).
Qed.
Lemma always_helpable C n todos sched : mcfg_ok C -> 0 < m_size C -> (forall v, client_value todos v -> mval v) -> Forall (Forall (legal_mop C)) todos ->
  helpable C (ms_mem (mafter C n mw_init todos sched)).
Proof. intros HC Hsz Hv Hl. apply (sys2_helpable C (client_value todos) Hv). apply always2; assumption. Qed.
Lemma mconc_length C n sched y : length (ms_thr (mconc C n sched y)) = length (ms_thr y).
Proof.
  revert y. induction sched as [|i l IH]; intros y; [reflexivity|]. cbn [mconc]. rewrite IH. unfold mtstep.
  destruct (ms_thr y !! i) as [[cur todo]|]; [|reflexivity]. cbn [mt_cur mt_todo]. destruct cur as [[o [r|e|c k]]|].
  - cbn. apply insert_length.
  - reflexivity.
  - destruct (mexec c (ms_mem y)) as [r m']. cbn. apply insert_length.
  - destruct todo; [reflexivity|]. cbn. apply insert_length.
Qed.
(** No thread gets stuck but by the bound on the loops. *)
Lemma always_running C n todos sched : mcfg_ok C -> 0 < m_size C -> (forall v, client_value todos v -> mval v) -> Forall (Forall (legal_mop C)) todos ->
  N.of_nat (length todos) <= 2 ^ m_log C ->
  forall i o e os, ms_thr (mafter C n mw_init todos sched) !! i = Some (mkMthread (Some (o, MErr e)) os) -> e = MOutOfFuel.
Proof.
  intros HC Hsz Hv Hl Hlen i o e os Hi. destruct (always2 C n todos sched HC Hsz Hv Hl) as (_ & _ & Hk). destruct (Hk (N.of_nat i)) as (g & _ & Hr).
  unfold running in Hr. rewrite Nat2N.id, Hi in Hr. apply Hr. apply lookup_lt_Some in Hi. unfold mafter in Hi. rewrite mconc_length in Hi. unfold mstart in Hi. cbn [ms_thr] in Hi. rewrite map_length in Hi. lia.
Qed.
Lemma always_in_range C n todos sched : mcfg_ok C -> 0 < m_size C -> (forall v, client_value todos v -> mval v) -> Forall (Forall (legal_mop C)) todos ->
  forall i o c k os, ms_thr (mafter C n mw_init todos sched) !! i = Some (mkMthread (Some (o, MVis c k)) os) -> in_range C (accesses c).
Proof.
  intros HC Hsz Hv Hl i o c k os Hi. destruct (always2 C n todos sched HC Hsz Hv Hl) as (_ & _ & Hk). destruct (Hk (N.of_nat i)) as (g & _ & Hr).
  unfold running in Hr. rewrite Nat2N.id, Hi in Hr. apply Hr.
Qed.
