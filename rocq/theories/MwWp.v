(** Reasoning about the programs of MwCas.v that run undisturbed in a part of the memory. *)
From Coq Require Import NArith Bool List Lia.
From stdpp Require Import base list.
From Verif Require Import Word Bits Codec CodecSpec CodecThm MwCas MwSpec.
Import ListNotations.
Local Open Scope N_scope.
Local Transparent dirty setMark isMarked.

(** ** Words *)

Lemma dirty_add x : isMarked x DirtyFlag = false -> dirty x = x + 1.
Proof.
  intros H. rewrite isMarked_dirty in H. unfold dirty, setMark, DirtyFlag.
  assert (E : N.land x 1 = 0).
  { apply N.bits_inj. intros n. rewrite N.land_spec, N.bits_0, testbit_1. destruct (N.eqb_spec n 0); subst; rewrite ?H, ?andb_false_r; reflexivity. }
  rewrite N.add_nocarry_lxor by exact E. symmetry. apply N.lxor_lor. exact E.
Qed.
Lemma isMarked_kcas w : isMarked w PMwCASFlag = N.testbit w 1.
Proof. unfold isMarked. change PMwCASFlag with (2 ^ 1). apply land_pow2. Qed.
Lemma isMarked_rdcss w : isMarked w RDCSSFlag = N.testbit w 2.
Proof. unfold isMarked. change RDCSSFlag with (2 ^ 2). apply land_pow2. Qed.

Local Opaque dirty setMark isMarked.

Lemma mval_clean v : mval v -> clean v = v.
Proof. intros (_ & H & _). apply clean_id. unfold isclean. rewrite isMarked_dirty. exact H. Qed.

Lemma decode_dirty P w : d_isDirty (desc_decode P w) = N.testbit w 0.
Proof. apply field_bit. Qed.
Lemma decode_kcas P w : d_isKCAS (desc_decode P w) = N.testbit w 1.
Proof. apply field_bit. Qed.
Lemma decode_rdcss P w : d_isRDCSS (desc_decode P w) = N.testbit w 2.
Proof. apply field_bit. Qed.

Definition kdesc (s t : N) : descref := mkDesc false true false s t.
Definition wdesc (s t : N) : descref := mkDesc false false true s t.
Definition kenc (st s : N) : N := kmut_encode (mkKmut false st s).
Definition wenc (s : N) : N := wmut_encode (mkWmut false s).

Lemma kenc_facts st s : st < 4 -> s < 2 ^ 61 ->
  kmut_decode (kenc st s) = mkKmut false st s /\ clean (kenc st s) = kenc st s /\ kmut_encode (mkKmut true st s) = dirty (kenc st s).
Proof.
  intros H H'. destruct (kmut_roundtrip (mkKmut false st s)) as (H1 & _ & H3); [exact H'|exact H|].
  assert (Hc : isMarked (kenc st s) DirtyFlag = false) by exact H3.
  split; [exact H1|]. split; [apply clean_id; exact Hc|]. rewrite dirty_add by exact Hc. unfold kenc, kmut_encode.
  cbn [km_isDirty km_status km_seq N.b2n]. change (2 ^ 61) with 2305843009213693952 in *.
  rewrite !shl64_small; change (2 ^ (2 + 1)) with 8; change (2 ^ 1) with 2; unfold add64; change two64 with 18446744073709551616; try lia.
  rewrite (N.mod_small (s * 8 + st * 2)) by lia. rewrite !N.mod_small by lia. lia.
Qed.
Lemma wenc_facts s : s < 2 ^ 63 ->
  wmut_decode (wenc s) = mkWmut false s /\ clean (wenc s) = wenc s /\ wmut_encode (mkWmut true s) = dirty (wenc s).
Proof.
  intros H'. destruct (wmut_roundtrip (mkWmut false s)) as (H1 & _ & H3); [exact H'|].
  assert (Hc : isMarked (wenc s) DirtyFlag = false) by exact H3.
  split; [exact H1|]. split; [apply clean_id; exact Hc|]. rewrite dirty_add by exact Hc. unfold wenc, wmut_encode.
  cbn [wm_isDirty wm_seq N.b2n]. change (2 ^ 63) with 9223372036854775808 in *.
  rewrite !shl64_small; change (2 ^ 1) with 2; unfold add64; change two64 with 18446744073709551616; try lia.
  rewrite !N.mod_small by lia. lia.
Qed.

Lemma kref_facts p s t : p <= 16 -> s < 2 ^ seqSize (2 ^ p) -> t < 2 ^ p ->
  desc_decode (2 ^ p) (desc_encode (2 ^ p) (kdesc s t)) = kdesc s t /\
  N.testbit (desc_encode (2 ^ p) (kdesc s t)) 0 = false /\ N.testbit (desc_encode (2 ^ p) (kdesc s t)) 1 = true /\
  N.testbit (desc_encode (2 ^ p) (kdesc s t)) 2 = false /\ clean (desc_encode (2 ^ p) (kdesc s t)) = desc_encode (2 ^ p) (kdesc s t).
Proof.
  intros Hp Hs Ht. assert (Hf : desc_fits (2 ^ p) (kdesc s t)) by (split; [exact Hs|apply tidSize_fits; exact Ht]).
  destruct (desc_flags p _ Hp Hf) as (H0 & H1 & H2).
  change DirtyFlag with (2 ^ 0) in H0. change PMwCASFlag with (2 ^ 1) in H1. change RDCSSFlag with (2 ^ 2) in H2. rewrite land_pow2 in *.
  split; [apply desc_roundtrip; assumption|]. repeat split; try assumption. apply clean_id. unfold isclean. rewrite isMarked_dirty. exact H0.
Qed.
Lemma wref_facts p s t : p <= 16 -> s < 2 ^ seqSize (2 ^ p) -> t < 2 ^ p ->
  desc_decode (2 ^ p) (desc_encode (2 ^ p) (wdesc s t)) = wdesc s t /\
  N.testbit (desc_encode (2 ^ p) (wdesc s t)) 0 = false /\ N.testbit (desc_encode (2 ^ p) (wdesc s t)) 1 = false /\
  N.testbit (desc_encode (2 ^ p) (wdesc s t)) 2 = true /\ clean (desc_encode (2 ^ p) (wdesc s t)) = desc_encode (2 ^ p) (wdesc s t).
Proof.
  intros Hp Hs Ht. assert (Hf : desc_fits (2 ^ p) (wdesc s t)) by (split; [exact Hs|apply tidSize_fits; exact Ht]).
  destruct (desc_flags p _ Hp Hf) as (H0 & H1 & H2).
  change DirtyFlag with (2 ^ 0) in H0. change PMwCASFlag with (2 ^ 1) in H1. change RDCSSFlag with (2 ^ 2) in H2. rewrite land_pow2 in *.
  split; [apply desc_roundtrip; assumption|]. repeat split; try assumption. apply clean_id. unfold isclean. rewrite isMarked_dirty. exact H0.
Qed.

Lemma seqSize_le p : p <= 16 -> 45 <= seqSize (2 ^ p) <= 60.
Proof. intros H. pose proof (tidSize_range p H). unfold seqSize. lia. Qed.
Lemma seq_61 p s : p <= 16 -> s < 2 ^ seqSize (2 ^ p) -> s < 2 ^ 61.
Proof. intros H Hs. eapply N.lt_le_trans; [exact Hs|]. apply N.pow_le_mono_r; [discriminate|]. pose proof (seqSize_le p H). lia. Qed.
Lemma seq_63 p s : p <= 16 -> s < 2 ^ seqSize (2 ^ p) -> s < 2 ^ 63.
Proof. intros H Hs. eapply N.lt_le_trans; [exact Hs|]. apply N.pow_le_mono_r; [discriminate|]. pose proof (seqSize_le p H). lia. Qed.

(** ** Memory *)

Lemma upd_same m l v : upd m l v l = v.
Proof. unfold upd. rewrite decide_True by reflexivity. reflexivity. Qed.
Lemma upd_other m l v l' : l' <> l -> upd m l v l' = m l'.
Proof. intros H. unfold upd. rewrite decide_False by exact H. reflexivity. Qed.

(** ** Programs that access only [fp] *)

Definition cmd_loc (c : mcmd) : loc := match c with MLoad l | MStore l _ | MCas l _ _ => l end.

Section Wp.
Context (fp : loc -> Prop).

Fixpoint mwp {A : Type} (p : mprog A) (Q : A -> mem -> Prop) (m : mem) : Prop :=
  match p with
  | MRet a => Q a m
  | MErr _ => False
  | MVis c k => fp (cmd_loc c) /\ let (r, m') := mexec c m in mwp (k r) Q m'
  end.

Lemma mwp_bind {A B} (p : mprog A) (f : A -> mprog B) Q m : mwp p (fun a m' => mwp (f a) Q m') m -> mwp (mbind p f) Q m.
Proof.
  revert m. induction p as [a|e|c k IH]; intros m; cbn; [auto|auto|]. intros [Hf H]. split; [exact Hf|].
  destruct (mexec c m) as [r m']. apply IH. exact H.
Qed.
Lemma mwp_mono {A} (p : mprog A) (Q Q' : A -> mem -> Prop) m : mwp p Q m -> (forall a m', Q a m' -> Q' a m') -> mwp p Q' m.
Proof.
  revert m. induction p as [a|e|c k IH]; intros m; cbn; [auto|auto|]. intros [Hf H] HQ. split; [exact Hf|].
  destruct (mexec c m) as [r m']. apply IH; assumption.
Qed.
Lemma mwp_run {A} (p : mprog A) Q m : mwp p Q m -> exists a m', mrun p m = MOk a m' /\ Q a m'.
Proof.
  revert m. induction p as [a|e|c k IH]; intros m; cbn; [eauto|contradiction|]. intros [_ H].
  destruct (mexec c m) as [r m']. apply IH. exact H.
Qed.

(** Memory outside [fp] does not matter and is not changed. *)
Definition agree (m m' : mem) : Prop := forall l, fp l -> m l = m' l.
Lemma mexec_agree c m m' : agree m m' -> fp (cmd_loc c) ->
  fst (mexec c m) = fst (mexec c m') /\ agree (snd (mexec c m)) (snd (mexec c m')).
Proof.
  intros H Hf. assert (Hu : forall l v, agree (upd m l v) (upd m' l v)).
  { intros l v l' Hl'. unfold upd. destruct (decide (l' = l)); [reflexivity|]. apply H. exact Hl'. }
  destruct c as [l|l v|l e n]; cbn in *.
  - split; [apply H; exact Hf|exact H].
  - split; [reflexivity|apply Hu].
  - rewrite <- (H l Hf). destruct (m l =? e); cbn; split; auto.
Qed.
Lemma mwp_agree {A} (p : mprog A) (Q : A -> mem -> Prop) m m' : (forall a x y, agree x y -> Q a x -> Q a y) -> agree m m' -> mwp p Q m -> mwp p Q m'.
Proof.
  intros HQ. revert m m'. induction p as [a|e|c k IH]; intros m m' Ha; cbn; [apply HQ; exact Ha|auto|]. intros [Hf H]. split; [exact Hf|].
  destruct (mexec_agree c m m' Ha Hf) as [E1 E2]. destruct (mexec c m) as [r x]. destruct (mexec c m') as [r' y]. cbn in E1, E2. subst r'.
  eapply IH; [exact E2|exact H].
Qed.

(** What a program may have changed. *)
Definition only (S : loc -> Prop) (m m' : mem) : Prop := forall l, ~ S l -> m' l = m l.
Lemma mexec_only c m : only (eq (cmd_loc c)) m (snd (mexec c m)).
Proof.
  intros l Hl. destruct c as [x|x v|x e v]; cbn in *; [reflexivity|apply upd_other; congruence|].
  destruct (m x =? e); cbn; [apply upd_other; congruence|reflexivity].
Qed.
Lemma mwp_only {A} (p : mprog A) (Q : A -> mem -> Prop) m : mwp p Q m -> mwp p (fun a m' => Q a m' /\ only fp m m') m.
Proof.
  revert m. induction p as [a|e|c k IH]; intros m; cbn; [intros H; split; [exact H|intros l _; reflexivity]|auto|]. intros [Hf H]. split; [exact Hf|].
  pose proof (mexec_only c m) as Ho. destruct (mexec c m) as [r m']. cbn in Ho. eapply mwp_mono; [apply IH, H|]. intros a m2 [HQ H2]. split; [exact HQ|].
  intros l Hl. rewrite H2 by exact Hl. apply Ho. intros <-. contradiction.
Qed.

Lemma mwp_load l (Q : N -> mem -> Prop) (m : mem) : fp l -> Q (m l) m -> mwp (mdo (MLoad l)) Q m.
Proof. cbn. auto. Qed.
Lemma mwp_store l v (Q : unit -> mem -> Prop) (m : mem) : fp l -> Q tt (upd m l v) -> mwp (mdo (MStore l v)) Q m.
Proof. cbn. auto. Qed.
Lemma mwp_cas l e n (Q : bool * N -> mem -> Prop) (m : mem) : fp l -> (if m l =? e then Q (true, m l) (upd m l n) else Q (false, m l) m) -> mwp (mdo (MCas l e n)) Q m.
Proof. intros Hf H. cbn. split; [exact Hf|]. destruct (m l =? e); exact H. Qed.

Lemma only_refl S m : only S m m.
Proof. intros l _. reflexivity. Qed.
Lemma only_trans S m1 m2 m3 : only S m1 m2 -> only S m2 m3 -> only S m1 m3.
Proof. intros H1 H2 l Hl. rewrite H2, H1 by exact Hl. reflexivity. Qed.
Lemma only_weaken (S S' : loc -> Prop) m m' : (forall l, S l -> S' l) -> only S m m' -> only S' m m'.
Proof. intros H Ho l Hl. apply Ho. intros Hi. apply Hl, H, Hi. Qed.
Lemma only_upd (S : loc -> Prop) l v m : S l -> only S m (upd m l v).
Proof. intros H l' Hl'. apply upd_other. intros ->. contradiction. Qed.

Lemma mwp_persist l v (Q : unit -> mem -> Prop) (m : mem) : fp l ->
  (forall m', only (eq l) m m' -> m' l = (if m l =? v then clean v else m l) -> Q tt m') -> mwp (m_persist l v) Q m.
Proof.
  intros Hf H. unfold m_persist. apply mwp_bind, mwp_cas; [exact Hf|]. cbn. destruct (m l =? v) eqn:E.
  - apply H; [apply only_upd; reflexivity|apply upd_same].
  - apply H; [apply only_refl|reflexivity].
Qed.
Lemma mwp_read l (Q : N -> mem -> Prop) (m : mem) : fp l -> (forall m', only (eq l) m m' -> m' l = clean (m l) -> Q (clean (m l)) m') -> mwp (m_read l) Q m.
Proof.
  intros Hf H. unfold m_read. apply mwp_bind, mwp_load; [exact Hf|]. apply mwp_bind. destruct (isMarked (m l) DirtyFlag) eqn:E.
  - apply mwp_persist; [exact Hf|]. intros m' Ho Hm. cbn. apply H; [exact Ho|]. rewrite Hm, N.eqb_refl. reflexivity.
  - cbn. apply H; [apply only_refl|]. symmetry. apply clean_id. exact E.
Qed.

Context (C : mcfg).
Lemma mwp_assert (b : bool) (Q : unit -> mem -> Prop) (m : mem) : b = true -> Q tt m -> mwp (massert C b) Q m.
Proof. intros -> H. exact H. Qed.
Lemma mwp_pcas l e n (Q : bool * N -> mem -> Prop) (m : mem) : fp l ->
  (forall m', only (eq l) m m' ->
     if clean (m l) =? e then m' l = dirty n -> Q (true, e) m' else m' l = clean (m l) -> Q (false, clean (m l)) m') ->
  mwp (m_pcas C l e n) Q m.
Proof.
  intros Hf H. unfold m_pcas. apply mwp_bind, mwp_read; [exact Hf|]. intros m1 Ho Hm. apply mwp_bind, mwp_cas; [exact Hf|]. rewrite Hm.
  destruct (clean (m l) =? e) eqn:E.
  - apply N.eqb_eq in E. apply mwp_bind, mwp_assert; [cbn; rewrite N.eqb_refl; reflexivity|]. cbn.
    specialize (H (upd m1 l (dirty n))). apply H; [|apply upd_same].
    eapply only_trans; [exact Ho|apply only_upd; reflexivity].
  - apply mwp_bind, mwp_assert. { cbn. rewrite N.eqb_sym, E. reflexivity. } cbn. apply H; [exact Ho|exact Hm].
Qed.
End Wp.
