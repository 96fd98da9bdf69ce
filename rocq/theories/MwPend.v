(** Executions in which no call of the multi-word compare-and-swap has been decided: by rely and guarantee. *)
From Coq Require Import NArith Bool List Lia Sorted Permutation.
From stdpp Require Import base list.
From Verif Require Import Word Bits Codec CodecSpec CodecThm MwCas MwSpec MwWp MwSeq MwRely MwRecover MwHelpSpec MwHelp MwCallSpec MwCall MwAloneSpec MwAlone MwConflict MwWitness MwPendSpec.
Import ListNotations.
Local Open Scope N_scope.
Local Opaque isMarked dirty clean.

Lemma same_nth {A} (l : list A) : forall l', (forall i, nth_error l i = nth_error l' i) -> l = l'.
Proof.
  induction l as [|x l IH]; intros [|y l'] H; [reflexivity|discriminate (H 0%nat)|discriminate (H 0%nat)|].
  pose proof (H 0%nat) as E. injection E as ->. f_equal. apply IH. intros i. exact (H (S i)).
Qed.
Section Pend.
Context (C : mcfg) (HC : mcfg_ok C) (m0 : mem) (H0 : at_rest C m0) (asked : N -> list mword -> Prop).
Local Notation P := (2 ^ m_log C)%N.
Local Notation B := (2 ^ seqSize P)%N.

Definition num (u : N) : N := kseq m0 u + 2.
Definition KW (u : N) : N := as_word C (call_ref (num u) u).
Definition WW (s t : N) : N := as_word C (word_ref s t).
Definition off (m : mem) (u : N) (i : nat) : N := m (LKWord u i WOff).
Definition cnt (m : mem) (u : N) : nat := N.to_nat (m (LKCount u)).
Definition called (m : mem) (u : N) : Prop := u < P /\ kseq m u = num u.

Lemma num_B u : u < P -> num u < B.
Proof. apply (ar_call _ _ H0). Qed.
Lemma KW_facts u : u < P -> clean (KW u) = KW u /\ N.testbit (KW u) 1 = true /\ N.testbit (KW u) 2 = false /\ desc_decode P (KW u) = call_ref (num u) u.
Proof. intros Hu. apply K_facts; [exact HC|exact Hu|apply num_B, Hu]. Qed.
Lemma WW_facts s t : s < B -> t < P -> clean (WW s t) = WW s t /\ N.testbit (WW s t) 1 = false /\ N.testbit (WW s t) 2 = true /\ desc_decode P (WW s t) = word_ref s t.
Proof. intros Hs Ht. destruct (wref_facts _ s t HC Hs Ht) as (R1 & R2 & R3 & R4 & R5). repeat split; assumption. Qed.
Lemma KW_inj u v : u < P -> v < P -> KW u = KW v -> u = v.
Proof. intros Hu Hv E. destruct (KW_facts u Hu) as (_ & _ & _ & D). destruct (KW_facts v Hv) as (_ & _ & _ & D'). rewrite E, D' in D. injection D. congruence. Qed.
Lemma WW_inj s t s' t' : s < B -> t < P -> s' < B -> t' < P -> WW s t = WW s' t' -> s = s' /\ t = t'.
Proof. intros Hs Ht Hs' Ht' E. destruct (WW_facts s t Hs Ht) as (_ & _ & _ & D). destruct (WW_facts s' t' Hs' Ht') as (_ & _ & _ & D'). rewrite E, D' in D. injection D. intros. split; congruence. Qed.
Lemma KW_WW u s t : u < P -> s < B -> t < P -> KW u <> WW s t.
Proof. intros Hu Hs Ht E. destruct (KW_facts u Hu) as (_ & D & _). destruct (WW_facts s t Hs Ht) as (_ & D' & _). congruence. Qed.
Lemma KW_val u v : u < P -> mval v -> v <> KW u.
Proof. intros Hu (_ & _ & V & _) ->. destruct (KW_facts u Hu) as (_ & D & _). congruence. Qed.
Lemma WW_val s t v : s < B -> t < P -> mval v -> v <> WW s t.
Proof. intros Hs Ht (_ & _ & _ & V) ->. destruct (WW_facts s t Hs Ht) as (_ & _ & D & _). congruence. Qed.

(** ** The invariant *)

(** The word descriptor of [t] describes the word [i] of the call of [u]. *)
Record describes (m : mem) (t u : N) (i : nat) : Prop := {
  de_ok : word_ok C m t;
  de_called : called m u;
  de_i : (i < cnt m u)%nat;
  de_tid : m (LWTid t) = u;
  de_seq : m (LWSeq t) = num u;
  de_off : m (LWWord t WOff) = off m u i;
  de_old : m (LWWord t WOld) = m (LKWord u i WOld);
}.
Definition half (m : mem) (j t u : N) (i : nat) : Prop := contents m j = WW (wseq m t) t /\ N.even (wseq m t) = true /\ describes m t u i.
Definition refd (m : mem) (j u : N) (i : nat) : Prop := contents m j = KW u \/ exists t, half m j t u i.
Record Inv (m : mem) : Prop := {
  i_call : forall u, called m u -> clean (m (LK u)) = kenc Undecided (num u) /\ (forall i k, (i < k < cnt m u)%nat -> off m u i < off m u k) /\
    forall i, (i < cnt m u)%nat -> off m u i < m_size C /\ mval (m (LKWord u i WOld)) /\ mval (m (LKWord u i WNew));
  i_arr : forall j, contents m j = contents m0 j \/
    exists u i, called m u /\ (i < cnt m u)%nat /\ off m u i = j /\ m (LKWord u i WOld) = contents m0 j /\ refd m j u i;
  i_pre : forall u i k, called m u -> (i < k < cnt m u)%nat -> refd m (off m u k) u k -> contents m (off m u i) = KW u;
  i_range : forall t, t < P -> m (LWTid t) < P /\ m (LWWord t WOff) < m_size C;
  i_asked : forall u, called m u -> asked u (c_ws (call_of m u));
}.
Definition Good (m : mem) : Prop := Inv m /\ none_decided C m0 m.

Lemma off_inj m u i k : Inv m -> called m u -> (i < cnt m u)%nat -> (k < cnt m u)%nat -> off m u i = off m u k -> i = k.
Proof.
  intros HI Hu Hi Hk E. destruct (i_call m HI u Hu) as (_ & S & _). destruct (Nat.lt_trichotomy i k) as [L|[L|L]]; [|exact L|].
  - specialize (S i k ltac:(lia)). lia.
  - specialize (S k i ltac:(lia)). lia.
Qed.
Lemma i_K m j u : Inv m -> u < P -> contents m j = KW u -> called m u /\ exists i, (i < cnt m u)%nat /\ off m u i = j /\ m (LKWord u i WOld) = contents m0 j.
Proof.
  intros HI Hu E. destruct (i_arr m HI j) as [V|(v & i & Hv & Hi & Hj & Ho & [Ek|(t & Et & _ & D)])].
  - exfalso. rewrite V in E. exact (KW_val u _ Hu (ar_values _ _ H0 j) E).
  - rewrite E in Ek. apply KW_inj in Ek; [|exact Hu|apply Hv]. subst v. split; [exact Hv|]. exists i. auto.
  - exfalso. destruct (de_ok _ _ _ _ D). rewrite E in Et. apply KW_WW in Et; assumption.
Qed.
Lemma i_W m j s t : Inv m -> s < B -> t < P -> contents m j = WW s t -> s = wseq m t /\ exists u i, half m j t u i /\ off m u i = j /\ m (LKWord u i WOld) = contents m0 j.
Proof.
  intros HI Hs Ht E. destruct (i_arr m HI j) as [V|(v & i & Hv & Hi & Hj & Ho & [Ek|(t' & Et & Ev & D)])].
  - exfalso. rewrite V in E. exact (WW_val s t _ Hs Ht (ar_values _ _ H0 j) E).
  - exfalso. rewrite E in Ek. symmetry in Ek. apply KW_WW in Ek; [exact Ek|apply Hv|exact Hs|exact Ht].
  - pose proof (de_ok _ _ _ _ D) as [W1 W2 _ _ _ _]. pose proof Et as Et'. rewrite E in Et'. apply WW_inj in Et' as [-> ->]; try assumption. split; [reflexivity|].
    exists v, i. split; [split; [exact Et|split; assumption]|]. split; assumption.
Qed.
Lemma i_cases m j : Inv m -> contents m j = contents m0 j \/ (exists u, called m u /\ contents m j = KW u) \/ (exists t u i, half m j t u i /\ off m u i = j).
Proof.
  intros HI. destruct (i_arr m HI j) as [V|(v & i & Hv & Hi & Hj & Ho & [Ek|(t' & Et)])]; [left; exact V|right; left; exists v; split; assumption|right; right; exists t', v, i; split; assumption].
Qed.

(** *** Cells that are the same apart from the dirty bit *)

Definition eqv (m m' : mem) (l : loc) : Prop := clean (m' l) = clean (m l) /\ (~ flagged l -> m' l = m l).
Lemma eqv_refl m l : eqv m m l.
Proof. split; reflexivity. Qed.
Lemma eqv_sym m m' l : eqv m m' l -> eqv m' m l.
Proof. intros [E1 E2]. split; [symmetry; exact E1|]. intros Hl. symmetry. apply E2, Hl. Qed.
Lemma eqv_trans m1 m2 m3 l : eqv m1 m2 l -> eqv m2 m3 l -> eqv m1 m3 l.
Proof. intros [E1 E2] [E3 E4]. split; [congruence|]. intros Hl. rewrite E4, E2 by exact Hl. reflexivity. Qed.
Lemma eqv_kseq m m' u : eqv m m' (LK u) -> kseq m' u = kseq m u.
Proof. intros [E _]. unfold kseq. change (sq (m' (LK u)) = sq (m (LK u))). rewrite <- sq_clean, E, sq_clean. reflexivity. Qed.
Lemma eqv_wseq m m' u : eqv m m' (LW u) -> wseq m' u = wseq m u.
Proof. intros [E _]. unfold wseq. rewrite <- wseq_clean, E, wseq_clean. reflexivity. Qed.
Lemma eqv_contents m m' j : eqv m m' (LArr j) -> contents m' j = contents m j.
Proof. intros [E _]. exact E. Qed.
Lemma eqv_plain m m' l : eqv m m' l -> ~ flagged l -> m' l = m l.
Proof. intros [_ E]. exact E. Qed.
Lemma eqv_upd m l v l' : l' <> l -> eqv m (upd m l v) l'.
Proof. intros Hn. split; rewrite upd_other by exact Hn; reflexivity. Qed.
Lemma eqv_cleaned X m m' l : cleaned_but X m m' -> ~ X l -> eqv m m' l.
Proof.
  intros H Hl. split; [apply (cb_clean _ _ _ H), Hl|]. intros Hf. apply (cb_plain _ _ _ H); [exact Hl|]. destruct l; try exact Logic.I; apply Hf; exact Logic.I.
Qed.
Lemma off_eqv m m' u i : eqv m m' (LKWord u i WOff) -> off m' u i = off m u i.
Proof. intros E. apply (eqv_plain _ _ _ E). exact (fun x => x). Qed.

(** The call of [u] is the same. *)
Definition keqv (m m' : mem) (u : N) : Prop := forall l, kset u l -> eqv m m' l.
Definition weqv (m m' : mem) (t : N) : Prop := forall l, wset t l -> eqv m m' l.
Lemma keqv_sym m m' u : keqv m m' u -> keqv m' m u.
Proof. intros H l Hl. apply eqv_sym, H, Hl. Qed.
Lemma weqv_sym m m' u : weqv m m' u -> weqv m' m u.
Proof. intros H l Hl. apply eqv_sym, H, Hl. Qed.
Lemma k_off m m' u i : keqv m m' u -> off m' u i = off m u i.
Proof. intros H. apply off_eqv, H. reflexivity. Qed.
Lemma k_fld m m' u i f : keqv m m' u -> m' (LKWord u i f) = m (LKWord u i f).
Proof. intros H. apply (eqv_plain _ _ _ (H (LKWord u i f) eq_refl)). exact (fun x => x). Qed.
Lemma k_cnt m m' u : keqv m m' u -> cnt m' u = cnt m u.
Proof. intros H. unfold cnt. rewrite (eqv_plain _ _ _ (H (LKCount u) eq_refl)); [reflexivity|exact (fun x => x)]. Qed.
Lemma k_words m m' u : keqv m m' u -> c_ws (call_of m' u) = c_ws (call_of m u).
Proof.
  intros K. unfold call_of. cbn [c_ws]. rewrite (proj2 (K (LKCount u) eq_refl)) by exact (fun x => x). apply map_ext. intros i. rewrite !(k_fld m m' u i _ K). reflexivity.
Qed.
Lemma k_called m m' u : keqv m m' u -> called m u -> called m' u.
Proof. intros H [H1 H2]. split; [exact H1|]. rewrite (eqv_kseq m m'); [exact H2|apply H; reflexivity]. Qed.
Lemma w_fld m m' t l : weqv m m' t -> wset t l -> l <> LW t -> m' l = m l.
Proof. intros H Hl Hn. apply (eqv_plain _ _ _ (H l Hl)). destruct l; try exact (fun x => x); cbn in Hl; subst; contradiction. Qed.
Lemma w_seq m m' t : weqv m m' t -> wseq m' t = wseq m t.
Proof. intros H. apply eqv_wseq, H. reflexivity. Qed.
Lemma describes_eqv m m' t u i : keqv m m' u -> weqv m m' t -> describes m t u i -> describes m' t u i.
Proof.
  intros Hk Hw [[W1 W2 W3 W4 W5 W6] D2 D3 D4 D5 D6 D7].
  assert (E : forall l, wset t l -> l <> LW t -> m' l = m l) by (intros l; apply w_fld, Hw).
  split; rewrite ?E by (reflexivity || discriminate); rewrite ?(k_off m m' u i Hk), ?(k_fld m m' u i _ Hk), ?(k_cnt m m' u Hk); try assumption; [|eapply k_called; eassumption].
  split; rewrite ?E, ?(w_seq m m' t Hw) by (reflexivity || discriminate); assumption.
Qed.
Lemma half_eqv m m' j t u i : keqv m m' u -> weqv m m' t -> contents m' j = contents m j -> half m j t u i -> half m' j t u i.
Proof. intros Hk Hw Hc (E1 & E2 & D). split; [rewrite Hc, (w_seq m m' t Hw); exact E1|]. split; [rewrite (w_seq m m' t Hw); exact E2|eapply describes_eqv; eassumption]. Qed.
Lemma call_eqv m m' u : keqv m m' u -> 
  (clean (m (LK u)) = kenc Undecided (num u) /\ (forall i k, (i < k < cnt m u)%nat -> off m u i < off m u k) /\
    forall i, (i < cnt m u)%nat -> off m u i < m_size C /\ mval (m (LKWord u i WOld)) /\ mval (m (LKWord u i WNew))) ->
  (clean (m' (LK u)) = kenc Undecided (num u) /\ (forall i k, (i < k < cnt m' u)%nat -> off m' u i < off m' u k) /\
    forall i, (i < cnt m' u)%nat -> off m' u i < m_size C /\ mval (m' (LKWord u i WOld)) /\ mval (m' (LKWord u i WNew))).
Proof.
  intros Hk (E1 & E2 & E3). rewrite (k_cnt m m' u Hk). split; [rewrite (proj1 (Hk (LK u) eq_refl)); exact E1|]. split.
  - intros i k. rewrite !(k_off m m' u _ Hk). apply E2.
  - intros i Hi. rewrite (k_off m m' u _ Hk), !(k_fld m m' u _ _ Hk). apply E3, Hi.
Qed.
(** A step that concerns neither the calls that have been made nor the word descriptors that are referred to. *)
Lemma inv_frame m m' : Inv m -> (forall j, contents m' j = contents m j) -> (forall u, called m' u <-> called m u) -> (forall u, called m u -> keqv m m' u) ->
  (forall t j u i, half m j t u i -> weqv m m' t) -> (forall t j u i, half m' j t u i -> weqv m m' t) ->
  (forall t, t < P -> m' (LWTid t) < P /\ m' (LWWord t WOff) < m_size C) -> Inv m'.
Proof.
  intros HI Hc Hcal Hk Hw Hw' Hr'. split; [| | |exact Hr'|intros u Hu; apply Hcal in Hu; rewrite (k_words m m' u (Hk u Hu)); apply (i_asked m HI u Hu)].
  - intros u Hu. apply Hcal in Hu. apply (call_eqv m m'); [apply Hk, Hu|apply (i_call m HI), Hu].
  - intros j. destruct (i_arr m HI j) as [V|(u & i & Hu & Hi & Hj & Ho & Hr)]; [left; rewrite Hc; exact V|right]. exists u, i. pose proof (Hk u Hu) as K.
    rewrite (k_cnt m m' u K), (k_off m m' u i K), (k_fld m m' u i _ K). split; [apply Hcal, Hu|]. do 3 (split; [assumption|]).
    destruct Hr as [Hr|(t & Ht)]; [left; rewrite Hc; exact Hr|right; exists t]. eapply half_eqv; [exact K|eapply Hw, Ht|apply Hc|exact Ht].
  - intros u i k Hu Hik Hr. apply Hcal in Hu. pose proof (Hk u Hu) as K. rewrite (k_cnt m m' u K) in Hik. rewrite !(k_off m m' u _ K) in *. rewrite Hc. apply (i_pre m HI u i k Hu Hik).
    destruct Hr as [Hr|(t & Ht)]; [left; rewrite <- Hc; exact Hr|right; exists t]. eapply half_eqv; [apply keqv_sym, K|apply weqv_sym; eapply Hw'; exact Ht|symmetry; apply Hc|exact Ht].
Qed.

(** ** The steps *)

Definition clear (t : N) (m : mem) : Prop := forall j s, s < B -> contents m j <> WW s t.
Definition words_good (m : mem) (u : N) : Prop := (forall i k, (i < k < cnt m u)%nat -> off m u i < off m u k) /\
    (forall i, (i < cnt m u)%nat -> off m u i < m_size C /\ mval (m (LKWord u i WOld)) /\ mval (m (LKWord u i WNew))) /\ asked u (c_ws (call_of m u)).
Inductive step (t : N) (m : mem) : mem -> Prop :=
| S_clean m' : cleaned m m' -> step t m m'
| S_plain l v : kset t l -> l <> LK t -> ~ called m t -> step t m (upd m l v)
| S_open v : ~ called m t -> sq v <> num t -> step t m (upd m (LK t) v)
| S_call v : ~ called m t -> clean v = kenc Undecided (num t) -> words_good m t -> step t m (upd m (LK t) v)
| S_word l v : wset t l -> clear t m -> (l <> LW t -> N.even (wseq m t) = false) -> (l = LW t -> wm_seq (wmut_decode v) = wseq m t + 1) ->
    (l = LWTid t -> v < P) -> (l = LWWord t WOff -> v < m_size C) -> step t m (upd m l v)
| S_inst j u i : contents m j = contents m0 j -> N.even (wseq m t) = true -> describes m t u i -> off m u i = j -> contents m0 j = m (LKWord u i WOld) ->
    (forall k, (k < i)%nat -> contents m (off m u k) = KW u) -> step t m (upd m (LArr j) (dirty (WW (wseq m t) t)))
| S_comp j t' u i : half m j t' u i -> off m u i = j -> step t m (upd m (LArr j) (dirty (KW u))).

Lemma arr_k u j : ~ kset u (LArr j). Proof. exact (fun x => x). Qed.
Lemma upd_keqv m l v u : ~ kset u l -> keqv m (upd m l v) u.
Proof. intros Hl l' Hl'. apply eqv_upd. intros ->. contradiction. Qed.
Lemma upd_weqv m l v u : ~ wset u l -> weqv m (upd m l v) u.
Proof. intros Hl l' Hl'. apply eqv_upd. intros ->. contradiction. Qed.
Lemma upd_contents m l v j : l <> LArr j -> contents (upd m l v) j = contents m j.
Proof. intros Hl. unfold contents. rewrite upd_other by congruence. reflexivity. Qed.
Lemma kset_fun t u l : kset t l -> kset u l -> t = u.
Proof. destruct l; cbn; try tauto; congruence. Qed.
Lemma wset_fun t u l : wset t l -> wset u l -> t = u.
Proof. destruct l; cbn; try tauto; congruence. Qed.
Lemma k_not_w t u l : kset t l -> ~ wset u l.
Proof. destruct l; cbn; tauto. Qed.
Lemma upd_called m l v u : l <> LK u -> called (upd m l v) u <-> called m u.
Proof. intros Hl. unfold called, kseq. rewrite upd_other by congruence. reflexivity. Qed.

Lemma step_range t m m' : Inv m -> step t m m' -> forall t', t' < P -> m' (LWTid t') < P /\ m' (LWWord t' WOff) < m_size C.
Proof.
  intros HI Hs t' Ht'. destruct (i_range m HI t' Ht') as [I1 I2]. destruct Hs as [m' H|l v Hl Hn Hc|v Hc Hv|v Hc Hv Hw|l v Hl Hcl Hodd Hev Hv1 Hv2|j u i Hj Hev Hd Ho Hold Hpre|j t'' u i Hh Ho].
  - rewrite !(cb_plain _ _ _ H) by (exact Logic.I || exact (fun x => x)). split; assumption.
  - rewrite !upd_other by (intros <-; exact Hl). split; assumption.
  - rewrite !upd_other by discriminate. split; assumption.
  - rewrite !upd_other by discriminate. split; assumption.
  - split.
    + destruct (decide (LWTid t' = l)) as [<-|Hn]; [rewrite upd_same; cbn in Hl; subst t'; apply Hv1; reflexivity|rewrite upd_other by exact Hn; exact I1].
    + destruct (decide (LWWord t' WOff = l)) as [<-|Hn]; [rewrite upd_same; cbn in Hl; subst t'; apply Hv2; reflexivity|rewrite upd_other by exact Hn; exact I2].
  - rewrite !upd_other by discriminate. split; assumption.
  - rewrite !upd_other by discriminate. split; assumption.
Qed.
Lemma step_inv t m m' : t < P -> Inv m -> step t m m' -> Inv m'.
Proof.
  intros Ht HI Hs. pose proof (step_range t m m' HI Hs) as Hrg. destruct Hs as [m' H|l v Hl Hn Hc|v Hc Hv|v Hc Hv Hw|l v Hl Hcl Hodd Hev Hv1 Hv2|j u i Hj Hev Hd Ho Hold Hpre|j t' u i Hh Ho].
  - assert (E : forall l, eqv m m' l) by (intros l; apply (eqv_cleaned _ _ _ l H); tauto).
    apply (inv_frame m); [exact HI|intros j; apply eqv_contents, E| | | | |exact Hrg]; try (intros ? ?; intros; intros l _; apply E).
    intros u. unfold called. rewrite (eqv_kseq m m' u) by apply E. reflexivity.
  - assert (Hla : forall j, l <> LArr j) by (intros j ->; exact Hl).
    apply (inv_frame m); [exact HI|intros j; apply upd_contents, Hla|intros u; apply upd_called; intros ->; cbn in Hl; congruence| | | |exact Hrg].
    + intros u Hu. apply upd_keqv. intros H. apply Hc. rewrite (kset_fun t u l Hl H). exact Hu.
    + intros t' j u i _. apply upd_weqv, (k_not_w t), Hl.
    + intros t' j u i _. apply upd_weqv, (k_not_w t), Hl.
  - assert (Hct : ~ called (upd m (LK t) v) t) by (intros [_ E]; apply Hv; unfold kseq in E; rewrite upd_same in E; exact E).
    apply (inv_frame m); [exact HI|intros j; apply upd_contents; discriminate| | | | |exact Hrg].
    + intros u. destruct (decide (u = t)) as [->|Hu]; [tauto|]. apply upd_called. congruence.
    + intros u Hu. apply upd_keqv. cbn. intros ->. contradiction.
    + intros t' j u i _. apply upd_weqv. exact (fun x => x).
    + intros t' j u i _. apply upd_weqv. exact (fun x => x).
  - set (m' := upd m (LK t) v). assert (Hct : called m' t).
    { split; [exact Ht|]. unfold kseq, m'. rewrite upd_same. change (sq v = num t). rewrite <- sq_clean, Hv. unfold sq. rewrite (proj1 (kenc_facts Undecided (num t) eq_refl (seq_61 _ _ HC (num_B t Ht)))). reflexivity. }
    assert (Hk : forall u, u <> t -> keqv m m' u) by (intros u Hu; apply upd_keqv; cbn; congruence).
    assert (Hwq : forall u, weqv m m' u) by (intros u; apply upd_weqv; exact (fun x => x)).
    assert (Ec : forall j, contents m' j = contents m j) by (intros j; apply upd_contents; discriminate).
    assert (Hne : forall u, called m u -> u <> t) by (intros u Hu ->; contradiction).
    assert (Hback : forall u, u <> t -> called m' u -> called m u) by (intros u Hu H; eapply k_called; [apply keqv_sym, Hk, Hu|exact H]).
    split; [| | |exact Hrg|].
    4:{ intros u Hu. destruct (decide (u = t)) as [->|Hut]; [exact (proj2 (proj2 Hw))|]. rewrite (k_words m m' u (Hk u Hut)). apply (i_asked m HI), Hback; assumption. }
    + intros u Hu. destruct (decide (u = t)) as [->|Hut]; [|apply (call_eqv m m'); [apply Hk, Hut|apply (i_call m HI), Hback; assumption]].
      split; [unfold m'; rewrite upd_same; exact Hv|]. unfold words_good, cnt, off in *. unfold m'. rewrite upd_other by discriminate. split; [intros i k; rewrite !upd_other by discriminate; apply Hw|].
      intros i Hi. rewrite !upd_other by discriminate. apply (proj1 (proj2 Hw)), Hi.
    + intros j. destruct (i_arr m HI j) as [V|(u & i & Hu & Hi & Hj & Hold & Hr)]; [left; rewrite Ec; exact V|right]. exists u, i. pose proof (Hk u (Hne u Hu)) as K.
      rewrite (k_cnt m m' u K), (k_off m m' u i K), (k_fld m m' u i _ K). split; [eapply k_called; eassumption|]. do 3 (split; [assumption|]).
      destruct Hr as [Hr|(t' & Ht')]; [left; rewrite Ec; exact Hr|right; exists t']. eapply half_eqv; [exact K|apply Hwq|apply Ec|exact Ht'].
    + intros u i k Hu Hik Hr. destruct (decide (u = t)) as [->|Hut].
      * exfalso. destruct Hr as [Hr|(t' & Hr1 & Hr2 & D)].
        -- rewrite Ec in Hr. apply Hc. apply (i_K m _ t HI Ht Hr).
        -- pose proof (de_ok _ _ _ _ D) as [W1 W2 _ _ _ _]. rewrite Ec in Hr1. destruct (i_W m _ _ _ HI W2 W1 Hr1) as (_ & u' & i' & (_ & _ & D') & _).
           apply Hc. pose proof (de_called _ _ _ _ D') as Hu'. rewrite <- (de_tid _ _ _ _ D') in Hu'. replace (m (LWTid t')) with t in Hu'; [exact Hu'|].
           rewrite <- (de_tid _ _ _ _ D) at 1. apply (w_fld m m' t'); [apply Hwq|reflexivity|discriminate].
      * pose proof (Hk u Hut) as K. pose proof (Hback u Hut Hu) as Hu'. rewrite (k_cnt m m' u K) in Hik. rewrite !(k_off m m' u _ K) in *. rewrite Ec. apply (i_pre m HI u i k Hu' Hik).
        destruct Hr as [Hr|(t' & Hr)]; [left; rewrite <- Ec; exact Hr|right; exists t']. eapply half_eqv; [apply keqv_sym, K|apply weqv_sym, Hwq|symmetry; apply Ec|exact Hr].
  - assert (Hla : forall j, l <> LArr j) by (intros j ->; exact Hl). assert (Hk : forall u, ~ kset u l) by (intros u H; exact (k_not_w _ _ _ H Hl)).
    assert (Ec : forall j, contents (upd m l v) j = contents m j) by (intros j; apply upd_contents, Hla).
    apply (inv_frame m); [exact HI|exact Ec|intros u; apply upd_called; intros ->; exact Hl|intros u _; apply upd_keqv, Hk| | |exact Hrg].
    + intros t' j u i (E & _ & D). apply upd_weqv. intros H. rewrite <- (wset_fun t t' l Hl H) in *. destruct (de_ok _ _ _ _ D). eapply Hcl; [|exact E]. assumption.
    + intros t' j u i (E & _ & D). apply upd_weqv. intros H. rewrite <- (wset_fun t t' l Hl H) in *. destruct (de_ok _ _ _ _ D). rewrite Ec in E. eapply Hcl; [|exact E]. assumption.
  - set (m' := upd m (LArr j) (dirty (WW (wseq m t) t))). pose proof (de_ok _ _ _ _ Hd) as [W1 W2 _ _ _ _].
    assert (Ej : contents m' j = WW (wseq m t) t). { unfold contents, m'. rewrite upd_same, clean_dirty. apply WW_facts; assumption. }
    assert (Ec : forall k, k <> j -> contents m' k = contents m k) by (intros k Hk; apply upd_contents; congruence).
    assert (Hk : forall u, keqv m m' u) by (intros v; apply upd_keqv; exact (fun x => x)). assert (Hw : forall u, weqv m m' u) by (intros v; apply upd_weqv; exact (fun x => x)).
    assert (Hcal : forall u, called m' u -> called m u) by (intros v; apply k_called, keqv_sym, Hk).
    assert (Hhalf : forall k t' v i', k <> j -> half m k t' v i' -> half m' k t' v i') by (intros k t' v i' Hkj; apply half_eqv; [apply Hk|apply Hw|apply Ec, Hkj]).
    assert (Hback : forall k t' v i', k <> j -> half m' k t' v i' -> half m k t' v i') by (intros k t' v i' Hkj; apply half_eqv; [apply keqv_sym, Hk|apply weqv_sym, Hw|symmetry; apply Ec, Hkj]).
    pose proof (de_called _ _ _ _ Hd) as Hu. pose proof (de_i _ _ _ _ Hd) as Hi.
    split; [| | |exact Hrg|intros v Hv; rewrite (k_words m m' v (Hk v)); apply (i_asked m HI), Hcal, Hv].
    + intros v Hv. apply (call_eqv m m'); [apply Hk|apply (i_call m HI), Hcal, Hv].
    + intros k. destruct (decide (k = j)) as [->|Hkj].
      * right. exists u, i. rewrite (k_cnt m m' u (Hk u)), (k_off m m' u i (Hk u)), (k_fld m m' u i _ (Hk u)). split; [eapply k_called; [apply Hk|exact Hu]|]. split; [exact Hi|]. split; [exact Ho|]. split; [symmetry; exact Hold|].
        right. exists t. split; [rewrite (w_seq m m' t (Hw t)); exact Ej|]. split; [rewrite (w_seq m m' t (Hw t)); exact Hev|]. eapply describes_eqv; [apply Hk|apply Hw|exact Hd].
      * destruct (i_arr m HI k) as [V|(v & i' & Hv & Hi' & Hj' & Ho' & Hr)]; [left; rewrite Ec by exact Hkj; exact V|right]. exists v, i'.
        rewrite (k_cnt m m' v (Hk v)), (k_off m m' v i' (Hk v)), (k_fld m m' v i' _ (Hk v)). split; [eapply k_called; [apply Hk|exact Hv]|]. do 3 (split; [assumption|]).
        destruct Hr as [Hr|(t' & Hr)]; [left; rewrite Ec by exact Hkj; exact Hr|right; exists t'; apply Hhalf; assumption].
    + intros v i' k Hv Hik Hr. apply Hcal in Hv. rewrite (k_cnt m m' v (Hk v)) in Hik. rewrite !(k_off m m' v _ (Hk v)) in *.
      destruct (i_call m HI v Hv) as (_ & Hso & _). specialize (Hso i' k Hik).
      assert (Hgoal : contents m (off m v i') = KW v).
      { destruct (decide (off m v k = j)) as [Ekj|Ekj].
        - destruct Hr as [Hr|(t' & E1 & E2 & D)].
          + exfalso. rewrite Ekj, Ej in Hr. symmetry in Hr. revert Hr. apply KW_WW; [apply Hv|exact W2|exact W1].
          + pose proof (de_ok _ _ _ _ D) as [W1' W2' _ _ _ _]. rewrite Ekj, Ej in E1. apply WW_inj in E1 as [E1 <-]; try assumption.
            assert (Euv : u = v). { rewrite <- (de_tid _ _ _ _ D), <- (de_tid _ _ _ _ Hd). symmetry. apply (w_fld m m' t); [apply Hw|reflexivity|discriminate]. }
            subst v. assert (k = i) by (apply (off_inj m u k i HI Hu); [lia|lia|congruence]). subst k. apply Hpre. lia.
        - apply (i_pre m HI v i' k Hv Hik). destruct Hr as [Hr|(t' & Hr)]; [left; rewrite <- Ec by exact Ekj; exact Hr|right; exists t'; apply Hback; assumption]. }
      destruct (decide (off m v i' = j)) as [E|E]; [|rewrite Ec by exact E; exact Hgoal]. exfalso. rewrite E, Hj in Hgoal. revert Hgoal. apply KW_val; [apply Hv|apply (ar_values _ _ H0)].
  - pose proof Hh as (Eh & Hev & Hd). pose proof (de_ok _ _ _ _ Hd) as [W1 W2 _ _ _ _]. pose proof (de_called _ _ _ _ Hd) as Hu. pose proof (de_i _ _ _ _ Hd) as Hi.
    set (m' := upd m (LArr j) (dirty (KW u))).
    assert (Ej : contents m' j = KW u). { unfold contents, m'. rewrite upd_same, clean_dirty. apply KW_facts, Hu. }
    assert (Ec : forall k, k <> j -> contents m' k = contents m k) by (intros k Hk; apply upd_contents; congruence).
    assert (Hk : forall u, keqv m m' u) by (intros v; apply upd_keqv; exact (fun x => x)). assert (Hw : forall u, weqv m m' u) by (intros v; apply upd_weqv; exact (fun x => x)).
    assert (Hcal : forall u, called m' u -> called m u) by (intros v; apply k_called, keqv_sym, Hk).
    assert (Hhalf : forall k t' v i', k <> j -> half m k t' v i' -> half m' k t' v i') by (intros k t'' v i' Hkj; apply half_eqv; [apply Hk|apply Hw|apply Ec, Hkj]).
    assert (Hback : forall k t' v i', k <> j -> half m' k t' v i' -> half m k t' v i') by (intros k t'' v i' Hkj; apply half_eqv; [apply keqv_sym, Hk|apply weqv_sym, Hw|symmetry; apply Ec, Hkj]).
    split; [| | |exact Hrg|intros v Hv; rewrite (k_words m m' v (Hk v)); apply (i_asked m HI), Hcal, Hv].
    + intros v Hv. apply (call_eqv m m'); [apply Hk|apply (i_call m HI), Hcal, Hv].
    + intros k. destruct (decide (k = j)) as [->|Hkj].
      * right. exists u, i. rewrite (k_cnt m m' u (Hk u)), (k_off m m' u i (Hk u)), (k_fld m m' u i _ (Hk u)). split; [eapply k_called; [apply Hk|exact Hu]|]. split; [exact Hi|]. split; [exact Ho|]. split; [|left; exact Ej].
        destruct (i_W m j _ _ HI W2 W1 Eh) as (_ & u' & i' & (_ & _ & D') & Ho' & Hold'). assert (u' = u) by (rewrite <- (de_tid _ _ _ _ D'), <- (de_tid _ _ _ _ Hd); reflexivity). subst u'.
        assert (i' = i) by (apply (off_inj m u i' i HI Hu); [apply D'|exact Hi|congruence]). subst i'. exact Hold'.
      * destruct (i_arr m HI k) as [V|(v & i' & Hv & Hi' & Hj' & Ho' & Hr)]; [left; rewrite Ec by exact Hkj; exact V|right]. exists v, i'.
        rewrite (k_cnt m m' v (Hk v)), (k_off m m' v i' (Hk v)), (k_fld m m' v i' _ (Hk v)). split; [eapply k_called; [apply Hk|exact Hv]|]. do 3 (split; [assumption|]).
        destruct Hr as [Hr|(t'' & Hr)]; [left; rewrite Ec by exact Hkj; exact Hr|right; exists t''; apply Hhalf; assumption].
    + intros v i' k Hv Hik Hr. apply Hcal in Hv. rewrite (k_cnt m m' v (Hk v)) in Hik. rewrite !(k_off m m' v _ (Hk v)) in *.
      assert (Hgoal : contents m (off m v i') = KW v).
      { apply (i_pre m HI v i' k Hv Hik). destruct (decide (off m v k = j)) as [Ekj|Ekj].
        - destruct Hr as [Hr|(t'' & E1 & E2 & D)].
          + rewrite Ekj, Ej in Hr. apply KW_inj in Hr; [|apply Hu|apply Hv]. subst v. assert (k = i) by (apply (off_inj m u k i HI Hu); [lia|lia|congruence]). subst k. right. exists t'. rewrite Ekj. exact Hh.
          + exfalso. pose proof (de_ok _ _ _ _ D) as [W1' W2' _ _ _ _]. rewrite Ekj, Ej in E1. revert E1. apply KW_WW; [apply Hu|exact W2'|exact W1'].
        - destruct Hr as [Hr|(t'' & Hr)]; [left; rewrite <- Ec by exact Ekj; exact Hr|right; exists t''; apply Hback; assumption]. }
      destruct (decide (off m v i' = j)) as [E|E]; [|rewrite Ec by exact E; exact Hgoal]. exfalso. rewrite E, Eh in Hgoal. symmetry in Hgoal. revert Hgoal. apply KW_WW; [apply Hv|exact W2|exact W1].
Qed.

(** ** What the other threads may do *)

Definition kept (m m' : mem) (l : loc) : Prop := m' l = m l \/ (m' l = clean (m l) /\ flagged l).
Lemma kept_refl m l : kept m m l.
Proof. left. reflexivity. Qed.
Lemma kept_eqv m m' l : kept m m' l -> eqv m m' l.
Proof. intros [E|[E F]]; [split; [rewrite E; reflexivity|intros _; exact E]|split; [rewrite E; apply clean_clean|intros H; contradiction]]. Qed.
Lemma kept_trans m1 m2 m3 l : kept m1 m2 l -> kept m2 m3 l -> kept m1 m3 l.
Proof. intros [E|[E F]] [E'|[E' F']]; rewrite ?E', ?E, ?clean_clean; [left|right|right|right]; try (split; [|assumption]); rewrite ?E', ?E, ?clean_clean; reflexivity. Qed.
Lemma kept_upd m l v l' : l' <> l -> kept m (upd m l v) l'.
Proof. intros Hn. left. apply upd_other, Hn. Qed.

Record R (t : N) (m m' : mem) : Prop := {
  r_own : forall l, kset t l \/ wset t l -> kept m m' l;
  r_called : forall u, called m u -> forall l, kset u l -> kept m m' l;
  r_w : forall t', wseq m t' <= wseq m' t' /\ (wseq m' t' = wseq m t' -> N.even (wseq m t') = true -> forall l, wset t' l -> l <> LW t' -> m' l = m l);
  r_K : forall j u, u < P -> contents m j = KW u -> contents m' j = KW u;
  r_clear : forall j s, s < B -> contents m' j = WW s t -> contents m j = WW s t;
  r_half : forall j u i, half m j t u i -> kept m m' (LArr j) \/ contents m' j = KW u;
}.
Lemma R_keqv t m m' u : R t m m' -> called m u -> keqv m m' u.
Proof. intros HR Hu l Hl. apply kept_eqv, (r_called _ _ _ HR u Hu l Hl). Qed.
Lemma R_own_k t m m' : R t m m' -> keqv m m' t.
Proof. intros HR l Hl. apply kept_eqv, (r_own _ _ _ HR). left. exact Hl. Qed.
Lemma R_own_w t m m' : R t m m' -> weqv m m' t.
Proof. intros HR l Hl. apply kept_eqv, (r_own _ _ _ HR). right. exact Hl. Qed.
Lemma R_call t m m' u : R t m m' -> called m u -> called m' u.
Proof. intros HR Hu. eapply k_called; [eapply R_keqv; eassumption|exact Hu]. Qed.
Lemma R_refl t m : R t m m.
Proof. split; intros; try apply kept_refl; try assumption; [split; [lia|reflexivity]|left; apply kept_refl]. Qed.
Lemma R_trans t m1 m2 m3 : R t m1 m2 -> R t m2 m3 -> R t m1 m3.
Proof.
  intros H1 H2. split.
  - intros l Hl. eapply kept_trans; [apply (r_own _ _ _ H1), Hl|apply (r_own _ _ _ H2), Hl].
  - intros u Hu l Hl. eapply kept_trans; [apply (r_called _ _ _ H1 u Hu l Hl)|apply (r_called _ _ _ H2 u (R_call _ _ _ _ H1 Hu) l Hl)].
  - intros t'. destruct (r_w _ _ _ H1 t') as [L1 E1]. destruct (r_w _ _ _ H2 t') as [L2 E2]. split; [lia|]. intros E Hev l Hl Hn.
    assert (Ea : wseq m2 t' = wseq m1 t') by lia. rewrite E2; [apply E1|lia|congruence| |]; try assumption.
  - intros j u Hu E. apply (r_K _ _ _ H2 j u Hu), (r_K _ _ _ H1 j u Hu), E.
  - intros j s Hs E. apply (r_clear _ _ _ H1 j s Hs), (r_clear _ _ _ H2 j s Hs), E.
  - intros j u i Hh. pose proof (de_called _ _ _ _ (proj2 (proj2 Hh))) as Hu. destruct (r_half _ _ _ H1 j u i Hh) as [K|K]; [|right; apply (r_K _ _ _ H2 j u (proj1 Hu)), K].
    assert (Hh2 : half m2 j t u i) by (apply (half_eqv m1 m2); [eapply R_keqv; eassumption|apply R_own_w, H1|apply eqv_contents, kept_eqv, K|exact Hh]).
    destruct (r_half _ _ _ H2 j u i Hh2) as [K2|K2]; [left; eapply kept_trans; eassumption|right; exact K2].
Qed.
Lemma R_clean t m m' : cleaned m m' -> R t m m'.
Proof.
  intros H. assert (Hk : forall l, kept m m' l). { intros l. destruct (H l) as [[]|[E|[E F]]]; [left; exact E|right; split; [exact E|exact F]]. }
  assert (E : forall l, eqv m m' l) by (intros l; apply kept_eqv, Hk). split.
  - intros l _. apply Hk.
  - intros u _ l _. apply Hk.
  - intros t'. rewrite (eqv_wseq m m' t') by apply E. split; [lia|]. intros _ _ l Hl Hn. apply (w_fld m m' t'); [intros x _; apply E|exact Hl|exact Hn].
  - intros j u _. rewrite (eqv_contents m m' j (E _)). exact (fun x => x).
  - intros j s _. rewrite (eqv_contents m m' j (E _)). exact (fun x => x).
  - intros j u i _. left. apply Hk.
Qed.
Lemma R_upd t m l v : (forall j, l <> LArr j) -> ~ kset t l -> ~ wset t l -> (forall u, called m u -> ~ kset u l) ->
  (forall t', wseq m t' <= wseq (upd m l v) t' /\ (wseq (upd m l v) t' = wseq m t' -> N.even (wseq m t') = true -> wset t' l -> l <> LW t' -> False)) -> R t m (upd m l v).
Proof.
  intros Ha Hk Hw Hc Hq. assert (Ec : forall j, contents (upd m l v) j = contents m j) by (intros j; apply upd_contents, Ha). split.
  - intros l' [H|H]; apply kept_upd; intros ->; contradiction.
  - intros u Hu l' Hl'. apply kept_upd. intros ->. exact (Hc u Hu Hl').
  - intros t'. destruct (Hq t') as [Q1 Q2]. split; [exact Q1|]. intros E Hev l' Hl' Hn. apply upd_other. intros ->. apply Q2; assumption.
  - intros j u _ E. rewrite Ec. exact E.
  - intros j s _ E. rewrite <- Ec. exact E.
  - intros j u i _. left. apply kept_upd. intros E. exact (Ha j (eq_sym E)).
Qed.
Lemma wseq_upd m l v t : l <> LW t -> wseq (upd m l v) t = wseq m t.
Proof. intros H. unfold wseq. rewrite upd_other by congruence. reflexivity. Qed.
Lemma R_comp t m j t' u i : t < P -> Inv m -> half m j t' u i -> off m u i = j -> R t m (upd m (LArr j) (dirty (KW u))).
Proof.
  intros Ht HI Hh Ho. pose proof Hh as (Eh & Hev & Hd). pose proof (de_ok _ _ _ _ Hd) as [W1 W2 _ _ _ _]. pose proof (de_called _ _ _ _ Hd) as Hu.
  assert (Ej : contents (upd m (LArr j) (dirty (KW u))) j = KW u). { unfold contents. rewrite upd_same, clean_dirty. apply KW_facts, Hu. }
  assert (Ec : forall k, k <> j -> contents (upd m (LArr j) (dirty (KW u))) k = contents m k) by (intros k Hk; apply upd_contents; congruence).
  split.
  - intros l Hl. apply kept_upd. intros ->. destruct Hl as [[]|[]].
  - intros v _ l Hl. apply kept_upd. intros ->. exact Hl.
  - intros t0. rewrite wseq_upd by discriminate. split; [lia|]. intros _ _ l Hl _. apply upd_other. intros ->. exact Hl.
  - intros k v Hv E. destruct (decide (k = j)) as [->|Hk]; [|rewrite Ec by exact Hk; exact E]. exfalso. rewrite Eh in E. symmetry in E. revert E. apply KW_WW; assumption.
  - intros k s Hs E. destruct (decide (k = j)) as [->|Hk]; [|rewrite Ec in E by exact Hk; exact E]. exfalso. rewrite Ej in E.
    revert E. apply KW_WW; [apply Hu|exact Hs|exact Ht].
  - intros k v i' Hk'. destruct (decide (k = j)) as [->|Hk]; [|left; apply kept_upd; congruence]. right. rewrite Ej. destruct Hk' as (E1 & _ & D).
    pose proof (de_ok _ _ _ _ D) as [W1' W2' _ _ _ _]. rewrite Eh in E1. apply WW_inj in E1 as [_ <-]; try assumption. f_equal. rewrite <- (de_tid _ _ _ _ D), <- (de_tid _ _ _ _ Hd). reflexivity.
Qed.
Lemma R_step t t' m m' : t < P -> t' < P -> t' <> t -> Inv m -> step t m m' -> R t' m m'.
Proof.
  intros Ht Ht' Hne HI Hs. destruct Hs as [m' H|l v Hl Hn Hc|v Hc Hv|v Hc Hv Hw|l v Hl Hcl Hodd Hev Hv1 Hv2|j u i Hj Hev Hd Ho Hold Hpre|j t'' u i Hh Ho].
  - apply R_clean, H.
  - apply R_upd.
    + intros j ->. exact Hl.
    + intros H. apply Hne. exact (kset_fun _ _ _ H Hl).
    + apply (k_not_w t), Hl.
    + intros u Hu H. apply Hc. rewrite (kset_fun _ _ _ Hl H). exact Hu.
    + intros t0. rewrite wseq_upd by (intros ->; exact Hl). split; [lia|]. intros _ _ H. exfalso. exact (k_not_w _ _ _ Hl H).
  - apply R_upd; [discriminate|cbn; congruence|exact (fun x => x)|cbn; intros u Hu <-; contradiction|].
    intros t0. rewrite wseq_upd by discriminate. split; [lia|]. intros _ _ [].
  - apply R_upd; [discriminate|cbn; congruence|exact (fun x => x)|cbn; intros u Hu <-; contradiction|].
    intros t0. rewrite wseq_upd by discriminate. split; [lia|]. intros _ _ [].
  - apply R_upd.
    + intros j ->. exact Hl.
    + intros H. exact (k_not_w _ _ _ H Hl).
    + intros H. apply Hne. exact (wset_fun _ _ _ H Hl).
    + intros u _ H. exact (k_not_w _ _ _ H Hl).
    + intros t0. destruct (decide (l = LW t0)) as [->|Hl0].
      * cbn in Hl. subst t0. unfold wseq at 2 3. rewrite upd_same, Hev by reflexivity. split; [lia|]. intros E. lia.
      * rewrite wseq_upd by exact Hl0. split; [lia|]. intros _ He H Hn. rewrite (wset_fun _ _ _ Hl H) in *. rewrite Hodd in He by exact Hn. discriminate.
  - pose proof (de_ok _ _ _ _ Hd) as [W1 W2 _ _ _ _].
    assert (Ej : contents (upd m (LArr j) (dirty (WW (wseq m t) t))) j = WW (wseq m t) t). { unfold contents. rewrite upd_same, clean_dirty. apply WW_facts; assumption. }
    assert (Ec : forall k, k <> j -> contents (upd m (LArr j) (dirty (WW (wseq m t) t))) k = contents m k) by (intros k Hk; apply upd_contents; congruence).
    split.
    + intros l Hl. apply kept_upd. intros ->. destruct Hl as [[]|[]].
    + intros v _ l Hl. apply kept_upd. intros ->. exact Hl.
    + intros t0. rewrite wseq_upd by discriminate. split; [lia|]. intros _ _ l Hl _. apply upd_other. intros ->. exact Hl.
    + intros k v Hv E. destruct (decide (k = j)) as [->|Hk]; [|rewrite Ec by exact Hk; exact E]. exfalso. rewrite Hj in E. revert E. apply KW_val; [exact Hv|apply (ar_values _ _ H0)].
    + intros k s Hs E. destruct (decide (k = j)) as [->|Hk]; [|rewrite Ec in E by exact Hk; exact E]. exfalso. rewrite Ej in E. apply WW_inj in E as [_ E]; try assumption. congruence.
    + intros k v i' Hk'. left. apply kept_upd. intros E. injection E as ->. destruct Hk' as (E1 & _ & D). pose proof (de_ok _ _ _ _ D) as [W1' W2' _ _ _ _].
      rewrite Hj in E1. revert E1. apply WW_val; [assumption..|apply (ar_values _ _ H0)].
  - eapply R_comp; eassumption.
Qed.

(** ** Programs *)

Section Wpr.
Context (t : N) (Ht : t < P).
Local Notation Rt := (R t).
Fixpoint wpr {A : Type} (p : mprog A) (Q : A -> mem -> Prop) (m : mem) : Prop :=
  match p with
  | MRet a => Q a m
  | MErr e => e = MOutOfFuel
  | MVis c k => forall m1, Rt m m1 -> Good m1 -> let (r, m2) := mexec c m1 in none_decided C m0 m2 -> step t m1 m2 /\ wpr (k r) Q m2
  end.
Lemma wpr_mono {A} (p : mprog A) (Q Q' : A -> mem -> Prop) m : (forall a m', Q a m' -> Q' a m') -> wpr p Q m -> wpr p Q' m.
Proof.
  intros H. revert m. induction p as [a|e|c k IH]; intros m; cbn; [apply H|auto|]. intros Hw m1 HR HG. specialize (Hw m1 HR HG). destruct (mexec c m1) as [r m2]. intros Hd.
  destruct (Hw Hd) as [H1 H2]. split; [exact H1|apply IH, H2].
Qed.
Lemma wpr_bind {A A'} (p : mprog A) (f : A -> mprog A') Q m : wpr p (fun a m' => wpr (f a) Q m') m -> wpr (mbind p f) Q m.
Proof.
  revert m. induction p as [a|e|c k IH]; intros m; cbn; [auto|auto|]. intros Hw m1 HR HG. specialize (Hw m1 HR HG). destruct (mexec c m1) as [r m2]. intros Hd.
  destruct (Hw Hd) as [H1 H2]. split; [exact H1|apply IH, H2].
Qed.
Lemma step_same m : step t m m.
Proof. apply S_clean, cleaned_refl. Qed.
Lemma Good_step m m' : Good m -> step t m m' -> none_decided C m0 m' -> Good m'.
Proof. intros [HI _] Hs Hd. split; [eapply step_inv; eassumption|exact Hd]. Qed.

Lemma w_load l (Q : N -> mem -> Prop) m : (forall m1, Rt m m1 -> Good m1 -> Q (m1 l) m1) -> wpr (mdo (MLoad l)) Q m.
Proof. intros H. cbn. intros m1 HR HG _. split; [apply step_same|apply H; assumption]. Qed.
Lemma w_store l v (Q : unit -> mem -> Prop) m : (forall m1, Rt m m1 -> Good m1 -> step t m1 (upd m1 l v) /\ (Good (upd m1 l v) -> Q tt (upd m1 l v))) -> wpr (mdo (MStore l v)) Q m.
Proof. intros H. cbn. intros m1 HR HG Hd. destruct (H m1 HR HG) as [H1 H2]. split; [exact H1|]. apply H2. eapply Good_step; eassumption. Qed.
Lemma upd_id m l v : v = m l -> forall l', upd m l v l' = m l'.
Proof. intros -> l'. destruct (decide (l' = l)) as [->|Hn]; [apply upd_same|apply upd_other, Hn]. Qed.
Lemma cleaned_at m l : flagged l -> cleaned m (upd m l (clean (m l))).
Proof. intros Hl x. right. destruct (decide (x = l)) as [->|Hn]; [right; rewrite upd_same; split; [reflexivity|destruct l; exact Hl]|left; apply upd_other, Hn]. Qed.
Lemma w_persist l v (Q : unit -> mem -> Prop) m : flagged l ->
  (forall m1 m2, Rt m m1 -> Good m1 -> Rt m1 m2 -> Good m2 -> m2 l = (if m1 l =? v then clean v else m1 l) -> Q tt m2) -> wpr (m_persist l v) Q m.
Proof.
  intros Hl H. unfold m_persist. apply wpr_bind. cbn. intros m1 HR HG. destruct (m1 l =? v) eqn:E; intros Hd.
  - apply N.eqb_eq in E. pose proof (cleaned_at m1 l Hl) as Hc. rewrite E in Hc. split; [apply S_clean, Hc|]. apply (H m1); [exact HR|exact HG|apply R_clean, Hc| |rewrite upd_same, E, N.eqb_refl; reflexivity].
    eapply Good_step; [exact HG|apply S_clean, Hc|exact Hd].
  - split; [apply step_same|]. apply (H m1); [exact HR|exact HG|apply R_refl|exact HG|rewrite E; reflexivity].
Qed.
Lemma w_read l (Q : N -> mem -> Prop) m : flagged l ->
  (forall m1 m2, Rt m m1 -> Good m1 -> Rt m1 m2 -> Good m2 -> (kept m1 m2 l -> m2 l = clean (m1 l)) -> Q (clean (m1 l)) m2) -> wpr (m_read l) Q m.
Proof.
  intros Hl H. unfold m_read. apply wpr_bind, w_load. intros m1 HR HG. apply wpr_bind. destruct (isMarked (m1 l) DirtyFlag) eqn:Ed.
  - apply w_persist; [exact Hl|]. intros m2 m3 H12 G2 H23 G3 E3. cbn [wpr]. apply H; [exact HR|exact HG|eapply R_trans; eassumption|exact G3|].
    intros [K|[K _]]; [|exact K]. destruct (N.eqb_spec (m2 l) (m1 l)) as [E|E]; [exact E3|]. congruence.
  - cbn [wpr]. apply H; [exact HR|exact HG|apply R_refl|exact HG|]. intros _. symmetry. apply clean_id, Ed.
Qed.
Lemma w_assert b (Q : unit -> mem -> Prop) m : b = true -> Q tt m -> wpr (massert C b) Q m.
Proof. intros -> H. exact H. Qed.
Lemma w_thread u (Q : unit -> mem -> Prop) m : u < P -> Q tt m -> wpr (thread_ok C u) Q m.
Proof. intros Hu H. unfold thread_ok. destruct (N.ltb_spec u P); [exact H|lia]. Qed.
Lemma w_address j (Q : loc -> mem -> Prop) m : j < m_size C -> Q (LArr j) m -> wpr (address C j) Q m.
Proof. intros Hj H. unfold address. destruct (N.ltb_spec j (m_size C)); [exact H|lia]. Qed.
(** The compare-and-swap itself happens in [m3]. *)
Lemma w_pcas l e n (Q : bool * N -> mem -> Prop) m : flagged l ->
  (forall m1 m2 m3, Rt m m1 -> Good m1 -> Rt m1 m2 -> Good m2 -> (kept m1 m2 l -> m2 l = clean (m1 l)) -> Rt m2 m3 -> Good m3 ->
     if m3 l =? e then none_decided C m0 (upd m3 l (dirty n)) -> step t m3 (upd m3 l (dirty n)) /\ (Good (upd m3 l (dirty n)) -> Q (true, e) (upd m3 l (dirty n)))
     else Q (false, m3 l) m3) ->
  wpr (m_pcas C l e n) Q m.
Proof.
  intros Hl H. unfold m_pcas. apply wpr_bind, w_read; [exact Hl|]. intros m1 m2 R1 G1 R2 G2 K. apply wpr_bind. cbn. intros m3 R3 G3. specialize (H m1 m2 m3 R1 G1 R2 G2 K R3 G3).
  destruct (m3 l =? e) eqn:E; intros Hd.
  - destruct (H Hd) as [H1 H2]. split; [exact H1|]. cbn [fst snd]. apply wpr_bind, w_assert; [rewrite N.eqb_refl; reflexivity|]. cbn [wpr]. apply H2. eapply Good_step; eassumption.
  - split; [apply step_same|]. cbn [fst snd]. apply wpr_bind, w_assert; [rewrite N.eqb_sym, E; reflexivity|]. cbn [wpr]. exact H.
Qed.
Definition valid (d : descref) : Prop := d_isRDCSS d = negb (d_isKCAS d) /\ d_tid d < P.
Lemma w_getSeq d (Q : N -> mem -> Prop) m : valid d -> (forall m1 m2, Rt m m1 -> Good m1 -> Rt m1 m2 -> Good m2 -> Q (now m1 d) m2) -> wpr (getSeq C d) Q m.
Proof.
  intros [Hv Hp] H. unfold getSeq, now in *. rewrite Hv. destruct (d_isKCAS d); cbn [andb negb]; (apply wpr_bind, w_thread; [exact Hp|]); apply wpr_bind, w_read; try exact Logic.I;
    intros m1 m2 R1 G1 R2 G2 _; cbn [wpr].
  - change (km_seq (kmut_decode (clean (m1 (LK (d_tid d)))))) with (sq (clean (m1 (LK (d_tid d))))). rewrite sq_clean. apply (H m1 m2); assumption.
  - rewrite wseq_clean. apply (H m1 m2); assumption.
Qed.
Lemma w_readField d l (Q : N * bool -> mem -> Prop) m : flagged l -> valid d ->
  (forall m1 m2 m3, Rt m m1 -> Good m1 -> Rt m1 m2 -> Good m2 -> Rt m2 m3 -> Good m3 -> Q (clean (m1 l), d_seq d =? now m2 d) m3) -> wpr (readField C d l) Q m.
Proof.
  intros Hl Hv H. unfold readField. apply wpr_bind, w_read; [exact Hl|]. intros m1 m2 R1 G1 R2 G2 _. apply wpr_bind, w_getSeq; [exact Hv|]. intros m3 m4 R3 G3 R4 G4. cbn [wpr].
  apply (H m1 m3 m4); try assumption. eapply R_trans; eassumption.
Qed.
Lemma w_CASField d e n l (Q : bool * N * bool -> mem -> Prop) m : flagged l -> valid d ->
  (forall m1 m2 m3, Rt m m1 -> Good m1 -> Rt m1 m2 -> Good m2 -> Rt m2 m3 -> Good m3 ->
     if negb (d_seq d =? now m2 d) then Q (false, e, false) m3
     else if negb (clean (m1 l) =? e) then Q (false, clean (m1 l), true) m3
     else forall m4 m5 m6, Rt m3 m4 -> Good m4 -> Rt m4 m5 -> Good m5 -> (kept m4 m5 l -> m5 l = clean (m4 l)) -> Rt m5 m6 -> Good m6 ->
       if m6 l =? e then none_decided C m0 (upd m6 l (dirty n)) -> step t m6 (upd m6 l (dirty n)) /\ (Good (upd m6 l (dirty n)) -> Q (true, e, true) (upd m6 l (dirty n)))
       else Q (false, m6 l, true) m6) ->
  wpr (CASField C d e n l) Q m.
Proof.
  intros Hl Hv H. unfold CASField. apply wpr_bind, w_read; [exact Hl|]. intros m1 m1' R1 G1 R1' G1' _. apply wpr_bind, w_getSeq; [exact Hv|]. intros m2 m3 R2 G2 R3 G3.
  specialize (H m1 m2 m3 R1 G1 (R_trans _ _ _ _ R1' R2) G2 R3 G3). destruct (negb (d_seq d =? now m2 d)); [exact H|]. destruct (negb (clean (m1 l) =? e)); [exact H|].
  apply wpr_bind, w_pcas; [exact Hl|]. intros m4 m5 m6 R4 G4 R5 G5 K R6 G6. specialize (H m4 m5 m6 R4 G4 R5 G5 K R6 G6). destruct (m6 l =? e); [|exact H].
  intros Hd. destruct (H Hd) as [Hs HQ]. split; [exact Hs|]. intros HG. cbn [wpr fst snd]. apply HQ, HG.
Qed.

Ltac rch := solve [ apply R_refl | assumption | match goal with H : R t ?a ?b |- R t ?a ?c => apply (R_trans t a b c H); rch end ].

(** *** What stays *)

Definition later (m m' : mem) : Prop := (forall u, called m u -> keqv m m' u) /\ (forall j u, u < P -> contents m j = KW u -> contents m' j = KW u).
Lemma later_R m m' : Rt m m' -> later m m'.
Proof. intros HR. split; [intros u; apply (R_keqv t), HR|apply (r_K _ _ _ HR)]. Qed.
Lemma later_trans m1 m2 m3 : later m1 m2 -> later m2 m3 -> later m1 m3.
Proof.
  intros [A1 A2] [B1 B2]. split; [|auto]. intros u Hu l Hl. eapply eqv_trans; [apply (A1 u Hu l Hl)|]. apply (B1 u); [|exact Hl]. eapply k_called; [apply A1, Hu|exact Hu].
Qed.
Lemma later_called m m' u : later m m' -> called m u -> called m' u.
Proof. intros [A _] Hu. eapply k_called; [apply A, Hu|exact Hu]. Qed.
Lemma later_step m m' : Inv m -> step t m m' -> later m m'.
Proof.
  intros HI Hs. destruct Hs as [m' H|l v Hl Hn Hc|v Hc Hv|v Hc Hv Hw|l v Hl Hcl Hodd Hev Hv1 Hv2|j u i Hj Hev Hd Ho Hold Hpre|j t'' u i Hh Ho].
  - apply later_R, R_clean, H.
  - split; [intros u Hu; apply upd_keqv; intros H; apply Hc; rewrite (kset_fun _ _ _ Hl H); exact Hu|]. intros j u _ E. rewrite upd_contents; [exact E|]. intros ->. exact Hl.
  - split; [intros u Hu; apply upd_keqv; cbn; intros <-; contradiction|]. intros j u _ E. rewrite upd_contents; [exact E|discriminate].
  - split; [intros u Hu; apply upd_keqv; cbn; intros <-; contradiction|]. intros j u _ E. rewrite upd_contents; [exact E|discriminate].
  - split; [intros u Hu; apply upd_keqv; intros H; exact (k_not_w _ _ _ H Hl)|]. intros j u _ E. rewrite upd_contents; [exact E|]. intros ->. exact Hl.
  - split; [intros v _; apply upd_keqv; exact (fun x => x)|]. intros k v Hv E. rewrite upd_contents; [exact E|]. intros Ek. injection Ek as ->. rewrite Hj in E. revert E. apply KW_val; [exact Hv|apply (ar_values _ _ H0)].
  - apply later_R. eapply R_comp; eassumption.
Qed.
Lemma clear_R m m' : Rt m m' -> clear t m -> clear t m'.
Proof. intros HR Hc j s Hs E. apply (Hc j s Hs), (r_clear _ _ _ HR j s Hs E). Qed.
Lemma R_wseq m m' : Rt m m' -> wseq m' t = wseq m t.
Proof. intros HR. apply w_seq, R_own_w, HR. Qed.
Lemma R_wfld m m' l : Rt m m' -> wset t l -> l <> LW t -> m' l = m l.
Proof. intros HR. apply w_fld, R_own_w, HR. Qed.
Lemma R_describes m m' u i : Rt m m' -> describes m t u i -> describes m' t u i.
Proof. intros HR D. eapply describes_eqv; [eapply R_keqv; [exact HR|apply D]|apply R_own_w, HR|exact D]. Qed.
Lemma R_half' m m' j u i : Rt m m' -> half m j t u i -> (half m' j t u i /\ kept m m' (LArr j)) \/ contents m' j = KW u.
Proof.
  intros HR Hh. destruct (r_half _ _ _ HR j u i Hh) as [K|K]; [left|right; exact K]. split; [|exact K].
  eapply half_eqv; [eapply R_keqv; [exact HR|apply Hh]|apply R_own_w, HR|apply eqv_contents, kept_eqv, K|exact Hh].
Qed.

(** The call of [u] is made, and its words before [i] refer to it; the own word descriptor is not in use. *)
Record here (u : N) (i : nat) (m : mem) : Prop := {
  he_called : called m u;
  he_clear : clear t m;
  he_even : N.even (wseq m t) = true;
  he_i : (i <= cnt m u)%nat;
  he_pre : forall k, (k < i)%nat -> contents m (off m u k) = KW u;
}.
Lemma pre_later m m' u i : called m u -> later m m' -> (forall k, (k < i)%nat -> contents m (off m u k) = KW u) -> forall k, (k < i)%nat -> contents m' (off m' u k) = KW u.
Proof. intros Hu [L1 L2] H k Hk. rewrite (k_off m m' u k (L1 u Hu)). apply L2; [apply Hu|apply H, Hk]. Qed.
Lemma here_later u i m m' : later m m' -> clear t m' -> N.even (wseq m' t) = true -> here u i m -> here u i m'.
Proof.
  intros L Hc He [A1 A2 A3 A4 A5]. pose proof (proj1 L u A1) as K. split; [eapply later_called; eassumption|exact Hc|exact He|rewrite (k_cnt m m' u K); exact A4|].
  eapply pre_later; eassumption.
Qed.
Lemma here_R u i m m' : Rt m m' -> here u i m -> here u i m'.
Proof. intros HR H. apply (here_later u i m m'); [apply later_R, HR|eapply clear_R; [exact HR|apply H]|rewrite (R_wseq m m' HR); apply H|exact H]. Qed.

(** *** CompleteInstall *)

Lemma testbit_clean v n : n <> 0 -> N.testbit (clean v) n = N.testbit v n.
Proof. intros Hn. rewrite clean_spec. rewrite (proj2 (N.eqb_neq n 0) Hn). apply andb_true_r. Qed.

Lemma dummy_valid s u : u < P -> valid (mkDesc false true false s (u mod 2 ^ tidSize P)).
Proof. intros Hu. split; [reflexivity|]. cbn [d_tid]. rewrite N.mod_small by (apply tidSize_fits, Hu). exact Hu. Qed.

Section Fresh.
Context (ma : mem) (t' u : N) (i : nat) (Hev : N.even (wseq ma t') = true) (D : describes ma t' u i).
Lemma fresh m mf : Rt ma m -> Rt m mf -> wseq mf t' = wseq ma t' -> forall l, wset t' l -> l <> LW t' -> m l = ma l.
Proof.
  intros R1 R2 E l Hl Hn. destruct (r_w _ _ _ R1 t') as [L1 E1]. destruct (r_w _ _ _ R2 t') as [L2 _]. apply E1; [lia|exact Hev|exact Hl|exact Hn].
Qed.
End Fresh.
Lemma w_complete ma mb t' u i (Q : bool -> mem -> Prop) : Good ma -> Rt ma mb -> N.even (wseq ma t') = true -> describes ma t' u i ->
  (t' = t -> contents ma (off ma u i) = WW (wseq ma t) t) ->
  (forall b m', Rt mb m' -> Good m' -> (t' = t -> contents m' (off ma u i) = KW u) -> Q b m') -> wpr (completeInstall C (word_ref (wseq ma t') t')) Q mb.
Proof.
  intros Ga Rb Hev D Hself H. pose proof (de_ok _ _ _ _ D) as [W1 W2 W3 W4 W5 W6]. pose proof (de_called _ _ _ _ D) as Hu.
  set (s := wseq ma t') in *. unfold completeInstall. cbn [d_tid word_ref].
  apply wpr_bind, w_thread; [exact W1|]. apply wpr_bind, w_load; intros m1 R1 G1. apply wpr_bind, w_load; intros m2 R2 G2. apply wpr_bind, w_load; intros m3 R3 G3.
  apply wpr_bind, w_thread; [apply (i_range m3 (proj1 G3)), W1|]. apply wpr_bind, w_readField; [exact Logic.I|apply dummy_valid, (i_range m2 (proj1 G2)), W1|]. intros m4 m5 m6 R4 G4 R5 G5 R6 G6.
  change (mkDesc false false true s t') with (word_ref s t').
  apply wpr_bind, w_assert; [rewrite isMarked_rdcss; apply (WW_facts s t' W2 W1)|]. apply wpr_bind, w_load; intros m7 R7 G7. apply wpr_bind, w_load; intros m8 R8 G8. apply wpr_bind, w_address; [apply (i_range m8 (proj1 G8)), W1|].
  apply wpr_bind, w_CASField; [exact Logic.I|split; [reflexivity|exact W1]|]. intros m9 m10 m11 R9 G9 R10 G10 R11 G11. cbn [word_ref d_seq]. unfold now at 1. cbn [word_ref d_isKCAS d_tid].
  assert (Hfr : forall m mf, Rt ma m -> Rt m mf -> wseq mf t' = s -> forall l, wset t' l -> l <> LW t' -> m l = ma l) by (intros m mf; apply (fresh ma t' Hev)).
  assert (Hown : t' = t -> forall m, Rt ma m -> wseq m t' = s) by (intros -> m HR; apply R_wseq, HR).
  assert (Ra8 : Rt ma m8) by rch. assert (Rb11 : Rt mb m11) by rch.
  assert (Ho8 : t' = t -> m8 (LWWord t' WOff) = off ma u i). { intros E. rewrite (Hfr m8 m8) by (rch || (apply Hown; [exact E|rch]) || reflexivity || discriminate). apply D. }
  assert (Hha : t' = t -> half ma (off ma u i) t u i). { intros E. split; [apply Hself, E|]. rewrite <- E. split; [exact Hev|exact D]. }
  destruct (negb (s =? wseq m10 t')) eqn:E10; [cbn [fst wpr]; apply H; [exact Rb11|exact G11|]|].
  { intros E. exfalso. rewrite (Hown E m10), N.eqb_refl in E10 by rch. discriminate. }
  fold (as_word C (word_ref s t')). fold (WW s t'). destruct (negb (clean (m9 (LArr (m8 (LWWord t' WOff)))) =? WW s t')) eqn:E9; [cbn [fst wpr]; apply H; [exact Rb11|exact G11|]|].
  { intros E. rewrite (Ho8 E) in E9. fold (contents m9 (off ma u i)) in E9. destruct (R_half' ma m9 _ _ _ ltac:(rch) (Hha E)) as [[(Eh & _) _]|K].
    - exfalso. rewrite Eh in E9. subst t'. rewrite (Hown eq_refl m9), N.eqb_refl in E9 by rch. discriminate.
    - apply (r_K t m9 m11); [rch|apply Hu|exact K]. }
  intros m12 m13 m14 R12 G12 R13 G13 K13 R14 G14. destruct (m14 (LArr (m8 (LWWord t' WOff))) =? WW s t') eqn:E14.
  - apply N.eqb_eq in E14. intros Hd. destruct (WW_facts s t' W2 W1) as (Wc & _).
    assert (Ec : contents m14 (m8 (LWWord t' WOff)) = WW s t') by (unfold contents; rewrite E14; exact Wc).
    destruct (i_W m14 _ _ _ (proj1 G14) W2 W1 Ec) as (Eq & u' & i' & Hh & Ho & _).
    assert (Hf : forall m, Rt ma m -> Rt m m14 -> forall l, wset t' l -> l <> LW t' -> m l = ma l) by (intros m Q1 Q2; apply (Hfr m m14); [exact Q1|exact Q2|symmetry; exact Eq]).
    assert (E1 : m1 (LWSeq t') = num u) by (rewrite (Hf m1) by (rch || reflexivity || discriminate); apply D).
    assert (E2 : m2 (LWTid t') = u) by (rewrite (Hf m2) by (rch || reflexivity || discriminate); apply D).
    assert (E3 : m3 (LWTid t') = u) by (rewrite (Hf m3) by (rch || reflexivity || discriminate); apply D).
    assert (E8 : m8 (LWWord t' WOff) = off ma u i) by (rewrite (Hf m8) by (rch || reflexivity || discriminate); apply D).
    assert (Eu : u' = u). { rewrite <- (de_tid _ _ _ _ (proj2 (proj2 Hh))). rewrite (Hf m14) by (rch || reflexivity || discriminate). apply D. }
    subst u'. rewrite E1, E2, E3, E8 in *. rewrite (N.mod_small (num u)) by (apply num_B, Hu). rewrite (N.mod_small u) by (apply tidSize_fits, Hu).
    change (mkDesc false true false (num u) u) with (call_ref (num u) u). fold (as_word C (call_ref (num u) u)). fold (KW u).
    cbn [fst snd]. unfold now. cbn [call_ref d_isKCAS d_tid d_seq].
    assert (Hu4 : called m4 u) by (eapply (R_call t ma); [rch|exact Hu]). assert (Hu5 : called m5 u) by (eapply (R_call t ma); [rch|exact Hu]).
    destruct (i_call m4 (proj1 G4) u Hu4) as (Ek & _). rewrite Ek, (proj2 Hu5), N.eqb_refl.
    rewrite (proj1 (kenc_facts Undecided (num u) eq_refl (seq_61 _ _ HC (num_B u (proj1 Hu))))). cbn [km_status]. change (Undecided =? Undecided) with true. cbn [andb]. cbv iota.
    assert (Rc : Rt m14 (upd m14 (LArr (off ma u i)) (dirty (KW u)))) by (eapply R_comp; [exact Ht|apply G14|exact Hh|exact Ho]).
    split; [eapply S_comp; [exact Hh|exact Ho]|]. intros HG. cbn [wpr fst]. apply H; [rch|exact HG|]. intros _. unfold contents. rewrite upd_same, clean_dirty. apply KW_facts, Hu.
  - cbn [wpr fst]. apply H; [rch|exact G14|]. intros E. rewrite (Ho8 E) in *.
    destruct (R_half' ma m12 _ _ _ ltac:(rch) (Hha E)) as [[H12 K1]|K]; [|apply (r_K t m12 m14); [rch|apply Hu|exact K]].
    destruct (R_half' m12 m13 _ _ _ R13 H12) as [[H13 K2]|K]; [|apply (r_K t m13 m14); [rch|apply Hu|exact K]].
    destruct (R_half' m13 m14 _ _ _ R14 H13) as [[H14 K3]|K]; [|exact K]. exfalso. specialize (K13 K2).
    destruct (H12) as (Ec12 & _). unfold contents in Ec12. rewrite <- K13 in Ec12. rewrite (R_wseq ma m12 ltac:(rch)) in Ec12. subst t'. fold s in Ec12.
    destruct K3 as [K3|[K3 _]]; rewrite K3, Ec12 in E14; [rewrite N.eqb_refl in E14; discriminate|]. rewrite (proj1 (WW_facts s t W2 W1)), N.eqb_refl in E14. discriminate.
Qed.
Lemma w_complete_dirty d mb (Q : bool -> mem -> Prop) : N.testbit (desc_encode P d) 0 = true -> N.testbit (desc_encode P d) 2 = true -> d_isRDCSS d = true -> d_isKCAS d = false -> d_tid d < P -> (forall b m', Rt mb m' -> Good m' -> Q b m') -> wpr (completeInstall C d) Q mb.
Proof.
  intros Hd Hr Dr Dk Dt H. unfold completeInstall.
  apply wpr_bind, w_thread; [exact Dt|]. apply wpr_bind, w_load; intros m1 R1 G1. apply wpr_bind, w_load; intros m2 R2 G2. apply wpr_bind, w_load; intros m3 R3 G3.
  apply wpr_bind, w_thread; [apply (i_range m3 (proj1 G3)), Dt|]. apply wpr_bind, w_readField; [exact Logic.I|apply dummy_valid, (i_range m2 (proj1 G2)), Dt|]. intros m4 m5 m6 R4 G4 R5 G5 R6 G6.
  apply wpr_bind, w_assert; [rewrite isMarked_rdcss; exact Hr|]. apply wpr_bind, w_load; intros m7 R7 G7. apply wpr_bind, w_load; intros m8 R8 G8. apply wpr_bind, w_address; [apply (i_range m8 (proj1 G8)), Dt|].
  apply wpr_bind, w_CASField; [exact Logic.I|split; [rewrite Dr, Dk; reflexivity|exact Dt]|]. intros m9 m10 m11 R9 G9 R10 G10 R11 G11. assert (Rb11 : Rt mb m11) by rch.
  destruct (negb (d_seq d =? now m10 d)); [cbn [fst wpr]; apply H; assumption|].
  destruct (N.eqb_spec (clean (m9 (LArr (m8 (LWWord (d_tid d) WOff))))) (desc_encode P d)) as [E|E]; [|cbn [negb fst wpr]; apply H; assumption].
  exfalso. rewrite <- E, clean_spec, N.eqb_refl, andb_false_r in Hd. discriminate.
Qed.
(** A word that was seen in the array. *)
Lemma w_complete_word ma mb j v (Q : bool -> mem -> Prop) : Good ma -> Rt ma mb -> clear t ma -> v = contents ma j \/ v = ma (LArr j) -> N.testbit v 2 = true ->
  (forall b m', Rt mb m' -> Good m' -> Q b m') -> wpr (completeInstall C (desc_decode P v)) Q mb.
Proof.
  intros Ga Rb Hcl Hv Hb H.
  assert (Hh : exists t' u i, half ma j t' u i /\ off ma u i = j).
  { assert (Ec : clean v = contents ma j) by (destruct Hv as [->| ->]; [apply clean_clean|reflexivity]). assert (Hb' : N.testbit (contents ma j) 2 = true) by (rewrite <- Ec, testbit_clean by discriminate; exact Hb).
    destruct (i_cases ma j (proj1 Ga)) as [V|[(u & Hu & E)|Hh]]; [| |exact Hh].
    + exfalso. rewrite V in Hb'. destruct (ar_values _ _ H0 j) as (_ & _ & _ & X). congruence.
    + exfalso. rewrite E in Hb'. destruct (KW_facts u (proj1 Hu)) as (_ & _ & X & _). congruence. }
  destruct Hh as (t' & u & i & (Eh & Hev & D) & Ho). pose proof (de_ok _ _ _ _ D) as [W1 W2 W3 W4 W5 W6]. destruct (WW_facts _ _ W2 W1) as (_ & _ & _ & Dw).
  destruct (N.testbit v 0) eqn:E0.
  - assert (Df : d_isRDCSS (desc_decode P v) = true /\ d_isKCAS (desc_decode P v) = false /\ d_tid (desc_decode P v) = t').
    { assert (Ec : clean v = contents ma j) by (destruct Hv as [->| ->]; [apply clean_clean|reflexivity]). rewrite <- Eh, <- Ec in Dw. unfold desc_decode in Dw.
      rewrite (field_clean _ 1), (field_clean _ 2), (field_clean _ 3), (field_clean _ (seqSize P + 1 + 1 + 1)) in Dw by lia. injection Dw as D1 D2 D3 D4 D5. unfold desc_decode. cbn [d_tid d_seq d_isKCAS d_isRDCSS]. repeat split; assumption. }
    destruct Df as (Df1 & Df2 & Df3). destruct (desc_flags (m_log C) (desc_decode P v) HC) as (F0 & _ & F2).
    { split; [exact (decode_seq_lt C HC v)|]. unfold desc_decode. cbn [d_tid]. apply field_lt. pose proof (tidSize_range (m_log C) HC). lia. }
    change DirtyFlag with (2 ^ 0) in F0. rewrite land_pow2 in F0. change RDCSSFlag with (2 ^ 2) in F2. rewrite land_pow2 in F2.
    apply w_complete_dirty; [rewrite F0, decode_dirty; exact E0|rewrite F2; exact Df1|exact Df1|exact Df2|rewrite Df3; exact W1|exact H].
  - assert (Ev : v = contents ma j). { destruct Hv as [->| ->]; [reflexivity|]. unfold contents. symmetry. apply clean_id. unfold isclean. rewrite isMarked_dirty. exact E0. }
    rewrite Ev, Eh, Dw.
    apply (w_complete ma mb t' u i); [exact Ga|exact Rb|exact Hev|exact D| |].
    + intros ->. exfalso. exact (Hcl _ _ W2 Eh).
    + intros b m' R' G' _. apply H; assumption.
Qed.

(** *** A new word descriptor *)

Section CreateW.
Context (ms : mem).
Record stage (q : N) (m : mem) : Prop := { sg_good : Good m; sg_later : later ms m; sg_clear : clear t m; sg_seq : wseq m t = q }.
Lemma stage_R q m m' : Rt m m' -> Good m' -> stage q m -> stage q m'.
Proof. intros HR HG [S1 S2 S3 S4]. split; [exact HG|eapply later_trans; [exact S2|apply later_R, HR]|eapply clear_R; eassumption|rewrite (R_wseq m m' HR); exact S4]. Qed.
Lemma stage_upd q q' m l v : wset t l -> step t m (upd m l v) -> Good (upd m l v) -> wseq (upd m l v) t = q' -> stage q m -> stage q' (upd m l v).
Proof.
  intros Hl Hs HG Hq [S1 S2 S3 S4]. split; [exact HG|eapply later_trans; [exact S2|apply later_step; [apply S1|exact Hs]]| |exact Hq].
  intros j s Hs' E. rewrite upd_contents in E by (intros ->; exact Hl). exact (S3 j s Hs' E).
Qed.
Lemma w_field q l v (Q : unit -> mem -> Prop) m : stage q m -> N.even q = false -> wset t l -> l <> LW t -> (l = LWTid t -> v < P) -> (l = LWWord t WOff -> v < m_size C) ->
  (forall n, stage q n -> n l = v -> (forall l', wset t l' -> l' <> LW t -> l' <> l -> n l' = m l') -> Q tt n) -> wpr (mdo (MStore l v)) Q m.
Proof.
  intros S0 Hq Hl Hn Hv1 Hv2 H. apply w_store. intros m1 R1 G1. pose proof (stage_R _ _ _ R1 G1 S0) as S1.
  assert (Hs : step t m1 (upd m1 l v)). { apply S_word; [exact Hl|apply S1|intros _; rewrite (sg_seq _ _ S1); exact Hq|contradiction|exact Hv1|exact Hv2]. }
  split; [exact Hs|]. intros HG. apply H.
  - eapply stage_upd; [exact Hl|exact Hs|exact HG| |exact S1]. rewrite wseq_upd by exact Hn. apply S1.
  - apply upd_same.
  - intros l' Hl' Hn' Hd. rewrite upd_other by exact Hd. apply R_wfld; assumption.
Qed.
Lemma w_number q v (Q : unit -> mem -> Prop) m : stage q m -> wm_seq (wmut_decode v) = q + 1 ->
  (forall n, stage (q + 1) n -> (forall l', wset t l' -> l' <> LW t -> n l' = m l') -> Q tt n) -> wpr (mdo (MStore (LW t) v) ;;; m_persist (LW t) v)%mprog Q m.
Proof.
  intros S0 Hv H. apply wpr_bind, w_store. intros m1 R1 G1. pose proof (stage_R _ _ _ R1 G1 S0) as S1.
  assert (Hs : step t m1 (upd m1 (LW t) v)). { apply S_word; [reflexivity|apply S1|contradiction|intros _; rewrite (sg_seq _ _ S1); exact Hv|discriminate|discriminate]. }
  split; [exact Hs|]. intros HG. assert (S2 : stage (q + 1) (upd m1 (LW t) v)).
  { eapply stage_upd; [reflexivity|exact Hs|exact HG| |exact S1]. unfold wseq. rewrite upd_same. exact Hv. }
  apply w_persist; [exact Logic.I|]. intros m2 m3 R2 G2 R3 G3 _. apply H.
  - eapply stage_R; [exact R3|exact G3|]. eapply stage_R; [exact R2|exact G2|exact S2].
  - intros l' Hl' Hn'. rewrite (R_wfld m2 m3), (R_wfld _ m2 l' R2) by assumption. rewrite upd_other by exact Hn'. apply R_wfld; assumption.
Qed.
End CreateW.
Lemma w_createW u x kd i (Q : descref -> mem -> Prop) m : Good m -> here u i m -> (i < cnt m u)%nat -> o_off x = off m u i -> o_old x = m (LKWord u i WOld) -> d_seq kd = num u ->
  (forall m', Good m' -> later m m' -> here u i m' -> describes m' t u i -> Q (word_ref (wseq m' t) t) m') -> wpr (createW C t u x kd) Q m.
Proof.
  intros G Hh Hi Hx1 Hx2 Hkd H. pose proof (he_called _ _ _ Hh) as Hu. destruct (i_call m (proj1 G) u Hu) as (_ & _ & Hw). destruct (Hw i Hi) as (Hsz & Vo & _).
  set (q := wseq m t). assert (Hev : N.even q = true) by apply Hh.
  unfold createW. apply wpr_bind, w_assert; [apply N.ltb_lt, Ht|]. apply wpr_bind, w_assert; [apply N.ltb_lt, Hu|]. apply wpr_bind, w_thread; [exact Ht|].
  apply wpr_bind, w_read; [exact Logic.I|]. intros m1 m2 R1 G1 R2 G2 _. rewrite wseq_clean. fold (wseq m1 t). rewrite (R_wseq m m1 R1). fold q.
  assert (Hqb : q + 2 < B). { destruct (proj2 G t Ht) as [_ X]. exact X. } pose proof (seq_63 _ _ HC Hqb) as H63.
  rewrite (N.mod_small (q + 1)) by lia. replace (q + 1 + 1) with (q + 2) by lia. rewrite (N.mod_small (q + 2)) by lia. rewrite (N.mod_small (q + 2) B) by exact Hqb. cbn zeta.
  destruct (wenc_facts (q + 2) H63) as (D2 & E2 & F2). destruct (wenc_facts (q + 1) ltac:(lia)) as (D1 & E1 & F1). rewrite F2, F1.
  assert (S2 : stage m q m2). { split; [exact G2|apply later_R; rch|eapply clear_R; [|apply Hh]; rch|rewrite (R_wseq m m2) by rch; reflexivity]. }
  assert (Hodd : N.even (q + 1) = false) by (rewrite N.add_1_r, N.even_succ, <- N.negb_even, Hev; reflexivity).
  assert (Hassoc : forall (p1 p2 : mprog unit) (p3 : mprog descref), wpr ((p1 ;;; p2) ;;; p3)%mprog Q m2 -> wpr (p1 ;;; p2 ;;; p3)%mprog Q m2).
  { intros p1 p2 p3 Hp. clear -Hp. revert Hp. generalize m2. induction p1 as [a|e|c k IH]; intros m' Hp; [exact Hp|exact Hp|]. cbn in *. intros m1 R1 G1. specialize (Hp m1 R1 G1).
    destruct (mexec c m1) as [r mm]. intros Hd. destruct (Hp Hd) as [X Y]. split; [exact X|]. apply IH, Y. }
  apply Hassoc. clear Hassoc. apply wpr_bind, (w_number m q); [exact S2|rewrite <- wseq_clean, clean_dirty, E1, D1; reflexivity|]. intros n1 S3 K1.
  apply wpr_bind, (w_field m (q + 1)); [exact S3|exact Hodd|reflexivity|discriminate|discriminate|intros _; rewrite Hx1; exact Hsz|]. intros n2 S4 V2 K2.
  apply wpr_bind, (w_field m (q + 1)); [exact S4|exact Hodd|reflexivity|discriminate|discriminate|discriminate|]. intros n3 S5 V3 K3.
  apply wpr_bind, (w_field m (q + 1)); [exact S5|exact Hodd|reflexivity|discriminate|discriminate|discriminate|]. intros n4 S6 V4 K4.
  apply wpr_bind, (w_field m (q + 1)); [exact S6|exact Hodd|reflexivity|discriminate|discriminate|discriminate|]. intros n5 S7 V5 K5.
  apply wpr_bind, (w_field m (q + 1)); [exact S7|exact Hodd|reflexivity|discriminate|intros _; apply Hu|discriminate|]. intros n6 S8 V6 K6.
  assert (Hassoc : forall (p1 p2 : mprog unit) (p3 : mprog descref), wpr ((p1 ;;; p2) ;;; p3)%mprog Q n6 -> wpr (p1 ;;; p2 ;;; p3)%mprog Q n6).
  { intros p1 p2 p3 Hp. clear -Hp. revert Hp. generalize n6. induction p1 as [a|e|c k IH]; intros m' Hp; [exact Hp|exact Hp|]. cbn in *. intros m1 R1 G1. specialize (Hp m1 R1 G1).
    destruct (mexec c m1) as [r mm]. intros Hd. destruct (Hp Hd) as [X Y]. split; [exact X|]. apply IH, Y. }
  apply Hassoc. clear Hassoc. apply wpr_bind, (w_number m (q + 1)); [exact S8|rewrite <- wseq_clean, clean_dirty, E2, D2; cbn [wm_seq]; lia|]. intros n7 S9 K7. cbn [wpr].
  replace (q + 1 + 1) with (q + 2) in S9 by lia. destruct S9 as [Z1 Z2 Z3 Z4]. pose proof (proj1 Z2 u Hu) as Kk.
  assert (F0 : n7 (LWWord t WOff) = o_off x) by (rewrite K7, K6, K5, K4, K3, V2 by (reflexivity || discriminate); reflexivity).
  assert (F0' : n7 (LWWord t WOld) = o_old x) by (rewrite K7, K6, K5, K4, V3 by (reflexivity || discriminate); reflexivity).
  assert (F3 : n7 (LWSeq t) = num u) by (rewrite K7, K6, V5 by (reflexivity || discriminate); exact Hkd).
  assert (F4 : n7 (LWTid t) = u) by (rewrite K7, V6 by (reflexivity || discriminate); reflexivity).
  change (mkDesc false false true (q + 2) t) with (word_ref (q + 2) t). rewrite <- Z4. apply H; [exact Z1|exact Z2| |].
  - apply (here_later u i m n7); [exact Z2|exact Z3|rewrite Z4|exact Hh]. rewrite N.even_add, Hev. reflexivity.
  - split; rewrite ?F0, ?F0', ?F3, ?F4, ?(k_off m n7 u i Kk), ?(k_fld m n7 u i _ Kk), ?(k_cnt m n7 u Kk); try assumption; try reflexivity.
    + split; rewrite ?F0, ?F0', ?F3, ?F4, ?Z4, ?Hx1, ?Hx2; [exact Ht|exact Hqb|exact Hsz|apply Hu|apply num_B, Hu|apply mval_clean, Vo].
    + eapply later_called; eassumption.
Qed.

(** *** InstallMwCASDescriptor *)

Definition found (u : N) (i : nat) (v : N) (m : mem) : Prop :=
  (v = m (LWWord t WOld) /\ contents m (off m u i) = KW u) \/
  (v <> m (LWWord t WOld) /\ (N.testbit v 1 = true -> exists w, called m w /\ clean v = KW w /\ contents m (off m u i) = KW w)).
Lemma w_install n u i (Q : N * bool -> mem -> Prop) : forall m, Good m -> here u i m -> describes m t u i ->
  (forall v m', Good m' -> here u i m' -> describes m' t u i -> later m m' -> found u i v m' -> Q (v, true) m') -> wpr (install C n (word_ref (wseq m t) t)) Q m.
Proof.
  induction n as [|n IH]; intros m G Hh D H; [reflexivity|]. pose proof (he_called _ _ _ Hh) as Hu. pose proof (de_ok _ _ _ _ D) as [W1 W2 W3 W4 W5 W6].
  cbn [install]. cbn [d_tid word_ref]. apply wpr_bind, w_load; intros m1 R1 G1. apply wpr_bind, w_load; intros m2 R2 G2.
  rewrite (R_wfld m m1 _ R1), (R_wfld m m2 _ ltac:(rch)) by (reflexivity || discriminate). set (old := m (LWWord t WOld)). rewrite (de_off _ _ _ _ D). set (j := off m u i).
  assert (Vo : mval old). { unfold old. rewrite (de_old _ _ _ _ D). destruct (i_call m (proj1 G) u Hu) as (_ & _ & Hw). apply Hw, D. }
  assert (Hold : forall m', Rt m m' -> m' (LWWord t WOld) = old) by (intros m' R'; apply R_wfld; [exact R'|reflexivity|discriminate]).
  assert (Hj : forall m', Rt m m' -> off m' u i = j) by (intros m' R'; apply k_off; eapply R_keqv; eassumption).
  assert (Hjs : j < m_size C) by (unfold j; rewrite <- (de_off _ _ _ _ D); exact W3). apply wpr_bind, w_address; [exact Hjs|]. change (mkDesc false false true (wseq m t) t) with (word_ref (wseq m t) t).
  assert (Hfail : forall mx mb v, Good mx -> Rt m mx -> Rt mx mb -> Good mb -> v = contents mx j \/ v = mx (LArr j) -> v <> old ->
    wpr (if d_isRDCSS (desc_decode P v) then completeInstall C (desc_decode P v) ;;; install C n (word_ref (wseq m t) t)
         else (if v =? old then completeInstall C (word_ref (wseq m t) t) ;;; MRet tt else MRet tt) ;;; MRet (v, true))%mprog Q mb).
  { intros mx mb v Gx Rx Rb Gb Hv Hne. rewrite decode_rdcss. destruct (N.testbit v 2) eqn:E2.
    - apply wpr_bind. apply (w_complete_word mx mb j); [exact Gx|exact Rb|eapply clear_R; [exact Rx|apply Hh]|exact Hv|exact E2|]. intros b m' R' G'.
      assert (Rm : Rt m m') by rch. rewrite <- (R_wseq m m' Rm). apply IH; [exact G'|eapply here_R; eassumption|eapply R_describes; eassumption|].
      intros v' m'' G'' h'' d'' L'' F''. apply H; [exact G''|exact h''|exact d''|eapply later_trans; [apply later_R, Rm|exact L'']|exact F''].
    - rewrite (proj2 (N.eqb_neq v old) Hne). cbn [wpr mbind]. assert (Rm : Rt m mb) by rch.
      apply H; [exact Gb|eapply here_R; eassumption|eapply R_describes; eassumption|apply later_R, Rm|]. right. rewrite (Hold mb Rm), (Hj mb Rm). split; [exact Hne|]. intros E1.
      assert (Ec : clean v = contents mx j). { destruct Hv as [->| ->]; [apply clean_clean|reflexivity]. }
      rewrite <- (testbit_clean v 1), Ec in E1 by discriminate. rewrite <- (testbit_clean v 2), Ec in E2 by discriminate.
      destruct (i_cases mx j (proj1 Gx)) as [V|[(w & Hw & E)|(t' & u' & i' & (Eh & _ & D') & _)]].
      + exfalso. rewrite V in E1. destruct (ar_values _ _ H0 j) as (_ & _ & X & _). congruence.
      + exists w. rewrite Ec. split; [eapply R_call; [exact Rb|exact Hw]|]. split; [exact E|]. apply (r_K _ _ _ Rb); [apply Hw|exact E].
      + exfalso. pose proof (de_ok _ _ _ _ D') as [X1 X2 _ _ _ _]. rewrite Eh in E2. destruct (WW_facts _ _ X2 X1) as (_ & _ & X & _). congruence. }
  apply wpr_bind, w_CASField; [exact Logic.I|split; [reflexivity|exact Ht]|]. intros m3 m4 m5 R3 G3 R4 G4 R5 G5. cbn [word_ref d_seq]. unfold now. cbn [word_ref d_isKCAS d_tid]. rewrite (R_wseq m m4) by rch. rewrite N.eqb_refl. cbn [negb].
  destruct (N.eqb_spec (clean (m3 (LArr j))) old) as [E3|E3]; cbn [negb].
  - intros m6 m7 m8 R6 G6 R7 G7 _ R8 G8. assert (Rm8 : Rt m m8) by rch. destruct (N.eqb_spec (m8 (LArr j)) old) as [E8|E8].
    + intros Hd. fold (as_word C (word_ref (wseq m t) t)). fold (WW (wseq m t) t). rewrite <- (R_wseq m m8 Rm8).
      pose proof (here_R u i m m8 Rm8 Hh) as H8. pose proof (R_describes m m8 u i Rm8 D) as D8.
      assert (Ec : contents m8 j = old) by (unfold contents; rewrite E8; apply mval_clean, Vo).
      assert (Ec0 : contents m8 j = contents m0 j).
      { destruct (i_cases m8 j (proj1 G8)) as [V|[(w & Hw & E)|(t' & u' & i' & (Eh & _ & D') & _)]]; [exact V|exfalso|exfalso].
        - rewrite Ec in E. revert E. apply KW_val; [apply Hw|exact Vo].
        - pose proof (de_ok _ _ _ _ D') as [X1 X2 _ _ _ _]. rewrite Ec in Eh. revert Eh. apply WW_val; assumption. }
      assert (Hs : step t m8 (upd m8 (LArr j) (dirty (WW (wseq m8 t) t)))).
      { eapply S_inst; [exact Ec0|apply H8|exact D8|apply Hj, Rm8| |apply H8]. rewrite <- Ec0, Ec, <- (de_old _ _ _ _ D8). symmetry. apply Hold, Rm8. }
      split; [exact Hs|]. intros G9. set (m9 := upd m8 (LArr j) (dirty (WW (wseq m8 t) t))) in *. apply wpr_bind, w_assert; [cbn [andb orb negb]; rewrite ?N.eqb_refl; reflexivity|]. cbn [negb]. rewrite decode_rdcss. destruct Vo as (_ & _ & _ & ->). rewrite N.eqb_refl.
      assert (W8 : wseq m8 t < B) by (rewrite (R_wseq m m8 Rm8); exact W2).
      assert (K9 : keqv m8 m9 u) by (apply upd_keqv; exact (fun x => x)). assert (W9 : weqv m8 m9 t) by (apply upd_weqv; exact (fun x => x)).
      assert (D9 : describes m9 t u i) by (eapply describes_eqv; eassumption). assert (Ej9 : contents m9 j = WW (wseq m8 t) t) by (unfold contents, m9; rewrite upd_same, clean_dirty; apply WW_facts; assumption).
      assert (Eo9 : off m9 u i = j) by (rewrite (k_off m8 m9 u i K9); apply Hj, Rm8).
      rewrite <- (w_seq m8 m9 t W9).
      apply wpr_bind, wpr_bind, (w_complete m9 m9 t u i); [exact G9|apply R_refl|rewrite (w_seq m8 m9 t W9); apply H8|exact D9|intros _; rewrite Eo9, (w_seq m8 m9 t W9); exact Ej9|].
      intros b m' R' G' Hk. specialize (Hk eq_refl). rewrite Eo9 in Hk. cbn [wpr mbind].
      assert (L' : later m m'). { eapply later_trans; [apply later_R, Rm8|]. eapply later_trans; [apply later_step; [apply G8|exact Hs]|apply later_R, R']. }
      assert (Hj' : off m' u i = j) by (rewrite (k_off m9 m' u i); [exact Eo9|eapply R_keqv; [exact R'|apply D9]]).
      apply H; [exact G'| |eapply R_describes; eassumption|exact L'|].
      * apply (here_later u i m m'); [exact L'| |rewrite (R_wseq m9 m' R'), (w_seq m8 m9 t W9); apply H8|exact Hh].
        intros k s Hs' E. apply (r_clear _ _ _ R' k s Hs') in E as E'. destruct (decide (k = j)) as [->|Hkj].
        -- rewrite Hk in E. revert E. apply KW_WW; [apply Hu|exact Hs'|exact Ht].
        -- unfold m9 in E'. rewrite upd_contents in E' by congruence. exact (he_clear _ _ _ H8 k s Hs' E').
      * left. rewrite Hj'. split; [|exact Hk]. rewrite (R_wfld m9 m' _ R') by (reflexivity || discriminate). rewrite (w_fld m8 m9 t _ W9) by (reflexivity || discriminate). symmetry. apply Hold, Rm8.
    + apply wpr_bind, w_assert; [cbn [andb orb negb]; rewrite ?N.eqb_refl; reflexivity|]. cbn [negb]. pose proof (Hfail m8 m8 (m8 (LArr j)) G8 Rm8 (R_refl t m8) G8 (or_intror eq_refl) E8) as X. rewrite (proj2 (N.eqb_neq _ _) E8) in X. exact X.
  - apply wpr_bind, w_assert; [cbn [andb orb negb]; rewrite ?N.eqb_refl; reflexivity|]. cbn [negb]. assert (X1 : Rt m m3) by rch. assert (X2 : Rt m3 m5) by rch. pose proof (Hfail m3 m5 (contents m3 j) G3 X1 X2 G5 (or_introl eq_refl) E3) as X. unfold contents in X. rewrite (proj2 (N.eqb_neq _ _) E3) in X. exact X.
Qed.

(** *** Placing the references *)

Definition refers (d : descref) (u : N) : Prop := d_tid d = u /\ d_seq d = num u /\ d_isKCAS d = true /\ d_isRDCSS d = false.
Lemma refers_clean v u : u < P -> clean v = KW u -> refers (desc_decode P v) u.
Proof.
  intros Hu E. destruct (KW_facts u Hu) as (_ & _ & _ & D). rewrite <- E in D. unfold desc_decode in D. rewrite (field_clean _ 1), (field_clean _ 2), (field_clean _ 3), (field_clean _ (seqSize P + 1 + 1 + 1)) in D by lia.
  injection D as D1 D2 D3 D4 D5. unfold refers, desc_decode. cbn [d_tid d_seq d_isKCAS d_isRDCSS]. repeat split; assumption.
Qed.
Lemma w_more u i (Q : bool -> mem -> Prop) m : called m u -> (forall m1, Rt m m1 -> Good m1 -> Q (N.of_nat i <? N.of_nat (cnt m u)) m1) -> wpr (more u i) Q m.
Proof.
  intros Hu H. unfold more. apply wpr_bind, w_load. intros m1 R1 G1. cbn [wpr]. rewrite <- (k_cnt m m1 u (R_keqv t m m1 u R1 Hu)) in H. unfold cnt in H. rewrite <- (N2Nat.id (m1 (LKCount u))). rewrite (N2Nat.id (m1 (LKCount u))) at 1.
  specialize (H m1 R1 G1). rewrite N2Nat.id in *. exact H.
Qed.
Lemma w_word_address u i (Q : loc -> mem -> Prop) m : called m u -> (i < cnt m u)%nat -> (forall m1, Rt m m1 -> Good m1 -> Q (LArr (off m u i)) m1) -> wpr (word_address C u i) Q m.
Proof.
  intros Hu Hi H. unfold word_address. apply wpr_bind, w_load. intros m1 R1 G1. fold (off m1 u i). pose proof (R_keqv t m m1 u R1 Hu) as K. apply w_address.
  - apply (i_call m1 (proj1 G1) u (R_call t m m1 u R1 Hu)). rewrite (k_cnt m m1 u K). exact Hi.
  - rewrite (k_off m m1 u i K). apply H; assumption.
Qed.
Lemma w_place n rec d u : refers d u ->
  (forall d' v j m, Good m -> refers d' v -> here v 0 m -> contents m j = KW v -> wpr (rec d' (LArr j)) (fun _ _ => False) m) ->
  forall i (Q : N -> mem -> Prop) m, Good m -> here u i m -> (forall st m', Good m' -> here u 0 m' -> st = Succeeded \/ st = Failed -> Q st m') -> wpr (place C n rec t d i false) Q m.
Proof.
  intros (Dt & Ds & Dk & Dr) Hrec. induction n as [|n IH]; intros i Q m G Hh H; [reflexivity|]. cbn [place]. rewrite Dt.
  assert (Hzero : forall k m', here u k m' -> here u 0 m') by (intros k m' [X1 X2 X3 X4 X5]; split; [exact X1|exact X2|exact X3|lia|intros; lia]).
  pose proof (he_called _ _ _ Hh) as Hu. apply wpr_bind, w_more; [exact Hu|]. intros m1 R1 G1. destruct (N.ltb_spec (N.of_nat i) (N.of_nat (cnt m u))) as [Hi|Hi]; cbn [negb].
  2:{ cbn [wpr]. apply H; [exact G1|apply (Hzero i); eapply here_R; eassumption|left; reflexivity]. }
  assert (Hi' : (i < cnt m u)%nat) by lia. clear Hi.
  unfold load_word. apply wpr_bind, wpr_bind, w_load; intros m2 R2 G2. apply wpr_bind, w_load; intros m3 R3 G3. apply wpr_bind, w_load; intros m4 R4 G4. cbn [wpr].
  assert (Rm : Rt m m4) by rch. pose proof (R_keqv t m m4 u Rm Hu) as K4. assert (K2 : keqv m m2 u) by (apply (R_keqv t); [rch|exact Hu]). assert (K3 : keqv m m3 u) by (apply (R_keqv t); [rch|exact Hu]).
  pose proof (here_R u i m m4 Rm Hh) as H4.
  apply wpr_bind, (w_createW u _ d i); [exact G4|exact H4|rewrite (k_cnt m m4 u K4); exact Hi'| | |exact Ds|].
  { cbn [o_off]. unfold off. rewrite (k_fld m m4 u i _ K4), (k_fld m m2 u i _ K2). reflexivity. }
  { cbn [o_old]. rewrite (k_fld m m4 u i _ K4), (k_fld m m3 u i _ K3). reflexivity. }
  intros m5 G5 L5 H5 D5. apply wpr_bind, (w_install n u i); [exact G5|exact H5|exact D5|]. intros v m6 G6 H6 D6 L6 F6. cbn [negb word_ref d_tid].
  apply wpr_bind, w_load; intros m7 R7 G7. rewrite (R_wfld m6 m7 _ R7) by (reflexivity || discriminate). pose proof (he_called _ _ _ H6) as Hu6. pose proof (de_i _ _ _ _ D6) as Hi6.
  assert (Hnext : forall m', Rt m6 m' -> contents m6 (off m6 u i) = KW u -> here u (S i) m').
  { intros m' R' E. apply (here_R u (S i) m6 m' R'). destruct H6 as [X1 X2 X3 X4 X5]. split; [exact X1|exact X2|exact X3|lia|]. intros k Hk. destruct (decide (k = i)) as [->|]; [exact E|apply X5; lia]. }
  destruct F6 as [[Ev Ek]|[Ev Ek]].
  { rewrite Ev, N.eqb_refl. apply IH; [exact G7|apply Hnext; assumption|exact H]. }
  rewrite (proj2 (N.eqb_neq _ _) Ev), decode_kcas. destruct (N.testbit v 1) eqn:E1.
  2:{ cbn [wpr]. apply H; [exact G7|apply (Hzero i); eapply here_R; eassumption|right; reflexivity]. }
  destruct (Ek eq_refl) as (w & Hw & Ec & Ej). pose proof (refers_clean v w (proj1 Hw) Ec) as Rf. destruct (Rf) as (T1 & T2 & T3 & T4).
  apply wpr_bind. assert (Hrest : forall m8, Rt m6 m8 -> Good m8 -> wpr (if (d_tid (desc_decode P v) =? u) && (d_seq (desc_decode P v) =? d_seq d) then place C n rec t d (S i) false
      else a <-- word_address C u i;; rec (desc_decode P v) a ;;; place C n rec t d i true)%mprog Q m8).
  { intros m8 R8 G8. rewrite T1, T2, Ds. destruct (N.eqb_spec w u) as [->|Hne]; cbn [andb].
    - rewrite N.eqb_refl. apply IH; [exact G8|apply Hnext; assumption|exact H].
    - pose proof (R_call t m6 m8 u R8 Hu6) as Hu8. assert (Hi8 : (i < cnt m8 u)%nat) by (rewrite (k_cnt m6 m8 u (R_keqv t m6 m8 u R8 Hu6)); exact Hi6). apply wpr_bind, w_word_address; [exact Hu8|exact Hi8|]. intros m9 R9 G9. rewrite (k_off m6 m8 u i (R_keqv t m6 m8 u R8 Hu6)).
      apply wpr_bind. eapply wpr_mono; [|apply Hrec with (v := w); [exact G9|exact Rf| |]].
      + intros a m' [].
      + assert (R' : Rt m6 m9) by rch. pose proof (here_R u i m6 m9 R' H6) as [_ X2 X3 _ _]. split; [eapply R_call; eassumption|exact X2|exact X3|lia|intros; lia].
      + assert (R' : Rt m6 m9) by rch. apply (r_K _ _ _ R'); [apply Hw|exact Ej]. }
  destruct (d_isDirty (desc_decode P v)).
  - apply wpr_bind, w_word_address; [eapply R_call; [exact R7|exact Hu6]|rewrite (k_cnt m6 m7 u (R_keqv t m6 m7 u R7 Hu6)); exact Hi6|]. intros m8 R8 G8. apply w_persist; [exact Logic.I|]. intros m9 m10 R9 G9 R10 G10 _. apply Hrest; [rch|exact G10].
  - cbn [wpr]. apply Hrest; assumption.
Qed.
Lemma w_find n u j (Q : nat -> mem -> Prop) : forall i m, called m u ->
  (forall k m', Rt m m' -> Good m' -> k = 0%nat \/ (exists k', k = S k' /\ (k' < cnt m' u)%nat /\ off m' u k' = j) -> Q k m') -> wpr (find_start C n u (LArr j) i) Q m.
Proof.
  induction n as [|n IH]; intros i m Hu H; [reflexivity|]. cbn [find_start]. apply wpr_bind, w_more; [exact Hu|]. intros m1 R1 G1. pose proof (R_call t m m1 u R1 Hu) as Hu1. pose proof (R_keqv t m m1 u R1 Hu) as K1.
  destruct (N.ltb_spec (N.of_nat i) (N.of_nat (cnt m u))) as [Hi|Hi].
  - apply wpr_bind, w_word_address; [exact Hu1|rewrite (k_cnt m m1 u K1); lia|]. intros m2 R2 G2. pose proof (R_keqv t m1 m2 u R2 Hu1) as K2. destruct (decide (LArr (off m1 u i) = LArr j)) as [E|E].
    + cbn [wpr]. apply H; [rch|exact G2|]. right. exists i. split; [reflexivity|]. rewrite (k_cnt m1 m2 u K2), (k_cnt m m1 u K1), (k_off m1 m2 u i K2). split; [lia|]. injection E. exact (fun x => x).
    + apply IH; [eapply R_call; [exact R2|exact Hu1]|]. intros k m' R' G' Hk. apply H; [rch|exact G'|exact Hk].
  - cbn [wpr]. apply H; [exact R1|exact G1|left; reflexivity].
Qed.
Lemma w_persist_words n u (Q : unit -> mem -> Prop) : forall i m, called m u -> (forall m', Rt m m' -> Good m' -> Q tt m') -> wpr (persist_words C n u i) Q m.
Proof.
  induction n as [|n IH]; intros i m Hu H; [reflexivity|]. cbn [persist_words]. apply wpr_bind, w_more; [exact Hu|]. intros m1 R1 G1. pose proof (R_call t m m1 u R1 Hu) as Hu1.
  destruct (N.ltb_spec (N.of_nat i) (N.of_nat (cnt m u))) as [Hi|_]; [|cbn [wpr]; apply H; assumption].
  apply wpr_bind, w_word_address; [exact Hu1|rewrite (k_cnt m m1 u (R_keqv t m m1 u R1 Hu)); lia|]. intros m2 R2 G2. apply wpr_bind, w_read; [exact Logic.I|]. intros m3 m4 R3 G3 R4 G4 _. apply IH; [apply (R_call t m1); [rch|exact Hu1]|]. intros m' R' G'. apply H; [rch|exact G'].
Qed.

(** *** A call does not return: it would be decided first *)

Lemma w_decide d u st m (Q : bool * N * bool -> mem -> Prop) : refers d u -> called m u -> st = Succeeded \/ st = Failed ->
  wpr (CASField C d (kmut_encode (mkKmut false Undecided (d_seq d))) (kmut_encode (mkKmut true st (d_seq d))) (LK u)) Q m.
Proof.
  intros (Dt & Ds & Dk & Dr) Hu Hst. assert (Hst4 : st < 4) by (destruct Hst as [->| ->]; reflexivity). pose proof (seq_61 _ _ HC (num_B u (proj1 Hu))) as H61.
  destruct (kenc_facts st (num u) Hst4 H61) as (D1 & E1 & F1). destruct (kenc_facts Undecided (num u) eq_refl H61) as (D0 & E0 & F0). rewrite Ds, F1. fold (kenc Undecided (num u)).
  apply w_CASField; [exact Logic.I|split; [rewrite Dk, Dr; reflexivity|rewrite Dt; apply Hu]|]. intros m1 m2 m3 R1 G1 R2 G2 R3 G3. unfold now. rewrite Dk, Dt, Ds.
  assert (Hu1 : called m1 u) by (eapply R_call; eassumption). assert (Hu2 : called m2 u) by (eapply R_call; eassumption). rewrite (proj2 Hu2), N.eqb_refl. cbn [negb].
  rewrite (proj1 (i_call m1 (proj1 G1) u Hu1)), N.eqb_refl. cbn [negb]. intros m4 m5 m6 R4 G4 R5 G5 K R6 G6.
  assert (Hu4 : called m4 u) by (apply (R_call t m2); [rch|exact Hu2]). assert (Hu5 : called m5 u) by (eapply R_call; eassumption).
  assert (E5 : m5 (LK u) = kenc Undecided (num u)). { rewrite K by (apply (r_called _ _ _ R5 u Hu4); reflexivity). apply (i_call m4 (proj1 G4) u Hu4). }
  assert (E6 : m6 (LK u) = kenc Undecided (num u)). { destruct (r_called _ _ _ R6 u Hu5 (LK u) eq_refl) as [->|[-> _]]; rewrite E5; [reflexivity|exact E0]. }
  rewrite E6, N.eqb_refl. intros Hd. exfalso. destruct (Hd u (proj1 Hu)) as [[X|X] _].
  - unfold kseq in X. rewrite upd_same in X. change (sq (dirty (dirty (kenc st (num u)))) = sq (m0 (LK u))) in X. rewrite !sq_dirty in X. unfold sq in X. rewrite D1 in X. cbn [km_seq] in X. unfold num, kseq in X. lia.
  - unfold kstat in X. rewrite upd_same in X. change (stt (dirty (dirty (kenc st (num u)))) = Undecided) in X. rewrite <- stt_clean, clean_dirty, stt_clean, <- stt_clean, clean_dirty, stt_clean in X. unfold stt in X. rewrite D1 in X. cbn [km_status] in X. destruct Hst as [->| ->]; discriminate X.
Qed.
Lemma w_pmwcas n : forall d u addr m, Good m -> refers d u -> here u 0 m -> match addr with None => True | Some a => exists j, a = LArr j /\ contents m j = KW u end ->
  wpr (pmwcas C n t d addr) (fun _ _ => False) m.
Proof.
  induction n as [|n IH]; intros d u addr m G Hd Hh Ha; [reflexivity|]. destruct (Hd) as (Dt & Ds & Dk & Dr). pose proof (he_called _ _ _ Hh) as Hu. cbn [pmwcas]. rewrite Dt. apply wpr_bind, w_thread; [apply Hu|].
  assert (Hrest : forall i m1, Good m1 -> here u i m1 -> wpr (st <-- place C n (fun d' a => pmwcas C n t d' (Some a)) t d i false;;
      (if (st =? Succeeded)%N then persist_words C n u 0 else MRet tt) ;;;
      let mOld := kmut_encode (mkKmut false Undecided (d_seq d)) in
      let mNew := kmut_encode (mkKmut true st (d_seq d)) in
      c <-- CASField C d mOld mNew (LK u);;
      m_persist (LK u) mNew ;;;
      if negb (snd c) then MRet false
      else finish C n d st 0 ;;; MRet (st =? Succeeded)%N)%mprog (fun _ _ => False) m1).
  { intros i m1 G1 H1. apply wpr_bind, (w_place n _ d u Hd); [|exact G1|exact H1|].
    - intros d' v j m' G' D' H' E'. apply (IH d' v (Some (LArr j))); [exact G'|exact D'|exact H'|]. exists j. split; [reflexivity|exact E'].
    - intros st m2 G2 H2 Hst. apply wpr_bind. pose proof (he_called _ _ _ H2) as Hu2.
      destruct (st =? Succeeded); [apply w_persist_words; [exact Hu2|]; intros m3 R3 G3; apply wpr_bind, w_decide; [exact Hd|eapply R_call; eassumption|exact Hst]|].
      cbn [wpr]. apply wpr_bind, w_decide; [exact Hd|exact Hu2|exact Hst]. }
  apply wpr_bind. destruct addr as [a|].
  - destruct Ha as (j & -> & Ej). apply w_find; [exact Hu|]. intros k m1 R1 G1 Hk. apply Hrest; [exact G1|]. pose proof (here_R u 0 m m1 R1 Hh) as H1. destruct Hk as [->|(k' & -> & Hk' & Ek)]; [exact H1|].
    destruct H1 as [X1 X2 X3 X4 X5]. assert (E1 : contents m1 (off m1 u k') = KW u) by (rewrite Ek; apply (r_K _ _ _ R1); [apply Hu|exact Ej]).
    split; [exact X1|exact X2|exact X3|lia|]. intros i Hi. destruct (decide (i = k')) as [->|Hn]; [exact E1|]. apply (i_pre m1 (proj1 G1) u i k'); [exact X1|lia|left; exact E1].
  - cbn [wpr]. apply Hrest; assumption.
Qed.

(** *** A new call *)

Record own (q : N) (m : mem) : Prop := { ow_clear : clear t m; ow_even : N.even (wseq m t) = true; ow_seq : kseq m t = q }.
Lemma own_R q m m' : Rt m m' -> own q m -> own q m'.
Proof. intros HR [S1 S2 S3]. split; [eapply clear_R; eassumption|rewrite (R_wseq m m' HR); exact S2|]. rewrite (eqv_kseq m m' t); [exact S3|]. apply (R_own_k t m m' HR). reflexivity. Qed.
Lemma own_called q m : q <> num t -> own q m -> ~ called m t.
Proof. intros Hq [_ _ S3] [_ E]. congruence. Qed.
Lemma own_upd q q' m l v : kset t l -> kseq (upd m l v) t = q' -> own q m -> own q' (upd m l v).
Proof.
  intros Hl Hq [S1 S2 S3]. split; [|rewrite wseq_upd by (intros ->; exact Hl); exact S2|exact Hq].
  intros j s Hs E. rewrite upd_contents in E by (intros ->; exact Hl). exact (S1 j s Hs E).
Qed.
Lemma R_kfld m m' l : Rt m m' -> kset t l -> l <> LK t -> m' l = m l.
Proof. intros HR Hl Hn. apply (eqv_plain _ _ _ (R_own_k t m m' HR l Hl)). destruct l; try exact (fun x => x); cbn in Hl; subst; contradiction. Qed.
Lemma w_kfield q l v (Q : unit -> mem -> Prop) m : own q m -> q <> num t -> kset t l -> l <> LK t ->
  (forall n, own q n -> n l = v -> clean (n (LK t)) = clean (m (LK t)) -> (forall l', kset t l' -> l' <> LK t -> l' <> l -> n l' = m l') -> Q tt n) -> wpr (mdo (MStore l v)) Q m.
Proof.
  intros S0 Hq Hl Hn H. apply w_store. intros m1 R1 G1. pose proof (own_R _ _ _ R1 S0) as S1.
  split; [apply S_plain; [exact Hl|exact Hn|eapply own_called; eassumption]|]. intros _. apply H.
  - eapply own_upd; [exact Hl| |exact S1]. unfold kseq. rewrite upd_other by congruence. apply S1.
  - apply upd_same.
  - rewrite upd_other by congruence. apply (R_own_k t m m1 R1). reflexivity.
  - intros l' Hl' Hn' Hd. rewrite upd_other by exact Hd. apply R_kfld; assumption.
Qed.
Lemma w_store_words q l : q <> num t -> forall i (Q : unit -> mem -> Prop) m, own q m ->
  (forall n, own q n -> clean (n (LK t)) = clean (m (LK t)) -> (forall l', kset t l' -> l' <> LK t -> (forall k f, (i <= k)%nat -> l' <> LKWord t k f) -> n l' = m l') ->
    (forall k x, nth_error l k = Some x -> n (LKWord t (i + k) WOff) = o_off x /\ n (LKWord t (i + k) WOld) = o_old x /\ n (LKWord t (i + k) WNew) = o_new x) -> Q tt n) ->
  wpr (store_words t i l) Q m.
Proof.
  intros Hq. induction l as [|x l IH]; intros i Q m S0 H; cbn [store_words].
  - cbn [wpr]. apply H; [exact S0|reflexivity|reflexivity|]. intros k y Hy. destruct k; discriminate Hy.
  - apply wpr_bind, (w_kfield q); [exact S0|exact Hq|reflexivity|discriminate|]. intros n1 S1 V1 L1 K1.
    apply wpr_bind, (w_kfield q); [exact S1|exact Hq|reflexivity|discriminate|]. intros n2 S2 V2 L2 K2.
    apply wpr_bind, (w_kfield q); [exact S2|exact Hq|reflexivity|discriminate|]. intros n3 S3 V3 L3 K3.
    apply IH; [exact S3|]. intros n S4 L4 K4 W4. apply H; [exact S4|congruence| |].
    + intros l' Hl' Hn' Hk. rewrite K4; [|exact Hl'|exact Hn'|intros k f Hkk; apply Hk; lia]. rewrite K3, K2, K1 by first [assumption|apply Hk; lia]. reflexivity.
    + intros k y Hy. destruct k as [|k]; cbn in Hy.
      * injection Hy as <-. rewrite Nat.add_0_r. assert (Hlt : forall k f f', (S i <= k)%nat -> LKWord t i f <> LKWord t k f') by (intros k f f' Hk E; injection E; lia).
        rewrite !K4 by first [reflexivity|discriminate|intros k f Hk; apply Hlt, Hk]. rewrite V3. rewrite (K3 (LKWord t i WOff)), (K3 (LKWord t i WOld)) by (reflexivity || discriminate).
        rewrite V2. rewrite (K2 (LKWord t i WOff)) by (reflexivity || discriminate). rewrite V1. repeat split.
      * replace (i + S k)%nat with (S i + k)%nat by lia. apply W4, Hy.
Qed.
Lemma sorted_nth l : strictly_sorted l = true -> forall i k x y, (i < k)%nat -> nth_error l i = Some x -> nth_error l k = Some y -> o_off x < o_off y.
Proof.
  induction l as [|z l IH]; intros Hs i k x y Hik Hx Hy; [destruct i; discriminate Hx|]. destruct k as [|k]; [lia|]. cbn in Hy. destruct i as [|i].
  - injection Hx as <-. apply (sorted_head _ _ Hs). eapply nth_error_In, Hy.
  - cbn in Hx. apply (IH (sorted_tail _ _ Hs) i k); [lia|exact Hx|exact Hy].
Qed.
Lemma w_createK ws (Q : descref -> mem -> Prop) m : own (kseq m0 t) m -> legal_mop C (MwCas ws) -> expects_values (MwCas ws) -> asked t (sort_words ws) ->
  (forall m', Good m' -> here t 0 m' -> Q (call_ref (num t) t) m') -> wpr (createK C t ws) Q m.
Proof.
  intros S0 (Hsz & Hne & HK & Hnd & Hnew) Hexp Hask H. set (s := kseq m0 t) in *. assert (Hfit : s + 2 < B) by apply num_B, Ht. pose proof (seq_61 _ _ HC Hfit) as H61. unfold createK.
  assert (N1 : s <> num t) by (unfold num; fold s; lia). assert (N2 : s + 1 <> num t) by (unfold num; fold s; lia).
  apply wpr_bind, w_assert; [apply N.ltb_lt, Ht|]. apply wpr_bind, w_assert. { destruct ws; [contradiction|]. apply andb_true_intro. split; [reflexivity|apply Nat.leb_le; exact HK]. }
  apply wpr_bind, w_thread; [exact Ht|]. apply wpr_bind, w_read; [exact Logic.I|]. intros m1 m2 R1 G1 R2 G2 _.
  pose proof (own_R _ _ _ R1 S0) as S1. pose proof (own_R _ _ _ R2 S1) as S2.
  assert (Es : km_seq (kmut_decode (clean (m1 (LK t)))) = s) by (change (sq (clean (m1 (LK t))) = s); rewrite sq_clean; apply S1). rewrite Es.
  rewrite (N.mod_small (s + 1)) by lia. replace (s + 1 + 1) with (s + 2) by lia. rewrite (N.mod_small (s + 2)) by lia. rewrite (N.mod_small (s + 2) (2 ^ seqSize P)) by lia.
  destruct (kenc_facts Undecided (s + 1) eq_refl ltac:(lia)) as (D1 & E1 & F1). destruct (kenc_facts Undecided (s + 2) eq_refl H61) as (D2 & E2 & F2). rewrite F1, F2. cbn zeta.
  assert (Q1 : sq (dirty (kenc Undecided (s + 1))) = s + 1) by (rewrite sq_dirty; unfold sq; rewrite D1; reflexivity).
  apply wpr_bind, w_store. intros m3 R3 G3. pose proof (own_R _ _ _ R3 S2) as S3. split; [apply S_open; [apply (own_called s); assumption|rewrite Q1; exact N2]|]. intros G3'.
  assert (S3' : own (s + 1) (upd m3 (LK t) (dirty (kenc Undecided (s + 1))))) by (eapply own_upd; [reflexivity| |exact S3]; unfold kseq; rewrite upd_same; exact Q1).
  apply wpr_bind, w_persist; [exact Logic.I|]. intros m4 m5 R4 G4 R5 G5 _. pose proof (own_R _ _ _ R5 (own_R _ _ _ R4 S3')) as S5.
  assert (L5 : clean (m5 (LK t)) = kenc Undecided (s + 1)).
  { assert (R' : Rt (upd m3 (LK t) (dirty (kenc Undecided (s + 1)))) m5) by rch. rewrite (proj1 (R_own_k t _ _ R' (LK t) eq_refl)), upd_same, clean_dirty. exact E1. }
  apply wpr_bind, w_assert; [apply sort_words_sorted, Hnd|]. apply wpr_bind, (w_kfield (s + 1)); [exact S5|exact N2|reflexivity|discriminate|]. intros n1 S6 V6 L6 _.
  apply wpr_bind, (w_store_words (s + 1)); [exact N2|exact S6|]. intros n2 S7 L7 K7 W7. apply wpr_bind, w_load; intros m6 R6 G6.
  apply wpr_bind, w_assert. { change (km_status (kmut_decode (m6 (LK t)))) with (stt (m6 (LK t))). rewrite <- stt_clean, (proj1 (R_own_k t _ _ R6 (LK t) eq_refl)), L7, L6, L5. unfold stt. rewrite D1. reflexivity. }
  set (own' := sort_words ws) in *. pose proof (sort_words_perm ws) as Hperm. fold own' in Hperm. assert (Hlen : length own' = length ws) by apply sort_words_length.
  apply wpr_bind, w_store. intros m7 R7 G7. assert (R27 : Rt n2 m7) by rch. pose proof (own_R _ _ _ R27 S7) as S8.
  assert (Ecnt : cnt m7 t = length own'). { unfold cnt. rewrite (R_kfld n2 m7 _ R27) by (reflexivity || discriminate). rewrite K7 by first [reflexivity|discriminate|intros; discriminate]. rewrite V6, Nat2N.id. symmetry. exact Hlen. }
  assert (Ew : forall i, (i < length own')%nat -> exists x, nth_error own' i = Some x /\ In x ws /\ off m7 t i = o_off x /\ m7 (LKWord t i WOld) = o_old x /\ m7 (LKWord t i WNew) = o_new x).
  { intros i Hi. destruct (nth_error own' i) as [x|] eqn:Ex; [|apply nth_error_None in Ex; lia]. exists x. split; [reflexivity|]. split; [eapply Permutation_in; [exact Hperm|eapply nth_error_In, Ex]|].
    destruct (W7 i x Ex) as (X1 & X2 & X3). cbn [Nat.add] in *. unfold off. rewrite !(R_kfld n2 m7 _ R27) by (reflexivity || discriminate). repeat split; assumption. }
  assert (Hwg : words_good m7 t).
  { split; [|split]; rewrite ?Ecnt; cycle 2.
    { replace (c_ws (call_of m7 t)) with own'; [exact Hask|]. unfold call_of. cbn [c_ws]. change (N.to_nat (m7 (LKCount t))) with (cnt m7 t). rewrite Ecnt.
      clear - Ew. apply same_nth. intros i. rewrite nth_error_map. destruct (decide (i < length own')%nat) as [Hi|Hi].
      - destruct (Ew i Hi) as (x & Ex & _ & E1 & E2 & E3). rewrite Ex. rewrite (nth_error_nth' (seq 0 (length own')) 0%nat) by (rewrite seq_length; exact Hi). rewrite seq_nth by exact Hi.
        cbn [option_map Nat.add]. unfold off in E1. rewrite E1, E2, E3. destruct x; reflexivity.
      - rewrite (proj2 (nth_error_None own' i)) by lia. rewrite (proj2 (nth_error_None (seq 0 (length own')) i)) by (rewrite seq_length; lia). reflexivity. }
    - intros i k Hik. destruct (Ew i ltac:(lia)) as (x & Ex & _ & -> & _). destruct (Ew k ltac:(lia)) as (y & Ey & _ & -> & _). apply (sorted_nth own' (sort_words_sorted ws Hnd) i k); [lia|assumption|assumption].
    - intros i Hi. destruct (Ew i Hi) as (x & Ex & Hin & -> & -> & ->). rewrite List.Forall_forall in Hnew. cbn [expects_values] in Hexp. rewrite List.Forall_forall in Hexp. split; [apply Hsz; cbn [touches]; apply in_map, Hin|]. split; [apply Hexp, Hin|apply Hnew, Hin]. }
  split; [apply S_call; [apply (own_called (s + 1)); assumption|rewrite clean_dirty; exact E2|exact Hwg]|]. intros G8.
  assert (S9 : own (num t) (upd m7 (LK t) (dirty (kenc Undecided (s + 2))))).
  { eapply own_upd; [reflexivity| |exact S8]. unfold kseq. rewrite upd_same. change (sq (dirty (kenc Undecided (s + 2))) = num t). rewrite sq_dirty. unfold sq. rewrite D2. reflexivity. }
  apply wpr_bind, w_persist; [exact Logic.I|]. intros m8 m9 R8 G8' R9 G9 _. pose proof (own_R _ _ _ R9 (own_R _ _ _ R8 S9)) as S10. cbn [wpr].
  change (mkDesc false true false (s + 2) t) with (call_ref (num t) t). apply H; [exact G9|]. destruct S10 as [X1 X2 X3]. split; [split; [exact Ht|exact X3]|exact X1|exact X2|lia|intros; lia].
Qed.
Lemma w_PMwCAS n ws m : own (kseq m0 t) m -> legal_mop C (MwCas ws) -> expects_values (MwCas ws) -> asked t (sort_words ws) -> wpr (PMwCAS C n t ws) (fun _ _ => False) m.
Proof.
  intros S0 Hl He Hask. unfold PMwCAS. apply wpr_bind, w_assert; [destruct Hl as (_ & Hne & _); destruct ws; [contradiction|reflexivity]|]. apply wpr_bind, w_createK; [exact S0|exact Hl|exact He|exact Hask|]. intros m' G' H'. apply (w_pmwcas n _ t); [exact G'| |exact H'|exact Logic.I].
  repeat split.
Qed.

(** *** PMwCASRead *)

Lemma not_mine m j : Good m -> clear t m -> N.testbit (m (LArr j)) 2 = true -> negb (d_tid (desc_decode P (m (LArr j))) =? t) = true.
Proof.
  intros G Hcl Hb. assert (Hb' : N.testbit (contents m j) 2 = true) by (unfold contents; rewrite testbit_clean by discriminate; exact Hb).
  destruct (i_cases m j (proj1 G)) as [V|[(u & Hu & E)|(t' & u & i & (Eh & _ & D) & _)]].
  - exfalso. rewrite V in Hb'. destruct (ar_values _ _ H0 j) as (_ & _ & _ & X). congruence.
  - exfalso. rewrite E in Hb'. destruct (KW_facts u (proj1 Hu)) as (_ & _ & X & _). congruence.
  - pose proof (de_ok _ _ _ _ D) as [W1 W2 _ _ _ _]. destruct (WW_facts _ _ W2 W1) as (_ & _ & _ & Dw). rewrite <- Eh in Dw. unfold contents, desc_decode in Dw.
    rewrite (field_clean _ 1), (field_clean _ 2), (field_clean _ 3), (field_clean _ (seqSize P + 1 + 1 + 1)) in Dw by lia. injection Dw as D1 D2 D3 D4 D5. unfold desc_decode. cbn [d_tid]. rewrite D5.
    destruct (N.eqb_spec t' t) as [->|]; [|reflexivity]. exfalso. exact (Hcl j _ W2 Eh).
Qed.
Lemma w_PMwCASRead n j (Q : N -> mem -> Prop) : forall m, own (kseq m0 t) m -> (forall m', own (kseq m0 t) m' -> Q (contents m0 j) m') -> wpr (PMwCASRead C n t (LArr j)) Q m.
Proof.
  induction n as [|n IH]; intros m S0 H; [reflexivity|]. cbn [PMwCASRead]. apply wpr_bind, w_load. intros m1 R1 G1. pose proof (own_R _ _ _ R1 S0) as S1. set (v := m1 (LArr j)). rewrite isMarked_rdcss.
  destruct (N.testbit v 2) eqn:E2.
  { apply wpr_bind, w_assert; [eapply not_mine; [exact G1|apply S1|exact E2]|]. apply wpr_bind, (w_complete_word m1 m1 j); [exact G1|apply R_refl|apply S1|right; reflexivity|exact E2|]. intros b m' R' G'. apply IH; [eapply own_R; eassumption|exact H]. }
  assert (Hrest : forall m2, Rt m1 m2 -> Good m2 -> wpr (let v := clean v in if isMarked v PMwCASFlag then pmwcas C n t (desc_decode P v) None ;;; PMwCASRead C n t (LArr j) else MRet v)%mprog Q m2).
  { intros m2 R2 G2. cbn zeta. pose proof (own_R _ _ _ R2 S1) as S2. rewrite isMarked_kcas. change (clean v) with (contents m1 j). rewrite <- (testbit_clean v 2) in E2 by discriminate. change (clean v) with (contents m1 j) in E2.
    destruct (i_cases m1 j (proj1 G1)) as [V|[(w & Hw & E)|(t' & u' & i' & (Eh & _ & D') & _)]].
    - destruct (ar_values _ _ H0 j) as (_ & _ & X & _). rewrite V, X. cbn [wpr]. apply H, S2.
    - destruct (KW_facts w (proj1 Hw)) as (Kc & Kb & _). rewrite E, Kb. apply wpr_bind. eapply wpr_mono; [|apply (w_pmwcas n _ w); [exact G2|apply refers_clean; [apply Hw|exact Kc]| |exact Logic.I]].
      + intros a m' [].
      + destruct S2 as [X1 X2 X3]. split; [eapply R_call; eassumption|exact X1|exact X2|lia|intros; lia].
    - exfalso. pose proof (de_ok _ _ _ _ D') as [X1 X2 _ _ _ _]. rewrite Eh in E2. destruct (WW_facts _ _ X2 X1) as (_ & _ & X & _). congruence. }
  apply wpr_bind. destruct (isMarked v DirtyFlag).
  - apply w_persist; [exact Logic.I|]. intros m2 m3 R2 G2 R3 G3 _. apply Hrest; [rch|exact G3].
  - cbn [wpr]. apply Hrest; [apply R_refl|exact G1].
Qed.
(** What a call returns, if it does. *)
Lemma w_op n o m : multi_op C o -> (forall ws, o = MwCas ws -> asked t (sort_words ws)) -> own (kseq m0 t) m ->
  wpr (mop_prog C n t o) (fun r m' => own (kseq m0 t) m' /\ exists j, o = MwRead j /\ r = MWord (contents m0 j)) m.
Proof.
  intros (Hl & He & Ho) Hask S0. destruct o as [ws|j|j old new]; [| |contradiction]; cbn [mop_prog].
  - apply wpr_bind. eapply wpr_mono; [|apply w_PMwCAS; [exact S0|exact Hl|exact He|apply Hask; reflexivity]]. intros a m' [].
  - apply wpr_bind, w_address; [apply (proj1 Hl); reflexivity|]. apply wpr_bind, w_PMwCASRead; [exact S0|]. intros m' S'. cbn [wpr]. split; [exact S'|]. exists j. split; reflexivity.
Qed.
End Wpr.

(** ** The threads *)

Section Threads.
Context (n : nat) (todos : list (list mop)) (Hlen : N.of_nat (length todos) <= P) (Htodo : forall os o, In os todos -> In o os -> multi_op C o)
  (Hasked : forall i os ws, todos !! i = Some os -> In (MwCas ws) os -> asked (N.of_nat i) (sort_words ws)).
Definition post (t : N) (o : mop) (r : mrsp) (m : mem) : Prop := own t (kseq m0 t) m /\ exists j, o = MwRead j /\ r = MWord (contents m0 j).
Definition thr_ok (t : N) (m : mem) (th : mthread) : Prop :=
  (forall o, In o (mt_todo th) -> multi_op C o /\ forall ws, o = MwCas ws -> asked t (sort_words ws)) /\
  exists ma, R t ma m /\ match mt_cur th with None => own t (kseq m0 t) ma | Some (o, p) => wpr t p (post t o) ma end.
Record sinv (y : msys) : Prop := {
  si_good : Good (ms_mem y);
  si_len : length (ms_thr y) = length todos;
  si_thr : forall i th, ms_thr y !! i = Some th -> thr_ok (N.of_nat i) (ms_mem y) th;
  si_hist : reads_only m0 (ms_hist y);
}.
Lemma sinv_start : none_decided C m0 m0 -> sinv (mstart m0 todos).
Proof.
  intros Hd. assert (Hnc : forall u, ~ called m0 u) by (intros u [_ E]; unfold num in E; lia). split; cbn [mstart ms_mem ms_thr ms_hist].
  - split; [|exact Hd]. split; [intros u Hu; destruct (Hnc u Hu)|intros j; left; reflexivity|intros u i k Hu; destruct (Hnc u Hu)|apply (ar_fields _ _ H0)|intros u Hu; destruct (Hnc u Hu)].
  - apply map_length.
  - intros i th E. apply list_lookup_fmap_Some in E as (os & E & ->). assert (Hi : (i < length todos)%nat) by (eapply lookup_lt_Some, E).
    split.
    { intros o Ho; cbn [mt_todo] in Ho. split; [eapply Htodo; [apply elem_of_list_In, (elem_of_list_lookup_2 _ _ _ E)|exact Ho]|]. intros ws ->. eapply Hasked; eassumption. }
    exists m0. split; [apply R_refl|]. cbn [mt_cur]. split; [intros j s Hs; apply WW_val; [exact Hs|lia|apply (ar_values _ _ H0)]| |reflexivity].
    pose proof (ar_word _ _ H0 (N.of_nat i)) as E2. apply N.even_spec. exists (wseq m0 (N.of_nat i) / 2). pose proof (N.div_mod (wseq m0 (N.of_nat i)) 2 ltac:(lia)) as D. rewrite E2 in D. lia.
  - intros i o r [].
Qed.
Lemma sinv_step y i : sinv y -> none_decided C m0 (ms_mem (mtstep C n i y)) -> sinv (mtstep C n i y).
Proof.
  intros HS Hd. destruct (HS) as [HG HL HT HH]. unfold mtstep in *. destruct (ms_thr y !! i) as [th|] eqn:Eth; [|exact HS]. destruct (HT i th Eth) as (Htd & ma & HR & Hcur).
  assert (Hi : (i < length (ms_thr y))%nat) by (eapply lookup_lt_Some, Eth). assert (Hp : N.of_nat i < P) by lia.
  destruct (mt_cur th) as [[o [r|e|c k]]|] eqn:Ec.
  - destruct Hcur as [Ho (j & Eo & Er)]. split; cbn [ms_mem ms_thr ms_hist]; [exact HG|rewrite insert_length; exact HL| |].
    + intros i' th' E'. destruct (decide (i' = i)) as [->|Hne]; [rewrite list_lookup_insert in E' by exact Hi; injection E' as <-|rewrite list_lookup_insert_ne in E' by congruence; apply HT, E'].
      split; [exact Htd|]. exists ma. split; [exact HR|]. cbn [mt_cur]. exact Ho.
    + intros i' o' r' [E'|Hin]; [|eapply HH, Hin]. injection E' as <- <- <-. exists j. split; assumption.
  - exact HS.
  - cbn in Hcur. specialize (Hcur (ms_mem y) HR HG). destruct (mexec c (ms_mem y)) as [r m2]. cbn [ms_mem] in Hd. destruct (Hcur Hd) as [Hs Hw].
    split; cbn [ms_mem ms_thr ms_hist]; [split; [eapply step_inv; [exact Hp|apply HG|exact Hs]|exact Hd]|rewrite insert_length; exact HL| |exact HH].
    intros i' th' E'. destruct (decide (i' = i)) as [->|Hne].
    + rewrite list_lookup_insert in E' by exact Hi. injection E' as <-. split; [exact Htd|]. exists m2. split; [apply R_refl|]. cbn [mt_cur]. exact Hw.
    + rewrite list_lookup_insert_ne in E' by congruence. destruct (HT i' th' E') as (Htd' & ma' & HR' & Hcur'). split; [exact Htd'|]. exists ma'. split; [|exact Hcur'].
      eapply R_trans; [exact HR'|]. apply (R_step (N.of_nat i)); [exact Hp| |lia|apply HG|exact Hs]. apply lookup_lt_Some in E'. lia.
  - destruct (mt_todo th) as [|o os] eqn:Et; [exact HS|]. split; cbn [ms_mem ms_thr ms_hist]; [exact HG|rewrite insert_length; exact HL| |].
    + intros i' th' E'. destruct (decide (i' = i)) as [->|Hne]; [rewrite list_lookup_insert in E' by exact Hi; injection E' as <-|rewrite list_lookup_insert_ne in E' by congruence; apply HT, E'].
      split; [intros o' Ho'; apply Htd; right; exact Ho'|]. exists ma. split; [exact HR|]. cbn [mt_cur]. apply w_op; [exact Hp|apply Htd; left; reflexivity|apply Htd; left; reflexivity|exact Hcur].
    + intros i' o' r' [E'|Hin]; [discriminate E'|eapply HH, Hin].
Qed.
Lemma sinv_after sched : never_decided C n m0 todos sched -> sinv (mafter C n m0 todos sched).
Proof.
  induction sched as [|i sched IH] using rev_ind; intros Hd; [apply sinv_start, (Hd [] [] eq_refl)|]. unfold mafter in *. rewrite mconc_app. cbn [mconc]. apply sinv_step.
  - apply IH. intros pre post E. apply (Hd pre (post ++ [i])). rewrite E, <- app_assoc. reflexivity.
  - specialize (Hd (sched ++ [i]) [] ltac:(rewrite app_nil_r; reflexivity)). unfold mafter in Hd. rewrite mconc_app in Hd. exact Hd.
Qed.
End Threads.

(** ** The calls that are under way *)

Section Final.
Context (m : mem) (G : Good m).
Local Notation W u i := (mkWord (m (LKWord u i WOff)) (m (LKWord u i WOld)) (m (LKWord u i WNew))).
Lemma tids_in u : In u (tids C) <-> u < P.
Proof.
  unfold tids. rewrite in_map_iff. split.
  - intros (k & <- & Hk). apply in_seq in Hk. lia.
  - intros Hu. exists (N.to_nat u). split; [apply N2Nat.id|]. apply in_seq. lia.
Qed.
Lemma made_in c : In c (made C m0 m) <-> exists u, called m u /\ c = call_of m u.
Proof.
  unfold made. rewrite in_map_iff. split.
  - intros (u & <- & Hu). apply filter_In in Hu as [Hu E]. apply tids_in in Hu. apply N.eqb_eq in E. exists u. split; [split; assumption|reflexivity].
  - intros (u & [Hu E] & ->). exists u. split; [reflexivity|]. apply filter_In. split; [apply tids_in, Hu|apply N.eqb_eq, E].
Qed.
Lemma made_tids : map c_tid (made C m0 m) = List.filter (fun t => kseq m t =? kseq m0 t + 2) (tids C).
Proof. unfold made. rewrite map_map. cbn. apply map_id. Qed.
Lemma made_nodup : List.NoDup (map c_tid (made C m0 m)).
Proof. rewrite made_tids. apply List.NoDup_filter. unfold tids. apply FinFun.Injective_map_NoDup; [intros a b; apply Nat2N.inj|apply seq_NoDup]. Qed.
Lemma call_word u : called m u -> c_word C (call_of m u) = KW u.
Proof. intros [_ E]. unfold c_word, call_of, KW. cbn [c_seq c_tid]. rewrite E. reflexivity. Qed.
Lemma call_nth u i x : nth_error (c_ws (call_of m u)) i = Some x -> (i < cnt m u)%nat /\ x = W u i.
Proof.
  cbn [call_of c_ws]. fold (cnt m u). intros E. assert (Hi : (i < cnt m u)%nat). { assert (X : (i < length (map (fun i => W u i) (seq 0 (cnt m u))))%nat) by (apply nth_error_Some; congruence). rewrite map_length, seq_length in X. exact X. }
  split; [exact Hi|]. rewrite nth_error_map in E. rewrite (nth_error_nth' _ 0%nat) in E by (rewrite seq_length; exact Hi). rewrite seq_nth in E by exact Hi. injection E as <-. reflexivity.
Qed.
Lemma call_in u x : In x (c_ws (call_of m u)) <-> exists i, (i < cnt m u)%nat /\ x = W u i.
Proof.
  cbn [call_of c_ws]. fold (cnt m u). rewrite in_map_iff. split.
  - intros (i & <- & Hi). apply in_seq in Hi. exists i. split; [lia|reflexivity].
  - intros (i & Hi & ->). exists i. split; [reflexivity|]. apply in_seq. lia.
Qed.
Lemma call_fine u : called m u -> call_ok C m (call_of m u).
Proof.
  intros Hu. destruct (i_call m (proj1 G) u Hu) as (E & Hso & Hw). split.
  - apply Hu.
  - cbn [call_of c_seq]. rewrite (proj2 Hu). apply num_B, Hu.
  - cbn [call_of c_seq c_tid]. rewrite (proj2 Hu). exact E.
  - cbn [call_of c_ws c_tid]. rewrite map_length, seq_length. symmetry. apply N2Nat.id.
  - intros i x Ex. apply call_nth in Ex as [Hi ->]. repeat split.
  - cbn [call_of c_ws]. fold (cnt m u). rewrite map_map. cbn [o_off]. revert Hso. generalize (cnt m u). intros c Hso.
    assert (X : forall k a, (a + k <= c)%nat -> StronglySorted N.lt (map (fun i => m (LKWord u i WOff)) (seq a k))).
    { induction k as [|k IH]; intros a Ha; cbn [seq map]; constructor; [apply IH; lia|]. apply List.Forall_forall. intros z Hz. apply in_map_iff in Hz as (i & <- & Hi). apply in_seq in Hi. apply Hso. lia. }
    apply X. lia.
  - intros x Hx. apply call_in in Hx as (i & Hi & ->). apply Hw, Hi.
Qed.
Lemma half_is j t u i : half m j t u i -> off m u i = j -> half_installed C m t j /\ settled C m j = KW u.
Proof.
  intros (E & Hev & D) Ho. assert (Hh : half_installed C m t j) by (split; [apply D|split; [rewrite (de_off _ _ _ _ D); exact Ho|exact E]]). split; [exact Hh|].
  rewrite (half_settled C HC m t j Hh). pose proof (de_called _ _ _ _ D) as Hu. unfold outcome, under_way. rewrite (de_tid _ _ _ _ D), (de_seq _ _ _ _ D), (proj2 Hu), N.eqb_refl. cbn [andb].
  replace (kstat m u) with Undecided; [reflexivity|]. symmetry. unfold kstat. change (stt (m (LK u)) = Undecided). rewrite <- stt_clean, (proj1 (i_call m (proj1 G) u Hu)).
  unfold stt. rewrite (proj1 (kenc_facts Undecided (num u) eq_refl (seq_61 _ _ HC (num_B u (proj1 Hu))))). reflexivity.
Qed.
Lemma set_cases j : (contents m j = contents m0 j /\ settled C m j = contents m0 j) \/
  exists u i, called m u /\ (i < cnt m u)%nat /\ off m u i = j /\ m (LKWord u i WOld) = contents m0 j /\ refd m j u i /\ settled C m j = KW u.
Proof.
  destruct (i_arr m (proj1 G) j) as [V|(u & i & Hu & Hi & Ho & Hold & Hr)].
  - left. split; [exact V|]. rewrite settled_unmarked; [exact V|]. rewrite isMarked_rdcss, V. apply (ar_values _ _ H0 j).
  - right. exists u, i. do 5 (split; [assumption|]). destruct Hr as [E|(t & Hh)]; [|eapply half_is; eassumption]. rewrite settled_unmarked; [exact E|]. rewrite isMarked_rdcss, E. apply KW_facts, Hu.
Qed.
Lemma set_ref j u : u < P -> settled C m j = KW u -> called m u /\ exists i, (i < cnt m u)%nat /\ off m u i = j /\ m (LKWord u i WOld) = contents m0 j /\ refd m j u i.
Proof.
  intros Hu E. destruct (set_cases j) as [[_ V]|(v & i & Hv & Hi & Ho & Hold & Hr & E')].
  - exfalso. rewrite V in E. revert E. apply KW_val; [exact Hu|apply (ar_values _ _ H0)].
  - rewrite E in E'. apply KW_inj in E'; [|exact Hu|apply Hv]. subst v. split; [exact Hv|]. exists i. repeat split; assumption.
Qed.
Lemma final_ok : calls_ok C m (made C m0 m).
Proof.
  split.
  - apply NoDup_ListNoDup, made_nodup.
  - intros c Hc. apply made_in in Hc as (u & Hu & ->). apply call_fine, Hu.
  - intros j. destruct (set_cases j) as [[_ V]|(u & i & Hu & _ & _ & _ & _ & E)]; [left; rewrite V; apply (ar_values _ _ H0)|right]. exists (call_of m u). split; [apply made_in; exists u; split; [exact Hu|reflexivity]|]. rewrite call_word by exact Hu. exact E.
  - intros c j Hc E. apply made_in in Hc as (u & Hu & ->). rewrite call_word in E by exact Hu. destruct (set_ref j u (proj1 Hu) E) as (_ & i & Hi & Ho & _). apply in_map_iff. exists (W u i). split; [exact Ho|]. apply call_in. exists i. split; [exact Hi|reflexivity].
  - intros c x y Hc Hx Hy Hlt E. apply made_in in Hc as (u & Hu & ->). rewrite call_word in * by exact Hu. apply call_in in Hx as (i & Hi & ->). apply call_in in Hy as (k & Hk & ->). cbn [o_off] in *. fold (off m u i) in *. fold (off m u k) in *.
    destruct (i_call m (proj1 G) u Hu) as (_ & Hso & _). assert (Hik : (i < k)%nat). { destruct (Nat.lt_trichotomy i k) as [L|[->|L]]; [exact L|lia|]. specialize (Hso k i ltac:(lia)). lia. }
    destruct (set_ref _ u (proj1 Hu) E) as (_ & k' & Hk' & Ho & _ & Hr). apply (off_inj m u k' k (proj1 G) Hu Hk' Hk) in Ho. subst k'. apply (i_pre m (proj1 G) u i k Hu); [lia|exact Hr].
  - intros j Em. rewrite isMarked_rdcss in Em. destruct (i_cases m j (proj1 G)) as [V|[(u & Hu & E)|(t & u & i & Hh & Ho)]].
    + exfalso. rewrite V in Em. destruct (ar_values _ _ H0 j) as (_ & _ & _ & X). congruence.
    + exfalso. rewrite E in Em. destruct (KW_facts u (proj1 Hu)) as (_ & _ & X & _). congruence.
    + exists t. split; [eapply half_is; eassumption|]. destruct Hh as (_ & _ & D). pose proof (de_called _ _ _ _ D) as Hu. rewrite (de_old _ _ _ _ D), (de_tid _ _ _ _ D), (de_seq _ _ _ _ D), (proj2 Hu). split; [|lia].
      apply (i_call m (proj1 G) u Hu), D.
  - intros t c x Hh Hc Hx E. apply made_in in Hc as (u & Hu & ->). rewrite call_word in E by exact Hu. apply call_in in Hx as (i & Hi & ->). cbn [o_off o_old] in *. fold (off m u i) in *.
    destruct Hh as ([W1 W2 _ _ _ _] & _ & Ew). destruct (i_W m _ _ t (proj1 G) W2 W1 Ew) as (_ & u' & i' & Hh & Ho & _). destruct (half_is _ t u' i' Hh Ho) as [_ Es]. rewrite E in Es.
    destruct Hh as (_ & _ & D). pose proof (de_called _ _ _ _ D) as Hu'. apply KW_inj in Es; [|apply Hu|apply Hu']. subst u'. apply (off_inj m u i' i (proj1 G) Hu) in Ho; [|apply D|exact Hi]. subst i'. apply D.
Qed.
Lemma final_without j : without C (made C m0 m) (settled C m) j = contents m0 j.
Proof.
  assert (X : forall l, (forall u, In u l -> called m u) -> (settled C m j = contents m0 j \/ exists u, In u l /\ settled C m j = KW u) -> without C (map (call_of m) l) (settled C m) j = contents m0 j).
  { induction l as [|u l IH]; intros Hl Hj; cbn [map without].
    - destruct Hj as [E|(u & [] & _)]. exact E.
    - pose proof (Hl u (or_introl eq_refl)) as Hu. rewrite call_word by exact Hu. destruct (N.eqb_spec (settled C m j) (KW u)) as [E|E].
      + destruct (set_ref j u (proj1 Hu) E) as (_ & i & Hi & Ho & Hold & _). rewrite <- Hold. subst j. pose proof (ca_sorted _ _ _ (call_fine u Hu)) as Hs. apply sorted_nodup in Hs.
        apply (old_of_in (c_ws (call_of m u)) (W u i)); [exact Hs|]. apply call_in. exists i. split; [exact Hi|reflexivity].
      + apply IH; [intros v Hv; apply Hl; right; exact Hv|]. destruct Hj as [V|(v & [<-|Hv] & Ev)]; [left; exact V|contradiction|right; exists v; split; assumption]. }
  unfold made. apply X.
  - intros u Hu. apply filter_In in Hu as [Hu E]. apply tids_in in Hu. apply N.eqb_eq in E. split; assumption.
  - destruct (set_cases j) as [[_ V]|(u & i & Hu & _ & _ & _ & _ & E)]; [left; exact V|right; exists u]. split; [|exact E]. apply filter_In. split; [apply tids_in, Hu|apply N.eqb_eq, Hu].
Qed.
Lemma final_idle t : t < P -> own t (kseq m0 t) m -> tidy C m t /\ ~ In t (map c_tid (made C m0 m)).
Proof.
  intros Ht [O1 O2 O3]. split.
  - intros j (Wk & _ & E). exact (O1 j _ (wo_seq _ _ _ Wk) E).
  - rewrite made_tids. intros H. apply filter_In in H as [_ E]. apply N.eqb_eq in E. lia.
Qed.
End Final.
End Pend.

(** The calls that the threads have been asked to make. *)
Definition todo_asks (todos : list (list mop)) (u : N) (w : list mword) : Prop := exists os ws, todos !! N.to_nat u = Some os /\ In (MwCas ws) os /\ w = sort_words ws.

Lemma c68_under_way C n m0 todos sched : mcfg_ok C -> at_rest C m0 -> N.of_nat (length todos) <= 2 ^ m_log C -> (forall os o, In os todos -> In o os -> multi_op C o) ->
  never_decided C n m0 todos sched ->
  let y := mafter C n m0 todos sched in let L := made C m0 (ms_mem y) in
  calls_ok C (ms_mem y) L /\ (forall j, without C L (settled C (ms_mem y)) j = contents m0 j) /\ reads_only m0 (ms_hist y) /\
  (forall u, In u L -> exists os ws, todos !! N.to_nat (c_tid u) = Some os /\ In (MwCas ws) os /\ Permutation (c_ws u) ws) /\
  (forall i th o e, ms_thr y !! i = Some th -> mt_cur th = Some (o, MErr e) -> e = MOutOfFuel) /\
  forall i th, ms_thr y !! i = Some th -> mt_cur th = None ->
    tidy C (ms_mem y) (N.of_nat i) /\ ~ In (N.of_nat i) (map c_tid L) /\ kseq (ms_mem y) (N.of_nat i) = kseq m0 (N.of_nat i).
Proof.
  intros HC H0 Hlen Htodo Hd y L. assert (Hask : forall i os ws, todos !! i = Some os -> In (MwCas ws) os -> todo_asks todos (N.of_nat i) (sort_words ws)).
  { intros i os ws E Hin. exists os, ws. rewrite Nat2N.id. repeat split; assumption. }
  destruct (sinv_after C HC m0 H0 _ n todos Hlen Htodo Hask sched Hd) as [HG HL HT HH]. fold y in HG, HL, HT, HH.
  split; [eapply final_ok; eassumption|]. split; [intros j; eapply final_without; eassumption|]. split; [exact HH|].
  split. { intros u Hu. apply made_in in Hu as (v & Hv & ->). destruct (i_asked _ _ _ _ (proj1 HG) v Hv) as (os & ws & E1 & E2 & E3). exists os, ws. split; [exact E1|]. split; [exact E2|]. rewrite E3. apply sort_words_perm. }
  split; [intros i th o e Eth Ec; destruct (HT i th Eth) as (_ & ma & _ & Ho); rewrite Ec in Ho; exact Ho|]. intros i th Eth Ec. destruct (HT i th Eth) as (_ & ma & HR & Ho). rewrite Ec in Ho.
  assert (Hi : N.of_nat i < 2 ^ m_log C) by (apply lookup_lt_Some in Eth; lia). pose proof (own_R C m0 _ _ _ _ HR Ho) as Ho'. destruct (final_idle C m0 (ms_mem y) _ Hi Ho') as [F1 F2].
  split; [exact F1|]. split; [exact F2|]. apply Ho'.
Qed.

Lemma thr_length C n m0 todos sched : length (ms_thr (mafter C n m0 todos sched)) = length todos.
Proof.
  induction sched as [|i sched IH] using rev_ind; [apply map_length|]. unfold mafter in *. rewrite mconc_app. cbn [mconc]. rewrite <- IH. generalize (mconc C n sched (mstart m0 todos)) as y. intros y.
  unfold mtstep. destruct (ms_thr y !! i) as [th|]; [|reflexivity]. destruct (mt_cur th) as [[o [r|e|c k]]|]; cbn [ms_thr]; try reflexivity; try apply insert_length.
  - destruct (mexec c (ms_mem y)) as [r m2]. apply insert_length.
  - destruct (mt_todo th); [reflexivity|apply insert_length].
Qed.
Lemma same_op a b o : same a b -> fst (mspec a o) = fst (mspec b o) /\ same (snd (mspec a o)) (snd (mspec b o)).
Proof.
  intros H. destruct o as [ws|j|j old new].
  - split; [|apply same_step, H]. cbn [mspec]. rewrite (same_match a b ws H). destruct (all_match b ws); reflexivity.
  - cbn [mspec fst snd]. rewrite (H j). split; [reflexivity|exact H].
  - cbn [mspec]. rewrite (H j). destruct (b j =? old); cbn [fst snd]; (split; [reflexivity|]); [|exact H]. intros k. destruct (k =? j); [reflexivity|apply H].
Qed.
Lemma made_length C m0 m : (length (made C m0 m) <= N.to_nat (2 ^ m_log C))%nat.
Proof.
  unfold made. rewrite map_length. transitivity (length (tids C)); [|unfold tids; rewrite map_length, seq_length; reflexivity].
  induction (tids C) as [|t l IH]; cbn [List.filter length]; [lia|]. destruct (_ =? _); cbn [length]; lia.
Qed.
Lemma words_in_le k L : (forall u, In u L -> (length (c_ws u) <= k)%nat) -> (words_in L <= S k * length L)%nat.
Proof. induction L as [|u L IH]; intros H; cbn [words_in length]; [lia|]. pose proof (H u (or_introl eq_refl)). specialize (IH (fun v Hv => H v (or_intror Hv))). lia. Qed.
Lemma c68_completes C n m0 todos sched i th n' o : mcfg_ok C -> at_rest C m0 -> N.of_nat (length todos) <= 2 ^ m_log C -> (forall os o, In os todos -> In o os -> multi_op C o) ->
  never_decided C n m0 todos sched ->
  let y := mafter C n m0 todos sched in let m := ms_mem y in
  ms_thr y !! i = Some th -> mt_cur th = None -> legal_mop C o -> expects_values o -> (m_K C + N.to_nat (2 ^ m_log C) + 5 <= n')%nat ->
  wseq m (N.of_nat i) + 2 * (N.of_nat (S (m_K C)) * (2 ^ m_log C + 1)) < 2 ^ seqSize (2 ^ m_log C) ->
  exists D L m', Permutation (made C m0 m) (D ++ L) /\ mrun (mop_prog C n' (N.of_nat i) o) m = MOk (fst (mspec (one_by_one (contents m0) D) o)) m' /\
    (forall j, without C L (settled C m') j = snd (mspec (one_by_one (contents m0) D) o) j) /\ statuses m' (contents m0) D /\ calls_ok C m' L.
Proof.
  intros HC H0 Hlen Htodo Hd y m Eth Ec Hl He Hn' Hw. destruct (c68_under_way C n m0 todos sched HC H0 Hlen Htodo Hd) as (Hok & Hwo & _ & Hask & _ & Hid). fold y in Hok, Hwo, Hask, Hid. fold m in Hok, Hwo, Hask, Hid.
  destruct (Hid i th Eth Ec) as (Hti & Hnin & Ek). assert (Hi : N.of_nat i < 2 ^ m_log C). { apply lookup_lt_Some in Eth. unfold y in Eth. rewrite thr_length in Eth. lia. }
  pose proof (made_length C m0 m) as Hml. assert (HK : forall u, In u (made C m0 m) -> (length (c_ws u) <= m_K C)%nat).
  { intros u Hu. destruct (Hask u Hu) as (os & ws & E & Hin & Hp). rewrite (Permutation_length Hp). apply elem_of_list_lookup_2 in E. rewrite elem_of_list_In in E. destruct (Htodo os _ E Hin) as ((_ & _ & X & _) & _). exact X. }
  assert (Hop : (op_words o <= m_K C)%nat). { destruct o as [ws|j|j old new]; cbn [op_words]; try lia. apply Hl. }
  pose proof (words_in_le _ _ HK) as Hwi.
  destruct (c67_alone C n' (N.of_nat i) (made C m0 m) o m HC Hi Hnin Hok Hti Hl He) as (D & L & m' & H1 & H2 & H3 & H4 & H5 & _).
  - intros u Hu. specialize (HK u Hu). lia.
  - lia.
  - rewrite Ek. apply (ar_call _ _ H0), Hi.
  - eapply N.le_lt_trans; [|exact Hw]. apply N.add_le_mono_l, N.mul_le_mono_l.
    transitivity (N.of_nat (S (m_K C) * (N.to_nat (2 ^ m_log C) + 1))); [|rewrite Nat2N.inj_mul, Nat2N.inj_add, N2Nat.id; apply N.le_refl].
    assert ((op_words o + words_in (made C m0 m) <= S (m_K C) * (N.to_nat (2 ^ m_log C) + 1))%nat) by nia. lia.
  - assert (Hs : same (without C (made C m0 m) (settled C m)) (contents m0)) by exact Hwo. pose proof (same_one D _ _ Hs) as Hs1. destruct (same_op _ _ o Hs1) as [Hr Hs2].
    exists D, L, m'. split; [exact H1|]. split; [rewrite <- Hr; exact H2|]. split; [intros j; rewrite <- (Hs2 j); apply H3|]. split; [eapply same_statuses; eassumption|exact H5].
Qed.

(** Three threads, each with a call of two words; thread 3 reads first.  They take turns, and are stopped before the first call is decided. *)
Definition px_todos : list (list mop) := [[]; [MwCas [mkWord 0 0 8; mkWord 1 0 16]]; [MwCas [mkWord 1 0 24; mkWord 2 0 32]]; [MwRead 1; MwCas [mkWord 3 0 48; mkWord 2 0 40]]].
Definition px_sched : list nat := concat (repeat [3; 1; 2; 1; 3]%nat 40).
Definition px_sys : msys := mafter mx_C mx_fuel mw_init px_todos px_sched.
Definition none_decidedb (C : mcfg) (m0 m : mem) (t : N) : bool := ((kseq m t =? kseq m0 t) || (kstat m t =? Undecided)) && (wseq m t + 2 <? 2 ^ seqSize (2 ^ m_log C)).
Lemma px_below t : t < 2 ^ m_log mx_C -> In t [0; 1; 2; 3].
Proof. change (t < 4 -> In t [0; 1; 2; 3]). intros H. cbn [In]. lia. Qed.
Lemma px_never : never_decided mx_C mx_fuel mw_init px_todos px_sched.
Proof.
  assert (H : forallb (fun k => forallb (none_decidedb mx_C mw_init (ms_mem (mafter mx_C mx_fuel mw_init px_todos (firstn k px_sched)))) [0; 1; 2; 3]) (seq 0 (S (length px_sched))) = true) by (vm_compute; reflexivity).
  intros pre post E t Ht. rewrite forallb_forall in H. specialize (H (length pre)). rewrite E in H. rewrite firstn_app, Nat.sub_diag, firstn_all, firstn_O, app_nil_r in H.
  assert (Hin : In (length pre) (seq 0 (S (length (pre ++ post))))) by (apply in_seq; rewrite app_length; lia). specialize (H Hin). rewrite forallb_forall in H. specialize (H t (px_below t Ht)).
  apply andb_prop in H as [H1 H2]. split; [|apply N.ltb_lt, H2]. apply orb_prop in H1 as [H1|H1]; [left|right]; apply N.eqb_eq, H1.
Qed.
Lemma px_rest : at_rest mx_C mw_init.
Proof.
  split.
  - intros j. change (contents mw_init j) with 0. value.
  - intros t. reflexivity.
  - intros t Ht. split; [exact (N.le_lt_trans _ _ _ (N.le_0_l t) Ht)|reflexivity].
  - intros t _. vm_compute. reflexivity.
Qed.
Lemma px_multi os o : In os px_todos -> In o os -> multi_op mx_C o.
Proof.
  intros Hos Ho. cbn in Hos. destruct Hos as [<-|[<-|[<-|[<-|[]]]]]; cbn in Ho; repeat destruct Ho as [<-|Ho]; try contradiction.
  all: (split; [|split; [|exact Logic.I]]).
  all: try (constructor; [value|constructor; [value|constructor]]).
  all: try (split; [intros j [<-|[<-|[]]]; reflexivity|]; split; [discriminate|]; split; [apply Nat.leb_le; reflexivity|]; split; [apply (bool_decide_unpack _); vm_compute; exact Logic.I|]; constructor; [value|constructor; [value|constructor]]).
  - split; [intros j ->; reflexivity|exact Logic.I].
  - exact Logic.I.
Qed.
Lemma px_example : at_rest mx_C mw_init /\ N.of_nat (length px_todos) <= 2 ^ m_log mx_C /\ (forall os o, In os px_todos -> In o os -> multi_op mx_C o) /\ never_decided mx_C mx_fuel mw_init px_todos px_sched /\
  made mx_C mw_init (ms_mem px_sys) = [mkPcall 1 2 [mkWord 0 0 8; mkWord 1 0 16]; mkPcall 2 2 [mkWord 1 0 24; mkWord 2 0 32]; mkPcall 3 2 [mkWord 2 0 40; mkWord 3 0 48]] /\
  map (contents (ms_mem px_sys)) [0; 1; 2; 3] = [as_word mx_C (call_ref 2 1); as_word mx_C (call_ref 2 1); as_word mx_C (call_ref 2 3); as_word mx_C (word_ref 4 3)] /\
  map (settled mx_C (ms_mem px_sys)) [0; 1; 2; 3] = [as_word mx_C (call_ref 2 1); as_word mx_C (call_ref 2 1); as_word mx_C (call_ref 2 3); as_word mx_C (call_ref 2 3)] /\
  In (MRes 3 (MwRead 1) (MWord 0)) (ms_hist px_sys) /\ option_map mt_cur (ms_thr px_sys !! 0%nat) = Some None /\
  (m_K mx_C + N.to_nat (2 ^ m_log mx_C) + 5 <= mx_fuel)%nat /\ wseq (ms_mem px_sys) 0 + 2 * (N.of_nat (S (m_K mx_C)) * (2 ^ m_log mx_C + 1)) < 2 ^ seqSize (2 ^ m_log mx_C) /\
  legal_mop mx_C mx_last /\ expects_values mx_last /\
  mx_view (mrun (mop_prog mx_C mx_fuel 0 mx_last) (ms_mem px_sys)) = Some (MBool true, [56; 16; 40; 64], [Succeeded; Undecided; Succeeded]).
Proof.
  split; [exact px_rest|]. split; [apply N.leb_le; reflexivity|]. split; [exact px_multi|]. split; [exact px_never|]. split; [vm_compute; reflexivity|]. split; [vm_compute; reflexivity|].
  split; [vm_compute; reflexivity|]. split; [vm_compute; tauto|]. split; [vm_compute; reflexivity|]. split; [apply Nat.leb_le; reflexivity|]. split; [vm_compute; reflexivity|].
  split; [exact (proj1 (proj2 (proj2 (proj2 (proj2 mx_alone)))))|]. split; [exact (proj1 (proj2 (proj2 (proj2 (proj2 (proj2 mx_alone))))))|]. vm_compute. reflexivity.
Qed.
