(** Helping: what happens to a word that refers to a word descriptor. *)
From Coq Require Import NArith Bool List Lia.
From stdpp Require Import base list.
From Verif Require Import Word Bits Codec CodecSpec CodecThm MwCas MwSpec MwWp MwSeq MwRely MwRecover MwHelpSpec.
Import ListNotations.
Local Open Scope N_scope.

(** ** Memories that differ in dirty bits *)

Lemma wseq_clean w : wm_seq (wmut_decode (clean w)) = wm_seq (wmut_decode w).
Proof. apply field_clean. reflexivity. Qed.
Lemma wseq_dirty w : wm_seq (wmut_decode (dirty w)) = wm_seq (wmut_decode w).
Proof. apply field_dirty. reflexivity. Qed.

Lemma cleaned_refl X m : cleaned_but X m m.
Proof. intros l. right. left. reflexivity. Qed.
Lemma cleaned_trans X m1 m2 m3 : cleaned_but X m1 m2 -> cleaned_but X m2 m3 -> cleaned_but X m1 m3.
Proof.
  intros H1 H2 l. destruct (H2 l) as [H|[->|[-> H]]]; [left; exact H|exact (H1 l)|].
  destruct (H1 l) as [H'|[->|[-> _]]]; [left; exact H'|right; right; split; [reflexivity|exact H]|]. right. right. rewrite clean_clean. split; [reflexivity|exact H].
Qed.
Lemma cleaned_weaken (X Y : loc -> Prop) m m' : (forall l, X l -> Y l) -> cleaned_but X m m' -> cleaned_but Y m m'.
Proof. intros HXY H l. destruct (H l) as [Hl|Hl]; [left; apply HXY, Hl|right; exact Hl]. Qed.
Lemma cleaned_any X m m' : cleaned m m' -> cleaned_but X m m'.
Proof. apply cleaned_weaken. contradiction. Qed.

Section But.
Context (X : loc -> Prop) (m m' : mem) (H : cleaned_but X m m').
Lemma cb_clean l : ~ X l -> clean (m' l) = clean (m l).
Proof. intros Hl. destruct (H l) as [Hx|[->|[-> _]]]; [contradiction|reflexivity|apply clean_clean]. Qed.
Lemma cb_contents j : ~ X (LArr j) -> contents m' j = contents m j.
Proof. apply cb_clean. Qed.
Lemma cb_plain l : ~ X l -> match l with LArr _ | LK _ | LW _ => False | _ => True end -> m' l = m l.
Proof. intros Hl Hp. destruct (H l) as [Hx|[E|[_ E]]]; [contradiction|exact E|]. destruct l; contradiction. Qed.
Lemma cb_kseq t : ~ X (LK t) -> kseq m' t = kseq m t.
Proof. intros Hl. pose proof (cb_clean _ Hl) as E. unfold kseq. change (sq (m' (LK t)) = sq (m (LK t))). rewrite <- sq_clean, E. apply sq_clean. Qed.
Lemma cb_kstat t : ~ X (LK t) -> kstat m' t = kstat m t.
Proof. intros Hl. pose proof (cb_clean _ Hl) as E. unfold kstat. change (stt (m' (LK t)) = stt (m (LK t))). rewrite <- stt_clean, E. apply stt_clean. Qed.
Lemma cb_wseq t : ~ X (LW t) -> wseq m' t = wseq m t.
Proof. intros Hl. pose proof (cb_clean _ Hl) as E. unfold wseq. rewrite <- wseq_clean, E. apply wseq_clean. Qed.
End But.

Definition flagged (l : loc) : Prop := match l with LArr _ | LK _ | LW _ => True | _ => False end.
Definition at_arr (j : N) (l : loc) : Prop := l = LArr j.
Definition in_arr (l : loc) : Prop := exists j, l = LArr j.

(** Only the array is different: the descriptors say the same. *)
Section Arr.
Context (C : mcfg) (m m' : mem) (H : cleaned_but in_arr m m').
Local Ltac no := intros [? ?]; discriminate.
Lemma ca_kseq t : kseq m' t = kseq m t.
Proof. apply (cb_kseq _ _ _ H). no. Qed.
Lemma ca_kstat t : kstat m' t = kstat m t.
Proof. apply (cb_kstat _ _ _ H). no. Qed.
Lemma ca_wseq t : wseq m' t = wseq m t.
Proof. apply (cb_wseq _ _ _ H). no. Qed.
Lemma ca_wword t f : m' (LWWord t f) = m (LWWord t f).
Proof. apply (cb_plain _ _ _ H); [no|exact I]. Qed.
Lemma ca_wtid t : m' (LWTid t) = m (LWTid t).
Proof. apply (cb_plain _ _ _ H); [no|exact I]. Qed.
Lemma ca_wkseq t : m' (LWSeq t) = m (LWSeq t).
Proof. apply (cb_plain _ _ _ H); [no|exact I]. Qed.
Lemma ca_word_ok t : word_ok C m t -> word_ok C m' t.
Proof. intros [H1 H2 H3 H4 H5 H6]. split; rewrite ?ca_wseq, ?ca_wword, ?ca_wtid, ?ca_wkseq; assumption. Qed.
Lemma ca_outcome t : outcome C m' t = outcome C m t.
Proof. unfold outcome, under_way. rewrite ca_wkseq, ca_wtid, ca_kseq, ca_kstat, ca_wword. reflexivity. Qed.
End Arr.
Lemma at_in_arr j m m' : cleaned_but (at_arr j) m m' -> cleaned_but in_arr m m'.
Proof. apply cleaned_weaken. intros l ->. exists j. reflexivity. Qed.

Section Help.
Context (C : mcfg) (HC : mcfg_ok C).
Local Notation P := (2 ^ m_log C)%N.
Local Notation wp := (mwp any).

Lemma wph_read l (Q : N -> mem -> Prop) (m : mem) : flagged l ->
  (forall m', cleaned m m' -> Q (clean (m l)) m') -> wp (m_read l) Q m.
Proof.
  intros Hl H. apply mwp_read; [exact I|]. intros m' Ho E. apply H. intros x. right. destruct (decide (x = l)) as [->|Hn].
  - right. split; [exact E|]. destruct l; exact Hl.
  - left. apply Ho. congruence.
Qed.
Lemma wph_thread t (Q : unit -> mem -> Prop) (m : mem) : t < P -> Q tt m -> wp (thread_ok C t) Q m.
Proof. intros H HQ. unfold thread_ok. rewrite (proj2 (N.ltb_lt _ _) H). exact HQ. Qed.
Lemma wph_getSeq d (Q : N -> mem -> Prop) (m : mem) : a_ref d -> d_tid d < P ->
  (forall m', cleaned m m' -> Q (now m d) m') -> wp (getSeq C d) Q m.
Proof.
  intros (s & t & [->| ->]) Ht H; unfold getSeq, now in *; cbn [word_ref call_ref d_isKCAS d_isRDCSS d_tid andb negb] in *;
    apply mwp_bind, wph_thread; try exact Ht; apply mwp_bind, wph_read; try exact I; intros m' Hm'; cbn [mwp].
  - rewrite wseq_clean. apply H, Hm'.
  - change (km_seq (kmut_decode (clean (m (LK t))))) with (sq (clean (m (LK t)))). rewrite sq_clean. apply H, Hm'.
Qed.
Lemma now_cleaned m m' d : cleaned m m' -> now m' d = now m d.
Proof. intros H. unfold now. destruct (d_isKCAS d); [apply (cb_kseq _ _ _ H)|apply (cb_wseq _ _ _ H)]; exact (fun x => x). Qed.

Lemma wph_readField d l (Q : N * bool -> mem -> Prop) (m : mem) : a_ref d -> d_tid d < P -> flagged l ->
  (forall m', cleaned m m' -> Q (clean (m l), d_seq d =? now m d) m') -> wp (readField C d l) Q m.
Proof.
  intros Hd Ht Hl H. unfold readField. apply mwp_bind, wph_read; [exact Hl|]. intros m1 H1. apply mwp_bind, wph_getSeq; [exact Hd|exact Ht|].
  intros m2 H2. cbn [mwp]. rewrite (now_cleaned m m1) by exact H1. apply H. eapply cleaned_trans; eassumption.
Qed.
Lemma wph_CASField d e n l (Q : bool * N * bool -> mem -> Prop) (m : mem) : a_ref d -> d_tid d < P -> flagged l ->
  (forall m', if d_seq d =? now m d then
       if clean (m l) =? e then cleaned_but (eq l) m m' -> m' l = dirty n -> Q (true, e, true) m' else cleaned m m' -> Q (false, clean (m l), true) m'
     else cleaned m m' -> Q (false, e, false) m') ->
  wp (CASField C d e n l) Q m.
Proof.
  intros Hd Ht Hl H. unfold CASField. apply mwp_bind, wph_read; [exact Hl|]. intros m1 H1. apply mwp_bind, wph_getSeq; [exact Hd|exact Ht|].
  intros m2 H2. rewrite (now_cleaned m m1) by exact H1. assert (H12 : cleaned m m2) by (eapply cleaned_trans; eassumption).
  destruct (d_seq d =? now m d); cbn [negb]; [|exact (H m2 H12)]. destruct (clean (m l) =? e) eqn:Ee; cbn [negb]; [|exact (H m2 H12)].
  apply mwp_bind, mwp_pcas; [exact I|]. intros m3 H3. rewrite (cb_clean _ _ _ H12) by exact (fun x => x). rewrite Ee. intros E3. cbn [mwp fst snd].
  apply H; [|exact E3]. intros x. destruct (decide (x = l)) as [->|Hn]; [left; reflexivity|]. right.
  rewrite (H3 x) by congruence. destruct (H12 x) as [[]|Hx]. exact Hx.
Qed.

(** ** CompleteInstall *)

Lemma wref_word s t : s < 2 ^ seqSize P -> t < P -> isMarked (as_word C (word_ref s t)) RDCSSFlag = true /\ clean (as_word C (word_ref s t)) = as_word C (word_ref s t) /\
  desc_decode P (as_word C (word_ref s t)) = word_ref s t.
Proof. intros Hs Ht. destruct (wref_facts _ s t HC Hs Ht) as (E1 & _ & _ & E2 & E3). rewrite isMarked_rdcss. split; [exact E2|]. split; [exact E3|exact E1]. Qed.
Lemma cref_word s t : s < 2 ^ seqSize P -> t < P -> isMarked (as_word C (call_ref s t)) RDCSSFlag = false /\ clean (as_word C (call_ref s t)) = as_word C (call_ref s t).
Proof. intros Hs Ht. destruct (kref_facts _ s t HC Hs Ht) as (_ & _ & _ & E2 & E3). rewrite isMarked_rdcss. split; [exact E2|exact E3]. Qed.
Lemma outcome_clean m t : word_ok C m t -> clean (outcome C m t) = outcome C m t.
Proof. intros [H1 H2 H3 H4 H5 H6]. unfold outcome. destruct (under_way m t); [apply cref_word; assumption|exact H6]. Qed.

(** Through any reference to the word descriptor of [t], up to date or not. *)
Lemma wph_complete s t (Q : bool -> mem -> Prop) (m : mem) : word_ok C m t -> s < 2 ^ seqSize P ->
  let j := m (LWWord t WOff) in
  (forall m', if (s =? wseq m t) && (contents m j =? as_word C (word_ref s t))
     then cleaned_but (at_arr j) m m' -> contents m' j = outcome C m t -> Q true m' else cleaned m m' -> Q false m') ->
  wp (completeInstall C (word_ref s t)) Q m.
Proof.
  intros Hw Hs j H. destruct (Hw) as [H1 H2 H3 H4 H5 H6]. unfold completeInstall. cbn [d_tid word_ref].
  apply mwp_bind, wph_thread; [exact H1|]. do 3 (apply mwp_bind, mwp_load; [exact I|]).
  rewrite (N.mod_small (m (LWSeq t))) by exact H5. rewrite (N.mod_small (m (LWTid t))) by (apply tidSize_fits; exact H4).
  apply mwp_bind, wph_thread; [exact H4|]. apply mwp_bind, wph_readField; [eexists; eexists; right; reflexivity|exact H4|exact I|].
  intros m1 E1. cbn [mwp fst snd]. unfold now at 1. cbn [d_isKCAS d_tid d_seq].
  change (km_status (kmut_decode (clean (m (LK (m (LWTid t))))))) with (stt (clean (m (LK (m (LWTid t)))))). rewrite stt_clean.
  change (stt (m (LK (m (LWTid t))))) with (kstat m (m (LWTid t))).
  replace ((kstat m (m (LWTid t)) =? Undecided) && (m (LWSeq t) =? kseq m (m (LWTid t)))) with (under_way m t) by (unfold under_way; apply andb_comm).
  change (mkDesc false false true s t) with (word_ref s t). fold (as_word C (word_ref s t)).
  change (mkDesc false true false (m (LWSeq t)) (m (LWTid t))) with (call_ref (m (LWSeq t)) (m (LWTid t))).
  fold (as_word C (call_ref (m (LWSeq t)) (m (LWTid t)))).
  apply mwp_bind, mwp_assert; [apply wref_word; assumption|]. do 2 (apply mwp_bind, mwp_load; [exact I|]).
  pose proof (cleaned_any in_arr _ _ E1) as A1. rewrite !(ca_wword m m1 A1). fold j. fold (outcome C m t).
  apply mwp_bind, wpa_address; [exact H3|]. apply mwp_bind, wph_CASField; [eexists; eexists; left; reflexivity|exact H1|exact I|].
  intros m2. rewrite (now_cleaned m m1) by exact E1. unfold now. cbn [word_ref d_seq d_isKCAS d_tid].
  rewrite (cb_clean _ _ _ E1 (LArr j)) by exact (fun x => x). fold (contents m j).
  destruct (s =? wseq m t) eqn:Es; cbn [andb] in H.
  - destruct (contents m j =? as_word C (word_ref s t)) eqn:Ec.
    + intros E2 G2. cbn [mwp fst]. apply (H m2).
      * eapply cleaned_trans; [apply cleaned_any; exact E1|]. eapply cleaned_weaken; [|exact E2]. intros l <-. reflexivity.
      * unfold contents. rewrite G2, clean_dirty. apply outcome_clean, Hw.
    + intros E2. cbn [mwp fst]. apply (H m2). eapply cleaned_trans; eassumption.
  - intros E2. cbn [mwp fst]. apply (H m2). eapply cleaned_trans; eassumption.
Qed.

Lemma outcome_mark m t : word_ok C m t -> isMarked (m (LWWord t WOld)) RDCSSFlag = false -> isMarked (outcome C m t) RDCSSFlag = false.
Proof. intros [H1 H2 H3 H4 H5 H6] H. unfold outcome. destruct (under_way m t); [apply cref_word; assumption|exact H]. Qed.
Lemma half_mark m t j : half_installed C m t j -> isMarked (contents m j) RDCSSFlag = true /\ desc_decode P (contents m j) = word_ref (wseq m t) t /\ settled C m j = outcome C m t.
Proof.
  intros (Hw & Hj & Hc). destruct (wref_word (wseq m t) t) as (E1 & _ & E2); [apply Hw|apply Hw|]. unfold settled. rewrite Hc, E1, E2. repeat split.
Qed.
Lemma settled_mark m j : helpable C m -> j < m_size C -> isMarked (settled C m j) RDCSSFlag = false.
Proof.
  intros [_ H] Hj. specialize (H j Hj). destruct (isMarked (contents m j) RDCSSFlag) eqn:E.
  - destruct (H eq_refl) as (t & Ht & Ho). destruct (half_mark m t j Ht) as (_ & _ & ->). apply outcome_mark; [apply Ht|exact Ho].
  - unfold settled. rewrite E. exact E.
Qed.
Lemma settled_same m m' j : cleaned_but in_arr m m' -> contents m' j = contents m j -> settled C m' j = settled C m j.
Proof. intros H E. unfold settled. rewrite E. rewrite (ca_outcome C m m' H). reflexivity. Qed.
Lemma half_same m m' t j : cleaned_but in_arr m m' -> contents m' j = contents m j -> half_installed C m t j -> half_installed C m' t j.
Proof. intros H E (Hw & Hj & Hc). split; [apply (ca_word_ok C m m' H), Hw|]. rewrite (ca_wword m m' H), (ca_wseq m m' H), E. split; assumption. Qed.

(** ** InstallMwCASDescriptor *)

Lemma wph_install1 n t (Q : N * bool -> mem -> Prop) (m : mem) : word_ok C m t -> isMarked (contents m (m (LWWord t WOff))) RDCSSFlag = false ->
  let j := m (LWWord t WOff) in
  (forall m', cleaned_but (at_arr j) m m' -> contents m' j = (if contents m j =? m (LWWord t WOld) then outcome C m t else contents m j) -> Q (contents m j, true) m') ->
  wp (install C (S n) (word_ref (wseq m t) t)) Q m.
Proof.
  intros Hw Hv j H. destruct (Hw) as [H1 H2 H3 H4 H5 H6]. cbn [install d_tid word_ref].
  do 2 (apply mwp_bind, mwp_load; [exact I|]). fold j. apply mwp_bind, wpa_address; [exact H3|].
  change (mkDesc false false true (wseq m t) t) with (word_ref (wseq m t) t). fold (as_word C (word_ref (wseq m t) t)).
  apply mwp_bind, wph_CASField; [eexists; eexists; left; reflexivity|exact H1|exact I|]. intros m1. unfold now. cbn [word_ref d_seq d_isKCAS d_tid].
  rewrite N.eqb_refl. fold (contents m j). destruct (contents m j =? m (LWWord t WOld)) eqn:Ec.
  - intros E1 G1. apply mwp_bind, mwp_assert; [rewrite N.eqb_refl; reflexivity|]. cbn [negb]. apply N.eqb_eq in Ec. rewrite decode_rdcss, <- isMarked_rdcss, <- Ec.
    fold j in Hv. rewrite Hv. rewrite N.eqb_refl. change (mkDesc false false true (wseq m t) t) with (word_ref (wseq m t) t).
    assert (B1 : cleaned_but (at_arr j) m m1) by (eapply cleaned_weaken; [|exact E1]; intros l <-; reflexivity). pose proof (at_in_arr _ _ _ B1) as A1.
    apply mwp_bind, mwp_bind, wph_complete; [apply (ca_word_ok C m m1 A1), Hw|exact H2|]. intros m2. rewrite (ca_wseq m m1 A1), (ca_wword m m1 A1), (ca_outcome C m m1 A1). fold j.
    rewrite N.eqb_refl. cbn [andb]. unfold contents at 1. rewrite G1, clean_dirty. destruct (wref_word (wseq m t) t H2 H1) as (_ & -> & _). rewrite N.eqb_refl.
    intros E2 G2. cbn [mwp]. apply (H m2); [eapply cleaned_trans; eassumption|exact G2].
  - intros E1. apply mwp_bind, mwp_assert; [reflexivity|]. cbn [negb]. rewrite decode_rdcss, <- isMarked_rdcss. fold j in Hv. rewrite Hv. cbn [mbind mwp].
    apply (H m1); [apply cleaned_any, E1|]. apply (cb_contents _ _ _ E1). exact (fun x => x).
Qed.
Lemma wph_install_at n t (Q : N * bool -> mem -> Prop) (m : mem) : word_ok C m t -> isMarked (m (LWWord t WOld)) RDCSSFlag = false ->
  let j := m (LWWord t WOff) in
  (isMarked (contents m j) RDCSSFlag = true -> exists t', half_installed C m t' j /\ isMarked (m (LWWord t' WOld)) RDCSSFlag = false) ->
  (forall m', cleaned_but (at_arr j) m m' -> contents m' j = (if settled C m j =? m (LWWord t WOld) then outcome C m t else settled C m j) -> Q (settled C m j, true) m') ->
  wp (install C (S (S n)) (word_ref (wseq m t) t)) Q m.
Proof.
  intros Hw Ho j Hh H. destruct (isMarked (contents m j) RDCSSFlag) eqn:Em.
  - destruct (Hh eq_refl) as (t' & Ht' & Ho'). destruct (half_mark m t' j Ht') as (_ & Ed & Es). rewrite Es in H. destruct (Hw) as [H1 H2 H3 H4 H5 H6].
    remember (S n) as n1 eqn:En. cbn [install d_tid word_ref]. do 2 (apply mwp_bind, mwp_load; [exact I|]). fold j. apply mwp_bind, wpa_address; [exact H3|].
    change (mkDesc false false true (wseq m t) t) with (word_ref (wseq m t) t). fold (as_word C (word_ref (wseq m t) t)).
    apply mwp_bind, wph_CASField; [eexists; eexists; left; reflexivity|exact H1|exact I|]. intros m1. unfold now. cbn [word_ref d_seq d_isKCAS d_tid].
    rewrite N.eqb_refl. fold (contents m j). assert (En' : (contents m j =? m (LWWord t WOld)) = false) by (apply N.eqb_neq; congruence). rewrite En'.
    intros E1. apply mwp_bind, mwp_assert; [rewrite ?En'; reflexivity|]. cbn [negb]. rewrite Ed. cbn [word_ref d_isRDCSS].
    change (mkDesc false false true (wseq m t) t) with (word_ref (wseq m t) t). change (mkDesc false false true (wseq m t') t') with (word_ref (wseq m t') t').
    pose proof (cleaned_any in_arr _ _ E1) as A1. apply mwp_bind, wph_complete; [apply (ca_word_ok C m m1 A1), Ht'|apply Ht'|].
    intros m2. rewrite (ca_wseq m m1 A1), (ca_wword m m1 A1), (ca_outcome C m m1 A1), N.eqb_refl. destruct Ht' as (Hw' & Hj' & Hc'). rewrite Hj'.
    rewrite (cb_contents _ _ _ E1) by exact (fun x => x). rewrite Hc', N.eqb_refl. cbn [andb]. intros E2 G2.
    assert (B2 : cleaned_but (at_arr j) m m2) by (eapply cleaned_trans; [apply cleaned_any; exact E1|exact E2]). pose proof (at_in_arr _ _ _ B2) as A2.
    subst n1. rewrite <- (ca_wseq m m2 A2). apply wph_install1; [apply (ca_word_ok C m m2 A2), Hw| |].
    + rewrite (ca_wword m m2 A2). fold j. rewrite G2. apply outcome_mark; assumption.
    + rewrite !(ca_wword m m2 A2), (ca_outcome C m m2 A2). fold j. rewrite G2. intros m3 E3 G3. apply H; [|exact G3]. eapply cleaned_trans; eassumption.
  - unfold settled in H. rewrite Em in H. apply wph_install1; [exact Hw|exact Em|exact H].
Qed.
Lemma wph_install n t (Q : N * bool -> mem -> Prop) (m : mem) : word_ok C m t -> isMarked (m (LWWord t WOld)) RDCSSFlag = false -> helpable C m ->
  let j := m (LWWord t WOff) in
  (forall m', cleaned_but (at_arr j) m m' -> contents m' j = (if settled C m j =? m (LWWord t WOld) then outcome C m t else settled C m j) -> Q (settled C m j, true) m') ->
  wp (install C (S (S n)) (word_ref (wseq m t) t)) Q m.
Proof. intros Hw Ho [_ Hh] j H. apply wph_install_at; [exact Hw|exact Ho| |exact H]. apply (Hh j (wo_off C m t Hw)). Qed.
Lemma wph_install_stale n s t (Q : N * bool -> mem -> Prop) (m : mem) : word_ok C m t -> s <> wseq m t ->
  (forall m', cleaned m m' -> Q (m (LWWord t WOld), false) m') -> wp (install C (S n) (word_ref s t)) Q m.
Proof.
  intros Hw Hs H. cbn [install d_tid word_ref]. do 2 (apply mwp_bind, mwp_load; [exact I|]). apply mwp_bind, wpa_address; [apply Hw|].
  apply mwp_bind, wph_CASField; [eexists; eexists; left; reflexivity|apply Hw|exact I|]. intros m1. unfold now. cbn [word_ref d_seq d_isKCAS d_tid].
  rewrite (proj2 (N.eqb_neq _ _) Hs). intros E1. apply mwp_bind, mwp_assert; [rewrite N.eqb_refl; reflexivity|]. cbn. apply H, E1.
Qed.

(** ** A new word descriptor *)

Lemma wph_createW me h x kd (Q : descref -> mem -> Prop) (m : mem) : me < P -> h < P ->
  (forall m' s, (forall l, l <> LW me -> (forall f, l <> LWWord me f) -> l <> LWSeq me -> l <> LWTid me -> m' l = m l) ->
    s = (wseq m me + 2) mod 2 ^ 63 -> wseq m' me = s ->
    m' (LWWord me WOff) = o_off x -> m' (LWWord me WOld) = o_old x -> m' (LWWord me WNew) = o_new x -> m' (LWSeq me) = d_seq kd -> m' (LWTid me) = h ->
    Q (word_ref (s mod 2 ^ seqSize P) me) m') ->
  wp (createW C me h x kd) Q m.
Proof.
  intros Hme Hh H. unfold createW. apply mwp_bind, mwp_assert; [apply N.ltb_lt, Hme|]. apply mwp_bind, mwp_assert; [apply N.ltb_lt, Hh|].
  apply mwp_bind, wph_thread; [exact Hme|]. apply mwp_bind, mwp_read; [exact I|]. intros m1 Hm1 _. rewrite wseq_clean. fold (wseq m me).
  set (s1 := (wseq m me + 1) mod 2 ^ 63). set (s2 := (s1 + 1) mod 2 ^ 63).
  assert (Hs2 : s2 = (wseq m me + 2) mod 2 ^ 63).
  { unfold s2, s1. rewrite N.add_mod_idemp_l by discriminate. f_equal. lia. }
  assert (L2 : s2 < 2 ^ 63) by (apply N.mod_lt; discriminate).
  destruct (wenc_facts s2 L2) as (D2 & E2 & F2). rewrite F2.
  apply mwp_bind, mwp_store; [exact I|]. apply mwp_bind, mwp_persist; [exact I|]. intros m2 Hm2 _.
  do 6 (apply mwp_bind, mwp_store; [exact I|]). apply mwp_bind, mwp_persist; [exact I|].
  intros m4 Hm4. rewrite upd_same, N.eqb_refl, clean_dirty, E2. intros G4. cbn [mwp]. apply H.
  - intros l L1 Lf Ls Lt. rewrite Hm4 by congruence. rewrite !upd_other by (first [apply Lf|assumption]). rewrite Hm2 by congruence. rewrite upd_other by congruence. apply Hm1. congruence.
  - exact Hs2.
  - unfold wseq. rewrite G4, D2. reflexivity.
  - rewrite Hm4 by discriminate. repeat (first [rewrite upd_same | rewrite upd_other by discriminate]). reflexivity.
  - rewrite Hm4 by discriminate. repeat (first [rewrite upd_same | rewrite upd_other by discriminate]). reflexivity.
  - rewrite Hm4 by discriminate. repeat (first [rewrite upd_same | rewrite upd_other by discriminate]). reflexivity.
  - rewrite Hm4 by discriminate. repeat (first [rewrite upd_same | rewrite upd_other by discriminate]). reflexivity.
  - rewrite Hm4 by discriminate. repeat (first [rewrite upd_same | rewrite upd_other by discriminate]). reflexivity.
Qed.

(** ** The first pass of recovery *)

Definition later (t0 : N) (m : mem) : Prop := forall j, j < m_size C -> isMarked (contents m j) RDCSSFlag = true ->
  exists t, t0 <= t /\ half_installed C m t j /\ isMarked (m (LWWord t WOld)) RDCSSFlag = false.
Lemma wph_recover_words cnt t0 (Q : unit -> mem -> Prop) (m : mem) : t0 + N.of_nat cnt = P ->
  (forall t, t < P -> m (LWWord t WOff) < m_size C) -> later t0 m ->
  (forall m', cleaned_but in_arr m m' -> (forall j, j < m_size C -> contents m' j = settled C m j) -> Q tt m') -> wp (recover_words C cnt t0) Q m.
Proof.
  revert t0 Q m. induction cnt as [|cnt IH]; intros t0 Q m Hc Hoff Hl H.
  { apply H; [apply cleaned_refl|]. intros j Hj. unfold settled. specialize (Hl j Hj). destruct (isMarked (contents m j) RDCSSFlag); [|reflexivity].
    destruct (Hl eq_refl) as (t & Ht & (Hw & _) & _). pose proof (wo_thread C m t Hw). lia. }
  cbn [recover_words]. assert (Ht0 : t0 < P) by lia. set (j0 := m (LWWord t0 WOff)).
  apply mwp_bind, mwp_load; [exact I|]. fold j0. assert (Hj0 : j0 < m_size C) by apply Hoff, Ht0. apply mwp_bind, wpa_address; [exact Hj0|].
  apply mwp_bind, wph_read; [exact I|]. intros m1 E1. fold (contents m j0). pose proof (cleaned_any in_arr _ _ E1) as A1.
  assert (S : forall (Q' : unit -> mem -> Prop), (forall m2, cleaned_but (at_arr j0) m m2 -> contents m2 j0 = settled C m j0 -> Q' tt m2) ->
    wp (if d_isRDCSS (desc_decode P (contents m j0)) && negb (d_isKCAS (desc_decode P (contents m j0))) then completeInstall C (desc_decode P (contents m j0)) ;;; MRet tt else MRet tt) Q' m1).
  { intros Q' HQ. specialize (Hl j0 Hj0). destruct (isMarked (contents m j0) RDCSSFlag) eqn:Em.
    - destruct (Hl eq_refl) as (t & _ & Ht & Ho). destruct (half_mark m t j0 Ht) as (_ & Ed & Es). rewrite Ed. cbn [word_ref d_isRDCSS d_isKCAS andb negb].
      change (mkDesc false false true (wseq m t) t) with (word_ref (wseq m t) t). destruct Ht as (Hw & Hj & Hcon).
      apply mwp_bind, wph_complete; [apply (ca_word_ok C m m1 A1), Hw|apply Hw|]. intros m2. rewrite (ca_wseq m m1 A1), (ca_wword m m1 A1), (ca_outcome C m m1 A1), N.eqb_refl, Hj.
      rewrite (cb_contents _ _ _ E1) by exact (fun x => x). rewrite Hcon, N.eqb_refl. cbn [andb]. intros E2 G2. cbn [mwp].
      apply HQ; [eapply cleaned_trans; [apply cleaned_any; exact E1|exact E2]|congruence].
    - rewrite decode_rdcss, <- isMarked_rdcss, Em. cbn [andb mwp]. apply HQ; [apply cleaned_any, E1|]. unfold settled. rewrite Em. apply (cb_contents _ _ _ E1). exact (fun x => x). }
  apply mwp_bind, S. intros m2 B2 G2. pose proof (at_in_arr _ _ _ B2) as A2. apply mwp_bind, mwp_load; [exact I|]. rewrite (ca_wword m m2 A2). fold j0.
  apply mwp_bind, wpa_address; [exact Hj0|]. apply mwp_bind, wph_read; [exact I|]. intros m3 E3. fold (contents m2 j0). rewrite G2.
  assert (Hset : forall j, j < m_size C -> isMarked (settled C m j) RDCSSFlag = false).
  { intros j Hj. apply settled_mark; [|exact Hj]. split; [exact Hoff|]. intros k Hk Ek. destruct (Hl k Hk Ek) as (t & _ & Ht & Ho). exists t. tauto. }
  apply mwp_bind, mwp_assert; [rewrite decode_rdcss, <- isMarked_rdcss, Hset by exact Hj0; reflexivity|].
  assert (A3 : cleaned_but in_arr m m3) by (eapply cleaned_trans; [exact A2|apply cleaned_any, E3]).
  assert (C3 : forall j, contents m3 j = if j =? j0 then settled C m j0 else contents m j).
  { intros j. rewrite (cb_contents _ _ _ E3) by exact (fun x => x). destruct (N.eqb_spec j j0) as [->|Hn]; [exact G2|]. apply (cb_contents _ _ _ B2). intros E. injection E. exact Hn. }
  apply IH; [lia| | |].
  - intros t Ht. rewrite (ca_wword m m3 A3). apply Hoff, Ht.
  - intros j Hj. rewrite C3. destruct (N.eqb_spec j j0) as [->|Hn]; [rewrite Hset by exact Hj0; discriminate|]. intros Em.
    destruct (Hl j Hj Em) as (t & Ht & Hh & Ho). exists t. split; [|split].
    + destruct (N.eq_dec t t0) as [->|Hne]; [|lia]. destruct Hh as (_ & Hh & _). unfold j0 in Hn. congruence.
    + apply (half_same m); [exact A3| |exact Hh]. rewrite C3, (proj2 (N.eqb_neq _ _) Hn). reflexivity.
    + rewrite (ca_wword m m3 A3). exact Ho.
  - intros m4 A4 C4. apply H; [eapply cleaned_trans; eassumption|]. intros j Hj. rewrite C4 by exact Hj. destruct (N.eqb_spec j j0) as [->|Hn].
    + assert (E : contents m3 j0 = settled C m j0) by (rewrite C3, N.eqb_refl; reflexivity). unfold settled at 1. rewrite E, Hset by exact Hj0. reflexivity.
    + apply settled_same; [exact A3|]. rewrite C3, (proj2 (N.eqb_neq _ _) Hn). reflexivity.
Qed.
End Help.
