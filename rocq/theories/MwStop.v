(** The memory in the middle of a call, until the call is decided. *)
From Coq Require Import NArith Bool List Lia.
From stdpp Require Import base list.
From Verif Require Import Word Bits Codec CodecSpec CodecThm MwCas MwSpec MwWp MwSeq MwRely MwRecover MwHelpSpec MwHelp MwCallSpec MwCall.
Import ListNotations.
Local Open Scope N_scope.

(** ** Programs with an invariant, until [Stop] holds *)

Section Wpx.
Context (I Stop : mem -> Prop).
Fixpoint mwpx {A : Type} (p : mprog A) (Q : A -> mem -> Prop) (m : mem) : Prop :=
  match p with
  | MRet a => Q a m
  | MErr _ => False
  | MVis c k => let (r, m') := mexec c m in I m' /\ (Stop m' \/ mwpx (k r) Q m')
  end.
Lemma mwpx_bind {A B} (p : mprog A) (f : A -> mprog B) Q m : mwpx p (fun a m' => mwpx (f a) Q m') m -> mwpx (mbind p f) Q m.
Proof.
  revert m. induction p as [a|e|c k IH]; intros m; cbn; [auto|auto|]. destruct (mexec c m) as [r m']. intros [HI [H|H]]; split; try exact HI; [left; exact H|right].
  apply IH. exact H.
Qed.
Lemma mwpx_of_mwp {A} fp (p : mprog A) Q m : mwp fp p Q m -> (forall m', only fp m m' -> I m') -> mwpx p Q m.
Proof.
  revert m. induction p as [a|e|c k IH]; intros m; cbn; [auto|auto|]. intros [Hf H] HI. pose proof (mexec_only c m) as Ho. destruct (mexec c m) as [r m1]. cbn in Ho.
  assert (Ho' : only fp m m1) by (eapply only_weaken; [|exact Ho]; intros l <-; exact Hf).
  split; [apply HI, Ho'|]. right. apply IH; [exact H|]. intros m' H'. apply HI. eapply only_trans; eassumption.
Qed.
Lemma mwpx_load l (Q : N -> mem -> Prop) (m : mem) : I m -> Q (m l) m -> mwpx (mdo (MLoad l)) Q m.
Proof. cbn. auto. Qed.
Lemma mwpx_store l v (Q : unit -> mem -> Prop) (m : mem) : I (upd m l v) -> Q tt (upd m l v) -> mwpx (mdo (MStore l v)) Q m.
Proof. cbn. auto. Qed.

(** Invariants that do not depend on the dirty bits. *)
Definition ic (m : mem) : Prop := forall m', cleaned m m' -> I m'.
Lemma ic_clean m m' : ic m -> cleaned m m' -> ic m'.
Proof. intros H H1 m2 H2. apply H. eapply cleaned_trans; eassumption. Qed.
Lemma ic_now m : ic m -> I m.
Proof. intros H. apply H, cleaned_refl. Qed.

Lemma cleaned_upd m l : flagged l -> cleaned m (upd m l (clean (m l))).
Proof. intros Hl x. right. destruct (decide (x = l)) as [->|Hn]; [right; rewrite upd_same; split; [reflexivity|destruct l; exact Hl]|left; apply upd_other, Hn]. Qed.

Lemma mwpx_read' l (Q : N -> mem -> Prop) (m : mem) : flagged l -> ic m -> (forall m', cleaned m m' -> m' l = clean (m l) -> Q (clean (m l)) m') -> mwpx (m_read l) Q m.
Proof.
  intros Hl Hi H. unfold m_read. apply mwpx_bind, mwpx_load; [apply ic_now, Hi|]. apply mwpx_bind. destruct (isMarked (m l) DirtyFlag) eqn:E.
  - unfold m_persist. apply mwpx_bind. cbn. rewrite N.eqb_refl. pose proof (cleaned_upd m l Hl) as Hc. split; [apply Hi, Hc|]. right. apply H; [exact Hc|apply upd_same].
  - cbn. apply H; [apply cleaned_refl|]. symmetry. apply clean_id. exact E.
Qed.
Lemma mwpx_read l (Q : N -> mem -> Prop) (m : mem) : flagged l -> ic m -> (forall m', cleaned m m' -> Q (clean (m l)) m') -> mwpx (m_read l) Q m.
Proof. intros Hl Hi H. apply mwpx_read'; [exact Hl|exact Hi|]. intros m' Hm' _. apply H, Hm'. Qed.
Lemma mwpx_persist l (Q : unit -> mem -> Prop) (m : mem) : flagged l -> ic m -> (forall m', cleaned m m' -> m' l = clean (m l) -> Q tt m') -> mwpx (m_persist l (m l)) Q m.
Proof.
  intros Hl Hi H. unfold m_persist. apply mwpx_bind. cbn. rewrite N.eqb_refl. pose proof (cleaned_upd m l Hl) as Hc. split; [apply Hi, Hc|]. right. apply H; [exact Hc|apply upd_same].
Qed.

Context (C : mcfg) (HC : mcfg_ok C).
Local Notation P := (2 ^ m_log C)%N.
Lemma mwpx_assert (b : bool) (Q : unit -> mem -> Prop) (m : mem) : b = true -> Q tt m -> mwpx (massert C b) Q m.
Proof. intros -> H. exact H. Qed.
Lemma mwpx_thread t (Q : unit -> mem -> Prop) (m : mem) : t < P -> Q tt m -> mwpx (thread_ok C t) Q m.
Proof. intros H HQ. unfold thread_ok. rewrite (proj2 (N.ltb_lt _ _) H). exact HQ. Qed.
Lemma mwpx_address j (Q : loc -> mem -> Prop) (m : mem) : j < m_size C -> Q (LArr j) m -> mwpx (address C j) Q m.
Proof. intros H HQ. unfold address. rewrite (proj2 (N.ltb_lt _ _) H). exact HQ. Qed.
Lemma mwpx_getSeq d (Q : N -> mem -> Prop) (m : mem) : a_ref d -> d_tid d < P -> ic m ->
  (forall m', cleaned m m' -> Q (now m d) m') -> mwpx (getSeq C d) Q m.
Proof.
  intros (s & t & [->| ->]) Ht Hi H; unfold getSeq, now in *; cbn [word_ref call_ref d_isKCAS d_isRDCSS d_tid andb negb] in *;
    apply mwpx_bind, mwpx_thread; try exact Ht; apply mwpx_bind, mwpx_read; try exact Logic.I; try exact Hi; intros m' Hm'; cbn [mwpx].
  - rewrite wseq_clean. apply H, Hm'.
  - change (km_seq (kmut_decode (clean (m (LK t))))) with (sq (clean (m (LK t)))). rewrite sq_clean. apply H, Hm'.
Qed.
Lemma mwpx_readField d l (Q : N * bool -> mem -> Prop) (m : mem) : a_ref d -> d_tid d < P -> flagged l -> ic m ->
  (forall m', cleaned m m' -> Q (clean (m l), d_seq d =? now m d) m') -> mwpx (readField C d l) Q m.
Proof.
  intros Hd Ht Hl Hi H. unfold readField. apply mwpx_bind, mwpx_read; [exact Hl|exact Hi|]. intros m1 H1. apply mwpx_bind, mwpx_getSeq; [exact Hd|exact Ht|eapply ic_clean; eassumption|].
  intros m2 H2. cbn [mwpx]. rewrite (now_cleaned m m1) by exact H1. apply H. eapply cleaned_trans; eassumption.
Qed.
(** Through an up-to-date reference. *)
Lemma mwpx_CASField d e n l (Q : bool * N * bool -> mem -> Prop) (m : mem) : a_ref d -> d_tid d < P -> flagged l -> ic m -> d_seq d = now m d ->
  (forall m', if clean (m l) =? e then cleaned_but (eq l) m m' -> m' l = dirty n -> I m' /\ (Stop m' \/ Q (true, e, true) m')
     else cleaned m m' -> Q (false, clean (m l), true) m') ->
  mwpx (CASField C d e n l) Q m.
Proof.
  intros Hd Ht Hl Hi Hs H. unfold CASField. apply mwpx_bind, mwpx_read; [exact Hl|exact Hi|]. intros m1 H1. pose proof (ic_clean _ _ Hi H1) as Hi1.
  apply mwpx_bind, mwpx_getSeq; [exact Hd|exact Ht|exact Hi1|].
  intros m2 H2. rewrite (now_cleaned m m1), <- Hs, N.eqb_refl by exact H1. assert (H12 : cleaned m m2) by (eapply cleaned_trans; eassumption). pose proof (ic_clean _ _ Hi H12) as Hi2.
  cbn [negb]. destruct (clean (m l) =? e) eqn:Ee; cbn [negb]; [|exact (H m2 H12)].
  apply mwpx_bind. unfold m_pcas. apply mwpx_bind, mwpx_read'; [exact Hl|exact Hi2|]. intros m3 H23. rewrite (cb_clean _ _ _ H12) by tauto. intros E3.
  assert (H3 : cleaned m m3) by (eapply cleaned_trans; eassumption).
  apply mwpx_bind. cbn. rewrite E3, Ee.
  assert (A : cleaned_but (eq l) m (upd m3 l (dirty n))).
  { intros x. destruct (decide (x = l)) as [->|Hn]; [left; reflexivity|]. right. rewrite upd_other by exact Hn. destruct (H3 x) as [[]|Hx]. exact Hx. }
  destruct (H _ A (upd_same _ _ _)) as [HI HQ]. split; [exact HI|]. destruct HQ as [HQ|HQ]; [left; exact HQ|right]. cbn [fst snd]. rewrite N.eqb_refl. cbn. exact HQ.
Qed.
End Wpx.

(** ** The owner of a call *)

Section Owner.
Context (C : mcfg) (HC : mcfg_ok C).
Local Notation P := (2 ^ m_log C)%N.
Context (t s : N) (Ht : t < P) (Hs : s < 2 ^ seqSize P) (ws : list mword) (m0 : mem).
Context (Hnd : NoDup (map o_off ws)) (Hws : forall x, In x ws -> o_off x < m_size C /\ mval (o_old x) /\ mval (o_new x)).
Context (Hm0 : forall x, In x ws -> mval (contents m0 (o_off x))).
Local Notation d := (call_ref s t).
Local Notation K := (as_word C (call_ref s t)).

Definition owned (l : loc) : Prop := kset t l \/ wset t l \/ in_arr l.
(** The cells of others are as before the call, and the array is as before apart from the words of the call. *)
Definition wbound : N := wseq m0 t + 2 * N.of_nat (length ws).
Definition framed (m : mem) : Prop :=
  cleaned_but owned m0 m /\ m (LWWord t WOff) < m_size C /\ wseq m t <= wbound /\ forall j, ~ In j (map o_off ws) -> contents m j = contents m0 j.
Definition plain (m : mem) (x : mword) : Prop :=
  contents m (o_off x) = contents m0 (o_off x) \/ (contents m (o_off x) = K /\ contents m0 (o_off x) = o_old x).
(** The descriptor is complete. *)
Definition based (m : mem) : Prop :=
  framed m /\ clean (m (LK t)) = kenc Undecided s /\ m (LKCount t) = N.of_nat (length ws) /\ words_at t m 0 ws /\
  forall i, m (LKWord t i WOff) < m_size C.
Definition full (m : mem) : Prop := based m /\ forall x, In x ws -> plain m x.
Definition half_at (x : mword) (m : mem) : Prop :=
  based m /\ (forall y, In y ws -> o_off y <> o_off x -> plain m y) /\ half_installed C m t (o_off x) /\
  m (LWWord t WOld) = o_old x /\ contents m0 (o_off x) = o_old x /\ m (LWSeq t) = s /\ m (LWTid t) = t.
(** It is not yet. *)
Definition begun (m : mem) : Prop :=
  framed m /\ (forall j, contents m j = contents m0 j) /\ (forall i, m (LKWord t i WOff) < m_size C) /\
  (kseq m t mod 2 = 1 \/ (kseq m t = kseq m0 t /\ kstat m t = kstat m0 t)).
Definition decided (m : mem) : Prop := kseq m t = s /\ kstat m t <> Undecided.
Definition inside (m : mem) : Prop := begun m \/ full m \/ (exists x, In x ws /\ half_at x m) \/ decided m.
Local Notation wpx := (mwpx inside decided).

Lemma framed_clean m m' : cleaned m m' -> framed m -> framed m'.
Proof.
  intros H (F1 & F2 & F4 & F3). split; [eapply cleaned_trans; [exact F1|apply cleaned_any, H]|]. split; [|split].
  - rewrite (cb_plain _ _ _ H) by (exact (fun x => x) || exact I). exact F2.
  - rewrite (cb_wseq _ _ _ H) by tauto. exact F4.
  - intros j Hj. rewrite (cb_contents _ _ _ H) by tauto. apply F3, Hj.
Qed.
Lemma based_clean m m' : cleaned m m' -> based m -> based m'.
Proof.
  intros H (B1 & B2 & B3 & B4 & B5). split; [eapply framed_clean; eassumption|]. split; [rewrite (cb_clean _ _ _ H) by tauto; exact B2|].
  split; [rewrite (cb_plain _ _ _ H) by (exact (fun x => x) || exact I); exact B3|].
  split; [intros k x Hx; rewrite !(cb_plain _ _ _ H) by (exact (fun x => x) || exact I); apply B4, Hx|]. intros i. rewrite (cb_plain _ _ _ H) by (exact (fun x => x) || exact I). apply B5.
Qed.
Lemma plain_clean m m' x : cleaned m m' -> plain m x -> plain m' x.
Proof. intros H Hp. unfold plain. rewrite (cb_contents _ _ _ H) by tauto. exact Hp. Qed.
Lemma full_clean m m' : cleaned m m' -> full m -> full m'.
Proof. intros H [F1 F2]. split; [eapply based_clean; eassumption|]. intros x Hx. eapply plain_clean; [exact H|apply F2, Hx]. Qed.
Lemma half_clean x m m' : cleaned m m' -> half_at x m -> half_at x m'.
Proof.
  intros H (F1 & F2 & F3 & F4 & F5 & F6 & F7). split; [eapply based_clean; eassumption|]. split; [intros y Hy Hn; eapply plain_clean; [exact H|apply F2; assumption]|].
  pose proof (cleaned_any in_arr _ _ H) as A. split; [|rewrite (ca_wword m m' A), (ca_wkseq m m' A), (ca_wtid m m' A); tauto].
  apply (half_same C m m'); [exact A|apply (cb_contents _ _ _ H); tauto|exact F3].
Qed.
Lemma begun_clean m m' : cleaned m m' -> begun m -> begun m'.
Proof.
  intros H (F1 & F2 & F3 & F4). split; [eapply framed_clean; eassumption|]. split; [intros j; rewrite (cb_contents _ _ _ H) by tauto; apply F2|].
  split; [intros i; rewrite (cb_plain _ _ _ H) by (exact (fun x => x) || exact I); apply F3|]. rewrite (cb_kseq _ _ _ H), (cb_kstat _ _ _ H) by tauto. exact F4.
Qed.
Lemma full_ic m : full m -> ic inside m.
Proof. intros H m' Hc. right. left. eapply full_clean; eassumption. Qed.
Lemma half_ic x m : In x ws -> half_at x m -> ic inside m.
Proof. intros Hx H m' Hc. right. right. left. exists x. split; [exact Hx|]. eapply half_clean; eassumption. Qed.
Lemma begun_ic m : begun m -> ic inside m.
Proof. intros H m' Hc. left. eapply begun_clean; eassumption. Qed.
Lemma full_in m : full m -> inside m.
Proof. intros H. apply ic_now, full_ic, H. Qed.

Lemma Kf : clean K = K /\ N.testbit K 1 = true /\ N.testbit K 2 = false /\ desc_decode P K = d.
Proof. apply K_facts; assumption. Qed.
Lemma Kd0 : kmut_decode (kenc Undecided s) = mkKmut false Undecided s.
Proof. apply kenc_facts; [reflexivity|apply (seq_61 _ _ HC), Hs]. Qed.
Lemma based_seq m : based m -> kseq m t = s /\ kstat m t = Undecided.
Proof.
  intros (_ & B2 & _). unfold kseq, kstat. change (km_seq (kmut_decode (m (LK t)))) with (sq (m (LK t))). change (km_status (kmut_decode (m (LK t)))) with (stt (m (LK t))).
  rewrite <- sq_clean, <- stt_clean, B2. unfold sq, stt. rewrite Kd0. split; reflexivity.
Qed.

(** *** The word descriptor *)

Definition wcell_ok (l : loc) (v : N) : Prop :=
  match l with LWWord _ WOff => v < m_size C | LW _ => wm_seq (wmut_decode v) <= wbound | _ => True end.
Lemma full_upd_w m l v : full m -> wset t l -> wcell_ok l v -> full (upd m l v).
Proof.
  intros [((F1 & F2 & F4 & F3) & B2 & B3 & B4 & B5) Hp] Hl Hv.
  assert (E : forall x, ~ wset t x -> upd m l v x = m x) by (intros x Hx; apply upd_other; intros ->; contradiction).
  assert (Ec : forall j, contents (upd m l v) j = contents m j) by (intros j; unfold contents; rewrite E by exact (fun x => x); reflexivity).
  split; [split; [split; [|split; [|split]]|split; [|split; [|split]]]|].
  - intros x. destruct (decide (x = l)) as [->|Hn]; [left; right; left; exact Hl|]. rewrite upd_other by exact Hn. apply F1.
  - destruct (decide (LWWord t WOff = l)) as [<-|Hn]; [rewrite upd_same; exact Hv|rewrite upd_other by exact Hn; exact F2].
  - unfold wseq in *. destruct (decide (LW t = l)) as [<-|Hn]; [rewrite upd_same; exact Hv|rewrite upd_other by exact Hn; exact F4].
  - intros j Hj. rewrite Ec. apply F3, Hj.
  - rewrite E by exact (fun x => x). exact B2.
  - rewrite E by exact (fun x => x). exact B3.
  - intros k x Hx. rewrite !E by exact (fun x => x). apply B4, Hx.
  - intros i. rewrite E by exact (fun x => x). apply B5.
  - intros x Hx. unfold plain. rewrite Ec. apply Hp, Hx.
Qed.
Lemma x_store_w l v (Q : unit -> mem -> Prop) m : full m -> wset t l -> wcell_ok l v -> Q tt (upd m l v) -> wpx (mdo (MStore l v)) Q m.
Proof. intros Hf Hl Hv H. apply mwpx_store; [apply full_in, full_upd_w; assumption|exact H]. Qed.
Lemma x_createW x (Q : descref -> mem -> Prop) m : full m -> o_off x < m_size C -> wseq m t + 2 <= wbound -> wbound < 2 ^ seqSize P ->
  (forall m', full m' -> (forall l, ~ wset t l -> clean (m' l) = clean (m l)) -> wseq m' t = wseq m t + 2 ->
    m' (LWWord t WOff) = o_off x -> m' (LWWord t WOld) = o_old x -> m' (LWSeq t) = s -> m' (LWTid t) = t -> Q (word_ref (wseq m t + 2) t) m') ->
  wpx (createW C t t x d) Q m.
Proof.
  intros Hf Hx Hqb Hqs H. assert (Hq : wseq m t + 2 < 2 ^ seqSize P) by lia. unfold createW. do 2 (apply mwpx_bind, mwpx_assert; [apply N.ltb_lt, Ht|]). apply mwpx_bind, mwpx_thread; [exact Ht|].
  apply mwpx_bind, mwpx_read; [exact I|apply full_ic, Hf|]. intros m1 H1. rewrite wseq_clean. fold (wseq m t). pose proof (full_clean _ _ H1 Hf) as Hf1.
  pose proof (seq_63 _ _ HC Hq) as H63. rewrite (N.mod_small (wseq m t + 1)) by lia. replace (wseq m t + 1 + 1) with (wseq m t + 2) by lia.
  rewrite (N.mod_small (wseq m t + 2)) by lia. rewrite (N.mod_small (wseq m t + 2) (2 ^ seqSize P)) by lia. cbn zeta. cbn [d_seq call_ref].
  destruct (wenc_facts (wseq m t + 2) H63) as (D2 & E2 & F2). destruct (wenc_facts (wseq m t + 1) ltac:(lia)) as (D1 & E1 & F1). rewrite F2, F1.
  set (v1 := dirty (wenc (wseq m t + 1))). set (v2 := dirty (wenc (wseq m t + 2))).
  assert (Hv1 : wcell_ok (LW t) v1) by (unfold wcell_ok;  unfold v1; rewrite <- wseq_clean, clean_dirty, E1, D1; cbn [wm_seq]; lia).
  assert (Hv2 : wcell_ok (LW t) v2) by (unfold wcell_ok;  unfold v2; rewrite <- wseq_clean, clean_dirty, E2, D2; cbn [wm_seq]; lia).
  assert (S1 : full (upd m1 (LW t) v1)) by (apply full_upd_w; [exact Hf1|reflexivity|exact Hv1]).
  apply mwpx_bind, x_store_w; [exact Hf1|reflexivity|exact Hv1|]. rewrite <- (upd_same m1 (LW t) v1) at 1.
  apply mwpx_bind, mwpx_persist; [exact I|apply full_ic, S1|]. intros m2 H2 _. pose proof (full_clean _ _ H2 S1) as Hf2.
  assert (E2' : forall l, ~ wset t l -> clean (m2 l) = clean (m l)).
  { intros l Hl. rewrite (cb_clean _ _ _ H2) by tauto. rewrite upd_other by (intros ->; apply Hl; reflexivity). apply (cb_clean _ _ _ H1). tauto. }
  apply mwpx_bind, x_store_w; [exact Hf2|reflexivity|exact Hx|].
  assert (Hf3 : full (upd m2 (LWWord t WOff) (o_off x))) by (apply full_upd_w; [exact Hf2|reflexivity|exact Hx]).
  set (m3 := upd m2 (LWWord t WOff) (o_off x)) in *.
  apply mwpx_bind, x_store_w; [exact Hf3|reflexivity|exact I|].
  assert (Hf4 : full (upd m3 (LWWord t WOld) (o_old x))) by (apply full_upd_w; [exact Hf3|reflexivity|exact I]).
  set (m4 := upd m3 (LWWord t WOld) (o_old x)) in *.
  apply mwpx_bind, x_store_w; [exact Hf4|reflexivity|exact I|].
  assert (Hf5 : full (upd m4 (LWWord t WNew) (o_new x))) by (apply full_upd_w; [exact Hf4|reflexivity|exact I]).
  set (m5 := upd m4 (LWWord t WNew) (o_new x)) in *.
  apply mwpx_bind, x_store_w; [exact Hf5|reflexivity|exact I|].
  assert (Hf6 : full (upd m5 (LWSeq t) s)) by (apply full_upd_w; [exact Hf5|reflexivity|exact I]).
  set (m6 := upd m5 (LWSeq t) s) in *.
  apply mwpx_bind, x_store_w; [exact Hf6|reflexivity|exact I|].
  assert (Hf7 : full (upd m6 (LWTid t) t)) by (apply full_upd_w; [exact Hf6|reflexivity|exact I]).
  set (m7 := upd m6 (LWTid t) t) in *.
  assert (Hf8 : full (upd m7 (LW t) v2)) by (apply full_upd_w; [exact Hf7|reflexivity|exact Hv2]).
  apply mwpx_bind, x_store_w; [exact Hf7|reflexivity|exact Hv2|]. rewrite <- (upd_same m7 (LW t) v2) at 1.
  apply mwpx_bind, mwpx_persist; [exact I|apply full_ic, Hf8|]. intros m9 H9 _. cbn [mwpx]. 
  assert (E : forall l, wset t l -> l <> LW t -> m9 l = m7 l).
  { intros l Hl Hn. rewrite (cb_plain _ _ _ H9) by (tauto || (destruct l; try contradiction; try exact I; apply Hn; cbn in Hl; congruence)). apply upd_other, Hn. }
  apply H.
  - eapply full_clean; eassumption.
  - intros l Hl. rewrite (cb_clean _ _ _ H9) by tauto. unfold m7, m6, m5, m4, m3. rewrite !upd_other by (intros ->; apply Hl; reflexivity). apply E2', Hl.
  - rewrite (cb_wseq _ _ _ H9) by tauto. unfold wseq. rewrite upd_same. unfold v2. rewrite <- wseq_clean, clean_dirty, E2, D2. reflexivity.
  - rewrite E by (reflexivity || discriminate). unfold m7, m6, m5, m4, m3. repeat (first [rewrite upd_same | rewrite upd_other by discriminate]). reflexivity.
  - rewrite E by (reflexivity || discriminate). unfold m7, m6, m5, m4, m3. repeat (first [rewrite upd_same | rewrite upd_other by discriminate]). reflexivity.
  - rewrite E by (reflexivity || discriminate). unfold m7, m6, m5, m4, m3. repeat (first [rewrite upd_same | rewrite upd_other by discriminate]). reflexivity.
  - rewrite E by (reflexivity || discriminate). unfold m7, m6, m5, m4, m3. repeat (first [rewrite upd_same | rewrite upd_other by discriminate]). reflexivity.
Qed.

(** *** Installing *)

Lemma based_arr x m m' : In x ws -> cleaned_but (eq (LArr (o_off x))) m m' -> based m -> based m'.
Proof.
  intros Hx H ((F1 & F2 & F4 & F3) & B2 & B3 & B4 & B5). split; [split; [|split; [|split]]|split; [|split; [|split]]].
  - eapply cleaned_trans; [exact F1|]. eapply cleaned_weaken; [|exact H]. intros l <-. right. right. eexists. reflexivity.
  - rewrite (cb_plain _ _ _ H) by (discriminate || exact I). exact F2.
  - rewrite (cb_wseq _ _ _ H) by discriminate. exact F4.
  - intros j Hj. rewrite (cb_contents _ _ _ H); [apply F3, Hj|]. intros E. injection E as E. apply Hj. rewrite <- E. apply in_map, Hx.
  - rewrite (cb_clean _ _ _ H) by discriminate. exact B2.
  - rewrite (cb_plain _ _ _ H) by (discriminate || exact I). exact B3.
  - intros k y Hy. rewrite !(cb_plain _ _ _ H) by (discriminate || exact I). apply B4, Hy.
  - intros i. rewrite (cb_plain _ _ _ H) by (discriminate || exact I). apply B5.
Qed.
Lemma plain_arr x y m m' : cleaned_but (eq (LArr (o_off x))) m m' -> o_off y <> o_off x -> plain m y -> plain m' y.
Proof. intros H Hn Hp. unfold plain. rewrite (cb_contents _ _ _ H); [exact Hp|]. intros E. injection E. congruence. Qed.
Lemma eq_off x y : In x ws -> In y ws -> o_off y = o_off x -> y = x.
Proof.
  intros Hx Hy E. revert Hx Hy Hnd. clear -E. induction ws as [|z l IH]; [intros []|]. intros Hx Hy Hnd. change (NoDup (o_off z :: map o_off l)) in Hnd. apply NoDup_cons in Hnd as [Hni Hnd].
  rewrite elem_of_list_In in Hni. destruct Hx as [->|Hx], Hy as [->|Hy]; [reflexivity| | |apply IH; assumption]; exfalso; apply Hni; [rewrite <- E|rewrite E]; apply in_map; assumption.
Qed.

Lemma x_complete x (Q : bool -> mem -> Prop) m : In x ws -> half_at x m ->
  (forall m', full m' -> cleaned_but (eq (LArr (o_off x))) m m' -> contents m' (o_off x) = K -> Q true m') -> wpx (completeInstall C (word_ref (wseq m t) t)) Q m.
Proof.
  intros Hx Hh H. pose proof (half_ic x m Hx Hh) as Hic. pose proof Hh as (B & Hp & (Hw & Hoff & Hcon) & Hold & Ha & Hsq & Htid). destruct (based_seq m B) as [Hks Hkt].
  unfold completeInstall. cbn [d_tid word_ref]. apply mwpx_bind, mwpx_thread; [exact Ht|]. do 3 (apply mwpx_bind, mwpx_load; [apply ic_now, Hic|]).
  rewrite Hsq, Htid, (N.mod_small s) by exact Hs. rewrite (N.mod_small t) by (apply tidSize_fits; exact Ht).
  apply mwpx_bind, mwpx_thread; [exact Ht|]. change (mkDesc false true false s t) with d. apply mwpx_bind, mwpx_readField; [do 2 eexists; right; reflexivity|exact Ht|exact I|exact Hic|].
  intros m1 H1. cbn [fst snd]. unfold now at 1. cbn [call_ref d_isKCAS d_tid d_seq]. rewrite Hks, N.eqb_refl, andb_true_r.
  change (km_status (kmut_decode (clean (m (LK t))))) with (stt (clean (m (LK t)))). rewrite stt_clean. change (stt (m (LK t))) with (kstat m t). rewrite Hkt.
  change (Undecided =? Undecided) with true. cbv iota. change (mkDesc false true false s t) with d. fold K. change (mkDesc false false true (wseq m t) t) with (word_ref (wseq m t) t).
  pose proof (half_clean x m m1 H1 Hh) as Hh1. pose proof (half_ic x m1 Hx Hh1) as Hic1. pose proof (cleaned_any in_arr _ _ H1) as A1.
  apply mwpx_bind, mwpx_assert; [apply (wref_word C HC); apply Hw|]. do 2 (apply mwpx_bind, mwpx_load; [apply ic_now, Hic1|]).
  rewrite (ca_wword m m1 A1 t WOff), Hoff. apply mwpx_bind, mwpx_address; [apply Hws, Hx|].
  apply mwpx_bind, mwpx_CASField; [do 2 eexists; left; reflexivity|exact Ht|exact I|exact Hic1|unfold now; cbn [word_ref d_isKCAS d_tid d_seq]; symmetry; apply (ca_wseq m m1 A1)|].
  intros m2. fold (contents m1 (o_off x)). rewrite (cb_contents _ _ _ H1), Hcon by tauto. fold (as_word C (word_ref (wseq m t) t)). rewrite N.eqb_refl. intros H2 E2.
  assert (H12 : cleaned_but (eq (LArr (o_off x))) m m2) by (eapply cleaned_trans; [apply cleaned_any, H1|exact H2]).
  assert (Ec : contents m2 (o_off x) = K) by (unfold contents; rewrite E2, clean_dirty; apply Kf).
  assert (Hf : full m2).
  { split; [eapply based_arr; eassumption|]. intros y Hy. destruct (decide (o_off y = o_off x)) as [E|E]; [|eapply plain_arr; [exact H12|exact E|apply Hp; assumption]].
    rewrite (eq_off x y Hx Hy E). right. split; [exact Ec|exact Ha]. }
  split; [apply full_in, Hf|]. right. cbn [mwpx fst]. apply H; assumption.
Qed.

Lemma x_install n x (Q : N * bool -> mem -> Prop) m : In x ws -> full m -> word_ok C m t ->
  m (LWWord t WOff) = o_off x -> m (LWWord t WOld) = o_old x -> m (LWSeq t) = s -> m (LWTid t) = t ->
  (forall m', full m' -> cleaned_but (eq (LArr (o_off x))) m m' -> Q (contents m (o_off x), true) m') -> wpx (install C (S n) (word_ref (wseq m t) t)) Q m.
Proof.
  intros Hx Hf Hw Hoff Hold Hsq Htid H. pose proof (full_ic m Hf) as Hic. destruct Hf as [B Hp]. destruct (Hws x Hx) as (Hsz & Vo & Vn).
  cbn [install d_tid word_ref]. do 2 (apply mwpx_bind, mwpx_load; [apply ic_now, Hic|]). rewrite Hoff, Hold. apply mwpx_bind, mwpx_address; [exact Hsz|].
  change (mkDesc false false true (wseq m t) t) with (word_ref (wseq m t) t). fold (as_word C (word_ref (wseq m t) t)).
  apply mwpx_bind, mwpx_CASField; [do 2 eexists; left; reflexivity|exact Ht|exact I|exact Hic|reflexivity|].
  intros m1. fold (contents m (o_off x)). destruct (contents m (o_off x) =? o_old x) eqn:Ec.
  - intros H1 E1. apply N.eqb_eq in Ec. destruct (wref_word C HC (wseq m t) t) as (Wm & Wc & _); [apply Hw|exact Ht|].
    assert (Ha : contents m0 (o_off x) = o_old x). { destruct (Hp x Hx) as [E|[_ E]]; [rewrite <- E; exact Ec|exact E]. }
    assert (A1 : cleaned_but in_arr m m1) by (eapply cleaned_weaken; [|exact H1]; intros l <-; eexists; reflexivity).
    assert (Hh : half_at x m1).
    { split; [eapply based_arr; eassumption|]. split; [intros y Hy Hn; eapply plain_arr; [exact H1|exact Hn|apply Hp, Hy]|].
      rewrite (ca_wword m m1 A1), (ca_wkseq m m1 A1), (ca_wtid m m1 A1). split; [|tauto]. split; [apply (ca_word_ok C m m1 A1), Hw|]. rewrite (ca_wword m m1 A1), (ca_wseq m m1 A1).
      split; [exact Hoff|]. unfold contents. rewrite E1, clean_dirty. exact Wc. }
    split; [apply ic_now, (half_ic x); assumption|]. right. apply mwpx_bind, mwpx_assert; [rewrite N.eqb_refl; reflexivity|]. cbn [negb].
    rewrite decode_rdcss. destruct Vo as (_ & _ & _ & ->). rewrite N.eqb_refl. change (mkDesc false false true (wseq m t) t) with (word_ref (wseq m t) t).
    rewrite <- (ca_wseq m m1 A1). apply mwpx_bind, mwpx_bind, (x_complete x); [exact Hx|exact Hh|]. intros m2 Hf2 H2 _. cbn [mwpx]. rewrite <- Ec. apply H; [exact Hf2|].
    eapply cleaned_trans; eassumption.
  - intros H1. apply mwpx_bind, mwpx_assert; [rewrite ?Ec; reflexivity|]. cbn [negb]. rewrite decode_rdcss.
    assert (Em : N.testbit (contents m (o_off x)) 2 = false). { destruct (Hp x Hx) as [-> |[-> _]]; [apply Hm0, Hx|apply Kf]. }
    rewrite Em, ?Ec. cbn [mbind mwpx]. apply H; [eapply full_clean; [exact H1|split; assumption]|apply cleaned_any, H1].
Qed.

Lemma x_more i (Q : bool -> mem -> Prop) m : full m -> Q (N.of_nat i <? N.of_nat (length ws)) m -> wpx (more t i) Q m.
Proof. intros Hf H. unfold more. apply mwpx_bind, mwpx_load; [apply full_in, Hf|]. cbn. destruct Hf as [(_ & _ & -> & _) _]. exact H. Qed.
Lemma full_word i x m : full m -> nth_error ws i = Some x -> m (LKWord t i WOff) = o_off x /\ m (LKWord t i WOld) = o_old x /\ m (LKWord t i WNew) = o_new x.
Proof. intros [(_ & _ & _ & B4 & _) _] Hx. apply (B4 i x Hx). Qed.

Lemma x_place rec n i (Q : N -> mem -> Prop) m : (length ws < n + i)%nat -> (i <= length ws)%nat -> full m -> wseq m t + 2 * N.of_nat (length ws - i) <= wbound -> wbound < 2 ^ seqSize P ->
  (forall st m', full m' -> st = Succeeded \/ st = Failed -> Q st m') -> wpx (place C n rec t d i false) Q m.
Proof.
  revert i Q m. induction n as [|n IH]; intros i Q m Hn Hi Hf Hq Hqs H; [lia|]. cbn [place]. cbn [d_tid call_ref]. change (mkDesc false true false s t) with d.
  apply mwpx_bind, x_more; [exact Hf|]. destruct (N.of_nat i <? N.of_nat (length ws)) eqn:Em; cbn [negb]; [|apply H; [exact Hf|left; reflexivity]].
  apply N.ltb_lt in Em. assert (Hil : (i < length ws)%nat) by lia. destruct (nth_error ws i) as [x|] eqn:Ex; [|apply nth_error_None in Ex; lia].
  assert (Hx : In x ws) by (eapply nth_error_In; exact Ex). destruct (full_word i x m Hf Ex) as (K1 & K2 & K3). destruct (Hws x Hx) as (Hsz & Vo & Vn).
  apply mwpx_bind. unfold load_word. do 3 (apply mwpx_bind, mwpx_load; [apply full_in, Hf|]). cbn [mwpx]. rewrite K1, K2, K3.
  apply mwpx_bind, x_createW; [exact Hf|exact Hsz|lia|exact Hqs|]. cbn [o_off o_old]. intros m1 Hf1 E1 Q1 W1 W2 W3 W4.
  assert (Hw1 : word_ok C m1 t). { split; rewrite ?W1, ?W2, ?W3, ?W4, ?Q1; [exact Ht|lia|exact Hsz|exact Ht|exact Hs|apply mval_clean, Vo]. }
  apply mwpx_bind. destruct n as [|n]; [lia|]. rewrite <- Q1. apply (x_install n x); [exact Hx|exact Hf1|exact Hw1|exact W1|exact W2|exact W3|exact W4|].
  intros m2 Hf2 H2. cbn [negb]. apply mwpx_bind, mwpx_load; [apply full_in, Hf2|]. cbn [d_tid word_ref].
  rewrite (cb_plain _ _ _ H2 (LWWord t WOld)) by (discriminate || exact I). rewrite W2.
  assert (Hnext : wpx (place C (S n) rec t d (S i) false) Q m2).
  { apply IH; [lia|lia|exact Hf2| |exact Hqs|exact H]. rewrite (cb_wseq _ _ _ H2) by discriminate. rewrite Q1. lia. }
  destruct (contents m1 (o_off x) =? o_old x); [exact Hnext|].
  destruct Hf1 as [_ Hp1]. destruct (Hp1 x Hx) as [-> |[-> _]].
  - rewrite decode_kcas. destruct (Hm0 x Hx) as (_ & _ & -> & _). apply H; [exact Hf2|right; reflexivity].
  - destruct Kf as (_ & _ & _ & ->). cbn [d_isKCAS d_isDirty call_ref d_tid d_seq]. apply mwpx_bind. cbn [mwpx]. rewrite !N.eqb_refl. exact Hnext.
Qed.
Lemma x_persist_words n i (Q : unit -> mem -> Prop) m : (length ws < n + i)%nat -> (i <= length ws)%nat -> full m -> (forall m', full m' -> Q tt m') -> wpx (persist_words C n t i) Q m.
Proof.
  revert i Q m. induction n as [|n IH]; intros i Q m Hn Hi Hf H; [lia|]. cbn [persist_words].
  apply mwpx_bind, x_more; [exact Hf|]. destruct (N.of_nat i <? N.of_nat (length ws)) eqn:Em; [|apply H; exact Hf].
  apply N.ltb_lt in Em. destruct (nth_error ws i) as [x|] eqn:Ex; [|apply nth_error_None in Ex; lia].
  assert (Hx : In x ws) by (eapply nth_error_In; exact Ex). destruct (full_word i x m Hf Ex) as (K1 & _).
  apply mwpx_bind. unfold word_address. apply mwpx_bind, mwpx_load; [apply full_in, Hf|]. rewrite K1. apply mwpx_address; [apply Hws, Hx|].
  apply mwpx_bind, mwpx_read; [exact I|apply full_ic, Hf|]. intros m1 H1. apply IH; [lia|lia|eapply full_clean; eassumption|exact H].
Qed.

(** *** The call descriptor *)

Lemma begun_upd m l v : begun m -> kset t l -> match l with LK _ => False | LKWord _ _ WOff => v < m_size C | _ => True end -> begun (upd m l v).
Proof.
  intros ((F1 & F2 & F4 & F3) & B2 & B3 & B4) Hl Hv.
  assert (E : forall x, ~ kset t x -> upd m l v x = m x) by (intros x Hx; apply upd_other; intros ->; contradiction).
  assert (Ek : upd m l v (LK t) = m (LK t)) by (apply upd_other; intros <-; exact Hv).
  assert (Ec : forall j, contents (upd m l v) j = contents m j) by (intros j; unfold contents; rewrite E by exact (fun x => x); reflexivity).
  split; [split; [|split; [|split]]|split; [|split]].
  - intros x. destruct (decide (x = l)) as [->|Hn]; [left; left; exact Hl|]. rewrite upd_other by exact Hn. apply F1.
  - rewrite E by exact (fun x => x). exact F2.
  - unfold wseq in *. rewrite E by exact (fun x => x). exact F4.
  - intros j Hj. rewrite Ec. apply F3, Hj.
  - intros j. rewrite Ec. apply B2.
  - intros i. destruct (decide (LKWord t i WOff = l)) as [<-|Hn]; [rewrite upd_same; exact Hv|rewrite upd_other by exact Hn; apply B3].
  - unfold kseq, kstat in *. rewrite Ek. exact B4.
Qed.
Lemma begun_in m : begun m -> inside m.
Proof. intros H. left. exact H. Qed.
Lemma x_store_k l v (Q : unit -> mem -> Prop) m : begun m -> kset t l -> match l with LK _ => False | LKWord _ _ WOff => v < m_size C | _ => True end ->
  (begun (upd m l v) -> Q tt (upd m l v)) -> wpx (mdo (MStore l v)) Q m.
Proof. intros Hb Hl Hv H. pose proof (begun_upd m l v Hb Hl Hv) as Hb'. apply mwpx_store; [apply begun_in, Hb'|apply H, Hb']. Qed.
Lemma x_store_words l i (Q : unit -> mem -> Prop) m : (forall x, In x l -> o_off x < m_size C) -> begun m ->
  (forall m', begun m' -> (forall x, match x with LKWord t' k _ => t' = t -> (k < i)%nat | _ => True end -> m' x = m x) -> words_at t m' i l -> Q tt m') ->
  wpx (store_words t i l) Q m.
Proof.
  revert i Q m. induction l as [|x l IH]; intros i Q m Hl Hb H; cbn [store_words].
  - cbn. apply H; [exact Hb|reflexivity|]. intros k y Hy. destruct k; discriminate.
  - apply mwpx_bind, x_store_k; [exact Hb|reflexivity|apply Hl; left; reflexivity|]. intros Hb1. apply mwpx_bind, x_store_k; [exact Hb1|reflexivity|exact I|]. intros Hb2.
    apply mwpx_bind, x_store_k; [exact Hb2|reflexivity|exact I|]. intros Hb3. apply IH; [intros y Hy; apply Hl; right; exact Hy|exact Hb3|]. intros m' Hb' H1 H3. apply H; [exact Hb'| |].
    + intros y Hy. rewrite H1. 2: { destruct y; try exact I. intros E. specialize (Hy E). lia. }
      rewrite !upd_other; [reflexivity| | |]; intros ->; specialize (Hy eq_refl); lia.
    + intros k y Hy. destruct k as [|k]; cbn in Hy.
      * injection Hy as <-. rewrite Nat.add_0_r. rewrite !H1 by (intros _; lia). split; [|split]; repeat (rewrite upd_other by discriminate); apply upd_same.
      * rewrite <- plus_n_Sm. apply H3, Hy.
Qed.

Context (ws0 : list mword) (Hws0 : ws = sort_words ws0) (Hne : ws0 <> []) (HK : (length ws0 <= m_K C)%nat).
Context (Hsk : s = kseq m0 t + 2) (Heven : kseq m0 t mod 2 = 0).
Context (Hwoff : m0 (LWWord t WOff) < m_size C) (Hkoff : forall i, m0 (LKWord t i WOff) < m_size C).

Lemma begun_0 : begun m0.
Proof.
  split; [split; [apply cleaned_refl|split; [exact Hwoff|split; [unfold wbound; lia|reflexivity]]]|]. split; [reflexivity|]. split; [exact Hkoff|]. right. split; reflexivity.
Qed.
Lemma x_createK (Q : descref -> mem -> Prop) : (forall m', full m' -> wseq m' t = wseq m0 t -> Q d m') -> wpx (createK C t ws0) Q m0.
Proof.
  intros H. pose proof (seq_61 _ _ HC Hs) as H61. pose proof begun_0 as Hb0. unfold createK. apply mwpx_bind, mwpx_assert; [apply N.ltb_lt, Ht|].
  apply mwpx_bind, mwpx_assert. { destruct ws0; [contradiction|]. apply andb_true_intro. split; [reflexivity|apply Nat.leb_le; exact HK]. }
  apply mwpx_bind, mwpx_thread; [exact Ht|]. apply mwpx_bind, mwpx_read; [exact I|apply begun_ic, Hb0|]. intros m1 H1.
  change (km_seq (kmut_decode (clean (m0 (LK t))))) with (sq (clean (m0 (LK t)))). rewrite sq_clean. change (sq (m0 (LK t))) with (kseq m0 t).
  rewrite (N.mod_small (kseq m0 t + 1)) by lia. replace (kseq m0 t + 1 + 1) with s by lia. rewrite (N.mod_small s) by exact H61. rewrite (N.mod_small s (2 ^ seqSize P)) by exact Hs.
  destruct (kenc_facts Undecided (kseq m0 t + 1) eq_refl ltac:(lia)) as (D1 & E1 & F1). destruct (kenc_facts Undecided s eq_refl H61) as (D2 & E2 & F2).
  rewrite F1, F2. cbn zeta. set (v1 := dirty (kenc Undecided (kseq m0 t + 1))). set (v2 := dirty (kenc Undecided s)).
  assert (Hsq1 : sq v1 = kseq m0 t + 1) by (unfold v1; rewrite <- sq_clean, clean_dirty, E1; unfold sq; rewrite D1; reflexivity).
  assert (Hst1 : stt v1 = Undecided) by (unfold v1; rewrite <- stt_clean, clean_dirty, E1; unfold stt; rewrite D1; reflexivity).
  assert (Hb1 : begun (upd m1 (LK t) v1)).
  { destruct (begun_clean _ _ H1 Hb0) as ((G1 & G2 & G4 & G3) & B2 & B3 & _). split; [split; [|split; [|split]]|split; [|split]].
    - intros x. destruct (decide (x = LK t)) as [->|Hn]; [left; left; reflexivity|]. rewrite upd_other by exact Hn. apply G1.
    - rewrite upd_other by discriminate. exact G2.
    - unfold wseq in *. rewrite upd_other by discriminate. exact G4.
    - intros j Hj. unfold contents. rewrite upd_other by discriminate. apply G3, Hj.
    - intros j. unfold contents. rewrite upd_other by discriminate. apply B2.
    - intros i. rewrite upd_other by discriminate. apply B3.
    - left. unfold kseq. rewrite upd_same. change (sq v1 mod 2 = 1). rewrite Hsq1. rewrite <- N.add_mod_idemp_l by discriminate. rewrite Heven. reflexivity. }
  apply mwpx_bind, mwpx_store; [apply begun_in, Hb1|]. rewrite <- (upd_same m1 (LK t) v1) at 1. apply mwpx_bind, mwpx_persist; [exact I|apply begun_ic, Hb1|]. intros m2 H2 _.
  pose proof (begun_clean _ _ H2 Hb1) as Hb2. rewrite <- Hws0. apply mwpx_bind, mwpx_assert. { rewrite Hws0. apply sort_words_sorted.
    rewrite Hws0 in Hnd. rewrite (Permutation.Permutation_map o_off (sort_words_perm ws0)) in Hnd. exact Hnd. }
  apply mwpx_bind, x_store_k; [exact Hb2|reflexivity|exact I|]. intros Hb3. apply mwpx_bind, x_store_words; [intros x Hx; apply Hws, Hx|exact Hb3|].
  intros m4 Hb4 U4 W4. apply mwpx_bind, mwpx_load; [apply begun_in, Hb4|].
  assert (Ek4 : clean (m4 (LK t)) = clean v1). { rewrite U4 by exact I. rewrite upd_other by discriminate. rewrite (cb_clean _ _ _ H2) by tauto. rewrite upd_same. reflexivity. }
  apply mwpx_bind, mwpx_assert. { change (km_status (kmut_decode (m4 (LK t)))) with (stt (m4 (LK t))). rewrite <- stt_clean, Ek4, stt_clean, Hst1. reflexivity. }
  assert (Hf : full (upd m4 (LK t) v2)).
  { destruct Hb4 as ((G1 & G2 & G4 & G3) & B2 & B3 & _). split; [split; [split; [|split; [|split]]|split; [|split; [|split]]]|].
    - intros x. destruct (decide (x = LK t)) as [->|Hn]; [left; left; reflexivity|]. rewrite upd_other by exact Hn. apply G1.
    - rewrite upd_other by discriminate. exact G2.
    - unfold wseq in *. rewrite upd_other by discriminate. exact G4.
    - intros j Hj. unfold contents. rewrite upd_other by discriminate. apply G3, Hj.
    - rewrite upd_same. unfold v2. rewrite clean_dirty. exact E2.
    - rewrite upd_other by discriminate. rewrite U4 by exact I. rewrite upd_same. rewrite Hws0, sort_words_length. reflexivity.
    - intros k x Hx. rewrite !upd_other by discriminate. apply W4, Hx.
    - intros i. rewrite upd_other by discriminate. apply B3.
    - intros x Hx. left. unfold contents. rewrite upd_other by discriminate. apply B2. }
  apply mwpx_bind, mwpx_store; [apply full_in, Hf|]. rewrite <- (upd_same m4 (LK t) v2) at 1. apply mwpx_bind, mwpx_persist; [exact I|apply full_ic, Hf|]. intros m5 H5 _.
  cbn [mwpx]. apply H; [eapply full_clean; eassumption|].
  rewrite (cb_wseq _ _ _ H5) by tauto. unfold wseq at 1. rewrite upd_other by discriminate. rewrite U4 by exact I. rewrite upd_other by discriminate.
  change (wm_seq (wmut_decode (m2 (LW t)))) with (wseq m2 t). rewrite (cb_wseq _ _ _ H2) by tauto. unfold wseq at 1. rewrite upd_other by discriminate. apply (cb_wseq _ _ _ H1). tauto.
Qed.
Lemma x_PMwCAS n (Q : bool -> mem -> Prop) : (length ws < n)%nat -> wbound < 2 ^ seqSize P -> wpx (PMwCAS C (S n) t ws0) Q m0.
Proof.
  intros Hn Hq. unfold PMwCAS. apply mwpx_bind, mwpx_assert; [destruct ws0; [contradiction|reflexivity]|]. apply mwpx_bind, x_createK. intros m1 Hf1 Q1.
  cbn [pmwcas d_tid d_seq call_ref]. change (mkDesc false true false s t) with d. apply mwpx_bind, mwpx_thread; [exact Ht|]. apply mwpx_bind. cbn [mwpx].
  apply mwpx_bind, x_place; [lia|lia|exact Hf1|rewrite Q1, Nat.sub_0_r; unfold wbound; lia|exact Hq|]. intros st m2 Hf2 Hst. apply mwpx_bind.
  assert (Hrest : forall m3, full m3 -> wpx (let mOld := kmut_encode (mkKmut false Undecided s) in
      let mNew := kmut_encode (mkKmut true st s) in
      c <-- CASField C d mOld mNew (LK t);;
      m_persist (LK t) mNew ;;;
      if negb (snd c) then MRet false
      else finish C n d st 0 ;;; MRet (st =? Succeeded)%N)%mprog Q m3).
  { intros m3 Hf3. cbn zeta. destruct (based_seq m3 (proj1 Hf3)) as [Hks _].
    apply mwpx_bind, mwpx_CASField; [do 2 eexists; right; reflexivity|exact Ht|exact I|apply full_ic, Hf3|unfold now; cbn [call_ref d_isKCAS d_tid d_seq]; symmetry; exact Hks|].
    intros m4. destruct Hf3 as [(_ & -> & _) _]. fold (kenc Undecided s). rewrite N.eqb_refl. intros H4 E4.
    assert (Hst4 : st < 4) by (destruct Hst as [-> | ->]; reflexivity). destruct (kenc_facts st s Hst4 (seq_61 _ _ HC Hs)) as (D1 & E1 & F1).
    assert (Hd : decided m4).
    { unfold decided, kseq, kstat. change (km_seq (kmut_decode (m4 (LK t)))) with (sq (m4 (LK t))). change (km_status (kmut_decode (m4 (LK t)))) with (stt (m4 (LK t))).
      rewrite E4, <- sq_clean, <- stt_clean, clean_dirty, F1, clean_dirty, E1. unfold sq, stt. rewrite D1. split; [reflexivity|]. destruct Hst as [-> | ->]; discriminate. }
    split; [right; right; right; exact Hd|left; exact Hd]. }
  destruct (st =? Succeeded); [|cbn [mwpx]; apply Hrest, Hf2]. apply x_persist_words; [lia|lia|exact Hf2|exact Hrest].
Qed.
End Owner.
