(** The invariant of ConcInv.v holds in every state of every concurrent execution, and what follows
    from it. *)
From Coq Require Import NArith Bool List Lia.
From stdpp Require Import base list relations.
From Verif Require Import Word Bits Prog HashMap Conc Spec ConcSpec ConcInv ConcCmd ConcProg ConcMap.
Import ListNotations.
Open Scope nat_scope.

Section Sys.
Context (C : cfg) (cap0 n : nat).
Notation Inv := (Inv cap0).
Notation ok p Q w := (ok cap0 p Q w).

Definition world_of (y : sys) : world := (invoked (sy_hist y), sy_st y).

(** The response recorded in a history was right when it was given. *)
Definition hist_ok (y : sys) : Prop := forall h1 h2 i o r, sy_hist y = h1 ++ ERes i o r :: h2 ->
  exists w2, fst w2 = invoked h2 /\ Inv w2 /\ resOK C o r w2 /\ Rel w2 (world_of y).

Definition thread_ok (w : world) (th : thread) : Prop :=
  Forall legal_op (th_todo th) /\
  match th_cur th with None => True | Some (o, p) => ok p (fun r w' => resOK C o r w') w end.

Definition sys_ok (y : sys) : Prop :=
  Inv (world_of y) /\ Forall (thread_ok (world_of y)) (sy_thr y) /\ hist_ok y.

Lemma thread_ok_rel w w' th : Rel w w' -> thread_ok w th -> thread_ok w' th.
Proof.
  intros HR [H1 H2]. split; [exact H1|]. destruct (th_cur th) as [[o p]|]; [|exact I].
  eapply ok_rel; [exact H2|exact HR].
Qed.

Lemma threads_ok_rel w w' l : Rel w w' -> Forall (thread_ok w) l -> Forall (thread_ok w') l.
Proof. intros HR H. eapply Forall_impl; [exact H|]. intros th. apply thread_ok_rel. exact HR. Qed.

Lemma hist_ok_rel y y' : sy_hist y' = sy_hist y -> Rel (world_of y) (world_of y') -> hist_ok y -> hist_ok y'.
Proof.
  intros Hh HR H h1 h2 i o r E. rewrite Hh in E. destruct (H _ _ _ _ _ E) as (w2 & A1 & A2 & A3 & A4).
  exists w2. split; [exact A1|]. split; [exact A2|]. split; [exact A3|]. exact (Rel_trans _ _ _ A4 HR).
Qed.

Lemma tstep_ok i y : sys_ok y ->
  sys_ok (tstep C n i y) /\ Rel (world_of y) (world_of (tstep C n i y)) /\
  (st_top (sy_st (tstep C n i y)) = st_top (sy_st y) \/
   link (sy_st y) (st_top (sy_st y)) (st_top (sy_st (tstep C n i y)))).
Proof.
  intros (HI & HT & HH). unfold tstep. destruct (sy_thr y !! i) as [th|] eqn:Hth.
  2:{ split; [split; auto|]. split; [apply Rel_refl|auto]. }
  pose proof (Forall_lookup_1 _ _ _ _ HT Hth) as [Hl Hc].
  destruct (th_cur th) as [[o [r|e|c k]]|] eqn:Hcur.
  - (* response *)
    assert (HR : Rel (world_of y) (world_of y)) by apply Rel_refl.
    cbn in Hc. specialize (Hc _ HI HR). split; [|split; [exact HR|left; reflexivity]].
    split; [exact HI|]. split.
    + apply Forall_insert; [exact HT|]. split; [exact Hl|exact I].
    + intros h1 h2 i' o' r' E. cbn [sy_hist] in E. destruct h1 as [|e h1]; cbn in E.
      * injection E as <- <- <- <-. exists (world_of y). auto.
      * injection E as _ E. destruct (HH _ _ _ _ _ E) as (w2 & A1 & A2 & A3 & A4). exists w2. auto.
  - split; [split; auto|]. split; [apply Rel_refl|auto].
  - (* command *)
    cbn [ConcInv.ok] in Hc. specialize (Hc _ HI (Rel_refl _)). unfold world_of at 1 in Hc. cbn [snd] in Hc.
    destruct (exec c (sy_st y)) as [r s'] eqn:He. destruct Hc as (B1 & (B2 & _ & B3) & B4).
    split; [|split; [exact B2|exact B3]]. split; [exact B1|]. split.
    + apply Forall_insert; [exact (threads_ok_rel _ _ _ B2 HT)|]. split; [exact Hl|exact B4].
    + apply (hist_ok_rel y); [reflexivity|exact B2|exact HH].
  - destruct (th_todo th) as [|o os] eqn:Htd.
    { split; [split; auto|]. split; [apply Rel_refl|auto]. }
    apply Forall_cons in Hl as [Ho Hl].
    destruct (invoke_ok cap0 (world_of y) o HI Ho) as [HI' HR'].
    split; [|split; [exact HR'|left; reflexivity]]. split; [exact HI'|]. split.
    + apply Forall_insert; [exact (threads_ok_rel _ _ _ HR' HT)|]. split; [exact Hl|].
      cbn [th_cur]. apply ok_op; [exact HI'|exact Ho|left; reflexivity].
    + intros h1 h2 i' o' r' E. cbn [sy_hist] in E. destruct h1 as [|e h1]; cbn in E; [discriminate|].
      injection E as _ E. destruct (HH _ _ _ _ _ E) as (w2 & A1 & A2 & A3 & A4). exists w2.
      split; [exact A1|]. split; [exact A2|]. split; [exact A3|exact (Rel_trans _ _ _ A4 HR')].
Qed.

Lemma conc_ok sched : forall y, sys_ok y -> sys_ok (conc C n sched y) /\ Rel (world_of y) (world_of (conc C n sched y)).
Proof.
  induction sched as [|i l IH]; intros y H; cbn [conc]; [split; [exact H|apply Rel_refl]|].
  destruct (tstep_ok i y H) as (H1 & H2 & _). destruct (IH _ H1) as [H3 H4]. split; [exact H3|].
  exact (Rel_trans _ _ _ H2 H4).
Qed.

End Sys.

(** ** Executions of a new map *)

Section Run.
Context (C : cfg) (cap ppl n : nat) (maxcap : N) (todos : list (list op)).
Hypothesis (Hc : good_cap cap maxcap) (Hl : Forall (Forall legal_op) todos).
Notation at_ sched := (after C n (init_state cap ppl maxcap) todos sched).

Lemma start_ok : sys_ok C cap (start (init_state cap ppl maxcap) todos).
Proof.
  destruct Hc as [_ Hca]. split; [|split].
  - split; [constructor|]. split; [reflexivity|]. split; [cbn; lia|]. split.
    + intros t T HT. destruct t as [|t]; [|destruct t; discriminate]. injection HT as <-. apply fresh_ok.
      * exists 0. cbn. lia.
      * unfold can_alloc in Hca. apply andb_true_iff in Hca as [H _]. apply N.ltb_lt in H. exact H.
    + intros t T nt HT Hn. destruct t as [|t]; [|destruct t; discriminate]. injection HT as <-. discriminate.
  - cbn [start sy_thr]. clear Hc. induction Hl as [|l ls H1 H2 IH]; constructor; auto. split; [exact H1|exact I].
  - intros h1 h2 i o r E. destruct h1; discriminate.
Qed.

Lemma after_ok sched : sys_ok C cap (at_ sched).
Proof. apply conc_ok. exact start_ok. Qed.

Lemma after_rel s1 s2 : Rel (world_of (at_ s1)) (world_of (at_ (s1 ++ s2))).
Proof. rewrite after_app. apply (conc_ok C cap n). apply after_ok. Qed.

Lemma after_inv sched : Inv cap (world_of (at_ sched)).
Proof. apply after_ok. Qed.

(** The fact about a response. *)
Lemma after_res sched h1 h2 i o r : sy_hist (at_ sched) = h1 ++ ERes i o r :: h2 ->
  exists w2, fst w2 = invoked h2 /\ Inv cap w2 /\ resOK C o r w2 /\ Rel w2 (world_of (at_ sched)).
Proof. destruct (after_ok sched) as (_ & _ & H). apply H. Qed.

(** C10 *)
Lemma getOK_supplied k v (w : world) : Inv cap w -> getOK (sext32 (hash C k)) k v w -> v = NOTFOUND \/ supplied (fst w) k v.
Proof.
  intros HI [H|(H1 & H2 & H3 & t & i & HK & _ & HS & _)]; [left; exact H|].
  pose proof (Seen_val cap t i k v w HI HK HS) as [Hv|[Hv|Hv]]; rewrite (strip_id _ H1 H2) in Hv.
  - left. exact Hv.
  - congruence.
  - right. exact Hv.
Qed.

Lemma read_supplied sched h1 h2 i k v : sy_hist (at_ sched) = h1 ++ ERes i (OGet k) (RVal v) :: h2 ->
  v = NOTFOUND \/ supplied (invoked h2) k v.
Proof.
  intros E. destruct (after_res _ _ _ _ _ _ E) as (w2 & A1 & A2 & A3 & _). rewrite <- A1.
  exact (getOK_supplied _ _ _ A2 A3).
Qed.

Lemma write_supplied sched h1 h2 i o k v : sy_hist (at_ sched) = h1 ++ ERes i o (RVal v) :: h2 ->
  o = OIncrement k \/ (exists x, o = OPut k x \/ o = OPutIfAbsent k x) ->
  unmarked v /\ (clean v = NOTFOUND \/ clean v = VTOMBSTONE \/ supplied (invoked h2) k (clean v)).
Proof.
  intros E Ho. destruct (after_res _ _ _ _ _ _ E) as (w2 & A1 & A2 & A3 & _). rewrite <- A1.
  assert (HV : valOK w2 k v) by (destruct Ho as [->|(x & [->| ->])]; exact A3).
  destruct HV as [HU HV]. split; [exact HU|].
  assert (Hs : strip v = clean v).
  { unfold strip. apply unmark_id. unfold unmarked. rewrite isMarked_clean_mig. exact HU. }
  unfold val_ok in HV. rewrite Hs in HV. exact HV.
Qed.

(** C13, the part that holds *)
Lemma get_bits sched h1 h2 i k v : sy_hist (at_ sched) = h1 ++ ERes i (OGet k) (RVal v) :: h2 ->
  isclean v /\ unmarked v.
Proof.
  intros E. destruct (after_res _ _ _ _ _ _ E) as (w2 & A1 & A2 & A3 & _).
  destruct A3 as [->|(H1 & H2 & _)]; [split; [exact VINITIAL_clean|exact VINITIAL_unmarked]|auto].
Qed.

(** C15, C16 *)
Lemma tab_later s1 s2 t T : st_tabs (sy_st (at_ s1)) !! t = Some T ->
  exists T', st_tabs (sy_st (at_ (s1 ++ s2))) !! t = Some T' /\ TR T T'.
Proof. intros HT. destruct (after_rel s1 s2) as (_ & _ & H & _). exact (H _ _ HT). Qed.

Lemma entry_later s1 s2 t i p : entry (sy_st (at_ s1)) t i = Some p ->
  exists p', entry (sy_st (at_ (s1 ++ s2))) t i = Some p' /\ prel p p'.
Proof.
  unfold entry. destruct (st_tabs (sy_st (at_ s1)) !! t) as [T|] eqn:HT; [|discriminate]. intros Hp.
  destruct (tab_later s1 s2 _ _ HT) as (T' & HT' & HR). rewrite HT'.
  destruct (Forall2_lookup_l _ _ _ _ _ (TR_pairs _ _ HR) Hp) as (p' & Hp' & Hr). eauto.
Qed.

(** C17 *)
Lemma successor_later s1 s2 t T x : st_tabs (sy_st (at_ s1)) !! t = Some T -> t_new T = Some x ->
  (exists T', st_tabs (sy_st (at_ (s1 ++ s2))) !! t = Some T' /\ t_new T' = Some x) /\
  exists X, st_tabs (sy_st (at_ s1)) !! x = Some X /\ t_len X = 2 * t_len T.
Proof.
  intros HT Hn. split.
  - destruct (tab_later s1 s2 _ _ HT) as (T' & HT' & _ & _ & _ & H). exists T'. auto.
  - destruct (after_inv s1) as (_ & _ & _ & _ & H). exact (H _ _ _ HT Hn).
Qed.

Lemma capacity sched t T : st_tabs (sy_st (at_ sched)) !! t = Some T -> exists e, t_len T = cap * 2 ^ e.
Proof. intros HT. destruct (after_inv sched) as (_ & _ & _ & H & _). destruct (H _ _ HT) as [[H1 _] _]. exact H1. Qed.

Lemma length_later s1 s2 t T : st_tabs (sy_st (at_ s1)) !! t = Some T ->
  exists T', st_tabs (sy_st (at_ (s1 ++ s2))) !! t = Some T' /\ t_len T' = t_len T.
Proof. intros HT. destruct (tab_later s1 s2 _ _ HT) as (T' & HT' & H & _). eauto. Qed.

(** C18 *)
Lemma top_forward sched i :
  let s := sy_st (at_ sched) in let s' := sy_st (at_ (sched ++ [i])) in
  st_top s' = st_top s \/ exists T, st_tabs s !! st_top s = Some T /\ t_new T = Some (st_top s').
Proof. cbn. rewrite after_app. cbn [conc]. exact (proj2 (proj2 (tstep_ok C cap n i _ (after_ok sched)))). Qed.

(** Crash images. *)
Lemma crash_ok sched t i p : crash_entry (sy_st (at_ sched)) t i p -> pair_ok (invoked (sy_hist (at_ sched))) p.
Proof.
  intros (T & b & v & ps & HT & _ & _ & Hv & Hp). pose proof (tabs_ok _ _ _ _ (after_inv sched) HT) as HTok.
  destruct HTok as (_ & _ & _ & H & _). apply elem_of_list_lookup_2, elem_of_list_In in Hv.
  pose proof (H _ Hv) as HF. exact (Forall_lookup_1 _ _ _ _ HF Hp).
Qed.

(** C24 *)
Lemma read_durable_in sched h1 h2 i k v : sy_hist (at_ sched) = h1 ++ ERes i (OGet k) (RVal v) :: h2 ->
  v <> NOTFOUND -> exists t j L, j < L /\ forall sched2, exists T, st_tabs (sy_st (at_ (sched ++ sched2))) !! t = Some T /\ t_len T = L /\
    forall p, crash_entry (sy_st (at_ (sched ++ sched2))) t j p ->
    clean (fst p) = k /\ isclean k /\
    (forall T, st_tabs (sy_st (at_ (sched ++ sched2))) !! t = Some T -> no_reuse T j ->
       exists a q b, hist_entry T a j = Some q /\ clean (snd q) = v /\ a <= b /\ hist_entry T b j = Some p).
Proof.
  intros E Hv. destruct (after_res _ _ _ _ _ _ E) as (w2 & A1 & A2 & A3 & A4). cbn [resOK] in A3.
  destruct A3 as [HG|(H1 & H2 & H3 & t & j & HK & HP & HS & HD & _)]; [destruct (Hv HG)|].
  pose proof (KeyIs_InR cap _ _ _ _ A2 HK) as Hin. destruct Hin as (L & (T2 & HT2 & HL2) & HjL). exists t, j, L. split; [exact HjL|].
  intros sched2. pose proof (Rel_trans _ _ _ A4 (after_rel sched sched2)) as HR.
  destruct HR as (R1 & R2 & R3 & R4). destruct (R3 _ _ HT2) as (TT & HTT & HTR).
  pose proof (conj R1 (conj R2 (conj R3 R4)) : Rel w2 (world_of (at_ (sched ++ sched2)))) as HR. clear R1 R2 R3 R4.
  exists TT. split; [exact HTT|]. split; [rewrite (proj1 HTR); exact HL2|]. clear TT HTT HTR.
  assert (Hin : InR t j w2) by (exists L; split; [exists T2; auto|exact HjL]).
  intros p (T & b & x & ps & HT & Hb & Hle & Hps & Hp). split.
  - destruct (KPer_rel _ _ _ _ _ cap A2 (proj1 HK) Hin HR HP) as (T' & b' & HT' & Hb' & H).
    cbn [snd world_of] in HT', Hb'. rewrite HT in HT'. injection HT' as <-.
    unfold line_of in Hb. rewrite Hb in Hb'. injection Hb' as <-. exact (H _ _ _ Hle Hps Hp).
  - split. { destruct HK as (_ & v0 & p0 & _ & <-). apply clean_isclean. } intros T0 HT0 Hn. rewrite HT in HT0. injection HT0 as <-.
    assert (HE : exists L, Ex t L w2) by (destruct Hin as (L' & HL' & _); eauto).
    destruct (DurVal_rel _ _ _ _ _ HE HR HD _ HT Hn) as (a & q & (T1 & qs & HT1 & Hqs & Hq) & Hqv & T3 & b2 & HT3 & Hb2 & Ha).
    cbn [snd world_of] in HT1, HT3, Hb2. rewrite HT in HT1, HT3. injection HT1 as <-. injection HT3 as <-.
    unfold line_of in Hb. rewrite Hb in Hb2. injection Hb2 as <-.
    exists a, q, x. unfold hist_entry. rewrite Hqs, Hps. repeat split; auto. lia.
Qed.

End Run.
