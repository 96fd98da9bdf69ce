(** Concurrent executions on keys that a quiet map holds are linearizable. *)
From Coq Require Import NArith Bool List Lia.
From stdpp Require Import base list gmap.
From Verif Require Import Word Bits Prog HashMap Conc Spec LinSpec Abs Probe SeqInv SeqCopy SeqHelp SeqPut SeqGet SeqApi SeqThm Lin.
Import ListNotations.
Open Scope nat_scope.

(** ** The system *)
Section Sys.
Context (C : cfg) (n : nat) (t L : nat) (A0 : list pair_) (ks : N -> Prop) (m0 : gmap N N).
Context (HL : 0 < L) (Hsext : forall h, mask (sext32 h) L = mask h L).
Context (Hks : forall k, ks k -> client_key k /\ exists i c, home C L A0 k i c).
Notation J := (J C t L A0 ks).
Notation lk := (lk C t L A0 ks).

Definition standing (o : op) (d : option rsp) : status := match d with None => LinSpec.Called o | Some r => Took o r end.

Definition tsim (th : thread) (x : status) : Prop :=
  Forall (covered ks) (th_todo th) /\
  match th_cur th with
  | None => x = LinSpec.Idle
  | Some (o, p) => exists d, x = standing o d /\ lk o p (fun r d => d = Some r) d
  end.

Definition sim (y : sys) : Prop := exists m st, atomic wstep m0 (sy_hist y) m st /\ J m (sy_st y) /\
  forall i th, sy_thr y !! i = Some th -> tsim th (st i).

Lemma put_at_eq st i x : put_at st i x i = x.
Proof. unfold put_at. rewrite Nat.eqb_refl. reflexivity. Qed.
Lemma put_at_ne st i x j : j <> i -> put_at st i x j = st j.
Proof. intros H. unfold put_at. apply Nat.eqb_neq in H. rewrite H. reflexivity. Qed.

Lemma sim_upd (ths : list thread) st i th x : (forall j th', ths !! j = Some th' -> tsim th' (st j)) -> tsim th x ->
  forall j th', <[i := th]> ths !! j = Some th' -> tsim th' (put_at st i x j).
Proof.
  intros H Hx j th' Hj. destruct (Nat.eq_dec j i) as [->|Hne].
  - rewrite put_at_eq. apply list_lookup_insert_Some in Hj as [(_ & <- & _)|(Hn & _)]; [exact Hx|congruence].
  - rewrite put_at_ne by exact Hne. rewrite list_lookup_insert_ne in Hj by congruence. apply H, Hj.
Qed.

(** A thread whose standing does not change. *)
Lemma sim_upd_same (ths : list thread) st i th : (forall j th', ths !! j = Some th' -> tsim th' (st j)) -> tsim th (st i) ->
  forall j th', <[i := th]> ths !! j = Some th' -> tsim th' (st j).
Proof.
  intros H Hx j th' Hj. apply list_lookup_insert_Some in Hj as [(-> & <- & _)|(_ & Hj)]; [exact Hx|apply H, Hj].
Qed.

Lemma sim_step i y : sim y -> sim (tstep C n i y).
Proof.
  intros (m & st & Ha & HJ & Ht). unfold tstep. destruct (sy_thr y !! i) as [th|] eqn:Hi; [|exists m, st; auto].
  pose proof (Ht i th Hi) as [Htodo Hcur]. destruct (th_cur th) as [[o p]|] eqn:Hc.
  - destruct Hcur as (d & Hx & Hp). destruct p as [r|e|c k].
    + cbn [Lin.lk] in Hp. subst d. cbn [standing] in Hx.
      exists m, (put_at st i LinSpec.Idle). cbn [sy_hist sy_st sy_thr]. split; [exact (at_res _ _ _ _ _ _ _ _ Ha Hx)|].
      split; [exact HJ|]. apply sim_upd; [exact Ht|]. split; [exact Htodo|reflexivity].
    + exists m, st. auto.
    + cbn [Lin.lk] in Hp. destruct (Hp m (sy_st y) HJ) as (d' & m' & Hs & HJ' & Hk).
      destruct (exec c (sy_st y)) as [r s] eqn:He. cbn [fst snd] in *.
      destruct Hs as [[-> ->]|(-> & r' & -> & Hw)].
      * exists m, st. cbn [sy_hist sy_st sy_thr]. split; [exact Ha|]. split; [exact HJ'|].
        apply sim_upd_same; [exact Ht|]. split; [exact Htodo|]. cbn [th_cur]. exists d. auto.
      * exists m', (put_at st i (Took o r')). cbn [sy_hist sy_st sy_thr].
        split; [exact (at_take _ _ _ _ _ _ _ _ _ Ha Hx Hw)|]. split; [exact HJ'|].
        apply sim_upd; [exact Ht|]. split; [exact Htodo|]. cbn [th_cur]. exists (Some r'). auto.
  - destruct (th_todo th) as [|o os] eqn:Etd; [exists m, st; auto|].
    apply Forall_cons in Htodo as [Ho Hos].
    exists m, (put_at st i (LinSpec.Called o)). cbn [sy_hist sy_st sy_thr].
    split; [exact (at_inv _ _ _ _ _ _ _ Ha Hcur)|]. split; [exact HJ|].
    apply sim_upd; [exact Ht|]. split; [exact Hos|]. cbn [th_cur]. exists None. split; [reflexivity|].
    apply lk_op; auto.
Qed.

Lemma sim_conc sched : forall y, sim y -> sim (conc C n sched y).
Proof. induction sched as [|i l IH]; intros y H; [exact H|]. apply IH, sim_step, H. Qed.

Lemma sim_start s todos : J m0 s -> Forall (Forall (covered ks)) todos -> sim (start s todos).
Proof.
  intros HJ Ht. exists m0, (fun _ => LinSpec.Idle). split; [constructor|]. split; [exact HJ|].
  intros i th Hi. cbn in Hi. rewrite lookup_map in Hi. destruct (todos !! i) as [os|] eqn:E; [|discriminate].
  injection Hi as <-. split; [|reflexivity]. exact (Forall_lookup_1 _ _ _ _ Ht E).
Qed.

Lemma sim_after s todos sched : J m0 s -> Forall (Forall (covered ks)) todos -> sim (after C n s todos sched).
Proof. intros HJ Ht. apply sim_conc, sim_start; assumption. Qed.
End Sys.

(** ** Quiet states reached by single-threaded use *)
Lemma keyat_clean ps i : keyat (map clean2 ps) i = clean (keyat ps i).
Proof. unfold keyat. rewrite lookup_map. destruct (ps !! i); cbn; [reflexivity|symmetry; apply clean_0]. Qed.
Lemma valat_clean ps i : valat (map clean2 ps) i = clean (valat ps i).
Proof. unfold valat. rewrite lookup_map. destruct (ps !! i); cbn; [reflexivity|symmetry; apply clean_0]. Qed.

Lemma quiet_J C sz s m : okstate C sz (abs s) m -> quiet s ->
  exists L A0, 0 < L /\ (forall h, mask (sext32 h) L = mask h L) /\
    (forall k, is_Some (m !! k) -> client_key k /\ exists i c, home C L A0 k i c) /\
    J C (st_top s) L A0 (fun k => is_Some (m !! k)) m s.
Proof.
  intros Hok Hq. pose proof (quiet_abs C 0 (N.le_0_l _) _ _ _ Hok Hq) as Hlast. destruct Hok as [[HS HD _] Hmax].
  unfold quiet in Hq. destruct (st_tabs s !! st_top s) as [T|] eqn:HT; [|contradiction].
  assert (HTa : st_tabs (abs s) !! st_top s = Some (absT T)) by (rewrite abs_tab, HT; reflexivity).
  pose proof (s_tw _ _ _ _ _ HS _ _ HTa) as HTW.
  exists (t_len T), (t_pairs (absT T)). split; [exact (tw_pos _ _ _ HTW)|]. split.
  { intros h. destruct (tw_pow _ _ _ HTW) as (e & He & _). cbn in He. rewrite He. apply mask_sext32.
    pose proof (tw_le_max _ _ _ HTW) as Hle. cbn [absT t_len] in Hle. rewrite He, Nat2N.inj_pow in Hle.
    assert (2 ^ N.of_nat e <= 2 ^ 32)%N by (eapply N.le_trans; eassumption).
    apply N.pow_le_mono_r_iff in H; lia. }
  assert (Hent : forall k v, m !! k = Some v -> exists i, i < t_len T /\ keyat (t_pairs (absT T)) i = k /\
            valat (t_pairs (absT T)) i = v /\ live v).
  { intros k v E. apply HD in E as (j & T' & i & H1 & H2 & H3 & H4 & H5).
    assert (j = st_top s) as ->.
    { pose proof (lookup_lt_Some _ _ _ H1). cbn [abs st_top] in Hlast. destruct (Nat.lt_trichotomy j (st_top s)) as [Hj|[Hj|Hj]]; [|exact Hj|].
      - pose proof (s_dead _ _ _ _ _ HS j T' i Hj H1 H2) as Hd. rewrite <- H4, Hd in H5. destruct H5 as [H5 _].
        destruct (TOMBPRIME_not_unmarked H5).
      - lia. }
    rewrite HTa in H1. injection H1 as <-. exists i. auto. }
  assert (Hprobe : forall k v, m !! k = Some v -> client_key k /\ exists i c, home C (t_len T) (t_pairs (absT T)) k i c /\
            valat (t_pairs (absT T)) i = v /\ live v /\ isclean v).
  { intros k v E. destruct (Hent k v E) as (i & H1 & H2 & H3 & H4).
    destruct (tw_ent _ _ _ HTW i H1) as [[_ F]|[[_ F]|(F1 & F2 & c & F3)]].
    - rewrite F in H3. subst v. destruct H4 as (_ & H4 & _). congruence.
    - exfalso. subst v. destruct H4 as (H5 & H6 & _). destruct F as [F|F]; [congruence|]. rewrite F in H5. exact (TOMBPRIME_not_unmarked H5).
    - rewrite H2 in F1, F3. rewrite H3 in F2. split; [exact F1|]. exists i, c. auto. }
  split.
  { intros k [v E]. destruct (Hprobe k v E) as (H1 & i & c & H2 & _). eauto. }
  constructor; [reflexivity| |].
  - intros k v _ E. destruct (Hprobe k v E) as (_ & i & c & _ & _ & H1 & H2). auto.
  - exists T. split; [exact HT|]. split; [reflexivity|]. split.
    { pose proof (tw_length _ _ _ HTW) as Hln. cbn in Hln. rewrite map_length in Hln. exact Hln. }
    split; [exact Hq|]. split.
    + intros i. symmetry. apply keyat_clean.
    + intros k i c [v E] Hh. destruct (Hprobe k v E) as (_ & i' & c' & Hh' & Hv & _).
      unfold home in *. rewrite Hh in Hh'. injection Hh' as <- <-. unfold cv. rewrite E. cbn [default].
      rewrite <- valat_clean. exact Hv.
Qed.

Lemma lin_main C cap ppl maxcap os rs s : good_cap cap maxcap -> (maxcap <= 2 ^ 32)%N -> Forall legal_op os ->
  reach C (init_state cap ppl maxcap) os rs s -> quiet s ->
  exists m, dsteps ∅ os rs m /\ forall n todos sched,
    calls_on_stored m not_increment todos ->
    linearizable wstep m (sy_hist (after C n s todos sched)).
Proof.
  intros Hc Hm Hl Hr Hq. destruct (reach_ok C _ ∅ os rs s (init_ok C cap ppl maxcap Hc Hm) Hr Hl) as (m & sz & Hok & Hd & _).
  exists m. split; [exact Hd|]. intros n todos sched Ht.
  destruct (quiet_J C sz s m Hok Hq) as (L & A0 & H1 & H2 & H3 & HJ).
  destruct (sim_after C n (st_top s) L A0 _ m H1 H2 H3 s todos sched HJ Ht) as (m' & st & Ha & _). exists m', st. exact Ha.
Qed.

(** ** Without removals the previous values are right *)
Definition stands (P : op -> Prop) (x : status) : Prop :=
  match x with LinSpec.Idle => True | LinSpec.Called o => P o | Took o _ => P o end.

Lemma atomic_refine m0 h m st : atomic wstep m0 h m st ->
  (forall i o, In (EInv i o) h -> readput o /\ (forall k, op_key o = Some k -> is_Some (m0 !! k))) ->
  atomic lstep m0 h m st /\ (forall k, is_Some (m0 !! k) -> is_Some (m !! k)) /\
  (forall i, stands (fun o => readput o /\ (forall k, op_key o = Some k -> is_Some (m0 !! k))) (st i)).
Proof.
  set (P := fun o => readput o /\ (forall k, op_key o = Some k -> is_Some (m0 !! k))).
  assert (HP : forall st i x, (forall j, stands P (st j)) -> stands P x -> forall j, stands P (put_at st i x j)).
  { intros st' i x H Hx j. unfold put_at. destruct (Nat.eqb j i); auto. }
  induction 1 as [|h m st i o H IH Hi|h m st i o r m' H IH Hi Hs|h m st i o r H IH Hi]; intros Hh.
  - split; [constructor|]. split; [auto|]. intros i. exact I.
  - destruct IH as (I1 & I2 & I3). { intros j o' Hj. apply (Hh j). right. exact Hj. }
    split; [constructor; assumption|]. split; [exact I2|]. apply HP; [exact I3|]. apply (Hh i). left. reflexivity.
  - destruct (IH Hh) as (I1 & I2 & I3). pose proof (I3 i) as Ho. rewrite Hi in Ho. cbn in Ho.
    assert (Hl : lstep m o r m' /\ (forall k, is_Some (m0 !! k) -> is_Some (m' !! k))).
    { destruct Ho as [Hrp Hk]. destruct o; try contradiction; cbn in Hs |- *.
      - destruct Hs as [-> ->]. auto.
      - destruct Hs as [-> ->]. auto.
      - destruct Hs as ((w & -> & Hw) & ->). split; [|].
        + split; [|reflexivity]. exists w. split; [reflexivity|]. destruct Hw as [Hw|[Hw _]]; [exact Hw|].
          destruct (I2 k (Hk k eq_refl)) as [x Hx]. congruence.
        + intros k' Hk'. destruct (N.eq_dec k k') as [<-|Hne]; [rewrite lookup_insert; eauto|rewrite lookup_insert_ne by exact Hne; auto]. }
    split; [econstructor; [exact I1|exact Hi|apply Hl]|]. split; [apply Hl|]. apply HP; [exact I3|exact Ho].
  - destruct IH as (I1 & I2 & I3). { intros j o' Hj. apply (Hh j). right. exact Hj. }
    split; [econstructor; eassumption|]. split; [exact I2|]. apply HP; [exact I3|exact I].
Qed.

(** The calls in the history are those of the threads. *)
Lemma hist_todos (P : op -> Prop) C n s todos sched : Forall (Forall P) todos ->
  forall i o, In (EInv i o) (sy_hist (after C n s todos sched)) -> P o.
Proof.
  intros Ht. unfold after.
  assert (H0 : Forall (fun th => Forall P (th_todo th)) (sy_thr (start s todos)) /\
               forall i o, In (EInv i o) (sy_hist (start s todos)) -> P o).
  { split; [|intros i o []]. cbn. apply Forall_map. exact Ht. }
  revert H0. generalize (start s todos). induction sched as [|j l IH]; intros y [H1 H2]; [exact H2|].
  cbn [conc]. apply IH. unfold tstep. destruct (sy_thr y !! j) as [th|] eqn:Hj; [|auto].
  pose proof (Forall_lookup_1 _ _ _ _ H1 Hj) as Hth. cbn beta in Hth.
  destruct (th_cur th) as [[o [r|e|c k]]|].
  - cbn. split; [apply Forall_insert; auto|]. intros i o' [E|E]; [discriminate|eauto].
  - auto.
  - destruct (exec c (sy_st y)) as [r s']. cbn. split; [apply Forall_insert; auto|exact H2].
  - destruct (th_todo th) as [|o os]; [auto|]. apply Forall_cons in Hth as [Ho Hos].
    cbn. split; [apply Forall_insert; auto|]. intros i o' [E|E]; [injection E as <- <-; exact Ho|eauto].
Qed.

Lemma lin_readput C cap ppl maxcap os rs s : good_cap cap maxcap -> (maxcap <= 2 ^ 32)%N -> Forall legal_op os ->
  reach C (init_state cap ppl maxcap) os rs s -> quiet s ->
  exists m, dsteps ∅ os rs m /\ forall n todos sched,
    calls_on_stored m readput todos ->
    linearizable lstep m (sy_hist (after C n s todos sched)).
Proof.
  intros Hc Hm Hl Hr Hq. destruct (lin_main C cap ppl maxcap os rs s Hc Hm Hl Hr Hq) as (m & Hd & H).
  exists m. split; [exact Hd|]. intros n todos sched Ht.
  destruct (H n todos sched) as (m' & st & Ha).
  { eapply List.Forall_impl; [|exact Ht]. intros l. apply List.Forall_impl. intros o (H1 & H2 & H3).
    split; [exact H1|]. split; [exact H2|]. destruct o; try contradiction; exact I. }
  exists m', st. apply (atomic_refine _ _ _ _ Ha). intros i o Hi.
  pose proof (hist_todos _ C n s todos sched Ht i o Hi) as (_ & H2 & H3). auto.
Qed.

(** ** No failure *)
Lemma lin_no_failure C cap ppl maxcap os rs s : good_cap cap maxcap -> (maxcap <= 2 ^ 32)%N -> Forall legal_op os ->
  reach C (init_state cap ppl maxcap) os rs s -> quiet s ->
  exists m, dsteps ∅ os rs m /\ forall n todos sched i th o e,
    calls_on_stored m not_increment todos ->
    sy_thr (after C n s todos sched) !! i = Some th -> th_cur th = Some (o, Err e) -> e = OutOfFuel.
Proof.
  intros Hc Hm Hl Hr Hq. destruct (reach_ok C _ ∅ os rs s (init_ok C cap ppl maxcap Hc Hm) Hr Hl) as (m & sz & Hok & Hd & _).
  exists m. split; [exact Hd|]. intros n todos sched i th o e Ht Hi Hcur.
  destruct (quiet_J C sz s m Hok Hq) as (L & A0 & H1 & H2 & H3 & HJ).
  destruct (sim_after C n (st_top s) L A0 _ m H1 H2 H3 s todos sched HJ Ht) as (m' & st & _ & _ & Hs).
  destruct (Hs i th Hi) as [_ Hx]. rewrite Hcur in Hx. destruct Hx as (d & _ & Hx). exact Hx.
Qed.

(** ** A put of an atomic dictionary returns "not found" or a value that was put *)
Section PutResult.
Context (S : N -> Prop) (m0 : gmap N N) (H0 : forall k v, m0 !! k = Some v -> S v).

Definition fine_result (o : op) (r : rsp) : Prop :=
  match o, r with OPut _ _, RVal w => exists x, same_word w x /\ (x = NOTFOUND \/ S x) | _, _ => True end.
Definition fine_op (o : op) : Prop := match o with OPut _ v => S v | _ => True end.

Lemma atomic_results h m st : atomic lstep m0 h m st -> (forall i o, In (EInv i o) h -> fine_op o) ->
  (forall k v, m !! k = Some v -> S v) /\
  (forall i, match st i with LinSpec.Idle => True | LinSpec.Called o => fine_op o | Took o r => fine_result o r end) /\
  (forall i o r, In (ERes i o r) h -> fine_result o r).
Proof.
  induction 1 as [|h m st i o H IH Hi|h m st i o r m' H IH Hi Hs|h m st i o r H IH Hi]; intros Hh.
  - split; [exact H0|]. split; [auto|]. intros i o r [].
  - destruct IH as (I1 & I2 & I3). { intros j o' Hj. apply (Hh j). right. exact Hj. }
    split; [exact I1|]. split.
    + intros j. unfold put_at. destruct (Nat.eqb j i); [|apply I2]. apply (Hh i). left. reflexivity.
    + intros j o' r [E|E]; [discriminate|eauto].
  - destruct (IH Hh) as (I1 & I2 & I3). pose proof (I2 i) as Ho. rewrite Hi in Ho.
    assert (Hr : fine_result o r /\ (forall k v, m' !! k = Some v -> S v)).
    { destruct o; try contradiction; cbn in Hs, Ho |- *.
      - destruct Hs as [_ ->]. auto.
      - destruct Hs as [_ ->]. auto.
      - destruct Hs as ((w & -> & Hw) & ->). split.
        + eexists. split; [exact Hw|]. unfold lookup_result. destruct (m !! k) as [x|] eqn:E; cbn; [right; eauto|auto].
        + intros k' v'. rewrite lookup_insert_Some. intros [[_ <-]|[_ E]]; eauto.
      - destruct Hs as [_ ->]. split; [exact I|]. intros k' v'. rewrite lookup_delete_Some. intros [_ E]. eauto. }
    split; [apply Hr|]. split; [|exact I3]. intros j. unfold put_at. destruct (Nat.eqb j i); [apply Hr|apply I2].
  - destruct IH as (I1 & I2 & I3). { intros j o' Hj. apply (Hh j). right. exact Hj. }
    split; [exact I1|]. pose proof (I2 i) as Ho. rewrite Hi in Ho. split.
    + intros j. unfold put_at. destruct (Nat.eqb j i); [exact I|apply I2].
    + intros j o' r' [E|E]; [injection E as <- <- <-; exact Ho|eauto].
Qed.
End PutResult.
