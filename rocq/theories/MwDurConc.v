(** What a crash may leave of the words of a multi-word call that other threads disturb. *)
From Coq Require Import NArith Bool List Lia Permutation.
From stdpp Require Import base list relations.
From Verif Require Import Word Bits Codec CodecSpec CodecThm MwCas MwSpec MwWp MwSeq MwRely MwThm MwInv MwDurSpec MwDur.
Import ListNotations.
Local Open Scope N_scope.

(** ** Commands that leave the descriptor of thread [me] to it *)

Definition quiet (me : N) (c : mcmd) : Prop :=
  match c with
  | MLoad _ => True
  | MStore l _ => l <> LK me /\ l <> LKCount me /\ forall i f, l <> LKWord me i f
  | MCas l e n => has_flag l /\ (l = LK me -> n = clean e \/ exists q st, q < 2 ^ 61 /\ (st = Succeeded \/ st = Failed) /\ e = kenc Undecided q /\ n = dirty (kmut_encode (mkKmut true st q)))
  end.
Lemma quiet_facts me j : (forall l, quiet me (MLoad l)) /\ (forall l e, has_flag l -> quiet me (MCas l e (clean e))) /\ (forall i e n, quiet me (MCas (LArr i) e (dirty n))) /\
  (forall t q st, q < 2 ^ 61 -> st = Succeeded \/ st = Failed -> quiet me (MCas (LK t) (kenc Undecided q) (dirty (kmut_encode (mkKmut true st q))))) /\
  (forall q, quiet me (MStore (LW j) (wmut_encode (mkWmut true q)))) /\ (forall f v, quiet me (MStore (LWWord j f) v)) /\
  (forall v, quiet me (MStore (LWSeq j) v)) /\ (forall v, quiet me (MStore (LWTid j) v)).
Proof.
  split; [intros; exact I|]. split; [intros l e H; split; [exact H|left; reflexivity]|]. split; [intros; split; [exact I|discriminate]|].
  split; [intros t q st Hq Hst; split; [exact I|]; intros _; right; exists q, st; auto|]. repeat split; discriminate.
Qed.
Ltac quiets me j := destruct (quiet_facts me j) as (T1 & T2 & T3 & T4 & T5 & T6 & T7 & T8).
Lemma quiet_mop C n me j o : mcfg_ok C -> me <> j -> alls (quiet me) (mop_prog C n j o) (fun _ => True).
Proof. intros HC Hj. quiets me j. apply al_mop; auto; intros; repeat split; congruence. Qed.

(** ** A thread among others

    A world: the memory, and the memories there have been. *)
Definition world : Type := dst * (dst -> Prop).
Definition at_ (w : world) (s : dst) (w' : world) : Prop := fst w' = s /\ (forall x, snd w x -> snd w' x) /\ snd w' s.
Section Conc.
Context (me : N).
Definition R1 (w w' : world) : Prop :=
  at_ w (fst w) w' \/ (exists l, at_ w (dflush l (fst w)) w') \/ exists c, quiet me c /\ at_ w (snd (dexec c (fst w))) w'.
Definition R : world -> world -> Prop := rtc R1.
Definition stable (P : world -> Prop) : Prop := forall w w', R1 w w' -> P w -> P w'.
Lemma stable_R P w w' : stable P -> R w w' -> P w -> P w'.
Proof. intros H. induction 1 as [|x y z H1 _ IH]; [auto|]. intros Hx. apply IH, (H _ _ H1), Hx. Qed.
Lemma R1_pre c w w' : at_ w (dpre c (fst w)) w' -> R1 w w'.
Proof. unfold dpre. intros H. destruct (flushes c) as [l|]; [right; left; exists l; exact H|left; exact H]. Qed.

(** [hmid]: after the flush. *)
Definition hmid {A : Type} (hwp : mprog A -> world -> Prop) (c : mcmd) (k : mres c -> mprog A) (w2 : world) : Prop :=
  forall w3, R w2 w3 -> forall w4, at_ w3 (snd (dexec c (fst w3))) w4 -> hwp (k (fst (dexec c (fst w3)))) w4.
Fixpoint hwp {A : Type} (Q : A -> world -> Prop) (p : mprog A) (w : world) : Prop :=
  match p with
  | MRet a => forall w1, R w w1 -> Q a w1
  | MErr _ => True
  | MVis c k => forall w1, R w w1 -> forall w2, at_ w1 (dpre c (fst w1)) w2 ->
      forall w3, R w2 w3 -> forall w4, at_ w3 (snd (dexec c (fst w3))) w4 -> hwp Q (k (fst (dexec c (fst w3)))) w4
  end.
Lemma hwp_R {A} (Q : A -> world -> Prop) p w w' : R w w' -> hwp Q p w -> hwp Q p w'.
Proof.
  intros HR. destruct p as [a|e|c k]; cbn; [|auto|].
  - intros H w1 H1. apply H. etrans; eassumption.
  - intros H w1 H1. apply H. etrans; eassumption.
Qed.
Lemma hmid_R {A} (Q : A -> world -> Prop) c k w w' : R w w' -> hmid (hwp Q) c k w -> hmid (hwp Q) c k w'.
Proof. intros HR H w3 H3. apply H. etrans; eassumption. Qed.
Lemma hwp_mono {A} (Q Q' : A -> world -> Prop) p w : hwp Q p w -> (forall a w', Q a w' -> Q' a w') -> hwp Q' p w.
Proof.
  intros H HQ. revert w H. induction p as [a|e|c k IH]; cbn; intros w H; [|exact I|].
  - intros w1 H1. apply HQ, H, H1.
  - intros w1 H1 w2 H2 w3 H3 w4 H4. apply IH. eapply H; eassumption.
Qed.
Lemma hwp_bind {A B} (p : mprog A) (f : A -> mprog B) (Q : B -> world -> Prop) w : hwp (fun a w' => hwp Q (f a) w') p w -> hwp Q (mbind p f) w.
Proof.
  revert w. induction p as [a|e|c k IH]; cbn; intros w H; [|exact I|].
  - apply H. reflexivity.
  - intros w1 H1 w2 H2 w3 H3 w4 H4. apply IH. eapply H; eassumption.
Qed.
Lemma hwp_ret {A} (P : world -> Prop) (a : A) (Q : A -> world -> Prop) w : stable P -> P w -> (forall w', P w' -> Q a w') -> hwp Q (MRet a) w.
Proof. intros HP Hw H w1 H1. apply H. eapply stable_R; eassumption. Qed.
(** One command: [P] holds before it. *)
Lemma hwp_do (P : world -> Prop) c (Q : mres c -> world -> Prop) w : stable P -> P w ->
  (forall w w', P w -> at_ w (snd (dexec c (fst w))) w' -> forall w'', R w' w'' -> Q (fst (dexec c (fst w))) w'') -> hwp Q (mdo c) w.
Proof.
  intros HP Hw H. unfold mdo. cbn [hwp]. intros w1 H1 w2 H2 w3 H3 w4 H4 w5 H5. apply (H w3 w4); [|exact H4|exact H5].
  eapply stable_R; [exact HP|exact H3|]. eapply HP; [eapply R1_pre, H2|]. eapply stable_R; eassumption.
Qed.
(** One that flushes. *)
Lemma hwp_do_flush (P P' : world -> Prop) c (Q : mres c -> world -> Prop) w : stable P -> stable P' -> P w -> (forall w w', P w -> at_ w (dpre c (fst w)) w' -> P' w') ->
  (forall w w', P' w -> at_ w (snd (dexec c (fst w))) w' -> forall w'', R w' w'' -> Q (fst (dexec c (fst w))) w'') -> hwp Q (mdo c) w.
Proof.
  intros HP HP' Hw Hf H. unfold mdo. cbn [hwp]. intros w1 H1 w2 H2 w3 H3 w4 H4 w5 H5. apply (H w3 w4); [|exact H4|exact H5].
  eapply stable_R; [exact HP'|exact H3|]. eapply Hf; [|exact H2]. eapply stable_R; eassumption.
Qed.
(** Commands that are quiet for the thread itself. *)
Lemma hwp_alls {A} (P : world -> Prop) (p : mprog A) (Q : A -> Prop) w : stable P -> alls (quiet me) p Q -> P w -> hwp (fun a w' => Q a /\ P w') p w.
Proof.
  intros HP. revert w. induction p as [a|e|c k IH]; cbn; intros w Hp Hw; [|exact I|].
  - intros w1 H1. split; [exact Hp|]. eapply stable_R; eassumption.
  - destruct Hp as [Hc Hp]. intros w1 H1 w2 H2 w3 H3 w4 H4. apply IH; [apply Hp|]. eapply HP; [right; right; exists c; split; [exact Hc|exact H4]|].
    eapply stable_R; [exact HP|exact H3|]. eapply HP; [eapply R1_pre, H2|]. eapply stable_R; eassumption.
Qed.
Lemma hwp_any {A} (p : mprog A) w : hwp (fun _ _ => True) p w.
Proof. revert w. induction p as [a|e|c k IH]; cbn; auto. Qed.
Lemma hwp_assert C b (P : world -> Prop) (Q : unit -> world -> Prop) w : stable P -> P w -> (forall w', P w' -> Q tt w') -> hwp Q (massert C b) w.
Proof. intros HP Hw H. unfold massert. destruct (_ || _); [eapply hwp_ret; eassumption|exact I]. Qed.
Lemma hwp_thread C u (P : world -> Prop) (Q : unit -> world -> Prop) w : stable P -> P w -> (forall w', P w' -> Q tt w') -> hwp Q (thread_ok C u) w.
Proof. intros HP Hw H. unfold thread_ok. destruct (_ <? _); [eapply hwp_ret; eassumption|exact I]. Qed.
Lemma hwp_load (P : world -> Prop) l (Q : N -> world -> Prop) w : stable P -> P w ->
  (forall w1 w', P w1 -> R w1 w' -> P w' -> Q (ds_mem (fst w1) l) w') -> hwp Q (mdo (MLoad l)) w.
Proof.
  intros HP Hw H. apply (hwp_do P); [exact HP|exact Hw|]. intros w1 w2 H1 H2 w3 H3. change (fst (dexec (MLoad l) (fst w1))) with (ds_mem (fst w1) l).
  assert (H12 : R w1 w2) by (apply rtc_once; right; right; exists (MLoad l); split; [exact I|exact H2]).
  apply H; [exact H1|etrans; eassumption|]. eapply stable_R; [exact HP|etrans; [exact H12|exact H3]|exact H1].
Qed.

(** ** What others leave alone *)

Lemma stable_and P P' : stable P -> stable P' -> stable (fun w => P w /\ P' w).
Proof. intros H H' w w' Hr [H1 H2]. split; [eapply H|eapply H']; eassumption. Qed.
Lemma stable_true : stable (fun _ => True).
Proof. intros w w' _ _. exact I. Qed.
(** The words of the descriptor. *)
Definition mycell (l : loc) : Prop := match l with LKCount t => t = me | LKWord t _ _ => t = me | _ => False end.
Lemma quiet_cell c s l : quiet me c -> mycell l -> ds_mem (snd (dexec c s)) l = ds_mem s l.
Proof.
  intros Hq Hl. rewrite dexec_mem. destruct c as [x|x v|x e n]; [reflexivity| |]; apply mexec_elsewhere; cbn [cmd_loc]; intros ->.
  - destruct Hq as (H1 & H2 & H3). destruct l; cbn in Hl; try contradiction; subst; [apply H2; reflexivity|eapply H3; reflexivity].
  - destruct Hq as [Hq _]. destruct l; cbn in Hl; contradiction.
Qed.
Lemma stable_cell l (P : N -> Prop) : mycell l -> stable (fun w => P (ds_mem (fst w) l)).
Proof.
  intros Hl w w' [(E & _)|[(x & E & _)|(c & Hq & E & _)]] H; rewrite E; [exact H|exact H|]. rewrite quiet_cell by assumption. exact H.
Qed.
(** The call with the sequence number [q] has been decided; it has, or its state is flushed. *)
Definition dec (q : N) (s : dst) : Prop := exists st, (st = Succeeded \/ st = Failed) /\ clean (ds_mem s (LK me)) = kenc st q.
Definition nd (q : N) (s : dst) : Prop := ds_mem s (LK me) = kenc Undecided q \/ dec q s.
Context (q : N) (Hq : q < 2 ^ 61).
Lemma lt4 st : st = Succeeded \/ st = Failed -> st < 4.
Proof. intros [-> | ->]; reflexivity. Qed.
Lemma dec_new st : st = Succeeded \/ st = Failed -> clean (dirty (kmut_encode (mkKmut true st q))) = kenc st q.
Proof. intros Hst. destruct (kenc_facts st q (lt4 _ Hst) Hq) as (_ & E & F). rewrite clean_dirty, F, clean_dirty. exact E. Qed.
Lemma kenc_inj st st' q' : st < 4 -> st' < 4 -> q' < 2 ^ 61 -> kenc st q = kenc st' q' -> st = st' /\ q = q'.
Proof.
  intros H H' Hq' E. destruct (kenc_facts st q H Hq) as (D & _). destruct (kenc_facts st' q' H' Hq') as (D' & _). rewrite E, D' in D. injection D as -> ->. auto.
Qed.
Lemma und_lt : Undecided < 4. Proof. reflexivity. Qed.
Lemma cas_dec c s : quiet me c -> dec q s -> dec q (snd (dexec c s)).
Proof.
  intros Hc (st & Hst & E). exists st. split; [exact Hst|]. rewrite dexec_mem. destruct c as [x|x v|x e n]; [exact E| |].
  - rewrite mexec_elsewhere; [exact E|]. destruct Hc as [Hc _]. exact Hc.
  - cbn [mexec]. destruct (N.eqb_spec (ds_mem s x) e) as [Ex|Ex]; [|exact E]. cbn [snd]. destruct (decide (x = LK me)) as [->|Hn]; [|rewrite upd_other by congruence; exact E].
    rewrite upd_same. destruct Hc as [_ Hc]. destruct (Hc eq_refl) as [->|(q' & st' & Hq' & _ & -> & _)]; [rewrite clean_clean, <- Ex; exact E|].
    exfalso. rewrite Ex in E. destruct (kenc_facts Undecided q' und_lt Hq') as (_ & F & _). rewrite F in E. symmetry in E.
    apply kenc_inj in E as [E _]; [|apply lt4, Hst|reflexivity|exact Hq']. destruct Hst as [-> | ->]; discriminate E.
Qed.
Lemma cas_nd c s : quiet me c -> nd q s -> nd q (snd (dexec c s)).
Proof.
  intros Hc [E|H]; [|right; apply cas_dec; assumption]. unfold nd. rewrite dexec_mem. destruct c as [x|x v|x e n]; [left; exact E| |].
  - left. rewrite mexec_elsewhere; [exact E|]. destruct Hc as [Hc _]. exact Hc.
  - cbn [mexec]. destruct (N.eqb_spec (ds_mem s x) e) as [Ex|Ex]; [|left; exact E]. cbn [snd]. destruct (decide (x = LK me)) as [->|Hn]; [|left; rewrite upd_other by congruence; exact E].
    destruct (kenc_facts Undecided q und_lt Hq) as (_ & F & _).
    rewrite upd_same. destruct Hc as [_ Hc]. destruct (Hc eq_refl) as [->|(q' & st' & Hq' & Hst' & -> & ->)]; [left; rewrite <- Ex, E; exact F|].
    right. exists st'. split; [exact Hst'|]. rewrite dexec_mem. cbn [mexec]. rewrite Ex, N.eqb_refl. cbn [snd]. rewrite upd_same. rewrite Ex in E. symmetry in E.
    apply kenc_inj in E as [_ <-]; [|reflexivity|reflexivity|exact Hq']. apply dec_new, Hst'.
Qed.
Lemma stable_dec : stable (fun w => dec q (fst w)).
Proof. intros w w' [(E & _)|[(x & E & _)|(c & Hc & E & _)]] H; rewrite E; [exact H|exact H|]. apply cas_dec; assumption. Qed.
Lemma stable_nd : stable (fun w => nd q (fst w)).
Proof. intros w w' [(E & _)|[(x & E & _)|(c & Hc & E & _)]] H; rewrite E; [exact H|exact H|]. apply cas_nd; assumption. Qed.
Lemma nd_word s : nd q s -> exists st, st < 4 /\ clean (ds_mem s (LK me)) = kenc st q /\ (clean (ds_mem s (LK me)) = kenc Undecided q \/ dec q s).
Proof.
  intros [E|H].
  - destruct (kenc_facts Undecided q und_lt Hq) as (_ & F & _). exists Undecided. rewrite E, F. auto using und_lt.
  - destruct H as (st & Hst & E). exists st. split; [apply lt4, Hst|]. split; [exact E|]. right. exists st. auto.
Qed.
(** The decision is flushed. *)
Definition decs (s : dst) : Prop := dec q s /\ survives s (LK me).
Lemma cas_dec_same c s : quiet me c -> dec q s -> clean (ds_mem (snd (dexec c s)) (LK me)) = clean (ds_mem s (LK me)).
Proof.
  intros Hc (st & Hst & E). rewrite dexec_mem. destruct c as [x|x v|x e n]; [reflexivity| |].
  - rewrite mexec_elsewhere; [reflexivity|]. destruct Hc as [Hc _]. exact Hc.
  - cbn [mexec]. destruct (N.eqb_spec (ds_mem s x) e) as [Ex|Ex]; [|reflexivity]. cbn [snd]. destruct (decide (x = LK me)) as [->|Hn]; [|rewrite upd_other by congruence; reflexivity].
    rewrite upd_same. destruct Hc as [_ Hc]. destruct (Hc eq_refl) as [->|(q' & st' & Hq' & _ & -> & _)]; [rewrite clean_clean, <- Ex; reflexivity|].
    exfalso. rewrite Ex in E. destruct (kenc_facts Undecided q' und_lt Hq') as (_ & F & _). rewrite F in E. symmetry in E.
    apply kenc_inj in E as [E _]; [|apply lt4, Hst|reflexivity|exact Hq']. destruct Hst as [-> | ->]; discriminate E.
Qed.
Lemma stable_decs : stable (fun w => decs (fst w)).
Proof.
  intros w w' Hr [H1 H2]. split; [exact (stable_dec w w' Hr H1)|]. destruct Hr as [(E & _)|[(x & E & _)|(c & Hc & E & _)]]; rewrite E; [exact H2|apply survives_flush, H2|].
  apply survives_exec; [apply cas_dec_same; assumption|exact H2].
Qed.
(** Whatever a crash leaves of the word was there after the decision. *)
Definition AP (a : N) (w : world) : Prop :=
  dec q (fst w) /\ forall v, v ∈ ds_per (fst w) (LArr a) -> exists s, snd w s /\ ds_mem s (LArr a) = v /\ dec q s.
Lemma AP_flush a w w' : dec q (fst w) -> at_ w (dflush (LArr a) (fst w)) w' -> AP a w'.
Proof.
  intros H (E & _ & Hs). split; [rewrite E; exact H|]. rewrite E. intros v. cbn. rewrite decide_True by reflexivity. rewrite elem_of_list_singleton. intros ->.
  exists (dflush (LArr a) (fst w)). auto.
Qed.
Lemma stable_AP a : stable (AP a).
Proof.
  intros w w' Hr [Hd Hv]. assert (Hd' : dec q (fst w')) by exact (stable_dec w w' Hr Hd). split; [exact Hd'|]. intros v Hin.
  assert (Hcase : v ∈ ds_per (fst w) (LArr a) \/ v = ds_mem (fst w') (LArr a)).
  { destruct Hr as [(E & _)|[(x & E & _)|(c & Hc & E & _)]]; rewrite E in Hin |- *; [auto| |].
    - cbn in Hin. destruct (decide _) as [Ex|]; [|auto]. rewrite elem_of_list_singleton in Hin. right. rewrite Hin, <- Ex. reflexivity.
    - rewrite dexec_per in Hin. destruct (_ =? _); [auto|]. rewrite elem_of_cons in Hin. destruct Hin as [->|Hin]; auto. }
  assert (Hat : (forall x, snd w x -> snd w' x) /\ snd w' (fst w')).
  { destruct Hr as [(E & H1 & H2)|[(x & E & H1 & H2)|(c & Hc & E & H1 & H2)]]; rewrite E; auto. }
  destruct Hat as [H1 H2]. destruct Hcase as [H|H].
  - destruct (Hv v H) as (s & Hs & Hs'). exists s. split; [apply H1, Hs|exact Hs'].
  - exists (fst w'). auto.
Qed.

(** ** The call *)

Context (C : mcfg) (HC : mcfg_ok C) (offs : list N).
Definition F (w : world) : Prop := ds_mem (fst w) (LKCount me) = N.of_nat (length offs) /\ forall i o, offs !! i = Some o -> ds_mem (fst w) (LKWord me i WOff) = o.
Lemma stable_F : stable F.
Proof.
  intros w w' Hr [H1 H2]. split.
  - exact (stable_cell (LKCount me) (fun v => v = N.of_nat (length offs)) eq_refl w w' Hr H1).
  - intros i o Hi. exact (stable_cell (LKWord me i WOff) (fun v => v = o) eq_refl w w' Hr (H2 i o Hi)).
Qed.
Section P.
Context (P : world -> Prop) (HP : stable P).
Lemma h_alls {A} (p : mprog A) (Qp : A -> Prop) (Q : A -> world -> Prop) w : alls (quiet me) p Qp -> P w -> (forall a w', Qp a -> P w' -> Q a w') -> hwp Q p w.
Proof. intros Hp Hw H. eapply hwp_mono; [apply hwp_alls; [exact HP|exact Hp|exact Hw]|]. intros a w' [H1 H2]. auto. Qed.
Context (Pnd : forall w, P w -> nd q (fst w)).
(** The state of the call is read. *)
Lemma h_readK (Q : N -> world -> Prop) w : P w ->
  (forall v w', P w' -> (exists st, st < 4 /\ v = kenc st q) -> v = kenc Undecided q \/ dec q (fst w') -> Q v w') -> hwp Q (m_read (LK me)) w.
Proof.
  intros Hw H. unfold m_read. apply hwp_bind. apply (hwp_load P); [exact HP|exact Hw|]. intros w1 w2 H1 H12 H2.
  destruct (nd_word _ (Pnd _ H1)) as (st & Hst & E & Hd). set (v := ds_mem (fst w1) (LK me)) in *.
  set (P' := fun w => P w /\ (clean v = kenc Undecided q \/ dec q (fst w))).
  assert (HP' : stable P') by (intros a b Hr [Ha [Hb|Hb]]; (split; [eapply HP; eassumption|]); [auto|right; eapply stable_dec; eassumption]).
  assert (Hw2 : P' w2) by (split; [exact H2|]; destruct Hd as [Hd|Hd]; [auto|right; exact (stable_R _ _ _ stable_dec H12 Hd)]).
  apply hwp_bind. eapply hwp_mono; [apply (hwp_alls P' _ (fun _ => True)); [exact HP'| |exact Hw2]|].
  { quiets me me. destruct (isMarked v DirtyFlag); [apply al_persist; auto; exact I|exact I]. }
  intros _ w3 [_ H3]. eapply hwp_ret; [exact HP'|exact H3|]. intros w4 [H4 H4']. apply H; [exact H4|exists st; auto|exact H4'].
Qed.
Context (d : descref) (Hd : d_isKCAS d = true /\ d_isRDCSS d = false /\ d_tid d = me).
Lemma h_getSeq (Q : N -> world -> Prop) w : P w -> (forall w', P w' -> Q q w') -> hwp Q (getSeq C d) w.
Proof.
  intros Hw H. destruct Hd as (E1 & E2 & E3). unfold getSeq. rewrite E1, E2, E3. cbn [andb negb]. apply hwp_bind. eapply hwp_thread; [exact HP|exact Hw|]. intros w1 H1.
  apply hwp_bind. apply h_readK; [exact H1|]. intros v w2 H2 (st & Hst & ->) _. eapply hwp_ret; [exact HP|exact H2|]. intros w3 H3.
  destruct (kenc_facts st q Hst Hq) as (D & _). rewrite D. apply H, H3.
Qed.
Lemma h_CASArr e n off (Q : bool * N * bool -> world -> Prop) w : d_seq d = q -> P w -> (forall b w', P w' -> Q (b, true) w') -> hwp Q (CASField C d e n (LArr off)) w.
Proof.
  intros Hs Hw H. quiets me me. apply hwp_bind. eapply h_alls; [apply (al_read (quiet me) T1 T2 (LArr off) (fun _ => True)); [exact I|auto]|exact Hw|]. intros v w1 _ H1.
  apply hwp_bind. apply h_getSeq; [exact H1|]. intros w2 H2. rewrite Hs, N.eqb_refl. cbn [negb]. destruct (negb _); [eapply hwp_ret; [exact HP|exact H2|]; intros w3 H3; apply H, H3|].
  apply hwp_bind. eapply h_alls; [apply (al_pcas C (quiet me) T1 T2 (LArr off) e n (fun _ => True)); [exact I|apply T3|auto]|exact H2|]. intros r w3 _ H3.
  eapply hwp_ret; [exact HP|exact H3|]. intros w4 H4. apply H, H4.
Qed.
End P.
(** The decision. *)
Lemma h_CASK (P : world -> Prop) (HP : stable P) (Pnd : forall w, P w -> nd q (fst w)) d (Hd : d_isKCAS d = true /\ d_isRDCSS d = false /\ d_tid d = me) st (Q : bool * N * bool -> world -> Prop) w :
  st = Succeeded \/ st = Failed -> P w -> (forall r w', P w' -> (snd r = true -> d_seq d = q /\ dec q (fst w')) -> Q r w') ->
  hwp Q (CASField C d (kenc Undecided (d_seq d)) (kmut_encode (mkKmut true st (d_seq d))) (LK me)) w.
Proof.
  intros Hst Hw H. quiets me me. apply hwp_bind. apply (h_readK P HP Pnd); [exact Hw|]. intros v w1 H1 _ Hv.
  set (P' := fun w => P w /\ (v = kenc Undecided q \/ dec q (fst w))).
  assert (HP' : stable P') by (intros a b Hr [Ha [Hb|Hb]]; (split; [eapply HP; eassumption|]); [auto|right; eapply stable_dec; eassumption]).
  assert (Pnd' : forall w, P' w -> nd q (fst w)) by (intros x [Hx _]; apply Pnd, Hx).
  apply hwp_bind. apply (h_getSeq P' HP' Pnd' d Hd); [split; assumption|]. intros w2 H2. destruct (N.eqb_spec (d_seq d) q) as [Es|Es]; cbn [negb].
  2: { eapply hwp_ret; [exact HP'|exact H2|]. intros w3 [H3 _]. apply H; [exact H3|discriminate]. }
  rewrite Es. destruct (N.eqb_spec v (kenc Undecided q)) as [Ev|Ev]; cbn [negb].
  2: { eapply hwp_ret; [exact HP'|exact H2|]. intros w3 [H3 H3']. apply H; [exact H3|]. intros _. split; [exact Es|]. destruct H3' as [H3'|H3']; [contradiction|exact H3']. }
  apply hwp_bind. unfold m_pcas. apply hwp_bind. eapply (h_alls P HP); [apply (al_read (quiet me) T1 T2 (LK me) (fun _ => True)); [exact I|auto]|exact (proj1 H2)|]. intros v' w3 _ H3.
  set (Pd := fun w => P w /\ dec q (fst w)). assert (HPd : stable Pd) by (apply stable_and; [exact HP|exact stable_dec]).
  apply hwp_bind. apply (hwp_do P); [exact HP|exact H3|]. intros w4 w5 H4 H45 w6 H56.
  set (c := MCas (LK me) (kenc Undecided q) (dirty (kmut_encode (mkKmut true st q)))) in *.
  assert (Hc : quiet me c) by (apply T4; assumption).
  assert (H6 : Pd w6).
  { apply (stable_R _ w5); [exact HPd|exact H56|]. assert (H5 : P w5) by (eapply HP; [right; right; exists c; split; [exact Hc|exact H45]|exact H4]). split; [exact H5|].
    destruct H45 as (E & _). rewrite E. destruct (Pnd _ H4) as [E4|E4]; [|apply cas_dec; assumption]. exists st. split; [exact Hst|].
    rewrite dexec_mem. unfold c. cbn [mexec]. rewrite E4, N.eqb_refl. cbn [snd]. rewrite upd_same. apply dec_new, Hst. }
  cbn zeta. apply hwp_bind. eapply hwp_assert; [exact HPd|exact H6|]. intros w7 H7. eapply hwp_ret; [exact HPd|exact H7|]. intros w8 H8.
  eapply hwp_ret; [exact HPd|exact H8|]. intros w9 [H9 H9']. apply H; [exact H9|]. intros _. split; [exact Es|exact H9'].
Qed.
(** Every word is flushed after the decision. *)
Definition done (i : nat) (w : world) : Prop := (decs (fst w) /\ F w) /\ forall j o, (j < i)%nat -> offs !! j = Some o -> AP o w.
Lemma stable_done i : stable (done i).
Proof. intros w w' Hr [H1 H2]. split; [exact (stable_and _ _ stable_decs stable_F w w' Hr H1)|]. intros j o Hj Ho. eapply stable_AP; [exact Hr|]. eapply H2; eassumption. Qed.
Lemma h_more i (Q : bool -> world -> Prop) (P : world -> Prop) w : stable P -> (forall w, P w -> F w) -> P w -> (forall w', P w' -> Q (i <? length offs)%nat w') -> hwp Q (more me i) w.
Proof.
  intros HP HF Hw H. unfold more. apply hwp_bind. apply (hwp_load P); [exact HP|exact Hw|]. intros w1 w2 H1 _ H2. destruct (HF _ H1) as [E _]. rewrite E.
  eapply hwp_ret; [exact HP|exact H2|]. intros w3 H3. replace (N.of_nat i <? N.of_nat (length offs)) with (i <? length offs)%nat; [apply H, H3|].
  destruct (Nat.ltb_spec i (length offs)); destruct (N.ltb_spec (N.of_nat i) (N.of_nat (length offs))); try reflexivity; lia.
Qed.
Lemma h_word i o (Q : loc -> world -> Prop) (P : world -> Prop) w : stable P -> (forall w, P w -> F w) -> offs !! i = Some o -> P w -> (forall w', P w' -> Q (LArr o) w') -> hwp Q (word_address C me i) w.
Proof.
  intros HP HF Ho Hw H. unfold word_address. apply hwp_bind. apply (hwp_load P); [exact HP|exact Hw|]. intros w1 w2 H1 _ H2. destruct (HF _ H1) as [_ E]. rewrite (E i o Ho).
  unfold address. destruct (_ <? _); [|exact I]. eapply hwp_ret; [exact HP|exact H2|]. intros w3 H3. apply H, H3.
Qed.
Definition all_done (w : world) : Prop := decs (fst w) /\ forall o, In o offs -> AP o w.
Lemma stable_all_done : stable all_done.
Proof. intros w w' Hr [H1 H2]. split; [exact (stable_decs w w' Hr H1)|]. intros o Ho. eapply stable_AP; [exact Hr|]. apply H2, Ho. Qed.
Lemma h_finish n d st i w : d_isKCAS d = true /\ d_isRDCSS d = false /\ d_tid d = me -> d_seq d = q -> done i w ->
  hwp (fun _ w' => all_done w') (finish C n d st i) w.
Proof.
  intros Hd Hs. revert i w. induction n as [|n IH]; intros i w Hw; [exact I|]. cbn [finish]. rewrite !(proj2 (proj2 Hd)).
  assert (HF : forall w, done i w -> F w) by (intros x Hx; apply Hx). pose proof (stable_done i) as HP.
  assert (Pnd : forall w, done i w -> nd q (fst w)) by (intros x Hx; right; apply Hx).
  apply hwp_bind. eapply h_more; [exact HP|exact HF|exact Hw|]. intros w1 H1. destruct (Nat.ltb_spec i (length offs)) as [Hi|Hi].
  2: { eapply hwp_ret; [exact HP|exact H1|]. intros w2 [[H2' _] H2]. split; [exact H2'|]. intros o Ho. rewrite <- elem_of_list_In in Ho. apply elem_of_list_lookup in Ho as [j Hj]. eapply H2; [|exact Hj]. apply lookup_lt_Some in Hj. lia. }
  destruct (lookup_lt_is_Some_2 offs i Hi) as [o Ho].
  apply hwp_bind. apply (hwp_load (done i)); [exact HP|exact H1|]. intros w2 w3 _ _ H3. set (v := ds_mem _ _). cbn zeta.
  apply hwp_bind. eapply h_word; [exact HP|exact HF|exact Ho|exact H3|]. intros w4 H4.
  apply hwp_bind. apply (h_CASArr (done i) HP Pnd d Hd); [exact Hs|exact H4|]. intros b w5 H5. cbn [snd negb].
  assert (Hrest : forall w, done i w -> hwp (fun _ w' => all_done w') (a <-- word_address C me i;; m_persist a v ;;; finish C n d st (S i))%mprog w).
  { intros w6 H6. apply hwp_bind. eapply h_word; [exact HP|exact HF|exact Ho|exact H6|]. intros w7 H7. apply hwp_bind. unfold m_persist. apply hwp_bind.
    apply (hwp_do_flush (done i) (done (S i))); [exact HP|apply stable_done|exact H7| |].
    - intros x x' Hx Hat. pose proof (HP x x' (R1_pre _ _ _ Hat) Hx) as Hx'. split; [apply Hx'|]. intros j o' Hj Ho'.
      destruct (decide (j = i)) as [->|Hn]; [|apply (proj2 Hx' j); [lia|exact Ho']]. rewrite Ho in Ho'. injection Ho' as <-.
      unfold dpre, flushes in Hat. rewrite N.eqb_refl in Hat. eapply AP_flush; [apply Hx|exact Hat].
    - intros x x' Hx Hat x'' Hr. quiets me me.
      assert (H' : done (S i) x'') by (eapply stable_R; [apply stable_done|exact Hr|]; eapply stable_done; [right; right; eexists; split; [apply (T2 (LArr o) v I)|exact Hat]|exact Hx]).
      eapply hwp_ret; [apply (stable_done (S i))|exact H'|]. intros y Hy. apply IH, Hy. }
  apply hwp_bind. destruct (_ =? N.lor _ PMwCASFlag).
  - apply hwp_bind. eapply h_word; [exact HP|exact HF|exact Ho|exact H5|]. intros w6 H6. apply hwp_bind. apply (h_CASArr (done i) HP Pnd d Hd); [exact Hs|exact H6|]. intros b' w7 H7.
    eapply hwp_ret; [exact HP|exact H7|]. intros w8 H8. cbn [snd negb]. apply Hrest, H8.
  - eapply hwp_ret; [exact HP|exact H5|]. intros w8 H8. cbn [negb]. apply Hrest, H8.
Qed.
Lemma h_pmwcas n d w : d_isKCAS d = true /\ d_isRDCSS d = false /\ d_tid d = me -> d_seq d < 2 ^ 61 -> nd q (fst w) -> F w ->
  hwp (fun r w' => r = true -> all_done w') (pmwcas C n me d None) w.
Proof.
  intros Hd Hs Hw HwF. destruct n as [|n]; [exact I|]. cbn [pmwcas]. quiets me me. rewrite !(proj2 (proj2 Hd)).
  set (P := fun w => nd q (fst w) /\ F w). assert (HP : stable P) by (apply stable_and; [exact stable_nd|exact stable_F]). assert (H0 : P w) by (split; assumption).
  assert (Pnd : forall w, P w -> nd q (fst w)) by (intros x Hx; apply Hx).
  apply hwp_bind. eapply hwp_thread; [exact HP|exact H0|]. intros w1 H1. apply hwp_bind. eapply hwp_ret; [exact HP|exact H1|]. intros w2 H2.
  apply hwp_bind. eapply (h_alls P HP); [apply (al_place C HC me (quiet me)) with (Q := fun st => st = Succeeded \/ st = Failed); auto; intros d' off R' Hd' HR'; apply al_pmwcas; auto|exact H2|].
  intros st w3 Hst H3. apply hwp_bind. eapply (h_alls P HP _ (fun _ => True)); [destruct (st =? Succeeded); [apply al_persist_words; auto|exact I]|exact H3|]. intros _ w4 _ H4. cbn zeta.
  apply hwp_bind. apply (h_CASK P HP Pnd d Hd st); [exact Hst|exact H4|]. intros r w5 H5 Hr.
  destruct (snd r) eqn:Er.
  2: { apply hwp_bind. eapply (h_alls P HP _ (fun _ => True)); [apply al_persist; auto; exact I|exact H5|]. intros _ w6 _ H6. cbn [negb]. eapply hwp_ret; [exact HP|exact H6|]. intros w7 _. discriminate. }
  destruct (Hr eq_refl) as [Hsq Hdec].
  set (P1 := fun w => dec q (fst w) /\ F w). assert (HP1 : stable P1) by (apply stable_and; [exact stable_dec|exact stable_F]).
  set (P' := fun w => decs (fst w) /\ F w). assert (HP' : stable P') by (apply stable_and; [exact stable_decs|exact stable_F]).
  apply hwp_bind. unfold m_persist. apply hwp_bind. set (v := kmut_encode _).
  apply (hwp_do_flush P1 P'); [exact HP1|exact HP'|split; [exact Hdec|apply H5]| |].
  { intros x x' Hx Hat. pose proof (HP1 x x' (R1_pre _ _ _ Hat) Hx) as Hx'. split; [|apply Hx']. split; [apply Hx'|]. destruct Hat as (E & _). rewrite E. unfold dpre, flushes. rewrite N.eqb_refl. apply flush_survives. }
  intros x x' Hx Hat x'' Hr'.
  assert (H6' : P' x'') by (eapply stable_R; [exact HP'|exact Hr'|]; eapply HP'; [right; right; eexists; split; [apply (T2 (LK me) v I)|exact Hat]|exact Hx]).
  eapply hwp_ret; [exact HP'|exact H6'|]. intros w6 H6. cbn [negb].
  apply hwp_bind. eapply hwp_mono; [apply h_finish; [exact Hd|exact Hsq|split; [exact H6|intros j o Hj; lia]]|]. intros u w7 H7.
  eapply hwp_ret; [exact stable_all_done|exact H7|]. auto.
Qed.
End Conc.

(** ** The descriptor is filled *)

Lemma hwp_store me (P P' : world -> Prop) l v (Q : unit -> world -> Prop) w : stable me P -> stable me P' -> P w ->
  (forall w w', P w -> ds_mem (fst w') = upd (ds_mem (fst w)) l v -> P' w') -> (forall w', P' w' -> Q tt w') -> hwp me Q (mdo (MStore l v)) w.
Proof.
  intros HP HP' Hw H HQ. apply (hwp_do me P); [exact HP|exact Hw|]. intros w1 w2 H1 (E & _) w3 H3. apply HQ. eapply stable_R; [exact HP'|exact H3|].
  eapply H; [exact H1|]. rewrite E, dexec_mem. reflexivity.
Qed.
Definition part (me : N) (offs : list N) (k : nat) (w : world) : Prop :=
  ds_mem (fst w) (LKCount me) = N.of_nat (length offs) /\ forall i o, (i < k)%nat -> offs !! i = Some o -> ds_mem (fst w) (LKWord me i WOff) = o.
Lemma stable_part me offs k : stable me (part me offs k).
Proof.
  intros w w' Hr [H1 H2]. split.
  - exact (stable_cell me (LKCount me) (fun v => v = N.of_nat (length offs)) eq_refl w w' Hr H1).
  - intros i o Hk Hi. exact (stable_cell me (LKWord me i WOff) (fun v => v = o) eq_refl w w' Hr (H2 i o Hk Hi)).
Qed.
Lemma h_store_words me offs l : forall i (Q : unit -> world -> Prop) w, (forall j x, l !! j = Some x -> offs !! (i + j)%nat = Some (o_off x)) -> part me offs i w ->
  (forall w', part me offs (i + length l) w' -> Q tt w') -> hwp me Q (store_words me i l) w.
Proof.
  induction l as [|x l IH]; intros i Q w Hl Hw H.
  - eapply hwp_ret; [apply (stable_part me offs i)|exact Hw|]. intros w' Hw'. apply H. rewrite Nat.add_0_r. exact Hw'.
  - cbn [store_words]. assert (Hi : offs !! i = Some (o_off x)) by (rewrite <- (Nat.add_0_r i); apply Hl; reflexivity).
    apply hwp_bind. apply (hwp_store me (part me offs i) (part me offs (S i))); [apply stable_part|apply stable_part|exact Hw| |].
    { intros w1 w2 [H1 H2] E. split; [rewrite E, upd_other by discriminate; exact H1|]. intros j o Hj Ho. rewrite E. destruct (decide (j = i)) as [->|Hn].
      - rewrite upd_same. rewrite Hi in Ho. injection Ho as <-. reflexivity.
      - rewrite upd_other by congruence. apply H2; [lia|exact Ho]. }
    intros w1 H1. clear w Hw. apply hwp_bind. apply (hwp_store me (part me offs (S i)) (part me offs (S i))); [apply stable_part|apply stable_part|exact H1| |].
    { intros w w2 [Ha Hb] E. split; [rewrite E, upd_other by discriminate; exact Ha|]. intros j o Hj Ho. rewrite E, upd_other by discriminate. apply Hb; assumption. }
    intros w2 H2. apply hwp_bind. apply (hwp_store me (part me offs (S i)) (part me offs (S i))); [apply stable_part|apply stable_part|exact H2| |].
    { intros w w3 [Ha Hb] E. split; [rewrite E, upd_other by discriminate; exact Ha|]. intros j o Hj Ho. rewrite E, upd_other by discriminate. apply Hb; assumption. }
    intros w3 H3. apply IH; [|exact H3|].
    + intros j y Hy. replace (S i + j)%nat with (i + S j)%nat by lia. apply Hl. exact Hy.
    + intros w' Hw'. apply H. cbn [length]. replace (i + S (length l))%nat with (S i + length l)%nat by lia. exact Hw'.
Qed.
Lemma h_createK C me ws w : hwp me (fun d w' => exists q, q < 2 ^ 61 /\ d = kdesc (q mod 2 ^ seqSize (2 ^ m_log C)) me /\ nd me q (fst w') /\ F me (map o_off (sort_words ws)) w') (createK C me ws) w.
Proof.
  pose proof (stable_true me) as HT. quiets me me. set (offs := map o_off (sort_words ws)). unfold createK.
  apply hwp_bind. eapply hwp_assert; [exact HT|exact I|]. intros w1 _. apply hwp_bind. eapply hwp_assert; [exact HT|exact I|]. intros w2 _. apply hwp_bind. eapply hwp_thread; [exact HT|exact I|]. intros w3 _.
  apply hwp_bind. eapply (h_alls me _ HT _ (fun _ => True)); [apply al_read; auto; exact I|exact I|]. intros v w4 _ _. cbn zeta. set (s1 := (_ + 1) mod 2 ^ 61).
  apply hwp_bind. eapply hwp_store; [exact HT|exact HT|exact I|auto|]. intros w5 _. apply hwp_bind. eapply (h_alls me _ HT _ (fun _ => True)); [apply al_persist; auto; exact I|exact I|]. intros _ w6 _ _.
  apply hwp_bind. eapply hwp_assert; [exact HT|exact I|]. intros w7 _.
  apply hwp_bind. eapply (hwp_store me _ (part me offs 0)); [exact HT|apply stable_part|exact I| |].
  { intros x x' _ E. split; [rewrite E, upd_same; unfold offs; rewrite map_length, sort_words_length; reflexivity|intros i o Hi; lia]. }
  intros w8 H8. apply hwp_bind. apply (h_store_words me offs); [|exact H8|].
  { intros j x Hj. cbn [Nat.add]. unfold offs. change (map o_off (sort_words ws)) with (o_off <$> sort_words ws). rewrite list_lookup_fmap, Hj. reflexivity. }
  intros w9 H9. cbn [Nat.add] in H9.
  assert (HF : F me offs w9) by (destruct H9 as [Ha Hb]; split; [exact Ha|]; intros i o Ho; apply Hb; [|exact Ho]; apply lookup_lt_Some in Ho; unfold offs in Ho; rewrite map_length in Ho; exact Ho).
  clear H9. pose proof (stable_F me offs) as HSF. apply hwp_bind. apply (hwp_load me (F me offs)); [exact HSF|exact HF|]. intros x w10 _ _ H10.
  apply hwp_bind. eapply hwp_assert; [exact HSF|exact H10|]. intros w11 H11. set (q := (s1 + 1) mod 2 ^ 61). assert (Hq : q < 2 ^ 61) by (apply N.mod_lt; discriminate). clearbody q.
  destruct (kenc_facts Undecided q und_lt Hq) as (_ & E1 & E2).
  (* the state is not flushed yet *)
  set (P := fun w => F me offs w /\ (ds_mem (fst w) (LK me) = dirty (kenc Undecided q) \/ nd me q (fst w))).
  assert (HP : stable me P).
  { intros a b Hr [Ha Hb]. split; [exact (HSF a b Hr Ha)|]. destruct Hb as [Hb|Hb]; [|right; exact (stable_nd me q Hq a b Hr Hb)].
    destruct Hr as [(E & _)|[(l & E & _)|(c & Hc & E & _)]]; rewrite E; [left; exact Hb|left; exact Hb|]. destruct c as [l|l z|l e z].
    - left. exact Hb.
    - left. rewrite dexec_mem, mexec_elsewhere; [exact Hb|apply Hc].
    - unfold nd. rewrite dexec_mem. cbn [mexec]. destruct (N.eqb_spec (ds_mem (fst a) l) e) as [El|El]; cbn [snd]; [|left; exact Hb].
      destruct (decide (l = LK me)) as [->|Hn]; [|left; rewrite upd_other by congruence; exact Hb]. rewrite upd_same. destruct Hc as [_ Hc].
      destruct (Hc eq_refl) as [->|(q' & st' & Hq' & _ & -> & _)]; [right; left; rewrite <- El, Hb, clean_dirty; exact E1|].
      exfalso. destruct (kenc_facts Undecided q' und_lt Hq') as (_ & F1 & _). assert (Hm : isMarked (kenc Undecided q') DirtyFlag = true) by (rewrite <- El, Hb; apply isMarked_dirty_dirty).
      rewrite <- F1 in Hm. pose proof (clean_isclean (kenc Undecided q')) as Hm'. unfold isclean in Hm'. congruence. }
  apply hwp_bind. eapply (hwp_store me (F me offs) P); [exact HSF|exact HP|exact H11| |].
  { intros a b [Ha Hb] E. split; [|left; rewrite E, upd_same; exact E2]. split; [rewrite E, upd_other by discriminate; exact Ha|]. intros i o Ho. rewrite E, upd_other by discriminate. apply Hb, Ho. }
  intros w12 H12. apply hwp_bind. unfold m_persist. apply hwp_bind. apply (hwp_do me P); [exact HP|exact H12|]. intros a b [Ha Hb] Hat c Hr. rewrite E2, clean_dirty, E1 in *.
  set (P' := fun w => nd me q (fst w) /\ F me offs w). assert (HP' : stable me P') by (apply stable_and; [exact (stable_nd me q Hq)|exact HSF]).
  assert (Hc : quiet me (MCas (LK me) (dirty (kenc Undecided q)) (kenc Undecided q))) by (rewrite <- E1 at 2; rewrite <- clean_dirty; apply T2; exact I).
  assert (H' : P' c).
  { eapply stable_R; [exact HP'|exact Hr|]. split; [|eapply HSF; [right; right; eexists; split; [exact Hc|exact Hat]|exact Ha]]. destruct Hat as (E & _). rewrite E.
    destruct Hb as [Hb|Hb]; [|apply cas_nd; assumption]. left. rewrite dexec_mem. cbn [mexec]. rewrite Hb, N.eqb_refl. cbn [snd]. apply upd_same. }
  eapply hwp_ret; [exact HP'|exact H'|]. intros w13 H13. eapply hwp_ret; [exact HP'|exact H13|]. intros w14 [H14 H14']. exists q. auto.
Qed.
Definition outcome (me : N) (ws : list mword) (w : world) : Prop := exists q, q < 2 ^ 61 /\ decs me q (fst w) /\ forall x, In x ws -> AP me q (o_off x) w.
Lemma h_PMwCAS C n me ws w : mcfg_ok C -> hwp me (fun r w' => r = true -> outcome me ws w') (PMwCAS C n me ws) w.
Proof.
  intros HC. unfold PMwCAS. apply hwp_bind. eapply hwp_assert; [apply stable_true|exact I|]. intros w1 _. apply hwp_bind. eapply hwp_mono; [apply h_createK|]. intros d w2 (q & Hq & -> & H2 & H2').
  eapply hwp_mono; [eapply (h_pmwcas me q Hq C HC (map o_off (sort_words ws)) n); [repeat split| |exact H2|exact H2']|].
  - cbn [d_seq kdesc]. apply (seq_61 _ _ HC), N.mod_lt, N.pow_nonzero. discriminate.
  - intros r w' H Hr. destruct (H Hr) as [Ha Hb]. exists q. split; [exact Hq|]. split; [exact Ha|]. intros x Hx. apply Hb, in_map. eapply Permutation_in; [symmetry; apply sort_words_perm|exact Hx].
Qed.
Lemma stable_outcome me ws : stable me (outcome me ws).
Proof.
  intros w w' Hr (q & Hq & H1 & H2). exists q. split; [exact Hq|]. split; [exact (stable_decs me q Hq w w' Hr H1)|]. intros x Hx. exact (stable_AP me q Hq _ w w' Hr (H2 x Hx)).
Qed.
Definition post (me : N) (o : mop) (r : mrsp) (w : world) : Prop := match o, r with MwCas ws, MBool true => outcome me ws w | _, _ => True end.
Lemma h_mop C n me o w : mcfg_ok C -> hwp me (post me o) (mop_prog C n me o) w.
Proof.
  intros HC. destruct o as [ws|i|i old new].
  2, 3: eapply hwp_mono; [apply hwp_any|]; intros; exact I.
  cbn [mop_prog]. apply hwp_bind. eapply hwp_mono; [apply h_PMwCAS, HC|]. intros r w1 H1. eapply hwp_ret; [|exact H1|].
  - intros a b Hr H Er. exact (stable_outcome me ws a b Hr (H Er)).
  - intros w2 H2. destruct r; [apply H2; reflexivity|exact I].
Qed.

(** ** All executions *)

Definition thr_inv (i : nat) (fl : bool) (th : mthread) (w : world) : Prop :=
  match mt_cur th with
  | None => fl = false
  | Some (o, p) =>
      (forall j, j <> i -> alls (quiet (N.of_nat j)) p (fun _ => True)) /\
      if fl then match p with MVis c k => hmid (N.of_nat i) (hwp (N.of_nat i) (post (N.of_nat i) o)) c k w | _ => False end
      else hwp (N.of_nat i) (post (N.of_nat i) o) p w
  end.
Definition sys_inv (seen : dst -> Prop) (y : dsys) : Prop :=
  seen (dy_st y) /\ forall i th, dy_thr y !! i = Some th -> thr_inv i (dy_fl y i) th (dy_st y, seen).
Lemma thr_inv_R i fl th w w' : R1 (N.of_nat i) w w' -> thr_inv i fl th w -> thr_inv i fl th w'.
Proof.
  intros Hr. unfold thr_inv. destruct (mt_cur th) as [[o p]|]; [|auto]. intros [H1 H2]. split; [exact H1|]. pose proof (rtc_once _ _ Hr) as HR. destruct fl.
  - destruct p as [a|e|c k]; [contradiction|contradiction|]. eapply hmid_R; eassumption.
  - eapply hwp_R; eassumption.
Qed.
Lemma at_pair s (S S' : dst -> Prop) s' : (forall x, S x -> S' x) -> S' s' -> at_ (s, S) s' (s', S').
Proof. intros H1 H2. split; [reflexivity|]. split; assumption. Qed.
Lemma sys_inv_step C n i y (seen seen' : dst -> Prop) : mcfg_ok C -> sys_inv seen y -> (forall s, seen s -> seen' s) -> seen' (dy_st (dtstep C n true i y)) -> sys_inv seen' (dtstep C n true i y).
Proof.
  intros HC [Hs Ht] Hsub. assert (Hidle : forall j, R1 (N.of_nat j) (dy_st y, seen) (dy_st y, seen')) by (intros j; left; apply at_pair; auto).
  assert (Hsame : sys_inv seen' y) by (split; [auto|]; intros j th Hj; eapply thr_inv_R; [apply Hidle|]; apply Ht, Hj).
  (* the new state of the threads *)
  assert (Hput : forall s' th' fl' h, seen' s' -> (forall j, j <> i -> R1 (N.of_nat j) (dy_st y, seen) (s', seen')) -> thr_inv i fl' th' (s', seen') ->
    sys_inv seen' (mkDsys s' (<[i := th']> (dy_thr y)) (fun j => if Nat.eqb j i then fl' else dy_fl y j) h)).
  { intros s' th' fl' h Hs' Hr Hi. split; [exact Hs'|]. cbn [dy_thr dy_fl dy_st]. intros j th Hj. apply list_lookup_insert_Some in Hj as [(<- & <- & _)|[Hn Hj]].
    - rewrite Nat.eqb_refl. exact Hi.
    - rewrite (proj2 (Nat.eqb_neq j i)) by congruence. eapply thr_inv_R; [apply Hr; congruence|]. apply Ht, Hj. }
  assert (Hput' : forall th' h, thr_inv i (dy_fl y i) th' (dy_st y, seen') -> sys_inv seen' (mkDsys (dy_st y) (<[i := th']> (dy_thr y)) (dy_fl y) h)).
  { intros th' h Hi. split; [auto|]. cbn [dy_thr dy_fl dy_st]. intros j th Hj. apply list_lookup_insert_Some in Hj as [(<- & <- & _)|[Hn Hj]]; [exact Hi|].
    eapply thr_inv_R; [apply Hidle|]. apply Ht, Hj. }
  unfold dtstep. destruct (dy_thr y !! i) as [th|] eqn:Ei; [|auto]. pose proof (Ht i th Ei) as Hth. unfold thr_inv in Hth. destruct (mt_cur th) as [[o [r|e|c k]]|] eqn:Ec.
  - intros _. apply Hput'. unfold thr_inv. cbn [mt_cur]. destruct (dy_fl y i); [destruct Hth as [_ []]|reflexivity].
  - auto.
  - cbn [negb]. cbn zeta. destruct Hth as [Hq Hth].
    assert (Hrun : hmid (N.of_nat i) (hwp (N.of_nat i) (post (N.of_nat i) o)) c k (dy_st y, seen) -> let (r, s') := dexec c (dy_st y) in seen' s' ->
      sys_inv seen' (mkDsys s' (<[i := mkMthread (Some (o, k r)) (mt_todo th)]> (dy_thr y)) (fun j => if Nat.eqb j i then false else dy_fl y j) (dy_hist y))).
    { intros Hm. specialize (Hm _ (rtc_refl _ _) (snd (dexec c (dy_st y)), seen')). cbn [fst snd] in Hm.
      assert (Hr : forall j, j <> i -> seen' (snd (dexec c (dy_st y))) -> R1 (N.of_nat j) (dy_st y, seen) (snd (dexec c (dy_st y)), seen')).
      { intros j Hj Hs'. right. right. exists c. split; [apply (Hq j Hj)|]. apply at_pair; auto. }
      destruct (dexec c (dy_st y)) as [r s']. cbn [fst snd] in *. intros Hs'. apply Hput; [exact Hs'|intros j Hj; apply Hr; assumption|].
      unfold thr_inv. cbn [mt_cur]. split; [intros j Hj; apply (Hq j Hj)|]. apply Hm. apply at_pair; auto. }
    assert (Hnow : flushes c = None -> hwp (N.of_nat i) (post (N.of_nat i) o) (MVis c k) (dy_st y, seen) -> hmid (N.of_nat i) (hwp (N.of_nat i) (post (N.of_nat i) o)) c k (dy_st y, seen)).
    { intros Hf H. cbn [hwp] in H. intros w3 H3. apply (H _ (rtc_refl _ _) (dy_st y, seen)); [|exact H3]. unfold dpre. rewrite Hf. apply at_pair; auto. }
    destruct (dy_fl y i) eqn:Ef.
    + specialize (Hrun Hth). destruct (dexec c (dy_st y)) as [r s']. exact Hrun.
    + destruct (flushes c) as [l|] eqn:El.
      * intros Hs'. cbn [dy_st] in Hs'. split; [exact Hs'|]. cbn [dy_thr dy_fl dy_st]. intros j th' Hj. destruct (Nat.eqb_spec j i) as [->|Hn].
        -- rewrite Ei in Hj. injection Hj as <-. unfold thr_inv. rewrite Ec. split; [exact Hq|]. cbn [hwp] in Hth. intros w3 H3. apply (Hth _ (rtc_refl _ _) (dflush l (dy_st y), seen')); [|exact H3].
           unfold dpre. rewrite El. apply at_pair; auto.
        -- eapply thr_inv_R; [|apply Ht, Hj]. right. left. exists l. apply at_pair; auto.
      * specialize (Hrun (Hnow eq_refl Hth)). destruct (dexec c (dy_st y)) as [r s']. exact Hrun.
  - destruct (mt_todo th) as [|o os]; [auto|]. intros _. apply Hput'. rewrite Hth. unfold thr_inv. cbn [mt_cur]. split; [|apply h_mop, HC].
    intros j Hj. apply quiet_mop; [exact HC|]. intros E. apply Hj. apply Nnat.Nat2N.inj, E.
Qed.
Lemma dconc_snoc C n split l i y : dconc C n split (l ++ [i]) y = dtstep C n split i (dconc C n split l y).
Proof. revert y. induction l as [|j l IH]; intros y; cbn [app dconc]; [reflexivity|]. apply IH. Qed.
Lemma sys_inv_after C n m todos sched : mcfg_ok C ->
  sys_inv (fun s => exists k, s = dy_st (dafter C n true m todos (take k sched))) (dafter C n true m todos sched).
Proof.
  intros HC. induction sched as [|i l IH] using rev_ind.
  - split; [exists 0%nat; reflexivity|]. intros j th Hj. apply list_lookup_fmap_Some in Hj as (os & H1 & H2). subst th. reflexivity.
  - unfold dafter at 2. rewrite dconc_snoc. eapply sys_inv_step; [exact HC|exact IH| |].
    + intros s [k ->]. exists (min k (length l)). f_equal. f_equal. rewrite take_app_le by lia. destruct (Nat.le_gt_cases k (length l)); [rewrite Nat.min_l by lia; reflexivity|]. rewrite Nat.min_r by lia. rewrite !take_ge by lia. reflexivity.
    + exists (length (l ++ [i])). rewrite take_ge by lia. unfold dafter. rewrite dconc_snoc. reflexivity.
Qed.
Lemma kword_clean w st q : st < 4 -> q < 2 ^ 61 -> clean w = kenc st q -> km_seq (kmut_decode w) = q /\ km_status (kmut_decode w) = st.
Proof.
  intros Hst Hq E. destruct (kenc_facts st q Hst Hq) as (D & _ & F1). destruct (clean_or_dirty _ _ E) as [-> | ->]; [rewrite D; auto|].
  rewrite <- F1. destruct (kmut_roundtrip (mkKmut true st q)) as (H1 & _); [exact Hq|exact Hst|]. rewrite H1. auto.
Qed.
Lemma dec_word me q s : q < 2 ^ 61 -> dec me q s -> kseq (ds_mem s) me = q /\ kstat (ds_mem s) me <> Undecided.
Proof.
  intros Hq (st & Hst & E). destruct (kword_clean _ _ _ (lt4 _ Hst) Hq E) as [H1 H2]. split; [exact H1|]. unfold kstat. rewrite H2. destruct Hst as [-> | ->]; discriminate.
Qed.
Lemma decided_survives C n m todos sched : mcfg_ok C -> let y := dafter C n true m todos sched in
  forall i ws os, dy_thr y !! i = Some (mkMthread (Some (MwCas ws, MRet (MBool true))) os) ->
  forall x v, In x ws -> v ∈ ds_per (dy_st y) (LArr (o_off x)) ->
  exists k, let z := ds_mem (dy_st (dafter C n true m todos (take k sched))) in
    z (LArr (o_off x)) = v /\ kseq z (N.of_nat i) = kseq (ds_mem (dy_st y)) (N.of_nat i) /\ kstat z (N.of_nat i) <> Undecided.
Proof.
  intros HC y i ws os Hi x v Hx Hv. destruct (sys_inv_after C n m todos sched HC) as [_ Ht]. fold y in Ht. specialize (Ht i _ Hi). unfold thr_inv in Ht. cbn [mt_cur] in Ht.
  destruct Ht as [_ Ht]. destruct (dy_fl y i); [contradiction|]. cbn [hwp] in Ht. destruct (Ht _ (rtc_refl _ _)) as (q & Hq & Hd & Ha).
  destruct (Ha x Hx) as [_ Hp]. destruct (Hp v Hv) as (s & [k ->] & E & Hs). exists k. cbn zeta. split; [exact E|].
  destruct (dec_word _ _ _ Hq (proj1 Hd)) as [E1 _]. destruct (dec_word _ _ _ Hq Hs) as [E2 E3]. cbn [fst] in E1. rewrite E1. auto.
Qed.
Lemma decision_survives C n m todos sched : mcfg_ok C -> let y := dafter C n true m todos sched in
  forall i ws os, dy_thr y !! i = Some (mkMthread (Some (MwCas ws, MRet (MBool true))) os) ->
  kstat (ds_mem (dy_st y)) (N.of_nat i) <> Undecided /\ survives (dy_st y) (LK (N.of_nat i)).
Proof.
  intros HC y i ws os Hi. destruct (sys_inv_after C n m todos sched HC) as [_ Ht]. fold y in Ht. specialize (Ht i _ Hi). unfold thr_inv in Ht. cbn [mt_cur] in Ht.
  destruct Ht as [_ Ht]. destruct (dy_fl y i); [contradiction|]. cbn [hwp] in Ht. destruct (Ht _ (rtc_refl _ _)) as (q & Hq & [Hd Hs] & _).
  destruct (dec_word _ _ _ Hq Hd) as [_ E]. split; [exact E|exact Hs].
Qed.
(** From then on. *)
Lemma per_flush x s l v : v ∈ ds_per (dflush x s) l -> v ∈ ds_per s l \/ v = ds_mem s l.
Proof. cbn. destruct (decide _) as [->|]; [|auto]. rewrite elem_of_list_singleton. auto. Qed.
Lemma per_exec c s l v : v ∈ ds_per (snd (dexec c s)) l -> v ∈ ds_per s l \/ v = ds_mem (snd (dexec c s)) l.
Proof. rewrite dexec_per. destruct (_ =? _); [auto|]. rewrite elem_of_cons. intros [H|H]; auto. Qed.
Lemma per_step C n i y l v : v ∈ ds_per (dy_st (dtstep C n true i y)) l -> v ∈ ds_per (dy_st y) l \/ v = ds_mem (dy_st (dtstep C n true i y)) l.
Proof.
  unfold dtstep. destruct (dy_thr y !! i) as [th|]; [|auto]. destruct (mt_cur th) as [[o [r|e|c k]]|]; [auto|auto| |destruct (mt_todo th); auto].
  cbn [negb]. cbn zeta. pose proof (per_exec c (dy_st y) l v) as Hex.
  destruct (dy_fl y i); [|destruct (flushes c) as [x|]; [exact (per_flush x (dy_st y) l v)|]]; destruct (dexec c (dy_st y)) as [r s']; exact Hex.
Qed.
Lemma decided_forever C n m todos sched : mcfg_ok C -> let y := dafter C n true m todos sched in
  forall i ws os, dy_thr y !! i = Some (mkMthread (Some (MwCas ws, MRet (MBool true))) os) ->
  forall more x v, In x ws -> v ∈ ds_per (dy_st (dafter C n true m todos (sched ++ more))) (LArr (o_off x)) ->
  exists k, let z := ds_mem (dy_st (dafter C n true m todos (take k (sched ++ more)))) in z (LArr (o_off x)) = v /\
    ((length sched <= k)%nat \/ kseq z (N.of_nat i) = kseq (ds_mem (dy_st y)) (N.of_nat i) /\ kstat z (N.of_nat i) <> Undecided).
Proof.
  intros HC y i ws os Hi more x v Hx. induction more as [|j more IH] using rev_ind; intros Hv.
  - rewrite app_nil_r in *. destruct (decided_survives C n m todos sched HC i ws os Hi x v Hx Hv) as (k & H1 & H2). exists k. auto.
  - rewrite app_assoc in *. unfold dafter in Hv. rewrite dconc_snoc in Hv. apply per_step in Hv as [Hv|Hv].
    + destruct (IH Hv) as (k & H1 & H2). set (l := sched ++ more) in *.
      assert (E : take (min k (length l)) (l ++ [j]) = take k l).
      { rewrite take_app_le by lia. destruct (Nat.le_gt_cases k (length l)); [rewrite Nat.min_l by lia; reflexivity|]. rewrite Nat.min_r by lia. rewrite !take_ge by lia. reflexivity. }
      exists (min k (length l)). cbn zeta. rewrite E. split; [exact H1|]. destruct H2 as [H2|H2]; [left|right; exact H2]. unfold l. rewrite app_length. lia.
    + exists (length ((sched ++ more) ++ [j])). cbn zeta. rewrite take_ge by lia. unfold dafter at 1. rewrite dconc_snoc. split; [symmetry; exact Hv|]. left. rewrite !app_length. lia.
Qed.
