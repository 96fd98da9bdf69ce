(** Every function of the map keeps [good] (Durable.v) after every single command, run alone. *)
From Coq Require Import NArith Bool List Lia Arith.
From stdpp Require Import base list.
From Verif Require Import Word Bits Prog HashMap Spec ConcSpec ConcInv ConcMap Probe SeqCopy Durable.
Import ListNotations.
Open Scope nat_scope.
Open Scope prog_scope.

(** ** Facts that stay true *)

Definition Tab (t : nat) (s : state) : Prop := exists T, st_tabs s !! t = Some T.
Definition InRg (t i : nat) (s : state) : Prop := exists T, st_tabs s !! t = Some T /\ i < t_len T.
Definition HasNew (t : nat) (s : state) : Prop := exists T, st_tabs s !! t = Some T /\ t_new T <> None.
(** The word in a cell right now. *)
Definition Cell (t i : nat) (c : cell) (w : N) (s : state) : Prop :=
  exists T p, st_tabs s !! t = Some T /\ t_pairs T !! i = Some p /\ get_cell c p = w.
(** A key that is in its entry for good. *)
Definition KeyC (t i : nat) (k : N) (s : state) : Prop := k <> KINITIAL /\ isclean k /\ Cell t i CKey k s.

Lemma Tab_ext t s s' : ext s s' -> Tab t s -> Tab t s'.
Proof. intros (_ & H) (T & HT). destruct (H t T HT) as (T' & HT' & _). exists T'. exact HT'. Qed.
Lemma InRg_ext t i s s' : ext s s' -> InRg t i s -> InRg t i s'.
Proof. intros (_ & H) (T & HT & Hi). destruct (H t T HT) as (T' & HT' & (E & _)). exists T'. rewrite E. auto. Qed.
Lemma HasNew_ext t s s' : ext s s' -> HasNew t s -> HasNew t s'.
Proof.
  intros (_ & H) (T & HT & Hn). destruct (H t T HT) as (T' & HT' & (_ & _ & _ & E & _)). exists T'. split; [exact HT'|].
  destruct (t_new T) as [x|]; [|contradiction]. rewrite (E x eq_refl). discriminate.
Qed.
Lemma KeyC_ext t i k s s' : ext s s' -> KeyC t i k s -> KeyC t i k s'.
Proof.
  intros (_ & H) (H1 & H2 & T & p & HT & Hp & E). destruct (H t T HT) as (T' & HT' & (_ & _ & _ & _ & HK)).
  destruct (HK i p Hp) as (p' & Hp' & Hk). split; [exact H1|]. split; [exact H2|]. exists T', p'. split; [exact HT'|]. split; [exact Hp'|].
  cbn [get_cell] in *. subst k. apply Hk; [|exact H2]. rewrite (clean_id _ H2). exact H1.
Qed.
Lemma HasNew_Tab t s : HasNew t s -> Tab t s.
Proof. intros (T & HT & _). exists T. exact HT. Qed.
Lemma InRg_Tab t i s : InRg t i s -> Tab t s.
Proof. intros (T & HT & _). exists T. exact HT. Qed.
Lemma KeyC_Tab t i k s : KeyC t i k s -> Tab t s.
Proof. intros (_ & _ & T & _ & HT & _). exists T. exact HT. Qed.

Lemma passed_ext C k d T T' : text T T' -> passed C T k d -> passed C T' k d.
Proof.
  intros (E & _ & _ & _ & HK) H d' Hd. destruct (H d' Hd) as (q & Hq & H1 & H2 & H3). rewrite E.
  destruct (HK _ q Hq) as (q' & Hq' & Hk). exists q'. split; [exact Hq'|].
  assert (fst q' = fst q) as ->; [|auto]. apply Hk; [|exact H1]. rewrite (clean_id _ H1). exact H2.
Qed.

(** Chains of [ext]. *)
Ltac ex :=
  match goal with
  | |- ext ?a ?a => apply ext_refl
  | H : ext ?a ?b |- ext ?a ?b => exact H
  | H : ext ?a ?x |- ext ?a ?b => apply (ext_trans a x b H); ex
  end.

Section Map.
Context (C : cfg) (F : Prop).
Notation good := (good C F).
Notation sf p Q s := (sf C F p Q s).
Notation any := (fun _ _ => True).

Lemma sf_ret {A} (a : A) (Q : A -> state -> Prop) s : Q a s -> sf (Ret a) Q s.
Proof. exact (fun H => H). Qed.

Lemma sf_assert b (Q : unit -> state -> Prop) s : Q tt s -> sf (assert_ C b) Q s.
Proof. intros H. unfold assert_. destruct (_ || _); [exact H|exact I]. Qed.

Lemma sf_bounds t i s : good s -> sf (bounds C t i) (fun _ s' => InRg t i s') s.
Proof.
  intros Hg. unfold bounds, do; cbn [bind]. apply sf_read; [exact Hg|reflexivity|]. cbn [exec fst].
  destruct (st_tabs s !! t) as [T|] eqn:HT; [|exact I]. destruct (i <? t_len T)%nat eqn:Hi; [|exact I].
  apply Nat.ltb_lt in Hi. exists T. auto.
Qed.

(** ** Words *)

Lemma read_cell_eq s t i c T p : st_tabs s !! t = Some T -> t_pairs T !! i = Some p -> read_cell s t i c = get_cell c p.
Proof. intros HT Hp. unfold read_cell. rewrite HT, Hp. reflexivity. Qed.

Lemma InRg_cell t i c s : good s -> InRg t i s -> exists T p, st_tabs s !! t = Some T /\ t_pairs T !! i = Some p /\ read_cell s t i c = get_cell c p.
Proof.
  intros (G1 & _) (T & HT & Hi). pose proof (d_len _ _ (G1 _ _ HT)) as HL. rewrite <- HL in Hi.
  apply lookup_lt_is_Some in Hi as (p & Hp). exists T, p. split; [exact HT|]. split; [exact Hp|]. exact (read_cell_eq _ _ _ _ _ _ HT Hp).
Qed.

Lemma with_lookup s t f T : st_tabs s !! t = Some T -> st_tabs (with_tab t f s) !! t = Some (f T).
Proof. intros H. cbn. rewrite list_lookup_alter, H. reflexivity. Qed.

Lemma write_lookup_same T i c n p : t_pairs T !! i = Some p -> t_pairs (write_cell i c n T) !! i = Some (set_cell c n p).
Proof. intros H. cbn. rewrite list_lookup_alter, H. reflexivity. Qed.

Lemma sf_pcas_read t i c s : good s -> InRg t i s -> sf (pcas_read t i c) (fun r s' => isclean r /\ Cell t i c r s' /\ InRg t i s') s.
Proof.
  intros Hg Hin. destruct (InRg_cell t i c s Hg Hin) as (T & p & HT & Hp & Hr). unfold pcas_read, do; cbn [bind].
  apply sf_read; [exact Hg|reflexivity|]. change (fst (exec (Load t i c) s)) with (read_cell s t i c). rewrite Hr.
  destruct (isMarked (get_cell c p) DirtyFlag) eqn:HD.
  2: { cbn [bind]. apply sf_ret. split; [apply clean_isclean|]. split; [|exact Hin]. exists T, p. split; [exact HT|]. split; [exact Hp|]. symmetry. apply clean_id. exact HD. }
  unfold persist, do; cbn [bind].
  apply sf_read; [exact Hg|reflexivity|]. cbn [exec fst]. rewrite HT.
  apply sf_cmd; [cbn [exec snd]; apply good_fence; [exact Hg|]; intros T0 HT0; rewrite HT in HT0; injection HT0 as <-; lia|].
  cbn [exec snd fst]. set (s1 := with_tab t _ s). intros Hg1 He1.
  assert (HT1 : exists T1, st_tabs s1 !! t = Some T1 /\ t_pairs T1 = t_pairs T /\ t_past T1 = t_past T /\
    t_pers T1 = alter (Nat.max (length (t_past T))) (line_of s i) (t_pers T) /\ t_new T1 = t_new T).
  { eexists. split; [unfold s1; cbn; rewrite list_lookup_alter, HT; reflexivity|]. auto. }
  destruct HT1 as (T1 & HT1 & E1 & E2 & E3 & E4). assert (Hp1 : t_pairs T1 !! i = Some p) by (rewrite E1; exact Hp).
  pose proof (read_cell_eq s1 t i c T1 p HT1 Hp1) as Hr1.
  assert (Ex : exec (Cas t i c (get_cell c p) (clean (get_cell c p))) s1 = ((true, get_cell c p), with_tab t (write_cell i c (clean (get_cell c p))) s1)).
  { cbn [exec]. rewrite Hr1, N.eqb_refl. reflexivity. }
  assert (HB : forall T' b, st_tabs s1 !! t = Some T' -> t_pers T' !! (i / st_ppl s1) = Some b -> b = length (t_past T')).
  { intros T' b HT' Hb. rewrite HT1 in HT'. injection HT' as <-. rewrite E3 in Hb. change (i / st_ppl s1) with (line_of s i) in Hb.
    rewrite list_lookup_alter in Hb. destruct (t_pers T !! line_of s i) as [y|] eqn:Ey; [|discriminate]. injection Hb as <-. rewrite E2.
    destruct Hg as (G1 & _). pose proof (d_pers _ _ (G1 _ _ HT)) as HBo. rewrite Forall_lookup in HBo. specialize (HBo _ _ Ey). cbn beta in HBo. lia. }
  apply sf_cmd.
  - rewrite Ex. cbn [snd]. destruct c.
    + apply good_key_clean; [exact Hg1| |exact HB]. intros T' p' HT' Hp'. rewrite HT1 in HT'. injection HT' as <-. rewrite Hp1 in Hp'. injection Hp' as <-. reflexivity.
    + apply good_val; [exact Hg1| |].
      * intros HF -> T' HT'. rewrite isMarked_clean_mig. destruct (isMarked (get_cell CVal p) MIG) eqn:HM; [|auto]. right. intros Hn.
        destruct Hg1 as (_ & _ & G3 & _). destruct (G3 HF T' HT') as (_ & HU). rewrite HT1 in HT'. injection HT' as <-.
        destruct (HU Hn i p Hp1) as (HU' & _). cbn [get_cell] in HM. congruence.
      * intros T' p' b HT' Hp' Hb. left. split; [|exact (HB T' b HT' Hb)]. rewrite HT1 in HT'. injection HT' as <-.
        rewrite Hp1 in Hp'. injection Hp' as <-. apply clean_clean.
  - rewrite Ex. cbn [fst snd]. intros Hg2 He2. apply sf_ret. split; [apply clean_isclean|]. split.
    + eexists _, _. split; [apply with_lookup; exact HT1|]. split; [apply write_lookup_same; exact Hp1|]. apply get_set_same.
    + apply (InRg_ext t i s); [ex|exact Hin].
Qed.

(** The value word can be written. *)
Definition valOKF (t : nat) (v : N) (s : state) : Prop := F -> t = 0 -> isMarked v MIG = false \/ HasNew 0 s.
Lemma valOKF_ext t v s s' : ext s s' -> valOKF t v s -> valOKF t v s'.
Proof. intros HE H HF Ht. destruct (H HF Ht) as [H'|H']; [auto|]. right. exact (HasNew_ext _ _ _ HE H'). Qed.
Lemma valOKF_fine t v s : valOKF t v s -> valfine F s t (dirty v).
Proof.
  intros H HF -> T HT. rewrite isMarked_dirty_mig. destruct (H HF eq_refl) as [H'|(T' & HT' & H')]; [auto|]. right. congruence.
Qed.
Lemma valOKF_new t v s : HasNew t s -> valOKF t v s.
Proof. intros H HF ->. auto. Qed.
Lemma valOKF_un t v s : isMarked v MIG = false -> valOKF t v s.
Proof. intros H HF ->. auto. Qed.

(** The key can be claimed. *)
Definition keyOKF (t i : nat) (k : N) (s : state) : Prop := F -> t = 0 ->
  (k = KTOMBSTONE /\ HasNew 0 s) \/
  (isclean k /\ k <> KTOMBSTONE /\ exists T d, st_tabs s !! 0 = Some T /\ d < reprobeLimit (t_len T) /\
     i = pos (hash C k) (t_len T) d /\ passed C T k d).
Lemma keyOKF_ext t i k s s' : ext s s' -> keyOKF t i k s -> keyOKF t i k s'.
Proof.
  intros HE H HF Ht. destruct (H HF Ht) as [(H1 & H2)|(H1 & H2 & T & d & HT & E1 & E2 & E3)]; [left; split; [exact H1|exact (HasNew_ext _ _ _ HE H2)]|].
  right. split; [exact H1|]. split; [exact H2|]. destruct HE as (_ & HE). destruct (HE 0 T HT) as (T' & HT' & Hx).
  exists T', d. split; [exact HT'|]. destruct Hx as (El & Hx). rewrite El. split; [exact E1|]. split; [exact E2|].
  apply (passed_ext _ _ _ T); [split; assumption|exact E3].
Qed.
Lemma keyOKF_new t i k s : keyOKF t i k s -> newkey C F s t i k.
Proof.
  intros H HF -> T HT. destruct (H HF eq_refl) as [(H1 & T' & HT' & H2)|(H1 & H2 & T' & d & HT' & E)].
  - left. split; [exact H1|]. congruence.
  - right. split; [exact H1|]. split; [exact H2|]. rewrite HT in HT'. injection HT' as <-. exists d. exact E.
Qed.

Lemma sf_pcas_val t i o n s : good s -> InRg t i s -> valOKF t n s -> sf (pcas C t i CVal o n) any s.
Proof.
  intros Hg Hin Hv. unfold pcas. eapply sf_seq; [exact Hg|apply sf_pcas_read; assumption|]. intros r s1 Hg1 He1 (Hc & HC & Hin1).
  destruct HC as (T & p & HT & Hp & Hr). unfold do; cbn [bind]. pose proof (read_cell_eq s1 t i CVal T p HT Hp) as Hrd.
  apply sf_cmd.
  - cbn [exec]. destruct (_ =? _)%N; cbn [snd]; [|split; [exact Hg1|apply ext_refl]].
    apply good_val; [exact Hg1|apply valOKF_fine; exact (valOKF_ext _ _ _ _ He1 Hv)|]. intros T' p' b HT' Hp' Hb. right.
    rewrite HT in HT'. injection HT' as <-. rewrite Hp in Hp'. injection Hp' as <-. cbn [get_cell] in Hr. rewrite Hr. split; [exact Hc|apply isMarked_dirty_dirty].
  - intros Hg2 He2. set (b := fst _). eapply sf_seq with (P := any); [exact Hg2|apply sf_assert; exact I|]. intros; apply sf_ret; exact I.
Qed.

Lemma sf_CASvalue t i o n s : good s -> valOKF t n s -> sf (CASvalue C t i o n) any s.
Proof.
  intros Hg Hv. unfold CASvalue. eapply sf_seq; [exact Hg|apply sf_bounds; exact Hg|]. intros ? s1 Hg1 He1 Hin.
  eapply sf_seq; [exact Hg1|apply sf_pcas_val; [exact Hg1|exact Hin|exact (valOKF_ext _ _ _ _ He1 Hv)]|]. intros; apply sf_ret; exact I.
Qed.

Lemma sf_increment t i o n s : good s -> sf (increment C t i o n) any s.
Proof.
  intros Hg. unfold increment. eapply sf_seq; [exact Hg|apply sf_bounds; exact Hg|]. intros ? s1 Hg1 He1 Hin. cbn zeta.
  eapply sf_seq; [exact Hg1|apply sf_pcas_val; [exact Hg1|exact Hin|apply valOKF_un; apply shl3_bits]|]. intros; apply sf_ret; exact I.
Qed.

Lemma sf_CASkey t i k s : good s -> keyOKF t i k s ->
  sf (CASkey C t i KINITIAL k) (fun r s' => Tab t s' /\ (r = KINITIAL \/ KeyC t i r s')) s.
Proof.
  intros Hg Hk. unfold CASkey. eapply sf_seq; [exact Hg|apply sf_bounds; exact Hg|]. intros ? s1 Hg1 He1 Hin.
  unfold pcas. apply sf_bind. eapply sf_seq; [exact Hg1|apply sf_pcas_read; assumption|]. intros r s2 Hg2 He2 (Hc & HC & Hin2).
  destruct HC as (T & p & HT & Hp & Hr). unfold do; cbn [bind]. pose proof (read_cell_eq s2 t i CKey T p HT Hp) as Hrd.
  destruct (N.eqb_spec (read_cell s2 t i CKey) KINITIAL) as [E|E].
  - assert (Ex : exec (Cas t i CKey KINITIAL (dirty k)) s2 = ((true, KINITIAL), with_tab t (write_cell i CKey (dirty k)) s2)).
    { cbn [exec]. rewrite E, N.eqb_refl. reflexivity. }
    apply sf_cmd.
    + rewrite Ex. cbn [snd]. apply good_key_new; [exact Hg2|apply keyOKF_new; apply (keyOKF_ext t i k s); [ex|exact Hk]|].
      intros T' p' HT' Hp'. rewrite HT in HT'. injection HT' as <-. rewrite Hp in Hp'. injection Hp' as <-. cbn [get_cell] in Hrd. congruence.
    + rewrite Ex. cbn [fst snd]. intros Hg3 He3. eapply sf_seq with (P := any); [exact Hg3|apply sf_assert; exact I|].
      intros ? s4 Hg4 He4 _. apply sf_ret. apply sf_ret. cbn [snd]. split; [|auto]. apply (Tab_ext t s2); [ex|exact (InRg_Tab _ _ _ Hin2)].
  - assert (Ex : exec (Cas t i CKey KINITIAL (dirty k)) s2 = ((false, read_cell s2 t i CKey), s2)).
    { cbn [exec]. apply N.eqb_neq in E. rewrite E. reflexivity. }
    apply sf_cmd; rewrite Ex; cbn [fst snd]; [split; [exact Hg2|apply ext_refl]|]. intros _ _.
    eapply sf_seq with (P := any); [exact Hg2|apply sf_assert; exact I|]. intros ? s4 Hg4 He4 _. apply sf_ret. apply sf_ret. cbn [snd].
    split; [apply (Tab_ext t s2); [ex|exact (InRg_Tab _ _ _ Hin2)]|]. right. apply (KeyC_ext _ _ _ s2); [ex|].
    split; [exact E|]. rewrite Hrd, Hr. split; [exact Hc|]. exists T, p. auto.
Qed.

Lemma sf_key t i s : good s -> sf (key C t i) (fun r s' => Tab t s' /\ isclean r /\ (r <> KINITIAL -> KeyC t i r s')) s.
Proof.
  intros Hg. unfold key. eapply sf_seq; [exact Hg|apply sf_bounds; exact Hg|]. intros ? s1 Hg1 He1 Hin.
  eapply sf_mono; [exact Hg1|apply sf_pcas_read; assumption|]. intros r s2 Hg2 He2 (H1 & H2 & H3). cbn beta.
  split; [exact (InRg_Tab _ _ _ H3)|]. split; [exact H1|]. intros H. split; auto.
Qed.

Lemma sf_value t i s : good s -> sf (value C t i) (fun r s' => isclean r /\ Cell t i CVal r s') s.
Proof.
  intros Hg. unfold value. eapply sf_seq; [exact Hg|apply sf_bounds; exact Hg|]. intros ? s1 Hg1 He1 Hin.
  eapply sf_mono; [exact Hg1|apply sf_pcas_read; assumption|]. intros r s2 Hg2 He2 (H1 & H2 & H3). auto.
Qed.

(** ** Counters, successors *)

Lemma sf_AddF {A} t f d (k : N -> prog A) (Q : A -> state -> Prop) s : good s ->
  (forall r s', good s' -> ext s s' -> sf (k r) Q s') -> sf (Vis (AddF t f d) k) Q s.
Proof.
  intros Hg HQ. assert (H := good_fld C F s t f (fun T => add64 (get_fld f T) d) Hg).
  apply sf_cmd; [exact H|]. intros Hg1 He1. apply HQ; assumption.
Qed.

Lemma sf_promote t d s : good s -> sf (copyCheckAndPromote C t d) any s.
Proof.
  intros Hg. unfold copyCheckAndPromote, do; cbn [bind].
  apply sf_read; [exact Hg|reflexivity|]. apply sf_read; [exact Hg|reflexivity|].
  set (len := fst (exec (Len t) s)). set (cd := fst (exec (LoadF t FCopyDone) s)). clearbody len cd. cbn in len, cd.
  eapply sf_seq with (P := any); [exact Hg|apply sf_assert; exact I|]. intros ? s1 Hg1 He1 _.
  eapply sf_seq with (P := any); [exact Hg1| |].
  { destruct (0 <? d)%N; [|exact I]. apply sf_AddF; [exact Hg1|]. intros; exact I. }
  intros ? s2 Hg2 He2 _. destruct (_ =? _)%N; [|exact I].
  apply sf_read; [exact Hg2|reflexivity|]. cbn [exec fst]. destruct (match st_tabs s2 !! t with Some T => t_new T | None => None end) as [nt|]; [|exact I].
  apply sf_cmd; [|intros; exact I]. cbn [exec]. destruct (_ =? _)%nat; cbn [snd]; [|split; [exact Hg2|apply ext_refl]].
  apply good_tabs; [exact Hg2|reflexivity|reflexivity].
Qed.

Lemma sf_loadNew {A} t (k : option nat -> prog A) (Q : A -> state -> Prop) s : good s ->
  (forall x, 0 < x -> HasNew t s -> sf (k (Some x)) Q s) -> sf (k None) Q s -> sf (Vis (LoadNew t) k) Q s.
Proof.
  intros Hg HS HN. apply sf_read; [exact Hg|reflexivity|]. cbn [exec fst]. destruct (st_tabs s !! t) as [T|] eqn:HT; [|exact HN].
  destruct (t_new T) as [x|] eqn:HX; [|exact HN]. apply HS.
  - destruct Hg as (_ & G2 & _). exact (G2 t T x HT HX).
  - exists T. split; [exact HT|]. rewrite HX. discriminate.
Qed.

Lemma good_mmap s f c e : good s -> let s' := snd (exec (Mmap f c e) s) in good s' /\ ext s s'.
Proof.
  intros Hg. cbn [exec]. unfold mmap_table. destruct (find_file f (st_files s)) as [[|p ps]|].
  - split; [exact Hg|apply ext_refl].
  - cbn [snd]. eapply good_app; [exact Hg|reflexivity..| |reflexivity]. apply dur_single; [reflexivity| |reflexivity]. cbn. rewrite map_length. reflexivity.
  - destruct (can_alloc c (st_maxcap s)); cbn [snd]; [|split; [exact Hg|apply ext_refl]].
    eapply good_app; [exact Hg|reflexivity..| |reflexivity]. apply dur_single; [reflexivity| |reflexivity]. cbn. apply replicate_length.
Qed.

Lemma mmap_res s f c e x : fst (exec (Mmap f c e) s) = Some x -> x = length (st_tabs s).
Proof. cbn [exec]. destruct (mmap_table _ _ _ _ _); cbn [fst]; [intros [= <-]; reflexivity|discriminate]. Qed.

Lemma sf_resize t s : good s -> Tab t s -> sf (resize C t) (fun x s' => 0 < x /\ HasNew t s') s.
Proof.
  intros Hg Ht. unfold resize, do; cbn [bind]. apply sf_loadNew; [exact Hg| |].
  { intros x Hx Hn. cbn [bind]. apply sf_read; [exact Hg|reflexivity|]. apply sf_read; [exact Hg|reflexivity|].
    eapply sf_seq with (P := any); [exact Hg|apply sf_assert; exact I|]. intros ? s1 Hg1 He1 _. apply sf_ret. split; [exact Hx|exact (HasNew_ext _ _ _ He1 Hn)]. }
  apply sf_read; [exact Hg|reflexivity|]. apply sf_read; [exact Hg|reflexivity|].
  set (len := fst (exec (Len t) s)). set (size := fst (exec (LoadF t FSize) s)). clearbody len size. cbn in len, size. cbn zeta.
  apply sf_loadNew; [exact Hg| |].
  { intros x Hx Hn. cbn [bind]. apply sf_read; [exact Hg|reflexivity|].
    eapply sf_seq with (P := any); [exact Hg|apply sf_assert; exact I|]. intros ? s1 Hg1 He1 _. apply sf_ret. split; [exact Hx|exact (HasNew_ext _ _ _ He1 Hn)]. }
  apply sf_cmd; [apply good_tabs; [exact Hg|reflexivity..]|]. intros Hg1 He1.
  set (s1 := snd (exec NextFile s)) in *. set (fn := fst (exec NextFile s)). clearbody s1 fn. cbn in fn.
  apply sf_cmd; [apply good_mmap; exact Hg1|]. intros Hg2 He2.
  pose proof (mmap_res s1 fn (N.to_nat (newSizeFor len size)) size) as Hres.
  set (s2 := snd (exec (Mmap _ _ _) s1)) in *. set (m := fst (exec (Mmap _ _ _) s1)) in *. clearbody s2 m. cbn in m.
  destruct m as [nt|]; [|exact I]. specialize (Hres nt eq_refl).
  assert (Hnt : 0 < nt) by (subst nt; destruct Hg1 as (_ & _ & _ & G4); exact G4). clear Hres.
  cbn [bind]. apply sf_read; [exact Hg2|reflexivity|].
  eapply sf_seq with (P := any); [exact Hg2|apply sf_assert; exact I|]. intros ? s3 Hg3 He3 _.
  assert (Ht3 : Tab t s3) by (apply (Tab_ext t s); [ex|exact Ht]).
  unfold CASNewTable, do; cbn [bind]. destruct Ht3 as (T3 & HT3).
  assert (Hnew : exists b w s4, exec (CasNew t None nt) s3 = ((b, w), s4) /\ good s4 /\ ext s3 s4 /\ (b = true -> HasNew t s4)).
  { cbn [exec]. rewrite HT3. destruct (t_new T3) as [x|] eqn:HX; cbn [option_nat_eqb].
    - exists false, (Some x), s3. split; [reflexivity|]. split; [exact Hg3|]. split; [apply ext_refl|]. discriminate.
    - eexists true, None, _. split; [reflexivity|]. split; [|split].
      + apply (good_new C F s3 t nt Hg3 Hnt). intros T' HT'. congruence.
      + apply (good_new C F s3 t nt Hg3 Hnt). intros T' HT'. congruence.
      + intros _. eexists. split; [apply with_lookup; exact HT3|]. discriminate. }
  destruct Hnew as (b & w & s4 & Ex & Hg4 & He4 & Hb). apply sf_cmd; rewrite Ex; cbn [fst snd]; [auto|]. intros _ _. cbn [bind].
  eapply sf_seq with (P := fun x s' => 0 < x /\ HasNew t s'); [exact Hg4| |].
  { destruct b; [apply sf_ret; auto|]. cbn [bind]. apply sf_read; [exact Hg4|reflexivity|].
    apply sf_loadNew; [exact Hg4| |exact I]. intros x Hx Hn. apply sf_ret. auto. }
  intros x s5 Hg5 He5 (Hx & Hn). apply sf_read; [exact Hg5|reflexivity|].
  eapply sf_seq with (P := any); [exact Hg5|apply sf_assert; exact I|]. intros ? s6 Hg6 He6 _. apply sf_ret. split; [exact Hx|exact (HasNew_ext _ _ _ He6 Hn)].
Qed.

(** ** Copying *)

Definition putPre (t : nat) (k nv : N) : Prop := F -> t = 0 -> isclean k /\ k <> KTOMBSTONE /\ isMarked nv MIG = false.
Definition putOK (put : nat -> N -> N -> N -> prog N) : Prop := forall t k nv ov s, good s -> putPre t k nv -> sf (put t k nv ov) any s.
Lemma putPre_pos t k nv : 0 < t -> putPre t k nv.
Proof. intros H _ ->. lia. Qed.

Lemma sf_copySlot_key t i : forall n s, good s -> HasNew t s -> sf (copySlot_key C n t i) any s.
Proof.
  induction n as [|n IH]; intros s Hg Hn; cbn [copySlot_key]; [exact I|].
  eapply sf_seq; [exact Hg|apply sf_key; exact Hg|]. intros k s1 Hg1 He1 _. destruct (_ =? _)%N; [|exact I].
  eapply sf_seq; [exact Hg1|apply sf_CASkey; [exact Hg1|]|].
  - intros HF ->. left. split; [reflexivity|exact (HasNew_ext _ _ _ He1 Hn)].
  - intros ? s2 Hg2 He2 _. apply IH; [exact Hg2|]. apply (HasNew_ext t s); [ex|exact Hn].
Qed.

Lemma sf_copySlot_mark t i : forall n v s, good s -> HasNew t s -> sf (copySlot_mark C n t i v) any s.
Proof.
  induction n as [|n IH]; intros v s Hg Hn; cbn [copySlot_mark]; [exact I|]. destruct (isMarked v _); [exact I|]. cbn zeta.
  eapply sf_seq; [exact Hg|apply sf_CASvalue; [exact Hg|apply valOKF_new; exact Hn]|]. intros av s1 Hg1 He1 _.
  destruct (av =? v)%N; [destruct (_ =? _)%N; exact I|]. apply IH; [exact Hg1|exact (HasNew_ext _ _ _ He1 Hn)].
Qed.

Lemma sf_copySlot_finish t i : forall n v s, good s -> HasNew t s -> sf (copySlot_finish C n t i v) any s.
Proof.
  induction n as [|n IH]; intros v s Hg Hn; cbn [copySlot_finish]; [exact I|].
  eapply sf_seq; [exact Hg|apply sf_CASvalue; [exact Hg|apply valOKF_new; exact Hn]|]. intros av s1 Hg1 He1 _.
  destruct (av =? v)%N; [exact I|]. apply IH; [exact Hg1|exact (HasNew_ext _ _ _ He1 Hn)].
Qed.

Lemma sf_copySlot n put i t nt s : putOK put -> good s -> HasNew t s -> 0 < nt -> sf (copySlot C n put i t nt) any s.
Proof.
  intros Hput Hg Hn Hnt. unfold copySlot. eapply sf_seq; [exact Hg|apply sf_copySlot_key; assumption|]. intros k s1 Hg1 He1 _.
  eapply sf_seq; [exact Hg1|apply sf_value; exact Hg1|]. intros v s2 Hg2 He2 _.
  eapply sf_seq; [exact Hg2|apply sf_copySlot_mark; [exact Hg2|apply (HasNew_ext t s); [ex|exact Hn]]|]. intros m s3 Hg3 He3 _.
  destruct m as [?|ov]; [exact I|]. destruct (_ =? _)%N; [exact I|]. cbn zeta.
  eapply sf_seq with (P := any); [exact Hg3|apply sf_assert; exact I|]. intros ? s4 Hg4 He4 _.
  eapply sf_seq; [exact Hg4|apply Hput; [exact Hg4|apply putPre_pos; exact Hnt]|]. intros r s5 Hg5 He5 _.
  eapply sf_seq; [exact Hg5|apply sf_copySlot_finish; [exact Hg5|apply (HasNew_ext t s); [ex|exact Hn]]|]. intros; exact I.
Qed.

Lemma sf_claimChunk t L w : forall n i s, good s -> sf (claimChunk n t L w i) any s.
Proof.
  induction n as [|n IH]; intros i s Hg; cbn [claimChunk]; [exact I|]. destruct (_ <? _)%N; [|exact I]. unfold do; cbn [bind].
  apply sf_cmd.
  - cbn [exec]. destruct (_ =? _)%N; cbn [snd]; [|split; [exact Hg|apply ext_refl]]. exact (good_fld C F s t FCopyIdx (fun _ => add64 i w) Hg).
  - intros Hg1 He1. destruct (fst _); [exact I|]. apply IH. exact Hg1.
Qed.

Lemma sf_copyChunk n put t nt L ci : putOK put -> 0 < nt -> forall cnt i wd s, good s -> HasNew t s ->
  sf (copyChunk C n put t nt L ci i cnt wd) any s.
Proof.
  intros Hput Hnt. induction cnt as [|cnt IH]; intros i wd s Hg Hn; cbn [copyChunk]; [exact I|].
  eapply sf_seq; [exact Hg|apply sf_copySlot; assumption|]. intros b s1 Hg1 He1 _. apply IH; [exact Hg1|exact (HasNew_ext _ _ _ He1 Hn)].
Qed.

Lemma sf_helpLoop put t nt L w : putOK put -> 0 < nt -> forall n pk ci s, good s -> HasNew t s ->
  sf (helpLoop C n put t nt L w pk ci) any s.
Proof.
  intros Hput Hnt. induction n as [|n IH]; intros pk ci s Hg Hn; cbn [helpLoop]; [exact I|]. unfold do; cbn [bind].
  apply sf_read; [exact Hg|reflexivity|]. destruct (_ <? _)%N; [|exact I].
  eapply sf_seq with (P := any); [exact Hg| |].
  { destruct pk; [exact I|]. cbn [bind]. apply sf_read; [exact Hg|reflexivity|]. apply sf_claimChunk. exact Hg. }
  intros c s1 Hg1 He1 _. cbn zeta. eapply sf_seq; [exact Hg1|apply sf_copyChunk; [exact Hput|exact Hnt|exact Hg1|exact (HasNew_ext _ _ _ He1 Hn)]|].
  intros wd s2 Hg2 He2 _. eapply sf_seq with (P := any); [exact Hg2| |].
  { destruct (_ <? _)%N; [apply sf_promote; exact Hg2|exact I]. }
  intros ? s3 Hg3 He3 _. apply IH; [exact Hg3|]. apply (HasNew_ext t s); [ex|exact Hn].
Qed.

Lemma sf_helpCopyImpl n put t s : putOK put -> good s -> sf (helpCopyImpl C n put t) any s.
Proof.
  intros Hput Hg. unfold helpCopyImpl, do; cbn [bind]. apply sf_loadNew; [exact Hg| |exact I]. intros x Hx Hn. cbn [bind].
  apply sf_read; [exact Hg|reflexivity|]. cbn zeta.
  eapply sf_seq; [exact Hg|apply sf_helpLoop; assumption|]. intros ? s1 Hg1 He1 _. apply sf_promote. exact Hg1.
Qed.

Lemma sf_helpCopy n put h s : putOK put -> good s -> sf (helpCopy C n put h) (fun r _ => r = h) s.
Proof.
  intros Hput Hg. unfold helpCopy, do; cbn [bind]. apply sf_read; [exact Hg|reflexivity|].
  apply sf_loadNew; [exact Hg| |reflexivity]. intros x Hx Hn.
  eapply sf_seq; [exact Hg|apply sf_helpCopyImpl; assumption|]. intros; apply sf_ret; reflexivity.
Qed.

Lemma sf_copySlotAndCheck n put t i b s : putOK put -> good s -> sf (copySlotAndCheck C n put t i b) (fun r _ => 0 < r) s.
Proof.
  intros Hput Hg. unfold copySlotAndCheck, do; cbn [bind]. apply sf_loadNew; [exact Hg| |exact I]. intros x Hx Hn.
  eapply sf_seq; [exact Hg|apply sf_copySlot; assumption|]. intros d s1 Hg1 He1 _.
  eapply sf_seq with (P := any); [exact Hg1|destruct d; [apply sf_promote; exact Hg1|exact I]|]. intros ? s2 Hg2 He2 _.
  destruct b; [exact Hx|]. eapply sf_mono; [exact Hg2|apply sf_helpCopy; assumption|]. intros r s3 Hg3 He3 ->. exact Hx.
Qed.

(** ** putIfMatch *)

Definition claimInv (t : nat) (k : N) (len idx rp : nat) (s : state) : Prop := F -> t = 0 ->
  isclean k /\ k <> KTOMBSTONE /\ exists T, st_tabs s !! 0 = Some T /\ len = t_len T /\ idx = pos (hash C k) len rp /\
    rp < reprobeLimit len /\ passed C T k rp.
Lemma claimInv_ext t k len idx rp s s' : ext s s' -> claimInv t k len idx rp s -> claimInv t k len idx rp s'.
Proof.
  intros (_ & HE) H HF Ht. destruct (H HF Ht) as (H1 & H2 & T & HT & E1 & E2 & E3 & E4). split; [exact H1|]. split; [exact H2|].
  destruct (HE 0 T HT) as (T' & HT' & Hx). exists T'. pose proof (proj1 Hx) as El. rewrite El. split; [exact HT'|]. split; [exact E1|].
  split; [exact E2|]. split; [exact E3|]. exact (passed_ext _ _ _ _ _ Hx E4).
Qed.
Lemma claimInv_key t k len idx rp s : claimInv t k len idx rp s -> keyOKF t idx k s.
Proof.
  intros H HF Ht. destruct (H HF Ht) as (H1 & H2 & T & HT & -> & E2 & E3 & E4). right. split; [exact H1|]. split; [exact H2|]. exists T, rp. auto.
Qed.
Lemma claimInv_next t k len idx rp s K : claimInv t k len idx rp s -> KeyC t idx K s -> K <> k -> K <> KTOMBSTONE ->
  S rp < reprobeLimit len -> claimInv t k len (mask (N.of_nat idx + 1) len) (S rp) s.
Proof.
  intros H (K1 & K2 & T' & p & HT' & Hp & Hk) N1 N2 HL HF ->. destruct (H HF eq_refl) as (H1 & H2 & T & HT & E1 & E2 & E3 & E4).
  split; [exact H1|]. split; [exact H2|]. exists T. split; [exact HT|]. split; [exact E1|]. split; [rewrite E2; reflexivity|]. split; [exact HL|].
  rewrite HT in HT'. injection HT' as <-. cbn [get_cell] in Hk. intros d Hd. destruct (Nat.eq_dec d rp) as [->|Hne]; [|apply E4; lia].
  exists p. rewrite <- E1, <- E2. split; [exact Hp|]. rewrite Hk. auto.
Qed.

Lemma sf_claimSlot t k nv len : forall n idx rp s, good s -> claimInv t k len idx rp s ->
  sf (claimSlot C n t k nv len idx rp) (fun _ s' => Tab t s') s.
Proof.
  induction n as [|n IH]; intros idx rp s Hg Hc; cbn [claimSlot]; [exact I|].
  assert (Hcheck : forall K V s', good s' -> ext s s' -> Tab t s' -> KeyC t idx K s' ->
    sf (if (K =? k)%N then Ret (CSlot idx V rp)
        else if (reprobeLimit len <=? S rp)%nat || (K =? KTOMBSTONE)%N then Ret CFull
        else claimSlot C n t k nv len (mask (N.of_nat idx + 1) len) (S rp)) (fun _ s' => Tab t s') s').
  { intros K V s' Hg' He' Ht' HK. destruct (N.eqb_spec K k) as [|N1]; [exact Ht'|].
    destruct ((reprobeLimit len <=? S rp)%nat || (K =? KTOMBSTONE)%N) eqn:HO; [exact Ht'|].
    apply orb_false_iff in HO as (HO1 & HO2). apply Nat.leb_gt in HO1. apply N.eqb_neq in HO2.
    apply IH; [exact Hg'|]. apply (claimInv_next _ _ _ _ _ _ K); auto. exact (claimInv_ext _ _ _ _ _ _ _ He' Hc). }
  eapply sf_seq; [exact Hg|apply sf_key; exact Hg|]. intros K s1 Hg1 He1 (Ht1 & _ & HK).
  eapply sf_seq; [exact Hg1|apply sf_value; exact Hg1|]. intros V s2 Hg2 He2 _.
  assert (Ht2 := Tab_ext _ _ _ He2 Ht1). change VINITIAL with KINITIAL at 1.
  destruct (N.eqb_spec K KINITIAL) as [->|HN].
  - destruct (_ =? _)%N; [exact Ht2|].
    eapply sf_seq; [exact Hg2|apply sf_CASkey; [exact Hg2|]|].
    + apply (claimInv_key _ _ len _ rp). apply (claimInv_ext _ _ _ _ _ s); [ex|exact Hc].
    + intros ak s3 Hg3 He3 (Ht3 & Ha). destruct (N.eqb_spec ak KINITIAL) as [->|Hne].
      * unfold do; cbn [bind]. apply sf_AddF; [exact Hg3|]. intros r s' _ He. exact (Tab_ext _ _ _ He Ht3).
      * destruct Ha as [Ha|Ha]; [contradiction|]. apply Hcheck; auto. ex.
  - apply Hcheck; auto; [ex|]. exact (KeyC_ext _ _ _ _ _ He2 (HK HN)).
Qed.

Definition casOK (CAS : casfun) (t : nat) (nv : N) : Prop := forall i o s, good s -> sf (CAS t i o nv) any s.

Lemma sf_countChange t V nv ov s : good s -> sf (countChange t V nv ov) any s.
Proof.
  intros Hg. unfold countChange.
  assert (H : forall d, sf (do (AddF t FSize d) ;;; Ret tt) any s).
  { intros d. unfold do; cbn [bind]. apply sf_AddF; [exact Hg|]. intros; exact I. }
  destruct (negb _); [|exact I]. destruct (_ && _); [apply H|]. destruct (_ && _); [apply H|exact I].
Qed.

Lemma sf_updateLoop CAS fwd t i nv ov : casOK CAS t nv -> (forall s, good s -> sf fwd any s) ->
  forall n V s, good s -> sf (updateLoop C n CAS fwd t i nv ov V) any s.
Proof.
  intros HCAS Hf. induction n as [|n IH]; intros V s Hg; cbn [updateLoop]; [exact I|].
  eapply sf_seq with (P := any); [exact Hg|apply sf_assert; exact I|]. intros ? s1 Hg1 He1 _. destruct (noMatch V ov); [exact I|].
  eapply sf_seq; [exact Hg1|apply HCAS; exact Hg1|]. intros av s2 Hg2 He2 _. destruct (av =? V)%N.
  - eapply sf_seq; [exact Hg2|apply sf_countChange; exact Hg2|]. intros; exact I.
  - eapply sf_seq; [exact Hg2|apply sf_value; exact Hg2|]. intros x s3 Hg3 He3 _. destruct (isMarked x _); [apply Hf; exact Hg3|apply IH; exact Hg3].
Qed.

Lemma sf_putBody n put CAS t k nv ov s : putOK put -> casOK CAS t nv -> good s -> putPre t k nv ->
  sf (putBody C n put CAS t k nv ov) any s.
Proof.
  intros Hput HCAS Hg Hpre. unfold putBody.
  eapply sf_seq with (P := any); [exact Hg|apply sf_assert; exact I|]. intros ? s1 Hg1 He1 _.
  eapply sf_seq with (P := any); [exact Hg1|apply sf_assert; exact I|]. intros ? s2 Hg2 He2 _.
  eapply sf_seq with (P := any); [exact Hg2|apply sf_assert; exact I|]. intros ? s3 Hg3 He3 _.
  unfold do; cbn [bind]. apply sf_read; [exact Hg3|reflexivity|].
  eapply sf_seq; [exact Hg3|apply sf_claimSlot; [exact Hg3|]|].
  { intros HF ->. destruct (Hpre HF eq_refl) as (H1 & H2 & _). split; [exact H1|]. split; [exact H2|].
    pose proof Hg3 as (_ & _ & _ & G4). apply lookup_lt_is_Some in G4 as (T & HT). exists T. split; [exact HT|]. cbn [exec fst]. rewrite HT.
    split; [reflexivity|]. split; [reflexivity|]. split; [unfold reprobeLimit, REPROBE_LIMIT; lia|]. intros d Hd. lia. }
  intros c s4 Hg4 He4 Ht4. destruct c as [|idx V rp|].
  - exact I.
  - destruct (_ =? _)%N; [exact I|]. cbn zeta.
    assert (Hfwd : forall s', good s' -> sf (nt <-- copySlotAndCheck C n put t idx (ov =? VINITIAL)%N;; put nt k nv ov) any s').
    { intros s' Hg'. eapply sf_seq; [exact Hg'|apply sf_copySlotAndCheck; assumption|]. intros nt s5 Hg5 He5 Hnt.
      apply Hput; [exact Hg5|apply putPre_pos; exact Hnt]. }
    eapply sf_seq with (P := any); [exact Hg4| |].
    { destruct (V =? VINITIAL)%N; [|exact I]. unfold tableFull. destruct (_ <=? _)%nat; [|exact I]. unfold do; cbn [bind].
      apply sf_read; [exact Hg4|reflexivity|]. exact I. }
    intros full s5 Hg5 He5 _. destruct (full || _).
    + eapply sf_seq; [exact Hg5|apply sf_resize; [exact Hg5|exact (Tab_ext _ _ _ He5 Ht4)]|]. intros ? s6 Hg6 He6 _. apply Hfwd. exact Hg6.
    + apply sf_updateLoop; auto.
  - eapply sf_seq; [exact Hg4|apply sf_resize; assumption|]. intros nt s5 Hg5 He5 (Hnt & _).
    eapply sf_seq with (P := any); [exact Hg5| |].
    { destruct (negb _); [|exact I]. eapply sf_seq; [exact Hg5|apply sf_helpCopy; assumption|]. intros; exact I. }
    intros ? s6 Hg6 He6 _. apply Hput; [exact Hg6|apply putPre_pos; exact Hnt].
Qed.

Lemma casOK_CASvalue t k nv : putPre t k nv -> casOK (CASvalue C) t nv.
Proof. intros H i o s Hg. apply sf_CASvalue; [exact Hg|]. intros HF Ht. left. apply (H HF Ht). Qed.
Lemma casOK_increment t nv : casOK (increment C) t nv.
Proof. intros i o s Hg. apply sf_increment. exact Hg. Qed.

Lemma sf_putIfMatch : forall n CAS t k nv ov s, casOK CAS t nv -> good s -> putPre t k nv -> sf (putIfMatch C n CAS t k nv ov) any s.
Proof.
  induction n as [|n IH]; intros CAS t k nv ov s HCAS Hg Hpre; cbn [putIfMatch]; [exact I|].
  apply sf_putBody; auto. intros t' k' nv' ov' s' Hg' Hpre'. apply IH; auto. exact (casOK_CASvalue _ _ _ Hpre').
Qed.

Lemma putOK_put n : putOK (putIfMatch C n (CASvalue C)).
Proof. intros t k nv ov s Hg Hpre. apply sf_putIfMatch; auto. exact (casOK_CASvalue _ _ _ Hpre). Qed.

(** ** get *)

(** What get returns is what is in memory, without the unpersisted mark. *)
Definition getP (k V : N) (s : state) : Prop := V = VINITIAL \/
  exists t i, isclean V /\ KeyC t i k s /\ Cell t i CVal V s.

Lemma sf_getLoop put rec t k len : putOK put -> (forall t' s, good s -> sf (rec t') (fun r s' => getP k r s') s) ->
  forall n idx rp s, good s -> sf (getLoop C n put rec t k len idx rp) (fun r s' => getP k r s') s.
Proof.
  intros Hput Hrec. induction n as [|n IH]; intros idx rp s Hg; cbn [getLoop]; [exact I|].
  eapply sf_seq; [exact Hg|apply sf_key; exact Hg|]. intros K s1 Hg1 He1 (_ & _ & HK).
  eapply sf_seq; [exact Hg1|apply sf_value; exact Hg1|]. intros V s2 Hg2 He2 (HVc & HV).
  destruct (N.eqb_spec K KINITIAL) as [->|HKne]; [left; reflexivity|].
  unfold do; cbn [bind]. apply sf_read; [exact Hg2|reflexivity|]. set (nt := fst _). clearbody nt. cbn in nt.
  destruct (N.eqb_spec K k) as [->|HneK].
  - destruct (negb _).
    + apply sf_ret. destruct (_ =? _)%N; [left; reflexivity|]. right. exists t, idx. split; [exact HVc|].
      split; [exact (KeyC_ext _ _ _ _ _ He2 (HK HKne))|exact HV].
    + eapply sf_seq; [exact Hg2|apply sf_copySlotAndCheck; assumption|]. intros t' s3 Hg3 He3 _. apply Hrec. exact Hg3.
  - destruct (_ || _).
    + destruct nt as [x|]; [|left; reflexivity]. eapply sf_seq; [exact Hg2|apply sf_helpCopy; assumption|]. intros t' s3 Hg3 He3 _. apply Hrec. exact Hg3.
    + apply IH. exact Hg2.
Qed.

Lemma sf_getImpl k h : forall n t s, good s -> sf (getImpl C n t k h) (fun r s' => getP k r s') s.
Proof.
  induction n as [|n IH]; intros t s Hg; cbn [getImpl]; [exact I|]. unfold do; cbn [bind].
  apply sf_read; [exact Hg|reflexivity|]. apply sf_getLoop; [apply putOK_put| |exact Hg]. intros t' s' Hg'. apply IH. exact Hg'.
Qed.

Lemma sf_get n k s : good s -> sf (get C n k) (fun r s' => getP k r s') s.
Proof.
  intros Hg. unfold get, do; cbn [bind]. apply sf_read; [exact Hg|reflexivity|].
  eapply sf_seq; [exact Hg|apply sf_getImpl; exact Hg|]. intros V s1 Hg1 He1 HV. unfold assert_. destruct (_ || _); [exact HV|exact I].
Qed.

(** ** The API *)

Lemma sf_pub n CAS k nv ov s : (forall t, casOK CAS t nv) -> (forall t, putPre t k nv) -> good s -> sf (putIfMatchPub C n k nv ov CAS) any s.
Proof.
  intros HCAS Hpre Hg. unfold putIfMatchPub.
  eapply sf_seq with (P := any); [exact Hg|apply sf_assert; exact I|]. intros ? s1 Hg1 He1 _.
  eapply sf_seq with (P := any); [exact Hg1|apply sf_assert; exact I|]. intros ? s2 Hg2 He2 _.
  unfold do; cbn [bind]. apply sf_read; [exact Hg2|reflexivity|].
  eapply sf_seq; [exact Hg2|apply sf_putIfMatch; auto|]. intros r s3 Hg3 He3 _.
  eapply sf_seq with (P := any); [exact Hg3|apply sf_assert; exact I|]. intros; exact I.
Qed.

Lemma sf_pub_val n k nv ov s : (forall t, putPre t k nv) -> good s -> sf (putIfMatchPub C n k nv ov (CASvalue C)) any s.
Proof. intros H Hg. apply sf_pub; auto. intros t. exact (casOK_CASvalue _ _ _ (H t)). Qed.

Lemma legal_putPre k nv : (F -> legal_key k) -> (F -> isMarked nv MIG = false) -> forall t, putPre t k nv.
Proof.
  intros Hk Hm t HF _. specialize (Hm HF). destruct (Hk HF) as (H1 & H2 & H3 & H4). split; [exact H2|]. split; [|exact Hm]. intros ->.
  unfold isKeyReserved in H4. rewrite N.eqb_refl, orb_true_r in H4. discriminate.
Qed.
Lemma legal_unmarked v : legal_val v -> isMarked v MIG = false.
Proof. intros (_ & _ & H & _). exact H. Qed.

Theorem sf_op n o s : (F -> legal_op o) -> good s -> sf (op_prog C n o) any s.
Proof.
  intros Hl Hg. destruct o as [k|k|k v|k v|k|k v|k ov v|k|]; cbn [op_prog legal_op] in *.
  - eapply sf_seq; [exact Hg|apply sf_get; exact Hg|]. intros; exact I.
  - unfold containsKey. apply sf_bind. eapply sf_seq; [exact Hg|apply sf_get; exact Hg|]. intros; exact I.
  - eapply sf_seq; [exact Hg|apply sf_pub_val; [|exact Hg]|intros; exact I].
    apply legal_putPre; intros HF; [apply Hl; exact HF|apply legal_unmarked, Hl; exact HF].
  - eapply sf_seq; [exact Hg|apply sf_pub_val; [|exact Hg]|intros; exact I].
    apply legal_putPre; intros HF; [apply Hl; exact HF|apply legal_unmarked, Hl; exact HF].
  - unfold remove. apply sf_bind. eapply sf_seq; [exact Hg|apply sf_pub_val; [|exact Hg]|intros; exact I].
    apply legal_putPre; intros HF; [apply Hl; exact HF|exact VTOMBSTONE_unmarked].
  - unfold removeVal. apply sf_bind. eapply sf_seq; [exact Hg|apply sf_pub_val; [|exact Hg]|intros; exact I].
    apply legal_putPre; intros HF; [apply Hl; exact HF|exact VTOMBSTONE_unmarked].
  - unfold replace. apply sf_bind. eapply sf_seq; [exact Hg|apply sf_pub_val; [|exact Hg]|intros; exact I].
    apply legal_putPre; intros HF; [apply Hl; exact HF|apply legal_unmarked, Hl; exact HF].
  - eapply sf_seq; [exact Hg|apply sf_pub; [intros; apply casOK_increment| |exact Hg]|intros; exact I].
    apply legal_putPre; intros HF; [apply Hl; exact HF|reflexivity].
  - unfold size, do; cbn [bind]. apply sf_read; [exact Hg|reflexivity|]. apply sf_read; [exact Hg|reflexivity|]. exact I.
Qed.

End Map.
