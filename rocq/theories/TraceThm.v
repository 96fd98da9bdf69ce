(** Every call takes effect on one entry in one step: the records of Trace.v read in an execution. *)
From Coq Require Import NArith Bool List Lia.
From stdpp Require Import base list relations.
From Verif Require Import Word Bits Prog HashMap Conc Spec ConcSpec Probe ConcInv ConcCmd ConcProg ConcMap ConcThm CodecThm SeqInv SeqPut SeqApi Examples ConcWitness TraceSpec Trace.
Import ListNotations.
Open Scope nat_scope.

Section Run.
Context (C : cfg) (cap ppl n : nat) (maxcap : N) (todos : list (list op)).
Hypothesis (Hc : good_cap cap maxcap) (Hl : Forall (Forall legal_op) todos).
Notation at_ := (after C n (init_state cap ppl maxcap) todos).
Notation st s := (sy_st (at_ s)).

(** The meaning of an observation made by the step of thread [i] after the schedule [s]. *)
Definition holds (i : nat) (e : obs) (s : list nat) : Prop :=
  match e with
  | Saw t j c w => read_cell (st s) t j c = w /\ st (s ++ [i]) = st s
  | Did t j c o nw => read_cell (st s) t j c = o /\ st (s ++ [i]) = with_tab t (write_cell j c nw) (st s)
  | IsLen t L => L = match st_tabs (st s) !! t with Some T => t_len T | None => 0 end
  | IsTop t => st_top (st s) = t
  | Nxt t o => match st_tabs (st s) !! t with Some T => t_new T | None => None end = o /\ st (s ++ [i]) = st s
  | Linked t x => st (s ++ [i]) = with_tab t (set_new (Some x)) (st s)
  end.

Definition inside (sched : list nat) (i : nat) (o : op) (s : list nat) : Prop :=
  (exists s2, sched = s ++ i :: s2) /\ in_call (at_ s) i o /\
  exists g, sy_hist (at_ sched) = g ++ sy_hist (at_ s) /\ Forall (fun e => ~ by_thread i e) g.

Fixpoint ordered (i : nat) (M : list (obs * list nat)) : Prop :=
  match M with
  | [] => True
  | m :: M' => Forall (fun m' => exists s3, snd m = snd m' ++ i :: s3) M' /\ ordered i M'
  end.

Definition moments (sched : list nat) (i : nat) (o : op) (M : list (obs * list nat)) : Prop :=
  Forall (fun m => inside sched i o (snd m) /\ holds i (fst m) (snd m)) M /\ ordered i M.

Lemma at_snoc s i : at_ (s ++ [i]) = tstep C n i (at_ s).
Proof. rewrite after_app. reflexivity. Qed.

Lemma exec_answer c s : answer c (fst (exec c s)).
Proof.
  destruct c; cbn; auto. destruct (N.eqb_spec (read_cell s t i c) e); cbn; [tauto|]. split; [discriminate|congruence].
Qed.

Lemma exec_holds c s i : st (s ++ [i]) = snd (exec c (st s)) ->
  Forall (fun e => holds i e s) (obs_of c (fst (exec c (st s)))).
Proof.
  intros H. destruct c; cbn in *; try (constructor; fail); try (constructor; [cbn; auto|constructor]; fail).
  - destruct (N.eqb_spec (read_cell (st s) t i0 c) e) as [He|He]; cbn in *; (constructor; [|constructor]); cbn; auto.
  - destruct (option_nat_eqb _ e); cbn in *; constructor; [exact H|constructor].
Qed.

Lemma inside_step sched i j o s : i <> j -> inside sched i o s -> inside (sched ++ [j]) i o s.
Proof.
  intros Hne ((s2 & ->) & Hin & g & Hg & HF). split; [exists (s2 ++ [j]); rewrite <- app_assoc; reflexivity|].
  split; [exact Hin|]. rewrite at_snoc. unfold tstep. destruct (sy_thr _ !! j) as [th|]; [|eauto].
  destruct (th_cur th) as [[o' [r|e|c k]]|]; cbn [sy_hist].
  - exists (ERes j o' r :: g). rewrite Hg. split; [reflexivity|]. constructor; [cbn; congruence|exact HF].
  - eauto.
  - destruct (exec c _). eauto.
  - destruct (th_todo th) as [|o' os]; [eauto|]. exists (EInv j o' :: g). cbn. rewrite Hg.
    split; [reflexivity|]. constructor; [cbn; congruence|exact HF].
Qed.

Lemma inside_same sched i o s : inside sched i o s -> sy_hist (at_ (sched ++ [i])) = sy_hist (at_ sched) -> inside (sched ++ [i]) i o s.
Proof.
  intros ((s2 & ->) & Hin & Hg) HE. split; [exists (s2 ++ [i]); rewrite <- app_assoc; reflexivity|].
  split; [exact Hin|]. rewrite HE. exact Hg.
Qed.

Lemma moments_other sched i j o M : i <> j -> moments sched i o M -> moments (sched ++ [j]) i o M.
Proof.
  intros Hne [H1 H2]. split; [|exact H2]. eapply List.Forall_impl; [|exact H1]. intros m [A B].
  split; [exact (inside_step _ _ _ _ _ Hne A)|exact B].
Qed.

Definition callG (o : op) (r : rsp) (G : list obs) : Prop := legal_op o /\ opG C o r G.

Definition thr_tr (sched : list nat) : Prop := forall i th o p,
  sy_thr (at_ sched) !! i = Some th -> th_cur th = Some (o, p) ->
  exists M, moments sched i o M /\ flow p (callG o) (map fst M).

Definition hist_tr (sched : list nat) : Prop := forall h1 i o r h2, sy_hist (at_ sched) = h1 ++ ERes i o r :: h2 ->
  exists sc1 sc2 M, sched = sc1 ++ i :: sc2 /\ sy_hist (at_ sc1) = h2 /\ moments sc1 i o M /\ callG o r (map fst M).

Lemma ordered_app i M1 M2 : ordered i M2 -> ordered i M1 ->
  (forall m m', In m M1 -> In m' M2 -> exists s3, snd m = snd m' ++ i :: s3) -> ordered i (M1 ++ M2).
Proof.
  intros H2. induction M1 as [|m M1 IH]; cbn [app ordered]; [auto|]. intros [A B] H. split.
  - apply List.Forall_app. split; [exact A|]. apply List.Forall_forall. intros m' Hm. apply H; [left; reflexivity|exact Hm].
  - apply IH; [exact B|]. intros m1 m2 H1 H3. apply H; [right; exact H1|exact H3].
Qed.

Lemma ordered_one i s (c : cmd) (r : res c) : ordered i (map (fun e => (e, s)) (obs_of c r)).
Proof.
  destruct c; cbn; try exact I; try (split; [constructor|exact I]);
    destruct (fst r); cbn; try exact I; split; try constructor.
Qed.

Lemma trace_inv sched : thr_tr sched /\ hist_tr sched.
Proof.
  induction sched as [|j sched [IHt IHh]] using rev_ind.
  { split.
    - intros i th o p Hth Hcur. cbn in Hth. rewrite list_lookup_fmap in Hth. destruct (todos !! i); [|discriminate].
      injection Hth as <-. discriminate.
    - intros h1 i o r h2 H. destruct h1; discriminate. }
  pose proof (after_ok C cap ppl n maxcap todos Hc Hl sched) as (_ & Hthr & _).
  assert (Hold : forall i th o p, i <> j -> sy_thr (at_ sched) !! i = Some th -> th_cur th = Some (o, p) ->
    exists M, moments (sched ++ [j]) i o M /\ flow p (callG o) (map fst M)).
  { intros i th o p Hne Hth Hcur. destruct (IHt _ _ _ _ Hth Hcur) as (M & HM & HF). exists M.
    split; [exact (moments_other _ _ _ _ _ Hne HM)|exact HF]. }
  assert (Hhist : forall h1 i o r h2, sy_hist (at_ sched) = h1 ++ ERes i o r :: h2 ->
    exists sc1 sc2 M, sched ++ [j] = sc1 ++ i :: sc2 /\ sy_hist (at_ sc1) = h2 /\ moments sc1 i o M /\ callG o r (map fst M)).
  { intros h1 i o r h2 E. destruct (IHh _ _ _ _ _ E) as (sc1 & sc2 & M & -> & HM). exists sc1, (sc2 ++ [j]), M.
    rewrite <- app_assoc. auto. }
  destruct (sy_thr (at_ sched) !! j) as [th|] eqn:Hth.
  2:{ assert (E : at_ (sched ++ [j]) = at_ sched) by (rewrite at_snoc; unfold tstep; rewrite Hth; reflexivity).
      split.
      - intros i th o p H Hcur. rewrite E in H. apply (Hold i th); auto. intros ->. congruence.
      - intros h1 i o r h2 H. rewrite E in H. eauto. }
  assert (Hlt : j < length (sy_thr (at_ sched))) by exact (lookup_lt_Some _ _ _ Hth).
  destruct (th_cur th) as [[o [r|e|c k]]|] eqn:Hcur.
  - (* response *)
    assert (E : at_ (sched ++ [j]) = mkSys (st sched) (<[j := mkThread None (th_todo th)]> (sy_thr (at_ sched))) (ERes j o r :: sy_hist (at_ sched)))
      by (rewrite at_snoc; unfold tstep; rewrite Hth, Hcur; reflexivity).
    split.
    + intros i th' o' p H Hcur'. rewrite E in H. cbn in H. destruct (Nat.eq_dec i j) as [->|Hne].
      * rewrite list_lookup_insert in H by exact Hlt. injection H as <-. discriminate.
      * rewrite list_lookup_insert_ne in H by auto. exact (Hold i th' o' p Hne H Hcur').
    + intros h1 i' o' r' h2 H. rewrite E in H. cbn in H. destruct h1 as [|e h1]; cbn in H; injection H as H.
      * subst i' o' r'. subst h2. destruct (IHt _ _ _ _ Hth Hcur) as (M & HM & HF). exists sched, [], M.
        split; [reflexivity|]. split; [reflexivity|]. split; [exact HM|exact HF].
      * eauto.
  - assert (E : at_ (sched ++ [j]) = at_ sched) by (rewrite at_snoc; unfold tstep; rewrite Hth, Hcur; reflexivity).
    split.
    + intros i th' o' p H Hcur'. rewrite E in H. destruct (Nat.eq_dec i j) as [->|Hne]; [|exact (Hold i th' o' p Hne H Hcur')].
      rewrite Hth in H. injection H as <-. rewrite Hcur in Hcur'. injection Hcur' as <- <-.
      exists []. split; [split; [constructor|exact I]|exact I].
    + intros h1 i o' r h2 H. rewrite E in H. eauto.
  - (* command *)
    destruct (exec c (st sched)) as [r s'] eqn:He.
    assert (E : at_ (sched ++ [j]) = mkSys s' (<[j := mkThread (Some (o, k r)) (th_todo th)]> (sy_thr (at_ sched))) (sy_hist (at_ sched)))
      by (rewrite at_snoc; unfold tstep; rewrite Hth, Hcur, He; reflexivity).
    split.
    + intros i th' o' p H Hcur'. rewrite E in H. cbn in H. destruct (Nat.eq_dec i j) as [->|Hne].
      * rewrite list_lookup_insert in H by exact Hlt. injection H as <-. cbn in Hcur'. injection Hcur' as <- <-.
        destruct (IHt _ _ _ _ Hth Hcur) as (M & [HM1 HM2] & HF).
        exists (map (fun e => (e, sched)) (obs_of c r) ++ M). split.
        -- split.
           ++ apply List.Forall_app. split.
              ** apply List.Forall_forall. intros m Hm. apply in_map_iff in Hm as (x & <- & Hx). cbn [fst snd].
                 split.
                 --- split; [exists []; reflexivity|]. split; [exists th; eauto|].
                     exists []. rewrite E. split; [reflexivity|constructor].
                 --- assert (Hs : st (sched ++ [j]) = snd (exec c (st sched))) by (rewrite E, He; reflexivity).
                     pose proof (exec_holds c sched j Hs) as HH. rewrite He in HH. cbn [fst] in HH.
                     rewrite List.Forall_forall in HH. exact (HH x Hx).
              ** eapply List.Forall_impl; [|exact HM1]. intros m [A B]. split; [|exact B].
                 apply inside_same; [exact A|rewrite E; reflexivity].
           ++ apply ordered_app; [exact HM2|apply ordered_one|]. intros m m' Hm Hm'.
              apply in_map_iff in Hm as (x & <- & _). cbn [snd]. rewrite List.Forall_forall in HM1.
              destruct (HM1 m' Hm') as [((s2 & ->) & _) _]. eauto.
        -- rewrite map_app, map_map. cbn [fst]. rewrite map_id. cbn [flow] in HF.
           apply HF. pose proof (exec_answer c (st sched)) as HA. rewrite He in HA. exact HA.
      * rewrite list_lookup_insert_ne in H by auto. exact (Hold i th' o' p Hne H Hcur').
    + intros h1 i' o' r' h2 H. rewrite E in H. cbn in H. eauto.
  - destruct (th_todo th) as [|o os] eqn:Htd.
    { assert (E : at_ (sched ++ [j]) = at_ sched) by (rewrite at_snoc; unfold tstep; rewrite Hth, Hcur, Htd; reflexivity).
      split.
      - intros i th' o' p H Hcur'. rewrite E in H. apply (Hold i th'); auto. intros ->. congruence.
      - intros h1 i o' r h2 H. rewrite E in H. eauto. }
    assert (E : at_ (sched ++ [j]) = mkSys (st sched) (<[j := mkThread (Some (o, op_prog C n o)) os]> (sy_thr (at_ sched))) (EInv j o :: sy_hist (at_ sched)))
      by (rewrite at_snoc; unfold tstep; rewrite Hth, Hcur, Htd; reflexivity).
    split.
    + intros i th' o' p H Hcur'. rewrite E in H. cbn in H. destruct (Nat.eq_dec i j) as [->|Hne].
      * rewrite list_lookup_insert in H by exact Hlt. injection H as <-. cbn in Hcur'. injection Hcur' as <- <-.
        exists []. split; [split; [constructor|exact I]|].
        pose proof (Forall_lookup_1 _ _ _ _ Hthr Hth) as [Hlo _]. rewrite Htd in Hlo. apply Forall_cons in Hlo as [Hlo _].
        eapply flow_mono; [apply flow_op; exact Hlo|]. intros r G' _ HG. split; [exact Hlo|exact HG].
      * rewrite list_lookup_insert_ne in H by auto. exact (Hold i th' o' p Hne H Hcur').
    + intros h1 i' o' r' h2 H. rewrite E in H. cbn in H. destruct h1 as [|e h1]; cbn in H; [discriminate|].
      injection H as _ H. eauto.
Qed.


(** ** What the record says about the memory *)

Section Call.
Context (sc : list nat) (i : nat) (o : op).

(** [M] was recorded before the moment [s] of the call. *)
Definition kn (s : list nat) (M : list (obs * list nat)) : Prop :=
  Forall (fun m => (exists s3, s = snd m ++ i :: s3) /\ inside sc i o (snd m) /\ holds i (fst m) (snd m)) M /\ ordered i M.

Lemma moments_kn M : moments sc i o M -> kn sc M.
Proof.
  intros [H HO]. split; [|exact HO]. eapply List.Forall_impl; [|exact H]. intros m [A B]. split; [|auto]. apply A.
Qed.

Lemma ordered_tail M1 M2 : ordered i (M1 ++ M2) -> ordered i M2.
Proof. induction M1 as [|m M1 IH]; cbn; [auto|]. intros [_ H]. auto. Qed.

Lemma kn_at s M e (P : list obs -> Prop) : kn s M -> At e P (map fst M) ->
  exists s1 s3 M2, s = s1 ++ i :: s3 /\ inside sc i o s1 /\ holds i e s1 /\ kn s1 M2 /\ P (map fst M2).
Proof.
  intros [H HO] (g1 & g2 & HE & HP). apply map_eq_app in HE as (M1 & M2' & -> & _ & HE).
  destruct M2' as [|m M2]; [discriminate|]. cbn in HE. injection HE as <- <-.
  apply List.Forall_app in H as [_ H]. inversion H as [|? ? [(s3 & Hs) [Hin Hh]] HF]; subst.
  apply ordered_tail in HO as [HO1 HO2]. exists (snd m), s3, M2. split; [reflexivity|]. split; [exact Hin|]. split; [exact Hh|].
  split; [|exact HP]. split; [|exact HO2].
  rewrite List.Forall_forall in HF, HO1 |- *. intros m' Hm. destruct (HF m' Hm) as [_ [A B]]. auto.
Qed.

Lemma In_At e G : In e G -> At e (fun _ => True) G.
Proof. intros H. apply in_split in H as (g1 & g2 & ->). exists g1, g2. auto. Qed.

Lemma kn_In s M e : kn s M -> In e (map fst M) ->
  exists s1 s3, s = s1 ++ i :: s3 /\ inside sc i o s1 /\ holds i e s1.
Proof. intros H HI. destruct (kn_at _ _ _ _ H (In_At _ _ HI)) as (s1 & s3 & M2 & A & B & D & _). eauto. Qed.

Lemma kn_tail s M M1 M2 : M = M1 ++ M2 -> kn s M -> kn s M2.
Proof. intros -> [H HO]. split; [apply List.Forall_app in H; apply H|exact (ordered_tail _ _ HO)]. Qed.

Lemma pair_at s t T j : st_tabs (st s) !! t = Some T -> j < t_len T -> exists p, t_pairs T !! j = Some p.
Proof.
  intros HT Hj. destruct (after_inv C cap ppl n maxcap todos Hc Hl s) as (_ & _ & _ & H & _).
  destruct (H _ _ HT) as (_ & HL & _). apply lookup_lt_is_Some_2. lia.
Qed.
Lemma pair_ok_at s t j p : entry (st s) t j = Some p -> clean (fst p) = KINITIAL -> clean (snd p) = VINITIAL.
Proof.
  unfold entry. destruct (st_tabs (st s) !! t) as [T|] eqn:HT; [|discriminate]. intros Hp.
  destruct (after_inv C cap ppl n maxcap todos Hc Hl s) as (_ & _ & _ & H & _).
  destruct (H _ _ HT) as (_ & _ & _ & HV & _).
  pose proof (HV (t_pairs T)) as HF. assert (Hin : In (t_pairs T) (versions T)) by (unfold versions; apply in_or_app; right; left; reflexivity).
  pose proof (Forall_lookup_1 _ _ _ _ (HF Hin) Hp) as (_ & H2 & _). exact H2.
Qed.

Lemma kn_len s M t L : kn s M -> In (IsLen t L) (map fst M) -> 0 < L -> exists T, st_tabs (st s) !! t = Some T /\ t_len T = L.
Proof.
  intros H HI HL. destruct (kn_In _ _ _ H HI) as (s1 & s3 & -> & _ & Hh). cbn in Hh.
  destruct (st_tabs (st s1) !! t) as [T|] eqn:HT; [|lia].
  destruct (length_later C cap ppl n maxcap todos Hc Hl s1 (i :: s3) _ _ HT) as (T' & HT' & HL'). exists T'. split; [exact HT'|congruence].
Qed.

Lemma kn_rng s M t j : kn s M -> Rng t j (map fst M) ->
  exists T p, st_tabs (st s) !! t = Some T /\ j < t_len T /\ t_pairs T !! j = Some p /\ entry (st s) t j = Some p.
Proof.
  intros H (L & HI & Hj). destruct (kn_len _ _ _ _ H HI) as (T & HT & HL); [lia|].
  destruct (pair_at _ _ _ j HT) as (p & Hp); [lia|]. exists T, p. unfold entry. rewrite HT. repeat split; auto. lia.
Qed.

Lemma read_entry s t j c p : entry (st s) t j = Some p -> read_cell (st s) t j c = get_cell c p.
Proof. unfold entry, read_cell. destruct (st_tabs (st s) !! t) as [T|]; [|discriminate]. intros ->. reflexivity. Qed.

Lemma entry_write s t j c w p : entry s t j = Some p -> entry (with_tab t (write_cell j c w) s) t j = Some (set_cell c w p).
Proof.
  unfold entry. cbn. rewrite list_lookup_alter. destruct (st_tabs s !! t) as [T|]; cbn; [|discriminate].
  rewrite list_lookup_alter. intros ->. reflexivity.
Qed.
Lemma only_write s t j c w : only t j s (with_tab t (write_cell j c w) s).
Proof.
  intros t' j' Hne. unfold entry. cbn. destruct (Nat.eq_dec t' t) as [->|Ht].
  - rewrite list_lookup_alter. destruct (st_tabs s !! t) as [T|]; cbn; [|reflexivity].
    destruct (Nat.eq_dec j' j) as [->|Hj]; [congruence|]. rewrite list_lookup_alter_ne by auto. reflexivity.
  - rewrite list_lookup_alter_ne by auto. reflexivity.
Qed.
Lemma only_refl s t j : only t j s s.
Proof. intros t' j' _. reflexivity. Qed.

Lemma kn_keyed s M t j k : kn s M -> isclean k -> k <> KINITIAL -> Keyed t j k (map fst M) ->
  exists p, entry (st s) t j = Some p /\ clean (fst p) = k.
Proof.
  intros H Hk Hki [(w & Hw & HA)|HA]; destruct (kn_at _ _ _ _ H HA) as (s1 & s3 & M2 & -> & _ & Hh & Hkn & HR);
    destruct (kn_rng _ _ _ _ Hkn HR) as (T & p & _ & _ & _ & Hp); cbn in Hh; destruct Hh as [Hrd Hst].
  - rewrite (read_entry _ _ _ _ _ Hp) in Hrd. cbn in Hrd.
    destruct (entry_later C cap ppl n maxcap todos Hc Hl s1 (i :: s3) _ _ _ Hp) as (p' & Hp' & [Hr _]).
    exists p'. split; [exact Hp'|]. rewrite Hr; congruence.
  - pose proof (entry_write (st s1) t j CKey (dirty k) p Hp) as Hp1. rewrite <- Hst in Hp1.
    destruct (entry_later C cap ppl n maxcap todos Hc Hl (s1 ++ [i]) s3 _ _ _ Hp1) as (p' & Hp' & [Hr _]).
    rewrite <- app_assoc in Hp'. exists p'. split; [exact Hp'|]. cbn in Hr. rewrite clean_dirty, (clean_id _ Hk) in Hr. auto.
Qed.

Lemma successor_mono s1 s2 a b : successor (st s1) a b -> successor (st (s1 ++ s2)) a b.
Proof.
  intros (T & HT & Hn). destruct (successor_later C cap ppl n maxcap todos Hc Hl s1 s2 _ _ _ HT Hn) as [(T' & A & B) _]. exists T'. auto.
Qed.

Lemma top_at s : exists T, st_tabs (st s) !! st_top (st s) = Some T.
Proof.
  destruct (after_inv C cap ppl n maxcap todos Hc Hl s) as (_ & _ & H & _). cbn in H.
  destruct (lookup_lt_is_Some_2 _ _ H) as (T & HT). eauto.
Qed.

Lemma succ_ex s a b : successor (st s) a b -> exists T, st_tabs (st s) !! b = Some T.
Proof.
  intros (T & HT & Hn). destruct (successor_later C cap ppl n maxcap todos Hc Hl s [] _ _ _ HT Hn) as [_ (X & HX & _)]. eauto.
Qed.

Lemma rtc_ex s a b : rtc (successor (st s)) a b -> (exists T, st_tabs (st s) !! a = Some T) -> exists T, st_tabs (st s) !! b = Some T.
Proof. induction 1 as [a|a b c H1 H2 IH]; [auto|]. intros _. apply IH. exact (succ_ex _ _ _ H1). Qed.

Lemma kn_reach t G : Reach t G -> forall s M, map fst M = G -> kn s M ->
  exists s0 s1, s = s0 ++ s1 /\ inside sc i o s0 /\ rtc (successor (st s)) (st_top (st s0)) t /\ exists T, st_tabs (st s) !! t = Some T.
Proof.
  induction 1 as [t G HI|a b G H IH HN|a b g1 g2 H IH]; intros s M HM Hkn.
  - rewrite <- HM in HI. destruct (kn_In _ _ _ Hkn HI) as (s1 & s3 & -> & Hin & Hh). cbn in Hh. exists s1, (i :: s3).
    split; [reflexivity|]. split; [exact Hin|]. rewrite Hh. split; [apply rtc_refl|].
    destruct (top_at s1) as (T & HT). rewrite Hh in HT.
    destruct (tab_later C cap ppl n maxcap todos Hc Hl s1 (i :: s3) _ _ HT) as (T' & HT' & _). eauto.
  - destruct (IH _ _ HM Hkn) as (s0 & s1 & -> & Hin & HR & _). exists s0, s1. split; [reflexivity|]. split; [exact Hin|].
    rewrite <- HM in HN. destruct (kn_In _ _ _ Hkn HN) as (sa & sb & Es & _ & [Hh _]).
    assert (HS : successor (st (s0 ++ s1)) a b).
    { rewrite Es. apply successor_mono. destruct (st_tabs (st sa) !! a) as [T|] eqn:HT; [|discriminate]. exists T. auto. }
    split; [exact (rtc_r _ _ _ HR HS)|exact (succ_ex _ _ _ HS)].
  - assert (HA : At (Linked a b) (fun g => g = g2) (map fst M)) by (exists g1, g2; auto).
    destruct (kn_at _ _ _ _ Hkn HA) as (s1 & s3 & M2 & -> & _ & Hh & Hkn2 & HM2). cbn in Hh.
    destruct (IH _ _ HM2 Hkn2) as (s0 & sx & -> & Hin & HR & (T & HT)).
    exists s0, (sx ++ i :: s3). rewrite <- app_assoc. split; [reflexivity|]. split; [exact Hin|].
    assert (HS : successor (st ((s0 ++ sx) ++ [i])) a b).
    { rewrite Hh. exists (set_new (Some b) T). split; [|destruct T; reflexivity]. cbn. rewrite list_lookup_alter, HT. reflexivity. }
    apply (successor_mono _ s3) in HS. replace (((s0 ++ sx) ++ [i]) ++ s3) with (s0 ++ sx ++ i :: s3) in HS by (rewrite <- !app_assoc; reflexivity).
    split; [|exact (succ_ex _ _ _ HS)]. eapply rtc_r; [|exact HS].
    eapply rtc_subrel; [|exact HR]. intros x y Hxy. apply (successor_mono _ (i :: s3)) in Hxy. rewrite <- app_assoc in Hxy. exact Hxy.
Qed.

(** ** Positions *)

Lemma pos_place e h d : pos h (2 ^ e) d = place h (2 ^ e) d.
Proof.
  unfold place. assert (H2 : N.of_nat (2 ^ e) = (2 ^ N.of_nat e)%N) by (rewrite Nat2N.inj_pow; reflexivity).
  assert (Hnz : (2 ^ N.of_nat e <> 0)%N) by (apply N.pow_nonzero; discriminate). rewrite H2.
  induction d as [|d IH]; cbn [pos]; rewrite mask_pow2; [f_equal; f_equal; lia|].
  rewrite IH, N2Nat.id. f_equal. rewrite N.add_mod_idemp_l by exact Hnz. f_equal. lia.
Qed.

Lemma pos_at s t T h d : st_tabs (st s) !! t = Some T -> pos h (t_len T) d = place h (t_len T) d.
Proof.
  intros HT. destruct (capacity C cap ppl n maxcap todos Hc Hl s _ _ HT) as (e & ->).
  destruct Hc as [(e0 & -> & _) _].
  rewrite <- Nat.pow_add_r. apply pos_place.
Qed.


(** ** Moments *)

Section Done.
Context (sched sc2 : list nat) (h : list event) (M : list (obs * list nat)).
Hypothesis (Hsched : sched = sc ++ i :: sc2) (Hh : sy_hist (at_ sc) = h) (HM : moments sc i o M).
Notation mom P := (moment at_ sched i o h P).

Lemma mk_moment s1 s3 M2 t (Q : nat -> state -> state -> state -> Prop) : sc = s1 ++ i :: s3 -> inside sc i o s1 -> kn s1 M2 ->
  Reach t (map fst M2) -> Q t (st s1) (st (s1 ++ [i])) (st sc) -> mom Q.
Proof.
  intros Hs Hin Hkn HR HQ. destruct (kn_reach _ _ HR _ _ eq_refl Hkn) as (s0 & s1' & -> & Hin0 & Hrtc & _).
  exists s0, s1', s3, sc2, t. rewrite <- app_assoc in Hs, HQ. rewrite <- Hs.
  split; [rewrite Hsched, Hs, <- !app_assoc; reflexivity|]. split; [exact Hh|].
  split; [apply Hin0|]. split; [apply Hin|]. split; [|auto]. rewrite <- Hh. apply Hin0.
Qed.

Lemma sw_clean w w' : same_word w w' <-> clean w = clean w'.
Proof. reflexivity. Qed.

Lemma pth_at s M2 t hh len k c : isclean k -> kn s M2 -> Pth t hh len k c (map fst M2) ->
  exists T, st_tabs (st s) !! t = Some T /\ t_len T = len /\ forall d, d < c -> passes T hh k d.
Proof.
  intros Hk Hkn (_ & HL & HP). destruct (kn_at _ _ _ _ Hkn HL) as (s1 & s3 & M3 & Es & _ & Hlen & Hkn3 & HR).
  destruct (kn_reach _ _ HR _ _ eq_refl Hkn3) as (_ & _ & _ & _ & _ & (T1 & HT1)). cbn in Hlen. rewrite HT1 in Hlen.
  destruct (length_later C cap ppl n maxcap todos Hc Hl s1 (i :: s3) _ _ HT1) as (T & HT & HTl). rewrite <- Es in HT.
  exists T. split; [exact HT|]. split; [congruence|]. intros d Hd. destruct (HP d Hd) as (k' & (Hck & Hki) & Hkk & HK).
  destruct (kn_keyed _ _ _ _ _ Hkn Hck Hki HK) as (p & Hp & Hpk). unfold entry in Hp. rewrite HT in Hp.
  exists p. rewrite <- (pos_at _ _ _ _ _ HT), HTl, <- Hlen. split; [exact Hp|].
  rewrite !sw_clean, Hpk, (clean_id _ KINITIAL_clean), (clean_id _ Hk). auto.
Qed.

Lemma search_unused t len d w hh k : isclean k -> clean w = KINITIAL ->
  At (Saw t (pos hh len d) CKey w) (fun g => Rng t (pos hh len d) g /\ Pth t hh len k d g) (map fst M) ->
  mom (searches hh k NOTFOUND).
Proof.
  intros Hk Hw HA. destruct (kn_at _ _ _ _ (moments_kn _ HM) HA) as (s1 & s3 & M2 & Es & Hin & [Hrd Hst] & Hkn & HR & HP).
  destruct (pth_at _ _ _ _ _ _ _ Hk Hkn HP) as (T & HT & HTl & Hpass).
  destruct (kn_rng _ _ _ _ Hkn HR) as (T' & p & HT' & _ & Hp & He). rewrite HT in HT'. injection HT' as <-.
  apply (mk_moment s1 s3 M2 t); auto; [apply HP|]. split; [exact Hst|]. exists T, d. split; [exact HT|]. split; [exact Hpass|].
  right. left. exists p. rewrite <- (pos_at _ _ _ _ _ HT), HTl. split; [exact Hp|]. split; [|reflexivity].
  rewrite (read_entry _ _ _ _ _ He) in Hrd. cbn in Hrd. apply sw_clean. rewrite Hrd, Hw. reflexivity.
Qed.

Lemma get_moment hh k r : isclean k -> k <> KINITIAL -> getG hh k r (map fst M) -> mom (searches hh k r).
Proof.
  intros Hk Hki (t & len & c & [(w & HA & Hm & ->)|[(w & HA & Hw & ->)|[HA ->]]]).
  - destruct (kn_at _ _ _ _ (moments_kn _ HM) HA) as (s1 & s3 & M2 & Es & Hin & [Hrd Hst] & Hkn & HP & HK & HR).
    destruct (pth_at _ _ _ _ _ _ _ Hk Hkn HP) as (T & HT & HTl & Hpass).
    destruct (kn_keyed _ _ _ _ _ Hkn Hk Hki HK) as (p & He & Hpk).
    apply (mk_moment s1 s3 M2 t); auto; [apply HP|]. split; [exact Hst|]. exists T, c. split; [exact HT|]. split; [exact Hpass|].
    left. exists p. rewrite <- (pos_at _ _ _ _ _ HT), HTl. pose proof He as Hp. unfold entry in Hp. rewrite HT in Hp. split; [exact Hp|].
    rewrite (read_entry _ _ _ _ _ He) in Hrd. cbn in Hrd. subst w. split; [apply sw_clean; rewrite Hpk, (clean_id _ Hk); reflexivity|].
    split; [|reflexivity]. rewrite isMarked_clean_mig in Hm. exact Hm.
  - apply (search_unused t len c w); auto. apply (At_mono _ _ _ _ HA). tauto.
  - destruct (kn_at _ _ _ _ (moments_kn _ HM) HA) as (s1 & s3 & M2 & Es & Hin & [Hrd Hst] & Hkn & HP & HL).
    destruct (pth_at _ _ _ _ _ _ _ Hk Hkn HP) as (T & HT & HTl & Hpass).
    apply (mk_moment s1 s3 M2 t); auto; [apply HP|]. split; [exact Hst|]. exists T, (S c). split; [exact HT|]. split; [exact Hpass|].
    right. right. rewrite HT in Hrd. split; [exact Hrd|]. split; [reflexivity|]. rewrite HTl.
    destruct HL as [HL|HL]; [left; exact HL|right]. exists c.
    destruct (kn_keyed _ _ _ _ _ Hkn KTOMBSTONE_clean (fun H => ltac:(discriminate H)) HL) as (p & He & Hpk).
    exists p. split; [reflexivity|]. rewrite <- HTl, <- (pos_at _ _ _ _ _ HT), HTl. unfold entry in He. rewrite HT in He. split; [exact He|].
    apply sw_clean. rewrite Hpk. reflexivity.
Qed.

Lemma saw_moment t j w k : isclean k -> k <> KINITIAL ->
  At (Saw t j CVal w) (fun g => Rng t j g /\ Reach t g /\ Keyed t j k g) (map fst M) -> mom (step_on k w w).
Proof.
  intros Hk Hki HA. destruct (kn_at _ _ _ _ (moments_kn _ HM) HA) as (s1 & s3 & M2 & Es & Hin & [Hrd Hst] & Hkn & _ & HR & HK).
  destruct (kn_keyed _ _ _ _ _ Hkn Hk Hki HK) as (p & He & Hpk). apply (mk_moment s1 s3 M2 t); auto.
  exists j, p, p. rewrite Hst. rewrite (read_entry _ _ _ _ _ He) in Hrd. cbn in Hrd.
  repeat split; auto using only_refl. apply sw_clean. rewrite Hpk, (clean_id _ Hk). reflexivity.
Qed.

Lemma did_moment t j V x k : isclean k -> k <> KINITIAL ->
  At (Did t j CVal V (dirty x)) (fun g => Rng t j g /\ Reach t g /\ Keyed t j k g) (map fst M) -> mom (step_on k V (dirty x)).
Proof.
  intros Hk Hki HA. destruct (kn_at _ _ _ _ (moments_kn _ HM) HA) as (s1 & s3 & M2 & Es & Hin & [Hrd Hst] & Hkn & _ & HR & HK).
  destruct (kn_keyed _ _ _ _ _ Hkn Hk Hki HK) as (p & He & Hpk). apply (mk_moment s1 s3 M2 t); auto.
  exists j, p, (fst p, dirty x). rewrite Hst. rewrite (read_entry _ _ _ _ _ He) in Hrd. cbn in Hrd.
  split; [exact He|]. split; [exact (entry_write _ _ _ CVal _ _ He)|]. split; [apply only_write|].
  repeat split; auto. apply sw_clean. rewrite Hpk, (clean_id _ Hk). reflexivity.
Qed.

Lemma later_moment t j w k : isclean k -> k <> KINITIAL -> Keyed t j k (map fst M) ->
  At (Saw t j CVal w) (fun g => Rng t j g /\ Reach t g) (map fst M) ->
  mom (step_on k w w) \/ (clean w = VINITIAL /\ mom (still_unused k)).
Proof.
  intros Hk Hki HK HA. destruct (kn_at _ _ _ _ (moments_kn _ HM) HA) as (s1 & s3 & M2 & Es & Hin & [Hrd Hst] & Hkn & HR & HRe).
  destruct (kn_rng _ _ _ _ Hkn HR) as (T & p & HT & _ & _ & He). rewrite (read_entry _ _ _ _ _ He) in Hrd. cbn in Hrd.
  destruct (kn_keyed _ _ _ _ _ (moments_kn _ HM) Hk Hki HK) as (q & Hq & Hqk).
  destruct (entry_later C cap ppl n maxcap todos Hc Hl s1 (i :: s3) _ _ _ He) as (q' & Hq' & [Hr _]). rewrite <- Es, Hq in Hq'.
  injection Hq' as <-. destruct (N.eq_dec (clean (fst p)) KINITIAL) as [Hpi|Hpi].
  - right. pose proof (pair_ok_at _ _ _ _ He Hpi) as Hv. split; [congruence|]. apply (mk_moment s1 s3 M2 t); auto.
    exists j, p, q. split; [exact He|]. split; [apply sw_clean; rewrite Hpi; reflexivity|].
    split; [apply sw_clean; rewrite Hv; reflexivity|]. split; [exact Hst|]. split; [exact Hq|].
    apply sw_clean. rewrite Hqk, (clean_id _ Hk). reflexivity.
  - left. apply (mk_moment s1 s3 M2 t); auto. exists j, p, p. rewrite Hst. repeat split; auto using only_refl.
    apply sw_clean. rewrite <- (Hr Hpi), Hqk, (clean_id _ Hk). reflexivity.
Qed.

Lemma put_moment hh k nv ov (new : N -> N -> Prop) r : isclean k -> k <> KINITIAL -> nv <> VINITIAL -> putG hh k nv ov new r (map fst M) ->
  (nv = VTOMBSTONE /\ r = VTOMBSTONE /\ mom (searches hh k NOTFOUND)) \/
  (nv <> VTOMBSTONE /\ r = VINITIAL /\ noMatch r ov = true /\ mom (still_unused k)) \/
  exists w w', mom (step_on k w w') /\
    ((w' = w /\ clean w = nv /\ r = nv) \/ (w' = w /\ noMatch r ov = true /\ (r = clean w \/ r = w)) \/
     (exists x, new w x /\ w' = dirty x /\ noMatch w ov = false /\ r = if (w =? VINITIAL)%N && negb (ov =? VINITIAL)%N then VTOMBSTONE else w)).
Proof.
  intros Hk Hki Hnv [(Hn & Hr & t & len & d & w & Hw & HA)|[(t & j & w & HK & HD)|[(t & j & HA & Hm)|(t & j & V & x & HA & Hx & Hm & Hr)]]].
  - left. split; [exact Hn|]. split; [exact Hr|]. exact (search_unused _ _ _ _ _ _ Hk Hw HA).
  - destruct HK as [HA|(Hnt & HK & HA)].
    + right. right. exists w, w. split; [exact (saw_moment _ _ _ _ Hk Hki HA)|]. tauto.
    + destruct (later_moment _ _ _ _ Hk Hki HK HA) as [HS|[Hw HS]].
      * right. right. exists w, w. split; [exact HS|]. tauto.
      * right. left. destruct HD as [[-> HD]|[Hm ->]]; [congruence|]. auto.
  - right. right. exists r, r. split; [exact (saw_moment _ _ _ _ Hk Hki HA)|]. tauto.
  - right. right. exists V, (dirty x). split; [exact (did_moment _ _ _ _ _ Hk Hki HA)|]. right. right. exists x. auto.
Qed.
End Done.
End Call.

Lemma noMatch_any r : noMatch r NO_MATCH_OLD = false.
Proof. unfold noMatch. rewrite N.eqb_refl. reflexivity. Qed.
Lemma noMatch_absent r : noMatch r VTOMBSTONE = negb (r =? VTOMBSTONE)%N && negb (r =? VINITIAL)%N.
Proof.
  unfold noMatch. change (VTOMBSTONE =? NO_MATCH_OLD)%N with false. change (VTOMBSTONE =? MATCH_ANY)%N with false.
  rewrite N.eqb_refl. cbn. rewrite !andb_true_r, orb_false_r. reflexivity.
Qed.
Lemma noMatch_legal r v : legal_val v -> noMatch r v = negb (r =? v)%N.
Proof.
  intros Hv. destruct (legal_val_neq _ Hv) as (H1 & H2 & H3 & H4 & H5). unfold noMatch.
  rewrite (proj2 (N.eqb_neq v NO_MATCH_OLD)), (proj2 (N.eqb_neq v MATCH_ANY)), (proj2 (N.eqb_neq v VTOMBSTONE)) by assumption.
  cbn. rewrite orb_true_r, !andb_true_r. reflexivity.
Qed.

Lemma reported_new w : reported (if (w =? VINITIAL)%N then VTOMBSTONE else w) = reported w.
Proof. destruct (N.eqb_spec w VINITIAL) as [->|H]; reflexivity. Qed.
Lemma reported_legal v : legal_val v -> reported v = v.
Proof. intros Hv. destruct (legal_val_neq _ Hv) as (_ & H & _). unfold reported. rewrite (proj2 (N.eqb_neq _ _) H). reflexivity. Qed.

Lemma key_facts k : legal_key k -> isclean k /\ k <> KINITIAL.
Proof. intros H. destruct (legal_client _ H) as (A & B & _). auto. Qed.

Lemma legal_facts v : legal_val v -> isclean v /\ v <> VINITIAL /\ v <> VTOMBSTONE.
Proof. intros H. destruct (legal_val_neq _ H) as (A & B & _). destruct H as (_ & H & _). auto. Qed.

(** What the moments of a call explain. *)
Theorem call_moment sched h1 i o r h2 : sy_hist (at_ sched) = h1 ++ ERes i o r :: h2 ->
  explained C o r (moment at_ sched i o h2).
Proof.
  intros H. destruct (trace_inv sched) as [_ HT]. destruct (HT _ _ _ _ _ H) as (sc1 & sc2 & M & Es & Eh & HM & Hlo & HG).
  pose proof (fun hh k r Hk Hki => get_moment sc1 i o sched sc2 h2 M Es Eh HM hh k r Hk Hki) as Hget.
  pose proof (fun hh k nv ov new r Hk Hki Hnv => put_moment sc1 i o sched sc2 h2 M Es Eh HM hh k nv ov new r Hk Hki Hnv) as Hput.
  assert (HTI : VTOMBSTONE <> VINITIAL) by discriminate. assert (HAI : INCREMENT_ARG <> VINITIAL) by (intros E; vm_compute in E; discriminate E).
  destruct o as [k|k|k v|k v|k|k v|k old v|k|]; cbn [legal_op] in Hlo; cbn [opG] in HG; cbn [explained];
    try exact I; destruct r as [x|b]; try exact HG; try contradiction.
  - destruct (key_facts _ Hlo) as [Hk Hki]. exact (Hget _ _ _ Hk Hki HG).
  - destruct (key_facts _ Hlo) as [Hk Hki]. destruct HG as (v & HG & Hb). exists v. split; [exact (Hget _ _ _ Hk Hki HG)|exact Hb].
  - destruct Hlo as [Hlk Hlv]. destruct (key_facts _ Hlk) as [Hk Hki]. destruct (legal_facts _ Hlv) as (Hvc & Hvi & Hvt).
    destruct HG as (y & -> & HG). destruct (Hput _ _ _ _ _ _ Hk Hki Hvi HG) as [(A & _)|[(_ & _ & A & _)|(w & w' & HS & HW)]];
      [congruence|rewrite noMatch_any in A; discriminate|]. exists w, w'. split; [exact HS|]. cbn [writes].
    destruct HW as [(-> & Hw & ->)|[(_ & A & _)|(x & Hx & -> & _ & ->)]].
    + right. split; [reflexivity|]. split.
      * apply sw_clean. rewrite Hw, (clean_id _ Hvc). reflexivity.
      * apply reported_legal. exact Hlv.
    + rewrite noMatch_any in A. discriminate.
    + left. rewrite Hx. split; [reflexivity|]. rewrite andb_true_r. apply reported_new.
  - destruct Hlo as [Hlk Hlv]. destruct (key_facts _ Hlk) as [Hk Hki]. destruct (legal_facts _ Hlv) as (Hvc & Hvi & Hvt).
    destruct HG as (y & -> & HG). destruct (Hput _ _ _ _ _ _ Hk Hki Hvi HG) as [(A & _)|[(_ & -> & A & _)|(w & w' & HS & HW)]];
      [congruence|discriminate|]. exists w, w'. split; [exact HS|]. cbn [writes].
    destruct HW as [(-> & Hw & ->)|[(-> & A & Hy)|(x & Hx & -> & A & ->)]].
    + right. split; [reflexivity|]. rewrite reported_legal by exact Hlv. split; [apply sw_clean; rewrite Hw, (clean_id _ Hvc); reflexivity|].
      intros [?|?]; contradiction.
    + right. split; [reflexivity|]. rewrite noMatch_absent in A. apply andb_true_iff in A as [A1 A2].
      apply negb_true_iff in A1, A2. unfold reported. rewrite A1. apply N.eqb_neq in A1, A2.
      split; [|intros [?|?]; contradiction]. apply sw_clean. destruct Hy as [-> | ->]; [rewrite clean_clean|]; reflexivity.
    + left. rewrite Hx. rewrite noMatch_absent in A. rewrite andb_true_r, reported_new.
      apply andb_false_iff in A as [A|A]; apply negb_false_iff, N.eqb_eq in A; subst w; (split; [unfold no_value; auto|]; split; reflexivity).
  - destruct (key_facts _ Hlo) as [Hk Hki]. destruct HG as (x & (y & -> & HG) & ->).
    destruct (Hput _ _ _ _ _ _ Hk Hki HTI HG) as [(_ & -> & HS)|[(_ & _ & A & _)|(w & w' & HS & HW)]];
      [left; split; [reflexivity|exact HS]|rewrite noMatch_any in A; discriminate|right].
    exists w, w'. split; [exact HS|]. cbn [writes].
    destruct HW as [(-> & Hw & ->)|[(_ & A & _)|(x & -> & -> & _ & ->)]].
    + right. split; [reflexivity|]. split; [|reflexivity]. apply sw_clean. rewrite Hw. reflexivity.
    + rewrite noMatch_any in A. discriminate.
    + left. split; [reflexivity|]. rewrite andb_true_r, reported_new. unfold reported. destruct (N.eqb_spec w VTOMBSTONE) as [->|]; reflexivity.
  - destruct Hlo as [Hlk Hlv]. destruct (key_facts _ Hlk) as [Hk Hki]. destruct (legal_facts _ Hlv) as (Hvc & Hvi & Hvt).
    destruct HG as (x & (y & -> & HG) & ->).
    assert (HNF : (NOTFOUND =? v)%N = false) by (apply N.eqb_neq; intros E; apply Hvi; rewrite <- E; reflexivity).
    destruct (Hput _ _ _ _ _ _ Hk Hki HTI HG) as [(_ & -> & HS)|[(A & _)|(w & w' & HS & HW)]];
      [left; split; [exact HNF|exact HS]|congruence|right]. exists w, w'. split; [exact HS|]. cbn [writes].
    destruct HW as [(-> & Hw & ->)|[(-> & A & Hy)|(x & -> & -> & A & ->)]].
    + right. split; [reflexivity|]. split; [|exact HNF]. intros ->. rewrite (clean_id _ Hvc) in Hw. contradiction.
    + right. split; [reflexivity|]. rewrite (noMatch_legal _ _ Hlv) in A. apply negb_true_iff, N.eqb_neq in A. split.
      * intros ->. destruct Hy as [-> | ->]; [rewrite (clean_id _ Hvc) in A|]; congruence.
      * unfold reported. destruct (N.eqb_spec y VTOMBSTONE); [exact HNF|apply N.eqb_neq; exact A].
    + left. rewrite (noMatch_legal _ _ Hlv) in A. apply negb_false_iff, N.eqb_eq in A. subst w.
      rewrite (proj2 (N.eqb_neq v VINITIAL) Hvi). cbn [andb]. rewrite (reported_legal _ Hlv), N.eqb_refl. auto.
  - destruct Hlo as (Hlk & Hlo & Hlv). destruct (key_facts _ Hlk) as [Hk Hki]. destruct (legal_facts _ Hlv) as (Hvc & Hvi & Hvt).
    destruct (legal_facts _ Hlo) as (Hoc & Hoi & Hot). destruct HG as (x & (y & -> & HG) & ->).
    destruct (Hput _ _ _ _ _ _ Hk Hki Hvi HG) as [(A & _)|[(_ & -> & A & HS)|(w & w' & HS & HW)]].
    + congruence.
    + left. split; [|exact HS]. apply N.eqb_neq. intros E. apply Hoi. rewrite <- E. reflexivity.
    + right. exists w, w'. split; [exact HS|]. cbn [writes].
      destruct HW as [(-> & Hw & ->)|[(-> & A & Hy)|(x & -> & -> & A & ->)]].
      * right. left. split; [reflexivity|]. split; [apply sw_clean; rewrite Hw, (clean_id _ Hvc); reflexivity|].
        rewrite (reported_legal _ Hlv). reflexivity.
      * right. right. split; [reflexivity|]. rewrite (noMatch_legal _ _ Hlo) in A. apply negb_true_iff, N.eqb_neq in A. split.
        -- intros ->. destruct Hy as [-> | ->]; [rewrite (clean_id _ Hoc) in A|]; congruence.
        -- unfold reported. apply N.eqb_neq. destruct (N.eqb_spec y VTOMBSTONE); [|exact A]. intros E. apply Hoi. rewrite <- E. reflexivity.
      * left. rewrite (noMatch_legal _ _ Hlo) in A. apply negb_false_iff, N.eqb_eq in A. subst w.
        rewrite (proj2 (N.eqb_neq old VINITIAL) Hoi). cbn [andb]. rewrite (reported_legal _ Hlo), N.eqb_refl. auto.
  - destruct (key_facts _ Hlo) as [Hk Hki]. destruct HG as (y & -> & HG).
    destruct (Hput _ _ _ _ _ _ Hk Hki HAI HG) as [(A & _)|[(_ & _ & A & _)|(w & w' & HS & HW)]];
      [vm_compute in A; discriminate A|rewrite noMatch_any in A; discriminate|]. exists w, w'. split; [exact HS|]. cbn [writes].
    destruct HW as [(-> & Hw & ->)|[(_ & A & _)|(x & Hx & -> & _ & ->)]].
    + right. right. right. split; [reflexivity|]. split; [|reflexivity]. apply sw_clean. rewrite Hw. reflexivity.
    + rewrite noMatch_any in A. discriminate.
    + rewrite andb_true_r, reported_new. destruct Hx as [-> | Hx]; [left; auto|right]. unfold incr_of in Hx. clear - Hx. subst x.
      destruct (N.eqb_spec w VINITIAL) as [->|Hwi]; [left; split; [left; reflexivity|]; split; reflexivity|].
      destruct (N.eqb_spec w VTOMBSTONE) as [->|Hwt]; [left; split; [right; reflexivity|]; split; reflexivity|].
      right. left. split; [intros [?|?]; contradiction|]. cbn [orb]. change BITS_MARKED with 3%N. rewrite next_some.
      split; [reflexivity|]. unfold reported. rewrite (proj2 (N.eqb_neq _ _) Hwt). reflexivity.
Qed.


Lemma moment_mono sched i o h (P Q : nat -> state -> state -> state -> Prop) : (forall t s s' e, P t s s' e -> Q t s s' e) ->
  moment at_ sched i o h P -> moment at_ sched i o h Q.
Proof.
  intros HPQ (s0 & s1 & s2 & s3 & t & A & B & D & E & F & G & H). exists s0, s1, s2, s3, t. repeat (split; [assumption|]). auto.
Qed.

(** C14, the part that holds *)
Lemma absent_moment sched h1 i k v r h2 : sy_hist (at_ sched) = h1 ++ ERes i (OPutIfAbsent k v) (RVal r) :: h2 -> r <> NOTFOUND ->
  same_word r VTOMBSTONE \/ same_word r VINITIAL \/
  moment at_ sched i (OPutIfAbsent k v) h2 (fun t s s' e => mapped s k /\ step_on k (clearMark r DirtyFlag) (clearMark r DirtyFlag) t s s' e \/
    mapped s k /\ step_on k (setMark r DirtyFlag) (setMark r DirtyFlag) t s s' e).
Proof.
  intros H Hr. destruct (write_supplied C cap ppl n maxcap todos Hc Hl _ _ _ _ _ k r H) as [Hu _]; [eauto|].
  destruct (call_moment _ _ _ _ _ _ H) as (w & w' & HS & HW).
  assert (Hlo : legal_op (OPutIfAbsent k v)).
  { destruct (trace_inv sched) as [_ HT]. destruct (HT _ _ _ _ _ H) as (_ & _ & _ & _ & _ & _ & Hlo & _). exact Hlo. }
  destruct (key_facts _ (proj1 Hlo)) as [Hk Hki].
  destruct HW as [(_ & _ & ->)|(-> & Hw & _)]; [congruence|].
  destruct (N.eq_dec (clean r) VTOMBSTONE) as [E|Et]; [left; apply sw_clean; rewrite E; reflexivity|].
  destruct (N.eq_dec (clean r) VINITIAL) as [E|Ei]; [right; left; apply sw_clean; rewrite E; reflexivity|].
  right. right. apply (moment_mono _ _ _ _ _ _) with (2 := HS). intros t s s' e HP.
  assert (HMp : mapped s k).
  { destruct HP as (j & p & p' & A & _ & _ & D & E & _). exists t, j, p. split; [exact A|].
    apply sw_clean in D. split; [change (clean (fst p) = k); rewrite D; exact (clean_id _ Hk)|].
    assert (Ep : payload (snd p) = clean r).
    { unfold payload. rewrite E. apply sw_clean in Hw. change (clearMark (clean w) MigrationFlag = clean r). rewrite Hw.
      apply unmark_id. unfold unmarked. rewrite isMarked_clean_mig. exact Hu. }
    rewrite Ep. auto. }
  apply sw_clean in Hw. destruct (isMarked w DirtyFlag) eqn:Hd.
  - right. split; [exact HMp|]. assert (Ew : dirty r = w) by (rewrite <- (dirty_clean r), <- Hw, dirty_clean; exact (dirty_id _ Hd)).
    change (setMark r DirtyFlag) with (dirty r). rewrite Ew. exact HP.
  - left. split; [exact HMp|]. change (clearMark r DirtyFlag) with (clean r). rewrite <- Hw, (clean_id w Hd). exact HP.
Qed.

End Run.

Lemma c44_one_step : forall C cap ppl n maxcap todos sched h1 i o r h2,
  good_cap cap maxcap -> Forall (Forall legal_op) todos ->
  sy_hist (after C n (init_state cap ppl maxcap) todos sched) = h1 ++ ERes i o r :: h2 ->
  explained C o r (moment (after C n (init_state cap ppl maxcap) todos) sched i o h2).
Proof. intros C cap ppl n maxcap todos sched h1 i o r h2 Hc Hl. exact (call_moment C cap ppl n maxcap todos Hc Hl sched h1 i o r h2). Qed.

Lemma c14_present : forall C cap ppl n maxcap todos sched h1 i k v r h2,
  good_cap cap maxcap -> Forall (Forall legal_op) todos ->
  sy_hist (after C n (init_state cap ppl maxcap) todos sched) = h1 ++ ERes i (OPutIfAbsent k v) (RVal r) :: h2 ->
  r <> NOTFOUND ->
  same_word r VTOMBSTONE \/ same_word r VINITIAL \/
  moment (after C n (init_state cap ppl maxcap) todos) sched i (OPutIfAbsent k v) h2 (fun t s s' e =>
    mapped s k /\ step_on k (clearMark r DirtyFlag) (clearMark r DirtyFlag) t s s' e \/
    mapped s k /\ step_on k (setMark r DirtyFlag) (setMark r DirtyFlag) t s s' e).
Proof. intros C cap ppl n maxcap todos sched h1 i k v r h2 Hc Hl. exact (absent_moment C cap ppl n maxcap todos Hc Hl sched h1 i k v r h2). Qed.

(** ** A concrete execution *)

Definition tx_todos : list (list op) :=
  [[OPut 24 80; OGet 24; OReplace 24 88 96; ORemove 24]; [OPutIfAbsent 24 88; OContains 24; OIncrement 32; ORemoveVal 24 96]]%N.
Definition tx_sched : list (nat * nat) := flat_map (fun _ => [(0, 7); (1, 7)]) (seq 0 20).
Lemma tx_hist : Forall (Forall legal_op) tx_todos /\ sy_hist (cw_after tx_todos tx_sched) =
  [ERes 1 (ORemoveVal 24 96) (RBool false); ERes 0 (ORemove 24) (RBool true); EInv 1 (ORemoveVal 24 96);
   ERes 1 (OIncrement 32) (RVal NOTFOUND); EInv 0 (ORemove 24); ERes 0 (OReplace 24 88 96) (RBool false);
   EInv 0 (OReplace 24 88 96); ERes 0 (OGet 24) (RVal 80); EInv 0 (OGet 24); ERes 0 (OPut 24 80) (RVal 88);
   EInv 1 (OIncrement 32); ERes 1 (OContains 24) (RBool true); EInv 1 (OContains 24);
   ERes 1 (OPutIfAbsent 24 88) (RVal NOTFOUND); EInv 1 (OPutIfAbsent 24 88); EInv 0 (OPut 24 80)]%N.
Proof. split; [apply legal_todos_ok|]; vm_compute; reflexivity. Qed.

Lemma tx_wrong : forall w', ~ writes (ORemoveVal 24 96) (RBool true) 80 w' /\ ~ writes (OPut 24 96) (RVal 88) 80 w' /\
  ~ writes (OPutIfAbsent 24 96) (RVal NOTFOUND) 80 w'.
Proof.
  intros w'. split; [|split].
  - intros [(H & _)|(_ & _ & H)]; discriminate.
  - intros [(_ & H)|(_ & _ & H)]; discriminate.
  - intros [([H|H] & _)|(_ & _ & H)]; [discriminate|discriminate|]. apply H. left. reflexivity.
Qed.
