(** Between the invariant of single-threaded use and that of concurrent use without growth. *)
From Coq Require Import NArith Bool List Lia.
From stdpp Require Import base list gmap.
From Verif Require ConcInv ConcCmd ConcProg.
From Verif Require Import Word Bits Prog HashMap Conc Spec LinSpec PhaseSpec Abs Probe CodecThm SeqInv SeqCopy SeqPut SeqGet SeqApi SeqThm Lin LinThm LinNew LinNewAbs.
Import ListNotations.
Open Scope nat_scope.

Lemma pairs_at (ps : list pair_) i : i < length ps -> exists p, ps !! i = Some p /\ keyat ps i = fst p /\ valat ps i = snd p.
Proof. intros H. destruct (lookup_lt_is_Some_2 ps i H) as [p E]. exists p. unfold keyat, valat. rewrite E. auto. Qed.
Lemma at_In (ps : list pair_) p : In p ps -> exists i, i < length ps /\ keyat ps i = fst p /\ valat ps i = snd p.
Proof.
  intros H. apply elem_of_list_In, elem_of_list_lookup in H as [i E]. exists i. split; [eapply lookup_lt_Some; eauto|].
  unfold keyat, valat. rewrite E. auto.
Qed.

Section Enter.
Context (C : cfg) (cap0 : nat) (sz : option N) (s : state) (m : gmap N N) (ops : list op).
Context (Hok : okstate C sz (abs s) m) (Hq : quiet s) (HI : ConcInv.Inv cap0 (ops, s)) (Hni : Forall ConcInv.noinc ops).

Lemma enter_J : exists L A m0, 8 <= L /\ (exists e, L = 2 ^ e) /\ (N.of_nat L < 2 ^ 59)%N /\ (forall h, mask (sext32 h) L = mask h L) /\
  J C L false (st_top s) s m0 A s /\ view m0 = m /\ contents m0 /\
  (forall i, i < L -> A i <> KINITIAL -> in_table s (A i)) /\ (forall k, in_table s k -> k <> KINITIAL /\ haskey L A k).
Proof.
  pose proof (quiet_abs C 0 (N.le_0_l _) _ _ _ Hok Hq) as Hlast. destruct Hok as [[HS HD _] Hmax].
  pose proof Hq as Hq'. unfold quiet in Hq'. destruct (st_tabs s !! st_top s) as [T|] eqn:HT; [|contradiction].
  assert (HTa : st_tabs (abs s) !! st_top s = Some (absT T)) by (rewrite abs_tab, HT; reflexivity).
  pose proof (s_tw _ _ _ _ _ HS _ _ HTa) as HTW. set (L := t_len T).
  pose proof (tw_length _ _ _ HTW) as Hln. cbn in Hln. rewrite map_length in Hln. fold L in Hln.
  set (A := W (fun i => clean (keyat (t_pairs T) i)) (fun _ _ => false) (fun _ => false)).
  assert (HA : forall i, keyat (t_pairs (absT T)) i = A i) by (intros i; cbn; apply keyat_clean).
  assert (HV : forall i, valat (t_pairs (absT T)) i = clean (valat (t_pairs T) i)) by (intros i; cbn; apply valat_clean).
  assert (Hlst : forall i, i < L -> unmarked (clean (valat (t_pairs T) i)) /\ A i <> KTOMBSTONE).
  { intros i Hi. rewrite <- HV, <- HA. apply (s_last _ _ _ _ _ HS (st_top s) (absT T) i HTa Hlast Hi). }
  assert (Hent : forall i, i < L -> (A i = KINITIAL /\ clean (valat (t_pairs T) i) = VINITIAL) \/
            (client_key (A i) /\ exists c, hm C L false A (A i) i c)).
  { intros i Hi. destruct (tw_ent _ _ _ HTW i Hi) as [[E1 E2]|[[E1 E2]|(E1 & E2 & c & E3)]].
    - left. rewrite <- HA, <- HV. auto.
    - exfalso. apply (proj2 (Hlst i Hi)). rewrite <- HA. exact E1.
    - right. rewrite HA in E1, E3. split; [exact E1|]. exists c. unfold probeT in E3. cbn [absT t_len] in E3. fold L in E3.
      apply probe_found in E3 as (P1 & P2 & P3 & P4 & P5). split; [lia|]. split; [exact P2|]. split; [reflexivity|]. split; [exact P4|].
      intros c' Hc'. destruct (P5 c' ltac:(lia)) as (N1 & N2 & N3). rewrite HA in N1, N2, N3.
      split; [exact N1|]. split; [exact N2|]. split; [exact N3|discriminate]. }
  set (idx := List.filter (fun i => negb (A i =? KINITIAL)%N && negb (clean (valat (t_pairs T) i) =? VINITIAL)%N) (seq 0 L)).
  set (m0 := list_to_map (map (fun i => (A i, clean (valat (t_pairs T) i))) idx) : gmap N N).
  assert (Hidx : forall i, i ∈ idx <-> i < L /\ A i <> KINITIAL /\ clean (valat (t_pairs T) i) <> VINITIAL).
  { intros i. unfold idx. rewrite elem_of_list_In, filter_In, in_seq, andb_true_iff, !negb_true_iff, !N.eqb_neq. split.
    - intros ([_ H1] & H2 & H3). split; [lia|auto].
    - intros (H1 & H2 & H3). split; [lia|auto]. }
  assert (Huniq : forall i j, i < L -> j < L -> A i <> KINITIAL -> A i = A j -> i = j).
  { intros i j Hi Hj Hk E. destruct (Hent i Hi) as [[H _]|(_ & c & Hc)]; [contradiction|].
    destruct (Hent j Hj) as [[H _]|(_ & c' & Hc')]; [congruence|]. rewrite <- E in Hc'. exact (proj1 (hm_unique _ _ _ _ _ _ _ _ _ Hc Hc')). }
  assert (Hm0 : forall k x, m0 !! k = Some x <-> exists i, i < L /\ A i = k /\ k <> KINITIAL /\ clean (valat (t_pairs T) i) = x /\ x <> VINITIAL).
  { intros k x. unfold m0. rewrite <- elem_of_list_to_map.
    - rewrite elem_of_list_fmap. split.
      + intros (i & E & Hi). injection E as -> ->. apply Hidx in Hi as (H1 & H2 & H3). exists i. auto.
      + intros (i & H1 & <- & H2 & <- & H3). exists i. split; [reflexivity|]. apply Hidx. auto.
    - rewrite <- list_fmap_compose. apply NoDup_fmap_2_strong.
      + intros i j Hi Hj E. cbn in E. apply Hidx in Hi as (H1 & H2 & _). apply Hidx in Hj as (H3 & _). apply Huniq; assumption.
      + apply NoDup_ListNoDup. apply List.NoDup_filter, seq_NoDup. }
  assert (Hcl : forall k x, m0 !! k = Some x -> isclean x /\ unmarked x).
  { intros k x E. apply Hm0 in E as (i & H1 & _ & _ & <- & _). split; [apply clean_isclean|]. apply (Hlst i H1). }
  exists L, A, m0. split; [exact (tw_ge8 _ _ _ HTW)|]. destruct (tw_pow _ _ _ HTW) as (e & He & _). cbn [absT t_len] in He. fold L in He.
  split; [exists e; exact He|]. split; [exact (tw_lt59 _ _ _ HTW)|]. split.
  { intros h. rewrite He. apply mask_sext32.
    pose proof (tw_le_max _ _ _ HTW) as Hle. cbn [absT t_len] in Hle. fold L in Hle. rewrite He, Nat2N.inj_pow in Hle.
    assert (2 ^ N.of_nat e <= 2 ^ 32)%N by (eapply N.le_trans; eassumption).
    apply N.pow_le_mono_r_iff in H; lia. }
  assert (Hword : forall k i, i < L -> A i = k -> k <> KINITIAL -> word m0 k = clean (valat (t_pairs T) i) /\ (m0 !! k = None -> clean (valat (t_pairs T) i) = VINITIAL)).
  { intros k i Hi E Hk. unfold word. destruct (N.eq_dec (clean (valat (t_pairs T) i)) VINITIAL) as [Ev|Ev].
    - destruct (m0 !! k) as [x|] eqn:Ex; [|cbn; auto]. exfalso. apply Hm0 in Ex as (j & H1 & H2 & _ & H4 & H5).
      rewrite (Huniq i j) in Ev; [congruence|assumption..|congruence|congruence].
    - assert (Ex : m0 !! k = Some (clean (valat (t_pairs T) i))) by (apply Hm0; exists i; auto).
      rewrite Ex. cbn. split; [reflexivity|discriminate]. }
  split; [|split; [|split; [|split]]].
  - constructor.
    + reflexivity.
    + intros i Hi Hn. split; [apply (Hlst i Hi)|]. destruct (Hent i Hi) as [[H _]|(_ & H)]; [contradiction|exact H].
    + intros k x E. apply Hm0 in E as (i & H1 & H2 & H3 & _). destruct (Hent i H1) as [[H _]|(_ & c & Hc)]; [congruence|].
      rewrite H2 in Hc. eauto.
    + intros k. unfold word. destruct (m0 !! k) as [x|] eqn:Ex; cbn; [|split; reflexivity]. destruct (Hcl k x Ex). auto.
    + exists T. split; [exact HT|]. split; [reflexivity|]. split; [exact Hln|]. split; [exact Hq'|]. split.
      * intros i Hi. split; [reflexivity|]. intros Hk. split; [|split; discriminate].
        destruct (Hent i Hi) as [[_ H]|((_ & H & _) & _)]; [exact H|contradiction].
      * intros k i c Hh. assert (Hi : i < L) by (destruct Hh as (_ & -> & _); apply pos_lt; exact (tw_pos _ _ _ HTW)).
        destruct Hh as (_ & _ & E & Hk & _). destruct (Hword k i Hi E Hk) as [W1 W2]. split; [symmetry; exact W1|].
        intros Hno. specialize (W2 Hno). destruct (pairs_at (t_pairs T) i ltac:(lia)) as (p & Ep & Ek & Evl).
        pose proof (ConcProg.Ver_ok cap0 _ _ _ _ _ HI (ConcProg.cur_ver (ops, s) (st_top s) i T p HT Ep)) as (_ & _ & _ & HTi).
        rewrite Evl. rewrite Evl in W2. cbn in E. rewrite Ek in E. refine (proj2 (HTi _ (or_intror Hni) _) _).
        -- rewrite E. exact Hk.
        -- unfold ConcInv.strip. rewrite W2. reflexivity.
        -- rewrite <- Ek. apply (Hlst i Hi).
    + intros i Hi. discriminate.
    + apply frame_refl.
  - apply map_eq. intros k. destruct (m !! k) as [v|] eqn:Ev.
    + apply HD in Ev as (j & T' & i & H1 & H2 & H3 & H4 & H5).
      assert (j = st_top s) as ->.
      { pose proof (lookup_lt_Some _ _ _ H1). cbn [abs st_top] in Hlast. destruct (Nat.lt_trichotomy j (st_top s)) as [Hj|[Hj|Hj]]; [|exact Hj|].
        - pose proof (s_dead _ _ _ _ _ HS j T' i Hj H1 H2) as Hd. rewrite <- H4, Hd in H5. destruct H5 as [H5 _].
          destruct (TOMBPRIME_not_unmarked H5).
        - lia. }
      rewrite HTa in H1. injection H1 as <-. rewrite HA in H3. rewrite HV in H4. destruct H5 as (L1 & L2 & L3).
      apply view_live; [|exact L2|exact L3]. apply Hm0. exists i. split; [exact H2|]. split; [exact H3|]. split; [|auto].
      intros ->. destruct (Hent i H2) as [[_ H]|((_ & H & _) & _)]; congruence.
    + destruct (view m0 !! k) as [v|] eqn:Evw; [|reflexivity]. exfalso. apply map_filter_lookup_Some in Evw as [E [H1 H2]]. cbn in H1, H2.
      assert (m !! k = Some v); [|congruence]. apply HD. destruct (Hcl _ _ E) as [C1 C2]. apply Hm0 in E as (i & E1 & E2 & E3 & E4 & E5).
      exists (st_top s), (absT T), i. split; [exact HTa|]. split; [exact E1|]. rewrite HA, HV. split; [exact E2|]. split; [exact E4|].
      split; [exact C2|]. auto.
  - intros k x E. destruct (Hcl _ _ E) as [C1 C2]. apply Hm0 in E as (i & E1 & E2 & E3 & E4 & E5).
    destruct (N.eq_dec x VTOMBSTONE) as [H|H]; [left; exact H|right]. split; [split; auto|exact C1].
  - intros i Hi Hn. split; [exact Hn|]. destruct (pairs_at (t_pairs T) i ltac:(lia)) as (p & Ep & Ek & _).
    exists T, p. split; [exact HT|]. split; [apply elem_of_list_In, elem_of_list_lookup; eauto|]. cbn. rewrite Ek. reflexivity.
  - intros k (Hk & T' & p & HT' & Hp & E). split; [exact Hk|]. rewrite HT in HT'. injection HT' as <-.
    destruct (at_In _ _ Hp) as (i & Hi & Ek & _). exists i. split; [lia|]. cbn. rewrite Ek. exact E.
Qed.
End Enter.

Section Leave.
Context (C : cfg) (sz : option N) (L : nat) (s0 s : state) (md m : gmap N N) (A : world).
Context (Hok : okstate C sz (abs s0) md) (Hq : quiet s0) (HL : 8 <= L).
Context (HJ : J C L false (st_top s0) s0 m A s) (Hm : contents m).
Context (HLen : forall T0, st_tabs s0 !! st_top s0 = Some T0 -> t_len T0 = L).
Context (Htabs : length (st_tabs s) = length (st_tabs s0)) (Hctr : st_fctr s = st_fctr s0).

Lemma leave_J : okstate C None (abs s) (view m).
Proof.
  pose proof (quiet_abs C 0 (N.le_0_l _) _ _ _ Hok Hq) as Hlast. destruct Hok as [[HS HD Hcz] Hmax]. cbn [abs st_top st_tabs] in Hlast. rewrite map_length in Hlast.
  unfold quiet in Hq. destruct (st_tabs s0 !! st_top s0) as [T0|] eqn:HT0; [|contradiction]. specialize (HLen _ eq_refl).
  assert (HT0a : st_tabs (abs s0) !! st_top s0 = Some (absT T0)) by (rewrite abs_tab, HT0; reflexivity).
  destruct HJ as [Jtop Jwp Jdom Jok (T & HT & JL & Jln & Jnew & Jkv & Jval) _ [F1 F2 F3 F4 F5 F6]].
  pose proof (s_tw _ _ _ _ _ HS _ _ HT0a) as HTW0.
  assert (HA : forall i, i < L -> keyat (t_pairs (absT T)) i = A i) by (intros i Hi; cbn; rewrite keyat_clean; apply Jkv, Hi).
  assert (HV : forall i, valat (t_pairs (absT T)) i = clean (valat (t_pairs T) i)) by (intros i; cbn; apply valat_clean).
  assert (Hold : forall j U, j <> st_top s0 -> st_tabs (abs s) !! j = Some U -> st_tabs (abs s0) !! j = Some U).
  { intros j U Hj. rewrite !abs_tab. destruct (decide (j < length (st_tabs s0))) as [Hlt|Hge]; [rewrite F5 by assumption; auto|].
    rewrite (lookup_ge_None_2 (st_tabs s)) by lia. discriminate. }
  assert (Htop : forall j U, st_tabs (abs s) !! j = Some U -> (j = st_top s0 /\ U = absT T) \/ (j < st_top s0 /\ st_tabs (abs s0) !! j = Some U)).
  { intros j U HU. destruct (Nat.eq_dec j (st_top s0)) as [->|Hne].
    - left. rewrite abs_tab, HT in HU. injection HU as <-. auto.
    - right. pose proof (Hold _ _ Hne HU) as HU'. split; [|exact HU']. apply lookup_lt_Some in HU'. cbn [abs st_tabs] in HU'. rewrite map_length in HU'. lia. }
  assert (Hw : forall i, i < L -> unmarked (clean (valat (t_pairs T) i)) /\ isclean (clean (valat (t_pairs T) i)) /\ A i <> KTOMBSTONE).
  { intros i Hi. destruct (N.eq_dec (A i) KINITIAL) as [E|E].
    - destruct (Jkv i Hi) as [_ H]. rewrite (proj1 (H E)), E. split; [reflexivity|]. split; [reflexivity|]. discriminate.
    - destruct (Jwp i Hi E) as (H1 & c & H2). pose proof (Jval _ _ _ H2) as [H3 _]. rewrite H3. destruct (Jok (A i)). auto. }
  assert (HTW : TW C (st_maxcap (abs s)) (absT T)).
  { destruct HTW0 as [W1 W2 W3 W4]. cbn [abs st_maxcap absT t_len] in W1, W2. rewrite HLen in W1, W2. cbn [abs st_maxcap]. rewrite F4.
    constructor; cbn [absT t_len t_pairs]; rewrite JL; [exact W1|exact W2|rewrite map_length; exact Jln|].
    intros i Hi. unfold ent_ok. rewrite HA by exact Hi. rewrite HV. destruct (N.eq_dec (A i) KINITIAL) as [E|E].
    - left. split; [exact E|]. destruct (Jkv i Hi) as [_ H]. apply H, E.
    - right. right. destruct (Hw i Hi) as (V1 & V2 & V3). destruct (Jkv i Hi) as [K1 _]. split; [split; [rewrite <- K1; apply clean_isclean|auto]|].
      split; [exact V2|]. destruct (Jwp i Hi E) as (_ & c & Hc & Ei & _ & Hne & Hp). exists c. unfold probeT. cbn [absT t_len]. rewrite JL.
      replace (PFound i c) with (PFound (pos (hash C (A i)) L c) c) by (rewrite <- Ei; reflexivity).
      apply found_intro; [lia| |exact E|].
      + rewrite <- Ei. apply HA, Hi.
      + intros c' Hc'. destruct (Hp c' ltac:(lia)) as (P1 & P2 & P3 & _). pose proof (pos_lt (hash C (A i)) L c' ltac:(lia)) as Hlt.
        change (map clean2 (t_pairs T)) with (t_pairs (absT T)). unfold nonstop. rewrite HA by exact Hlt. auto. }
  assert (Htomb : forall U, (forall i, i < t_len U -> unmarked (valat (t_pairs U) i)) -> length (t_pairs U) = t_len U -> tombs (t_pairs U) = 0).
  { intros U H E. unfold tombs. destruct (filter _ _) as [|p l] eqn:Ef; [reflexivity|]. exfalso.
    assert (Hp : p ∈ filter (fun p => snd p = TOMBPRIME) (t_pairs U)) by (rewrite Ef; left).
    apply elem_of_list_filter in Hp as [Hp1 Hp2]. apply elem_of_list_In in Hp2. destruct (at_In _ _ Hp2) as (i & Hi & _ & Ev).
    specialize (H i ltac:(lia)). rewrite Ev, Hp1 in H. exact (TOMBPRIME_not_unmarked H). }
  assert (Hdone : t_copyDone T = 0%N).
  { destruct (F6 _ _ HT0 HT) as (_ & _ & E). pose proof (s_done _ _ _ _ _ HS _ _ HT0a) as Hd. rewrite (Htomb (absT T0)) in Hd.
    - cbn [absT t_copyDone] in Hd. rewrite E. unfold SeqHelp.pd0 in Hd. cbn in Hd. lia.
    - intros i Hi. apply (s_last _ _ _ _ _ HS (st_top s0) (absT T0) i HT0a); [cbn [abs st_tabs]; rewrite map_length; exact Hlast|exact Hi].
    - apply (tw_length _ _ _ HTW0). }
  assert (HS' : SI0 C None SeqHelp.pd0 None (abs s)).
  { constructor.
    - cbn [abs st_files]. rewrite F2. exact (s_files _ _ _ _ _ HS).
    - pose proof (s_fctr _ _ _ _ _ HS) as H. cbn [abs st_fctr st_tabs] in *. rewrite map_length in *. rewrite Hctr, Htabs. exact H.
    - intros j U HU. destruct (Htop _ _ HU) as [[-> ->]|[_ H]]; [|exact (s_id _ _ _ _ _ HS _ _ H)].
      cbn [absT t_id]. destruct (F6 _ _ HT0 HT) as (E & _). rewrite E. exact (s_id _ _ _ _ _ HS _ _ HT0a).
    - cbn [abs st_top st_tabs]. rewrite map_length. lia.
    - intros j U HU. destruct (Htop _ _ HU) as [[-> ->]|[_ H]]; [exact HTW|]. cbn [abs st_maxcap]. rewrite F4. exact (s_tw _ _ _ _ _ HS _ _ H).
    - intros j U HU. cbn [abs st_tabs]. rewrite map_length, Htabs. destruct (Htop _ _ HU) as [[-> ->]|[_ H]].
      + cbn [absT t_new]. rewrite Jnew. destruct (Nat.ltb_spec (S (st_top s0)) (length (st_tabs s0))); [lia|reflexivity].
      + pose proof (s_new _ _ _ _ _ HS _ _ H) as E. cbn [abs st_tabs] in E. rewrite map_length in E. exact E.
    - intros j U U' HU HU'. destruct (Htop _ _ HU) as [[-> ->]|[Hj H]].
      + exfalso. destruct (Htop _ _ HU') as [[E _]|[E _]]; lia.
      + destruct (Htop _ _ HU') as [[E ->]|[_ H']]; [|exact (s_len _ _ _ _ _ HS _ _ _ H H')].
        pose proof (s_len _ _ _ _ _ HS j U (absT T0) H) as H'. rewrite E in H'. specialize (H' HT0a). cbn [absT t_len] in *. lia.
    - intros j U i HU Hj Hi. cbn [abs st_tabs] in Hj. rewrite map_length in Hj. destruct (Htop _ _ HU) as [[-> ->]|[H _]]; [|lia].
      cbn [absT t_len] in Hi. rewrite JL in Hi. rewrite HV, HA by exact Hi. split; apply (Hw i Hi).
    - intros j j' U U' k Hj HU HU' Hk _. destruct (Htop _ _ HU') as [[-> ->]|[Hj' _]]; destruct (Htop _ _ HU) as [[E _]|[_ H]]; try lia.
      + eapply (dead_fwd C _ (abs s0) j); [exact HS|exact Hj|exact H].
      + eapply (dead_fwd C _ (abs s0) j); [exact HS|cbn [abs st_top]; lia|exact H].
    - intros j U i Hj HU Hi. cbn [abs st_top] in Hj. rewrite Jtop in Hj. destruct (Htop _ _ HU) as [[E _]|[_ H]]; [lia|].
      exact (s_dead _ _ _ _ _ HS j U i Hj H Hi).
    - intros j U Hj HU. cbn [abs st_top] in Hj. rewrite Jtop in Hj. destruct (Htop _ _ HU) as [[E _]|[H _]]; lia.
    - intros j U HU. destruct (Htop _ _ HU) as [[-> ->]|[_ H]]; [|exact (s_done _ _ _ _ _ HS _ _ H)].
      rewrite (Htomb (absT T)); [cbn [absT t_copyDone]; rewrite Hdone; reflexivity| |exact (tw_length _ _ _ HTW)].
      intros i Hi. rewrite HV. apply Hw. cbn [absT t_len] in Hi. rewrite JL in Hi. exact Hi.
    - intros j U i HU Hi _. destruct (Htop _ _ HU) as [[-> ->]|[Hj H]].
      + right. rewrite HV. apply Hw. cbn [absT t_len] in Hi. rewrite JL in Hi. exact Hi.
      + left. exact (s_dead _ _ _ _ _ HS j U i Hj H Hi).
    - discriminate. }
  split; [|cbn [abs st_maxcap] in *; rewrite F4; exact Hmax]. constructor; [exact HS'| |].
  - intros k v. split.
    + intros E. apply view_some in E as (E & Hlive & Hcl); [|exact Hm]. destruct (Jdom _ _ E) as (i & c & Hh).
      assert (Hi : i < L) by (destruct Hh as (_ & -> & _); apply pos_lt; lia). exists (st_top s0), (absT T), i. split; [rewrite abs_tab, HT; reflexivity|].
      split; [cbn [absT t_len]; rewrite JL; exact Hi|]. rewrite HA by exact Hi. rewrite HV. split; [apply Hh|].
      split; [|exact Hlive]. pose proof (Jval _ _ _ Hh) as [H _]. rewrite H. unfold word. rewrite E. reflexivity.
    + intros (j & U & i & HU & Hi & Ek & Ev & Hlive). destruct (Htop _ _ HU) as [[-> ->]|[Hj H]].
      * cbn [absT t_len] in Hi. rewrite JL in Hi. rewrite HA in Ek by exact Hi. rewrite HV in Ev. destruct Hlive as (L1 & L2 & L3).
        assert (Hne : A i <> KINITIAL) by (intros E; destruct (Jkv i Hi) as [_ H]; destruct (H E) as [H' _]; congruence).
        destruct (Jwp i Hi Hne) as (_ & c & Hh). pose proof (Jval _ _ _ Hh) as [H _]. rewrite Ek, Ev in H. unfold word in H.
        destruct (m !! k) as [x|] eqn:Ex; cbn in H; [|congruence]. apply view_live; [congruence|exact L2|exact L3].
      * exfalso. pose proof (s_dead _ _ _ _ _ HS j U i Hj H Hi) as Hd. rewrite <- Ev, Hd in Hlive. destruct Hlive as [Hl _].
        exact (TOMBPRIME_not_unmarked Hl).
  - intros U HU. cbn [abs st_top] in HU. rewrite Jtop in HU. destruct (Htop _ _ HU) as [[_ ->]|[H _]]; [|lia].
    cbn [absT t_copyIdx]. destruct (F6 _ _ HT0 HT) as (_ & E & _). rewrite E. exact (Hcz _ HT0a).
Qed.
End Leave.
