(** Mapping a table file that holds the entries of a single-table map gives that map back. *)
From Coq Require Import NArith Arith Lia Bool List.
From stdpp Require Import base list gmap.
From Verif Require Import Word Bits Prog HashMap Spec Abs Probe SeqInv SeqCopy SeqHelp SeqPut SeqGet SeqApi SeqThm.
Import ListNotations.
Open Scope nat_scope.

Lemma probe_keys ps ps' : (forall i, keyat ps i = keyat ps' i) -> forall f len h k c,
  probe f ps len h k c = probe f ps' len h k c.
Proof.
  intros H. induction f as [|f IH]; intros len h k c; cbn [probe]; [reflexivity|]. rewrite H, IH. reflexivity.
Qed.

(** Counting the entries whose keys are distinct. *)
Lemma nodup_keys (P : N * N -> Prop) `{PD : !forall x, Decision (P x)} (ps : list (N * N)) :
  (forall i j p q, ps !! i = Some p -> ps !! j = Some q -> P p -> P q -> fst p = fst q -> i = j) ->
  base.NoDup (map fst (filter P ps)).
Proof.
  induction ps as [|p ps IH]; intros H.
  - rewrite filter_nil. constructor.
  - assert (IH' : base.NoDup (map fst (filter P ps))).
    { apply IH. intros i j q r Hi Hj Hq Hr E. specialize (H (S i) (S j) q r Hi Hj Hq Hr E). lia. }
    rewrite filter_cons. destruct (decide (P p)) as [Hp|Hp]; [|exact IH']. cbn [map]. constructor; [|exact IH'].
    intros Hin. apply elem_of_list_In, in_map_iff in Hin. destruct Hin as (q & Hq & Hin).
    apply elem_of_list_In, elem_of_list_filter in Hin. destruct Hin as (HPq & Hin).
    apply elem_of_list_lookup in Hin. destruct Hin as (j & Hj).
    specialize (H 0 (S j) p q eq_refl Hj Hp HPq (eq_sym Hq)). lia.
Qed.

Lemma size_of_entries (P : N * N -> Prop) `{PD : !forall x, Decision (P x)} (ps : list (N * N)) (m : gmap N N) :
  (forall i j p q, ps !! i = Some p -> ps !! j = Some q -> P p -> P q -> fst p = fst q -> i = j) ->
  (forall k v, m !! k = Some v <-> exists i, ps !! i = Some (k, v) /\ P (k, v)) ->
  length (filter P ps) = base.size m.
Proof.
  intros Hu Hm. assert (Hnd := nodup_keys P ps Hu).
  assert (E : m = list_to_map (filter P ps)).
  { apply map_eq. intros k. apply option_eq. intros v. rewrite Hm.
    rewrite <- elem_of_list_to_map by exact Hnd. rewrite elem_of_list_filter, elem_of_list_lookup. firstorder. }
  rewrite E. unfold base.size, map_size. rewrite (Permutation_length (map_to_list_to_map _ Hnd)). reflexivity.
Qed.

Section Reopen.
Context (C : cfg) (content : list pair_) (ppl : nat) (maxcap : N) (files : list (N * list pair_)) (m : gmap N N).

Let P := map clean2 content.
Let len := length content.

Hypothesis Hpow : exists e, len = 2 ^ e /\ 3 <= e.
Hypothesis Hcap : can_alloc len maxcap = true.
Hypothesis Hmax : (maxcap <= 2 ^ 32)%N.
Hypothesis Hfiles : forall n, (0 < n)%N -> find_file n files = None.
Hypothesis Hent : forall i p, P !! i = Some p -> p = (KINITIAL, VINITIAL) \/
  (client_key (fst p) /\ unmarked (snd p) /\ exists c, probe (reprobeLimit len) P len (hash C (fst p)) (fst p) 0 = PFound i c).
Hypothesis Hm : forall k v, m !! k = Some v <-> exists i, P !! i = Some (k, v) /\ live v.

Let ps := map clean2 (map repair_entry content).

Definition fix_val (p : N * N) : N * N := (fst p, if negb (fst p =? KINITIAL)%N && (snd p =? VINITIAL)%N then VTOMBSTONE else snd p).

Lemma ps_lookup i : ps !! i = fix_val <$> (P !! i).
Proof.
  unfold ps, P. rewrite !list_lookup_fmap. destruct (content !! i) as [[k v]|]; [|reflexivity]. cbn.
  unfold repair_entry, clean2, fix_val. cbn [fst snd]. rewrite clean_clean. f_equal. f_equal.
  destruct (negb _ && _); [apply clean_id, VTOMBSTONE_clean|apply clean_clean].
Qed.

Lemma ps_length : length ps = len. Proof. unfold ps. rewrite !map_length. reflexivity. Qed.

Lemma ps_keys i : keyat ps i = keyat P i.
Proof. unfold keyat. rewrite ps_lookup. destruct (P !! i); reflexivity. Qed.

Lemma ps_probe f h k c : probe f ps len h k c = probe f P len h k c.
Proof. apply probe_keys, ps_keys. Qed.

Lemma P_clean i p : P !! i = Some p -> isclean (fst p) /\ isclean (snd p).
Proof.
  unfold P. rewrite list_lookup_fmap. destruct (content !! i) as [[k v]|]; [|discriminate]. intros [= <-].
  split; apply clean_isclean.
Qed.

(** What the entries are after the repair. *)
Lemma ps_ent i p : ps !! i = Some p -> p = (KINITIAL, VINITIAL) \/
  (client_key (fst p) /\ isclean (snd p) /\ unmarked (snd p) /\ snd p <> VINITIAL /\
   exists c, probe (reprobeLimit len) P len (hash C (fst p)) (fst p) 0 = PFound i c).
Proof.
  rewrite ps_lookup. destruct (P !! i) as [q|] eqn:E; [|discriminate]. intros [= <-].
  destruct (Hent i q E) as [-> |(H1 & H2 & c & H3)].
  - left. reflexivity.
  - right. unfold fix_val. cbn [fst snd]. split; [exact H1|].
    destruct H1 as (H11 & H12 & H13). rewrite (proj2 (N.eqb_neq _ _) H12). cbn [negb andb].
    destruct (N.eqb_spec (snd q) VINITIAL) as [He|He].
    + split; [apply VTOMBSTONE_clean|]. split; [apply VTOMBSTONE_unmarked|].
      split; [rewrite VTOMBSTONE_val, VINITIAL_val; discriminate|]. exists c. exact H3.
    + split; [apply (P_clean _ _ E)|]. split; [exact H2|]. split; [exact He|]. exists c. exact H3.
Qed.

Lemma ps_live k v : m !! k = Some v <-> exists i, ps !! i = Some (k, v) /\ live v.
Proof.
  rewrite Hm. split.
  - intros (i & Hi & Hl). exists i. split; [|exact Hl]. rewrite ps_lookup, Hi. cbn. unfold fix_val. cbn [fst snd].
    destruct (N.eqb_spec v VINITIAL) as [->|_]; [destruct Hl as (_ & ? & _); congruence|]. rewrite andb_false_r. reflexivity.
  - intros (i & Hi & Hl). exists i. split; [|exact Hl]. rewrite ps_lookup in Hi. destruct (P !! i) as [[k' v']|]; [|discriminate].
    cbn in Hi. injection Hi as -> <-. cbn [fst snd] in Hl |- *.
    destruct (negb (k =? KINITIAL)%N && (v' =? VINITIAL)%N); [|reflexivity].
    destruct Hl as (_ & _ & Hl). congruence.
Qed.

Lemma ps_uniq i j p q : ps !! i = Some p -> ps !! j = Some q -> live (snd p) -> live (snd q) -> fst p = fst q -> i = j.
Proof.
  intros Hi Hj Lp Lq E. destruct (ps_ent i p Hi) as [-> |(_ & _ & _ & _ & c & Hc)]; [destruct Lp as (_ & ? & _); cbn in *; congruence|].
  destruct (ps_ent j q Hj) as [-> |(_ & _ & _ & _ & d & Hd)]; [destruct Lq as (_ & ? & _); cbn in *; congruence|].
  rewrite E in Hc. congruence.
Qed.

Lemma count_live : length (filter (fun p => counts_as_value (snd p) = true) (map repair_entry content)) = base.size m.
Proof.
  assert (E : map repair_entry content = ps).
  { unfold ps. rewrite map_map. apply map_ext. intros [k v]. unfold repair_entry, clean2. cbn [fst snd].
    rewrite clean_clean. f_equal. destruct (negb _ && _); [symmetry; apply clean_id, VTOMBSTONE_clean|now rewrite clean_clean]. }
  rewrite E.
  assert (Hc : forall i p, ps !! i = Some p -> counts_as_value (snd p) = true <-> live (snd p)).
  { intros i p Hi. unfold counts_as_value, live. rewrite !andb_true_iff, !negb_true_iff, !N.eqb_neq.
    destruct (ps_ent i p Hi) as [-> |(_ & _ & Hu & _)]; [cbn; tauto|].
    split; [tauto|]. intros (_ & H1 & H2). split; [tauto|]. intros He. rewrite He in Hu. apply TOMBPRIME_not_unmarked, Hu. }
  apply size_of_entries.
  - intros i j p q Hi Hj Hp Hq. apply (ps_uniq i j p q Hi Hj); eapply Hc; eauto.
  - intros k v. rewrite ps_live. split; intros (i & Hi & Hl); exists i; (split; [exact Hi|]); apply (Hc i _ Hi); exact Hl.
Qed.

Definition reopened : state := mkState [existing_table content 0] 0 1 files ppl maxcap.

Lemma reopen_ok : okstate C (Some (modsize m)) (abs reopened) m.
Proof.
  destruct Hpow as (e & He & H3). split; [|exact Hmax].
  set (T0 := absT (existing_table content 0)).
  assert (HP : t_pairs T0 = ps) by reflexivity. assert (HL : t_len T0 = len) by reflexivity.
  change (abs reopened) with (mkState [T0] 0 1 files ppl maxcap).
  assert (Hone : forall j T, [T0] !! j = Some T -> j = 0 /\ T = T0).
  { intros [|j] T H; [injection H as <-; auto|discriminate]. }
  assert (Hat : forall i, i < len -> exists p, ps !! i = Some p /\ keyat ps i = fst p /\ valat ps i = snd p).
  { intros i Hi. destruct (lookup_lt_is_Some_2 ps i) as (p & Hp); [rewrite ps_length; exact Hi|].
    exists p. unfold keyat, valat. rewrite Hp. auto. }
  assert (Hun : forall i, i < len -> unmarked (valat ps i) /\ keyat ps i <> KTOMBSTONE).
  { intros i Hi. destruct (Hat i Hi) as (p & Hp & -> & ->). destruct (ps_ent i p Hp) as [-> |((_ & _ & H1) & _ & H2 & _)]; [|auto].
    split; [apply VINITIAL_unmarked|]. cbn [fst]. rewrite KTOMBSTONE_val, KINITIAL_val, VTOMBSTONE_val, VINITIAL_val. discriminate. }
  constructor.
  - constructor; cbn [st_files st_fctr st_top st_tabs st_maxcap length]; auto.
    + intros j T H. apply Hone in H as [-> ->]. reflexivity.
    + intros j T H. apply Hone in H as [-> ->]. constructor.
      * exists e. auto.
      * exact Hcap.
      * rewrite HP. apply ps_length.
      * intros i Hi. unfold ent_ok. rewrite HP. destruct (Hat i Hi) as (p & Hp & -> & ->).
        destruct (ps_ent i p Hp) as [-> |(H1 & H2 & _ & _ & c & Hc)]; [left; auto|right; right].
        split; [exact H1|]. split; [exact H2|]. exists c. unfold probeT. rewrite HP, HL, ps_probe. exact Hc.
    + intros j T H. apply Hone in H as [-> ->]. reflexivity.
    + intros j T T' H H'. apply Hone in H' as [? _]. discriminate.
    + intros j T i H _ Hi. apply Hone in H as [-> ->]. rewrite HP. apply Hun, Hi.
    + intros j j' T T' k Hj H H'. apply Hone in H' as [-> _]. lia.
    + intros j T i Hj. lia.
    + intros j T Hj H. apply Hone in H as [-> _]. lia.
    + intros j T H. apply Hone in H as [-> ->]. rewrite HP. cbn [T0 absT existing_table t_copyDone pd0].
      assert (tombs ps = 0) as ->; [|reflexivity]. unfold tombs.
      destruct (filter (fun p => snd p = TOMBPRIME) ps) as [|p l] eqn:Ef; [reflexivity|].
      assert (Hin : p ∈ filter (fun p => snd p = TOMBPRIME) ps) by (rewrite Ef; left).
      apply elem_of_list_filter in Hin. destruct Hin as (H1 & H2). apply elem_of_list_lookup in H2. destruct H2 as (i & Hi).
      exfalso. assert (i < len) as Hl by (rewrite <- ps_length; apply lookup_lt_is_Some; eauto).
      destruct (Hun i Hl) as (Hu & _). unfold valat in Hu. rewrite Hi in Hu. cbn in Hu. rewrite H1 in Hu. apply TOMBPRIME_not_unmarked, Hu.
    + intros j T i H Hi _. apply Hone in H as [-> ->]. right. rewrite HP. apply Hun, Hi.
    + intros x j T [= <-] _ H. apply Hone in H as [-> ->]. cbn [T0 absT existing_table t_size]. rewrite count_live.
      unfold modsize. rewrite N.mod_small; [reflexivity|]. rewrite <- count_live.
      unfold can_alloc in Hcap. apply andb_true_iff in Hcap. destruct Hcap as (Hc & _). apply N.ltb_lt in Hc.
      assert (2 ^ 59 < two64)%N by reflexivity.
      pose proof (filter_length (fun p : pair_ => counts_as_value (snd p) = true) (map repair_entry content)) as Hf.
      rewrite map_length in Hf. unfold len. lia.
  - intros k v. rewrite ps_live. split.
    + intros (i & Hi & Hl). exists 0, T0, i. split; [reflexivity|]. rewrite HP, HL. unfold keyat, valat. rewrite Hi.
      split; [rewrite <- ps_length; apply lookup_lt_is_Some; eauto|]. auto.
    + intros (j & T & i & H & Hi & Hk & Hv & Hl). apply Hone in H as [-> ->]. rewrite HP in Hk, Hv.
      destruct (Hat i Hi) as (p & Hp & Ek & Ev). exists i. split; [|exact Hl]. rewrite Hp. destruct p. cbn in *. congruence.
  - intros T H. apply Hone in H as [_ ->]. reflexivity.
Qed.
End Reopen.

(** The file of a map that never had more than one table. *)
Lemma single_entries C sz a m T : ready C sz a m -> length (st_tabs a) = 1 -> st_tabs a !! 0 = Some T ->
  (forall i p, t_pairs T !! i = Some p -> p = (KINITIAL, VINITIAL) \/
     (client_key (fst p) /\ unmarked (snd p) /\
      exists c, probe (reprobeLimit (t_len T)) (t_pairs T) (t_len T) (hash C (fst p)) (fst p) 0 = PFound i c)) /\
  (forall k v, m !! k = Some v <-> exists i, t_pairs T !! i = Some (k, v) /\ live v) /\
  (exists e, t_len T = 2 ^ e /\ 3 <= e) /\ length (t_pairs T) = t_len T /\ can_alloc (t_len T) (st_maxcap a) = true.
Proof.
  intros [HS HD _] H1 HT. pose proof (s_tw _ _ _ _ _ HS _ _ HT) as HTW.
  assert (Hi : forall i p, t_pairs T !! i = Some p -> i < t_len T /\ keyat (t_pairs T) i = fst p /\ valat (t_pairs T) i = snd p).
  { intros i p Hp. split; [rewrite <- (tw_length _ _ _ HTW); apply lookup_lt_is_Some; eauto|]. unfold keyat, valat. rewrite Hp. auto. }
  split; [|split; [|split; [|split]]].
  - intros i p Hp. destruct (Hi i p Hp) as (Hl & Hk & Hv). destruct (s_last _ _ _ _ _ HS 0 T i HT ltac:(lia) Hl) as (L1 & L2).
    pose proof (tw_ent _ _ _ HTW i Hl) as He. unfold ent_ok in He. rewrite Hk, Hv in *.
    destruct He as [(E1 & E2)|[(E1 & _)|(E1 & _ & c & E3)]].
    + left. destruct p. cbn in *. congruence.
    + congruence.
    + right. eauto.
  - intros k v. rewrite (HD k v). split.
    + intros (j & T' & i & HT' & Hl & Hk & Hv & Hlv). destruct j as [|j]; [|apply lookup_lt_Some in HT'; lia].
      assert (T' = T) as -> by congruence. exists i. split; [|exact Hlv].
      destruct (lookup_lt_is_Some_2 (t_pairs T) i) as (p & Hp); [rewrite (tw_length _ _ _ HTW); exact Hl|].
      destruct (Hi i p Hp) as (_ & Hk' & Hv'). rewrite Hp. destruct p. cbn in *. congruence.
    + intros (i & Hp & Hlv). destruct (Hi i _ Hp) as (Hl & Hk & Hv). exists 0, T, i. auto 6.
  - apply (tw_pow _ _ _ HTW).
  - apply (tw_length _ _ _ HTW).
  - apply (tw_cap _ _ _ HTW).
Qed.

Lemma reopen_single C s m sz T cap ppl files : okstate C sz (abs s) m -> length (st_tabs s) = 1 -> st_tabs s !! 0 = Some T ->
  find_file 0 files = Some (t_pairs T) -> (forall n, (0 < n)%N -> find_file n files = None) ->
  exists s1, init_state_files cap ppl (st_maxcap s) files = Some s1 /\ okstate C (Some (modsize m)) (abs s1) m /\
    (N.of_nat (base.size m) < two64)%N.
Proof.
  intros (HR & Hmax) H1 HT Hf Hfs.
  destruct (single_entries C sz (abs s) m (absT T) HR) as (E1 & E2 & E3 & E4 & E5).
  { cbn. rewrite map_length. exact H1. }
  { cbn. rewrite list_lookup_fmap, HT. reflexivity. }
  cbn [absT t_pairs t_len] in E1, E2, E3, E4, E5. rewrite map_length in E4. rewrite <- E4 in *.
  exists (reopened (t_pairs T) ppl (st_maxcap s) files). split.
  - unfold init_state_files, mmap_table. rewrite Hf. destruct (t_pairs T) as [|p l] eqn:Ep; [|reflexivity].
    exfalso. destruct E3 as (e & He & _). cbn in He. pose proof (Nat.pow_nonzero 2 e). lia.
  - split; [apply reopen_ok; auto|]. rewrite <- (count_live C (t_pairs T) m E1 E2).
    unfold can_alloc in E5. apply andb_true_iff in E5. destruct E5 as (Hc & _). apply N.ltb_lt in Hc.
    assert (2 ^ 59 < two64)%N by reflexivity.
    pose proof (filter_length (fun p : pair_ => counts_as_value (snd p) = true) (map repair_entry (t_pairs T))) as Hl.
    rewrite map_length in Hl. lia.
Qed.

(** A directory without file 0: the map starts empty whatever the other files are. *)
Section Fresh.
Context (C : cfg) (cap ppl : nat) (maxcap : N) (files : list (N * list pair_)).
Let a0 : state := mkState [afresh cap 0 0] 0 1 files ppl maxcap.
Context (E : err -> Prop) (HFuel : E OutOfFuel).

Lemma fresh_key i : i < cap -> read_cell a0 0 i CKey = KINITIAL.
Proof. intros Hi. unfold read_cell. cbn. rewrite lookup_replicate_2 by exact Hi. reflexivity. Qed.

Lemma wp_get_fresh n k (Q : N -> state -> Prop) : 0 < cap -> Q NOTFOUND a0 -> wp E (get C n k) Q a0.
Proof.
  intros Hc HQ. unfold get. apply wp_bind, wp_LoadTop. change (st_top a0) with 0. apply wp_bind.
  assert (HT : st_tabs a0 !! 0 = Some (afresh cap 0 0)) by reflexivity.
  destruct n as [|n]; [apply wp_err, HFuel|]. cbn [getImpl]. apply wp_bind. eapply wp_Len; [exact HT|].
  cbn [afresh t_len]. destruct n as [|n]; [apply wp_err, HFuel|]. cbn [getLoop].
  assert (Hi : mask (sext32 (hash C k)) cap < cap) by (apply mask_lt, Hc).
  apply wp_bind. unfold key. apply wp_bind. eapply wp_bounds; [exact HT|exact Hi|]. apply wp_pcas_read.
  rewrite fresh_key by exact Hi.
  apply wp_bind. unfold value. apply wp_bind. eapply wp_bounds; [exact HT|exact Hi|]. apply wp_pcas_read.
  rewrite N.eqb_refl. apply wp_ret. apply wp_bind, wp_assert; [reflexivity|]. apply wp_ret. exact HQ.
Qed.
End Fresh.

Lemma fresh_files C cap ppl maxcap files : good_cap cap maxcap -> find_file 0 files = None ->
  exists s0, init_state_files cap ppl maxcap files = Some s0 /\
    (forall n k r s', run (get C n k) s0 = Ok r s' -> r = NOTFOUND) /\
    (forall r s', run size s0 = Ok r s' -> r = 0%N).
Proof.
  intros ((e & He & H3) & Hcap) Hf. unfold init_state_files, mmap_table. rewrite Hf, Hcap.
  eexists. split; [reflexivity|].
  assert (Ha : abs (mkState [fresh_table cap 0 0] 0 1 files ppl maxcap) = mkState [afresh cap 0 0] 0 1 files ppl maxcap).
  { unfold abs. cbn [st_tabs map st_top st_fctr st_files st_ppl st_maxcap]. rewrite absT_fresh. reflexivity. }
  split.
  - intros n k r s' Hr. assert (0 < cap) as Hc by (rewrite He; apply Nat.neq_0_lt_0, Nat.pow_nonzero; lia).
    pose proof (wp_get_fresh C cap ppl maxcap files (fun e => e = OutOfFuel) eq_refl n k (fun r _ => r = NOTFOUND) Hc eq_refl _ Ha) as Hw.
    rewrite Hr in Hw. exact Hw.
  - intros r s' Hr. unfold size in Hr. cbn in Hr. injection Hr as <- _. reflexivity.
Qed.

(** A file that holds only migrated entries: whatever was stored is gone. *)
Section Dead.
Context (C : cfg) (T : table) (files : list (N * list pair_)) (ppl : nat) (maxcap : N).
Let a0 : state := mkState [T] 0 1 files ppl maxcap.
Hypothesis Hnew : t_new T = None.
Hypothesis Hdead : forall i, i < t_len T -> valat (t_pairs T) i = TOMBPRIME.
Hypothesis Hpos : 0 < t_len T.
Hypothesis Hlen : length (t_pairs T) = t_len T.
Let E (e : err) : Prop := True.

Lemma dead_val i : i < t_len T -> read_cell a0 0 i CVal = TOMBPRIME.
Proof.
  intros Hi. rewrite <- (Hdead i Hi). unfold read_cell, valat. cbn.
  destruct (lookup_lt_is_Some_2 (t_pairs T) i) as (p & Hp); [rewrite Hlen; exact Hi|]. rewrite Hp. reflexivity.
Qed.

Lemma wp_getLoop_dead put rec k : forall n idx reprobe, idx < t_len T ->
  wp E (getLoop C n put rec 0 k (t_len T) idx reprobe) (fun r _ => r = NOTFOUND) a0.
Proof.
  assert (HT : st_tabs a0 !! 0 = Some T) by reflexivity.
  induction n as [|n IH]; intros idx reprobe Hi; cbn [getLoop]; [apply wp_err; exact I|].
  apply wp_bind. unfold key. apply wp_bind. eapply wp_bounds; [exact HT|exact Hi|]. apply wp_pcas_read.
  apply wp_bind. unfold value. apply wp_bind. eapply wp_bounds; [exact HT|exact Hi|]. apply wp_pcas_read.
  rewrite dead_val by exact Hi. set (K := read_cell a0 0 idx CKey).
  destruct (N.eqb_spec K KINITIAL); [apply wp_ret; reflexivity|].
  apply wp_bind. eapply wp_LoadNew; [exact HT|]. rewrite Hnew.
  destruct (N.eqb_spec K k).
  - cbn [negb]. apply wp_bind. unfold copySlotAndCheck. apply wp_bind. eapply wp_LoadNew; [exact HT|]. rewrite Hnew.
    apply wp_err. exact I.
  - destruct ((_ <=? _) || _); [apply wp_ret; reflexivity|]. apply IH. apply mask_lt, Hpos.
Qed.

Lemma wp_get_dead n k : wp E (get C n k) (fun r _ => r = NOTFOUND) a0.
Proof.
  assert (HT : st_tabs a0 !! 0 = Some T) by reflexivity.
  unfold get. apply wp_bind, wp_LoadTop. change (st_top a0) with 0. apply wp_bind.
  destruct n as [|n]; [apply wp_err; exact I|]. cbn [getImpl]. apply wp_bind. eapply wp_Len; [exact HT|].
  eapply wp_conseq; [apply wp_getLoop_dead, mask_lt, Hpos|].
  intros r a ->. apply wp_bind, wp_assert; [reflexivity|]. apply wp_ret. reflexivity.
Qed.
End Dead.

Lemma reopen_resized C s m sz T cap ppl maxcap files s1 : okstate C sz (abs s) m -> 0 < st_top s -> st_tabs s !! 0 = Some T ->
  find_file 0 files = Some (t_pairs T) -> init_state_files cap ppl maxcap files = Some s1 ->
  forall n k r s', run (get C n k) s1 = Ok r s' -> r = NOTFOUND.
Proof.
  intros ([HS _ _] & _) Htop HT Hf Hs1 n k r s' Hr.
  assert (HTa : st_tabs (abs s) !! 0 = Some (absT T)) by (cbn; rewrite list_lookup_fmap, HT; reflexivity).
  pose proof (s_tw _ _ _ _ _ HS _ _ HTa) as HTW. pose proof (tw_length _ _ _ HTW) as Hl. pose proof (tw_pos _ _ _ HTW) as Hp.
  cbn [absT t_pairs t_len] in Hl, Hp. rewrite map_length in Hl.
  unfold init_state_files, mmap_table in Hs1. rewrite Hf in Hs1.
  destruct (t_pairs T) as [|p0 l0] eqn:Ep; [discriminate|]. rewrite <- Ep in *. clear p0 l0 Ep. injection Hs1 as <-.
  set (T1 := existing_table (t_pairs T) 0) in *.
  assert (L : t_len T1 = t_len T) by exact Hl.
  pose proof (wp_get_dead C (absT T1) files ppl maxcap eq_refl) as Hw.
  assert (H1 : forall i, i < t_len (absT T1) -> valat (t_pairs (absT T1)) i = TOMBPRIME).
  { intros i Hi. cbn [absT t_len] in Hi. rewrite L in Hi.
    pose proof (s_dead _ _ _ _ _ HS 0 (absT T) i Htop HTa Hi) as Hv.
    unfold valat in *. cbn [absT t_pairs T1 existing_table] in *.
    rewrite list_lookup_fmap in Hv. rewrite !list_lookup_fmap.
    destruct (t_pairs T !! i) as [[k0 v0]|] eqn:Ei; cbn in Hv |- *; [|exact Hv].
    rewrite Hv. replace (TOMBPRIME =? VINITIAL)%N with false by reflexivity. rewrite andb_false_r.
    apply clean_id, TOMBPRIME_clean. }
  assert (H2 : 0 < t_len (absT T1)) by (cbn [absT t_len]; rewrite L; exact Hp).
  assert (H3 : length (t_pairs (absT T1)) = t_len (absT T1)) by (cbn [absT t_len t_pairs T1 existing_table]; rewrite !map_length; reflexivity).
  specialize (Hw H1 H2 H3 n k (mkState [T1] 0 1 files ppl maxcap) eq_refl). rewrite Hr in Hw. exact Hw.
Qed.
