(** A map with a single table that crashes anywhere, even in the middle of a call, and is constructed again. *)
From Coq Require Import NArith Bool List Lia Arith.
From stdpp Require Import base list gmap relations.
From Verif Require Import Word Bits Prog HashMap Spec ConcSpec ConcInv ConcCmd ConcProg ConcMap Abs Probe SeqInv SeqCopy SeqApi SeqThm ReopenThm.
From Verif Require Import DurableSpec Durable DurableMap DurableThm OneWrite.
Import ListNotations.
Open Scope nat_scope.

(** ** The dictionary of one version of the table *)

Definition isdict (ps : list pair_) (m : gmap N N) : Prop := forall k v,
  m !! k = Some v <-> exists i p, ps !! i = Some p /\ clean (fst p) = k /\ clean (snd p) = v /\ live v.

Definition empty_ok (ps : list pair_) : Prop := forall i p, ps !! i = Some p -> clean (fst p) = KINITIAL -> clean (snd p) = VINITIAL.

Lemma vals_lookup ps ps' i p p' : vals ps = vals ps' -> ps !! i = Some p -> ps' !! i = Some p' -> clean (snd p) = clean (snd p').
Proof.
  intros E H H'. assert (A : vals ps !! i = vals ps' !! i) by congruence. unfold vals in A. rewrite !list_lookup_fmap, H, H' in A. injection A as A. exact A.
Qed.

Lemma dict_same ps ps' m : vals ps = vals ps' -> Forall2 prel ps ps' -> empty_ok ps -> isdict ps m <-> isdict ps' m.
Proof.
  intros EV HP HE.
  assert (A : forall i p p', ps !! i = Some p -> ps' !! i = Some p' -> live (clean (snd p)) -> clean (fst p') = clean (fst p)).
  { intros i p p' H H' (_ & L & _). apply (proj1 (Forall2_lookup_lr _ _ _ _ _ _ HP H H')). intros E. apply L. exact (HE _ _ H E). }
  assert (B : forall k v, (exists i p, ps !! i = Some p /\ clean (fst p) = k /\ clean (snd p) = v /\ live v) <->
    (exists i p, ps' !! i = Some p /\ clean (fst p) = k /\ clean (snd p) = v /\ live v)).
  { intros k v. split; intros (i & p & H & H1 & H2 & H3).
    - destruct (Forall2_lookup_l _ _ _ _ _ HP H) as (p' & H' & _). exists i, p'. split; [exact H'|].
      rewrite <- (vals_lookup _ _ _ _ _ EV H H'). rewrite (A _ _ _ H H'); [auto|congruence].
    - destruct (Forall2_lookup_r _ _ _ _ _ HP H) as (p' & H' & _). exists i, p'. split; [exact H'|].
      pose proof (vals_lookup _ _ _ _ _ EV H' H) as E. rewrite E. split; [|auto]. rewrite <- (A _ _ _ H' H); [exact H1|]. rewrite E, H2. exact H3. }
  unfold isdict. split; intros H k v; rewrite H; [apply B|symmetry; apply B].
Qed.

(** ** The history of the table and the history of the dictionary *)

Record tfine (T : table) : Prop := mkTF { f_sorted : vsorted T; f_empty : forall v ps, versions T !! v = Some ps -> empty_ok ps }.

Lemma tfine_dict T v v' ps ps' m : tfine T -> v <= v' -> versions T !! v = Some ps -> versions T !! v' = Some ps' ->
  vals ps = vals ps' -> isdict ps m <-> isdict ps' m.
Proof. intros [H1 H2] Hv H H' E. apply dict_same; [exact E|exact (H1 _ _ _ _ Hv H H')|exact (H2 _ _ H)]. Qed.

Definition dict_at (T : table) (v : nat) (m : gmap N N) : Prop := exists ps, versions T !! v = Some ps /\ isdict ps m.

Lemma dict_at_ext T T' e v m : versions T' = versions T ++ e -> dict_at T v m -> dict_at T' v m.
Proof. intros E (ps & H & Hd). exists ps. split; [|exact Hd]. rewrite E. apply lookup_app_l_Some. exact H. Qed.
Lemma dict_at_old T T' e v m : versions T' = versions T ++ e -> v <= length (t_past T) -> dict_at T' v m -> dict_at T v m.
Proof. intros E Hv (ps & H & Hd). exists ps. split; [|exact Hd]. rewrite E, lookup_app_l in H by (rewrite versions_len; lia). exact H. Qed.

(** [trail T ms]: each dictionary with the number of the version it belongs to.  Every version is the dictionary of some
    moment after which all versions are later. *)
Record trail (T : table) (ms : list (gmap N N * nat)) : Prop := mkTrail {
  tr_at : forall j m b, ms !! j = Some (m, b) -> dict_at T b m /\ b <= length (t_past T);
  tr_last : exists m b, last ms = Some (m, b) /\ dict_at T (length (t_past T)) m;
  tr_find : forall v, v <= length (t_past T) -> exists j m b, ms !! j = Some (m, b) /\ dict_at T v m /\
    (forall j' m' b', j < j' -> ms !! j' = Some (m', b') -> v < b') /\
    (forall g mg bg, ms !! g = Some (mg, bg) -> bg <= v -> g <= j)
}.

Lemma last_at {A} (l : list A) x : last l = Some x -> l !! (length l - 1) = Some x.
Proof. rewrite last_lookup. replace (pred (length l)) with (length l - 1) by lia. auto. Qed.

Lemma new_version T T' e v : versions T' = versions T ++ e -> length (t_past T) < v -> v <= length (t_past T') ->
  exists ps, versions T' !! v = Some ps /\ ps ∈ e.
Proof.
  intros E H1 H2. destruct (lookup_lt_is_Some_2 (versions T') v) as (ps & H); [rewrite versions_len; lia|]. exists ps. split; [exact H|].
  rewrite E, lookup_app_r in H by (rewrite versions_len; lia). apply elem_of_list_lookup. eauto.
Qed.

Lemma ext_past T T' e : versions T' = versions T ++ e -> length (t_past T) <= length (t_past T').
Proof. intros E. assert (H := f_equal length E). rewrite app_length, !versions_len in H. lia. Qed.

(** A call, or a part of one, that changes no value. *)
Lemma trail_same T T' ms : trail T ms -> tfine T' -> vq T T' -> trail T' ms.
Proof.
  intros [A1 (ml & bl & A2 & A2') A3] HF (e & E & He & Hc). pose proof (ext_past _ _ _ E) as Hle.
  assert (HL : versions T' !! length (t_past T) = Some (t_pairs T)) by (rewrite E; apply lookup_app_l_Some, versions_last).
  assert (Hnew : forall v, length (t_past T) < v -> v <= length (t_past T') -> dict_at T' v ml).
  { intros v H1 H2. destruct (new_version _ _ _ _ E H1 H2) as (ps & Hps & Hin). exists ps. split; [exact Hps|].
    rewrite Forall_forall in He. specialize (He ps Hin). apply (tfine_dict T' (length (t_past T)) v (t_pairs T) ps ml HF); [lia|exact HL|exact Hps|congruence|].
    destruct A2' as (q & Hq & Hd). rewrite versions_last in Hq. injection Hq as <-. exact Hd. }
  constructor.
  - intros j m b H. destruct (A1 j m b H) as (H1 & H2). split; [exact (dict_at_ext _ _ _ _ _ E H1)|lia].
  - exists ml, bl. split; [exact A2|]. destruct (Nat.eq_dec (length (t_past T)) (length (t_past T'))) as [Q|Q].
    + rewrite <- Q. exact (dict_at_ext _ _ _ _ _ E A2').
    + apply Hnew; lia.
  - intros v Hv. destruct (Nat.le_gt_cases v (length (t_past T))) as [Hl|Hl].
    + destruct (A3 v Hl) as (j & m & b & B1 & B2 & B3 & B4). exists j, m, b. split; [exact B1|]. split; [exact (dict_at_ext _ _ _ _ _ E B2)|auto].
    + exists (length ms - 1), ml, bl. split; [exact (last_at _ _ A2)|]. split; [exact (Hnew v Hl Hv)|]. split.
      * intros j' m' b' H1 H2. apply lookup_lt_Some in H2. lia.
      * intros g mg bg H1 _. apply lookup_lt_Some in H1. lia.
Qed.

(** A call, or the part of one up to its write and beyond. *)
Lemma trail_step T T' ms m' : trail T ms -> tfine T' -> twoval T T' -> dict_at T' (length (t_past T')) m' ->
  trail T' (ms ++ [(m', length (t_past T'))]).
Proof.
  intros [A1 (ml & bl & A2 & A2') A3] HF (e & E & He) Hm. pose proof (ext_past _ _ _ E) as Hle.
  assert (HL : versions T' !! length (t_past T) = Some (t_pairs T)) by (rewrite E; apply lookup_app_l_Some, versions_last).
  assert (Hlen : 0 < length ms) by (destruct ms; [discriminate|cbn; lia]).
  constructor.
  - intros j m b H. apply lookup_app_Some in H as [H|(H1 & H2)].
    + destruct (A1 j m b H) as (H1 & H2). split; [exact (dict_at_ext _ _ _ _ _ E H1)|lia].
    + apply list_lookup_singleton_Some in H2 as (_ & [= <- <-]). split; [exact Hm|lia].
  - exists m', (length (t_past T')). split; [apply last_snoc|exact Hm].
  - intros v Hv.
    assert (Hold : forall j m b, ms !! j = Some (m, b) -> (ms ++ [(m', length (t_past T'))]) !! j = Some (m, b)) by (intros; now apply lookup_app_l_Some).
    assert (Hend : dict_at T' v m' -> exists j m b, (ms ++ [(m', length (t_past T'))]) !! j = Some (m, b) /\ dict_at T' v m /\
      (forall j' m2 b', j < j' -> (ms ++ [(m', length (t_past T'))]) !! j' = Some (m2, b') -> v < b') /\
      (forall g mg bg, (ms ++ [(m', length (t_past T'))]) !! g = Some (mg, bg) -> bg <= v -> g <= j)).
    { intros H. exists (length ms), m', (length (t_past T')). split; [rewrite lookup_app_r, Nat.sub_diag by lia; reflexivity|]. split; [exact H|]. split.
      - intros j' m2 b' H1 H2. apply lookup_lt_Some in H2. rewrite app_length in H2. cbn in H2. lia.
      - intros g mg bg H1 _. apply lookup_lt_Some in H1. rewrite app_length in H1. cbn in H1. lia. }
    destruct (Nat.eq_dec v (length (t_past T'))) as [->|Hne]; [exact (Hend Hm)|].
    destruct (Nat.le_gt_cases v (length (t_past T))) as [Hl|Hl].
    + destruct (A3 v Hl) as (j & m & b & B1 & B2 & B3 & B4). exists j, m, b. split; [auto|]. split; [exact (dict_at_ext _ _ _ _ _ E B2)|]. split.
      * intros j' m2 b' H1 H2. apply lookup_app_Some in H2 as [H2|(H2 & H3)]; [exact (B3 _ _ _ H1 H2)|].
        apply list_lookup_singleton_Some in H3 as (_ & [= <- <-]). lia.
      * intros g mg bg H1 H2. apply lookup_app_Some in H1 as [H1|(_ & H1)]; [exact (B4 _ _ _ H1 H2)|].
        apply list_lookup_singleton_Some in H1 as (_ & [= <- <-]). lia.
    + destruct (new_version _ _ _ _ E Hl Hv) as (ps & Hps & Hin). rewrite Forall_forall in He. destruct (He ps Hin) as [Ev|Ev].
      * exists (length ms - 1), ml, bl. split; [apply Hold, last_at; exact A2|]. split; [|split].
        -- exists ps. split; [exact Hps|]. apply (tfine_dict T' (length (t_past T)) v (t_pairs T) ps ml HF); [lia|exact HL|exact Hps|congruence|].
           destruct A2' as (q & Hq & Hd). rewrite versions_last in Hq. injection Hq as <-. exact Hd.
        -- intros j' m2 b' H1 H2. apply lookup_app_Some in H2 as [H2|(H2 & H3)]; [apply lookup_lt_Some in H2; lia|].
           apply list_lookup_singleton_Some in H3 as (_ & [= <- <-]). lia.
        -- intros g mg bg H1 H2. apply lookup_app_Some in H1 as [H1|(_ & H1)]; [apply lookup_lt_Some in H1; lia|].
           apply list_lookup_singleton_Some in H1 as (_ & [= <- <-]). lia.
      * apply Hend. exists ps. split; [exact Hps|]. destruct Hm as (q & Hq & Hd). rewrite versions_last in Hq. injection Hq as <-.
        apply (tfine_dict T' v (length (t_past T')) ps (t_pairs T') m' HF); [exact Hv|exact Hps|apply versions_last|exact Ev|exact Hd].
Qed.

(** ** Values that were read *)

Definition kept (ppl : nat) (T : table) (b : nat) (k : N) : Prop := b <= length (t_past T) /\ exists i p, hist_entry T b i = Some p /\ clean (fst p) = k /\
  forall bb v x, t_pers T !! (i / ppl) = Some bb -> bb <= v -> chist T v i CVal = Some x ->
  exists w y, b <= w /\ chist T w i CVal = Some y /\ clean x = clean y.

Lemma text_chist_old T T' v i c x : text T T' -> v <= length (t_past T) -> chist T' v i c = Some x -> chist T v i c = Some x.
Proof.
  intros (_ & (e & E) & _) Hv H. unfold chist, hist_entry in *. rewrite E, lookup_app_l in H by (rewrite versions_len; lia). exact H.
Qed.
Lemma text_chist T T' v i c x : text T T' -> chist T v i c = Some x -> chist T' v i c = Some x.
Proof.
  intros H. unfold chist. destruct (hist_entry T v i) as [p|] eqn:E; [|discriminate]. rewrite (text_hist _ _ _ _ _ H E). auto.
Qed.

Lemma kept_text ppl T T' b k : text T T' -> kept ppl T b k -> kept ppl T' b k.
Proof.
  intros HT (Hb & i & p & Hp & Hk & H). pose proof HT as (_ & (e & E) & HP & _). split; [pose proof (ext_past _ _ _ E); lia|].
  exists i, p. split; [exact (text_hist _ _ _ _ _ HT Hp)|]. split; [exact Hk|]. intros bb v x Hbb Hv Hx.
  destruct (Nat.le_gt_cases v (length (t_past T))) as [Hl|Hl].
  - destruct (Forall2_lookup_r _ _ _ _ _ HP Hbb) as (b1 & Hb1 & Hle).
    destruct (H b1 v x Hb1 ltac:(lia) (text_chist_old _ _ _ _ _ _ HT Hl Hx)) as (w & y & H1 & H2 & H3). exists w, y. split; [exact H1|].
    split; [exact (text_chist _ _ _ _ _ _ HT H2)|exact H3].
  - exists v, x. split; [lia|]. auto.
Qed.

Lemma kept_now ppl T i k v : dur ppl T -> t_pairs T !! i = Some (k, v) -> isclean k -> isclean v -> kept ppl T (length (t_past T)) k.
Proof.
  intros HD Hp Hk Hv. split; [lia|]. exists i, (k, v). split; [rewrite hist_cur; exact Hp|]. split; [exact (clean_id _ Hk)|].
  intros bb w x Hbb Hw Hx. assert (Hcur : chist T (length (t_past T)) i CVal = Some v) by (rewrite chist_cur, Hp; reflexivity).
  destruct (d_cell _ _ HD i CVal bb v Hbb Hcur) as (_ & _ & _ & _ & A4). exists (length (t_past T)), v. split; [lia|]. split; [exact Hcur|].
  exact (A4 Hv w x Hw Hx).
Qed.

(** ** The invariant of the concurrent executions, in an execution of one thread *)

Lemma ok_during {A} cap (p : prog A) Q ops s s' : ok cap p Q (ops, s) -> Inv cap (ops, s) -> during p s s' -> Inv cap (ops, s').
Proof.
  intros H HI Hd. revert H HI. induction Hd as [p s|c k s s' Hd IH]; intros H HI; [exact HI|].
  cbn [ok] in H. specialize (H (ops, s) HI (Rel_refl _)). cbn [fst snd] in H. destruct (exec c s) as [r s1]. cbn in IH. destruct H as (H1 & _ & H3). auto.
Qed.

Lemma op_during C cap n o ops s s' : Inv cap (ops, s) -> legal_op o -> during (op_prog C n o) s s' -> Inv cap (o :: ops, s').
Proof.
  intros HI Ho Hd. destruct (invoke_ok cap (ops, s) o HI Ho) as (HI' & _). cbn [fst snd] in HI'.
  exact (ok_during cap _ _ _ _ _ (ok_op C cap n o _ HI' Ho (or_introl eq_refl)) HI' Hd).
Qed.

Lemma init_Inv cap ppl maxcap : good_cap cap maxcap -> Inv cap ([], init_state cap ppl maxcap).
Proof.
  intros [_ Hca]. split; [constructor|]. split; [reflexivity|]. split; [cbn; lia|]. split.
  - intros t T HT. destruct t as [|t]; [|destruct t; discriminate]. injection HT as <-. apply fresh_ok.
    + exists 0. cbn. lia.
    + unfold can_alloc in Hca. apply andb_true_iff in Hca as [H _]. apply N.ltb_lt in H. exact H.
  - intros t T nt HT Hn. destruct t as [|t]; [|destruct t; discriminate]. injection HT as <-. discriminate.
Qed.

Lemma reach_Inv C cap s0 os rs s : Inv cap ([], s0) -> reach C s0 os rs s -> Forall legal_op os -> Inv cap (rev os, s).
Proof.
  intros H0 Hr. induction Hr as [|os rs s n o r s' Hr IH Hs]; intros Hl; [exact H0|].
  apply Forall_app in Hl as (Hl & Ho). apply Forall_inv in Ho. rewrite rev_app_distr. cbn [rev app].
  exact (op_during C cap n o (rev os) s s' (IH Hl) Ho (run_during _ _ _ _ Hs)).
Qed.

Lemma Inv_tfine cap ops s T t : Inv cap (ops, s) -> st_tabs s !! t = Some T -> tfine T.
Proof.
  intros (_ & _ & _ & H & _) HT. destruct (H t T HT) as (_ & _ & _ & H1 & H2 & _). split; [exact H2|].
  intros v ps Hv i p Hp. specialize (H1 ps ltac:(apply elem_of_list_In, elem_of_list_lookup; eauto)).
  exact (proj1 (proj2 (Forall_lookup_1 _ _ _ _ H1 Hp))).
Qed.

Lemma init_good_true C cap ppl maxcap : good C True (init_state cap ppl maxcap).
Proof.
  split; [|split; [|split]]; cbn [init_state st_tabs length]; [| | |lia].
  - intros [|t] T H; [injection H as <-|discriminate]. apply dur_single; [reflexivity| |reflexivity]. apply replicate_length.
  - intros [|t] T x H; [injection H as <-|]; discriminate.
  - intros _ T [= <-].
    assert (Hq : forall i q, t_pairs (fresh_table cap 0 0) !! i = Some q -> q = (dirty KINITIAL, dirty VINITIAL)).
    { intros i q H. cbn in H. apply lookup_replicate in H as (-> & _). reflexivity. }
    split.
    + intros i q H H1 _. rewrite (Hq _ _ H) in H1. destruct H1. vm_compute. reflexivity.
    + intros _ i q H. rewrite (Hq _ _ H). split; [vm_compute; reflexivity|]. vm_compute. discriminate.
Qed.

Lemma okstate_dict C sz s m T : okstate C sz (abs s) m -> st_tabs s = [T] -> isdict (t_pairs T) m.
Proof.
  intros (HR & _) E. destruct (single_entries C sz (abs s) m (absT T) HR) as (_ & H & _); [cbn; rewrite E; reflexivity|cbn; rewrite E; reflexivity|].
  intros k v. rewrite (H k v). cbn [absT t_pairs]. split.
  - intros (i & Hi & Hl). rewrite list_lookup_fmap in Hi. destruct (t_pairs T !! i) as [p|] eqn:Ep; [|discriminate]. injection Hi as H1 H2. exists i, p. auto.
  - intros (i & p & Hp & H1 & H2 & Hl). exists i. rewrite list_lookup_fmap, Hp. cbn. unfold clean2. rewrite H1, H2. auto.
Qed.

Lemma length_one {A} (l : list A) : length l = 1 -> exists x, l = [x].
Proof. destruct l as [|x [|y l]]; try discriminate. eauto. Qed.

Section Trail.
Context (C : cfg) (cap ppl : nat) (maxcap : N).
Hypothesis (Hcap : good_cap cap maxcap) (Hmax : (maxcap <= 2 ^ 32)%N).
Notation s0 := (init_state cap ppl maxcap).

Lemma Inv_one ops s T : Inv cap (ops, s) -> st_tabs s = [T] -> one s T.
Proof.
  intros HI E. split; [exact E|]. destruct HI as (_ & _ & _ & H1 & H2). cbn [snd] in *. destruct (t_new T) as [x|] eqn:En; [exfalso|reflexivity].
  assert (HT : st_tabs s !! 0 = Some T) by (rewrite E; reflexivity).
  destruct (H2 0 T x HT En) as (NT & HN & Hl). rewrite E in HN. destruct x as [|x]; [|discriminate]. injection HN as <-.
  destruct (H1 0 T HT) as (((e & He) & _) & _). destruct Hcap as ((e' & Hc & _) & _). pose proof (Nat.pow_nonzero 2 e). pose proof (Nat.pow_nonzero 2 e').
  assert (t_len T = 0) as Hz by lia. rewrite Hz in He. symmetry in He. apply Nat.eq_mul_0 in He. lia.
Qed.

Lemma reach_trail os rs s : reach C s0 os rs s -> Forall legal_op os -> length (st_tabs s) = 1 ->
  exists T ms m sz, one s T /\ trail T ms /\ dtrace (map fst ms) os rs /\ length ms = S (length os) /\ length rs = length os /\
    last (map fst ms) = Some m /\ okstate C sz (abs s) m /\ st_maxcap s = maxcap /\
    (forall g k v, os !! g = Some (OGet k) -> rs !! g = Some (RVal v) -> v <> NOTFOUND ->
       exists mg b, ms !! S g = Some (mg, b) /\ kept (st_ppl s) T b k).
Proof.
  intros Hr. induction Hr as [|os rs s n o r s2 Hr IH Hs]; intros Hl H1.
  - destruct (init_ok C cap ppl maxcap Hcap Hmax) as (sz & Hok). set (T := fresh_table cap 0 0).
    exists T, [(∅, 0)], ∅, sz. split; [split; reflexivity|].
    assert (Hd : dict_at T 0 ∅) by (exists (t_pairs T); split; [reflexivity|]; exact (okstate_dict C sz s0 ∅ T Hok eq_refl)).
    split; [|split; [constructor|split; [reflexivity|split; [reflexivity|split; [reflexivity|split; [exact Hok|split; [reflexivity|discriminate]]]]]]].
    constructor.
    + intros [|j] m b H; [injection H as <- <-|discriminate]. split; [exact Hd|cbn; lia].
    + exists ∅, 0. auto.
    + intros v Hv. cbn in Hv. assert (v = 0) as -> by lia. exists 0, ∅, 0. split; [reflexivity|]. split; [exact Hd|]. split.
      * intros [|j'] m' b' Hj H; [lia|discriminate].
      * intros [|g] mg bg H _; [lia|discriminate].
  - apply Forall_app in Hl as (Hl & Ho). apply Forall_inv in Ho. pose proof (run_during _ _ _ _ Hs) as Hd. pose proof (during_len _ _ _ Hd) as Hlen.
    destruct (reach_good C True s0 os rs s (init_good_true C cap ppl maxcap) (fun _ => Hl) Hr) as (Hg & _). pose proof (proj2 (proj2 (proj2 Hg))) as Hpos.
    destruct (IH Hl ltac:(lia)) as (T & ms & m & sz & O & HTr & HDt & HL1 & HL2 & Hlast & Hok & Hmx & Hkept). clear IH.
    pose proof (op_during C cap n o (rev os) s s2 (reach_Inv C cap s0 os rs s (init_Inv cap ppl maxcap Hcap) Hr Hl) Ho Hd) as HI2.
    pose proof (op_any C n sz s m o Hok Ho) as Hop. rewrite Hs in Hop. destruct Hop as (m2 & sz2 & Hok2 & Hstep & Hmx2 & _). cbn in Hmx2.
    destruct (op_one_write C n o s T s2 O Hd) as [Hx|(T2 & O2 & HT2)]; [lia|].
    assert (HW : twoval T T2) by (destruct HT2 as [HV|(HV & _)]; [exact (vq_two _ _ HV)|exact HV]).
    assert (HTl : st_tabs s2 !! 0 = Some T2) by (rewrite (proj1 O2); reflexivity).
    assert (Hd2 : dict_at T2 (length (t_past T2)) m2) by (exists (t_pairs T2); split; [apply versions_last|exact (okstate_dict C sz2 s2 m2 T2 Hok2 (proj1 O2))]).
    exists T2, (ms ++ [(m2, length (t_past T2))]), m2, sz2. split; [exact O2|].
    split; [exact (trail_step T T2 ms m2 HTr (Inv_tfine _ _ _ _ _ HI2 HTl) HW Hd2)|].
    split; [|split; [rewrite !app_length; cbn; lia|split; [rewrite !app_length; cbn; lia|split; [rewrite map_app; apply last_snoc|split; [exact Hok2|split; [congruence|]]]]]].
    + rewrite map_app. cbn [map fst]. destruct (map fst ms) as [|z l] eqn:Em using rev_ind; [discriminate|]. rewrite last_snoc in Hlast. injection Hlast as ->.
      rewrite <- app_assoc. cbn [app]. apply dtrace_snoc; assumption.
    + pose proof (sf_run C True _ _ _ _ _ Hg (sf_op C True n o s (fun _ => Ho) Hg) Hs) as (_ & Hg2 & (Eppl & Hex)).
      assert (HTs : st_tabs s !! 0 = Some T) by (rewrite (proj1 O); reflexivity).
      destruct (Hex 0 T HTs) as (T2' & HT2' & Htext). rewrite HTl in HT2'. injection HT2' as <-.
      intros g k v Hgo Hgr Hv. destruct (decide (g < length os)) as [Hlt|Hge].
      * rewrite lookup_app_l in Hgo by exact Hlt. rewrite lookup_app_l in Hgr by lia. destruct (Hkept g k v Hgo Hgr Hv) as (mg & b & B1 & B2).
        exists mg, b. split; [apply lookup_app_l_Some; exact B1|]. rewrite Eppl. exact (kept_text _ _ _ _ _ Htext B2).
      * rewrite lookup_app_r in Hgo by lia. apply list_lookup_singleton_Some in Hgo as (Hg0 & ->). assert (g = length os) as -> by lia.
        rewrite lookup_app_r in Hgr by lia. apply list_lookup_singleton_Some in Hgr as (_ & ->).
        exists m2, (length (t_past T2)). split; [rewrite lookup_app_r by lia; replace (S (length os) - length ms) with 0 by lia; reflexivity|].
        cbn [op_prog] in Hs. rewrite run_bind in Hs. destruct (run (get C n k) s) as [v' s3|] eqn:Eg; [|discriminate]. cbn in Hs. injection Hs as -> ->.
        destruct (sf_run C True _ _ _ _ _ Hg (sf_get C True n k s Hg) Eg) as ([HP|(t & i & HVc & (Hk1 & Hk2 & T' & p' & HT' & Hp' & HK)  & (T1 & p1 & HT1 & Hp1 & HV))] & _); [contradiction|].
        rewrite (proj1 O2) in HT', HT1. destruct t as [|t]; [|discriminate]. injection HT' as <-. injection HT1 as <-. rewrite Hp1 in Hp'. injection Hp' as <-.
        apply (kept_now _ T2 i k v); [exact (proj1 Hg2 _ _ HTl)| |exact Hk2|exact HVc]. rewrite Hp1. destruct p1. cbn in HK, HV. congruence.
Qed.
End Trail.

(** ** What a crash leaves *)

Lemma dict_exists (ps : list pair_) :
  (forall i j p q, ps !! i = Some p -> ps !! j = Some q -> live (snd p) -> live (snd q) -> fst p = fst q -> i = j) ->
  exists m : gmap N N, forall k v, m !! k = Some v <-> exists i, ps !! i = Some (k, v) /\ live v.
Proof.
  intros Hu. pose (dec := fun p : pair_ => live_dec (snd p) : Decision (live (snd p))).
  pose proof (@nodup_keys (fun p => live (snd p)) dec ps Hu) as Hnd.
  exists (list_to_map (@filter _ _ _ (fun p => live (snd p)) dec ps)). intros k v.
  rewrite <- elem_of_list_to_map by exact Hnd. rewrite elem_of_list_filter, elem_of_list_lookup. firstorder.
Qed.

Section Image.
Context (C : cfg) (cap : nat) (ops : list op) (s : state) (T : table) (img : list pair_).
Hypothesis (HI : Inv cap (ops, s)) (HO : one s T) (HP : placed C T) (HU : unfrozen T) (HC : crash_table s 0 img).

Lemma HT : st_tabs s !! 0 = Some T. Proof. rewrite (proj1 HO). reflexivity. Qed.
Lemma HTok : tab_ok cap (ops, s) T. Proof. destruct HI as (_ & _ & _ & H & _). exact (H 0 T HT). Qed.
Lemma plen : length (t_pairs T) = t_len T. Proof. apply HTok. Qed.
Lemma vlen v ps : versions T !! v = Some ps -> length ps = t_len T.
Proof.
  intros Hv. destruct HTok as (_ & H & _ & _ & H1 & _). rewrite <- H. eapply Forall2_length, (H1 v (length (t_past T))); [|exact Hv|apply versions_last].
  apply lookup_lt_Some in Hv. rewrite versions_len in Hv. lia.
Qed.
Lemma img_len : length img = t_len T.
Proof. destruct HC as (T' & pick & HT' & Hlen & _). rewrite HT in HT'. injection HT' as <-. exact Hlen. Qed.

Lemma img_entry i p : img !! i = Some p -> exists b v, t_pers T !! (i / st_ppl s) = Some b /\ b <= v /\ hist_entry T v i = Some p.
Proof.
  intros Hp. destruct HC as (T' & pick & HT' & Hlen & H1 & H2). rewrite HT in HT'. injection HT' as <-.
  assert (Hi : i < t_len T) by (rewrite <- Hlen; exact (lookup_lt_Some _ _ _ Hp)).
  destruct (lookup_lt_is_Some_2 (t_pers T) (i / st_ppl s)) as (b & Hb).
  { destruct HTok as (_ & _ & -> & _). destruct (st_ppl s) as [|q]; [cbn; lia|]. pose proof (Nat.div_le_upper_bound i (S q) i ltac:(lia)). lia. }
  destruct (H1 _ _ Hb) as (Hle & Hlt). destruct (lookup_lt_is_Some_2 (versions T) _ Hlt) as (ps & Hps).
  exists b, (pick (i / st_ppl s)). split; [exact Hb|]. split; [exact Hle|]. unfold hist_entry. rewrite Hps. rewrite <- (H2 i ps Hi Hps). exact Hp.
Qed.

(** Any version of an entry compared with the current one. *)
Lemma hist_prel v i p : hist_entry T v i = Some p -> exists q, t_pairs T !! i = Some q /\ prel p q.
Proof.
  unfold hist_entry. destruct (versions T !! v) as [ps|] eqn:Ev; [|discriminate]. intros Hp.
  assert (Hv : v <= length (t_past T)) by (apply lookup_lt_Some in Ev; rewrite versions_len in Ev; lia).
  pose proof (f_sorted _ (Inv_tfine _ _ _ _ _ HI HT) _ _ _ _ Hv Ev (versions_last T)) as H2. exact (Forall2_lookup_l _ _ _ _ _ H2 Hp).
Qed.

Lemma hist_key v i p q : hist_entry T v i = Some p -> t_pairs T !! i = Some q -> clean (fst p) <> KINITIAL -> clean (fst p) = clean (fst q).
Proof. intros Hp Hq Hn. destruct (hist_prel _ _ _ Hp) as (q' & Hq' & H1 & _). rewrite Hq in Hq'. injection Hq' as <-. symmetry. exact (H1 Hn). Qed.

Lemma hist_pair v i p : hist_entry T v i = Some p -> pair_ok ops p.
Proof.
  unfold hist_entry. destruct (versions T !! v) as [ps|] eqn:Ev; [|discriminate]. intros Hp. destruct HI as (_ & _ & _ & H & _).
  destruct (H 0 T HT) as (_ & _ & _ & H1 & _). specialize (H1 ps ltac:(apply elem_of_list_In, elem_of_list_lookup; eauto)). exact (Forall_lookup_1 _ _ _ _ H1 Hp).
Qed.

Lemma hist_fine v i p : hist_entry T v i = Some p ->
  (clean (fst p) = KINITIAL /\ clean (snd p) = VINITIAL) \/ (client_key (clean (fst p)) /\ unmarked (clean (snd p))).
Proof.
  intros Hp. destruct (hist_pair _ _ _ Hp) as (P1 & P2 & _). destruct (hist_prel _ _ _ Hp) as (q & Hq & R1 & R2 & _).
  destruct (HU (proj2 HO) _ _ Hq) as (U1 & U2).
  destruct P1 as [P1|[P1|P1]]; [left; auto|exfalso|right].
  - apply U2. rewrite R1; [exact P1|]. rewrite P1, KTOMBSTONE_val, KINITIAL_val, VTOMBSTONE_val, VINITIAL_val. discriminate.
  - split.
    + destruct P1 as (o & Ho & Hk). destruct HI as (Hl & _). cbn [fst] in Hl. rewrite Forall_forall in Hl. specialize (Hl o ltac:(apply elem_of_list_In; exact Ho)).
      apply legal_client. destruct o; cbn in Hk, Hl; try discriminate; injection Hk as <-; tauto.
    + unfold unmarked. rewrite isMarked_clean_mig. destruct (isMarked (snd p) MigrationFlag) eqn:E; [exfalso|reflexivity].
      destruct (R2 eq_refl) as [Q|Q]; [rewrite (marked_clean_eq _ _ Q) in E; congruence|]. rewrite (marked_TOMBPRIME _ Q) in U1. discriminate.
Qed.

Lemma img_cur i p q : img !! i = Some p -> t_pairs T !! i = Some q -> isclean (fst q) -> clean (fst p) = fst q.
Proof.
  intros Hp Hq Hc. destruct (img_entry _ _ Hp) as (b & v & Hb & Hv & Hh).
  unfold hist_entry in Hh. destruct (versions T !! v) as [ps|] eqn:Eps; [|discriminate]. destruct HTok as (_ & _ & _ & _ & _ & _ & A7 & _).
  rewrite <- (clean_id _ Hc). exact (A7 i q b v ps p Hq Hc Hb Hv Eps Hh).
Qed.

Lemma img_probe i p : img !! i = Some p -> client_key (clean (fst p)) ->
  exists c, probe (reprobeLimit (length img)) (map clean2 img) (length img) (hash C (clean (fst p))) (clean (fst p)) 0 = PFound i c.
Proof.
  intros Hp (K1 & K2 & K3). destruct (img_entry _ _ Hp) as (b & v & Hb & Hv & Hh). destruct (hist_prel _ _ _ Hh) as (q & Hq & _).
  pose proof (hist_key _ _ _ _ Hh Hq K2) as Ek.
  destruct (HP i q Hq) as (d & Hd & -> & Hpass); [congruence|congruence|]. rewrite <- Ek in *. rewrite img_len. exists d. apply found_intro; [lia| |exact K2|].
  - unfold keyat. rewrite list_lookup_fmap, Hp. reflexivity.
  - intros c' Hc'. destruct (Hpass c' ltac:(lia)) as (q' & Hq' & Q1 & Q2 & Q3 & Q4).
    destruct (lookup_lt_is_Some_2 img (pos (hash C (clean (fst p))) (t_len T) c')) as (p' & Hp').
    { rewrite img_len. pose proof (lookup_lt_Some _ _ _ Hq') as Hlt. rewrite plen in Hlt. exact Hlt. }
    unfold nonstop, keyat. rewrite list_lookup_fmap, Hp'. cbn [fmap option_fmap option_map clean2 fst]. rewrite (img_cur _ _ _ Hp' Hq' Q1). auto.
Qed.

Lemma img_ent i p : map clean2 img !! i = Some p -> p = (KINITIAL, VINITIAL) \/
  (client_key (fst p) /\ unmarked (snd p) /\
   exists c, probe (reprobeLimit (length img)) (map clean2 img) (length img) (hash C (fst p)) (fst p) 0 = PFound i c).
Proof.
  rewrite list_lookup_fmap. destruct (img !! i) as [p0|] eqn:Hp; [|discriminate]. intros [= <-]. destruct (img_entry _ _ Hp) as (b & v & Hb & Hv & Hh).
  unfold clean2. destruct (hist_fine _ _ _ Hh) as [(E1 & E2)|(E1 & E2)]; [left; congruence|right]. split; [exact E1|]. split; [exact E2|]. exact (img_probe i p0 Hp E1).
Qed.

Lemma img_dict : exists m : gmap N N, forall k v, m !! k = Some v <-> exists i, map clean2 img !! i = Some (k, v) /\ live v.
Proof.
  apply dict_exists. intros i j p q Hp Hq Lp Lq E.
  destruct (img_ent i p Hp) as [-> |(_ & _ & c & Hc)]; [destruct Lp as (_ & ? & _); cbn in *; congruence|].
  destruct (img_ent j q Hq) as [-> |(_ & _ & d & Hd)]; [destruct Lq as (_ & ? & _); cbn in *; congruence|]. rewrite E in Hc. congruence.
Qed.

(** The entry of a key. *)
Lemma home_unique i j p q : t_pairs T !! i = Some p -> t_pairs T !! j = Some q -> clean (fst p) = clean (fst q) ->
  client_key (clean (fst p)) -> i = j.
Proof.
  intros Hp Hq E (K1 & K2 & K3). 
  destruct (HP i p Hp K2 K3) as (d & _ & Hi & Hpi). destruct (HP j q Hq) as (d' & _ & Hj & Hpj); [congruence|congruence|]. rewrite <- E in *.
  destruct (Nat.lt_trichotomy d d') as [H|[->|H]]; [exfalso|congruence|exfalso].
  - destruct (Hpj d H) as (q' & Hq' & Q1 & _ & Q3 & _). rewrite <- Hi in Hq'. rewrite Hp in Hq'. injection Hq' as <-. apply Q3. symmetry. exact (clean_id _ Q1).
  - destruct (Hpi d' H) as (q' & Hq' & Q1 & _ & Q3 & _). rewrite <- Hj in Hq'. rewrite Hq in Hq'. injection Hq' as <-. apply Q3. rewrite E. symmetry. exact (clean_id _ Q1).
Qed.

Definition interp (w : N) : option N := if live_dec (clean w) then Some (clean w) else None.

(** What a list of entries, each of them some version of the entry of the table, says about key [k]. *)
Definition versioned (ps : list pair_) : Prop := length ps = t_len T /\ forall i p, ps !! i = Some p -> exists v, hist_entry T v i = Some p.

Lemma dict_home ps m k i p q : versioned ps -> isdict ps m -> client_key k -> t_pairs T !! i = Some q -> clean (fst q) = k ->
  ps !! i = Some p -> m !! k = interp (snd p).
Proof.
  intros (_ & HV) Hm Hk Hq Eq Hp.
  assert (Hother : forall j p', ps !! j = Some p' -> clean (fst p') = k -> j = i).
  { intros j p' Hp' E. destruct (HV _ _ Hp') as (v & Hh). destruct (hist_prel _ _ _ Hh) as (q' & Hq' & _). destruct Hk as (K1 & K2 & K3).
    pose proof (hist_key _ _ _ _ Hh Hq' ltac:(congruence)) as E'. apply (home_unique j i q' q Hq' Hq); [congruence|]. rewrite <- E', E. split; auto. }
  destruct (HV _ _ Hp) as (v & Hh). unfold interp. destruct (live_dec (clean (snd p))) as [L|L].
  - apply Hm. exists i, p. split; [exact Hp|]. split; [|auto]. rewrite <- Eq. apply (hist_key _ _ _ _ Hh Hq). intros E. destruct L as (_ & L & _). apply L.
    exact (proj1 (proj2 (hist_pair _ _ _ Hh)) E).
  - destruct (m !! k) as [x|] eqn:Em; [exfalso|reflexivity]. apply Hm in Em as (j & p' & Hp' & E1 & E2 & L'). rewrite (Hother _ _ Hp' E1) in Hp'. rewrite Hp in Hp'. injection Hp' as <-.
    apply L. rewrite E2. exact L'.
Qed.

Lemma dict_none ps m k : versioned ps -> isdict ps m -> k <> KINITIAL -> (forall i q, t_pairs T !! i = Some q -> clean (fst q) <> k) -> m !! k = None.
Proof.
  intros (_ & HV) Hm Hk Hn. destruct (m !! k) as [x|] eqn:Em; [exfalso|reflexivity]. apply Hm in Em as (j & p' & Hp' & E1 & _).
  destruct (HV _ _ Hp') as (v & Hh). destruct (hist_prel _ _ _ Hh) as (q' & Hq' & _). apply (Hn j q' Hq'). rewrite <- (hist_key _ _ _ _ Hh Hq'); congruence.
Qed.

Lemma versioned_img : versioned img.
Proof. split; [exact img_len|]. intros i p Hp. destruct (img_entry _ _ Hp) as (b & v & _ & _ & Hh). eauto. Qed.
Lemma versioned_at v ps : versions T !! v = Some ps -> versioned ps.
Proof.
  intros Hv. split; [exact (vlen _ _ Hv)|]. intros i p Hp. exists v. unfold hist_entry. rewrite Hv. exact Hp.
Qed.

(** What is left of [k]. *)
Lemma img_trail ms m k j0 : dur (st_ppl s) T -> trail T ms -> isdict img m -> client_key k ->
  (j0 = 0 \/ exists mg b, ms !! j0 = Some (mg, b) /\ kept (st_ppl s) T b k) ->
  lost_at_most_last (map fst ms) j0 k (m !! k).
Proof.
  intros HD HTr Hm Hk Hj. pose proof HTr as [A1 (ml & bl & A2 & A2') A3].
  assert (Hlast : forall z, last (map fst ms) = Some z -> z = ml).
  { intros z Hz. rewrite fmap_last in Hz. unfold fmap, option_fmap, option_map in Hz. rewrite A2 in Hz. cbn in Hz. congruence. }
  assert (Hend : ms !! (length ms - 1) = Some (ml, bl)) by exact (last_at _ _ A2).
  assert (Hb0 : j0 <= length ms - 1).
  { destruct Hj as [->|(mg & b & Hg & _)]; [lia|]. apply lookup_lt_Some in Hg. lia. }
  assert (Hcurrent : m !! k = ml !! k -> lost_at_most_last (map fst ms) j0 k (m !! k)).
  { intros E. exists (length ms - 1), ml. split; [exact Hb0|]. split; [rewrite list_lookup_fmap, Hend; reflexivity|]. split; [exact E|].
    intros j' m' z H1 H2. apply lookup_lt_Some in H2. rewrite map_length in H2. lia. }
  destruct A2' as (pl & Hpl & Hdl). rewrite versions_last in Hpl. injection Hpl as <-.
  assert (Hk' : forall x, x <> KINITIAL -> {i : nat & {q | t_pairs T !! i = Some q /\ clean (fst q) = x}} + {forall i q, t_pairs T !! i = Some q -> clean (fst q) <> x}).
  { intros x _. clear. induction (t_pairs T) as [|q l IH]; [right; discriminate|]. destruct (N.eq_dec (clean (fst q)) x) as [E|E].
    - left. exists 0, q. auto.
    - destruct IH as [(i & q' & H1 & H2)|H]; [left; exists (S i), q'; auto|right]. intros [|i] q' H'; [injection H' as <-; exact E|exact (H i q' H')]. }
  destruct (Hk' k ltac:(apply Hk)) as [(i & q & Hq & Eq)|Hno].
  2:{ apply Hcurrent. rewrite (dict_none img m k versioned_img Hm ltac:(apply Hk) Hno).
      rewrite (dict_none _ ml k (versioned_at _ _ (versions_last T)) Hdl ltac:(apply Hk) Hno). reflexivity. }
  clear Hk'. assert (Hi : i < t_len T) by (rewrite <- plen; exact (lookup_lt_Some _ _ _ Hq)).
  destruct (lookup_lt_is_Some_2 img i) as (p & Hp); [rewrite img_len; exact Hi|].
  rewrite (dict_home img m k i p q versioned_img Hm Hk Hq Eq Hp) in *.
  assert (Hml : ml !! k = interp (snd q)) by exact (dict_home _ ml k i q q (versioned_at _ _ (versions_last T)) Hdl Hk Hq Eq Hq).
  rewrite Hml in Hcurrent.
  assert (Hint : forall w w', clean w = clean w' -> interp w = interp w') by (intros w w' E; unfold interp; rewrite E; reflexivity).
  destruct (img_entry _ _ Hp) as (b & v & Hb & Hv & Hh). pose proof (hist_chist _ _ _ _ CVal Hh) as Hx. cbn [get_cell] in Hx.
  assert (Hcur : chist T (length (t_past T)) i CVal = Some (snd q)) by (rewrite chist_cur, Hq; reflexivity).
  destruct (d_cell _ _ HD i CVal b _ Hb Hcur) as (a & D1 & D2 & D3 & _).
  destruct (Nat.le_gt_cases a v) as [Ha|Ha]; [apply Hcurrent, Hint; exact (D2 v _ Ha Hx)|].
  assert (Ho : exists o po, versions T !! (a - 1) = Some po /\ po !! i = Some o).
  { destruct (lookup_lt_is_Some_2 (versions T) (a - 1)) as (po & Hpo); [rewrite versions_len; lia|].
    destruct (lookup_lt_is_Some_2 po i) as (o & Ho); [rewrite (proj1 (versioned_at _ _ Hpo)); exact Hi|]. eauto. }
  destruct Ho as (o & po & Hpo & Ho).
  assert (Hco : chist T (a - 1) i CVal = Some (snd o)) by (unfold chist, hist_entry; rewrite Hpo, Ho; reflexivity).
  pose proof (D3 v _ _ Hv Ha Hx Hco) as Exo.
  destruct (A3 (a - 1) ltac:(lia)) as (j & mj & bj & B1 & (po' & Hpo' & Hdj) & B3 & B4). rewrite Hpo in Hpo'. injection Hpo' as <-.
  assert (Hfit : j0 <= j -> lost_at_most_last (map fst ms) j0 k (interp (snd p))).
  { intros Hle. exists j, mj. split; [exact Hle|]. split; [rewrite list_lookup_fmap, B1; reflexivity|].
    split; [rewrite (dict_home po mj k i o q (versioned_at _ _ Hpo) Hdj Hk Hq Eq Ho); apply Hint; exact Exo|].
    intros j' m' z Hj' Hm' Hz. rewrite (Hlast z Hz), Hml. rewrite list_lookup_fmap in Hm'. destruct (ms !! j') as [[m1 b1]|] eqn:E1; [|discriminate]. injection Hm' as <-.
    destruct (A1 _ _ _ E1) as ((p1 & Hp1 & Hd1) & Hb1). pose proof (B3 _ _ _ Hj' E1) as Hlt.
    destruct (lookup_lt_is_Some_2 p1 i) as (o1 & Ho1); [rewrite (proj1 (versioned_at _ _ Hp1)); exact Hi|].
    rewrite (dict_home p1 _ k i o1 q (versioned_at _ _ Hp1) Hd1 Hk Hq Eq Ho1). apply Hint. apply (D2 b1); [lia|]. unfold chist, hist_entry. rewrite Hp1, Ho1. reflexivity. }
  destruct Hj as [->|(mg & bg & Hg & (Hbg & i' & p' & Hp' & Ek' & Hkept))]; [apply Hfit; lia|].
  destruct (Nat.le_gt_cases bg (a - 1)) as [Hl|Hl]; [apply Hfit; exact (B4 _ _ _ Hg Hl)|].
  assert (i' = i) as ->.
  { destruct (hist_prel _ _ _ Hp') as (q' & Hq' & _). assert (E' : clean (fst p') = clean (fst q')) by (apply (hist_key _ _ _ _ Hp' Hq'); rewrite Ek'; apply Hk).
    apply (home_unique i' i q' q Hq' Hq); [congruence|]. rewrite <- E', Ek'. exact Hk. }
  destruct (Hkept b v _ Hb Hv Hx) as (w & y & H1 & H2 & H3). apply Hcurrent, Hint. rewrite H3. apply (D2 w y); [lia|exact H2].
Qed.
End Image.

(** The map constructed from an image. *)
Lemma reopen_dict C img files cap' ppl' maxcap (m : gmap N N) : (exists e, length img = 2 ^ e /\ 3 <= e) -> can_alloc (length img) maxcap = true ->
  (maxcap <= 2 ^ 32)%N -> find_file 0 files = Some img -> (forall x, (0 < x)%N -> find_file x files = None) ->
  (forall i p, map clean2 img !! i = Some p -> p = (KINITIAL, VINITIAL) \/
    (client_key (fst p) /\ unmarked (snd p) /\
     exists c, probe (reprobeLimit (length img)) (map clean2 img) (length img) (hash C (fst p)) (fst p) 0 = PFound i c)) ->
  (forall k v, m !! k = Some v <-> exists i, map clean2 img !! i = Some (k, v) /\ live v) ->
  exists s1, init_state_files cap' ppl' maxcap files = Some s1 /\
    (forall x s2, run size s1 = Ok x s2 -> x = N.of_nat (base.size m)) /\
    (forall os' rs' s2, reach C s1 os' rs' s2 -> Forall legal_op os' -> exists m', dsteps m os' rs' m').
Proof.
  intros Hpow Hca Hmax Hf Hfs Hent Hm. pose proof (reopen_ok C img ppl' maxcap files m Hpow Hca Hmax Hfs Hent Hm) as Hok1.
  exists (reopened img ppl' maxcap files). split; [|split].
  - unfold init_state_files, mmap_table. rewrite Hf. destruct img as [|p l]; [|reflexivity]. exfalso. destruct Hpow as (e & He & _). cbn in He. pose proof (Nat.pow_nonzero 2 e). lia.
  - intros x s2 Hs. pose proof (op_any C 0 _ (reopened img ppl' maxcap files) m OSize Hok1 Logic.I) as Hop. cbn [op_prog] in Hop. rewrite run_bind, Hs in Hop.
    destruct Hop as (m' & sz' & _ & _ & _ & _ & Hop & _). specialize (Hop eq_refl _ eq_refl). injection Hop as ->.
    unfold modsize. apply N.mod_small. rewrite <- (count_live C img m Hent Hm).
    unfold can_alloc in Hca. apply andb_true_iff in Hca. destruct Hca as (Hc & _). apply N.ltb_lt in Hc.
    assert (2 ^ 59 < two64)%N by reflexivity.
    pose proof (filter_length (fun p : pair_ => counts_as_value (snd p) = true) (map repair_entry img)) as Hlf. rewrite map_length in Hlf. lia.
  - intros os' rs' s2 Hr' Hl'. destruct (reach_ok C _ m os' rs' s2 (ex_intro (fun z => okstate C z _ m) _ Hok1) Hr' Hl') as (m' & _ & _ & Hd' & _). eauto.
Qed.

(** ** The theorem *)

Theorem crash_reopen : forall C cap ppl maxcap os rs s n o s' img files cap' ppl',
  good_cap cap maxcap -> (maxcap <= 2 ^ 32)%N ->
  reach C (init_state cap ppl maxcap) os rs s -> Forall legal_op os -> legal_op o ->
  during (op_prog C n o) s s' -> length (st_tabs s') = 1 -> crash_table s' 0 img ->
  find_file 0 files = Some img -> (forall x, (0 < x)%N -> find_file x files = None) ->
  exists s1 m ms, init_state_files cap' ppl' maxcap files = Some s1 /\
    (dtrace ms os rs \/ exists r s2, run (op_prog C n o) s = Ok r s2 /\ dtrace ms (os ++ [o]) (rs ++ [r])) /\
    (forall k j0, legal_key k -> found_before os rs k j0 -> lost_at_most_last ms j0 k (m !! k)) /\
    (forall x s2, run size s1 = Ok x s2 -> x = N.of_nat (base.size m)) /\
    (forall os' rs' s2, reach C s1 os' rs' s2 -> Forall legal_op os' -> exists m', dsteps m os' rs' m').
Proof.
  intros C cap ppl maxcap os rs s n o s' img files cap' ppl' Hcap Hmax Hr Hl Ho Hd H1 HC Hf Hfs.
  pose proof (during_len _ _ _ Hd) as Hlen.
  destruct (reach_good C True _ os rs s (init_good_true C cap ppl maxcap) (fun _ => Hl) Hr) as (Hg & _).
  destruct (sf_during C True _ _ _ _ Hg (sf_op C True n o s (fun _ => Ho) Hg) Hd) as (Hg' & (Eppl & Hex)).
  pose proof (proj2 (proj2 (proj2 Hg))) as Hpos.
  destruct (reach_trail C cap ppl maxcap Hcap Hmax os rs s Hr Hl ltac:(lia)) as (T & ms & m & sz & O & HTr & HDt & HL1 & HL2 & Hlast & Hok & Hmx & Hkept).
  pose proof (op_during C cap n o (rev os) s s' (reach_Inv C cap _ os rs s (init_Inv cap ppl maxcap Hcap) Hr Hl) Ho Hd) as HI.
  destruct (op_one_write C n o s T s' O Hd) as [Hx|(T' & O' & HT')]; [lia|].
  assert (HTs : st_tabs s !! 0 = Some T) by (rewrite (proj1 O); reflexivity).
  assert (HTs' : st_tabs s' !! 0 = Some T') by (rewrite (proj1 O'); reflexivity).
  destruct (Hex 0 T HTs) as (T2 & HT2 & Htext). rewrite HTs' in HT2. injection HT2 as <-.
  pose proof (Inv_tfine _ _ _ _ _ HI HTs') as HF.
  assert (Hms : exists ms', trail T' ms' /\ (ms' = ms \/ exists x, ms' = ms ++ [x]) /\
     (dtrace (map fst ms') os rs \/ exists r s2, run (op_prog C n o) s = Ok r s2 /\ dtrace (map fst ms') (os ++ [o]) (rs ++ [r]))).
  { destruct HT' as [HV|(HV & Hgo)].
    - exists ms. split; [exact (trail_same _ _ _ HTr HF HV)|]. auto.
    - pose proof (op_any C n sz s m o Hok Ho) as Hop. unfold goes_on in Hgo. destruct (run (op_prog C n o) s) as [r s2|e s2] eqn:Er.
      2:{ subst e. destruct Hop as [Hop|Hop]; discriminate. }
      destruct Hgo as (T2 & O2 & V2). destruct Hop as (m2 & sz2 & Hok2 & Hstep & _). pose proof (okstate_dict C sz2 s2 m2 T2 Hok2 (proj1 O2)) as Hdict.
      assert (Hd2 : dict_at T' (length (t_past T')) m2).
      { exists (t_pairs T'). split; [apply versions_last|]. destruct V2 as (e & E & _ & Ev).
        pose proof (op_during C cap n o (rev os) s s2 (reach_Inv C cap _ os rs s (init_Inv cap ppl maxcap Hcap) Hr Hl) Ho (run_during _ _ _ _ Er)) as HI2.
        assert (HTs2 : st_tabs s2 !! 0 = Some T2) by (rewrite (proj1 O2); reflexivity).
        apply (tfine_dict T2 (length (t_past T')) (length (t_past T2)) (t_pairs T') (t_pairs T2) m2 (Inv_tfine _ _ _ _ _ HI2 HTs2));
          [exact (ext_past _ _ _ E)|rewrite E; apply lookup_app_l_Some, versions_last|apply versions_last|congruence|exact Hdict]. }
      exists (ms ++ [(m2, length (t_past T'))]). split; [exact (trail_step T T' ms m2 HTr HF HV Hd2)|]. split; [eauto|]. right. exists r, s2. split; [reflexivity|].
      rewrite map_app. cbn [map fst]. destruct (map fst ms) as [|z l] eqn:Em using rev_ind; [discriminate|]. rewrite last_snoc in Hlast. injection Hlast as ->.
      rewrite <- app_assoc. cbn [app]. apply dtrace_snoc; assumption. }
  destruct Hms as (ms' & HTr' & Hpre & Htrace).
  destruct (proj1 (proj2 (proj2 Hg')) Logic.I T' HTs') as (HP & HU).
  destruct (img_dict C cap (o :: rev os) s' T' img HI O' HP HU HC) as (mi & Hmi).
  assert (Hdi : isdict img mi).
  { intros k v. rewrite Hmi. split.
    - intros (i & Hi & Hlv). rewrite list_lookup_fmap in Hi. destruct (img !! i) as [p|] eqn:Ep; [|discriminate]. injection Hi as E1 E2. exists i, p. auto.
    - intros (i & p & Hp & E1 & E2 & Hlv). exists i. rewrite list_lookup_fmap, Hp. cbn. unfold clean2. rewrite E1, E2. auto. }
  pose proof (img_ent C cap (o :: rev os) s' T' img HI O' HP HU HC) as Hent. pose proof (img_len s' T' img O' HC) as Hil.
  destruct (single_entries C sz (abs s) m (absT T) (proj1 Hok)) as (_ & _ & Hpow & _ & Hca); [cbn; rewrite (proj1 O); reflexivity|cbn; rewrite (proj1 O); reflexivity|].
  cbn [absT t_len abs st_maxcap] in Hpow, Hca. rewrite Hmx in Hca. rewrite <- (proj1 Htext), <- Hil in Hpow, Hca.
  destruct (reopen_dict C img files cap' ppl' maxcap mi Hpow Hca Hmax Hf Hfs Hent Hmi) as (s1 & Hs1 & Hsz & Hlater).
  exists s1, mi, (map fst ms'). split; [exact Hs1|split; [exact Htrace|split; [|split; [exact Hsz|exact Hlater]]]].
  intros k j0 Hk Hj. apply (img_trail C cap (o :: rev os) s' T' img HI O' HP HC ms' mi k j0 (proj1 Hg' _ _ HTs') HTr' Hdi (legal_client _ Hk)).
  destruct Hj as [->|(g & v & -> & Hgo & Hgr & Hv)]; [left; reflexivity|right]. destruct (Hkept g k v Hgo Hgr Hv) as (mg & b & B1 & B2). exists mg, b.
  rewrite Eppl. split; [|exact (kept_text _ _ _ _ _ Htext B2)]. destruct Hpre as [->|(x & ->)]; [exact B1|apply lookup_app_l_Some; exact B1].
Qed.
