(** What the steps on the contents of the entries mean for the dictionary. *)
From Coq Require Import NArith Bool List Lia.
From stdpp Require Import base list gmap.
From Verif Require Import Word Bits Prog HashMap Conc Spec LinSpec Abs Probe CodecThm SeqInv SeqPut SeqGet SeqApi Lin LinNew.
Import ListNotations.
Open Scope nat_scope.

(** ** Refinement of atomic objects, counting the calls *)
Definition inv_count (h : list event) : nat := length (List.filter (fun e => match e with EInv _ _ => true | _ => false end) h).
Definition invoked (P : op -> Prop) (h : list event) : Prop := forall i o, In (EInv i o) h -> P o.

Section Refine.
Context (spec spec' : gmap N N -> op -> rsp -> gmap N N -> Prop) (f : gmap N N -> gmap N N) (I : nat -> gmap N N -> Prop)
  (P : op -> Prop) (B : nat) (m0 : gmap N N).
Context (H0 : I 0 m0).
Context (Hstep : forall n m o r m', n < B -> I n m -> P o -> spec m o r m' -> I (S n) m' /\ spec' (f m) o r (f m')).

Lemma put_at_same st i x : put_at st i x i = x.
Proof. unfold put_at. rewrite Nat.eqb_refl. reflexivity. Qed.
Lemma put_at_other st i x j : j <> i -> put_at st i x j = st j.
Proof. intros H. unfold put_at. apply Nat.eqb_neq in H. rewrite H. reflexivity. Qed.

Lemma atomic_map h m st : atomic spec m0 h m st -> invoked P h -> inv_count h <= B ->
  atomic spec' (f m0) h (f m) st /\ exists n l, I n m /\ NoDup l /\ n + length l = inv_count h /\
    forall i, (i ∈ l <-> exists o, st i = LinSpec.Called o) /\ (forall o, st i = LinSpec.Called o -> P o).
Proof.
  intros H. induction H as [|h m st i o H IH Hi|h m st i o r m' H IH Hi Hs|h m st i o r H IH Hi]; intros HP HB.
  - split; [constructor|]. exists 0, []. split; [exact H0|]. split; [constructor|]. split; [reflexivity|]. intros i.
    split; [|discriminate]. split; [intros E; inversion E|intros [o E]; discriminate].
  - cbn in HB. destruct IH as (I1 & n & l & I2 & I3 & I4 & I5).
    { intros j o' Hj. apply (HP j). right. exact Hj. }
    { unfold inv_count in *. cbn in HB. lia. }
    split; [constructor; assumption|]. exists n, (i :: l). split; [exact I2|]. split.
    { constructor; [|exact I3]. intros E. apply I5 in E as [o' E]. congruence. }
    split. { unfold inv_count in *. cbn. lia. }
    intros j. destruct (Nat.eq_dec j i) as [->|Hne].
    + rewrite put_at_same. split; [split; [eauto|intros _; left]|]. intros o' [= <-]. apply (HP i). left. reflexivity.
    + rewrite put_at_other by exact Hne. split; [|apply I5]. rewrite elem_of_cons. rewrite (proj1 (I5 j)). tauto.
  - destruct (IH HP HB) as (I1 & n & l & I2 & I3 & I4 & I5).
    assert (Hil : i ∈ l) by (apply I5; eauto). apply elem_of_Permutation in Hil as [l' Hl].
    assert (Hlen : length l = S (length l')) by (rewrite Hl; reflexivity).
    rewrite Hl in I3. apply NoDup_cons in I3 as [Hni I3].
    destruct (Hstep n m o r m') as [S1 S2]; [lia|exact I2|apply (I5 i), Hi|exact Hs|].
    split; [exact (at_take _ _ _ _ _ _ _ _ _ I1 Hi S2)|]. exists (S n), l'. split; [exact S1|]. split; [exact I3|]. split; [lia|].
    intros j. destruct (Nat.eq_dec j i) as [->|Hne].
    + rewrite put_at_same. split; [|discriminate]. split; [intros E; contradiction|intros [o' E]; discriminate].
    + rewrite put_at_other by exact Hne. split; [|apply I5]. rewrite <- (proj1 (I5 j)), Hl, elem_of_cons. tauto.
  - destruct IH as (I1 & n & l & I2 & I3 & I4 & I5).
    { intros j o' Hj. apply (HP j). right. exact Hj. }
    { exact HB. }
    split; [exact (at_res _ _ _ _ _ _ _ _ I1 Hi)|]. exists n, l. split; [exact I2|]. split; [exact I3|]. split; [exact I4|].
    intros j. destruct (Nat.eq_dec j i) as [->|Hne].
    + rewrite put_at_same. split; [|discriminate]. split; [intros E; apply I5 in E as [o' E]; congruence|intros [o' E]; discriminate].
    + rewrite put_at_other by exact Hne. apply I5.
Qed.
End Refine.

(** ** Calls other than increment *)
Definition alive (p : N * N) : Prop := snd p <> VINITIAL /\ snd p <> VTOMBSTONE.
Global Instance alive_dec p : Decision (alive p). Proof. unfold alive. apply _. Qed.
(** The dictionary that the contents stand for. *)
Definition view (m : gmap N N) : gmap N N := filter alive m.

Lemma view_live m k x : m !! k = Some x -> x <> VINITIAL -> x <> VTOMBSTONE -> view m !! k = Some x.
Proof. intros H1 H2 H3. apply map_filter_lookup_Some. split; [exact H1|split; assumption]. Qed.
Lemma view_none m k : m !! k = None -> view m !! k = None.
Proof. intros H. apply map_filter_lookup_None. left. exact H. Qed.
Lemma view_tomb m k : m !! k = Some VTOMBSTONE -> view m !! k = None.
Proof. intros H. apply map_filter_lookup_None. right. intros x E [_ H']. cbn in H'. congruence. Qed.
Lemma view_insert m k x : x <> VINITIAL -> x <> VTOMBSTONE -> view (<[k := x]> m) = <[k := x]> (view m).
Proof. intros H1 H2. unfold view. apply map_filter_insert_True. split; assumption. Qed.
Lemma view_delete m k : view (<[k := VTOMBSTONE]> m) = delete k (view m).
Proof. unfold view. rewrite map_filter_insert_False; [|intros [_ H]; apply H; reflexivity]. apply map_filter_delete. Qed.
Lemma view_empty : view ∅ = ∅.
Proof. apply map_filter_empty. Qed.

Definition contents (m : gmap N N) : Prop := forall k x, m !! k = Some x -> x = VTOMBSTONE \/ (live x /\ isclean x).

Lemma contents_insert m k x : contents m -> x = VTOMBSTONE \/ (live x /\ isclean x) -> contents (<[k := x]> m).
Proof. intros H Hx k' y. rewrite lookup_insert_Some. intros [[_ <-]|[_ E]]; [exact Hx|eapply H; eauto]. Qed.

Lemma clean_cases w x : clean w = x -> w = x \/ w = dirty x.
Proof.
  intros <-. destruct (isMarked w DirtyFlag) eqn:E; [right; rewrite dirty_clean; symmetry; apply dirty_id, E|left; symmetry; apply clean_id, E].
Qed.

Lemma holds_cases m k V : contents m -> holds m k V ->
  (m !! k = None /\ V = VINITIAL) \/
  (m !! k = Some VTOMBSTONE /\ (V = VTOMBSTONE \/ V = dirty VTOMBSTONE)) \/
  (exists x, m !! k = Some x /\ live x /\ isclean x /\ same_word V x /\ (V = x \/ V = dirty x)).
Proof.
  intros Hm [H1 H2]. unfold word in H1. destruct (m !! k) as [x|] eqn:E; cbn [from_option id] in H1; [|auto].
  right. apply clean_cases in H1 as H3. destruct (Hm k x E) as [->|[Hl Hc]]; [left; auto|right]. exists x.
  split; [reflexivity|]. do 2 (split; [assumption|]). split; [|exact H3]. unfold same_word. change (clean V = clean x). rewrite (clean_id _ Hc). exact H1.
Qed.

Lemma pub_live V x : live x -> isclean x -> V = x \/ V = dirty x -> pub V = V.
Proof.
  intros (_ & _ & H) Hc HV. unfold pub. destruct (N.eqb_spec V VTOMBSTONE) as [E|_]; [|reflexivity]. exfalso.
  destruct HV as [->| ->]; [contradiction|]. apply (isclean_neq_dirty VTOMBSTONE x VTOMBSTONE_clean). congruence.
Qed.
Lemma dirty_neq w x : isclean w -> dirty x <> w.
Proof. intros H E. apply (isclean_neq_dirty w x H). congruence. Qed.
Lemma live_dirty x : live x -> isclean x -> dirty x <> VINITIAL.
Proof. intros _ _. apply dirty_neq, VINITIAL_clean. Qed.

(** The word that a write returns. *)
Lemma put_result m k V : contents m -> holds m k V ->
  same_word (pub V) (lookup_result (view m) k) \/ (view m !! k = None /\ pub V = setMark VTOMBSTONE DirtyFlag).
Proof.
  intros Hm HV. unfold lookup_result. destruct (holds_cases m k V Hm HV) as [[E ->]|[[E HV2]|(x & E & Hl & Hc & Hs & HV2)]].
  - rewrite view_none by exact E. left. reflexivity.
  - rewrite view_tomb by exact E. destruct HV2 as [->| ->]; [left; reflexivity|right; auto].
  - rewrite (view_live m k x) by (try exact E; apply Hl). left. rewrite (pub_live V x) by assumption. exact Hs.
Qed.

Lemma view_some m k x : contents m -> view m !! k = Some x -> m !! k = Some x /\ live x /\ isclean x.
Proof.
  intros Hm E. apply map_filter_lookup_Some in E as [E [H1 H2]]. cbn in *. destruct (Hm k x E) as [->|H]; [contradiction|]. auto.
Qed.

(** A conditional write whose expected value is an ordinary value. *)
Lemma cond_result m k V ov : contents m -> holds m k V -> legal_val ov ->
  (noMatch V ov = false -> V = ov /\ view m !! k = Some ov /\ (pub V =? ov)%N = true) /\
  (noMatch V ov = true -> (pub V =? ov)%N = false).
Proof.
  intros Hm HV Hov. pose proof (legal_val_neq ov Hov) as (V1 & V2 & _ & V4 & V5). assert (Hoc : isclean ov) by apply Hov.
  assert (Hpub : (pub V =? ov)%N = true -> V = ov).
  { unfold pub. destruct (V =? VTOMBSTONE)%N; intros E; apply N.eqb_eq in E; congruence. }
  assert (HVov : V = ov -> pub V = ov).
  { intros ->. unfold pub. apply N.eqb_neq in V2. rewrite V2. reflexivity. }
  assert (Hmatch : noMatch V ov = false <-> V = ov).
  { destruct (N.eq_dec V VINITIAL) as [->|Hne].
    - split; [|congruence]. unfold noMatch. apply N.eqb_neq in V5, V4, V2. rewrite V5, V4, V2.
      assert ((VINITIAL =? ov)%N = false) as -> by (apply N.eqb_neq; congruence). discriminate.
    - rewrite noMatch_val by assumption. destruct (N.eqb_spec V ov); cbn; split; congruence. }
  split.
  - intros E. apply Hmatch in E. split; [exact E|]. split; [|rewrite (HVov E); apply N.eqb_refl].
    destruct (holds_cases m k V Hm HV) as [[_ E2]|[[_ [E2|E2]]|(x & Ex & Hl & Hc & Hs & [E2|E2])]].
    + congruence.
    + congruence.
    + exfalso. rewrite E in E2. exact (isclean_neq_dirty ov _ Hoc E2).
    + rewrite <- E, E2. apply view_live; [exact Ex|apply Hl|apply Hl].
    + exfalso. rewrite E in E2. exact (isclean_neq_dirty ov _ Hoc E2).
  - intros E. apply N.eqb_neq. intros E2. apply N.eqb_eq, Hpub, Hmatch in E2. congruence.
Qed.

Lemma cstep_wstep m o r m' : contents m -> legal_op o -> not_increment o -> cstep m o r m' ->
  contents m' /\ wstep (view m) o r (view m').
Proof.
  intros Hm Hleg Hni Hs.
  assert (Hget : forall k, pub (word m k) = lookup_result (view m) k /\
    negb (pub (word m k) =? VINITIAL)%N = bool_decide (is_Some (view m !! k))).
  { intros k. unfold word, lookup_result. destruct (m !! k) as [x|] eqn:E; cbn [from_option id].
    - destruct (Hm k x E) as [->|[Hl Hc]].
      + rewrite view_tomb by exact E. split; reflexivity.
      + rewrite (view_live m k x) by (try exact E; apply Hl). cbn [from_option id]. rewrite (pub_live x x) by auto. split; [reflexivity|].
        destruct Hl as (_ & Hl & _). apply N.eqb_neq in Hl. rewrite Hl. reflexivity.
    - rewrite view_none by exact E. split; reflexivity. }
  assert (Hval : forall v, legal_val v -> v <> VINITIAL /\ v <> VTOMBSTONE /\ live v /\ isclean v).
  { intros v Hv. pose proof (legal_val_neq v Hv) as (V1 & V2 & _). split; [exact V1|]. split; [exact V2|]. split; [apply legal_live, Hv|apply Hv]. }
  destruct o as [k|k|k v|k v|k|k v|k ov v|k|]; cbn [cstep wstep lstep] in *; try contradiction.
  - destruct Hs as [-> ->]. split; [exact Hm|]. rewrite (proj1 (Hget k)). auto.
  - destruct Hs as [-> ->]. split; [exact Hm|]. rewrite (proj2 (Hget k)). auto.
  - (* put *)
    destruct Hs as (V & HV & -> & Hc). destruct Hleg as [_ Hv]. destruct (Hval v Hv) as (V1 & V2 & V3 & V4).
    pose proof (put_result m k V Hm HV) as Hr.
    destruct Hc as [[-> [E|[E|[E _]]]]|[_ ->]]; [|rewrite noMatch_NM in E; discriminate|contradiction|].
    + split; [exact Hm|]. split; [exists (pub V); auto|]. symmetry. apply insert_id.
      destruct (holds_cases m k V Hm HV) as [[_ E2]|[[_ [E2|E2]]|(x & Ex & Hl & Hc & Hs & [E2|E2])]].
      * congruence.
      * congruence.
      * exfalso. rewrite <- E in E2. exact (isclean_neq_dirty v _ V4 E2).
      * rewrite E, E2. apply view_live; [exact Ex|apply Hl|apply Hl].
      * exfalso. rewrite <- E in E2. exact (isclean_neq_dirty v _ V4 E2).
    + split; [apply contents_insert; auto|]. split; [exists (pub V); auto|]. apply view_insert; assumption.
  - (* putIfAbsent *)
    destruct Hs as (V & HV & -> & Hc). destruct Hleg as [_ Hv]. destruct (Hval v Hv) as (V1 & V2 & V3 & V4).
    destruct (holds_cases m k V Hm HV) as [[E EV]|[[E EV]|(x & E & Hl & Hxc & Hs & EV)]].
    + subst V. destruct Hc as [[-> [E2|[E2|[E2 _]]]]|[_ ->]]; [congruence|discriminate E2|contradiction|].
      split; [apply contents_insert; auto|]. left. split; [apply view_none, E|]. split; [reflexivity|]. apply view_insert; assumption.
    + destruct Hc as [[-> Hn]|[Hn ->]].
      * destruct EV as [->| ->].
        { exfalso. destruct Hn as [E2|[E2|[_ E2]]]; [congruence|discriminate E2|discriminate E2]. }
        split; [exact Hm|]. right. exists (pub (dirty VTOMBSTONE)). split; [reflexivity|]. split; [reflexivity|].
        rewrite view_tomb by exact E. reflexivity.
      * split; [apply contents_insert; auto|]. destruct EV as [->| ->]; [|discriminate Hn].
        left. split; [apply view_tomb, E|]. split; [reflexivity|]. apply view_insert; assumption.
    + assert (Hvm : view m !! k = Some x) by (apply view_live; [exact E|apply Hl|apply Hl]).
      assert (HVi : V <> VINITIAL) by (destruct EV as [->| ->]; [apply Hl|apply live_dirty; assumption]).
      assert (HVt : V <> VTOMBSTONE) by (destruct EV as [->| ->]; [apply Hl|apply dirty_neq, VTOMBSTONE_clean]).
      assert (Hnm : noMatch V VTOMBSTONE = true).
      { rewrite noMatch_val; [|exact HVi|discriminate|discriminate]. apply N.eqb_neq in HVt. rewrite HVt. reflexivity. }
      destruct Hc as [[-> _]|[Hn _]]; [|congruence]. split; [exact Hm|]. right. exists (pub V). split; [reflexivity|]. split; [reflexivity|].
      rewrite Hvm. rewrite (pub_live V x) by assumption. exact Hs.
  - (* remove *)
    destruct Hs as (V & HV & -> & Hc).
    assert (Hb : negb (pub V =? 0)%N = false -> view m !! k = Some 0%N).
    { intros E. apply negb_false_iff, N.eqb_eq in E.
      destruct (holds_cases m k V Hm HV) as [[_ E2]|[[_ [E2|E2]]|(x & Ex & Hl & Hxc & Hs & E2)]]; try (rewrite E2 in E; discriminate E).
      rewrite (pub_live V x) in E by assumption. destruct E2 as [E2|E2].
      - rewrite <- E, E2. apply view_live; [exact Ex|apply Hl|apply Hl].
      - exfalso. assert (Hd : dirty x <> 0%N) by (apply dirty_neq; reflexivity). congruence. }
    destruct Hc as [[-> Hn]|[_ ->]].
    + split; [exact Hm|]. split; [exists (negb (pub V =? 0)%N); auto|]. symmetry. apply delete_notin.
      destruct Hn as [E|[E|[_ E]]]; [|rewrite noMatch_NM in E; discriminate|];
        destruct (holds_cases m k V Hm HV) as [[E3 E2]|[[E3 E2]|(x & Ex & Hl & Hxc & Hs & E2)]].
      * apply view_none, E3.
      * apply view_tomb, E3.
      * exfalso. destruct E2 as [E2|E2]; [apply (proj2 (proj2 Hl)); congruence|]. apply (dirty_neq VTOMBSTONE x VTOMBSTONE_clean). congruence.
      * apply view_none, E3.
      * apply view_tomb, E3.
      * exfalso. destruct E2 as [E2|E2]; [apply (proj1 (proj2 Hl)); congruence|]. apply (dirty_neq VINITIAL x VINITIAL_clean). congruence.
    + split; [apply contents_insert; auto|]. split; [exists (negb (pub V =? 0)%N); auto|]. apply view_delete.
  - (* remove(key, value) *)
    destruct Hs as (V & HV & -> & Hc). destruct Hleg as [_ Hv]. destruct (cond_result m k V v Hm HV Hv) as [Hyes Hno].
    destruct (Hval v Hv) as (V1 & V2 & V3 & V4).
    destruct Hc as [[-> Hn]|[Hn ->]].
    + split; [exact Hm|]. right. split; [|reflexivity]. f_equal.
      destruct Hn as [E|[E|[_ E]]]; [|apply Hno, E|]; rewrite <- ?E; [|rewrite E];
        unfold pub; [rewrite N.eqb_refl|change (VINITIAL =? VTOMBSTONE)%N with false; cbn iota]; apply N.eqb_neq; congruence.
    + destruct (Hyes Hn) as (EV & E1 & E2). split; [apply contents_insert; auto|]. left. split; [exact E1|].
      split; [rewrite E2; reflexivity|apply view_delete].
  - (* replace *)
    destruct Hs as (V & HV & -> & Hc). destruct Hleg as (_ & Hov & Hv). destruct (cond_result m k V ov Hm HV Hov) as [Hyes Hno].
    destruct (Hval v Hv) as (V1 & V2 & V3 & V4).
    destruct Hc as [[-> Hn]|[Hn ->]].
    + split; [exact Hm|]. destruct (noMatch V ov) eqn:En; [right; rewrite (Hno eq_refl); auto|].
      destruct (Hyes eq_refl) as (EV & E1 & E2). destruct Hn as [E|[E|[E _]]]; [|discriminate|contradiction].
      left. split; [exact E1|]. split; [rewrite E2; reflexivity|]. rewrite E, EV. symmetry. apply insert_id, E1.
    + destruct (Hyes Hn) as (EV & E1 & E2). split; [apply contents_insert; auto|]. left. split; [exact E1|].
      split; [rewrite E2; reflexivity|apply view_insert; assumption].
  - destruct Hs as [Hr ->]. auto.
Qed.

(** ** Calls that never delete *)
Definition bounded (B : N) (n : nat) (m : gmap N N) : Prop :=
  forall k x, m !! k = Some x -> isclean x /\ unmarked x /\ (x <= B + 8 * N.of_nat n)%N.

Lemma bounded_contents B n m : (B + 8 * N.of_nat n < NO_MATCH_OLD)%N -> bounded B n m -> contents m.
Proof.
  intros HB Hm k x E. destruct (Hm k x E) as (H1 & H2 & H3). right. rewrite NO_MATCH_OLD_val in HB. split; [|exact H1]. split; [exact H2|].
  rewrite VINITIAL_val, VTOMBSTONE_val. lia.
Qed.
Lemma bounded_view B n m : (B + 8 * N.of_nat n < NO_MATCH_OLD)%N -> bounded B n m -> view m = m.
Proof.
  intros HB Hm. apply map_eq. intros k. destruct (m !! k) as [x|] eqn:E; [|apply view_none, E].
  destruct (Hm k x E) as (_ & _ & H3). rewrite NO_MATCH_OLD_val in HB.
  apply view_live; [exact E| |]; rewrite ?VINITIAL_val, ?VTOMBSTONE_val; lia.
Qed.
Lemma bounded_S B n m : bounded B n m -> bounded B (S n) m.
Proof. intros H k x E. destruct (H k x E) as (H1 & H2 & H3). repeat split; try assumption. lia. Qed.
Lemma bounded_insert B n m k x : bounded B n m -> isclean x -> unmarked x -> (x <= B + 8 * N.of_nat n)%N -> bounded B n (<[k := x]> m).
Proof. intros H H1 H2 H3 k' y. rewrite lookup_insert_Some. intros [[_ <-]|[_ E]]; [auto|eapply H; eauto]. Qed.

Lemma incremented_clean V : V <> VINITIAL -> V <> VTOMBSTONE -> incremented V = next_count (Some V).
Proof.
  intros H1 H2. unfold incremented. apply N.eqb_neq in H1, H2. rewrite H1, H2. cbn [orb]. unfold next_count, shl64, shr64, two64, BITS_MARKED.
  rewrite N.shiftl_mul_pow2, N.shiftr_div_pow2. reflexivity.
Qed.
Lemma next_clean V : next_count (Some (clean V)) = next_count (Some V).
Proof.
  unfold next_count. change 8%N with (2 ^ 3)%N. rewrite <- !N.shiftr_div_pow2.
  assert (E : N.shiftr (clean V) 3 = N.shiftr V 3); [|rewrite E; reflexivity].
  apply N.bits_inj. intros n. rewrite !N.shiftr_spec', clean_spec. destruct (N.eqb_spec (n + 3) 0); [lia|]. rewrite andb_true_r. reflexivity.
Qed.

Lemma cstep_nstep B n m o r m' : (B + 8 * N.of_nat (S n) < NO_MATCH_OLD)%N -> (8 <= B)%N -> bounded B n m -> legal_op o -> not_removal o ->
  Forall (fun v => v <= B)%N (op_words o) -> cstep m o r m' -> bounded B (S n) m' /\ nstep m o r m'.
Proof.
  intros HB HB8 Hb Hleg Hnr Hw Hs.
  assert (HBn : (B + 8 * N.of_nat n < NO_MATCH_OLD)%N) by lia.
  pose proof (bounded_contents _ _ _ HBn Hb) as Hm. pose proof (bounded_view _ _ _ HBn Hb) as Hvm.
  assert (Hins : forall k v, legal_val v -> (v <= B)%N -> bounded B (S n) (<[k := v]> m)).
  { intros k v Hv Hv2. apply bounded_insert; [apply bounded_S, Hb|apply Hv|apply Hv|lia]. }
  assert (Hvv : bounded B (S n) m' -> view m' = m') by (apply bounded_view; exact HB).
  destruct o as [k|k|k v|k v|k|k v|k ov v|k|]; cbn [nstep] in *; try contradiction.
  - assert (m' = m) as -> by apply Hs. pose proof (bounded_S _ _ _ Hb) as HbS. split; [exact HbS|].
    destruct (cstep_wstep m (OGet k) r m Hm Hleg Logic.I Hs) as [_ H]. rewrite Hvm in H. exact H.
  - assert (m' = m) as -> by apply Hs. pose proof (bounded_S _ _ _ Hb) as HbS. split; [exact HbS|].
    destruct (cstep_wstep m (OContains k) r m Hm Hleg Logic.I Hs) as [_ H]. rewrite Hvm in H. exact H.
  - (* put *)
    destruct (cstep_wstep m (OPut k v) r m' Hm Hleg Logic.I Hs) as [_ Hws]. cbn [op_words] in Hw. apply Forall_cons in Hw as [Hw _].
    destruct Hs as (V & HV & -> & Hc). pose proof (proj2 Hleg) as Hv.
    assert (Hbm : bounded B (S n) m') by (destruct Hc as [[-> _]|[_ ->]]; [apply bounded_S, Hb|apply Hins; assumption]).
    split; [exact Hbm|]. rewrite (Hvv Hbm), Hvm in Hws. destruct Hws as [(w & Ew & Hr) E]. split; [|exact E]. exists w. split; [exact Ew|].
    destruct Hr as [Hr|[Hn Hr]]; [exact Hr|]. exfalso. injection Ew as <-. unfold pub in Hr.
    destruct HV as [_ HV]. rewrite (HV Hn) in Hr. discriminate.
  - (* putIfAbsent *)
    destruct (cstep_wstep m (OPutIfAbsent k v) r m' Hm Hleg Logic.I Hs) as [_ Hws]. cbn [op_words] in Hw. apply Forall_cons in Hw as [Hw _].
    destruct Hs as (V & HV & -> & Hc). pose proof (proj2 Hleg) as Hv.
    assert (Hbm : bounded B (S n) m') by (destruct Hc as [[-> _]|[_ ->]]; [apply bounded_S, Hb|apply Hins; assumption]).
    split; [exact Hbm|]. rewrite (Hvv Hbm), Hvm in Hws. destruct (m !! k) as [x|] eqn:E.
    + destruct Hws as [[H _]|(w & Ew & -> & H)]; [congruence|]. rewrite E in H. eauto.
    + destruct Hws as [(_ & H1 & H2)|(w & Ew & -> & H)]; [auto|]. exfalso. rewrite E in H. injection Ew as <-.
      destruct HV as [_ HV]. rewrite (HV E) in H. discriminate.
  - (* replace *)
    destruct (cstep_wstep m (OReplace k ov v) r m' Hm Hleg Logic.I Hs) as [_ Hws]. cbn [op_words] in Hw. apply Forall_cons in Hw as [Hw _].
    destruct Hs as (V & HV & -> & Hc). destruct Hleg as (_ & _ & Hv).
    assert (Hbm : bounded B (S n) m') by (destruct Hc as [[-> _]|[_ ->]]; [apply bounded_S, Hb|apply Hins; assumption]).
    split; [exact Hbm|]. rewrite (Hvv Hbm), Hvm in Hws. exact Hws.
  - (* increment *)
    destruct Hs as (V & HV & -> & Hc). pose proof (put_result m k V Hm HV) as Hr. rewrite Hvm in Hr.
    assert (Hr2 : same_word (pub V) (lookup_result m k)).
    { destruct Hr as [Hr|[Hn Hr]]; [exact Hr|]. exfalso. unfold pub in Hr. destruct HV as [_ HV]. rewrite (HV Hn) in Hr. discriminate. }
    destruct (holds_cases m k V Hm HV) as [[E EV]|[[E EV]|(x & E & Hl & Hxc & Hsw & EV)]].
    + subst V. destruct Hc as [[_ [H|[H|[H _]]]]|[_ ->]]; [discriminate H|discriminate H|discriminate H|]. cbn in Hr2.
      change (incremented VINITIAL) with 8%N. split; [|split; [eauto|rewrite E; reflexivity]].
      apply bounded_insert; [apply bounded_S, Hb|reflexivity|reflexivity|lia].
    + exfalso. destruct (Hb k _ E) as (_ & _ & H). rewrite VTOMBSTONE_val in H. rewrite NO_MATCH_OLD_val in HBn. lia.
    + destruct (Hb k x E) as (_ & Hxu & Hx). rewrite NO_MATCH_OLD_val in HBn, HB.
      assert (HVi : V <> VINITIAL) by (destruct EV as [->| ->]; [apply Hl|apply live_dirty; assumption]).
      assert (HVt : V <> VTOMBSTONE) by (destruct EV as [->| ->]; [apply Hl|apply dirty_neq, VTOMBSTONE_clean]).
      assert (Hxa : x <> INCREMENT_ARG).
      { change INCREMENT_ARG with 18446744073709551592%N. lia. }
      assert (HVa : INCREMENT_ARG <> V) by (destruct EV as [->| ->]; [congruence|apply not_eq_sym, dirty_neq; reflexivity]).
      destruct Hc as [[_ [H|[H|[H _]]]]|[_ ->]]; [contradiction|discriminate H|discriminate H|].
      assert (Hinc : incremented V = next_count (m !! k)).
      { rewrite incremented_clean by assumption. rewrite E, <- next_clean. f_equal. f_equal. rewrite <- (clean_id _ Hxc). exact Hsw. }
      rewrite Hinc. split; [|split; [eauto|reflexivity]].
      apply bounded_insert; [apply bounded_S, Hb|rewrite <- Hinc; apply shl3_clean|rewrite <- Hinc; apply shl3_clean|].
      rewrite E. unfold next_count. pose proof (N.mul_div_le x 8 ltac:(discriminate)). rewrite N.mod_small; lia.
  - assert (m' = m) as -> by apply Hs. split; [apply bounded_S, Hb|]. exact Hs.
Qed.
