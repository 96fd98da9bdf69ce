(** Histories of an atomic map that is only incremented and read. *)
From Coq Require Import NArith Bool List Lia Permutation.
From stdpp Require Import base list gmap.
From Verif Require Import Word Bits Prog HashMap Conc Spec LinSpec.
Import ListNotations.
Open Scope nat_scope.

Lemma at_same st i x : put_at st i x i = x.
Proof. unfold put_at. rewrite Nat.eqb_refl. reflexivity. Qed.
Lemma at_other st i x j : j <> i -> put_at st i x j = st j.
Proof. intros H. unfold put_at. apply Nat.eqb_neq in H. rewrite H. reflexivity. Qed.

(** The last invocation of a thread. *)
Definition calls_last (h : list event) (i : nat) (o : op) (h2 h3 : list event) : Prop :=
  h = h2 ++ EInv i o :: h3 /\ forall e, In e h2 -> event_thread e <> i.
Lemma calls_last_unique h i o h2 h3 o' h2' h3' : calls_last h i o h2 h3 -> calls_last h i o' h2' h3' -> h2 = h2' /\ o = o' /\ h3 = h3'.
Proof.
  intros [-> H1] [E H2]. revert h2' E H2. induction h2 as [|e h2 IH]; intros h2' E H2; destruct h2' as [|e' h2']; cbn in E.
  - injection E as -> ->. auto.
  - injection E as <- _. destruct (H2 (EInv i o)); [left; reflexivity|reflexivity].
  - injection E as -> _. destruct (H1 (EInv i o')); [left; reflexivity|reflexivity].
  - injection E as <- E. destruct (IH) with (h2' := h2') as (-> & -> & ->); auto.
    + intros e' He'. apply H1. right. exact He'.
    + intros e' He'. apply H2. right. exact He'.
Qed.
Lemma calls_last_cons h i o h2 h3 e : calls_last h i o h2 h3 -> event_thread e <> i -> calls_last (e :: h) i o (e :: h2) h3.
Proof. intros [-> H] He. split; [reflexivity|]. intros e' [<-|He']; auto. Qed.

Definition ret (j : nat) : N := clearMark (counted_to j) DirtyFlag.
Definition tres (x : status) : N := match x with Took _ (RVal r) => clearMark r DirtyFlag | _ => 0%N end.

Lemma results_cons_le k e h : length (inc_results k h) <= length (inc_results k (e :: h)).
Proof. cbn. destruct e as [|i o r]; [lia|]. destruct o; try lia. destruct r; try lia. destruct (_ =? _)%N; cbn; lia. Qed.
Lemma results_app_le k h2 h3 : length (inc_results k h3) <= length (inc_results k (h2 ++ h3)).
Proof. induction h2 as [|e h2 IH]; [reflexivity|]. cbn [app]. etransitivity; [exact IH|apply results_cons_le]. Qed.

Definition got (k : N) (h : list event) (x : status) (i : nat) : Prop :=
  match x with
  | LinSpec.Called (OGet k') => k' = k -> exists h2 h3, calls_last h i (OGet k) h2 h3
  | Took (OGet k') r => k' = k -> exists h2 h3 j, calls_last h i (OGet k) h2 h3 /\ length (inc_results k h3) <= j /\ j <= incs_started k h /\ r = RVal (counted_to j)
  | _ => True
  end.

Record cnt (k : N) (h : list event) (m : gmap N N) (st : nat -> status) : Prop := mkCnt {
  n_inc : exists c lc lt, NoDup lc /\ NoDup lt /\ (forall i, i ∈ lc <-> st i = LinSpec.Called (OIncrement k)) /\
    (forall i, i ∈ lt <-> exists r, st i = Took (OIncrement k) (RVal r)) /\
    incs_started k h = c + length lc /\ inc_results k h ++ map (fun i => tres (st i)) lt ≡ₚ map ret (seq 0 c) /\
    m !! k = match c with O => None | S _ => Some (8 * N.of_nat c)%N end;
  n_res : forall i r, st i = Took (OIncrement k) r -> exists w, r = RVal w;
  n_get : forall i, got k h (st i) i;
  n_idle : forall i o, st i = LinSpec.Called o \/ (exists r, st i = Took o r) -> counting o;
  n_right : forall h1 h2 h3 i c, h = h1 ++ ERes i (OGet k) (RVal c) :: h2 ++ EInv i (OGet k) :: h3 ->
    (forall e, In e h2 -> event_thread e <> i) ->
    exists j, length (inc_results k h3) <= j /\ j <= incs_started k (h2 ++ h3) /\ c = counted_to j
}.

Lemma started_cons k e h : incs_started k h <= incs_started k (e :: h).
Proof. unfold incs_started. cbn. destruct (started k e); cbn; lia. Qed.
Lemma got_cons k h x i e : event_thread e <> i -> got k h x i -> got k (e :: h) x i.
Proof.
  intros He. destruct x as [|o|o r]; cbn [got]; [auto|..]; destruct o; auto.
  - intros H E. destruct (H E) as (h2 & h3 & H1). exists (e :: h2), h3. apply calls_last_cons; assumption.
  - intros H E. destruct (H E) as (h2 & h3 & j & H1 & H2 & H3 & H4). exists (e :: h2), h3, j. split; [apply calls_last_cons; assumption|].
    pose proof (started_cons k e h). split; [exact H2|]. split; [lia|exact H4].
Qed.

Lemma inc_or_not o k : o = OIncrement k \/ o <> OIncrement k.
Proof. destruct o; try (right; discriminate). destruct (N.eq_dec k0 k) as [->|H]; [left; reflexivity|right; congruence]. Qed.
Lemma map_ext_elem {A B} (f g : A -> B) l : (forall x, x ∈ l -> f x = g x) -> map f l = map g l.
Proof. intros H. apply map_ext_in. intros x Hx. apply H, elem_of_list_In, Hx. Qed.

Lemma cnt_inv k h m st i o : cnt k h m st -> st i = LinSpec.Idle -> counting o ->
  cnt k (EInv i o :: h) m (put_at st i (LinSpec.Called o)).
Proof.
  intros [(c & lc & lt & I1 & I2 & I3 & I4 & I5 & I6 & I7) Hres Hgot Hidle Hright] Hi Ho.
  assert (Hlt : forall j, j ∈ lt -> j <> i) by (intros j Hj ->; apply I4 in Hj as [r Hj]; congruence).
  assert (Hmap : map (fun j => tres (put_at st i (LinSpec.Called o) j)) lt = map (fun j => tres (st j)) lt).
  { apply map_ext_elem. intros j Hj. rewrite at_other by (apply Hlt, Hj). reflexivity. }
  constructor.
  - destruct (inc_or_not o k) as [->|Hne].
    + exists c, (i :: lc), lt. split; [constructor; [intros E; apply I3 in E; congruence|exact I1]|]. split; [exact I2|]. split; [|split; [|split; [|split]]].
      * intros j. rewrite elem_of_cons. destruct (Nat.eq_dec j i) as [->|Hj]; [rewrite at_same; tauto|]. rewrite at_other by exact Hj.
        rewrite I3. tauto.
      * intros j. destruct (Nat.eq_dec j i) as [->|Hj].
        { rewrite at_same. split; [intros E; destruct (Hlt i E eq_refl)|intros [r E]; discriminate]. }
        rewrite at_other by exact Hj. apply I4.
      * unfold incs_started in *. cbn. rewrite N.eqb_refl. cbn. lia.
      * cbn [inc_results]. rewrite Hmap. exact I6.
      * exact I7.
    + exists c, lc, lt. split; [exact I1|]. split; [exact I2|]. split; [|split; [|split; [|split]]].
      * intros j. destruct (Nat.eq_dec j i) as [->|Hj].
        { rewrite at_same. split; [intros E; apply I3 in E; congruence|intros E; congruence]. }
        rewrite at_other by exact Hj. apply I3.
      * intros j. destruct (Nat.eq_dec j i) as [->|Hj].
        { rewrite at_same. split; [intros E; destruct (Hlt i E eq_refl)|intros [r E]; discriminate]. }
        rewrite at_other by exact Hj. apply I4.
      * unfold incs_started in *. cbn [List.filter]. destruct (started k (EInv i o)) eqn:E; [|exact I5]. cbn in E.
        destruct o; try discriminate. apply N.eqb_eq in E. congruence.
      * cbn [inc_results]. rewrite Hmap. exact I6.
      * exact I7.
  - intros j r. destruct (Nat.eq_dec j i) as [->|Hj]; [rewrite at_same; discriminate|]. rewrite at_other by exact Hj. apply Hres.
  - intros j. destruct (Nat.eq_dec j i) as [->|Hj].
    + rewrite at_same. cbn. destruct o; auto. intros ->. exists [], h. split; [reflexivity|]. intros e [].
    + rewrite at_other by exact Hj. apply got_cons; [cbn; congruence|apply Hgot].
  - intros j o'. destruct (Nat.eq_dec j i) as [->|Hj].
    + rewrite at_same. intros [E|[r E]]; [|discriminate]. injection E as <-. exact Ho.
    + rewrite at_other by exact Hj. apply Hidle.
  - intros h1 h2 h3 j c' E Hno. destruct h1 as [|e h1]; [discriminate|]. cbn in E. injection E as _ E. eapply Hright; eauto.
Qed.

Lemma next_8 c : (N.of_nat (S c) < 2 ^ 59)%N ->
  next_count (match c with O => None | S _ => Some (8 * N.of_nat c)%N end) = (8 * N.of_nat (S c))%N.
Proof.
  intros H. destruct c as [|c]; [reflexivity|]. unfold next_count.
  assert (E : (8 * N.of_nat (S c) / 8 = N.of_nat (S c))%N) by (rewrite N.mul_comm; apply N.div_mul; discriminate). rewrite E.
  change (2 ^ 59)%N with 576460752303423488%N in H. change (2 ^ 64)%N with 18446744073709551616%N. rewrite N.mod_small; lia.
Qed.

Lemma lookup_counted m k c : m !! k = match c with O => None | S _ => Some (8 * N.of_nat c)%N end -> lookup_result m k = counted_to c.
Proof. intros E. unfold lookup_result. rewrite E. destruct c; reflexivity. Qed.

Lemma cnt_take k h m st i o r m' : cnt k h m st -> st i = LinSpec.Called o -> nstep m o r m' -> (N.of_nat (incs_started k h) < 2 ^ 59)%N ->
  cnt k h m' (put_at st i (Took o r)).
Proof.
  intros [(c & lc & lt & I1 & I2 & I3 & I4 & I5 & I6 & I7) Hres Hgot Hidle Hright] Hi Hs HB.
  pose proof (Hidle i o (or_introl Hi)) as Ho.
  assert (Hlt : forall j, j ∈ lt -> j <> i) by (intros j Hj ->; apply I4 in Hj as [r' Hj]; congruence).
  assert (Hmap : map (fun j => tres (put_at st i (Took o r) j)) lt = map (fun j => tres (st j)) lt).
  { apply map_ext_elem. intros j Hj. rewrite at_other by (apply Hlt, Hj). reflexivity. }
  constructor.
  - destruct (inc_or_not o k) as [->|Hne].
    + destruct Hs as [(w & -> & Hw) ->].
      assert (Hic : i ∈ lc) by (apply I3, Hi). apply elem_of_Permutation in Hic as [lc' Hl].
      assert (Hlen : length lc = S (length lc')) by (rewrite Hl; reflexivity).
      rewrite Hl in I1. apply NoDup_cons in I1 as [Hni I1].
      exists (S c), lc', (i :: lt). split; [exact I1|]. split; [constructor; [intros E; destruct (Hlt i E eq_refl)|exact I2]|].
      split; [|split; [|split; [lia|split]]].
      * intros j. destruct (Nat.eq_dec j i) as [->|Hj]; [rewrite at_same; split; [contradiction|discriminate]|].
        rewrite at_other by exact Hj. rewrite <- I3, Hl, elem_of_cons. tauto.
      * intros j. rewrite elem_of_cons. destruct (Nat.eq_dec j i) as [->|Hj]; [rewrite at_same; split; [eauto|auto]|].
        rewrite at_other by exact Hj. rewrite <- I4. tauto.
      * cbn [map]. rewrite Hmap, at_same. cbn [tres]. rewrite <- Permutation_middle, I6. rewrite seq_S, map_app. cbn [map].
        rewrite <- Permutation_cons_append. rewrite (lookup_counted _ _ _ I7) in Hw. unfold same_word in Hw. rewrite Hw. reflexivity.
      * rewrite lookup_insert, I7. f_equal. apply next_8. lia.
    + exists c, lc, lt. split; [exact I1|]. split; [exact I2|]. split; [|split; [|split; [exact I5|split]]].
      * intros j. destruct (Nat.eq_dec j i) as [->|Hj].
        { rewrite at_same. split; [intros E; apply I3 in E; congruence|discriminate]. }
        rewrite at_other by exact Hj. apply I3.
      * intros j. destruct (Nat.eq_dec j i) as [->|Hj].
        { rewrite at_same. split; [intros E; destruct (Hlt i E eq_refl)|intros [r' E]; congruence]. }
        rewrite at_other by exact Hj. apply I4.
      * rewrite Hmap. exact I6.
      * destruct o; try contradiction.
        -- destruct Hs as [_ ->]. exact I7.
        -- destruct Hs as [_ ->]. exact I7.
        -- destruct Hs as [_ ->]. rewrite lookup_insert_ne; [exact I7|]. congruence.
        -- destruct Hs as [_ ->]. exact I7.
  - intros j r'. destruct (Nat.eq_dec j i) as [->|Hj]; [|rewrite at_other by exact Hj; apply Hres].
    rewrite at_same. intros E. injection E as -> <-. destruct Hs as [(w & -> & _) _]. eauto.
  - intros j. destruct (Nat.eq_dec j i) as [->|Hj]; [|rewrite at_other by exact Hj; apply Hgot].
    rewrite at_same. pose proof (Hgot i) as Hg. rewrite Hi in Hg. cbn in *. destruct o; auto. intros ->. destruct (Hg eq_refl) as (h2 & h3 & Hl).
    exists h2, h3, c. split; [exact Hl|]. destruct Hs as [-> _]. rewrite (lookup_counted _ _ _ I7). split; [|split; [lia|reflexivity]].
    destruct Hl as [-> _]. pose proof (Permutation_length I6) as Hp. rewrite app_length, !map_length, seq_length in Hp.
    pose proof (results_app_le k h2 (EInv i (OGet k) :: h3)) as Hle. cbn [inc_results] in Hle. lia.
  - intros j o'. destruct (Nat.eq_dec j i) as [->|Hj]; [|rewrite at_other by exact Hj; apply Hidle].
    rewrite at_same. intros [E|[r' E]]; [discriminate|]. injection E as <- <-. exact Ho.
  - exact Hright.
Qed.

Lemma cnt_res k h m st i o r : cnt k h m st -> st i = Took o r -> cnt k (ERes i o r :: h) m (put_at st i LinSpec.Idle).
Proof.
  intros [(c & lc & lt & I1 & I2 & I3 & I4 & I5 & I6 & I7) Hres Hgot Hidle Hright] Hi.
  assert (Hlc : forall j, j ∈ lc -> j <> i) by (intros j Hj ->; apply I3 in Hj; congruence).
  assert (Hstart : incs_started k (ERes i o r :: h) = incs_started k h) by reflexivity.
  constructor.
  - destruct (inc_or_not o k) as [->|Hne].
    + destruct (Hres i r Hi) as [w ->].
      assert (Hit : i ∈ lt) by (apply I4; eauto). apply elem_of_Permutation in Hit as [lt' Hl].
      rewrite Hl in I2. apply NoDup_cons in I2 as [Hni I2].
      exists c, lc, lt'. split; [exact I1|]. split; [exact I2|]. split; [|split; [|split; [exact I5|split]]].
      * intros j. destruct (Nat.eq_dec j i) as [->|Hj].
        { rewrite at_same. split; [intros E; destruct (Hlc i E eq_refl)|discriminate]. }
        rewrite at_other by exact Hj. apply I3.
      * intros j. destruct (Nat.eq_dec j i) as [->|Hj]; [rewrite at_same; split; [contradiction|intros [r' E]; discriminate]|].
        rewrite at_other by exact Hj. rewrite <- I4, Hl, elem_of_cons. tauto.
      * cbn [inc_results]. rewrite N.eqb_refl. rewrite <- I6, Hl. cbn [map]. rewrite Hi. cbn [tres app]. rewrite <- Permutation_middle.
        constructor. erewrite (map_ext_elem _ (fun j => tres (st j))); [reflexivity|]. intros j Hj. rewrite at_other; [reflexivity|].
        intros ->. contradiction.
      * exact I7.
    + assert (Hlt : forall j, j ∈ lt -> j <> i) by (intros j Hj ->; apply I4 in Hj as [r' Hj]; congruence).
      exists c, lc, lt. split; [exact I1|]. split; [exact I2|]. split; [|split; [|split; [exact I5|split]]].
      * intros j. destruct (Nat.eq_dec j i) as [->|Hj].
        { rewrite at_same. split; [intros E; destruct (Hlc i E eq_refl)|discriminate]. }
        rewrite at_other by exact Hj. apply I3.
      * intros j. destruct (Nat.eq_dec j i) as [->|Hj].
        { rewrite at_same. split; [intros E; destruct (Hlt i E eq_refl)|intros [r' E]; discriminate]. }
        rewrite at_other by exact Hj. apply I4.
      * assert (Hr : inc_results k (ERes i o r :: h) = inc_results k h).
        { cbn. destruct o; try reflexivity. destruct r; try reflexivity. destruct (N.eqb_spec k0 k) as [->|_]; [congruence|reflexivity]. }
        rewrite Hr. erewrite (map_ext_elem _ (fun j => tres (st j))); [exact I6|]. intros j Hj. rewrite at_other by (apply Hlt, Hj). reflexivity.
      * exact I7.
  - intros j r'. destruct (Nat.eq_dec j i) as [->|Hj]; [rewrite at_same; discriminate|]. rewrite at_other by exact Hj. apply Hres.
  - intros j. destruct (Nat.eq_dec j i) as [->|Hj]; [rewrite at_same; exact I|]. rewrite at_other by exact Hj.
    apply got_cons; [cbn; congruence|apply Hgot].
  - intros j o'. destruct (Nat.eq_dec j i) as [->|Hj]; [rewrite at_same; intros [E|[r' E]]; discriminate|].
    rewrite at_other by exact Hj. apply Hidle.
  - intros h1 h2 h3 j c' E Hno. destruct h1 as [|e h1]; cbn in E; [|injection E as _ E; eapply Hright; eauto].
    injection E as -> -> -> E. pose proof (Hgot j) as Hg. rewrite Hi in Hg. cbn in Hg.
    destruct (Hg eq_refl) as (h2' & h3' & j' & H1 & H2 & H3 & H4).
    destruct (calls_last_unique h j (OGet k) h2' h3' (OGet k) h2 h3 H1) as (-> & _ & ->); [split; assumption|].
    exists j'. split; [exact H2|]. split; [|congruence]. subst h. unfold incs_started in *. rewrite List.filter_app, app_length in H3 |- *. cbn in H3.
    exact H3.
Qed.

Lemma started_le k h : incs_started k h <= length (List.filter (fun e => match e with EInv _ _ => true | _ => false end) h).
Proof. unfold incs_started. induction h as [|e h IH]; [reflexivity|]. cbn. destruct e as [i o|i o r]; cbn; [destruct o; try lia; destruct (_ =? _)%N; cbn; lia|lia]. Qed.

Lemma cnt_atomic k h m st : atomic nstep ∅ h m st -> (forall i o, In (EInv i o) h -> counting o) ->
  (N.of_nat (length (List.filter (fun e => match e with EInv _ _ => true | _ => false end) h)) < 2 ^ 59)%N -> cnt k h m st.
Proof.
  induction 1 as [|h m st i o H IH Hi|h m st i o r m' H IH Hi Hs|h m st i o r H IH Hi]; intros Hc HB.
  - constructor.
    + exists 0, [], []. split; [constructor|]. split; [constructor|].
      split; [intros i; split; [intros E; inversion E|discriminate]|].
      split; [intros i; split; [intros E; inversion E|intros [r E]; discriminate]|]. split; [reflexivity|]. split; [reflexivity|].
      apply lookup_empty.
    + discriminate.
    + intros i. exact I.
    + intros i o [E|[r E]]; discriminate.
    + intros h1 h2 h3 i c E. destruct h1; discriminate.
  - apply cnt_inv; [|exact Hi|apply (Hc i); left; reflexivity]. apply IH; [intros j o' Hj; apply (Hc j); right; exact Hj|].
    cbn in HB. lia.
  - eapply cnt_take; eauto. pose proof (started_le k h). lia.
  - apply cnt_res; [|exact Hi]. apply IH; [intros j o' Hj; apply (Hc j); right; exact Hj|exact HB].
Qed.

Lemma ret_inj i j : (N.of_nat i < 2 ^ 59)%N -> (N.of_nat j < 2 ^ 59)%N -> ret i = ret j -> i = j.
Proof.
  intros Hi Hj. change (2 ^ 59)%N with 576460752303423488%N in *.
  assert (H8 : forall x, clearMark (8 * x) DirtyFlag = (8 * x)%N).
  { intros x. apply (clean_id (8 * x)). unfold isclean. rewrite isMarked_dirty. change 8%N with (2 ^ 3)%N. rewrite N.mul_comm.
    rewrite N.mul_pow2_bits_low by lia. reflexivity. }
  assert (HN : clearMark NOTFOUND DirtyFlag = 18446744073709551608%N) by reflexivity.
  unfold ret, counted_to. destruct i, j; [reflexivity|..].
  - rewrite HN, H8. lia.
  - rewrite HN, H8. lia.
  - rewrite !H8. lia.
Qed.

Lemma counting_main h m st : atomic nstep ∅ h m st -> (forall i o, In (EInv i o) h -> counting o) ->
  (N.of_nat (length (List.filter (fun e => match e with EInv _ _ => true | _ => false end) h)) < 2 ^ 59)%N ->
  counts_right h /\ tickets_distinct h.
Proof.
  intros H Hc HB. split.
  - intros h1 h2 h3 i k c E. apply (n_right _ _ _ _ (cnt_atomic k h m st H Hc HB) h1 h2 h3 i c E).
  - intros k. destruct (n_inc _ _ _ _ (cnt_atomic k h m st H Hc HB)) as (c & lc & lt & _ & _ & _ & _ & I5 & I6 & _).
    pose proof (started_le k h) as Hle.
    assert (Hnd : NoDup (map ret (seq 0 c))).
    { apply NoDup_fmap_2_strong; [|apply NoDup_seq]. intros x y Hx Hy. rewrite elem_of_seq in Hx, Hy. apply ret_inj; lia. }
    rewrite <- I6 in Hnd. apply NoDup_app in Hnd as [Hnd _]. apply NoDup_ListNoDup, Hnd.
Qed.
