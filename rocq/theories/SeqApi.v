(** The public operations, used from one thread, implement the dictionary of Spec.v. *)
From Coq Require Import NArith Bool List Lia.
From stdpp Require Import base list gmap.
From Verif Require Import Word Bits Prog HashMap Spec Abs Probe SeqInv SeqCopy SeqHelp SeqPut SeqGet.
Import ListNotations.

Lemma legal_client k : legal_key k -> client_key k.
Proof.
  intros (_ & H1 & _ & H2). unfold isKeyReserved in H2. apply orb_false_iff in H2 as [H2 H3].
  split; [exact H1|]. split; apply N.eqb_neq; assumption.
Qed.

Lemma legal_val_neq v : legal_val v -> v <> VINITIAL /\ v <> VTOMBSTONE /\ v <> TOMBPRIME /\ v <> MATCH_ANY /\ v <> NO_MATCH_OLD.
Proof.
  intros (_ & _ & _ & H). unfold isValueReserved in H. rewrite !orb_false_iff, !N.eqb_neq in H. tauto.
Qed.

Lemma legal_good_new v : legal_val v -> good_new v.
Proof. intros H. pose proof (legal_val_neq v H). destruct H as (_ & H1 & H2 & _). repeat split; tauto. Qed.
Lemma legal_good_old v : legal_val v -> good_old v.
Proof. intros H. pose proof (legal_val_neq v H). destruct H as (_ & H1 & H2 & _). repeat split; tauto. Qed.
Lemma legal_live v : legal_val v -> live v.
Proof. intros H. pose proof (legal_val_neq v H). destruct H as (_ & H1 & H2 & _). repeat split; tauto. Qed.

Lemma Dict_live a m k v : Dict a m -> m !! k = Some v -> live v.
Proof. intros HD H. apply HD in H as (? & ? & ? & _ & _ & _ & <- & H). exact H. Qed.

Lemma next_count_inc p : (forall v, p = Some v -> live v) -> inc_of p = next_count p.
Proof.
  intros H. destruct p as [v|]; [|reflexivity]. destruct (H v eq_refl) as (_ & H1 & H2).
  apply N.eqb_neq in H1, H2. unfold inc_of, incremented, next_count. rewrite H1, H2. cbn [orb].
  unfold shl64, shr64, BITS_MARKED, two64. rewrite N.shiftl_mul_pow2, N.shiftr_div_pow2. reflexivity.
Qed.

Section Api.
Context (C : cfg) (E : err -> Prop).
Context (HAF : E AllocFail).

(** Fuel that suffices for every call on a device of [maxcap] entries. *)
Definition CALL (maxcap : N) : nat := S (FUEL maxcap + LIM maxcap + N.to_nat (N.log2 maxcap) + 2).

(** [x]: what the size counters hold, when known. *)
Definition okstate (sz : option N) (a : state) (m : gmap N N) : Prop :=
  ready C sz a m /\ (st_maxcap a <= 2 ^ 32)%N.

Lemma lv_le m l : lv m l <= N.to_nat (N.log2 m) + 2.
Proof. unfold lv. lia. Qed.

Lemma top_tab sz a m : ready C sz a m -> exists T, st_tabs a !! st_top a = Some T.
Proof. intros [H _ _]. apply lookup_lt_is_Some_2. apply (s_top _ _ _ _ _ H). Qed.

Definition pubret (m : gmap N N) (k r : N) : Prop := r = lookup_result m k.

Lemma rawret_pub m k r a sz : ready C sz a m -> rawret (m !! k) r ->
  isMarked r MigrationFlag = false /\ (if (r =? VTOMBSTONE)%N then VINITIAL else r) = lookup_result m k.
Proof.
  intros [_ HD _] H. unfold lookup_result, NOTFOUND. destruct (m !! k) as [v|] eqn:Hm; cbn in *.
  - subst r. destruct (Dict_live _ _ _ _ HD Hm) as (H1 & H2 & H3). apply N.eqb_neq in H3. rewrite H3. auto.
  - destruct H as [->| ->]; split; reflexivity.
Qed.

Lemma wp_pub n sz a m k new old CAS (P : N -> state -> Prop) (Q : N -> state -> Prop) :
  okstate sz a m -> new <> VINITIAL -> old <> VINITIAL ->
  wp E (putIfMatch C n CAS (st_top a) k new old) (fun r a' => rawret (m !! k) r /\ P r a') a ->
  (forall r a', P r a' -> Q (lookup_result m k) a') ->
  wp E (putIfMatchPub C n k new old CAS) Q a.
Proof.
  intros [HR Hmax] Hn Ho Hwp HQ. unfold putIfMatchPub.
  apply wp_bind, wp_assert; [apply negb_true_iff, N.eqb_neq, Hn|].
  apply wp_bind, wp_assert; [apply negb_true_iff, N.eqb_neq, Ho|].
  apply wp_bind, wp_LoadTop. apply wp_bind. eapply wp_conseq; [exact Hwp|].
  intros r a' [Hr HP]. destruct (rawret_pub _ _ _ _ _ HR Hr) as [H1 H2].
  apply wp_bind, wp_assert; [rewrite H1; reflexivity|]. apply wp_ret. rewrite H2. eapply HQ, HP.
Qed.

(** The state after a call: the dictionary is [m'], and the size counter is known if it was known and no
    migration is left in progress. *)
Definition call_post (sz : option N) (m' : gmap N N) (f : N -> N) (a a' : state) : Prop :=
  exists sz', okstate sz' a' m' /\ st_maxcap a' = st_maxcap a /\
    (forall x, sz = Some x -> S (st_top a') = length (st_tabs a') -> sz' = Some (f x)).

Lemma wp_pub_put n sz a m k new old (Q : N -> state -> Prop) :
  okstate sz a m -> client_key k -> good_new new -> good_old old -> FU E n (CALL (st_maxcap a)) ->
  (forall a', call_post sz (put_map (fun _ => new) new old m k)
      (fun x => put_size new old x (m !! k)) a a' -> Q (lookup_result m k) a') ->
  wp E (putIfMatchPub C n k new old (CASvalue C)) Q a.
Proof.
  intros Hok Hk Hn Ho HF HQ. pose proof Hok as [HR Hmax]. destruct (top_tab _ _ _ HR) as (T & HT).
  eapply (wp_pub n sz a m k new old _ (fun _ a' => call_post sz (put_map (fun _ => new) new old m k)
      (fun x => put_size new old x (m !! k)) a a')); auto.
  - apply Hn.
  - apply Ho.
  - eapply (wp_put C E HAF n sz a m (st_top a) T); auto.
    + eapply FU_le; [exact HF|]. unfold CALL. pose proof (lv_le (st_maxcap a) (t_len T)). lia.
    + intros r a' (sz' & H1 & H2 & H3) H4 H5. split; [exact H2|]. exists sz'.
      split; [split; [exact H1|rewrite H4; exact Hmax]|]. split; [exact H4|exact H3].
Qed.

Lemma wp_pub_get n sz a m k (Q : N -> state -> Prop) :
  okstate sz a m -> client_key k -> FU E n (CALL (st_maxcap a)) ->
  (forall a', okstate sz a' m -> st_maxcap a' = st_maxcap a ->
     (S (st_top a) = length (st_tabs a) -> a' = a) -> Q (lookup_result m k) a') ->
  wp E (get C n k) Q a.
Proof.
  intros Hok Hk HF HQ. pose proof Hok as [HR Hmax]. destruct (top_tab _ _ _ HR) as (T & HT).
  unfold get. apply wp_bind, wp_LoadTop. apply wp_bind.
  eapply (wp_getImpl C E HAF n sz a m (st_top a) T k); auto.
  - eapply FU_le; [exact HF|]. unfold CALL. pose proof (lv_le (st_maxcap a) (t_len T)). lia.
  - intros r a' (G1 & G2 & G3 & G4) G5. subst r. apply wp_bind, wp_assert.
    + destruct (m !! k) as [v|] eqn:Hm; [|reflexivity]. destruct HR as [_ HD _].
      destruct (Dict_live _ _ _ _ HD Hm) as (H1 & _). cbn. rewrite H1. reflexivity.
    + apply wp_ret. apply HQ; [|exact G3|exact G5]. split; [exact G1|]. rewrite G3. exact Hmax.
Qed.

(** *** Effect of the conditional writes on the dictionary *)

Definition all_live (m : gmap N N) : Prop := forall k v, m !! k = Some v -> live v.

Lemma ready_live sz a m : ready C sz a m -> all_live m.
Proof. intros [_ HD _] k v. apply (Dict_live a m k v HD). Qed.

Lemma put_map_put m k v : live v -> put_map (fun _ => v) v NO_MATCH_OLD m k = <[k := v]> m.
Proof.
  intros Hl. unfold put_map. destruct (decide _) as [Hm|Hm]; [symmetry; apply insert_id; exact Hm|].
  unfold applies. rewrite N.eqb_refl. unfold upd. destruct (live_dec v); [reflexivity|contradiction].
Qed.

Lemma applies_absent (m : gmap N N) k : all_live m -> applies (m !! k) VTOMBSTONE = bool_decide (m !! k = None).
Proof.
  intros H. unfold applies. change ((VTOMBSTONE =? NO_MATCH_OLD)%N) with false. cbv iota.
  destruct (m !! k) as [v|] eqn:Hm; cbn; [|reflexivity].
  destruct (H _ _ Hm) as (_ & _ & H3). change ((VTOMBSTONE =? MATCH_ANY)%N) with false. cbn [orb].
  apply N.eqb_neq. congruence.
Qed.

Lemma put_map_absent (m : gmap N N) k v : all_live m -> live v ->
  put_map (fun _ => v) v VTOMBSTONE m k = match m !! k with None => <[k := v]> m | Some _ => m end.
Proof.
  intros H Hl. unfold put_map. rewrite (applies_absent _ _ H). destruct (m !! k) as [w|] eqn:Hm; cbn.
  - destruct (decide _); reflexivity.
  - unfold upd. destruct (live_dec v); [reflexivity|contradiction].
Qed.

Lemma put_map_remove m k : all_live m -> put_map (fun _ => VTOMBSTONE) VTOMBSTONE NO_MATCH_OLD m k = delete k m.
Proof.
  intros H. unfold put_map. rewrite decide_False.
  - unfold applies. rewrite N.eqb_refl. unfold upd. destruct (live_dec VTOMBSTONE) as [Hl|]; [|reflexivity].
    exfalso. apply not_live_VTOMBSTONE, Hl.
  - intros Hm. apply not_live_VTOMBSTONE, (H _ _ Hm).
Qed.

Lemma applies_val (m : gmap N N) k v : legal_val v -> applies (m !! k) v = bool_decide (m !! k = Some v).
Proof.
  intros Hv. pose proof (legal_val_neq v Hv) as (H1 & H2 & H3 & H4 & H5). unfold applies.
  apply N.eqb_neq in H2, H4, H5. rewrite H5. destruct (m !! k) as [w|] eqn:Hm; cbn.
  - rewrite H4. cbn [orb]. destruct (N.eqb_spec v w) as [->|Hne].
    + symmetry. apply bool_decide_eq_true. reflexivity.
    + symmetry. apply bool_decide_eq_false. congruence.
  - exact H2.
Qed.

Lemma put_map_removeVal m k v : all_live m -> legal_val v ->
  put_map (fun _ => VTOMBSTONE) VTOMBSTONE v m k = if decide (m !! k = Some v) then delete k m else m.
Proof.
  intros H Hv. unfold put_map. rewrite decide_False by (intros Hm; apply not_live_VTOMBSTONE, (H _ _ Hm)).
  rewrite applies_val by exact Hv. destruct (decide (m !! k = Some v)) as [He|He].
  - rewrite bool_decide_eq_true_2 by exact He. unfold upd. destruct (live_dec VTOMBSTONE) as [Hl|]; [|reflexivity].
    exfalso. apply not_live_VTOMBSTONE, Hl.
  - rewrite bool_decide_eq_false_2 by exact He. reflexivity.
Qed.

Lemma put_map_replace (m : gmap N N) k old new : legal_val old -> live new ->
  put_map (fun _ => new) new old m k = if decide (m !! k = Some old) then <[k := new]> m else m.
Proof.
  intros Ho Hl. unfold put_map. rewrite applies_val by exact Ho. destruct (decide (m !! k = Some new)) as [Hn|Hn].
  - destruct (decide _); [|reflexivity]. symmetry. apply insert_id. exact Hn.
  - destruct (decide (m !! k = Some old)) as [He|He].
    + rewrite bool_decide_eq_true_2 by exact He. unfold upd. destruct (live_dec new); [reflexivity|contradiction].
    + rewrite bool_decide_eq_false_2 by exact He. reflexivity.
Qed.

Lemma lookup_result_eq (m : gmap N N) k v : all_live m -> legal_val v ->
  (lookup_result m k =? v)%N = bool_decide (m !! k = Some v).
Proof.
  intros H Hv. unfold lookup_result, NOTFOUND. destruct (m !! k) as [w|] eqn:Hm; cbn [from_option]; unfold id.
  - destruct (N.eqb_spec w v) as [->|Hne].
    + symmetry. apply bool_decide_eq_true. reflexivity.
    + symmetry. apply bool_decide_eq_false. congruence.
  - transitivity false; [apply N.eqb_neq; intros He; destruct (legal_val_neq v Hv) as (Hx & _); congruence|].
    symmetry. apply bool_decide_eq_false. discriminate.
Qed.

Lemma lookup_result_contains m k : all_live m ->
  negb (lookup_result m k =? KINITIAL)%N = bool_decide (is_Some (m !! k)).
Proof.
  intros H. unfold lookup_result, NOTFOUND. destruct (m !! k) as [w|] eqn:Hm; cbn [from_option]; unfold id.
  - rewrite bool_decide_eq_true_2 by eauto. apply negb_true_iff, N.eqb_neq, (H _ _ Hm).
  - rewrite bool_decide_eq_false_2; [reflexivity|]. intros [x [=]].
Qed.

Lemma lookup_result_zero (m : gmap N N) k :
  negb (lookup_result m k =? 0)%N = bool_decide (m !! k <> Some 0%N).
Proof.
  unfold lookup_result, NOTFOUND. destruct (m !! k) as [w|] eqn:Hm; cbn [from_option]; unfold id.
  - destruct (N.eqb_spec w 0) as [->|Hne].
    + symmetry. apply bool_decide_eq_false. tauto.
    + symmetry. apply bool_decide_eq_true. congruence.
  - rewrite bool_decide_eq_true_2 by discriminate. reflexivity.
Qed.

(** *** Effect on the size counter *)

Definition modsize (m : gmap N N) : N := (N.of_nat (base.size m) mod two64)%N.

Lemma modsize_insert (m : gmap N N) k v : m !! k = None -> modsize (<[k := v]> m) = add64 (modsize m) 1.
Proof.
  intros H. unfold modsize, add64. rewrite map_size_insert_None by exact H.
  rewrite Nat2N.inj_succ, <- N.add_1_r. rewrite N.add_mod_idemp_l by discriminate. reflexivity.
Qed.

Lemma modsize_delete (m : gmap N N) k v : m !! k = Some v -> modsize (delete k m) = add64 (modsize m) minus_one64.
Proof.
  intros H. rewrite <- (insert_delete m k v H) at 2. rewrite modsize_insert by apply lookup_delete.
  unfold add64, minus_one64. rewrite N.add_mod_idemp_l by discriminate.
  set (x := modsize (delete k m)). rewrite <- N.add_assoc. replace (1 + (two64 - 1))%N with two64 by reflexivity.
  rewrite <- N.add_mod_idemp_r, N.mod_same, N.add_0_r by discriminate.
  symmetry. apply N.mod_small. apply N.mod_lt. discriminate.
Qed.

Lemma put_size_ok new old m k : all_live m -> (live new \/ new = VTOMBSTONE) ->
  put_size new old (modsize m) (m !! k) = modsize (put_map (fun _ => new) new old m k).
Proof.
  intros H Hn. unfold put_size, put_map. destruct (decide (m !! k = Some new)) as [He|He].
  - rewrite He. assert (live new) as (_ & _ & Hl) by exact (H _ _ He). apply N.eqb_neq in Hl.
    unfold dsize. rewrite Hl. destruct (applies _ _); reflexivity.
  - destruct (applies _ _); [|reflexivity]. unfold dsize, upd. destruct Hn as [Hl| ->].
    + destruct (live_dec new) as [_|]; [|contradiction]. destruct Hl as (_ & _ & Hl). apply N.eqb_neq in Hl. rewrite Hl.
      destruct (m !! k) as [w|] eqn:Hm.
      * unfold modsize. rewrite map_size_insert_Some by eauto. reflexivity.
      * rewrite modsize_insert by exact Hm. reflexivity.
    + destruct (live_dec VTOMBSTONE) as [Hl|_]; [exfalso; apply not_live_VTOMBSTONE, Hl|].
      rewrite N.eqb_refl. destruct (m !! k) as [w|] eqn:Hm.
      * symmetry. eapply modsize_delete. exact Hm.
      * rewrite delete_notin by exact Hm. reflexivity.
Qed.

Definition no_increment (o : op) : Prop := match o with OIncrement _ => False | _ => True end.

(** *** Every call refines the dictionary *)

Definition inc_map (m : gmap N N) (k : N) : gmap N N :=
  if decide (next_count (m !! k) = VINITIAL \/ next_count (m !! k) = VTOMBSTONE)
  then delete k m else <[k := next_count (m !! k)]> m.

Definition op_post (sz : option N) (m : gmap N N) (o : op) (a : state) (r : rsp) (a' : state) : Prop :=
  exists m' sz', okstate sz' a' m' /\ dstep m o r m' /\ st_maxcap a' = st_maxcap a /\
    (no_increment o -> sz = Some (modsize m) -> S (st_top a') = length (st_tabs a') -> sz' = Some (modsize m')) /\
    (o = OSize -> forall x, sz = Some x -> r = RVal x) /\
    ((exists k, o = OGet k \/ o = OContains k \/ o = OSize) -> S (st_top a) = length (st_tabs a) -> a' = a) /\
    (forall k, o = OIncrement k -> st_top a' = st_top a -> m !! k <> Some INCREMENT_ARG -> m' = inc_map m k).

Lemma call_post_intro sz m o a r a' m' f :
  call_post sz m' f a a' -> dstep m o r m' -> o <> OSize -> (forall k, o <> OGet k) -> (forall k, o <> OContains k) ->
  (forall k, o <> OIncrement k) ->
  (no_increment o -> sz = Some (modsize m) -> f (modsize m) = modsize m') ->
  op_post sz m o a r a'.
Proof.
  intros (sz' & H1 & H2 & H3) Hd Ho Hg Hc Hi Hf. exists m', sz'. split; [exact H1|]. split; [exact Hd|].
  split; [exact H2|]. split; [|split; [contradiction|]].
  - intros Hni Hsz Hl. rewrite (H3 _ Hsz Hl). f_equal. apply Hf; assumption.
  - split.
    + intros (k & [?|[?|?]]); exfalso; [eapply Hg|eapply Hc|]; eauto.
    + intros k He. exfalso. eapply Hi, He.
Qed.

Lemma wp_op n sz a m o : okstate sz a m -> legal_op o -> FU E n (CALL (st_maxcap a)) ->
  wp E (op_prog C n o) (op_post sz m o a) a.
Proof.
  intros Hok Hl HF. pose proof Hok as [HR Hmax]. pose proof (ready_live _ _ _ HR) as Hlive.
  assert (VT : good_new VTOMBSTONE) by (repeat split; intros [=]).
  assert (VO : good_old VTOMBSTONE) by (split; [reflexivity|intros [=]]).
  assert (NM : good_old NO_MATCH_OLD) by (split; [reflexivity|intros [=]]).
  destruct o as [k|k|k v|k v|k|k v|k old v|k|]; cbn [legal_op] in Hl; cbn [op_prog].
  - apply wp_bind. eapply wp_pub_get; [exact Hok|apply legal_client, Hl|exact HF|].
    intros a' H1 H2 H3. apply wp_ret. exists m, sz. repeat (split; auto); discriminate.
  - unfold containsKey. apply wp_bind, wp_bind. eapply wp_pub_get; [exact Hok|apply legal_client, Hl|exact HF|].
    intros a' H1 H2 H3. apply wp_ret, wp_ret. exists m, sz. rewrite lookup_result_contains by exact Hlive.
    repeat (split; auto); discriminate.
  - destruct Hl as [Hk Hv]. apply wp_bind.
    eapply wp_pub_put; [exact Hok|apply legal_client, Hk|apply legal_good_new, Hv|exact NM|exact HF|].
    intros a' H. apply wp_ret. eapply call_post_intro; [exact H| |discriminate..|].
    + cbn. rewrite put_map_put by apply legal_live, Hv. auto.
    + intros _ _. cbv beta. apply put_size_ok; [exact Hlive|left; apply legal_live, Hv].
  - destruct Hl as [Hk Hv]. apply wp_bind.
    eapply wp_pub_put; [exact Hok|apply legal_client, Hk|apply legal_good_new, Hv|exact VO|exact HF|].
    intros a' H. apply wp_ret. eapply call_post_intro; [exact H| |discriminate..|].
    + cbn. rewrite put_map_absent by (auto; apply legal_live, Hv). auto.
    + intros _ _. cbv beta. apply put_size_ok; [exact Hlive|left; apply legal_live, Hv].
  - apply wp_bind. unfold remove. apply wp_bind.
    eapply wp_pub_put; [exact Hok|apply legal_client, Hl|exact VT|exact NM|exact HF|].
    intros a' H. apply wp_ret, wp_ret. eapply call_post_intro; [exact H| |discriminate..|].
    + cbn. rewrite put_map_remove by exact Hlive. rewrite lookup_result_zero. auto.
    + intros _ _. cbv beta. apply put_size_ok; [exact Hlive|right; reflexivity].
  - destruct Hl as [Hk Hv]. apply wp_bind. unfold removeVal. apply wp_bind.
    eapply wp_pub_put; [exact Hok|apply legal_client, Hk|exact VT|apply legal_good_old, Hv|exact HF|].
    intros a' H. apply wp_ret, wp_ret. eapply call_post_intro; [exact H| |discriminate..|].
    + cbn. rewrite put_map_removeVal by auto. rewrite lookup_result_eq by auto. auto.
    + intros _ _. cbv beta. apply put_size_ok; [exact Hlive|right; reflexivity].
  - destruct Hl as (Hk & Ho & Hv). apply wp_bind. unfold replace. apply wp_bind.
    eapply wp_pub_put; [exact Hok|apply legal_client, Hk|apply legal_good_new, Hv|apply legal_good_old, Ho|exact HF|].
    intros a' H. apply wp_ret, wp_ret. eapply call_post_intro; [exact H| |discriminate..|].
    + cbn. rewrite put_map_replace by (auto; apply legal_live, Hv). rewrite lookup_result_eq by auto. auto.
    + intros _ _. cbv beta. apply put_size_ok; [exact Hlive|left; apply legal_live, Hv].
  - apply wp_bind. unfold incrementOp, update. destruct (top_tab _ _ _ HR) as (T & HT).
    eapply (wp_pub n sz a m k _ _ _ (fun _ a' => exists m' sz', okstate sz' a' m' /\ st_maxcap a' = st_maxcap a /\
       dstep m (OIncrement k) (RVal (lookup_result m k)) m' /\
       (st_top a' = st_top a -> m !! k <> Some INCREMENT_ARG -> m' = inc_map m k))); [exact Hok|intros [=]|intros [=]| |].
    + eapply (wp_inc C E HAF n sz a m T k); auto.
      * repeat split; intros [=].
      * apply legal_client, Hl.
      * eapply FU_le; [exact HF|]. unfold CALL. pose proof (lv_le (st_maxcap a) (t_len T)). lia.
      * intros r a' H Hm' _.
        assert (Hlm : live INCREMENT_ARG) by (repeat split; intros [=]).
        assert (Hinc : m !! k <> Some INCREMENT_ARG -> put_map inc_of INCREMENT_ARG NO_MATCH_OLD m k = inc_map m k).
        { intros He. unfold put_map. rewrite decide_False by exact He. unfold applies. rewrite N.eqb_refl. unfold upd, inc_map.
          rewrite next_count_inc by (intros v Hv; exact (Hlive _ _ Hv)).
          set (w := next_count (m !! k)).
          assert (Hwu : unmarked w).
          { unfold w. rewrite <- next_count_inc by (intros v Hv; exact (Hlive _ _ Hv)). apply inc_good. }
          destruct (live_dec w) as [(_ & L1 & L2)|L]; destruct (decide _) as [D|D]; try reflexivity.
          - tauto.
          - exfalso. apply L. repeat split; tauto. }
        destruct H as [(sz' & H1 & H2 & _)|[(sz' & H1 & H2 & _) Htop]].
        -- split; [exact H2|]. eexists _, sz'. split; [split; [exact H1|rewrite Hm'; exact Hmax]|].
           split; [exact Hm'|]. split; [|intros _; exact Hinc]. split; [reflexivity|].
           destruct (decide (m !! k = Some INCREMENT_ARG)) as [He|He].
           ++ right. rewrite insert_id by exact He. apply put_map_same. exact He.
           ++ left. apply Hinc. exact He.
        -- split; [exact H2|]. eexists _, sz'. split; [split; [exact H1|rewrite Hm'; exact Hmax]|].
           split; [exact Hm'|]. split; [|intros; lia]. split; [reflexivity|]. right. apply put_map_put. exact Hlm.
    + intros r a' (m' & sz' & H1 & H2 & H3 & H4). apply wp_ret. exists m', sz'. split; [exact H1|]. split; [exact H3|].
      split; [exact H2|]. split; [intros []|]. split; [discriminate|]. split.
      * intros (k' & [?|[?|?]]); discriminate.
      * intros k' [= <-]. exact H4.
  - apply wp_bind. unfold size. apply wp_bind, wp_LoadTop. destruct (top_tab _ _ _ HR) as (T & HT).
    eapply wp_LoadF; [exact HT|]. apply wp_ret. exists m, sz. split; [exact Hok|]. split; [cbn; eauto|].
    split; [reflexivity|]. split; [auto|]. split; [|split; [auto|discriminate]].
    intros _ x Hx. f_equal. exact (s_size _ _ _ _ _ (r_si _ _ _ _ HR) x _ _ Hx (le_n _) HT).
Qed.

(** *** The initial state *)

Lemma init_ready_files cap ppl maxcap files : good_cap cap maxcap -> (maxcap <= 2 ^ 32)%N ->
  (forall n, (0 < n)%N -> find_file n files = None) ->
  okstate (Some 0%N) (abs (mkState [fresh_table cap 0 0] 0 1 files ppl maxcap)) ∅.
Proof.
  intros [(e & He & H3) Hcap] Hmax Hfiles. split; [|exact Hmax].
  assert (Habs : abs (mkState [fresh_table cap 0 0] 0 1 files ppl maxcap) = mkState [afresh cap 0 0] 0 1 files ppl maxcap).
  { unfold abs. cbn [st_tabs map st_top st_fctr st_files st_ppl st_maxcap]. rewrite absT_fresh. reflexivity. }
  rewrite Habs.
  assert (Hone : forall j T, [afresh cap 0 0] !! j = Some T -> j = 0 /\ T = afresh cap 0 0).
  { intros [|j] T H; [injection H as <-; auto|discriminate]. }
  assert (Hent : forall i, i < cap -> keyat (t_pairs (afresh cap 0 0)) i = KINITIAL /\ valat (t_pairs (afresh cap 0 0)) i = VINITIAL).
  { intros i Hi. unfold keyat, valat, afresh. cbn. rewrite lookup_replicate_2 by exact Hi. auto. }
  constructor.
  - constructor; cbn [st_files st_fctr st_top st_tabs st_maxcap length]; auto.
    + intros j T H. apply Hone in H as [-> ->]. reflexivity.
    + intros j T H. apply Hone in H as [-> ->]. constructor.
      * exists e. auto.
      * exact Hcap.
      * apply replicate_length.
      * intros i Hi. apply ent_ok_fresh. exact Hi.
    + intros j T H. apply Hone in H as [-> ->]. reflexivity.
    + intros j T T' H H'. apply Hone in H' as [? _]. discriminate.
    + intros j T i H _ Hi. apply Hone in H as [-> ->]. rewrite (proj2 (Hent i Hi)), (proj1 (Hent i Hi)). split; [apply VINITIAL_unmarked|].
      rewrite KTOMBSTONE_val, KINITIAL_val, VTOMBSTONE_val, VINITIAL_val. discriminate.
    + intros j j' T T' k Hj H H'. apply Hone in H' as [-> _]. lia.
    + intros j T i Hj. lia.
    + intros j T Hj H. apply Hone in H as [-> _]. lia.
    + intros j T H. apply Hone in H as [-> ->]. unfold afresh, pd0. cbn [t_pairs t_copyDone]. rewrite tombs_fresh. reflexivity.
    + intros j T i H Hi _. apply Hone in H as [-> ->]. right. rewrite (proj2 (Hent i Hi)). apply VINITIAL_unmarked.
    + intros x j T [= <-] _ H. apply Hone in H as [-> ->]. reflexivity.
  - intros k v. rewrite lookup_empty. split; [discriminate|]. intros (j & T & i & H & Hi & _ & Hv & Hl).
    apply Hone in H as [-> ->]. rewrite (proj2 (Hent i Hi)) in Hv. subst v. exfalso. apply not_live_VINITIAL, Hl.
  - intros T H. apply Hone in H as [_ ->]. reflexivity.
Qed.

Lemma init_ready cap ppl maxcap : good_cap cap maxcap -> (maxcap <= 2 ^ 32)%N ->
  okstate (Some 0%N) (abs (init_state cap ppl maxcap)) ∅.
Proof. intros H1 H2. apply (init_ready_files cap ppl maxcap []); auto. Qed.

End Api.
