(** Consequences of the refinement for whole single-threaded runs. *)
From Coq Require Import NArith Bool List Lia.
From stdpp Require Import base list gmap.
From Verif Require Import Word Bits Prog HashMap Spec Abs Probe SeqInv SeqCopy SeqHelp SeqPut SeqGet SeqApi.
Import ListNotations.

Lemma dsteps_snoc m os rs m1 o r m2 : dsteps m os rs m1 -> dstep m1 o r m2 -> dsteps m (os ++ [o]) (rs ++ [r]) m2.
Proof.
  intros H Hd. induction H as [m|m o' r' m' os rs m'' H0 H IH]; cbn.
  - econstructor; [exact Hd|constructor].
  - econstructor; [exact H0|]. apply IH. exact Hd.
Qed.

Lemma dsteps_app m os1 rs1 m1 os2 rs2 m2 : dsteps m os1 rs1 m1 -> dsteps m1 os2 rs2 m2 ->
  dsteps m (os1 ++ os2) (rs1 ++ rs2) m2.
Proof.
  intros H H2. induction H as [m|m o' r' m' os rs m'' H0 H IH]; cbn; [exact H2|].
  econstructor; [exact H0|]. apply IH. exact H2.
Qed.

Section Thm.
Context (C : cfg).

Definition tolerated (e : err) : Prop := e = AllocFail \/ e = OutOfFuel.

Lemma op_any n sz s m o : okstate C sz (abs s) m -> legal_op o ->
  match run (op_prog C n o) s with
  | Ok r s' => op_post C sz m o (abs s) r (abs s')
  | Fail e _ => tolerated e
  end.
Proof.
  intros H Hl. apply (wp_op C tolerated (or_introl eq_refl) n sz (abs s) m o H Hl); [|reflexivity].
  left. right. reflexivity.
Qed.

Lemma op_total n sz s m o : okstate C sz (abs s) m -> legal_op o -> CALL (st_maxcap s) <= n ->
  match run (op_prog C n o) s with
  | Ok r s' => op_post C sz m o (abs s) r (abs s')
  | Fail e _ => e = AllocFail
  end.
Proof.
  intros H Hl Hn. apply (wp_op C (fun e => e = AllocFail) eq_refl n sz (abs s) m o H Hl); [|reflexivity].
  right. exact Hn.
Qed.

Lemma get_any n sz s m k r s' : okstate C sz (abs s) m -> legal_key k -> run (get C n k) s = Ok r s' ->
  r = lookup_result m k.
Proof.
  intros H Hl Hr. pose proof (op_any n sz s m (OGet k) H Hl) as Hop. cbn [op_prog] in Hop.
  rewrite run_bind, Hr in Hop. destruct Hop as (m' & sz' & _ & [Hd _] & _). cbn in Hd. congruence.
Qed.

Lemma reach_ok s0 m0 os rs s : (exists sz, okstate C sz (abs s0) m0) -> reach C s0 os rs s -> Forall legal_op os ->
  exists m sz, okstate C sz (abs s) m /\ dsteps m0 os rs m /\ st_maxcap s = st_maxcap s0.
Proof.
  intros [sz0 H0] Hr. induction Hr as [|os rs s n o r s' Hr IH Hs]; intros Hl.
  - exists m0, sz0. split; [exact H0|]. split; [constructor|reflexivity].
  - apply Forall_app in Hl as [Hl Hlo]. apply Forall_inv in Hlo.
    destruct (IH Hl) as (m & sz & Hok & Hd & Hmx). pose proof (op_any n sz s m o Hok Hlo) as Hop. rewrite Hs in Hop.
    destruct Hop as (m' & sz' & P1 & P2 & P3 & _). exists m', sz'. split; [exact P1|].
    split; [eapply dsteps_snoc; eauto|]. cbn in P3. congruence.
Qed.

Lemma ops_any n os : forall sz s m, okstate C sz (abs s) m -> Forall legal_op os ->
  match run (ops_prog C n os) s with
  | Ok rs s' => exists m' sz', dsteps m os rs m' /\ okstate C sz' (abs s') m'
  | Fail e _ => tolerated e
  end.
Proof.
  induction os as [|o os IH]; intros sz s m Hok Hl; cbn [ops_prog].
  - cbn. exists m, sz. split; [constructor|exact Hok].
  - apply Forall_cons in Hl as [Hlo Hl]. rewrite run_bind. pose proof (op_any n sz s m o Hok Hlo) as Hop.
    destruct (run (op_prog C n o) s) as [r s1|e s1]; [|exact Hop].
    destruct Hop as (m1 & sz1 & P1 & P2 & _). rewrite run_bind. specialize (IH _ _ _ P1 Hl).
    destruct (run (ops_prog C n os) s1) as [rs s2|e s2]; [|exact IH]. cbn.
    destruct IH as (m2 & sz2 & I1 & I2). exists m2, sz2. split; [econstructor; eauto|exact I2].
Qed.

Lemma ops_total n os : forall sz s m, okstate C sz (abs s) m -> Forall legal_op os -> CALL (st_maxcap s) <= n ->
  match run (ops_prog C n os) s with
  | Ok rs s' => exists m' sz', dsteps m os rs m' /\ okstate C sz' (abs s') m'
  | Fail e _ => e = AllocFail
  end.
Proof.
  induction os as [|o os IH]; intros sz s m Hok Hl Hn; cbn [ops_prog].
  - cbn. exists m, sz. split; [constructor|exact Hok].
  - apply Forall_cons in Hl as [Hlo Hl]. rewrite run_bind. pose proof (op_total n sz s m o Hok Hlo Hn) as Hop.
    destruct (run (op_prog C n o) s) as [r s1|e s1]; [|exact Hop].
    destruct Hop as (m1 & sz1 & P1 & P2 & P3 & _). cbn in P3. rewrite run_bind.
    assert (Hn1 : CALL (st_maxcap s1) <= n) by (rewrite P3; exact Hn).
    specialize (IH _ _ _ P1 Hl Hn1).
    destruct (run (ops_prog C n os) s1) as [rs s2|e s2]; [|exact IH]. cbn.
    destruct IH as (m2 & sz2 & I1 & I2). exists m2, sz2. split; [econstructor; eauto|exact I2].
Qed.

Section Init.
Context (cap ppl : nat) (maxcap : N).
Context (Hcap : good_cap cap maxcap) (Hmax : (maxcap <= 2 ^ 32)%N).
Notation s0 := (init_state cap ppl maxcap).

Lemma init_ok : exists sz, okstate C sz (abs s0) ∅.
Proof. exists (Some 0%N). apply init_ready; assumption. Qed.

(** C01 *)
Lemma seq_refines n os : Forall legal_op os ->
  match run (ops_prog C n os) s0 with
  | Ok rs _ => exists m, dsteps ∅ os rs m
  | Fail e _ => e = AllocFail \/ e = OutOfFuel
  end.
Proof.
  intros Hl. destruct init_ok as [sz H]. pose proof (ops_any n os _ _ _ H Hl) as Ho.
  destruct (run _ _); [|exact Ho]. destruct Ho as (m' & ? & ? & _). eauto.
Qed.

(** C05 *)
Lemma seq_total n os : Forall legal_op os -> CALL maxcap <= n ->
  match run (ops_prog C n os) s0 with
  | Ok rs _ => exists m, dsteps ∅ os rs m
  | Fail e _ => e = AllocFail
  end.
Proof.
  intros Hl Hn. destruct init_ok as [sz H]. pose proof (ops_total n os _ _ _ H Hl Hn) as Ho.
  destruct (run _ _); [|exact Ho]. destruct Ho as (m' & ? & ? & _). eauto.
Qed.

(** The dictionary of a history, together with what get observes now. *)
Lemma seq_dict os rs s : reach C s0 os rs s -> Forall legal_op os ->
  exists m, dsteps ∅ os rs m /\
    forall k n g s', legal_key k -> run (get C n k) s = Ok g s' -> g = lookup_result m k.
Proof.
  intros Hr Hl. destruct (reach_ok _ _ _ _ _ init_ok Hr Hl) as (m & sz & H1 & H2 & _).
  exists m. split; [exact H2|]. intros k n g s' Hk. eapply get_any; eauto.
Qed.

(** One more call. *)
Lemma seq_step os rs s n o r s' : reach C s0 os rs s -> Forall legal_op os -> legal_op o ->
  run (op_prog C n o) s = Ok r s' ->
  exists m m', dsteps ∅ os rs m /\ dstep m o r m' /\
    (forall k n g s1, legal_key k -> run (get C n k) s = Ok g s1 -> g = lookup_result m k) /\
    (forall k n g s1, legal_key k -> run (get C n k) s' = Ok g s1 -> g = lookup_result m' k).
Proof.
  intros Hr Hl Ho Hs. destruct (reach_ok _ _ _ _ _ init_ok Hr Hl) as (m & sz & H1 & H2 & _).
  pose proof (op_any n sz s m o H1 Ho) as Hop. rewrite Hs in Hop.
  destruct Hop as (m' & sz' & P1 & P2 & P3 & _). exists m, m'. split; [exact H2|]. split; [exact P2|].
  split; intros k n' g s1 Hk Hg; eapply get_any; eauto.
Qed.

Lemma dstep_other m o r m' k : dstep m o r m' -> op_key o <> Some k -> m' !! k = m !! k.
Proof.
  intros Hd Hk. destruct o as [k0|k0|k0 v|k0 v|k0|k0 v|k0 old v|k0|]; cbn in Hd, Hk; destruct Hd as [_ Hd].
  - congruence.
  - congruence.
  - subst. apply lookup_insert_ne. congruence.
  - subst. destruct (m !! k0); [reflexivity|]. apply lookup_insert_ne. congruence.
  - subst. apply lookup_delete_ne. congruence.
  - subst. destruct (decide _); [|reflexivity]. apply lookup_delete_ne. congruence.
  - subst. destruct (decide _); [|reflexivity]. apply lookup_insert_ne. congruence.
  - destruct Hd as [->| ->].
    + destruct (decide _); [apply lookup_delete_ne|apply lookup_insert_ne]; congruence.
    + apply lookup_insert_ne. congruence.
  - congruence.
Qed.

(** C02 *)
Lemma seq_frame os rs s n o r s' k n1 n2 g1 s1 g2 s2 :
  reach C s0 os rs s -> Forall legal_op os -> legal_op o -> legal_key k -> op_key o <> Some k ->
  run (op_prog C n o) s = Ok r s' ->
  run (get C n1 k) s = Ok g1 s1 -> run (get C n2 k) s' = Ok g2 s2 -> g2 = g1.
Proof.
  intros Hr Hl Ho Hk Hne Hs Hg1 Hg2.
  destruct (seq_step _ _ _ _ _ _ _ Hr Hl Ho Hs) as (m & m' & _ & Hd & H1 & H2).
  rewrite (H1 _ _ _ _ Hk Hg1), (H2 _ _ _ _ Hk Hg2). unfold lookup_result.
  rewrite (dstep_other _ _ _ _ _ Hd Hne). reflexivity.
Qed.

(** Live words are not the not-found word. *)
Lemma seq_live os rs s : reach C s0 os rs s -> Forall legal_op os ->
  exists m sz, okstate C sz (abs s) m /\ dsteps ∅ os rs m /\ all_live m.
Proof.
  intros Hr Hl. destruct (reach_ok _ _ _ _ _ init_ok Hr Hl) as (m & sz & H1 & H2 & _).
  exists m, sz. split; [exact H1|]. split; [exact H2|]. eapply ready_live. apply H1.
Qed.

Lemma lookup_result_none m k : all_live m -> (lookup_result m k = NOTFOUND <-> m !! k = None).
Proof.
  intros H. unfold lookup_result, NOTFOUND. destruct (m !! k) as [w|] eqn:Hm; cbn.
  - destruct (H _ _ Hm) as (_ & H1 & _). split; [intros; contradiction|discriminate].
  - tauto.
Qed.

Lemma lookup_result_some m k v : all_live m -> v <> NOTFOUND -> (lookup_result m k = v <-> m !! k = Some v).
Proof.
  intros H Hv. unfold lookup_result, NOTFOUND in *. destruct (m !! k) as [w|] eqn:Hm; cbn.
  - split; congruence.
  - split; [congruence|discriminate].
Qed.

(** C03: [before] and [after] are what get returns for the key before and after the call. *)
Lemma seq_putIfAbsent os rs s n k v r s' n1 n2 before s1 after s2 :
  reach C s0 os rs s -> Forall legal_op os -> legal_key k -> legal_val v ->
  run (putIfAbsent C n k v) s = Ok r s' ->
  run (get C n1 k) s = Ok before s1 -> run (get C n2 k) s' = Ok after s2 ->
  r = before /\ after = if (before =? NOTFOUND)%N then v else before.
Proof.
  intros Hr Hl Hk Hv Hs Hg1 Hg2.
  assert (Hs' : run (op_prog C n (OPutIfAbsent k v)) s = Ok (RVal r) s') by (cbn [op_prog]; rewrite run_bind, Hs; reflexivity).
  destruct (seq_live _ _ _ Hr Hl) as (m & sz & Hok & _ & Hlive).
  pose proof (op_any n sz s m _ Hok (conj Hk Hv : legal_op (OPutIfAbsent k v))) as Hop. rewrite Hs' in Hop.
  destruct Hop as (m' & sz' & P1 & [P2 P3] & _). injection P2 as P2.
  pose proof (get_any _ _ _ _ _ _ _ Hok Hk Hg1) as G1. pose proof (get_any _ _ _ _ _ _ _ P1 Hk Hg2) as G2.
  split; [congruence|]. rewrite G2, G1, P3.
  destruct (m !! k) as [w|] eqn:Hm.
  - assert (lookup_result m k <> NOTFOUND) as Hn by (rewrite lookup_result_none by exact Hlive; congruence).
    apply N.eqb_neq in Hn. rewrite Hn. reflexivity.
  - assert (lookup_result m k = NOTFOUND) as -> by (apply lookup_result_none; auto).
    rewrite N.eqb_refl. unfold lookup_result. rewrite lookup_insert. reflexivity.
Qed.

Lemma legal_not_NOTFOUND v : legal_val v -> v <> NOTFOUND.
Proof. intros H. apply (legal_val_neq v H). Qed.

Lemma seq_replace os rs s n k old new r s' n1 n2 before s1 after s2 :
  reach C s0 os rs s -> Forall legal_op os -> legal_key k -> legal_val old -> legal_val new ->
  run (replace C n k old new) s = Ok r s' ->
  run (get C n1 k) s = Ok before s1 -> run (get C n2 k) s' = Ok after s2 ->
  r = (before =? old)%N /\ after = if (before =? old)%N then new else before.
Proof.
  intros Hr Hl Hk Ho Hv Hs Hg1 Hg2.
  assert (Hs' : run (op_prog C n (OReplace k old new)) s = Ok (RBool r) s') by (cbn [op_prog]; rewrite run_bind, Hs; reflexivity).
  destruct (seq_live _ _ _ Hr Hl) as (m & sz & Hok & _ & Hlive).
  pose proof (op_any n sz s m _ Hok (conj Hk (conj Ho Hv) : legal_op (OReplace k old new))) as Hop. rewrite Hs' in Hop.
  destruct Hop as (m' & sz' & P1 & [P2 P3] & _). injection P2 as P2.
  pose proof (get_any _ _ _ _ _ _ _ Hok Hk Hg1) as G1. pose proof (get_any _ _ _ _ _ _ _ P1 Hk Hg2) as G2.
  rewrite G2, G1, P2, P3, lookup_result_eq by auto. split; [reflexivity|].
  destruct (decide (m !! k = Some old)) as [He|He].
  - rewrite bool_decide_eq_true_2 by exact He. unfold lookup_result. rewrite lookup_insert. reflexivity.
  - rewrite bool_decide_eq_false_2 by exact He. reflexivity.
Qed.

Lemma seq_removeVal os rs s n k v r s' n1 n2 before s1 after s2 :
  reach C s0 os rs s -> Forall legal_op os -> legal_key k -> legal_val v ->
  run (removeVal C n k v) s = Ok r s' ->
  run (get C n1 k) s = Ok before s1 -> run (get C n2 k) s' = Ok after s2 ->
  r = (before =? v)%N /\ after = if (before =? v)%N then NOTFOUND else before.
Proof.
  intros Hr Hl Hk Hv Hs Hg1 Hg2.
  assert (Hs' : run (op_prog C n (ORemoveVal k v)) s = Ok (RBool r) s') by (cbn [op_prog]; rewrite run_bind, Hs; reflexivity).
  destruct (seq_live _ _ _ Hr Hl) as (m & sz & Hok & _ & Hlive).
  pose proof (op_any n sz s m _ Hok (conj Hk Hv : legal_op (ORemoveVal k v))) as Hop. rewrite Hs' in Hop.
  destruct Hop as (m' & sz' & P1 & [P2 P3] & _). injection P2 as P2.
  pose proof (get_any _ _ _ _ _ _ _ Hok Hk Hg1) as G1. pose proof (get_any _ _ _ _ _ _ _ P1 Hk Hg2) as G2.
  rewrite G2, G1, P2, P3, lookup_result_eq by auto. split; [reflexivity|].
  destruct (decide (m !! k = Some v)) as [He|He].
  - rewrite bool_decide_eq_true_2 by exact He. unfold lookup_result. rewrite lookup_delete. reflexivity.
  - rewrite bool_decide_eq_false_2 by exact He. reflexivity.
Qed.

(** C08 *)
Lemma seq_contains os rs s n k b s' n1 g s1 :
  reach C s0 os rs s -> Forall legal_op os -> legal_key k ->
  run (containsKey C n k) s = Ok b s' -> run (get C n1 k) s = Ok g s1 -> b = negb (g =? NOTFOUND)%N.
Proof.
  intros Hr Hl Hk Hs Hg.
  assert (Hs' : run (op_prog C n (OContains k)) s = Ok (RBool b) s') by (cbn [op_prog]; rewrite run_bind, Hs; reflexivity).
  destruct (seq_live _ _ _ Hr Hl) as (m & sz & Hok & _ & Hlive).
  pose proof (op_any n sz s m _ Hok (Hk : legal_op (OContains k))) as Hop. rewrite Hs' in Hop.
  destruct Hop as (m' & sz' & P1 & [P2 P3] & _). injection P2 as P2.
  pose proof (get_any _ _ _ _ _ _ _ Hok Hk Hg) as G1. rewrite P2, G1.
  symmetry. apply (lookup_result_contains m k Hlive).
Qed.

(** C07: what remove(key) reports. *)
Lemma seq_remove os rs s n k b s' n1 g s1 n2 g2 s2 :
  reach C s0 os rs s -> Forall legal_op os -> legal_key k ->
  run (remove C n k) s = Ok b s' -> run (get C n1 k) s = Ok g s1 -> run (get C n2 k) s' = Ok g2 s2 ->
  b = negb (g =? 0)%N /\ g2 = NOTFOUND.
Proof.
  intros Hr Hl Hk Hs Hg Hg2.
  assert (Hs' : run (op_prog C n (ORemove k)) s = Ok (RBool b) s') by (cbn [op_prog]; rewrite run_bind, Hs; reflexivity).
  destruct (seq_live _ _ _ Hr Hl) as (m & sz & Hok & _ & Hlive).
  pose proof (op_any n sz s m _ Hok (Hk : legal_op (ORemove k))) as Hop. rewrite Hs' in Hop.
  destruct Hop as (m' & sz' & P1 & [P2 P3] & _). injection P2 as P2.
  pose proof (get_any _ _ _ _ _ _ _ Hok Hk Hg) as G1. pose proof (get_any _ _ _ _ _ _ _ P1 Hk Hg2) as G2.
  rewrite G2, P2, G1, P3. split; [symmetry; apply lookup_result_zero|].
  unfold lookup_result. rewrite lookup_delete. reflexivity.
Qed.

(** C09: what increment stores. *)
Definition counted (g : N) : N :=
  let w := if (g =? NOTFOUND)%N then 8%N else ((g / 8 + 1) * 8 mod 2 ^ 64)%N in
  if (w =? VINITIAL)%N || (w =? VTOMBSTONE)%N then NOTFOUND else w.

Lemma inc_map_result m k : all_live m -> lookup_result (inc_map m k) k = counted (lookup_result m k).
Proof.
  intros Hlive. unfold counted.
  assert (Hw : (if (lookup_result m k =? NOTFOUND)%N then 8%N
                else ((lookup_result m k / 8 + 1) * 8 mod 2 ^ 64)%N) = next_count (m !! k)).
  { unfold lookup_result. destruct (m !! k) as [v|] eqn:Hm; [|reflexivity]. cbn [from_option]. unfold id.
    destruct (Hlive _ _ Hm) as (_ & L1 & _). unfold NOTFOUND. apply N.eqb_neq in L1. rewrite L1. reflexivity. }
  cbv zeta. rewrite Hw. unfold inc_map, lookup_result. destruct (decide _) as [D|D].
  - rewrite lookup_delete. assert (((next_count (m !! k) =? VINITIAL)%N || (next_count (m !! k) =? VTOMBSTONE)%N) = true) as ->;
      [|reflexivity]. apply orb_true_iff. rewrite !N.eqb_eq. exact D.
  - rewrite lookup_insert. assert (((next_count (m !! k) =? VINITIAL)%N || (next_count (m !! k) =? VTOMBSTONE)%N) = false) as ->;
      [|reflexivity]. apply orb_false_iff. rewrite !N.eqb_neq. tauto.
Qed.

Lemma seq_increment os rs s n k r s' n1 g s1 n2 g2 s2 :
  reach C s0 os rs s -> Forall legal_op os -> legal_key k ->
  run (incrementOp C n k) s = Ok r s' -> run (get C n1 k) s = Ok g s1 -> run (get C n2 k) s' = Ok g2 s2 ->
  r = g /\ (g2 = INCREMENT_ARG \/ g2 = counted g) /\
  (st_top s' = st_top s -> g <> INCREMENT_ARG -> g2 = counted g).
Proof.
  intros Hr Hl Hk Hs Hg Hg2.
  assert (Hs' : run (op_prog C n (OIncrement k)) s = Ok (RVal r) s') by (cbn [op_prog]; rewrite run_bind, Hs; reflexivity).
  destruct (seq_live _ _ _ Hr Hl) as (m & sz & Hok & _ & Hlive).
  pose proof (op_any n sz s m _ Hok (Hk : legal_op (OIncrement k))) as Hop. rewrite Hs' in Hop.
  destruct Hop as (m' & sz' & P1 & [P2 P3] & _ & _ & _ & _ & P4). injection P2 as P2.
  pose proof (get_any _ _ _ _ _ _ _ Hok Hk Hg) as G1. pose proof (get_any _ _ _ _ _ _ _ P1 Hk Hg2) as G2.
  split; [congruence|]. rewrite G2, G1. split.
  - destruct P3 as [-> | ->]; [right; apply inc_map_result; exact Hlive|].
    left. unfold lookup_result. rewrite lookup_insert. reflexivity.
  - intros Ht Hne. rewrite (P4 k eq_refl Ht); [apply inc_map_result; exact Hlive|].
    intros He. apply Hne. unfold lookup_result. rewrite He. reflexivity.
Qed.

Lemma counted_small c : (c + 3 < 2 ^ 61)%N -> counted (8 * c) = (8 * (c + 1))%N.
Proof.
  intros Hc. unfold counted, NOTFOUND. rewrite VINITIAL_val, VTOMBSTONE_val.
  assert (2 ^ 61 = 2305843009213693952)%N as H61 by reflexivity. rewrite H61 in Hc.
  assert (2 ^ 64 = 18446744073709551616)%N as -> by reflexivity.
  destruct (N.eqb_spec (8 * c) 18446744073709551608) as [He|_]; [lia|].
  rewrite (N.mul_comm 8 c), N.div_mul by discriminate. cbv zeta.
  rewrite N.mod_small by lia.
  destruct (N.eqb_spec ((c + 1) * 8) 18446744073709551608) as [He|_]; [lia|].
  destruct (N.eqb_spec ((c + 1) * 8) 18446744073709551600) as [He|_]; [lia|]. cbn [orb]. lia.
Qed.

(** C19, single-threaded *)
Lemma seq_promote os rs s n o r s' k n1 n2 g1 s1 g2 s2 :
  reach C s0 os rs s -> Forall legal_op os -> legal_op o -> legal_key k -> op_key o <> Some k \/ o = OGet k ->
  run (op_prog C n o) s = Ok r s' ->
  run (get C n1 k) s = Ok g1 s1 -> run (get C n2 k) s' = Ok g2 s2 -> g2 = g1.
Proof.
  intros Hr Hl Ho Hk Hor Hs Hg1 Hg2.
  destruct (seq_step _ _ _ _ _ _ _ Hr Hl Ho Hs) as (m & m' & _ & Hd & H1 & H2).
  rewrite (H1 _ _ _ _ Hk Hg1), (H2 _ _ _ _ Hk Hg2). unfold lookup_result.
  destruct Hor as [Hne| ->]; [|destruct Hd as [_ ->]; reflexivity].
  rewrite (dstep_other _ _ _ _ _ Hd Hne). reflexivity.
Qed.

(** C21, single-threaded: no call that could write [k] after the removal. *)
Definition writes (o : op) (k : N) : Prop :=
  match o with
  | OPut k' _ | OPutIfAbsent k' _ | OReplace k' _ _ | OIncrement k' => k' = k
  | _ => False
  end.

Lemma dstep_none m o r m' k : dstep m o r m' -> ~ writes o k -> m !! k = None -> m' !! k = None.
Proof.
  intros Hd Hw Hm. destruct (decide (op_key o = Some k)) as [He|He]; [|rewrite (dstep_other _ _ _ _ _ Hd He); exact Hm].
  destruct o; cbn in Hd, Hw, He; try (injection He as ->); try tauto; destruct Hd as [_ ->].
  - exact Hm.
  - exact Hm.
  - apply lookup_delete.
  - rewrite decide_False by congruence. exact Hm.
  - exact Hm.
Qed.

Lemma dsteps_none m os rs m' k : dsteps m os rs m' -> Forall (fun o => ~ writes o k) os -> m !! k = None -> m' !! k = None.
Proof.
  induction 1 as [|m o r m1 os rs m2 Hd Hds IH]; intros Hf Hm; [exact Hm|].
  apply Forall_cons in Hf as [H1 H2]. apply IH; [exact H2|]. eapply dstep_none; eauto.
Qed.

Lemma dsteps_split m os1 o os2 rs m' : dsteps m (os1 ++ o :: os2) rs m' ->
  exists m1 m2 r rs1 rs2, dsteps m os1 rs1 m1 /\ dstep m1 o r m2 /\ dsteps m2 os2 rs2 m'.
Proof.
  revert m rs. induction os1 as [|o1 os1 IH]; cbn; intros m rs H; inversion H; subst; clear H.
  - eexists _, _, _, [], _. split; [constructor|]. split; eassumption.
  - match goal with H : dsteps _ (os1 ++ _) _ _ |- _ => apply IH in H as (m1' & m2' & r' & rs1' & rs2' & A1 & A2 & A3) end.
    eexists m1', m2', r', (_ :: rs1'), rs2'. split; [econstructor; eassumption|]. split; assumption.
Qed.

Lemma seq_removed os1 k os2 rs s n g s' :
  reach C s0 (os1 ++ ORemove k :: os2) rs s -> Forall legal_op (os1 ++ ORemove k :: os2) ->
  Forall (fun o => ~ writes o k) os2 -> run (get C n k) s = Ok g s' -> g = NOTFOUND.
Proof.
  intros Hr Hl Hf Hg.
  assert (Hk : legal_key k).
  { apply Forall_app in Hl as [_ Hl]. apply Forall_inv in Hl. exact Hl. }
  destruct (seq_dict _ _ _ Hr Hl) as (m & Hd & Hget). rewrite (Hget _ _ _ _ Hk Hg).
  apply dsteps_split in Hd as (m1 & m2 & r & rs1 & rs2 & _ & [_ ->] & D3).
  unfold lookup_result. rewrite (dsteps_none _ _ _ _ _ D3 Hf (lookup_delete _ _)). reflexivity.
Qed.

(** C06 *)
Lemma quiet_abs sz s m : okstate C sz (abs s) m -> quiet s -> S (st_top (abs s)) = length (st_tabs (abs s)).
Proof.
  intros [[HS _ _] _] Hq. unfold quiet in Hq. pose proof (s_top _ _ _ _ _ HS) as Hlt.
  destruct (st_tabs s !! st_top s) as [T|] eqn:HT; [|contradiction].
  assert (HTa : st_tabs (abs s) !! st_top (abs s) = Some (absT T)) by (rewrite abs_tab; cbn [abs st_top]; rewrite HT; reflexivity).
  pose proof (s_new _ _ _ _ _ HS _ _ HTa) as Hn. cbn [absT t_new] in Hn. rewrite Hq in Hn.
  destruct (Nat.ltb_spec (S (st_top (abs s))) (length (st_tabs (abs s)))); [discriminate|lia].
Qed.

Lemma reach_quiet_ok os rs s : reach_quiet C s0 os rs s -> Forall legal_op os -> Forall no_increment os ->
  exists m, okstate C (Some (modsize m)) (abs s) m /\ dsteps ∅ os rs m.
Proof.
  intros Hr. induction Hr as [Hq|os rs s n o r s' Hr IH Hs Hq]; intros Hl Hn.
  - exists ∅. split; [|constructor]. apply (init_ready C cap ppl maxcap Hcap Hmax).
  - apply Forall_app in Hl as [Hl Hlo]. apply Forall_inv in Hlo. apply Forall_app in Hn as [Hn Hno]. apply Forall_inv in Hno.
    destruct (IH Hl Hn) as (m & Hok & Hd). pose proof (op_any n _ s m o Hok Hlo) as Hop. rewrite Hs in Hop.
    destruct Hop as (m' & sz' & P1 & P2 & P3 & P4 & _). exists m'.
    pose proof (quiet_abs _ _ _ P1 Hq) as Hqa. rewrite (P4 Hno eq_refl Hqa) in P1. split; [exact P1|].
    eapply dsteps_snoc; eauto.
Qed.

Lemma size_bound sz a m : okstate C sz a m -> S (st_top a) = length (st_tabs a) -> (N.of_nat (base.size m) < two64)%N.
Proof.
  intros [[HS HD _] _] Hq. destruct (lookup_lt_is_Some_2 (st_tabs a) (st_top a)) as (T & HT); [lia|].
  pose proof (s_tw _ _ _ _ _ HS _ _ HT) as HTW. pose proof (tw_lt59 _ _ _ HTW) as Hlt.
  assert (Hsub : dom m ⊆ (list_to_set (map fst (t_pairs T)) : gset N)).
  { intros k Hk. apply elem_of_dom in Hk as [v Hv]. apply HD in Hv as (j & T' & i & H1 & H2 & H3 & H4 & H5).
    assert (j = st_top a) as ->.
    { pose proof (lookup_lt_Some _ _ _ H1). destruct (Nat.eq_dec j (st_top a)); [assumption|]. exfalso.
      assert (Hv : valat (t_pairs T') i = TOMBPRIME) by (eapply (s_dead _ _ _ _ _ HS); [|exact H1|exact H2]; lia).
      destruct H5 as (H5 & _). rewrite <- H4, Hv in H5. apply TOMBPRIME_not_unmarked, H5. }
    assert (T' = T) as -> by congruence.
    apply elem_of_list_to_set, elem_of_list_fmap.
    rewrite <- (tw_length _ _ _ HTW) in H2. destruct (lookup_lt_is_Some_2 _ _ H2) as (p & Hp). exists p.
    unfold keyat in H3. rewrite Hp in H3. split; [auto|]. eapply elem_of_list_lookup_2, Hp. }
  apply subseteq_size in Hsub. rewrite size_dom in Hsub.
  assert (base.size (list_to_set (map fst (t_pairs T)) : gset N) <= length (map fst (t_pairs T))) as Hle.
  { generalize (map fst (t_pairs T)). intros l. induction l as [|x l IH]; cbn; [rewrite size_empty; lia|].
    rewrite size_union_alt, size_singleton. pose proof (subseteq_size (list_to_set l ∖ {[x]}) (list_to_set l : gset N)) as Hs. assert (base.size (list_to_set l ∖ {[x]} : gset N) <= base.size (list_to_set l : gset N)) by (apply Hs; set_solver). lia. }
  rewrite map_length, (tw_length _ _ _ HTW) in Hle.
  eapply N.lt_trans with (2 ^ 59)%N; [lia|reflexivity].
Qed.

Lemma seq_size os rs s x s' : reach_quiet C s0 os rs s -> Forall legal_op os -> Forall no_increment os ->
  run size s = Ok x s' -> exists m, dsteps ∅ os rs m /\ x = N.of_nat (base.size m).
Proof.
  intros Hr Hl Hn Hs. destruct (reach_quiet_ok _ _ _ Hr Hl Hn) as (m & Hok & Hd). exists m. split; [exact Hd|].
  assert (Hs' : run (op_prog C 0 OSize) s = Ok (RVal x) s') by (cbn [op_prog]; rewrite run_bind, Hs; reflexivity).
  pose proof (op_any 0 _ s m OSize Hok I) as Hop. rewrite Hs' in Hop.
  destruct Hop as (m' & sz' & P1 & P2 & P3 & P4 & P5 & _). specialize (P5 eq_refl _ eq_refl). injection P5 as ->.
  assert (Hq : quiet s) by (inversion Hr; assumption).
  unfold modsize. apply N.mod_small. eapply size_bound; [exact Hok|]. eapply quiet_abs; eauto.
Qed.

Lemma seq_empty os rs s b s' : reach_quiet C s0 os rs s -> Forall legal_op os -> Forall no_increment os ->
  run isEmpty s = Ok b s' -> exists m, dsteps ∅ os rs m /\ (b = true <-> m = ∅).
Proof.
  intros Hr Hl Hn Hs. unfold isEmpty in Hs. rewrite run_bind in Hs. destruct (run size s) as [x s1|e s1] eqn:E; [|discriminate Hs].
  destruct (seq_size _ _ _ _ _ Hr Hl Hn E) as (m & Hd & Hx). exists m. split; [exact Hd|]. cbn in Hs. injection Hs as <- _.
  rewrite N.eqb_eq, <- map_size_empty_iff. lia.
Qed.

(** C39 *)
Lemma seq_read_only os rs s n k r s' : reach C s0 os rs s -> Forall legal_op os -> legal_key k ->
  (run (get C n k) s = Ok r s' \/ exists b, run (containsKey C n k) s = Ok b s') ->
  (forall k' n1 g1 s1 n2 g2 s2, legal_key k' -> run (get C n1 k') s = Ok g1 s1 -> run (get C n2 k') s' = Ok g2 s2 -> g2 = g1) /\
  (quiet s -> abs s' = abs s).
Proof.
  intros Hr Hl Hk Hrun. destruct (seq_live _ _ _ Hr Hl) as (m & sz & Hok & _ & Hlive).
  assert (exists o r, (o = OGet k \/ o = OContains k) /\ run (op_prog C n o) s = Ok r s') as (o & r' & Ho & Hs').
  { destruct Hrun as [H|[b H]].
    - exists (OGet k), (RVal r). split; [auto|]. cbn [op_prog]. rewrite run_bind, H. reflexivity.
    - exists (OContains k), (RBool b). split; [auto|]. cbn [op_prog]. rewrite run_bind, H. reflexivity. }
  assert (Hlo : legal_op o) by (destruct Ho as [->| ->]; exact Hk).
  pose proof (op_any n sz s m o Hok Hlo) as Hop. rewrite Hs' in Hop.
  destruct Hop as (m' & sz' & P1 & P2 & P3 & P4 & P5 & P6 & _). split.
  - intros k' n1 g1 s1 n2 g2 s2 Hk' Hg1 Hg2.
    rewrite (get_any _ _ _ _ _ _ _ Hok Hk' Hg1), (get_any _ _ _ _ _ _ _ P1 Hk' Hg2).
    destruct Ho as [->| ->]; destruct P2 as [_ ->]; reflexivity.
  - intros Hq. apply P6; [|eapply quiet_abs; eauto]. exists k. destruct Ho; auto.
Qed.

End Init.
End Thm.

Lemma reach_cons C s0 o os : forall rs s n r s1, run (op_prog C n o) s0 = Ok r s1 -> reach C s1 os rs s ->
  reach C s0 (o :: os) (r :: rs) s.
Proof.
  intros rs s n r s1 H Hr. induction Hr as [|os rs s n' o' r' s' Hr IH Hs].
  - change [o] with ([] ++ [o]). change [r] with ([] ++ [r]). econstructor; [constructor|exact H].
  - change (o :: os ++ [o']) with ((o :: os) ++ [o']). change (r :: rs ++ [r']) with ((r :: rs) ++ [r']).
    econstructor; eassumption.
Qed.

(** Runs of call sequences are runs in the sense of [reach]. *)
Lemma ops_reach C n os : forall s0 rs s, run (ops_prog C n os) s0 = Ok rs s -> reach C s0 os rs s.
Proof.
  induction os as [|o os IH]; intros s0 rs s H; cbn [ops_prog] in H.
  - injection H as <- <-. constructor.
  - rewrite run_bind in H. destruct (run (op_prog C n o) s0) as [r s1|] eqn:E1; [|discriminate].
    rewrite run_bind in H. destruct (run (ops_prog C n os) s1) as [rs' s2|] eqn:E2; [|discriminate].
    cbn in H. injection H as <- <-. eapply reach_cons; [exact E1|]. apply IH. exact E2.
Qed.

(** What equality of abstract states means for the memory. *)
Lemma abs_eq s s' : abs s' = abs s ->
  st_top s' = st_top s /\ length (st_tabs s') = length (st_tabs s) /\
  (forall t i c, same_word (read_cell s' t i c) (read_cell s t i c)) /\
  (forall t T T', st_tabs s !! t = Some T -> st_tabs s' !! t = Some T' ->
     t_len T' = t_len T /\ t_size T' = t_size T /\ t_slots T' = t_slots T /\ t_copyIdx T' = t_copyIdx T /\
     t_copyDone T' = t_copyDone T /\ t_new T' = t_new T).
Proof.
  intros H. split; [|split; [|split]].
  - change (st_top (abs s') = st_top (abs s)). rewrite H. reflexivity.
  - assert (length (st_tabs (abs s')) = length (st_tabs (abs s))) as Hl by (rewrite H; reflexivity).
    cbn in Hl. rewrite !map_length in Hl. exact Hl.
  - intros t i c. unfold same_word. change (clean (read_cell s' t i c) = clean (read_cell s t i c)).
    rewrite <- !read_cell_abs, H. reflexivity.
  - intros t T T' HT HT'. assert (absT T' = absT T) as He.
    { pose proof (abs_tab s t) as A. pose proof (abs_tab s' t) as A'. rewrite HT in A. rewrite HT', H in A'. cbn in A, A'. congruence. }
    unfold absT in He. injection He. intros. repeat split; assumption.
Qed.
