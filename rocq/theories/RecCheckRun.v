(** The recovery check on a container. *)
From Coq Require Import NArith Arith Bool List Lia.
From stdpp Require Import base list gmap fin_maps fin_map_dom.
From Verif Require Import Word Prog HashMap Spec Abs Fuel SeqInv SeqApi SeqThm Codec CodecThm Container ContainerSpec ContainerThm RecCheck RecCheckSpec RecCheckThm.
Import ListNotations.
Local Open Scope N_scope.

Section Sim.
Context (C : cfg) (n0 : nat) (s1 : state) (m : gmap N N) (Hbeh : behaves C s1 m).
Context (n total : N) (has : N -> bool) (Hkeys : keys_are n total m has).
Notation w := (width n total).
Context (Hn : n <> 0) (Htot : total < 2 ^ 64) (Hb : n * w < 2 ^ 31).
Context (Hout : forall el, n * w <= el -> has el = false).

Definition readonly (o : op) : Prop := match o with OContains k => legal_key k | OSize => True | _ => False end.
Definition SInv (s : state) : Prop := exists os rs, reach C s1 os rs s /\ Forall readonly os.
Definition sim {A} (p q : prog A) : Prop := forall s r s', SInv s -> run p s = Ok r s' -> q = Ret r /\ SInv s'.

Lemma sim_ret {A} (a : A) : sim (Ret a) (Ret a).
Proof. intros s r s' H [= <- <-]. auto. Qed.
Lemma sim_err {A} e (q : prog A) : sim (Err e) q.
Proof. intros s r s' H. discriminate. Qed.
Lemma sim_bind {A B} (p q : prog A) (f g : A -> prog B) : sim p q -> (forall a, q = Ret a -> sim (f a) (g a)) -> sim (bind p f) (bind q g).
Proof.
  intros H1 H2 s r s' Hs. rewrite run_bind. destruct (run p s) as [a s2|e s2] eqn:E; [|discriminate]. intros Hf.
  destruct (H1 _ _ _ Hs E) as [Hq Hs2]. destruct (H2 a Hq _ _ _ Hs2 Hf) as [Hg Hs']. rewrite Hq. auto.
Qed.

Lemma readonly_legal os : Forall readonly os -> Forall legal_op os.
Proof. intros H. eapply Forall_impl; [exact H|]. intros [] H1; cbn in *; try contradiction; auto. Qed.
Lemma readonly_steps os rs m0 m' : Forall readonly os -> dsteps m0 os rs m' -> m' = m0.
Proof.
  intros H. revert rs m0. induction H as [|o os Ho _ IH]; intros rs m0 Hd; inversion Hd; subst; [reflexivity|].
  match goal with Hs : dstep _ _ _ _, Hr : dsteps _ _ _ _ |- _ => apply IH in Hr; subst; destruct o; cbn in *; try contradiction; destruct Hs as [_ ->]; reflexivity end.
Qed.
Lemma dsteps_snoc_inv os : forall rs o r m0 m', dsteps m0 (os ++ [o]) (rs ++ [r]) m' -> length rs = length os -> exists m2, dsteps m0 os rs m2 /\ dstep m2 o r m'.
Proof.
  induction os as [|o' os IH]; intros [|r' rs] o r m0 m' H Hl; try discriminate; cbn in H; inversion H; subst.
  - match goal with Hr : dsteps _ [] [] _ |- _ => inversion Hr; subst end. eexists. split; [constructor|assumption].
  - match goal with Hr : dsteps ?a (os ++ [o]) _ _ |- _ => destruct (IH _ _ _ _ _ Hr ltac:(now injection Hl)) as (m3 & H1 & H2) end.
    eexists. split; [econstructor; eassumption|exact H2].
Qed.
Lemma reach_len os rs s : reach C s1 os rs s -> length rs = length os.
Proof. induction 1; [reflexivity|]. rewrite !app_length. cbn. lia. Qed.

Definition has_legal (el : N) : bool := bool_decide (is_Some (m !! encode_el el)).
Lemma has_is el : el < 2 ^ 31 -> has_legal el = has el.
Proof.
  intros Hel. assert (Hle : forall e, e < 2 ^ 31 -> legal_el e).
  { intros e He. unfold legal_el. change (2 ^ 61) with 2305843009213693952. change (2 ^ 31) with 2147483648 in He. lia. }
  unfold has_legal. case_bool_decide as H.
  - apply Hkeys in H as (e & He & Hh & E). symmetry. rewrite (legal_el_inj el e); auto. apply Hle. lia.
  - destruct (has el) eqn:E; [|reflexivity]. exfalso. apply H, Hkeys. exists el. split; [|auto].
    destruct (N.lt_ge_cases el (n * w)) as [|Hge]; [assumption|]. rewrite Hout in E by exact Hge. discriminate.
Qed.

Lemma sim_contains el : el < 2 ^ 31 -> sim (c_contains C n0 el) (pure has el).
Proof.
  intros Hel s r s' (os & rs & Hr & Hro) Hs.
  assert (Hop : run (op_prog C n0 (OContains (encode_el el))) s = Ok (RBool r) s').
  { cbn [op_prog]. rewrite run_bind. unfold c_contains in Hs. rewrite Hs. reflexivity. }
  assert (Hleg : legal_key (encode_el el)).
  { apply legal_el_key. unfold legal_el. change (2 ^ 61) with 2305843009213693952. change (2 ^ 31) with 2147483648 in Hel. lia. }
  assert (Hr' : reach C s1 (os ++ [OContains (encode_el el)]) (rs ++ [RBool r]) s') by (econstructor; eassumption).
  assert (Hro' : Forall readonly (os ++ [OContains (encode_el el)])) by (apply Forall_app; split; [exact Hro|constructor; [exact Hleg|constructor]]).
  split; [|exists (os ++ [OContains (encode_el el)]), (rs ++ [RBool r]); auto].
  destruct (proj2 Hbeh _ _ _ Hr' (readonly_legal _ Hro')) as (m' & Hd). apply dsteps_snoc_inv in Hd as (m2 & H1 & H2); [|apply (reach_len _ _ _ Hr)].
  apply readonly_steps in H1; [|exact Hro]. subst m2. cbn in H2. destruct H2 as [[= ->] _]. unfold pure. f_equal. symmetry. apply has_is, Hel.
Qed.

Lemma elem_lt num thr e : thr < n -> genElemChecked num thr w = Some e -> e < 2 ^ 31.
Proof.
  intros Ht H. unfold genElemChecked in H. destruct (N.leb_spec w num) as [|Hlt]; [discriminate|].
  assert (Hbt : thr * w + w <= 2 ^ 31).
  { etransitivity; [|apply N.lt_le_incl; exact Hb]. replace (thr * w + w) with ((thr + 1) * w) by lia. apply N.mul_le_mono_r. lia. }
  rewrite (gen thr w Hbt num Hlt) in H. injection H as <-. lia.
Qed.

Lemma sim_checked v : sim (checked C v) (checked C v).
Proof.
  destruct v; [apply sim_ret|]. unfold checked, assert_. destruct (_ || _); [apply sim_ret|apply sim_err].
Qed.
Lemma checked_lt num thr e : thr < n -> checked C (genElemChecked num thr w) = Ret e -> e < 2 ^ 31.
Proof.
  intros Ht. destruct (genElemChecked num thr w) as [v|] eqn:E; cbn.
  - intros [= <-]. exact (elem_lt _ _ _ Ht E).
  - unfold assert_. destruct (_ || _); cbn; [intros [= <-]; reflexivity|discriminate].
Qed.

Lemma sim_first thr cnt : thr < n -> forall opid nv sc, sim (check_first C (c_contains C n0) cnt thr w opid nv sc) (check_first C (pure has) cnt thr w opid nv sc).
Proof.
  intros Ht. induction cnt as [|cnt IH]; intros opid nv sc; cbn [check_first]; [apply sim_ret|].
  apply sim_bind; [apply sim_checked|]. intros e He. apply sim_bind; [apply sim_contains, (checked_lt _ _ _ Ht He)|]. intros [] _; apply IH.
Qed.
Lemma sim_find thr k : thr < n -> forall rdid, sim (find_first (c_contains C n0) k thr w rdid) (find_first (pure has) k thr w rdid).
Proof.
  intros Ht. induction k as [|k IH]; intros rdid; cbn [find_first]; [apply sim_err|].
  destruct (genElemChecked rdid thr w) as [e|] eqn:E; [|apply sim_ret].
  apply sim_bind; [apply sim_contains, (elem_lt _ _ _ Ht E)|]. intros [] _; [apply sim_ret|apply IH].
Qed.
Lemma sim_count thr k : thr < n -> forall rdid cs, sim (count_sequ (c_contains C n0) k thr w rdid cs) (count_sequ (pure has) k thr w rdid cs).
Proof.
  intros Ht. induction k as [|k IH]; intros rdid cs; cbn [count_sequ]; [apply sim_err|].
  destruct (genElemChecked rdid thr w) as [e|] eqn:E; [|apply sim_ret].
  apply sim_bind; [apply sim_contains, (elem_lt _ _ _ Ht E)|]. intros [] _; [apply IH|apply sim_ret].
Qed.
Lemma sim_last thr cnt : thr < n -> forall opid sc, sim (check_last C (c_contains C n0) cnt thr w opid sc) (check_last C (pure has) cnt thr w opid sc).
Proof.
  intros Ht. induction cnt as [|cnt IH]; intros opid sc; cbn [check_last]; [apply sim_ret|].
  apply sim_bind; [apply sim_checked|]. intros e He. apply sim_bind; [apply sim_contains, (checked_lt _ _ _ Ht He)|]. intros a _. apply IH.
Qed.

Lemma sim_elements thr : thr < n -> sim (check_elements C (c_contains C n0) n total thr) (check_elements C (pure has) n total thr).
Proof.
  intros Ht. unfold check_elements. rewrite (ops_0 n total Hn Htot Hb), (ops_ok n total Hn Htot thr Ht). cbv zeta.
  apply sim_bind; [apply sim_first, Ht|]. intros [nv sc] _. apply sim_bind; [apply sim_find, Ht|]. intros lo _.
  apply sim_bind; [apply sim_count, Ht|]. intros [hi cs] _. cbv beta iota.
  apply sim_bind; [unfold assert_; destruct (_ || _); [apply sim_ret|apply sim_err]|]. intros _ _.
  apply sim_bind; [apply sim_last, Ht|]. intros b _. apply sim_ret.
Qed.

Lemma sim_threads k : forall i cs sc, i + N.of_nat k <= n -> sim (check_threads C (c_contains C n0) k n total i cs sc) (check_threads C (pure has) k n total i cs sc).
Proof.
  induction k as [|k IH]; intros i cs sc Hk; cbn [check_threads]; [apply sim_ret|].
  apply sim_bind; [apply sim_elements; lia|]. intros a _. apply IH. lia.
Qed.

Lemma sim_all actsize : sim (check_all_elements C (c_contains C n0) actsize total n) (check_all_elements C (pure has) actsize total n).
Proof.
  unfold check_all_elements. apply sim_bind; [apply sim_threads; lia|]. intros [cs sc] _. cbv beta iota.
  destruct (negb _); [apply sim_ret|]. destruct (negb _); apply sim_ret.
Qed.

Lemma size_contents : base.size m = length (contents n total has).
Proof.
  rewrite <- size_dom. assert (E : dom m ≡@{gset N} list_to_set (map encode_el (contents n total has))).
  { intros k. rewrite elem_of_dom, (Hkeys k), elem_of_list_to_set. rewrite elem_of_list_In, in_map_iff. unfold contents. split.
    - intros (el & H1 & H2 & ->). exists el. split; [reflexivity|]. apply filter_In. split; [|exact H2].
      apply in_map_iff. exists (N.to_nat el). split; [lia|]. apply in_seq. lia.
    - intros (el & <- & H). apply filter_In in H as [H1 H2]. exists el. split; [|auto].
      apply in_map_iff in H1 as (x & <- & Hx). apply in_seq in Hx. lia. }
  rewrite E. rewrite size_list_to_set; [apply List.map_length|].
  assert (Hnd : List.NoDup (contents n total has)).
  { unfold contents. apply List.NoDup_filter. apply FinFun.Injective_map_NoDup; [|apply seq_NoDup]. intros a b. lia. }
  apply NoDup_ListNoDup.
  assert (Hlt : forall x, In x (contents n total has) -> legal_el x).
  { intros x H. unfold contents in H. apply filter_In in H as [H1 _]. apply in_map_iff in H1 as (y & <- & Hy). apply in_seq in Hy.
    unfold legal_el. change (2 ^ 61) with 2305843009213693952. change (2 ^ 31) with 2147483648 in Hb. lia. }
  clear E. revert Hnd Hlt. generalize (contents n total has). clear. intros l Hnd. induction Hnd as [|x l Hx Hnd IH]; intros Hlt; [constructor|]. cbn. constructor.
  - intros Hin. apply in_map_iff in Hin as (y & Ey & Hy). assert (y = x) as ->; [|contradiction].
    apply legal_el_inj; [apply Hlt; right; exact Hy|apply Hlt; left; reflexivity|exact Ey].
  - apply IH. intros y Hy. apply Hlt. right. exact Hy.
Qed.

Lemma run_check b s' : run (consistency_check C (c_contains C n0) c_count total n) s1 = Ok b s' ->
  check_all_elements C (pure has) (N.of_nat (length (contents n total has))) total n = Ret b.
Proof.
  unfold consistency_check. rewrite run_bind. destruct (run c_count s1) as [x s2|e s2] eqn:E; [|discriminate]. intros H.
  assert (x = N.of_nat (length (contents n total has))) as <- by (rewrite <- size_contents; exact (proj1 Hbeh _ _ E)).
  refine (proj1 (sim_all x s2 b s' _ H)). exists [OSize], [RVal x]. split; [|repeat constructor].
  apply (reach_snoc C s1 [] [] s1 O OSize (RVal x) s2); [constructor|]. cbn [op_prog]. rewrite run_bind. unfold c_count in E. rewrite E. reflexivity.
Qed.
End Sim.

(** ** The statements *)
Section Final.
Context (C : cfg) (n total : N) (js : N -> nat) (has : N -> bool).
Context (Hn : n <> 0) (Htot : total < 2 ^ 64) (Hb : n * width n total < 2 ^ 31) (Hst : stopped n total js has).

Lemma check_accepts : checkable n total -> check_all_elements C (pure has) (N.of_nat (length (contents n total has))) total n = Ret true.
Proof. apply (accepts C n total has Hn Htot Hb js Hst). Qed.

Lemma check_iff : complete n total js ->
  (check_all_elements C (pure has) (N.of_nat (length (contents n total has))) total n = Ret true <-> checkable n total) /\
  (forall actsize, checkable n total \/ check_all_elements C (pure has) actsize total n = Ret false).
Proof.
  intros Hc. assert (Hj : forall thr, thr < n -> (N.to_nat (nm n total thr) <= js thr)%nat).
  { intros thr Ht. destruct (run_some n total Hn Htot Hb thr Ht) as (pre & main & H1 & H2 & _). rewrite <- H2. exact (Hc thr pre main Ht H1). }
  assert (Ha : forall actsize, checkable n total \/ check_all_elements C (pure has) actsize total n = Ret false).
  { intros actsize. destruct (answers C n total has Hn Htot Hb js Hst actsize) as ([] & E & H); [left|right; exact E].
    intros thr numops Ht Ho. rewrite (ops_ok n total Hn Htot thr Ht) in Ho. injection Ho as <-. destruct (H eq_refl thr Ht) as [H1 H2]. auto. }
  split; [|exact Ha]. split; [|apply check_accepts]. intros E. destruct (Ha (N.of_nat (length (contents n total has)))) as [|E']; [assumption|]. rewrite E in E'. discriminate.
Qed.

Lemma check_rejects_threads thr numops actsize : 0 < thr < n -> opsPerThread n total thr = Some numops -> 20 <= numops ->
  check_all_elements C (pure has) actsize total n = Ret false.
Proof.
  intros Ht Ho H20. rewrite (ops_ok n total Hn Htot thr ltac:(lia)) in Ho. injection Ho as <-.
  destruct (answers C n total has Hn Htot Hb js Hst actsize) as ([] & E & H); [|exact E]. exfalso. destruct (H eq_refl thr ltac:(lia)) as [[H1|H1] _]; lia.
Qed.
End Final.

(** ** On a container *)
Lemma keys_only n total m has :
  keys_are n total m has -> keys_are n total m (fun el => (el <? n * width n total) && has el).
Proof.
  intros H k. rewrite (H k). split; intros (el & H1 & H2 & ->); exists el; (split; [exact H1|]); (split; [|reflexivity]).
  - apply N.ltb_lt in H1. rewrite H1. exact H2.
  - apply andb_true_iff in H2. apply H2.
Qed.
Lemma stopped_only n total js has :
  stopped n total js has -> stopped n total js (fun el => (el <? n * width n total) && has el).
Proof.
  intros H thr pre main el Ht Hr He. rewrite <- (H thr pre main el Ht Hr He).
  assert (el < n * width n total) as Hlt.
  { apply N.lt_le_trans with ((thr + 1) * width n total); [apply He|]. apply N.mul_le_mono_r. lia. }
  apply N.ltb_lt in Hlt. rewrite Hlt. reflexivity.
Qed.
Lemma contents_only n total has : contents n total (fun el => (el <? n * width n total) && has el) = contents n total has.
Proof.
  unfold contents. apply List.filter_ext_in. intros el H. apply in_map_iff in H as (x & <- & Hx). apply in_seq in Hx.
  destruct (N.ltb_spec (N.of_nat x) (n * width n total)); [reflexivity|lia].
Qed.

Section Recovered.
Context (C : cfg) (fuel : nat) (s : state) (m : gmap N N) (n total : N) (js : N -> nat) (has : N -> bool) (b : bool) (s' : state).
Context (Hn : n <> 0) (Htot : total < 2 ^ 64) (Hb : n * width n total < 2 ^ 31).
Context (Hbeh : behaves C s m) (Hkeys : keys_are n total m has) (Hst : stopped n total js has).
Context (Hrun : run (consistency_check C (c_contains C fuel) c_count total n) s = Ok b s').

Lemma run_check' : check_all_elements C (pure (fun el => (el <? n * width n total) && has el)) (N.of_nat (length (contents n total has))) total n = Ret b.
Proof.
  rewrite <- contents_only. apply (run_check C fuel s m Hbeh n total _ (keys_only _ _ _ _ Hkeys) Hn Htot Hb) with (s' := s'); [|exact Hrun].
  intros el Hge. apply N.ltb_ge in Hge. rewrite Hge. reflexivity.
Qed.

Lemma recovered_accepts : checkable n total -> b = true.
Proof.
  intros Hc. pose proof run_check' as H. rewrite <- contents_only in H.
  rewrite (check_accepts C n total js _ Hn Htot Hb (stopped_only _ _ _ _ Hst) Hc) in H. now injection H.
Qed.
Lemma recovered_complete : complete n total js -> (b = true <-> checkable n total).
Proof.
  intros Hc. pose proof run_check' as H. rewrite <- contents_only in H.
  destruct (check_iff C n total js _ Hn Htot Hb (stopped_only _ _ _ _ Hst) Hc) as [H1 _]. rewrite H in H1.
  rewrite <- H1. split; [intros ->; reflexivity|intros [= E]; exact E].
Qed.
Lemma recovered_threads thr numops : 0 < thr < n -> opsPerThread n total thr = Some numops -> 20 <= numops -> b = false.
Proof.
  intros Ht Ho H20. pose proof run_check' as H.
  rewrite (check_rejects_threads C n total js _ Hn Htot Hb (stopped_only _ _ _ _ Hst) thr numops _ Ht Ho H20) in H. now injection H.
Qed.
End Recovered.

(** ** After the calls of one thread *)
Lemma okstate_behaves C cap ppl maxcap os rs s : good_cap cap maxcap -> (maxcap <= 2 ^ 32)%N ->
  reach_quiet C (init_state cap ppl maxcap) os rs s -> Forall legal_op os -> Forall no_increment os ->
  exists m, dsteps ∅ os rs m /\ behaves C s m.
Proof.
  intros Hc Hm Hr Hl Hn. destruct (reach_quiet_ok C cap ppl maxcap Hc Hm os rs s Hr Hl Hn) as (m & Hok & Hd). exists m. split; [exact Hd|]. split.
  - intros x s' Hs. assert (Hs' : run (op_prog C 0 OSize) s = Ok (RVal x) s') by (cbn [op_prog]; rewrite run_bind, Hs; reflexivity).
    pose proof (op_any C 0 _ s m OSize Hok I) as Hop. rewrite Hs' in Hop.
    destruct Hop as (m' & sz' & P1 & P2 & P3 & P4 & P5 & _). specialize (P5 eq_refl _ eq_refl). injection P5 as ->.
    assert (Hq : quiet s) by (inversion Hr; assumption).
    unfold modsize. apply N.mod_small. apply (size_bound C cap maxcap Hc Hm (Some (modsize m)) (abs s) m Hok). eapply quiet_abs; eauto.
  - intros os' rs' s' Hr' Hl'. assert (H : exists m' sz, okstate C sz (abs s') m' /\ dsteps m os' rs' m').
    { clear - Hr' Hl' Hok. induction Hr' as [|os' rs' s' n o r s'' Hr' IH Hs]; [eauto using dsteps_nil|].
      apply Forall_app in Hl' as [Hl' Ho]. apply Forall_inv in Ho. destruct (IH Hl') as (m1 & sz & Hok1 & Hd1).
      pose proof (op_any C n sz s' m1 o Hok1 Ho) as P. rewrite Hs in P. destruct P as (m2 & sz2 & Hok2 & Hst & _).
      exists m2, sz2. split; [exact Hok2|]. eapply dsteps_snoc; eauto. }
    destruct H as (m' & _ & _ & H). eauto.
Qed.

Definition bel (o : bop) : N := match o with BInsert e | BErase e => e end.
Lemma run_below n total thr pre main : n <> 0 -> total < 2 ^ 64 -> n * width n total < 2 ^ 31 -> thr < n ->
  alt_run n total thr = Some (pre, main) -> Forall (fun o => bel o < n * width n total) (pre ++ main).
Proof.
  intros Hn Htot Hb Ht Hr. pose proof (bound n total Hn Htot Hb thr Ht) as Hbt.
  assert (Hin : forall num e, genElem num thr (width n total) = Some e -> passed e < n * width n total).
  { intros num e He. pose proof (gen_lt _ _ _ _ He) as Hlt. rewrite (gen _ _ Hbt _ Hlt) in He. injection He as <-. rewrite (pass _ _ Hbt _ Hlt).
    apply N.lt_le_trans with ((thr + 1) * width n total); [lia|]. apply N.mul_le_mono_r. lia. }
  unfold alt_run in Hr. rewrite (ops_0 n total Hn Htot Hb), (ops_ok n total Hn Htot thr Ht) in Hr. cbv zeta in Hr.
  destruct (alt_prefix _ _ _ _) as [a|] eqn:Ea; [|discriminate]. destruct (alt_main _ _ _ _ _) as [b|] eqn:Eb; [|discriminate]. injection Hr as <- <-.
  apply Forall_app. split.
  - assert (H : forall k wr l, alt_prefix k thr (width n total) wr = Some l -> Forall (fun o => bel o < n * width n total) l); [|exact (H _ _ _ Ea)].
    clear Ea. intros k. induction k as [|k IH]; intros wr l Ea; cbn in Ea.
    + injection Ea as <-. constructor.
    + destruct (genElem wr thr (width n total)) as [e|] eqn:E; [|discriminate]. destruct (alt_prefix k _ _ _) as [l'|] eqn:E'; [|discriminate].
      injection Ea as <-. constructor; [exact (Hin _ _ E)|exact (IH _ _ E')].
  - assert (H : forall k wr rd l, alt_main k thr (width n total) wr rd = Some l -> Forall (fun o => bel o < n * width n total) l); [|exact (H _ _ _ _ Eb)].
    clear Eb.
    intros k. induction k as [|k IH]; intros wr rd l Eb; cbn [alt_main] in Eb.
    + injection Eb as <-. constructor.
    + destruct (Nat.odd (S k)).
      * destruct (genElem wr thr (width n total)) as [e|] eqn:E; [|discriminate]. destruct (alt_main k _ _ _ _) as [l'|] eqn:E'; [|discriminate].
        injection Eb as <-. constructor; [exact (Hin _ _ E)|exact (IH _ _ _ E')].
      * destruct (genElem rd thr (width n total)) as [e|] eqn:E; [|discriminate]. destruct (alt_main k _ _ _ _) as [l'|] eqn:E'; [|discriminate].
        injection Eb as <-. constructor; [exact (Hin _ _ E)|exact (IH _ _ _ E')].
Qed.

Lemma bcalls_keys n total l : n * width n total < 2 ^ 31 -> Forall (fun o => bel o < n * width n total) l ->
  forall rs m0 has m, keys_are n total m0 has -> dsteps m0 (map bcall l) rs m -> keys_are n total m (fun el => bmember el l (has el)).
Proof.
  intros Hb. assert (Hleg : forall e, e < n * width n total -> legal_el e).
  { intros e He. unfold legal_el. change (2 ^ 61) with 2305843009213693952. change (2 ^ 31) with 2147483648 in Hb. lia. }
  induction 1 as [|o l Ho Hl IH]; intros rs m0 has m Hk Hd; inversion Hd as [|? ? r m1 ? rs' ? Hs Hr]; subst; [exact Hk|].
  set (has' := fun el => match o with BInsert e => if e =? el then true else has el | BErase e => if e =? el then false else has el end).
  assert (Hk' : keys_are n total m1 has').
  { intros k. destruct o as [e|e]; cbn in Hs, Ho; destruct Hs as [_ ->].
    - rewrite lookup_insert_is_Some. rewrite (Hk k). unfold has'. split.
      + intros [<-|[Hne (el & H1 & H2 & ->)]]; [exists e; rewrite N.eqb_refl; auto|]. exists el. split; [exact H1|]. split; [|reflexivity]. destruct (e =? el); auto.
      + intros (el & H1 & H2 & ->). destruct (N.eqb_spec e el) as [->|Hne]; [auto|]. right. split; [|eauto]. intros E. apply Hne, legal_el_inj; auto.
    - rewrite lookup_delete_is_Some. rewrite (Hk k). unfold has'. split.
      + intros [Hne (el & H1 & H2 & ->)]. exists el. split; [exact H1|]. split; [|reflexivity]. destruct (N.eqb_spec e el) as [->|]; [contradiction|exact H2].
      + intros (el & H1 & H2 & ->). destruct (N.eqb_spec e el) as [->|Hne]; [discriminate|]. split; [|eauto]. intros E. apply Hne, legal_el_inj; auto. }
  specialize (IH _ _ _ _ Hk' Hr). intros k. rewrite (IH k). destruct o; reflexivity.
Qed.

Lemma one_thread_accepts : forall C cap ppl maxcap total j pre main rs s fuel b s',
  good_cap cap maxcap -> maxcap <= 2 ^ 32 -> total < 2 ^ 31 -> checkable 1 total -> alt_run 1 total 0 = Some (pre, main) ->
  reach_quiet C (init_state cap ppl maxcap) (map bcall (pre ++ firstn j main)) rs s ->
  run (consistency_check C (c_contains C fuel) c_count total 1) s = Ok b s' -> b = true.
Proof.
  intros C cap ppl maxcap total j pre main rs s fuel b s' Hc Hm Htot Hch Ha Hr Hs.
  assert (Hw : width 1 total = total) by (unfold width; rewrite N.div_1_r, N.mod_1_r; lia).
  assert (Hb : 1 * width 1 total < 2 ^ 31) by lia.
  assert (Htot' : total < 2 ^ 64) by (etransitivity; [exact Htot|reflexivity]).
  assert (Hbel : Forall (fun o => bel o < 1 * width 1 total) (pre ++ firstn j main)).
  { pose proof (run_below 1 total 0 pre main ltac:(lia) Htot' Hb ltac:(lia) Ha) as H. apply Forall_app in H as [H1 H2]. apply Forall_app. split; [exact H1|].
    rewrite <- (firstn_skipn j main) in H2. apply Forall_app in H2. apply H2. }
  assert (Hleg : Forall legal_op (map bcall (pre ++ firstn j main)) /\ Forall no_increment (map bcall (pre ++ firstn j main))).
  { clear - Hbel Hb. induction Hbel as [|o l Ho Hl [IH1 IH2]]; [split; constructor|].
    assert (legal_el (bel o)) as Hel.
    { unfold legal_el. change (2 ^ 61) with 2305843009213693952. change (2 ^ 31) with 2147483648 in Hb. lia. }
    destruct (legal_el_key _ Hel) as [H1 H2]. split; constructor; auto; destruct o; cbn in *; auto. }
  destruct (okstate_behaves C cap ppl maxcap _ rs s Hc Hm Hr (proj1 Hleg) (proj2 Hleg)) as (m & Hd & Hbeh).
  assert (Hk0 : keys_are 1 total ∅ (fun _ => false)).
  { intros k. rewrite lookup_empty. split; [intros [? ?]; discriminate|intros (? & _ & ? & _); discriminate]. }
  pose proof (bcalls_keys 1 total _ Hb Hbel rs ∅ (fun _ => false) m Hk0 Hd) as Hkeys.
  apply (recovered_accepts C fuel s m 1 total (fun _ => j) _ b s' ltac:(lia) Htot' Hb Hbeh Hkeys); [|exact Hs|exact Hch].
  intros thr pre' main' el Ht Ha' _. assert (thr = 0) as -> by lia. rewrite Ha in Ha'. injection Ha' as <- <-. reflexivity.
Qed.
