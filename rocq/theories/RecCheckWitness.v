(** Concrete runs of the alternating test, crashes, and recovery checks. *)
From Coq Require Import NArith Arith Bool List Lia.
From stdpp Require Import base list gmap.
From Verif Require Import Word Prog HashMap Spec ConcSpec SeqApi SeqThm Examples DurableSpec DurableWitness ConcWitness CrashReopen Codec CodecSpec CodecWitness Container ContainerSpec RecCheck RecCheckSpec RecCheckThm RecCheckRun.
Import ListNotations.
Local Open Scope N_scope.

(** The calls of one thread that stops after [j] calls of its main loop, on a new map. *)
Definition rc_calls (n total thr : N) (j : nat) : list bop :=
  match alt_run n total thr with Some (pre, main) => pre ++ firstn j main | None => [] end.
Definition rc_state (l : list bop) : state := state_after ex_fuel (map bcall l) ex_s0.
Definition rc_res (l : list bop) : list rsp := results_of ex_fuel (map bcall l) ex_s0.
Definition rc_check (n total : N) (s : state) : outcome bool := run (consistency_check idcfg (c_contains idcfg ex_fuel) c_count total n) s.
(** The table file with everything written back, and with as little as possible. *)
Definition rc_newest (s : state) : list pair_ := image_at s (match st_tabs s !! 0%nat with Some T => length (t_past T) | None => O end).
Definition rc_reopen (img : list pair_) : state := default ex_s0 (init_state_files 16 4 4096 [(0, img)]).

Lemma rc_quiet l : ret_of (run_quiet idcfg ex_fuel (map bcall l) ex_s0) = Some (rc_res l) ->
  (forall rs s, run_quiet idcfg ex_fuel (map bcall l) ex_s0 = Ok rs s -> s = rc_state l) ->
  reach_quiet idcfg (init_state 16 4 4096) (map bcall l) (rc_res l) (rc_state l).
Proof.
  intros H1 H2. apply (run_quiet_ok idcfg ex_fuel); [reflexivity|]. apply ok_of in H1. change (init_state 16 4 4096) with ex_s0.
  rewrite H1. f_equal. eapply H2, H1.
Qed.
Ltac rquiet := apply rc_quiet; [vm_compute; reflexivity|intros ? ? H; vm_compute in H; injection H as <- <-; vm_compute; reflexivity].

Lemma checkable_one total : (N.odd total || (10 <=? total) || (total <? 4)) && (total <? 2 ^ 64) = true -> checkable 1 total.
Proof.
  intros H thr numops Ht Ho. assert (thr = 0) as -> by lia. apply andb_true_iff in H as [H Hlt]. apply N.ltb_lt in Hlt.
  rewrite ops_ok in Ho by (assumption || lia). injection Ho as <-. unfold ops, width. cbn [N.eqb]. rewrite N.div_1_r, N.mod_1_r, N.add_0_r.
  split; [|auto]. rewrite !orb_true_iff, N.leb_le, N.ltb_lt in H. tauto.
Qed.

Lemma c52_one_example : exists pre main rs s s',
  checkable 1 11 /\ alt_run 1 11 0 = Some (pre, main) /\
  reach_quiet idcfg (init_state 16 4 4096) (map bcall (pre ++ firstn 5 main)) rs s /\
  run (consistency_check idcfg (c_contains idcfg ex_fuel) c_count 11 1) s = Ok true s'.
Proof.
  eexists _, _, (rc_res (rc_calls 1 11 0 5)), (rc_state (rc_calls 1 11 0 5)), _. split; [apply checkable_one; reflexivity|].
  split; [vm_compute; reflexivity|]. split.
  - change (firstn 5 _) with (drop 1 (rc_calls 1 11 0 5)). match goal with |- reach_quiet _ _ (map bcall ?l) _ _ => change l with (rc_calls 1 11 0 5) end. rquiet.
  - apply ok_of. vm_compute. reflexivity.
Qed.

Definition nrange (a b : N) : list N := map (fun i => a + N.of_nat i) (seq 0 (N.to_nat (b - a))).
Lemma nrange_in a b x : a <= x < b -> In x (nrange a b).
Proof. intros H. apply in_map_iff. exists (N.to_nat (x - a)). split; [lia|]. apply in_seq. lia. Qed.
Definition stoppedb (n total : N) (js : N -> nat) (l : list bop) : bool :=
  forallb (fun thr => match alt_run n total thr with
    | Some (pre, main) => forallb (fun el => eqb (bmember el l false) (bmember el (pre ++ firstn (js thr) main) false))
                            (nrange (thr * width n total) ((thr + 1) * width n total))
    | None => true end) (nrange 0 n).
Lemma stoppedb_ok n total js l : stoppedb n total js l = true -> stopped n total js (fun el => bmember el l false).
Proof.
  intros H thr pre main el Ht Hr He. unfold stoppedb in H. rewrite forallb_forall in H. specialize (H thr (nrange_in 0 n thr ltac:(lia))).
  rewrite Hr, forallb_forall in H. apply eqb_prop, H, nrange_in, He.
Qed.

(** Two threads that take turns. *)
Definition rc_two : list bop := rc_calls 2 10 0 2 ++ rc_calls 2 10 1 3 ++ skipn 2 (rc_calls 2 10 0 3).
Definition rc_js (_ : N) : nat := 3%nat.

Lemma rc_behaves n total l : n * width n total < 2 ^ 31 -> Forall (fun o => bel o < n * width n total) l ->
  reach_quiet idcfg (init_state 16 4 4096) (map bcall l) (rc_res l) (rc_state l) ->
  exists m, behaves idcfg (rc_state l) m /\ keys_are n total m (fun el => bmember el l false).
Proof.
  intros Hb Hl Hr.
  assert (Hleg : Forall legal_op (map bcall l) /\ Forall no_increment (map bcall l)).
  { clear - Hl Hb. induction Hl as [|o l Ho Hl [IH1 IH2]]; [split; constructor|].
    assert (legal_el (bel o)) as Hel.
    { unfold legal_el. change (2 ^ 61) with 2305843009213693952. change (2 ^ 31) with 2147483648 in Hb. lia. }
    destruct (ContainerThm.legal_el_key _ Hel) as [H1 H2]. split; constructor; auto; destruct o; cbn in *; auto. }
  destruct (okstate_behaves idcfg 16 4 4096 _ _ _ ex_cap16 ltac:(discriminate) Hr (proj1 Hleg) (proj2 Hleg)) as (m & Hd & Hbeh).
  exists m. split; [exact Hbeh|]. apply (bcalls_keys n total l Hb Hl (rc_res l) ∅ (fun _ => false) m); [|exact Hd].
  intros k. rewrite lookup_empty. split; [intros [? ?]; discriminate|intros (? & _ & ? & _); discriminate].
Qed.
Lemma below_ok b l : forallb (fun o => bel o <? b) l = true -> Forall (fun o => bel o < b) l.
Proof. intros H. apply Forall_forall. intros o Ho. rewrite forallb_forall in H. apply N.ltb_lt, H, elem_of_list_In, Ho. Qed.

Lemma checkable_two : checkable 2 10.
Proof.
  intros thr numops Ht Ho. rewrite ops_ok in Ho by (discriminate || reflexivity || assumption). injection Ho as <-.
  unfold ops, width. destruct (thr =? 0) eqn:E; [apply N.eqb_eq in E; subst; vm_compute; auto|]. vm_compute. split; auto.
Qed.

Lemma c52_example : exists s m js has s', checkable 2 10 /\ behaves idcfg s m /\ keys_are 2 10 m has /\ stopped 2 10 js has /\
  run (consistency_check idcfg (c_contains idcfg ex_fuel) c_count 10 2) s = Ok true s' /\ (exists a b, has a = true /\ has b = true /\ a <> b).
Proof.
  destruct (rc_behaves 2 10 rc_two) as (m & H1 & H2); [reflexivity|apply below_ok; reflexivity|rquiet|].
  exists (rc_state rc_two), m, rc_js, (fun el => bmember el rc_two false). eexists. split; [exact checkable_two|]. split; [exact H1|]. split; [exact H2|].
  split; [apply stoppedb_ok; vm_compute; reflexivity|]. split; [apply ok_of; vm_compute; reflexivity|]. exists 1, 6.
  split; [vm_compute; reflexivity|]. split; [vm_compute; reflexivity|discriminate].
Qed.

(** All calls made: 5 by each of two threads, or 4 by one. *)
Definition rc_full (n total : N) : list bop := flat_map (fun thr => rc_calls n total thr (N.to_nat total)) (nrange 0 n).
Lemma complete_all n total : n <> 0 -> total < 2 ^ 64 -> n * width n total < 2 ^ 31 -> complete n total (fun _ => N.to_nat total).
Proof.
  intros Hn Ht Hb thr pre main Hthr Hr. destruct (run_some n total Hn Ht Hb thr Hthr) as (p & q & H1 & H2 & _). rewrite H1 in Hr. injection Hr as <- <-.
  rewrite H2. pose proof (nm_ok n total thr). assert (ops n total thr <= total); [|lia]. unfold ops, width.
  pose proof (N.div_mod total n Hn) as Hd. revert Hd. generalize (total / n) (total mod n). clear - Hn. intros q r Hd. assert (q <= n * q) by nia. destruct (thr =? 0); lia.
Qed.

Lemma c52_complete_example :
  (exists s m js has s', complete 2 10 js /\ behaves idcfg s m /\ keys_are 2 10 m has /\ stopped 2 10 js has /\
     run (consistency_check idcfg (c_contains idcfg ex_fuel) c_count 10 2) s = Ok true s') /\
  (exists s m js has s', complete 1 4 js /\ behaves idcfg s m /\ keys_are 1 4 m has /\ stopped 1 4 js has /\
     run (consistency_check idcfg (c_contains idcfg ex_fuel) c_count 4 1) s = Ok false s').
Proof.
  split.
  - destruct (rc_behaves 2 10 (rc_full 2 10)) as (m & H1 & H2); [reflexivity|apply below_ok; reflexivity|rquiet|].
    exists (rc_state (rc_full 2 10)), m, (fun _ => N.to_nat 10), (fun el => bmember el (rc_full 2 10) false). eexists.
    split; [apply complete_all; (discriminate || reflexivity)|]. split; [exact H1|]. split; [exact H2|].
    split; [apply stoppedb_ok; vm_compute; reflexivity|]. apply ok_of; vm_compute; reflexivity.
  - destruct (rc_behaves 1 4 (rc_full 1 4)) as (m & H1 & H2); [reflexivity|apply below_ok; reflexivity|rquiet|].
    exists (rc_state (rc_full 1 4)), m, (fun _ => N.to_nat 4), (fun el => bmember el (rc_full 1 4) false). eexists.
    split; [apply complete_all; (discriminate || reflexivity)|]. split; [exact H1|]. split; [exact H2|].
    split; [apply stoppedb_ok; vm_compute; reflexivity|]. apply ok_of; vm_compute; reflexivity.
Qed.

Lemma c52_threads_example : exists s m js has s', opsPerThread 2 40 1 = Some 20 /\ behaves idcfg s m /\ keys_are 2 40 m has /\ stopped 2 40 js has /\
  run (consistency_check idcfg (c_contains idcfg ex_fuel) c_count 40 2) s = Ok false s'.
Proof.
  destruct (rc_behaves 2 40 (rc_calls 2 40 0 5)) as (m & H1 & H2); [reflexivity|apply below_ok; reflexivity|rquiet|].
  exists (rc_state (rc_calls 2 40 0 5)), m, (fun thr => if thr =? 0 then 5%nat else 0%nat), (fun el => bmember el (rc_calls 2 40 0 5) false). eexists.
  split; [vm_compute; reflexivity|]. split; [exact H1|]. split; [exact H2|].
  split; [apply stoppedb_ok; vm_compute; reflexivity|]. apply ok_of; vm_compute; reflexivity.
Qed.

(** ** Runs that are rejected although nothing is wrong *)
Lemma rc_reach l : ret_of (run (ops_prog idcfg ex_fuel (map bcall l)) ex_s0) = Some (rc_res l) ->
  reach idcfg (init_state 16 4 4096) (map bcall l) (rc_res l) (rc_state l).
Proof. intros H. apply (ops_reach _ ex_fuel). change (init_state 16 4 4096) with ex_s0. apply ok_of in H. exact H. Qed.

Lemma c52_refuted : exists total pre main rs s img s1 s',
  alt_run 1 total 0 = Some (pre, main) /\ reach idcfg (init_state 16 4 4096) (map bcall (pre ++ main)) rs s /\
  (exists T, st_tabs s = [T] /\ img = t_pairs T) /\ crash_table s 0 img /\ init_state_files 16 4 4096 [(0, img)] = Some s1 /\
  run (consistency_check idcfg (c_contains idcfg ex_fuel) c_count total 1) s1 = Ok false s'.
Proof.
  exists 4. eexists _, _, (rc_res (rc_full 1 4)), (rc_state (rc_full 1 4)), (rc_newest (rc_state (rc_full 1 4))), (rc_reopen (rc_newest (rc_state (rc_full 1 4)))), _.
  split; [vm_compute; reflexivity|]. split.
  { match goal with |- reach _ _ (map bcall ?l) _ _ => change l with (rc_full 1 4) end. apply rc_reach. vm_compute. reflexivity. }
  split; [eexists; split; vm_compute; reflexivity|]. split; [apply image_crash; vm_compute; reflexivity|]. split; [vm_compute; reflexivity|].
  apply ok_of. vm_compute. reflexivity.
Qed.

(** The crash comes when the first two inserts have returned, and the file has none of their values. *)
Lemma rc_legal n total l : n * width n total < 2 ^ 31 -> Forall (fun o => bel o < n * width n total) l -> Forall legal_op (map bcall l).
Proof.
  intros Hb Hl. induction Hl as [|o l Ho Hl IH]; [constructor|].
  assert (legal_el (bel o)) as Hel.
  { unfold legal_el. change (2 ^ 61) with 2305843009213693952. change (2 ^ 31) with 2147483648 in Hb. lia. }
  destruct (ContainerThm.legal_el_key _ Hel) as [H1 H2]. constructor; [|exact IH]. destruct o; cbn in *; auto.
Qed.
Lemma rc_oldest l : Forall legal_op (map bcall l) -> ret_of (run (ops_prog idcfg ex_fuel (map bcall l)) ex_s0) = Some (rc_res l) ->
  (exists T, st_tabs (rc_state l) !! 0%nat = Some T) -> crash_table (rc_state l) 0 (oldest_image (rc_state l) 0).
Proof.
  intros Hl Hr (T & HT). pose proof (reach_Inv _ _ _ _ _ _ (init_Inv 16 4 4096 ex_cap16) (rc_reach l Hr) Hl) as HI.
  exact (oldest_image_ok _ _ _ _ HI HT).
Qed.

Lemma c52_crash_refuted : exists total pre main rs s img img' s1 s1' s' s'',
  alt_run 1 total 0 = Some (pre, main) /\ checkable 1 total /\ reach idcfg (init_state 16 4 4096) (map bcall pre) rs s /\
  crash_table s 0 img /\ init_state_files 16 4 4096 [(0, img)] = Some s1 /\
  run (consistency_check idcfg (c_contains idcfg ex_fuel) c_count total 1) s1 = Ok false s' /\
  crash_table s 0 img' /\ init_state_files 16 4 4096 [(0, img')] = Some s1' /\
  run (consistency_check idcfg (c_contains idcfg ex_fuel) c_count total 1) s1' = Ok true s''.
Proof.
  exists 20. eexists _, _. set (l := rc_calls 1 20 0 0).
  exists (rc_res l), (rc_state l), (oldest_image (rc_state l) 0), (rc_newest (rc_state l)), (rc_reopen (oldest_image (rc_state l) 0)), (rc_reopen (rc_newest (rc_state l))).
  do 2 eexists. split; [vm_compute; reflexivity|]. split; [apply checkable_one; reflexivity|]. split.
  { match goal with |- reach _ _ (map bcall ?x) _ _ => change x with l end. apply rc_reach. vm_compute. reflexivity. }
  split. { apply rc_oldest; [apply (rc_legal 1 20); [reflexivity|apply below_ok; reflexivity]|vm_compute; reflexivity|eexists; vm_compute; reflexivity]. }
  split; [vm_compute; reflexivity|]. split; [apply ok_of; vm_compute; reflexivity|].
  split; [apply image_crash; vm_compute; reflexivity|]. split; [vm_compute; reflexivity|]. apply ok_of. vm_compute. reflexivity.
Qed.

(** The crash comes after the first of four inserts of the prefix, and loses nothing. *)
Lemma c52_prefix_refuted : exists total pre main rs s img s1 s',
  alt_run 1 total 0 = Some (pre, main) /\ checkable 1 total /\ reach idcfg (init_state 16 4 4096) (map bcall (firstn 1 pre)) rs s /\
  (exists T, st_tabs s = [T] /\ img = t_pairs T) /\ crash_table s 0 img /\ init_state_files 16 4 4096 [(0, img)] = Some s1 /\
  run (consistency_check idcfg (c_contains idcfg ex_fuel) c_count total 1) s1 = Ok false s'.
Proof.
  exists 40. eexists _, _. set (l := firstn 1 (rc_calls 1 40 0 0)).
  exists (rc_res l), (rc_state l), (rc_newest (rc_state l)), (rc_reopen (rc_newest (rc_state l))).
  eexists. split; [vm_compute; reflexivity|]. split; [apply checkable_one; reflexivity|]. split.
  { match goal with |- reach _ _ (map bcall ?x) _ _ => change x with l end. apply rc_reach. vm_compute. reflexivity. }
  split; [eexists; split; vm_compute; reflexivity|]. split; [apply image_crash; vm_compute; reflexivity|]. split; [vm_compute; reflexivity|].
  apply ok_of. vm_compute. reflexivity.
Qed.

(** ** The calls of the test *)
Lemma run_thread n total thr l : alt_thread n total thr = Some l -> exists pre main skipped,
  alt_run n total thr = Some (pre, main) /\ l = skipped ++ pre ++ main /\ (thr = 0 -> skipped = []).
Proof.
  unfold alt_thread, alt_run. destruct (opsPerThread n total 0) as [mo|]; [|discriminate]. destruct (opsPerThread n total thr) as [no|]; [|discriminate]. cbv zeta.
  destruct (N.eqb_spec thr 0) as [->|Hne].
  - destruct (alt_prefix _ _ _ _) as [a|]; [|discriminate]. destruct (alt_main _ _ _ _ _) as [b|]; [|discriminate]. intros [= <-]. exists a, b, []. auto.
  - destruct (alt_prefix (N.to_nat _) _ _ _) as [a|]; [|discriminate]. destruct (alt_main _ _ _ _ _) as [b|]; [|discriminate]. intros [= <-].
    exists [], b, a. split; [reflexivity|]. split; [reflexivity|]. intros; contradiction.
Qed.
Lemma inserts_app l1 l2 : inserts (l1 ++ l2) = inserts l1 ++ inserts l2.
Proof. unfold inserts. rewrite List.flat_map_app. reflexivity. Qed.

Lemma c38_run : forall n total, n <> 0 -> total < 2 ^ 64 -> n * (total / n + total mod n) <= 2 ^ 32 ->
  exists ls, map (alt_run n total) (threads n) = map Some ls /\
    NoDup (flat_map (fun r => inserts (fst r ++ snd r)) ls).
Proof.
  intros n total Hn Ht Hb. destruct (CodecWitness.c38_alternating n total Hn Ht Hb) as (ls & H1 & _ & H3).
  apply NoDup_ListNoDup in H3. revert ls H1 H3. generalize (threads n). intros ts. induction ts as [|t ts IH]; intros [|l ls] H1 H3; try discriminate.
  - exists []. split; [reflexivity|constructor].
  - cbn in H1. injection H1 as E H1. cbn in H3. apply NoDup_app in H3 as (Ha & Hd & Hc). destruct (IH ls H1 Hc) as (rs & R1 & R2).
    destruct (run_thread _ _ _ _ E) as (pre & main & sk & Er & -> & _). exists ((pre, main) :: rs). split; [cbn; rewrite Er, R1; reflexivity|].
    cbn. rewrite inserts_app in Ha. apply NoDup_app in Ha as (_ & _ & Ha). apply NoDup_app. split; [exact Ha|]. split; [|exact R2].
    intros x Hx Hin. apply (Hd x); [rewrite inserts_app; apply elem_of_app; auto|].
    clear - R1 H1 Hin. revert ls rs R1 H1 Hin. induction ts as [|t ts IH]; intros [|l ls] [|r rs] R1 H1 Hin; try discriminate; [exact Hin|].
    cbn in *. injection H1 as E H1. injection R1 as R R1. apply elem_of_app in Hin as [Hin|Hin]; apply elem_of_app; [left|right; eauto].
    destruct (run_thread _ _ _ _ E) as (pre & main & sk & Er & -> & _). rewrite R in Er. injection Er as ->. rewrite inserts_app. apply elem_of_app. right. exact Hin.
Qed.

Lemma c38_prefix_refuted : exists n total thr pre main numops, thr < n /\
  opsPerThread n total thr = Some numops /\ alt_run n total thr = Some (pre, main) /\ N.of_nat (length (pre ++ main)) < numops.
Proof. exists 2, 20, 1. do 3 eexists. split; [reflexivity|]. split; [vm_compute; reflexivity|]. split; [vm_compute; reflexivity|]. vm_compute. reflexivity. Qed.
