(** Concrete concurrent executions: witnesses for the refutations, and for the hypotheses of the theorems, of
    PropertiesConc.v; and the steps between ConcThm.v and the statements there. *)
From Coq Require Import NArith Bool List Lia.
From stdpp Require Import base list.
From Verif Require Import Word Bits Prog HashMap Conc Spec ConcSpec Abs Fuel Examples Stuck ConcInv ConcCmd ConcProg ConcMap ConcThm.
Import ListNotations.
Open Scope nat_scope.

(** Conversion should unfold the names of the executions below before it runs them. *)
Strategy 100 [conc].

(** Schedules as lists of segments (thread, number of steps). *)
Definition segs (l : list (nat * nat)) : list nat := flat_map (fun p => replicate (snd p) (fst p)) l.

(** A new map of 8 entries, 4 entries per cache line, on a device of 1024 entries. *)
Definition cw_s0 : state := init_state 8 4 1024.
Definition cw_after (todos : list (list op)) (l : list (nat * nat)) : sys := after idcfg ex_fuel cw_s0 todos (segs l).

Lemma legal_todos_ok todos : forallb (forallb legal_opb) todos = true -> Forall (Forall legal_op) todos.
Proof.
  intros H. apply Forall_forall. intros os Ho. apply legal_ops_ok. rewrite forallb_forall in H. apply H.
  apply elem_of_list_In. exact Ho.
Qed.

Definition idleb (y : sys) : bool := forallb (fun th => match th_cur th with None => true | Some _ => false end) (sy_thr y).
Lemma idleb_ok y : idleb y = true -> idle y.
Proof.
  unfold idleb, idle. rewrite forallb_forall. intros H. apply Forall_forall. intros th Ht. apply elem_of_list_In in Ht.
  specialize (H th Ht). destruct (th_cur th); [discriminate|reflexivity].
Qed.

(** ** Two puts of one absent key both insert it *)

Definition w12_todos : list (list op) := [[OPut 24 80]; [OPut 24 88]].
Definition w12_sched : list (nat * nat) := [(0, 15); (1, 18); (0, 40)].

Lemma w12 : Forall (Forall legal_op) w12_todos /\
  let y := cw_after w12_todos w12_sched in
  sy_hist y = [ERes 0 (OPut 24 80) (RVal NOTFOUND); ERes 1 (OPut 24 88) (RVal NOTFOUND); EInv 1 (OPut 24 88); EInv 0 (OPut 24 80)] /\
  exists p q, entry (sy_st y) 0 0 = Some p /\ entry (sy_st y) 0 1 = Some q /\ same_word (fst p) 24 /\ same_word (fst q) 24.
Proof.
  split; [apply legal_todos_ok; vm_compute; reflexivity|]. cbn zeta. split; [vm_compute; reflexivity|].
  exists (25%N, 89%N), (25%N, 81%N). repeat split; vm_compute; reflexivity.
Qed.

(** ** Results with a marker bit *)

Lemma w13a : let todos := [[OPutIfAbsent 24 80]; [OPut 24 88]] in Forall (Forall legal_op) todos /\
  In (ERes 0 (OPutIfAbsent 24 80) (RVal 89)) (sy_hist (cw_after todos [(0, 19); (1, 18); (0, 40)])).
Proof. split; [apply legal_todos_ok; vm_compute; reflexivity|vm_compute; tauto]. Qed.

Lemma w13b : let todos := [[OPut 24 80]; [OPut 24 88; OPut 24 96; OPut 24 88]] in Forall (Forall legal_op) todos /\
  In (ERes 0 (OPut 24 80) (RVal 89)) (sy_hist (cw_after todos [(0, 19); (1, 16); (0, 8); (1, 40); (0, 20)])).
Proof. split; [apply legal_todos_ok; vm_compute; reflexivity|vm_compute; tauto]. Qed.

(** ** putIfAbsent fails although the key has no value at any time *)

Definition mappedb (s : state) (k : N) : bool :=
  existsb (fun T => existsb (fun p => ((clearMark (fst p) DirtyFlag =? k) &&
    negb (payload (snd p) =? VINITIAL) && negb (payload (snd p) =? VTOMBSTONE))%N) (t_pairs T)) (st_tabs s).

Lemma mappedb_ok s k : mappedb s k = false -> ~ mapped s k.
Proof.
  intros H (t & i & p & He & H1 & H2 & H3). unfold entry in He. destruct (st_tabs s !! t) as [T|] eqn:HT; [|discriminate].
  apply not_true_iff_false in H. apply H. apply existsb_exists. exists T. split; [apply elem_of_list_In; exact (elem_of_list_lookup_2 _ _ _ HT)|].
  apply existsb_exists. exists p. split; [apply elem_of_list_In; exact (elem_of_list_lookup_2 _ _ _ He)|].
  rewrite !andb_true_iff, !negb_true_iff, N.eqb_eq, !N.eqb_neq. auto.
Qed.

(** [unmappedb]: [k] is not mapped at any moment of the schedule. *)
Fixpoint unmappedb (k : N) (sched : list nat) (y : sys) : bool :=
  negb (mappedb (sy_st y) k) &&
  match sched with [] => true | i :: l => unmappedb k l (tstep idcfg ex_fuel i y) end.

Lemma unmappedb_ok k sched : forall y, unmappedb k sched y = true ->
  forall s1 s2, sched = s1 ++ s2 -> ~ mapped (sy_st (conc idcfg ex_fuel s1 y)) k.
Proof.
  induction sched as [|i l IH]; intros y H s1 s2 E; cbn [unmappedb] in H; apply andb_true_iff in H as [H1 H2];
    apply negb_true_iff in H1; destruct s1 as [|j s1]; cbn [conc]; try exact (mappedb_ok _ _ H1); [discriminate|].
  injection E as <- E. eapply IH; [exact H2|exact E].
Qed.

Definition w14_todos : list (list op) := [[OPutIfAbsent 24 80]; [ORemove 24]; [OPut 24 88]].
Definition w14_sched : list (nat * nat) := [(2, 17); (0, 12); (1, 30); (0, 30)].

Lemma w14 : exists v, Forall (Forall legal_op) w14_todos /\ v <> NOTFOUND /\
  In (ERes 0 (OPutIfAbsent 24 80) (RVal v)) (sy_hist (cw_after w14_todos w14_sched)) /\
  forall s1 s2, segs w14_sched = s1 ++ s2 -> ~ mapped (sy_st (after idcfg ex_fuel cw_s0 w14_todos s1)) 24.
Proof.
  exists 18446744073709551601%N. split; [apply legal_todos_ok; vm_compute; reflexivity|]. split; [vm_compute; discriminate|].
  split; [vm_compute; tauto|]. apply unmappedb_ok. vm_compute. reflexivity.
Qed.

(** ** A promotion that loses a key *)

Definition w19_keys : list N := [16; 84; 144; 212; 272; 340; 400; 468]%N.
Definition w19_todos : list (list op) :=
  [map (fun k => OPut k 80) w19_keys; [OPut 32 88]] ++ map (fun k => [OGet k]) [16; 16; 144; 272; 400; 84; 212; 340]%N.
Definition w19_sched : list (nat * nat) :=
  [(0, 400); (1, 86); (2, 29); (3, 20); (2, 1); (3, 24); (2, 16); (1, 27); (4, 62); (1, 35); (5, 65); (1, 39); (6, 74);
   (1, 43); (7, 44); (1, 31); (8, 56); (1, 35); (9, 66)].
Definition w19_before : sys := cw_after w19_todos w19_sched.
Definition w19_after : sys := tstep idcfg ex_fuel 9 w19_before.

Lemma w19 : Forall (Forall legal_op) w19_todos /\
  Forall (Forall (fun o => op_key o = Some 468%N -> o = OPut 468 80)) w19_todos /\
  In (ERes 0 (OPut 468 80) (RVal NOTFOUND)) (sy_hist w19_before) /\
  st_top (sy_st w19_before) <> st_top (sy_st w19_after) /\
  (exists s', run (get idcfg ex_fuel 468) (sy_st w19_before) = Ok 80%N s') /\
  (exists s', run (get idcfg ex_fuel 468) (sy_st w19_after) = Ok NOTFOUND s').
Proof.
  split; [apply legal_todos_ok; vm_compute; reflexivity|].
  split; [repeat constructor; vm_compute; intros H; try reflexivity; discriminate|].
  split; [vm_compute; tauto|]. split; [vm_compute; discriminate|].
  split; eexists; apply ok_of; vm_compute; reflexivity.
Qed.

(** ** A suspended thread blocks all others *)

Definition w20_todos : list (list op) := [map (fun k => OPut k 80) w19_keys; [OPut 32 88]].
Definition w20_sys : sys := cw_after w20_todos [(0, 400); (1, 413)].

Lemma todo_nilb l : forallb (fun th => match th_todo th with [] => true | _ => false end) l = true ->
  Forall (fun th => th_todo th = []) l.
Proof.
  rewrite forallb_forall. intros H. apply Forall_forall. intros th Ht. apply elem_of_list_In in Ht. specialize (H th Ht).
  destruct (th_todo th); [reflexivity|discriminate].
Qed.

Lemma one_activeb l : match l with [th; th'] => match th_cur th, th_cur th' with None, Some _ => true | _, _ => false end | _ => false end = true ->
  exists th o p, l !! 0 = Some th /\ th_cur th = None /\ exists th', l !! 1 = Some th' /\ th_cur th' = Some (o, p).
Proof.
  intros H2. destruct l as [|th [|th' [|]]]; try discriminate H2.
  destruct (th_cur th) eqn:E1; [discriminate H2|]. destruct (th_cur th') as [[o p]|] eqn:E2; [|discriminate H2].
  exists th, o, p. split; [reflexivity|]. split; [exact E1|]. exists th'. split; [reflexivity|exact E2].
Qed.

Lemma w20 : Forall (Forall legal_op) w20_todos /\
  Forall (fun th => th_todo th = []) (sy_thr w20_sys) /\
  (exists th o p, sy_thr w20_sys !! 0 = Some th /\ th_cur th = None /\
     exists th', sy_thr w20_sys !! 1 = Some th' /\ th_cur th' = Some (o, p)) /\
  forall n o, legal_op o -> o <> OSize -> exists s', run (op_prog idcfg n o) (sy_st w20_sys) = Fail OutOfFuel s'.
Proof.
  split; [apply legal_todos_ok; vm_compute; reflexivity|].
  split; [apply todo_nilb; vm_compute; reflexivity|]. split; [apply one_activeb; vm_compute; reflexivity|].
  intros n o Hl Ho. apply stuck_forever; [|exact Hl|exact Ho]. apply stuckb_ok. vm_compute. reflexivity.
Qed.

(** ** A removed key comes back *)

Definition w21_todos : list (list op) :=
  [[OPut 24 80]; [OPut 24 88]; [ORemove 24; OGet 24] ++ map (fun i => OPut (24 + 8 * N.of_nat i)%N 80) (seq 1 7) ++ [OGet 24]].
Definition w21_sys : sys := cw_after w21_todos [(0, 15); (1, 18); (0, 40); (2, 2000)].

Definition w21_old : list event :=
  [ERes 0 (OPut 24 80) (RVal NOTFOUND); ERes 1 (OPut 24 88) (RVal NOTFOUND); EInv 1 (OPut 24 88); EInv 0 (OPut 24 80)].

Lemma w21 : Forall (Forall legal_op) w21_todos /\ exists h r v, v <> NOTFOUND /\
  sy_hist w21_sys = [ERes 2 (OGet 24) (RVal v); EInv 2 (OGet 24)] ++ h ++
    [ERes 2 (OGet 24) (RVal NOTFOUND); EInv 2 (OGet 24); ERes 2 (ORemove 24) r; EInv 2 (ORemove 24)] ++ w21_old /\
  Forall (fun o => op_key o <> Some 24%N) (invoked h).
Proof.
  split; [apply legal_todos_ok; vm_compute; reflexivity|].
  exists (flat_map (fun i => [ERes 2 (OPut (24 + 8 * N.of_nat i)%N 80) (RVal NOTFOUND); EInv 2 (OPut (24 + 8 * N.of_nat i)%N 80)]) (rev (seq 1 7))).
  exists (RBool true), 80%N. split; [vm_compute; discriminate|]. split; [vm_compute; reflexivity|].
  apply Forall_forall. vm_compute. intros o Ho.
  repeat (apply elem_of_cons in Ho as [->|Ho]; [discriminate|]). inversion Ho.
Qed.

(** ** Durability *)

(** The crash image with every line as it was when it was last known to be written back. *)
Definition oldest_image (s : state) (t : nat) : list pair_ :=
  match st_tabs s !! t with
  | Some T => map (fun i => default (0%N, 0%N) (hist_entry T (default 0 (t_pers T !! line_of s i)) i)) (seq 0 (t_len T))
  | None => []
  end.

Lemma version_len cap0 w T v ps : tab_ok cap0 w T -> versions T !! v = Some ps -> length ps = t_len T.
Proof.
  intros (_ & H1 & _ & _ & H2 & _) Hv.
  assert (Hl : versions T !! (length (t_past T)) = Some (t_pairs T)).
  { unfold versions. rewrite lookup_app_r by (rewrite rev_length; lia). rewrite rev_length, Nat.sub_diag. reflexivity. }
  assert (Hle : v <= length (t_past T)).
  { apply lookup_lt_Some in Hv. unfold versions in Hv. rewrite app_length, rev_length in Hv. cbn in Hv. lia. }
  rewrite (Forall2_length _ _ _ (H2 _ _ _ _ Hle Hv Hl)). exact H1.
Qed.

Lemma lookup_seq_lt_ a n i : i < n -> seq a n !! i = Some (a + i).
Proof.
  revert a i. induction n as [|n IH]; intros a i H; [lia|]. destruct i as [|i]; cbn; [f_equal; lia|].
  change (seq (S a) n !! i = Some (a + S i)). rewrite IH by lia. f_equal. lia.
Qed.

Lemma oldest_image_ok cap0 w t T : Inv cap0 w -> st_tabs (snd w) !! t = Some T ->
  crash_table (snd w) t (oldest_image (snd w) t).
Proof.
  intros HI HT. pose proof (tabs_ok _ _ _ _ HI HT) as HTok. pose proof HTok as (_ & H1 & H2 & _ & _ & H3 & _).
  exists T, (fun l => default 0 (t_pers T !! l)). split; [exact HT|]. unfold oldest_image. rewrite HT.
  split; [rewrite map_length, seq_length; reflexivity|]. split.
  - intros l b Hb. rewrite Hb. cbn. split; [lia|]. pose proof (Forall_lookup_1 _ _ _ _ H3 Hb) as H. cbn beta in H.
    unfold versions. rewrite app_length, rev_length. cbn. lia.
  - intros i ps Hi Hv. change (map ?f ?l) with (f <$> l). rewrite list_lookup_fmap, (lookup_seq_lt_ 0 (t_len T) i) by exact Hi. cbn [fmap option_fmap option_map].
    unfold hist_entry. rewrite Nat.add_0_l. rewrite Hv.
    pose proof (version_len _ _ _ _ _ HTok Hv) as Hlen. rewrite <- Hlen in Hi. destruct (lookup_lt_is_Some_2 _ _ Hi) as (p & Hp).
    rewrite Hp. reflexivity.
Qed.

(** An entry of a crash image of a table is a crash image of the entry. *)
Lemma crash_table_entry cap0 w t img i p : Inv cap0 w -> crash_table (snd w) t img -> img !! i = Some p ->
  crash_entry (snd w) t i p.
Proof.
  intros HI (T & pick & HT & Hlen & H1 & H2) Hp. pose proof (tabs_ok _ _ _ _ HI HT) as HTok.
  pose proof HTok as (_ & HP & HPers & _). pose proof (lookup_lt_Some _ _ _ Hp) as Hi. rewrite Hlen in Hi.
  assert (Hb : is_Some (t_pers T !! line_of (snd w) i)).
  { apply lookup_lt_is_Some_2. rewrite HPers. unfold line_of.
    eapply Nat.le_lt_trans; [|exact Hi]. destruct (st_ppl (snd w)) as [|q]; [cbn; lia|]. apply Nat.div_le_upper_bound; nia. }
  destruct Hb as (b & Hb). destruct (H1 _ _ Hb) as [Hle Hlt]. destruct (lookup_lt_is_Some_2 _ _ Hlt) as (ps & Hps).
  exists T, b, (pick (line_of (snd w) i)), ps. repeat (split; [assumption|]). rewrite <- (H2 _ _ Hi Hps). exact Hp.
Qed.

Section Run.
Context (C : cfg) (cap ppl n : nat) (maxcap : N) (todos : list (list op)).
Context (Hc : good_cap cap maxcap) (Hl : Forall (Forall legal_op) todos).
Notation at_ := (after C n (init_state cap ppl maxcap) todos).

Lemma oldest_at sched t : t < length (st_tabs (sy_st (at_ sched))) ->
  crash_table (sy_st (at_ sched)) t (oldest_image (sy_st (at_ sched)) t).
Proof.
  intros Ht. destruct (lookup_lt_is_Some_2 _ _ Ht) as (T & HT).
  exact (oldest_image_ok cap _ t T (after_inv C cap ppl n maxcap todos Hc Hl sched) HT).
Qed.

Lemma crash_client sched t img i p : crash_table (sy_st (at_ sched)) t img -> img !! i = Some p ->
  client_entry (invoked (sy_hist (at_ sched))) p.
Proof.
  intros Hi Hp. pose proof (after_inv C cap ppl n maxcap todos Hc Hl sched) as HI.
  pose proof (crash_table_entry _ _ _ _ _ _ HI Hi Hp) as He.
  pose proof (crash_ok C cap ppl n maxcap todos Hc Hl _ _ _ _ He) as ([H1|[H1|H1]] & H2 & H3 & _).
  - left. split; [exact H1|]. exact (H2 H1).
  - right. left. split; [exact H1|]. destruct H3 as [H3|[H3|H3]]; [left; exact H3|right; exact H3|].
    exfalso. change (clearMark (fst p) DirtyFlag) with (clean (fst p)) in *. rewrite H1 in H3.
    assert (Hlo : Forall legal_op (invoked (sy_hist (at_ sched)))) by apply HI.
    assert (HK : forall o, In o (invoked (sy_hist (at_ sched))) -> op_key o <> Some KTOMBSTONE).
    { intros o Ho E. rewrite Forall_forall in Hlo. apply elem_of_list_In in Ho. specialize (Hlo _ Ho).
      assert (HKk : legal_key KTOMBSTONE) by (destruct o; cbn in E, Hlo; try (injection E as ->); try discriminate; tauto).
      apply legal_keyb_spec in HKk. vm_compute in HKk. discriminate. }
    clear -H3 HK. induction H3; try (eapply HK; [eassumption|reflexivity]).
  - right. right. split; [exact H1|exact H3].
Qed.

Lemma crash_key sched t img i p : crash_table (sy_st (at_ sched)) t img -> img !! i = Some p ->
  clearMark (snd p) DirtyFlag <> VINITIAL -> clearMark (fst p) DirtyFlag <> KINITIAL.
Proof.
  intros Hi Hp. pose proof (after_inv C cap ppl n maxcap todos Hc Hl sched) as HI.
  pose proof (crash_table_entry _ _ _ _ _ _ HI Hi Hp) as He.
  pose proof (crash_ok C cap ppl n maxcap todos Hc Hl _ _ _ _ He) as (_ & H2 & _). intros H3 H4. exact (H3 (H2 H4)).
Qed.

Lemma read_durable_key sched h1 h2 i k v : sy_hist (at_ sched) = h1 ++ ERes i (OGet k) (RVal v) :: h2 -> v <> NOTFOUND ->
  exists t j, forall sched2 img, crash_table (sy_st (at_ (sched ++ sched2))) t img ->
    exists p, img !! j = Some p /\ same_word (fst p) k /\
    forall T, st_tabs (sy_st (at_ (sched ++ sched2))) !! t = Some T -> never_returns T j ->
      exists a b q, hist_entry T a j = Some q /\ same_word (snd q) v /\ a <= b /\ hist_entry T b j = Some p.
Proof.
  intros E Hv. destruct (read_durable_in C cap ppl n maxcap todos Hc Hl _ _ _ _ _ _ E Hv) as (t & j & L & Hj & H).
  pose proof (get_bits C cap ppl n maxcap todos Hc Hl _ _ _ _ _ _ E) as [Hcl _].
  exists t, j. intros sched2 img Hi. pose proof (after_inv C cap ppl n maxcap todos Hc Hl (sched ++ sched2)) as HI.
  pose proof Hi as (T & pick & HT & Hlen & _). destruct (H sched2) as (T' & HT' & HL' & H').
  assert (TT : T' = T) by (rewrite HT in HT'; congruence). subst T'.
  assert (Hp : is_Some (img !! j)) by (apply lookup_lt_is_Some_2; lia). destruct Hp as (p & Hp).
  destruct (H' p (crash_table_entry _ _ _ _ _ _ HI Hi Hp)) as (K1 & K2 & K3).
  exists p. split; [exact Hp|]. split. { change (clean (fst p) = clean k). rewrite K1. symmetry. exact (clean_id _ K2). }
  intros T0 HT0 Hn. rewrite HT in HT0. injection HT0 as <-. destruct (K3 T HT) as (a & q & b & A1 & A2 & A3 & A4).
  { intros a b c A B D p' q' r' L1 L2 VA VB VD PA PB PD ES.
    apply (Hn a b c p' q' r' L1 L2); unfold hist_entry; rewrite ?VA, ?VB, ?VD; assumption. }
  exists a, b, q. split; [exact A1|]. split; [|auto]. change (clean (snd q) = clean v). rewrite A2. symmetry. exact (clean_id _ Hcl).
Qed.

End Run.

Definition w22_sys : sys := cw_after [[OPut 24 80]] [(0, 22)].

Lemma w22 : Forall (Forall legal_op) [[OPut 24 80]] /\ sy_hist w22_sys = [ERes 0 (OPut 24 80) (RVal NOTFOUND); EInv 0 (OPut 24 80)] /\
  exists img, crash_table (sy_st w22_sys) 0 img /\ Forall (fun p => ~ same_word (fst p) 24) img.
Proof.
  assert (Hl : Forall (Forall legal_op) [[OPut 24 80]]) by (apply legal_todos_ok; vm_compute; reflexivity).
  split; [exact Hl|]. split; [vm_compute; reflexivity|]. exists (oldest_image (sy_st w22_sys) 0). split.
  - apply (oldest_at idcfg 8 4 ex_fuel 1024 _ ex_cap8 Hl (segs [(0, 22)])). apply Nat.ltb_lt. vm_compute. reflexivity.
  - apply Forall_forall. intros p Hp.
    assert (H : forallb (fun p => negb (clearMark (fst p) DirtyFlag =? 24)%N) (oldest_image (sy_st w22_sys) 0) = true) by (vm_compute; reflexivity).
    rewrite forallb_forall in H. apply elem_of_list_In in Hp. specialize (H p Hp). apply negb_true_iff, N.eqb_neq in H.
    intros HS. apply H. unfold same_word in HS. rewrite HS. reflexivity.
Qed.

Definition w24_todos : list (list op) := [[OPut 24 80]; [OGet 24]; [OPut 24 88; OPut 24 80]; [OGet 24]].
Definition w24_sys : sys := cw_after w24_todos [(0, 22); (1, 11); (2, 80); (1, 10); (3, 30)].

Lemma w24 : Forall (Forall legal_op) w24_todos /\ idle w24_sys /\
  (exists h, sy_hist w24_sys = ERes 3 (OGet 24) (RVal 80) :: EInv 3 (OGet 24) :: h /\ In (ERes 2 (OPut 24 80) (RVal 88)) h) /\
  exists img, crash_table (sy_st w24_sys) 0 img /\ In (24, 89)%N img /\ Forall (fun p => ~ same_word (snd p) 80) img.
Proof.
  assert (Hl : Forall (Forall legal_op) w24_todos) by (apply legal_todos_ok; vm_compute; reflexivity).
  split; [exact Hl|]. split; [apply idleb_ok; vm_compute; reflexivity|]. split.
  { eexists. split; [vm_compute; reflexivity|]. vm_compute. tauto. }
  exists (oldest_image (sy_st w24_sys) 0). split.
  - apply (oldest_at idcfg 8 4 ex_fuel 1024 _ ex_cap8 Hl (segs [(0, 22); (1, 11); (2, 80); (1, 10); (3, 30)])). apply Nat.ltb_lt. vm_compute. reflexivity.
  - split; [vm_compute; tauto|]. apply Forall_forall. intros p Hp.
    assert (H : forallb (fun p => negb (clearMark (snd p) DirtyFlag =? 80)%N) (oldest_image (sy_st w24_sys) 0) = true) by (vm_compute; reflexivity).
    rewrite forallb_forall in H. apply elem_of_list_In in Hp. specialize (H p Hp). apply negb_true_iff, N.eqb_neq in H.
    intros HS. apply H. unfold same_word in HS. rewrite HS. reflexivity.
Qed.

(** ** A call that never returns although nothing else is going on *)

Definition w41_todos : list (list op) :=
  [[OPut 12 80; OPut 20 80; OPut 28 80; OPut 36 80]; [OPut 36 88]; [OPut 44 80; OPut 52 80; OPut 60 80]].
Definition w41_sys : sys := cw_after w41_todos [(0, 123); (1, 200); (0, 100); (2, 2000)].

Lemma hang_bind {A B} (p0 p : prog A) (f : A -> prog B) s a : le p0 p -> ret_of (run p0 s) = Some a ->
  (exists s', run (f a) (st_of (run p0 s)) = Fail OutOfFuel s') -> exists s', run (bind p f) s = Fail OutOfFuel s'.
Proof.
  intros Hle H0 (s' & H). exists s'. rewrite run_bind. pose proof (le_run _ _ Hle s) as HL.
  destruct (run p0 s) as [a0 s0|e s0]; [|discriminate]. cbn in H0. injection H0 as ->. rewrite HL. exact H.
Qed.

Lemma hang_bind' {A B} (p : prog A) (f : A -> prog B) s :
  (exists s', run p s = Fail OutOfFuel s') -> exists s', run (bind p f) s = Fail OutOfFuel s'.
Proof. intros (s' & H). exists s'. rewrite run_bind, H. reflexivity. Qed.

Lemma hang_help C put t nt w n pk c s : stuckb s = true -> st_top s = t -> 
  match st_tabs s !! t with Some T => t_len T | None => 0 end = 8 ->
  exists s', run (helpLoop C n put t nt 8 w pk c) s = Fail OutOfFuel s'.
Proof.
  intros Hs Ht Hl. destruct (stuckb_ok _ Hs) as (T & nt0 & N0 & HT & H).
  assert (HA : exists nt', astuck t nt' 8 (abs s)).
  { destruct (stuck_abs s (stuckb_ok _ Hs)) as (nt' & len & HA). exists nt'. rewrite <- Ht in *. rewrite HT in Hl.
    pose proof HA as (T1 & N1 & A1 & A2 & A3 & _). rewrite abs_tab, HT in A2. injection A2 as <-. cbn in A3. congruence. }
  destruct HA as (nt' & HA). pose proof (wp_help_stuck C put t nt' 8 nt w (fun _ _ => False) n pk c _ HA s eq_refl) as Hw.
  destruct (run _ s) as [r s'|e s']; [contradiction|]. exists s'. rewrite Hw. reflexivity.
Qed.

Ltac same a := eapply (hang_bind _ _ _ _ a (le_refl _)); [vm_compute; reflexivity|]; cbn iota beta.

Lemma w41_big m : exists s', run (op_prog idcfg (300 + m) (OPut 68 80)) (sy_st w41_sys) = Fail OutOfFuel s'.
Proof.
  cbn [op_prog]. apply hang_bind'. unfold put, putIfMatchPub. same tt. same tt. same 0. apply hang_bind'.
  change (300 + m) with (S (299 + m)). cbn [putIfMatch]. unfold putBody. same tt. same tt. same tt. same 8.
  eapply (hang_bind (claimSlot idcfg 299 0 68 80 8 (mask (hash idcfg 68) 8) 0) _ _ _ CFull);
    [apply le_claimSlot; lia|vm_compute; reflexivity|]. cbn iota beta.
  same 1. cbn [negb N.eqb]. 
  replace (negb (NO_MATCH_OLD =? VINITIAL)%N) with true by (vm_compute; reflexivity). apply hang_bind', hang_bind'.
  unfold helpCopy. same 0. same (Some 1). apply hang_bind'. unfold helpCopyImpl. same (Some 1). same 8. cbn zeta. apply hang_bind'.
  change (299 + m) with (S (298 + m)). cbn [helpLoop]. same 0%N.
  replace (0 <? N.of_nat 8)%N with true by reflexivity. cbn iota.
  eapply (hang_bind (i0 <-- do (LoadF 0 FCopyIdx);; claimChunk 298 0 8 (N.of_nat 8) i0)%prog _ _ _ 0%N);
    [apply le_bind; [apply le_refl|intros ?; apply le_claimChunk; lia]|vm_compute; reflexivity|]. cbn zeta.
  change (if 8 <? 1024 then 8 else 1024) with 8.
  eapply (hang_bind (copyChunk idcfg 298 (putIfMatch idcfg 299 (CASvalue idcfg)) 0 1 8 0 0 8 0) _ _ _ 7%N);
    [apply le_copyChunk; [lia|intros ? ? ? ?; apply le_putIfMatch; lia]|vm_compute; reflexivity|].
  replace (0 <? 7)%N with true by reflexivity. cbn iota. same tt.
  apply hang_help; vm_compute; reflexivity.
Qed.

Lemma w41 : Forall (Forall legal_op) w41_todos /\ idle w41_sys /\ legal_op (OPut 68 80) /\
  forall n, exists s', run (op_prog idcfg n (OPut 68 80)) (sy_st w41_sys) = Fail OutOfFuel s'.
Proof.
  split; [apply legal_todos_ok; vm_compute; reflexivity|]. split; [apply idleb_ok; vm_compute; reflexivity|].
  split; [apply legal_opb_ok; vm_compute; reflexivity|]. intros n. destruct (w41_big n) as (s' & H).
  pose proof (le_run _ _ (le_op_prog idcfg n (300 + n) (OPut 68 80) ltac:(lia)) (sy_st w41_sys)) as HL.
  destruct (run (op_prog idcfg n (OPut 68 80)) (sy_st w41_sys)) as [r s1|[] s1]; try (rewrite H in HL; discriminate). exists s1. reflexivity.
Qed.

(** ** The statements of PropertiesConc.v *)

Lemma c12_refuted : exists todos sched y, Forall (Forall legal_op) todos /\
  Forall (Forall (fun o => exists v, o = OPut 24 v)) todos /\
  y = after idcfg ex_fuel (init_state 8 4 1024) todos sched /\
  In (ERes 0 (OPut 24 80) (RVal NOTFOUND)) (sy_hist y) /\ In (ERes 1 (OPut 24 88) (RVal NOTFOUND)) (sy_hist y) /\
  exists p q, entry (sy_st y) 0 0 = Some p /\ entry (sy_st y) 0 1 = Some q /\ same_word (fst p) 24 /\ same_word (fst q) 24.
Proof.
  destruct w12 as (H1 & H2 & H3). cbn zeta in *. exists w12_todos, (segs w12_sched), (cw_after w12_todos w12_sched).
  split; [exact H1|]. split; [repeat constructor; eauto|]. split; [reflexivity|]. rewrite H2. cbn [In].
  split; [tauto|]. split; [tauto|exact H3].
Qed.

Lemma c13_bits : forall C cap ppl n maxcap todos sched h1 h2 i o k v,
  good_cap cap maxcap -> Forall (Forall legal_op) todos ->
  sy_hist (after C n (init_state cap ppl maxcap) todos sched) = h1 ++ ERes i o (RVal v) :: h2 ->
  (o = OGet k -> isMarked v DirtyFlag = false /\ isMarked v MigrationFlag = false) /\
  (o = OIncrement k \/ (exists x, o = OPut k x \/ o = OPutIfAbsent k x) -> isMarked v MigrationFlag = false).
Proof.
  intros C cap ppl n maxcap todos sched h1 h2 i o k v Hc Hl E. split.
  - intros ->. exact (get_bits C cap ppl n maxcap todos Hc Hl sched h1 h2 i k v E).
  - intros Ho. exact (proj1 (write_supplied C cap ppl n maxcap todos Hc Hl sched h1 h2 i o k v E Ho)).
Qed.

Lemma c13_refuted :
  (exists todos sched v, Forall (Forall legal_op) todos /\ isMarked v DirtyFlag = true /\
     In (ERes 0 (OPut 24 80) (RVal v)) (sy_hist (after idcfg ex_fuel (init_state 8 4 1024) todos sched))) /\
  (exists todos sched v, Forall (Forall legal_op) todos /\ isMarked v DirtyFlag = true /\
     In (ERes 0 (OPutIfAbsent 24 80) (RVal v)) (sy_hist (after idcfg ex_fuel (init_state 8 4 1024) todos sched))).
Proof.
  split.
  - exists [[OPut 24 80]; [OPut 24 88; OPut 24 96; OPut 24 88]], (segs [(0, 19); (1, 16); (0, 8); (1, 40); (0, 20)]), 89%N.
    split; [exact (proj1 w13b)|]. split; [reflexivity|]. exact (proj2 w13b).
  - exists [[OPutIfAbsent 24 80]; [OPut 24 88]], (segs [(0, 19); (1, 18); (0, 40)]), 89%N.
    split; [exact (proj1 w13a)|]. split; [reflexivity|]. exact (proj2 w13a).
Qed.

Lemma c14_refuted : exists todos sched v, Forall (Forall legal_op) todos /\ v <> NOTFOUND /\
  In (ERes 0 (OPutIfAbsent 24 80) (RVal v)) (sy_hist (after idcfg ex_fuel (init_state 8 4 1024) todos sched)) /\
  forall s1 s2, sched = s1 ++ s2 -> ~ mapped (sy_st (after idcfg ex_fuel (init_state 8 4 1024) todos s1)) 24.
Proof. destruct w14 as (v & H). exists w14_todos, (segs w14_sched), v. exact H. Qed.

Lemma c15_key : forall C cap ppl n maxcap todos s1 s2 t i p,
  good_cap cap maxcap -> Forall (Forall legal_op) todos ->
  entry (sy_st (after C n (init_state cap ppl maxcap) todos s1)) t i = Some p -> ~ same_word (fst p) KINITIAL ->
  exists p', entry (sy_st (after C n (init_state cap ppl maxcap) todos (s1 ++ s2))) t i = Some p' /\ same_word (fst p') (fst p).
Proof.
  intros C cap ppl n maxcap todos s1 s2 t i p Hc Hl Hp Hk.
  destruct (entry_later C cap ppl n maxcap todos Hc Hl s1 s2 t i p Hp) as (p' & Hp' & HR & _). exists p'. split; [exact Hp'|].
  apply HR. intros E. apply Hk. change (clean (fst p) = clean KINITIAL). rewrite E. reflexivity.
Qed.

Lemma c16_frozen : forall C cap ppl n maxcap todos s1 s2 t i p,
  good_cap cap maxcap -> Forall (Forall legal_op) todos ->
  entry (sy_st (after C n (init_state cap ppl maxcap) todos s1)) t i = Some p -> isMarked (snd p) MigrationFlag = true ->
  exists p', entry (sy_st (after C n (init_state cap ppl maxcap) todos (s1 ++ s2))) t i = Some p' /\
    (same_word (snd p') (snd p) \/ same_word (snd p') TOMBPRIME) /\
    (same_word (snd p) TOMBPRIME -> same_word (snd p') TOMBPRIME).
Proof.
  intros C cap ppl n maxcap todos s1 s2 t i p Hc Hl Hp Hm.
  destruct (entry_later C cap ppl n maxcap todos Hc Hl s1 s2 t i p Hp) as (p' & Hp' & _ & HR & _). exists p'. split; [exact Hp'|].
  change (same_word ?a ?b) with (clean a = clean b).
  destruct (HR Hm) as [H|H].
  - split; [left; exact H|]. rewrite H. auto.
  - split; [right; rewrite H; reflexivity|]. intros _. rewrite H. reflexivity.
Qed.

Lemma c17_successor : forall C cap ppl n maxcap todos s1 s2 t T x,
  good_cap cap maxcap -> Forall (Forall legal_op) todos ->
  let at_ sched := sy_st (after C n (init_state cap ppl maxcap) todos sched) in
  st_tabs (at_ s1) !! t = Some T -> t_new T = Some x ->
  (exists T', st_tabs (at_ (s1 ++ s2)) !! t = Some T' /\ t_new T' = Some x) /\
  exists X, st_tabs (at_ s1) !! x = Some X /\ t_len X = 2 * t_len T.
Proof.
  intros C cap ppl n maxcap todos s1 s2 t T x Hc Hl. exact (successor_later C cap ppl n maxcap todos Hc Hl s1 s2 t T x).
Qed.

Lemma c17_capacity : forall C cap ppl n maxcap todos sched t T,
  good_cap cap maxcap -> Forall (Forall legal_op) todos ->
  st_tabs (sy_st (after C n (init_state cap ppl maxcap) todos sched)) !! t = Some T ->
  (exists e, t_len T = 2 ^ e) /\ cap <= t_len T /\
  forall s2, exists T', st_tabs (sy_st (after C n (init_state cap ppl maxcap) todos (sched ++ s2))) !! t = Some T' /\ t_len T' = t_len T.
Proof.
  intros C cap ppl n maxcap todos sched t T Hc Hl HT.
  destruct (capacity C cap ppl n maxcap todos Hc Hl sched t T HT) as (e & He). split; [|split].
  - destruct Hc as ((e0 & -> & _) & _). exists (e0 + e). rewrite He, Nat.pow_add_r. reflexivity.
  - rewrite He. pose proof (Nat.pow_nonzero 2 e). nia.
  - intros s2. exact (length_later C cap ppl n maxcap todos Hc Hl sched s2 t T HT).
Qed.

Definition w17_todos : list (list op) := [map (fun k => OPut k 80) w19_keys; [OPut 32 88]; [OPut 96 88]].
Definition w17_sched : list (nat * nat) := [(0, 400); (1, 70); (2, 60); (1, 20)].

Lemma c19_refuted : exists todos sched i, let y := after idcfg ex_fuel (init_state 8 4 1024) todos sched in
  let y' := after idcfg ex_fuel (init_state 8 4 1024) todos (sched ++ [i]) in
  Forall (Forall legal_op) todos /\ Forall (Forall (fun o => op_key o = Some 468%N -> o = OPut 468 80)) todos /\
  In (ERes 0 (OPut 468 80) (RVal NOTFOUND)) (sy_hist y) /\
  st_top (sy_st y) <> st_top (sy_st y') /\
  (exists s', run (get idcfg ex_fuel 468) (sy_st y) = Ok 80%N s') /\
  (exists s', run (get idcfg ex_fuel 468) (sy_st y') = Ok NOTFOUND s').
Proof. exists w19_todos, (segs w19_sched), 9. cbn zeta. rewrite after_app. exact w19. Qed.

Lemma c20_refuted : exists todos sched, let y := after idcfg ex_fuel (init_state 8 4 1024) todos sched in
  Forall (Forall legal_op) todos /\ Forall (fun th => th_todo th = []) (sy_thr y) /\
  (exists th o p, sy_thr y !! 0 = Some th /\ th_cur th = None /\
     exists th', sy_thr y !! 1 = Some th' /\ th_cur th' = Some (o, p)) /\
  forall n o, legal_op o -> o <> OSize -> exists s', run (op_prog idcfg n o) (sy_st y) = Fail OutOfFuel s'.
Proof. exists w20_todos, (segs [(0, 400); (1, 413)]). exact w20. Qed.

Lemma c21_refuted : exists todos sched h r v h0, Forall (Forall legal_op) todos /\ v <> NOTFOUND /\
  sy_hist (after idcfg ex_fuel (init_state 8 4 1024) todos sched) = [ERes 2 (OGet 24) (RVal v); EInv 2 (OGet 24)] ++ h ++
    [ERes 2 (OGet 24) (RVal NOTFOUND); EInv 2 (OGet 24); ERes 2 (ORemove 24) r; EInv 2 (ORemove 24)] ++ h0 /\
  h0 = [ERes 0 (OPut 24 80) (RVal NOTFOUND); ERes 1 (OPut 24 88) (RVal NOTFOUND); EInv 1 (OPut 24 88); EInv 0 (OPut 24 80)] /\
  Forall (fun o => op_key o <> Some 24%N) (invoked h).
Proof.
  destruct w21 as (H1 & h & r & v & H2 & H3 & H4).
  exists w21_todos, (segs [(0, 15); (1, 18); (0, 40); (2, 2000)]), h, r, v, w21_old.
  split; [exact H1|]. split; [exact H2|]. split; [exact H3|]. split; [reflexivity|exact H4].
Qed.

Lemma c22_refuted : exists todos sched, let y := after idcfg ex_fuel (init_state 8 4 1024) todos sched in
  Forall (Forall legal_op) todos /\ sy_hist y = [ERes 0 (OPut 24 80) (RVal NOTFOUND); EInv 0 (OPut 24 80)] /\
  exists img, crash_table (sy_st y) 0 img /\ Forall (fun p => ~ same_word (fst p) 24) img.
Proof. exists [[OPut 24 80]], (segs [(0, 22)]). exact w22. Qed.

Lemma c24_durable : forall C cap ppl n maxcap todos sched h1 h2 i k v,
  good_cap cap maxcap -> Forall (Forall legal_op) todos ->
  let at_ sched := after C n (init_state cap ppl maxcap) todos sched in
  sy_hist (at_ sched) = h1 ++ ERes i (OGet k) (RVal v) :: h2 -> v <> NOTFOUND ->
  exists t j, forall sched2 img, crash_table (sy_st (at_ (sched ++ sched2))) t img ->
    exists p, img !! j = Some p /\ same_word (fst p) k /\
    forall T, st_tabs (sy_st (at_ (sched ++ sched2))) !! t = Some T -> never_returns T j ->
      exists a b q, hist_entry T a j = Some q /\ same_word (snd q) v /\ a <= b /\ hist_entry T b j = Some p.
Proof.
  intros C cap ppl n maxcap todos sched h1 h2 i k v Hc Hl. exact (read_durable_key C cap ppl n maxcap todos Hc Hl sched h1 h2 i k v).
Qed.

(** [never_returns] by computation. *)
Definition never_returnsb (T : table) (i : nat) : bool :=
  let ws := map (fun v => match hist_entry T v i with Some p => Some (clearMark (snd p) DirtyFlag) | None => None end) (seq 0 (length (versions T))) in
  let at_ v := default None (ws !! v) in
  let eq x y := match x, y with Some a, Some b => (a =? b)%N | _, _ => false end in
  let vs := seq 0 (length (versions T)) in
  forallb (fun a => forallb (fun b => forallb (fun c =>
    implb ((a <? b) && (b <? c) && eq (at_ a) (at_ c)) (eq (at_ b) (at_ a))) vs) vs) vs.

Lemma never_returnsb_ok T i : (forall v, v < length (versions T) -> is_Some (hist_entry T v i)) ->
  never_returnsb T i = true -> never_returns T i.
Proof.
  intros HS H a b c p q r L1 L2 Ha Hb Hc ES.
  assert (HV : forall v x, hist_entry T v i = Some x -> v < length (versions T)).
  { intros v x Hx. unfold hist_entry in Hx. destruct (versions T !! v) eqn:E; [|discriminate]. exact (lookup_lt_Some _ _ _ E). }
  assert (HIn : forall v x, hist_entry T v i = Some x -> In v (seq 0 (length (versions T)))).
  { intros v x Hx. apply in_seq. pose proof (HV _ _ Hx). lia. }
  unfold never_returnsb in H. cbn zeta in H. rewrite forallb_forall in H. specialize (H a (HIn _ _ Ha)).
  rewrite forallb_forall in H. specialize (H b (HIn _ _ Hb)). rewrite forallb_forall in H. specialize (H c (HIn _ _ Hc)).
  change (map ?f ?l) with (f <$> l) in H. rewrite !list_lookup_fmap in H.
  rewrite !lookup_seq_lt_ in H by (eapply HV; eassumption). cbn [fmap option_fmap option_map Nat.add default from_option] in H.
  rewrite Ha, Hb, Hc in H. unfold same_word in *. rewrite ES in H. rewrite ?N.eqb_refl in H.
  apply Nat.ltb_lt in L1, L2. rewrite L1, L2 in H. cbn [andb implb id] in H. rewrite ?N.eqb_refl in H. cbn [implb] in H. apply N.eqb_eq in H. congruence.
Qed.

Definition w24e_todos : list (list op) := [[OPut 24 80]; [OGet 24]].
Lemma c24_example : let y := after idcfg ex_fuel (init_state 8 4 1024) [[OPut 24 80]; [OGet 24]] (segs [(0, 22); (1, 40)]) in
  sy_hist y = ERes 1 (OGet 24) (RVal 80) :: [EInv 1 (OGet 24); ERes 0 (OPut 24 80) (RVal NOTFOUND); EInv 0 (OPut 24 80)] /\
  (exists img, crash_table (sy_st y) 0 img) /\ exists T, st_tabs (sy_st y) !! 0 = Some T /\ never_returns T 0.
Proof.
  assert (Hl : Forall (Forall legal_op) w24e_todos) by (apply legal_todos_ok; vm_compute; reflexivity).
  cbn zeta. split; [vm_compute; reflexivity|]. split.
  - eexists. apply (oldest_at idcfg 8 4 ex_fuel 1024 _ ex_cap8 Hl). apply Nat.ltb_lt. vm_compute. reflexivity.
  - change [[OPut 24 80]; [OGet 24]] with w24e_todos. set (y := after _ _ _ _ _).
    assert (HI : Inv 8 (world_of y)) by (apply (after_inv idcfg 8 4 ex_fuel 1024 w24e_todos ex_cap8 Hl)).
    assert (HB : match st_tabs (sy_st y) !! 0 with Some T => never_returnsb T 0 && (0 <? t_len T) | None => false end = true) by (vm_compute; reflexivity).
    clearbody y. destruct (st_tabs (sy_st y) !! 0) as [T|] eqn:HT; [|discriminate]. exists T. split; [reflexivity|].
    apply andb_true_iff in HB as [HB HB2]. apply Nat.ltb_lt in HB2. apply never_returnsb_ok; [|exact HB].
    intros v Hv. unfold hist_entry. destruct (lookup_lt_is_Some_2 _ _ Hv) as (ps & Hps). rewrite Hps. apply lookup_lt_is_Some_2.
    rewrite (version_len _ _ _ _ _ (tabs_ok _ _ _ _ HI HT) Hps). exact HB2.
Qed.

Lemma c24_refuted : exists todos sched h img, let y := after idcfg ex_fuel (init_state 8 4 1024) todos sched in
  Forall (Forall legal_op) todos /\ idle y /\
  sy_hist y = ERes 3 (OGet 24) (RVal 80) :: EInv 3 (OGet 24) :: h /\ In (ERes 2 (OPut 24 80) (RVal 88)) h /\
  crash_table (sy_st y) 0 img /\ In (24, 89)%N img /\ Forall (fun p => ~ same_word (snd p) 80) img.
Proof.
  destruct w24 as (H1 & H2 & (h & H3 & H4) & img & H5 & H6 & H7).
  exists w24_todos, (segs [(0, 22); (1, 11); (2, 80); (1, 10); (3, 30)]), h, img. cbn zeta.
  split; [exact H1|]. split; [exact H2|]. split; [exact H3|]. split; [exact H4|]. split; [exact H5|]. split; [exact H6|exact H7].
Qed.

Lemma c25_key : forall C cap ppl n maxcap todos sched t img i p,
  good_cap cap maxcap -> Forall (Forall legal_op) todos ->
  crash_table (sy_st (after C n (init_state cap ppl maxcap) todos sched)) t img -> img !! i = Some p ->
  ~ same_word (snd p) VINITIAL -> ~ same_word (fst p) KINITIAL.
Proof.
  intros C cap ppl n maxcap todos sched t img i p Hc Hl Hi Hp Hv.
  pose proof (crash_key C cap ppl n maxcap todos Hc Hl sched t img i p Hi Hp) as H. intros E. apply H.
  - intros E2. apply Hv. unfold same_word. rewrite E2. reflexivity.
  - unfold same_word in E. rewrite E. reflexivity.
Qed.

Lemma c26_exist : forall C cap ppl n maxcap todos sched t,
  good_cap cap maxcap -> Forall (Forall legal_op) todos ->
  let s := sy_st (after C n (init_state cap ppl maxcap) todos sched) in
  t < length (st_tabs s) -> exists img, crash_table s t img.
Proof.
  intros C cap ppl n maxcap todos sched t Hc Hl s Ht. eexists. exact (oldest_at C cap ppl n maxcap todos Hc Hl sched t Ht).
Qed.

Lemma c26_example : exists img i p,
  crash_table (sy_st w19_before) 1 img /\ img !! i = Some p /\ same_word (fst p) 144 /\ same_word (snd p) 80.
Proof.
  exists (oldest_image (sy_st w19_before) 1), 2. eexists. split.
  - apply (oldest_at idcfg 8 4 ex_fuel 1024 _ ex_cap8 (proj1 w19) (segs w19_sched)). apply Nat.ltb_lt. vm_compute. reflexivity.
  - split; [vm_compute; reflexivity|]. split; vm_compute; reflexivity.
Qed.

Lemma c41_refuted : exists todos sched, let y := after idcfg ex_fuel (init_state 8 4 1024) todos sched in
  Forall (Forall legal_op) todos /\ idle y /\ legal_op (OPut 68 80) /\
  forall n, exists s', run (op_prog idcfg n (OPut 68 80)) (sy_st y) = Fail OutOfFuel s'.
Proof. exists w41_todos, (segs [(0, 123); (1, 200); (0, 100); (2, 2000)]). exact w41. Qed.
