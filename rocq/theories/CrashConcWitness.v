(** Executions for the theorems of CrashConc.v: two threads that insert at the same time leave an image from which no map can be made. *)
From Coq Require Import NArith Bool List Lia Arith.
From stdpp Require Import base list gmap.
From Verif Require Import SeqThm Word Prog HashMap Conc Spec ConcSpec ConcInv ConcCmd ConcProg ConcThm Examples ConcWitness LinSpec LinNewWitness DurableWitness CrashSpec CrashConc.
Import ListNotations.
Open Scope nat_scope.

(** ** Checkers *)

Definition settledb (h : list event) (k : N) : bool := existsb (fun e => match e with ERes _ o _ => claimsb k o | _ => false end) h.
Fixpoint aloneb (h : list event) : bool :=
  match h with
  | [] => true
  | EInv i o :: h2 => aloneb h2 &&
      match claim_key o with
      | Some k => forallb (fun e => match e with
          | EInv j o' => match claim_key o' with Some k' => Nat.eqb j i || settledb h2 k || settledb h2 k' | None => true end
          | _ => true end) h2
      | None => true
      end
  | _ :: h2 => aloneb h2
  end.
Lemma settledb_ok h k : settledb h k = true -> settled h k.
Proof. intros H. apply existsb_exists in H as (e & He & H). destruct e as [|i o r]; [discriminate|]. apply claimsb_ok in H. exists i, o, r. auto. Qed.
Lemma aloneb_ok h : aloneb h = true -> inserts_alone h.
Proof.
  intros H h1 h2 i j o o' k k' -> Ho Hj Ho' Hne.
  assert (H2 : aloneb (EInv i o :: h2) = true).
  { induction h1 as [|e h1 IH]; [exact H|]. apply IH. cbn in H. destruct e; [|exact H]. apply andb_true_iff in H as [H _]. exact H. }
  cbn in H2. apply andb_true_iff in H2 as [_ H2]. rewrite Ho in H2. rewrite forallb_forall in H2. specialize (H2 _ Hj). cbn in H2. rewrite Ho' in H2.
  apply orb_true_iff in H2 as [H2|H2]; [|right; apply settledb_ok, H2]. apply orb_true_iff in H2 as [H2|H2]; [|left; apply settledb_ok, H2].
  apply Nat.eqb_eq in H2. contradiction.
Qed.

(** The image in which line [l] is as it was at moment [f l]. *)
Definition pick_image (s : state) (t : nat) (f : nat -> nat) : list pair_ :=
  match st_tabs s !! t with
  | Some T => map (fun i => default (0%N, 0%N) (hist_entry T (f (line_of s i)) i)) (seq 0 (t_len T))
  | None => []
  end.
Definition pick_ok (s : state) (t : nat) (f : nat -> nat) : bool :=
  match st_tabs s !! t with
  | Some T => forallb (fun l => match t_pers T !! l with Some b => (b <=? f l) && (f l <? length (versions T)) | None => true end) (seq 0 (length (t_pers T)))
  | None => false end.
Lemma pick_crash cap0 w t f : Inv cap0 w -> pick_ok (snd w) t f = true -> crash_table (snd w) t (pick_image (snd w) t f).
Proof.
  intros HI. unfold pick_ok, pick_image. destruct (st_tabs (snd w) !! t) as [T|] eqn:HT; [|discriminate]. intros H. rewrite forallb_forall in H.
  pose proof (tabs_ok _ _ _ _ HI HT) as HTok. exists T, f. split; [exact HT|]. split; [rewrite map_length, seq_length; reflexivity|]. split.
  - intros l b Hb. specialize (H l). rewrite Hb in H. rewrite andb_true_iff, Nat.leb_le, Nat.ltb_lt in H. apply H, in_seq. apply lookup_lt_Some in Hb. lia.
  - intros i ps Hi Hv. change (map ?g ?l) with (g <$> l). rewrite list_lookup_fmap, (lookup_seq_lt_ 0 (t_len T) i) by exact Hi. cbn [fmap option_fmap option_map].
    unfold hist_entry. rewrite Nat.add_0_l, Hv. rewrite <- (version_len _ _ _ _ _ HTok Hv) in Hi. destruct (lookup_lt_is_Some_2 _ _ Hi) as (p & Hp). rewrite Hp. reflexivity.
Qed.

Lemma never_check C cap ppl n maxcap todos sched t i T : good_cap cap maxcap -> Forall (Forall legal_op) todos ->
  st_tabs (sy_st (after C n (init_state cap ppl maxcap) todos sched)) !! t = Some T -> never_returnsb T i && (i <? t_len T) = true -> never_returns T i.
Proof.
  intros Hc Hl HT HB. apply andb_true_iff in HB as [HB HB2]. apply Nat.ltb_lt in HB2. apply never_returnsb_ok; [|exact HB].
  intros v Hv. unfold hist_entry. destruct (lookup_lt_is_Some_2 _ _ Hv) as (ps & Hps). rewrite Hps. apply lookup_lt_is_Some_2.
  rewrite (version_len _ _ _ _ _ (tabs_ok _ _ _ _ (after_inv C cap ppl n maxcap todos Hc Hl sched) HT) Hps). exact HB2.
Qed.

(** ** C53 *)

Definition w53_todos : list (list op) := [[OPut 24 80; OPut 24 88]; [OGet 24]]%N.
Definition w53_sched : list (nat * nat) := [(0, 22); (1, 40); (0, 40)].
Lemma c53_example : let y := after idcfg ex_fuel (init_state 8 4 1024) w53_todos (segs w53_sched) in
  Forall (Forall legal_op) w53_todos /\ exists img T, crash_table (sy_st y) 0 img /\ img !! 0 = Some (24, 81)%N /\
  st_tabs (sy_st y) !! 0 = Some T /\ entry (sy_st y) 0 0 = Some (24, 89)%N /\ never_returns T 0.
Proof.
  assert (Hl : Forall (Forall legal_op) w53_todos) by (apply legal_todos_ok; vm_compute; reflexivity).
  cbn zeta. split; [exact Hl|]. set (y := after _ _ _ _ _).
  assert (HI : Inv 8 (world_of y)) by (apply (after_inv idcfg 8 4 ex_fuel 1024 w53_todos ex_cap8 Hl)).
  assert (HT : exists T, st_tabs (sy_st y) !! 0 = Some T).
  { destruct (st_tabs (sy_st y) !! 0) eqn:E; [eauto|]. vm_compute in E. discriminate. }
  destruct HT as (T & HT). exists (oldest_image (sy_st y) 0), T. split; [exact (oldest_image_ok 8 (world_of y) 0 T HI HT)|].
  split; [vm_compute; reflexivity|]. split; [exact HT|]. split; [vm_compute; reflexivity|].
  apply (never_check idcfg 8 4 ex_fuel 1024 w53_todos (segs w53_sched) 0 0 T ex_cap8 Hl HT).
  assert (HB : match st_tabs (sy_st y) !! 0 with Some T => never_returnsb T 0 && (0 <? t_len T) | None => false end = true) by (vm_compute; reflexivity).
  rewrite HT in HB. exact HB.
Qed.

Definition w53r_todos : list (list op) := [[OPut 24 80]; [OGet 24]; [OPut 24 88; OPut 24 80]; [OPut 24 96]]%N.
Definition w53r_sched : list (nat * nat) := [(0, 22); (1, 11); (2, 80); (1, 10); (3, 60)].
Definition w53r_y : sys := cw_after w53r_todos w53r_sched.

Definition other_later (T : table) (i : nat) (a b : N) (v : nat) : bool :=
  existsb (fun v' => (v <=? v') && match hist_entry T v' i with
     | Some q => negb (clearMark (snd q) DirtyFlag =? clearMark a DirtyFlag)%N && negb (clearMark (snd q) DirtyFlag =? clearMark b DirtyFlag)%N | None => false end)
    (seq 0 (length (versions T))).
Lemma other_later_ok T i a b v : other_later T i a b v = true -> exists v' q, v <= v' /\ hist_entry T v' i = Some q /\ ~ same_word (snd q) a /\ ~ same_word (snd q) b.
Proof.
  intros H. apply existsb_exists in H as (v' & _ & H). apply andb_true_iff in H as (H1 & H). apply Nat.leb_le in H1.
  destruct (hist_entry T v' i) as [q|] eqn:E; [|discriminate]. apply andb_true_iff in H as (H2 & H3). apply negb_true_iff, N.eqb_neq in H2, H3. exists v', q. split; [exact H1|]. split; [exact E|]. split; [exact H2|exact H3].
Qed.

Lemma c53_refuted : exists todos sched img T p cur, let y := after idcfg ex_fuel (init_state 8 4 1024) todos sched in
  Forall (Forall legal_op) todos /\ idle y /\ crash_table (sy_st y) 0 img /\ img !! 0 = Some p /\ st_tabs (sy_st y) !! 0 = Some T /\ entry (sy_st y) 0 0 = Some cur /\
  forall v, hist_entry T v 0 = Some p -> exists v' q, v <= v' /\ hist_entry T v' 0 = Some q /\ ~ same_word (snd q) (snd p) /\ ~ same_word (snd q) (snd cur).
Proof.
  assert (Hl : Forall (Forall legal_op) w53r_todos) by (apply legal_todos_ok; vm_compute; reflexivity).
  assert (HI : Inv 8 (world_of w53r_y)) by (apply (after_inv idcfg 8 4 ex_fuel 1024 w53r_todos ex_cap8 Hl)).
  assert (HT : exists T, st_tabs (sy_st w53r_y) !! 0 = Some T).
  { destruct (st_tabs (sy_st w53r_y) !! 0) eqn:E; [eauto|]. vm_compute in E. discriminate. }
  destruct HT as (T & HT). exists w53r_todos, (segs w53r_sched), (oldest_image (sy_st w53r_y) 0), T, (24, 89)%N, (24, 97)%N. cbn zeta.
  change (after idcfg ex_fuel (init_state 8 4 1024) w53r_todos (segs w53r_sched)) with w53r_y.
  split; [exact Hl|]. split; [apply idleb_ok; vm_compute; reflexivity|]. split; [exact (oldest_image_ok 8 (world_of w53r_y) 0 T HI HT)|].
  split; [vm_compute; reflexivity|]. split; [exact HT|]. split; [vm_compute; reflexivity|].
  assert (HB : match st_tabs (sy_st w53r_y) !! 0 with
    | Some T => forallb (fun v => match hist_entry T v 0 with Some (k, w) => negb ((k =? 24)%N && (w =? 89)%N) || other_later T 0 89 97 v | None => false end) (seq 0 (length (versions T)))
    | None => false end = true) by (vm_compute; reflexivity).
  rewrite HT in HB. intros v Hv. rewrite forallb_forall in HB. specialize (HB v). rewrite Hv in HB. apply (other_later_ok T 0 89 97 v). apply HB, in_seq.
  unfold hist_entry in Hv. destruct (versions T !! v) eqn:E; [|discriminate]. apply lookup_lt_Some in E. lia.
Qed.

(** ** C54 *)

Definition w54_todos : list (list op) := [[OPut 24 80; OPut 24 88; OPut 24 96]; [OGet 24; ORemove 40]; [OGet 24; OPut 32 96; OGet 40]]%N.
Definition w54_sched : list (nat * nat) := [(0, 22); (1, 30); (0, 22); (2, 13); (1, 30); (2, 60); (0, 40)].
Lemma c54_example : let y := after idcfg ex_fuel (init_state 8 4 1024) w54_todos (segs w54_sched) in
  Forall (Forall legal_op) w54_todos /\ inserts_alone (sy_hist y) /\ length (st_tabs (sy_st y)) = 1 /\ never_back (sy_st y) 24 /\
  In (ERes 2 (OGet 24) (RVal 88)) (sy_hist y) /\ entry (sy_st y) 0 0 = Some (24, 97)%N /\
  exists img, crash_table (sy_st y) 0 img /\ img !! 0 = Some (24, 88)%N /\ img !! 1 = Some (32, 96)%N.
Proof.
  assert (Hl : Forall (Forall legal_op) w54_todos) by (apply legal_todos_ok; vm_compute; reflexivity).
  cbn zeta. set (y := after _ _ _ _ _).
  assert (HI : Inv 8 (world_of y)) by (apply (after_inv idcfg 8 4 ex_fuel 1024 w54_todos ex_cap8 Hl)).
  split; [exact Hl|]. split; [apply aloneb_ok; vm_compute; reflexivity|]. split; [vm_compute; reflexivity|]. split.
  - intros T i p HT Hp Hk. apply (never_check idcfg 8 4 ex_fuel 1024 w54_todos (segs w54_sched) 0 i T ex_cap8 Hl HT).
    assert (HB : match st_tabs (sy_st y) !! 0 with
      | Some T => forallb (fun i => match t_pairs T !! i with Some p => negb (clearMark (fst p) DirtyFlag =? 24)%N || (never_returnsb T i && (i <? t_len T)) | None => false end) (seq 0 (length (t_pairs T)))
      | None => false end = true) by (vm_compute; reflexivity).
    rewrite HT in HB. rewrite forallb_forall in HB. specialize (HB i). rewrite Hp in HB.
    assert (Hin : In i (seq 0 (length (t_pairs T)))) by (apply in_seq; apply lookup_lt_Some in Hp; lia). specialize (HB Hin).
    unfold same_word in Hk. rewrite Hk in HB. exact HB.
  - split; [vm_compute; tauto|]. split; [vm_compute; reflexivity|]. exists (oldest_image (sy_st y) 0). split; [|split; vm_compute; reflexivity].
    destruct (st_tabs (sy_st y) !! 0) as [T|] eqn:E; [|vm_compute in E; discriminate]. exact (oldest_image_ok 8 (world_of y) 0 T HI E).
Qed.

(** Two threads insert two keys that start at the same entry. *)
Definition quarter : cfg := mkCfg (fun k => (k / 4)%N) false.
Definition w54r_todos : list (list op) := [[OPut 12 80]; [OPut 44 88]]%N.
Definition w54r_sched : list (nat * nat) := [(1, 15); (0, 16); (1, 40); (0, 40)].
Definition w54r_y : sys := after quarter ex_fuel (init_state 8 4 1024) w54r_todos (segs w54r_sched).
Definition w54r_pick (l : nat) : nat := match l with 0 => 1 | _ => 8 end.
Definition w54r_img : list pair_ := pick_image (sy_st w54r_y) 0 w54r_pick.
Definition w54r_s1 : state := default (sy_st w54r_y) (init_state_files 8 4 1024 [(0%N, w54r_img)]).
Definition w54r_os : list op := [OGet 44; OPut 76 80; OGet 44]%N.
Definition w54r_rs : list rsp := [RVal NOTFOUND; RVal NOTFOUND; RVal 88]%N.

Lemma c54_refuted : exists C todos sched img s1 s2, let y := after C ex_fuel (init_state 8 4 1024) todos sched in
  Forall (Forall legal_op) todos /\ idle y /\ Forall (fun os => length os = 1) todos /\ length (st_tabs (sy_st y)) = 1 /\
  crash_table (sy_st y) 0 img /\ init_state_files 8 4 1024 [(0%N, img)] = Some s1 /\
  reach C s1 [OGet 44; OPut 76 80; OGet 44]%N [RVal NOTFOUND; RVal NOTFOUND; RVal 88]%N s2 /\
  forall m m', ~ dsteps m [OGet 44; OPut 76 80; OGet 44]%N [RVal NOTFOUND; RVal NOTFOUND; RVal 88]%N m'.
Proof.
  assert (Hl : Forall (Forall legal_op) w54r_todos) by (apply legal_todos_ok; vm_compute; reflexivity).
  assert (HI : Inv 8 (world_of w54r_y)) by (apply (after_inv quarter 8 4 ex_fuel 1024 w54r_todos ex_cap8 Hl)).
  exists quarter, w54r_todos, (segs w54r_sched), w54r_img, w54r_s1, (st_of (run (ops_prog quarter ex_fuel w54r_os) w54r_s1)). cbn zeta.
  change (after quarter ex_fuel (init_state 8 4 1024) w54r_todos (segs w54r_sched)) with w54r_y.
  split; [exact Hl|]. split; [apply idleb_ok; vm_compute; reflexivity|]. split; [repeat constructor|]. split; [vm_compute; reflexivity|].
  split; [apply (pick_crash 8 (world_of w54r_y) 0 w54r_pick HI); vm_compute; reflexivity|]. split.
  { unfold w54r_s1. destruct (init_state_files 8 4 1024 [(0%N, w54r_img)]) eqn:E; [reflexivity|vm_compute in E; discriminate]. }
  split.
  - apply (ops_reach _ ex_fuel). apply ok_of. vm_compute. reflexivity.
  - intros m m' H. inversion H as [|? ? ? m1 ? ? ? S1 H1]; subst. inversion H1 as [|? ? ? m2 ? ? ? S2 H2]; subst. inversion H2 as [|? ? ? m3 ? ? ? S3 H3]; subst.
    destruct S1 as (S1 & ->), S2 as (_ & ->), S3 as (S3 & _). unfold lookup_result in S1, S3. rewrite lookup_insert_ne in S3 by discriminate.
    assert (E : NOTFOUND = 88%N) by congruence. vm_compute in E. discriminate.
Qed.

(** The same, followed by a [get] of the second key. *)
Definition w54g_todos : list (list op) := [[OPut 12 80]; [OPut 44 88; OGet 44]]%N.
Definition w54g_sched : list (nat * nat) := w54r_sched ++ [(1, 60)].
Definition w54g_y : sys := after quarter ex_fuel (init_state 8 4 1024) w54g_todos (segs w54g_sched).
Lemma c54_read_example : let y := after quarter ex_fuel (init_state 8 4 1024) w54g_todos (segs w54g_sched) in
  Forall (Forall legal_op) w54g_todos /\ ~ inserts_alone (sy_hist y) /\ length (st_tabs (sy_st y)) = 1 /\ never_back (sy_st y) 44 /\
  (exists h, sy_hist y = ERes 1 (OGet 44) (RVal 88)%N :: h) /\
  exists img, crash_table (sy_st y) 0 img /\ img !! 3 = Some (12, 81)%N /\ img !! 4 = Some (44, 89)%N.
Proof.
  assert (Hl : Forall (Forall legal_op) w54g_todos) by (apply legal_todos_ok; vm_compute; reflexivity).
  cbn zeta. change (after quarter ex_fuel (init_state 8 4 1024) w54g_todos (segs w54g_sched)) with w54g_y.
  assert (HI : Inv 8 (world_of w54g_y)) by (apply (after_inv quarter 8 4 ex_fuel 1024 w54g_todos ex_cap8 Hl)).
  assert (HH : sy_hist w54g_y = [ERes 1 (OGet 44) (RVal 88); EInv 1 (OGet 44); ERes 1 (OPut 44 88) (RVal NOTFOUND); ERes 0 (OPut 12 80) (RVal NOTFOUND);
    EInv 0 (OPut 12 80); EInv 1 (OPut 44 88)]%N) by (vm_compute; reflexivity).
  split; [exact Hl|]. split.
  { intros H. rewrite HH in H. clear HH HI Hl.
    specialize (H [ERes 1 (OGet 44) (RVal 88); EInv 1 (OGet 44); ERes 1 (OPut 44 88) (RVal NOTFOUND); ERes 0 (OPut 12 80) (RVal NOTFOUND)]%N
      [EInv 1 (OPut 44 88)%N] 0 1 (OPut 12 80)%N (OPut 44 88)%N 12%N 44%N eq_refl eq_refl (or_introl eq_refl) eq_refl (Nat.neq_succ_0 0)).
    destruct H as [(i & o & r & [A|[]] & _)|(i & o & r & [A|[]] & _)]; discriminate A. }
  split; [vm_compute; reflexivity|]. split.
  - intros T i p HT Hp Hk. apply (never_check quarter 8 4 ex_fuel 1024 w54g_todos (segs w54g_sched) 0 i T ex_cap8 Hl HT).
    assert (HB : match st_tabs (sy_st w54g_y) !! 0 with
      | Some T => forallb (fun i => match t_pairs T !! i with Some p => negb (clearMark (fst p) DirtyFlag =? 44)%N || (never_returnsb T i && (i <? t_len T)) | None => false end) (seq 0 (length (t_pairs T)))
      | None => false end = true) by (vm_compute; reflexivity).
    rewrite HT in HB. rewrite forallb_forall in HB. specialize (HB i). rewrite Hp in HB.
    assert (Hin : In i (seq 0 (length (t_pairs T)))) by (apply in_seq; apply lookup_lt_Some in Hp; lia). specialize (HB Hin).
    unfold same_word in Hk. rewrite Hk in HB. exact HB.
  - split; [eexists; exact HH|]. exists (oldest_image (sy_st w54g_y) 0). split; [|split; vm_compute; reflexivity].
    destruct (st_tabs (sy_st w54g_y) !! 0) as [T|] eqn:E; [|vm_compute in E; discriminate]. exact (oldest_image_ok 8 (world_of w54g_y) 0 T HI E).
Qed.
