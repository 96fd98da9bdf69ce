(** The lemmas behind PropertiesRecovery.v, in the form stated there. *)
From Coq Require Import NArith Bool List Lia String Sorting.Sorted.
From stdpp Require Import base list strings gmap.
From Verif Require Import Word Bits Prog HashMap Spec Abs SeqInv SeqPut SeqApi SeqThm Examples.
From Verif Require Import Recovery RecoverySpec RecoveryThm ReopenThm RepairThm.
Import ListNotations.
Open Scope nat_scope.

Lemma find_index (l : list table) : forall i, (forall j T, l !! j = Some T -> t_id T = N.of_nat (i + j)) -> forall j,
  List.find (fun T => (t_id T =? N.of_nat (i + j))%N) l = l !! j.
Proof.
  induction l as [|T l IH]; intros i H j; [destruct j; reflexivity|]. cbn [List.find].
  pose proof (H 0 T eq_refl) as H0. rewrite Nat.add_0_r in H0. rewrite H0.
  destruct j as [|j].
  - rewrite Nat.add_0_r, N.eqb_refl. reflexivity.
  - destruct (N.eqb_spec (N.of_nat i) (N.of_nat (i + S j))) as [E|_]; [lia|].
    replace (i + S j) with (S i + j) by lia. apply IH. intros j' T' Hj. rewrite (H (S j') T' Hj). f_equal. lia.
Qed.

Lemma left_by_file C sz s m files : okstate C sz (abs s) m -> left_by s files -> forall j,
  find_file (N.of_nat j) files = option_map t_pairs (st_tabs s !! j).
Proof.
  intros ([HS _ _] & _) Hl j. rewrite Hl. f_equal. apply (find_index (st_tabs s) 0). intros i T HT. cbn [Nat.add].
  apply (s_id _ _ _ _ _ HS i (absT T)). cbn. rewrite list_lookup_fmap, HT. reflexivity.
Qed.

Lemma left_by_none C sz s m files : okstate C sz (abs s) m -> left_by s files -> forall n,
  (N.of_nat (length (st_tabs s)) <= n)%N -> find_file n files = None.
Proof.
  intros Hok Hl n Hn. replace n with (N.of_nat (N.to_nat n)) by lia.
  rewrite (left_by_file C sz s m files Hok Hl), lookup_ge_None_2 by lia. reflexivity.
Qed.

Lemma c27_reopen : forall C cap ppl maxcap os rs s files cap' ppl',
  good_cap cap maxcap -> (maxcap <= 2 ^ 32)%N ->
  reach C (init_state cap ppl maxcap) os rs s -> Forall legal_op os ->
  length (st_tabs s) = 1 -> left_by s files ->
  exists s1 m, init_state_files cap' ppl' maxcap files = Some s1 /\ dsteps ∅ os rs m /\
    (forall x s2, run size s1 = Ok x s2 -> x = N.of_nat (base.size m)) /\
    (forall os' rs' s', reach C s1 os' rs' s' -> Forall legal_op os' -> exists m', dsteps m os' rs' m').
Proof.
  intros C cap ppl maxcap os rs s files cap' ppl' Hc Hm Hr Hl H1 Hf.
  destruct (reach_ok C _ _ _ _ _ (init_ok C cap ppl maxcap Hc Hm) Hr Hl) as (m & sz & Hok & Hd & Hmx).
  change (st_maxcap (init_state cap ppl maxcap)) with maxcap in Hmx.
  destruct (lookup_lt_is_Some_2 (st_tabs s) 0) as (T & HT); [lia|].
  destruct (reopen_single C s m sz T cap' ppl' files Hok H1 HT) as (s1 & E1 & E2 & E3).
  { pose proof (left_by_file C sz s m files Hok Hf 0) as H. rewrite HT in H. exact H. }
  { intros n Hn. apply (left_by_none C sz s m files Hok Hf). lia. }
  rewrite Hmx in E1. exists s1, m. split; [exact E1|]. split; [exact Hd|]. split.
  - intros x s2 Hs. pose proof (op_any C 0 _ s1 m OSize E2 I) as Ho. cbn [op_prog] in Ho. rewrite run_bind, Hs in Ho.
    destruct Ho as (m' & sz' & _ & _ & _ & _ & Ho & _). specialize (Ho eq_refl _ eq_refl). injection Ho as ->.
    unfold modsize. apply N.mod_small. exact E3.
  - intros os' rs' s' Hr' Hl'. destruct (reach_ok C s1 m os' rs' s' (ex_intro (fun z => okstate C z (abs s1) m) _ E2) Hr' Hl') as (m' & _ & _ & Hd' & _). eauto.
Qed.

Lemma c27_resized : forall C cap ppl maxcap os rs s files cap' ppl' maxcap' s1,
  good_cap cap maxcap -> (maxcap <= 2 ^ 32)%N ->
  reach C (init_state cap ppl maxcap) os rs s -> Forall legal_op os ->
  0 < st_top s -> left_by s files -> init_state_files cap' ppl' maxcap' files = Some s1 ->
  forall n k r s2, run (get C n k) s1 = Ok r s2 -> r = NOTFOUND.
Proof.
  intros C cap ppl maxcap os rs s files cap' ppl' maxcap' s1 Hc Hm Hr Hl Ht Hf Hs1.
  destruct (reach_ok C _ _ _ _ _ (init_ok C cap ppl maxcap Hc Hm) Hr Hl) as (m & sz & Hok & Hd & Hmx).
  destruct (lookup_lt_is_Some_2 (st_tabs s) 0) as (T & HT).
  { destruct Hok as ([HS _ _] & _). pose proof (s_top _ _ _ _ _ HS) as H. cbn in H. rewrite map_length in H. lia. }
  apply (reopen_resized C s m sz T cap' ppl' maxcap' files s1 Hok Ht HT); [|exact Hs1].
  pose proof (left_by_file C sz s m files Hok Hf 0) as H. rewrite HT in H. exact H.
Qed.

(** The files that a map leaves. *)
Definition files_of (s : state) : list (N * list pair_) := map (fun T => (t_id T, t_pairs T)) (st_tabs s).
Lemma files_of_ok s : left_by s (files_of s).
Proof.
  intros n. unfold files_of. induction (st_tabs s) as [|T l IH]; [reflexivity|]. cbn [map find_file List.find].
  destruct (t_id T =? n)%N; [reflexivity|exact IH].
Qed.

Lemma c27_reopen_example : exists rs s s1 s2,
  let os := [OPut 40 80; OPut 48 88; OPut 40 96; ORemove 48; OPut 56 104] in
  reach idcfg (init_state 16 4 4096) os rs s /\ Forall legal_op os /\ length (st_tabs s) = 1 /\
  left_by s (files_of s) /\ init_state_files 16 4 4096 (files_of s) = Some s1 /\
  reach idcfg s1 [OGet 40; OGet 48; OGet 56; OSize]%N [RVal 96; RVal NOTFOUND; RVal 104; RVal 2]%N s2.
Proof.
  set (os := [OPut 40 80; OPut 48 88; OPut 40 96; ORemove 48; OPut 56 104]%N).
  exists (results_of ex_fuel os ex_s0), (state_after ex_fuel os ex_s0). eexists _, _. cbn zeta.
  split; [apply (ops_reach _ ex_fuel); evalrun|]. split; [apply legal_ops_ok; vm_compute; reflexivity|].
  split; [vm_compute; reflexivity|]. split; [apply files_of_ok|]. split; [vm_compute; reflexivity|].
  apply (ops_reach _ ex_fuel). apply ok_of. vm_compute. reflexivity.
Qed.

Lemma c27_resized_example : exists rs s s1 s2,
  reach idcfg (init_state 16 4 4096) ex_ops rs s /\ Forall legal_op ex_ops /\ 0 < st_top s /\
  init_state_files 16 4 4096 (files_of s) = Some s1 /\
  run (get idcfg ex_fuel (ex_key 20 0)) s = Ok 96%N s2 /\
  (forall n g s3, run (get idcfg n (ex_key 20 0)) s1 = Ok g s3 -> g = NOTFOUND).
Proof.
  exists ex_rs, ex_s. eexists _, _.
  assert (Hr : reach idcfg (init_state 16 4 4096) ex_ops ex_rs ex_s) by (apply (ops_reach _ ex_fuel), ex_run).
  assert (Ht : 0 < st_top ex_s) by (apply Nat.ltb_lt; vm_compute; reflexivity).
  split; [exact Hr|]. split; [exact ex_legal|]. split; [exact Ht|].
  split; [unfold init_state_files; vm_compute; reflexivity|]. split; [evalrun|].
  intros n g s3. apply (c27_resized idcfg 16 4 4096 ex_ops ex_rs ex_s (files_of ex_s) 16 4 4096); auto using ex_cap16, ex_legal, files_of_ok.
  discriminate.
Qed.

Lemma c28_clean : forall C cap ppl maxcap files,
  good_cap cap maxcap -> (maxcap <= 2 ^ 32)%N -> (forall n, find_file n files = None) ->
  exists s0, init_state_files cap ppl maxcap files = Some s0 /\
    (forall x s', run size s0 = Ok x s' -> x = 0%N) /\
    forall os rs s, reach C s0 os rs s -> Forall legal_op os -> exists m, dsteps ∅ os rs m /\
      forall k n g s', legal_key k -> run (get C n k) s = Ok g s' -> g = lookup_result m k.
Proof.
  intros C cap ppl maxcap files Hc Hm Hf. pose proof (init_ready_files C cap ppl maxcap files Hc Hm ltac:(auto)) as Hok.
  exists (mkState [fresh_table cap 0 0] 0 1 files ppl maxcap). split; [|split].
  - unfold init_state_files, mmap_table. rewrite Hf. destruct Hc as (_ & ->). reflexivity.
  - intros x s' H. cbn in H. injection H as <- _. reflexivity.
  - intros os rs s Hr Hl. destruct (reach_ok C _ ∅ _ _ _ (ex_intro (fun z => okstate C z _ ∅) _ Hok) Hr Hl) as (m & sz & H1 & H2 & _).
    exists m. split; [exact H2|]. intros k n g s' Hk. eapply get_any; eauto.
Qed.

(** An entry of an old file 0 shows up in the new map. *)
Lemma c28_stale : exists rs s s0 s1,
  reach idcfg (init_state 16 4 4096) [OPut 40 80]%N rs s /\ left_by s (files_of s) /\
  init_state_files 16 4 4096 (files_of s) = Some s0 /\
  run (get idcfg ex_fuel 40) s0 = Ok 80%N s1 /\ (80 <> NOTFOUND)%N.
Proof.
  exists (results_of ex_fuel [OPut 40 80]%N ex_s0), (state_after ex_fuel [OPut 40 80]%N ex_s0). eexists _, _.
  split; [apply (ops_reach _ ex_fuel); evalrun|]. split; [apply files_of_ok|]. split; [vm_compute; reflexivity|].
  split; [apply ok_of; vm_compute; reflexivity|discriminate].
Qed.

(** An old file 1: the map starts empty, but after it has grown it returns a value nobody inserted. *)
Definition old_file1 : list (N * list pair_) := [(1%N, <[8 := (8, 800)%N]> (blank 32))].

Definition grow_s0 : state := mkState [fresh_table 16 0 0] 0 1 old_file1 4 4096.

Lemma c28_grow : exists s0 rs s s1 s2,
  find_file 0 old_file1 = None /\ init_state_files 16 4 4096 old_file1 = Some s0 /\ legal_key 8 /\
  run (get idcfg ex_fuel 8) s0 = Ok NOTFOUND s1 /\
  reach idcfg s0 ex_ops rs s /\ Forall legal_op ex_ops /\ ~ In (OPut 8 800) ex_ops /\
  run (get idcfg ex_fuel 8) s = Ok 800%N s2.
Proof.
  exists grow_s0, (results_of ex_fuel ex_ops grow_s0), (state_after ex_fuel ex_ops grow_s0). eexists _, _.
  split; [reflexivity|]. split; [reflexivity|]. split; [apply legal_keyb_ok; reflexivity|].
  split; [apply ok_of; vm_compute; reflexivity|].
  split; [apply (ops_reach _ ex_fuel); evalrun|].
  split; [exact ex_legal|]. split; [|evalrun].
  cbn. intros H. repeat (destruct H as [H|H]; [discriminate|]). exact H.
Qed.

(** A directory with the given tables. *)
Definition dir_of (dir : string) (tabs : list (N * list pair_)) : fsys :=
  list_to_map (map (fun t => ((dir ++ bare_name (fst t))%string, snd t)) tabs).

Lemma dir_of_numbered dir tabs : numbered (dir_of dir tabs) dir (map fst tabs).
Proof.
  intros name _. induction tabs as [|[n c] tabs IH].
  - unfold dir_of. cbn [map list_to_map foldr]. rewrite lookup_empty. split; [intros (c & H); discriminate|intros (n & [] & _)].
  - change (dir_of dir ((n, c) :: tabs)) with (<[(dir ++ bare_name n)%string := c]> (dir_of dir tabs)). cbn [map fst].
    destruct (decide (name = bare_name n)) as [->|Hne].
    + rewrite lookup_insert. split; [intros _; exists n; cbn; auto|eauto].
    + rewrite lookup_insert_ne by (intros E; apply app_inj in E; congruence). rewrite IH. cbn [In]. split.
      * intros (n' & Hn & E). eauto.
      * intros (n' & [<-|Hn] & E); [congruence|eauto].
Qed.

Lemma c29_example : forall dir, exists fs, numbered fs dir [10; 11; 12]%N /\ StronglySorted N.lt [10; 11; 12]%N /\
  Forall (has_digits 2) [10; 11; 12]%N /\ table_names fs dir = ["10.dat"; "11.dat"; "12.dat"]%string.
Proof.
  intros dir. exists (dir_of dir [(10, []); (11, []); (12, [])]%N).
  pose proof (dir_of_numbered dir [(10, []); (11, []); (12, [])]%N) as Hn. cbn [map fst] in Hn.
  assert (Hs : StronglySorted N.lt [10; 11; 12]%N) by (repeat constructor).
  assert (Hd : Forall (has_digits 2) [10; 11; 12]%N) by
    (repeat (apply Forall_cons_2; [split; [reflexivity|right; discriminate]|]); apply Forall_nil_2).
  split; [exact Hn|]. split; [exact Hs|]. split; [exact Hd|]. rewrite (order_same_digits _ _ _ _ Hs Hn Hd). reflexivity.
Qed.

Lemma c29_order_refuted : forall fs dir, is_Some (fs !! (dir ++ bare_name 2)%string) -> is_Some (fs !! (dir ++ bare_name 10)%string) ->
  before (table_names fs dir) (bare_name 10) (bare_name 2).
Proof. exact order_wrong. Qed.

(** With everything else repaired, recovery of one table with one key: the next table file is the file just recovered. *)
Definition c30_fs : fsys := dir_of table_dir [(7%N, <[8 := (8, 800)%N]> (blank 16))].

Lemma c30_example : exists R T, numbered c30_fs table_dir [7]%N /\
  recover repaired table_dir "/" 16 4096 c30_fs = inl R /\ r_counter R = 7%N /\
  mmap_table (r_counter R) 32 0 4096 [(7%N, <[8 := (8, 800)%N]> (blank 16))] = Some T /\ t_pairs T !! 8 = Some (8, 800)%N.
Proof.
  eexists _, _. split; [apply (dir_of_numbered table_dir [(7%N, _)])|]. split; [vm_compute; reflexivity|].
  split; [reflexivity|]. split; [vm_compute; reflexivity|]. reflexivity.
Qed.

Lemma repaired_full C t content id s : st_tabs s !! t = Some (raw_table content id) -> (N.of_nat (length content) < two64)%N ->
  exists s', run (repair_loop C t 0 (length content)) s = Ok tt s' /\ rest_same t s s' /\
    has t s' (map repair_entry content) (length content)
      (countb counts_as_value (map repair_entry content)) (countb counts_as_free (map repair_entry content)).
Proof.
  intros HT Hb. apply loop_has; [exact Hb|reflexivity|]. cbn [take map app drop]. rewrite drop_0.
  apply (mkHas _ _ _ _ _ _ (raw_table content id)); auto.
Qed.

Lemma with_value_repair p : counts_as_value (snd (repair_entry p)) = with_value p.
Proof.
  unfold with_value, counts_as_value, repair_entry. cbn [snd forallb].
  change (clearMark (snd p) DirtyFlag) with (clean (snd p)).
  destruct (N.eqb_spec (clean (snd p)) VINITIAL) as [E|E].
  - rewrite E. destruct (negb (clean (fst p) =? KINITIAL)%N); reflexivity.
  - rewrite !andb_false_r. destruct (N.eqb_spec (clean (snd p)) VINITIAL); [contradiction|].
    destruct (clean (snd p) =? VTOMBSTONE)%N, (clean (snd p) =? TOMBPRIME)%N; reflexivity.
Qed.

Lemma count_with_value content :
  countb counts_as_value (map repair_entry content) = N.of_nat (length (filter (fun p => with_value p = true) content)).
Proof.
  unfold countb. f_equal. induction content as [|p l IH]; [reflexivity|]. cbn [map]. rewrite !filter_cons.
  rewrite with_value_repair. destruct (decide (with_value p = true)); cbn [length]; rewrite IH; reflexivity.
Qed.

Lemma c40_repair : forall C t content id s,
  st_tabs s !! t = Some (raw_table content id) -> (N.of_nat (length content) < 2 ^ 64)%N ->
  exists s' T, run (repair_loop C t 0 (length content)) s = Ok tt s' /\ st_tabs s' !! t = Some T /\
    t_len T = length content /\ length (t_pairs T) = length content /\
    (forall i k v k' v', content !! i = Some (k, v) -> t_pairs T !! i = Some (k', v') ->
       same_word k' k /\ (half_done (k, v) -> v' = VTOMBSTONE) /\ (~ half_done (k, v) -> same_word v' v)) /\
    t_size T = N.of_nat (length (filter (fun p => with_value p = true) content)) /\
    (forall j, j <> t -> st_tabs s' !! j = st_tabs s !! j).
Proof.
  intros C t content id s HT Hb. destruct (repaired_full C t content id s HT Hb) as (s' & R & S & [T HT' Hp Hl Hs Hsl _]).
  exists s', T. split; [exact R|]. split; [exact HT'|]. split; [exact Hl|]. split; [rewrite Hp; apply map_length|]. split; [|split].
  - intros i k v k' v' Hi Hi'. rewrite Hp, list_lookup_fmap, Hi in Hi'. cbn in Hi'. injection Hi' as <- <-.
    change (same_word (clean k) k) with (clean (clean k) = clean k). split; [apply clean_clean|].
    unfold half_done. cbn [fst snd]. change (same_word k KINITIAL) with (clean k = clean KINITIAL).
    change (same_word v VINITIAL) with (clean v = clean VINITIAL).
    rewrite (clean_id _ KINITIAL_clean), (clean_id _ VINITIAL_clean). split.
    + intros (H1 & H2). destruct (N.eqb_spec (clean k) KINITIAL); [contradiction|].
      destruct (N.eqb_spec (clean v) VINITIAL); [reflexivity|contradiction].
    + intros H. destruct (N.eqb_spec (clean k) KINITIAL), (N.eqb_spec (clean v) VINITIAL); cbn [negb andb];
        try exact (clean_clean v). exfalso. tauto.
  - rewrite Hs. apply count_with_value.
  - apply S.
Qed.

Lemma c40_model : forall C t content id s,
  st_tabs s !! t = Some (raw_table content id) -> (N.of_nat (length content) < 2 ^ 64)%N ->
  exists s' T, run (repair_loop C t 0 (length content)) s = Ok tt s' /\ st_tabs s' !! t = Some T /\
    t_pairs T = t_pairs (existing_table content id) /\ t_size T = t_size (existing_table content id) /\
    t_slots T = t_slots (existing_table content id) /\ t_len T = t_len (existing_table content id) /\
    t_new T = t_new (existing_table content id).
Proof.
  intros C t content id s HT Hb. destruct (repaired_full C t content id s HT Hb) as (s' & R & S & [T HT' Hp Hl Hs Hsl (Hn & _)]).
  exists s', T. split; [exact R|]. split; [exact HT'|]. split; [exact Hp|]. split; [exact Hs|]. split; [exact Hsl|]. split; [exact Hl|exact Hn].
Qed.

Lemma c40_example : exists s' T,
  let content := [(40, 80); (48, setMark VINITIAL DirtyFlag); (KINITIAL, VINITIAL); (setMark 56 DirtyFlag, 88)]%N in
  run (repair_loop idcfg 0 0 4) (mkState [raw_table content 0] 0 1 [] 4 4096) = Ok tt s' /\
  st_tabs s' !! 0 = Some T /\ t_pairs T = [(40, 80); (48, VTOMBSTONE); (KINITIAL, VINITIAL); (56, 88)]%N /\ t_size T = 2%N.
Proof. eexists _, _. cbn zeta. split; [apply ok_of; vm_compute; reflexivity|]. split; [vm_compute; reflexivity|]. split; reflexivity. Qed.

Lemma half_created_size cap i : i <= cap ->
  N.of_nat (length (filter (fun p => counts_as_value (snd p) = true) (map repair_entry (half_created cap i)))) = N.of_nat (cap - i).
Proof.
  intros Hi. f_equal. unfold half_created. rewrite map_app, filter_app, app_length.
  assert (H1 : length (filter (fun p => counts_as_value (snd p) = true) (map repair_entry (replicate i (setMark KINITIAL DirtyFlag, setMark VINITIAL DirtyFlag)))) = 0).
  { clear Hi. induction i as [|i IH]; [reflexivity|]. cbn [replicate map]. rewrite filter_cons, decide_False; [exact IH|].
    vm_compute. discriminate. }
  assert (H2 : forall n, length (filter (fun p => counts_as_value (snd p) = true) (map repair_entry (replicate n (0, 0)%N))) = n).
  { induction n as [|n IH]; [reflexivity|]. cbn [replicate map]. rewrite filter_cons, decide_True; [cbn [length]; f_equal; exact IH|].
    vm_compute. reflexivity. }
  rewrite H1, H2. reflexivity.
Qed.

Lemma half_length cap i : i <= cap -> length (half_created cap i) = cap.
Proof. intros H. unfold half_created. rewrite app_length, !replicate_length. lia. Qed.

Lemma c42_refuted : forall cap ppl maxcap files i, i < cap -> find_file 0 files = Some (half_created cap i) ->
  exists s0 s', init_state_files cap ppl maxcap files = Some s0 /\ run size s0 = Ok (N.of_nat (cap - i)) s'.
Proof.
  intros cap ppl maxcap files i Hi Hf. unfold init_state_files, mmap_table. rewrite Hf.
  pose proof (half_length cap i ltac:(lia)) as Hl.
  destruct (half_created cap i) as [|p l] eqn:E; [cbn in Hl; lia|]. rewrite <- E.
  eexists _, _. split; [reflexivity|]. unfold size. cbn [do bind run]. cbn [exec].
  cbn [st_top st_tabs lookup list_lookup existing_table t_size get_fld default].
  rewrite <- (half_created_size cap i) by lia. reflexivity.
Qed.

Lemma c42_example : exists s0 s', init_state_files 16 4 4096 [(0%N, half_created 16 0)] = Some s0 /\
  run (get idcfg ex_fuel 0) s0 = Ok 0%N s' /\ legal_key 0.
Proof. eexists _, _. split; [vm_compute; reflexivity|]. split; [apply ok_of; vm_compute; reflexivity|apply legal_keyb_ok; reflexivity]. Qed.

Lemma c42_complete : forall C cap ppl maxcap files, good_cap cap maxcap -> (maxcap <= 2 ^ 32)%N ->
  find_file 0 files = Some (half_created cap cap) -> (forall n, (0 < n)%N -> find_file n files = None) ->
  exists s0, init_state_files cap ppl maxcap files = Some s0 /\
    (forall x s', run size s0 = Ok x s' -> x = 0%N) /\
    forall os rs s, reach C s0 os rs s -> Forall legal_op os -> exists m, dsteps ∅ os rs m.
Proof.
  intros C cap ppl maxcap files ((e & He & H3) & Hcap) Hm Hf Hfs.
  pose proof (half_length cap cap (le_n _)) as Hl. set (content := half_created cap cap) in *.
  assert (Hlook : forall i p, map clean2 content !! i = Some p -> p = (KINITIAL, VINITIAL)).
  { intros i p. rewrite list_lookup_fmap. unfold content, half_created. rewrite Nat.sub_diag. cbn [replicate]. rewrite app_nil_r.
    destruct (replicate cap _ !! i) as [q|] eqn:Eq; [|discriminate]. apply lookup_replicate in Eq. destruct Eq as (-> & _).
    cbn. intros [= <-]. unfold clean2. cbn [fst snd]. change (setMark KINITIAL DirtyFlag) with (dirty KINITIAL).
    change (setMark VINITIAL DirtyFlag) with (dirty VINITIAL).
    rewrite !clean_dirty, (clean_id _ KINITIAL_clean), (clean_id _ VINITIAL_clean). reflexivity. }
  assert (Hok : okstate C (Some (modsize ∅)) (abs (reopened content ppl maxcap files)) ∅).
  { apply reopen_ok; rewrite ?Hl; eauto.
    intros k v. rewrite lookup_empty. split; [discriminate|]. intros (i & Hi & Hlv). apply Hlook in Hi. injection Hi as _ ->.
    destruct Hlv as (_ & Hlv & _). contradiction. }
  exists (reopened content ppl maxcap files). split; [|split].
  - unfold init_state_files, mmap_table. rewrite Hf. destruct content as [|p l] eqn:Ec; [|reflexivity].
    exfalso. cbn in Hl. rewrite He in Hl. pose proof (Nat.pow_nonzero 2 e). lia.
  - intros x s' Hs. pose proof (op_any C 0 _ _ ∅ OSize Hok I) as Ho. cbn [op_prog] in Ho. rewrite run_bind, Hs in Ho.
    destruct Ho as (m' & sz' & _ & _ & _ & _ & Ho & _). specialize (Ho eq_refl _ eq_refl). injection Ho as ->. reflexivity.
  - intros os rs s Hr Hll. destruct (reach_ok C _ ∅ _ _ _ (ex_intro (fun z => okstate C z _ ∅) _ Hok) Hr Hll) as (m & sz & H1 & H2 & _). eauto.
Qed.

Lemma c30_ids : forall C cap ppl maxcap os rs s i j T T',
  good_cap cap maxcap -> (maxcap <= 2 ^ 32)%N ->
  reach C (init_state cap ppl maxcap) os rs s -> Forall legal_op os ->
  st_tabs s !! i = Some T -> st_tabs s !! j = Some T' ->
  (t_id T <> st_fctr s)%N /\ (i <> j -> t_id T <> t_id T').
Proof.
  intros C cap ppl maxcap os rs s i j T T' Hc Hm Hr Hl Hi Hj.
  destruct (reach_ok C _ _ _ _ _ (init_ok C cap ppl maxcap Hc Hm) Hr Hl) as (m & sz & ([HS _ _] & _) & _).
  assert (Hid : forall j T, st_tabs s !! j = Some T -> t_id T = N.of_nat j).
  { intros j' T1 H1. apply (s_id _ _ _ _ _ HS j' (absT T1)). cbn. rewrite list_lookup_fmap, H1. reflexivity. }
  rewrite (Hid i T Hi), (Hid j T' Hj). pose proof (s_fctr _ _ _ _ _ HS) as Hf. cbn in Hf. rewrite map_length in Hf.
  rewrite Hf. apply lookup_lt_Some in Hi. split; [lia|]. intros H. lia.
Qed.

Lemma c30_ids_example : exists T0 T1, reach idcfg (init_state 16 4 4096) ex_ops ex_rs ex_s /\ Forall legal_op ex_ops /\
  st_tabs ex_s !! 0 = Some T0 /\ st_tabs ex_s !! 1 = Some T1.
Proof.
  destruct (lookup_lt_is_Some_2 (st_tabs ex_s) 0) as (T0 & H0); [apply Nat.ltb_lt; vm_compute; reflexivity|].
  destruct (lookup_lt_is_Some_2 (st_tabs ex_s) 1) as (T1 & H1); [apply Nat.ltb_lt; vm_compute; reflexivity|].
  exists T0, T1. split; [apply (ops_reach _ ex_fuel), ex_run|]. split; [exact ex_legal|auto].
Qed.

Lemma c27_deletes : forall f dir cwd cap maxcap fs, can_alloc cap maxcap = true ->
  exists fs', recover (charitable f) dir cwd cap maxcap fs = inr (OutOfBounds, fs') /\
    (forall name, no_slash name = true -> fs' !! (dir ++ name)%string = None) /\
    (forall path, (forall name, no_slash name = true -> path <> (dir ++ name)%string) -> fs' !! path = fs !! path).
Proof.
  intros f dir cwd cap maxcap fs Ha. exists (delete_all dir (table_names fs dir) fs).
  split; [now apply recover_charitable|]. apply deleted_all.
Qed.

(** ** The tables a repaired recovery keeps *)

Lemma done_existing content n : migrationDone (existing_table content n) = negb (existsb with_value content).
Proof.
  unfold migrationDone, existing_table. cbn [t_pairs]. induction content as [|p l IH]; [reflexivity|].
  cbn [map forallb existsb]. rewrite IH, negb_orb. f_equal.
  rewrite <- with_value_repair. unfold counts_as_value.
  assert (E : clean (snd (repair_entry p)) = snd (repair_entry p)).
  { unfold repair_entry. cbn [snd]. destruct (_ && _); [apply clean_id; reflexivity|apply clean_clean]. }
  rewrite E.
  destruct (snd (repair_entry p) =? VTOMBSTONE)%N, (snd (repair_entry p) =? VINITIAL)%N, (snd (repair_entry p) =? TOMBPRIME)%N; reflexivity.
Qed.

Lemma dir_inj (dir : string) a b : (dir ++ a)%string = (dir ++ b)%string -> a = b.
Proof. apply (inj (String.append dir)). Qed.

Lemma visit_repaired dir cwd cap maxcap ns : NoDup ns -> Forall (fun n => (n < 2 ^ 31)%N) ns ->
  forall kept fs kept' fs', Forall (fun n => is_Some (fs !! (dir ++ bare_name n)%string)) ns ->
  visit repaired dir cwd cap maxcap (map bare_name ns) kept fs = inl (kept', fs') ->
  exists new, kept' = kept ++ new /\
    Forall2 (fun n T => exists content, fs !! (dir ++ bare_name n)%string = Some content /\ T = existing_table content n)
      (List.filter (file_used fs dir) ns) new /\
    (forall n, In n ns -> file_used fs dir n = false -> fs' !! (dir ++ bare_name n)%string = None) /\
    (forall n content, In n ns -> file_used fs dir n = true -> fs !! (dir ++ bare_name n)%string = Some content ->
       fs' !! (dir ++ bare_name n)%string = Some (map repair_entry content)) /\
    (forall path, (forall n, In n ns -> path <> (dir ++ bare_name n)%string) -> fs' !! path = fs !! path).
Proof.
  induction ns as [|n ns IH]; intros Hnd Hb kept fs kept' fs' Hf HV.
  - cbn in HV. injection HV as <- <-. exists []. rewrite app_nil_r. split; [reflexivity|]. split; [constructor|].
    split; [intros ? []|]. split; [intros ? ? []|reflexivity].
  - inversion Hnd as [|? ? Hni Hnd']; subst. inversion Hb as [|? ? Hn Hb']; subst. inversion Hf as [|? ? (c & Hc) Hf']; subst.
    cbn [map visit p_path p_flag p_freed repaired] in HV. unfold mmap_named in HV. rewrite parse_repaired in HV by exact Hn.
    change ((fix app (s1 s2 : string) {struct s1} : string := match s1 with "" => s2 | String c0 s1' => String c0 (app s1' s2) end) dir (bare_name n)) with (dir ++ bare_name n)%string in HV.
    rewrite Hc in HV. destruct c as [|p0 c]; [discriminate|].
    rewrite andb_false_r in HV. rewrite done_existing in HV.
    assert (Hne : forall m, In m ns -> (dir ++ bare_name m)%string <> (dir ++ bare_name n)%string).
    { intros m Hm E. apply dir_inj, bare_name_inj in E. subst m. apply Hni. now apply elem_of_list_In. }
    assert (Hu : file_used fs dir n = existsb with_value (p0 :: c)) by (unfold file_used; rewrite Hc; reflexivity).
    set (fs1 := if negb (existsb with_value (p0 :: c)) then
        delete (dir ++ bare_name n)%string (<[(dir ++ bare_name n)%string := map repair_entry (p0 :: c)]> fs)
      else <[(dir ++ bare_name n)%string := map repair_entry (p0 :: c)]> fs) in *.
    assert (Hsame : forall m, In m ns -> fs1 !! (dir ++ bare_name m)%string = fs !! (dir ++ bare_name m)%string).
    { intros m Hm. specialize (Hne m Hm). unfold fs1. destruct (negb _).
      - rewrite lookup_delete_ne by congruence. apply lookup_insert_ne. congruence.
      - apply lookup_insert_ne. congruence. }
    assert (Hf1 : Forall (fun m => is_Some (fs1 !! (dir ++ bare_name m)%string)) ns).
    { rewrite List.Forall_forall in Hf' |- *. intros m Hm. rewrite Hsame by exact Hm. now apply Hf'. }
    assert (Hu1 : forall m, In m ns -> file_used fs1 dir m = file_used fs dir m).
    { intros m Hm. unfold file_used. rewrite Hsame by exact Hm. reflexivity. }
    assert (HF1 : List.filter (file_used fs1 dir) ns = List.filter (file_used fs dir) ns).
    { apply filter_ext_in. intros m Hm. apply Hu1. exact Hm. }
    assert (HV1 : visit repaired dir cwd cap maxcap (map bare_name ns)
        (if negb (existsb with_value (p0 :: c)) then kept else kept ++ [existing_table (p0 :: c) n]) fs1 = inl (kept', fs')).
    { unfold fs1. destruct (negb (existsb with_value (p0 :: c))); exact HV. }
    clear HV. destruct (IH Hnd' Hb' _ _ _ _ Hf1 HV1) as (new & E & F2 & G1 & G2 & G3).
    assert (Hpath : fs' !! (dir ++ bare_name n)%string = fs1 !! (dir ++ bare_name n)%string).
    { apply G3. intros m Hm E'. exact (Hne m Hm (eq_sym E')). }
    rewrite HF1 in F2.
    assert (F2' : Forall2 (fun n T => exists content, fs !! (dir ++ bare_name n)%string = Some content /\ T = existing_table content n)
        (List.filter (file_used fs dir) ns) new).
    { assert (Hin : Forall (fun m => In m ns) (List.filter (file_used fs dir) ns)).
      { apply List.Forall_forall. intros m Hm. apply filter_In in Hm. tauto. }
      clear - F2 Hin Hsame. induction F2 as [|m T l l' (cc & Hcc & ->) _ IHF]; [constructor|].
      inversion Hin; subst. constructor; [|auto]. exists cc. split; [|reflexivity]. rewrite <- Hsame; auto. }
    assert (G2' : forall m content, In m ns -> file_used fs dir m = true -> fs !! (dir ++ bare_name m)%string = Some content ->
       fs' !! (dir ++ bare_name m)%string = Some (map repair_entry content)).
    { intros m cc Hm Hum Hcc. apply G2; [exact Hm|rewrite Hu1; auto|rewrite Hsame; auto]. }
    assert (G3' : forall path, (forall m, In m (n :: ns) -> path <> (dir ++ bare_name m)%string) -> fs' !! path = fs !! path).
    { intros path Hp. rewrite G3 by (intros m Hm; apply Hp; right; exact Hm). unfold fs1.
      assert (path <> (dir ++ bare_name n)%string) by (apply Hp; left; reflexivity).
      destruct (negb _); [rewrite lookup_delete_ne by congruence|]; apply lookup_insert_ne; congruence. }
    cbn [List.filter]. rewrite Hu. unfold fs1 in Hpath. destruct (existsb with_value (p0 :: c)) eqn:EX; cbn [negb] in *.
    + exists (existing_table (p0 :: c) n :: new). rewrite E, <- app_assoc. split; [reflexivity|]. split; [|split; [|split; [|exact G3']]].
      * constructor; [eauto|exact F2'].
      * intros m [<-|Hm] Hum; [congruence|]. apply G1; [exact Hm|]. rewrite Hu1; auto.
      * intros m cc [<-|Hm] Hum Hcc; [|eauto]. rewrite Hc in Hcc. injection Hcc as <-. rewrite Hpath. apply lookup_insert.
    + exists new. split; [exact E|]. split; [exact F2'|]. split; [|split; [|exact G3']].
      * intros m [<-|Hm] Hum; [rewrite Hpath; apply lookup_delete|]. apply G1; [exact Hm|]. rewrite Hu1; auto.
      * intros m cc [<-|Hm] Hum Hcc; [congruence|eauto].
Qed.

Lemma repair_entry_keeps k v k' v' : repair_entry (k, v) = (k', v') ->
  same_word k' k /\ (half_done (k, v) -> v' = VTOMBSTONE) /\ (~ half_done (k, v) -> same_word v' v).
Proof.
  unfold repair_entry. cbn [fst snd]. intros E. injection E as <- <-.
  change (same_word (clean k) k) with (clean (clean k) = clean k). split; [apply clean_clean|].
  unfold half_done. cbn [fst snd]. change (same_word k KINITIAL) with (clean k = clean KINITIAL).
  change (same_word v VINITIAL) with (clean v = clean VINITIAL).
  rewrite (clean_id _ KINITIAL_clean), (clean_id _ VINITIAL_clean). split.
  - intros (H1 & H2). destruct (N.eqb_spec (clean k) KINITIAL); [contradiction|].
    destruct (N.eqb_spec (clean v) VINITIAL); [reflexivity|contradiction].
  - intros H. destruct (N.eqb_spec (clean k) KINITIAL), (N.eqb_spec (clean v) VINITIAL); cbn [negb andb];
      try exact (clean_clean v). exfalso. tauto.
Qed.

Lemma c29_chain : forall dir cwd cap maxcap fs ns d R,
  StronglySorted N.lt ns -> numbered fs dir ns -> Forall (has_digits d) ns -> Forall (fun n => (n < 2 ^ 31)%N) ns ->
  recover repaired dir cwd cap maxcap fs = inl R ->
  map t_id (r_tabs R) = List.filter (file_used fs dir) ns /\
  forall i T, r_tabs R !! i = Some T ->
    t_new T = (if (S i <? length (r_tabs R))%nat then Some (S i) else None) /\
    exists content, fs !! (dir ++ bare_name (t_id T))%string = Some content /\ length (t_pairs T) = length content /\
      r_fs R !! (dir ++ bare_name (t_id T))%string = Some (t_pairs T) /\
      forall j k v k' v', content !! j = Some (k, v) -> t_pairs T !! j = Some (k', v') ->
        same_word k' k /\ (half_done (k, v) -> v' = VTOMBSTONE) /\ (~ half_done (k, v) -> same_word v' v).
Proof.
  intros dir cwd cap maxcap fs ns d R Hs Hn Hd Hb HR. unfold recover in HR.
  rewrite (order_same_digits _ _ _ _ Hs Hn Hd) in HR.
  destruct (visit _ _ _ _ _ _ _ _) as [(kept & fs1)|e] eqn:EV; [|discriminate].
  assert (Hnd : NoDup ns).
  { clear - Hs. induction Hs as [|n l Hl IH HF]; constructor; auto. intros H. apply elem_of_list_In in H.
    rewrite List.Forall_forall in HF. specialize (HF n H). lia. }
  apply visit_repaired in EV; [|exact Hnd|exact Hb|].
  2:{ apply List.Forall_forall. intros n Hi. apply Hn; [apply bare_no_slash|]. eauto. }
  destruct EV as (new & -> & F2 & G1 & G2 & G3). cbn [app] in HR.
  destruct new as [|T0 new0] eqn:EN; [discriminate|]. rewrite <- EN in *.
  destruct (parse repaired _) as [count|] eqn:EP; [|discriminate].
  injection HR as <-. cbn [r_tabs r_fs]. clear EP EN T0 new0 count.
  assert (HNew : Forall (fun T => t_new T = None) new).
  { clear - F2. induction F2 as [|n T l l' (c & _ & ->) _ IH]; constructor; auto. }
  rewrite link_length. split.
  - apply list_eq. intros i. rewrite list_lookup_fmap.
    destruct (link 0 new !! i) as [T|] eqn:ET.
    + destruct (link_lookup _ _ _ _ HNew ET) as (T0 & H0 & _ & Hid & _). cbn.
      destruct (Forall2_lookup_r _ _ _ _ _ F2 H0) as (n & Hni & c & _ & ->). rewrite Hni, Hid. reflexivity.
    + cbn. symmetry. apply lookup_ge_None. apply lookup_ge_None in ET. rewrite link_length in ET.
      rewrite (Forall2_length _ _ _ F2). exact ET.
  - intros i T ET. destruct (link_lookup _ _ _ _ HNew ET) as (T0 & H0 & Hp & Hid & Hnw). split; [exact Hnw|].
    destruct (Forall2_lookup_r _ _ _ _ _ F2 H0) as (n & Hni & c & Hc & ->). rewrite Hid, Hp. cbn [existing_table t_id t_pairs].
    exists c. split; [exact Hc|]. split; [apply map_length|].
    apply elem_of_list_lookup_2, elem_of_list_In, filter_In in Hni. split; [apply G2; tauto|].
    intros j k v k' v' Hj Hj'. rewrite list_lookup_fmap, Hj in Hj'. cbn in Hj'. apply repair_entry_keeps. congruence.
Qed.

(** Three table files; the middle one's entries have all been migrated. *)
Definition c29_fs : fsys := dir_of table_dir
  [(1%N, <[8 := (8, 800)%N]> (blank 16)); (2%N, <[9 := (16, TOMBPRIME)%N]> (blank 16)); (3%N, <[10 := (24, 240)%N]> (blank 16))].

Lemma c29_chain_example : exists R, numbered c29_fs table_dir [1; 2; 3]%N /\ StronglySorted N.lt [1; 2; 3]%N /\
  Forall (has_digits 1) [1; 2; 3]%N /\ recover repaired table_dir "/" 16 4096 c29_fs = inl R /\
  map t_id (r_tabs R) = [1; 3]%N /\ map t_new (r_tabs R) = [Some 1%nat; None].
Proof.
  eexists. split; [apply (dir_of_numbered table_dir [(1%N, _); (2%N, _); (3%N, _)])|].
  split; [repeat constructor; lia|]. split; [repeat constructor; vm_compute; auto|].
  split; [vm_compute; reflexivity|]. split; reflexivity.
Qed.
