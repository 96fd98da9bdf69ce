(** Mapping an existing table file: the repair loop computes [existing_table]. *)
From Coq Require Import NArith Bool List Lia.
From stdpp Require Import base list.
From Verif Require Import Word Bits Prog HashMap Abs Recovery.
Import ListNotations.
Open Scope nat_scope.

Section Repair.
Context (C : cfg) (t : nat).

(** Table [t] of [s] with the given entries and counters. *)
Inductive has (s : state) (ps : list pair_) (len : nat) (sz sl : N) : Prop :=
| mkHas (T : table) : st_tabs s !! t = Some T -> t_pairs T = ps -> t_len T = len -> t_size T = sz -> t_slots T = sl ->
    t_new T = None /\ t_copyIdx T = 0%N /\ t_copyDone T = 0%N -> has s ps len sz sl.

(** Nothing but the table [t] changes. *)
Definition rest_same (s s' : state) : Prop :=
  st_top s' = st_top s /\ st_fctr s' = st_fctr s /\ st_files s' = st_files s /\ st_ppl s' = st_ppl s /\
  st_maxcap s' = st_maxcap s /\ length (st_tabs s') = length (st_tabs s) /\
  forall j, j <> t -> st_tabs s' !! j = st_tabs s !! j.

Lemma rest_refl s : rest_same s s.
Proof. repeat split. Qed.
Lemma rest_trans s1 s2 s3 : rest_same s1 s2 -> rest_same s2 s3 -> rest_same s1 s3.
Proof.
  intros (A1 & A2 & A3 & A4 & A5 & A6 & A7) (B1 & B2 & B3 & B4 & B5 & B6 & B7).
  repeat split; try congruence. intros j Hj. rewrite B7, A7 by exact Hj. reflexivity.
Qed.
Lemma rest_with s f : rest_same s (with_tab t f s).
Proof.
  repeat split; cbn.
  - apply alter_length.
  - intros j Hj. apply list_lookup_alter_ne. congruence.
Qed.

Lemma with_has s ps len sz sl f : has s ps len sz sl ->
  (forall T, t_pairs T = ps -> t_len T = len -> t_size T = sz -> t_slots T = sl ->
     t_new T = None -> t_copyIdx T = 0%N -> t_copyDone T = 0%N ->
     t_len (f T) = len /\ t_new (f T) = None /\ t_copyIdx (f T) = 0%N /\ t_copyDone (f T) = 0%N) ->
  exists T, st_tabs s !! t = Some T /\ t_pairs T = ps /\ t_size T = sz /\ t_slots T = sl /\
    has (with_tab t f s) (t_pairs (f T)) len (t_size (f T)) (t_slots (f T)).
Proof.
  intros [T HT Hp Hl Hs Hsl (H1 & H2 & H3)] Hf. exists T. repeat (split; [assumption|]).
  destruct (Hf T) as (F1 & F2 & F3 & F4); try assumption.
  apply (mkHas _ _ _ _ _ (f T)); cbn; auto. rewrite list_lookup_alter, HT. reflexivity.
Qed.

Lemma read_has s ps len sz sl i c p : has s ps len sz sl -> ps !! i = Some p -> read_cell s t i c = get_cell c p.
Proof. intros [T HT Hp _ _ _ _] Hi. unfold read_cell. rewrite HT, Hp, Hi. reflexivity. Qed.

(** Reading a cell clears its unpersisted bit. *)
Lemma pcas_read_has s ps len sz sl i c p : has s ps len sz sl -> ps !! i = Some p ->
  exists s', run (pcas_read t i c) s = Ok (clean (get_cell c p)) s' /\ rest_same s s' /\
    has s' (alter (set_cell c (clean (get_cell c p))) i ps) len sz sl.
Proof.
  intros Hh Hi. unfold pcas_read. cbn [run do bind]. cbn [exec]. rewrite (read_has _ _ _ _ _ _ c _ Hh Hi).
  set (w := get_cell c p). destruct (isMarked w DirtyFlag) eqn:Ed.
  - unfold persist. cbn [bind do run]. cbn [exec].
    match goal with |- context [with_tab t ?f s] => set (f1 := f) end.
    destruct (with_has _ _ _ _ _ f1 Hh) as (T & HT & Hp & Hs & Hsl & Hh1).
    { intros T' H1 H2 H3 H4 H5 H6 H7. unfold f1. cbn. auto. }
    change (t_pairs (f1 T)) with (t_pairs T) in Hh1. change (t_size (f1 T)) with (t_size T) in Hh1.
    change (t_slots (f1 T)) with (t_slots T) in Hh1. rewrite Hp, Hs, Hsl in Hh1.
    rewrite (read_has _ _ _ _ _ _ c _ Hh1 Hi). fold w. rewrite N.eqb_refl. cbn [run bind].
    eexists. split; [reflexivity|]. split; [eapply rest_trans; apply rest_with|].
    destruct (with_has _ _ _ _ _ (write_cell i c (clean w)) Hh1) as (T1 & HT1 & Hp1 & Hs1 & Hsl1 & Hh2).
    { intros T' H1 H2 H3 H4 H5 H6 H7. cbn. auto. }
    change (t_pairs (write_cell i c (clean w) T1)) with (alter (set_cell c (clean w)) i (t_pairs T1)) in Hh2.
    change (t_size (write_cell i c (clean w) T1)) with (t_size T1) in Hh2.
    change (t_slots (write_cell i c (clean w) T1)) with (t_slots T1) in Hh2. rewrite Hp1, Hs1, Hsl1 in Hh2. exact Hh2.
  - cbn [run bind]. exists s. split; [reflexivity|]. split; [apply rest_refl|].
    assert (Hc : clean w = w) by (apply clean_id; exact Ed).
    assert (He : alter (set_cell c (clean w)) i ps = ps).
    { apply list_eq. intros j. destruct (decide (j = i)) as [->|Hne].
      - rewrite list_lookup_alter, Hi. cbn. rewrite Hc. f_equal. destruct p, c; reflexivity.
      - now rewrite list_lookup_alter_ne by congruence. }
    rewrite He. exact Hh.
Qed.

Lemma add_has s ps len sz sl f d : has s ps len sz sl -> f = FSize \/ f = FSlots ->
  exists s' r, run (do (AddF t f d)) s = Ok r s' /\ rest_same s s' /\
    has s' ps len (match f with FSize => add64 sz d | _ => sz end) (match f with FSize => sl | _ => add64 sl d end).
Proof.
  intros Hh Hf. cbn [do run]. cbn [exec]. eexists _, _. split; [reflexivity|]. split; [apply rest_with|].
  match goal with |- context [with_tab t ?g s] => set (g1 := g) end.
  destruct (with_has _ _ _ _ _ g1 Hh) as (T & HT & Hp & Hs & Hsl & Hh1).
  { intros T' H1 H2 H3 H4 H5 H6 H7. unfold g1. cbn. destruct Hf as [-> | ->]; auto. }
  assert (E1 : t_pairs (g1 T) = ps) by exact Hp.
  assert (E2 : t_size (g1 T) = match f with FSize => add64 sz d | _ => sz end) by (unfold g1; destruct Hf as [-> | ->]; cbn; congruence).
  assert (E3 : t_slots (g1 T) = match f with FSize => sl | _ => add64 sl d end) by (unfold g1; destruct Hf as [-> | ->]; cbn; congruence).
  rewrite E1, E2, E3 in Hh1. exact Hh1.
Qed.

Lemma bounds_has s ps len sz sl i : has s ps len sz sl -> i < len -> run (bounds C t i) s = Ok tt s.
Proof.
  intros [T HT _ Hl _ _ _] Hi. unfold bounds. cbn [do bind run]. cbn [exec]. rewrite HT, Hl.
  destruct (Nat.ltb_spec i len); [reflexivity|lia].
Qed.

Lemma value_has s ps len sz sl i p : has s ps len sz sl -> ps !! i = Some p -> i < len ->
  exists s', run (value C t i) s = Ok (clean (snd p)) s' /\ rest_same s s' /\
    has s' (<[i := (fst p, clean (snd p))]> ps) len sz sl.
Proof.
  intros Hh Hi Hl. destruct (pcas_read_has _ _ _ _ _ i CVal p Hh Hi) as (s' & Hr & Hs & Hh').
  exists s'. unfold value. rewrite run_bind, (bounds_has _ _ _ _ _ _ Hh Hl). split; [exact Hr|]. split; [exact Hs|].
  replace (<[i := (fst p, clean (snd p))]> ps) with (alter (set_cell CVal (clean (get_cell CVal p))) i ps); [exact Hh'|].
  apply list_eq. intros j. destruct (decide (j = i)) as [->|Hne].
  - rewrite list_lookup_alter, Hi, list_lookup_insert by (apply lookup_lt_is_Some; eauto). reflexivity.
  - rewrite list_lookup_alter_ne, list_lookup_insert_ne by congruence. reflexivity.
Qed.

Lemma key_has s ps len sz sl i p : has s ps len sz sl -> ps !! i = Some p -> i < len ->
  exists s', run (key C t i) s = Ok (clean (fst p)) s' /\ rest_same s s' /\
    has s' (<[i := (clean (fst p), snd p)]> ps) len sz sl.
Proof.
  intros Hh Hi Hl. destruct (pcas_read_has _ _ _ _ _ i CKey p Hh Hi) as (s' & Hr & Hs & Hh').
  exists s'. unfold key. rewrite run_bind, (bounds_has _ _ _ _ _ _ Hh Hl). split; [exact Hr|]. split; [exact Hs|].
  replace (<[i := (clean (fst p), snd p)]> ps) with (alter (set_cell CKey (clean (get_cell CKey p))) i ps); [exact Hh'|].
  apply list_eq. intros j. destruct (decide (j = i)) as [->|Hne].
  - rewrite list_lookup_alter, Hi, list_lookup_insert by (apply lookup_lt_is_Some; eauto). reflexivity.
  - rewrite list_lookup_alter_ne, list_lookup_insert_ne by congruence. reflexivity.
Qed.

(** A CAS that expects the (clean) word that is there. *)
Lemma CASvalue_has s ps len sz sl i p new : has s ps len sz sl -> ps !! i = Some p -> i < len -> isclean (snd p) ->
  exists s', run (CASvalue C t i (snd p) new) s = Ok (snd p) s' /\ rest_same s s' /\
    has s' (<[i := (fst p, dirty new)]> ps) len sz sl.
Proof.
  intros Hh Hi Hl Hc. unfold CASvalue. rewrite run_bind, (bounds_has _ _ _ _ _ _ Hh Hl). unfold pcas.
  destruct (pcas_read_has _ _ _ _ _ i CVal p Hh Hi) as (s1 & Hr & Hs & Hh1).
  rewrite run_bind, run_bind, Hr. cbn [do bind run]. cbn [exec].
  assert (Hi1 : (alter (set_cell CVal (clean (get_cell CVal p))) i ps) !! i = Some p).
  { rewrite list_lookup_alter, Hi. cbn. rewrite (clean_id _ Hc). now destruct p. }
  rewrite (read_has _ _ _ _ _ _ CVal _ Hh1 Hi1). cbn [get_cell]. rewrite N.eqb_refl. cbn [fst snd].
  rewrite N.eqb_refl. unfold assert_. cbn [andb orb bind run].
  eexists. split; [reflexivity|]. split; [eapply rest_trans; [exact Hs|apply rest_with]|].
  destruct (with_has _ _ _ _ _ (write_cell i CVal (dirty new)) Hh1) as (T1 & HT1 & Hp1 & Hs1 & Hsl1 & Hh2).
  { intros T' H1 H2 H3 H4 H5 H6 H7. cbn. auto. }
  change (t_pairs (write_cell i CVal (dirty new) T1)) with (alter (set_cell CVal (dirty new)) i (t_pairs T1)) in Hh2.
  change (t_size (write_cell i CVal (dirty new) T1)) with (t_size T1) in Hh2.
  change (t_slots (write_cell i CVal (dirty new) T1)) with (t_slots T1) in Hh2. rewrite Hp1, Hs1, Hsl1 in Hh2.
  replace (<[i := (fst p, dirty new)]> ps) with
    (alter (set_cell CVal (dirty new)) i (alter (set_cell CVal (clean (get_cell CVal p))) i ps)); [exact Hh2|].
  apply list_eq. intros j. destruct (decide (j = i)) as [->|Hne].
  - rewrite list_lookup_alter, Hi1, list_lookup_insert by (apply lookup_lt_is_Some; eauto). reflexivity.
  - rewrite !list_lookup_alter_ne, list_lookup_insert_ne by congruence. reflexivity.
Qed.

Lemma insert_twice {A} (l : list A) i x y : <[i := y]> (<[i := x]> l) = <[i := y]> l.
Proof. apply list_insert_insert. Qed.

(** One iteration. *)
Lemma step_has s ps len sz sl i p : has s ps len sz sl -> ps !! i = Some p -> i < len ->
  exists s', run (repair_step C t i) s = Ok tt s' /\ rest_same s s' /\
    has s' (<[i := repair_entry p]> ps) len
      (if counts_as_value (snd (repair_entry p)) then add64 sz 1 else sz)
      (if counts_as_free (snd (repair_entry p)) then add64 sl 1 else sl).
Proof.
  intros Hh Hi Hl. unfold repair_step.
  assert (Hlt : i < length ps) by (apply lookup_lt_is_Some; eauto).
  destruct (value_has _ _ _ _ _ i p Hh Hi Hl) as (s1 & R1 & S1 & H1).
  assert (Hi1 : (<[i := (fst p, clean (snd p))]> ps) !! i = Some (fst p, clean (snd p))) by (now rewrite list_lookup_insert).
  destruct (key_has _ _ _ _ _ i _ H1 Hi1 Hl) as (s2 & R2 & S2 & H2). cbn [fst snd] in R2, H2. rewrite insert_twice in H2.
  rewrite run_bind, R1, run_bind, R2.
  set (K := clean (fst p)) in *. set (V := clean (snd p)) in *.
  assert (Hrep : exists s3, run (if negb (K =? KINITIAL)%N && (V =? VINITIAL)%N then
           CASvalue C t i VINITIAL VTOMBSTONE ;;;
           V' <-- value C t i;;
           assert_ C (V' =? VTOMBSTONE)%N ;;;
           Ret V'
         else Ret V)%prog s2 = Ok (snd (repair_entry p)) s3 /\ rest_same s2 s3 /\
         has s3 (<[i := repair_entry p]> ps) len sz sl).
  { unfold repair_entry. fold K V. cbn [snd].
    destruct (negb (K =? KINITIAL)%N && (V =? VINITIAL)%N) eqn:Eb.
    - apply andb_true_iff in Eb. destruct Eb as (_ & EV). apply N.eqb_eq in EV. rewrite EV in H2.
      assert (Hi2 : (<[i := (K, VINITIAL)]> ps) !! i = Some (K, VINITIAL)) by (now rewrite list_lookup_insert).
      destruct (CASvalue_has _ _ _ _ _ i _ VTOMBSTONE H2 Hi2 Hl VINITIAL_clean) as (s3 & R3 & S3 & H3). cbn [fst snd] in R3, H3.
      rewrite insert_twice in H3.
      assert (Hi3 : (<[i := (K, dirty VTOMBSTONE)]> ps) !! i = Some (K, dirty VTOMBSTONE)) by (now rewrite list_lookup_insert).
      destruct (value_has _ _ _ _ _ i _ H3 Hi3 Hl) as (s4 & R4 & S4 & H4). cbn [fst snd] in R4, H4. rewrite insert_twice in H4.
      rewrite clean_dirty, (clean_id _ VTOMBSTONE_clean) in R4, H4.
      exists s4. split; [|split; [eapply rest_trans; eassumption|exact H4]].
      rewrite run_bind, R3, run_bind, R4. unfold assert_. rewrite N.eqb_refl. reflexivity.
    - exists s2. split; [reflexivity|]. split; [apply rest_refl|exact H2]. }
  destruct Hrep as (s3 & R3 & S3 & H3). rewrite run_bind, R3. clear R1 R2 R3 H1 H2.
  set (W := snd (repair_entry p)) in *.
  assert (S03 : rest_same s s3) by (eapply rest_trans; [exact S1|eapply rest_trans; eassumption]).
  unfold counts_as_free, counts_as_value.
  destruct (negb (W =? VINITIAL) && negb (W =? VTOMBSTONE) && negb (W =? TOMBPRIME))%N eqn:Ev; cbn [negb andb].
  - destruct (add_has _ _ _ _ _ FSize 1%N H3 (or_introl eq_refl)) as (s4 & r & R4 & S4 & H4).
    exists s4. rewrite run_bind, R4. split; [reflexivity|]. split; [eapply rest_trans; eassumption|exact H4].
  - destruct (negb (W =? VTOMBSTONE) && negb (W =? TOMBPRIME))%N eqn:Ef.
    + destruct (add_has _ _ _ _ _ FSlots 1%N H3 (or_intror eq_refl)) as (s4 & r & R4 & S4 & H4).
      exists s4. rewrite run_bind, R4. split; [reflexivity|]. split; [eapply rest_trans; eassumption|exact H4].
    + exists s3. split; [reflexivity|]. split; [exact S03|exact H3].
Qed.

Definition countb (f : N -> bool) (ps : list pair_) : N := N.of_nat (length (filter (fun p => f (snd p) = true) ps)).

Lemma countb_snoc f ps p : countb f (ps ++ [p]) = (countb f ps + (if f (snd p) then 1 else 0))%N.
Proof.
  unfold countb. rewrite filter_app, app_length, Nat2N.inj_add. f_equal.
  rewrite filter_cons, filter_nil. destruct (decide (f (snd p) = true)) as [->|H]; [reflexivity|].
  destruct (f (snd p)); [congruence|reflexivity].
Qed.

Lemma loop_has content : (N.of_nat (length content) < two64)%N -> forall cnt i s, i + cnt = length content ->
  has s (map repair_entry (take i content) ++ drop i content) (length content)
    (countb counts_as_value (map repair_entry (take i content))) (countb counts_as_free (map repair_entry (take i content))) ->
  exists s', run (repair_loop C t i cnt) s = Ok tt s' /\ rest_same s s' /\
    has s' (map repair_entry content) (length content)
      (countb counts_as_value (map repair_entry content)) (countb counts_as_free (map repair_entry content)).
Proof.
  intros Hb. induction cnt as [|cnt IH]; intros i s Hi Hh; cbn [repair_loop].
  - rewrite Nat.add_0_r in Hi. rewrite Hi, firstn_all, skipn_all, app_nil_r in Hh.
    exists s. split; [reflexivity|]. split; [apply rest_refl|exact Hh].
  - destruct (lookup_lt_is_Some_2 content i) as (p & Hp); [lia|].
    assert (Hlen : length (map repair_entry (take i content)) = i) by (rewrite map_length, take_length; lia).
    assert (Hps : (map repair_entry (take i content) ++ drop i content) !! i = Some p).
    { rewrite lookup_app_r by lia. rewrite Hlen, Nat.sub_diag, lookup_drop, Nat.add_0_r. exact Hp. }
    destruct (step_has _ _ _ _ _ i p Hh Hps) as (s1 & R1 & S1 & H1); [lia|].
    assert (Hnext : <[i := repair_entry p]> (map repair_entry (take i content) ++ drop i content) =
      map repair_entry (take (S i) content) ++ drop (S i) content).
    { rewrite (take_S_r _ _ _ Hp), map_app, <- app_assoc. cbn [map app].
      rewrite (drop_S _ _ _ Hp). rewrite insert_app_r_alt by lia. rewrite Hlen, Nat.sub_diag. reflexivity. }
    assert (Hc : forall f, (countb f (map repair_entry (take i content)) + 1 < two64)%N).
    { intros f. unfold countb. pose proof (filter_length (fun q : pair_ => f (snd q) = true) (map repair_entry (take i content))) as Hf.
      rewrite Hlen in Hf. lia. }
    assert (Hadd : forall f : N -> bool, (if f (snd (repair_entry p)) then add64 (countb f (map repair_entry (take i content))) 1
                              else countb f (map repair_entry (take i content))) =
                             countb f (map repair_entry (take (S i) content))).
    { intros f. rewrite (take_S_r _ _ _ Hp), map_app. cbn [map]. rewrite countb_snoc.
      destruct (f (snd (repair_entry p))); [|lia]. unfold add64. apply N.mod_small, Hc. }
    rewrite Hnext, !Hadd in H1.
    destruct (IH (S i) s1) as (s2 & R2 & S2 & H2); [lia|exact H1|].
    exists s2. rewrite run_bind, R1. split; [exact R2|]. split; [eapply rest_trans; eassumption|exact H2].
Qed.
End Repair.
