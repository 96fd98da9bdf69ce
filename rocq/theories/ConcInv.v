(** Facts about concurrent executions that hold whatever the schedule: an invariant of the memory and
    a relation between the memory at two moments.  Each command a program issues is shown to preserve
    them; see ConcProg.v. *)
From Coq Require Import NArith Bool List Lia.
From stdpp Require Import base list relations.
From Verif Require Import Word Bits Prog HashMap Conc Spec ConcSpec.
Import ListNotations.
Open Scope nat_scope.

Notation MIG := MigrationFlag.

(** A value without its marker bits. *)
Definition strip (w : N) : N := clearMark (clean w) MIG.

Definition val_ok (ops : list op) (k w : N) : Prop :=
  strip w = VINITIAL \/ strip w = VTOMBSTONE \/ supplied ops k (strip w).

(** Without increments (which may wrap around), a word without a value is exactly the word of an unused entry; in a blocked
    entry that nobody has read yet it may have the unpersisted mark. *)
Definition noinc (o : op) : Prop := match o with OIncrement _ => False | _ => True end.
Definition tight (ops : list op) (k w : N) : Prop :=
  k = KTOMBSTONE \/ Forall noinc ops -> strip w = VINITIAL -> w = VINITIAL.
Definition tight0 (ops : list op) (k w : N) : Prop :=
  k = KTOMBSTONE \/ Forall noinc ops -> strip w = VINITIAL -> clean w = VINITIAL /\ (k <> KTOMBSTONE -> w = VINITIAL).

Definition pair_ok (ops : list op) (p : pair_) : Prop :=
  (clean (fst p) = KINITIAL \/ clean (fst p) = KTOMBSTONE \/ called ops (clean (fst p))) /\
  (clean (fst p) = KINITIAL -> clean (snd p) = VINITIAL) /\
  val_ok ops (clean (fst p)) (snd p) /\
  (clean (fst p) <> KINITIAL -> tight0 ops (clean (fst p)) (snd p)).

(** How an entry may evolve. *)
Definition prel (p p' : pair_) : Prop :=
  (clean (fst p) <> KINITIAL -> clean (fst p') = clean (fst p)) /\
  (isMarked (snd p) MIG = true -> clean (snd p') = clean (snd p) \/ clean (snd p') = TOMBPRIME) /\
  (clean (fst p') = KINITIAL \/ clean (fst p') = KTOMBSTONE -> snd p <> dirty VINITIAL -> snd p' <> dirty VINITIAL).

Lemma prel_refl p : prel p p.
Proof. split; [|split]; auto. Qed.

Lemma marked_clean_eq v v' : clean v' = clean v -> isMarked v MIG = isMarked v' MIG.
Proof. intros H. rewrite <- (isMarked_clean_mig v), <- (isMarked_clean_mig v'), H. reflexivity. Qed.

Lemma marked_TOMBPRIME v : clean v = TOMBPRIME -> isMarked v MIG = true.
Proof. intros H. rewrite <- isMarked_clean_mig, H. exact TOMBPRIME_marked. Qed.

Lemma prel_trans p q r : prel p q -> prel q r -> prel p r.
Proof.
  intros (K1 & V1 & D1) (K2 & V2 & D2). split; [|split].
  - intros H. specialize (K1 H). rewrite <- K1. apply K2. rewrite K1. exact H.
  - intros H. destruct (V1 H) as [E|E].
    + rewrite (marked_clean_eq _ _ E) in H. destruct (V2 H) as [->| ->]; auto.
    + destruct (V2 (marked_TOMBPRIME _ E)) as [->| ->]; auto.
  - intros E H. apply (D2 E). apply D1; [|exact H]. destruct (N.eq_dec (clean (fst q)) KINITIAL) as [Eq|Eq]; [left; exact Eq|].
    rewrite (K2 Eq) in E. destruct E as [E|E]; auto.
Qed.

Lemma noinc_mono ops ops' k : incl ops ops' -> k = KTOMBSTONE \/ Forall noinc ops' -> k = KTOMBSTONE \/ Forall noinc ops.
Proof.
  intros Hi [H|H]; [left; exact H|right]. apply List.Forall_forall. intros o Ho. rewrite List.Forall_forall in H. auto.
Qed.
Lemma tight_mono ops ops' k v : incl ops ops' -> tight ops k v -> tight ops' k v.
Proof. intros Hi H Hn. apply H. exact (noinc_mono _ _ _ Hi Hn). Qed.
Lemma tight0_mono ops ops' k v : incl ops ops' -> tight0 ops k v -> tight0 ops' k v.
Proof. intros Hi H Hn. apply H. exact (noinc_mono _ _ _ Hi Hn). Qed.

Lemma pair_ok_mono ops ops' p : incl ops ops' -> pair_ok ops p -> pair_ok ops' p.
Proof.
  intros Hi (H1 & H2 & H3 & H4). split; [|split; [|split]].
  - destruct H1 as [H|[H|(o & Ho & Hk)]]; auto. right. right. exists o. auto.
  - exact H2.
  - destruct H3 as [H|[H|H]]; [left|right;left|right;right]; auto.
    induction H; eauto using sup_put, sup_putIfAbsent, sup_replace, sup_inc_arg, sup_inc_first, sup_inc_mark, sup_inc.
  - intros H. exact (tight0_mono _ _ _ _ Hi (H4 H)).
Qed.

Lemma supplied_mono ops ops' k v : incl ops ops' -> supplied ops k v -> supplied ops' k v.
Proof.
  intros Hi H.
  induction H; eauto using sup_put, sup_putIfAbsent, sup_replace, sup_inc_arg, sup_inc_first, sup_inc_mark, sup_inc.
Qed.
Lemma called_mono ops ops' k : incl ops ops' -> called ops k -> called ops' k.
Proof. intros Hi (o & Ho & Hk). exists o. auto. Qed.
Lemma val_ok_mono ops ops' k v : incl ops ops' -> val_ok ops k v -> val_ok ops' k v.
Proof. intros Hi [H|[H|H]]; [left|right;left|right;right]; auto. exact (supplied_mono _ _ _ _ Hi H). Qed.

(** ** Versions *)

Lemma versions_len T : length (versions T) = S (length (t_past T)).
Proof. unfold versions. rewrite app_length, rev_length. cbn. lia. Qed.
Lemma versions_last T : versions T !! length (t_past T) = Some (t_pairs T).
Proof. unfold versions. rewrite lookup_app_r; rewrite rev_length; [|lia]. rewrite Nat.sub_diag. reflexivity. Qed.
Lemma versions_write T i c w : versions (write_cell i c w T) = versions T ++ [alter (set_cell c w) i (t_pairs T)].
Proof. unfold versions, write_cell, set_pairs; cbn. rewrite <- app_assoc. reflexivity. Qed.

Lemma cur_in T : In (t_pairs T) (versions T).
Proof. unfold versions. apply in_or_app. right. left. reflexivity. Qed.

(** The value of an entry never comes back to what it was after having been something else. *)
Definition no_reuse (T : table) (i : nat) : Prop :=
  forall a b c A B D p q r, a < b -> b < c ->
    versions T !! a = Some A -> versions T !! b = Some B -> versions T !! c = Some D ->
    A !! i = Some p -> B !! i = Some q -> D !! i = Some r ->
    clean (snd p) = clean (snd r) -> clean (snd q) = clean (snd p).

(** ** The relation between two moments *)

Definition TR (T T' : table) : Prop :=
  t_len T' = t_len T /\
  (exists ext, versions T' = versions T ++ ext /\ Forall (Forall2 prel (t_pairs T)) ext) /\
  Forall2 Peano.le (t_pers T) (t_pers T') /\
  (forall x, t_new T = Some x -> t_new T' = Some x).

Definition link (s : state) (a b : nat) : Prop := exists T, st_tabs s !! a = Some T /\ t_new T = Some b.

Definition world : Type := (list op * state)%type.

Definition Rel (w w' : world) : Prop :=
  incl (fst w) (fst w') /\ st_ppl (snd w') = st_ppl (snd w) /\
  (forall t T, st_tabs (snd w) !! t = Some T -> exists T', st_tabs (snd w') !! t = Some T' /\ TR T T') /\
  rtc (link (snd w')) (st_top (snd w)) (st_top (snd w')).

Lemma Forall2_prel_refl l : Forall2 prel l l.
Proof. induction l; constructor; auto using prel_refl. Qed.
Lemma Forall2_prel_trans l1 l2 l3 : Forall2 prel l1 l2 -> Forall2 prel l2 l3 -> Forall2 prel l1 l3.
Proof. intros H1 H2. eapply Forall2_transitive; [|exact H1|exact H2]. intros p q r. apply prel_trans. Qed.
Lemma Forall2_le_refl (l : list nat) : Forall2 Peano.le l l.
Proof. induction l; constructor; auto. Qed.
Lemma Forall2_le_trans (l1 l2 l3 : list nat) : Forall2 Peano.le l1 l2 -> Forall2 Peano.le l2 l3 -> Forall2 Peano.le l1 l3.
Proof. intros H1 H2. eapply Forall2_transitive; [|exact H1|exact H2]. intros p q r. lia. Qed.

Lemma TR_refl T : TR T T.
Proof.
  split; [reflexivity|]. split; [exists []; rewrite app_nil_r; split; [reflexivity|constructor]|].
  split; [apply Forall2_le_refl|auto].
Qed.

Lemma TR_pairs T T' : TR T T' -> Forall2 prel (t_pairs T) (t_pairs T').
Proof.
  intros (_ & (ext & HE & Hext) & _).
  assert (HL : last (versions T') = Some (t_pairs T')) by (unfold versions; apply last_snoc).
  rewrite HE in HL. destruct ext as [|x ext] using rev_ind.
  - rewrite app_nil_r in HL. unfold versions in HL. rewrite last_snoc in HL. injection HL as <-. apply Forall2_prel_refl.
  - rewrite app_assoc, last_snoc in HL. injection HL as ->. apply Forall_app in Hext as [_ Hx]. inversion Hx; assumption.
Qed.

Lemma TR_trans T1 T2 T3 : TR T1 T2 -> TR T2 T3 -> TR T1 T3.
Proof.
  intros R1 R2. pose proof (TR_pairs _ _ R1) as HP. destruct R1 as (L1 & (e1 & E1 & X1) & P1 & N1).
  destruct R2 as (L2 & (e2 & E2 & X2) & P2 & N2). split; [congruence|]. split; [|split].
  - exists (e1 ++ e2). split; [rewrite E2, E1, app_assoc; reflexivity|]. apply Forall_app. split; [exact X1|].
    eapply Forall_impl; [exact X2|]. intros x Hx. exact (Forall2_prel_trans _ _ _ HP Hx).
  - exact (Forall2_le_trans _ _ _ P1 P2).
  - auto.
Qed.

Lemma Rel_refl w : Rel w w.
Proof. split; [intros o; auto|]. split; [reflexivity|]. split; [|apply rtc_refl]. intros t T HT. exists T. split; [exact HT|apply TR_refl]. Qed.

Lemma link_mono w w' a b : Rel w w' -> link (snd w) a b -> link (snd w') a b.
Proof. intros (_ & _ & H & _) (T & HT & Hn). destruct (H _ _ HT) as (T' & HT' & R). exists T'. split; [exact HT'|]. apply R. exact Hn. Qed.

Lemma Rel_trans w1 w2 w3 : Rel w1 w2 -> Rel w2 w3 -> Rel w1 w3.
Proof.
  intros R1 R2. pose proof R2 as R2'. destruct R1 as (I1 & P1 & T1 & C1). destruct R2 as (I2 & P2 & T2 & C2).
  split; [intros o Ho; auto|]. split; [congruence|]. split.
  - intros t T HT. destruct (T1 _ _ HT) as (T' & HT' & A). destruct (T2 _ _ HT') as (T'' & HT'' & B).
    exists T''. split; [exact HT''|exact (TR_trans _ _ _ A B)].
  - eapply rtc_transitive; [|exact C2]. clear -R2' C1. induction C1 as [|a b c H1 H2 IH]; [apply rtc_refl|].
    eapply rtc_l; [exact (link_mono _ _ _ _ R2' H1)|exact IH].
Qed.

(** ** The invariant *)

Definition vsorted (T : table) : Prop :=
  forall v v' ps ps', v <= v' -> versions T !! v = Some ps -> versions T !! v' = Some ps' -> Forall2 prel ps ps'.

(** A word without the unpersisted mark is in persistent memory. *)
Definition key_pers (ppl : nat) (T : table) : Prop :=
  forall i p b v ps q, t_pairs T !! i = Some p -> isclean (fst p) ->
    t_pers T !! (i / ppl) = Some b -> b <= v -> versions T !! v = Some ps -> ps !! i = Some q ->
    clean (fst q) = clean (fst p).
Definition val_pers (ppl : nat) (T : table) : Prop :=
  forall i p b v ps q, no_reuse T i -> t_pairs T !! i = Some p -> isclean (snd p) ->
    t_pers T !! (i / ppl) = Some b -> b <= v -> versions T !! v = Some ps -> ps !! i = Some q ->
    clean (snd q) = clean (snd p).

(** A crash loses at most the last change of a value. *)
Definition val_two (ppl : nat) (T : table) : Prop :=
  forall i p b v v' ps ps' q q', no_reuse T i -> t_pairs T !! i = Some p -> t_pers T !! (i / ppl) = Some b -> b <= v -> v <= v' ->
    versions T !! v = Some ps -> versions T !! v' = Some ps' -> ps !! i = Some q -> ps' !! i = Some q' ->
    clean (snd q') = clean (snd q) \/ clean (snd q') = clean (snd p).

(** A value is marked for migration only in a table that has a successor. *)
Definition mig_new (T : table) : Prop :=
  forall ps, In ps (versions T) -> Forall (fun p => isMarked (snd p) MIG = true -> t_new T <> None) ps.

Definition tab_ok (cap0 : nat) (w : world) (T : table) : Prop :=
  ((exists e, t_len T = cap0 * 2 ^ e) /\ (N.of_nat (t_len T) < 2 ^ 59)%N) /\
  length (t_pairs T) = t_len T /\ length (t_pers T) = t_len T /\
  (forall ps, In ps (versions T) -> Forall (pair_ok (fst w)) ps) /\
  vsorted T /\
  Forall (fun b => b <= length (t_past T)) (t_pers T) /\
  key_pers (st_ppl (snd w)) T /\ val_pers (st_ppl (snd w)) T /\ val_two (st_ppl (snd w)) T /\ mig_new T.

Definition Inv (cap0 : nat) (w : world) : Prop :=
  Forall legal_op (fst w) /\ st_files (snd w) = [] /\ st_top (snd w) < length (st_tabs (snd w)) /\
  (forall t T, st_tabs (snd w) !! t = Some T -> tab_ok cap0 w T) /\
  (forall t T nt, st_tabs (snd w) !! t = Some T -> t_new T = Some nt ->
     exists NT, st_tabs (snd w) !! nt = Some NT /\ t_len NT = 2 * t_len T).

(** What a single command of a program may do. *)
Definition Step (w w' : world) : Prop :=
  Rel w w' /\ fst w' = fst w /\
  (st_top (snd w') = st_top (snd w) \/ link (snd w) (st_top (snd w)) (st_top (snd w'))).

(** ** Programs *)

(** [ok p Q w]: from [w] on, whatever the other threads do, the commands of [p] preserve the invariant and
    are steps, and if [p] returns then with [Q]. *)
Fixpoint ok {A} (cap0 : nat) (p : prog A) (Q : A -> world -> Prop) (w : world) : Prop :=
  match p with
  | Ret a => forall w', Inv cap0 w' -> Rel w w' -> Q a w'
  | Err e => True
  | Vis c k => forall w', Inv cap0 w' -> Rel w w' ->
      let '(r, s') := exec c (snd w') in
      Inv cap0 (fst w', s') /\ Step w' (fst w', s') /\ ok cap0 (k r) Q (fst w', s')
  end.

Section Ok.
Context (cap0 : nat).
Notation Inv := (Inv cap0).
Notation ok p Q w := (ok cap0 p Q w).

Lemma ok_rel {A} (p : prog A) (Q : A -> world -> Prop) w w' : ok p Q w -> Rel w w' -> ok p Q w'.
Proof.
  destruct p as [a|e|c k]; cbn; auto; intros H HR w2 HI HR2; apply H; auto; exact (Rel_trans _ _ _ HR HR2).
Qed.

Lemma ok_ret {A} (a : A) (Q : A -> world -> Prop) w : (forall w', Inv w' -> Rel w w' -> Q a w') -> ok (Ret a) Q w.
Proof. exact (fun H => H). Qed.

Lemma ok_bind {A B} (p : prog A) (f : A -> prog B) (Q : B -> world -> Prop) w : Inv w ->
  ok p (fun a w' => ok (f a) Q w') w -> ok (bind p f) Q w.
Proof.
  revert w. induction p as [a|e|c k IH]; intros w HI; cbn; auto.
  - intros H. exact (H w HI (Rel_refl w)).
  - intros H w' HI' HR. specialize (H w' HI' HR). destruct (exec c (snd w')) as [r s'].
    destruct H as (H1 & H2 & H3). auto.
Qed.

Lemma ok_mono {A} (p : prog A) (Q Q' : A -> world -> Prop) w :
  ok p Q w -> (forall a w', Inv w' -> Rel w w' -> Q a w' -> Q' a w') -> ok p Q' w.
Proof.
  revert w. induction p as [a|e|c k IH]; intros w; cbn; auto.
  intros H HQ w' HI HR. specialize (H w' HI HR). destruct (exec c (snd w')) as [r s'].
  destruct H as (H1 & H2 & H3). split; [exact H1|]. split; [exact H2|]. apply IH; [exact H3|].
  intros a w2 HI2 HR2. apply HQ; [exact HI2|]. exact (Rel_trans _ _ _ (Rel_trans _ _ _ HR (proj1 H2)) HR2).
Qed.

(** Sequencing with the intermediate fact at hand. *)
Lemma ok_seq {A B} (p : prog A) (f : A -> prog B) (P : A -> world -> Prop) (Q : B -> world -> Prop) w :
  Inv w -> ok p P w -> (forall a w', Inv w' -> Rel w w' -> P a w' -> ok (f a) Q w') -> ok (bind p f) Q w.
Proof. intros HI H1 H2. apply ok_bind; [exact HI|]. exact (ok_mono _ _ _ _ H1 H2). Qed.

Lemma Step_refl w : Step w w.
Proof. split; [apply Rel_refl|]. split; [reflexivity|auto]. Qed.

(** Commands that do not change the memory. *)
Lemma ok_read {A} (c : cmd) (k : res c -> prog A) (Q : A -> world -> Prop) w :
  (forall s, snd (exec c s) = s) ->
  (forall w', Inv w' -> Rel w w' -> ok (k (fst (exec c (snd w')))) Q w') -> ok (Vis c k) Q w.
Proof.
  intros Hs H w' HI HR. specialize (H w' HI HR). specialize (Hs (snd w')).
  destruct (exec c (snd w')) as [r s']. cbn in Hs, H. subst s'. rewrite <- surjective_pairing.
  split; [exact HI|]. split; [apply Step_refl|exact H].
Qed.

(** Commands that do. *)
Lemma ok_cmd {A} (c : cmd) (k : res c -> prog A) (Q : A -> world -> Prop) w :
  (forall w', Inv w' -> Rel w w' -> let '(r, s') := exec c (snd w') in
     Inv (fst w', s') /\ Step w' (fst w', s') /\ (Inv (fst w', s') -> Rel w (fst w', s') -> ok (k r) Q (fst w', s'))) ->
  ok (Vis c k) Q w.
Proof.
  intros H w' HI HR. specialize (H w' HI HR). destruct (exec c (snd w')) as [r s']. destruct H as (H1 & H2 & H3).
  split; [exact H1|]. split; [exact H2|]. apply H3; [exact H1|]. exact (Rel_trans _ _ _ HR (proj1 H2)).
Qed.

End Ok.
