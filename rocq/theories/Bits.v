(** Facts about marker bits and reserved words. *)
From Coq Require Import NArith Bool Lia.
From Verif Require Import Word.
Local Open Scope N_scope.

Lemma testbit_1 n : N.testbit 1 n = (n =? 0).
Proof.
  destruct n as [|p]; [reflexivity|]. destruct p; reflexivity.
Qed.

Lemma testbit_2 n : N.testbit 2 n = (n =? 1).
Proof.
  destruct n as [|p]; [reflexivity|]. destruct p; reflexivity.
Qed.

Lemma isMarked_dirty w : isMarked w DirtyFlag = N.testbit w 0.
Proof.
  unfold isMarked, DirtyFlag. destruct (N.testbit w 0) eqn:E.
  - apply negb_true_iff, N.eqb_neq. intros H.
    assert (N.testbit (N.land w 1) 0 = false) by (rewrite H; reflexivity).
    rewrite N.land_spec, E in H0. discriminate.
  - apply negb_false_iff, N.eqb_eq. apply N.bits_inj. intros n.
    rewrite N.land_spec, testbit_1, N.bits_0.
    destruct (N.eqb_spec n 0); subst; rewrite ?E, ?andb_false_r; reflexivity.
Qed.

Lemma isMarked_mig w : isMarked w MigrationFlag = N.testbit w 1.
Proof.
  unfold isMarked, MigrationFlag. destruct (N.testbit w 1) eqn:E.
  - apply negb_true_iff, N.eqb_neq. intros H.
    assert (N.testbit (N.land w 2) 1 = false) by (rewrite H; reflexivity).
    rewrite N.land_spec, E in H0. discriminate.
  - apply negb_false_iff, N.eqb_eq. apply N.bits_inj. intros n.
    rewrite N.land_spec, testbit_2, N.bits_0.
    destruct (N.eqb_spec n 1); subst; rewrite ?E, ?andb_false_r; reflexivity.
Qed.

Lemma clean_spec w n : N.testbit (clean w) n = N.testbit w n && negb (n =? 0).
Proof. unfold clean, clearMark, DirtyFlag. now rewrite N.ldiff_spec, testbit_1. Qed.
Lemma dirty_spec w n : N.testbit (dirty w) n = N.testbit w n || (n =? 0).
Proof. unfold dirty, setMark, DirtyFlag. now rewrite N.lor_spec, testbit_1. Qed.
Lemma mark_spec w n : N.testbit (setMark w MigrationFlag) n = N.testbit w n || (n =? 1).
Proof. unfold setMark, MigrationFlag. now rewrite N.lor_spec, testbit_2. Qed.
Lemma unmark_spec w n : N.testbit (clearMark w MigrationFlag) n = N.testbit w n && negb (n =? 1).
Proof. unfold clearMark, MigrationFlag. now rewrite N.ldiff_spec, testbit_2. Qed.

(** Solve an equation between words built from [clean], [dirty] and marks, bit by bit. *)
Ltac bits :=
  apply N.bits_inj; let n := fresh "n" in intros n;
  rewrite ?clean_spec, ?dirty_spec, ?mark_spec, ?unmark_spec, ?clean_spec, ?dirty_spec, ?mark_spec, ?unmark_spec;
  destruct (N.eqb_spec n 0); [subst n|]; [|destruct (N.eqb_spec n 1); [subst n|]];
  repeat match goal with H : N.testbit _ _ = _ |- _ => rewrite ?H; revert H end; intros;
  rewrite ?andb_true_r, ?andb_false_r, ?orb_true_r, ?orb_false_r; simpl;
  rewrite ?andb_true_r, ?andb_false_r, ?orb_true_r, ?orb_false_r; auto.

Definition isclean (w : N) : Prop := isMarked w DirtyFlag = false.
Definition unmarked (w : N) : Prop := isMarked w MigrationFlag = false.

Lemma clean_isclean w : isclean (clean w).
Proof. unfold isclean. rewrite isMarked_dirty, clean_spec. apply andb_false_r. Qed.
Lemma clean_id w : isclean w -> clean w = w.
Proof. unfold isclean. rewrite isMarked_dirty. intros H. bits. Qed.
Lemma clean_clean w : clean (clean w) = clean w.
Proof. apply clean_id, clean_isclean. Qed.
Lemma clean_dirty w : clean (dirty w) = clean w.
Proof. bits. Qed.
Lemma dirty_clean w : dirty (clean w) = dirty w.
Proof. bits. Qed.
Lemma clean_0 : clean 0 = 0.
Proof. reflexivity. Qed.
Lemma isMarked_clean_mig w : isMarked (clean w) MigrationFlag = isMarked w MigrationFlag.
Proof. rewrite !isMarked_mig, clean_spec. apply andb_true_r. Qed.
Lemma isMarked_dirty_mig w : isMarked (dirty w) MigrationFlag = isMarked w MigrationFlag.
Proof. rewrite !isMarked_mig, dirty_spec. apply orb_false_r. Qed.
Lemma isMarked_dirty_dirty w : isMarked (dirty w) DirtyFlag = true.
Proof. rewrite !isMarked_dirty, dirty_spec. apply orb_true_r. Qed.
Lemma dirty_id w : isMarked w DirtyFlag = true -> dirty w = w.
Proof. rewrite isMarked_dirty. intros H. bits. Qed.
Lemma isclean_neq_dirty w x : isclean w -> w <> dirty x.
Proof. intros H ->. unfold isclean in H. rewrite isMarked_dirty_dirty in H. discriminate. Qed.

Lemma mark_marked v : isMarked (setMark v MigrationFlag) MigrationFlag = true.
Proof. rewrite isMarked_mig, mark_spec. apply orb_true_r. Qed.
Lemma mark_isclean v : isclean v -> isclean (setMark v MigrationFlag).
Proof. unfold isclean. rewrite !isMarked_dirty, mark_spec. intros ->. reflexivity. Qed.
Lemma unmark_mark v : unmarked v -> clearMark (setMark v MigrationFlag) MigrationFlag = v.
Proof. unfold unmarked. rewrite isMarked_mig. intros H. bits. Qed.
Lemma mark_unmark v : isMarked v MigrationFlag = true -> setMark (clearMark v MigrationFlag) MigrationFlag = v.
Proof. rewrite isMarked_mig. intros H. bits. Qed.
Lemma unmark_unmarked v : unmarked (clearMark v MigrationFlag).
Proof. unfold unmarked. rewrite isMarked_mig, unmark_spec. apply andb_false_r. Qed.
Lemma unmark_id v : unmarked v -> clearMark v MigrationFlag = v.
Proof. unfold unmarked. rewrite isMarked_mig. intros H. bits. Qed.
Lemma clean_mark v : clean (setMark v MigrationFlag) = setMark (clean v) MigrationFlag.
Proof. bits. Qed.
Lemma clean_unmark v : clean (clearMark v MigrationFlag) = clearMark (clean v) MigrationFlag.
Proof. bits. Qed.

(** Concrete words. *)
Lemma VINITIAL_val : VINITIAL = 18446744073709551608. Proof. reflexivity. Qed.
Lemma VTOMBSTONE_val : VTOMBSTONE = 18446744073709551600. Proof. reflexivity. Qed.
Lemma TOMBPRIME_val : TOMBPRIME = 18446744073709551602. Proof. reflexivity. Qed.
Lemma MATCH_ANY_val : MATCH_ANY = 18446744073709551592. Proof. reflexivity. Qed.
Lemma NO_MATCH_OLD_val : NO_MATCH_OLD = 18446744073709551584. Proof. reflexivity. Qed.
Lemma KINITIAL_val : KINITIAL = VINITIAL. Proof. reflexivity. Qed.
Lemma KTOMBSTONE_val : KTOMBSTONE = VTOMBSTONE. Proof. reflexivity. Qed.

Lemma VINITIAL_clean : isclean VINITIAL. Proof. reflexivity. Qed.
Lemma VTOMBSTONE_clean : isclean VTOMBSTONE. Proof. reflexivity. Qed.
Lemma TOMBPRIME_clean : isclean TOMBPRIME. Proof. reflexivity. Qed.
Lemma KINITIAL_clean : isclean KINITIAL. Proof. reflexivity. Qed.
Lemma KTOMBSTONE_clean : isclean KTOMBSTONE. Proof. reflexivity. Qed.
Lemma NO_MATCH_OLD_clean : isclean NO_MATCH_OLD. Proof. reflexivity. Qed.
Lemma MATCH_ANY_clean : isclean MATCH_ANY. Proof. reflexivity. Qed.
Lemma VINITIAL_unmarked : unmarked VINITIAL. Proof. reflexivity. Qed.
Lemma VTOMBSTONE_unmarked : unmarked VTOMBSTONE. Proof. reflexivity. Qed.
Lemma NO_MATCH_OLD_unmarked : unmarked NO_MATCH_OLD. Proof. reflexivity. Qed.
Lemma MATCH_ANY_unmarked : unmarked MATCH_ANY. Proof. reflexivity. Qed.
Lemma TOMBPRIME_marked : isMarked TOMBPRIME MigrationFlag = true. Proof. reflexivity. Qed.

Lemma unmark_TOMBPRIME : clearMark TOMBPRIME MigrationFlag = VTOMBSTONE. Proof. reflexivity. Qed.

Lemma mark_eq_TOMBPRIME v : unmarked v -> setMark v MigrationFlag = TOMBPRIME -> v = VTOMBSTONE.
Proof.
  intros Hu H. rewrite <- (unmark_mark v Hu), H. reflexivity.
Qed.

Lemma legal_keyb_spec k : legal_keyb k = true <-> legal_key k.
Proof.
  unfold legal_keyb, legal_key. rewrite !andb_true_iff, !negb_true_iff, N.ltb_lt. tauto.
Qed.
Lemma legal_valb_spec k : legal_valb k = true <-> legal_val k.
Proof.
  unfold legal_valb, legal_val. rewrite !andb_true_iff, !negb_true_iff, N.ltb_lt. tauto.
Qed.

Lemma clean_lt w : w < two64 -> clean w < two64.
Proof.
  intros H. unfold clean, clearMark. apply N.le_lt_trans with w; [|exact H].
  apply N.ldiff_le. apply N.bits_inj. intros n. rewrite !N.ldiff_spec, N.bits_0.
  destruct (N.testbit w n), (N.testbit DirtyFlag n); reflexivity.
Qed.

Global Opaque VINITIAL VTOMBSTONE TOMBPRIME MATCH_ANY NO_MATCH_OLD KINITIAL KTOMBSTONE.
Global Opaque clean dirty isMarked setMark clearMark.
