(** While the map has a single table, a call changes at most one value, and once: every state it passes through has,
    in each entry, the value from before the call or the value from after it. *)
From Coq Require Import NArith Bool List Lia Arith.
From stdpp Require Import base list.
From Verif Require Import Word Bits Prog HashMap Spec ConcSpec ConcInv SeqCopy DurableSpec.
Import ListNotations.
Open Scope nat_scope.
Open Scope prog_scope.

(** The values of a version, without the unpersisted mark. *)
Definition vals (ps : list pair_) : list N := map (fun p => clean (snd p)) ps.

(** One table, no successor. *)
Definition one (s : state) (T : table) : Prop := st_tabs s = [T] /\ t_new T = None.

(** No value changes. *)
Definition vq (T T' : table) : Prop :=
  exists e, versions T' = versions T ++ e /\ Forall (fun ps => vals ps = vals (t_pairs T)) e /\ vals (t_pairs T') = vals (t_pairs T).
(** A single write. *)
Definition wr (T T' : table) : Prop := versions T' = versions T ++ [t_pairs T'].

Lemma vq_refl T : vq T T.
Proof. exists []. rewrite app_nil_r. auto. Qed.
Lemma vq_trans T1 T2 T3 : vq T1 T2 -> vq T2 T3 -> vq T1 T3.
Proof.
  intros (e1 & A1 & A2 & A3) (e2 & B1 & B2 & B3). exists (e1 ++ e2). split; [rewrite B1, A1, app_assoc; reflexivity|]. split; [|congruence].
  apply Forall_app. split; [exact A2|]. eapply Forall_impl; [exact B2|]. cbv beta. intros ps H. congruence.
Qed.

Lemma vals_alter_key i n ps : vals (alter (set_cell CKey n) i ps) = vals ps.
Proof. revert i. induction ps as [|p ps IH]; intros [|i]; cbn; try reflexivity. f_equal. exact (IH i). Qed.
Lemma vals_alter_clean i n ps : (forall p, ps !! i = Some p -> clean n = clean (snd p)) -> vals (alter (set_cell CVal n) i ps) = vals ps.
Proof.
  revert i. induction ps as [|p ps IH]; intros [|i] H; cbn; try reflexivity.
  - rewrite (H p eq_refl). reflexivity.
  - f_equal. apply IH. exact H.
Qed.

Lemma vq_write i c n T : vals (alter (set_cell c n) i (t_pairs T)) = vals (t_pairs T) -> vq T (write_cell i c n T).
Proof. intros H. exists [alter (set_cell c n) i (t_pairs T)]. split; [apply versions_write|]. split; [constructor; [exact H|constructor]|exact H]. Qed.
Lemma vq_same T T' : t_pairs T' = t_pairs T -> t_past T' = t_past T -> vq T T'.
Proof. intros E1 E2. exists []. rewrite app_nil_r. unfold versions. rewrite E1, E2. auto. Qed.

(** No post-condition, or a failure before any write. *)
Ltac er := first [exact I | exact (or_introl eq_refl)].

Section One.
Context (C : cfg).

(** [ow b p Q s T]: running [p] from [s], whose only table is [T], and as long as there is one table, the values
    change at most once, and only if [b]; a second table is created only while no value has changed; and a call that has
    changed a value does not fail (but for an assertion). *)
Fixpoint ow {A} (b : bool) (p : prog A) (Q : bool -> A -> Prop) (s : state) (T : table) : Prop :=
  match p with
  | Ret a => Q b a
  | Err e => b = true \/ e = AssertFail
  | Vis c k => let '(r, s') := exec c s in
      (b = true /\ 1 < length (st_tabs s')) \/
      (exists T', one s' T' /\ vq T T' /\ ow b (k r) Q s' T') \/
      (b = true /\ exists T', one s' T' /\ wr T T' /\ ow false (k r) Q s' T')
  end.

Lemma ow_bind {A B} b (p : prog A) (f : A -> prog B) (P : bool -> A -> Prop) (Q : bool -> B -> Prop) s T : one s T ->
  ow b p P s T -> (forall b' a s' T', one s' T' -> P b' a -> ow b' (f a) Q s' T') -> ow b (bind p f) Q s T.
Proof.
  revert b s T. induction p as [a|e|c k IH]; intros b s T H1; cbn; auto.
  destruct (exec c s) as [r s']. intros [H|[(T' & O' & V' & H)|(-> & T' & O' & V' & H)]] Hf.
  - left. exact H.
  - right. left. exists T'. split; [exact O'|]. split; [exact V'|]. apply IH; auto.
  - right. right. split; [reflexivity|]. exists T'. split; [exact O'|]. split; [exact V'|]. apply IH; auto.
Qed.

Lemma ow_read {A} b (c : cmd) (k : res c -> prog A) (Q : bool -> A -> Prop) s T : one s T -> snd (exec c s) = s ->
  ow b (k (fst (exec c s))) Q s T -> ow b (Vis c k) Q s T.
Proof.
  intros H1 Hs H. cbn. destruct (exec c s) as [r s']. cbn in Hs, H. subst s'. right. left. exists T. auto using vq_refl.
Qed.

Lemma ow_cmd {A} b (c : cmd) (k : res c -> prog A) (Q : bool -> A -> Prop) s T : one s T ->
  (exists T', one (snd (exec c s)) T' /\ vq T T' /\ ow b (k (fst (exec c s))) Q (snd (exec c s)) T') -> ow b (Vis c k) Q s T.
Proof. intros H1 H. cbn. destruct (exec c s) as [r s']. cbn in H. right. left. exact H. Qed.

Lemma one_with s T t f : one s T -> t_new (f T) = None ->
  exists T', one (with_tab t f s) T' /\ ((t = 0 /\ T' = f T) \/ T' = T).
Proof.
  intros (E1 & E2) Hf. destruct t as [|t].
  - exists (f T). split; [|auto]. split; [cbn; rewrite E1; reflexivity|exact Hf].
  - exists T. split; [|auto]. split; [cbn; rewrite E1; reflexivity|exact E2].
Qed.

Lemma ow_assert b x (Q : bool -> unit -> Prop) s T : Q b tt -> ow b (assert_ C x) Q s T.
Proof. intros H. unfold assert_. destruct (_ || _); [exact H|right; reflexivity]. Qed.

Notation keep b := (fun b' _ => b' = b).

Lemma ow_bounds t i s T : one s T -> ow true (bounds C t i) (fun b' _ => b' = true /\ t = 0) s T.
Proof.
  intros H1. unfold bounds, do; cbn [bind]. apply ow_read; [exact H1|reflexivity|]. cbn [exec fst].
  destruct H1 as (E & _). rewrite E. destruct t as [|t]; [|er]. cbn [lookup list_lookup]. destruct (_ <? _)%nat; [cbn; auto|er].
Qed.

Lemma read_one s T i c : one s T -> read_cell s 0 i c = match t_pairs T !! i with Some p => get_cell c p | None => 0%N end.
Proof. intros (E & _). unfold read_cell. rewrite E. reflexivity. Qed.

Lemma ow_pcas_read i c s T : one s T -> ow true (pcas_read 0 i c) (keep true) s T.
Proof.
  intros H1. unfold pcas_read, do; cbn [bind]. apply ow_read; [exact H1|reflexivity|]. change (fst (exec (Load 0 i c) s)) with (read_cell s 0 i c).
  set (w := read_cell s 0 i c). destruct (isMarked w DirtyFlag); [|cbn; reflexivity].
  unfold persist, do; cbn [bind]. apply ow_read; [exact H1|reflexivity|]. set (v := fst (exec (Flush 0 i) s)). clearbody v. cbn in v.
  apply ow_cmd; [exact H1|]. cbn [exec fst snd]. set (f := fun T0 => set_pers _ T0).
  destruct (one_with s T 0 f H1 (proj2 H1)) as (T1 & O1 & HT1). exists T1. split; [exact O1|].
  assert (HP : t_pairs T1 = t_pairs T /\ t_past T1 = t_past T) by (destruct HT1 as [(_ & ->)| ->]; auto). destruct HP as (HP & HPa).
  split; [apply vq_same; assumption|]. set (s1 := with_tab 0 f s) in *. clearbody s1. clear f HT1.
  apply ow_cmd; [exact O1|]. cbn [exec]. destruct (N.eqb_spec (read_cell s1 0 i c) w) as [E|E]; cbn [fst snd].
  - destruct (one_with s1 T1 0 (write_cell i c (clean w)) O1 (proj2 O1)) as (T2 & O2 & HT2). exists T2. split; [exact O2|]. split; [|cbn; reflexivity].
    destruct HT2 as [(_ & ->)| ->]; [|apply vq_refl]. apply vq_write. destruct c; [apply vals_alter_key|]. apply vals_alter_clean.
    intros p Hp. rewrite (read_one _ _ _ _ O1), Hp in E. cbn in E. rewrite clean_clean. congruence.
  - exists T1. split; [exact O1|]. split; [apply vq_refl|cbn; reflexivity].
Qed.

Lemma ow_CASkey t i o n s T : one s T -> ow true (CASkey C t i o n) (keep true) s T.
Proof.
  intros H1. unfold CASkey. eapply ow_bind; [exact H1|apply ow_bounds; exact H1|]. intros b1 ? s1 T1 O1 (-> & ->).
  unfold pcas. eapply ow_bind with (P := keep true); [exact O1| |intros ? ? ? ? ? ->; cbn; reflexivity].
  eapply ow_bind; [exact O1|apply ow_pcas_read; exact O1|]. intros b2 ? s2 T2 O2 ->.
  unfold do; cbn [bind]. apply ow_cmd; [exact O2|]. cbn [exec]. destruct (_ =? _)%N; cbn [fst snd].
  - destruct (one_with s2 T2 0 (write_cell i CKey (dirty n)) O2 (proj2 O2)) as (T3 & O3 & HT3). exists T3. split; [exact O3|].
    split; [destruct HT3 as [(_ & ->)| ->]; [apply vq_write, vals_alter_key|apply vq_refl]|].
    eapply ow_bind with (P := keep true); [exact O3|apply ow_assert; reflexivity|]. intros ? ? ? ? ? ->. cbn. reflexivity.
  - exists T2. split; [exact O2|]. split; [apply vq_refl|]. eapply ow_bind with (P := keep true); [exact O2|apply ow_assert; reflexivity|]. intros ? ? ? ? ? ->. cbn. reflexivity.
Qed.

(** The write: it succeeds exactly if it returns the word it was given. *)
Definition wrote (o : N) : bool -> N -> Prop := fun b' r => (b' = false /\ r = o) \/ (b' = true /\ r <> o).

Lemma ow_pcas_val i o n s T : one s T -> ow true (r <-- pcas C 0 i CVal o n;; Ret (snd r)) (wrote o) s T.
Proof.
  intros H1. unfold pcas.
  eapply ow_bind with (P := fun b' r => wrote o b' (snd r)); [exact H1| |intros ? ? ? ? ? H; exact H].
  eapply ow_bind; [exact H1|apply ow_pcas_read; exact H1|]. intros b2 ? s2 T2 O2 ->.
  unfold do; cbn [bind ow exec]. destruct (N.eqb_spec (read_cell s2 0 i CVal) o) as [E|E].
  - right. right. split; [reflexivity|]. exists (write_cell i CVal (dirty n) T2). split; [|split].
    + destruct O2 as (E1 & E2). split; [cbn; rewrite E1; reflexivity|exact E2].
    + unfold wr. rewrite versions_write. reflexivity.
    + eapply ow_bind with (P := fun b' _ => b' = false); [split; [cbn; rewrite (proj1 O2); reflexivity|exact (proj2 O2)]|apply ow_assert; reflexivity|].
      intros ? ? ? ? ? ->. cbn [ow fst snd]. left. auto.
  - right. left. exists T2. split; [exact O2|]. split; [apply vq_refl|].
    eapply ow_bind with (P := fun b' _ => b' = true); [exact O2|apply ow_assert; reflexivity|].
    intros ? ? ? ? ? ->. cbn [ow fst snd]. right. auto.
Qed.

Definition casW (CAS : casfun) (nv : N) : Prop := forall t i o s T, one s T -> ow true (CAS t i o nv) (wrote o) s T.

Lemma casW_CASvalue nv : casW (CASvalue C) nv.
Proof.
  intros t i o s T H1. unfold CASvalue. eapply ow_bind; [exact H1|apply ow_bounds; exact H1|]. intros b1 ? s1 T1 O1 (-> & ->).
  apply ow_pcas_val. exact O1.
Qed.
Lemma casW_increment nv : casW (increment C) nv.
Proof.
  intros t i o s T H1. unfold increment. eapply ow_bind; [exact H1|apply ow_bounds; exact H1|]. intros b1 ? s1 T1 O1 (-> & ->). cbn zeta.
  apply ow_pcas_val. exact O1.
Qed.

Lemma ow_key t i s T : one s T -> ow true (key C t i) (keep true) s T.
Proof.
  intros H1. unfold key. eapply ow_bind; [exact H1|apply ow_bounds; exact H1|]. intros b1 ? s1 T1 O1 (-> & ->). apply ow_pcas_read. exact O1.
Qed.
Lemma ow_value t i s T : one s T -> ow true (value C t i) (keep true) s T.
Proof.
  intros H1. unfold value. eapply ow_bind; [exact H1|apply ow_bounds; exact H1|]. intros b1 ? s1 T1 O1 (-> & ->). apply ow_pcas_read. exact O1.
Qed.

Lemma ow_AddF {A} b t f d (k : N -> prog A) (Q : bool -> A -> Prop) s T : one s T ->
  (forall r s' T', one s' T' -> ow b (k r) Q s' T') -> ow b (Vis (AddF t f d) k) Q s T.
Proof.
  intros H1 H. apply ow_cmd; [exact H1|]. cbn [exec fst snd].
  destruct (one_with s T t (fun T0 => set_fld f (add64 (get_fld f T0) d) T0) H1 (proj2 H1)) as (T1 & O1 & HT1).
  exists T1. split; [exact O1|]. split; [destruct HT1 as [(_ & ->)| ->]; [apply vq_same; reflexivity|apply vq_refl]|]. apply H. exact O1.
Qed.

Lemma ow_loadNew {A} b t (k : option nat -> prog A) (Q : bool -> A -> Prop) s T : one s T -> ow b (k None) Q s T -> ow b (Vis (LoadNew t) k) Q s T.
Proof.
  intros H1 H. apply ow_read; [exact H1|reflexivity|]. cbn [exec fst]. destruct H1 as (E1 & E2). rewrite E1. destruct t as [|t]; [cbn; rewrite E2; exact H|exact H].
Qed.

Lemma ow_resize t (Q : bool -> nat -> Prop) s T : one s T -> ow true (resize C t) Q s T.
Proof.
  intros H1. unfold resize, do; cbn [bind]. apply ow_loadNew; [exact H1|].
  apply ow_read; [exact H1|reflexivity|]. apply ow_read; [exact H1|reflexivity|]. cbn zeta. apply ow_loadNew; [exact H1|].
  apply ow_cmd; [exact H1|]. exists T. split; [exact H1|]. split; [apply vq_refl|]. cbn [exec fst snd].
  match goal with |- ow _ (Vis (Mmap ?f ?c ?e) ?k) _ ?s1 _ => set (kk := k); set (s1' := s1) end.
  assert (O1 : one s1' T) by exact H1. clearbody s1'. cbn [ow exec].
  destruct (mmap_table _ _ _ _ _) as [T'|].
  - left. split; [reflexivity|]. cbn [st_tabs]. rewrite (proj1 O1). cbn. lia.
  - right. left. exists T. split; [exact O1|]. split; [apply vq_refl|er].
Qed.

Lemma ow_helpCopy n put h s T : one s T -> ow true (helpCopy C n put h) (keep true) s T.
Proof.
  intros H1. unfold helpCopy, do; cbn [bind]. apply ow_read; [exact H1|reflexivity|]. apply ow_loadNew; [exact H1|]. cbn. reflexivity.
Qed.

Lemma ow_copySlotAndCheck n put t i x (Q : bool -> nat -> Prop) s T : one s T -> ow true (copySlotAndCheck C n put t i x) Q s T.
Proof. intros H1. unfold copySlotAndCheck, do; cbn [bind]. apply ow_loadNew; [exact H1|]. er. Qed.

Lemma ow_claimSlot t k nv len : forall n idx rp s T, one s T -> ow true (claimSlot C n t k nv len idx rp) (keep true) s T.
Proof.
  induction n as [|n IH]; intros idx rp s T H1; cbn [claimSlot]; [er|].
  assert (Hcheck : forall K V s' T', one s' T' ->
    ow true (if (K =? k)%N then Ret (CSlot idx V rp)
        else if (reprobeLimit len <=? S rp)%nat || (K =? KTOMBSTONE)%N then Ret CFull
        else claimSlot C n t k nv len (mask (N.of_nat idx + 1) len) (S rp)) (keep true) s' T').
  { intros K V s' T' O'. destruct (K =? k)%N; [reflexivity|]. destruct (_ || _); [reflexivity|]. apply IH. exact O'. }
  eapply ow_bind; [exact H1|apply ow_key; exact H1|]. intros b1 K s1 T1 O1 ->.
  eapply ow_bind; [exact O1|apply ow_value; exact O1|]. intros b2 V s2 T2 O2 ->.
  destruct (K =? VINITIAL)%N; [|apply Hcheck; exact O2]. destruct (nv =? VTOMBSTONE)%N; [reflexivity|].
  eapply ow_bind; [exact O2|apply ow_CASkey; exact O2|]. intros b3 ak s3 T3 O3 ->.
  destruct (ak =? KINITIAL)%N; [|apply Hcheck; exact O3].
  unfold do; cbn [bind]. apply ow_AddF; [exact O3|]. intros r s4 T4 O4. reflexivity.
Qed.

Lemma ow_countChange b t V nv ov s T : one s T -> ow b (countChange t V nv ov) (keep b) s T.
Proof.
  intros H1. unfold countChange.
  assert (H : forall d, ow b (do (AddF t FSize d) ;;; Ret tt) (keep b) s T).
  { intros d. unfold do; cbn [bind]. apply ow_AddF; [exact H1|]. intros r s' T' O'. reflexivity. }
  destruct (negb _); [|reflexivity]. destruct (_ && _); [apply H|]. destruct (_ && _); [apply H|reflexivity].
Qed.

Notation any := (fun _ _ => True).

Lemma ow_updateLoop CAS fwd t i nv ov : casW CAS nv -> (forall s T, one s T -> ow true fwd any s T) ->
  forall n V s T, one s T -> ow true (updateLoop C n CAS fwd t i nv ov V) any s T.
Proof.
  intros HCAS Hf. induction n as [|n IH]; intros V s T H1; cbn [updateLoop]; [er|].
  eapply ow_bind with (P := keep true); [exact H1|apply ow_assert; reflexivity|]. intros b1 ? s1 T1 O1 ->. destruct (noMatch V ov); [er|].
  eapply ow_bind; [exact O1|apply HCAS; exact O1|]. intros b2 av s2 T2 O2 Ha. destruct (N.eqb_spec av V) as [E|E].
  - eapply ow_bind; [exact O2|apply ow_countChange; exact O2|]. intros; er.
  - destruct Ha as [(_ & Ha)|(-> & _)]; [contradiction|].
    eapply ow_bind; [exact O2|apply ow_value; exact O2|]. intros b3 x s3 T3 O3 ->. destruct (isMarked x _); [apply Hf; exact O3|apply IH; exact O3].
Qed.

Lemma ow_putIfMatch n CAS t k nv ov s T : casW CAS nv -> one s T -> ow true (putIfMatch C n CAS t k nv ov) any s T.
Proof.
  intros HCAS H1. destruct n as [|n]; cbn [putIfMatch]; [er|]. unfold putBody.
  eapply ow_bind with (P := keep true); [exact H1|apply ow_assert; reflexivity|]. intros b1 ? s1 T1 O1 ->.
  eapply ow_bind with (P := keep true); [exact O1|apply ow_assert; reflexivity|]. intros b2 ? s2 T2 O2 ->.
  eapply ow_bind with (P := keep true); [exact O2|apply ow_assert; reflexivity|]. intros b3 ? s3 T3 O3 ->.
  unfold do; cbn [bind]. apply ow_read; [exact O3|reflexivity|].
  eapply ow_bind; [exact O3|apply ow_claimSlot; exact O3|]. intros b4 c s4 T4 O4 ->. destruct c as [|idx V rp|].
  - er.
  - destruct (nv =? V)%N; [er|]. cbn zeta.
    assert (Hfwd : forall s' T', one s' T' -> ow true (nt <-- copySlotAndCheck C n (putIfMatch C n (CASvalue C)) t idx (ov =? VINITIAL)%N;; putIfMatch C n (CASvalue C) nt k nv ov) any s' T').
    { intros s' T' O'. eapply ow_bind with (P := fun _ _ => False); [exact O'|apply ow_copySlotAndCheck; exact O'|]. intros ? ? ? ? ? []. }
    eapply ow_bind with (P := keep true); [exact O4| |].
    { destruct (V =? VINITIAL)%N; [|reflexivity]. unfold tableFull. destruct (_ <=? _)%nat; [|reflexivity]. unfold do; cbn [bind].
      apply ow_read; [exact O4|reflexivity|]. reflexivity. }
    intros b5 full s5 T5 O5 ->. destruct (full || _).
    + eapply ow_bind with (P := fun _ _ => False); [exact O5|apply ow_resize; exact O5|]. intros ? ? ? ? ? [].
    + apply ow_updateLoop; auto.
  - eapply ow_bind with (P := fun _ _ => False); [exact O4|apply ow_resize; exact O4|]. intros ? ? ? ? ? [].
Qed.

Lemma ow_getLoop put rec t k len : forall n idx rp s T, one s T -> ow true (getLoop C n put rec t k len idx rp) (keep true) s T.
Proof.
  induction n as [|n IH]; intros idx rp s T H1; cbn [getLoop]; [er|].
  eapply ow_bind; [exact H1|apply ow_key; exact H1|]. intros b1 K s1 T1 O1 ->.
  eapply ow_bind; [exact O1|apply ow_value; exact O1|]. intros b2 V s2 T2 O2 ->.
  destruct (K =? KINITIAL)%N; [reflexivity|]. unfold do; cbn [bind]. apply ow_loadNew; [exact O2|].
  destruct (K =? k)%N.
  - destruct (negb _); [reflexivity|]. eapply ow_bind with (P := fun _ _ => False); [exact O2|apply ow_copySlotAndCheck; exact O2|]. intros ? ? ? ? ? [].
  - destruct (_ || _); [reflexivity|]. apply IH. exact O2.
Qed.

Lemma ow_get n k s T : one s T -> ow true (get C n k) (keep true) s T.
Proof.
  intros H1. unfold get, do; cbn [bind]. apply ow_read; [exact H1|reflexivity|].
  eapply ow_bind with (P := keep true); [exact H1| |].
  { destruct n as [|n]; cbn [getImpl]; [er|]. unfold do; cbn [bind]. apply ow_read; [exact H1|reflexivity|]. apply ow_getLoop. exact H1. }
  intros b1 V s1 T1 O1 ->. eapply ow_bind with (P := keep true); [exact O1|apply ow_assert; reflexivity|]. intros ? ? ? ? ? ->. reflexivity.
Qed.

Lemma ow_pub n CAS k nv ov s T : casW CAS nv -> one s T -> ow true (putIfMatchPub C n k nv ov CAS) any s T.
Proof.
  intros HCAS H1. unfold putIfMatchPub.
  eapply ow_bind with (P := keep true); [exact H1|apply ow_assert; reflexivity|]. intros b1 ? s1 T1 O1 ->.
  eapply ow_bind with (P := keep true); [exact O1|apply ow_assert; reflexivity|]. intros b2 ? s2 T2 O2 ->.
  unfold do; cbn [bind]. apply ow_read; [exact O2|reflexivity|].
  eapply ow_bind; [exact O2|apply ow_putIfMatch; [exact HCAS|exact O2]|]. intros b3 r s3 T3 O3 _.
  eapply ow_bind with (P := any); [exact O3|apply ow_assert; er|]. intros; er.
Qed.

Lemma ow_op n o s T : one s T -> ow true (op_prog C n o) any s T.
Proof.
  intros H1. destruct o as [k|k|k v|k v|k|k v|k ov v|k|]; cbn [op_prog].
  - eapply ow_bind; [exact H1|apply ow_get; exact H1|]. intros; er.
  - unfold containsKey. eapply ow_bind with (P := any); [exact H1| |intros; er]. eapply ow_bind; [exact H1|apply ow_get; exact H1|]. intros; er.
  - eapply ow_bind; [exact H1|apply ow_pub; [apply casW_CASvalue|exact H1]|]. intros; er.
  - eapply ow_bind; [exact H1|apply ow_pub; [apply casW_CASvalue|exact H1]|]. intros; er.
  - unfold remove. eapply ow_bind with (P := any); [exact H1| |intros; er].
    eapply ow_bind; [exact H1|apply ow_pub; [apply casW_CASvalue|exact H1]|]. intros; er.
  - unfold removeVal. eapply ow_bind with (P := any); [exact H1| |intros; er].
    eapply ow_bind; [exact H1|apply ow_pub; [apply casW_CASvalue|exact H1]|]. intros; er.
  - unfold replace. eapply ow_bind with (P := any); [exact H1| |intros; er].
    eapply ow_bind; [exact H1|apply ow_pub; [apply casW_CASvalue|exact H1]|]. intros; er.
  - eapply ow_bind; [exact H1|apply ow_pub; [apply casW_increment|exact H1]|]. intros; er.
  - unfold size, do; cbn [bind]. apply ow_read; [exact H1|reflexivity|]. apply ow_read; [exact H1|reflexivity|]. er.
Qed.

End One.

(** ** What it gives *)

Lemma exec_len c s : length (st_tabs s) <= length (st_tabs (snd (exec c s))).
Proof.
  destruct c; cbn [exec snd]; try (destruct (_ =? _)%N); try (destruct (option_nat_eqb _ _)); try (destruct (_ =? _)%nat);
    try (destruct (mmap_table _ _ _ _ _)); cbn; rewrite ?alter_length, ?app_length; try lia; cbn; lia.
Qed.

Lemma during_len {A} (p : prog A) s s' : during p s s' -> length (st_tabs s) <= length (st_tabs s').
Proof. induction 1 as [|c k s s' H IH]; [lia|]. pose proof (exec_len c s). lia. Qed.

Lemma run_during {A} (p : prog A) s a s' : run p s = Ok a s' -> during p s s'.
Proof.
  revert s. induction p as [x|e|c k IH]; intros s H; cbn in H; [|discriminate|].
  - injection H as <- <-. constructor.
  - apply during_step. destruct (exec c s) as [r s1]. cbn. exact (IH r s1 H).
Qed.

(** The values of every version since [T] are those of [T] or those of [T']. *)
Definition twoval (T T' : table) : Prop :=
  exists e, versions T' = versions T ++ e /\ Forall (fun ps => vals ps = vals (t_pairs T) \/ vals ps = vals (t_pairs T')) e.

Lemma vq_two T T' : vq T T' -> twoval T T'.
Proof. intros (e & E1 & E2 & E3). exists e. split; [exact E1|]. eapply Forall_impl; [exact E2|]. auto. Qed.
Lemma wr_two T T1 T2 : wr T T1 -> vq T1 T2 -> twoval T T2.
Proof.
  intros W (e & E1 & E2 & E3). exists ([t_pairs T1] ++ e). rewrite E1, W, app_assoc. split; [reflexivity|]. constructor; [auto|].
  eapply Forall_impl; [exact E2|]. cbv beta. intros ps H. right. congruence.
Qed.
Lemma vq_two_trans T T1 T2 : vq T T1 -> twoval T1 T2 -> twoval T T2.
Proof.
  intros (e1 & A1 & A2 & A3) (e2 & B1 & B2). exists (e1 ++ e2). rewrite B1, A1, app_assoc. split; [reflexivity|]. apply Forall_app. split.
  - eapply Forall_impl; [exact A2|]. auto.
  - eapply Forall_impl; [exact B2|]. cbv beta. intros ps [H|H]; [left; congruence|auto].
Qed.

Lemma ow_false_run {A} (p : prog A) Q s T : one s T -> ow false p Q s T ->
  match run p s with Ok _ s2 => exists T2, one s2 T2 /\ vq T T2 | Fail e _ => e = AssertFail end.
Proof.
  revert s T. induction p as [x|e|c k IH]; intros s T O1 H; cbn in *.
  - exists T. split; [exact O1|apply vq_refl].
  - destruct H as [H|H]; [discriminate|exact H].
  - destruct (exec c s) as [r s1]. destruct H as [(H & _)|[(T1 & O1' & V & H)|(H & _)]]; [discriminate| |discriminate].
    specialize (IH r s1 T1 O1' H). destruct (run (k r) s1) as [a s2|e s2]; [|exact IH].
    destruct IH as (T2 & O2 & V2). exists T2. split; [exact O2|exact (vq_trans _ _ _ V V2)].
Qed.

(** How the call goes on from [T']. *)
Definition goes_on {A} (p : prog A) (s : state) (T' : table) : Prop :=
  match run p s with Ok _ s2 => exists T2, one s2 T2 /\ vq T' T2 | Fail e _ => e = AssertFail end.

Lemma ow_false_during {A} (p : prog A) Q s T s' : one s T -> ow false p Q s T -> during p s s' ->
  exists T', one s' T' /\ vq T T' /\ goes_on p s T'.
Proof.
  intros O1 H Hd. revert T O1 H. induction Hd as [p s|c k s s' Hd IH]; intros T O1 H.
  - exists T. split; [exact O1|]. split; [apply vq_refl|]. exact (ow_false_run _ _ _ _ O1 H).
  - cbn in H. unfold goes_on. cbn. destruct (exec c s) as [r s1] eqn:E. cbn in *. destruct H as [(H & _)|[(T1 & O1' & V & H)|(H & _)]]; [discriminate| |discriminate].
    destruct (IH T1 O1' H) as (T' & O' & V' & Hr). exists T'. split; [exact O'|]. split; [exact (vq_trans _ _ _ V V')|]. exact Hr.
Qed.

Lemma ow_true_during {A} (p : prog A) Q s T s' : one s T -> ow true p Q s T -> during p s s' ->
  1 < length (st_tabs s') \/
  exists T', one s' T' /\ (vq T T' \/ (twoval T T' /\ goes_on p s T')).
Proof.
  intros O1 H Hd. revert T O1 H. induction Hd as [p s|c k s s' Hd IH]; intros T O1 H.
  - right. exists T. split; [exact O1|]. left. apply vq_refl.
  - cbn in H. unfold goes_on. cbn. destruct (exec c s) as [r s1] eqn:E. cbn in *. destruct H as [(_ & H)|[(T1 & O1' & V & H)|(_ & T1 & O1' & W & H)]].
    + left. pose proof (during_len _ _ _ Hd). lia.
    + destruct (IH T1 O1' H) as [Hl|(T' & O' & HT)]; [left; exact Hl|right]. exists T'. split; [exact O'|].
      destruct HT as [HV|(HV & Hr)]; [left; exact (vq_trans _ _ _ V HV)|right]. split; [exact (vq_two_trans _ _ _ V HV)|]. exact Hr.
    + right. destruct (ow_false_during _ _ _ _ _ O1' H Hd) as (T' & O' & V' & Hr). exists T'. split; [exact O'|]. right.
      split; [exact (wr_two _ _ _ W V')|]. exact Hr.
Qed.

Lemma op_one_write C n o s T s' : one s T -> during (op_prog C n o) s s' ->
  1 < length (st_tabs s') \/
  exists T', one s' T' /\ (vq T T' \/ (twoval T T' /\ goes_on (op_prog C n o) s T')).
Proof. intros O1 Hd. exact (ow_true_during _ _ _ _ _ O1 (ow_op C n o s T O1) Hd). Qed.
