(** Fuel only cuts executions short: a program with more fuel does the same, unless the smaller
    one ran out of fuel. *)
From Coq Require Import NArith Bool List Lia.
From stdpp Require Import base list.
From Verif Require Import Word Prog HashMap.
Import ListNotations.
Open Scope prog_scope.

(** [q] is [p] with some [Err OutOfFuel] leaves replaced. *)
Inductive le {A} : prog A -> prog A -> Prop :=
| le_fuel q : le (Err OutOfFuel) q
| le_ret a : le (Ret a) (Ret a)
| le_err e : le (Err e) (Err e)
| le_vis c k k' : (forall r, le (k r) (k' r)) -> le (Vis c k) (Vis c k').

Lemma le_refl {A} (p : prog A) : le p p.
Proof. induction p; constructor; auto. Qed.

Lemma le_bind {A B} (p p' : prog A) (f f' : A -> prog B) :
  le p p' -> (forall x, le (f x) (f' x)) -> le (bind p f) (bind p' f').
Proof. intros H Hf. induction H; cbn; try constructor; auto. Qed.

Lemma le_run {A} (p p' : prog A) : le p p' -> forall s,
  match run p s with Fail OutOfFuel _ => True | o => run p' s = o end.
Proof.
  intros H. induction H as [q|a|e|c k k' H IH]; intros s; cbn.
  - exact I.
  - reflexivity.
  - destruct e; reflexivity.
  - destruct (exec c s) as [r s']. apply IH.
Qed.

Definition leput (p p' : nat -> N -> N -> N -> prog N) : Prop := forall t k a b, le (p t k a b) (p' t k a b).
Definition lecas (p p' : casfun) : Prop := forall t i a b, le (p t i a b) (p' t i a b).

Ltac le1 :=
  match goal with
  | |- le ?p ?p => apply le_refl
  | |- le (bind _ _) (bind _ _) => apply le_bind; [|intros ?]
  | |- le (Vis _ _) (Vis _ _) => apply le_vis; intros ?
  | |- le (match ?x with _ => _ end) _ => destruct x
  end.
Ltac les := repeat le1; auto.

Section Fuel.
Context (C : cfg).

Lemma le_copySlot_key t i n : forall n', n <= n' -> le (copySlot_key C n t i) (copySlot_key C n' t i).
Proof. induction n as [|n IH]; intros [|n'] H; try lia; cbn [copySlot_key]; [apply le_refl|constructor|]. assert (n <= n') by lia. les. Qed.
Lemma le_copySlot_mark t i n : forall n' v, n <= n' -> le (copySlot_mark C n t i v) (copySlot_mark C n' t i v).
Proof. induction n as [|n IH]; intros [|n'] v H; try lia; cbn [copySlot_mark]; [apply le_refl|constructor|]. assert (n <= n') by lia. les. Qed.
Lemma le_copySlot_finish t i n : forall n' v, n <= n' -> le (copySlot_finish C n t i v) (copySlot_finish C n' t i v).
Proof. induction n as [|n IH]; intros [|n'] v H; try lia; cbn [copySlot_finish]; [apply le_refl|constructor|]. assert (n <= n') by lia. les. Qed.

Lemma le_copySlot n n' p p' i t t' : n <= n' -> leput p p' -> le (copySlot C n p i t t') (copySlot C n' p' i t t').
Proof.
  intros H Hp. unfold copySlot. apply le_bind; [apply le_copySlot_key; exact H|intros k].
  apply le_bind; [apply le_refl|intros v0]. apply le_bind; [apply le_copySlot_mark; exact H|intros m].
  les. apply le_copySlot_finish. exact H.
Qed.

Lemma le_claimChunk t len w n : forall n' i, n <= n' -> le (claimChunk n t len w i) (claimChunk n' t len w i).
Proof. induction n as [|n IH]; intros [|n'] i H; try lia; cbn [claimChunk]; [apply le_refl|constructor|]. assert (n <= n') by lia. les. Qed.

Lemma le_copyChunk n n' p p' t t' len c cnt : n <= n' -> leput p p' -> forall i wd,
  le (copyChunk C n p t t' len c i cnt wd) (copyChunk C n' p' t t' len c i cnt wd).
Proof.
  intros H Hp. induction cnt as [|cnt IH]; intros i wd; cbn [copyChunk]; [apply le_refl|].
  apply le_bind; [apply le_copySlot; assumption|intros b]. apply IH.
Qed.

Lemma le_helpLoop p p' t t' len w n : leput p p' -> forall n' pk c, n <= n' ->
  le (helpLoop C n p t t' len w pk c) (helpLoop C n' p' t t' len w pk c).
Proof.
  intros Hp. induction n as [|n IH]; intros [|n'] pk c H; try lia; cbn [helpLoop]; [apply le_refl|constructor|].
  assert (n <= n') by lia. apply le_bind; [apply le_refl|intros r]. destruct (_ <? _)%N; [|apply le_refl].
  apply le_bind; [destruct pk; [apply le_refl|les; apply le_claimChunk; assumption]|intros x].
  apply le_bind; [apply le_copyChunk; assumption|intros y]. apply le_bind; [apply le_refl|intros z]. apply IH. assumption.
Qed.

Lemma le_helpCopyImpl p p' t n n' : leput p p' -> n <= n' -> le (helpCopyImpl C n p t) (helpCopyImpl C n' p' t).
Proof.
  intros Hp H. unfold helpCopyImpl. les. apply le_helpLoop; assumption.
Qed.

Lemma le_helpCopy p p' t n n' : leput p p' -> n <= n' -> le (helpCopy C n p t) (helpCopy C n' p' t).
Proof. intros Hp H. unfold helpCopy. les. apply le_helpCopyImpl; assumption. Qed.

Lemma le_copySlotAndCheck p p' t i b n n' : leput p p' -> n <= n' ->
  le (copySlotAndCheck C n p t i b) (copySlotAndCheck C n' p' t i b).
Proof.
  intros Hp H. unfold copySlotAndCheck. apply le_bind; [apply le_refl|intros nt]. destruct nt; [|apply le_refl].
  apply le_bind; [apply le_copySlot; assumption|intros x]. apply le_bind; [apply le_refl|intros y].
  destruct b; [apply le_refl|]. apply le_helpCopy; assumption.
Qed.

Lemma le_claimSlot t k new len n : forall n' i r, n <= n' ->
  le (claimSlot C n t k new len i r) (claimSlot C n' t k new len i r).
Proof.
  induction n as [|n IH]; intros [|n'] i r H; try lia; cbn [claimSlot]; [apply le_refl|constructor|].
  assert (n <= n') by lia. les.
Qed.

Lemma le_updateLoop cas cas' f f' t i new old n : lecas cas cas' -> le f f' -> forall n' v, n <= n' ->
  le (updateLoop C n cas f t i new old v) (updateLoop C n' cas' f' t i new old v).
Proof.
  intros Hc Hf. induction n as [|n IH]; intros [|n'] v H; try lia; cbn [updateLoop]; [apply le_refl|constructor|].
  assert (n <= n') by lia. les.
Qed.

Lemma le_putBody p p' cas cas' t k new old n n' : leput p p' -> lecas cas cas' -> n <= n' ->
  le (putBody C n p cas t k new old) (putBody C n' p' cas' t k new old).
Proof.
  intros Hp Hc H. unfold putBody. do 4 (apply le_bind; [apply le_refl|intros ?]).
  apply le_bind; [apply le_claimSlot; exact H|intros c]. destruct c as [|i V r|]; [apply le_refl| |].
  - destruct (_ =? _)%N; [apply le_refl|]. cbv zeta.
    assert (Hf : le (nt <-- copySlotAndCheck C n p t i (old =? VINITIAL)%N;; p nt k new old)
                    (nt <-- copySlotAndCheck C n' p' t i (old =? VINITIAL)%N;; p' nt k new old)).
    { apply le_bind; [apply le_copySlotAndCheck; assumption|intros nt; apply Hp]. }
    apply le_bind; [apply le_refl|intros full]. destruct (_ || _).
    + apply le_bind; [apply le_refl|intros y]. exact Hf.
    + apply le_updateLoop; assumption.
  - apply le_bind; [apply le_refl|intros nt]. apply le_bind; [|intros _; apply Hp].
    destruct (negb _); [|apply le_refl]. apply le_bind; [apply le_helpCopy; assumption|intros; apply le_refl].
Qed.

Lemma lecas_refl c : lecas c c.
Proof. intros ? ? ? ?. apply le_refl. Qed.

Lemma le_putIfMatch n : forall n' cas t k new old, n <= n' ->
  le (putIfMatch C n cas t k new old) (putIfMatch C n' cas t k new old).
Proof.
  induction n as [|n IH]; intros [|n'] cas t k new old H; try lia; cbn [putIfMatch]; [apply le_refl|constructor|].
  apply le_putBody; [|apply lecas_refl|lia]. intros t' k' a b. apply IH. lia.
Qed.

Lemma le_getLoop p p' rec rec' t k len n : leput p p' -> (forall x, le (rec x) (rec' x)) -> forall n' i r, n <= n' ->
  le (getLoop C n p rec t k len i r) (getLoop C n' p' rec' t k len i r).
Proof.
  intros Hp Hr. induction n as [|n IH]; intros [|n'] i r H; try lia; cbn [getLoop]; [apply le_refl|constructor|].
  assert (n <= n') by lia. apply le_bind; [apply le_refl|intros K]. apply le_bind; [apply le_refl|intros V].
  destruct (_ =? _)%N; [apply le_refl|]. apply le_bind; [apply le_refl|intros nt].
  destruct (K =? k)%N.
  - destruct (negb _); [apply le_refl|]. apply le_bind; [apply le_copySlotAndCheck; assumption|exact Hr].
  - destruct (_ || _); [|apply IH; assumption]. destruct nt; [|apply le_refl].
    apply le_bind; [apply le_helpCopy; assumption|exact Hr].
Qed.

Lemma le_getImpl n : forall n' t k h, n <= n' -> le (getImpl C n t k h) (getImpl C n' t k h).
Proof.
  induction n as [|n IH]; intros [|n'] t k h H; try lia; cbn [getImpl]; [apply le_refl|constructor|].
  apply le_bind; [apply le_refl|intros len]. apply le_getLoop; [|intros x; apply IH; lia|lia].
  intros t' k' a b. apply le_putIfMatch. lia.
Qed.

Lemma le_get n n' k : n <= n' -> le (get C n k) (get C n' k).
Proof. intros H. unfold get. les. apply le_getImpl. exact H. Qed.

Lemma le_putIfMatchPub n n' k a b cas : n <= n' -> le (putIfMatchPub C n k a b cas) (putIfMatchPub C n' k a b cas).
Proof. intros H. unfold putIfMatchPub. les. apply le_putIfMatch. exact H. Qed.

Lemma le_op_prog n n' o : n <= n' -> le (op_prog C n o) (op_prog C n' o).
Proof.
  intros H. destruct o; cbn [op_prog]; unfold containsKey, put, putIfAbsent, remove, removeVal, replace, incrementOp, update;
    les; try (apply le_get; exact H); try (apply le_putIfMatchPub; exact H).
Qed.

Lemma le_ops_prog n n' os : n <= n' -> le (ops_prog C n os) (ops_prog C n' os).
Proof.
  intros H. induction os as [|o os IH]; cbn [ops_prog]; [apply le_refl|].
  apply le_bind; [apply le_op_prog; exact H|intros r]. apply le_bind; [exact IH|intros; apply le_refl].
Qed.

(** If the calls end in an error other than running out of fuel, then they return for no fuel at all. *)
Lemma fail_for_all_fuel n os s e s' : run (ops_prog C n os) s = Fail e s' -> e <> OutOfFuel ->
  forall n2 rs s2, run (ops_prog C n2 os) s <> Ok rs s2.
Proof.
  intros Hf He n2 rs s2 Ho. destruct (le_ge_dec n n2) as [Hle|Hle].
  - pose proof (le_run _ _ (le_ops_prog n n2 os Hle) s) as H. rewrite Hf in H. destruct e; congruence.
  - pose proof (le_run _ _ (le_ops_prog n2 n os Hle) s) as H. rewrite Ho in H. congruence.
Qed.

(** The results do not depend on the fuel. *)
Lemma fuel_irrelevant n1 n2 os s rs1 s1 rs2 s2 :
  run (ops_prog C n1 os) s = Ok rs1 s1 -> run (ops_prog C n2 os) s = Ok rs2 s2 -> rs1 = rs2 /\ s1 = s2.
Proof.
  intros H1 H2. destruct (le_ge_dec n1 n2) as [Hle|Hle].
  - pose proof (le_run _ _ (le_ops_prog n1 n2 os Hle) s) as H. rewrite H1, H2 in H. injection H as <- <-. auto.
  - pose proof (le_run _ _ (le_ops_prog n2 n1 os Hle) s) as H. rewrite H1, H2 in H. injection H as <- <-. auto.
Qed.

End Fuel.
