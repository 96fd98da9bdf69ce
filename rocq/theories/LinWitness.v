(** Concrete executions for PropertiesLin.v. *)
From Coq Require Import NArith Bool List Lia.
From stdpp Require Import base list gmap.
From Verif Require Import Word Bits Prog HashMap Conc Spec LinSpec SeqThm LinThm Examples ConcWitness.
Import ListNotations.
Open Scope nat_scope.

(** A map of 8 entries in which 24 has the value 80. *)
Definition lw_s : state :=
  match run (ops_prog idcfg ex_fuel [OPut 24 80]%N) (init_state 8 4 1024) with Ok _ s => s | Fail _ s => s end.
Definition lw_m : gmap N N := {[ 24%N := 80%N ]}.

Lemma lw_reach : reach idcfg (init_state 8 4 1024) [OPut 24 80]%N [RVal NOTFOUND] lw_s.
Proof.
  change [OPut 24 80]%N with ([] ++ [OPut 24 80]%N). change [RVal NOTFOUND] with ([] ++ [RVal NOTFOUND]).
  apply (reach_snoc _ _ _ _ (init_state 8 4 1024) ex_fuel); [constructor|]. vm_compute. reflexivity.
Qed.
Lemma lw_quiet : quiet lw_s.
Proof. vm_compute. reflexivity. Qed.
Lemma lw_dsteps : dsteps ∅ [OPut 24 80]%N [RVal NOTFOUND] lw_m.
Proof. eapply dsteps_cons; [|constructor]. split; [|reflexivity]. unfold lookup_result. rewrite lookup_empty. reflexivity. Qed.
Lemma lw_dsteps_inv m : dsteps ∅ [OPut 24 80]%N [RVal NOTFOUND] m -> m = lw_m.
Proof. intros H. inversion H; subst. match goal with X : dsteps _ [] [] _ |- _ => inversion X; subst end.
  match goal with X : dstep _ _ _ _ |- _ => destruct X as [_ ->] end. reflexivity. Qed.

(** A put is overtaken by a remove before its first attempt, and by a put and a remove before its second one: it returns
    the deletion mark with the unpersisted mark. *)
Definition lw_todos : list (list op) := [[OPut 24 88]; [ORemove 24]; [OPut 24 96]; [ORemove 24]]%N.
Definition lw_sched : list nat := segs [(0, 15); (1, 60); (0, 8); (2, 60); (3, 60); (0, 60)].
Definition lw_hist : list event :=
  [ERes 0 (OPut 24 88) (RVal (setMark VTOMBSTONE DirtyFlag)); ERes 3 (ORemove 24) (RBool true); EInv 3 (ORemove 24);
   ERes 2 (OPut 24 96) (RVal NOTFOUND); EInv 2 (OPut 24 96); ERes 1 (ORemove 24) (RBool true); EInv 1 (ORemove 24);
   EInv 0 (OPut 24 88)]%N.

Lemma lw_hist_eq : sy_hist (after idcfg ex_fuel lw_s lw_todos lw_sched) = lw_hist.
Proof. vm_compute. reflexivity. Qed.

Lemma lw_ops : calls_on_stored lw_m getputremove lw_todos.
Proof.
  assert (Hl : Forall (Forall legal_op) lw_todos) by (apply legal_todos_ok; vm_compute; reflexivity).
  assert (Hk : forall k, Some 24%N = Some k -> is_Some (lw_m !! k)).
  { intros k [= <-]. exists 80%N. unfold lw_m. apply lookup_singleton. }
  unfold calls_on_stored, lw_todos in *. rewrite !Forall_cons in *. destruct Hl as ((H1 & _) & (H2 & _) & (H3 & _) & (H4 & _) & _).
  repeat (split || constructor); try assumption; exact Hk.
Qed.

Lemma lw_not_lin : ~ linearizable lstep lw_m lw_hist.
Proof.
  intros (m & st & H).
  destruct (atomic_results (fun v => v = 80 \/ v = 88 \/ v = 96)%N lw_m) with (h := lw_hist) (m := m) (st := st) as (_ & _ & Hr).
  - intros k v. unfold lw_m. rewrite lookup_singleton_Some. intros [_ <-]. auto.
  - exact H.
  - intros i o Hi. unfold lw_hist in Hi. cbn [In] in Hi.
    repeat (destruct Hi as [Hi|Hi]; [try discriminate Hi; injection Hi as <- <-; cbn; tauto|]). contradiction.
  - destruct (Hr 0 (OPut 24 88)%N (RVal (setMark VTOMBSTONE DirtyFlag))) as (x & Hx & Hs); [left; reflexivity|].
    unfold same_word in Hx. destruct Hs as [->|[->|[->| ->]]]; vm_compute in Hx; discriminate Hx.
Qed.

Lemma c11_refuted : exists os rs s m todos sched, Forall legal_op os /\
  reach idcfg (init_state 8 4 1024) os rs s /\ quiet s /\ dsteps ∅ os rs m /\
  calls_on_stored m getputremove todos /\
  ~ linearizable lstep m (sy_hist (after idcfg ex_fuel s todos sched)).
Proof.
  exists [OPut 24 80]%N, [RVal NOTFOUND], lw_s, lw_m, lw_todos, lw_sched.
  split; [apply legal_ops_ok; vm_compute; reflexivity|]. split; [exact lw_reach|]. split; [exact lw_quiet|].
  split; [exact lw_dsteps|]. split; [exact lw_ops|]. rewrite lw_hist_eq. exact lw_not_lin.
Qed.

(** Three threads, no removals: the first put loses against the second one. *)
Definition lx_todos : list (list op) := [[OPut 24 88; OGet 24]; [OPut 24 96]; [OContains 24]]%N.
Lemma lx_ops : calls_on_stored lw_m readput lx_todos.
Proof.
  assert (Hl : Forall (Forall legal_op) lx_todos) by (apply legal_todos_ok; vm_compute; reflexivity).
  assert (Hk : forall k, Some 24%N = Some k -> is_Some (lw_m !! k)).
  { intros k [= <-]. exists 80%N. unfold lw_m. apply lookup_singleton. }
  unfold calls_on_stored, lx_todos in *. rewrite !Forall_cons in *. destruct Hl as ((H1 & H1' & _) & (H2 & _) & (H3 & _) & _).
  repeat (split || constructor); try assumption; exact Hk.
Qed.

Definition lx_sched : list nat := segs [(0, 15); (1, 60); (0, 8); (2, 60); (0, 60)].
Lemma lx_hist : sy_hist (after idcfg ex_fuel lw_s lx_todos lx_sched) =
  [ERes 0 (OGet 24) (RVal 88); EInv 0 (OGet 24); ERes 0 (OPut 24 88) (RVal 96); ERes 2 (OContains 24) (RBool true);
   EInv 2 (OContains 24); ERes 1 (OPut 24 96) (RVal 80); EInv 1 (OPut 24 96); EInv 0 (OPut 24 88)]%N.
Proof. vm_compute. reflexivity. Qed.
Lemma lw_start : good_cap 8 1024 /\ (1024 <= 2 ^ 32)%N /\ Forall legal_op [OPut 24 80]%N /\
  reach idcfg (init_state 8 4 1024) [OPut 24 80]%N [RVal NOTFOUND] lw_s /\ quiet lw_s /\
  (forall m, dsteps ∅ [OPut 24 80]%N [RVal NOTFOUND] m -> m = lw_m).
Proof.
  split; [split; [exists 3; split; [reflexivity|lia]|reflexivity]|]. split; [discriminate|].
  split; [apply legal_ops_ok; vm_compute; reflexivity|]. split; [exact lw_reach|]. split; [exact lw_quiet|exact lw_dsteps_inv].
Qed.
