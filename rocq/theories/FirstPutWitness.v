(** Executions with several first insertions of one key. *)
From Coq Require Import NArith Bool List Lia.
From stdpp Require Import base list.
From Verif Require Import Word Prog HashMap Conc Spec ConcSpec LinSpec FirstPutSpec TraceSpec Examples ConcWitness LinNewWitness.
Import ListNotations.
Open Scope nat_scope.

Lemma idle_no_call y : idle y -> forall i o, ~ in_call y i o.
Proof. intros H i o (th & p & H1 & H2). pose proof (Forall_lookup_1 _ _ _ _ H H1) as E. cbn in E. congruence. Qed.

(** Three threads race to insert key 24; two of them report that they did, and there are two entries. *)
Definition fw_todos : list (list op) := [[OPut 24 80]; [OPut 24 88]; [OPutIfAbsent 24 96; OReplace 24 88 104]]%N.
Definition fw_y : sys := cw_after fw_todos [(0, 15); (1, 60); (0, 60); (2, 120)].
Lemma fw_hyps : Forall (Forall legal_op) fw_todos /\ Forall (Forall stores) fw_todos /\ legal_key 24 /\ unresized (sy_st fw_y) /\
  (exists i o r, In (ERes i o r) (sy_hist fw_y) /\ putting 24 o = true) /\ (forall i o, in_call fw_y i o -> putting 24 o = false).
Proof.
  split; [apply legal_todos_ok; vm_compute; reflexivity|]. split; [repeat constructor|]. split; [vm_compute; repeat split|]. split; [vm_compute; reflexivity|].
  split.
  - exists 1, (OPut 24 88), (RVal NOTFOUND). split; [|reflexivity]. vm_compute. tauto.
  - intros i o H. destruct (idle_no_call fw_y) with (i := i) (o := o); [|exact H]. vm_compute. repeat constructor.
Qed.
Lemma fw_hist : sy_hist fw_y =
  [ERes 2 (OReplace 24 88 104) (RBool true); EInv 2 (OReplace 24 88 104); ERes 2 (OPutIfAbsent 24 96) (RVal 88); EInv 2 (OPutIfAbsent 24 96);
   ERes 0 (OPut 24 80) (RVal NOTFOUND); ERes 1 (OPut 24 88) (RVal NOTFOUND); EInv 1 (OPut 24 88); EInv 0 (OPut 24 80)]%N.
Proof. vm_compute. reflexivity. Qed.
Lemma fw_counts : winners 24 (sy_hist fw_y) = 2 /\ entries_of 24 (sy_st fw_y) = 2.
Proof. vm_compute. auto. Qed.

(** Without a race. *)
Definition fn_todos : list (list op) := [[OPut 24 80; OPut 32 40]; [OPut 24 88]; [OPutIfAbsent 24 96; OGet 32]]%N.
Definition fn_y : sys := cw_after fn_todos [(0, 40); (1, 20); (2, 20); (0, 60); (2, 60); (1, 60)].
Lemma fn_hyps : Forall (Forall legal_op) fn_todos /\ Forall (Forall stores) fn_todos /\ legal_key 24 /\ no_insert_race (sy_hist fn_y) /\
  unresized (sy_st fn_y) /\ (exists i o r, In (ERes i o r) (sy_hist fn_y) /\ putting 24 o = true) /\
  (forall i o, in_call fn_y i o -> putting 24 o = false).
Proof.
  split; [apply legal_todos_ok; vm_compute; reflexivity|]. split; [repeat constructor|]. split; [vm_compute; repeat split|].
  split; [apply race_freeb_ok; vm_compute; reflexivity|]. split; [vm_compute; reflexivity|].
  split.
  - exists 0, (OPut 24 80), (RVal NOTFOUND). split; [|reflexivity]. vm_compute. tauto.
  - intros i o H. destruct (idle_no_call fn_y) with (i := i) (o := o); [|exact H]. vm_compute. repeat constructor.
Qed.
Lemma fn_counts : winners 24 (sy_hist fn_y) = 1 /\ entries_of 24 (sy_st fn_y) = 1.
Proof. vm_compute. auto. Qed.
