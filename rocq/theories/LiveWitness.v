(** Concrete executions for PropertiesLive.v. *)
From Coq Require Import NArith Bool List Lia.
From stdpp Require Import base list gmap.
From Verif Require Import Word Bits Prog HashMap Conc Spec LinSpec Examples ConcWitness LinCount LinNewWitness LiveSpec.
Import ListNotations.
Open Scope nat_scope.

(** Three threads race for the same new key; thread 1 is suspended in the middle of its put, thread 2 in its increment. *)
Definition lv_todos : list (list op) := [[OPut 24 80; ORemove 24]; [OPut 24 88]; [OIncrement 24; OSize]]%N.
Definition lv_sched : list (nat * nat) := [(0, 12); (1, 13); (2, 10); (0, 700)].
Definition lv_y : sys := cw_after lv_todos lv_sched.
Lemma lv_hyps : good_cap 8 1024 /\ (2 * N.of_nat 8 <= 1024)%N /\ (1024 <= 2 ^ 32)%N /\ Forall (Forall legal_op) lv_todos /\
  enough_fuel 8 (length (concat lv_todos)) ex_fuel /\ enough_fuel 8 1 ex_fuel /\ unresized (sy_st lv_y) /\
  length (nth 0 lv_todos []) * call_steps 8 (length (concat lv_todos)) <= steps_of 0 (segs lv_sched).
Proof.
  split; [apply nw_cap|]. split; [discriminate|]. split; [discriminate|]. split; [apply legal_todos_ok; vm_compute; reflexivity|].
  split; [apply Nat.leb_le; vm_compute; reflexivity|]. split; [apply Nat.leb_le; vm_compute; reflexivity|]. split; [vm_compute; reflexivity|].
  apply Nat.leb_le; vm_compute; reflexivity.
Qed.
Lemma lv_stuck : exists th1 th2 o1 p1 o2 p2, sy_thr lv_y !! 1 = Some th1 /\ th_cur th1 = Some (o1, p1) /\
  sy_thr lv_y !! 2 = Some th2 /\ th_cur th2 = Some (o2, p2).
Proof.
  assert (H : match sy_thr lv_y with [_; mkThread (Some _) _; mkThread (Some _) _] => true | _ => false end = true) by (vm_compute; reflexivity).
  destruct (sy_thr lv_y) as [|th0 [|[[[o1 p1]|] t1] [|[[[o2 p2]|] t2] [|]]]]; try discriminate H. do 6 eexists. repeat split.
Qed.
Lemma lv_hist : sy_hist lv_y =
  [ERes 0 (ORemove 24) (RBool true); EInv 0 (ORemove 24); ERes 0 (OPut 24 80) (RVal NOTFOUND); EInv 2 (OIncrement 24); EInv 1 (OPut 24 88);
   EInv 0 (OPut 24 80)]%N.
Proof. vm_compute. reflexivity. Qed.
Lemma lv_alone : exists s', run (op_prog idcfg ex_fuel (OPut 24 96)) (sy_st lv_y) = Ok (RVal NOTFOUND) s' /\ unresized s'.
Proof.
  assert (H : match run (op_prog idcfg ex_fuel (OPut 24 96)) (sy_st lv_y) with
    | Ok (RVal x) s' => (x =? NOTFOUND)%N && match st_tabs s' !! 0 with Some T => match t_new T with None => true | _ => false end | None => false end
    | _ => false end = true) by (vm_compute; reflexivity).
  destruct (run _ _) as [[x|b] s'|]; try discriminate H. apply andb_true_iff in H as [H1 H2]. apply N.eqb_eq in H1 as ->. exists s'. split; [reflexivity|].
  unfold unresized. destruct (st_tabs s' !! 0) as [T|]; [|discriminate H2]. destruct (t_new T); [discriminate H2|reflexivity].
Qed.
