(** Concrete single-threaded executions that are interrupted by a crash. *)
From Coq Require Import NArith Bool List Lia Arith.
From stdpp Require Import base list gmap.
From Verif Require Import Word Prog HashMap Spec ConcSpec SeqThm Examples DurableSpec.
Import ListNotations.
Open Scope nat_scope.

(** The state after [j] memory accesses. *)
Fixpoint cut {A} (j : nat) (p : prog A) (s : state) : state :=
  match j, p with
  | S j', Vis c k => let '(r, s') := exec c s in cut j' (k r) s'
  | _, _ => s
  end.
Lemma cut_during {A} j (p : prog A) s : during p s (cut j p s).
Proof.
  revert p s. induction j as [|j IH]; intros [a|e|c k] s; cbn; try apply during_now.
  destruct (exec c s) as [r s'] eqn:E. apply during_step. rewrite E. apply IH.
Qed.

Definition entry_at (s : state) (t v i : nat) : option pair_ :=
  match st_tabs s !! t with Some T => match versions T !! v with Some ps => ps !! i | None => None end | None => None end.
Definition pers_at (s : state) (t i : nat) : option nat :=
  match st_tabs s !! t with Some T => t_pers T !! line_of s i | None => None end.
Lemma crash_at s t i p b v : pers_at s t i = Some b -> entry_at s t v i = Some p -> (b <=? v) = true -> crash_entry s t i p.
Proof.
  unfold pers_at, entry_at. destruct (st_tabs s !! t) as [T|] eqn:HT; [|discriminate]. intros Hb.
  destruct (versions T !! v) as [ps|] eqn:Hv; [|discriminate]. intros Hp Hle. exists T, b, v, ps. apply Nat.leb_le in Hle. auto.
Qed.

(** A value is being overwritten. *)
Definition dx_s : state := state_after ex_fuel [OPut 40 80; OGet 40]%N ex_s0.
Definition dx_cut (j : nat) : state := cut j (op_prog idcfg ex_fuel (OPut 40 88)) dx_s.

Lemma dx_reach : reach idcfg (init_state 16 4 4096) [OPut 40 80; OGet 40]%N [RVal NOTFOUND; RVal 80]%N dx_s.
Proof. apply (ops_reach _ ex_fuel). unfold dx_s. evalrun. Qed.

Lemma c23_example : exists s' T,
  init_state_files 16 4 4096 [] = Some (init_state 16 4 4096) /\
  reach idcfg (init_state 16 4 4096) [OPut 40 80; OGet 40]%N [RVal NOTFOUND; RVal 80]%N dx_s /\
  during (op_prog idcfg ex_fuel (OPut 40 88)) dx_s s' /\ st_tabs s' !! 0 = Some T /\
  crash_entry s' 0 8 (40, 80)%N /\ crash_entry s' 0 8 (40, dirty 88)%N.
Proof.
  exists (dx_cut 9). eexists. split; [reflexivity|]. split; [exact dx_reach|]. split; [apply cut_during|]. split; [vm_compute; reflexivity|]. split.
  - apply (crash_at _ _ _ _ 5 6); vm_compute; reflexivity.
  - apply (crash_at _ _ _ _ 5 7); vm_compute; reflexivity.
Qed.

Lemma c23_read_example : exists s s1 s2,
  reach idcfg (init_state 16 4 4096) [OPut 40 80; OGet 40; OPut 40 88]%N [RVal NOTFOUND; RVal 80; RVal 80]%N s /\
  run (get idcfg ex_fuel 40) s = Ok 88%N s1 /\ crash_entry s 0 8 (40, 80)%N /\
  during (op_prog idcfg ex_fuel (OPut 40 96)) s1 s2 /\ crash_entry s2 0 8 (40, dirty 96)%N.
Proof.
  set (os := [OPut 40 80; OGet 40; OPut 40 88]%N).
  exists (state_after ex_fuel os ex_s0), (state_after ex_fuel (os ++ [OGet 40%N]) ex_s0),
    (cut 9 (op_prog idcfg ex_fuel (OPut 40 96)) (state_after ex_fuel (os ++ [OGet 40%N]) ex_s0)).
  split; [apply (ops_reach _ ex_fuel); evalrun|]. split; [vm_compute; reflexivity|].
  split; [apply (crash_at _ _ _ _ 5 6); vm_compute; reflexivity|]. split; [apply cut_during|].
  apply (crash_at _ _ _ _ 7 9); vm_compute; reflexivity.
Qed.

(** The image in which all lines are as they were at the same moment. *)
Definition image_at (s : state) (v : nat) : list pair_ :=
  match st_tabs s !! 0 with Some T => default [] (versions T !! v) | None => [] end.
Definition image_ok (s : state) (v : nat) : bool :=
  match st_tabs s !! 0 with
  | Some T => forallb (fun b => b <=? v) (t_pers T) && (v <? length (versions T)) && (length (image_at s v) =? t_len T)
  | None => false end.
Lemma image_crash s v : image_ok s v = true -> crash_table s 0 (image_at s v).
Proof.
  unfold image_ok, image_at. destruct (st_tabs s !! 0) as [T|] eqn:HT; [|discriminate]. rewrite !andb_true_iff, Nat.ltb_lt, Nat.eqb_eq. intros ((H1 & H2) & H3).
  exists T, (fun _ => v). split; [exact HT|]. split; [exact H3|]. split.
  - intros l b Hb. split; [|exact H2]. rewrite forallb_forall in H1. apply Nat.leb_le, H1, elem_of_list_In, elem_of_list_lookup. eauto.
  - intros i ps _ Hps. rewrite Hps. reflexivity.
Qed.

Definition dx_img (v : nat) : list (N * list pair_) := [(0%N, image_at (dx_cut 9) v)].
Definition dx_reopened (v : nat) : state := default ex_s0 (init_state_files 16 4 4096 (dx_img v)).

Lemma c43_example :
  reach idcfg (init_state 16 4 4096) [OPut 40 80; OGet 40]%N [RVal NOTFOUND; RVal 80]%N dx_s /\
  during (op_prog idcfg ex_fuel (OPut 40 88)) dx_s (dx_cut 9) /\ length (st_tabs (dx_cut 9)) = 1 /\
  found_before [OPut 40 80; OGet 40]%N [RVal NOTFOUND; RVal 80]%N 40 2 /\
  (forall v, v = 5 \/ v = 7 -> crash_table (dx_cut 9) 0 (image_at (dx_cut 9) v) /\
     init_state_files 16 4 4096 (dx_img v) = Some (dx_reopened v)) /\
  (exists s2, reach idcfg (dx_reopened 5) [OGet 40; OSize]%N [RVal 80; RVal 1]%N s2) /\
  (exists s2, reach idcfg (dx_reopened 7) [OGet 40; OSize]%N [RVal 88; RVal 1]%N s2).
Proof.
  split; [exact dx_reach|]. split; [apply cut_during|]. split; [vm_compute; reflexivity|].
  split; [right; exists 1, 80%N; repeat split; discriminate|]. split.
  - intros v [->| ->]; (split; [apply image_crash|]; vm_compute; reflexivity).
  - split; eexists; apply (ops_reach _ ex_fuel); apply ok_of; vm_compute; reflexivity.
Qed.

(** The value 80 has been read, then another key is being inserted: its key has been written, its value has not. *)
Definition dy_cut (j : nat) : state := cut j (op_prog idcfg ex_fuel (OPut 56 88)) dx_s.
Lemma c22_read_example :
  reach idcfg (init_state 16 4 4096) ([] ++ OPut 40 80 :: [] ++ OGet 40 :: [])%N [RVal NOTFOUND; RVal 80]%N dx_s /\
  during (op_prog idcfg ex_fuel (OPut 56 88)) dx_s (dy_cut 9) /\ length (st_tabs (dy_cut 9)) = 1 /\
  Forall legal_op [OPut 40 80; OGet 40; OPut 56 88]%N /\ op_key (OPut 56 88)%N <> Some 40%N /\
  exists v, crash_table (dy_cut 9) 0 (image_at (dy_cut 9) v).
Proof.
  split; [exact dx_reach|]. split; [apply cut_during|]. split; [vm_compute; reflexivity|]. split; [repeat constructor|]. split; [discriminate|].
  exists 5. apply image_crash. vm_compute. reflexivity.
Qed.
