(** Concrete runs used by the non-vacuity examples and as refutation witnesses.  The hash function
    is the identity, as libstdc++'s [std::hash<size_t>] is. *)
From Coq Require Import NArith Bool List Lia.
From stdpp Require Import base list gmap.
From Verif Require Import Word Prog HashMap Spec.
Import ListNotations.
Open Scope N_scope.

Definition idcfg : cfg := mkCfg (fun k => k) false.

(** A map of 16 entries on a device of 4096 entries, 4 entries per cache line. *)
Definition ex_s0 : state := init_state 16 4 4096.
Definition ex_fuel : nat := 300.

(** Keys with home position [h] in tables of up to 128 entries. *)
Definition ex_key (h i : N) : N := h + 128 * i.

(** Fifteen inserts.  The fifteenth makes the table grow; while its entries are copied into the new
    table, that one has to grow too. *)
Definition ex_ops : list op :=
  map (fun i => OPut (ex_key 4 (N.of_nat i)) 80) (seq 0 10) ++
  map (fun i => OPut (ex_key 12 (N.of_nat i)) 88) (seq 0 4) ++
  [OPut (ex_key 20 0) 96].

Definition ret_of {A} (o : outcome A) : option A := match o with Ok a _ => Some a | Fail _ _ => None end.
Definition st_of {A} (o : outcome A) : state := match o with Ok _ s => s | Fail _ s => s end.
Definition state_after (n : nat) (os : list op) (s : state) : state := st_of (run (ops_prog idcfg n os) s).
Definition results_of (n : nat) (os : list op) (s : state) : list rsp := default [] (ret_of (run (ops_prog idcfg n os) s)).

Lemma ok_of {A} (o : outcome A) r : ret_of o = Some r -> o = Ok r (st_of o).
Proof. destruct o; cbn; congruence. Qed.

Definition ex_s : state := state_after ex_fuel ex_ops ex_s0.
Definition ex_rs : list rsp := results_of ex_fuel ex_ops ex_s0.

(** Evaluates a run without writing out its final state. *)
Ltac evalrun :=
  change (init_state 16 4 4096) with ex_s0; unfold ex_s, state_after;
  match goal with
  | |- ?o = Ok ?r (st_of ?o) => apply (ok_of o r); vm_compute; reflexivity
  | |- ?o = Ok ?r ?s => is_evar s; apply (ok_of o r); vm_compute; reflexivity
  | |- _ => vm_compute; reflexivity
  end.

Definition legal_opb (o : op) : bool :=
  match o with
  | OGet k | OContains k | ORemove k | OIncrement k => legal_keyb k
  | OPut k v | OPutIfAbsent k v | ORemoveVal k v => legal_keyb k && legal_valb v
  | OReplace k old new => legal_keyb k && legal_valb old && legal_valb new
  | OSize => true
  end.

Lemma legal_keyb_ok k : legal_keyb k = true -> legal_key k.
Proof. unfold legal_keyb, legal_key. rewrite !andb_true_iff, !negb_true_iff, N.ltb_lt. tauto. Qed.
Lemma legal_valb_ok k : legal_valb k = true -> legal_val k.
Proof. unfold legal_valb, legal_val. rewrite !andb_true_iff, !negb_true_iff, N.ltb_lt. tauto. Qed.

Lemma legal_opb_ok o : legal_opb o = true -> legal_op o.
Proof.
  destruct o; cbn; rewrite ?andb_true_iff; intuition auto using legal_keyb_ok, legal_valb_ok.
Qed.

Lemma legal_ops_ok os : forallb legal_opb os = true -> Forall legal_op os.
Proof.
  intros H. apply Forall_forall. intros o Ho. apply legal_opb_ok.
  rewrite forallb_forall in H. apply H. apply elem_of_list_In. exact Ho.
Qed.

Lemma ex_cap16 : good_cap 16 4096.
Proof. split; [exists 4%nat; split; [reflexivity|lia]|reflexivity]. Qed.
Lemma ex_cap8 : good_cap 8 1024.
Proof. split; [exists 3%nat; split; [reflexivity|lia]|reflexivity]. Qed.

Lemma ex_run : run (ops_prog idcfg ex_fuel ex_ops) ex_s0 = Ok ex_rs ex_s.
Proof. evalrun. Qed.

Lemma ex_legal : Forall legal_op ex_ops.
Proof. apply legal_ops_ok. vm_compute. reflexivity. Qed.

(** Eleven keys with the same home position in every table. *)
Definition ex_colliding : list op := map (fun i => OPut (N.shiftl (N.of_nat i) 40) 80) (seq 1 11).

(** A run during which no call leaves a migration in progress. *)
Definition quietb (s : state) : bool :=
  match st_tabs s !! st_top s with Some T => match t_new T with None => true | Some _ => false end | None => false end.

Fixpoint run_quiet (C : cfg) (n : nat) (os : list op) (s : state) : outcome (list rsp) :=
  match os with
  | [] => Ok [] s
  | o :: os => match run (op_prog C n o) s with
               | Ok r s1 => if quietb s1 then match run_quiet C n os s1 with Ok rs s2 => Ok (r :: rs) s2 | e => e end
                            else Fail OutOfFuel s1
               | Fail e s1 => Fail e s1
               end
  end.

Lemma quietb_ok s : quietb s = true -> quiet s.
Proof. unfold quietb, quiet. destruct (_ !! _) as [T|]; [|discriminate]. destruct (t_new T); [discriminate|reflexivity]. Qed.

Lemma run_quiet_app C n s0 os0 rs0 os s1 rs s : reach_quiet C s0 os0 rs0 s1 -> run_quiet C n os s1 = Ok rs s ->
  reach_quiet C s0 (os0 ++ os) (rs0 ++ rs) s.
Proof.
  revert os0 rs0 s1 rs. induction os as [|o os IH]; intros os0 rs0 s1 rs Hr; cbn.
  - intros [= <- <-]. rewrite !app_nil_r. exact Hr.
  - destruct (run _ s1) as [r s2|] eqn:E; [|discriminate]. destruct (quietb s2) eqn:Q; [|discriminate].
    destruct (run_quiet C n os s2) as [rs2 s3|] eqn:E2; [|discriminate]. intros [= <- <-].
    change (o :: os) with ([o] ++ os). change (r :: rs2) with ([r] ++ rs2). rewrite !app_assoc.
    apply (IH _ _ s2); [|exact E2]. exact (reachq_snoc _ _ _ _ _ n _ _ _ Hr E (quietb_ok _ Q)).
Qed.

Lemma run_quiet_ok C n s0 os rs s : quiet s0 -> run_quiet C n os s0 = Ok rs s -> reach_quiet C s0 os rs s.
Proof. intros Hq. exact (run_quiet_app C n s0 [] [] os s0 rs s (reachq_nil _ _ Hq)). Qed.
