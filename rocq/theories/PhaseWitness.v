(** A concrete execution in phases, for PropertiesPhase.v. *)
From Coq Require Import NArith Bool List Lia.
From stdpp Require Import base list gmap.
From Verif Require Import Word Bits Prog HashMap Conc Spec LinSpec PhaseSpec Examples SeqApi ConcWitness LinNewWitness.
Import ListNotations.
Open Scope nat_scope.

(** Thread 0 fills a table of 8 entries until the map grows; then threads 0 and 1 change and read keys; then thread 0 makes the
    map grow again. *)
Definition ps_todos : list (list op) :=
  [[OPut 24 80; OPut 32 88; OPut 40 96; OPut 48 104; OPut 56 112; OPut 64 120; OPut 72 128; OPut 80 136; OPut 88 208;
    ORemove 24; OPut 32 200; OPut 160 144;
    OPut 96 80; OPut 104 80; OPut 112 80; OPut 120 80; OPut 128 80; OPut 136 80; OPut 144 80; OPut 152 80];
   [OGet 32; OPut 32 216; OPut 24 224; OGet 160]]%N.
Definition ps_start : sys := start (init_state 8 4 1024) ps_todos.
Definition ps_1 : sys := conc idcfg ex_fuel (replicate 787 0) ps_start.
Definition ps_sched : list nat := segs [(0, 14); (1, 15); (0, 6); (1, 10); (0, 20); (1, 30); (0, 38); (1, 200)].
Definition ps_2 : sys := conc idcfg ex_fuel ps_sched ps_1.
Definition ps_3 : sys := conc idcfg ex_fuel (replicate 3000 0) ps_2.

(** What the two threads do together. *)
Definition ps_hist : list event :=
  [ERes 1 (OGet 160) (RVal 144); ERes 0 (OPut 160 144) (RVal NOTFOUND); EInv 1 (OGet 160); ERes 1 (OPut 24 224) (RVal NOTFOUND);
   EInv 0 (OPut 160 144); ERes 0 (OPut 32 200) (RVal 216); EInv 1 (OPut 24 224); ERes 1 (OPut 32 216) (RVal 88);
   EInv 1 (OPut 32 216); ERes 1 (OGet 32) (RVal 88); EInv 1 (OGet 32); EInv 0 (OPut 32 200); ERes 0 (ORemove 24) (RBool true);
   EInv 0 (ORemove 24)]%N.

Definition idleb (y : sys) : bool := forallb (fun th => match th_cur th with None => true | Some _ => false end) (sy_thr y).
Lemma idleb_ok y : idleb y = true -> idle y.
Proof.
  intros H. unfold idle. apply List.Forall_forall. intros th Hth. unfold idleb in H. rewrite forallb_forall in H.
  specialize (H th Hth). destruct (th_cur th); [discriminate|reflexivity].
Qed.

(** The keys of the current table, and [no_insert_race_from] as a computation. *)
Definition table_keys (s : state) : list N :=
  match st_tabs s !! st_top s with Some T => map (fun p => clearMark (fst p) DirtyFlag) (t_pairs T) | None => [] end.
Definition in_tableb (s : state) (k : N) : bool := negb (k =? KINITIAL)%N && existsb (N.eqb k) (table_keys s).
Lemma in_tableb_ok s k : in_tableb s k = true -> in_table s k.
Proof.
  unfold in_tableb, table_keys, in_table. intros H. apply andb_true_iff in H as [H1 H2]. apply negb_true_iff, N.eqb_neq in H1.
  split; [exact H1|]. apply existsb_exists in H2 as (x & Hx & E). apply N.eqb_eq in E. subst x.
  destruct (st_tabs s !! st_top s) as [T|]; [|destruct Hx]. apply in_map_iff in Hx as (p & E & Hp). eauto.
Qed.
Fixpoint race_free_fromb (K : N -> bool) (h : list event) : bool :=
  match h with
  | [] => true
  | EInv i o :: h2 => race_free_fromb K h2 &&
      match claim_key o with
      | Some k => K k || forallb (fun e => match e with EInv j o' => negb (claimsb k o') || Nat.eqb j i | _ => true end) h2 ||
                  existsb (fun e => match e with ERes _ o' _ => claimsb k o' | _ => false end) h2
      | None => true
      end
  | _ :: h2 => race_free_fromb K h2
  end.
Lemma race_free_fromb_ok (K : N -> bool) (P : N -> Prop) h : (forall k, K k = true -> P k) ->
  race_free_fromb K h = true -> no_insert_race_from P h.
Proof.
  intros HP H h1 h2 i j o o' k -> Ho Hj Ho' Hne.
  assert (H2 : race_free_fromb K (EInv i o :: h2) = true).
  { induction h1 as [|e h1 IH]; [exact H|]. apply IH. cbn in H. destruct e; [|exact H]. apply andb_true_iff in H as [H _]. exact H. }
  cbn in H2. apply andb_true_iff in H2 as [_ H2]. rewrite Ho in H2. apply orb_true_iff in H2 as [H2|H2];
    [apply orb_true_iff in H2 as [H2|H2]|].
  - left. auto.
  - exfalso. rewrite forallb_forall in H2. specialize (H2 _ Hj). cbn in H2. apply claimsb_ok in Ho'. rewrite Ho' in H2. cbn in H2.
    apply Nat.eqb_eq in H2. contradiction.
  - right. apply existsb_exists in H2 as (e & He & H2). destruct e as [|i' o'' r]; [discriminate|]. apply claimsb_ok in H2.
    unfold settled. eauto.
Qed.

Lemma ps_hyps : Forall (Forall legal_op) ps_todos /\ Forall (Forall not_increment) ps_todos.
Proof.
  unfold ps_todos. split; repeat (apply Forall_cons; split); try apply Forall_nil; try exact I; vm_compute; repeat split; congruence.
Qed.
Lemma ps_grown : st_top (sy_st ps_start) = 0 /\ st_top (sy_st ps_1) = 1 /\ st_top (sy_st ps_2) = 1 /\ st_top (sy_st ps_3) = 2 /\
  length (sy_hist ps_3) = 48.
Proof. vm_compute. repeat split. Qed.
Lemma ps_together : sy_hist ps_2 = ps_hist ++ sy_hist ps_1.
Proof. vm_compute. reflexivity. Qed.
Lemma ps_phased : phased idcfg ex_fuel ps_start ps_3.
Proof.
  unfold ps_3. apply ph_alone; [|apply idleb_ok; vm_compute; reflexivity|apply idleb_ok; vm_compute; reflexivity].
  unfold ps_2. apply ph_together with ps_hist.
  - unfold ps_1. apply ph_alone; [apply ph_start|apply idleb_ok; vm_compute; reflexivity|apply idleb_ok; vm_compute; reflexivity].
  - apply idleb_ok. vm_compute. reflexivity.
  - vm_compute. reflexivity.
  - exact ps_together.
  - apply race_free_fromb_ok with (K := in_tableb (sy_st ps_1)); [apply in_tableb_ok|vm_compute; reflexivity].
  - vm_compute. repeat split.
Qed.

(** The calls of one thread after that. *)
Definition ps_more : list op := map (fun i => OPut (8 * N.of_nat i) 8) (seq 100 25).
Lemma ps_alone : idle ps_3 /\ exists rs s, run (ops_prog idcfg (CALL 1024) ps_more) (sy_st ps_3) = Ok rs s /\ Forall legal_op ps_more /\ st_top s = 3.
Proof.
  split; [apply idleb_ok; vm_compute; reflexivity|].
  assert (H : match run (ops_prog idcfg (CALL 1024) ps_more) (sy_st ps_3) with Ok rs s => st_top s = 3 | Fail _ _ => False end) by (vm_compute; reflexivity).
  destruct (run (ops_prog idcfg (CALL 1024) ps_more) (sy_st ps_3)) as [rs s|e s]; [|contradiction].
  exists rs, s. split; [reflexivity|]. split; [|exact H]. unfold ps_more. apply Forall_forall. intros o Ho. apply elem_of_list_In, in_map_iff in Ho as (i & <- & Hi).
  apply in_seq in Hi. destruct (le_lt_dec 125 i); [lia|]. do 125 (destruct i as [|i]; [vm_compute; repeat split; congruence|]). lia.
Qed.
