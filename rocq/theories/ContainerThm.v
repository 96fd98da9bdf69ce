(** The container over the sequential refinement. *)
From Coq Require Import NArith Bool List Lia.
From stdpp Require Import base list gmap.
From Verif Require Import Word Prog HashMap Spec Abs Fuel SeqInv SeqApi SeqThm Codec CodecThm Container ContainerSpec.
Import ListNotations.
Open Scope nat_scope.

Definition map_op (o : cop) : op :=
  match o with
  | CInsert el => OPut (encode_el el) (encode_el el)
  | CErase el => ORemove (encode_el el)
  | CContains el => OContains (encode_el el)
  | CGet el => OGet (encode_el el)
  | CCount => OSize
  | CIncrement el => OIncrement (encode_el el)
  end.
Definition conv (o : cop) (r : rsp) : cres :=
  match o, r with
  | CInsert el, RVal x => CBool (x =? encode_el el)%N
  | CGet el, RVal x => CNum (decode_el x)
  | _, RVal x => CNum x
  | _, RBool b => CBool b
  end.

Lemma run_ret_inv {A B} (p : prog A) (f : A -> B) s r s' :
  run (a <-- p;; Ret (f a)) s = Ok r s' -> exists a, run p s = Ok a s' /\ r = f a.
Proof. rewrite run_bind. destruct (run p s) as [a s1|e s1]; cbn; [intros [= <- <-]; eauto|discriminate]. Qed.

Lemma cop_run C n o s r s' : run (cop_prog C n o) s = Ok r s' ->
  exists r0, run (op_prog C n (map_op o)) s = Ok r0 s' /\ r = conv o r0.
Proof.
  destruct o; cbn [cop_prog map_op op_prog]; intros H; apply run_ret_inv in H; destruct H as (a & H & ->).
  - unfold c_insert in H. apply run_ret_inv in H. destruct H as (x & H & ->).
    exists (RVal x). split; [|reflexivity]. rewrite run_bind, H. reflexivity.
  - unfold c_erase in H. exists (RBool a). split; [|reflexivity]. rewrite run_bind, H. reflexivity.
  - unfold c_contains in H. exists (RBool a). split; [|reflexivity]. rewrite run_bind, H. reflexivity.
  - unfold c_get in H. apply run_ret_inv in H. destruct H as (x & H & ->).
    exists (RVal x). split; [|reflexivity]. rewrite run_bind, H. reflexivity.
  - unfold c_count in H. exists (RVal a). split; [|reflexivity]. rewrite run_bind, H. reflexivity.
  - exists (RVal a). split; [|reflexivity].
    change (run (r0 <-- incrementOp C n (encode_el el);; Ret (RVal r0)) s = Ok (RVal a) s').
    rewrite run_bind. unfold incrementOp, INCREMENT_ARG. unfold c_increment in H. rewrite H. reflexivity.
Qed.

Lemma creach_reach C s0 os rs s : creach C s0 os rs s -> exists rs0, reach C s0 (map map_op os) rs0 s.
Proof.
  induction 1 as [|os rs s n o r s' Hr (rs0 & IH) Hs]; [eexists; constructor|].
  destruct (cop_run _ _ _ _ _ _ Hs) as (r0 & Hr0 & _).
  exists (rs0 ++ [r0]). rewrite map_app. cbn. econstructor; eassumption.
Qed.

Lemma legal_el_key el : legal_el el -> legal_key (encode_el el) /\ legal_val (encode_el el).
Proof.
  intros H. unfold legal_el in H.
  split; [apply encode_legal_key|apply encode_legal_val]; lia.
Qed.

Lemma legal_el_inj e el : legal_el e -> legal_el el -> encode_el e = encode_el el -> e = el.
Proof. unfold legal_el. intros H1 H2. apply encode_inj; lia. Qed.

Lemma legal_map_op o : legal_cop o -> legal_op (map_op o).
Proof.
  destruct o; cbn; intros H; try (destruct (legal_el_key _ H)); try tauto.
Qed.

Lemma legal_map_ops os : Forall legal_cop os -> Forall legal_op (map map_op os).
Proof. induction 1; cbn; constructor; auto using legal_map_op. Qed.

(** The dictionary holds exactly the members, each mapped to itself. *)
Definition represents (m : gmap N N) (b : N -> bool) : Prop :=
  forall el, legal_el el -> m !! encode_el el = if b el then Some (encode_el el) else None.

Lemma rep_step m o r m' os : legal_cop o -> dstep m (map_op o) r m' ->
  represents m (fun el => member el os false) -> represents m' (fun el => member el (os ++ [o]) false).
Proof.
  intros Hl Hs Hrep el Hel. specialize (Hrep el Hel).
  assert (Hm : forall now, member el (os ++ [o]) now =
    match o with
    | CInsert e => if (e =? el)%N then true else member el os now
    | CErase e => if (e =? el)%N then false else member el os now
    | _ => member el os now
    end).
  { clear. induction os as [|[] os IH]; intros now; cbn; try apply IH. destruct o; reflexivity. }
  cbn beta in *. rewrite Hm. clear Hm.
  destruct o as [e|e|e|e| |e]; cbn in Hs, Hl; [| | | | |contradiction]; destruct Hs as (_ & ->); try exact Hrep.
  - destruct (N.eqb_spec e el) as [->|Hne]; [now rewrite lookup_insert|].
    rewrite lookup_insert_ne; [exact Hrep|]. intros H. apply Hne. now apply legal_el_inj.
  - destruct (N.eqb_spec e el) as [->|Hne]; [now rewrite lookup_delete|].
    rewrite lookup_delete_ne; [exact Hrep|]. intros H. apply Hne. now apply legal_el_inj.
Qed.

Section Init.
Context (C : cfg) (cap ppl : nat) (maxcap : N).
Hypothesis Hcap : good_cap cap maxcap.
Hypothesis Hmax : (maxcap <= 2 ^ 32)%N.
Notation s0 := (init_state cap ppl maxcap).

Lemma c_rep os rs s : creach C s0 os rs s -> Forall legal_cop os ->
  exists sz m, okstate C sz (abs s) m /\ represents m (holds os).
Proof.
  induction 1 as [|os rs s n o r s' Hr IH Hs]; intros Hl.
  - destruct (init_ok C cap ppl maxcap Hcap Hmax) as (sz & Hok). exists sz, ∅. split; [exact Hok|].
    intros el _. cbn. apply lookup_empty.
  - apply Forall_app in Hl. destruct Hl as (Hl & Ho). apply Forall_inv in Ho.
    destruct (IH Hl) as (sz & m & Hok & Hrep).
    destruct (cop_run _ _ _ _ _ _ Hs) as (r0 & Hr0 & _).
    pose proof (op_any C n sz s m (map_op o) Hok (legal_map_op _ Ho)) as P. rewrite Hr0 in P.
    destruct P as (m' & sz' & Hok' & Hst & _). exists sz', m'. split; [exact Hok'|].
    exact (rep_step _ _ _ _ os Ho Hst Hrep).
Qed.

(** What each call returns. *)
Definition answer (os : list cop) (o : cop) (r : cres) : Prop :=
  match o with
  | CInsert el => r = CBool (holds os el)
  | CErase el => r = CBool (negb (holds os el && (el =? 0)%N))
  | CContains el => r = CBool (holds os el)
  | CGet el => r = CNum (if holds os el then el else (2 ^ 61 - 1)%N)
  | _ => True
  end.

Lemma encode_not_NOTFOUND el : legal_el el -> (NOTFOUND =? encode_el el)%N = false.
Proof.
  intros H. apply N.eqb_neq. intros E. destruct (legal_el_key _ H) as (_ & Hv).
  exact (legal_not_NOTFOUND _ Hv (eq_sym E)).
Qed.

Lemma c_answer os rs s n o r s' : creach C s0 os rs s -> Forall legal_cop os -> legal_cop o ->
  run (cop_prog C n o) s = Ok r s' -> answer os o r.
Proof.
  intros Hr Hl Ho Hs. destruct (c_rep _ _ _ Hr Hl) as (sz & m & Hok & Hrep).
  destruct (cop_run _ _ _ _ _ _ Hs) as (r0 & Hr0 & ->).
  pose proof (op_any C n sz s m (map_op o) Hok (legal_map_op _ Ho)) as P. rewrite Hr0 in P.
  destruct P as (m' & sz' & _ & Hst & _).
  destruct o as [e|e|e|e| |e]; cbn in Hst, Ho |- *; try exact I; destruct Hst as (-> & _); cbn;
    pose proof (Hrep e Ho) as He; unfold lookup_result; rewrite He; destruct (holds os e); cbn.
  - now rewrite N.eqb_refl.
  - now rewrite encode_not_NOTFOUND.
  - f_equal. destruct (N.eqb_spec e 0) as [->|Hne]; cbn; [reflexivity|].
    apply bool_decide_eq_true_2. intros [= E].
    unfold legal_el in Ho. rewrite encode_small in E by lia. lia.
  - reflexivity.
  - reflexivity.
  - reflexivity.
  - f_equal. apply decode_encode. unfold legal_el in Ho. lia.
  - reflexivity.
Qed.
End Init.

Lemma creach_cons C s0 o os : forall rs s n r s1, run (cop_prog C n o) s0 = Ok r s1 -> creach C s1 os rs s ->
  creach C s0 (o :: os) (r :: rs) s.
Proof.
  intros rs s n r s1 H Hr. induction Hr as [|os rs s n' o' r' s' Hr IH Hs].
  - apply (creach_snoc C s0 [] [] s0 n o r s1); [constructor|exact H].
  - apply (creach_snoc C s0 (o :: os) (r :: rs) s n' o' r' s'); assumption.
Qed.

Lemma cops_reach C n os : forall s0 rs s, run (cops_prog C n os) s0 = Ok rs s -> creach C s0 os rs s.
Proof.
  induction os as [|o os IH]; cbn; intros s0 rs s H.
  - injection H as <- <-. constructor.
  - rewrite run_bind in H. destruct (run (cop_prog C n o) s0) as [r s1|] eqn:E; [|discriminate].
    apply run_ret_inv in H. destruct H as (rs' & H & ->).
    eapply creach_cons; eauto.
Qed.
