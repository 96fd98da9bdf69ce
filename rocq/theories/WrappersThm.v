From Coq Require Import NArith Bool List Lia.
From stdpp Require Import base gmap.
From Verif Require Import Word Container Wrappers WrappersSpec.
Import ListNotations.
Local Open Scope N_scope.

Lemma pm_agrees_from os : forall m, Forall no_increment os ->
  exists m', pm_run (PMap m) os = Some (stl_run m os, PMap m').
Proof.
  unfold pm_run. induction os as [|o os IH]; intros m Hos; [eexists; reflexivity|].
  inversion Hos as [|? ? Ho Hos']; subst. cbn [wrun stl_run].
  destruct o as [el|el|el|el| |el]; try contradiction; cbn [pm_step stl_step]; unfold lib_insert.
  - destruct (m !! el); [destruct (IH m Hos') as [m' ->]|destruct (IH (<[el:=el]> m) Hos') as [m' ->]]; eexists; reflexivity.
  - destruct (IH (delete el m) Hos') as [m' ->]. eexists. reflexivity.
  - destruct (IH m Hos') as [m' ->]. eexists. reflexivity.
  - destruct (IH m Hos') as [m' ->]. eexists. unfold default. destruct (m !! el); reflexivity.
  - destruct (IH m Hos') as [m' ->]. eexists. reflexivity.
Qed.
Lemma pm_agrees os : Forall no_increment os ->
  exists c, pm_run (pm_new false PMissing) os = Some (stl_run ∅ os, c).
Proof. intros H. destruct (pm_agrees_from os ∅ H) as [m' E]. exists (PMap m'). exact E. Qed.

Lemma pm_reopens reconstruct root os : Forall no_increment os ->
  exists c, pm_run (pm_new reconstruct (PFile root)) os = Some (stl_run (match root with Some m => m | None => ∅ end) os, c).
Proof.
  intros H. destruct root as [m|]; cbn [pm_new]; [destruct (pm_agrees_from os m H) as [m' E]|destruct (pm_agrees_from os ∅ H) as [m' E]];
    exists (PMap m'); exact E.
Qed.

Lemma cl_agrees_from grow nt os : forall c, cl_threads c = nt -> (forall k v, cl_map c !! k = Some v -> v = k) ->
  Forall (fun x => no_increment (snd x) /\ no_count (snd x) /\ (no_insert (snd x) \/ fst x < nt)) os ->
  exists c', cl_run grow c os = Some (stl_run (cl_map c) (map snd os), c').
Proof.
  unfold cl_run. induction os as [|[t o] os IH]; intros c Hn Hk Hos; [eexists; reflexivity|].
  inversion Hos as [|? ? (Ho & Hc & Ht) Hos']; subst. cbn [fst snd] in *. cbn [wrun stl_run map fst snd].
  destruct o as [el|el|el|el| |el]; try contradiction; cbn [cl_step stl_step]; unfold cl_insert, lib_insert.
  - destruct Ht as [[]|Ht]. apply N.ltb_lt in Ht. rewrite Ht.
    destruct (cl_map c !! el) eqn:E.
    + destruct (IH (mkCl (cl_map c) (cl_slots c) (cl_threads c)) eq_refl Hk Hos') as [c' ->]. eexists. reflexivity.
    + destruct (IH (mkCl (<[el:=el]> (cl_map c)) (grow c el) (cl_threads c)) eq_refl) as [c' ->]; [|exact Hos'|eexists; reflexivity].
      intros k v. cbn [cl_map]. destruct (decide (k = el)) as [->|Hne]; [rewrite lookup_insert; congruence|rewrite lookup_insert_ne by congruence; apply Hk].
  - destruct (IH (mkCl (delete el (cl_map c)) (cl_slots c) (cl_threads c)) eq_refl) as [c' ->]; [|exact Hos'|eexists; reflexivity].
    intros k v. cbn [cl_map]. rewrite lookup_delete_Some. intros [_ H]. exact (Hk _ _ H).
  - destruct (IH c eq_refl Hk Hos') as [c' ->]. eexists. reflexivity.
  - destruct (IH c eq_refl Hk Hos') as [c' ->]. eexists. destruct (cl_map c !! el) eqn:E.
    + rewrite bool_decide_true by eauto. apply Hk in E. subst. reflexivity.
    + rewrite bool_decide_false by (intros [? ?]; discriminate). reflexivity.
Qed.
Lemma cl_agrees grow os : Forall (fun x => no_increment (snd x) /\ no_count (snd x) /\ (no_insert (snd x) \/ fst x = 0)) os ->
  exists c c', cl_new false None = Some c /\ cl_run grow c os = Some (stl_run ∅ (map snd os), c').
Proof.
  intros H. eexists. destruct (cl_agrees_from grow 1 os (mkCl ∅ cl_initial 1) eq_refl) as [c' E].
  - intros k v Hk. discriminate Hk.
  - eapply Forall_impl; [exact H|]. intros x (? & ? & [?|E]); [auto|]. split; [assumption|]. split; [assumption|]. right. rewrite E. reflexivity.
  - exists c'. split; [reflexivity|exact E].
Qed.

Lemma cl_keys_kept grow os : forall c rs c', cl_run grow c os = Some (rs, c') -> (forall k v, cl_map c !! k = Some v -> v = k) ->
  forall k v, cl_map c' !! k = Some v -> v = k.
Proof.
  unfold cl_run. induction os as [|[t o] os IH]; intros c rs c' H Hk; cbn [wrun] in H; [injection H as _ <-; exact Hk|]. cbn [fst snd] in H.
  destruct (cl_step grow t c o) as [r c1| |] eqn:E; try discriminate.
  destruct (wrun _ c1 os) as [[rs1 c2]|] eqn:E1; [|discriminate]. injection H as _ <-. refine (IH _ _ _ E1 _).
  assert (Hi : forall el, cl_map c !! el = None -> forall k v, <[el:=el]> (cl_map c) !! k = Some v -> v = k).
  { intros el _ k v. destruct (decide (k = el)) as [->|Hne]; [rewrite lookup_insert; congruence|rewrite lookup_insert_ne by congruence; apply Hk]. }
  assert (Hins : forall el r' c3, cl_insert grow t c el = WOk r' c3 -> forall k v, cl_map c3 !! k = Some v -> v = k).
  { intros el r' c3. unfold cl_insert, lib_insert. destruct (t <? cl_threads c); [|discriminate].
    destruct (cl_map c !! el) eqn:El; intros [= _ <-]; [exact Hk|exact (Hi el El)]. }
  destruct o as [el|el|el|el| |el]; cbn [cl_step] in E.
  - exact (Hins _ _ _ E).
  - injection E as _ <-. intros k v. cbn [cl_map]. rewrite lookup_delete_Some. intros [_ H]. exact (Hk _ _ H).
  - injection E as _ <-. exact Hk.
  - injection E as _ <-. exact Hk.
  - injection E as _ <-. exact Hk.
  - destruct (cl_insert grow t c el) as [[b|x] c3| |] eqn:Ei; try discriminate; injection E as _ <-; exact (Hins _ _ _ Ei).
Qed.
Lemma cl_reopens grow0 os0 rs0 c0 c1 reconstruct grow os : cl_new false None = Some c0 -> cl_run grow0 c0 os0 = Some (rs0, c1) ->
  Forall (fun x => no_increment (snd x) /\ no_count (snd x) /\ (no_insert (snd x) \/ fst x < cl_threads c1)) os ->
  exists c c', cl_new reconstruct (Some c1) = Some c /\ cl_run grow c os = Some (stl_run (cl_map c1) (map snd os), c').
Proof.
  intros [= <-] H0 H. assert (Hk : forall k v, cl_map c1 !! k = Some v -> v = k).
  { apply (cl_keys_kept grow0 os0 _ rs0 c1 H0). intros k v Hv. discriminate Hv. }
  destruct (cl_agrees_from grow _ os c1 eq_refl Hk H) as [c' E]. exists c1, c'. split; [reflexivity|exact E].
Qed.

(** In every reachable container: the thread numbers other than 0 are out of bounds. *)
Lemma cl_threads_kept grow os : forall c rs c', cl_run grow c os = Some (rs, c') -> cl_threads c' = cl_threads c.
Proof.
  unfold cl_run. induction os as [|[t o] os IH]; intros c rs c' H; cbn [wrun] in H; [congruence|]. cbn [fst snd] in H.
  destruct (cl_step grow t c o) as [r c1| |] eqn:E; try discriminate.
  destruct (wrun _ c1 os) as [[rs1 c2]|] eqn:E1; [|discriminate]. injection H as <- <-. rewrite (IH _ _ _ E1).
  destruct o as [el|el|el|el| |el]; cbn [cl_step] in E; unfold cl_insert, lib_insert in E.
  all: repeat match type of E with context [if ?b then _ else _] => destruct b | context [match ?x with _ => _ end] => destruct x end; try discriminate; injection E as <- <-; reflexivity.
Qed.
Lemma cl_second_thread grow os rs c t el : 
  cl_run grow (mkCl ∅ cl_initial 1) os = Some (rs, c) -> 0 < t -> cl_step grow t c (CInsert el) = WBounds /\ cl_step grow t c (CIncrement el) = WBounds.
Proof.
  intros H Ht. apply cl_threads_kept in H. cbn in H. cbn [cl_step]. unfold cl_insert. rewrite H.
  assert (t <? 1 = false) as -> by (apply N.ltb_ge; lia). split; reflexivity.
Qed.

Lemma cl_any_thread grow os rs c c' : cl_new false None = Some c -> cl_run grow c os = Some (rs, c') ->
  forall t el, 0 < t -> cl_step grow t c' (CInsert el) = WBounds /\ cl_step grow t c' (CIncrement el) = WBounds.
Proof. intros [= <-] H t el Ht. exact (cl_second_thread grow os rs c' t el H Ht). Qed.
