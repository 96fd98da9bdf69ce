From Coq Require Import NArith Bool List Lia.
From stdpp Require Import base gmap.
From Verif Require Import Word Container Wrappers WrappersSpec OneFile.
Import ListNotations.
Local Open Scope N_scope.

Lemma of_agrees_from os : forall m, Forall no_increment os ->
  (snd (of_run m os) = false /\ fst (of_run m os) = stl_run m os) \/
  (snd (of_run m os) = true /\ exists os1 el os2, os = os1 ++ CGet el :: os2 /\ fst (of_run m os) = stl_run m os1 /\
     stl_run m (os1 ++ [CContains el]) = stl_run m os1 ++ [CBool false]).
Proof.
  induction os as [|o os IH]; intros m Hos; [left; split; reflexivity|].
  inversion Hos as [|? ? Ho Hos']; subst.
  assert (Hstep : forall m' r, stl_step m o = (m', r) -> of_step m o = OOk r m' ->
    (snd (of_run m (o :: os)) = false /\ fst (of_run m (o :: os)) = stl_run m (o :: os)) \/
    (snd (of_run m (o :: os)) = true /\ exists os1 el os2, o :: os = os1 ++ CGet el :: os2 /\ fst (of_run m (o :: os)) = stl_run m os1 /\
     stl_run m (os1 ++ [CContains el]) = stl_run m os1 ++ [CBool false])).
  { intros m' r Es Eo. cbn [of_run stl_run]. rewrite Eo, Es. specialize (IH m' Hos'). destruct (of_run m' os) as [rs b]. cbn [fst snd] in *.
    destruct IH as [[-> ->]|(-> & os1 & el & os2 & -> & -> & E)]; [left; split; reflexivity|right]. split; [reflexivity|].
    exists (o :: os1), el, os2. split; [reflexivity|]. cbn [stl_run app]. rewrite Es. split; [reflexivity|]. rewrite E. reflexivity. }
  destruct o as [el|el|el|el| |el]; try contradiction.
  - destruct (m !! el) eqn:E; eapply Hstep; cbn [of_step stl_step]; unfold lib_insert; rewrite E; reflexivity.
  - eapply Hstep; reflexivity.
  - eapply Hstep; reflexivity.
  - destruct (m !! el) as [v|] eqn:E; [eapply Hstep; cbn [of_step stl_step]; rewrite E; reflexivity|].
    clear Hstep. cbn [of_run of_step]. rewrite E. right. split; [reflexivity|]. exists [], el, os.
    split; [reflexivity|]. split; [reflexivity|]. cbn [app stl_run stl_step]. rewrite E. reflexivity.
  - eapply Hstep; reflexivity.
Qed.

Lemma of_agrees cap os : (cap < 31) -> Forall no_increment os -> exists m, of_new cap = Some m /\
  ((snd (of_run m os) = false /\ fst (of_run m os) = stl_run ∅ os) \/
   (snd (of_run m os) = true /\ exists os1 el os2, os = os1 ++ CGet el :: os2 /\ fst (of_run m os) = stl_run ∅ os1 /\
     stl_run ∅ (os1 ++ [CContains el]) = stl_run ∅ os1 ++ [CBool false])).
Proof.
  intros Hc H. exists ∅. split; [unfold of_new; apply N.ltb_lt in Hc; rewrite Hc; reflexivity|]. exact (of_agrees_from os ∅ H).
Qed.

Definition of_ops : list cop := [CInsert 5; CInsert 5; CInsert 0; CGet 5; CContains 0; CErase 5; CErase 5; CCount].
Lemma of_example : 20 < 31 /\ Forall no_increment of_ops /\
  of_run ∅ of_ops = ([CBool true; CBool false; CBool true; CNum 5; CBool true; CBool true; CBool false; CNum 1], false).
Proof. split; [reflexivity|]. split; [repeat constructor|vm_compute; reflexivity]. Qed.

Lemma of_refuted : of_new 32 = None /\ of_run ∅ [CInsert 5; CErase 5; CGet 5] = ([CBool true; CBool true], true) /\
  stl_run ∅ [CInsert 5; CErase 5; CGet 5] = [CBool true; CBool true; CNum 0] /\
  of_run ∅ [CIncrement 5; CIncrement 5; CGet 5] = ([CNum 1; CNum 0; CNum 5], false) /\
  stl_run ∅ [CIncrement 5; CIncrement 5; CGet 5] = [CNum 1; CNum 2; CNum 2].
Proof. repeat split; vm_compute; reflexivity. Qed.
