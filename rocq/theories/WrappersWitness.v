From Coq Require Import NArith Bool List Lia.
From stdpp Require Import base gmap.
From Verif Require Import Word Container Wrappers WrappersSpec.
Import ListNotations.
Local Open Scope N_scope.

Definition wx_ops : list cop := [CInsert 5; CInsert 5; CInsert 0; CGet 5; CContains 0; CErase 5; CErase 5; CGet 5; CCount].
Lemma wx_pm : Forall no_increment wx_ops /\
  stl_run ∅ wx_ops = [CBool true; CBool false; CBool true; CNum 5; CBool true; CBool true; CBool false; CNum 0; CNum 1].
Proof. split; [repeat constructor|vm_compute; reflexivity]. Qed.

Definition wx_old : gmap N N := {[7 := 7]}.
Lemma wx_pm_new :
  pm_run (pm_new true PMissing) [CContains 5] = None /\
  (exists c, pm_run (pm_new false (PFile (Some wx_old))) [CContains 7] = Some ([CBool true], c)).
Proof. split; [reflexivity|eexists; vm_compute; reflexivity]. Qed.
Lemma wx_pm_increment : exists c,
  pm_run (pm_new false PMissing) [CIncrement 5; CIncrement 5; CGet 5] = Some ([CNum 1; CNum 0; CNum 5], c) /\
  stl_run ∅ [CIncrement 5; CIncrement 5; CGet 5] = [CNum 1; CNum 2; CNum 2].
Proof. eexists. split; vm_compute; reflexivity. Qed.

Definition wx_cl_ops : list (N * cop) :=
  [(0, CInsert 5); (0, CInsert 5); (0, CInsert 0); (1, CGet 5); (2, CContains 0); (1, CErase 5); (0, CErase 5); (3, CGet 5)].
Lemma wx_cl : Forall (fun x => no_increment (snd x) /\ no_count (snd x) /\ (no_insert (snd x) \/ fst x = 0)) wx_cl_ops /\
  stl_run ∅ (map snd wx_cl_ops) = [CBool true; CBool false; CBool true; CNum 5; CBool true; CBool true; CBool false; CNum 0].
Proof. split; [repeat (constructor; [cbn; auto|]); constructor|vm_compute; reflexivity]. Qed.
Lemma wx_cl_refuted grow : exists c c1 c2,
  cl_new false None = Some c /\ cl_new true None = None /\
  cl_run grow c [(0, CCount)] = Some ([CNum 196608], c1) /\ stl_run ∅ [CCount] = [CNum 0] /\
  cl_run grow c [(0, CIncrement 5); (0, CIncrement 5); (0, CGet 5)] = Some ([CNum 1; CNum 0; CNum 5], c2).
Proof. do 3 eexists. repeat split; vm_compute; reflexivity. Qed.
Lemma wx_cl_reopen : exists c0 c1 c2,
  cl_new false None = Some c0 /\ cl_run (fun c _ => cl_slots c) c0 [(0, CInsert 5); (0, CIncrement 6)] = Some ([CBool true; CNum 1], c1) /\
  cl_threads c1 = 1 /\ cl_new true (Some c1) = Some c1 /\
  cl_run (fun c _ => cl_slots c) c1 [(3, CGet 6); (0, CInsert 5)] = Some ([CNum 6; CBool false], c2).
Proof. do 3 eexists. repeat split; vm_compute; reflexivity. Qed.
Lemma wx_pm_reopen : exists c, Forall no_increment [CContains 7; CInsert 7] /\
  pm_run (pm_new true (PFile (Some wx_old))) [CContains 7; CInsert 7] = Some ([CBool true; CBool false], c).
Proof. eexists. split; [repeat constructor|vm_compute; reflexivity]. Qed.
