(** The containers that wrap libpmemobj++ maps. *)
From Coq Require Import NArith Bool List.
From stdpp Require Import base gmap.
From Verif Require Import Word Container Wrappers WrappersSpec WrappersThm WrappersWitness OneFile OneFileThm.
Import ListNotations.
Local Open Scope N_scope.

(** ** C66: the wrapped containers answer like the reference container *)

(** Full statement: a container created without recovery answers every sequence of calls, made by any threads, like the
    reference container.  Proved for pmemMap without increment, if there was no file. *)
Theorem C66_pmem_partial : forall os, Forall no_increment os ->
  exists c, pm_run (pm_new false PMissing) os = Some (stl_run ∅ os, c).
Proof. exact pm_agrees. Qed.
Print Assumptions C66_pmem_partial.

(** With a file, with or without recovery: like the reference container with the contents of the file, which are none if its
    root points to no map. *)
Theorem C66_pmem_reopen_partial : forall reconstruct root os, Forall no_increment os ->
  exists c, pm_run (pm_new reconstruct (PFile root)) os = Some (stl_run (match root with Some m => m | None => ∅ end) os, c).
Proof. exact pm_reopens. Qed.
Print Assumptions C66_pmem_reopen_partial.

Example C66_example_pmem_reopen : exists c, Forall no_increment [CContains 7; CInsert 7] /\
  pm_run (pm_new true (PFile (Some wx_old))) [CContains 7; CInsert 7] = Some ([CBool true; CBool false], c).
Proof. exact wx_pm_reopen. Qed.

Example C66_example_pmem : Forall no_increment wx_ops /\
  stl_run ∅ wx_ops = [CBool true; CBool false; CBool true; CNum 5; CBool true; CBool true; CBool false; CNum 0; CNum 1].
Proof. exact wx_pm. Qed.

(** Two increments of a key leave the value that one insert leaves. *)
Theorem C66_pmem_refuted : exists c,
  pm_run (pm_new false PMissing) [CIncrement 5; CIncrement 5; CGet 5] = Some ([CNum 1; CNum 0; CNum 5], c) /\
  stl_run ∅ [CIncrement 5; CIncrement 5; CGet 5] = [CNum 1; CNum 2; CNum 2].
Proof. exact wx_pm_increment. Qed.
Print Assumptions C66_pmem_refuted.

(** A missing file makes every call of a container with recovery throw; without recovery, the contents of an old file are
    those of the new container. *)
Theorem C66_pmem_file_refuted :
  pm_run (pm_new true PMissing) [CContains 5] = None /\
  (exists c, pm_run (pm_new false (PFile (Some wx_old))) [CContains 7] = Some ([CBool true], c)).
Proof. exact wx_pm_new. Qed.
Print Assumptions C66_pmem_file_refuted.

(** Proved for levelMap without increment and count, if only thread 0 inserts, however the library's map grows. *)
Theorem C66_level_partial : forall grow os,
  Forall (fun x => no_increment (snd x) /\ no_count (snd x) /\ (no_insert (snd x) \/ fst x = 0)) os ->
  exists c c', cl_new false None = Some c /\ cl_run grow c os = Some (stl_run ∅ (map snd os), c').
Proof. exact cl_agrees. Qed.
Print Assumptions C66_level_partial.

(** A file that levelMap has written is opened with its contents, with or without recovery. *)
Theorem C66_level_reopen_partial : forall grow0 os0 rs0 c0 c1 reconstruct grow os,
  cl_new false None = Some c0 -> cl_run grow0 c0 os0 = Some (rs0, c1) ->
  Forall (fun x => no_increment (snd x) /\ no_count (snd x) /\ (no_insert (snd x) \/ fst x < cl_threads c1)) os ->
  exists c c', cl_new reconstruct (Some c1) = Some c /\ cl_run grow c os = Some (stl_run (cl_map c1) (map snd os), c').
Proof. exact cl_reopens. Qed.
Print Assumptions C66_level_reopen_partial.

Example C66_example_level_reopen : exists c0 c1 c2,
  cl_new false None = Some c0 /\ cl_run (fun c _ => cl_slots c) c0 [(0, CInsert 5); (0, CIncrement 6)] = Some ([CBool true; CNum 1], c1) /\
  cl_threads c1 = 1 /\ cl_new true (Some c1) = Some c1 /\
  cl_run (fun c _ => cl_slots c) c1 [(3, CGet 6); (0, CInsert 5)] = Some ([CNum 6; CBool false], c2).
Proof. exact wx_cl_reopen. Qed.

Example C66_example_level :
  Forall (fun x => no_increment (snd x) /\ no_count (snd x) /\ (no_insert (snd x) \/ fst x = 0)) wx_cl_ops /\
  stl_run ∅ (map snd wx_cl_ops) = [CBool true; CBool false; CBool true; CNum 5; CBool true; CBool true; CBool false; CNum 0].
Proof. exact wx_cl. Qed.

(** In every reachable container an insert of any other thread is outside of the array of temporary entries: the constructor
    tells the library that there is one thread. *)
Theorem C66_level_threads_refuted : forall grow os rs c c',
  cl_new false None = Some c -> cl_run grow c os = Some (rs, c') ->
  forall t el, 0 < t -> cl_step grow t c' (CInsert el) = WBounds /\ cl_step grow t c' (CIncrement el) = WBounds.
Proof. exact cl_any_thread. Qed.
Print Assumptions C66_level_threads_refuted.

(** count is the number of slots, and increment inserts. *)
Theorem C66_level_refuted : forall grow, exists c c1 c2,
  cl_new false None = Some c /\ cl_new true None = None /\
  cl_run grow c [(0, CCount)] = Some ([CNum 196608], c1) /\ stl_run ∅ [CCount] = [CNum 0] /\
  cl_run grow c [(0, CIncrement 5); (0, CIncrement 5); (0, CGet 5)] = Some ([CNum 1; CNum 0; CNum 5], c2).
Proof. exact wx_cl_refuted. Qed.
Print Assumptions C66_level_refuted.

(** Proved for onefileMap without increment and for capacities below 2^31, as far as the first get of an absent key: up to
    there the answers are those of the reference container. *)
Theorem C66_onefile_partial : forall cap os, cap < 31 -> Forall no_increment os -> exists m, of_new cap = Some m /\
  ((snd (of_run m os) = false /\ fst (of_run m os) = stl_run ∅ os) \/
   (snd (of_run m os) = true /\ exists os1 el os2, os = os1 ++ CGet el :: os2 /\ fst (of_run m os) = stl_run ∅ os1 /\
     stl_run ∅ (os1 ++ [CContains el]) = stl_run ∅ os1 ++ [CBool false])).
Proof. exact of_agrees. Qed.
Print Assumptions C66_onefile_partial.

Example C66_example_onefile : 20 < 31 /\ Forall no_increment of_ops /\
  of_run ∅ of_ops = ([CBool true; CBool false; CBool true; CNum 5; CBool true; CBool true; CBool false; CNum 1], false).
Proof. exact of_example. Qed.

(** A capacity of 2^32 is an undefined shift, get of an absent key uses a variable that was never assigned, and increment
    inserts. *)
Theorem C66_onefile_refuted : of_new 32 = None /\ of_run ∅ [CInsert 5; CErase 5; CGet 5] = ([CBool true; CBool true], true) /\
  stl_run ∅ [CInsert 5; CErase 5; CGet 5] = [CBool true; CBool true; CNum 0] /\
  of_run ∅ [CIncrement 5; CIncrement 5; CGet 5] = ([CNum 1; CNum 0; CNum 5], false) /\
  stl_run ∅ [CIncrement 5; CIncrement 5; CGet 5] = [CNum 1; CNum 2; CNum 2].
Proof. exact of_refuted. Qed.
Print Assumptions C66_onefile_refuted.
