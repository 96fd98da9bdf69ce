(** Properties of the benchmark container ucfMap. *)
From Coq Require Import NArith Bool List Lia.
From stdpp Require Import base list gmap.
From Verif Require Import Word Prog HashMap Spec Codec Container ContainerSpec ContainerThm ContainerWitness Examples.
Import ListNotations.
Open Scope nat_scope.

(** ** C33: insert reports whether the element was new *)

(** It reports the opposite: in every reachable state, insert returns true exactly when the element was
    already in the container. *)
Theorem C33_insert_inverted : forall C cap ppl maxcap os rs s n el b s',
  good_cap cap maxcap -> (maxcap <= 2 ^ 32)%N ->
  creach C (init_state cap ppl maxcap) os rs s -> Forall legal_cop os -> legal_el el ->
  run (c_insert C n el) s = Ok b s' -> b = holds os el.
Proof. exact c33_insert_inverted. Qed.
Print Assumptions C33_insert_inverted.

(** A new element on an empty container: false here, true for the reference container.  The second time it is
    the other way round. *)
Theorem C33_refuted : exists el s s', legal_el el /\
  run (c_insert idcfg ex_fuel el) (init_state 16 4 4096) = Ok false s /\
  snd (stl_step ∅ (CInsert el)) = CBool true /\
  run (c_insert idcfg ex_fuel el) s = Ok true s' /\
  snd (stl_step (fst (stl_step ∅ (CInsert el))) (CInsert el)) = CBool false.
Proof. exact c33_refuted. Qed.
Print Assumptions C33_refuted.

(** ** C34: membership agrees with the reference container *)

Theorem C34_contains : forall C cap ppl maxcap os rs s n el b s',
  good_cap cap maxcap -> (maxcap <= 2 ^ 32)%N ->
  creach C (init_state cap ppl maxcap) os rs s -> Forall legal_cop os -> legal_el el ->
  run (c_contains C n el) s = Ok b s' -> b = holds os el.
Proof. exact c34_contains. Qed.
Print Assumptions C34_contains.

Theorem C34_get : forall C cap ppl maxcap os rs s n el v s',
  good_cap cap maxcap -> (maxcap <= 2 ^ 32)%N ->
  creach C (init_state cap ppl maxcap) os rs s -> Forall legal_cop os -> legal_el el ->
  run (c_get C n el) s = Ok v s' -> (v = el <-> holds os el = true).
Proof. exact c34_get. Qed.
Print Assumptions C34_get.

(** [holds] is membership in the reference container after the same calls. *)
Theorem C34_reference : forall os el, Forall legal_cop os -> legal_el el ->
  snd (stl_step (fold_left (fun m o => fst (stl_step m o)) os ∅) (CContains el)) = CBool (holds os el).
Proof. exact c34_reference. Qed.
Print Assumptions C34_reference.

(** Seventeen inserts, which make the table grow, and an erase. *)
Example C34_example : exists rs s s1 s2 s3,
  let os := map (fun i => CInsert (N.of_nat i)) (seq 0 17) ++ [CErase 3; CCount] in
  creach idcfg (init_state 16 4 4096) os rs s /\ Forall legal_cop os /\ st_top s <> 0 /\
  run (c_contains idcfg ex_fuel 5) s = Ok true s1 /\ run (c_contains idcfg ex_fuel 3) s = Ok false s2 /\
  run (c_get idcfg ex_fuel 7) s = Ok 7%N s3 /\ last rs = Some (CNum 16).
Proof. exact c34_example. Qed.

(** The other results differ from the reference container's: erase of an absent element, erase of a present element
    0, and get of an absent element. *)
Theorem C34_results_refuted : exists s1 s2 s3 s4,
  run (c_erase idcfg ex_fuel 5) (init_state 16 4 4096) = Ok true s1 /\
  snd (stl_step ∅ (CErase 5)) = CBool false /\
  run (cops_prog idcfg ex_fuel [CInsert 0]) (init_state 16 4 4096) = Ok [CBool false] s2 /\
  run (c_erase idcfg ex_fuel 0) s2 = Ok false s3 /\
  snd (stl_step (fst (stl_step ∅ (CInsert 0))) (CErase 0)) = CBool true /\
  run (c_get idcfg ex_fuel 5) (init_state 16 4 4096) = Ok (2 ^ 61 - 1)%N s4 /\
  snd (stl_step ∅ (CGet 5)) = CNum 0.
Proof. exact c34_results_refuted. Qed.
Print Assumptions C34_results_refuted.
