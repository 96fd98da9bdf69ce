(** Executions in phases: at any time either one thread runs alone, or several threads run without growing the map. *)
From Coq Require Import NArith Bool List.
From stdpp Require Import base list gmap.
From Verif Require Import Word Prog HashMap Conc Spec LinSpec.
Import ListNotations.

(** Nobody is in a call. *)
Definition idle (y : sys) : Prop := Forall (fun th => th_cur th = None) (sy_thr y).

(** The current table has an entry for the key (with or without a value). *)
Definition in_table (s : state) (k : N) : Prop := k <> KINITIAL /\
  exists T p, st_tabs s !! st_top s = Some T /\ In p (t_pairs T) /\ clearMark (fst p) DirtyFlag = k.

(** Nobody has begun to grow the map between [s] and [s']. *)
Definition no_new_table (s s' : state) : Prop :=
  st_top s' = st_top s /\ length (st_tabs s') = length (st_tabs s) /\ st_fctr s' = st_fctr s /\ quiet s'.

(** [phased C n y y']: the execution from [y] to [y'] consists of phases that begin when nobody is in a call. In a phase,
    either one thread runs alone, through any number of calls and resizes; or the threads run in any interleaving, without
    a resize, and such that no two of them insert the same new key at the same time. *)
Inductive phased (C : cfg) (n : nat) (y : sys) : sys -> Prop :=
| ph_start : phased C n y y
| ph_alone y1 i l : phased C n y y1 -> idle y1 -> idle (conc C n (replicate l i) y1) ->
    phased C n y (conc C n (replicate l i) y1)
| ph_together y1 sched h : phased C n y y1 -> idle y1 -> quiet (sy_st y1) ->
    sy_hist (conc C n sched y1) = h ++ sy_hist y1 -> no_insert_race_from (in_table (sy_st y1)) h ->
    no_new_table (sy_st y1) (sy_st (conc C n sched y1)) ->
    phased C n y (conc C n sched y1).
