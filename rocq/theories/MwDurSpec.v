(** What a crash may leave of the memory of the multi-word compare-and-swap: its flushes, and vocabulary for its properties.

    MwCas.v leaves the flushes out.  Here the one in persist (persistence.hpp:72-73), which comes before a compare-and-swap
    that clears the dirty flag, is put back; such a compare-and-swap is recognised by its words, since every other one writes a
    word with the dirty flag.  PERSIST_FLUSH_ONLY (pmwcas.hpp:422, 468), which writes back the plain fields of a descriptor, is
    left out: a crash may lose more than in C++.  Every cell is written back on its own, and a fence follows every flush. *)
From Coq Require Import NArith Bool List.
From stdpp Require Import base list.
From Verif Require Import Word Codec MwCas MwSpec.
Import ListNotations.
Local Open Scope N_scope.

(** The memory, and for each cell the words that it may have after a crash: those since it was last flushed, most recent first. *)
Record dst := mkD { ds_mem : mem; ds_per : loc -> list N }.
Definition dstart (m : mem) : dst := mkD m (fun l => [m l]).
(** FLUSH and FENCE *)
Definition dflush (l : loc) (s : dst) : dst := mkD (ds_mem s) (fun x => if decide (x = l) then [ds_mem s l] else ds_per s x).
Definition dexec (c : mcmd) (s : dst) : mres c * dst :=
  let (r, m) := mexec c (ds_mem s) in
  (r, mkD m (fun x => if (m x =? ds_mem s x)%N then ds_per s x else m x :: ds_per s x)).
(** The cell that is flushed before the command. *)
Definition flushes (c : mcmd) : option loc := match c with MCas l e n => if (n =? clean e)%N then Some l else None | _ => None end.
Definition dpre (c : mcmd) (s : dst) : dst := match flushes c with Some l => dflush l s | None => s end.

(** One thread alone. *)
Inductive doutcome (A : Type) : Type := DOk (a : A) (s : dst) | DFail (e : merr) (s : dst).
Arguments DOk {A} a s.
Arguments DFail {A} e s.
Fixpoint drun {A : Type} (p : mprog A) (s : dst) : doutcome A :=
  match p with
  | MRet a => DOk a s
  | MErr e => DFail e s
  | MVis c k => let (r, s') := dexec c (dpre c s) in drun (k r) s'
  end.

(** Several threads.  [split]: a flush is a step of its own, so that other threads may come between it and the
    compare-and-swap; [dy_fl i]: thread [i] has done the flush before its next command. *)
Record dsys := mkDsys { dy_st : dst; dy_thr : list mthread; dy_fl : nat -> bool; dy_hist : list mevent }.
Definition dtstep (C : mcfg) (n : nat) (split : bool) (i : nat) (y : dsys) : dsys :=
  match dy_thr y !! i with
  | None => y
  | Some th =>
      match mt_cur th with
      | None =>
          match mt_todo th with
          | [] => y
          | o :: os => mkDsys (dy_st y) (<[i := mkMthread (Some (o, mop_prog C n (N.of_nat i) o)) os]> (dy_thr y)) (dy_fl y) (MInv i o :: dy_hist y)
          end
      | Some (o, MRet r) => mkDsys (dy_st y) (<[i := mkMthread None (mt_todo th)]> (dy_thr y)) (dy_fl y) (MRes i o r :: dy_hist y)
      | Some (o, MErr e) => y
      | Some (o, MVis c k) =>
          let run s := let (r, s') := dexec c s in
            mkDsys s' (<[i := mkMthread (Some (o, k r)) (mt_todo th)]> (dy_thr y)) (fun j => if Nat.eqb j i then false else dy_fl y j) (dy_hist y) in
          if negb split then run (dpre c (dy_st y))
          else if dy_fl y i then run (dy_st y)
          else match flushes c with
               | Some l => mkDsys (dflush l (dy_st y)) (dy_thr y) (fun j => if Nat.eqb j i then true else dy_fl y j) (dy_hist y)
               | None => run (dy_st y)
               end
      end
  end.
Fixpoint dconc (C : mcfg) (n : nat) (split : bool) (sched : list nat) (y : dsys) : dsys :=
  match sched with [] => y | i :: l => dconc C n split l (dtstep C n split i y) end.
Definition dafter (C : mcfg) (n : nat) (split : bool) (m : mem) (todos : list (list mop)) (sched : list nat) : dsys :=
  dconc C n split sched (mkDsys (dstart m) (map (mkMthread None) todos) (fun _ => false) []).

(** Whatever a crash leaves of the cell is its present word, up to the dirty flag. *)
Definition survives (s : dst) (l : loc) : Prop := forall v, v ∈ ds_per s l -> clean v = clean (ds_mem s l).
(** The cells with a dirty flag (persistence.hpp:79). *)
Definition has_flag (l : loc) : Prop := match l with LArr _ | LK _ | LW _ => True | _ => False end.
(** What the flag is for: a cell without it need not be flushed. *)
Definition clean_survive (s : dst) : Prop := forall l, has_flag l -> isMarked (ds_mem s l) DirtyFlag = false -> survives s l.
