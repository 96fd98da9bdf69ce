(** Concurrent semantics: any number of threads, each issuing a list of calls, interleaved at the
    granularity of single commands (atomic accesses, flushes, fences, allocations). *)
From Coq Require Import NArith Bool List.
From stdpp Require Import base list.
From Verif Require Import Word Prog HashMap.
Import ListNotations.

(** A thread: the call it is executing, with the rest of its program, and the calls to come. *)
Record thread := mkThread { th_cur : option (op * prog rsp); th_todo : list op }.

Inductive event :=
| EInv (i : nat) (o : op)             (* thread [i] invokes [o] *)
| ERes (i : nat) (o : op) (r : rsp).  (* the call [o] of thread [i] returns [r] *)

(** The system: memory, threads, and the history of invocations and responses, most recent first. *)
Record sys := mkSys { sy_st : state; sy_thr : list thread; sy_hist : list event }.

(** One step of thread [i]: invoke the next call, perform one command, or return.  A thread whose
    program failed (an assertion, an exception, ...) makes no further steps. *)
Definition tstep (C : cfg) (n : nat) (i : nat) (y : sys) : sys :=
  match sy_thr y !! i with
  | None => y
  | Some th =>
      match th_cur th with
      | None =>
          match th_todo th with
          | [] => y
          | o :: os => mkSys (sy_st y) (<[i := mkThread (Some (o, op_prog C n o)) os]> (sy_thr y)) (EInv i o :: sy_hist y)
          end
      | Some (o, Ret r) => mkSys (sy_st y) (<[i := mkThread None (th_todo th)]> (sy_thr y)) (ERes i o r :: sy_hist y)
      | Some (o, Err e) => y
      | Some (o, Vis c k) =>
          let (r, s) := exec c (sy_st y) in
          mkSys s (<[i := mkThread (Some (o, k r)) (th_todo th)]> (sy_thr y)) (sy_hist y)
      end
  end.

(** A schedule is a list of thread numbers. *)
Fixpoint conc (C : cfg) (n : nat) (sched : list nat) (y : sys) : sys :=
  match sched with [] => y | i :: l => conc C n l (tstep C n i y) end.

(** The initial system: the threads will issue the calls [todos]. *)
Definition start (s : state) (todos : list (list op)) : sys := mkSys s (map (mkThread None) todos) [].

(** The system after a schedule. *)
Definition after (C : cfg) (n : nat) (s : state) (todos : list (list op)) (sched : list nat) : sys :=
  conc C n sched (start s todos).

Lemma conc_app C n l1 l2 y : conc C n (l1 ++ l2) y = conc C n l2 (conc C n l1 y).
Proof. revert y. induction l1 as [|i l1 IH]; intros y; cbn; [reflexivity|apply IH]. Qed.

Lemma after_app C n s todos l1 l2 : after C n s todos (l1 ++ l2) = conc C n l2 (after C n s todos l1).
Proof. apply conc_app. Qed.
