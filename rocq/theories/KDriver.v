(** The test program of the multi-word compare-and-swap, include/KCAS/main.cpp. *)
From Coq Require Import NArith Bool List Permutation.
From stdpp Require Import base list.
From Verif Require Import Word Codec MwCas MwSpec.
Import ListNotations.
Local Open Scope N_scope.

(** How the program goes on: with a value, with undefined behaviour, or not at all because the list of the results of rand()
    is used up; the list stands for what rand() returns to the thread, one after the other. *)
Inductive dres (A : Type) := DOk (a : A) | DUndefined | DNoRand.
Arguments DOk {A} a.
Arguments DUndefined {A}.
Arguments DNoRand {A}.
Definition dthen {A B : Type} (p : mprog (dres A)) (f : A -> mprog (dres B)) : mprog (dres B) :=
  r <-- p;; match r with DOk a => f a | DUndefined => MRet DUndefined | DNoRand => MRet DNoRand end.

(** [rand() << 3] as a uintptr_t (KCAS/main.cpp:80).  The shift is one of ints: the 32 bits of the result are extended by
    their sign.  In C++17, for which the program is written (KCAS/.vscode/tasks.json), it is undefined unless the product is
    below 2^32; in C++20, which the makefile asks for, it is defined. *)
Definition shift3 (cxx20 : bool) (r : N) : option N :=
  if cxx20 || (r * 8 <? 2 ^ 32)
  then let x := (r * 8) mod 2 ^ 32 in Some (if x <? 2 ^ 31 then x else x + (2 ^ 64 - 2 ^ 32))
  else None.

Section Driver.
(** [order] is the order in which the loop (KCAS/main.cpp:68) visits the set, given the elements in the reverse of the order in
    which they were inserted. *)
Context (C : mcfg) (n : nat) (me : N) (cxx20 : bool) (order : list N -> list N).

(** Distinct random indexes, KCAS/main.cpp:57-64 *)
Fixpoint draw (count : nat) (set rs : list N) : option (list N * list N) :=
  if (count <=? length set)%nat then Some (set, rs)
  else match rs with
       | [] => None
       | r :: rs' => let i := r mod m_size C in draw count (if existsb (N.eqb i) set then set else i :: set) rs'
       end.

(** The words, KCAS/main.cpp:66-82.  The assertions (73-74) compare the address with itself. *)
Fixpoint fill (is rs : list N) : mprog (dres (list mword * list N)) :=
  match is with
  | [] => MRet (DOk ([], rs))
  | i :: is' =>
      a <-- address C i;;
      old <-- PMwCASRead C n me a;;
      match rs with
      | [] => MRet DNoRand
      | r :: rs' =>
          match shift3 cxx20 r with
          | None => MRet DUndefined
          | Some new => dthen (fill is' rs') (fun q => MRet (DOk (mkWord i old new :: fst q, snd q)))
          end
      end
  end.

(** performOps, KCAS/main.cpp:46-95, for [k] operations: the words of each call, and what it returned. *)
Fixpoint performOps (k : nat) (rs : list N) : mprog (dres (list (list mword * bool))) :=
  match k with
  | O => MRet (DOk [])
  | S k' =>
      match rs with
      | [] => MRet DNoRand
      | r :: rs1 =>
          match draw (N.to_nat (r mod N.of_nat (m_K C)) + 1) [] rs1 with
          | None => MRet DNoRand
          | Some (set, rs2) =>
              dthen (fill (order set) rs2) (fun q =>
                b <-- PMwCAS C n me (fst q);;
                dthen (performOps k' (snd q)) (fun l => MRet (DOk ((fst q, b) :: l))))
          end
      end
  end.
End Driver.

(** threadRunner, KCAS/main.cpp:14-43: the threads with the steps of their programs interleaved; [sched] says which thread is
    next. *)
Definition dsys : Type := mem * list (mprog (dres (list (list mword * bool)))).
Definition dstep (i : nat) (y : dsys) : dsys :=
  match snd y !! i with
  | Some (MVis c k) => let (r, m) := mexec c (fst y) in (m, <[i := k r]> (snd y))
  | _ => y
  end.
Fixpoint dconc (sched : list nat) (y : dsys) : dsys := match sched with [] => y | i :: l => dconc l (dstep i y) end.
(** main, KCAS/main.cpp:109-156: [rss] has the results of rand() for each thread. *)
Definition driver (C : mcfg) (n k : nat) (cxx20 : bool) (order : list N -> list N) (rss : list (list N)) : dsys :=
  (mw_init, imap (fun i rs => performOps C n (N.of_nat i) cxx20 order k rs) rss).

(** ** Vocabulary for its properties *)

(** The words that the program stores: 0, and multiples of 8 that are ints. *)
Definition driver_value (v : N) : Prop := v = 0 \/ exists r, r < 2 ^ 31 /\ shift3 true r = Some v.
(** A call of the program. *)
Definition driver_call (C : mcfg) (ws : list mword) : Prop :=
  legal_mop C (MwCas ws) /\ Forall (fun x => driver_value (o_old x) /\ driver_value (o_new x)) ws.
