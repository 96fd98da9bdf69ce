(** The alternating test as run_test executes it, and its check after recovery (tests/alternating.hpp, runTest.hpp). *)
From Coq Require Import NArith Bool List.
From Verif Require Import Word Prog HashMap Codec.
Import ListNotations.
Open Scope prog_scope.
Local Open Scope N_scope.

(** runTest.hpp:153-166 with alternating.hpp:12-88: the calls of thread [thr] before and in its main loop.  The prefix is
    executed for the thread number 0 only.  [None] is an assertion failure. *)
Definition alt_run (numThreads totalOps thr : N) : option (list bop * list bop) :=
  match opsPerThread numThreads totalOps 0, opsPerThread numThreads totalOps thr with
  | Some maxops, Some numops =>
      let nummain := opsMainLoop numops in
      let wrid := numops - nummain in
      match alt_prefix (if thr =? 0 then N.to_nat (numops - nummain) else O) thr maxops 0,
            alt_main (N.to_nat nummain) thr maxops wrid (wrid / 2) with
      | Some a, Some b => Some (a, b)
      | _, _ => None
      end
  | _, _ => None
  end.

(** alternating.hpp:114-121; [None] is the pair whose second component is false. *)
Definition genElemChecked (num thr maxops : N) : option N :=
  if maxops <=? num then None else genElem num thr maxops.

Section Check.
(** [contains] is the container's. *)
Context (C : cfg) (contains : N -> prog bool).

(** [assert(val.second)], then [val.first], which is [size_t()] if the assertion is compiled out. *)
Definition checked (val : option N) : prog N :=
  match val with Some e => Ret e | None => assert_ C false ;;; Ret 0 end.

(** 137-156: [cnt] iterations from [opid]; [numvalid] and [success] are the variables of the function. *)
Fixpoint check_first (cnt : nat) (thr maxops opid numvalid : N) (success : bool) : prog (N * bool) :=
  match cnt with
  | O => Ret (numvalid, success)
  | S cnt' =>
      e <-- checked (genElemChecked opid thr maxops);;
      b <-- contains e;;
      if b then check_first cnt' thr maxops (opid + 1) (numvalid + 1) success
      else check_first cnt' thr maxops (opid + 1) numvalid false
  end.

(** 158-168: the first element from [rdid] on that was not removed. *)
Fixpoint find_first (n : nat) (thr maxops rdid : N) : prog N :=
  match n with
  | O => Err OutOfFuel
  | S n' =>
      match genElemChecked rdid thr maxops with
      | None => Ret rdid
      | Some e => b <-- contains e;; if b then Ret rdid else find_first n' thr maxops (rdid + 1)
      end
  end.

(** 172-182: count the elements that follow without a gap. *)
Fixpoint count_sequ (n : nat) (thr maxops rdid cntsequ : N) : prog (N * N) :=
  match n with
  | O => Err OutOfFuel
  | S n' =>
      match genElemChecked rdid thr maxops with
      | None => Ret (rdid, cntsequ)
      | Some e => b <-- contains e;;
          if b then count_sequ n' thr maxops (rdid + 1) (cntsequ + 1) else Ret (rdid, cntsequ)
      end
  end.

(** 210-220 *)
Fixpoint check_last (cnt : nat) (thr maxops opid : N) (success : bool) : prog bool :=
  match cnt with
  | O => Ret success
  | S cnt' =>
      e <-- checked (genElemChecked opid thr maxops);;
      b <-- contains e;;
      check_last cnt' thr maxops (opid + 1) (if b then false else success)
  end.

(** 124-223.  The fuel of the two while loops is more than the number of elements of a thread, which they do not pass. *)
Definition check_elements (numThreads totalOps thr : N) : prog (N * bool) :=
  match opsPerThread numThreads totalOps 0, opsPerThread numThreads totalOps thr with
  | Some maxops, Some numops =>
      let nummain := opsMainLoop numops in
      let initwr := numops - nummain in
      let rdid := initwr / 2 in
      r <-- check_first (N.to_nat rdid) thr maxops 0 0 true;;
      let (numvalid, success) := r : N * bool in
      rdid <-- find_first (S (N.to_nat maxops)) thr maxops rdid;;
      let expsequ := initwr - initwr / 2 in
      r <-- count_sequ (S (N.to_nat maxops)) thr maxops rdid 0;;
      let (rdid, cntsequ) := r : N * N in
      let numvalid := numvalid + cntsequ in
      let success := if (0 <? initwr) && (cntsequ <? expsequ - 1) then false else success in
      let success := if expsequ + 1 <? cntsequ then false else success in
      let limit := initwr + (if 0 <? nummain / 2 then nummain / 2 - 1 else 0) in
      assert_ C (limit <=? maxops) ;;;
      success <-- check_last (N.to_nat (limit - rdid)) thr maxops rdid success;;
      Ret (numvalid, success)
  | _, _ => Err AssertFail
  end.

(** 231-241: [cnt] threads from [i].  The number of valid elements passes through an int. *)
Fixpoint check_threads (cnt : nat) (numThreads totalOps i contsz : N) (success : bool) : prog (N * bool) :=
  match cnt with
  | O => Ret (contsz, success)
  | S cnt' =>
      r <-- check_elements numThreads totalOps i;;
      check_threads cnt' numThreads totalOps (i + 1) (add64 contsz (sext32 (fst r))) (if snd r then success else false)
  end.

(** 227-254: false is the exception thrown by [fail]. *)
Definition check_all_elements (actsize numops numthreads : N) : prog bool :=
  r <-- check_threads (N.to_nat numthreads) numthreads numops 0 0 true;;
  let (contsz, success) := r : N * bool in
  if negb (contsz =? actsize) then Ret false else if negb success then Ret false else Ret true.

(** 94-105, without the construction of the container; [count] is the container's. *)
Definition consistency_check (count : prog N) (numops numthreads : N) : prog bool :=
  actsize <-- count;; check_all_elements actsize numops numthreads.
End Check.
