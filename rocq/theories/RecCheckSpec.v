(** What the recovery check of the alternating test is about. *)
From Coq Require Import NArith Bool List.
From stdpp Require Import base gmap.
From Verif Require Import Word Prog HashMap Spec Codec Container RecCheck.
Import ListNotations.
Local Open Scope N_scope.

(** [el] was inserted by the calls and not erased since. *)
Fixpoint bmember (el : N) (l : list bop) (now : bool) : bool :=
  match l with
  | [] => now
  | BInsert e :: l' => bmember el l' (if e =? el then true else now)
  | BErase e :: l' => bmember el l' (if e =? el then false else now)
  end.

(** The number of elements of one thread's range that differ from the others': thread [thr] has the elements from
    [thr * width] to [(thr + 1) * width - 1]. *)
Definition width (n total : N) : N := total / n + total mod n.

(** A container that holds what it should after each thread [thr] stopped after [js thr] calls of its main loop. *)
Definition stopped (n total : N) (js : N -> nat) (has : N -> bool) : Prop :=
  forall thr pre main el, thr < n -> alt_run n total thr = Some (pre, main) ->
    thr * width n total <= el < (thr + 1) * width n total -> has el = bmember el (pre ++ firstn (js thr) main) false.
(** All calls were made. *)
Definition complete (n total : N) (js : N -> nat) : Prop :=
  forall thr pre main, thr < n -> alt_run n total thr = Some (pre, main) -> (length main <= js thr)%nat.

(** The elements in the container. *)
Definition contents (n total : N) (has : N -> bool) : list N :=
  List.filter has (map N.of_nat (seq 0 (N.to_nat (n * width n total)))).

(** The numbers of calls with which the check works: thread 0 makes an odd number of calls, or less than four, or ten
    at least; the others also less than 20. *)
Definition checkable (n total : N) : Prop := forall thr numops, thr < n -> opsPerThread n total thr = Some numops ->
  (N.odd numops = true \/ 10 <= numops \/ numops < 4) /\ (thr = 0 \/ numops < 20).

(** The container's test for membership. *)
Definition pure (has : N -> bool) : N -> prog bool := fun e => Ret (has e).

(** A state that answers as the dictionary [m] would (what C01 says of a new map and C43 of one that is constructed
    after a crash), and whose size() is exact. *)
Definition behaves (C : cfg) (s : state) (m : gmap N N) : Prop :=
  (forall x s', run size s = Ok x s' -> x = N.of_nat (base.size m)) /\
  (forall os rs s', reach C s os rs s' -> Forall legal_op os -> exists m', dsteps m os rs m').
(** The keys of [m] are the elements of [has]. *)
Definition keys_are (n total : N) (m : gmap N N) (has : N -> bool) : Prop :=
  forall k, is_Some (m !! k) <-> exists el, el < n * width n total /\ has el = true /\ k = encode_el el.

(** The alternating test's call, as a call of the map (see [c_insert] and [c_erase]). *)
Definition bcall (o : bop) : op :=
  match o with BInsert el => OPut (encode_el el) (encode_el el) | BErase el => ORemove (encode_el el) end.
