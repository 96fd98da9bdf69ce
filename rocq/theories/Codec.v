(** Encodings and arithmetic outside the map: container elements, home positions, range persistence,
    descriptor references of the multi-word CAS, and the benchmark's work distribution. *)
From Coq Require Import NArith Bool List.
From Verif Require Import Word Prog HashMap.
Import ListNotations.
Local Open Scope N_scope.

(** ** Container elements *)

(** containers/ucfMap.hpp:15, 25, 30, 35: an element as a key or value of the map. *)
Definition encode_el (el : N) : N := shl64 el BITS_MARKED.
(** containers/ucfMap.hpp:35: back. *)
Definition decode_el (w : N) : N := shr64 w BITS_MARKED.

(** ** Home positions *)

(** hashMap.hpp:966: [fullHash & (len - 1)] with [int fullHash]. *)
Definition get_home (h : N) (len : nat) : nat := mask (sext32 h) len.
(** hashMap.hpp:1055: the same with the full hash. *)
Definition put_home (h : N) (len : nat) : nat := mask h len.

(** ** Range persistence *)

(** include/persistence.hpp:29 *)
Definition FLUSH_ALIGN : N := 64.

Inductive pev := EvFlush (uptr : N) | EvFence.

(** include/persistence.hpp:37-42 and 52-57: the loop; [lim] is [(uintptr_t)addr + len].
    [None]: the fuel did not suffice. *)
Fixpoint flush_loop (n : nat) (uptr lim : N) : option (list pev) :=
  match n with
  | O => None
  | S n' =>
      if uptr <? lim
      then option_map (cons (EvFlush uptr)) (flush_loop n' (add64 uptr FLUSH_ALIGN) lim)
      else Some []
  end.

(** include/persistence.hpp:47-59 *)
Definition PERSIST_FLUSH_ONLY (n : nat) (addr len : N) : option (list pev) :=
  flush_loop n (N.ldiff addr (FLUSH_ALIGN - 1)) (add64 addr len).
(** include/persistence.hpp:32-45 *)
Definition PERSIST (n : nat) (addr len : N) : option (list pev) :=
  option_map (fun l => l ++ [EvFence]) (PERSIST_FLUSH_ONLY n addr len).

(** ** Descriptor references, include/KCAS/pmwcas.hpp:57-110 *)

(** The flags are named in include/marking.hpp:8-9, where they are commented out. *)
Definition PMwCASFlag : N := 2.
Definition RDCSSFlag : N := 4.

Record descref := mkDesc { d_isDirty : bool; d_isKCAS : bool; d_isRDCSS : bool; d_seq : N; d_tid : N }.

(** pmwcas.hpp:60: [64 - clz(P) - 1] is the binary logarithm of P. *)
Definition tidSize (P : N) : N := if N.log2 P =? 0 then 1 else N.log2 P.
(** pmwcas.hpp:61-65 *)
Definition seqSize (P : N) : N := 64 - tidSize P - 1 - 1 - 1.

(** [((size_t)ptr >> sh) & (((size_t)1 << sz) - 1)]: one bit field. *)
Definition field (w sh sz : N) : N := N.land (shr64 w sh) (shl64 1 sz - 1).

(** pmwcas.hpp:84-95 *)
Definition desc_decode (P w : N) : descref :=
  mkDesc (negb (field w 0 1 =? 0)) (negb (field w 1 1 =? 0)) (negb (field w 2 1 =? 0))
    (field w 3 (seqSize P)) (field w (seqSize P + 1 + 1 + 1) (tidSize P)).

(** pmwcas.hpp:99-107 *)
Definition desc_encode (P : N) (d : descref) : N :=
  add64 (add64 (add64 (add64
    (shl64 (d_tid d) (seqSize P + 1 + 1 + 1))
    (shl64 (d_seq d) (1 + 1 + 1)))
    (shl64 (N.b2n (d_isRDCSS d)) (1 + 1)))
    (shl64 (N.b2n (d_isKCAS d)) 1))
    (N.b2n (d_isDirty d)).

(** WordDescriptor::Mutable, pmwcas.hpp:180-208 *)
Record wmut := mkWmut { wm_isDirty : bool; wm_seq : N }.
Definition wmut_encode (m : wmut) : N := add64 (shl64 (wm_seq m) 1) (N.b2n (wm_isDirty m)).
Definition wmut_decode (w : N) : wmut := mkWmut (negb (field w 0 1 =? 0)) (field w 1 63).

(** KCASDescriptor::Mutable, pmwcas.hpp:223-257.  The status occupies two bits
    (Undecided = 0, Succeeded = 1, Failed = 2, pmwcas.hpp:45-52). *)
Record kmut := mkKmut { km_isDirty : bool; km_status : N; km_seq : N }.
Definition kmut_encode (m : kmut) : N :=
  add64 (add64 (shl64 (km_seq m) (2 + 1)) (shl64 (km_status m) 1)) (N.b2n (km_isDirty m)).
Definition kmut_decode (w : N) : kmut :=
  mkKmut (negb (field w 0 1 =? 0)) (field w 1 2) (field w 3 61).

(** ** The benchmark's work distribution *)

(** tests/test.hpp:49-60; [None] is the assertion failure. *)
Definition opsPerThread (numThreads totalOps threadID : N) : option N :=
  if threadID <? numThreads then
    let numOps := totalOps / numThreads in
    let remOps := totalOps mod numThreads in
    Some (if (0 <? remOps) && (threadID =? 0) then add64 numOps remOps else numOps)
  else None.

(** tests/test.hpp:63-66 *)
Definition opsMainLoop (numops : N) : N := numops - numops / 10.

(** tests/alternating.hpp genElem; [None] is the assertion failure. *)
Definition genElem (num thrid maxOps : N) : option N :=
  if num <? maxOps then Some (add64 ((thrid * maxOps) mod two64) num) else None.

(** The element that reaches the container: [int elem = genElem(...)], then [insert(ValT)]:
    truncated to 32 bits and sign-extended. *)
Definition passed (el : N) : N := sext32 el.

Inductive bop := BInsert (el : N) | BErase (el : N).

(** tests/alternating.hpp container_test_prefix: the remaining [cnt] insertions. *)
Fixpoint alt_prefix (cnt : nat) (thr maxops wrid : N) : option (list bop) :=
  match cnt with
  | O => Some []
  | S cnt' =>
      match genElem wrid thr maxops with
      | None => None
      | Some e => option_map (cons (BInsert (passed e))) (alt_prefix cnt' thr maxops (wrid + 1))
      end
  end.

(** tests/alternating.hpp container_test: the remaining [nummain] operations. *)
Fixpoint alt_main (nummain : nat) (thr maxops wrid rdid : N) : option (list bop) :=
  match nummain with
  | O => Some []
  | S m =>
      if Nat.odd nummain then
        match genElem wrid thr maxops with
        | None => None
        | Some e => option_map (cons (BInsert (passed e))) (alt_main m thr maxops (wrid + 1) rdid)
        end
      else
        match genElem rdid thr maxops with
        | None => None
        | Some e => option_map (cons (BErase (passed e))) (alt_main m thr maxops wrid (rdid + 1))
        end
  end.

(** What one thread of the alternating test does if it executes prefix and main loop.  (run_test executes the prefix for
    thread 0 only, see [RecCheck.alt_run].) *)
Definition alt_thread (numThreads totalOps thr : N) : option (list bop) :=
  match opsPerThread numThreads totalOps 0, opsPerThread numThreads totalOps thr with
  | Some maxops, Some numops =>
      let nummain := opsMainLoop numops in
      let wrid := numops - nummain in
      match alt_prefix (N.to_nat (numops - nummain)) thr maxops 0,
            alt_main (N.to_nat nummain) thr maxops wrid (wrid / 2) with
      | Some a, Some b => Some (a ++ b)
      | _, _ => None
      end
  | _, _ => None
  end.
