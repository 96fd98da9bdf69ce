(** The multi-word compare-and-swap of include/KCAS/pmwcas.hpp, function by function.

    Simplifications.  The plain (non-atomic) fields of the descriptors are read and written one machine word at a time,
    each access in one step; in C++ the races on them are undefined behaviour.  Flushes and fences have no effect here:
    what a crash may leave of the descriptors is not considered, except that memory as it is may be found by [recover].
    The two DEBUG counters (pmwcas.hpp:24-25, 701-709) and the printing are left out.  Words have the type uintptr_t, as
    in KCAS/main.cpp:10. *)
From Coq Require Import NArith Bool List.
From stdpp Require Import base list.
From Verif Require Import Word Codec.
Import ListNotations.

(** Template parameters and configuration: the number of threads P is [2 ^ m_log] (pmwcas.hpp:280-281 assert powers of two),
    the array (KCAS/define.hpp:20) has [m_size] words, descriptors have room for [m_K] words; [m_ndebug]: assertions are
    compiled out. *)
Record mcfg := mkMcfg { m_log : N; m_size : N; m_K : nat; m_ndebug : bool }.

(** ** Memory *)

(** The fields of a struct Word (pmwcas.hpp:157-173). *)
Inductive wfld := WOff | WOld | WNew.
(** The memory cells: the words of the array, the mutables of the descriptors of thread [t], and their plain fields
    (pmwcas.hpp:174-270). *)
Inductive loc :=
| LArr (i : N)                            (* array[i] *)
| LK (t : N)                              (* KCASDescriptors[t].mutables *)
| LKCount (t : N)                         (* KCASDescriptors[t].count *)
| LKWord (t : N) (i : nat) (f : wfld)     (* KCASDescriptors[t].words[i] *)
| LW (t : N)                              (* wordDescriptors[t].mutables *)
| LWWord (t : N) (f : wfld)               (* wordDescriptors[t], the fields inherited from Word *)
| LWSeq (t : N)                           (* wordDescriptors[t].KCASseq *)
| LWTid (t : N).                          (* wordDescriptors[t].KCAStid *)
Global Instance wfld_eq_dec : EqDecision wfld.
Proof. solve_decision. Defined.
Global Instance loc_eq_dec : EqDecision loc.
Proof. solve_decision. Defined.

Definition mem := loc -> N.
Definition upd (m : mem) (l : loc) (v : N) : mem := fun l' => if decide (l' = l) then v else m l'.

(** ** Programs *)

Inductive merr := MOutOfFuel | MAssertFail | MOutOfBounds | MThrown.

Inductive mcmd := MLoad (l : loc) | MStore (l : loc) (v : N) | MCas (l : loc) (e n : N).
(** [MCas] returns success and the word it observed. *)
Definition mres (c : mcmd) : Type :=
  match c with MLoad _ => N | MStore _ _ => unit | MCas _ _ _ => bool * N end%type.
Definition mexec (c : mcmd) (m : mem) : mres c * mem :=
  match c return mres c * mem with
  | MLoad l => (m l, m)
  | MStore l v => (tt, upd m l v)
  | MCas l e n => if (m l =? e)%N then ((true, m l), upd m l n) else ((false, m l), m)
  end.

Inductive mprog (A : Type) : Type :=
| MRet (a : A)
| MErr (e : merr)
| MVis (c : mcmd) (k : mres c -> mprog A).
Arguments MRet {A} a.
Arguments MErr {A} e.
Arguments MVis {A} c k.

Fixpoint mbind {A B : Type} (p : mprog A) (f : A -> mprog B) : mprog B :=
  match p with
  | MRet a => f a
  | MErr e => MErr e
  | MVis c k => MVis c (fun r => mbind (k r) f)
  end.

Declare Scope mprog_scope.
Delimit Scope mprog_scope with mprog.
Notation "x <-- p ;; q" := (mbind p (fun x => q))
  (at level 60, p at next level, right associativity) : mprog_scope.
Notation "p ;;; q" := (mbind p (fun _ => q)) (at level 60, right associativity) : mprog_scope.
Open Scope mprog_scope.

Definition mdo (c : mcmd) : mprog (mres c) := MVis c MRet.

(** The semantics of one thread alone. *)
Inductive moutcome (A : Type) : Type := MOk (a : A) (m : mem) | MFail (e : merr) (m : mem).
Arguments MOk {A} a m.
Arguments MFail {A} e m.
Fixpoint mrun {A : Type} (p : mprog A) (m : mem) : moutcome A :=
  match p with
  | MRet a => MOk a m
  | MErr e => MFail e m
  | MVis c k => let (r, m') := mexec c m in mrun (k r) m'
  end.

(** ** The code *)

Section Code.
Context (C : mcfg).
Local Notation P := (2 ^ m_log C)%N.

Definition massert (b : bool) : mprog unit := if b || m_ndebug C then MRet tt else MErr MAssertFail.

(** persistence.hpp:69-76 *)
Definition m_persist (l : loc) (v : N) : mprog unit := mdo (MCas l v (clean v)) ;;; MRet tt.
(** persistence.hpp:81-90 *)
Definition m_read (l : loc) : mprog N :=
  w <-- mdo (MLoad l);;
  (if isMarked w DirtyFlag then m_persist l w else MRet tt) ;;;
  MRet (clean w).
(** persistence.hpp:94-104: success, and the final contents of the reference parameter [oldVal]. *)
Definition m_pcas (l : loc) (oldVal newVal : N) : mprog (bool * N) :=
  m_read l ;;;
  r <-- mdo (MCas l oldVal (dirty newVal));;
  let oldVal' := if fst r then oldVal else snd r in
  massert ((fst r && (oldVal =? oldVal')%N) || (negb (fst r) && negb (oldVal =? oldVal')%N)) ;;;
  MRet (fst r, oldVal').

(** Word::address, pmwcas.hpp:167-172; the base address is the one of the array (KCAS/main.cpp:119).  An access beyond the
    array is undefined behaviour. *)
Definition address (off : N) : mprog loc := if (off <? m_size C)%N then MRet (LArr off) else MErr MOutOfBounds.
(** An access to the descriptors of thread [t]. *)
Definition thread_ok (t : N) : mprog unit := if (t <? P)%N then MRet tt else MErr MOutOfBounds.

(** pmwcas.hpp:45-52 *)
Definition Undecided : N := 0.
Definition Succeeded : N := 1.
Definition Failed : N := 2.

(** pmwcas.hpp:360-375 *)
Definition getSeq (d : descref) : mprog N :=
  if d_isKCAS d && negb (d_isRDCSS d)
  then thread_ok (d_tid d) ;;; w <-- m_read (LK (d_tid d));; MRet (km_seq (kmut_decode w))
  else if negb (d_isKCAS d) && d_isRDCSS d
  then thread_ok (d_tid d) ;;; w <-- m_read (LW (d_tid d));; MRet (wm_seq (wmut_decode w))
  else MErr MThrown.

(** A struct Word: offset, oldVal, newVal. *)
Record mword := mkWord { o_off : N; o_old : N; o_new : N }.

(** std::sort (pmwcas.hpp:394) with operator< on the offsets. *)
Fixpoint insert_word (x : mword) (l : list mword) : list mword :=
  match l with
  | [] => [x]
  | y :: l' => if (o_off x <? o_off y)%N then x :: l else y :: insert_word x l'
  end.
Definition sort_words (l : list mword) : list mword := fold_right insert_word [] l.
(** pmwcas.hpp:396-399 *)
Fixpoint strictly_sorted (l : list mword) : bool :=
  match l with
  | x :: (y :: _) as l' => (o_off x <? o_off y)%N && strictly_sorted l'
  | _ => true
  end.

(** pmwcas.hpp:403-406 *)
Fixpoint store_words (t : N) (i : nat) (l : list mword) : mprog unit :=
  match l with
  | [] => MRet tt
  | x :: l' =>
      mdo (MStore (LKWord t i WOff) (o_off x)) ;;;
      mdo (MStore (LKWord t i WOld) (o_old x)) ;;;
      mdo (MStore (LKWord t i WNew) (o_new x)) ;;;
      store_words t (S i) l'
  end.

(** KCAS descriptor generation, pmwcas.hpp:377-435.  The field [seq] of the mutables has 61 bits, that of a reference
    [seqSize P].  The validation (409-414) can only fail in the status check: the other conditions repeat what the
    descriptor was just filled with. *)
Definition createK (threadNum : N) (words : list mword) : mprog descref :=
  massert (threadNum <? P)%N ;;;
  massert ((0 <? length words)%nat && (length words <=? m_K C)%nat) ;;;
  thread_ok threadNum ;;;
  w <-- m_read (LK threadNum);;
  let seq1 := ((km_seq (kmut_decode w) + 1) mod 2 ^ 61)%N in
  let m1 := kmut_encode (mkKmut true Undecided seq1) in
  mdo (MStore (LK threadNum) m1) ;;;
  m_persist (LK threadNum) m1 ;;;
  let sorted := sort_words words in
  massert (strictly_sorted sorted) ;;;
  mdo (MStore (LKCount threadNum) (N.of_nat (length words))) ;;;
  store_words threadNum 0 sorted ;;;
  w' <-- mdo (MLoad (LK threadNum));;
  massert (km_status (kmut_decode w') =? Undecided)%N ;;;
  let seq2 := ((seq1 + 1) mod 2 ^ 61)%N in
  let m2 := kmut_encode (mkKmut true Undecided seq2) in
  mdo (MStore (LK threadNum) m2) ;;;
  m_persist (LK threadNum) m2 ;;;
  MRet (mkDesc false true false (seq2 mod 2 ^ seqSize P)%N threadNum).

(** RDCSS descriptor generation, pmwcas.hpp:437-484; [me] is localThreadNum. *)
Definition createW (me helpingThreadNum : N) (word : mword) (kd : descref) : mprog descref :=
  massert (me <? P)%N ;;;
  massert (helpingThreadNum <? P)%N ;;;
  thread_ok me ;;;
  w <-- m_read (LW me);;
  let seq1 := ((wm_seq (wmut_decode w) + 1) mod 2 ^ 63)%N in
  let m1 := wmut_encode (mkWmut true seq1) in
  mdo (MStore (LW me) m1) ;;;
  m_persist (LW me) m1 ;;;
  mdo (MStore (LWWord me WOff) (o_off word)) ;;;
  mdo (MStore (LWWord me WOld) (o_old word)) ;;;
  mdo (MStore (LWWord me WNew) (o_new word)) ;;;
  mdo (MStore (LWSeq me) (d_seq kd)) ;;;
  mdo (MStore (LWTid me) helpingThreadNum) ;;;
  let seq2 := ((seq1 + 1) mod 2 ^ 63)%N in
  let m2 := wmut_encode (mkWmut true seq2) in
  mdo (MStore (LW me) m2) ;;;
  m_persist (LW me) m2 ;;;
  MRet (mkDesc false false true (seq2 mod 2 ^ seqSize P)%N me).

(** readField, pmwcas.hpp:487-499: the field and whether the descriptor is still the one referred to. *)
Definition readField (d : descref) (l : loc) : mprog (N * bool) :=
  r <-- m_read l;;
  s <-- getSeq d;;
  MRet (r, (d_seq d =? s)%N).

(** CASField, pmwcas.hpp:520-537: the result, the final contents of the reference parameter [fExp], and whether the
    descriptor is still the one referred to (false: [success] is set to false).  writeField (500-519) has no caller. *)
Definition CASField (d : descref) (fExp fNew : N) (l : loc) : mprog (bool * N * bool) :=
  expVal <-- m_read l;;
  s <-- getSeq d;;
  if negb (d_seq d =? s)%N then MRet (false, fExp, false)
  else if negb (expVal =? fExp)%N then MRet (false, expVal, true)
  else r <-- m_pcas l fExp fNew;; MRet (fst r, snd r, true).

(** CompleteInstall, pmwcas.hpp:850-889 *)
Definition completeInstall (d : descref) : mprog bool :=
  thread_ok (d_tid d) ;;;
  kseq <-- mdo (MLoad (LWSeq (d_tid d)));;
  ktid <-- mdo (MLoad (LWTid (d_tid d)));;
  let dummy := mkDesc false true false (kseq mod 2 ^ seqSize P)%N (ktid mod 2 ^ tidSize P)%N in
  ktid' <-- mdo (MLoad (LWTid (d_tid d)));;
  thread_ok ktid' ;;;
  r <-- readField dummy (LK ktid');;
  let u := (km_status (kmut_decode (fst r)) =? Undecided)%N && snd r in
  let expected := desc_encode P d in
  massert (isMarked expected RDCSSFlag) ;;;
  oldVal <-- mdo (MLoad (LWWord (d_tid d) WOld));;
  off <-- mdo (MLoad (LWWord (d_tid d) WOff));;
  a <-- address off;;
  c <-- CASField d expected (if u then desc_encode P dummy else oldVal) a;;
  MRet (fst (fst c)).

(** InstallMwCASDescriptor, pmwcas.hpp:808-848: the value found, and [success]. *)
Fixpoint install (n : nat) (d : descref) : mprog (N * bool) :=
  match n with
  | O => MErr MOutOfFuel
  | S n' =>
      oldVal <-- mdo (MLoad (LWWord (d_tid d) WOld));;
      off <-- mdo (MLoad (LWWord (d_tid d) WOff));;
      a <-- address off;;
      c <-- CASField d oldVal (desc_encode P d) a;;
      let '(cas, val, success) := c in
      massert ((cas && (val =? oldVal)%N) || (negb cas && negb (val =? oldVal)%N) || (negb cas && negb success)) ;;;
      if negb success then MRet (val, false)
      else if d_isRDCSS (desc_decode P val) then completeInstall (desc_decode P val) ;;; install n' d
      else (if (val =? oldVal)%N then completeInstall d ;;; MRet tt else MRet tt) ;;; MRet (val, true)
  end.

(** The word [i] of the descriptor of thread [t]. *)
Definition load_word (t : N) (i : nat) : mprog mword :=
  a <-- mdo (MLoad (LKWord t i WOff));;
  b <-- mdo (MLoad (LKWord t i WOld));;
  c <-- mdo (MLoad (LKWord t i WNew));;
  MRet (mkWord a b c).
(** [KCASDescriptors[t].words[i].address(baseAddress)] *)
Definition word_address (t : N) (i : nat) : mprog loc := off <-- mdo (MLoad (LKWord t i WOff));; address off.
(** [i < KCASDescriptors[t].count] *)
Definition more (t : N) (i : nat) : mprog bool := c <-- mdo (MLoad (LKCount t));; MRet (N.of_nat i <? c)%N.

(** pmwcas.hpp:556-568: where to start, after the word with the address [addr]. *)
Fixpoint find_start (n : nat) (t : N) (addr : loc) (i : nat) : mprog nat :=
  match n with
  | O => MErr MOutOfFuel
  | S n' =>
      b <-- more t i;;
      if (b : bool) then
        a <-- word_address t i;;
        if decide (a = addr) then MRet (S i) else find_start n' t addr (S i)
      else MRet 0
  end.

(** pmwcas.hpp:571-624: place the descriptor in the words from [i] on.  [retry]: the jump to the label [retry], which is
    behind the test of the loop.  [rec] is the recursive call.  Returns the status [st]. *)
Fixpoint place (n : nat) (rec : descref -> loc -> mprog bool) (me : N) (d : descref) (i : nat) (retry : bool) : mprog N :=
  match n with
  | O => MErr MOutOfFuel
  | S n' =>
      b <-- (if retry then MRet true else more (d_tid d) i);;
      if negb b then MRet Succeeded
      else
        word <-- load_word (d_tid d) i;;
        wd <-- createW me (d_tid d) word d;;
        r <-- install n' wd;;
        let '(rval, success) := r in
        if negb (success : bool) then MRet Succeeded
        else
          o <-- mdo (MLoad (LWWord (d_tid wd) WOld));;
          if (rval =? o)%N then place n' rec me d (S i) false
          else if d_isKCAS (desc_decode P rval) then
            (if d_isDirty (desc_decode P rval)
             then a <-- word_address (d_tid d) i;; m_persist a rval
             else MRet tt) ;;;
            if (d_tid (desc_decode P rval) =? d_tid d)%N && (d_seq (desc_decode P rval) =? d_seq d)%N
            then place n' rec me d (S i) false
            else
              a <-- word_address (d_tid d) i;;
              rec (desc_decode P rval) a ;;; place n' rec me d i true
          else MRet Failed
  end.

(** pmwcas.hpp:627-639 *)
Fixpoint persist_words (n : nat) (t : N) (i : nat) : mprog unit :=
  match n with
  | O => MErr MOutOfFuel
  | S n' =>
      b <-- more t i;;
      if (b : bool) then a <-- word_address t i;; m_read a ;;; persist_words n' t (S i) else MRet tt
  end.

(** pmwcas.hpp:663-710: install the final values. *)
Fixpoint finish (n : nat) (d : descref) (st : N) (i : nat) : mprog unit :=
  match n with
  | O => MErr MOutOfFuel
  | S n' =>
      b <-- more (d_tid d) i;;
      if (b : bool) then
        v <-- mdo (MLoad (LKWord (d_tid d) i (if (st =? Succeeded)%N then WNew else WOld)));;
        let expected := N.lor (N.lor (desc_encode P d) PMwCASFlag) DirtyFlag in
        a <-- word_address (d_tid d) i;;
        c <-- CASField d expected v a;;
        if negb (snd c) then MRet tt
        else
          ok <-- (if (snd (fst c) =? N.lor (desc_encode P d) PMwCASFlag)%N
                  then a <-- word_address (d_tid d) i;;
                       c <-- CASField d (N.ldiff expected DirtyFlag) v a;; MRet (snd c)
                  else MRet true);;
          if negb (ok : bool) then MRet tt
          else a <-- word_address (d_tid d) i;; m_persist a v ;;; finish n' d st (S i)
      else MRet tt
  end.

(** PMwCAS(desc, addr), pmwcas.hpp:553-714; [me] is localThreadNum, [None] is the null pointer.  The final assertion (712)
    cannot fail. *)
Fixpoint pmwcas (n : nat) (me : N) (d : descref) (addr : option loc) : mprog bool :=
  match n with
  | O => MErr MOutOfFuel
  | S n' =>
      thread_ok (d_tid d) ;;;
      start <-- match addr with None => MRet 0 | Some a => find_start n' (d_tid d) a 0 end;;
      st <-- place n' (fun d' a => pmwcas n' me d' (Some a)) me d start false;;
      (if (st =? Succeeded)%N then persist_words n' (d_tid d) 0 else MRet tt) ;;;
      let mOld := kmut_encode (mkKmut false Undecided (d_seq d)) in
      let mNew := kmut_encode (mkKmut true st (d_seq d)) in
      c <-- CASField d mOld mNew (LK (d_tid d));;
      m_persist (LK (d_tid d)) mNew ;;;
      if negb (snd c) then MRet false
      else finish n' d st 0 ;;; MRet (st =? Succeeded)%N
  end.

(** PMwCAS(threadNum, size, words), pmwcas.hpp:541-551; the callers pass localThreadNum (KCAS/main.cpp:85). *)
Definition PMwCAS (n : nat) (me : N) (words : list mword) : mprog bool :=
  massert (0 <? length words)%nat ;;;
  d <-- createK me words;; pmwcas n me d None.

(** PMwCASRead, pmwcas.hpp:717-751 *)
Fixpoint PMwCASRead (n : nat) (me : N) (a : loc) : mprog N :=
  match n with
  | O => MErr MOutOfFuel
  | S n' =>
      v <-- mdo (MLoad a);;
      if isMarked v RDCSSFlag then
        massert (negb (d_tid (desc_decode P v) =? me)%N) ;;;
        completeInstall (desc_decode P v) ;;; PMwCASRead n' me a
      else
        (if isMarked v DirtyFlag then m_persist a v else MRet tt) ;;;
        let v := clean v in
        if isMarked v PMwCASFlag then pmwcas n' me (desc_decode P v) None ;;; PMwCASRead n' me a
        else MRet v
  end.

(** CAS, pmwcas.hpp:756-803: the result and the final contents of the reference parameter [oldVal]. *)
Fixpoint mwCAS (n : nat) (me : N) (a : loc) (oldValCopy newVal : N) : mprog (bool * N) :=
  match n with
  | O => MErr MOutOfFuel
  | S n' =>
      r <-- m_pcas a oldValCopy newVal;;
      if fst r then MRet r
      else
        let oldVal := snd r in
        if negb (isMarked oldVal RDCSSFlag) && negb (isMarked oldVal PMwCASFlag) && negb (isMarked oldVal DirtyFlag)
        then MRet (false, oldVal)
        else
          (if isMarked oldVal RDCSSFlag then
             massert (negb (d_tid (desc_decode P oldVal) =? me)%N) ;;;
             completeInstall (desc_decode P oldVal) ;;; MRet tt
           else MRet tt) ;;;
          (if isMarked oldVal DirtyFlag then m_persist a oldVal else MRet tt) ;;;
          let oldVal := clean oldVal in
          (if isMarked oldVal PMwCASFlag then pmwcas n' me (desc_decode P oldVal) None ;;; MRet tt else MRet tt) ;;;
          mwCAS n' me a oldValCopy newVal
  end.

(** recover, pmwcas.hpp:890-996, after the file was mapped.  The index variable of the innermost loop (968) hides the one of
    the loop around it (936). *)
Fixpoint recover_words (cnt : nat) (t : N) : mprog unit :=
  match cnt with
  | O => MRet tt
  | S cnt' =>
      off <-- mdo (MLoad (LWWord t WOff));;
      a <-- address off;;
      w <-- m_read a;;
      let ref := desc_decode P w in
      (if d_isRDCSS ref && negb (d_isKCAS ref) then completeInstall ref ;;; MRet tt else MRet tt) ;;;
      off' <-- mdo (MLoad (LWWord t WOff));;
      a' <-- address off';;
      w' <-- m_read a';;
      massert (negb (d_isRDCSS (desc_decode P w'))) ;;;
      recover_words cnt' (t + 1)%N
  end.
(** pmwcas.hpp:968-991 *)
Fixpoint recover_check (n : nat) (i : nat) : mprog unit :=
  match n with
  | O => MErr MOutOfFuel
  | S n' =>
      thread_ok (N.of_nat i) ;;;
      b <-- more (N.of_nat i) i;;
      if (b : bool) then
        a <-- word_address (N.of_nat i) i;;
        w <-- m_read a;;
        let ref := desc_decode P w in
        massert ((negb (d_isKCAS ref) && negb (d_isRDCSS ref)) || (d_isKCAS ref && d_isRDCSS ref)) ;;;
        ref <-- (if d_isRDCSS ref && negb (d_isKCAS ref)
                 then completeInstall ref ;;; a <-- word_address (N.of_nat i) i;; w <-- m_read a;; MRet (desc_decode P w)
                 else MRet ref);;
        massert (negb (d_isKCAS ref) && negb (d_isRDCSS ref)) ;;;
        recover_check n' (S i)
      else MRet tt
  end.
Fixpoint recover_descs (n cnt : nat) (me t : N) : mprog unit :=
  match cnt with
  | O => MRet tt
  | S cnt' =>
      w <-- m_read (LK t);;
      if negb (km_seq (kmut_decode w) mod 2 =? 0)%N then
        mdo (MStore (LK t) (kmut_encode (mkKmut true Succeeded 0))) ;;;
        mdo (MStore (LKCount t) 0%N) ;;;
        recover_descs n cnt' me (t + 1)%N
      else
        w <-- m_read (LK t);;
        (if (km_status (kmut_decode w) =? Undecided)%N then
           w <-- m_read (LK t);;
           pmwcas n me (mkDesc false true false (km_seq (kmut_decode w) mod 2 ^ seqSize P)%N (t mod 2 ^ tidSize P)%N) None ;;; MRet tt
         else MRet tt) ;;;
        recover_check n 0 ;;;
        recover_descs n cnt' me (t + 1)%N
  end.
Definition mw_recover (n : nat) (me : N) : mprog unit :=
  recover_words (N.to_nat P) 0%N ;;; recover_descs n (N.to_nat P) me 0%N.
(** The constructor without recovery, pmwcas.hpp:331-356, with the array set to 0 (KCAS/main.cpp:125-128). *)
Definition mw_init : mem := fun l =>
  match l with
  | LK _ => kmut_encode (mkKmut true Succeeded 0)
  | LW _ => wmut_encode (mkWmut true 0)
  | _ => 0%N
  end.

(** ** Calls *)

Inductive mop := MwCas (words : list mword) | MwRead (i : N) | MwCas1 (i old new : N).
Inductive mrsp := MBool (b : bool) | MWord (w : N).

Definition mop_prog (n : nat) (me : N) (o : mop) : mprog mrsp :=
  match o with
  | MwCas words => r <-- PMwCAS n me words;; MRet (MBool r)
  | MwRead i => a <-- address i;; r <-- PMwCASRead n me a;; MRet (MWord r)
  | MwCas1 i old new => a <-- address i;; r <-- mwCAS n me a old new;; MRet (MBool (fst r))
  end.
End Code.

(** ** Threads *)

Record mthread := mkMthread { mt_cur : option (mop * mprog mrsp); mt_todo : list mop }.
Inductive mevent := MInv (i : nat) (o : mop) | MRes (i : nat) (o : mop) (r : mrsp).
Record msys := mkMsys { ms_mem : mem; ms_thr : list mthread; ms_hist : list mevent }.

(** One step of thread [i], as in Conc.v. *)
Definition mtstep (C : mcfg) (n : nat) (i : nat) (y : msys) : msys :=
  match ms_thr y !! i with
  | None => y
  | Some th =>
      match mt_cur th with
      | None =>
          match mt_todo th with
          | [] => y
          | o :: os => mkMsys (ms_mem y) (<[i := mkMthread (Some (o, mop_prog C n (N.of_nat i) o)) os]> (ms_thr y)) (MInv i o :: ms_hist y)
          end
      | Some (o, MRet r) => mkMsys (ms_mem y) (<[i := mkMthread None (mt_todo th)]> (ms_thr y)) (MRes i o r :: ms_hist y)
      | Some (o, MErr e) => y
      | Some (o, MVis c k) =>
          let (r, m) := mexec c (ms_mem y) in
          mkMsys m (<[i := mkMthread (Some (o, k r)) (mt_todo th)]> (ms_thr y)) (ms_hist y)
      end
  end.
Fixpoint mconc (C : mcfg) (n : nat) (sched : list nat) (y : msys) : msys :=
  match sched with [] => y | i :: l => mconc C n l (mtstep C n i y) end.
Definition mstart (m : mem) (todos : list (list mop)) : msys := mkMsys m (map (mkMthread None) todos) [].
Definition mafter (C : mcfg) (n : nat) (m : mem) (todos : list (list mop)) (sched : list nat) : msys :=
  mconc C n sched (mstart m todos).
