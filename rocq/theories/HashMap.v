(** The hash map: include/persistence.hpp and containers/cliffMap/hashMap.hpp, function by
    function, as programs over the memory of Prog.v.

    Conventions.  A [Table *] is the table's allocation number.  Loops and recursive calls take
    fuel; exhausting it is the error [OutOfFuel].  [std::atomic] accesses are single commands. *)
From Coq Require Import NArith Bool List.
From stdpp Require Import base list.
From Verif Require Import Word Prog.
Import ListNotations.
Open Scope prog_scope.

(** Compile-time configuration: the hash function (template parameter [Hash], hashMap.hpp:63) and
    whether assertions are compiled out (makefile:6, -DNDEBUG=1). *)
Record cfg := mkCfg { hash : N -> N; ndebug : bool }.

(** hashMap.hpp:61 *)
Definition REPROBE_LIMIT : nat := 10.

(** hashMap.hpp:84-87 *)
Definition reprobeLimit (len : nat) : nat := REPROBE_LIMIT + len / 4.

(** [x & (len - 1)] for a table length. *)
Definition mask (x : N) (len : nat) : nat := N.to_nat (N.land x (N.of_nat len - 1)).

Section Code.
Context (C : cfg).

(** The C assert macro. *)
Definition assert_ (b : bool) : prog unit :=
  if b || ndebug C then Ret tt else Err AssertFail.

(** ** persistence.hpp *)

(** persistence.hpp:69-76 *)
Definition persist (t i : nat) (c : cell) (value : N) : prog N :=
  v <-- do (Flush t i);;
  do (Fence t i v);;;
  r <-- do (Cas t i c value (clean value));;
  Ret (snd r).

(** persistence.hpp:81-90 *)
Definition pcas_read (t i : nat) (c : cell) : prog N :=
  word <-- do (Load t i c);;
  (if isMarked word DirtyFlag then persist t i c word ;;; Ret tt else Ret tt) ;;;
  Ret (clean word).

(** persistence.hpp:94-104.  Returns success and the final contents of the reference parameter
    [oldVal]: unchanged on success, the word found in memory on failure. *)
Definition pcas (t i : nat) (c : cell) (oldVal newVal : N) : prog (bool * N) :=
  pcas_read t i c ;;;
  r <-- do (Cas t i c oldVal (dirty newVal));;
  let ret := fst r in
  let oldVal' := if ret then oldVal else snd r in
  assert_ ((ret && (oldVal =? oldVal')%N) || (negb ret && negb (oldVal =? oldVal')%N)) ;;;
  Ret (ret, oldVal').

(** ** class Table *)

(** [assert(idx < len)] followed by the array access: an assertion failure in debug builds, an
    out-of-bounds access in release builds. *)
Definition bounds (t i : nat) : prog unit :=
  len <-- do (Len t);;
  if (i <? len)%nat then Ret tt else Err (if ndebug C then OutOfBounds else AssertFail).

(** hashMap.hpp:500-505 *)
Definition key (t idx : nat) : prog N := bounds t idx ;;; pcas_read t idx CKey.
(** hashMap.hpp:507-512 *)
Definition value (t idx : nat) : prog N := bounds t idx ;;; pcas_read t idx CVal.
(** hashMap.hpp:514-520 *)
Definition CASkey (t idx : nat) (oldKey newKey : N) : prog N :=
  bounds t idx ;;; r <-- pcas t idx CKey oldKey newKey;; Ret (snd r).

(** The type of the function pointer [CAS] (hashMap.hpp:937). *)
Definition casfun : Type := nat -> nat -> N -> N -> prog N.

(** hashMap.hpp:523-529 *)
Definition CASvalue : casfun := fun t idx oldValue newValue =>
  bounds t idx ;;; r <-- pcas t idx CVal oldValue newValue;; Ret (snd r).

(** hashMap.hpp:532-546 *)
Definition increment : casfun := fun t idx oldValue newValue =>
  bounds t idx ;;;
  let oldValue' := if ((oldValue =? VINITIAL) || (oldValue =? VTOMBSTONE))%N then 0%N else oldValue in
  let newValue' := shl64 (shr64 oldValue' BITS_MARKED + 1) BITS_MARKED in
  r <-- pcas t idx CVal oldValue newValue';;
  Ret (snd r).

(** ** class CHM *)

(** hashMap.hpp:283-291 *)
Definition tableFull (t : nat) (reprobeCount len : nat) : prog bool :=
  if (REPROBE_LIMIT <=? reprobeCount)%nat then
    slots <-- do (LoadF t FSlots);;
    Ret (N.of_nat (REPROBE_LIMIT + len / 4) <=? slots)%N
  else Ret false.

(** hashMap.hpp:121-148.  Simplification: promoting a null successor is reported as an error
    instead of being stored; every caller has seen a non-null successor before. *)
Definition copyCheckAndPromote (oldTable : nat) (workDone : N) : prog unit :=
  oldLen <-- do (Len oldTable);;
  copyDone <-- do (LoadF oldTable FCopyDone);;
  assert_ (add64 copyDone workDone <=? N.of_nat oldLen)%N ;;;
  (if (0 <? workDone)%N then do (AddF oldTable FCopyDone workDone) ;;; Ret tt else Ret tt) ;;;
  if (add64 copyDone workDone =? N.of_nat oldLen)%N then
    nt <-- do (LoadNew oldTable);;
    match nt with
    | Some newTable => do (CasTop oldTable newTable) ;;; Ret tt
    | None => Err NullDeref
    end
  else Ret tt.

(** hashMap.hpp:249-265.  The strong CAS fails only if it observes a non-null pointer, so the loop
    body runs once. *)
Definition CASNewTable (t newTable : nat) : prog bool :=
  r <-- do (CasNew t None newTable);; Ret (fst r).

(** hashMap.hpp:313-339: the capacity of the successor table. *)
Definition newSizeFor (oldLen : nat) (size : N) : N :=
  let newSize := size in
  let newSize :=
    if (N.of_nat oldLen / 4 <=? size)%N then
      let newSize := shl64 (N.of_nat oldLen) 1 in
      if (N.of_nat oldLen / 2 <=? size)%N then shl64 (N.of_nat oldLen) 1 else newSize
    else newSize in
  if (newSize <=? N.of_nat oldLen)%N then shl64 (N.of_nat oldLen) 1 else newSize.

(** hashMap.hpp:295-374.  The assertion on [cap] is the one of the Table constructor
    (hashMap.hpp:487-488).  munmapTable (hashMap.hpp:753-759) has no effect on the shared state. *)
Definition resize (t : nat) : prog nat :=
  nt <-- do (LoadNew t);;
  match nt with
  | Some newTable =>
      newLen <-- do (Len newTable);; len <-- do (Len t);;
      assert_ (len <? newLen)%nat ;;; Ret newTable
  | None =>
      oldLen <-- do (Len t);;
      size <-- do (LoadF t FSize);;
      let newSize := newSizeFor oldLen size in
      nt <-- do (LoadNew t);;
      match nt with
      | Some newTable =>
          newLen <-- do (Len newTable);;
          assert_ (oldLen <? newLen)%nat ;;; Ret newTable
      | None =>
          count <-- do NextFile;;
          m <-- do (Mmap count (N.to_nat newSize) size);;
          match m with
          | None => Err AllocFail
          | Some newTable =>
              cap <-- do (Len newTable);;
              assert_ (Nat.even cap && (8 <=? cap)%nat) ;;;
              won <-- CASNewTable t newTable;;
              newTable' <--
                (if won then Ret newTable
                 else do (Unmap newTable) ;;;
                      nt <-- do (LoadNew t);;
                      match nt with Some x => Ret x | None => Err NullDeref end);;
              newLen <-- do (Len newTable');;
              assert_ (oldLen <? newLen)%nat ;;;
              Ret newTable'
          end
      end
  end.

(** *** copySlot, hashMap.hpp:150-229 *)

(** hashMap.hpp:153-157 *)
Fixpoint copySlot_key (n : nat) (oldTable idx : nat) : prog N :=
  match n with
  | O => Err OutOfFuel
  | S n' =>
      k <-- key oldTable idx;;
      if (k =? KINITIAL)%N
      then CASkey oldTable idx KINITIAL KTOMBSTONE ;;; copySlot_key n' oldTable idx
      else Ret k
  end.

(** hashMap.hpp:163-188.  [inl tt] is [return true]; [inr v] leaves the loop with oldVal = v. *)
Fixpoint copySlot_mark (n : nat) (oldTable idx : nat) (oldVal : N) : prog (unit + N) :=
  match n with
  | O => Err OutOfFuel
  | S n' =>
      if isMarked oldVal MigrationFlag then Ret (inr oldVal)
      else
        let mark := if ((oldVal =? VINITIAL) || (oldVal =? VTOMBSTONE))%N
                    then TOMBPRIME else setMark oldVal MigrationFlag in
        actualVal <-- CASvalue oldTable idx oldVal mark;;
        if (actualVal =? oldVal)%N then
          if (mark =? TOMBPRIME)%N then Ret (inl tt) else Ret (inr mark)
        else copySlot_mark n' oldTable idx actualVal
  end.

(** hashMap.hpp:219-224 *)
Fixpoint copySlot_finish (n : nat) (oldTable idx : nat) (oldVal : N) : prog unit :=
  match n with
  | O => Err OutOfFuel
  | S n' =>
      actualVal <-- CASvalue oldTable idx oldVal TOMBPRIME;;
      if (actualVal =? oldVal)%N then Ret tt else copySlot_finish n' oldTable idx actualVal
  end.

(** hashMap.hpp:150-229.  [put] is putIfMatch(table, key, newVal, oldVal) with the default CAS. *)
Definition copySlot (n : nat) (put : nat -> N -> N -> N -> prog N)
    (idx oldTable newTable : nat) : prog bool :=
  k <-- copySlot_key n oldTable idx;;
  v0 <-- value oldTable idx;;
  m <-- copySlot_mark n oldTable idx v0;;
  match m with
  | inl _ => Ret true
  | inr oldVal =>
      if (oldVal =? TOMBPRIME)%N then Ret false
      else
        let oldUnmarked := clearMark oldVal MigrationFlag in
        assert_ (negb (oldUnmarked =? VTOMBSTONE)%N) ;;;
        r <-- put newTable k oldUnmarked VINITIAL;;
        let copiedIntoNew := (r =? VINITIAL)%N in
        copySlot_finish n oldTable idx oldVal ;;;
        Ret copiedIntoNew
  end.

(** *** helpCopyImpl, hashMap.hpp:398-469 *)

(** hashMap.hpp:423-427: claim a chunk. *)
Fixpoint claimChunk (n : nat) (t : nat) (oldLen : nat) (work : N) (copyIdx : N) : prog N :=
  match n with
  | O => Err OutOfFuel
  | S n' =>
      if (copyIdx <? 2 * N.of_nat oldLen)%N then
        r <-- do (CasF t FCopyIdx copyIdx (add64 copyIdx work));;
        if fst r then Ret copyIdx else claimChunk n' t oldLen work (snd r)
      else Ret copyIdx
  end.

(** hashMap.hpp:437-449: copy [cnt] entries starting at copyIdx + i. *)
Fixpoint copyChunk (n : nat) (put : nat -> N -> N -> N -> prog N) (oldTable newTable : nat)
    (oldLen : nat) (copyIdx : N) (i cnt : nat) (workDone : N) : prog N :=
  match cnt with
  | O => Ret workDone
  | S cnt' =>
      b <-- copySlot n put (mask (add64 copyIdx (N.of_nat i)) oldLen) oldTable newTable;;
      copyChunk n put oldTable newTable oldLen copyIdx (S i) cnt' (if b then workDone + 1 else workDone)%N
  end.

(** hashMap.hpp:417-465: the work loop.  [panicked] is [panicStart != -1]. *)
Fixpoint helpLoop (n : nat) (put : nat -> N -> N -> N -> prog N) (oldTable newTable : nat)
    (oldLen : nat) (work : nat) (panicked : bool) (copyIdx : N) : prog unit :=
  match n with
  | O => Err OutOfFuel
  | S n' =>
      done_ <-- do (LoadF oldTable FCopyDone);;
      if (done_ <? N.of_nat oldLen)%N then
        c <-- (if panicked then Ret copyIdx
               else i0 <-- do (LoadF oldTable FCopyIdx);;
                    claimChunk n' oldTable oldLen (N.of_nat work) i0);;
        let panicked' := panicked || (2 * N.of_nat oldLen <=? c)%N in
        workDone <-- copyChunk n' put oldTable newTable oldLen c 0 work 0%N;;
        (if (0 <? workDone)%N then copyCheckAndPromote oldTable workDone else Ret tt) ;;;
        helpLoop n' put oldTable newTable oldLen work panicked' (add64 c (N.of_nat work))
      else Ret tt
  end.

(** hashMap.hpp:398-469.  The parameter [copyAll] is unused by the C++ body. *)
Definition helpCopyImpl (n : nat) (put : nat -> N -> N -> N -> prog N) (oldTable : nat) : prog unit :=
  nt <-- do (LoadNew oldTable);;
  match nt with
  | None => Err (if ndebug C then NullDeref else AssertFail)
  | Some newTable =>
      oldLen <-- do (Len oldTable);;
      let work := if (oldLen <? 1024)%nat then oldLen else 1024 in
      helpLoop n put oldTable newTable oldLen work false 0%N ;;;
      copyCheckAndPromote oldTable 0%N
  end.

(** hashMap.hpp:1234-1245 *)
Definition helpCopy (n : nat) (put : nat -> N -> N -> N -> prog N) (helper : nat) : prog nat :=
  topTable <-- do LoadTop;;
  nt <-- do (LoadNew topTable);;
  match nt with
  | None => Ret helper
  | Some _ => helpCopyImpl n put topTable ;;; Ret helper
  end.

(** hashMap.hpp:377-394 *)
Definition copySlotAndCheck (n : nat) (put : nat -> N -> N -> N -> prog N)
    (oldTable idx : nat) (shouldHelp : bool) : prog nat :=
  nt <-- do (LoadNew oldTable);;
  match nt with
  | None => Err (if ndebug C then NullDeref else AssertFail)
  | Some newTable =>
      b <-- copySlot n put idx oldTable newTable;;
      (if (b : bool) then copyCheckAndPromote oldTable 1%N else Ret tt) ;;;
      if shouldHelp then Ret newTable else helpCopy n put newTable
  end.

(** ** putIfMatch, hashMap.hpp:1042-1230 *)

(** Outcome of the probe loop. *)
Inductive claimed :=
| CRemoved                                (* hashMap.hpp:1082: nothing to remove *)
| CSlot (idx : nat) (V : N) (reprobe : nat)  (* [break] with a key slot *)
| CFull.                                  (* hashMap.hpp:1110-1112: probed too far *)

(** hashMap.hpp:1067-1136: "Spin until we get a key slot." *)
Fixpoint claimSlot (n : nat) (t : nat) (k newVal : N) (len idx reprobe : nat) : prog claimed :=
  match n with
  | O => Err OutOfFuel
  | S n' =>
      let check (K V : N) : prog claimed :=
        if (K =? k)%N then Ret (CSlot idx V reprobe)
        else if (reprobeLimit len <=? S reprobe)%nat || (K =? KTOMBSTONE)%N then Ret CFull
        else claimSlot n' t k newVal len (mask (N.of_nat idx + 1) len) (S reprobe) in
      K <-- key t idx;;
      V <-- value t idx;;
      if (K =? VINITIAL)%N then
        if (newVal =? VTOMBSTONE)%N then Ret CRemoved
        else
          actualKey <-- CASkey t idx KINITIAL k;;
          if (actualKey =? KINITIAL)%N
          then do (AddF t FSlots 1%N) ;;; Ret (CSlot idx V reprobe)
          else check actualKey V
      else check K V
  end.

(** hashMap.hpp:1174-1185: give up without writing. *)
Definition noMatch (V oldVal : N) : bool :=
  (negb (oldVal =? NO_MATCH_OLD) &&
   negb (V =? oldVal) &&
   (negb (oldVal =? MATCH_ANY) || (V =? VTOMBSTONE) || (V =? VINITIAL)) &&
   (negb (V =? VINITIAL) || negb (oldVal =? VTOMBSTONE)))%N.

(** hashMap.hpp:1199-1211 *)
Definition countChange (t : nat) (V newVal oldVal : N) : prog unit :=
  if negb (oldVal =? VINITIAL)%N then
    if ((V =? VINITIAL) || (V =? VTOMBSTONE))%N && negb (newVal =? VTOMBSTONE)%N
    then do (AddF t FSize 1%N) ;;; Ret tt
    else if negb ((V =? VINITIAL) || (V =? VTOMBSTONE))%N && (newVal =? VTOMBSTONE)%N
    then do (AddF t FSize minus_one64) ;;; Ret tt
    else Ret tt
  else Ret tt.

(** hashMap.hpp:1168-1229: "Update the existing table."  [forward] re-runs the put in the new table. *)
Fixpoint updateLoop (n : nat) (CAS : casfun) (forward : prog N)
    (t idx : nat) (newVal oldVal V : N) : prog N :=
  match n with
  | O => Err OutOfFuel
  | S n' =>
      assert_ (negb (isMarked V MigrationFlag)) ;;;
      if noMatch V oldVal then Ret V
      else
        actualValue <-- CAS t idx V newVal;;
        if (actualValue =? V)%N then
          countChange t V newVal oldVal ;;;
          Ret (if (V =? VINITIAL)%N && negb (oldVal =? VINITIAL)%N then VTOMBSTONE else V)
        else
          w <-- value t idx;;
          if isMarked w MigrationFlag then forward
          else updateLoop n' CAS forward t idx newVal oldVal actualValue
  end.

(** hashMap.hpp:1042-1230, one call.  [put] is the recursive call, which always uses the default
    [CAS] (hashMap.hpp:1128, 1164, 1225 do not pass the parameter on). *)
Definition putBody (n : nat) (put : nat -> N -> N -> N -> prog N) (CAS : casfun)
    (t : nat) (k newVal oldVal : N) : prog N :=
  assert_ (negb (newVal =? VINITIAL)%N) ;;;
  assert_ (negb (isMarked newVal MigrationFlag)) ;;;
  assert_ (negb (isMarked oldVal MigrationFlag)) ;;;
  len <-- do (Len t);;
  c <-- claimSlot n t k newVal len (mask (hash C k) len) 0;;
  match c with
  | CRemoved => Ret newVal
  | CFull =>
      newTable <-- resize t;;
      (if negb (oldVal =? VINITIAL)%N then helpCopy n put newTable ;;; Ret tt else Ret tt) ;;;
      put newTable k newVal oldVal
  | CSlot idx V reprobe =>
      if (newVal =? V)%N then Ret V
      else
        let forward : prog N :=
          nt <-- copySlotAndCheck n put t idx (oldVal =? VINITIAL)%N;;
          put nt k newVal oldVal in
        full <-- (if (V =? VINITIAL)%N then tableFull t reprobe len else Ret false);;
        if (full : bool) || isMarked V MigrationFlag
        then resize t ;;; forward
        else updateLoop n CAS forward t idx newVal oldVal V
  end.

(** putIfMatch(table, key, newVal, oldVal, CAS), hashMap.hpp:1042-1230 *)
Fixpoint putIfMatch (n : nat) (CAS : casfun) (t : nat) (k newVal oldVal : N) : prog N :=
  match n with
  | O => Err OutOfFuel
  | S n' => putBody n' (putIfMatch n' CASvalue) CAS t k newVal oldVal
  end.

(** ** get *)

(** hashMap.hpp:971-1024: the probe loop of getImpl.  [rec] re-runs getImpl in another table. *)
Fixpoint getLoop (n : nat) (put : nat -> N -> N -> N -> prog N) (rec : nat -> prog N)
    (t : nat) (k : N) (len idx reprobe : nat) : prog N :=
  match n with
  | O => Err OutOfFuel
  | S n' =>
      K <-- key t idx;;
      V <-- value t idx;;
      if (K =? KINITIAL)%N then Ret VINITIAL
      else
        newTable <-- do (LoadNew t);;
        if (K =? k)%N then
          if negb (isMarked V MigrationFlag)
          then Ret (if (V =? VTOMBSTONE)%N then VINITIAL else V)
          else nt <-- copySlotAndCheck n' put t idx (k =? KINITIAL)%N;; rec nt
        else if (reprobeLimit len <=? S reprobe)%nat || (K =? KTOMBSTONE)%N then
          match newTable with
          | None => Ret VINITIAL
          | Some nt => h <-- helpCopy n' put nt;; rec h
          end
        else getLoop n' put rec t k len (mask (N.of_nat idx + 1) len) (S reprobe)
  end.

(** hashMap.hpp:960-1025 *)
Fixpoint getImpl (n : nat) (t : nat) (k fullHash : N) : prog N :=
  match n with
  | O => Err OutOfFuel
  | S n' =>
      len <-- do (Len t);;
      getLoop n' (putIfMatch n' CASvalue) (fun t' => getImpl n' t' k fullHash)
        t k len (mask (sext32 fullHash) len) 0
  end.

(** hashMap.hpp:1028-1038 *)
Definition get (n : nat) (k : N) : prog N :=
  t <-- do LoadTop;;
  V <-- getImpl n t k (hash C k);;
  assert_ (negb (isMarked V MigrationFlag)) ;;;
  Ret V.

(** ** The other public operations *)

(** hashMap.hpp:937-944 *)
Definition putIfMatchPub (n : nat) (k newVal oldVal : N) (CAS : casfun) : prog N :=
  assert_ (negb (newVal =? VINITIAL)%N) ;;;
  assert_ (negb (oldVal =? VINITIAL)%N) ;;;
  t <-- do LoadTop;;
  retVal <-- putIfMatch n CAS t k newVal oldVal;;
  assert_ (negb (isMarked retVal MigrationFlag)) ;;;
  Ret (if (retVal =? VTOMBSTONE)%N then VINITIAL else retVal).

(** hashMap.hpp:896-900 *)
Definition size : prog N := t <-- do LoadTop;; do (LoadF t FSize).
(** hashMap.hpp:901-904 *)
Definition isEmpty : prog bool := n <-- size;; Ret (n =? 0)%N.
(** hashMap.hpp:905-908 *)
Definition containsKey (n : nat) (k : N) : prog bool :=
  V <-- get n k;; Ret (negb (V =? KINITIAL)%N).
(** hashMap.hpp:909-912 *)
Definition put (n : nat) (k v : N) : prog N := putIfMatchPub n k v NO_MATCH_OLD CASvalue.
(** hashMap.hpp:913-916 *)
Definition putIfAbsent (n : nat) (k v : N) : prog N := putIfMatchPub n k v VTOMBSTONE CASvalue.
(** hashMap.hpp:917-920: the returned word is converted to bool. *)
Definition remove (n : nat) (k : N) : prog bool :=
  r <-- putIfMatchPub n k VTOMBSTONE NO_MATCH_OLD CASvalue;; Ret (negb (r =? 0)%N).
(** hashMap.hpp:922-925 *)
Definition removeVal (n : nat) (k v : N) : prog bool :=
  r <-- putIfMatchPub n k VTOMBSTONE v CASvalue;; Ret (r =? v)%N.
(** hashMap.hpp:926-929 *)
Definition replace (n : nat) (k oldValue newValue : N) : prog bool :=
  r <-- putIfMatchPub n k newValue oldValue CASvalue;; Ret (r =? oldValue)%N.
(** hashMap.hpp:932-935 *)
Definition update (n : nat) (k v : N) (f : casfun) : prog N :=
  putIfMatchPub n k v NO_MATCH_OLD f.

(** ucfMap.hpp:45: the only caller of update; the dummy new value it passes. *)
Definition INCREMENT_ARG : N := shl64 (N.shiftl 1 61 - 3) BITS_MARKED.
Definition incrementOp (n : nat) (k : N) : prog N := update n k INCREMENT_ARG increment.

(** ** API calls as data *)

Inductive op :=
| OGet (k : N) | OContains (k : N) | OPut (k v : N) | OPutIfAbsent (k v : N)
| ORemove (k : N) | ORemoveVal (k v : N) | OReplace (k o v : N) | OIncrement (k : N) | OSize.

Inductive rsp := RVal (v : N) | RBool (b : bool).

Definition op_prog (n : nat) (o : op) : prog rsp :=
  match o with
  | OGet k => r <-- get n k;; Ret (RVal r)
  | OContains k => r <-- containsKey n k;; Ret (RBool r)
  | OPut k v => r <-- put n k v;; Ret (RVal r)
  | OPutIfAbsent k v => r <-- putIfAbsent n k v;; Ret (RVal r)
  | ORemove k => r <-- remove n k;; Ret (RBool r)
  | ORemoveVal k v => r <-- removeVal n k v;; Ret (RBool r)
  | OReplace k o v => r <-- replace n k o v;; Ret (RBool r)
  | OIncrement k => r <-- incrementOp n k;; Ret (RVal r)
  | OSize => r <-- size;; Ret (RVal r)
  end.

(** A sequence of calls from one thread. *)
Fixpoint ops_prog (n : nat) (os : list op) : prog (list rsp) :=
  match os with
  | [] => Ret []
  | o :: os' => r <-- op_prog n o;; rs <-- ops_prog n os';; Ret (r :: rs)
  end.

End Code.

(** The state after constructing a map without recovery in a directory whose left-over table files
    are [files] (hashMap.hpp:866-873, with [count] = 0): the file 0 is mapped if it is there. *)
Definition init_state_files (cap ppl : nat) (maxcap : N) (files : list (N * list pair_)) : option state :=
  match mmap_table 0 cap 0 maxcap files with
  | Some T => Some (mkState [T] 0 1 files ppl maxcap)
  | None => None
  end.

(** The same in an empty directory. *)
Definition init_state (cap ppl : nat) (maxcap : N) : state :=
  mkState [fresh_table cap 0 0] 0 1 [] ppl maxcap.
