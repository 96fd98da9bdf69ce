(** Specification of what a single call did: the moment at which it took effect. *)
From Coq Require Import NArith Bool List.
From stdpp Require Import base list relations.
From Verif Require Import Word Prog HashMap Conc Spec ConcSpec.
Import ListNotations.

(** Thread [i] is executing the call [o]. *)
Definition in_call (y : sys) (i : nat) (o : op) : Prop :=
  exists th p, sy_thr y !! i = Some th /\ th_cur th = Some (o, p).

Definition by_thread (i : nat) (e : event) : Prop :=
  match e with EInv j _ | ERes j _ _ => j = i end.

(** Table [b] is the successor of table [a]. *)
Definition successor (s : state) (a b : nat) : Prop := exists T, st_tabs s !! a = Some T /\ t_new T = Some b.

(** [moment at_ sched i o h P]: in the execution [at_] of the schedule [sched], the call [o] of thread [i] that
    returned when the history was [h] made a step with [P t s s' e]: [s] and [s'] are the memory before and after
    that step, [e] is the memory when the call returned, and [t] is a table that was current at an earlier moment of
    the same call, or one of its successors. *)
Definition moment (at_ : list nat -> sys) (sched : list nat) (i : nat) (o : op) (h : list event)
    (P : nat -> state -> state -> state -> Prop) : Prop :=
  exists s0 s1 s2 s3 t, sched = s0 ++ s1 ++ i :: s2 ++ i :: s3 /\ sy_hist (at_ (s0 ++ s1 ++ i :: s2)) = h /\
    in_call (at_ s0) i o /\ in_call (at_ (s0 ++ s1)) i o /\
    (exists g, h = g ++ sy_hist (at_ s0) /\ Forall (fun e => ~ by_thread i e) g) /\
    rtc (successor (sy_st (at_ (s0 ++ s1)))) (st_top (sy_st (at_ s0))) t /\
    P t (sy_st (at_ (s0 ++ s1))) (sy_st (at_ (s0 ++ s1 ++ [i]))) (sy_st (at_ (s0 ++ s1 ++ i :: s2))).

(** No entry other than entry [j] of table [t] differs. *)
Definition only (t j : nat) (s s' : state) : Prop :=
  forall t' j', (t', j') <> (t, j) -> entry s' t' j' = entry s t' j'.

(** An entry of key [k] in table [t] has the value word [w] before the step and [w'] after it. *)
Definition step_on (k w w' : N) (t : nat) (s s' e : state) : Prop :=
  exists j p p', entry s t j = Some p /\ entry s' t j = Some p' /\ only t j s s' /\
    same_word (fst p) k /\ snd p = w /\ fst p' = fst p /\ snd p' = w'.

(** The entry that had the key [k] when the call returned was still unused, and the step changed no entry. *)
Definition still_unused (k : N) (t : nat) (s s' e : state) : Prop :=
  exists j p q, entry s t j = Some p /\ same_word (fst p) KINITIAL /\ same_word (snd p) VINITIAL /\ s' = s /\
    entry e t j = Some q /\ same_word (fst q) k.

(** What put, putIfAbsent and increment report when the entry holds [w]. *)
Definition reported (w : N) : N := if (w =? VTOMBSTONE)%N then NOTFOUND else w.

(** A word that stands for no value. *)
Definition no_value (w : N) : Prop := w = VINITIAL \/ w = VTOMBSTONE.

(** The [d]-th position of a search that starts at the hash [h]. *)
Definition place (h : N) (len d : nat) : nat := N.to_nat ((h + N.of_nat d) mod N.of_nat len).

(** The entry at position [d] of the search has a key other than [k]. *)
Definition passes (T : table) (h k : N) (d : nat) : Prop :=
  exists p, t_pairs T !! place h (t_len T) d = Some p /\ ~ same_word (fst p) KINITIAL /\ ~ same_word (fst p) k.

(** A search of table [t] for [k], started at the hash [h], ends with [v]: it finds the key, or an unused
    entry, or it gives up and the table has no successor. *)
Definition searches (h k v : N) (t : nat) (s s' e : state) : Prop :=
  s' = s /\ exists T d, st_tabs s !! t = Some T /\ (forall d', d' < d -> passes T h k d') /\
    ((exists p, t_pairs T !! place h (t_len T) d = Some p /\ same_word (fst p) k /\
        isMarked (snd p) MigrationFlag = false /\ v = reported (clearMark (snd p) DirtyFlag)) \/
     (exists p, t_pairs T !! place h (t_len T) d = Some p /\ same_word (fst p) KINITIAL /\ v = NOTFOUND) \/
     (t_new T = None /\ v = NOTFOUND /\
        (reprobeLimit (t_len T) <= d \/
         exists d0 p, S d0 = d /\ t_pairs T !! place h (t_len T) d0 = Some p /\ same_word (fst p) KTOMBSTONE))).

(** What one step of a writing call does to an entry of its key ([w] becomes [w']), and what the call returns. *)
Definition writes (o : op) (r : rsp) (w w' : N) : Prop :=
  match o, r with
  | OPut _ v, RVal x =>
      (w' = setMark v DirtyFlag /\ x = reported w) \/ (w' = w /\ same_word w v /\ x = v)
  | OPutIfAbsent _ v, RVal x =>
      (no_value w /\ w' = setMark v DirtyFlag /\ x = NOTFOUND) \/ (w' = w /\ same_word w x /\ ~ no_value x)
  | OReplace _ old v, RBool b =>
      (w = old /\ w' = setMark v DirtyFlag /\ b = true) \/ (w' = w /\ same_word w v /\ b = (v =? old)%N) \/
      (w' = w /\ w <> old /\ b = false)
  | ORemove _, RBool b =>
      (w' = setMark VTOMBSTONE DirtyFlag /\ b = negb (w =? 0)%N) \/ (w' = w /\ same_word w VTOMBSTONE /\ b = true)
  | ORemoveVal _ v, RBool b =>
      (w = v /\ w' = setMark VTOMBSTONE DirtyFlag /\ b = true) \/ (w' = w /\ w <> v /\ b = false)
  | OIncrement _, RVal x =>
      (w' = setMark INCREMENT_ARG DirtyFlag /\ x = reported w) \/
      (no_value w /\ w' = setMark (next_count None) DirtyFlag /\ x = NOTFOUND) \/
      (~ no_value w /\ w' = setMark (next_count (Some w)) DirtyFlag /\ x = w) \/
      (w' = w /\ same_word w INCREMENT_ARG /\ x = INCREMENT_ARG)
  | _, _ => False
  end.

(** What a call returned, explained by one step of the call; [mom P] says that a step of the call had [P]. *)
Definition explained (C : cfg) (o : op) (r : rsp) (mom : (nat -> state -> state -> state -> Prop) -> Prop) : Prop :=
  let wrote k := exists w w', mom (step_on k w w') /\ writes o r w w' in
  match o, r with
  | OGet k, RVal v => mom (searches (sext32 (hash C k)) k v)
  | OContains k, RBool b => exists v, mom (searches (sext32 (hash C k)) k v) /\ b = negb (v =? NOTFOUND)%N
  | OPut k _, RVal _ | OPutIfAbsent k _, RVal _ | OIncrement k, RVal _ => wrote k
  | ORemove k, RBool b => (b = true /\ mom (searches (hash C k) k NOTFOUND)) \/ wrote k
  | ORemoveVal k _, RBool b => (b = false /\ mom (searches (hash C k) k NOTFOUND)) \/ wrote k
  | OReplace k _ _, RBool b => (b = false /\ mom (still_unused k)) \/ wrote k
  | OSize, _ => True
  | _, _ => False
  end.
