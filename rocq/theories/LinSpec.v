(** Linearizability: what it means for a history to be one of an atomic dictionary. *)
From Coq Require Import NArith Bool List.
From stdpp Require Import base list gmap.
From Verif Require Import Word Prog HashMap Conc Spec.
Import ListNotations.

(** What a thread is doing at an atomic object: nothing, waiting in a call that has not taken effect, or waiting in a
    call that has taken effect and will return [r]. *)
Inductive status := Idle | Called (o : op) | Took (o : op) (r : rsp).

Definition put_at (st : nat -> status) (i : nat) (x : status) : nat -> status :=
  fun j => if Nat.eqb j i then x else st j.

(** [atomic spec m0 h m st]: the history [h] (most recent event first) can be produced by an object that starts with the
    contents [m0] and performs every call, by [spec], in one step somewhere between its invocation and its return;
    [m] and [st] are the contents and the states of the threads afterwards. *)
Inductive atomic (spec : gmap N N -> op -> rsp -> gmap N N -> Prop) (m0 : gmap N N) :
    list event -> gmap N N -> (nat -> status) -> Prop :=
| at_start : atomic spec m0 [] m0 (fun _ => Idle)
| at_inv h m st i o : atomic spec m0 h m st -> st i = Idle ->
    atomic spec m0 (EInv i o :: h) m (put_at st i (Called o))
| at_take h m st i o r m' : atomic spec m0 h m st -> st i = Called o -> spec m o r m' ->
    atomic spec m0 h m' (put_at st i (Took o r))
| at_res h m st i o r : atomic spec m0 h m st -> st i = Took o r ->
    atomic spec m0 (ERes i o r :: h) m (put_at st i Idle).

Definition linearizable (spec : gmap N N -> op -> rsp -> gmap N N -> Prop) (m0 : gmap N N) (h : list event) : Prop :=
  exists m st, atomic spec m0 h m st.

(** The dictionary of Spec.v for get, containsKey, put and remove, where the previous value that put returns counts up to
    the unpersisted mark, and remove(key) returns true, or false for the stored word 0 (see C07). *)
Definition lstep (m : gmap N N) (o : op) (r : rsp) (m' : gmap N N) : Prop :=
  match o with
  | OGet k => r = RVal (lookup_result m k) /\ m' = m
  | OContains k => r = RBool (bool_decide (is_Some (m !! k))) /\ m' = m
  | OPut k v => (exists w, r = RVal w /\ same_word w (lookup_result m k)) /\ m' = <[k := v]> m
  | ORemove k => (exists b, r = RBool b /\ (b = false -> m !! k = Some 0%N)) /\ m' = delete k m
  | _ => False
  end.

(** What the map guarantees: the same, except that put may return the deletion mark, with the unpersisted mark, for an
    absent key; and for the conditional writes: what they do is right, and when they do something they report it, but
    they may do nothing and report a failure at any moment.  When putIfAbsent does nothing, it returns the
    present value up to the unpersisted mark, or the deletion mark with the unpersisted mark for an absent key. *)
Definition wstep (m : gmap N N) (o : op) (r : rsp) (m' : gmap N N) : Prop :=
  match o with
  | OPut k v => (exists w, r = RVal w /\ (same_word w (lookup_result m k) \/ (m !! k = None /\ w = setMark VTOMBSTONE DirtyFlag))) /\
      m' = <[k := v]> m
  | OPutIfAbsent k v =>
      (m !! k = None /\ r = RVal NOTFOUND /\ m' = <[k := v]> m) \/
      (exists w, r = RVal w /\ m' = m /\
         match m !! k with Some x => same_word w x | None => w = setMark VTOMBSTONE DirtyFlag end)
  | ORemoveVal k v => (m !! k = Some v /\ r = RBool true /\ m' = delete k m) \/ (r = RBool false /\ m' = m)
  | OReplace k old new => (m !! k = Some old /\ r = RBool true /\ m' = <[k := new]> m) \/ (r = RBool false /\ m' = m)
  | OSize => (exists x, r = RVal x) /\ m' = m
  | OIncrement _ => False
  | _ => lstep m o r m'
  end.

(** Calls about keys that [m] holds, all of the kind [P]. *)
Definition calls_on_stored (m : gmap N N) (P : op -> Prop) (todos : list (list op)) : Prop :=
  Forall (Forall (fun o => legal_op o /\ (forall k, op_key o = Some k -> is_Some (m !! k)) /\ P o)) todos.
Definition getputremove (o : op) : Prop := match o with OGet _ | OPut _ _ | ORemove _ => True | _ => False end.
Definition readput (o : op) : Prop := match o with OGet _ | OContains _ | OPut _ _ => True | _ => False end.
Definition not_increment (o : op) : Prop := match o with OIncrement _ => False | _ => True end.

(** The key that a call inserts if the map has no entry for it. *)
Definition claim_key (o : op) : option N :=
  match o with OPut k _ | OPutIfAbsent k _ | OReplace k _ _ | OIncrement k => Some k | _ => None end.

(** Nobody else is inserting the same new key: when a thread starts to write a key that another thread has started to
    write before, some write of this key has already returned. *)
Definition no_insert_race (h : list event) : Prop := forall h1 h2 i j o o' k,
  h = h1 ++ EInv i o :: h2 -> claim_key o = Some k -> In (EInv j o') h2 -> claim_key o' = Some k -> j <> i ->
  exists i' o'' r, In (ERes i' o'' r) h2 /\ claim_key o'' = Some k.

(** Only one thread at a time is inserting: when a thread starts to write a key while a write of another thread is in
    progress, some write of one of the two keys has already returned. *)
Definition settled (h : list event) (k : N) : Prop := exists i o r, In (ERes i o r) h /\ claim_key o = Some k.
Definition inserts_alone (h : list event) : Prop := forall h1 h2 i j o o' k k',
  h = h1 ++ EInv i o :: h2 -> claim_key o = Some k -> In (EInv j o') h2 -> claim_key o' = Some k' -> j <> i ->
  settled h2 k \/ settled h2 k'.

(** As [no_insert_race], from a map that already contains the keys in [K]. *)
Definition no_insert_race_from (K : N -> Prop) (h : list event) : Prop := forall h1 h2 i j o o' k,
  h = h1 ++ EInv i o :: h2 -> claim_key o = Some k -> In (EInv j o') h2 -> claim_key o' = Some k -> j <> i -> K k \/ settled h2 k.

(** The dictionary for the calls that never delete, where the words that put, putIfAbsent and increment return count up to
    the unpersisted mark, and replace may do nothing and report a failure. *)
Definition nstep (m : gmap N N) (o : op) (r : rsp) (m' : gmap N N) : Prop :=
  match o with
  | OPutIfAbsent k v =>
      match m !! k with
      | None => r = RVal NOTFOUND /\ m' = <[k := v]> m
      | Some x => (exists w, r = RVal w /\ same_word w x) /\ m' = m
      end
  | OIncrement k => (exists w, r = RVal w /\ same_word w (lookup_result m k)) /\ m' = <[k := next_count (m !! k)]> m
  | ORemove _ | ORemoveVal _ _ => False
  | OReplace _ _ _ | OSize => wstep m o r m'
  | _ => lstep m o r m'
  end.
Definition not_removal (o : op) : Prop := match o with ORemove _ | ORemoveVal _ _ => False | _ => True end.

(** The words that a call supplies. *)
Definition op_words (o : op) : list N :=
  match o with OPut _ v | OPutIfAbsent _ v => [v] | OReplace _ _ v => [v] | _ => [] end.
(** No removals, and no values near the top of the range, where the reserved words are. *)
Definition keeps (o : op) : Prop := not_removal o /\ Forall (fun v => v < 2 ^ 63)%N (op_words o).

(** The table that the map was created with has no successor. *)
Definition unresized (s : state) : Prop := match st_tabs s !! 0 with Some T => t_new T = None | None => False end.

(** The keys that the calls may insert are among [ks]. *)
Definition writes_among (ks : list N) (todos : list (list op)) : Prop :=
  Forall (Forall (fun o => forall k, claim_key o = Some k -> In k ks)) todos.

(** ** Counters *)
Definition counting (o : op) : Prop := match o with OIncrement _ | OGet _ | OContains _ | OSize => True | _ => False end.
Definition event_thread (e : event) : nat := match e with EInv i _ | ERes i _ _ => i end.
Definition started (k : N) (e : event) : bool := match e with EInv _ (OIncrement k') => (k' =? k)%N | _ => false end.
(** The number of calls increment(k) in a history, and the results of those that have returned, without the unpersisted
    mark. *)
Definition incs_started (k : N) (h : list event) : nat := length (List.filter (started k) h).
Fixpoint inc_results (k : N) (h : list event) : list N :=
  match h with
  | [] => []
  | ERes _ (OIncrement k') (RVal r) :: h => if (k' =? k)%N then clearMark r DirtyFlag :: inc_results k h else inc_results k h
  | _ :: h => inc_results k h
  end.

(** What get returns after [j] calls increment(k) in a new map. *)
Definition counted_to (j : nat) : N := match j with O => NOTFOUND | S _ => (8 * N.of_nat j)%N end.

(** Every get(k) returns a count between the number of calls increment(k) that had returned when the get started and the
    number of those that had started when the get returned. *)
Definition counts_right (h : list event) : Prop := forall h1 h2 h3 i k c,
  h = h1 ++ ERes i (OGet k) (RVal c) :: h2 ++ EInv i (OGet k) :: h3 -> (forall e, In e h2 -> event_thread e <> i) ->
  exists j, (length (inc_results k h3) <= j)%nat /\ (j <= incs_started k (h2 ++ h3))%nat /\ c = counted_to j.

(** No two calls increment(k) return the same word. *)
Definition tickets_distinct (h : list event) : Prop := forall k, List.NoDup (inc_results k h).
