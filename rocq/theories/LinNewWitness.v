(** Concrete executions for PropertiesNew.v. *)
From Coq Require Import NArith Bool List Lia.
From stdpp Require Import base list gmap.
From Verif Require Import Word Bits Prog HashMap Conc Spec LinSpec Examples ConcWitness LinCount.
Import ListNotations.
Open Scope nat_scope.

Definition claimsb (k : N) (o : op) : bool := match claim_key o with Some k' => (k' =? k)%N | None => false end.
Lemma claimsb_ok k o : claimsb k o = true <-> claim_key o = Some k.
Proof. unfold claimsb. destruct (claim_key o); [|split; discriminate]. rewrite N.eqb_eq. split; congruence. Qed.

Fixpoint race_freeb (h : list event) : bool :=
  match h with
  | [] => true
  | EInv i o :: h2 => race_freeb h2 &&
      match claim_key o with
      | Some k => forallb (fun e => match e with EInv j o' => negb (claimsb k o') || Nat.eqb j i | _ => true end) h2 ||
                  existsb (fun e => match e with ERes _ o' _ => claimsb k o' | _ => false end) h2
      | None => true
      end
  | _ :: h2 => race_freeb h2
  end.
Lemma race_freeb_ok h : race_freeb h = true -> no_insert_race h.
Proof.
  intros H h1 h2 i j o o' k -> Ho Hj Ho' Hne.
  assert (H2 : race_freeb (EInv i o :: h2) = true).
  { induction h1 as [|e h1 IH]; [exact H|]. apply IH. cbn in H. destruct e; [|exact H]. apply andb_true_iff in H as [H _]. exact H. }
  cbn in H2. apply andb_true_iff in H2 as [_ H2]. rewrite Ho in H2. apply orb_true_iff in H2 as [H2|H2].
  - exfalso. rewrite forallb_forall in H2. specialize (H2 _ Hj). cbn in H2. apply claimsb_ok in Ho'. rewrite Ho' in H2. cbn in H2.
    apply Nat.eqb_eq in H2. contradiction.
  - apply existsb_exists in H2 as (e & He & H2). destruct e as [|i' o'' r]; [discriminate|]. apply claimsb_ok in H2. eauto.
Qed.

Lemma nw_cap : good_cap 8 1024 /\ (1024 <= 2 ^ 32)%N.
Proof. split; [split; [exists 3; split; [reflexivity|lia]|reflexivity]|discriminate]. Qed.

(** Three threads insert, change, read and remove keys. *)
Definition nw_todos : list (list op) :=
  [[OPut 24 80; OPutIfAbsent 32 88]; [OGet 24; ORemove 24]; [OPut 40 96; OReplace 40 96 104; OGet 32]]%N.
Definition nw_sched : list (nat * nat) := [(0, 15); (1, 20); (2, 12); (0, 60); (1, 60); (2, 80)].
Definition nw_y : sys := cw_after nw_todos nw_sched.
Lemma nw_hyps : Forall (Forall legal_op) nw_todos /\ Forall (Forall not_increment) nw_todos /\
  no_insert_race (sy_hist nw_y) /\ unresized (sy_st nw_y) /\ writes_among [24; 32; 40]%N nw_todos /\ 3 < Nat.min 8 (S REPROBE_LIMIT).
Proof.
  split; [apply legal_todos_ok; vm_compute; reflexivity|]. split; [repeat constructor|].
  split; [apply race_freeb_ok; vm_compute; reflexivity|]. split; [vm_compute; reflexivity|]. split; [|cbn; lia].
  unfold writes_among, nw_todos. repeat (apply Forall_cons; split); try apply Forall_nil; try exact I; cbn; intros k H; try discriminate H; injection H as <-; tauto.
Qed.
Lemma nw_hist : sy_hist nw_y =
  [ERes 2 (OGet 32) (RVal 88); EInv 2 (OGet 32); ERes 2 (OReplace 40 96 104) (RBool true); EInv 2 (OReplace 40 96 104);
   ERes 2 (OPut 40 96) (RVal NOTFOUND); ERes 0 (OPutIfAbsent 32 88) (RVal NOTFOUND); EInv 0 (OPutIfAbsent 32 88);
   ERes 0 (OPut 24 80) (RVal NOTFOUND); EInv 2 (OPut 40 96); ERes 1 (ORemove 24) (RBool true); EInv 1 (ORemove 24);
   ERes 1 (OGet 24) (RVal NOTFOUND); EInv 1 (OGet 24); EInv 0 (OPut 24 80)]%N.
Proof. vm_compute. reflexivity. Qed.

(** Two threads increment a counter, a third one reads it. *)
Definition nc_todos : list (list op) := [[OIncrement 24; OIncrement 24]; [OIncrement 24]; [OGet 24]]%N.
Definition nc_sched : list (nat * nat) := [(0, 32); (1, 12); (0, 60); (2, 10); (1, 60); (2, 60)].
Definition nc_y : sys := cw_after nc_todos nc_sched.
Lemma nc_hyps : Forall (Forall legal_op) nc_todos /\ Forall (Forall counting) nc_todos /\ Forall (Forall keeps) nc_todos /\
  no_insert_race (sy_hist nc_y) /\ unresized (sy_st nc_y) /\ (N.of_nat (length (concat nc_todos)) < 2 ^ 59)%N.
Proof.
  split; [apply legal_todos_ok; vm_compute; reflexivity|]. split; [repeat constructor|]. split; [repeat constructor|].
  split; [apply race_freeb_ok; vm_compute; reflexivity|]. split; vm_compute; reflexivity.
Qed.
Lemma nc_hist : sy_hist nc_y =
  [ERes 2 (OGet 24) (RVal 16); ERes 1 (OIncrement 24) (RVal 16); EInv 2 (OGet 24); ERes 0 (OIncrement 24) (RVal 8);
   EInv 1 (OIncrement 24); EInv 0 (OIncrement 24); ERes 0 (OIncrement 24) (RVal NOTFOUND); EInv 0 (OIncrement 24)]%N.
Proof. vm_compute. reflexivity. Qed.

(** ** Two threads insert the same new key *)
(** Two calls of put both find no previous value. *)
Definition np_todos : list (list op) := [[OPut 24 80]; [OPut 24 88]]%N.
Definition np_y : sys := cw_after np_todos [(0, 15); (1, 18); (0, 40)].
Definition np_hist : list event :=
  [ERes 0 (OPut 24 80) (RVal NOTFOUND); ERes 1 (OPut 24 88) (RVal NOTFOUND); EInv 1 (OPut 24 88); EInv 0 (OPut 24 80)]%N.
Lemma np_hist_eq : sy_hist np_y = np_hist.
Proof. vm_compute. reflexivity. Qed.

Definition puts24 (o : op) : Prop := o = OPut 24 80 \/ o = OPut 24 88.
Definition first (x : status) : Prop := exists o, x = Took o (RVal NOTFOUND).
Fixpoint firsts (h : list event) : nat :=
  match h with [] => 0 | ERes _ _ (RVal r) :: h => (if (r =? NOTFOUND)%N then 1 else 0) + firsts h | _ :: h => firsts h end.

(** At most one put finds no previous value. *)
Lemma puts_first h m st : atomic wstep ∅ h m st -> (forall i o, In (EInv i o) h -> puts24 o) ->
  (forall i, match st i with LinSpec.Idle => True | LinSpec.Called o => puts24 o | Took _ _ => m !! 24%N <> None end) /\
  (m !! 24 = None \/ m !! 24 = Some 80 \/ m !! 24 = Some 88)%N /\
  ((firsts h = 0 /\ (m !! 24%N = None -> forall i, ~ first (st i)) /\ forall i j, first (st i) -> first (st j) -> i = j) \/
   (firsts h = 1 /\ m !! 24%N <> None /\ forall i, ~ first (st i))).
Proof.
  induction 1 as [|h m st i o H IH Hi|h m st i o r m' H IH Hi Hs|h m st i o r H IH Hi]; intros Hh.
  - split; [intros i; exact I|]. split; [left; apply lookup_empty|]. left. split; [reflexivity|].
    split; [intros _ i [o E]; discriminate|intros i j [o E]; discriminate].
  - destruct IH as (I1 & I2 & I3). { intros j o' Hj. apply (Hh j). right. exact Hj. }
    assert (Hf : forall j, first (put_at st i (LinSpec.Called o) j) -> j <> i /\ first (st j)).
    { intros j. destruct (Nat.eq_dec j i) as [->|Hj]; [rewrite at_same; intros [o' E]; discriminate|]. rewrite at_other by exact Hj. auto. }
    split.
    { intros j. destruct (Nat.eq_dec j i) as [->|Hj]; [rewrite at_same; apply (Hh i); left; reflexivity|]. rewrite at_other by exact Hj. apply I1. }
    split; [exact I2|]. destruct I3 as [(J1 & J2 & J3)|(J1 & J2 & J3)]; [left|right]; (split; [exact J1|]).
    + split; [intros E j Hj; apply Hf in Hj as [_ Hj]; exact (J2 E j Hj)|]. intros j j' Hj Hj'. apply Hf in Hj as [_ Hj], Hj' as [_ Hj']. auto.
    + split; [exact J2|]. intros j Hj. apply Hf in Hj as [_ Hj]. exact (J3 j Hj).
  - destruct (IH Hh) as (I1 & I2 & I3). pose proof (I1 i) as Ho. rewrite Hi in Ho.
    assert (Hm' : (m' !! 24 = Some 80 \/ m' !! 24 = Some 88)%N).
    { destruct Ho as [->| ->]; destruct Hs as [_ ->]; rewrite lookup_insert; auto. }
    assert (Hne : m' !! 24%N <> None) by (destruct Hm' as [E|E]; rewrite E; discriminate).
    assert (Hr : r = RVal NOTFOUND -> m !! 24%N = None).
    { intros ->. assert (Hw : (exists w, RVal NOTFOUND = RVal w /\ (same_word w (lookup_result m 24) \/ (m !! 24%N = None /\ w = setMark VTOMBSTONE DirtyFlag)))).
      { destruct Ho as [->| ->]; apply Hs. }
      destruct Hw as (w & [= <-] & [Hw|[Hw _]]); [|exact Hw]. destruct I2 as [E|[E|E]]; [exact E|..]; exfalso;
        unfold lookup_result in Hw; rewrite E in Hw; vm_compute in Hw; discriminate Hw. }
    split.
    { intros j. destruct (Nat.eq_dec j i) as [->|Hj]; [rewrite at_same; exact Hne|]. rewrite at_other by exact Hj. specialize (I1 j).
      destruct (st j); auto. }
    split; [right; exact Hm'|]. destruct I3 as [(J1 & J2 & J3)|(J1 & J2 & J3)].
    + left. split; [exact J1|]. split; [intros E; contradiction|]. intros j j' Hj Hj'.
      destruct (Nat.eq_dec j i) as [->|Hji]; destruct (Nat.eq_dec j' i) as [->|Hji']; [reflexivity|..].
      * rewrite at_same in Hj. destruct Hj as [o' E]. injection E as _ E. rewrite at_other in Hj' by exact Hji'.
        destruct (J2 (Hr E) j' Hj').
      * rewrite at_same in Hj'. destruct Hj' as [o' E]. injection E as _ E. rewrite at_other in Hj by exact Hji.
        destruct (J2 (Hr E) j Hj).
      * rewrite at_other in Hj, Hj' by assumption. auto.
    + right. split; [exact J1|]. split; [exact Hne|]. intros j Hj. destruct (Nat.eq_dec j i) as [->|Hji].
      * rewrite at_same in Hj. destruct Hj as [o' E]. injection E as _ E. destruct (J2 (Hr E)).
      * rewrite at_other in Hj by exact Hji. exact (J3 j Hj).
  - destruct IH as (I1 & I2 & I3). { intros j o' Hj. apply (Hh j). right. exact Hj. }
    assert (Hf : forall j, first (put_at st i LinSpec.Idle j) -> j <> i /\ first (st j)).
    { intros j. destruct (Nat.eq_dec j i) as [->|Hj]; [rewrite at_same; intros [o' E]; discriminate|]. rewrite at_other by exact Hj. auto. }
    pose proof (I1 i) as Hne. rewrite Hi in Hne.
    split.
    { intros j. destruct (Nat.eq_dec j i) as [->|Hj]; [rewrite at_same; exact I|]. rewrite at_other by exact Hj. apply I1. }
    split; [exact I2|].
    assert (Hcase : (r = RVal NOTFOUND /\ firsts (ERes i o r :: h) = S (firsts h)) \/ firsts (ERes i o r :: h) = firsts h).
    { cbn. destruct r as [w|]; [|auto]. destruct (N.eqb_spec w NOTFOUND) as [->|_]; auto. }
    destruct I3 as [(J1 & J2 & J3)|(J1 & J2 & J3)]; destruct Hcase as [[-> E]|E]; rewrite E.
    + right. split; [lia|]. split; [exact Hne|]. intros j Hj. apply Hf in Hj as [Hji Hj]. apply Hji. apply J3; [exact Hj|]. exists o. exact Hi.
    + left. split; [lia|]. split; [intros E'; contradiction|]. intros j j' Hj Hj'. apply Hf in Hj as [_ Hj], Hj' as [_ Hj']. auto.
    + exfalso. apply (J3 i). exists o. exact Hi.
    + right. split; [lia|]. split; [exact J2|]. intros j Hj. apply Hf in Hj as [_ Hj]. exact (J3 j Hj).
Qed.

Lemma np_refuted : exists todos sched, Forall (Forall legal_op) todos /\ Forall (Forall not_increment) todos /\
  unresized (sy_st (after idcfg ex_fuel (init_state 8 4 1024) todos sched)) /\
  ~ linearizable wstep ∅ (sy_hist (after idcfg ex_fuel (init_state 8 4 1024) todos sched)).
Proof.
  exists np_todos, (segs [(0, 15); (1, 18); (0, 40)]). split; [apply legal_todos_ok; vm_compute; reflexivity|].
  split; [repeat constructor|]. split; [vm_compute; reflexivity|].
  change (sy_hist _) with (sy_hist np_y). rewrite np_hist_eq. intros (m & st & H).
  destruct (puts_first _ _ _ H) as (_ & _ & [[E _]|[E _]]); [|discriminate E|discriminate E].
  intros i o Hi. unfold np_hist in Hi. cbn [In] in Hi. unfold puts24.
  repeat (destruct Hi as [Hi|Hi]; [try discriminate Hi; injection Hi as <- <-; auto|]). contradiction.
Qed.

(** Two increments of a new counter; the counter stands at one. *)
Definition ni_todos : list (list op) := [[OIncrement 24]; [OIncrement 24]; [OGet 24]]%N.
Definition ni_sched : list nat := segs [(0, 15); (1, 60); (0, 60); (2, 60)].
Lemma ni_refuted : exists todos sched, Forall (Forall legal_op) todos /\ Forall (Forall counting) todos /\
  unresized (sy_st (after idcfg ex_fuel (init_state 8 4 1024) todos sched)) /\
  ~ counts_right (sy_hist (after idcfg ex_fuel (init_state 8 4 1024) todos sched)) /\
  ~ tickets_distinct (sy_hist (after idcfg ex_fuel (init_state 8 4 1024) todos sched)).
Proof.
  exists ni_todos, ni_sched. split; [apply legal_todos_ok; vm_compute; reflexivity|].
  split; [repeat constructor|]. split; [vm_compute; reflexivity|].
  assert (E : sy_hist (after idcfg ex_fuel (init_state 8 4 1024) ni_todos ni_sched) =
    [ERes 2 (OGet 24) (RVal 8); EInv 2 (OGet 24); ERes 0 (OIncrement 24) (RVal NOTFOUND); ERes 1 (OIncrement 24) (RVal NOTFOUND);
     EInv 1 (OIncrement 24); EInv 0 (OIncrement 24)]%N) by (vm_compute; reflexivity).
  rewrite E. split.
  - intros H. destruct (H [] [] (tl (tl [ERes 2 (OGet 24) (RVal 8); EInv 2 (OGet 24); ERes 0 (OIncrement 24) (RVal NOTFOUND);
      ERes 1 (OIncrement 24) (RVal NOTFOUND); EInv 1 (OIncrement 24); EInv 0 (OIncrement 24)]%N)) 2 24%N 8%N eq_refl) as (j & H1 & _ & H2).
    { intros e []. }
    cbn in H1. destruct j as [|[|j]]; [lia|lia|]. unfold counted_to in H2. lia.
  - intros H. specialize (H 24%N). cbn in H. inversion H as [|x l H1 H2]; subst. apply H1. left. reflexivity.
Qed.
