(** Calls on keys that a table holds, while this table has no successor: every call takes effect in one step. *)
From Coq Require Import NArith Bool List Lia.
From stdpp Require Import base list gmap.
From Verif Require Import Word Bits Prog HashMap Conc Spec LinSpec Abs Probe SeqInv SeqGet SeqApi.
Import ListNotations.
Open Scope nat_scope.
Open Scope prog_scope.

Section Lin.
Context (C : cfg) (t L : nat) (A0 : list pair_) (ks : N -> Prop).
Context (HL : 0 < L) (Hsext : forall h, mask (sext32 h) L = mask h L).

Definition home (k : N) (i c : nat) : Prop := probe (reprobeLimit L) A0 L (hash C k) k 0 = PFound i c.
Context (Hks : forall k, ks k -> client_key k /\ exists i c, home k i c).

(** The word that stands for the value of [k]. *)
Definition cv (m : gmap N N) (k : N) : N := default VTOMBSTONE (m !! k).
Definition mlive (m : gmap N N) : Prop := forall k v, ks k -> m !! k = Some v -> live v /\ isclean v.

Record J (m : gmap N N) (s : state) : Prop := mkJ {
  j_top : st_top s = t;
  j_live : mlive m;
  j_tab : exists T, st_tabs s !! t = Some T /\ t_len T = L /\ length (t_pairs T) = L /\ t_new T = None /\
    (forall i, clean (keyat (t_pairs T) i) = keyat A0 i) /\
    (forall k i c, ks k -> home k i c -> clean (valat (t_pairs T) i) = cv m k)
}.

Lemma home_lt k i c : home k i c -> i < L.
Proof. intros H. apply probe_found in H as (_ & -> & _). apply pos_lt, HL. Qed.
Lemma home_key k i c : home k i c -> keyat A0 i = k.
Proof. intros H. apply probe_found in H as (_ & _ & H & _). exact H. Qed.

Lemma J_with m s f : J m s ->
  (forall T, st_tabs s !! t = Some T -> t_len (f T) = t_len T /\ t_pairs (f T) = t_pairs T /\ t_new (f T) = t_new T) ->
  J m (with_tab t f s).
Proof.
  intros [H1 H2 (T & H3 & H4 & H5 & H6 & H7 & H8)] Hf. destruct (Hf T H3) as (F1 & F2 & F3).
  constructor; [exact H1|exact H2|]. exists (f T). unfold with_tab; cbn [st_tabs]. rewrite list_lookup_alter, H3. cbn.
  rewrite F1, F2, F3. auto 10.
Qed.

(** Replacing a word by one that differs in the unpersisted mark only. *)
Lemma J_clean m s i c w : J m s -> clean w = clean (read_cell s t i c) -> J m (with_tab t (write_cell i c w) s).
Proof.
  intros [H1 H2 (T & H3 & H4 & H5 & H6 & H7 & H8)] Hw. constructor; [exact H1|exact H2|].
  exists (write_cell i c w T). unfold with_tab; cbn [st_tabs]. rewrite list_lookup_alter, H3. cbn [fmap option_fmap option_map].
  split; [reflexivity|]. unfold write_cell, set_pairs; cbn [t_len t_pairs t_new]. rewrite alter_length.
  split; [exact H4|]. split; [exact H5|]. split; [exact H6|].
  destruct c.
  - rewrite (read_key s t T i H3) in Hw. split.
    + intros j. destruct (Nat.eq_dec i j) as [<-|Hne].
      * destruct (Nat.lt_ge_cases i (length (t_pairs T))) as [Hi|Hi].
        { rewrite keyat_set_key by exact Hi. rewrite Hw. apply H7. }
        rewrite alter_id; [apply H7|]. intros x Hx. apply lookup_lt_Some in Hx. lia.
      * rewrite keyat_set_key_ne by exact Hne. apply H7.
    + intros k j c' Hk Hh. rewrite valat_set_key. eapply H8; eauto.
  - rewrite (read_val s t T i H3) in Hw. split.
    + intros j. rewrite keyat_set_val. apply H7.
    + intros k j c' Hk Hh. destruct (Nat.eq_dec i j) as [<-|Hne].
      * rewrite valat_set_val by (rewrite H5; eapply home_lt; eauto). rewrite Hw. eapply H8; eauto.
      * rewrite valat_set_val_ne by exact Hne. eapply H8; eauto.
Qed.

(** What storing [nv] does to the dictionary. *)
Definition stored (m : gmap N N) (k nv : N) : gmap N N := if (nv =? VTOMBSTONE)%N then delete k m else <[k := nv]> m.
Definition storable (nv : N) : Prop := isclean nv /\ (nv = VTOMBSTONE \/ live nv).

Lemma cv_stored m k nv : cv (stored m k nv) k = nv.
Proof.
  unfold cv, stored. destruct (N.eqb_spec nv VTOMBSTONE) as [->|_]; [rewrite lookup_delete|rewrite lookup_insert]; reflexivity.
Qed.
Lemma cv_stored_ne m k nv k' : k <> k' -> cv (stored m k nv) k' = cv m k'.
Proof.
  intros H. unfold cv, stored. destruct (nv =? VTOMBSTONE)%N; [rewrite lookup_delete_ne|rewrite lookup_insert_ne]; auto.
Qed.
Lemma mlive_stored m k nv : mlive m -> storable nv -> mlive (stored m k nv).
Proof.
  intros H [Hc Hn] k' v Hk. unfold stored. destruct (N.eqb_spec nv VTOMBSTONE) as [->|Hne].
  - rewrite lookup_delete_Some. intros [_ H']. eauto.
  - rewrite lookup_insert_Some. intros [[_ <-]|[_ H']]; [split; tauto|eauto].
Qed.

Lemma J_store m s k i c nv : J m s -> ks k -> home k i c -> storable nv ->
  J (stored m k nv) (with_tab t (write_cell i CVal (dirty nv)) s).
Proof.
  intros [H1 H2 (T & H3 & H4 & H5 & H6 & H7 & H8)] Hk Hh Hn.
  constructor; [exact H1|exact (mlive_stored _ _ _ H2 Hn)|].
  exists (write_cell i CVal (dirty nv) T). unfold with_tab; cbn [st_tabs]. rewrite list_lookup_alter, H3. cbn [fmap option_fmap option_map].
  split; [reflexivity|]. unfold write_cell, set_pairs; cbn [t_len t_pairs t_new]. rewrite alter_length.
  split; [exact H4|]. split; [exact H5|]. split; [exact H6|]. split.
  { intros j. rewrite keyat_set_val. apply H7. }
  intros k' j c' Hk' Hh'. destruct (Nat.eq_dec i j) as [<-|Hne].
  - assert (k' = k) as -> by (rewrite <- (home_key _ _ _ Hh), <- (home_key _ _ _ Hh'); reflexivity).
    rewrite valat_set_val by (rewrite H5; eapply home_lt; eauto). rewrite cv_stored, clean_dirty. apply clean_id, Hn.
  - rewrite valat_set_val_ne by exact Hne. rewrite cv_stored_ne; [eapply H8; eauto|].
    intros ->. apply Hne. unfold home in *. congruence.
Qed.

Lemma J_read m s i c k : J m s -> ks k -> home k i c -> clean (read_cell s t i CVal) = cv m k.
Proof. intros [_ _ (T & H3 & _ & _ & _ & _ & H8)] Hk Hh. rewrite (read_val _ _ T) by exact H3. eauto. Qed.
Lemma J_key m s i : J m s -> clean (read_cell s t i CKey) = keyat A0 i.
Proof. intros [_ _ (T & H3 & _ & _ & _ & H7 & _)]. rewrite (read_key _ _ T) by exact H3. eauto. Qed.

Lemma cv_ok m k : mlive m -> ks k -> unmarked (cv m k) /\ cv m k <> VINITIAL /\ clean (cv m k) = cv m k.
Proof.
  intros H Hk. unfold cv. destruct (m !! k) as [v|] eqn:E; cbn.
  - destruct (H k v Hk E) as ((H1 & H2 & _) & H3). split; [exact H1|]. split; [exact H2|apply clean_id, H3].
  - split; [apply VTOMBSTONE_unmarked|]. split; [|apply clean_id, VTOMBSTONE_clean]. rewrite VTOMBSTONE_val, VINITIAL_val. discriminate.
Qed.

(** ** Simulation: a call [o] in progress, which has taken effect ([d] is its result) or not ([d = None]) *)
Section Call.
Context (o : op).

Definition lkstep (d : option rsp) (m : gmap N N) (d' : option rsp) (m' : gmap N N) : Prop :=
  (d' = d /\ m' = m) \/ (d = None /\ exists r, d' = Some r /\ wstep m o r m').

Fixpoint lk {A} (p : prog A) (Q : A -> option rsp -> Prop) (d : option rsp) : Prop :=
  match p with
  | Ret a => Q a d
  | Err e => e = OutOfFuel
  | Vis c k => forall m s, J m s -> exists d' m', lkstep d m d' m' /\ J m' (snd (exec c s)) /\ lk (k (fst (exec c s))) Q d'
  end.

Lemma lk_mono {A} (p : prog A) (Q Q' : A -> option rsp -> Prop) d : (forall a d', Q a d' -> Q' a d') -> lk p Q d -> lk p Q' d.
Proof.
  intros HQ. revert d. induction p as [a|e|c k IH]; cbn; intros d H; [auto|exact H|].
  intros m s HJ. destruct (H m s HJ) as (d' & m' & H1 & H2 & H3). eauto 10.
Qed.

Lemma lk_bind {A B} (p : prog A) (f : A -> prog B) Q d : lk p (fun a d' => lk (f a) Q d') d -> lk (bind p f) Q d.
Proof.
  revert d. induction p as [a|e|c k IH]; cbn; intros d H; [exact H|exact H|].
  intros m s HJ. destruct (H m s HJ) as (d' & m' & H1 & H2 & H3). eauto 10.
Qed.

Lemma lk_seq {A B} (p : prog A) (f : A -> prog B) P Q d : lk p P d -> (forall a d', P a d' -> lk (f a) Q d') -> lk (bind p f) Q d.
Proof. intros H1 H2. apply lk_bind. eapply lk_mono; [|exact H1]. cbn. exact H2. Qed.

Lemma lk_stay {A} c (k : res c -> prog A) Q d :
  (forall m s, J m s -> J m (snd (exec c s)) /\ lk (k (fst (exec c s))) Q d) -> lk (Vis c k) Q d.
Proof. intros H m s HJ. destruct (H m s HJ). exists d, m. split; [left; auto|auto]. Qed.

Lemma lk_assert (b : bool) (Q : unit -> option rsp -> Prop) d : b = true -> Q tt d -> lk (assert_ C b) Q d.
Proof. intros -> H. exact H. Qed.

Lemma lk_Len {A} (k : nat -> prog A) Q d : lk (k L) Q d -> lk (Vis (Len t) k) Q d.
Proof.
  intros H. apply lk_stay. intros m s HJ. split; [exact HJ|]. destruct (j_tab _ _ HJ) as (T & H3 & H4 & _).
  cbn. rewrite H3, H4. exact H.
Qed.
Lemma lk_LoadTop {A} (k : nat -> prog A) Q d : lk (k t) Q d -> lk (Vis LoadTop k) Q d.
Proof. intros H. apply lk_stay. intros m s HJ. split; [exact HJ|]. cbn. rewrite (j_top _ _ HJ). exact H. Qed.
Lemma lk_LoadNew {A} (k : option nat -> prog A) Q d : lk (k None) Q d -> lk (Vis (LoadNew t) k) Q d.
Proof.
  intros H. apply lk_stay. intros m s HJ. split; [exact HJ|]. destruct (j_tab _ _ HJ) as (T & H3 & H4 & H5 & H6 & _).
  cbn. rewrite H3, H6. exact H.
Qed.
Lemma lk_AddF {A} f x (k : N -> prog A) Q d : (forall y, lk (k y) Q d) -> lk (Vis (AddF t f x) k) Q d.
Proof.
  intros H. apply lk_stay. intros m s HJ. split; [|apply H]. cbn. apply J_with; [exact HJ|]. intros T _. destruct f; auto.
Qed.

Lemma lk_bounds i (Q : unit -> option rsp -> Prop) d : i < L -> Q tt d -> lk (bounds C t i) Q d.
Proof.
  intros Hi H. unfold bounds. apply lk_Len. cbn [bind]. apply Nat.ltb_lt in Hi. rewrite Hi. exact H.
Qed.

Lemma lk_persist i c w (Q : N -> option rsp -> Prop) d : (forall a, Q a d) -> lk (persist t i c w) Q d.
Proof.
  intros H. unfold persist. cbn -[exec lk]. apply lk_stay. intros m s HJ. split; [exact HJ|].
  generalize (fst (exec (Flush t i) s)). intros v.
  apply lk_stay. clear m s HJ. intros m s HJ. split.
  { cbn. apply J_with; [exact HJ|]. auto. }
  apply lk_stay. clear m s HJ. intros m s HJ. cbn. destruct (N.eqb_spec (read_cell s t i c) w) as [E|E]; cbn.
  - split; [|apply H]. apply J_clean; [exact HJ|]. rewrite E. apply clean_clean.
  - split; [exact HJ|apply H].
Qed.

Lemma lk_pcas_read i c (Q : N -> option rsp -> Prop) d :
  (forall m s, J m s -> exists d', lkstep d m d' m /\ Q (clean (read_cell s t i c)) d') -> lk (pcas_read t i c) Q d.
Proof.
  intros H. unfold pcas_read. cbn -[exec lk persist]. intros m s HJ. destruct (H m s HJ) as (d' & H1 & H2). exists d', m.
  split; [exact H1|]. split; [exact HJ|]. cbn [exec fst]. apply lk_bind.
  destruct (isMarked _ DirtyFlag); [|exact H2]. apply lk_bind. apply lk_persist. intros a. exact H2.
Qed.

Lemma lk_key i (Q : N -> option rsp -> Prop) d : i < L -> Q (keyat A0 i) d -> lk (key C t i) Q d.
Proof.
  intros Hi H. unfold key. apply lk_bind, lk_bounds; [exact Hi|]. apply lk_pcas_read. intros m s HJ. exists d.
  split; [left; auto|]. rewrite (J_key _ _ _ HJ). exact H.
Qed.

Lemma lk_value_any i (Q : N -> option rsp -> Prop) d : i < L -> (forall V, Q V d) -> lk (value C t i) Q d.
Proof.
  intros Hi H. unfold value. apply lk_bind, lk_bounds; [exact Hi|]. apply lk_pcas_read. intros m s HJ. exists d.
  split; [left; auto|]. apply H.
Qed.

Lemma lk_value k i c (Q : N -> option rsp -> Prop) d : ks k -> home k i c ->
  (forall m, mlive m -> exists d', lkstep d m d' m /\ Q (cv m k) d') -> lk (value C t i) Q d.
Proof.
  intros Hk Hh H. unfold value. apply lk_bind, lk_bounds; [eapply home_lt; eauto|]. apply lk_pcas_read. intros m s HJ.
  rewrite (J_read _ _ _ _ _ HJ Hk Hh). apply H. exact (j_live _ _ HJ).
Qed.

Lemma lk_CASvalue k i c V nv (Q : N -> option rsp -> Prop) d : ks k -> home k i c -> storable nv ->
  (forall m, mlive m -> clean V = cv m k -> exists d', lkstep d m d' (stored m k nv) /\ Q V d') ->
  (forall m w, mlive m -> clean w = cv m k -> w <> V -> exists d', lkstep d m d' m /\ Q w d') ->
  lk (CASvalue C t i V nv) Q d.
Proof.
  intros Hk Hh Hn Hs Hf. unfold CASvalue. apply lk_bind, lk_bounds; [eapply home_lt; eauto|]. apply lk_bind.
  unfold pcas. apply lk_bind. apply lk_pcas_read. intros m0 s0 _. exists d. split; [left; auto|].
  cbn -[exec lk]. intros m s HJ. pose proof (J_read _ _ _ _ _ HJ Hk Hh) as Hr. cbn [exec].
  destruct (N.eqb_spec (read_cell s t i CVal) V) as [E|E].
  - rewrite E in Hr. destruct (Hs m (j_live _ _ HJ) Hr) as (d' & H1 & H2). exists d', (stored m k nv).
    split; [exact H1|]. cbn [fst snd]. split; [eapply J_store; eauto|]. rewrite N.eqb_refl. exact H2.
  - destruct (Hf m _ (j_live _ _ HJ) Hr E) as (d' & H1 & H2). exists d', m. split; [exact H1|]. split; [exact HJ|].
    cbn [fst snd]. assert (E' : V <> read_cell s t i CVal) by congruence. apply N.eqb_neq in E'. rewrite E'. exact H2.
Qed.

(** ** putIfMatch *)
Section Put.
Context (k nv ov : N) (post : N -> rsp).
Context (Hk : ks k) (Hnv : storable nv) (Hov : unmarked ov).
(** What the call does when it stores its value over the word [V], and when it does not. *)
Context (Hwrite : forall m V, mlive m -> clean V = cv m k -> noMatch V ov = false -> wstep m o (post V) (stored m k nv)).
Context (Hfail : forall m V, mlive m -> clean V = cv m k -> noMatch V ov = true -> wstep m o (post V) m).
Context (Hsame : forall m, mlive m -> nv = cv m k -> wstep m o (post nv) m).

Definition done (a : N) (d : option rsp) : Prop := unmarked a /\ d = Some (post a).

Lemma lk_updateLoop i c : home k i c -> forall n fwd V d, unmarked V ->
  (if noMatch V ov then d = Some (post V) else d = None) ->
  lk (updateLoop C n (CASvalue C) fwd t i nv ov V) done d.
Proof.
  intros Hh. induction n as [|n IH]; intros fwd V d HV Hd; [reflexivity|]. cbn [updateLoop].
  apply lk_bind, lk_assert; [rewrite HV; reflexivity|].
  destruct (noMatch V ov) eqn:Hm; [split; [exact HV|exact Hd]|]. subst d.
  apply lk_bind. apply (lk_CASvalue k i c); [exact Hk|exact Hh|exact Hnv| |].
  - intros m Hl Hc. exists (Some (post V)). split; [right; split; [reflexivity|]; exists (post V); auto|].
    rewrite N.eqb_refl. apply lk_bind.
    assert (HR : lk (countChange t V nv ov) (fun _ d => d = Some (post V)) (Some (post V))).
    { unfold countChange. destruct (negb (ov =? VINITIAL)%N); [|reflexivity].
      destruct (((V =? VINITIAL) || (V =? VTOMBSTONE))%N && negb (nv =? VTOMBSTONE)%N).
      - apply lk_bind, lk_AddF. intros y. reflexivity.
      - destruct (_ && _); [|reflexivity]. apply lk_bind, lk_AddF. intros y. reflexivity. }
    eapply lk_mono; [|exact HR]. cbn. intros _ d' ->.
    assert (HVI : (V =? VINITIAL)%N = false).
    { apply N.eqb_neq. intros ->. rewrite (clean_id _ VINITIAL_clean) in Hc.
      destruct (cv_ok m k Hl Hk) as (_ & H & _). congruence. }
    rewrite HVI. split; [exact HV|reflexivity].
  - intros m w Hl Hc Hw. assert (Hwu : unmarked w).
    { unfold unmarked. rewrite <- isMarked_clean_mig, Hc. apply (cv_ok m k Hl Hk). }
    exists (if noMatch w ov then Some (post w) else None). split.
    { destruct (noMatch w ov) eqn:E; [right|left; auto]. split; [reflexivity|]. exists (post w). auto. }
    apply N.eqb_neq in Hw. rewrite Hw. apply lk_bind. apply (lk_value k i c); [exact Hk|exact Hh|].
    intros m' Hl'. eexists. split; [left; auto|]. rewrite (proj1 (cv_ok m' k Hl' Hk)).
    apply IH; [exact Hwu|]. destruct (noMatch w ov); reflexivity.
Qed.

Lemma lk_claimSlot i c : home k i c -> forall n c', c' <= c ->
  lk (claimSlot C n t k nv L (pos (hash C k) L c') c')
    (fun r d => exists V, r = CSlot i V c /\ unmarked V /\ V <> VINITIAL /\
       if ((nv =? V)%N || noMatch V ov) then d = Some (post V) else d = None) None.
Proof.
  intros Hh. pose proof Hh as Hp. apply probe_found in Hp as (Hc & Hi & Hkey & Hki & Hchain).
  induction n as [|n IH]; intros c' Hc'; [reflexivity|]. cbn [claimSlot].
  assert (Hlt : pos (hash C k) L c' < L) by apply pos_lt, HL.
  apply lk_bind, lk_key; [exact Hlt|]. apply lk_bind.
  destruct (Nat.eq_dec c' c) as [->|Hne].
  - rewrite <- Hi. apply (lk_value k i c); [exact Hk|exact Hh|]. intros m Hl.
    destruct (cv_ok m k Hl Hk) as (Hu & Hv & Hcl). set (V := cv m k) in *.
    exists (if ((nv =? V)%N || noMatch V ov) then Some (post V) else None). split.
    { destruct (N.eqb_spec nv V) as [E|E].
      - right. split; [reflexivity|]. exists (post V). split; [reflexivity|]. rewrite <- E. apply Hsame; auto.
      - cbn [orb]. destruct (noMatch V ov) eqn:Em; [right|left; auto]. split; [reflexivity|]. exists (post V).
        split; [reflexivity|]. apply Hfail; auto. }
    rewrite Hkey. replace (k =? VINITIAL)%N with false by (symmetry; apply N.eqb_neq; exact Hki).
    rewrite N.eqb_refl. exists V. split; [reflexivity|]. split; [exact Hu|]. split; [exact Hv|].
    destruct (_ || _); reflexivity.
  - destruct (Hchain c') as (N1 & N2 & N3); [lia|]. apply lk_value_any; [exact Hlt|]. intros V.
    apply N.eqb_neq in N1, N2, N3. rewrite KINITIAL_val in N1. rewrite N1, N2, N3.
    destruct (Nat.leb_spec (reprobeLimit L) (S c')); [lia|]. cbn [orb]. apply (IH (S c')). lia.
Qed.

Lemma lk_put n : lk (putIfMatch C n (CASvalue C) t k nv ov) done None.
Proof.
  destruct n as [|n]; [reflexivity|]. cbn [putIfMatch]. unfold putBody.
  assert (Hu : unmarked nv) by (destruct Hnv as [_ [->|(H & _)]]; [apply VTOMBSTONE_unmarked|exact H]).
  assert (Hni : (nv =? VINITIAL)%N = false).
  { apply N.eqb_neq. destruct Hnv as [_ [->|(_ & H & _)]]; [rewrite VTOMBSTONE_val, VINITIAL_val; discriminate|exact H]. }
  apply lk_bind, lk_assert; [rewrite Hni; reflexivity|].
  apply lk_bind, lk_assert; [rewrite Hu; reflexivity|].
  apply lk_bind, lk_assert; [rewrite Hov; reflexivity|].
  apply lk_bind, lk_Len. cbn [lk].
  destruct (Hks k Hk) as (_ & i & c & Hh).
  apply lk_bind. eapply lk_mono; [|apply (lk_claimSlot i c Hh n 0); lia].
  cbn beta. intros r d (V & -> & HV & HVI & Hd). cbn [orb].
  destruct (N.eqb_spec nv V) as [->|Hne]; cbn [orb] in Hd; [split; auto|].
  apply N.eqb_neq in HVI. rewrite HVI. apply lk_bind. cbn [lk orb]. rewrite HV.
  apply (lk_updateLoop i c); auto.
Qed.

Definition pub (r : N) : N := if (r =? VTOMBSTONE)%N then VINITIAL else r.

Lemma lk_putPub n : (ov =? VINITIAL)%N = false ->
  lk (putIfMatchPub C n k nv ov (CASvalue C)) (fun a d => exists r, a = pub r /\ d = Some (post r)) None.
Proof.
  intros Hoi. unfold putIfMatchPub.
  assert (Hni : (nv =? VINITIAL)%N = false).
  { apply N.eqb_neq. destruct Hnv as [_ [->|(_ & H & _)]]; [rewrite VTOMBSTONE_val, VINITIAL_val; discriminate|exact H]. }
  apply lk_bind, lk_assert; [rewrite Hni; reflexivity|].
  apply lk_bind, lk_assert; [rewrite Hoi; reflexivity|].
  apply lk_bind, lk_LoadTop. cbn [lk]. apply lk_bind. eapply lk_mono; [|apply lk_put].
  intros a d [Ha ->]. apply lk_bind, lk_assert; [rewrite Ha; reflexivity|]. cbn [lk]. exists a. auto.
Qed.
End Put.

(** ** get *)
Section Get.
Context (k : N) (post : N -> rsp).
Context (Hk : ks k).
Context (Hget : forall m, mlive m -> wstep m o (post (lookup_result m k)) m).

Lemma get_cv m : mlive m -> (if (cv m k =? VTOMBSTONE)%N then VINITIAL else cv m k) = lookup_result m k.
Proof.
  intros H. unfold cv, lookup_result, NOTFOUND. destruct (m !! k) as [v|] eqn:E; cbn; [|reflexivity].
  destruct (H k v Hk E) as ((_ & _ & Hv) & _). apply N.eqb_neq in Hv. rewrite Hv. reflexivity.
Qed.

Lemma lk_getLoop i c : home k i c -> forall n put rec c', c' <= c ->
  lk (getLoop C n put rec t k L (pos (hash C k) L c') c') (fun a d => unmarked a /\ d = Some (post a)) None.
Proof.
  intros Hh. pose proof Hh as Hp. apply probe_found in Hp as (Hc & Hi & Hkey & Hki & Hchain).
  induction n as [|n IH]; intros put rec c' Hc'; [reflexivity|]. cbn [getLoop].
  assert (Hlt : pos (hash C k) L c' < L) by apply pos_lt, HL.
  apply lk_bind, lk_key; [exact Hlt|]. apply lk_bind.
  destruct (Nat.eq_dec c' c) as [->|Hne].
  - rewrite <- Hi. apply (lk_value k i c); [exact Hk|exact Hh|]. intros m Hl.
    exists (Some (post (lookup_result m k))). split; [right; split; [reflexivity|]; eauto|].
    rewrite Hkey. replace (k =? KINITIAL)%N with false by (symmetry; apply N.eqb_neq; exact Hki).
    apply lk_bind, lk_LoadNew. cbn [lk]. rewrite N.eqb_refl. destruct (cv_ok m k Hl Hk) as (Hu & _). rewrite Hu.
    cbn [negb lk]. rewrite (get_cv m Hl). split; [|reflexivity]. rewrite <- (get_cv m Hl).
    destruct (_ =? _)%N; [apply VINITIAL_unmarked|exact Hu].
  - destruct (Hchain c') as (N1 & N2 & N3); [lia|]. apply lk_value_any; [exact Hlt|]. intros V.
    apply N.eqb_neq in N1, N2, N3. rewrite N1. apply lk_bind, lk_LoadNew. cbn [lk]. rewrite N2, N3.
    destruct (Nat.leb_spec (reprobeLimit L) (S c')); [lia|]. cbn [orb]. apply (IH put rec (S c')). lia.
Qed.

Lemma lk_get n : lk (get C n k) (fun a d => d = Some (post a)) None.
Proof.
  unfold get. apply lk_bind, lk_LoadTop. cbn [lk]. apply lk_bind.
  destruct n as [|n]; [reflexivity|]. cbn [getImpl]. apply lk_bind, lk_Len. cbn [lk]. rewrite Hsext.
  destruct (Hks k Hk) as (_ & i & c & Hh).
  eapply lk_mono; [|apply (lk_getLoop i c Hh n _ _ 0); lia]. intros a d [Ha ->].
  apply lk_bind, lk_assert; [rewrite Ha; reflexivity|]. reflexivity.
Qed.
End Get.
End Call.

(** ** The calls *)
Definition covered (o : op) : Prop := legal_op o /\ (forall k, op_key o = Some k -> ks k) /\ not_increment o.

Lemma cv_Some m k v : mlive m -> ks k -> m !! k = Some v -> cv m k = v /\ v <> VTOMBSTONE.
Proof. intros H Hk E. unfold cv. rewrite E. split; [reflexivity|]. apply (H k v Hk E). Qed.

Lemma pub_result m k V : mlive m -> ks k -> clean V = cv m k ->
  (exists v, m !! k = Some v /\ v = clean V /\ pub V = V) \/
  (m !! k = None /\ ((V = VTOMBSTONE /\ pub V = NOTFOUND) \/ (V = dirty VTOMBSTONE /\ pub V = V))).
Proof.
  intros Hl Hk Hc. destruct (m !! k) as [v|] eqn:E.
  - left. destruct (cv_Some _ _ _ Hl Hk E) as [E1 E2]. exists v. split; [reflexivity|]. split; [congruence|].
    unfold pub. destruct (N.eqb_spec V VTOMBSTONE) as [->|_]; [|reflexivity].
    rewrite (clean_id _ VTOMBSTONE_clean) in Hc. congruence.
  - right. split; [reflexivity|]. unfold cv in Hc. rewrite E in Hc. cbn in Hc. unfold pub.
    destruct (isMarked V DirtyFlag) eqn:Em.
    + right. rewrite <- (dirty_id V Em), <- dirty_clean, Hc. split; [reflexivity|].
      destruct (N.eqb_spec (dirty VTOMBSTONE) VTOMBSTONE) as [E'|_]; [|reflexivity]. discriminate E'.
    + left. rewrite (clean_id V Em) in Hc. subst V. split; reflexivity.
Qed.

Lemma same_clean w v : v = clean w -> isclean v -> same_word w v.
Proof. intros -> H. unfold same_word. symmetry. apply (clean_id _ H). Qed.

Lemma noMatch_NM V : noMatch V NO_MATCH_OLD = false.
Proof. reflexivity. Qed.
Lemma noMatch_val V v : V <> VINITIAL -> v <> NO_MATCH_OLD -> v <> MATCH_ANY -> noMatch V v = negb (V =? v)%N.
Proof.
  intros H0 H1 H2. unfold noMatch. apply N.eqb_neq in H0, H1, H2. rewrite H0, H1, H2. cbn. rewrite !andb_true_r. reflexivity.
Qed.

Lemma clean_neq_VINITIAL m k V : mlive m -> ks k -> clean V = cv m k -> V <> VINITIAL.
Proof. intros Hl Hk Hc ->. rewrite (clean_id _ VINITIAL_clean) in Hc. destruct (cv_ok m k Hl Hk) as (_ & H & _). congruence. Qed.

Lemma storable_val v : legal_val v -> storable v.
Proof. intros H. split; [apply H|right; apply legal_live, H]. Qed.
Lemma storable_tomb : storable VTOMBSTONE.
Proof. split; [apply VTOMBSTONE_clean|left; reflexivity]. Qed.
Lemma stored_val m k v : legal_val v -> stored m k v = <[k := v]> m.
Proof. intros H. unfold stored. destruct (legal_val_neq v H) as (_ & H1 & _). apply N.eqb_neq in H1. rewrite H1. reflexivity. Qed.
Lemma same_stored m k v : legal_val v -> v = cv m k -> m !! k = Some v.
Proof.
  intros H E. unfold cv in E. destruct (m !! k); cbn in E; [congruence|]. destruct (legal_val_neq v H) as (_ & H1 & _). congruence.
Qed.

Lemma lk_op n o : covered o -> lk o (op_prog C n o) (fun r d => d = Some r) None.
Proof.
  intros (Hleg & Hkey & Hni). destruct o as [k|k|k v|k v|k|k v|k ov v|k|]; cbn [op_prog op_key] in *.
  - (* get *)
    pose proof (Hkey k eq_refl) as Hk. apply lk_bind. eapply lk_mono; [|apply (lk_get _ k RVal); [exact Hk|]].
    + intros a d ->. reflexivity.
    + intros m Hl. cbn. auto.
  - (* containsKey *)
    pose proof (Hkey k eq_refl) as Hk. unfold containsKey. apply lk_bind, lk_bind.
    eapply lk_mono; [|apply (lk_get _ k (fun V => RBool (negb (V =? KINITIAL)%N))); [exact Hk|]].
    + intros a d ->. reflexivity.
    + intros m Hl. cbn. split; [|reflexivity]. f_equal. unfold lookup_result, NOTFOUND. destruct (m !! k) as [v|] eqn:E; cbn.
      * destruct (Hl k v Hk E) as ((_ & Hv & _) & _). apply N.eqb_neq in Hv. rewrite KINITIAL_val, Hv.
        reflexivity.
      * reflexivity.
  - (* put *)
    destruct Hleg as [_ Hv]. pose proof (Hkey k eq_refl) as Hk. unfold put. apply lk_bind.
    eapply lk_mono; [|apply (lk_putPub _ k v NO_MATCH_OLD (fun r => RVal (pub r)))].
    + intros a d (r & -> & ->). reflexivity.
    + exact Hk.
    + apply storable_val, Hv.
    + apply NO_MATCH_OLD_unmarked.
    + intros m V Hl Hc _. cbn. split; [|apply stored_val, Hv]. exists (pub V). split; [reflexivity|].
      destruct (pub_result m k V Hl Hk Hc) as [(x & E & E1 & ->)|(E & [[-> ->]|[-> ->]])].
      * left. unfold lookup_result. rewrite E. cbn. apply same_clean; [exact E1|]. apply (Hl k x Hk E).
      * left. unfold lookup_result. rewrite E. reflexivity.
      * right. auto.
    + intros m V _ _. rewrite noMatch_NM. discriminate.
    + intros m Hl E. pose proof (same_stored _ _ _ Hv E) as E'. cbn. split.
      * exists (pub v). split; [reflexivity|]. left. unfold lookup_result. rewrite E'. cbn. unfold pub.
        destruct (legal_val_neq v Hv) as (_ & H1 & _). apply N.eqb_neq in H1. rewrite H1. reflexivity.
      * symmetry. apply insert_id. exact E'.
    + reflexivity.
  - (* putIfAbsent *)
    destruct Hleg as [_ Hv]. pose proof (Hkey k eq_refl) as Hk. unfold putIfAbsent. apply lk_bind.
    eapply lk_mono; [|apply (lk_putPub _ k v VTOMBSTONE (fun r => RVal (pub r)))].
    + intros a d (r & -> & ->). reflexivity.
    + exact Hk.
    + apply storable_val, Hv.
    + apply VTOMBSTONE_unmarked.
    + intros m V Hl Hc Hm. rewrite noMatch_val in Hm; [|eapply clean_neq_VINITIAL; eauto|discriminate|discriminate].
      apply negb_false_iff, N.eqb_eq in Hm. subst V. cbn. left. rewrite stored_val by exact Hv.
      destruct (pub_result m k _ Hl Hk Hc) as [(x & E & E1 & _)|(E & _)].
      * exfalso. rewrite (clean_id _ VTOMBSTONE_clean) in E1. apply (cv_Some _ _ _ Hl Hk E). exact E1.
      * auto.
    + intros m V Hl Hc Hm. rewrite noMatch_val in Hm; [|eapply clean_neq_VINITIAL; eauto|discriminate|discriminate].
      apply negb_true_iff, N.eqb_neq in Hm. cbn. right. exists (pub V). split; [reflexivity|]. split; [reflexivity|].
      destruct (pub_result m k V Hl Hk Hc) as [(x & E & E1 & ->)|(E & [[-> _]|[-> ->]])]; rewrite E.
      * apply same_clean; [exact E1|]. apply (Hl k x Hk E).
      * congruence.
      * reflexivity.
    + intros m Hl E. pose proof (same_stored _ _ _ Hv E) as E'. cbn. right. exists (pub v). split; [reflexivity|].
      split; [reflexivity|]. rewrite E'. unfold pub.
      destruct (legal_val_neq v Hv) as (_ & H1 & _). apply N.eqb_neq in H1. rewrite H1. reflexivity.
    + reflexivity.
  - (* remove *)
    pose proof (Hkey k eq_refl) as Hk. unfold remove. apply lk_bind, lk_bind.
    assert (Hz : forall m V, mlive m -> clean V = cv m k -> negb (pub V =? 0)%N = false -> m !! k = Some 0%N).
    { intros m V Hl Hc Hb. apply negb_false_iff, N.eqb_eq in Hb.
      destruct (pub_result m k V Hl Hk Hc) as [(x & E & E1 & E2)|(E & [[-> E2]|[-> E2]])].
      - rewrite E2 in Hb. subst V x. exact E.
      - rewrite E2 in Hb. discriminate.
      - rewrite E2 in Hb. discriminate. }
    eapply lk_mono; [|apply (lk_putPub _ k VTOMBSTONE NO_MATCH_OLD (fun r => RBool (negb (pub r =? 0)%N)))].
    + intros a d (r & -> & ->). reflexivity.
    + exact Hk.
    + apply storable_tomb.
    + apply NO_MATCH_OLD_unmarked.
    + intros m V Hl Hc _. cbn. split; [|reflexivity]. eexists. split; [reflexivity|]. exact (Hz m V Hl Hc).
    + intros m V _ _. rewrite noMatch_NM. discriminate.
    + intros m Hl E. cbn. split.
      * exists true. split; [reflexivity|discriminate].
      * symmetry. apply delete_notin. unfold cv in E. destruct (m !! k) as [x|] eqn:Ex; [|reflexivity].
        cbn in E. destruct (Hl k x Hk Ex) as ((_ & _ & H) & _). congruence.
    + reflexivity.
  - (* remove(key, value) *)
    destruct Hleg as [_ Hv]. pose proof (Hkey k eq_refl) as Hk. pose proof (legal_val_neq v Hv) as (V1 & V2 & _ & V4 & V5).
    unfold removeVal. apply lk_bind, lk_bind.
    eapply lk_mono; [|apply (lk_putPub _ k VTOMBSTONE v (fun r => RBool (pub r =? v)%N))].
    + intros a d (r & -> & ->). reflexivity.
    + exact Hk.
    + apply storable_tomb.
    + apply Hv.
    + intros m V Hl Hc Hm. rewrite noMatch_val in Hm; [|eapply clean_neq_VINITIAL; eauto|exact V5|exact V4].
      apply negb_false_iff, N.eqb_eq in Hm. subst V. cbn. left.
      destruct (pub_result m k v Hl Hk Hc) as [(x & E & E1 & ->)|(E & [[E1 _]|[E1 _]])].
      * rewrite N.eqb_refl. split; [|auto]. rewrite E, E1. f_equal. apply clean_id, Hv.
      * contradiction.
      * exfalso. revert E1. apply isclean_neq_dirty, Hv.
    + intros m V Hl Hc Hm. rewrite noMatch_val in Hm; [|eapply clean_neq_VINITIAL; eauto|exact V5|exact V4].
      apply negb_true_iff in Hm. cbn. right. split; [|reflexivity]. f_equal. unfold pub.
      destruct (N.eqb_spec V VTOMBSTONE) as [_|_]; [|exact Hm]. apply N.eqb_neq. congruence.
    + intros m Hl E. cbn. right. split; [|reflexivity]. f_equal. apply N.eqb_neq. unfold pub. rewrite N.eqb_refl. congruence.
    + apply N.eqb_neq. exact V1.
  - (* replace *)
    destruct Hleg as (_ & Hov & Hv). pose proof (Hkey k eq_refl) as Hk. pose proof (legal_val_neq ov Hov) as (V1 & V2 & _ & V4 & V5).
    unfold replace. apply lk_bind, lk_bind.
    eapply lk_mono; [|apply (lk_putPub _ k v ov (fun r => RBool (pub r =? ov)%N))].
    + intros a d (r & -> & ->). reflexivity.
    + exact Hk.
    + apply storable_val, Hv.
    + apply Hov.
    + intros m V Hl Hc Hm. rewrite noMatch_val in Hm; [|eapply clean_neq_VINITIAL; eauto|exact V5|exact V4].
      apply negb_false_iff, N.eqb_eq in Hm. subst V. cbn. left. rewrite stored_val by exact Hv.
      destruct (pub_result m k ov Hl Hk Hc) as [(x & E & E1 & ->)|(E & [[E1 _]|[E1 _]])].
      * rewrite N.eqb_refl. split; [|auto]. rewrite E, E1. f_equal. apply clean_id, Hov.
      * contradiction.
      * exfalso. revert E1. apply isclean_neq_dirty, Hov.
    + intros m V Hl Hc Hm. rewrite noMatch_val in Hm; [|eapply clean_neq_VINITIAL; eauto|exact V5|exact V4].
      apply negb_true_iff in Hm. cbn. right. split; [|reflexivity]. f_equal. unfold pub.
      destruct (N.eqb_spec V VTOMBSTONE) as [_|_]; [|exact Hm]. apply N.eqb_neq. congruence.
    + intros m Hl E. pose proof (same_stored _ _ _ Hv E) as E'. cbn. unfold pub.
      destruct (legal_val_neq v Hv) as (_ & H1 & _). apply N.eqb_neq in H1. rewrite H1.
      destruct (N.eqb_spec v ov) as [->|Hne]; [left|right; auto].
      split; [exact E'|]. split; [reflexivity|]. symmetry. apply insert_id. exact E'.
    + apply N.eqb_neq. exact V1.
  - destruct Hni.
  - (* size *)
    unfold size. apply lk_bind, lk_bind, lk_LoadTop. cbn [lk]. intros m s HJ. cbn [exec fst snd].
    eexists (Some (RVal _)), m. split; [right; split; [reflexivity|]; eexists; split; [reflexivity|]; cbn; eauto|].
    split; [exact HJ|reflexivity].
Qed.

End Lin.
