(** Which calls report that they inserted a key, in terms of the entries they wrote, whatever the memory answers, as
    long as the table has no successor.

    [wn] follows a program over all answers that the memory of such a map may give; the flag says whether the call has
    written the value of an entry that had none. *)
From Coq Require Import NArith Bool List Lia.
From stdpp Require Import base list.
From Verif Require Import Word Bits Prog HashMap Conc Spec Probe TraceSpec Trace.
Import ListNotations.
Open Scope nat_scope.
Open Scope prog_scope.

Notation noval := (dirty VINITIAL).

(** What a record says about the value and the key of an entry. *)
Definition vknown (P : N -> Prop) (i : nat) (G : list obs) : Prop :=
  exists w, (In (Saw 0 i CVal w) G \/ exists e, In (Did 0 i CVal e w) G) /\ P w.
Notation Seen := (vknown (fun w => w <> noval)).
Notation Full := (vknown (fun w => clean w <> VINITIAL)).
Definition kknown (i : nat) (k : N) (G : list obs) : Prop :=
  exists w, (In (Saw 0 i CKey w) G \/ exists e, In (Did 0 i CKey e w) G) /\ clean w = k.

Lemma vknown_ext P i G G' : ext G G' -> vknown P i G -> vknown P i G'.
Proof.
  intros HE (w & [H|(e & H)] & HP); exists w; (split; [|exact HP]); [left|right; exists e]; exact (ext_In _ _ _ HE H).
Qed.
Lemma kknown_ext i k G G' : ext G G' -> kknown i k G -> kknown i k G'.
Proof.
  intros HE (w & [H|(e & H)] & HP); exists w; (split; [|exact HP]); [left|right; exists e]; exact (ext_In _ _ _ HE H).
Qed.

Definition good (t i : nat) (c : cell) (G : list obs) (w : N) : Prop :=
  t = 0 -> c = CVal -> Rng 0 i G -> clean w <> VTOMBSTONE /\ (Seen i G -> w <> noval).

(** The answers of a map that has one table and whose calls never delete. *)
Definition ans (c : cmd) (G : list obs) : res c -> Prop :=
  match c return res c -> Prop with
  | Load t i c => fun r => good t i c G r
  | Cas t i c e n => fun r => (fst r = true <-> snd r = e) /\ good t i c G (snd r)
  | LoadNew t => fun r => t = 0 -> r = None
  | CasNew t e n => fun _ => t = 0 -> e = None -> False
  | LoadTop => fun r => r = 0
  | _ => fun _ => True
  end.

(** The command gives an entry its first value. *)
Definition wins (c : cmd) : res c -> bool :=
  match c return res c -> bool with
  | Cas _ _ CVal e n => fun r => fst r && (clean e =? VINITIAL)%N && negb (clean n =? VINITIAL)%N
  | _ => fun _ => false
  end.

(** What a call may do: it writes within the table, never removes a key or a value, and gives at most one entry a first
    value, an entry of its key. *)
Definition duty (ko : option N) (c : cmd) (b : bool) (G : list obs) : res c -> Prop :=
  match c return res c -> Prop with
  | Cas t i c e n => fun r => t = 0 /\ Rng 0 i G /\
      (fst r = true ->
       match c with
       | CVal => n <> noval /\ clean n <> VTOMBSTONE /\ (clean n = VINITIAL -> clean e = VINITIAL) /\
           (clean e = VINITIAL -> clean n <> VINITIAL -> b = false /\ exists k, ko = Some k /\ k <> KINITIAL /\ kknown i k G)
       | CKey => clean e = KINITIAL \/ clean n = clean e
       end)
  | CasTop _ _ => fun _ => False
  | _ => fun _ => True
  end.

Fixpoint wn {A} (ko : option N) (p : prog A) (Q : A -> bool -> list obs -> Prop) (b : bool) (G : list obs) : Prop :=
  match p with
  | Ret a => Q a b G
  | Err _ => True
  | Vis c f => forall r, ans c G r -> duty ko c b G r /\ wn ko (f r) Q (b || wins c r) (obs_of c r ++ G)
  end.

Lemma wn_mono {A} ko (p : prog A) (Q Q' : A -> bool -> list obs -> Prop) b G :
  wn ko p Q b G -> (forall a b' G', ext G G' -> Q a b' G' -> Q' a b' G') -> wn ko p Q' b G.
Proof.
  revert b G. induction p as [a|e|c k IH]; intros b G; cbn; auto.
  - intros H HQ. apply HQ; [apply ext_refl|exact H].
  - intros H HQ r Hr. destruct (H r Hr) as [HD Hk]. split; [exact HD|]. apply (IH r _ _ Hk). intros a b' G' HG. apply HQ.
    exact (ext_trans _ _ _ (ext_app _ _) HG).
Qed.
Lemma wn_bind {A B} ko (p : prog A) (f : A -> prog B) Q b G :
  wn ko p (fun a b' G' => wn ko (f a) Q b' G') b G -> wn ko (bind p f) Q b G.
Proof.
  revert b G. induction p as [a|e|c k IH]; intros b G; cbn; auto. intros H r Hr. destruct (H r Hr) as [HD Hk]. auto.
Qed.
Lemma wn_seq {A B} ko (p : prog A) (f : A -> prog B) (P : A -> bool -> list obs -> Prop) Q b G :
  wn ko p P b G -> (forall a b' G', ext G G' -> P a b' G' -> wn ko (f a) Q b' G') -> wn ko (bind p f) Q b G.
Proof. intros H1 H2. apply wn_bind. exact (wn_mono _ _ _ _ _ _ H1 H2). Qed.

Ltac ext := first [ exact (ext_refl _) | assumption
  | match goal with
    | H : ext ?c ?b |- ext ?a ?b => apply (ext_trans a c b); [ext|exact H]
    | |- ext ?a (?e :: ?b) => apply (ext_trans _ b); [ext|apply ext_cons]
    | |- ext ?a (?g ++ ?b) => apply (ext_trans _ b); [ext|apply ext_app]
    end ].

Lemma clean_VI : clean VINITIAL = VINITIAL.
Proof. reflexivity. Qed.
Lemma noval_clean w : isclean w -> w <> noval.
Proof. intros H. apply isclean_neq_dirty. exact H. Qed.
Lemma clean_noval w : clean w <> VINITIAL -> w <> noval.
Proof. intros H ->. apply H. rewrite clean_dirty. reflexivity. Qed.
Lemma clean_initial w : w <> noval -> clean w = VINITIAL -> w = VINITIAL.
Proof.
  intros H E. destruct (isMarked w DirtyFlag) eqn:HM.
  - exfalso. apply H. rewrite <- E, dirty_clean. symmetry. apply dirty_id. exact HM.
  - rewrite <- E. symmetry. apply clean_id. exact HM.
Qed.

Section Win.
Context (C : cfg) (ko : option N).

Lemma wn_assert x (Q : unit -> bool -> list obs -> Prop) b G : Q tt b G -> wn ko (assert_ C x) Q b G.
Proof. intros H. unfold assert_. destruct (_ || _); [exact H|exact I]. Qed.

Lemma wn_bounds i b G : wn ko (bounds C 0 i) (fun _ b' G' => b' = b /\ Rng 0 i G') b G.
Proof.
  unfold bounds, do; cbn [bind wn]. intros L _. cbn [duty wins obs_of app]. rewrite orb_false_r. split; [exact I|].
  destruct (Nat.ltb_spec i L) as [H|]; cbn [wn]; [|exact I]. split; [reflexivity|]. exists L. split; [left; reflexivity|exact H].
Qed.

Lemma wn_pcas_read i c b G : Rng 0 i G ->
  wn ko (pcas_read 0 i c) (fun V b' G' => b' = b /\ (exists w, V = clean w /\ In (Saw 0 i c w) G' /\ good 0 i c G w) /\ (c = CVal -> Seen i G')) b G.
Proof.
  intros HR. unfold pcas_read, do; cbn [bind wn]. intros w Hw. cbn [ans] in Hw. cbn [duty wins obs_of app]. rewrite orb_false_r. split; [exact I|].
  destruct (isMarked w DirtyFlag) eqn:HM.
  - unfold persist, do; cbn [bind wn]. intros v _. cbn [duty wins obs_of app]. rewrite orb_false_r. split; [exact I|].
    intros ? _. rewrite orb_false_r. split; [exact I|]. intros [s x] [Hs Hx]. cbn [fst snd] in Hs, Hx.
    assert (HR1 : Rng 0 i (Saw 0 i c w :: G)) by (exact (ext_Rng _ _ _ _ (ext_cons _ _) HR)).
    split.
    { cbn [duty]. split; [reflexivity|]. split; [exact HR1|]. intros _. destruct c; [right; apply clean_clean|].
      split; [apply noval_clean, clean_isclean|]. rewrite clean_clean. split; [exact (proj1 (Hw eq_refl eq_refl HR))|]. split; [auto|]. intros; contradiction. }
    match goal with |- context [b || ?x] => assert (E : x = false) end.
    { destruct c; [reflexivity|]. cbn. rewrite clean_clean. destruct s; [|reflexivity]. destruct (clean w =? VINITIAL)%N; reflexivity. }
    rewrite E, orb_false_r. cbn [wn]. split; [reflexivity|]. split.
    { exists w. split; [reflexivity|]. split; [|exact Hw]. apply in_or_app. right. left. reflexivity. }
    intros ->. cbn [obs_of]. destruct s; cbn [fst app].
    + exists (clean w). split; [right; exists w; left; reflexivity|]. apply noval_clean, clean_isclean.
    + destruct (N.eq_dec w noval) as [->|Hn].
      * exists x. split; [left; left; reflexivity|]. intros ->. assert (false = true) by (apply Hs; reflexivity). discriminate.
      * exists w. split; [left; right; left; reflexivity|exact Hn].
  - cbn [bind wn]. split; [reflexivity|]. split.
    { exists w. split; [reflexivity|]. split; [left; reflexivity|exact Hw]. }
    intros ->. exists w. split; [left; left; reflexivity|]. intros ->. rewrite isMarked_dirty_dirty in HM. discriminate.
Qed.

Lemma wn_cell i c b G : wn ko (bounds C 0 i ;;; pcas_read 0 i c)
  (fun V b' G' => b' = b /\ Rng 0 i G' /\ (exists w, V = clean w /\ In (Saw 0 i c w) G' /\ (c = CVal -> clean w <> VTOMBSTONE)) /\ (c = CVal -> Seen i G')) b G.
Proof.
  eapply wn_seq; [apply wn_bounds|]. intros ? b1 G1 H1 [-> HR]. eapply wn_mono; [apply wn_pcas_read; exact HR|].
  intros V b2 G2 H2 (-> & (w & E & Hin & Hg) & HS). split; [reflexivity|]. split; [exact (ext_Rng _ _ _ _ H2 HR)|]. split; [|exact HS].
  exists w. split; [exact E|]. split; [exact Hin|]. intros Hc. exact (proj1 (Hg eq_refl Hc HR)).
Qed.

Lemma wn_CASkey i k b G : isclean k ->
  wn ko (CASkey C 0 i KINITIAL k) (fun r b' G' => b' = b /\ Rng 0 i G' /\ (r = KINITIAL \/ r = k -> kknown i k G')) b G.
Proof.
  intros Hk. unfold CASkey. eapply wn_seq; [apply wn_bounds|]. intros ? b1 G1 H1 [-> HR]. unfold pcas.
  apply wn_bind. eapply wn_seq; [apply wn_pcas_read; exact HR|]. intros ? b2 G2 H2 (-> & _).
  unfold do; cbn [bind wn]. intros [s x] [Hs Hx]. cbn [fst snd] in Hs, Hx. pose proof (ext_Rng _ _ _ _ H2 HR) as HR2. split.
  { cbn [duty]. split; [reflexivity|]. split; [exact HR2|]. intros _. left. reflexivity. }
  cbn [wins]. rewrite orb_false_r. cbn [fst snd]. eapply wn_seq with (P := fun _ b' _ => b' = b); [apply wn_assert; reflexivity|].
  intros ? b3 G3 H3 ->. cbn [wn snd]. split; [reflexivity|].
  split; [apply (ext_Rng _ _ _ _ H3); apply (ext_Rng _ _ G2); [ext|exact HR2]|]. intros Hr.
  apply (kknown_ext _ _ _ _ H3). destruct s; cbn [obs_of fst snd app].
  - exists (dirty k). split; [right; exists KINITIAL; left; reflexivity|]. rewrite clean_dirty. exact (clean_id _ Hk).
  - destruct Hr as [->| ->].
    + assert (false = true) by (apply Hs; reflexivity). discriminate.
    + exists k. split; [left; left; reflexivity|exact (clean_id _ Hk)].
Qed.

Lemma wn_CASvalue i V nv k G : (clean V = VINITIAL -> ko = Some k) -> k <> KINITIAL -> kknown i k G -> Seen i G ->
  isclean nv -> nv <> VINITIAL -> nv <> VTOMBSTONE -> 
  wn ko (CASvalue C 0 i V nv) (fun r b' G' => Rng 0 i G' /\ ((r = V /\ b' = (clean V =? VINITIAL)%N /\ Full i G') \/
    (r <> V /\ b' = false /\ r <> noval /\ clean r <> VTOMBSTONE /\ In (Saw 0 i CVal r) G'))) false G.
Proof.
  intros Hko Hki HK HS Hc Hi Ht. unfold CASvalue. eapply wn_seq; [apply wn_bounds|]. intros ? b1 G1 H1 [-> HR]. unfold pcas.
  apply wn_bind. eapply wn_seq; [apply wn_pcas_read; exact HR|]. intros ? b2 G2 H2 (-> & _).
  unfold do; cbn [bind wn]. intros [s x] [Hs Hx]. cbn [fst snd] in Hs, Hx. pose proof (ext_Rng _ _ _ _ H2 HR) as HR2.
  assert (HE2 : ext G G2) by ext.
  assert (Hcl : clean (dirty nv) = nv) by (rewrite clean_dirty; exact (clean_id _ Hc)). split.
  { cbn [duty]. split; [reflexivity|]. split; [exact HR2|]. intros _. split; [apply clean_noval; congruence|]. rewrite Hcl.
    split; [exact Ht|]. split; [contradiction|]. intros HV _. split; [reflexivity|]. exists k. split; [exact (Hko HV)|]. split; [exact Hki|].
    exact (kknown_ext _ _ _ _ HE2 HK). }
  cbn [wins fst snd]. rewrite Hcl. replace (nv =? VINITIAL)%N with false by (symmetry; apply N.eqb_neq; exact Hi). cbn [negb orb]. rewrite andb_true_r.
  eapply wn_seq with (P := fun _ b' _ => b' = s && (clean V =? VINITIAL)%N); [apply wn_assert; reflexivity|].
  intros ? b3 G3 H3 ->. cbn [wn snd]. split; [apply (ext_Rng _ _ _ _ H3); apply (ext_Rng _ _ G2); [ext|exact HR2]|].
  destruct s; cbn [obs_of fst snd app andb] in *.
  - left. split; [reflexivity|]. split; [reflexivity|]. apply (vknown_ext _ _ _ _ H3). exists (dirty nv).
    split; [right; exists V; left; reflexivity|]. rewrite Hcl. exact Hi.
  - right. split; [intros ->; assert (false = true) by (apply Hs; reflexivity); discriminate|]. split; [reflexivity|].
    destruct (Hx eq_refl eq_refl HR2) as [Hx1 Hx2]. split; [apply Hx2; exact (vknown_ext _ _ _ _ HE2 HS)|]. split; [exact Hx1|].
    apply (ext_In _ _ _ H3). left. reflexivity.
Qed.

Definition slotQ (k : N) (b : bool) (c : claimed) (b' : bool) (G : list obs) : Prop :=
  b' = b /\
  match c with
  | CRemoved => False
  | CFull => True
  | CSlot i V _ => Rng 0 i G /\ kknown i k G /\ Seen i G /\ isclean V /\ V <> VTOMBSTONE /\ (V <> VINITIAL -> Full i G)
  end.

Lemma wn_claimSlot k nv len b : isclean k -> k <> KINITIAL -> nv <> VTOMBSTONE -> forall n i c G,
  wn ko (claimSlot C n 0 k nv len i c) (slotQ k b) b G.
Proof.
  intros Hkc Hki Hnv. induction n as [|n IH]; intros i c G; cbn [claimSlot]; [exact I|]. cbn zeta.
  eapply wn_seq; [apply wn_cell|]. intros K b1 G1 H1 (-> & HR & (kw & HK & HIk & _) & _).
  eapply wn_seq; [apply wn_cell|]. intros V b2 G2 H2 (-> & HR2 & (vw & HV & HIv & Hvt) & HS). specialize (HS eq_refl). specialize (Hvt eq_refl).
  assert (HVok : forall G', ext G2 G' -> kknown i k G' -> slotQ k b (CSlot i V c) b G').
  { intros G' HE Hk. split; [reflexivity|]. split; [exact (ext_Rng _ _ _ _ HE HR2)|]. split; [exact Hk|]. split; [exact (vknown_ext _ _ _ _ HE HS)|].
    rewrite HV. split; [apply clean_isclean|]. split; [exact Hvt|]. intros Hne. apply (vknown_ext _ _ _ _ HE). exists vw. auto. }
  assert (Hcheck : forall K' G', ext G2 G' -> (K' = k -> kknown i k G') ->
     wn ko (if (K' =? k)%N then Ret (CSlot i V c)
        else if (reprobeLimit len <=? S c)%nat || (K' =? KTOMBSTONE)%N then Ret CFull
        else claimSlot C n 0 k nv len (mask (N.of_nat i + 1) len) (S c)) (slotQ k b) b G').
  { intros K' G' HE Hk. destruct (N.eqb_spec K' k) as [->|Hne]; [cbn [wn]; auto|].
    destruct (_ || _); [split; [reflexivity|exact I]|]. apply IH. }
  change VINITIAL with KINITIAL. destruct (N.eqb_spec K KINITIAL) as [HKi|HKi].
  - destruct (N.eqb_spec nv VTOMBSTONE) as [|_]; [contradiction|].
    eapply wn_seq; [apply wn_CASkey; exact Hkc|]. intros aK b3 G3 H3 (-> & HR3 & Ha). destruct (N.eqb_spec aK KINITIAL) as [->|HaK].
    + unfold do; cbn [bind wn]. intros ? _. split; [exact I|]. rewrite orb_false_r. cbn [obs_of app]. apply HVok; [exact H3|auto].
    + apply Hcheck; [ext|auto].
  - apply Hcheck; [ext|]. intros <-. exists kw. split; [left; exact (ext_In _ _ _ H2 HIk)|auto].
Qed.

(** What one writing call reports. *)
Definition putQ (k ov V : N) (b : bool) (G : list obs) : Prop :=
  (b = true <-> V = VTOMBSTONE) /\ (V <> VINITIAL -> exists i, Rng 0 i G /\ kknown i k G /\ Full i G) /\
  (ov = NO_MATCH_OLD \/ ov = VTOMBSTONE -> V <> VINITIAL) /\ (ov <> NO_MATCH_OLD -> ov <> VTOMBSTONE -> b = false).

Lemma noMatch_initial ov : ov <> NO_MATCH_OLD -> ov <> VTOMBSTONE -> ov <> VINITIAL -> noMatch VINITIAL ov = true.
Proof.
  intros H1 H2 H3. apply N.eqb_neq in H1, H2. assert (H4 : (VINITIAL =? ov)%N = false) by (apply N.eqb_neq; congruence).
  unfold noMatch. rewrite H1, H2, H4, N.eqb_refl. cbn. rewrite orb_true_r. reflexivity.
Qed.
Lemma noMatch_put V ov : ov = NO_MATCH_OLD \/ ov = VTOMBSTONE -> noMatch V ov = true -> V <> VINITIAL.
Proof. intros [->| ->] H ->; vm_compute in H; discriminate. Qed.

Lemma wn_updateLoop fwd i k nv ov : (ov = NO_MATCH_OLD \/ ov = VTOMBSTONE -> ko = Some k) -> k <> KINITIAL -> isclean nv -> nv <> VINITIAL -> nv <> VTOMBSTONE -> ov <> VINITIAL ->
  (forall G, wn ko fwd (putQ k ov) false G) -> forall n V G,
  Rng 0 i G -> kknown i k G -> Seen i G -> V <> noval -> clean V <> VTOMBSTONE -> (clean V <> VINITIAL -> Full i G) ->
  wn ko (updateLoop C n (CASvalue C) fwd 0 i nv ov V) (putQ k ov) false G.
Proof.
  intros Hko Hki Hc Hi Ht Hov Hf. induction n as [|n IH]; intros V G HR HK HS HVn HVt HVf; cbn [updateLoop]; [exact I|].
  assert (HVt' : V <> VTOMBSTONE) by (intros ->; apply HVt; reflexivity).
  assert (HVi : V <> VINITIAL -> clean V <> VINITIAL) by (intros H E; apply H; exact (clean_initial V HVn E)).
  eapply wn_seq with (P := fun _ b' G' => b' = false /\ G' = G); [apply wn_assert; auto|]. intros ? ? ? _ [-> ->].
  destruct (noMatch V ov) eqn:Hm.
  { cbn [wn]. split; [split; [discriminate|contradiction]|]. split.
    { intros H. exists i. auto. }
    split; [intros H; exact (noMatch_put V ov H Hm)|auto]. }
  assert (Hko' : clean V = VINITIAL -> ko = Some k).
  { intros E. rewrite (clean_initial V HVn E) in Hm. apply Hko. destruct (N.eq_dec ov NO_MATCH_OLD); [auto|]. destruct (N.eq_dec ov VTOMBSTONE); [auto|].
    rewrite noMatch_initial in Hm by assumption. discriminate. }
  eapply wn_seq; [apply (wn_CASvalue i V nv k G); assumption|]. intros av b1 G1 H1 (HR1 & [(-> & -> & HF)|(Hne & -> & Hn & Htt & Hin)]).
  - rewrite N.eqb_refl. apply wn_bind. eapply wn_mono with (Q := fun _ b' _ => b' = (clean V =? VINITIAL)%N).
    { unfold countChange, do. repeat (match goal with |- wn _ (if ?x then _ else _) _ _ _ => destruct x end); cbn [bind wn]; try reflexivity;
        intros ? _; (split; [exact I|]); rewrite orb_false_r; reflexivity. }
    intros ? b2 G2 H2 ->. cbn [wn]. replace (ov =? VINITIAL)%N with false by (symmetry; apply N.eqb_neq; exact Hov). cbn [negb].
    rewrite andb_true_r. pose proof (ext_Rng _ _ _ _ H2 HR1) as HR2.
    assert (HE2 : ext G G2) by ext.
    assert (Hex : exists j, Rng 0 j G2 /\ kknown j k G2 /\ Full j G2).
    { exists i. split; [exact HR2|]. split; [exact (kknown_ext _ _ _ _ HE2 HK)|exact (vknown_ext _ _ _ _ H2 HF)]. }
    destruct (N.eqb_spec V VINITIAL) as [->|Hvi].
    + rewrite clean_VI, N.eqb_refl. split; [tauto|]. split; [auto|]. split; [discriminate|].
      intros A B. rewrite (noMatch_initial ov A B Hov) in Hm. discriminate.
    + replace (clean V =? VINITIAL)%N with false by (symmetry; apply N.eqb_neq; auto).
      split; [split; [discriminate|contradiction]|]. auto.
  - destruct (N.eqb_spec av V) as [|_]; [contradiction|]. eapply wn_seq; [apply wn_cell|].
    intros w b2 G2 H2 (-> & HR2 & _ & HS2). destruct (isMarked w MigrationFlag); [apply Hf|].
    assert (HE2 : ext G G2) by ext. apply IH; auto.
    + exact (kknown_ext _ _ _ _ HE2 HK).
    + intros Hx. apply (vknown_ext _ _ G1); [ext|]. exists av. auto.
Qed.

(** In an execution in which the table has no successor, none is ever linked. *)
Lemma wn_resize (Q : nat -> bool -> list obs -> Prop) b G : wn ko (resize C 0) Q b G.
Proof.
  unfold resize, CASNewTable, do; cbn [bind wn]. intros nt Hn. cbn [ans] in Hn. rewrite (Hn eq_refl). split; [exact I|]. cbn [bind wn].
  intros L _. split; [exact I|]. intros sz _. split; [exact I|]. intros nt' Hn'. rewrite (Hn' eq_refl). split; [exact I|]. cbn [bind wn].
  intros f _. split; [exact I|]. intros [x|] _; (split; [exact I|]); cbn [wn]; [|exact I]. cbn [bind wn]. intros cp _. split; [exact I|].
  eapply wn_seq with (P := fun _ _ _ => True); [apply wn_assert; exact I|]. intros ? b1 G1 _ _. cbn [bind wn].
  intros r Hr. destruct (Hr eq_refl eq_refl).
Qed.
Lemma wn_copySlotAndCheck n put i sh (Q : nat -> bool -> list obs -> Prop) b G : wn ko (copySlotAndCheck C n put 0 i sh) Q b G.
Proof.
  unfold copySlotAndCheck, do; cbn [bind wn]. intros nt Hn. rewrite (Hn eq_refl). split; exact I.
Qed.

Lemma wn_putBody n put k nv ov G : (ov = NO_MATCH_OLD \/ ov = VTOMBSTONE -> ko = Some k) -> isclean k -> k <> KINITIAL -> isclean nv -> nv <> VINITIAL -> nv <> VTOMBSTONE -> ov <> VINITIAL ->
  wn ko (putBody C n put (CASvalue C) 0 k nv ov) (putQ k ov) false G.
Proof.
  intros Hko Hkc Hki Hc Hi Ht Hov. unfold putBody.
  do 3 (eapply wn_seq with (P := fun _ b' _ => b' = false); [apply wn_assert; reflexivity|]; intros ? ? ? _ ->).
  unfold do; cbn [bind wn]. intros len _. split; [exact I|]. cbn [wins orb]. 
  eapply wn_seq; [apply (wn_claimSlot k nv len false Hkc Hki Ht)|]. intros c b1 G1 _ [-> Hc1]. destruct c as [|i V rp|]; [contradiction| |].
  - destruct Hc1 as (HR & HK & HS & HVc & HVt & HVf). destruct (N.eqb_spec nv V) as [E|HneV].
    { cbn [wn]. split; [split; [discriminate|contradiction]|]. split; [intros H; exists i; auto|]. split; [congruence|auto]. }
    cbn zeta. set (fwd := bind (copySlotAndCheck C n put 0 i (ov =? VINITIAL)%N) (fun nt => put nt k nv ov)).
    assert (Hfwd : forall G', wn ko fwd (putQ k ov) false G').
    { intros G6. unfold fwd. apply wn_bind. apply wn_copySlotAndCheck. }
    eapply wn_seq with (P := fun _ b' _ => b' = false).
    { destruct (V =? VINITIAL)%N; [|reflexivity]. unfold tableFull, do. destruct (_ <=? _)%nat; [|reflexivity]. cbn [bind wn].
      intros ? _. split; [exact I|]. reflexivity. }
    intros full b2 G2 H2 ->. destruct (full || isMarked V MigrationFlag).
    + apply wn_bind. apply wn_resize.
    + apply wn_updateLoop; auto.
      * exact (ext_Rng _ _ _ _ H2 HR).
      * exact (kknown_ext _ _ _ _ H2 HK).
      * exact (vknown_ext _ _ _ _ H2 HS).
      * apply noval_clean. exact HVc.
      * rewrite (clean_id _ HVc). exact HVt.
      * rewrite (clean_id _ HVc). intros H. exact (vknown_ext _ _ _ _ H2 (HVf H)).
  - apply wn_bind. apply wn_resize.
Qed.

(** Reading calls. *)
Lemma wn_getLoop put rec k len b : forall n i c G, wn ko (getLoop C n put rec 0 k len i c) (fun _ b' _ => b' = b) b G.
Proof.
  induction n as [|n IH]; intros i c G; cbn [getLoop]; [exact I|].
  eapply wn_seq; [apply wn_cell|]. intros K b1 G1 _ (-> & _). eapply wn_seq; [apply wn_cell|]. intros V b2 G2 _ (-> & _).
  destruct (K =? KINITIAL)%N; [reflexivity|]. unfold do; cbn [bind wn]. intros nt Hn. rewrite (Hn eq_refl). split; [exact I|].
  cbn [wins]. rewrite orb_false_r. destruct (K =? k)%N.
  - destruct (negb _); [reflexivity|]. apply wn_bind. apply wn_copySlotAndCheck.
  - destruct (_ || _); [reflexivity|apply IH].
Qed.

Lemma wn_get n k b G : wn ko (get C n k) (fun _ b' _ => b' = b) b G.
Proof.
  unfold get, do; cbn [bind wn]. intros t Ht. cbn [ans] in Ht. subst t. split; [exact I|]. cbn [wins]. rewrite orb_false_r.
  eapply wn_seq with (P := fun _ b' _ => b' = b).
  { destruct n as [|n]; cbn [getImpl]; [exact I|]. unfold do; cbn [bind wn]. intros len _. split; [exact I|]. cbn [wins]. rewrite orb_false_r. apply wn_getLoop. }
  intros V b1 G1 _ ->. eapply wn_seq with (P := fun _ b' _ => b' = b); [apply wn_assert; reflexivity|]. intros ? ? ? _ ->. reflexivity.
Qed.

Lemma wn_pub n k nv ov G : (ov = NO_MATCH_OLD \/ ov = VTOMBSTONE -> ko = Some k) -> isclean k -> k <> KINITIAL -> isclean nv -> nv <> VINITIAL -> nv <> VTOMBSTONE -> ov <> VINITIAL ->
  wn ko (putIfMatchPub C n k nv ov (CASvalue C)) (fun r b G' => exists V, r = reported V /\ putQ k ov V b G') false G.
Proof.
  intros Hko Hkc Hki Hc Hi Ht Hov. unfold putIfMatchPub.
  do 2 (eapply wn_seq with (P := fun _ b' _ => b' = false); [apply wn_assert; reflexivity|]; intros ? ? ? _ ->).
  unfold do; cbn [bind wn]. intros t Ht'. cbn [ans] in Ht'. subst t. split; [exact I|]. cbn [wins orb].
  eapply wn_seq with (P := putQ k ov).
  { destruct n as [|n]; cbn [putIfMatch]; [exact I|]. apply wn_putBody; assumption. }
  intros V b1 G1 _ HQ. eapply wn_seq with (P := fun _ b' G' => b' = b1 /\ G' = G1); [apply wn_assert; auto|]. intros ? ? ? _ [-> ->].
  cbn [wn]. exists V. split; [reflexivity|exact HQ].
Qed.

End Win.
