(** What a call returns, in terms of what it read and wrote, whatever the memory answers.

    [flow] follows a program over all answers its commands may get and records what they told. *)
From Coq Require Import NArith Bool List Lia.
From stdpp Require Import base list relations.
From Verif Require Import Word Bits Prog HashMap Spec Probe TraceSpec.
Import ListNotations.
Open Scope nat_scope.
Open Scope prog_scope.

Inductive obs :=
| Saw (t i : nat) (c : cell) (w : N)       (* the cell holds [w], and the command changed nothing *)
| Did (t i : nat) (c : cell) (e n : N)     (* the cell held [e] and was set to [n] *)
| IsLen (t L : nat)
| IsTop (t : nat)
| Nxt (t : nat) (o : option nat)           (* the successor pointer *)
| Linked (t x : nat).                      (* the successor pointer was set *)

Definition obs_of (c : cmd) : res c -> list obs :=
  match c return res c -> list obs with
  | Load t i c => fun r => [Saw t i c r]
  | Cas t i c e n => fun r => if fst r then [Did t i c e n] else [Saw t i c (snd r)]
  | Len t => fun r => [IsLen t r]
  | LoadTop => fun r => [IsTop r]
  | LoadNew t => fun r => [Nxt t r]
  | CasNew t e n => fun r => if fst r then [Linked t n] else []
  | _ => fun _ => []
  end.

Definition answer (c : cmd) : res c -> Prop :=
  match c return res c -> Prop with
  | Cas t i c e n => fun r => fst r = true <-> snd r = e
  | _ => fun _ => True
  end.

Fixpoint flow {A} (p : prog A) (Q : A -> list obs -> Prop) (G : list obs) : Prop :=
  match p with
  | Ret a => Q a G
  | Err _ => True
  | Vis c k => forall r, answer c r -> flow (k r) Q (obs_of c r ++ G)
  end.

Definition ext (G G' : list obs) : Prop := exists g, G' = g ++ G.
Lemma ext_refl G : ext G G.
Proof. exists []. reflexivity. Qed.
Lemma ext_app g G : ext G (g ++ G).
Proof. exists g. reflexivity. Qed.
Lemma ext_cons e G : ext G (e :: G).
Proof. exists [e]. reflexivity. Qed.
Lemma ext_trans G1 G2 G3 : ext G1 G2 -> ext G2 G3 -> ext G1 G3.
Proof. intros [g ->] [g' ->]. exists (g' ++ g). rewrite app_assoc. reflexivity. Qed.

Lemma flow_mono {A} (p : prog A) (Q Q' : A -> list obs -> Prop) G :
  flow p Q G -> (forall a G', ext G G' -> Q a G' -> Q' a G') -> flow p Q' G.
Proof.
  revert G. induction p as [a|e|c k IH]; intros G; cbn; auto.
  - intros H HQ. apply HQ; [apply ext_refl|exact H].
  - intros H HQ r Hr. apply (IH r); [exact (H r Hr)|]. intros a G' HG. apply HQ.
    exact (ext_trans _ _ _ (ext_app _ _) HG).
Qed.

Lemma flow_bind {A B} (p : prog A) (f : A -> prog B) Q G :
  flow p (fun a G' => flow (f a) Q G') G -> flow (bind p f) Q G.
Proof. revert G. induction p as [a|e|c k IH]; intros G; cbn; auto. Qed.

(** Any program may be run for its answers. *)
Lemma flow_any {A} (p : prog A) (Q : A -> list obs -> Prop) G : (forall a G', ext G G' -> Q a G') -> flow p Q G.
Proof.
  revert G. induction p as [a|e|c k IH]; intros G; cbn; auto using ext_refl.
  intros H r Hr. apply (IH r). intros a G' HG. apply H. exact (ext_trans _ _ _ (ext_app _ _) HG).
Qed.

Lemma flow_seq {A B} (p : prog A) (f : A -> prog B) (P : A -> list obs -> Prop) Q G :
  flow p P G -> (forall a G', ext G G' -> P a G' -> flow (f a) Q G') -> flow (bind p f) Q G.
Proof. intros H1 H2. apply flow_bind. exact (flow_mono _ _ _ _ H1 H2). Qed.

Lemma flow_skip {A B} (p : prog A) (f : A -> prog B) Q G :
  (forall a G', ext G G' -> flow (f a) Q G') -> flow (bind p f) Q G.
Proof. intros H. apply flow_bind. apply flow_any. exact H. Qed.

(** ** Facts about a record, most recent first *)

(** [e] was recorded, and before it [P] held. *)
Definition At (e : obs) (P : list obs -> Prop) (G : list obs) : Prop := exists g1 g2, G = g1 ++ e :: g2 /\ P g2.
Definition Rng (t i : nat) (G : list obs) : Prop := exists L, In (IsLen t L) G /\ i < L.
Definition Keyed (t i : nat) (k : N) (G : list obs) : Prop :=
  (exists w, clean w = k /\ At (Saw t i CKey w) (Rng t i) G) \/ At (Did t i CKey KINITIAL (dirty k)) (Rng t i) G.
(** The table was reached from a top table. *)
Inductive Reach : nat -> list obs -> Prop :=
| reach_top t G : In (IsTop t) G -> Reach t G
| reach_next a b G : Reach a G -> In (Nxt a (Some b)) G -> Reach b G
| reach_linked a b g1 g2 : Reach a g2 -> Reach b (g1 ++ Linked a b :: g2).
Definition Pth (t : nat) (h : N) (len : nat) (k : N) (c : nat) (G : list obs) : Prop :=
  Reach t G /\ At (IsLen t len) (Reach t) G /\
  forall d, d < c -> exists k', (isclean k' /\ k' <> KINITIAL) /\ k' <> k /\ Keyed t (pos h len d) k' G.

Lemma ext_In e G G' : ext G G' -> In e G -> In e G'.
Proof. intros [g ->] H. apply in_or_app. auto. Qed.
Lemma ext_At e P G G' : ext G G' -> At e P G -> At e P G'.
Proof. intros [g ->] (g1 & g2 & -> & H). exists (g ++ g1), g2. rewrite app_assoc. auto. Qed.
Lemma ext_Rng t i G G' : ext G G' -> Rng t i G -> Rng t i G'.
Proof. intros HE (L & H & Hi). exists L. split; [exact (ext_In _ _ _ HE H)|exact Hi]. Qed.
Lemma ext_Keyed t i k G G' : ext G G' -> Keyed t i k G -> Keyed t i k G'.
Proof.
  intros HE [(w & Hw & H)|H]; [left; exists w; split; [exact Hw|]|right]; exact (ext_At _ _ _ _ HE H).
Qed.
Lemma ext_Reach t G G' : ext G G' -> Reach t G -> Reach t G'.
Proof.
  intros [g ->] H. revert g. induction H as [t G H|a b G H IH HN|a b g1 g2 H IH]; intros g.
  - apply reach_top. apply in_or_app. auto.
  - apply (reach_next a); [apply IH|apply in_or_app; auto].
  - rewrite app_assoc. apply reach_linked. exact H.
Qed.
Lemma ext_Pth t h len k c G G' : ext G G' -> Pth t h len k c G -> Pth t h len k c G'.
Proof.
  intros HE (H1 & H2 & H3). split; [exact (ext_Reach _ _ _ HE H1)|]. split; [exact (ext_At _ _ _ _ HE H2)|].
  intros d Hd. destruct (H3 d Hd) as (k' & A & B & D). exists k'. split; [exact A|]. split; [exact B|exact (ext_Keyed _ _ _ _ _ HE D)].
Qed.
Lemma At_here e (P : list obs -> Prop) g : P g -> At e P (e :: g).
Proof. intros H. exists [], g. auto. Qed.

Section Flow.
Context (C : cfg).

Ltac ext := first [ exact (ext_refl _) | assumption
  | match goal with
    | H : ext ?c ?b |- ext ?a ?b => apply (ext_trans a c b); [ext|exact H]
    | |- ext ?a (?e :: ?b) => apply (ext_trans _ b); [ext|apply ext_cons]
    | |- ext ?a (?g ++ ?b) => apply (ext_trans _ b); [ext|apply ext_app]
    end ].

Lemma flow_bounds t i G : flow (bounds C t i) (fun _ G' => Rng t i G') G.
Proof.
  unfold bounds, do; cbn [bind flow]. intros L _. cbn [obs_of app] in *. destruct (Nat.ltb_spec i L) as [H|]; cbn [flow]; [|exact I].
  exists L. split; [left; reflexivity|exact H].
Qed.

Lemma flow_pcas_read t i c G : Rng t i G ->
  flow (pcas_read t i c) (fun V G' => exists w, V = clean w /\ At (Saw t i c w) (fun g => ext G g) G') G.
Proof.
  intros HR. unfold pcas_read, do; cbn [bind flow]. intros w _. cbn [obs_of app].
  apply flow_skip. intros _ G' HE. cbn [flow]. exists w. split; [reflexivity|].
  apply (ext_At _ _ _ _ HE). apply At_here. apply ext_refl.
Qed.

Lemma flow_cell t i c G :
  flow (bounds C t i ;;; pcas_read t i c) (fun V G' => exists w, V = clean w /\ At (Saw t i c w) (fun g => ext G g /\ Rng t i g) G') G.
Proof.
  eapply flow_seq; [apply flow_bounds|]. intros ? G1 H1 HR. cbn beta in HR. eapply flow_mono; [apply flow_pcas_read; exact HR|].
  intros V G2 H2 (w & Hw & g1 & g2 & E & Hg). exists w. split; [exact Hw|]. exists g1, g2. split; [exact E|].
  split; [ext|exact (ext_Rng _ _ _ _ Hg HR)].
Qed.

Lemma At_mono e (P P' : list obs -> Prop) G : At e P G -> (forall g, P g -> P' g) -> At e P' G.
Proof. intros (g1 & g2 & E & H) HP. exists g1, g2. auto. Qed.

Lemma saw_key t i w K B G : K = clean w -> At (Saw t i CKey w) (fun g => ext B g /\ Rng t i g) G -> Keyed t i K G.
Proof. intros -> H. left. exists w. split; [reflexivity|]. apply (At_mono _ _ _ _ H). tauto. Qed.

(** A pcas: a failed one shows a different word. *)
Lemma flow_pcas t i c e n G : 
  flow (r <-- pcas C t i c e n;; Ret (snd r))
    (fun r G' => (r = e /\ At (Did t i c e (dirty n)) (fun g => ext G g) G') \/
                 (r <> e /\ At (Saw t i c r) (fun g => ext G g) G')) G.
Proof.
  unfold pcas. apply flow_bind. apply flow_skip. intros ? G1 H1. unfold do; cbn [bind flow]. intros [b w] Hb. cbn [answer fst snd] in Hb.
  cbn [fst snd obs_of]. apply flow_skip. intros ? G2 H2. cbn [flow snd]. destruct b; cbn [app] in H2.
  - left. split; [reflexivity|]. apply (ext_At _ _ _ _ H2). apply At_here. exact H1.
  - right. assert (w <> e) by (intros ->; assert (false = true) by (apply Hb; reflexivity); discriminate).
    split; [assumption|]. apply (ext_At _ _ _ _ H2). apply At_here. exact H1.
Qed.

Lemma flow_bpcas t i c e n G :
  flow (bounds C t i ;;; r <-- pcas C t i c e n;; Ret (snd r))
    (fun r G' => (r = e /\ At (Did t i c e (dirty n)) (fun g => ext G g /\ Rng t i g) G') \/
                 (r <> e /\ At (Saw t i c r) (fun g => ext G g /\ Rng t i g) G')) G.
Proof.
  eapply flow_seq; [apply flow_bounds|]. intros ? G1 H1 HR. cbn beta in HR. eapply flow_mono; [apply flow_pcas|].
  intros r G2 H2 [[-> H]|[Hr H]]; [left|right]; (split; [auto|]); (apply (At_mono _ _ _ _ H); intros g Hg; split; [ext|exact (ext_Rng _ _ _ _ Hg HR)]).
Qed.

(** ** Successor tables *)

Lemma flow_resize t G : Reach t G -> flow (resize C t) (fun x G' => Reach x G') G.
Proof.
  intros HR. unfold resize, CASNewTable, do; cbn [bind flow]. intros [x|] _; cbn [obs_of app].
  { cbn [flow]. intros L1 _ L2 _. cbn [obs_of app]. apply flow_skip. intros ? G' HE. cbn [flow].
    apply (ext_Reach _ (Nxt t (Some x) :: G)); [ext|]. apply (reach_next t); [|left; reflexivity]. exact (ext_Reach _ _ _ (ext_cons _ _) HR). }
  cbn [flow]. intros L _ sz _ [x|] _; cbn [obs_of app].
  { cbn [flow]. intros L1 _. cbn [obs_of app]. apply flow_skip. intros ? G' HE. cbn [flow].
    eapply ext_Reach; [exact HE|]. apply (reach_next t); [|right; left; reflexivity]. apply (ext_Reach _ G); [ext|exact HR]. }
  cbn [flow]. intros f _ [x|] _; cbn [obs_of app]; cbn [flow]; [|exact I]. intros cp _. cbn [obs_of app].
  apply flow_skip. intros ? G1 H1. cbn [flow]. intros [won o'] _. cbn [fst obs_of].
  assert (HR1 : Reach t G1) by (apply (ext_Reach _ G); [ext|exact HR]).
  apply (flow_seq _ _ (fun x' G' => Reach x' G')).
  { destruct won; cbn [flow app]; [apply (reach_linked t _ []); exact HR1|]. cbn [flow]. intros ? _ [y|] _; cbn [flow obs_of app]; [|exact I].
    apply (reach_next t); [|left; reflexivity]. apply (ext_Reach _ G1); [ext|exact HR1]. }
  intros x' G3 H3 HL. cbn beta in HL. cbn [flow]. intros ? _. cbn [obs_of app]. apply flow_skip. intros ? G4 H4. cbn [flow].
  apply (ext_Reach _ G3); [ext|exact HL].
Qed.

Lemma flow_helpCopy n put x G : flow (helpCopy C n put x) (fun r _ => r = x) G.
Proof.
  unfold helpCopy, do; cbn [bind flow]. intros t0 _ [y|] _; cbn [obs_of app]; [|reflexivity].
  apply flow_skip. intros ? G1 H1. reflexivity.
Qed.

Lemma flow_copySlotAndCheck n put t i sh G : Reach t G -> flow (copySlotAndCheck C n put t i sh) (fun x G' => Reach x G') G.
Proof.
  intros HR. unfold copySlotAndCheck, do; cbn [bind flow]. intros [x|] _; cbn [obs_of app]; [|exact I].
  apply flow_skip. intros b G1 H1. apply flow_skip. intros ? G2 H2.
  assert (HL : forall G', ext G2 G' -> Reach x G').
  { intros G' HE. apply (ext_Reach _ (Nxt t (Some x) :: G)); [ext|]. apply (reach_next t); [|left; reflexivity].
    exact (ext_Reach _ _ _ (ext_cons _ _) HR). }
  destruct sh; cbn [flow]; [apply HL, ext_refl|]. eapply flow_mono; [apply flow_helpCopy|]. intros r G' HE ->. auto.
Qed.

(** ** Probing *)

(** The value of an entry of [k] was read; unless a removal is going on, the key may have been seen later. *)
Definition KV (t i : nat) (k nv w : N) (G : list obs) : Prop :=
  At (Saw t i CVal w) (fun g => Rng t i g /\ Reach t g /\ Keyed t i k g) G \/
  (nv <> VTOMBSTONE /\ Keyed t i k G /\ At (Saw t i CVal w) (fun g => Rng t i g /\ Reach t g) G).
Lemma ext_KV t i k nv w G G' : ext G G' -> KV t i k nv w G -> KV t i k nv w G'.
Proof.
  intros HE [H|(A & B & H)]; [left; exact (ext_At _ _ _ _ HE H)|right].
  split; [exact A|]. split; [exact (ext_Keyed _ _ _ _ _ HE B)|exact (ext_At _ _ _ _ HE H)].
Qed.

Definition claimG (t : nat) (h : N) (len : nat) (k nv : N) (c : claimed) (G : list obs) : Prop :=
  match c with
  | CFull => True
  | CRemoved => nv = VTOMBSTONE /\ exists d w, clean w = KINITIAL /\ At (Saw t (pos h len d) CKey w) (fun g => Rng t (pos h len d) g /\ Pth t h len k d g) G
  | CSlot i V _ => Keyed t i k G /\ exists w, V = clean w /\ KV t i k nv w G
  end.

Lemma flow_claimSlot t h k nv len : isclean k -> forall n c G, Reach t G -> At (IsLen t len) (Reach t) G -> (nv = VTOMBSTONE -> Pth t h len k c G) ->
  flow (claimSlot C n t k nv len (pos h len c) c) (claimG t h len k nv) G.
Proof.
  intros Hkc. induction n as [|n IH]; intros c G HR HL HP; cbn [claimSlot]; [exact I|]. cbn zeta.
  eapply flow_seq; [apply flow_cell|]. intros K G1 H1 (kw & HK & HAk).
  eapply flow_seq; [apply flow_cell|]. intros V G2 H2 (vw & HV & HAv). cbn beta in HK, HV, HAk, HAv.
  assert (HAv' : At (Saw t (pos h len c) CVal vw) (fun g => Rng t (pos h len c) g /\ Reach t g) G2).
  { apply (At_mono _ _ _ _ HAv). intros g [E R]. split; [exact R|]. apply (ext_Reach _ G); [ext|exact HR]. }
  assert (Hcheck : forall K' G', ext G2 G' -> (K' = k -> Keyed t (pos h len c) k G') ->
     (nv = VTOMBSTONE -> K' <> KINITIAL /\ K' = K) ->
     flow (if (K' =? k)%N then Ret (CSlot (pos h len c) V c)
        else if (reprobeLimit len <=? S c)%nat || (K' =? KTOMBSTONE)%N then Ret CFull
        else claimSlot C n t k nv len (mask (N.of_nat (pos h len c) + 1) len) (S c)) (claimG t h len k nv) G').
  { intros K' G' HE Hk Hn. destruct (N.eqb_spec K' k) as [->|Hne].
    - cbn [flow claimG]. split; [auto|]. exists vw. split; [exact HV|]. destruct (N.eq_dec nv VTOMBSTONE) as [E|E].
      + left. apply (ext_At _ _ _ _ HE). apply (At_mono _ _ _ _ HAv). intros g [Eg R]. split; [exact R|].
        split; [apply (ext_Reach _ G); [ext|exact HR]|]. apply (ext_Keyed _ _ _ _ _ Eg). destruct (Hn E) as [_ ->]. exact (saw_key _ _ _ _ _ _ HK HAk).
      + right. split; [exact E|]. split; [auto|exact (ext_At _ _ _ _ HE HAv')].
    - destruct (_ || _); [exact I|]. apply (IH (S c)).
      + apply (ext_Reach _ G); [ext|exact HR].
      + apply (ext_At _ _ G); [ext|exact HL].
      + intros E. destruct (Hn E) as [Hi ->]. pose proof (saw_key _ _ _ _ _ _ HK HAk) as HKd. apply (ext_Keyed _ _ _ _ G') in HKd; [|ext]. destruct (HP E) as (P1 & P2 & P3).
        assert (HGG : ext G G') by ext.
        split; [exact (ext_Reach _ _ _ HGG P1)|]. split; [exact (ext_At _ _ _ _ HGG P2)|].
        intros d Hd. destruct (Nat.eq_dec d c) as [->|].
        * exists K. split; [split; [rewrite HK; apply clean_isclean|exact Hi]|]. auto.
        * destruct (P3 d) as (k' & A & B & D); [lia|]. exists k'. split; [exact A|]. split; [exact B|exact (ext_Keyed _ _ _ _ _ HGG D)]. }
  change VINITIAL with KINITIAL. destruct (N.eqb_spec K KINITIAL) as [HKi|HKi].
  - destruct (N.eqb_spec nv VTOMBSTONE) as [->|Hnv].
    + cbn [flow claimG]. split; [reflexivity|]. exists c, kw. split; [congruence|].
      apply (ext_At _ _ _ _ H2). apply (At_mono _ _ _ _ HAk). intros g [E R]. split; [exact R|]. exact (ext_Pth _ _ _ _ _ _ _ E (HP eq_refl)).
    + unfold CASkey. eapply flow_seq; [apply flow_bpcas|]. intros aK G3 H3 HA. cbn beta in HA.
      destruct (N.eqb_spec aK KINITIAL) as [->|HaK].
      * unfold do; cbn [bind flow]. intros ? _. cbn [obs_of app flow claimG].
        destruct HA as [[_ HA]|[HA _]]; [|congruence]. split.
        -- right. apply (At_mono _ _ _ _ HA). tauto.
        -- exists vw. split; [exact HV|]. right. split; [exact Hnv|]. split; [|exact (ext_At _ _ _ _ H3 HAv')].
           right. apply (At_mono _ _ _ _ HA). tauto.
      * apply Hcheck; [ext| |congruence]. intros ->. destruct HA as [[HA _]|[_ HA]]; [congruence|].
        left. exists k. split; [exact (clean_id _ Hkc)|]. apply (At_mono _ _ _ _ HA). tauto.
  - apply Hcheck; [ext| |].
    + intros <-. apply (ext_Keyed _ _ _ G1); [ext|]. exact (saw_key _ _ _ _ _ _ HK HAk).
    + intros _. split; [exact HKi|reflexivity].
Qed.

(** ** Updating *)

(** What a writing call reports ([r]) and why; [new V x]: it may replace [V] by [x]. *)
Definition putG (h k nv ov : N) (new : N -> N -> Prop) (r : N) (G : list obs) : Prop :=
  (nv = VTOMBSTONE /\ r = VTOMBSTONE /\ exists t len d w, clean w = KINITIAL /\
     At (Saw t (pos h len d) CKey w) (fun g => Rng t (pos h len d) g /\ Pth t h len k d g) G) \/
  (exists t i w, KV t i k nv w G /\ ((r = nv /\ clean w = nv) \/ (noMatch r ov = true /\ r = clean w))) \/
  (exists t i, At (Saw t i CVal r) (fun g => Rng t i g /\ Reach t g /\ Keyed t i k g) G /\ noMatch r ov = true) \/
  (exists t i V x, At (Did t i CVal V (dirty x)) (fun g => Rng t i g /\ Reach t g /\ Keyed t i k g) G /\
     new V x /\ noMatch V ov = false /\ r = if (V =? VINITIAL)%N && negb (ov =? VINITIAL)%N then VTOMBSTONE else V).

Lemma putG_ext h k nv ov new r G G' : ext G G' -> putG h k nv ov new r G -> putG h k nv ov new r G'.
Proof.
  intros HE [(A & B & t & len & d & w & D & E)|[(t & i & w & A & D)|[(t & i & A & B)|(t & i & V & x & A & B)]]].
  - left. split; [exact A|]. split; [exact B|]. exists t, len, d, w. split; [exact D|exact (ext_At _ _ _ _ HE E)].
  - right. left. exists t, i, w. split; [exact (ext_KV _ _ _ _ _ _ _ HE A)|exact D].
  - right. right. left. exists t, i. split; [exact (ext_At _ _ _ _ HE A)|exact B].
  - right. right. right. exists t, i, V, x. split; [exact (ext_At _ _ _ _ HE A)|exact B].
Qed.

Lemma putG_new h k nv ov (new new' : N -> N -> Prop) r G : (forall V x, new V x -> new' V x) ->
  putG h k nv ov new r G -> putG h k nv ov new' r G.
Proof.
  intros Hn [H|[H|[H|(t & i & V & x & A & B & D)]]]; [left; exact H|right; left; exact H|right; right; left; exact H|right; right; right].
  exists t, i, V, x. auto.
Qed.

(** What the function pointer does. *)
Definition casG (CAS : casfun) (nv : N) (new : N -> N -> Prop) : Prop := forall t i V G,
  flow (CAS t i V nv) (fun r G' =>
    (r = V /\ exists x, new V x /\ At (Did t i CVal V (dirty x)) (fun g => ext G g /\ Rng t i g) G') \/
    (r <> V /\ At (Saw t i CVal r) (fun g => ext G g /\ Rng t i g) G')) G.

Lemma casG_value nv (new : N -> N -> Prop) : (forall V, new V nv) -> casG (CASvalue C) nv new.
Proof.
  intros Hn t i V G. eapply flow_mono; [apply flow_bpcas|]. intros r G' HE [[-> H]|H]; [left|right; exact H].
  split; [reflexivity|]. exists nv. auto.
Qed.

Definition incr_of (V x : N) : Prop :=
  x = shl64 (shr64 (if ((V =? VINITIAL) || (V =? VTOMBSTONE))%N then 0%N else V) BITS_MARKED + 1) BITS_MARKED.

Lemma casG_increment nv (new : N -> N -> Prop) : (forall V x, incr_of V x -> new V x) -> casG (increment C) nv new.
Proof.
  intros Hn t i V G. unfold increment. cbn zeta. eapply flow_mono; [apply flow_bpcas|].
  intros r G' HE [[-> H]|H]; [left|right; exact H].
  split; [reflexivity|]. eexists. split; [apply Hn; unfold incr_of; reflexivity|exact H].
Qed.

Lemma flow_updateLoop h t i k nv ov new CAS fwd : casG CAS nv new -> forall n V G w,
  (forall G', ext G G' -> flow fwd (putG h k nv ov new) G') -> Reach t G -> Keyed t i k G ->
  (V = clean w /\ KV t i k nv w G) \/ (V = w /\ At (Saw t i CVal w) (fun g => Rng t i g /\ Reach t g /\ Keyed t i k g) G) ->
  flow (updateLoop C n CAS fwd t i nv ov V) (putG h k nv ov new) G.
Proof.
  intros HC. induction n as [|n IH]; intros V G w Hfwd HR HK HV; cbn [updateLoop]; [exact I|].
  apply flow_skip. intros ? G1 H1. destruct (noMatch V ov) eqn:Hm.
  - cbn [flow]. right. destruct HV as [[-> HV]|[-> HV]].
    + left. exists t, i, w. split; [exact (ext_KV _ _ _ _ _ _ _ H1 HV)|]. auto.
    + right. left. exists t, i. split; [exact (ext_At _ _ _ _ H1 HV)|exact Hm].
  - eapply flow_seq; [apply HC|]. intros av G2 H2 Ha. cbn beta in Ha. destruct (N.eqb_spec av V) as [->|Hne].
    + destruct Ha as [(_ & x & Hx & Ha)|[Ha _]]; [|congruence].
      apply flow_skip. intros ? G3 H3. cbn [flow]. right. right. right. exists t, i, V, x.
      split; [|auto]. apply (ext_At _ _ _ _ H3). apply (At_mono _ _ _ _ Ha). intros g [E R]. split; [exact R|].
      split; [apply (ext_Reach _ G); [ext|exact HR]|apply (ext_Keyed _ _ _ G); [ext|exact HK]].
    + destruct Ha as [[Ha _]|[_ Ha]]; [congruence|].
      apply flow_skip. intros x G3 H3. destruct (isMarked x MigrationFlag); [apply Hfwd; ext|].
      apply (IH av G3 av).
      * intros G' HE. apply Hfwd. ext.
      * apply (ext_Reach _ G); [ext|exact HR].
      * apply (ext_Keyed _ _ _ G); [ext|exact HK].
      * right. split; [reflexivity|]. apply (ext_At _ _ _ _ H3). apply (At_mono _ _ _ _ Ha). intros g [E R]. split; [exact R|].
        split; [apply (ext_Reach _ G); [ext|exact HR]|apply (ext_Keyed _ _ _ G); [ext|exact HK]].
Qed.

Definition recG (h k nv ov : N) (new : N -> N -> Prop) (put : nat -> N -> N -> N -> prog N) : Prop :=
  forall t G, Reach t G -> flow (put t k nv ov) (putG h k nv ov new) G.

Lemma flow_putBody n put CAS t k nv ov new G : isclean k -> recG (hash C k) k nv ov new put -> casG CAS nv new -> Reach t G ->
  flow (putBody C n put CAS t k nv ov) (putG (hash C k) k nv ov new) G.
Proof.
  intros Hk Hput HC HR. unfold putBody. do 3 (apply flow_skip; intros ? ? ?).
  unfold do; cbn [bind flow]. intros len _. cbn [obs_of app]. set (G1 := IsLen t len :: _).
  assert (HG1 : ext G G1) by (unfold G1; ext).
  assert (HL1 : At (IsLen t len) (Reach t) G1) by (apply At_here; apply (ext_Reach _ G); [ext|exact HR]).
  clearbody G1. pose proof (ext_Reach _ _ _ HG1 HR) as HR1.
  eapply flow_seq.
  { apply (flow_claimSlot t (hash C k) k nv len Hk n 0 G1 HR1 HL1). intros _. split; [exact HR1|]. split; [exact HL1|]. intros d Hd. lia. }
  intros c G2 H2 Hc. cbn beta in Hc.
  assert (HR2 : Reach t G2) by (apply (ext_Reach _ G1); [ext|exact HR1]).
  destruct c as [|i V rp|]; cbn [claimG] in Hc.
  - destruct Hc as (-> & d & w & Hw & HA). cbn [flow]. left. split; [reflexivity|]. split; [reflexivity|]. exists t, len, d, w. auto.
  - destruct Hc as (HKd & w & HV & HA). destruct (N.eqb_spec nv V) as [HeqV|HneV].
    { cbn [flow]. right. left. exists t, i, w. split; [exact HA|]. left. split; congruence. }
    cbn zeta. set (fwd := bind (copySlotAndCheck C n put t i (ov =? VINITIAL)%N) (fun nt => put nt k nv ov)).
    assert (Hfwd : forall G', ext G2 G' -> flow fwd (putG (hash C k) k nv ov new) G').
    { intros G6 HE. unfold fwd. eapply flow_seq; [apply flow_copySlotAndCheck; exact (ext_Reach _ _ _ HE HR2)|]. intros nt G3 H3 HLk. cbn beta in HLk.
      apply Hput. exact HLk. }
    apply flow_skip. intros full G3 H3. destruct (full || isMarked V MigrationFlag).
    + apply flow_skip. intros ? G4 H4. apply Hfwd. ext.
    + apply (flow_updateLoop (hash C k) t i k nv ov new CAS fwd HC n V G3 w).
      * intros G6 HE. apply Hfwd. ext.
      * apply (ext_Reach _ G2); [ext|exact HR2].
      * exact (ext_Keyed _ _ _ _ _ H3 HKd).
      * left. split; [exact HV|exact (ext_KV _ _ _ _ _ _ _ H3 HA)].
  - eapply flow_seq; [apply flow_resize; exact HR2|]. intros nt G3 H3 HLk. cbn beta in HLk.
    apply flow_skip. intros ? G4 H4. apply Hput. apply (ext_Reach _ G3); [ext|exact HLk].
Qed.

Lemma flow_putIfMatch k nv ov (new : N -> N -> Prop) : isclean k -> (forall V, new V nv) -> forall n CAS t G, casG CAS nv new -> Reach t G ->
  flow (putIfMatch C n CAS t k nv ov) (putG (hash C k) k nv ov new) G.
Proof.
  intros Hk Hn. induction n as [|n IH]; intros CAS t G HC HR; cbn [putIfMatch]; [exact I|].
  apply flow_putBody; auto. intros t' G' HR'. apply IH; [|exact HR']. apply casG_value. exact Hn.
Qed.

(** ** get *)

Definition getG (h k r : N) (G : list obs) : Prop := exists t len c,
  (exists w, At (Saw t (pos h len c) CVal w) (fun g => Pth t h len k c g /\ Keyed t (pos h len c) k g /\ Rng t (pos h len c) g) G /\
     isMarked (clean w) MigrationFlag = false /\ r = reported (clean w)) \/
  (exists w, At (Saw t (pos h len c) CKey w) (fun g => Pth t h len k c g /\ Rng t (pos h len c) g) G /\ clean w = KINITIAL /\ r = NOTFOUND) \/
  (At (Nxt t None) (fun g => Pth t h len k (S c) g /\ (reprobeLimit len <= S c \/ Keyed t (pos h len c) KTOMBSTONE g)) G /\ r = NOTFOUND).

Lemma flow_getLoop h put rec t k len : (forall x G, Reach x G -> flow (rec x) (getG h k) G) ->
  forall n c G, Pth t h len k c G -> flow (getLoop C n put rec t k len (pos h len c) c) (getG h k) G.
Proof.
  intros Hrec. induction n as [|n IH]; intros c G HP; cbn [getLoop]; [exact I|].
  eapply flow_seq; [apply flow_cell|]. intros K G1 H1 (kw & HK & HAk).
  eapply flow_seq; [apply flow_cell|]. intros V G2 H2 (vw & HV & HAv). cbn beta in HK, HV, HAk, HAv.
  destruct (N.eqb_spec K KINITIAL) as [HKi|HKi].
  { cbn [flow]. exists t, len, c. right. left. exists kw. split; [|split; [congruence|reflexivity]].
    apply (ext_At _ _ _ _ H2). apply (At_mono _ _ _ _ HAk). intros g [E R]. split; [exact (ext_Pth _ _ _ _ _ _ _ E HP)|exact R]. }
  unfold do; cbn [bind flow]. intros nx _. cbn [obs_of app].
  pose proof (saw_key _ _ _ _ _ _ HK HAk) as HKd1. set (G3 := Nxt t nx :: G2).
  assert (HG3 : ext G G3) by (unfold G3; ext). assert (HR3 : Reach t G3) by (apply (ext_Reach _ _ _ HG3); apply HP).
  destruct (N.eqb_spec K k) as [->|Hne].
  - destruct (isMarked V MigrationFlag) eqn:HM; cbn [negb].
    + eapply flow_seq; [apply flow_copySlotAndCheck; exact HR3|]. intros x G4 H4 HLk. cbn beta in HLk. apply Hrec. exact HLk.
    + cbn [flow]. exists t, len, c. left. exists vw. split; [|split; [congruence|unfold reported; rewrite HV; reflexivity]].
      apply (ext_At _ _ G2); [unfold G3; ext|]. apply (At_mono _ _ _ _ HAv). intros g [E R].
      split; [apply (ext_Pth _ _ _ _ _ G); [ext|exact HP]|]. split; [exact (ext_Keyed _ _ _ _ _ E HKd1)|exact R].
  - assert (HP2 : Pth t h len k (S c) G2).
    { assert (HG2 : ext G G2) by ext. destruct HP as (P1 & P2 & P3). split; [exact (ext_Reach _ _ _ HG2 P1)|].
      split; [exact (ext_At _ _ _ _ HG2 P2)|]. intros d Hd. destruct (Nat.eq_dec d c) as [->|].
      - exists K. split; [split; [rewrite HK; apply clean_isclean|exact HKi]|]. split; [exact Hne|exact (ext_Keyed _ _ _ _ _ H2 HKd1)].
      - destruct (P3 d) as (k' & A & B & D); [lia|]. exists k'. split; [exact A|]. split; [exact B|exact (ext_Keyed _ _ _ _ _ HG2 D)]. }
    destruct ((reprobeLimit len <=? S c) || (K =? KTOMBSTONE)%N) eqn:Hlim.
    + destruct nx as [x|].
      * eapply flow_seq; [apply flow_helpCopy|]. intros x' G4 H4 Hx. cbn beta in Hx. subst x'. apply Hrec.
        apply (ext_Reach _ _ _ H4). apply (reach_next t); [exact HR3|]. left. reflexivity.
      * cbn [flow]. exists t, len, c. right. right. split; [|reflexivity]. apply At_here. split; [exact HP2|].
        apply orb_true_iff in Hlim as [Hl|Hl]; [left; apply Nat.leb_le; exact Hl|right].
        apply N.eqb_eq in Hl. rewrite <- Hl. exact (ext_Keyed _ _ _ _ _ H2 HKd1).
    + apply (IH (S c)). apply (ext_Pth _ _ _ _ _ G2); [unfold G3; ext|exact HP2].
Qed.

Lemma flow_getImpl k h : forall n t G, Reach t G -> flow (getImpl C n t k h) (getG (sext32 h) k) G.
Proof.
  induction n as [|n IH]; intros t G HR; cbn [getImpl]; [exact I|]. unfold do; cbn [bind flow]. intros len _. cbn [obs_of app].
  apply (flow_getLoop (sext32 h) _ _ t k len (fun x G' HR' => IH x G' HR') n 0).
  split; [apply (ext_Reach _ G); [ext|exact HR]|]. split; [apply At_here; exact HR|]. intros d Hd. lia.
Qed.

Lemma getG_ext h k r G G' : ext G G' -> getG h k r G -> getG h k r G'.
Proof.
  intros HE (t & len & c & [(w & A & B)|[(w & A & B)|[A B]]]); exists t, len, c; [left|right; left|right; right];
    try (exists w); (split; [exact (ext_At _ _ _ _ HE A)|exact B]).
Qed.

Lemma flow_get n k G : flow (get C n k) (getG (sext32 (hash C k)) k) G.
Proof.
  unfold get, do; cbn [bind flow]. intros t _. cbn [obs_of app]. eapply flow_seq.
  { apply flow_getImpl. apply reach_top. left. reflexivity. }
  intros V G1 H1 HG. cbn beta in HG. apply flow_skip. intros ? G2 H2. cbn [flow]. exact (getG_ext _ _ _ _ _ H2 HG).
Qed.

(** ** The API *)

Lemma flow_pub n CAS k nv ov (new : N -> N -> Prop) G : isclean k -> (forall V, new V nv) -> casG CAS nv new ->
  flow (putIfMatchPub C n k nv ov CAS) (fun r G' => exists x, r = reported x /\ putG (hash C k) k nv ov new x G') G.
Proof.
  intros Hk Hn HC. unfold putIfMatchPub. apply flow_skip. intros ? G1 H1. apply flow_skip. intros ? G2 H2.
  unfold do; cbn [bind flow]. intros t _. cbn [obs_of app]. eapply flow_seq.
  { apply flow_putIfMatch with (new := new); auto. apply reach_top. left. reflexivity. }
  intros V G3 H3 HG. cbn beta in HG. apply flow_skip. intros ? G4 H4. cbn [flow]. exists V.
  split; [reflexivity|exact (putG_ext _ _ _ _ _ _ _ _ H4 HG)].
Qed.

Definition is_new (nv V x : N) : Prop := x = nv.

(** What the record of a finished call explains. *)
Definition opG (o : op) (r : rsp) (G : list obs) : Prop :=
  let pub k nv ov new x := exists y, x = reported y /\ putG (hash C k) k nv ov new y G in
  match o, r with
  | OGet k, RVal v => getG (sext32 (hash C k)) k v G
  | OContains k, RBool b => exists v, getG (sext32 (hash C k)) k v G /\ b = negb (v =? NOTFOUND)%N
  | OPut k v, RVal x => pub k v NO_MATCH_OLD (is_new v) x
  | OPutIfAbsent k v, RVal x => pub k v VTOMBSTONE (is_new v) x
  | ORemove k, RBool b => exists x, pub k VTOMBSTONE NO_MATCH_OLD (is_new VTOMBSTONE) x /\ b = negb (x =? 0)%N
  | ORemoveVal k v, RBool b => exists x, pub k VTOMBSTONE v (is_new VTOMBSTONE) x /\ b = (x =? v)%N
  | OReplace k old v, RBool b => exists x, pub k v old (is_new v) x /\ b = (x =? old)%N
  | OIncrement k, RVal x => pub k INCREMENT_ARG NO_MATCH_OLD (fun V x => x = INCREMENT_ARG \/ incr_of V x) x
  | OSize, _ => True
  | _, _ => False
  end.

Theorem flow_op n o G : legal_op o -> flow (op_prog C n o) (opG o) G.
Proof.
  intros Hl.
  assert (Hpub : forall k nv ov, isclean k -> forall G0, flow (putIfMatchPub C n k nv ov (CASvalue C))
     (fun r G' => exists x, r = reported x /\ putG (hash C k) k nv ov (is_new nv) x G') G0).
  { intros k nv ov Hk G0. apply flow_pub; auto; [intros; reflexivity|]. apply casG_value. intros; reflexivity. }
  destruct o as [k|k|k v|k v|k|k v|k ov v|k|]; cbn [op_prog legal_op] in *.
  - eapply flow_seq; [apply flow_get|]. intros r G1 H1 HG. exact HG.
  - unfold containsKey. apply flow_bind. eapply flow_seq; [apply flow_get|]. intros r G1 H1 HG. cbn [flow opG]. exists r. split; [exact HG|reflexivity].
  - unfold put. eapply flow_seq; [apply Hpub; apply Hl|]. intros r G1 H1 HG. exact HG.
  - unfold putIfAbsent. eapply flow_seq; [apply Hpub; apply Hl|]. intros r G1 H1 HG. exact HG.
  - unfold remove. apply flow_bind. eapply flow_seq; [apply Hpub; apply Hl|]. intros r G1 H1 HG. cbn [flow opG]. exists r. split; [exact HG|reflexivity].
  - unfold removeVal. apply flow_bind. eapply flow_seq; [apply Hpub; apply Hl|]. intros r G1 H1 HG. cbn [flow opG]. exists r. split; [exact HG|reflexivity].
  - unfold replace. apply flow_bind. eapply flow_seq; [apply Hpub; apply Hl|]. intros r G1 H1 HG. cbn [flow opG]. exists r. split; [exact HG|reflexivity].
  - unfold incrementOp, update. eapply flow_seq.
    { apply (flow_pub n (increment C) k INCREMENT_ARG NO_MATCH_OLD (fun V x => x = INCREMENT_ARG \/ incr_of V x)).
      - apply Hl.
      - auto.
      - apply casG_increment. auto. }
    intros r G1 H1 HG. exact HG.
  - apply flow_skip. intros r G1 H1. exact I.
Qed.

End Flow.
