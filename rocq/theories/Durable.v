(** Single-threaded executions, step by step: what a crash can find of each entry.  [good] holds after every
    single command, also in the middle of a call. *)
From Coq Require Import NArith Bool List Lia Arith.
From stdpp Require Import base list.
From Verif Require Import Word Bits Prog HashMap Spec ConcSpec ConcInv Probe SeqCopy.
Import ListNotations.
Open Scope nat_scope.
Open Scope prog_scope.

Notation MIG := MigrationFlag.

(** The word in one cell of version [v]. *)
Definition chist (T : table) (v i : nat) (c : cell) : option N := get_cell c <$> hist_entry T v i.

Record dur (ppl : nat) (T : table) : Prop := mkDur {
  d_len : length (t_pairs T) = t_len T;
  d_vlen : Forall (fun ps => length ps = t_len T) (versions T);
  d_plen : length (t_pers T) = t_len T;
  d_pers : Forall (fun b => b <= length (t_past T)) (t_pers T);
  (* the current word has been there since version [a]; everything between what is known to be written back and
     [a] is the word before; and a word without the unpersisted mark is written back *)
  d_cell : forall i c b w, t_pers T !! (i / ppl) = Some b -> chist T (length (t_past T)) i c = Some w ->
    exists a, a <= length (t_past T) /\
      (forall v x, a <= v -> chist T v i c = Some x -> clean x = clean w) /\
      (forall v x o, b <= v -> v < a -> chist T v i c = Some x -> chist T (a - 1) i c = Some o -> clean x = clean o) /\
      (isclean w -> forall v x, b <= v -> chist T v i c = Some x -> clean x = clean w)
}.

Lemma chist_cur T i c : chist T (length (t_past T)) i c = get_cell c <$> (t_pairs T !! i).
Proof. unfold chist, hist_entry. rewrite versions_last. reflexivity. Qed.

Lemma chist_lt T v i c x : chist T v i c = Some x -> v <= length (t_past T).
Proof.
  unfold chist, hist_entry. destruct (versions T !! v) eqn:E; [|discriminate]. intros _.
  apply lookup_lt_Some in E. rewrite versions_len in E. lia.
Qed.

Lemma chist_write_old T i c n v i' c' : v <= length (t_past T) -> chist (write_cell i c n T) v i' c' = chist T v i' c'.
Proof.
  intros H. unfold chist, hist_entry. rewrite versions_write, lookup_app_l; [reflexivity|]. rewrite versions_len. lia.
Qed.

Lemma get_set_same c n p : get_cell c (set_cell c n p) = n.
Proof. destruct c; reflexivity. Qed.
Lemma get_set_other c c' n p : c <> c' -> get_cell c' (set_cell c n p) = get_cell c' p.
Proof. destruct c, c'; congruence || reflexivity. Qed.

Lemma chist_write_new T i c n i' c' : chist (write_cell i c n T) (S (length (t_past T))) i' c' =
  if decide (i = i' /\ c = c') then (fun _ => n) <$> (t_pairs T !! i) else get_cell c' <$> (t_pairs T !! i').
Proof.
  change (S (length (t_past T))) with (length (t_past (write_cell i c n T))). rewrite chist_cur.
  change (t_pairs (write_cell i c n T)) with (alter (set_cell c n) i (t_pairs T)).
  destruct (decide (i = i' /\ c = c')) as [(<- & <-)|Hne].
  - rewrite list_lookup_alter. destruct (t_pairs T !! i); [|reflexivity]. cbn. rewrite get_set_same. reflexivity.
  - destruct (decide (i = i')) as [<-|Hi].
    + rewrite list_lookup_alter. destruct (t_pairs T !! i); [|reflexivity]. cbn. rewrite get_set_other; [reflexivity|]. intros ->. auto.
    + rewrite list_lookup_alter_ne by exact Hi. reflexivity.
Qed.

(** Writing a cell: either the same word again with everything before it written back, or a marked word over
    one without the mark. *)
Lemma dur_write ppl T i c n : dur ppl T ->
  (forall w b, get_cell c <$> (t_pairs T !! i) = Some w -> t_pers T !! (i / ppl) = Some b ->
     (clean n = clean w /\ b = length (t_past T)) \/ (isclean w /\ isMarked n DirtyFlag = true)) ->
  dur ppl (write_cell i c n T).
Proof.
  intros [D1 D2 D3 D4 D5] Hw.
  assert (HL : length (alter (set_cell c n) i (t_pairs T)) = t_len T) by (rewrite alter_length; exact D1).
  constructor; cbn [write_cell set_pairs t_pairs t_len t_pers t_past length].
  - exact HL.
  - rewrite versions_write. apply Forall_app. split; [exact D2|]. constructor; [exact HL|constructor].
  - exact D3.
  - eapply Forall_impl; [exact D4|]. intros b Hb. cbv beta in Hb. lia.
  - intros i' c' b w Hb Hcur. change (mkTable _ _ _ _ _ _ _ _ _ _) with (write_cell i c n T) in *.
    rewrite chist_write_new in Hcur.
    assert (Hnew : forall v x, length (t_past T) < v -> chist (write_cell i c n T) v i' c' = Some x -> x = w).
    { intros v x Hv Hx. pose proof (chist_lt _ _ _ _ _ Hx) as Hle. cbn [write_cell set_pairs t_past length] in Hle.
      assert (v = S (length (t_past T))) as -> by lia. rewrite chist_write_new in Hx. congruence. }
    destruct (decide (i = i' /\ c = c')) as [(<- & <-)|Hne].
    + destruct (t_pairs T !! i) as [p|] eqn:Ep; [|discriminate]. cbn in Hcur. injection Hcur as <-.
      assert (Hc0 : chist T (length (t_past T)) i c = Some (get_cell c p)) by (rewrite chist_cur, Ep; reflexivity).
      destruct (D5 i c b _ Hb Hc0) as (a & A1 & A2 & A3 & A4).
      destruct (Hw _ _ eq_refl Hb) as [(W1 & W2)|(W1 & W2)].
      * exists a. split; [lia|]. split; [|split].
        -- intros v x Hv Hx. destruct (Nat.le_gt_cases v (length (t_past T))) as [Hl|Hl]; [|now rewrite (Hnew v x Hl Hx)].
           rewrite chist_write_old in Hx by exact Hl. rewrite W1. exact (A2 v x Hv Hx).
        -- intros v x o Hbv Hva. lia.
        -- intros _ v x Hv Hx. destruct (Nat.le_gt_cases v (length (t_past T))) as [Hl|Hl]; [|now rewrite (Hnew v x Hl Hx)].
           rewrite chist_write_old in Hx by exact Hl. rewrite W1. apply (A2 v x); [lia|exact Hx].
      * exists (S (length (t_past T))). split; [lia|]. split; [|split].
        -- intros v x Hv Hx. now rewrite (Hnew v x Hv Hx).
        -- intros v x o Hbv Hva Hx Ho. rewrite chist_write_old in Hx by lia. rewrite chist_write_old in Ho by lia.
           replace (S (length (t_past T)) - 1) with (length (t_past T)) in Ho by lia. rewrite Hc0 in Ho. injection Ho as <-.
           exact (A4 W1 v x Hbv Hx).
        -- intros Hn. unfold isclean in Hn. congruence.
    + assert (Hc0 : chist T (length (t_past T)) i' c' = Some w) by (rewrite chist_cur; exact Hcur).
      destruct (D5 i' c' b w Hb Hc0) as (a & A1 & A2 & A3 & A4). exists a. split; [lia|]. split; [|split].
      * intros v x Hv Hx. destruct (Nat.le_gt_cases v (length (t_past T))) as [Hl|Hl]; [|now rewrite (Hnew v x Hl Hx)].
        rewrite chist_write_old in Hx by exact Hl. exact (A2 v x Hv Hx).
      * intros v x o Hbv Hva Hx Ho. rewrite chist_write_old in Hx by lia. rewrite chist_write_old in Ho by lia. exact (A3 v x o Hbv Hva Hx Ho).
      * intros Hcl v x Hv Hx. destruct (Nat.le_gt_cases v (length (t_past T))) as [Hl|Hl]; [|now rewrite (Hnew v x Hl Hx)].
        rewrite chist_write_old in Hx by exact Hl. exact (A4 Hcl v x Hv Hx).
Qed.

(** Anything that leaves the contents alone and only raises what is written back. *)
Lemma dur_same ppl T T' : t_len T' = t_len T -> t_pairs T' = t_pairs T -> t_past T' = t_past T ->
  Forall2 Peano.le (t_pers T) (t_pers T') -> Forall (fun b => b <= length (t_past T)) (t_pers T') ->
  dur ppl T -> dur ppl T'.
Proof.
  intros E1 E2 E3 HP HB [D1 D2 D3 D4 D5].
  assert (EV : versions T' = versions T) by (unfold versions; rewrite E2, E3; reflexivity).
  assert (EC : forall v i c, chist T' v i c = chist T v i c) by (intros; unfold chist, hist_entry; rewrite EV; reflexivity).
  constructor.
  - congruence.
  - rewrite EV, E1. exact D2.
  - rewrite <- (Forall2_length _ _ _ HP). congruence.
  - rewrite E3. exact HB.
  - intros i c b' w Hb' Hcur. rewrite E3, EC in Hcur.
    destruct (Forall2_lookup_r _ _ _ _ _ HP Hb') as (b & Hb & Hle).
    destruct (D5 i c b w Hb Hcur) as (a & A1 & A2 & A3 & A4). exists a. rewrite E3. split; [exact A1|]. split; [|split].
    + intros v x Hv. rewrite EC. exact (A2 v x Hv).
    + intros v x o Hv Hva. rewrite !EC. apply A3; [lia|exact Hva].
    + intros Hcl v x Hv. rewrite EC. apply A4; [exact Hcl|lia].
Qed.

(** A table with a single version. *)
Lemma dur_single ppl T : t_past T = [] -> length (t_pairs T) = t_len T -> t_pers T = replicate (t_len T) 0 -> dur ppl T.
Proof.
  intros E1 E2 E3. constructor; auto.
  - unfold versions. rewrite E1. cbn. constructor; [exact E2|constructor].
  - rewrite E3. apply replicate_length.
  - rewrite E3. apply Forall_replicate. lia.
  - intros i c b w Hb Hcur. exists 0. rewrite E1. cbn [length]. rewrite E1 in Hcur. cbn [length] in Hcur.
    assert (H : forall v x, chist T v i c = Some x -> x = w).
    { intros v x Hx. pose proof (chist_lt _ _ _ _ _ Hx) as Hl. rewrite E1 in Hl. cbn in Hl.
      assert (v = 0) as -> by lia. congruence. }
    split; [lia|]. split; [intros v x _ Hx; now rewrite (H v x Hx)|]. split; [intros; lia|].
    intros _ v x _ Hx. now rewrite (H v x Hx).
Qed.

(** ** Where the keys of the first table are *)

Section Keys.
Context (C : cfg).

(** The first [d] positions visited for [k] hold other keys, all written back. *)
Definition passed (T : table) (k : N) (d : nat) : Prop := forall d', d' < d ->
  exists q, t_pairs T !! pos (hash C k) (t_len T) d' = Some q /\
    isclean (fst q) /\ fst q <> KINITIAL /\ fst q <> k /\ fst q <> KTOMBSTONE.

Definition placed (T : table) : Prop := forall i q, t_pairs T !! i = Some q ->
  clean (fst q) <> KINITIAL -> clean (fst q) <> KTOMBSTONE ->
  exists d, d < reprobeLimit (t_len T) /\ i = pos (hash C (clean (fst q))) (t_len T) d /\ passed T (clean (fst q)) d.

(** Without a successor nothing is being migrated. *)
Definition unfrozen (T : table) : Prop := t_new T = None -> forall i q, t_pairs T !! i = Some q ->
  isMarked (snd q) MIG = false /\ clean (fst q) <> KTOMBSTONE.
End Keys.

(** ** The relation between two moments *)

Definition text (T T' : table) : Prop :=
  t_len T' = t_len T /\
  (exists e, versions T' = versions T ++ e) /\
  Forall2 Peano.le (t_pers T) (t_pers T') /\
  (forall x, t_new T = Some x -> t_new T' = Some x) /\
  (forall i q, t_pairs T !! i = Some q -> exists q', t_pairs T' !! i = Some q' /\
     (clean (fst q) <> KINITIAL -> clean (fst q') = clean (fst q) /\ (isclean (fst q) -> fst q' = fst q))).

Definition ext (s s' : state) : Prop := st_ppl s' = st_ppl s /\
  forall t T, st_tabs s !! t = Some T -> exists T', st_tabs s' !! t = Some T' /\ text T T'.

Lemma text_refl T : text T T.
Proof.
  split; [reflexivity|]. split; [exists []; now rewrite app_nil_r|]. split; [apply Forall2_le_refl|]. split; [auto|].
  intros i q Hq. exists q. auto.
Qed.
Lemma text_trans T1 T2 T3 : text T1 T2 -> text T2 T3 -> text T1 T3.
Proof.
  intros (A1 & (e1 & A2) & A3 & A4 & A5) (B1 & (e2 & B2) & B3 & B4 & B5).
  split; [congruence|]. split; [exists (e1 ++ e2); rewrite B2, A2, app_assoc; reflexivity|].
  split; [exact (Forall2_le_trans _ _ _ A3 B3)|]. split; [auto|].
  intros i q Hq. destruct (A5 i q Hq) as (q2 & H2 & K2). destruct (B5 i q2 H2) as (q3 & H3 & K3). exists q3. split; [exact H3|].
  intros Hn. destruct (K2 Hn) as (E1 & E2). rewrite <- E1 in Hn. destruct (K3 Hn) as (E3 & E4). split; [congruence|].
  intros Hc. pose proof (E2 Hc) as E5. rewrite <- E5 in Hc |- *. exact (E4 Hc).
Qed.
Lemma ext_refl s : ext s s.
Proof. split; [reflexivity|]. intros t T HT. exists T. split; [exact HT|apply text_refl]. Qed.
Lemma ext_trans s1 s2 s3 : ext s1 s2 -> ext s2 s3 -> ext s1 s3.
Proof.
  intros (A1 & A2) (B1 & B2). split; [congruence|]. intros t T HT. destruct (A2 t T HT) as (T2 & H2 & R2).
  destruct (B2 t T2 H2) as (T3 & H3 & R3). exists T3. split; [exact H3|exact (text_trans _ _ _ R2 R3)].
Qed.

Section Steps.
Context (C : cfg) (F : Prop).   (* [F]: the first table was created, not opened *)

Definition good (s : state) : Prop :=
  (forall t T, st_tabs s !! t = Some T -> dur (st_ppl s) T) /\
  (forall t T x, st_tabs s !! t = Some T -> t_new T = Some x -> 0 < x) /\
  (F -> forall T, st_tabs s !! 0 = Some T -> placed C T /\ unfrozen T) /\
  0 < length (st_tabs s).

(** Every command of [p], run alone, keeps [good] and moves along [ext]; if [p] returns then with [Q]. *)
Fixpoint sf {A} (p : prog A) (Q : A -> state -> Prop) (s : state) : Prop :=
  match p with
  | Ret a => Q a s
  | Err _ => True
  | Vis c k => let '(r, s') := exec c s in good s' /\ ext s s' /\ sf (k r) Q s'
  end.

Lemma sf_bind {A B} (p : prog A) (f : A -> prog B) (Q : B -> state -> Prop) s :
  sf p (fun a s' => sf (f a) Q s') s -> sf (bind p f) Q s.
Proof.
  revert s. induction p as [a|e|c k IH]; intros s; cbn; auto. destruct (exec c s) as [r s']. intros (H1 & H2 & H3). auto.
Qed.

Lemma sf_mono {A} (p : prog A) (Q Q' : A -> state -> Prop) s : good s -> sf p Q s ->
  (forall a s', good s' -> ext s s' -> Q a s' -> Q' a s') -> sf p Q' s.
Proof.
  revert s. induction p as [a|e|c k IH]; intros s Hg; cbn; auto.
  - intros H HQ. apply HQ; auto using ext_refl.
  - destruct (exec c s) as [r s']. intros (H1 & H2 & H3) HQ. split; [exact H1|]. split; [exact H2|]. apply IH; auto.
    intros a s2 G2 E2. apply HQ; [exact G2|]. exact (ext_trans _ _ _ H2 E2).
Qed.

Lemma sf_seq {A B} (p : prog A) (f : A -> prog B) (P : A -> state -> Prop) (Q : B -> state -> Prop) s : good s ->
  sf p P s -> (forall a s', good s' -> ext s s' -> P a s' -> sf (f a) Q s') -> sf (bind p f) Q s.
Proof. intros Hg H1 H2. apply sf_bind. exact (sf_mono _ _ _ _ Hg H1 H2). Qed.

(** Commands that do not change the memory. *)
Lemma sf_read {A} (c : cmd) (k : res c -> prog A) (Q : A -> state -> Prop) s : good s -> snd (exec c s) = s ->
  sf (k (fst (exec c s))) Q s -> sf (Vis c k) Q s.
Proof. intros Hg Hs H. cbn. destruct (exec c s) as [r s']. cbn in Hs, H. subst s'. auto using ext_refl. Qed.

(** Commands that do. *)
Lemma sf_cmd {A} (c : cmd) (k : res c -> prog A) (Q : A -> state -> Prop) s :
  good (snd (exec c s)) /\ ext s (snd (exec c s)) ->
  (good (snd (exec c s)) -> ext s (snd (exec c s)) -> sf (k (fst (exec c s))) Q (snd (exec c s))) -> sf (Vis c k) Q s.
Proof. cbn. destruct (exec c s) as [r s']. cbn. intros (H1 & H2) H. auto. Qed.

(** Replacing one table. *)
Lemma good_with s t f : good s ->
  (forall T, st_tabs s !! t = Some T -> dur (st_ppl s) (f T) /\ text T (f T) /\ (forall x, t_new (f T) = Some x -> 0 < x) /\
     (F -> t = 0 -> placed C (f T) /\ unfrozen (f T))) ->
  good (with_tab t f s) /\ ext s (with_tab t f s).
Proof.
  intros (G1 & G2 & G3 & G4) Hf.
  assert (Hl : forall t' T', st_tabs (with_tab t f s) !! t' = Some T' ->
    (t' <> t /\ st_tabs s !! t' = Some T') \/ (t' = t /\ exists T, st_tabs s !! t = Some T /\ T' = f T)).
  { intros t' T'. cbn. destruct (decide (t = t')) as [<-|Hne].
    - rewrite list_lookup_alter. destruct (st_tabs s !! t) as [T|]; [|discriminate]. intros [= <-]. eauto.
    - rewrite list_lookup_alter_ne by exact Hne. auto. }
  split; [split; [|split; [|split]]|split].
  - intros t' T' H. destruct (Hl _ _ H) as [(_ & H')|(-> & T & HT & ->)]; [exact (G1 _ _ H')|]. apply (Hf T HT).
  - intros t' T' x H. destruct (Hl _ _ H) as [(_ & H')|(-> & T & HT & ->)]; [exact (G2 _ _ _ H')|]. apply (Hf T HT).
  - intros HF T' H. destruct (Hl _ _ H) as [(_ & H')|(E & T & HT & ->)]; [exact (G3 HF _ H')|]. apply (Hf T HT); auto.
  - cbn. rewrite alter_length. exact G4.
  - reflexivity.
  - intros t' T HT. cbn. destruct (decide (t = t')) as [<-|Hne].
    + rewrite list_lookup_alter, HT. exists (f T). split; [reflexivity|]. apply (Hf T HT).
    + rewrite list_lookup_alter_ne by exact Hne. exists T. split; [exact HT|apply text_refl].
Qed.

(** Counters and the successor pointer. *)

Lemma good_fld s t fl (g : table -> N) : good s ->
  good (with_tab t (fun T => set_fld fl (g T) T) s) /\ ext s (with_tab t (fun T => set_fld fl (g T) T) s).
Proof.
  intros Hg. apply good_with; [exact Hg|]. intros T HT. destruct Hg as (G1 & G2 & G3 & G4). split; [|split; [|split]].
  - apply (dur_same _ T); [destruct fl; reflexivity..| | |exact (G1 _ _ HT)].
    + destruct fl; apply Forall2_le_refl.
    + destruct fl; exact (d_pers _ _ (G1 _ _ HT)).
  - destruct fl; exact (text_refl T).
  - intros x Hx. apply (G2 _ _ x HT). destruct fl; exact Hx.
  - intros HF ->. destruct fl; exact (G3 HF T HT).
Qed.

Lemma good_new s t n : good s -> 0 < n -> (forall T, st_tabs s !! t = Some T -> t_new T = None) ->
  good (with_tab t (set_new (Some n)) s) /\ ext s (with_tab t (set_new (Some n)) s).
Proof.
  intros Hg Hn H0. apply good_with; [exact Hg|]. intros T HT. destruct Hg as (G1 & G2 & G3 & G4). split; [|split; [|split]].
  - apply (dur_same _ T); [reflexivity..| |exact (d_pers _ _ (G1 _ _ HT))|exact (G1 _ _ HT)]. apply Forall2_le_refl.
  - split; [reflexivity|]. split; [exists []; rewrite app_nil_r; reflexivity|]. split; [apply Forall2_le_refl|]. split.
    + intros x Hx. rewrite (H0 T HT) in Hx. discriminate.
    + intros i q Hq. exists q. auto.
  - intros x [= <-]. exact Hn.
  - intros HF ->. split; [exact (proj1 (G3 HF T HT))|]. intros E. discriminate.
Qed.

Lemma good_tabs s s' : good s -> st_tabs s' = st_tabs s -> st_ppl s' = st_ppl s -> good s' /\ ext s s'.
Proof.
  intros Hg E1 E2. split; [unfold good; rewrite E1, E2; exact Hg|]. split; [exact E2|]. rewrite E1.
  intros t T HT. exists T. split; [exact HT|apply text_refl].
Qed.

Lemma good_app s s' T : good s -> st_tabs s' = st_tabs s ++ [T] -> st_ppl s' = st_ppl s ->
  dur (st_ppl s) T -> t_new T = None -> good s' /\ ext s s'.
Proof.
  intros (G1 & G2 & G3 & G4) E1 E2 HD HN.
  assert (Hl : forall t' T', st_tabs s' !! t' = Some T' -> st_tabs s !! t' = Some T' \/ (T' = T /\ length (st_tabs s) <= t')).
  { intros t' T'. rewrite E1. intros H. apply lookup_app_Some in H as [H|(Hl & H)]; [auto|].
    apply list_lookup_singleton_Some in H as (_ & <-). auto. }
  split; [split; [|split; [|split]]|split].
  - rewrite E2. intros t' T' H. destruct (Hl _ _ H) as [H'|(-> & _)]; eauto.
  - intros t' T' x H. destruct (Hl _ _ H) as [H'|(-> & _)]; [eauto|]. rewrite HN. discriminate.
  - intros HF T' H. destruct (Hl _ _ H) as [H'|(_ & H')]; [eauto|lia].
  - rewrite E1, app_length. lia.
  - exact E2.
  - intros t' T' H. exists T'. split; [rewrite E1; apply lookup_app_l_Some; exact H|apply text_refl].
Qed.

Lemma good_fence s t i v : good s -> (forall T, st_tabs s !! t = Some T -> v <= length (t_past T)) ->
  let s' := with_tab t (fun T => set_pers (alter (Nat.max v) (line_of s i) (t_pers T)) T) s in good s' /\ ext s s'.
Proof.
  intros Hg Hv. apply good_with; [exact Hg|]. intros T HT. destruct Hg as (G1 & G2 & G3 & G4). specialize (Hv T HT).
  assert (HP : Forall2 Peano.le (t_pers T) (alter (Nat.max v) (line_of s i) (t_pers T))).
  { apply Forall2_same_length_lookup. split; [now rewrite alter_length|]. intros j x y Hx Hy.
    destruct (decide (line_of s i = j)) as [<-|Hne].
    - rewrite list_lookup_alter, Hx in Hy. injection Hy as <-. lia.
    - rewrite list_lookup_alter_ne in Hy by exact Hne. rewrite Hx in Hy. injection Hy as <-. lia. }
  split; [|split; [|split]].
  - apply (dur_same _ T); [reflexivity..|exact HP| |exact (G1 _ _ HT)]. cbn [set_pers t_pers t_past].
    apply Forall_lookup. intros j x Hx. pose proof (d_pers _ _ (G1 _ _ HT)) as HB. rewrite Forall_lookup in HB.
    destruct (decide (line_of s i = j)) as [<-|Hne].
    + rewrite list_lookup_alter in Hx. destruct (t_pers T !! line_of s i) as [y|] eqn:Ey; [|discriminate]. injection Hx as <-.
      specialize (HB _ _ Ey). lia.
    + rewrite list_lookup_alter_ne in Hx by exact Hne. exact (HB _ _ Hx).
  - split; [reflexivity|]. split; [exists []; rewrite app_nil_r; reflexivity|]. split; [exact HP|]. split; [auto|].
    intros j q Hq. exists q. auto.
  - intros x Hx. exact (G2 _ _ _ HT Hx).
  - intros HF ->. exact (G3 HF T HT).
Qed.

(** Writing a cell.  [K] is what a key write needs in the first table. *)
Definition newkey (s : state) (t i : nat) (k : N) : Prop := F -> t = 0 -> forall T, st_tabs s !! 0 = Some T ->
  (k = KTOMBSTONE /\ t_new T <> None) \/
  (isclean k /\ k <> KTOMBSTONE /\ exists d, d < reprobeLimit (t_len T) /\ i = pos (hash C k) (t_len T) d /\ passed C T k d).

Definition valfine (s : state) (t : nat) (v : N) : Prop := F -> t = 0 -> forall T, st_tabs s !! 0 = Some T ->
  isMarked v MIG = false \/ t_new T <> None.

Lemma text_write T i c n :
  (forall q, t_pairs T !! i = Some q -> c = CKey -> clean (fst q) <> KINITIAL -> clean n = clean (fst q) /\ (isclean (fst q) -> n = fst q)) ->
  text T (write_cell i c n T).
Proof.
  intros H. split; [reflexivity|]. split; [eexists; apply versions_write|]. split; [apply Forall2_le_refl|]. split; [auto|].
  intros j q Hq. cbn [write_cell set_pairs t_pairs]. destruct (decide (i = j)) as [<-|Hne].
  - rewrite list_lookup_alter, Hq. eexists. split; [reflexivity|]. destruct c; cbn [set_cell fst]; [|auto]. intros Hn. exact (H q Hq eq_refl Hn).
  - rewrite list_lookup_alter_ne by exact Hne. exists q. auto.
Qed.

Lemma write_lookup T i c n j q' : t_pairs (write_cell i c n T) !! j = Some q' ->
  exists q, t_pairs T !! j = Some q /\ q' = if decide (i = j) then set_cell c n q else q.
Proof.
  cbn [write_cell set_pairs t_pairs]. destruct (decide (i = j)) as [<-|Hne].
  - rewrite list_lookup_alter. destruct (t_pairs T !! i) as [q|]; [|discriminate]. intros [= <-]. eauto.
  - rewrite list_lookup_alter_ne by exact Hne. eauto.
Qed.

Lemma passed_write T i c n k d : passed C T k d ->
  (forall q, t_pairs T !! i = Some q -> c = CKey -> isclean (fst q) -> fst q <> KINITIAL -> n = fst q) ->
  passed C (write_cell i c n T) k d.
Proof.
  intros H Hn d' Hd. destruct (H d' Hd) as (q & Hq & H1 & H2 & H3). change (t_len (write_cell i c n T)) with (t_len T).
  cbn [write_cell set_pairs t_pairs]. destruct (decide (i = pos (hash C k) (t_len T) d')) as [E|Hne].
  - rewrite E in Hn |- *. rewrite list_lookup_alter, Hq. exists (set_cell c n q). split; [reflexivity|]. destruct c; cbn [set_cell fst]; [|auto].
    rewrite (Hn q Hq eq_refl H1 H2). auto.
  - rewrite list_lookup_alter_ne by exact Hne. eauto.
Qed.

(** A value. *)
Lemma good_val s t i n : good s -> valfine s t n ->
  (forall T p b, st_tabs s !! t = Some T -> t_pairs T !! i = Some p -> t_pers T !! (i / st_ppl s) = Some b ->
     (clean n = clean (snd p) /\ b = length (t_past T)) \/ (isclean (snd p) /\ isMarked n DirtyFlag = true)) ->
  good (with_tab t (write_cell i CVal n) s) /\ ext s (with_tab t (write_cell i CVal n) s).
Proof.
  intros Hg Hv Hw. apply good_with; [exact Hg|]. intros T HT. destruct Hg as (G1 & G2 & G3 & G4). split; [|split; [|split]].
  - apply dur_write; [exact (G1 _ _ HT)|]. intros w b Hp Hb. destruct (t_pairs T !! i) as [p|] eqn:Ep; [|discriminate].
    injection Hp as <-. exact (Hw T p b HT Ep Hb).
  - apply text_write. intros q Hq E. discriminate.
  - intros x Hx. exact (G2 _ _ _ HT Hx).
  - intros HF ->. destruct (G3 HF T HT) as (P1 & P2). split.
    + intros j q' Hq'. apply write_lookup in Hq' as (q & Hq & ->).
      assert (fst (if decide (i = j) then set_cell CVal n q else q) = fst q) as -> by (destruct (decide (i = j)); reflexivity).
      intros H1 H2. destruct (P1 j q Hq H1 H2) as (d & E1 & E2 & E3). exists d. split; [exact E1|]. split; [exact E2|].
      apply passed_write; [exact E3|]. intros ? ? E. discriminate.
    + intros Hn j q' Hq'. apply write_lookup in Hq' as (q & Hq & ->). destruct (P2 Hn j q Hq) as (E1 & E2).
      destruct (decide (i = j)); [|auto]. cbn [set_cell fst snd]. split; [|exact E2].
      destruct (Hv HF eq_refl T HT) as [H|H]; [exact H|]. contradiction.
Qed.

(** The same key again, without its mark. *)
Lemma good_key_clean s t i n : good s ->
  (forall T p, st_tabs s !! t = Some T -> t_pairs T !! i = Some p -> n = clean (fst p)) ->
  (forall T b, st_tabs s !! t = Some T -> t_pers T !! (i / st_ppl s) = Some b -> b = length (t_past T)) ->
  good (with_tab t (write_cell i CKey n) s) /\ ext s (with_tab t (write_cell i CKey n) s).
Proof.
  intros Hg Hn Hb. apply good_with; [exact Hg|]. intros T HT. destruct Hg as (G1 & G2 & G3 & G4). split; [|split; [|split]].
  - apply dur_write; [exact (G1 _ _ HT)|]. intros w b Hp Hb'. destruct (t_pairs T !! i) as [p|] eqn:Ep; [|discriminate].
    injection Hp as <-. left. split; [|exact (Hb T b HT Hb')]. rewrite (Hn T p HT Ep). apply clean_clean.
  - apply text_write. intros q Hq _ _. rewrite (Hn T q HT Hq). split; [apply clean_clean|]. intros Hc. apply clean_id. exact Hc.
  - intros x Hx. exact (G2 _ _ _ HT Hx).
  - intros HF ->. destruct (G3 HF T HT) as (P1 & P2).
    assert (Hcl : forall j q, t_pairs T !! j = Some q -> clean (fst (if decide (i = j) then set_cell CKey n q else q)) = clean (fst q)).
    { intros j q Hq. destruct (decide (i = j)) as [<-|]; [|reflexivity]. cbn [set_cell fst]. rewrite (Hn T q HT Hq). apply clean_clean. }
    split.
    + intros j q' Hq'. apply write_lookup in Hq' as (q & Hq & ->). rewrite (Hcl j q Hq).
      intros H1 H2. destruct (P1 j q Hq H1 H2) as (d & E1 & E2 & E3). exists d. split; [exact E1|]. split; [exact E2|].
      apply passed_write; [exact E3|]. intros q2 Hq2 _ Hc _. rewrite (Hn T q2 HT Hq2). apply clean_id. exact Hc.
    + intros Hnew j q' Hq'. apply write_lookup in Hq' as (q & Hq & ->). rewrite (Hcl j q Hq). destruct (P2 Hnew j q Hq) as (E1 & E2).
      split; [|exact E2]. destruct (decide (i = j)); [exact E1|exact E1].
Qed.

(** A new key in an empty entry. *)
Lemma good_key_new s t i k : good s -> newkey s t i k ->
  (forall T p, st_tabs s !! t = Some T -> t_pairs T !! i = Some p -> fst p = KINITIAL) ->
  good (with_tab t (write_cell i CKey (dirty k)) s) /\ ext s (with_tab t (write_cell i CKey (dirty k)) s).
Proof.
  intros Hg Hk H0. apply good_with; [exact Hg|]. intros T HT. destruct Hg as (G1 & G2 & G3 & G4). split; [|split; [|split]].
  - apply dur_write; [exact (G1 _ _ HT)|]. intros w b Hp Hb'. destruct (t_pairs T !! i) as [p|] eqn:Ep; [|discriminate].
    injection Hp as <-. right. cbn [get_cell]. rewrite (H0 T p HT Ep). split; [apply KINITIAL_clean|apply isMarked_dirty_dirty].
  - apply text_write. intros q Hq _ Hn. exfalso. apply Hn. rewrite (H0 T q HT Hq). apply clean_id, KINITIAL_clean.
  - intros x Hx. exact (G2 _ _ _ HT Hx).
  - intros HF ->. destruct (G3 HF T HT) as (P1 & P2).
    assert (Hps : forall k' d, passed C T k' d -> passed C (write_cell i CKey (dirty k) T) k' d).
    { intros k' d Hp. apply passed_write; [exact Hp|]. intros q Hq _ _ Hn. exfalso. apply Hn. exact (H0 T q HT Hq). }
    split.
    + intros j q' Hq' H1 H2. apply write_lookup in Hq' as (q & Hq & ->). destruct (decide (i = j)) as [<-|Hne].
      * cbn [set_cell fst] in *. rewrite clean_dirty in *. destruct (Hk HF eq_refl T HT) as [(-> & _)|(K1 & K2 & d & E1 & E2 & E3)].
        -- exfalso. apply H2. apply clean_id, KTOMBSTONE_clean.
        -- rewrite (clean_id _ K1) in *. exists d. auto.
      * destruct (P1 j q Hq H1 H2) as (d & E1 & E2 & E3). exists d. auto.
    + intros Hn j q' Hq'. apply write_lookup in Hq' as (q & Hq & ->). change (t_new (write_cell i CKey (dirty k) T)) with (t_new T) in Hn.
      destruct (P2 Hn j q Hq) as (E1 & E2). destruct (decide (i = j)) as [<-|Hne]; [|auto]. cbn [set_cell fst snd]. split; [exact E1|].
      rewrite clean_dirty. destruct (Hk HF eq_refl T HT) as [(_ & K)|(K1 & K2 & _)]; [contradiction|]. rewrite (clean_id _ K1). exact K2.
Qed.

End Steps.
