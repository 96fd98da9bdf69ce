(** Concurrent calls in a table that has no successor, first insertions included: every call takes effect in one step,
    provided that no other thread is inserting the same new key. *)
From Coq Require Import NArith Bool List Lia.
From stdpp Require Import base list gmap.
From Verif Require Import Word Bits Prog HashMap Conc Spec LinSpec Abs Probe CodecThm SeqInv SeqPut SeqGet SeqApi Lin.
Import ListNotations.
Open Scope nat_scope.
Open Scope prog_scope.

(** The content of the entry of [k]; the value of an unused entry if there is none. *)
Definition word (m : gmap N N) (k : N) : N := default VINITIAL (m !! k).

(** [V] is what the entry of [k] may hold; the word of an entry whose value was never written is never marked. *)
Definition holds (m : gmap N N) (k V : N) : Prop := clean V = word m k /\ (m !! k = None -> V = VINITIAL).

(** What a call to putIfMatch does to the content [word m k], in terms of the raw word [V] that it acts on. *)
Definition cput (m : gmap N N) (k nv ov : N) (g : N -> N) (post : N -> rsp) (r : rsp) (m' : gmap N N) : Prop :=
  exists V, holds m k V /\ r = post (pub V) /\
    ((m' = m /\ (nv = V \/ noMatch V ov = true \/ (nv = VTOMBSTONE /\ V = VINITIAL))) \/
     (noMatch V ov = false /\ m' = <[k := g V]> m)).

Definition cstep (m : gmap N N) (o : op) (r : rsp) (m' : gmap N N) : Prop :=
  match o with
  | OGet k => r = RVal (pub (word m k)) /\ m' = m
  | OContains k => r = RBool (negb (pub (word m k) =? VINITIAL)%N) /\ m' = m
  | OPut k v => cput m k v NO_MATCH_OLD (fun _ => v) RVal r m'
  | OPutIfAbsent k v => cput m k v VTOMBSTONE (fun _ => v) RVal r m'
  | ORemove k => cput m k VTOMBSTONE NO_MATCH_OLD (fun _ => VTOMBSTONE) (fun a => RBool (negb (a =? 0)%N)) r m'
  | ORemoveVal k v => cput m k VTOMBSTONE v (fun _ => VTOMBSTONE) (fun a => RBool (a =? v)%N) r m'
  | OReplace k ov v => cput m k v ov (fun _ => v) (fun a => RBool (a =? ov)%N) r m'
  | OIncrement k => cput m k INCREMENT_ARG NO_MATCH_OLD incremented RVal r m'
  | OSize => (exists x, r = RVal x) /\ m' = m
  end.

(** The keys of the entries, without the unpersisted mark, and which words have been read since the table was made: the
    words of a new table carry the mark until somebody reads them.  [pk]: entries whose key is known to be persistent. *)
Record world := W { ky : nat -> N; sn : nat -> cell -> bool; pk : nat -> bool }.
Coercion ky : world >-> Funclass.
Definition same_cell (c c' : cell) : bool := match c, c' with CKey, CKey | CVal, CVal => true | _, _ => false end.
Definition claim (A : world) (j : nat) (k : N) : world := W (fun i => if Nat.eqb i j then k else A i) (sn A) (pk A).
Definition seen (A : world) (j : nat) (c : cell) : world :=
  W (ky A) (fun i c' => (Nat.eqb i j && same_cell c c') || sn A i c') (pk A).
Definition fixed (A : world) (j : nat) : world := W (ky A) (sn A) (fun i => Nat.eqb i j || pk A i).

(** What a phase of calls on table [tb] leaves alone, relative to the state [s0] in which it started. *)
Record frame (tb : nat) (s0 s : state) : Prop := mkFrame {
  fr_len : length (st_tabs s0) <= length (st_tabs s);
  fr_files : st_files s = st_files s0;
  fr_ppl : st_ppl s = st_ppl s0;
  fr_max : st_maxcap s = st_maxcap s0;
  fr_other : forall t, t < length (st_tabs s0) -> t <> tb -> st_tabs s !! t = st_tabs s0 !! t;
  fr_tab : forall T0 T, st_tabs s0 !! tb = Some T0 -> st_tabs s !! tb = Some T ->
    t_id T = t_id T0 /\ t_copyIdx T = t_copyIdx T0 /\ t_copyDone T = t_copyDone T0
}.
Lemma frame_refl tb s : frame tb s s.
Proof. constructor; auto. intros T0 T -> [= ->]. auto. Qed.
Lemma frame_with tb s0 s f : frame tb s0 s ->
  (forall T, t_id (f T) = t_id T /\ t_copyIdx (f T) = t_copyIdx T /\ t_copyDone (f T) = t_copyDone T) -> frame tb s0 (with_tab tb f s).
Proof.
  intros [F1 F2 F3 F4 F5 F6] Hf. constructor; try assumption.
  - unfold with_tab; cbn. rewrite alter_length. exact F1.
  - intros t Ht Hne. unfold with_tab; cbn. rewrite list_lookup_alter_ne by congruence. apply F5; assumption.
  - intros T0 T H0. unfold with_tab; cbn. rewrite list_lookup_alter. destruct (st_tabs s !! tb) as [T'|]; [|discriminate].
    intros [= <-]. destruct (Hf T') as (-> & -> & ->). eapply F6; eauto.
Qed.

Section LinNew.
(** [strict]: no two threads insert new keys at the same time; then every key that a search has passed is persistent. *)
Context (C : cfg) (L : nat) (strict : bool) (tb : nat) (s0 : state).
Context (HL : 8 <= L) (Hpow : exists e, L = 2 ^ e) (HL59 : (N.of_nat L < 2 ^ 59)%N) (Hsext : forall h, mask (sext32 h) L = mask h L).

Implicit Types A : world.

Definition passed A (k : N) (i : nat) : Prop := A i <> KINITIAL /\ A i <> k /\ A i <> KTOMBSTONE /\ (strict = true -> pk A i = true).
Definition pass A (k : N) (c : nat) : Prop := forall c', c' < c -> passed A k (pos (hash C k) L c').
(** [k] is in entry [i], the [c]-th of its search path. *)
Definition hm A (k : N) (i c : nat) : Prop :=
  c < reprobeLimit L /\ i = pos (hash C k) L c /\ A i = k /\ k <> KINITIAL /\ pass A k c.
Definition nokey A (k : N) : Prop := forall i, i < L -> A i <> k.
Definition haskey A (k : N) : Prop := exists i, i < L /\ A i = k.
Definition used A (i : nat) : bool := negb (A i =? KINITIAL)%N.
Definition count A : nat := length (List.filter (used A) (seq 0 L)).
(** Enough used entries to end an unsuccessful search. *)
Definition many A : Prop := Nat.min L (S REPROBE_LIMIT) <= count A.

Record J (m : gmap N N) A (s : state) : Prop := mkJ {
  j_top : st_top s = tb;
  j_wp : forall i, i < L -> A i <> KINITIAL -> A i <> KTOMBSTONE /\ exists c, hm A (A i) i c;
  j_dom : forall k x, m !! k = Some x -> exists i c, hm A k i c;
  j_ok : forall k, unmarked (word m k) /\ isclean (word m k);
  j_tab : exists T, st_tabs s !! tb = Some T /\ t_len T = L /\ length (t_pairs T) = L /\ t_new T = None /\
    (forall i, i < L -> clean (keyat (t_pairs T) i) = A i /\
       (A i = KINITIAL -> clean (valat (t_pairs T) i) = VINITIAL /\
          (sn A i CKey = true -> keyat (t_pairs T) i = KINITIAL) /\ (sn A i CVal = true -> valat (t_pairs T) i = VINITIAL))) /\
    (forall k i c, hm A k i c -> holds m k (valat (t_pairs T) i));
  j_pk : forall i, i < L -> pk A i = true -> A i <> KINITIAL /\ isclean (read_cell s tb i CKey);
  j_fr : frame tb s0 s
}.

Lemma holds_clean m k V : holds m k V -> holds m k (clean V).
Proof. intros [H1 H2]. split; [rewrite clean_clean; exact H1|]. intros E. rewrite (H2 E). reflexivity. Qed.
Lemma holds_word m k V : holds m k V -> clean V = word m k.
Proof. intros H. apply H. Qed.
Lemma holds_V m k : word m k = VINITIAL -> holds m k VINITIAL.
Proof. intros H. split; [rewrite H|]; reflexivity. Qed.

Lemma HL0 : 0 < L. Proof. lia. Qed.
Lemma hm_lt A k i c : hm A k i c -> i < L.
Proof. intros (_ & -> & _). apply pos_lt, HL0. Qed.
Lemma hm_has A k i c : hm A k i c -> haskey A k.
Proof. intros H. exists i. split; [eapply hm_lt; eauto|]. apply H. Qed.
Lemma hm_unique A k i c i' c' : hm A k i c -> hm A k i' c' -> i = i' /\ c = c'.
Proof.
  intros (_ & -> & H1 & _ & H2) (_ & -> & H1' & _ & H2'). destruct (Nat.lt_trichotomy c c') as [Hc|[->|Hc]]; [| |].
  - destruct (H2' c Hc) as (_ & H & _). congruence.
  - auto.
  - destruct (H2 c' Hc) as (_ & H & _). congruence.
Qed.

Lemma claim_eq A j k : claim A j k j = k.
Proof. cbn. rewrite Nat.eqb_refl. reflexivity. Qed.
Lemma claim_ne A j k i : i <> j -> claim A j k i = A i.
Proof. intros H. cbn. apply Nat.eqb_neq in H. rewrite H. reflexivity. Qed.
Lemma claim_used A j k i : A j = KINITIAL -> A i <> KINITIAL -> claim A j k i = A i.
Proof. intros H Hi. apply claim_ne. congruence. Qed.

Lemma pass_claim A j k k' c : A j = KINITIAL -> pass A k' c -> pass (claim A j k) k' c.
Proof.
  intros Hj H c' Hc'. destruct (H c' Hc') as (H1 & H2 & H3). unfold passed.
  rewrite (claim_used A j k _ Hj H1). auto.
Qed.
Lemma hm_claim A j k k' i c : A j = KINITIAL -> hm A k' i c -> hm (claim A j k) k' i c.
Proof.
  intros Hj (H1 & H2 & H3 & H4 & H5). split; [exact H1|]. split; [exact H2|].
  split; [rewrite claim_used; congruence|]. split; [exact H4|]. apply pass_claim; assumption.
Qed.

Lemma filter_claim A j k l : k <> KINITIAL -> A j = KINITIAL -> NoDup l ->
  length (List.filter (used (claim A j k)) l) =
  (if in_dec Nat.eq_dec j l then S (length (List.filter (used A) l)) else length (List.filter (used A) l)).
Proof.
  intros Hk Hj. induction l as [|x l IH]; intros Hn; [reflexivity|]. apply NoDup_cons in Hn as [Hx Hn]. specialize (IH Hn).
  rewrite elem_of_list_In in Hx.
  cbn [List.filter]. destruct (Nat.eq_dec x j) as [->|Hne].
  - assert (E1 : used (claim A j k) j = true) by (unfold used; rewrite claim_eq; apply N.eqb_neq in Hk; rewrite Hk; reflexivity).
    assert (E2 : used A j = false) by (unfold used; rewrite Hj; reflexivity).
    rewrite E1, E2. cbn [length]. rewrite IH. destruct (in_dec Nat.eq_dec j l); [contradiction|].
    destruct (in_dec Nat.eq_dec j (j :: l)) as [|E]; [reflexivity|]. destruct E. left. reflexivity.
  - assert (E1 : used (claim A j k) x = used A x) by (unfold used; rewrite claim_ne by exact Hne; reflexivity).
    rewrite E1. destruct (in_dec Nat.eq_dec j (x :: l)) as [[E|E]|E]; destruct (in_dec Nat.eq_dec j l) as [E'|E'];
      try congruence; try contradiction; destruct (used A x); cbn [length]; rewrite IH; try reflexivity; destruct E; right; assumption.
Qed.

Lemma count_claim A j k : k <> KINITIAL -> j < L -> A j = KINITIAL -> count (claim A j k) = S (count A).
Proof.
  intros Hk Hj HA. unfold count. rewrite filter_claim; [|assumption..|apply NoDup_seq].
  destruct (in_dec Nat.eq_dec j (seq 0 L)) as [|H]; [reflexivity|]. destruct H. apply in_seq. lia.
Qed.
Lemma count_le A : count A <= L.
Proof. unfold count. rewrite <- (seq_length L 0) at 2. generalize (seq 0 L). induction l as [|x l IH]; [reflexivity|].
  cbn [List.filter]. destruct (used A x); cbn [length]; lia. Qed.
Lemma count_mono A A' : (forall i, i < L -> A i <> KINITIAL -> A' i <> KINITIAL) -> count A <= count A'.
Proof.
  intros H. unfold count. assert (Hl : forall i, In i (seq 0 L) -> i < L) by (intros i Hi; apply in_seq in Hi; lia).
  revert Hl. generalize (seq 0 L). induction l as [|x l IH]; intros Hl; [reflexivity|]. cbn [List.filter].
  assert (IH' : length (List.filter (used A) l) <= length (List.filter (used A') l)) by (apply IH; intros; apply Hl; right; assumption).
  destruct (used A x) eqn:E.
  - assert (used A' x = true) as ->; [|cbn; lia]. unfold used in *. apply negb_true_iff, N.eqb_neq in E.
    apply negb_true_iff, N.eqb_neq. apply H; [apply Hl; left; reflexivity|exact E].
  - destruct (used A' x); cbn; lia.
Qed.

Lemma pos_inj h a b : a < L -> b < L -> pos h L a = pos h L b -> a = b.
Proof.
  destruct Hpow as [e ->]. intros Ha Hb.
  assert (H2 : N.of_nat (2 ^ e) = (2 ^ N.of_nat e)%N) by (rewrite Nat2N.inj_pow; reflexivity).
  assert (Hnz : (2 ^ N.of_nat e <> 0)%N) by (apply N.pow_nonzero; discriminate).
  assert (Hpos : forall d, pos h (2 ^ e) d = N.to_nat ((h + N.of_nat d) mod 2 ^ N.of_nat e)).
  { induction d as [|d IH]; cbn [pos]; rewrite mask_pow2; [f_equal; f_equal; lia|].
    rewrite IH, N2Nat.id. f_equal. rewrite N.add_mod_idemp_l by exact Hnz. f_equal. lia. }
  rewrite !Hpos. intros E. apply N2Nat.inj in E.
  assert (Ha' : (N.of_nat a < 2 ^ N.of_nat e)%N) by lia. assert (Hb' : (N.of_nat b < 2 ^ N.of_nat e)%N) by lia.
  clear - E Ha' Hb' Hnz. set (M := (2 ^ N.of_nat e)%N) in *.
  pose proof (N.div_mod (h + N.of_nat a) M Hnz) as D1. pose proof (N.div_mod (h + N.of_nat b) M Hnz) as D2.
  rewrite E in D1. set (x := ((h + N.of_nat a) / M)%N) in *. set (y := ((h + N.of_nat b) / M)%N) in *.
  assert (x = y \/ x + 1 <= y \/ y + 1 <= x)%N as [Hx|[Hx|Hx]] by lia; [subst; lia|exfalso; nia|exfalso; nia].
Qed.

Lemma pass_S A k c : pass A k c -> passed A k (pos (hash C k) L c) -> pass A k (S c).
Proof. intros H H' c' Hc'. destruct (Nat.eq_dec c' c) as [->|]; [exact H'|]. apply H. lia. Qed.

Lemma used_many A k : (forall c, c <= REPROBE_LIMIT -> A (pos (hash C k) L c) <> KINITIAL) -> many A.
Proof.
  intros Hp. unfold many, count. set (n := Nat.min L (S REPROBE_LIMIT)).
  rewrite <- (seq_length n 0), <- (map_length (pos (hash C k) L) (seq 0 n)). apply NoDup_incl_length.
  - apply NoDup_ListNoDup. apply NoDup_fmap_2_strong; [|apply NoDup_seq].
    intros x y Hx Hy. rewrite elem_of_seq in Hx, Hy. apply pos_inj; lia.
  - intros i Hi. apply in_map_iff in Hi as (c & <- & Hc). apply in_seq in Hc. apply filter_In. split.
    + apply in_seq. pose proof (pos_lt (hash C k) L c HL0). lia.
    + unfold used. apply negb_true_iff, N.eqb_neq, Hp. lia.
Qed.
Lemma pass_many A k : pass A k (reprobeLimit L) -> many A.
Proof.
  intros Hp. apply (used_many A k). intros c Hc. apply (Hp c). unfold reprobeLimit.
  assert (2 <= L / 4) by (apply Nat.div_le_lower_bound; lia). lia.
Qed.
Lemma hm_many A k i c : hm A k i c -> REPROBE_LIMIT <= c -> many A.
Proof.
  intros (_ & Hi & HA & Hk & Hp) Hc. apply (used_many A k). intros c' Hc'. destruct (Nat.eq_dec c' c) as [->|]; [congruence|].
  apply (Hp c'). lia.
Qed.

(** ** What the commands preserve *)
Lemma J_with m A s f : J m A s ->
  (forall T, st_tabs s !! tb = Some T -> t_len (f T) = t_len T /\ t_pairs (f T) = t_pairs T /\ t_new (f T) = t_new T) ->
  (forall T, t_id (f T) = t_id T /\ t_copyIdx (f T) = t_copyIdx T /\ t_copyDone (f T) = t_copyDone T) ->
  J m A (with_tab tb f s).
Proof.
  intros [H1 H2 H3 H4 (T & HT & H5) H6 H7] Hf Hf'. destruct (Hf T HT) as (F1 & F2 & F3).
  assert (HT' : st_tabs (with_tab tb f s) !! tb = Some (f T)) by (unfold with_tab; cbn [st_tabs]; rewrite list_lookup_alter, HT; reflexivity).
  constructor; try assumption.
  - exists (f T). rewrite F1, F2, F3. split; [exact HT'|exact H5].
  - intros i Hi Hp. destruct (H6 i Hi Hp) as [E1 E2]. split; [exact E1|]. rewrite (read_key _ _ T) in E2 by exact HT.
    rewrite (read_key _ _ (f T)), F2 by exact HT'. exact E2.
  - apply frame_with; assumption.
Qed.

Lemma J_key m A s i : J m A s -> i < L -> clean (read_cell s tb i CKey) = A i.
Proof. intros [_ _ _ _ (T & HT & _ & _ & _ & H & _) _ _] Hi. rewrite (read_key _ _ T) by exact HT. apply H, Hi. Qed.
Lemma J_unused m A s i : J m A s -> i < L -> A i = KINITIAL -> clean (read_cell s tb i CVal) = VINITIAL /\
  (sn A i CKey = true -> read_cell s tb i CKey = KINITIAL) /\ (sn A i CVal = true -> read_cell s tb i CVal = VINITIAL).
Proof.
  intros [_ _ _ _ (T & HT & _ & _ & _ & H & _) _ _] Hi HA. rewrite (read_key _ _ T), (read_val _ _ T) by exact HT.
  apply H; assumption.
Qed.
Lemma J_val m A s k i c : J m A s -> hm A k i c -> holds m k (read_cell s tb i CVal).
Proof. intros [_ _ _ _ (T & HT & _ & _ & _ & _ & H) _ _] Hh. rewrite (read_val _ _ T) by exact HT. eapply H; eauto. Qed.
Lemma J_nokey m A s k : J m A s -> nokey A k -> word m k = VINITIAL.
Proof.
  intros HJ Hn. unfold word. destruct (m !! k) as [x|] eqn:E; [|reflexivity].
  destruct (j_dom _ _ _ HJ k x E) as (i & c & Hh). destruct (Hn i (hm_lt _ _ _ _ Hh)). apply Hh.
Qed.
(** The search for [k] ends without finding it. *)
Lemma J_empty m A s k c : J m A s -> k <> KINITIAL -> pass A k c -> A (pos (hash C k) L c) = KINITIAL -> nokey A k.
Proof.
  intros HJ Hk Hp HA i Hi E. destruct (j_wp _ _ _ HJ i Hi) as (_ & c' & Hc1 & Hc2 & Hc3 & Hc4 & Hc5); [congruence|].
  rewrite E in *. destruct (Nat.lt_trichotomy c c') as [Hc|[->|Hc]].
  - destruct (Hc5 c Hc) as (H & _). contradiction.
  - congruence.
  - destruct (Hp c' Hc) as (_ & H & _). congruence.
Qed.
Lemma J_exhausted m A s k c : J m A s -> k <> KINITIAL -> pass A k c -> reprobeLimit L <= c -> nokey A k.
Proof.
  intros HJ Hk Hp Hc i Hi E. destruct (j_wp _ _ _ HJ i Hi) as (_ & c' & Hc1 & Hc2 & Hc3 & Hc4 & Hc5); [congruence|].
  rewrite E in *. destruct (Hp c') as (_ & H & _); [lia|]. congruence.
Qed.

(** Replacing a word by itself without the unpersisted mark. *)
Lemma J_clean m A s i c : J m A s -> J m A (with_tab tb (write_cell i c (clean (read_cell s tb i c))) s).
Proof.
  intros [H1 H2 H3 H4 (T & HT & H5 & H6 & H7 & H9 & H10) H11 H12].
  set (w := clean (read_cell s tb i c)).
  assert (HT' : st_tabs (with_tab tb (write_cell i c w) s) !! tb = Some (write_cell i c w T)) by (unfold with_tab; cbn [st_tabs]; rewrite list_lookup_alter, HT; reflexivity).
  assert (Hk : forall j, j < L -> keyat (alter (set_cell c w) i (t_pairs T)) j = keyat (t_pairs T) j \/
     (keyat (alter (set_cell c w) i (t_pairs T)) j = clean (keyat (t_pairs T) j))).
  { intros j Hj. destruct c; [|left; apply keyat_set_val]. destruct (Nat.eq_dec i j) as [<-|Hne]; [|left; apply keyat_set_key_ne, Hne].
    right. rewrite keyat_set_key by lia. unfold w. rewrite (read_key _ _ T) by exact HT. reflexivity. }
  assert (Hv : forall j, j < L -> valat (alter (set_cell c w) i (t_pairs T)) j = valat (t_pairs T) j \/
     valat (alter (set_cell c w) i (t_pairs T)) j = clean (valat (t_pairs T) j)).
  { intros j Hj. destruct c; [left; apply valat_set_key|]. destruct (Nat.eq_dec i j) as [<-|Hne]; [|left; apply valat_set_val_ne, Hne].
    right. rewrite valat_set_val by lia. unfold w. rewrite (read_val _ _ T) by exact HT. reflexivity. }
  constructor; try assumption; [|  |apply frame_with; [exact H12|auto]].
  2:{ intros j Hj Hp. destruct (H11 j Hj Hp) as [E1 E2]. split; [exact E1|]. rewrite (read_key _ _ T) in E2 by exact HT.
      rewrite (read_key _ _ _ _ HT'). cbn [write_cell set_pairs t_pairs]. destruct (Hk j Hj) as [E|E]; rewrite E; [exact E2|apply clean_isclean]. }
  exists (write_cell i c w T). split; [exact HT'|]. unfold write_cell, set_pairs; cbn [t_len t_pairs t_new]. rewrite alter_length.
  do 3 (split; [assumption|]). split.
  - intros j Hj. destruct (H9 j Hj) as [F1 F2]. split.
    { destruct (Hk j Hj) as [E|E]; rewrite E; [exact F1|rewrite clean_clean; exact F1]. }
    intros HA. destruct (F2 HA) as (F3 & F4 & F5). split; [|split].
    + destruct (Hv j Hj) as [E|E]; rewrite E; [exact F3|rewrite clean_clean; exact F3].
    + intros S1. destruct (Hk j Hj) as [E|E]; rewrite E, (F4 S1); reflexivity.
    + intros S1. destruct (Hv j Hj) as [E|E]; rewrite E, (F5 S1); reflexivity.
  - intros k j c' Hh. destruct (Hv j) as [E|E]; [eapply hm_lt; eauto| |]; rewrite E; [eapply H10; eauto|].
    apply holds_clean. eapply H10; eauto.
Qed.

Lemma word_insert m k x : word (<[k := x]> m) k = x.
Proof. unfold word. rewrite lookup_insert. reflexivity. Qed.
Lemma word_insert_ne m k x k' : k <> k' -> word (<[k := x]> m) k' = word m k'.
Proof. intros H. unfold word. rewrite lookup_insert_ne by exact H. reflexivity. Qed.

Lemma J_store m A s k i c x : J m A s -> hm A k i c -> unmarked x -> isclean x ->
  J (<[k := x]> m) A (with_tab tb (write_cell i CVal (dirty x)) s).
Proof.
  intros [H1 H2 H3 H4 (T & HT & H5 & H6 & H7 & H9 & H10) H11 H12] Hh Hu Hc.
  assert (HT' : st_tabs (with_tab tb (write_cell i CVal (dirty x)) s) !! tb = Some (write_cell i CVal (dirty x) T)) by (unfold with_tab; cbn [st_tabs]; rewrite list_lookup_alter, HT; reflexivity).
  constructor; try assumption; [| | | |apply frame_with; [exact H12|auto]].
  4:{ intros j Hj Hp. destruct (H11 j Hj Hp) as [E1 E2]. split; [exact E1|]. rewrite (read_key _ _ T) in E2 by exact HT.
      rewrite (read_key _ _ _ _ HT'). cbn [write_cell set_pairs t_pairs]. rewrite keyat_set_val. exact E2. }
  { intros k' y. rewrite lookup_insert_Some. intros [[<- _]|[_ E]]; eauto. }
  { intros k'. destruct (N.eq_dec k k') as [<-|Hne]; [rewrite word_insert; auto|rewrite word_insert_ne by exact Hne; apply H4]. }
  exists (write_cell i CVal (dirty x) T). split; [exact HT'|]. unfold write_cell, set_pairs; cbn [t_len t_pairs t_new]. rewrite alter_length.
  do 3 (split; [assumption|]). split.
  - intros j Hj. destruct (H9 j Hj) as [F1 F2]. rewrite keyat_set_val. split; [exact F1|]. intros HA.
    rewrite valat_set_val_ne; [apply F2, HA|]. intros ->. destruct Hh as (_ & _ & E1 & E2 & _). congruence.
  - intros k' j c' Hh'. destruct (Nat.eq_dec i j) as [<-|Hne].
    + assert (k' = k) as ->. { destruct Hh as (_ & _ & E & _), Hh' as (_ & _ & E' & _). congruence. }
      rewrite valat_set_val by (rewrite H6; eapply hm_lt; eauto). split; [rewrite word_insert, clean_dirty; apply clean_id, Hc|]. rewrite lookup_insert. discriminate.
    + assert (Hkk : k <> k') by (intros ->; apply Hne; apply (hm_unique A k' i c j c' Hh Hh')).
      rewrite valat_set_val_ne by exact Hne. destruct (H10 k' j c' Hh') as [F1 F2].
      split; [rewrite word_insert_ne by exact Hkk; exact F1|rewrite lookup_insert_ne by exact Hkk; exact F2].
Qed.

Lemma J_claim m A s k c : J m A s -> client_key k -> nokey A k -> pass A k c -> c < reprobeLimit L ->
  A (pos (hash C k) L c) = KINITIAL -> sn A (pos (hash C k) L c) CVal = true ->
  hm (claim A (pos (hash C k) L c) k) k (pos (hash C k) L c) c /\
  J m (claim A (pos (hash C k) L c) k) (with_tab tb (write_cell (pos (hash C k) L c) CKey (dirty k)) s).
Proof.
  intros HJ (Kc & Ki & Kt) Hno Hp Hc HA HS. set (j := pos (hash C k) L c) in *.
  assert (Hj : j < L) by apply pos_lt, HL0.
  assert (Hh : hm (claim A j k) k j c).
  { split; [exact Hc|]. split; [reflexivity|]. split; [apply claim_eq|]. split; [exact Ki|]. apply pass_claim; assumption. }
  split; [exact Hh|].
  pose proof (J_nokey _ _ _ _ HJ Hno) as Hw.
  destruct HJ as [H1 H2 H3 H4 (T & HT & H5 & H6 & H7 & H9 & H10) H11 H12].
  assert (HT' : st_tabs (with_tab tb (write_cell j CKey (dirty k)) s) !! tb = Some (write_cell j CKey (dirty k) T)) by (unfold with_tab; cbn [st_tabs]; rewrite list_lookup_alter, HT; reflexivity).
  constructor; try assumption.
  - intros i Hi Hne. destruct (Nat.eq_dec i j) as [->|Hij].
    + rewrite claim_eq. eauto.
    + rewrite claim_ne in * by exact Hij. destruct (H2 i Hi Hne) as (F1 & c' & F2). split; [exact F1|]. exists c'. apply hm_claim; assumption.
  - intros k' x E. destruct (H3 k' x E) as (i & c' & F). exists i, c'. apply hm_claim; assumption.
  - exists (write_cell j CKey (dirty k) T). split; [exact HT'|]. unfold write_cell, set_pairs; cbn [t_len t_pairs t_new]. rewrite alter_length.
    do 3 (split; [assumption|]). split.
    + intros i Hi. destruct (H9 i Hi) as [F1 F2]. rewrite valat_set_key. destruct (Nat.eq_dec i j) as [->|Hij].
      * rewrite claim_eq, keyat_set_key by lia. split; [rewrite clean_dirty; apply clean_id, Kc|]. intros E. contradiction.
      * rewrite claim_ne, keyat_set_key_ne by congruence. auto.
    + intros k' i c' Hh'. rewrite valat_set_key. destruct (N.eq_dec k' k) as [->|Hk].
      * destruct (hm_unique _ _ _ _ _ _ Hh' Hh) as [-> ->]. destruct (H9 j Hj) as [_ F]. destruct (F HA) as (_ & _ & F'). rewrite (F' HS). apply holds_V, Hw.
      * assert (Hij : i <> j). { intros ->. destruct Hh' as (_ & _ & E & _). rewrite claim_eq in E. congruence. }
        pose proof Hh' as (_ & _ & E & E' & _). rewrite claim_ne in E by exact Hij.
        destruct (H2 i (hm_lt _ _ _ _ Hh')) as (_ & c2 & F); [congruence|]. rewrite E in F. eapply H10; eauto.
  - intros i Hi Hp'. destruct (H11 i Hi Hp') as [E1 E2]. assert (Hij : i <> j) by congruence. rewrite claim_ne by exact Hij. split; [exact E1|].
    rewrite (read_key _ _ T) in E2 by exact HT. rewrite (read_key _ _ _ _ HT'). cbn [write_cell set_pairs t_pairs]. rewrite keyat_set_key_ne by congruence. exact E2.
  - apply frame_with; [exact H12|auto].
Qed.

Lemma clean_initial w : clean w = VINITIAL -> w <> dirty VINITIAL -> w = VINITIAL.
Proof.
  intros H Hd. destruct (isMarked w DirtyFlag) eqn:E.
  - exfalso. apply Hd. rewrite <- H, dirty_clean. symmetry. apply dirty_id, E.
  - rewrite <- H. symmetry. apply clean_id. exact E.
Qed.
Lemma seen_sn A i c : sn (seen A i c) i c = true.
Proof. cbn. rewrite Nat.eqb_refl. destruct c; reflexivity. Qed.
Lemma J_seen m A s i c : J m A s -> i < L -> read_cell s tb i c <> dirty VINITIAL -> J m (seen A i c) s.
Proof.
  intros [H1 H2 H3 H4 (T & HT & H5 & H6 & H7 & H9 & H10) H11 H12] Hi Hr. constructor; try assumption.
  exists T. do 4 (split; [assumption|]). split; [|exact H10]. intros j Hj. destruct (H9 j Hj) as [F1 F2]. split; [exact F1|].
  intros HA. destruct (F2 HA) as (F3 & F4 & F5). split; [exact F3|]. cbn [seen sn].
  destruct (Nat.eqb_spec j i) as [->|_]; [|auto]. cbn [andb]. split; intros Hs.
  - destruct c; [|auto]. rewrite (read_key _ _ T) in Hr by exact HT. cbn in HA. apply clean_initial; [rewrite F1; exact HA|exact Hr].
  - destruct c; [auto|]. rewrite (read_val _ _ T) in Hr by exact HT. apply clean_initial; [exact F3|exact Hr].
Qed.

Lemma hm_fixed A i k j c : hm A k j c -> hm (fixed A i) k j c.
Proof.
  intros (H1 & H2 & H3 & H4 & H5). split; [exact H1|]. split; [exact H2|]. split; [exact H3|]. split; [exact H4|].
  intros c' Hc'. destruct (H5 c' Hc') as (P1 & P2 & P3 & P4). split; [exact P1|]. split; [exact P2|]. split; [exact P3|].
  intros E. cbn. rewrite (P4 E). apply orb_true_r.
Qed.
Lemma J_fixed m A s i : J m A s -> i < L -> A i <> KINITIAL -> isclean (read_cell s tb i CKey) -> J m (fixed A i) s.
Proof.
  intros [H1 H2 H3 H4 (T & HT & H5 & H6 & H7 & H9 & H10) H11 H12] Hi HA Hr. constructor; try assumption.
  - intros j Hj HA'. destruct (H2 j Hj HA') as (F1 & c & F2). split; [exact F1|]. exists c. apply hm_fixed, F2.
  - intros k x E. destruct (H3 k x E) as (j & c & F). exists j, c. apply hm_fixed, F.
  - exists T. do 4 (split; [assumption|]). split; [exact H9|]. intros k j c Hh.
    pose proof (hm_lt _ _ _ _ Hh) as Hj. destruct Hh as (_ & _ & E1 & E2 & _). cbn in E1.
    destruct (H2 j Hj) as (_ & c2 & F); [congruence|]. rewrite E1 in F. eapply H10; eauto.
  - intros j Hj. cbn. destruct (Nat.eqb_spec j i) as [->|_]; cbn; auto.
Qed.

(** ** How the keys change *)
Section Call.
Context (o : op).

(** By other threads, and by the call itself. *)
Definition env A A' : Prop :=
  (forall j, A' j = A j \/
     (A j = KINITIAL /\ claim_key o <> Some (A' j) /\ (strict = true -> forall k, claim_key o = Some k -> haskey A k))) /\
  (forall i c, sn A i c = true -> sn A' i c = true) /\ (forall i, pk A i = true -> pk A' i = true).
Definition mild A A' : Prop :=
  ky A' = ky A /\ (forall i c, sn A i c = true -> sn A' i c = true) /\ (forall i, pk A i = true -> pk A' i = true).
Definition guar A A' : Prop := mild A A' \/
  exists j k, claim_key o = Some k /\ j < L /\ A j = KINITIAL /\ k <> KINITIAL /\ nokey A k /\ A' = claim A j k.

Lemma mild_refl A : mild A A. Proof. split; auto. Qed.
Lemma mild_seen A i c : mild A (seen A i c).
Proof. split; [reflexivity|]. split; [|auto]. intros i' c' H. cbn. rewrite H. apply orb_true_r. Qed.
Lemma mild_fixed A i : mild A (fixed A i).
Proof. split; [reflexivity|]. split; [auto|]. intros i' H. cbn. rewrite H. apply orb_true_r. Qed.
Lemma mild_trans A A' A'' : mild A A' -> mild A' A'' -> mild A A''.
Proof. intros (H1 & H2 & H3) (G1 & G2 & G3). split; [congruence|]. auto. Qed.
Lemma guar_refl A : guar A A. Proof. left. apply mild_refl. Qed.
Lemma env_mild A A' : mild A A' -> env A A'.
Proof. intros (H1 & H2 & H3). split; [intros j; left; rewrite H1; reflexivity|auto]. Qed.
Lemma env_refl A : env A A. Proof. apply env_mild, mild_refl. Qed.
Lemma env_seen A i c : env A (seen A i c).
Proof. apply env_mild, mild_seen. Qed.
Lemma env_sn A A' i c : env A A' -> sn A i c = true -> sn A' i c = true.
Proof. intros (_ & H & _). apply H. Qed.
Lemma env_pk A A' i : env A A' -> pk A i = true -> pk A' i = true.
Proof. intros (_ & _ & H). apply H. Qed.
Lemma env_trans A A' A'' : env A A' -> env A' A'' -> env A A''.
Proof.
  intros (H1 & S1 & P1) (H2 & S2 & P2). split; [|auto]. intros j. destruct (H2 j) as [E|(E1 & E2 & E3)].
  - rewrite E. apply H1.
  - right. split; [destruct (H1 j) as [E|(E & _)]; congruence|]. split; [exact E2|].
    intros Es k Ek. destruct (E3 Es k Ek) as (i & Hi & Ei). exists i. split; [exact Hi|]. destruct (H1 i) as [E|(_ & E & _)]; congruence.
Qed.
(** In a strict execution the others leave all keys alone while this call may still insert its own. *)
Lemma env_alone A A' k : env A A' -> strict = true -> claim_key o = Some k -> nokey A k -> forall j, A' j = A j.
Proof. intros (H & _) Hs Ho Hn j. destruct (H j) as [E|(_ & _ & E)]; [exact E|]. destruct (E Hs k Ho) as (i & Hi & Ei). destruct (Hn i Hi Ei). Qed.
Lemma env_keep A A' j : env A A' -> A j <> KINITIAL -> A' j = A j.
Proof. intros [H _] Hj. destruct (H j) as [E|(E & _)]; [exact E|contradiction]. Qed.
Lemma many_env A A' : many A -> env A A' -> many A'.
Proof.
  unfold many. intros H He. eapply Nat.le_trans; [exact H|]. apply count_mono. intros i _ Hi. rewrite (env_keep _ _ _ He Hi). exact Hi.
Qed.
Lemma pass_env A A' k c : pass A k c -> env A A' -> pass A' k c.
Proof.
  intros H He c' Hc'. destruct (H c' Hc') as (H1 & H2 & H3 & H4). unfold passed. rewrite (env_keep _ _ _ He H1).
  split; [exact H1|]. split; [exact H2|]. split; [exact H3|]. intros E. apply (env_pk _ _ _ He), H4, E.
Qed.
Lemma hm_env A A' k i c : hm A k i c -> env A A' -> hm A' k i c.
Proof.
  intros (H1 & H2 & H3 & H4 & H5) He. split; [exact H1|]. split; [exact H2|].
  split; [rewrite (env_keep _ _ _ He); congruence|]. split; [exact H4|]. eapply pass_env; eauto.
Qed.
Lemma nokey_env A A' k : claim_key o = Some k -> nokey A k -> env A A' -> nokey A' k.
Proof. intros Ho H [He _] i Hi E. destruct (He i) as [E'|(_ & E' & _)]; [apply (H i Hi); congruence|congruence]. Qed.
Lemma has_env A A' k : k <> KINITIAL -> haskey A k -> env A A' -> haskey A' k.
Proof. intros Hk (i & Hi & E) He. exists i. split; [exact Hi|]. rewrite (env_keep _ _ _ He); congruence. Qed.

(** ** Simulation: the call in progress has taken effect ([d] is its result) or not ([d = None]) *)
Definition broken (s : state) : Prop := match st_tabs s !! tb with Some T => t_new T <> None | None => False end.
Definition stp (d : option rsp) (m : gmap N N) (d' : option rsp) (m' : gmap N N) : Prop :=
  (d' = d /\ m' = m) \/ (d = None /\ exists r, d' = Some r /\ cstep m o r m').
Definition post_t (B : Type) : Type := B -> option rsp -> world -> Prop.

Fixpoint lk {B} (p : prog B) (Q : post_t B) (d : option rsp) A : Prop :=
  match p with
  | Ret a => Q a d A
  | Err e => e = OutOfFuel \/ many A
  | Vis c k => forall A' m s, env A A' -> J m A' s ->
      (broken (snd (exec c s)) /\ many A') \/
      exists d' m' A'', stp d m d' m' /\ guar A' A'' /\ J m' A'' (snd (exec c s)) /\
        lk (k (fst (exec c s))) Q d' A''
  end.

Definition closed {B} (Q : post_t B) : Prop := forall a d A A', Q a d A -> env A A' -> Q a d A'.

Lemma lk_env {B} (p : prog B) Q d A A' : closed Q -> lk p Q d A -> env A A' -> lk p Q d A'.
Proof.
  intros HQ H He. destruct p as [a|e|c k]; cbn in *.
  - eapply HQ; eauto.
  - destruct H as [H|H]; [auto|right; eapply many_env; eauto].
  - intros A2 m s He2. apply H. eapply env_trans; eauto.
Qed.

Lemma lk_mono {B} (p : prog B) (Q Q' : post_t B) d A : (forall a d A, Q a d A -> Q' a d A) -> lk p Q d A -> lk p Q' d A.
Proof.
  intros HQ. revert d A. induction p as [a|e|c k IH]; cbn; intros d A H; [auto|exact H|].
  intros A' m s He HJ. destruct (H A' m s He HJ) as [Hb|(d' & m' & A'' & H1 & H2 & H3 & H4)]; [auto|].
  right. exists d', m', A''. auto.
Qed.

Lemma lk_bind {B D} (p : prog B) (f : B -> prog D) Q d A : lk p (fun a => lk (f a) Q) d A -> lk (bind p f) Q d A.
Proof.
  revert d A. induction p as [a|e|c k IH]; cbn; intros d A H; [exact H|exact H|].
  intros A' m s He HJ. destruct (H A' m s He HJ) as [Hb|(d' & m' & A'' & H1 & H2 & H3 & H4)]; [auto|].
  right. exists d', m', A''. auto.
Qed.

Lemma lk_stay {B} c (k : res c -> prog B) Q d A :
  (forall A' m s, env A A' -> J m A' s -> J m A' (snd (exec c s)) /\ lk (k (fst (exec c s))) Q d A') -> lk (Vis c k) Q d A.
Proof.
  intros H A' m s He HJ. destruct (H A' m s He HJ) as [H1 H2]. right. exists d, m, A'.
  split; [left; auto|]. split; [apply guar_refl|]. auto.
Qed.

Lemma lk_assert (b : bool) (Q : post_t unit) d A : b = true -> Q tt d A -> lk (assert_ C b) Q d A.
Proof. intros -> H. exact H. Qed.

Lemma lk_Len {B} (k : nat -> prog B) Q d A : (forall A', env A A' -> lk (k L) Q d A') -> lk (Vis (Len tb) k) Q d A.
Proof.
  intros H. apply lk_stay. intros A' m s He HJ. split; [exact HJ|]. destruct (j_tab _ _ _ HJ) as (T & H3 & H4 & _).
  cbn. rewrite H3, H4. auto.
Qed.
Lemma lk_LoadTop {B} (k : nat -> prog B) Q d A : (forall A', env A A' -> lk (k tb) Q d A') -> lk (Vis LoadTop k) Q d A.
Proof. intros H. apply lk_stay. intros A' m s He HJ. split; [exact HJ|]. cbn. rewrite (j_top _ _ _ HJ). auto. Qed.
Lemma lk_LoadNew {B} (k : option nat -> prog B) Q d A :
  (forall A', env A A' -> lk (k None) Q d A') -> lk (Vis (LoadNew tb) k) Q d A.
Proof.
  intros H. apply lk_stay. intros A' m s He HJ. split; [exact HJ|]. destruct (j_tab _ _ _ HJ) as (T & H3 & H4 & H5 & H6 & _).
  cbn. rewrite H3, H6. auto.
Qed.
Lemma lk_LoadF {B} f (k : N -> prog B) Q d A :
  (forall A' y, env A A' -> lk (k y) Q d A') -> lk (Vis (LoadF tb f) k) Q d A.
Proof. intros H. apply lk_stay. intros A' m s He HJ. split; [exact HJ|]. apply H, He. Qed.
Lemma lk_AddF {B} f x (k : N -> prog B) Q d A :
  (forall A' y, env A A' -> lk (k y) Q d A') -> f = FSize \/ f = FSlots -> lk (Vis (AddF tb f x) k) Q d A.
Proof.
  intros H Hf. apply lk_stay. intros A' m s He HJ. split; [|apply H, He]. cbn. apply J_with; [exact HJ|intros T _; destruct Hf as [->| ->]; auto|intros T; destruct Hf as [->| ->]; auto].
Qed.

(** Once the table is full, a thread that resizes it leaves the simulation. *)
Lemma J_tabs m A s T' : J m A s ->
  J m A (mkState (st_tabs s ++ [T']) (st_top s) (st_fctr s) (st_files s) (st_ppl s) (st_maxcap s)).
Proof.
  intros [H1 H2 H3 H4 (T & HT & H5) H6 H7].
  assert (HT' : st_tabs (mkState (st_tabs s ++ [T']) (st_top s) (st_fctr s) (st_files s) (st_ppl s) (st_maxcap s)) !! tb = Some T)
    by (cbn; rewrite lookup_app_l by (eapply lookup_lt_Some; eauto); exact HT).
  constructor; try assumption; [exists T; auto| |].
  - intros i Hi Hp. rewrite (read_key _ _ _ _ HT'), <- (read_key _ _ _ _ HT). apply H6; assumption.
  - destruct H7 as [F1 F2 F3 F4 F5 F6]. constructor; try assumption.
    + cbn. rewrite app_length. lia.
    + intros t Ht Hne. cbn. rewrite lookup_app_l by lia. apply F5; assumption.
    + intros T0 T1 E0 E1. rewrite HT' in E1. injection E1 as <-. eapply F6; eauto.
Qed.
Lemma J_fctr m A s x : J m A s -> J m A (mkState (st_tabs s) (st_top s) x (st_files s) (st_ppl s) (st_maxcap s)).
Proof. intros [H1 H2 H3 H4 H5 H6 [F1 F2 F3 F4 F5 F6]]. constructor; try assumption. constructor; assumption. Qed.

Lemma lk_resize (Q : post_t nat) d A : many A -> lk (resize C tb) Q d A.
Proof.
  intros Hm. unfold resize. apply lk_bind, lk_LoadNew. intros A1 He1. cbn [lk]. apply lk_bind, lk_Len. intros A2 He2. cbn [lk].
  apply lk_bind, lk_LoadF. intros A3 y He3. cbn [lk]. apply lk_bind, lk_LoadNew. intros A4 He4. cbn [lk].
  assert (Hm4 : many A4) by (eapply many_env; [|exact He4]; eapply many_env; [|exact He3]; eapply many_env; [|exact He2]; eapply many_env; eauto).
  clear - Hm4 HL Hpow HL59 Hsext. apply lk_bind. apply lk_stay. intros A5 m5 s5 He5 HJ5. split; [apply J_fctr, HJ5|]. cbn [lk exec fst].
  apply lk_bind. apply lk_stay. intros A6 m6 s6 He6 HJ6.
  assert (Hm6 : many A6) by (eapply many_env; [|exact He6]; eapply many_env; eauto). cbn [exec].
  destruct (mmap_table _ _ _ _ _) as [T'|]; cbn [fst snd].
  2:{ split; [exact HJ6|]. right. exact Hm6. }
  split; [apply J_tabs, HJ6|]. generalize (length (st_tabs s6)). intros nt. clear - Hm6 HL Hpow HL59 Hsext. cbn [lk].
  apply lk_bind. apply lk_stay. intros A7 m7 s7 He7 HJ7. split; [exact HJ7|].
  assert (Hm7 : many A7) by (eapply many_env; eauto). generalize (fst (exec (Len nt) s7)). intros cap. cbn [lk]. clear - Hm7 HL Hpow HL59 Hsext.
  apply lk_bind. unfold assert_. destruct (_ || _); [|right; exact Hm7]. cbn [lk]. unfold CASNewTable. apply lk_bind, lk_bind.
  cbn -[exec]. intros A8 m8 s8 He8 HJ8. left. split; [|eapply many_env; eauto].
  destruct (j_tab _ _ _ HJ8) as (T & HT & _ & _ & HN & _). unfold exec. rewrite HT, HN. cbn.
  unfold broken. cbn. rewrite list_lookup_alter, HT. cbn. discriminate.
Qed.

Lemma lk_bounds i (Q : post_t unit) d A : i < L -> (forall A', env A A' -> Q tt d A') -> lk (bounds C tb i) Q d A.
Proof.
  intros Hi H. unfold bounds. apply lk_Len. intros A' He. cbn [bind]. apply Nat.ltb_lt in Hi. rewrite Hi. apply H, He.
Qed.

Lemma lk_persist i c w (Q : post_t N) d A : (forall a A', env A A' -> Q a d A') -> lk (persist tb i c w) Q d A.
Proof.
  intros H. unfold persist. cbn -[exec lk]. apply lk_stay. intros A1 m1 s1 He1 HJ1. split; [exact HJ1|].
  generalize (fst (exec (Flush tb i) s1)). intros v. cbn -[exec lk].
  apply lk_stay. intros A2 m2 s2 He2 HJ2. split.
  { cbn. apply J_with; [exact HJ2|auto|auto]. }
  apply lk_stay. intros A3 m3 s3 He3 HJ3. cbn [exec].
  assert (He : env A A3) by (eapply env_trans; [|exact He3]; eapply env_trans; eauto).
  destruct (N.eqb_spec (read_cell s3 tb i c) w) as [E|E]; cbn.
  - split; [|apply H, He]. rewrite <- E. apply J_clean, HJ3.
  - split; [exact HJ3|apply H, He].
Qed.

Lemma read_write s i c w : i < L -> (exists T, st_tabs s !! tb = Some T /\ length (t_pairs T) = L) ->
  read_cell (with_tab tb (write_cell i c w) s) tb i c = w.
Proof.
  intros Hi (T & HT & Hl). assert (HT' : st_tabs (with_tab tb (write_cell i c w) s) !! tb = Some (write_cell i c w T)).
  { unfold with_tab; cbn [st_tabs]. rewrite list_lookup_alter, HT. reflexivity. }
  destruct c; [rewrite (read_key _ _ _ _ HT')|rewrite (read_val _ _ _ _ HT')]; cbn [write_cell set_pairs t_pairs].
  - apply keyat_set_key. lia.
  - apply valat_set_val. lia.
Qed.

(** The word of a new table, by its first readers. *)
Lemma lk_persist0 i c (Q : post_t N) d A : i < L -> (forall a A', env A A' -> sn A' i c = true -> Q a d A') ->
  lk (persist tb i c (dirty VINITIAL)) Q d A.
Proof.
  intros Hi H. unfold persist. cbn -[exec lk]. apply lk_stay. intros A1 m1 s1 He1 HJ1. split; [exact HJ1|].
  generalize (fst (exec (Flush tb i) s1)). intros v. cbn -[exec lk].
  apply lk_stay. intros A2 m2 s2 He2 HJ2. split.
  { cbn. apply J_with; [exact HJ2|auto|auto]. }
  intros A3 m3 s3 He3 HJ3. right.
  assert (He : env A (seen A3 i c)) by (eapply env_trans; [|apply env_seen]; eapply env_trans; [|exact He3]; eapply env_trans; eauto).
  exists d, m3, (seen A3 i c). split; [left; auto|]. split; [left; apply mild_seen|].
  split; [|apply H; [exact He|apply seen_sn]]. cbn [exec]. destruct (N.eqb_spec (read_cell s3 tb i c) (dirty VINITIAL)) as [E|E]; cbn [fst snd].
  - apply J_seen; [rewrite <- E; apply J_clean, HJ3|exact Hi|]. rewrite read_write; [discriminate|exact Hi|].
    destruct (j_tab _ _ _ HJ3) as (T & HT & _ & Hl & _). eauto.
  - apply J_seen; assumption.
Qed.

(** The key of an entry in use. *)
Lemma clean_or_same w w' : isMarked w DirtyFlag = true -> clean w' = clean w -> w' <> w -> isclean w'.
Proof.
  intros H E Hne. unfold isclean. destruct (isMarked w' DirtyFlag) eqn:E'; [exfalso; apply Hne|reflexivity].
  rewrite <- (dirty_id _ H), <- (dirty_id _ E'), <- (dirty_clean w), <- (dirty_clean w'), E. reflexivity.
Qed.
Lemma lk_persist_key i w (Q : post_t N) d A : i < L -> isMarked w DirtyFlag = true -> clean w = A i -> A i <> KINITIAL ->
  (forall a A', env A A' -> pk A' i = true -> Q a d A') -> lk (persist tb i CKey w) Q d A.
Proof.
  intros Hi Hw HwA HA H. unfold persist. cbn -[exec lk]. apply lk_stay. intros A1 m1 s1 He1 HJ1. split; [exact HJ1|].
  generalize (fst (exec (Flush tb i) s1)). intros v. cbn -[exec lk].
  apply lk_stay. intros A2 m2 s2 He2 HJ2. split.
  { cbn. apply J_with; [exact HJ2|auto|auto]. }
  intros A3 m3 s3 He3 HJ3. right.
  assert (He : env A A3) by (eapply env_trans; [|exact He3]; eapply env_trans; eauto).
  pose proof (env_keep _ _ _ He HA) as E3. pose proof (J_key _ _ _ _ HJ3 Hi) as Hr.
  exists d, m3, (fixed A3 i). split; [left; auto|]. split; [left; apply mild_fixed|].
  split; [|apply H; [eapply env_trans; [exact He|apply env_mild, mild_fixed]|cbn; rewrite Nat.eqb_refl; reflexivity]].
  cbn [exec]. destruct (N.eqb_spec (read_cell s3 tb i CKey) w) as [E|E]; cbn [fst snd].
  - apply J_fixed; [rewrite <- E; apply J_clean, HJ3|exact Hi|congruence|]. rewrite read_write; [apply clean_isclean|exact Hi|].
    destruct (j_tab _ _ _ HJ3) as (T & HT & _ & Hl & _). eauto.
  - apply J_fixed; [exact HJ3|exact Hi|congruence|]. apply (clean_or_same w); [exact Hw|congruence|exact E].
Qed.

Lemma lk_pcas_read i c (Q : post_t N) d A : i < L ->
  (forall A' m s, env A A' -> J m A' s -> exists d', stp d m d' m /\
     forall A'', env A' A'' -> sn A'' i c = true -> (c = CKey -> A' i <> KINITIAL -> pk A'' i = true) ->
     Q (clean (read_cell s tb i c)) d' A'') -> lk (pcas_read tb i c) Q d A.
Proof.
  intros Hi H. unfold pcas_read. cbn -[exec lk persist]. intros A' m s He HJ. right. destruct (H A' m s He HJ) as (d' & H1 & H2).
  cbn [exec fst snd]. destruct (N.eq_dec (read_cell s tb i c) (dirty VINITIAL)) as [E|E].
  - exists d', m, A'. split; [exact H1|]. split; [apply guar_refl|]. split; [exact HJ|]. apply lk_bind.
    assert (HK : c = CKey -> A' i = KINITIAL).
    { intros ->. rewrite <- (J_key _ _ _ _ HJ Hi), E. reflexivity. }
    rewrite E in *.
    change (isMarked (dirty VINITIAL) DirtyFlag) with true. cbn iota. apply lk_bind. apply lk_persist0; [exact Hi|].
    intros a A'' He' Hs. apply H2; [assumption..|]. intros Ec HA. destruct (HA (HK Ec)).
  - destruct (isMarked (read_cell s tb i c) DirtyFlag) eqn:Hd.
    + exists d', m, (seen A' i c). split; [exact H1|]. split; [left; apply mild_seen|]. split; [apply J_seen; assumption|]. apply lk_bind, lk_bind.
      destruct c.
      * pose proof (J_key _ _ _ _ HJ Hi) as Hk. destruct (N.eq_dec (A' i) KINITIAL) as [EA|EA].
        { exfalso. apply E. rewrite <- (dirty_id _ Hd), <- (dirty_clean (read_cell s tb i CKey)), Hk, EA. reflexivity. }
        apply lk_persist_key; [exact Hi|exact Hd|exact Hk|exact EA|]. intros a A'' He' Hp. apply H2; [eapply env_trans; [apply env_seen|exact He']| |auto].
        eapply env_sn; [exact He'|apply seen_sn].
      * apply lk_persist. intros a A'' He'. apply H2; [eapply env_trans; [apply env_seen|exact He']| |discriminate].
        eapply env_sn; [exact He'|apply seen_sn].
    + assert (HF : exists A2, mild A' A2 /\ J m A2 s /\ sn A2 i c = true /\ (c = CKey -> A' i <> KINITIAL -> pk A2 i = true)).
      { pose proof (J_seen _ _ _ _ _ HJ Hi E) as HJ2. destruct c.
        - destruct (N.eq_dec (A' i) KINITIAL) as [EA|EA].
          + exists (seen A' i CKey). split; [apply mild_seen|]. split; [exact HJ2|]. split; [apply seen_sn|]. intros _ HA. contradiction.
          + exists (fixed (seen A' i CKey) i). split; [eapply mild_trans; [apply mild_seen|apply mild_fixed]|].
            split; [apply J_fixed; assumption|]. split; [apply seen_sn|]. intros _ _. cbn. rewrite Nat.eqb_refl. reflexivity.
        - exists (seen A' i CVal). split; [apply mild_seen|]. split; [exact HJ2|]. split; [apply seen_sn|discriminate]. }
      destruct HF as (A2 & F1 & F2 & F3 & F4). exists d', m, A2. split; [exact H1|]. split; [left; exact F1|]. split; [exact F2|].
      apply lk_bind. cbn [lk]. apply H2; [apply env_mild, F1|exact F3|exact F4].
Qed.

Lemma lk_key i (Q : post_t N) d A : i < L ->
  (forall A' m s, env A A' -> J m A' s -> exists d', stp d m d' m /\
     forall A'', env A' A'' -> sn A'' i CKey = true -> (A' i <> KINITIAL -> pk A'' i = true) -> Q (A' i) d' A'') -> lk (key C tb i) Q d A.
Proof.
  intros Hi H. unfold key. apply lk_bind, lk_bounds; [exact Hi|]. intros A1 He1. apply lk_pcas_read; [exact Hi|]. intros A' m s He HJ.
  rewrite (J_key _ _ _ _ HJ Hi). destruct (H A' m s) as (d' & H1 & H2); [eapply env_trans; eauto|exact HJ|]. exists d'. auto.
Qed.

Lemma lk_value i (Q : post_t N) d A : i < L ->
  (forall A' m s, env A A' -> J m A' s -> exists d', stp d m d' m /\
     forall A'', env A' A'' -> sn A'' i CVal = true -> Q (clean (read_cell s tb i CVal)) d' A'') -> lk (value C tb i) Q d A.
Proof.
  intros Hi H. unfold value. apply lk_bind, lk_bounds; [exact Hi|]. intros A1 He1. apply lk_pcas_read; [exact Hi|]. intros A' m s He HJ.
  destruct (H A' m s) as (d' & H1 & H2); [eapply env_trans; eauto|exact HJ|]. exists d'. auto.
Qed.

Lemma stp_stay d m : stp d m d m. Proof. left. auto. Qed.

(** ** putIfMatch *)
Section Put.
Context (k nv ov : N) (g : N -> N) (CAS : casfun) (post : N -> rsp).
Context (Hk : client_key k) (Hnu : unmarked nv) (Hni : nv <> VINITIAL) (Hou : unmarked ov).
Context (HCAS : forall i V, CAS tb i V nv = (bounds C tb i ;;; r <-- pcas C tb i CVal V (g V);; Ret (snd r))).
Context (Hg : forall V, unmarked (g V) /\ isclean (g V)).
Context (Ho : nv = VTOMBSTONE \/ claim_key o = Some k).
Context (Hstep : forall m r m', cput m k nv ov g post r m' -> cstep m o r m').

Lemma lk_CAS i c V (Q : post_t N) d A : hm A k i c ->
  (forall A' m, env A A' -> holds m k V -> exists d', stp d m d' (<[k := g V]> m) /\ Q V d' A') ->
  (forall A' m w, env A A' -> holds m k w -> unmarked w -> w <> V -> exists d', stp d m d' m /\ Q w d' A') ->
  lk (CAS tb i V nv) Q d A.
Proof.
  intros Hh Hs Hf. rewrite HCAS. apply lk_bind, lk_bounds; [eapply hm_lt; eauto|]. intros A1 He1. apply lk_bind.
  unfold pcas. apply lk_bind. apply lk_pcas_read; [eapply hm_lt; eauto|]. intros A2 m2 s2 He2 _. exists d. split; [apply stp_stay|]. intros A3 He3 _ _.
  assert (He : env A A3) by (eapply env_trans; [|exact He3]; eapply env_trans; eauto). clear He1 He2 He3 A1 A2.
  cbn -[exec lk]. intros A' m s He' HJ. right. pose proof (env_trans _ _ _ He He') as He2.
  pose proof (J_val _ _ _ _ _ _ HJ (hm_env _ _ _ _ _ Hh He2)) as Hr. cbn [exec].
  destruct (N.eqb_spec (read_cell s tb i CVal) V) as [E|E].
  - rewrite E in Hr. destruct (Hs A' m He2 Hr) as (d' & H1 & H2). exists d', (<[k := g V]> m), A'.
    split; [exact H1|]. split; [apply guar_refl|]. cbn [fst snd].
    split; [eapply J_store; [exact HJ|eapply hm_env; eauto|apply Hg|apply Hg]|]. rewrite N.eqb_refl. exact H2.
  - assert (Hu : unmarked (read_cell s tb i CVal)).
    { unfold unmarked. rewrite <- isMarked_clean_mig, (holds_word _ _ _ Hr). apply (j_ok _ _ _ HJ). }
    destruct (Hf A' m _ He2 Hr Hu E) as (d' & H1 & H2). exists d', m, A'. split; [exact H1|]. split; [apply guar_refl|]. split; [exact HJ|].
    cbn [fst snd]. assert (E' : V <> read_cell s tb i CVal) by congruence. apply N.eqb_neq in E'. rewrite E'. exact H2.
Qed.

Definition done : post_t N := fun a d A => unmarked a /\ d = Some (post (pub a)) /\ (nv <> VTOMBSTONE -> haskey A k).

Lemma lk_updateLoop i c : forall n fwd V d A, hm A k i c -> unmarked V ->
  d = (if noMatch V ov then Some (post (pub V)) else None) ->
  lk (updateLoop C n CAS fwd tb i nv ov V) done d A.
Proof.
  induction n as [|n IH]; intros fwd V d A Hh HV Hd; [left; reflexivity|]. cbn [updateLoop].
  apply lk_bind, lk_assert; [rewrite HV; reflexivity|].
  destruct (noMatch V ov) eqn:Hm.
  { split; [exact HV|]. split; [exact Hd|]. intros _. eapply hm_has; eauto. }
  subst d. apply lk_bind. apply (lk_CAS i c); [exact Hh| |].
  - intros A' m He Hc. exists (Some (post (pub V))). split.
    { right. split; [reflexivity|]. exists (post (pub V)). split; [reflexivity|]. apply Hstep. exists V. auto. }
    rewrite N.eqb_refl. apply lk_bind.
    assert (HR : forall A1, env A A1 -> lk (countChange tb V nv ov) (fun _ d A => d = Some (post (pub V)) /\ hm A k i c)
              (Some (post (pub V))) A1).
    { intros A1 He1. assert (HR : forall A2, env A1 A2 -> hm A2 k i c).
      { intros A2 He2. eapply hm_env; [|exact He2]. eapply hm_env; eauto. }
      unfold countChange. destruct (negb (ov =? VINITIAL)%N); [|split; [reflexivity|apply HR, env_refl]].
      destruct (((V =? VINITIAL) || (V =? VTOMBSTONE))%N && negb (nv =? VTOMBSTONE)%N).
      - apply lk_bind, lk_AddF; [|auto]. intros A2 y He2. split; [reflexivity|apply HR, He2].
      - destruct (_ && _); [|split; [reflexivity|apply HR, env_refl]].
        apply lk_bind, lk_AddF; [|auto]. intros A2 y He2. split; [reflexivity|apply HR, He2]. }
    eapply lk_mono; [|apply HR, He]. cbn. intros _ d' A1 (-> & Hh1).
    split; [|split; [|intros _; eapply hm_has; eauto]].
    + destruct (_ && _); [apply VTOMBSTONE_unmarked|exact HV].
    + destruct (N.eqb_spec V VINITIAL) as [->|_]; [|reflexivity]. cbn [andb]. destruct (negb _); reflexivity.
  - intros A' m w He Hc Hwu Hw. exists (if noMatch w ov then Some (post (pub w)) else None). split.
    { destruct (noMatch w ov) eqn:E; [right|left; auto]. split; [reflexivity|]. exists (post (pub w)). split; [reflexivity|].
      apply Hstep. exists w. auto 10. }
    apply N.eqb_neq in Hw. rewrite Hw. apply lk_bind. apply lk_value; [eapply hm_lt; eauto|].
    intros A2 m2 s2 He2 HJ2. eexists. split; [apply stp_stay|]. intros A3 He3 _.
    assert (Hh2 : hm A2 k i c) by (eapply hm_env; [|exact He2]; eapply hm_env; eauto).
    rewrite (holds_word _ _ _ (J_val _ _ _ _ _ _ HJ2 Hh2)), (proj1 (j_ok _ _ _ HJ2 k)).
    apply IH; [eapply hm_env; eauto|exact Hwu|reflexivity].
Qed.

Definition claim_post : post_t claimed := fun r d A =>
  match r with
  | CRemoved => nv = VTOMBSTONE /\ d = Some (post VINITIAL)
  | CFull => many A
  | CSlot i V c => hm A k i c /\ unmarked V /\
      d = (if ((nv =? V)%N || noMatch V ov) then Some (post (pub V)) else None)
  end.

Lemma decide_now V m : holds m k V ->
  stp None m (if ((nv =? V)%N || noMatch V ov) then Some (post (pub V)) else None) m.
Proof.
  intros Hc. destruct ((nv =? V)%N || noMatch V ov) eqn:E; [|apply stp_stay]. right. split; [reflexivity|].
  exists (post (pub V)). split; [reflexivity|]. apply Hstep. exists V. split; [exact Hc|]. split; [reflexivity|]. left.
  split; [reflexivity|]. apply orb_true_iff in E as [E|E]; [left; apply N.eqb_eq, E|auto].
Qed.

Lemma lk_CASkey c dc (Q : post_t N) A : nv <> VTOMBSTONE -> nokey A k -> pass A k c -> c < reprobeLimit L ->
  sn A (pos (hash C k) L c) CVal = true -> (strict = true -> A (pos (hash C k) L c) = KINITIAL) ->
  (forall m, word m k = VINITIAL -> stp None m dc m) ->
  (forall A', env A A' -> A' (pos (hash C k) L c) = KINITIAL ->
     hm (claim A' (pos (hash C k) L c) k) k (pos (hash C k) L c) c -> Q KINITIAL dc (claim A' (pos (hash C k) L c) k)) ->
  (forall A' w, env A A' -> passed A' k (pos (hash C k) L c) -> clean w = A' (pos (hash C k) L c) -> Q w None A') ->
  lk (CASkey C tb (pos (hash C k) L c) KINITIAL k) Q None A.
Proof.
  intros Hnt Hno Hp Hc HS Hst Hd Hs Hf. destruct Ho as [|Ho']; [contradiction|]. set (j := pos (hash C k) L c) in *.
  assert (Hj : j < L) by apply pos_lt, HL0.
  unfold CASkey. apply lk_bind, lk_bounds; [exact Hj|]. intros A1 He1. apply lk_bind.
  unfold pcas. apply lk_bind. apply lk_pcas_read; [exact Hj|]. intros A2 m2 s2 He2 _. exists None. split; [apply stp_stay|]. intros A3 He3 HSk _.
  assert (He : env A A3) by (eapply env_trans; [|exact He3]; eapply env_trans; eauto). clear He1 He2 He3 A1 A2.
  cbn -[exec lk]. intros A' m s He' HJ. right. pose proof (env_trans _ _ _ He He') as He2.
  pose proof (nokey_env _ _ _ Ho' Hno He2) as Hno2. pose proof (pass_env _ _ _ _ Hp He2) as Hp2.
  cbn [exec]. destruct (N.eq_dec (A' j) KINITIAL) as [EA|EA].
  - destruct (J_unused _ _ _ _ HJ Hj EA) as (_ & Er & _). specialize (Er (env_sn _ _ _ _ He' HSk)). rewrite Er, N.eqb_refl. cbn [fst snd].
    destruct (J_claim _ _ _ k c HJ Hk Hno2 Hp2 Hc EA (env_sn _ _ _ _ He2 HS)) as [Hh HJ']. fold j in Hh, HJ'.
    pose proof (J_nokey _ _ _ _ HJ Hno2) as Hw.
    exists dc, m, (claim A' j k). split; [apply Hd, Hw|]. split.
    { right. exists j, k. split; [exact Ho'|]. pose proof (proj1 (proj2 Hk)). auto 10. }
    split; [exact HJ'|]. apply Hs; auto.
  - destruct (N.eqb_spec (read_cell s tb j CKey) KINITIAL) as [E|E].
    { exfalso. pose proof (J_key _ _ _ _ HJ Hj) as E'. rewrite E in E'. apply EA. rewrite <- E'. reflexivity. }
    exists None, m, A'. split; [apply stp_stay|]. split; [apply guar_refl|]. split; [exact HJ|].
    cbn [fst snd]. assert (E' : KINITIAL <> read_cell s tb j CKey) by congruence. apply N.eqb_neq in E'. rewrite E'.
    cbn [lk bind assert_ andb negb orb snd]. apply Hf; [exact He2| |apply (J_key _ _ _ _ HJ Hj)].
    split; [exact EA|]. split; [apply Hno2, Hj|]. split; [apply (j_wp _ _ _ HJ j Hj EA)|].
    intros Es. exfalso. apply EA. rewrite (env_alone _ _ _ He2 Es Ho' Hno). apply Hst, Es.
Qed.

Lemma lk_claimSlot : forall n c A, pass A k c -> c < reprobeLimit L ->
  lk (claimSlot C n tb k nv L (pos (hash C k) L c) c) claim_post None A.
Proof.
  destruct Hk as (Kc & Ki & Kt).
  induction n as [|n IH]; intros c A Hp Hc; [left; reflexivity|]. cbn [claimSlot].
  set (j := pos (hash C k) L c). assert (Hj : j < L) by apply pos_lt, HL0.
  assert (Hcheck : forall A' w V, pass A' k c -> passed A' k j -> clean w = A' j ->
    lk (if (w =? k)%N then Ret (CSlot j V c)
        else if (reprobeLimit L <=? S c) || (w =? KTOMBSTONE)%N then Ret CFull
        else claimSlot C n tb k nv L (mask (N.of_nat j + 1) L) (S c)) claim_post None A').
  { intros A' w V Hp' Hj' Hw. pose proof Hj' as (P1 & P2 & P3 & _).
    assert ((w =? k)%N = false) as -> by (apply N.eqb_neq; intros ->; rewrite (clean_id _ Kc) in Hw; congruence).
    assert ((w =? KTOMBSTONE)%N = false) as -> by (apply N.eqb_neq; intros ->; rewrite (clean_id _ KTOMBSTONE_clean) in Hw; congruence).
    rewrite orb_false_r. pose proof (pass_S _ _ _ Hp' Hj') as HpS. destruct (Nat.leb_spec (reprobeLimit L) (S c)) as [Hle|Hlt].
    - apply (pass_many A' k). replace (reprobeLimit L) with (S c) by lia. exact HpS.
    - apply (IH (S c)); assumption. }
  apply lk_bind. apply lk_key; [exact Hj|]. intros A1 m1 s1 He1 HJ1.
  pose proof (pass_env _ _ _ _ Hp He1) as Hp1.
  destruct (N.eq_dec (A1 j) KINITIAL) as [EA|EA].
  - (* an unused entry *)
    pose proof (J_empty _ _ _ _ _ HJ1 Ki Hp1 EA) as Hno. pose proof (J_nokey _ _ _ _ HJ1 Hno) as Hw.
    destruct (N.eq_dec nv VTOMBSTONE) as [Env|Env].
    + exists (Some (post VINITIAL)). split.
      { right. split; [reflexivity|]. exists (post VINITIAL). split; [reflexivity|]. apply Hstep. exists VINITIAL.
        split; [apply holds_V, Hw|]. split; [reflexivity|]. left. auto. }
      intros A2 He2 _ _. apply lk_bind. apply lk_value; [exact Hj|]. intros A3 m3 s3 He3 HJ3. eexists. split; [apply stp_stay|].
      intros A4 He4 _. rewrite EA. change (KINITIAL =? VINITIAL)%N with true. cbn iota. rewrite Env, N.eqb_refl.
      split; [exact Env|reflexivity].
    + exists None. split; [apply stp_stay|]. intros A2 He2 _ _. apply lk_bind. apply lk_value; [exact Hj|].
      intros A3 m3 s3 He3 HJ3. exists None. split; [apply stp_stay|]. intros A4 He4 HS4. rewrite EA.
      change (KINITIAL =? VINITIAL)%N with true. cbn iota. pose proof Env as Env'. apply N.eqb_neq in Env'. rewrite Env'. clear Env'.
      assert (HV : A3 j = KINITIAL -> clean (read_cell s3 tb j CVal) = VINITIAL) by (intros E; apply (J_unused _ _ _ _ HJ3 Hj E)).
      revert HV. generalize (clean (read_cell s3 tb j CVal)). intros V HV.
      destruct Ho as [|Ho']; [contradiction|].
      assert (He14 : env A1 A4) by (eapply env_trans; [|exact He4]; eapply env_trans; eauto).
      apply lk_bind. apply (lk_CASkey c (if ((nv =? VINITIAL)%N || noMatch VINITIAL ov) then Some (post (pub VINITIAL)) else None)).
      * exact Env.
      * eapply nokey_env; eauto.
      * eapply pass_env; eauto.
      * exact Hc.
      * exact HS4.
      * intros Es. fold j. rewrite (env_alone _ _ _ He14 Es Ho' Hno). exact EA.
      * intros m Hm. apply decide_now, holds_V, Hm.
      * fold j. intros A5 He5 E5 Hh5. rewrite N.eqb_refl.
        assert (V = VINITIAL) as ->.
        { apply HV. destruct (N.eq_dec (A3 j) KINITIAL) as [E|E]; [exact E|]. exfalso. apply E.
          rewrite <- (env_keep A3 A5 j); [exact E5| |exact E]. eapply env_trans; eauto. }
        apply lk_bind. apply lk_AddF; [|auto]. intros A6 y He6. split; [eapply hm_env; eauto|].
        split; [apply VINITIAL_unmarked|reflexivity].
      * fold j. intros A5 w He5 Hpj Hcw. assert ((w =? KINITIAL)%N = false) as ->.
        { apply N.eqb_neq. intros ->. rewrite (clean_id _ KINITIAL_clean) in Hcw. apply (proj1 Hpj). congruence. }
        apply Hcheck; [|exact Hpj|exact Hcw]. eapply pass_env; [exact Hp1|]. eapply env_trans; eauto.
  - exists None. split; [apply stp_stay|]. intros A2 He2 _ Hpk2. specialize (Hpk2 EA). pose proof (env_keep _ _ _ He2 EA) as E2.
    assert (EA' : (A1 j =? VINITIAL)%N = false) by (apply N.eqb_neq; exact EA). rewrite EA'.
    apply lk_bind. apply lk_value; [exact Hj|]. intros A3 m3 s3 He3 HJ3.
    assert (He13 : env A1 A3) by (eapply env_trans; eauto). pose proof (env_keep _ _ _ He13 EA) as E3.
    destruct (N.eq_dec (A1 j) k) as [Ek|Ek].
    + (* the key *)
      assert (Hh : hm A1 k j c) by (split; [exact Hc|split; [reflexivity|split; [exact Ek|split; [exact Ki|exact Hp1]]]]).
      pose proof (hm_env _ _ _ _ _ Hh He13) as Hh3. pose proof (J_val _ _ _ _ _ _ HJ3 Hh3) as Hv. pose proof (holds_clean _ _ _ Hv) as Hv2. rewrite (holds_word _ _ _ Hv) in *. rewrite Ek, N.eqb_refl.
      exists (if ((nv =? word m3 k)%N || noMatch (word m3 k) ov) then Some (post (pub (word m3 k))) else None). split.
      { apply decide_now. exact Hv2. }
      intros A4 He4 _. split; [eapply hm_env; eauto|]. split; [apply (j_ok _ _ _ HJ3)|reflexivity].
    + (* another key *)
      exists None. split; [apply stp_stay|]. intros A4 He4 _.
      assert (He14 : env A1 A4) by (eapply env_trans; eauto). pose proof (env_keep _ _ _ He14 EA) as E4.
      destruct (j_wp _ _ _ HJ1 j Hj EA) as [Et _].
      apply Hcheck.
      * eapply pass_env; eauto.
      * unfold passed. rewrite E4. split; [exact EA|]. split; [exact Ek|]. split; [exact Et|]. intros _.
        eapply env_pk; [|exact Hpk2]. eapply env_trans; eauto.
      * rewrite E4. rewrite <- (J_key _ _ _ _ HJ1 Hj). apply clean_clean.
Qed.

Lemma lk_put n A : lk (putIfMatch C n CAS tb k nv ov) done None A.
Proof.
  destruct n as [|n]; [left; reflexivity|]. cbn [putIfMatch]. unfold putBody.
  assert (Hni' : (nv =? VINITIAL)%N = false) by (apply N.eqb_neq; exact Hni).
  apply lk_bind, lk_assert; [rewrite Hni'; reflexivity|].
  apply lk_bind, lk_assert; [rewrite Hnu; reflexivity|].
  apply lk_bind, lk_assert; [rewrite Hou; reflexivity|].
  apply lk_bind, lk_Len. intros A1 He1. cbn [lk].
  apply lk_bind. eapply lk_mono; [|apply (lk_claimSlot n 0)].
  2:{ intros c' Hc'. lia. }
  2:{ unfold reprobeLimit, REPROBE_LIMIT. lia. }
  cbn beta. intros r d A2 Hr. destruct r as [|i V rp|].
  - destruct Hr as [Env ->]. split; [exact Hnu|]. split; [rewrite Env; reflexivity|]. intros E. contradiction.
  - destruct Hr as (Hh & HV & ->). destruct (N.eqb_spec nv V) as [->|Hne]; cbn [orb].
    { split; [exact HV|]. split; [reflexivity|]. intros _. eapply hm_has; eauto. }
    apply lk_bind.
    assert (Hfull : lk (if (V =? VINITIAL)%N then tableFull tb rp L else Ret false)
      (fun b d A => d = (if noMatch V ov then Some (post (pub V)) else None) /\ hm A k i rp /\ (b = true -> many A))
      (if noMatch V ov then Some (post (pub V)) else None) A2).
    { destruct (V =? VINITIAL)%N; [|split; [reflexivity|split; [exact Hh|discriminate]]].
      unfold tableFull. destruct (Nat.leb_spec REPROBE_LIMIT rp) as [Hrp|Hrp]; [|split; [reflexivity|split; [exact Hh|discriminate]]].
      apply lk_bind, lk_LoadF. intros A3 y He3. cbn [lk]. split; [reflexivity|]. split; [eapply hm_env; eauto|].
      intros _. eapply hm_many; [|exact Hrp]. eapply hm_env; eauto. }
    eapply lk_mono; [|exact Hfull]. cbn beta. intros b d A3 (-> & Hh3 & Hb).
    rewrite HV, orb_false_r. destruct b.
    + apply lk_bind. apply lk_resize. apply Hb. reflexivity.
    + apply (lk_updateLoop i rp); auto.
  - apply lk_bind. apply lk_resize. exact Hr.
Qed.

Lemma lk_putPub n A : (ov =? VINITIAL)%N = false ->
  lk (putIfMatchPub C n k nv ov CAS)
    (fun a d A => d = Some (post a) /\ (nv <> VTOMBSTONE -> haskey A k)) None A.
Proof.
  intros Hoi. unfold putIfMatchPub.
  assert (Hni' : (nv =? VINITIAL)%N = false) by (apply N.eqb_neq; exact Hni).
  apply lk_bind, lk_assert; [rewrite Hni'; reflexivity|].
  apply lk_bind, lk_assert; [rewrite Hoi; reflexivity|].
  apply lk_bind, lk_LoadTop. intros A1 He1. cbn [lk]. apply lk_bind. eapply lk_mono; [|apply lk_put].
  intros a d A2 (Ha & -> & Hh). apply lk_bind, lk_assert; [rewrite Ha; reflexivity|].
  split; [reflexivity|exact Hh].
Qed.
End Put.

(** ** get *)
Section Get.
Context (k : N) (post : N -> rsp).
Context (Hk : client_key k).
Context (Hget : forall m, cstep m o (post (pub (word m k))) m).

Lemma get_now m : stp None m (Some (post (pub (word m k)))) m.
Proof. right. split; [reflexivity|]. exists (post (pub (word m k))). auto. Qed.

Lemma lk_getLoop : forall n put rec c A, pass A k c -> c < reprobeLimit L ->
  lk (getLoop C n put rec tb k L (pos (hash C k) L c) c) (fun a d A => unmarked a /\ d = Some (post a)) None A.
Proof.
  destruct Hk as (Kc & Ki & Kt).
  induction n as [|n IH]; intros put rec c A Hp Hc; [left; reflexivity|]. cbn [getLoop].
  set (j := pos (hash C k) L c). assert (Hj : j < L) by apply pos_lt, HL0.
  apply lk_bind. apply lk_key; [exact Hj|]. intros A1 m1 s1 He1 HJ1.
  pose proof (pass_env _ _ _ _ Hp He1) as Hp1.
  destruct (N.eq_dec (A1 j) KINITIAL) as [EA|EA].
  - pose proof (J_nokey _ _ _ _ HJ1 (J_empty _ _ _ _ _ HJ1 Ki Hp1 EA)) as Hw.
    exists (Some (post (pub (word m1 k)))). split; [apply get_now|]. rewrite Hw.
    intros A2 He2 _ _. apply lk_bind. apply lk_value; [exact Hj|]. intros A3 m3 s3 He3 HJ3. eexists. split; [apply stp_stay|].
    intros A4 He4 _. rewrite EA, N.eqb_refl. split; [apply VINITIAL_unmarked|reflexivity].
  - assert (EA' : (A1 j =? KINITIAL)%N = false) by (apply N.eqb_neq; exact EA). rewrite EA'.
    destruct (N.eq_dec (A1 j) k) as [Ek|Ek].
    + exists None. split; [apply stp_stay|]. intros A2 He2 _ _. apply lk_bind. apply lk_value; [exact Hj|]. intros A3 m3 s3 He3 HJ3.
      assert (Hh : hm A1 k j c) by (split; [exact Hc|split; [reflexivity|split; [exact Ek|split; [exact Ki|exact Hp1]]]]).
      assert (He13 : env A1 A3) by (eapply env_trans; eauto).
      rewrite (holds_word _ _ _ (J_val _ _ _ _ _ _ HJ3 (hm_env _ _ _ _ _ Hh He13))).
      exists (Some (post (pub (word m3 k)))). split; [apply get_now|]. intros A4 He4 _. apply lk_bind, lk_LoadNew. intros A5 He5.
      cbn [lk]. rewrite Ek, N.eqb_refl. pose proof (proj1 (j_ok _ _ _ HJ3 k)) as Hu. rewrite Hu. cbn [negb lk].
      split; [destruct (word m3 k =? VTOMBSTONE)%N; [apply VINITIAL_unmarked|exact Hu]|reflexivity].
    + pose proof (proj1 (j_wp _ _ _ HJ1 j Hj EA)) as Kt1. assert ((A1 j =? k)%N = false) as -> by (apply N.eqb_neq, Ek).
      assert ((A1 j =? KTOMBSTONE)%N = false) as -> by (apply N.eqb_neq; exact Kt1). rewrite orb_false_r.
      destruct (Nat.leb_spec (reprobeLimit L) (S c)) as [Hle|Hlt].
      * assert (Hw : word m1 k = VINITIAL).
        { apply (J_nokey _ _ _ _ HJ1). intros i Hi E. destruct (j_wp _ _ _ HJ1 i Hi) as (_ & c' & Hc1 & Hc2 & Hc3 & Hc4 & Hc5); [congruence|].
          rewrite E in *. destruct (Nat.eq_dec c' c) as [->|Hne]; [apply Ek; fold j in Hc2; congruence|].
          destruct (Hp1 c') as (_ & X & _); [lia|]. congruence. }
        exists (Some (post (pub (word m1 k)))). split; [apply get_now|]. rewrite Hw. intros A2 He2 _ _.
        apply lk_bind. apply lk_value; [exact Hj|]. intros A3 m3 s3 He3 HJ3. eexists. split; [apply stp_stay|].
        intros A4 He4 _. apply lk_bind, lk_LoadNew. intros A5 He5. cbn [lk]. split; [apply VINITIAL_unmarked|reflexivity].
      * exists None. split; [apply stp_stay|]. intros A2 He2 _ Hpk2. specialize (Hpk2 EA).
        assert (Hpj : passed A2 k j).
        { unfold passed. rewrite (env_keep _ _ _ He2 EA). auto. }
        pose proof (pass_S _ _ _ (pass_env _ _ _ _ Hp1 He2) Hpj) as HpS.
        apply lk_bind. apply lk_value; [exact Hj|]. intros A3 m3 s3 He3 HJ3. eexists. split; [apply stp_stay|].
        intros A4 He4 _. apply lk_bind, lk_LoadNew. intros A5 He5. cbn [lk].
        apply (IH put rec (S c)); [|exact Hlt]. eapply pass_env; [exact HpS|].
        eapply env_trans; [|exact He5]. eapply env_trans; eauto.
Qed.

Lemma lk_get n A : lk (get C n k) (fun a d A => d = Some (post a)) None A.
Proof.
  unfold get. apply lk_bind, lk_LoadTop. intros A1 He1. cbn [lk]. apply lk_bind.
  destruct n as [|n]; [left; reflexivity|]. cbn [getImpl]. apply lk_bind, lk_Len. intros A2 He2. cbn [lk]. rewrite Hsext.
  eapply lk_mono; [|apply (lk_getLoop n _ _ 0)].
  - intros a d A3 (Ha & ->). apply lk_bind, lk_assert; [rewrite Ha; reflexivity|]. reflexivity.
  - intros c' Hc'. lia.
  - unfold reprobeLimit, REPROBE_LIMIT. lia.
Qed.
End Get.
End Call.

(** ** The calls *)
Definition finished (o : op) : post_t rsp := fun r d A =>
  d = Some r /\ forall k, claim_key o = Some k -> k <> KINITIAL /\ haskey A k.

Lemma lk_op n o A : legal_op o -> lk o (op_prog C n o) (finished o) None A.
Proof.
  intros Hleg.
  assert (Hval : forall v, legal_val v -> unmarked v /\ v <> VINITIAL /\ v <> VTOMBSTONE /\ isclean v).
  { intros v Hv. pose proof (legal_val_neq v Hv) as (V1 & V2 & _). destruct (legal_live v Hv) as (Hu & _). split; [exact Hu|].
    split; [exact V1|]. split; [exact V2|apply Hv]. }
  assert (Hfin : forall (k : N) d (x : rsp) A, claim_key o = Some k \/ claim_key o = None -> legal_key k ->
     d = Some x -> (claim_key o = Some k -> haskey A k) -> finished o x d A).
  { intros k d x A1 Hc Hk -> Hh. split; [reflexivity|]. intros k' E. destruct Hc as [Hc|Hc]; [|congruence].
    rewrite Hc in E. injection E as <-. split; [apply (legal_client _ Hk)|apply Hh, Hc]. }
  destruct o as [k|k|k v|k v|k|k v|k ov v|k|]; cbn [op_prog] in *.
  - (* get *)
    apply lk_bind. eapply lk_mono; [|apply (lk_get _ k RVal)].
    + intros a d A1 ->. split; [reflexivity|discriminate].
    + apply legal_client, Hleg.
    + intros m. split; reflexivity.
  - (* containsKey *)
    unfold containsKey. apply lk_bind, lk_bind. eapply lk_mono; [|apply (lk_get _ k (fun V => RBool (negb (V =? KINITIAL)%N)))].
    + intros a d A1 ->. split; [reflexivity|discriminate].
    + apply legal_client, Hleg.
    + intros m. split; reflexivity.
  - (* put *)
    destruct Hleg as [Hk Hv]. destruct (Hval v Hv) as (V1 & V2 & V3 & V4). unfold put. apply lk_bind.
    eapply lk_mono; [|apply (lk_putPub _ k v NO_MATCH_OLD (fun _ => v) (CASvalue C) RVal)].
    + intros a d A1 (-> & Hh). apply (Hfin k); auto.
    + apply legal_client, Hk.
    + exact V1.
    + exact V2.
    + apply NO_MATCH_OLD_unmarked.
    + reflexivity.
    + auto.
    + right. reflexivity.
    + intros m r m' H. exact H.
    + reflexivity.
  - (* putIfAbsent *)
    destruct Hleg as [Hk Hv]. destruct (Hval v Hv) as (V1 & V2 & V3 & V4). unfold putIfAbsent. apply lk_bind.
    eapply lk_mono; [|apply (lk_putPub _ k v VTOMBSTONE (fun _ => v) (CASvalue C) RVal)].
    + intros a d A1 (-> & Hh). apply (Hfin k); auto.
    + apply legal_client, Hk.
    + exact V1.
    + exact V2.
    + apply VTOMBSTONE_unmarked.
    + reflexivity.
    + auto.
    + right. reflexivity.
    + intros m r m' H. exact H.
    + reflexivity.
  - (* remove *)
    unfold remove. apply lk_bind, lk_bind.
    eapply lk_mono; [|apply (lk_putPub _ k VTOMBSTONE NO_MATCH_OLD (fun _ => VTOMBSTONE) (CASvalue C) (fun a => RBool (negb (a =? 0)%N)))].
    + intros a d A1 (-> & Hh). split; [reflexivity|discriminate].
    + apply legal_client, Hleg.
    + apply VTOMBSTONE_unmarked.
    + discriminate.
    + apply NO_MATCH_OLD_unmarked.
    + reflexivity.
    + intros _. split; [apply VTOMBSTONE_unmarked|apply VTOMBSTONE_clean].
    + left. reflexivity.
    + intros m r m' H. exact H.
    + reflexivity.
  - (* remove(key, value) *)
    destruct Hleg as [Hk Hv]. destruct (Hval v Hv) as (V1 & V2 & V3 & V4). unfold removeVal. apply lk_bind, lk_bind.
    eapply lk_mono; [|apply (lk_putPub _ k VTOMBSTONE v (fun _ => VTOMBSTONE) (CASvalue C) (fun a => RBool (a =? v)%N))].
    + intros a d A1 (-> & Hh). split; [reflexivity|discriminate].
    + apply legal_client, Hk.
    + apply VTOMBSTONE_unmarked.
    + discriminate.
    + exact V1.
    + reflexivity.
    + intros _. split; [apply VTOMBSTONE_unmarked|apply VTOMBSTONE_clean].
    + left. reflexivity.
    + intros m r m' H. exact H.
    + apply N.eqb_neq. exact V2.
  - (* replace *)
    destruct Hleg as (Hk & Hov & Hv). destruct (Hval v Hv) as (V1 & V2 & V3 & V4). destruct (Hval ov Hov) as (W1 & W2 & W3 & W4).
    unfold replace. apply lk_bind, lk_bind.
    eapply lk_mono; [|apply (lk_putPub _ k v ov (fun _ => v) (CASvalue C) (fun a => RBool (a =? ov)%N))].
    + intros a d A1 (-> & Hh). apply (Hfin k); auto.
    + apply legal_client, Hk.
    + exact V1.
    + exact V2.
    + exact W1.
    + reflexivity.
    + auto.
    + right. reflexivity.
    + intros m r m' H. exact H.
    + apply N.eqb_neq. exact W2.
  - (* increment *)
    unfold incrementOp, update. apply lk_bind.
    eapply lk_mono; [|apply (lk_putPub _ k INCREMENT_ARG NO_MATCH_OLD incremented (increment C) RVal)].
    + intros a d A1 (-> & Hh). apply (Hfin k); auto.
    + apply legal_client, Hleg.
    + reflexivity.
    + discriminate.
    + apply NO_MATCH_OLD_unmarked.
    + reflexivity.
    + intros V. split; apply shl3_clean.
    + right. reflexivity.
    + intros m r m' H. exact H.
    + reflexivity.
  - (* size *)
    unfold size. apply lk_bind, lk_bind, lk_LoadTop. intros A1 He1. cbn [lk]. intros A2 m s He HJ. right. cbn [exec fst snd].
    eexists (Some (RVal _)), m, A2. split; [right; split; [reflexivity|]; eexists; split; [reflexivity|]; cbn; eauto|].
    split; [apply guar_refl|]. split; [exact HJ|].
    split; [reflexivity|discriminate].
Qed.

End LinNew.
