(** Concurrent calls in a table that has no successor: every call returns after a bounded number of its own steps, whatever
    the other threads do. *)
From Coq Require Import NArith Bool List Lia.
From stdpp Require Import base list gmap.
From Verif Require Import Word Bits Prog HashMap Conc Spec LinSpec Abs Probe CodecThm SeqInv SeqPut SeqGet SeqApi Lin LinNew LinNewThm.
Import ListNotations.
Open Scope nat_scope.
Open Scope prog_scope.

(** The value word of entry [i] of the first table. *)
Definition vw (s : state) (i : nat) : N := read_cell s 0 i CVal.

Section Live.
Context (C : cfg) (L M : nat).
Context (HL : 8 <= L) (HL58 : (N.of_nat L < 2 ^ 58)%N).

Record U (s : state) : Prop := mkU {
  u_top : st_top s = 0;
  u_files : st_files s = [];
  u_cap : (2 * N.of_nat L <= st_maxcap s)%N;
  u_tab : exists T, st_tabs s !! 0 = Some T /\ t_len T = L /\ length (t_pairs T) = L /\ t_new T = None;
  u_val : forall i, i < L -> unmarked (vw s i)
}.

Definition lens (s s' : state) : Prop :=
  forall t T, st_tabs s !! t = Some T -> exists T', st_tabs s' !! t = Some T' /\ t_len T' = t_len T.
(** Value words that nobody wrote, except to remove the unpersisted mark. *)
Definition same (s s' : state) : Prop := forall i, i < L -> vw s' i = vw s i \/ vw s' i = clean (vw s i).

(** Between two moments with [E] and [E'] value writes so far. *)
Definition env (E : nat) (s : state) (E' : nat) (s' : state) : Prop := E <= E' /\ lens s s' /\ (E = E' -> same s s').

Lemma lens_refl s : lens s s. Proof. intros t T H. eauto. Qed.
Lemma lens_trans s s' s'' : lens s s' -> lens s' s'' -> lens s s''.
Proof. intros H1 H2 t T H. destruct (H1 t T H) as (T' & E1 & E2). destruct (H2 t T' E1) as (T'' & E3 & E4). exists T''. split; congruence. Qed.
Lemma same_refl s : same s s. Proof. intros i _. auto. Qed.
Lemma same_trans s s' s'' : same s s' -> same s' s'' -> same s s''.
Proof.
  intros H1 H2 i Hi. destruct (H1 i Hi) as [E1|E1], (H2 i Hi) as [E2|E2]; rewrite E1 in E2; auto. rewrite clean_clean in E2. auto.
Qed.
Lemma env_refl E s : env E s E s. Proof. split; [lia|]. split; [apply lens_refl|]. intros _. apply same_refl. Qed.
Lemma env_trans E s E' s' E'' s'' : env E s E' s' -> env E' s' E'' s'' -> env E s E'' s''.
Proof.
  intros (H1 & H2 & H3) (H4 & H5 & H6). split; [lia|]. split; [eapply lens_trans; eauto|]. intros E0.
  eapply same_trans; [apply H3; lia|apply H6; lia].
Qed.
Lemma env_le E s E' s' : env E s E' s' -> E <= E'. Proof. intros H. apply H. Qed.
Lemma same_clean s s' i : same s s' -> i < L -> clean (vw s' i) = clean (vw s i).
Proof. intros H Hi. destruct (H i Hi) as [-> | ->]; [reflexivity|apply clean_clean]. Qed.

(** A step that does not write values. *)
Definition idle_step (s s' : state) : Prop := U s' /\ lens s s' /\ same s s'.
Lemma idle_env E s s' : idle_step s s' -> env E s E s'.
Proof. intros (_ & H1 & H2). split; [lia|]. auto. Qed.
Lemma idle_refl s : U s -> idle_step s s.
Proof. intros H. split; [exact H|]. split; [apply lens_refl|apply same_refl]. Qed.

Lemma lens_with s t f : (forall T, t_len (f T) = t_len T) -> lens s (with_tab t f s).
Proof.
  intros Hf t' T H. unfold with_tab; cbn [st_tabs]. destruct (Nat.eq_dec t t') as [->|Hne].
  - rewrite list_lookup_alter, H. cbn. eauto.
  - rewrite list_lookup_alter_ne by exact Hne. eauto.
Qed.
Lemma idle_with s f : U s -> (forall T, t_len (f T) = t_len T /\ t_pairs (f T) = t_pairs T /\ t_new (f T) = t_new T) ->
  idle_step s (with_tab 0 f s).
Proof.
  intros [H1 H2 H3 (T & HT & H4 & H5 & H6) H7] Hf.
  assert (HT' : st_tabs (with_tab 0 f s) !! 0 = Some (f T)) by (unfold with_tab; cbn [st_tabs]; rewrite list_lookup_alter, HT; reflexivity).
  destruct (Hf T) as (F1 & F2 & F3).
  assert (Hv : forall i, vw (with_tab 0 f s) i = vw s i) by (intros i; unfold vw, read_cell; rewrite HT', HT, F2; reflexivity).
  split; [|split].
  - constructor; try assumption; [exists (f T); rewrite F1, F2, F3; auto|]. intros i Hi. rewrite Hv. auto.
  - apply lens_with. apply Hf.
  - intros i _. left. apply Hv.
Qed.

Lemma write_tab s i c w T : st_tabs s !! 0 = Some T -> st_tabs (with_tab 0 (write_cell i c w) s) !! 0 = Some (write_cell i c w T).
Proof. intros H. unfold with_tab; cbn [st_tabs]. rewrite list_lookup_alter, H. reflexivity. Qed.
Lemma vw_key s i w j : vw (with_tab 0 (write_cell i CKey w) s) j = vw s j.
Proof.
  unfold vw, read_cell. destruct (st_tabs s !! 0) as [T|] eqn:HT; [rewrite (write_tab _ _ _ _ _ HT)|].
  - cbn. destruct (Nat.eq_dec i j) as [->|Hne]; [rewrite list_lookup_alter|rewrite list_lookup_alter_ne by exact Hne; reflexivity].
    destruct (t_pairs T !! j); reflexivity.
  - unfold with_tab; cbn [st_tabs]. rewrite list_lookup_alter, HT. reflexivity.
Qed.
Lemma vw_val s i w j : U s -> i < L -> vw (with_tab 0 (write_cell i CVal w) s) j = if Nat.eq_dec i j then w else vw s j.
Proof.
  intros [_ _ _ (T & HT & _ & Hl & _) _] Hi. unfold vw, read_cell. rewrite (write_tab _ _ _ _ _ HT), HT. cbn.
  destruct (Nat.eq_dec i j) as [<-|Hne]; [rewrite list_lookup_alter|rewrite list_lookup_alter_ne by exact Hne; reflexivity].
  destruct (lookup_lt_is_Some_2 (t_pairs T) i) as [p Hp]; [lia|]. rewrite Hp. reflexivity.
Qed.
Lemma U_write s i c w : U s -> (forall j, j < L -> unmarked (vw (with_tab 0 (write_cell i c w) s) j)) -> U (with_tab 0 (write_cell i c w) s).
Proof.
  intros [H1 H2 H3 (T & HT & H4 & H5 & H6) H7] Hv. constructor; try assumption.
  exists (write_cell i c w T). split; [apply write_tab, HT|]. cbn. rewrite alter_length. auto.
Qed.
Lemma lens_write s i c w : lens s (with_tab 0 (write_cell i c w) s).
Proof. apply lens_with. reflexivity. Qed.
Lemma idle_key s i w : U s -> idle_step s (with_tab 0 (write_cell i CKey w) s).
Proof.
  intros H. split; [apply U_write; [exact H|]; intros j Hj; rewrite vw_key; apply (u_val _ H), Hj|]. split; [apply lens_write|].
  intros j _. left. apply vw_key.
Qed.
Lemma idle_clean s i c : U s -> i < L -> idle_step s (with_tab 0 (write_cell i c (clean (read_cell s 0 i c))) s).
Proof.
  intros H Hi. destruct c; [apply idle_key, H|]. change (read_cell s 0 i CVal) with (vw s i).
  assert (Hv : forall j, j < L -> vw (with_tab 0 (write_cell i CVal (clean (vw s i))) s) j = vw s j \/
      vw (with_tab 0 (write_cell i CVal (clean (vw s i))) s) j = clean (vw s j)).
  { intros j Hj. rewrite vw_val by assumption. destruct (Nat.eq_dec i j) as [->|]; auto. }
  split; [apply U_write; [exact H|]|split; [apply lens_write|exact Hv]].
  intros j Hj. pose proof (u_val _ H j Hj) as Hu. destruct (Hv j Hj) as [-> | ->]; [exact Hu|].
  unfold unmarked. rewrite isMarked_clean_mig. exact Hu.
Qed.

(** ** Bounded programs: [b] is the number of steps left, [w] tells whether the call may still write a value *)
Definition post_t (B : Type) : Type := B -> bool -> nat -> nat -> state -> Prop.

Fixpoint lf {B} (p : prog B) (Q : post_t B) (w : bool) (b E : nat) (s : state) : Prop :=
  match p with
  | Ret a => Q a w b E s
  | Err _ => False
  | Vis c k =>
      match b with
      | O => False
      | S b' => forall E' s', U s' -> env E s E' s' -> E' <= M ->
          broken 0 (snd (exec c s')) \/
          exists w' E'', U (snd (exec c s')) /\ env E' s' E'' (snd (exec c s')) /\
            ((w' = w /\ E'' = E') \/ (w = true /\ w' = false /\ E'' = S E')) /\
            lf (k (fst (exec c s'))) Q w' b' E'' (snd (exec c s'))
      end
  end.

Lemma lf_mono {B} (p : prog B) (Q Q' : post_t B) w b E s : (forall a w b E s, Q a w b E s -> Q' a w b E s) ->
  lf p Q w b E s -> lf p Q' w b E s.
Proof.
  intros HQ. revert w b E s. induction p as [a|e|c k IH]; cbn; intros w b E s H; [auto|exact H|].
  destruct b as [|b]; [exact H|]. intros E' s' HU He Hm. destruct (H E' s' HU He Hm) as [Hb|(w' & E'' & H1 & H2 & H3 & H4)]; [auto|].
  right. exists w', E''. auto.
Qed.
Lemma lf_bind {B D} (p : prog B) (f : B -> prog D) Q w b E s : lf p (fun a => lf (f a) Q) w b E s -> lf (bind p f) Q w b E s.
Proof.
  revert w b E s. induction p as [a|e|c k IH]; cbn; intros w b E s H; [exact H|exact H|].
  destruct b as [|b]; [exact H|]. intros E' s' HU He Hm. destruct (H E' s' HU He Hm) as [Hb|(w' & E'' & H1 & H2 & H3 & H4)]; [auto|].
  right. exists w', E''. auto.
Qed.

(** Later moments, as seen by the call. *)
Definition later (E : nat) (s : state) (E' : nat) (s' : state) : Prop := U s' /\ env E s E' s' /\ E' <= M.
Lemma later_trans E s E' s' E'' s'' : later E s E' s' -> later E' s' E'' s'' -> later E s E'' s''.
Proof. intros (_ & H & _) (H1 & H2 & H3). split; [exact H1|]. split; [eapply env_trans; eauto|exact H3]. Qed.

Lemma lf_stay {B} c (k : res c -> prog B) Q w b E s : 1 <= b ->
  (forall E' s', later E s E' s' -> idle_step s' (snd (exec c s')) /\ lf (k (fst (exec c s'))) Q w (b - 1) E' (snd (exec c s'))) ->
  lf (Vis c k) Q w b E s.
Proof.
  intros Hb H. destruct b as [|b]; [lia|]. cbn [lf]. intros E' s' HU He Hm. right. destruct (H E' s') as [H1 H2]; [split; auto|].
  exists w, E'. split; [apply H1|]. split; [apply idle_env, H1|]. split; [auto|]. rewrite Nat.sub_1_r in H2. exact H2.
Qed.
Lemma lf_look {B} c (k : res c -> prog B) Q w b E s : 1 <= b -> (forall s', snd (exec c s') = s') ->
  (forall E' s', later E s E' s' -> lf (k (fst (exec c s'))) Q w (b - 1) E' s') -> lf (Vis c k) Q w b E s.
Proof.
  intros Hb Hs H. apply lf_stay; [exact Hb|]. intros E' s' Hl. rewrite Hs. split; [apply idle_refl, Hl|apply H, Hl].
Qed.

Lemma lf_assert (x : bool) (Q : post_t unit) w b E s : x = true -> Q tt w b E s -> lf (assert_ C x) Q w b E s.
Proof. intros -> H. exact H. Qed.
Lemma lf_Len {B} (k : nat -> prog B) Q w b E s : 1 <= b ->
  (forall E' s', later E s E' s' -> lf (k L) Q w (b - 1) E' s') -> lf (Vis (Len 0) k) Q w b E s.
Proof.
  intros Hb H. apply lf_look; [exact Hb|reflexivity|]. intros E' s' Hl. cbn.
  destruct (u_tab _ (proj1 Hl)) as (T & -> & -> & _). apply H, Hl.
Qed.
Lemma lf_LoadTop {B} (k : nat -> prog B) Q w b E s : 1 <= b ->
  (forall E' s', later E s E' s' -> lf (k 0) Q w (b - 1) E' s') -> lf (Vis LoadTop k) Q w b E s.
Proof.
  intros Hb H. apply lf_look; [exact Hb|reflexivity|]. intros E' s' Hl. cbn. rewrite (u_top _ (proj1 Hl)). apply H, Hl.
Qed.
Lemma lf_LoadNew {B} (k : option nat -> prog B) Q w b E s : 1 <= b ->
  (forall E' s', later E s E' s' -> lf (k None) Q w (b - 1) E' s') -> lf (Vis (LoadNew 0) k) Q w b E s.
Proof.
  intros Hb H. apply lf_look; [exact Hb|reflexivity|]. intros E' s' Hl. cbn.
  destruct (u_tab _ (proj1 Hl)) as (T & -> & _ & _ & ->). apply H, Hl.
Qed.
Lemma lf_LoadF {B} f (k : N -> prog B) Q w b E s : 1 <= b ->
  (forall E' s' y, later E s E' s' -> lf (k y) Q w (b - 1) E' s') -> lf (Vis (LoadF 0 f) k) Q w b E s.
Proof. intros Hb H. apply lf_look; [exact Hb|reflexivity|]. intros E' s' Hl. apply H, Hl. Qed.
Lemma lf_AddF {B} f x (k : N -> prog B) Q w b E s : 1 <= b ->
  (forall E' s' y, later E s E' s' -> lf (k y) Q w (b - 1) E' s') -> lf (Vis (AddF 0 f x) k) Q w b E s.
Proof.
  intros Hb H. apply lf_stay; [exact Hb|]. intros E' s' Hl. cbn.
  assert (Hi : idle_step s' (with_tab 0 (fun T => set_fld f (add64 (get_fld f T) x) T) s')) by (apply idle_with; [apply Hl|]; destruct f; auto).
  split; [exact Hi|]. apply H. eapply later_trans; [exact Hl|]. split; [apply Hi|]. split; [apply idle_env, Hi|apply Hl].
Qed.
Lemma lf_bounds i (Q : post_t unit) w b E s : i < L -> 1 <= b ->
  (forall E' s', later E s E' s' -> Q tt w (b - 1) E' s') -> lf (bounds C 0 i) Q w b E s.
Proof.
  intros Hi Hb H. unfold bounds. apply lf_Len; [exact Hb|]. intros E' s' Hl. cbn [bind]. apply Nat.ltb_lt in Hi. rewrite Hi. apply H, Hl.
Qed.

(** Removing the unpersisted mark: afterwards it is gone, unless somebody wrote in between. *)
Lemma lf_persist i c x (Q : post_t N) w b E s : i < L -> 3 <= b -> read_cell s 0 i c = x ->
  (forall a E' s', later E s E' s' -> (c = CVal -> E = E' -> vw s' i = clean x) -> Q a w (b - 3) E' s') ->
  lf (persist 0 i c x) Q w b E s.
Proof.
  intros Hi Hb Hx H. unfold persist. cbn -[exec lf]. apply lf_look; [lia|reflexivity|]. intros E1 s1 Hl1.
  generalize (fst (exec (Flush 0 i) s1)). intros v. cbn -[exec lf].
  apply lf_stay; [lia|]. intros E2 s2 Hl2.
  assert (Hi2 : idle_step s2 (snd (exec (Fence 0 i v) s2))) by (cbn; apply idle_with; [apply Hl2|auto]).
  split; [exact Hi2|]. set (s2' := snd (exec (Fence 0 i v) s2)) in *.
  assert (Hl2' : later E s E2 s2').
  { eapply later_trans; [exact Hl1|]. eapply later_trans; [exact Hl2|]. split; [apply Hi2|]. split; [apply idle_env, Hi2|apply Hl2]. }
  clearbody s2'. clear Hl1 Hl2 Hi2 s1 s2 E1. apply lf_stay; [lia|]. intros E3 s3 Hl3. pose proof (later_trans _ _ _ _ _ _ Hl2' Hl3) as Hl.
  clear Hl2' Hl3 E2 s2'. replace (b - 1 - 1 - 1) with (b - 3) by lia.
  cbn [exec]. destruct (N.eqb_spec (read_cell s3 0 i c) x) as [E0|E0]; cbn [fst snd].
  - pose proof (idle_clean s3 i c (proj1 Hl) Hi) as Hc. rewrite E0 in Hc. split; [exact Hc|]. apply H.
    + eapply later_trans; [exact Hl|]. split; [apply Hc|]. split; [apply idle_env, Hc|apply Hl].
    + intros -> _. rewrite vw_val by (apply Hl || exact Hi). destruct (Nat.eq_dec i i); [reflexivity|contradiction].
  - split; [apply idle_refl, Hl|]. apply H; [exact Hl|]. intros -> E1. destruct Hl as (_ & (_ & _ & Hs) & _).
    destruct (Hs E1 i Hi) as [E2|E2].
    + exfalso. apply E0. unfold vw in E2. rewrite E2. exact Hx.
    + rewrite E2. unfold vw. rewrite Hx. reflexivity.
Qed.

(** [w] was in the cell at the moment [E1 s1]. *)
Lemma lf_pcas_read i c (Q : post_t N) w b E s : i < L -> 4 <= b ->
  (forall E1 s1 E2 s2 b', later E s E1 s1 -> later E1 s1 E2 s2 -> b <= b' + 4 -> (c = CVal -> E1 = E2 -> vw s2 i = clean (vw s1 i)) ->
     Q (clean (read_cell s1 0 i c)) w b' E2 s2) -> lf (pcas_read 0 i c) Q w b E s.
Proof.
  intros Hi Hb H. unfold pcas_read. cbn -[exec lf persist]. apply lf_look; [lia|reflexivity|]. intros E1 s1 Hl1. cbn [exec fst].
  apply lf_bind. destruct (isMarked (read_cell s1 0 i c) DirtyFlag) eqn:Ed.
  - apply lf_bind. apply lf_persist; [exact Hi|lia|reflexivity|]. intros a E2 s2 Hl2 Hc. cbn [lf].
    apply (H E1 s1); [exact Hl1|exact Hl2|lia|]. intros ->. apply Hc. reflexivity.
  - cbn [lf]. apply (H E1 s1); [exact Hl1|split; [apply Hl1|split; [apply env_refl|apply Hl1]]|lia|]. intros -> _.
    unfold vw. rewrite clean_id; [reflexivity|exact Ed].
Qed.

(** What a call knows about entry [i]: if nobody has written a value since there were [E0] writes, it still holds [V],
    up to the unpersisted mark. *)
Definition knows (i : nat) (V : N) (E0 E : nat) (s : state) : Prop := E0 <= E /\ (E0 = E -> clean (vw s i) = clean V).
Lemma knows_later i V E0 E s E' s' : i < L -> knows i V E0 E s -> later E s E' s' -> knows i V E0 E' s'.
Proof.
  intros Hi [H1 H2] (_ & (H3 & _ & H4) & _). split; [lia|]. intros ->. assert (E = E') as <- by lia.
  rewrite (same_clean s s') by (auto; exact Hi). auto.
Qed.

Lemma lf_key i (Q : post_t N) w b E s : i < L -> 5 <= b ->
  (forall a E' s' b', later E s E' s' -> b <= b' + 5 -> Q a w b' E' s') -> lf (key C 0 i) Q w b E s.
Proof.
  intros Hi Hb H. unfold key. apply lf_bind, lf_bounds; [exact Hi|lia|]. intros E1 s1 Hl1. apply lf_pcas_read; [exact Hi|lia|].
  intros E2 s2 E3 s3 b' Hl2 Hl3 Hb' _. apply H; [|lia]. eapply later_trans; [exact Hl1|]. eapply later_trans; eauto.
Qed.
Lemma lf_value i (Q : post_t N) w b E s : i < L -> 5 <= b ->
  (forall V E0 E' s' b', isclean V -> unmarked V -> knows i V E0 E' s' -> later E s E' s' -> b <= b' + 5 -> Q V w b' E' s') ->
  lf (value C 0 i) Q w b E s.
Proof.
  intros Hi Hb H. unfold value. apply lf_bind, lf_bounds; [exact Hi|lia|]. intros E1 s1 Hl1. apply lf_pcas_read; [exact Hi|lia|].
  intros E2 s2 E3 s3 b' Hl2 Hl3 Hb' Hc. apply (H _ E2).
  - apply clean_isclean.
  - unfold unmarked. rewrite isMarked_clean_mig. apply (u_val _ (proj1 Hl2)), Hi.
  - split; [apply (proj1 (proj2 Hl3))|]. intros E0. rewrite (Hc eq_refl E0), !clean_clean. reflexivity.
  - eapply later_trans; [exact Hl1|]. eapply later_trans; eauto.
  - lia.
Qed.

Lemma lf_resize (Q : post_t nat) w b E s : 8 <= b -> lf (resize C 0) Q w b E s.
Proof.
  intros Hb. unfold resize. apply lf_bind, lf_LoadNew; [lia|]. intros E1 s1 _. cbn [lf]. apply lf_bind, lf_Len; [lia|]. intros E2 s2 _. cbn [lf].
  apply lf_bind, lf_LoadF; [lia|]. intros E3 s3 y _. cbn [lf]. apply lf_bind, lf_LoadNew; [lia|]. intros E4 s4 _. cbn [lf].
  apply lf_bind. apply lf_stay; [lia|]. intros E5 s5 Hl5. cbn [exec fst snd]. split.
  { pose proof (proj1 Hl5) as [H1 H2 H3 H4 H5]. split; [constructor; assumption|]. split; [intros t T H; cbn [st_tabs]; eauto|intros i _; left; reflexivity]. }
  cbn [lf]. apply lf_bind. apply lf_stay; [lia|]. intros E6 s6 Hl6. cbn [exec]. unfold mmap_table. rewrite (u_files _ (proj1 Hl6)). cbn [find_file].
  assert (Hsz : newSizeFor L y = (2 * N.of_nat L)%N).
  { unfold newSizeFor. assert (E0 : shl64 (N.of_nat L) 1 = (2 * N.of_nat L)%N).
    { unfold shl64. rewrite N.shiftl_mul_pow2, N.mod_small; [lia|]. change (2 ^ 1)%N with 2%N.
      unfold two64. change (2 ^ 64)%N with (2 ^ 58 * 64)%N. lia. }
    rewrite E0. destruct (N.leb_spec (N.of_nat L / 4) y) as [H1|H1].
    - destruct (N.of_nat L / 2 <=? y)%N; (destruct (N.leb_spec (2 * N.of_nat L) (N.of_nat L)); [lia|reflexivity]).
    - destruct (N.leb_spec y (N.of_nat L)) as [H2|H2]; [reflexivity|]. exfalso.
      pose proof (N.div_le_upper_bound (N.of_nat L) 4 (N.of_nat L)). lia. }
  rewrite Hsz. assert (Hca : can_alloc (N.to_nat (2 * N.of_nat L)) (st_maxcap s6) = true).
  { unfold can_alloc. rewrite N2Nat.id. pose proof (u_cap _ (proj1 Hl6)). apply andb_true_iff. split; [apply N.ltb_lt|apply N.leb_le; assumption].
    change (2 ^ 59)%N with (2 * 2 ^ 58)%N. lia. }
  rewrite Hca. cbn [fst snd]. set (nt := length (st_tabs s6)). split.
  { pose proof (proj1 Hl6) as [H1 H2 H3 (T & HT & H4) H5].
    assert (Hrd : forall i, vw (mkState (st_tabs s6 ++ [fresh_table (N.to_nat (2 * N.of_nat L)) y (st_fctr s5)]) (st_top s6) (st_fctr s6) [] (st_ppl s6) (st_maxcap s6)) i = vw s6 i).
    { intros i. unfold vw, read_cell. cbn [st_tabs]. rewrite lookup_app_l by (eapply lookup_lt_Some; eauto). reflexivity. }
    split; [|split].
    - constructor; [exact H1|reflexivity|exact H3| |].
      + exists T. cbn [st_tabs]. rewrite lookup_app_l by (eapply lookup_lt_Some; eauto). auto.
      + intros i Hi. rewrite Hrd. auto.
    - intros t T' HT'. exists T'. cbn [st_tabs]. rewrite lookup_app_l by (eapply lookup_lt_Some; eauto). auto.
    - intros i _. left. apply Hrd. }
  cbn [lf]. apply lf_bind. apply lf_look; [lia|reflexivity|]. intros E7 s7 Hl7. cbn [exec fst].
  destruct Hl7 as (HU7 & (_ & Hlens & _) & Hm7). destruct (Hlens nt (fresh_table (N.to_nat (2 * N.of_nat L)) y (st_fctr s5))) as (T' & HT' & El).
  { cbn [st_tabs]. rewrite lookup_app_r by lia. unfold nt. rewrite Nat.sub_diag. reflexivity. }
  rewrite HT', El. cbn [fresh_table t_len lf]. apply lf_bind. unfold assert_.
  assert (Hlen : (Nat.even (N.to_nat (2 * N.of_nat L)) && (8 <=? N.to_nat (2 * N.of_nat L))) = true).
  { replace (N.to_nat (2 * N.of_nat L)) with (2 * L) by lia. apply andb_true_iff. split; [|apply Nat.leb_le; lia].
    rewrite Nat.even_mul. reflexivity. }
  rewrite Hlen. cbn [orb lf]. unfold CASNewTable. apply lf_bind, lf_bind. cbn -[exec]. destruct (b - 1 - 1 - 1 - 1 - 1 - 1 - 1) as [|b'] eqn:Eb; [lia|].
  intros E8 s8 HU8 _ _. left. destruct (u_tab _ HU8) as (T & HT & _ & _ & HN). unfold exec. rewrite HT, HN. cbn.
  unfold broken. cbn. rewrite list_lookup_alter, HT. cbn. discriminate.
Qed.

(** ** putIfMatch *)
Section Put.
Context (k nv ov : N) (g : N -> N) (CAS : casfun).
Context (Hnu : unmarked nv) (Hni : nv <> VINITIAL) (Hou : unmarked ov).
Context (HCAS : forall i V, CAS 0 i V nv = (bounds C 0 i ;;; r <-- pcas C 0 i CVal V (g V);; Ret (snd r))).
Context (Hg : forall V, unmarked (g V)).

Lemma lf_CAS i V (Q : post_t N) b E0 E s : i < L -> 6 <= b -> knows i V E0 E s ->
  (forall E' s' b', U s' -> b <= b' + 6 -> Q V false b' E' s') ->
  (forall E' s' a b', a <> V -> unmarked a -> later E s E' s' -> vw s' i = a ->
     (E0 < E' \/ (E0 = E' /\ isMarked V DirtyFlag = true /\ a = clean V)) -> b <= b' + 6 -> Q a true b' E' s') ->
  lf (CAS 0 i V nv) Q true b E s.
Proof.
  intros Hi Hb Hkn Hs Hf. rewrite HCAS. apply lf_bind, lf_bounds; [exact Hi|lia|]. intros E1 s1 Hl1. apply lf_bind. unfold pcas. apply lf_bind.
  apply lf_pcas_read; [exact Hi|lia|]. intros E2 s2 E3 s3 b3 Hl2 Hl3 Hb3 Hc.
  pose proof (later_trans _ _ _ _ _ _ Hl1 Hl2) as Hl. pose proof (later_trans _ _ _ _ _ _ Hl Hl3) as Hl'.
  pose proof (knows_later _ _ _ _ _ _ _ Hi Hkn Hl) as [Hk1 Hk2].
  cbn -[exec]. destruct b3 as [|b3]; [lia|]. intros E4 s4 HU4 He4 Hm4. right.
  assert (Hl4 : later E3 s3 E4 s4) by (split; auto).
  cbn [exec]. change (read_cell s4 0 i CVal) with (vw s4 i). destruct (N.eqb_spec (vw s4 i) V) as [E0'|E0']; cbn [fst snd].
  - exists false, (S E4).
    assert (HU5 : U (with_tab 0 (write_cell i CVal (dirty (g V))) s4)).
    { apply U_write; [exact HU4|]. intros j Hj. rewrite vw_val by assumption. destruct (Nat.eq_dec i j); [|apply (u_val _ HU4), Hj].
      unfold unmarked. rewrite isMarked_dirty_mig. apply Hg. }
    split; [exact HU5|]. split; [split; [lia|]; split; [apply lens_write|lia]|]. split; [auto|]. rewrite N.eqb_refl. cbn. apply Hs; [exact HU5|lia].
  - exists true, E4. split; [exact HU4|]. split; [apply env_refl|]. split; [auto|].
    assert (E1' : V <> vw s4 i) by congruence. apply N.eqb_neq in E1'. rewrite E1'. cbn.
    apply Hf; [exact E0'|apply (u_val _ HU4), Hi|eapply later_trans; [exact Hl'|exact Hl4]|reflexivity| |lia].
    destruct (Nat.eq_dec E0 E4) as [->|]; [right|left; pose proof (env_le _ _ _ _ (proj1 (proj2 Hl3))); pose proof (env_le _ _ _ _ He4); lia].
    pose proof (env_le _ _ _ _ (proj1 (proj2 Hl3))). pose proof (env_le _ _ _ _ He4). assert (E2 = E4) as -> by lia. assert (E3 = E4) as -> by lia.
    specialize (Hk2 eq_refl). specialize (Hc eq_refl eq_refl).
    assert (Ev : vw s4 i = clean V).
    { destruct He4 as (_ & _ & Hs4). destruct (Hs4 eq_refl i Hi) as [-> | ->]; rewrite Hc, ?clean_clean; exact Hk2. }
    split; [reflexivity|]. split; [|exact Ev]. destruct (isMarked V DirtyFlag) eqn:Ed; [reflexivity|]. exfalso. apply E0'. rewrite Ev. apply clean_id, Ed.
Qed.

Lemma lf_countChange V (Q : post_t unit) w b E s : 1 <= b -> (forall b' E' s', Q tt w b' E' s') -> lf (countChange 0 V nv ov) Q w b E s.
Proof.
  intros Hb H. unfold countChange. destruct (negb (ov =? VINITIAL)%N); [|apply H].
  destruct (((V =? VINITIAL) || (V =? VTOMBSTONE))%N && negb (nv =? VTOMBSTONE)%N).
  - apply lf_bind, lf_AddF; [exact Hb|]. intros. apply H.
  - destruct (negb ((V =? VINITIAL) || (V =? VTOMBSTONE))%N && (nv =? VTOMBSTONE)%N); [|apply H].
    apply lf_bind, lf_AddF; [exact Hb|]. intros. apply H.
Qed.

Definition tries (V : N) : nat := if isMarked V DirtyFlag then 2 else 1.

Lemma lf_updateLoop i fwd : i < L -> forall n V E0 b E s, unmarked V -> knows i V E0 E s -> E0 <= M ->
  tries V + 2 * (M - E0) <= n -> 11 * (tries V + 2 * (M - E0)) <= b ->
  lf (updateLoop C n CAS fwd 0 i nv ov V) (fun a _ _ _ _ => unmarked a) true b E s.
Proof.
  intros Hi. induction n as [|n IH]; intros V E0 b E s HV Hkn HM Hn Hb; [unfold tries in Hn; destruct (isMarked V DirtyFlag); lia|].
  assert (Ht : 1 <= tries V) by (unfold tries; destruct (isMarked V DirtyFlag); lia).
  cbn [updateLoop]. apply lf_bind, lf_assert; [rewrite HV; reflexivity|].
  destruct (noMatch V ov); [exact HV|]. apply lf_bind. apply (lf_CAS i V _ b E0); [exact Hi|lia|exact Hkn| |].
  - intros E' s' b' HU Hb'. rewrite N.eqb_refl. apply lf_bind.
    assert (HR : unmarked (if (V =? VINITIAL)%N && negb (ov =? VINITIAL)%N then VTOMBSTONE else V)).
    { destruct (_ && _); [apply VTOMBSTONE_unmarked|exact HV]. }
    apply lf_countChange; [lia|]. intros. exact HR.
  - intros E' s' a b' Ha Hau Hl Hv Hcase Hb'. apply N.eqb_neq in Ha. rewrite Ha. apply lf_bind. apply lf_value; [exact Hi|lia|].
    intros w E1 E2 s2 b2 _ Hw _ Hl2 Hb2. rewrite Hw.
    assert (Hkn' : knows i a E' E2 s2).
    { eapply knows_later; [exact Hi| |exact Hl2]. split; [lia|]. intros _. rewrite Hv. reflexivity. }
    pose proof (proj2 (proj2 Hl)) as HM'.
    apply (IH a E'); [exact Hau|exact Hkn'|exact HM'| |];
      destruct Hcase as [Hlt|(-> & Hd & ->)].
    + assert (tries a <= 2) by (unfold tries; destruct (isMarked a DirtyFlag); lia). lia.
    + assert (tries (clean V) = 1) as -> by (unfold tries; rewrite (clean_isclean V); reflexivity). unfold tries in Hn. rewrite Hd in Hn. lia.
    + assert (tries a <= 2) by (unfold tries; destruct (isMarked a DirtyFlag); lia). nia.
    + assert (tries (clean V) = 1) as -> by (unfold tries; rewrite (clean_isclean V); reflexivity). unfold tries in Hb. rewrite Hd in Hb. lia.
Qed.

Lemma lf_claimSlot (Q : post_t claimed) E0 s0 b0 : 
  (forall E s b, later E0 s0 E s -> b0 <= b -> Q CRemoved true b E s /\ Q CFull true b E s) ->
  (forall i V c E1 E s b, i < L -> isclean V -> unmarked V -> knows i V E1 E s -> later E0 s0 E s -> b0 <= b -> Q (CSlot i V c) true b E s) ->
  forall n c idx b E s, idx < L -> c < reprobeLimit L -> later E0 s0 E s -> reprobeLimit L - c <= n -> b0 + 17 * (reprobeLimit L - c) <= b ->
  lf (claimSlot C n 0 k nv L idx c) Q true b E s.
Proof.
  intros HQ1 HQ2. induction n as [|n IH]; intros c idx b E s Hi Hc Hl Hn Hb; [lia|]. cbn [claimSlot].
  apply lf_bind, lf_key; [exact Hi|lia|]. intros K E1 s1 b1 Hl1 Hb1.
  apply lf_bind, lf_value; [exact Hi|lia|]. intros V Ek E2 s2 b2 HVc HVu Hkn Hl2 Hb2.
  pose proof (later_trans _ _ _ _ _ _ Hl (later_trans _ _ _ _ _ _ Hl1 Hl2)) as Hl02.
  assert (Hcheck : forall K E3 s3 b3, later E2 s2 E3 s3 -> b2 <= b3 + 6 ->
    lf (if (K =? k)%N then Ret (CSlot idx V c)
        else if (reprobeLimit L <=? S c) || (K =? KTOMBSTONE)%N then Ret CFull
        else claimSlot C n 0 k nv L (mask (N.of_nat idx + 1) L) (S c)) Q true b3 E3 s3).
  { intros K' E3 s3 b3 Hl3 Hb3. pose proof (later_trans _ _ _ _ _ _ Hl02 Hl3) as Hl03.
    destruct (K' =? k)%N.
    - apply (HQ2 _ _ _ Ek); try assumption; [eapply knows_later; eauto|lia].
    - destruct (Nat.leb_spec (reprobeLimit L) (S c)) as [Hle|Hlt]; [apply HQ1; [exact Hl03|lia]|].
      destruct (K' =? KTOMBSTONE)%N; [apply HQ1; [exact Hl03|lia]|]. cbn [orb].
      apply IH; [apply mask_lt; lia|exact Hlt|exact Hl03|lia|lia]. }
  assert (Hrefl : later E2 s2 E2 s2) by (split; [apply Hl2|]; split; [apply env_refl|apply Hl2]).
  destruct (K =? VINITIAL)%N; [|apply Hcheck; [exact Hrefl|lia]].
  destruct (nv =? VTOMBSTONE)%N; [apply HQ1; [exact Hl02|lia]|].
  unfold CASkey. apply lf_bind, lf_bind, lf_bounds; [exact Hi|lia|]. intros E3 s3 Hl3. apply lf_bind. unfold pcas. apply lf_bind.
  apply lf_pcas_read; [exact Hi|lia|]. intros E4 s4 E5 s5 b5 Hl4 Hl5 Hb5 _.
  pose proof (later_trans _ _ _ _ _ _ Hl3 (later_trans _ _ _ _ _ _ Hl4 Hl5)) as Hl25. clear Hl3 Hl4 Hl5.
  cbn -[exec lf]. apply lf_stay; [lia|]. intros E6 s6 Hl6. pose proof (later_trans _ _ _ _ _ _ Hl25 Hl6) as Hl26. clear Hl25 Hl6.
  cbn [exec]. destruct (N.eqb_spec (read_cell s6 0 idx CKey) KINITIAL) as [Ec|Ec]; cbn [fst snd].
  - pose proof (idle_key s6 idx (dirty k) (proj1 Hl26)) as Hid. split; [exact Hid|]. rewrite N.eqb_refl. cbn -[lf exec].
    apply lf_AddF; [lia|]. intros E7 s7 y Hl7.
    assert (Hl27 : later E2 s2 E7 s7).
    { eapply later_trans; [exact Hl26|]. eapply later_trans; [|exact Hl7]. split; [apply Hid|]. split; [apply idle_env, Hid|apply Hl26]. }
    cbn [lf]. apply (HQ2 _ _ _ Ek); try assumption; [eapply knows_later; eauto|eapply later_trans; eauto|lia].
  - split; [apply idle_refl, Hl26|]. assert (Ec' : KINITIAL <> read_cell s6 0 idx CKey) by congruence. apply N.eqb_neq in Ec'. rewrite Ec'.
    cbn -[lf exec reprobeLimit Nat.leb claimSlot read_cell]. cbn [lf snd]. apply N.eqb_neq in Ec. rewrite Ec. apply Hcheck; [exact Hl26|lia].
Qed.

Definition put_steps : nat := 17 * reprobeLimit L + 22 * M + 20.
Definition need (n : nat) : Prop := reprobeLimit L + 2 * M + 2 <= n.

Lemma lf_put n b E s : U s -> E <= M -> need n -> put_steps <= b + 1 ->
  lf (putIfMatch C n CAS 0 k nv ov) (fun a _ _ _ _ => unmarked a) true b E s.
Proof.
  unfold need, put_steps. intros HU HM Hn Hb. destruct n as [|n]; [lia|]. cbn [putIfMatch]. unfold putBody.
  assert (Hni' : (nv =? VINITIAL)%N = false) by (apply N.eqb_neq; exact Hni).
  apply lf_bind, lf_assert; [rewrite Hni'; reflexivity|].
  apply lf_bind, lf_assert; [rewrite Hnu; reflexivity|].
  apply lf_bind, lf_assert; [rewrite Hou; reflexivity|].
  apply lf_bind, lf_Len; [lia|]. intros E1 s1 Hl1. cbn [lf].
  assert (Hr : 0 < reprobeLimit L) by (unfold reprobeLimit, REPROBE_LIMIT; lia).
  apply lf_bind. apply (lf_claimSlot _ E1 s1 (22 * M + 18)).
  - intros E2 s2 b2 Hl2 Hb2. split; [exact Hnu|]. apply lf_bind, lf_resize. lia.
  - intros i V c Ek E2 s2 b2 Hi HVc HVu Hkn Hl2 Hb2. destruct (nv =? V)%N; [exact HVu|]. apply lf_bind.
    assert (Hgo : forall b3 E3 s3, later E2 s2 E3 s3 -> b2 <= b3 + 1 ->
      forall full : bool, lf (if full || isMarked V MigrationFlag then resize C 0 ;;; (nt <-- copySlotAndCheck C n (putIfMatch C n (CASvalue C)) 0 i (ov =? VINITIAL)%N;;
             putIfMatch C n (CASvalue C) nt k nv ov)
         else updateLoop C n CAS (nt <-- copySlotAndCheck C n (putIfMatch C n (CASvalue C)) 0 i (ov =? VINITIAL)%N;;
             putIfMatch C n (CASvalue C) nt k nv ov) 0 i nv ov V) (fun a _ _ _ _ => unmarked a) true b3 E3 s3).
    { intros b3 E3 s3 Hl3 Hb3 full. rewrite HVu, orb_false_r. destruct full; [apply lf_bind, lf_resize; lia|].
      pose proof (proj2 (proj2 Hl2)). pose proof (proj1 Hkn).
      assert (tries V = 1) as Ht by (unfold tries; rewrite HVc; reflexivity).
      apply (lf_updateLoop i _ Hi n V Ek); [exact HVu|eapply knows_later; eauto|lia|rewrite Ht; lia|rewrite Ht; lia]. }
    assert (Hrefl : later E2 s2 E2 s2) by (split; [apply Hl2|]; split; [apply env_refl|apply Hl2]).
    destruct (V =? VINITIAL)%N; [|cbn [lf]; apply Hgo; [exact Hrefl|lia]].
    unfold tableFull. destruct (REPROBE_LIMIT <=? c); [|cbn [lf]; apply Hgo; [exact Hrefl|lia]].
    apply lf_bind, lf_LoadF; [lia|]. intros E3 s3 y Hl3. cbn [lf]. apply Hgo; [exact Hl3|lia].
  - apply mask_lt; lia.
  - exact Hr.
  - split; [apply Hl1|]. split; [apply env_refl|apply Hl1].
  - lia.
  - lia.
Qed.

Lemma lf_putPub n b E s : U s -> E <= M -> need n -> put_steps <= b -> (ov =? VINITIAL)%N = false ->
  lf (putIfMatchPub C n k nv ov CAS) (fun _ _ _ _ _ => True) true b E s.
Proof.
  intros HU HM Hn Hb Hoi. unfold putIfMatchPub.
  assert (Hni' : (nv =? VINITIAL)%N = false) by (apply N.eqb_neq; exact Hni).
  apply lf_bind, lf_assert; [rewrite Hni'; reflexivity|].
  apply lf_bind, lf_assert; [rewrite Hoi; reflexivity|].
  apply lf_bind, lf_LoadTop; [unfold put_steps in Hb; lia|]. intros E1 s1 Hl1. cbn [lf]. apply lf_bind. eapply lf_mono; [|apply lf_put].
  - cbn beta. intros a w b1 E2 s2 Ha. apply lf_bind, lf_assert; [rewrite Ha; reflexivity|]. exact I.
  - apply Hl1.
  - apply Hl1.
  - exact Hn.
  - lia.
Qed.
End Put.

(** ** get *)
Lemma lf_getLoop k put rec : forall n c idx b E s, idx < L -> c < reprobeLimit L -> reprobeLimit L - c <= n -> 11 * (reprobeLimit L - c) <= b ->
  lf (getLoop C n put rec 0 k L idx c) (fun a _ _ _ _ => unmarked a) true b E s.
Proof.
  induction n as [|n IH]; intros c idx b E s Hi Hc Hn Hb; [lia|]. cbn [getLoop].
  apply lf_bind, lf_key; [exact Hi|lia|]. intros K E1 s1 b1 Hl1 Hb1.
  apply lf_bind, lf_value; [exact Hi|lia|]. intros V Ek E2 s2 b2 HVc HVu Hkn Hl2 Hb2.
  destruct (K =? KINITIAL)%N; [apply VINITIAL_unmarked|].
  apply lf_bind, lf_LoadNew; [lia|]. intros E3 s3 Hl3. cbn [lf]. destruct (K =? k)%N.
  - rewrite HVu. cbn [negb]. cbn [lf]. destruct (V =? VTOMBSTONE)%N; [apply VINITIAL_unmarked|exact HVu].
  - destruct (Nat.leb_spec (reprobeLimit L) (S c)) as [Hle|Hlt]; [apply VINITIAL_unmarked|].
    destruct (K =? KTOMBSTONE)%N; [apply VINITIAL_unmarked|]. cbn [orb].
    apply IH; [apply mask_lt; lia|exact Hlt|lia|lia].
Qed.

Lemma lf_get n k b E s : U s -> E <= M -> need n -> put_steps <= b -> lf (get C n k) (fun _ _ _ _ _ => True) true b E s.
Proof.
  unfold need, put_steps. intros HU HM Hn Hb. unfold get. apply lf_bind, lf_LoadTop; [lia|]. intros E1 s1 Hl1. cbn [lf]. apply lf_bind.
  destruct n as [|n]; [lia|]. cbn [getImpl]. apply lf_bind, lf_Len; [lia|]. intros E2 s2 Hl2. cbn [lf].
  eapply lf_mono; [|apply lf_getLoop].
  - cbn beta. intros a w b1 E3 s3 Ha. apply lf_bind, lf_assert; [rewrite Ha; reflexivity|]. exact I.
  - apply mask_lt; lia.
  - unfold reprobeLimit, REPROBE_LIMIT. lia.
  - lia.
  - lia.
Qed.

(** ** The calls *)
Definition any : post_t rsp := fun _ _ _ _ _ => True.

Local Ltac side := solve [ assumption | apply VTOMBSTONE_unmarked | apply NO_MATCH_OLD_unmarked | intros _; assumption
  | intros _; apply VTOMBSTONE_unmarked | apply N.eqb_neq; assumption | intros V; apply shl3_clean | reflexivity | discriminate ].

Lemma lf_op n o b E s : legal_op o -> U s -> E <= M -> need n -> put_steps <= b -> lf (op_prog C n o) any true b E s.
Proof.
  intros Hleg HU HM Hn Hb.
  assert (Hval : forall v, legal_val v -> unmarked v /\ v <> VINITIAL).
  { intros v Hv. pose proof (legal_val_neq v Hv) as (V1 & V2 & _). destruct (legal_live v Hv) as (Hu & _). auto. }
  assert (Hput : forall k nv ov g CAS, unmarked nv -> nv <> VINITIAL -> unmarked ov -> (ov =? VINITIAL)%N = false ->
    (forall i V, CAS 0 i V nv = (bounds C 0 i ;;; r <-- pcas C 0 i CVal V (g V);; Ret (snd r))) -> (forall V, unmarked (g V)) ->
    lf (putIfMatchPub C n k nv ov CAS) (fun _ _ _ _ _ => True) true b E s).
  { intros k nv ov g CAS H1 H2 H3 H4 H5 H6. apply (lf_putPub k nv ov g CAS); auto. }
  destruct o as [k|k|k v|k v|k|k v|k ov v|k|]; cbn [op_prog].
  - apply lf_bind. eapply lf_mono; [|apply lf_get; assumption]. intros. exact I.
  - unfold containsKey. apply lf_bind, lf_bind. eapply lf_mono; [|apply lf_get; assumption]. intros. exact I.
  - destruct Hleg as [_ Hv]. destruct (Hval v Hv) as (V1 & V2). unfold put. apply lf_bind. eapply lf_mono; [|apply (Hput k v NO_MATCH_OLD (fun _ => v) (CASvalue C))]; [intros; exact I|side ..].
  - destruct Hleg as [_ Hv]. destruct (Hval v Hv) as (V1 & V2). unfold putIfAbsent. apply lf_bind. eapply lf_mono; [|apply (Hput k v VTOMBSTONE (fun _ => v) (CASvalue C))]; [intros; exact I|side ..].
  - unfold remove. apply lf_bind, lf_bind. eapply lf_mono; [|apply (Hput k VTOMBSTONE NO_MATCH_OLD (fun _ => VTOMBSTONE) (CASvalue C))]; [intros; exact I|side ..].
  - destruct Hleg as [_ Hv]. destruct (Hval v Hv) as (V1 & V2). unfold removeVal. apply lf_bind, lf_bind. eapply lf_mono; [|apply (Hput k VTOMBSTONE v (fun _ => VTOMBSTONE) (CASvalue C))]; [intros; exact I|side ..].
  - destruct Hleg as (_ & Hov & Hv). destruct (Hval v Hv) as (V1 & V2). destruct (Hval ov Hov) as (W1 & W2).
    unfold replace. apply lf_bind, lf_bind. eapply lf_mono; [|apply (Hput k v ov (fun _ => v) (CASvalue C))]; [intros; exact I|side ..].
  - unfold incrementOp, update. apply lf_bind. eapply lf_mono; [|apply (Hput k INCREMENT_ARG NO_MATCH_OLD incremented (increment C))]; [intros; exact I|side ..].
  - unfold size. unfold put_steps in Hb. apply lf_bind, lf_bind, lf_LoadTop; [lia|]. intros E1 s1 Hl1. cbn [lf].
    apply lf_LoadF; [lia|]. intros. exact I.
Qed.

End Live.
