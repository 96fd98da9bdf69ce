(** Sequential reasoning: contents up to the unpersisted bit, and weakest preconditions. *)
From Coq Require Import NArith Bool List Lia.
From stdpp Require Import base list.
From Verif Require Import Word Bits Prog HashMap.
Import ListNotations.

(** ** Forgetting unpersisted bits and persistence bookkeeping *)

Definition clean2 (p : pair_) : pair_ := (clean (fst p), clean (snd p)).
Definition absT (T : table) : table :=
  mkTable (t_len T) (map clean2 (t_pairs T)) [] [] (t_size T) (t_slots T) (t_copyIdx T) (t_copyDone T)
    (t_new T) (t_id T).
Definition abs (s : state) : state :=
  mkState (map absT (st_tabs s)) (st_top s) (st_fctr s) (st_files s) (st_ppl s) (st_maxcap s).

(** Write one cell in an abstract table. *)
Definition aset (i : nat) (c : cell) (w : N) (T : table) : table :=
  mkTable (t_len T) (alter (set_cell c w) i (t_pairs T)) [] [] (t_size T) (t_slots T) (t_copyIdx T)
    (t_copyDone T) (t_new T) (t_id T).

Lemma map_alter {A B} (g : A -> B) (f : A -> A) (f' : B -> B) (l : list A) i :
  (forall x, l !! i = Some x -> g (f x) = f' (g x)) -> map g (alter f i l) = alter f' i (map g l).
Proof.
  revert i. induction l as [|x l IH]; intros i H; [reflexivity|].
  destruct i; cbn.
  - rewrite H by reflexivity. reflexivity.
  - f_equal. apply IH. intros y Hy. apply H. exact Hy.
Qed.

Lemma alter_id {A} (f : A -> A) (l : list A) i :
  (forall x, l !! i = Some x -> f x = x) -> alter f i l = l.
Proof.
  revert i. induction l as [|x l IH]; intros i H; [reflexivity|].
  destruct i; cbn.
  - rewrite H by reflexivity. reflexivity.
  - f_equal. apply IH. intros y Hy. apply H. exact Hy.
Qed.

Lemma lookup_map {A B} (g : A -> B) (l : list A) i : map g l !! i = g <$> (l !! i).
Proof. apply list_lookup_fmap. Qed.

Lemma abs_tab s t : st_tabs (abs s) !! t = absT <$> (st_tabs s !! t).
Proof. apply lookup_map. Qed.

Lemma read_cell_abs s t i c : read_cell (abs s) t i c = clean (read_cell s t i c).
Proof.
  unfold read_cell. rewrite abs_tab. destruct (st_tabs s !! t) as [T|]; cbn [fmap option_fmap option_map].
  - unfold absT; cbn [t_pairs]. rewrite lookup_map. destruct (t_pairs T !! i) as [p|]; cbn.
    + destruct c; reflexivity.
    + symmetry. apply clean_0.
  - symmetry. apply clean_0.
Qed.

Lemma abs_with_tab s t f f' :
  (forall T, st_tabs s !! t = Some T -> absT (f T) = f' (absT T)) ->
  abs (with_tab t f s) = with_tab t f' (abs s).
Proof.
  intros H. unfold abs, with_tab; cbn. f_equal. apply map_alter. exact H.
Qed.

Lemma absT_write i c w T : absT (write_cell i c w T) = aset i c (clean w) (absT T).
Proof.
  unfold absT, write_cell, set_pairs, aset; cbn. f_equal.
  apply map_alter. intros p _. destruct c; reflexivity.
Qed.

Lemma abs_write s t i c w :
  abs (with_tab t (write_cell i c w) s) = with_tab t (aset i c (clean w)) (abs s).
Proof. apply abs_with_tab. intros T _. apply absT_write. Qed.

Lemma aset_same s t i c :
  with_tab t (aset i c (read_cell (abs s) t i c)) (abs s) = abs s.
Proof.
  unfold with_tab. assert (E : alter (aset i c (read_cell (abs s) t i c)) t (st_tabs (abs s)) = st_tabs (abs s)).
  { apply alter_id. intros T HT. unfold read_cell. rewrite HT.
    pose proof (abs_tab s t) as Ht. rewrite HT in Ht.
    destruct (st_tabs s !! t) as [T0|]; [|discriminate]. injection Ht as ->.
    unfold aset, absT; cbn [t_len t_pairs t_size t_slots t_copyIdx t_copyDone t_new t_id]. f_equal.
    apply alter_id. intros p Hp. rewrite Hp. destruct c, p; reflexivity. }
  rewrite E. reflexivity.
Qed.

Lemma read_with_tab_ne s t t' f i c : t <> t' -> read_cell (with_tab t f s) t' i c = read_cell s t' i c.
Proof. intros H. unfold read_cell, with_tab; cbn. rewrite list_lookup_alter_ne by auto. reflexivity. Qed.

Lemma read_write_same s t i c w :
  read_cell s t i c <> 0%N -> read_cell (with_tab t (write_cell i c w) s) t i c = w.
Proof.
  unfold read_cell, with_tab; cbn. rewrite list_lookup_alter.
  destruct (st_tabs s !! t) as [T|]; cbn; [|congruence].
  rewrite list_lookup_alter. destruct (t_pairs T !! i) as [p|]; cbn; [|congruence].
  intros _. destruct c; reflexivity.
Qed.

(** ** Running programs *)

Lemma run_bind {A B} (p : prog A) (f : A -> prog B) s :
  run (bind p f) s = match run p s with Ok a s' => run (f a) s' | Fail e s' => Fail e s' end.
Proof.
  revert s. induction p as [a|e|c k IH]; intros s; cbn; auto.
  destruct (exec c s) as [r s']. apply IH.
Qed.

Lemma run_pcas_read t i c s :
  exists s', run (pcas_read t i c) s = Ok (read_cell (abs s) t i c) s' /\ abs s' = abs s /\
    read_cell s' t i c = read_cell (abs s) t i c.
Proof.
  rewrite read_cell_abs. set (w := read_cell s t i c).
  unfold pcas_read, do. cbn [run bind exec]. fold w.
  destruct (isMarked w DirtyFlag) eqn:E.
  - unfold persist, do. cbn [run bind exec].
    set (f := fun T : table => set_pers _ T). set (s1 := with_tab t f s).
    assert (R : read_cell s1 t i c = w).
    { unfold s1, read_cell, with_tab; cbn. rewrite list_lookup_alter.
      unfold w, read_cell. destruct (st_tabs s !! t); reflexivity. }
    rewrite R, N.eqb_refl. cbn [run snd].
    eexists. split; [reflexivity|].
    assert (A1 : abs s1 = abs s).
    { unfold s1. rewrite abs_with_tab with (f' := fun T => T); [|reflexivity].
      unfold with_tab. rewrite alter_id by auto. destruct s; reflexivity. }
    split.
    + rewrite abs_write, A1, clean_clean.
      replace (clean w) with (read_cell (abs s) t i c) by apply read_cell_abs.
      apply aset_same.
    + apply read_write_same. rewrite R. intros ->. revert E.
      rewrite isMarked_dirty. discriminate.
  - cbn [run]. eexists. split; [reflexivity|]. split; [reflexivity|].
    fold w. symmetry. apply clean_id. exact E.
Qed.

Lemma run_pcas C t i c old new s :
  exists s', abs s' = (if (read_cell (abs s) t i c =? old)%N
                       then with_tab t (aset i c (clean new)) (abs s) else abs s) /\
  run (pcas C t i c old new) s =
    Ok ((read_cell (abs s) t i c =? old)%N, read_cell (abs s) t i c) s'.
Proof.
  unfold pcas. rewrite run_bind.
  destruct (run_pcas_read t i c s) as (s1 & -> & A1 & R1).
  set (w := read_cell (abs s) t i c) in *. cbn [run bind do exec]. rewrite R1.
  destruct (N.eqb_spec w old) as [->|Hne]; cbn [run bind fst snd].
  - rewrite N.eqb_refl. cbn [andb orb negb]. unfold assert_. cbn [orb run bind].
    eexists. split; [|reflexivity]. rewrite abs_write, A1, clean_dirty. reflexivity.
  - destruct (N.eqb_spec old w) as [->|_]; [congruence|]. unfold assert_. cbn.
    eexists. split; [|reflexivity]. exact A1.
Qed.

(** ** Weakest preconditions over abstract states.  [E] is the set of tolerated errors. *)

Definition wp {A} (E : err -> Prop) (p : prog A) (Q : A -> state -> Prop) (a : state) : Prop :=
  forall s, abs s = a -> match run p s with Ok x s' => Q x (abs s') | Fail e _ => E e end.

Section WP.
Context (C : cfg) (E : err -> Prop).

Lemma wp_ret {A} (x : A) (Q : A -> state -> Prop) a : Q x a -> wp E (Ret x) Q a.
Proof. intros H s <-. exact H. Qed.

Lemma wp_err {A} e (Q : A -> state -> Prop) a : E e -> wp E (Err e) Q a.
Proof. intros H s <-. exact H. Qed.

Lemma wp_bind {A B} (p : prog A) (f : A -> prog B) Q a :
  wp E p (fun x a' => wp E (f x) Q a') a -> wp E (bind p f) Q a.
Proof.
  intros H s Hs. rewrite run_bind. specialize (H s Hs).
  destruct (run p s) as [x s'|e s']; [|exact H]. apply H. reflexivity.
Qed.

Lemma wp_conseq {A} (p : prog A) (Q Q' : A -> state -> Prop) a :
  wp E p Q a -> (forall x a', Q x a' -> Q' x a') -> wp E p Q' a.
Proof.
  intros H HQ s Hs. specialize (H s Hs). destruct (run p s); [apply HQ, H|exact H].
Qed.

Lemma wp_assert b (Q : unit -> state -> Prop) a : b = true -> Q tt a -> wp E (assert_ C b) Q a.
Proof. intros -> H. unfold assert_. apply wp_ret, H. Qed.

(** Commands that do not depend on unpersisted bits. *)
Definition plain_cmd (c : cmd) : Prop :=
  match c with
  | Len _ | LoadF _ _ | AddF _ _ _ | CasF _ _ _ _ | LoadNew _ | CasNew _ _ _ | LoadTop | CasTop _ _
  | NextFile | Unmap _ => True
  | _ => False
  end.

Lemma tab_fld {X} (f : table -> X) (d : X) s t :
  (forall T, f (absT T) = f T) ->
  match st_tabs (abs s) !! t with Some T => f T | None => d end =
  match st_tabs s !! t with Some T => f T | None => d end.
Proof. intros H. rewrite abs_tab. destruct (st_tabs s !! t); cbn; auto. Qed.

Lemma exec_plain c s : plain_cmd c ->
  fst (exec c s) = fst (exec c (abs s)) /\ abs (snd (exec c s)) = snd (exec c (abs s)).
Proof.
  destruct c; cbn [plain_cmd]; intros HH; try contradiction; cbn [exec].
  - split; [|reflexivity]. cbn [fst]. symmetry. apply (tab_fld t_len); reflexivity.
  - split; [|reflexivity]. cbn [fst]. symmetry. apply (tab_fld (get_fld f)); destruct f; reflexivity.
  - cbn [fst snd]. split.
    + symmetry. apply (tab_fld (get_fld f)); destruct f; reflexivity.
    + apply abs_with_tab. intros T _. destruct f; reflexivity.
  - rewrite (tab_fld (get_fld f) 0%N) by (destruct f; reflexivity).
    destruct (_ =? e)%N; cbn [fst snd]; split; auto.
    apply abs_with_tab. intros T _. destruct f; reflexivity.
  - split; [|reflexivity]. cbn [fst]. symmetry. apply (tab_fld t_new); reflexivity.
  - rewrite (tab_fld t_new None) by reflexivity.
    destruct (option_nat_eqb _ e); cbn [fst snd]; split; auto.
    apply abs_with_tab. intros T _. reflexivity.
  - split; reflexivity.
  - cbn [abs st_top]. destruct (_ =? e); split; reflexivity.
  - split; reflexivity.
  - split; reflexivity.
Qed.

Lemma wp_plain c (Q : res c -> state -> Prop) a :
  plain_cmd c -> Q (fst (exec c a)) (snd (exec c a)) -> wp E (do c) Q a.
Proof.
  intros Hc H s Hs. unfold do. cbn [run].
  destruct (exec_plain c s Hc) as [H1 H2]. rewrite Hs in H1, H2.
  destruct (exec c s) as [r s']; cbn [fst snd] in *. cbn [run]. subst r. rewrite H2. exact H.
Qed.

Lemma wp_Len t (Q : nat -> state -> Prop) a T :
  st_tabs a !! t = Some T -> Q (t_len T) a -> wp E (do (Len t)) Q a.
Proof. intros HT H. apply wp_plain; [exact I|]. cbn. rewrite HT. exact H. Qed.

Lemma wp_LoadF t f (Q : N -> state -> Prop) a T :
  st_tabs a !! t = Some T -> Q (get_fld f T) a -> wp E (do (LoadF t f)) Q a.
Proof. intros HT H. apply wp_plain; [exact I|]. cbn. rewrite HT. exact H. Qed.

Lemma wp_AddF t f d (Q : N -> state -> Prop) a T :
  st_tabs a !! t = Some T ->
  Q (get_fld f T) (with_tab t (fun T => set_fld f (add64 (get_fld f T) d) T) a) ->
  wp E (do (AddF t f d)) Q a.
Proof. intros HT H. apply wp_plain; [exact I|]. cbn. rewrite HT. exact H. Qed.

Lemma wp_CasF t f e n (Q : bool * N -> state -> Prop) a T :
  st_tabs a !! t = Some T ->
  (if (get_fld f T =? e)%N then Q (true, get_fld f T) (with_tab t (set_fld f n) a) else Q (false, get_fld f T) a) ->
  wp E (do (CasF t f e n)) Q a.
Proof.
  intros HT H. apply wp_plain; [exact I|]. cbn. rewrite HT.
  destruct (get_fld f T =? e)%N; exact H.
Qed.

Lemma wp_LoadNew t (Q : option nat -> state -> Prop) a T :
  st_tabs a !! t = Some T -> Q (t_new T) a -> wp E (do (LoadNew t)) Q a.
Proof. intros HT H. apply wp_plain; [exact I|]. cbn. rewrite HT. exact H. Qed.

Lemma wp_CasNew t e n (Q : bool * option nat -> state -> Prop) a T :
  st_tabs a !! t = Some T ->
  (if option_nat_eqb (t_new T) e then Q (true, t_new T) (with_tab t (set_new (Some n)) a)
   else Q (false, t_new T) a) ->
  wp E (do (CasNew t e n)) Q a.
Proof.
  intros HT H. apply wp_plain; [exact I|]. cbn. rewrite HT.
  destruct (option_nat_eqb _ _); exact H.
Qed.

Lemma wp_LoadTop (Q : nat -> state -> Prop) a : Q (st_top a) a -> wp E (do LoadTop) Q a.
Proof. intros H. apply wp_plain; [exact I|]. exact H. Qed.

Definition set_top (n : nat) (a : state) : state :=
  mkState (st_tabs a) n (st_fctr a) (st_files a) (st_ppl a) (st_maxcap a).

Lemma wp_CasTop e n (Q : bool -> state -> Prop) a :
  (if Nat.eqb (st_top a) e then Q true (set_top n a) else Q false a) -> wp E (do (CasTop e n)) Q a.
Proof.
  intros H. apply wp_plain; [exact I|]. cbn. destruct (Nat.eqb _ _); exact H.
Qed.

Definition set_fctr (n : N) (a : state) : state :=
  mkState (st_tabs a) (st_top a) n (st_files a) (st_ppl a) (st_maxcap a).

Lemma wp_NextFile (Q : N -> state -> Prop) a :
  Q (st_fctr a) (set_fctr (add64 (st_fctr a) 1) a) -> wp E (do NextFile) Q a.
Proof. intros H. apply wp_plain; [exact I|]. exact H. Qed.

Definition add_tab (T : table) (a : state) : state :=
  mkState (st_tabs a ++ [T]) (st_top a) (st_fctr a) (st_files a) (st_ppl a) (st_maxcap a).

(** A fresh table up to unpersisted bits. *)
Definition afresh (cap : nat) (existing id : N) : table :=
  mkTable cap (replicate cap (KINITIAL, VINITIAL)) [] [] existing (N.of_nat cap) 0 0 None id.

Lemma absT_fresh cap ex id : absT (fresh_table cap ex id) = afresh cap ex id.
Proof.
  unfold absT, fresh_table, afresh. cbn [t_len t_pairs t_size t_slots t_copyIdx t_copyDone t_new t_id].
  f_equal. rewrite (fmap_replicate clean2 cap).
  assert (clean2 (dirty KINITIAL, dirty VINITIAL) = (KINITIAL, VINITIAL)) as ->; [|reflexivity].
  unfold clean2. cbn [fst snd].
  rewrite !clean_dirty, !clean_id; auto using KINITIAL_clean, VINITIAL_clean.
Qed.

Lemma wp_Mmap file cap ex (Q : option nat -> state -> Prop) a :
  find_file file (st_files a) = None ->
  (if can_alloc cap (st_maxcap a)
   then Q (Some (length (st_tabs a))) (add_tab (afresh cap ex file) a) else Q None a) ->
  wp E (do (Mmap file cap ex)) Q a.
Proof.
  intros HF H s Hs. unfold do. cbn [run exec].
  assert (Hf : find_file file (st_files s) = None) by (rewrite <- HF, <- Hs; reflexivity).
  assert (st_maxcap s = st_maxcap a) as -> by (rewrite <- Hs; reflexivity).
  unfold mmap_table. 
  rewrite Hf.
  destruct (can_alloc cap (st_maxcap a)) eqn:EE; cbn [run].
  - replace (length (st_tabs s)) with (length (st_tabs a)) by (rewrite <- Hs; cbn; apply map_length).
    replace (abs _) with (add_tab (afresh cap ex file) a); [exact H|].
    rewrite <- Hs. unfold add_tab, abs. cbn [st_tabs st_top st_fctr st_files st_ppl st_maxcap].
    rewrite map_app. cbn [map]. rewrite absT_fresh. reflexivity.
  - rewrite Hs. exact H.
Qed.

Lemma wp_pcas_read t i c (Q : N -> state -> Prop) a :
  Q (read_cell a t i c) a -> wp E (pcas_read t i c) Q a.
Proof.
  intros H s Hs. destruct (run_pcas_read t i c s) as (s' & -> & A' & _).
  rewrite A', Hs. exact H.
Qed.

Lemma wp_bounds t i (Q : unit -> state -> Prop) a T :
  st_tabs a !! t = Some T -> i < t_len T -> Q tt a -> wp E (bounds C t i) Q a.
Proof.
  intros HT Hi H. unfold bounds. apply wp_bind. eapply wp_Len; [exact HT|].
  destruct (Nat.ltb_spec i (t_len T)); [|lia]. apply wp_ret, H.
Qed.

Lemma wp_key t i (Q : N -> state -> Prop) a T :
  st_tabs a !! t = Some T -> i < t_len T -> Q (read_cell a t i CKey) a -> wp E (key C t i) Q a.
Proof.
  intros HT Hi H. unfold key. apply wp_bind. eapply wp_bounds; [exact HT|exact Hi|]. apply wp_pcas_read, H.
Qed.

Lemma wp_value t i (Q : N -> state -> Prop) a T :
  st_tabs a !! t = Some T -> i < t_len T -> Q (read_cell a t i CVal) a -> wp E (value C t i) Q a.
Proof.
  intros HT Hi H. unfold value. apply wp_bind. eapply wp_bounds; [exact HT|exact Hi|]. apply wp_pcas_read, H.
Qed.

(** What a persistent CAS does, on abstract states. *)
Definition cas_post (t i : nat) (c : cell) (old new : N) (Q : N -> state -> Prop) (a : state) : Prop :=
  if (read_cell a t i c =? old)%N then Q old (with_tab t (aset i c (clean new)) a)
  else Q (read_cell a t i c) a.

Lemma wp_pcas t i c old new (Q : bool * N -> state -> Prop) a :
  (if (read_cell a t i c =? old)%N then Q (true, old) (with_tab t (aset i c (clean new)) a)
   else Q (false, read_cell a t i c) a) ->
  wp E (pcas C t i c old new) Q a.
Proof.
  intros H s Hs. destruct (run_pcas C t i c old new s) as (s' & A' & ->). rewrite A', Hs.
  destruct (N.eqb_spec (read_cell a t i c) old) as [Heq|]; [rewrite Heq|]; exact H.
Qed.

Lemma wp_CASkey t i old new (Q : N -> state -> Prop) a T :
  st_tabs a !! t = Some T -> i < t_len T -> cas_post t i CKey old new Q a ->
  wp E (CASkey C t i old new) Q a.
Proof.
  intros HT Hi H. unfold CASkey. apply wp_bind. eapply wp_bounds; eauto.
  apply wp_bind, wp_pcas. unfold cas_post in H.
  destruct (_ =? old)%N; apply wp_ret; exact H.
Qed.

Lemma wp_CASvalue t i old new (Q : N -> state -> Prop) a T :
  st_tabs a !! t = Some T -> i < t_len T -> cas_post t i CVal old new Q a ->
  wp E (CASvalue C t i old new) Q a.
Proof.
  intros HT Hi H. unfold CASvalue. apply wp_bind. eapply wp_bounds; eauto.
  apply wp_bind, wp_pcas. unfold cas_post in H.
  destruct (_ =? old)%N; apply wp_ret; exact H.
Qed.

(** The value stored by [increment] over [old]. *)
Definition incremented (old : N) : N :=
  shl64 (shr64 (if ((old =? VINITIAL) || (old =? VTOMBSTONE))%N then 0%N else old) BITS_MARKED + 1) BITS_MARKED.

Lemma wp_increment t i old new (Q : N -> state -> Prop) a T :
  st_tabs a !! t = Some T -> i < t_len T -> cas_post t i CVal old (incremented old) Q a ->
  wp E (increment C t i old new) Q a.
Proof.
  intros HT Hi H. unfold increment. apply wp_bind. eapply wp_bounds; eauto.
  apply wp_bind, wp_pcas. unfold cas_post, incremented in H.
  destruct (_ =? old)%N; apply wp_ret; exact H.
Qed.

End WP.
