(** Single-threaded putIfMatch. *)
From Coq Require Import NArith Bool List Lia.
From stdpp Require Import base list gmap.
From Verif Require Import Word Bits Prog HashMap Abs Probe SeqInv SeqCopy SeqHelp.
Import ListNotations.

(** Does the expected old value [old] match what the dictionary has? *)
Definition applies (prev : option N) (old : N) : bool :=
  if (old =? NO_MATCH_OLD)%N then true
  else match prev with
       | Some v => (old =? MATCH_ANY)%N || (old =? v)%N
       | None => (old =? VTOMBSTONE)%N
       end.

Definition upd (m : gmap N N) (k w : N) : gmap N N := if live_dec w then <[k := w]> m else delete k m.

(** The value the code returns for the previous contents. *)
Definition rawret (prev : option N) (r : N) : Prop :=
  match prev with Some v => r = v | None => r = VINITIAL \/ r = VTOMBSTONE end.

Definition dsize (prev : option N) (new x : N) : N :=
  match prev with
  | None => if (new =? VTOMBSTONE)%N then x else add64 x 1
  | Some _ => if (new =? VTOMBSTONE)%N then add64 x minus_one64 else x
  end.

Definition put_map (F : option N -> N) (new old : N) (m : gmap N N) (k : N) : gmap N N :=
  if decide (m !! k = Some new) then m
  else if applies (m !! k) old then upd m k (F (m !! k)) else m.

Definition put_size (new old x : N) (prev : option N) : N :=
  if applies prev old then dsize prev new x else x.

Lemma upd_same m k v : live v -> m !! k = Some v -> upd m k v = m.
Proof. intros H Hm. unfold upd. destruct (live_dec v); [|contradiction]. apply insert_id. exact Hm. Qed.
Lemma upd_dead m k w : ~ live w -> m !! k = None -> upd m k w = m.
Proof. intros H Hm. unfold upd. destruct (live_dec w); [contradiction|]. apply delete_notin. exact Hm. Qed.

Section Put.
Context (C : cfg) (E : err -> Prop).
Context (HAF : E AllocFail).

Definition FUEL (maxcap : N) : nat := LIM maxcap + HELP maxcap + N.to_nat (N.log2 maxcap) + 2.

Lemma put_ok_intro n t m : FU E n (FUEL m) -> put_ok C E (putIfMatch C n (CASvalue C)) t m.
Proof.
  intros HF ex pd sz a T k v mm Q HS HD HT Hm Htop Hck Hvc Hlive Hpd Hex Hfwd Habs HQ.
  eapply (wp_copy_put C E HAF n t ex pd sz a T k v mm Q); auto.
  rewrite Hm. eapply FU_le; [exact HF|]. unfold FUEL, lv. lia.
Qed.

(** The state at the boundary of an operation. *)
Record ready (sz : option N) (a : state) (m : gmap N N) : Prop := {
  r_si : SI0 C None pd0 sz a;
  r_dict : Dict a m;
  r_cz : cz a
}.

Lemma dead_entry sz a j T i : SI0 C None pd0 sz a -> j < st_top a -> st_tabs a !! j = Some T -> i < t_len T ->
  valat (t_pairs T) i = TOMBPRIME.
Proof. intros HS Hj HT Hi. eapply (s_dead _ _ _ _ _ HS); eauto. Qed.

Lemma dead_not_empty sz a j T k i c : SI0 C None pd0 sz a -> j < st_top a -> st_tabs a !! j = Some T ->
  probeT C T k <> PEmpty i c.
Proof.
  intros HS Hj HT Hp. pose proof (s_tw _ _ _ _ _ HS _ _ HT) as HTW.
  assert (Hi : i < t_len T) by (eapply probeT_lt; [exact HTW|right; exact Hp]).
  pose proof (dead_entry _ _ _ _ _ HS Hj HT Hi) as HV.
  apply probe_empty in Hp as (_ & _ & HK & _).
  destruct (tw_ent _ _ _ HTW i Hi) as [[_ H]|[[H _]|((_ & H & _) & _)]].
  - rewrite HV in H. apply VINITIAL_neq_TOMBPRIME. auto.
  - apply KTOMBSTONE_neq_KINITIAL. congruence.
  - congruence.
Qed.

Lemma dead_fwd sz a j T k : SI0 C None pd0 sz a -> j < st_top a -> st_tabs a !! j = Some T -> fwd C T k.
Proof.
  intros HS Hj HT. split.
  - intros i c. eapply dead_not_empty; eauto.
  - intros i c Hp. pose proof (s_tw _ _ _ _ _ HS _ _ HT) as HTW.
    rewrite (dead_entry _ _ _ _ i HS Hj HT); [apply TOMBPRIME_marked|].
    eapply probeT_lt; [exact HTW|left; exact Hp].
Qed.

(** A later boundary state with the same dictionary from which to go on in table [S j]. *)
Definition moved (j : nat) (T : table) (sz : option N) (m : gmap N N) (a a' : state) : Prop :=
  ready sz a' m /\ st_maxcap a' = st_maxcap a /\ S j <= st_top a' /\ st_top a <= st_top a' /\
  exists TN, st_tabs a' !! S j = Some TN /\ t_len TN = 2 * t_len T.

Lemma moved_help j T sz m a a1 T1 a2 :
  after_help C m sz a1 a2 -> st_maxcap a1 = st_maxcap a -> st_top a <= st_top a1 ->
  j <= st_top a1 -> S j < length (st_tabs a1) -> st_tabs a1 !! j = Some T1 -> t_len T1 = t_len T ->
  moved j T sz m a a2.
Proof.
  intros (A1 & A2 & A3 & A4 & A5 & A6 & A7 & _) Hm Ht Hj Hl HT1 HL.
  destruct (A7 _ _ HT1 Hj) as (T2 & HT2 & HL2).
  assert (Htop : S j <= st_top a2 /\ st_top a <= st_top a2).
  { rewrite A5. destruct (Nat.ltb_spec (S (st_top a1)) (length (st_tabs a1))); lia. }
  split; [constructor; assumption|]. split; [congruence|]. split; [lia|]. split; [lia|].
  pose proof (s_top _ _ _ _ _ A1) as Hlt.
  destruct (lookup_lt_is_Some_2 (st_tabs a2) (S j)) as (TN & HTN); [lia|].
  exists TN. split; [exact HTN|]. rewrite (s_len _ _ _ _ _ A1 _ _ _ HT2 HTN). lia.
Qed.

Lemma wp_copySlotAndCheck n n2 a sz m j T i (Q : nat -> state -> Prop) :
  ready sz a m -> j <= st_top a -> st_tabs a !! j = Some T -> S j < length (st_tabs a) ->
  i < t_len T -> ~ live (valat (t_pairs T) i) ->
  FU E n (HELP (st_maxcap a)) -> FU E n2 (FUEL (st_maxcap a)) ->
  (forall a', moved j T sz m a a' -> Q (S j) a') ->
  wp E (copySlotAndCheck C n (putIfMatch C n2 (CASvalue C)) j i false) Q a.
Proof.
  intros [HS HD Hcz] Hj HT Hl Hi Hnl HF HF2 HQ. unfold copySlotAndCheck.
  apply wp_bind. eapply wp_LoadNew; [exact HT|]. rewrite (s_new _ _ _ _ _ HS _ _ HT).
  destruct (Nat.ltb_spec (S j) (length (st_tabs a))); [|lia].
  apply wp_bind.
  apply (wp_copySlot C E pd0 sz a j T m i n); auto.
  { eapply FU_le; [exact HF|]. unfold HELP. lia. }
  { contradiction. }
  { contradiction. }
  intros a1 T1 b HS1 HD1 Hb1 HT1 Htb _ [?|Ho1]; [contradiction|].
  destruct Hb1 as (B1 & B2 & B3 & B4). destruct Htb as (L1 & L2 & _).
  assert (Hcz1 : cz a1).
  { intros T' HT'. rewrite B1 in HT'. destruct (Nat.eq_dec (st_top a) j) as [He|Hne].
    - rewrite He, HT1 in HT'. injection HT' as <-. rewrite L2. apply Hcz. rewrite He. exact HT.
    - rewrite Ho1 in HT' by exact Hne. apply Hcz. exact HT'. }
  apply wp_bind.
  assert (Hgo : forall a2, SI0 C None pd0 sz a2 -> Dict a2 m -> cz a2 -> st_maxcap a2 = st_maxcap a ->
      st_top a <= st_top a2 -> S j < length (st_tabs a2) ->
      (exists T2, st_tabs a2 !! j = Some T2 /\ t_len T2 = t_len T) ->
      wp E (helpCopy C n (putIfMatch C n2 (CASvalue C)) (S j)) Q a2).
  { intros a2 HS2 HD2 Hcz2 Hm2 Ht2 Hl2 (T2 & HT2 & HL2).
    eapply (wp_helpCopy C E n _ a2 (S j) m sz); auto.
    - intros _. rewrite Hm2. apply put_ok_intro. exact HF2.
    - rewrite Hm2. exact HF.
    - intros a3 H3. apply HQ. eapply moved_help; eauto. lia. }
  destruct b.
  - apply (wp_promote C E None (bump pd0 j) sz a1 j T1 m _ 1 HS1 HD1 HT1); [lia| |].
    { unfold bump. rewrite decide_True by reflexivity. reflexivity. }
    intros a2 HS2 HD2 Htabs2 Hmax2 Htop2. apply Hgo; auto.
    + eapply SI0_pd; [|exact HS2]. intros j'. unfold pd0, reset, bump. destruct (decide _); reflexivity.
    + destruct Htop2 as [[H2 _]|(_ & _ & _ & H2)]; [|exact H2].
      intros T' HT'. rewrite H2, Htabs2, with_tab_lookup in HT'.
      destruct (decide (st_top a1 = j)) as [He|He]; [|apply Hcz1; exact HT'].
      rewrite <- He in HT1. rewrite HT1 in HT'. injection HT' as <-. cbn.
      apply Hcz1. exact HT1.
    + congruence.
    + destruct Htop2 as [[H2 _]|(H2 & H3 & _)]; lia.
    + rewrite Htabs2, with_tab_length. lia.
    + exists (add_done 1 T1). split; [rewrite Htabs2; apply with_tab_same; exact HT1|exact L1].
  - apply wp_ret. apply Hgo; auto; [lia|lia|eauto].
Qed.

(** Outcome of a put that does its work with stored value [F prev]. *)
Definition put_post (F : option N -> N) (new old k : N) (m : gmap N N) (sz : option N) (r : N) (a' : state) : Prop :=
  exists sz', ready sz' a' (put_map F new old m k) /\ rawret (m !! k) r /\
  (forall x, sz = Some x -> S (st_top a') = length (st_tabs a') -> sz' = Some (put_size new old x (m !! k))).

Definition good_new (new : N) : Prop := isclean new /\ unmarked new /\ new <> VINITIAL.
Definition good_old (old : N) : Prop := unmarked old /\ old <> VINITIAL.

Definition cas_stores (CAS : casfun) (new : N) (f : N -> N) : Prop :=
  forall t i V a T (Q : N -> state -> Prop), st_tabs a !! t = Some T -> i < t_len T ->
  cas_post t i CVal V (f V) Q a -> wp E (CAS t i V new) Q a.

Definition prev_of (V : N) : option N := if live_dec V then Some V else None.

Lemma ready_ctl sz a m : ready sz a m -> SI0 C None pd0 sz a.
Proof. intros []. assumption. Qed.

Lemma SI0_weaken ex pd sz a : SI0 C ex pd sz a -> SI0 C ex pd None a.
Proof. intros []. constructor; auto. intros x j T [=]. Qed.

(** Changing the size counter of the current table. *)
Lemma SI0_size sz a T y :
  SI0 C None pd0 sz a -> st_tabs a !! st_top a = Some T ->
  exists sz', SI0 C None pd0 sz' (with_tab (st_top a) (set_fld FSize y) a) /\
    (S (st_top a) = length (st_tabs a) -> sz' = Some y).
Proof.
  intros HS HT.
  assert (H : SI0 C None pd0 None (with_tab (st_top a) (set_fld FSize y) a)).
  { eapply SI0_fld; eauto; congruence. }
  destruct (Nat.eq_dec (S (st_top a)) (length (st_tabs a))) as [Hl|Hl].
  - exists (Some y). split; [|reflexivity]. destruct H. constructor; auto.
    intros x j T0 [= <-] Hj HT0. cbn [with_tab st_top] in Hj.
    pose proof (lookup_lt_Some _ _ _ HT0) as Hlt. rewrite with_tab_length in Hlt.
    assert (j = st_top a) as -> by lia.
    rewrite (with_tab_same _ _ _ _ HT) in HT0. injection HT0 as <-. reflexivity.
  - exists None. split; [exact H|]. intros; contradiction.
Qed.

Lemma put_map_applies F new old m k : m !! k <> Some new -> applies (m !! k) old = true ->
  put_map F new old m k = upd m k (F (m !! k)).
Proof. intros H1 H2. unfold put_map. rewrite decide_False by exact H1. rewrite H2. reflexivity. Qed.
Lemma put_map_no F new old m k : applies (m !! k) old = false -> put_map F new old m k = m.
Proof. intros H. unfold put_map. rewrite H. destruct (decide _); reflexivity. Qed.
Lemma put_map_same F new old m k : m !! k = Some new -> put_map F new old m k = m.
Proof. intros H. unfold put_map. rewrite decide_True by exact H. reflexivity. Qed.

Lemma noMatch_applies V old : good_old old -> unmarked V ->
  noMatch V old = negb (applies (prev_of V) old).
Proof.
  intros (Hu & Hi) HuV. unfold noMatch, applies, prev_of.
  destruct (N.eqb_spec old NO_MATCH_OLD) as [->|Hno]; [reflexivity|]. cbn [negb andb].
  destruct (live_dec V) as [(Hl1 & Hl2 & Hl3)|Hl].
  - apply N.eqb_neq in Hl2, Hl3. rewrite Hl2, Hl3, !orb_false_r, andb_true_r. rewrite (N.eqb_sym V old).
    destruct (N.eqb_spec old V); destruct (N.eqb_spec old MATCH_ANY); reflexivity.
  - assert (HV : V = VINITIAL \/ V = VTOMBSTONE).
    { destruct (N.eq_dec V VINITIAL); [auto|]. destruct (N.eq_dec V VTOMBSTONE); [auto|].
      exfalso. apply Hl. repeat split; assumption. }
    destruct HV as [-> | ->].
    + rewrite N.eqb_refl, orb_true_r, andb_true_r. cbn [negb].
      assert ((VINITIAL =? old)%N = false) as -> by (apply N.eqb_neq; congruence). reflexivity.
    + rewrite N.eqb_refl, orb_true_r. rewrite (N.eqb_sym VTOMBSTONE old).
      assert ((VTOMBSTONE =? VINITIAL)%N = false) as -> by (apply N.eqb_neq, VTOMBSTONE_neq_VINITIAL).
      cbn [negb andb orb]. destruct (N.eqb_spec old VTOMBSTONE); reflexivity.
Qed.

(** One slot of the current table, holding [k] with an unmarked value. *)
Section Body.
Context (n : nat) (CAS : casfun) (new old k : N) (f : N -> N) (F : option N -> N).
Context (HCAS : cas_stores CAS new f).
Context (HfF : forall V, isclean V -> unmarked V -> f V = F (prev_of V)).
Context (HFc : forall p, (forall v, p = Some v -> isclean v /\ live v) -> isclean (F p) /\ unmarked (F p)).
Context (HFt : new = VTOMBSTONE -> forall p, F p = VTOMBSTONE).
Context (Hnew : good_new new) (Hold : good_old old) (Hck : client_key k).

Definition fwd_result (m : gmap N N) (sz : option N) (top0 : nat) (r : N) (a' : state) : Prop :=
  put_post (fun _ => new) new old k m sz r a' /\ top0 < st_top a'.

Definition result (j : nat) (m : gmap N N) (sz : option N) (a : state) (r : N) (a' : state) : Prop :=
  st_maxcap a' = st_maxcap a /\ st_top a <= st_top a' /\
  (put_post F new old k m sz r a' \/ fwd_result m sz j r a').

(** The recursive call in the next table. *)
Definition next_ok (j : nat) (T : table) (m : gmap N N) (sz : option N) (a : state) : Prop :=
  forall a' (Q : N -> state -> Prop), moved j T sz m a a' ->
  (forall r a'', put_post (fun _ => new) new old k m sz r a'' -> st_maxcap a'' = st_maxcap a' ->
     st_top a' <= st_top a'' -> Q r a'') ->
  wp E (putIfMatch C n (CASvalue C) (S j) k new old) Q a'.

Definition slot_step (j i : nat) (V : N) (c len : nat) : prog N :=
  (if (new =? V)%N then Ret V
   else
     full <-- (if (V =? VINITIAL)%N then tableFull j c len else Ret false);;
     if (full : bool) || isMarked V MigrationFlag
     then resize C j ;;; (nt <-- copySlotAndCheck C n (putIfMatch C n (CASvalue C)) j i (old =? VINITIAL)%N;;
                          putIfMatch C n (CASvalue C) nt k new old)
     else updateLoop C n CAS (nt <-- copySlotAndCheck C n (putIfMatch C n (CASvalue C)) j i (old =? VINITIAL)%N;;
                              putIfMatch C n (CASvalue C) nt k new old) j i new old V)%prog.

Lemma after_resize a sz m j T (Q : nat -> state -> Prop) :
  ready sz a m -> j <= st_top a -> st_tabs a !! j = Some T ->
  (forall a' T', ready sz a' m -> st_top a' = st_top a -> st_maxcap a' = st_maxcap a ->
    st_tabs a' !! j = Some T' -> t_len T' = t_len T -> t_pairs T' = t_pairs T ->
    S j < length (st_tabs a') -> Q (S j) a') ->
  wp E (resize C j) Q a.
Proof.
  intros [HS HD Hcz] Hj HT HQ.
  apply (wp_resize C E HAF None pd0 sz a j T m); auto.
  intros a' T' HS' HD' (B1 & B2 & B3 & B4) Ho HT' (L1 & L2 & L3 & L4 & L5 & L6) Hl' _.
  apply (HQ a' T'); auto. constructor; auto.
  intros T0 HT0. rewrite B1 in HT0. destruct (Nat.eq_dec (st_top a) j) as [He|Hne].
  - rewrite He, HT' in HT0. injection HT0 as <-. rewrite L5. apply Hcz. rewrite He. exact HT.
  - rewrite Ho in HT0; [apply Hcz; exact HT0|apply (s_top _ _ _ _ _ HS)|exact Hne].
Qed.

Lemma moved_from sz m a a1 j T T1 a2 :
  moved j T1 sz m a1 a2 -> st_maxcap a1 = st_maxcap a -> st_top a1 = st_top a -> t_len T1 = t_len T ->
  moved j T sz m a a2.
Proof.
  intros (A1 & A2 & A3 & A4 & TN & A5 & A6) H1 H2 H3. split; [exact A1|]. split; [congruence|].
  split; [exact A3|]. split; [lia|]. exists TN. split; [exact A5|]. congruence.
Qed.

(** Forward to the next table because the slot is migrated or the table is full. *)
Lemma wp_forward sz a m j T i (Q : N -> state -> Prop) :
  ready sz a m -> j <= st_top a -> st_tabs a !! j = Some T -> i < t_len T ->
  ~ live (valat (t_pairs T) i) -> FU E n (FUEL (st_maxcap a)) -> next_ok j T m sz a ->
  (forall r a'', fwd_result m sz j r a'' -> st_maxcap a'' = st_maxcap a -> st_top a <= st_top a'' -> Q r a'') ->
  wp E (resize C j ;;; (nt <-- copySlotAndCheck C n (putIfMatch C n (CASvalue C)) j i (old =? VINITIAL)%N;;
                        putIfMatch C n (CASvalue C) nt k new old)) Q a.
Proof.
  intros HR Hj HT Hi Hnl HF Hnext HQ.
  apply wp_bind. eapply after_resize; eauto.
  intros a1 T1 HR1 Htop1 Hmax1 HT1 HL1 HP1 Hl1.
  assert ((old =? VINITIAL)%N = false) as -> by (apply N.eqb_neq; apply Hold).
  apply wp_bind.
  apply (wp_copySlotAndCheck n n a1 sz m j T1 i); auto.
  - lia.
  - lia.
  - rewrite HP1. exact Hnl.
  - rewrite Hmax1. eapply FU_le; [exact HF|]. unfold FUEL. lia.
  - rewrite Hmax1. exact HF.
  - intros a2 Hmv. pose proof (moved_from _ _ a _ _ T _ _ Hmv Hmax1 Htop1 HL1) as Hmv'.
    apply Hnext; [exact Hmv'|]. intros r a3 Hpost Hm3 Ht3.
    destruct Hmv' as (_ & M2 & M3 & M4 & _).
    apply HQ; [|congruence|lia]. split; [exact Hpost|lia].
Qed.

Lemma countChange_post sz a j T V (Q : unit -> state -> Prop) :
  SI0 C None pd0 sz a -> j = st_top a -> st_tabs a !! j = Some T -> unmarked V -> new <> VINITIAL ->
  (forall a' sz' y, a' = with_tab j (set_fld FSize y) a -> SI0 C None pd0 sz' a' ->
     (forall x, sz = Some x -> S (st_top a') = length (st_tabs a') -> sz' = Some (dsize (prev_of V) new x)) ->
     Q tt a') ->
  wp E (countChange j V new old) Q a.
Proof.
  intros HS Hj HT HuV Hni HQ. unfold countChange.
  assert ((old =? VINITIAL)%N = false) as -> by (apply N.eqb_neq; apply Hold). cbn [negb].
  assert (Hd : (((V =? VINITIAL) || (V =? VTOMBSTONE))%N = true /\ prev_of V = None) \/
               (((V =? VINITIAL) || (V =? VTOMBSTONE))%N = false /\ prev_of V = Some V)).
  { unfold prev_of. destruct (live_dec V) as [(_ & H1 & H2)|H].
    - right. split; [|reflexivity]. apply orb_false_iff. split; apply N.eqb_neq; assumption.
    - left. split; [|reflexivity]. apply orb_true_iff.
      destruct (N.eqb_spec V VINITIAL); [auto|]. destruct (N.eqb_spec V VTOMBSTONE); [auto|].
      exfalso. apply H. repeat split; assumption. }
  assert (Hsame : forall Q' : state -> Prop,
     (forall a' sz' y, a' = with_tab j (set_fld FSize y) a -> SI0 C None pd0 sz' a' ->
        (forall x, sz = Some x -> S (st_top a') = length (st_tabs a') -> sz' = Some x) -> Q' a') -> Q' a).
  { intros Q' H. apply (H a sz (t_size T)).
    - symmetry. eapply with_tab_id; [exact HT|]. destruct T; reflexivity.
    - exact HS.
    - intros x Hx _. exact Hx. }
  assert (Hadd : forall d (Q' : state -> Prop),
     (forall a' sz' y, a' = with_tab j (set_fld FSize y) a -> SI0 C None pd0 sz' a' ->
        (forall x, sz = Some x -> S (st_top a') = length (st_tabs a') -> sz' = Some (add64 x d)) -> Q' a') ->
     Q' (with_tab j (fun T0 => set_fld FSize (add64 (get_fld FSize T0) d) T0) a)).
  { intros d Q' H. subst j.
    destruct (SI0_size sz a T (add64 (t_size T) d) HS HT) as (sz' & HS' & Hsz').
    eapply (H _ sz' (add64 (t_size T) d)).
    - eapply with_tab_ext; [exact HT|reflexivity].
    - replace (with_tab (st_top a) _ a) with (with_tab (st_top a) (set_fld FSize (add64 (t_size T) d)) a);
        [exact HS'|]. eapply with_tab_ext; [exact HT|reflexivity].
    - intros x Hx Hl. rewrite with_tab_length in Hl. rewrite (Hsz' Hl).
      rewrite (s_size _ _ _ _ _ HS x _ _ Hx (le_n _) HT). reflexivity. }
  destruct Hd as [[-> Hp]|[-> Hp]]; cbn [negb andb]; rewrite Hp in HQ; cbn [dsize] in HQ.
  - destruct (new =? VTOMBSTONE)%N; cbn [negb].
    + apply wp_ret. apply Hsame. intros a' sz' y. apply HQ.
    + apply wp_bind. eapply wp_AddF; [exact HT|]. apply wp_ret. apply Hadd. intros a' sz' y. apply HQ.
  - destruct (new =? VTOMBSTONE)%N.
    + apply wp_bind. eapply wp_AddF; [exact HT|]. apply wp_ret. apply Hadd. intros a' sz' y. apply HQ.
    + apply wp_ret. apply Hsame. intros a' sz' y. apply HQ.
Qed.

Lemma wp_slot sz a m j T i c (Q : N -> state -> Prop) :
  ready sz a m -> j = st_top a -> st_tabs a !! j = Some T -> probeT C T k = PFound i c ->
  unmarked (valat (t_pairs T) i) -> FU E n (FUEL (st_maxcap a)) -> next_ok j T m sz a ->
  (forall r a', result j m sz a r a' -> Q r a') ->
  wp E (slot_step j i (valat (t_pairs T) i) c (t_len T)) Q a.
Proof.
  intros HR Hj HT Hp Hu HF Hnext HQ. unfold slot_step.
  pose proof HR as [HS HD Hcz].
  pose proof (s_tw _ _ _ _ _ HS _ _ HT) as HTW.
  assert (Hi : i < t_len T) by (eapply probeT_lt; [exact HTW|left; exact Hp]).
  assert (HK : keyat (t_pairs T) i = k) by (eapply found_key; exact Hp).
  pose proof (dict_found _ _ _ _ _ _ _ _ _ _ _ HS HD HT Hck Hp Hu) as Hm.
  set (V := valat (t_pairs T) i) in *. fold (prev_of V) in Hm.
  destruct Hnew as (Hnc & Hnu & Hni). destruct Hold as (Hou & Hoi).
  assert (Hvc : isclean V).
  { destruct Hck as (_ & K1 & K2).
    destruct (tw_ent _ _ _ HTW i Hi) as [[H _]|[[H _]|(_ & H & _)]]; [congruence|congruence|exact H]. }
  assert (HVdead : ~ live V -> V = VINITIAL \/ V = VTOMBSTONE).
  { intros H. destruct (N.eq_dec V VINITIAL); [auto|]. destruct (N.eq_dec V VTOMBSTONE); [auto|].
    exfalso. apply H. repeat split; assumption. }
  assert (Hraw : rawret (m !! k) V).
  { rewrite Hm. unfold prev_of. destruct (live_dec V); [reflexivity|]. cbn. auto. }
  assert (Hdir : forall r a', put_post F new old k m sz r a' -> st_maxcap a' = st_maxcap a ->
            st_top a' = st_top a -> Q r a').
  { intros r a' H1 H2 H3. apply HQ. split; [exact H2|]. split; [lia|]. left. exact H1. }
  destruct (N.eqb_spec new V) as [Hnv|Hnv].
  { (* storing what is already there *)
    apply wp_ret. apply Hdir; [|reflexivity|reflexivity]. exists sz.
    assert (Hpm : put_map F new old m k = m).
    { rewrite Hnv in *. destruct (live_dec V) as [Hl|Hl].
      - apply put_map_same. rewrite Hm. unfold prev_of. destruct (live_dec V); [congruence|contradiction].
      - destruct (HVdead Hl) as [He|He]; [congruence|].
        unfold put_map. destruct (decide _); [reflexivity|]. destruct (applies _ _); [|reflexivity].
        rewrite HFt by congruence. apply upd_dead; [apply not_live_VTOMBSTONE|].
        rewrite Hm. unfold prev_of. destruct (live_dec V); [contradiction|reflexivity]. }
    rewrite Hpm. split; [exact HR|]. split; [exact Hraw|].
    intros x Hx _. rewrite Hx. f_equal. unfold put_size, dsize. rewrite Hm. unfold prev_of.
    destruct (applies _ _); [|reflexivity]. rewrite Hnv.
    destruct (live_dec V) as [(_ & _ & H)|Hl].
    - apply N.eqb_neq in H. rewrite H. reflexivity.
    - destruct (HVdead Hl) as [He|He]; [congruence|]. rewrite He, N.eqb_refl. reflexivity. }
  assert (Hfull : forall b, wp E
    (if (b : bool) || isMarked V MigrationFlag
     then resize C j ;;; (nt <-- copySlotAndCheck C n (putIfMatch C n (CASvalue C)) j i (old =? VINITIAL)%N;;
                          putIfMatch C n (CASvalue C) nt k new old)
     else updateLoop C n CAS (nt <-- copySlotAndCheck C n (putIfMatch C n (CASvalue C)) j i (old =? VINITIAL)%N;;
                              putIfMatch C n (CASvalue C) nt k new old) j i new old V)%prog Q a \/
    (b = true /\ V <> VINITIAL)).
  { intros b. rewrite Hu, orb_false_r. destruct b.
    - destruct (N.eq_dec V VINITIAL) as [HV|HV]; [left|right; auto].
      eapply wp_forward; eauto; [lia| |].
      + fold V. rewrite HV. apply not_live_VINITIAL.
      + intros r a' H1 H2 H3. apply HQ. split; [exact H2|]. split; [exact H3|]. right. exact H1.
    - left.
      destruct n as [|n']; [apply wp_err; destruct HF as [H|H]; [exact H|unfold FUEL in H; lia]|].
      cbn [updateLoop]. apply wp_bind, wp_assert; [rewrite Hu; reflexivity|].
      rewrite noMatch_applies by (auto; split; assumption).
      destruct (applies (prev_of V) old) eqn:Happ; cbn [negb].
      + apply wp_bind. eapply HCAS; [exact HT|exact Hi|]. unfold cas_post.
        rewrite (read_val _ _ _ _ HT). fold V. rewrite N.eqb_refl.
        rewrite (HfF V Hvc Hu).
        assert (HFV : isclean (F (prev_of V)) /\ unmarked (F (prev_of V))).
        { apply HFc. intros v. unfold prev_of. destruct (live_dec V); intros [= <-]. auto. }
        destruct HFV as (HFVc & HFVu). rewrite (clean_id _ HFVc).
        set (W := F (prev_of V)) in *.
        set (a1 := with_tab j (aset i CVal W) a).
        assert (HS1 : SI0 C None pd0 sz a1).
        { destruct Hck as (_ & K1 & K2).
          eapply SI0_setval; [exact HS|exact HT|exact Hi| | | |exact HFVc| | | | |].
          - rewrite HK. exact K1.
          - rewrite HK. congruence.
          - fold V. intros He. rewrite He in Hu. apply TOMBPRIME_not_unmarked, Hu.
          - fold V. intros Hmk. exfalso. eapply marked_unmarked; [exact Hmk|exact Hu].
          - intros Hmk. exfalso. eapply marked_unmarked; [exact Hmk|exact HFVu].
          - intros j'. rewrite decide_False; [reflexivity|]. intros [_ He]. rewrite He in HFVu.
            apply TOMBPRIME_not_unmarked, HFVu.
          - intros _. right. exact HFVu.
          - intros ? ? _ [=]. }
        pose proof (dict_setval _ _ _ _ _ _ _ _ _ _ W _ HS HT Hck Hp Hu HD) as HD1. fold a1 in HD1.
        change (Dict a1 (upd m k W)) in HD1.
        assert (HT1 : st_tabs a1 !! j = Some (aset i CVal W T)) by (apply with_tab_same; exact HT).
        apply wp_bind. eapply (countChange_post sz a1 j); [exact HS1|exact Hj|exact HT1|exact Hu|exact Hni|].
        intros a2 sz2 y Ha2 HS2 Hsz2. apply wp_ret.
        assert (Hpm : put_map F new old m k = upd m k W).
        { unfold W. rewrite <- Hm. apply put_map_applies.
          - rewrite Hm. unfold prev_of. destruct (live_dec V); congruence.
          - rewrite Hm. exact Happ. }
        apply Hdir.
        * exists sz2. rewrite Hpm. split; [|split].
          -- constructor; [exact HS2| |].
             ++ rewrite Ha2. apply dict_fld. exact HD1.
             ++ intros T' HT'. rewrite Ha2 in HT'. cbn [with_tab st_top a1] in HT'.
                rewrite <- Hj in HT'. change (st_tabs (with_tab j (set_fld FSize y) a1) !! j = Some T') in HT'.
                rewrite (with_tab_same _ _ _ _ HT1) in HT'. injection HT' as <-. cbn.
                apply Hcz. rewrite <- Hj. exact HT.
          -- rewrite Hm. unfold prev_of. assert ((old =? VINITIAL)%N = false) as -> by (apply N.eqb_neq; exact Hoi).
             rewrite andb_true_r. destruct (live_dec V) as [(_ & H1 & _)|Hl].
             ++ apply N.eqb_neq in H1. rewrite H1. reflexivity.
             ++ destruct (HVdead Hl) as [He|He]; rewrite He.
                ** rewrite N.eqb_refl. cbn. auto.
                ** assert ((VTOMBSTONE =? VINITIAL)%N = false) as -> by (apply N.eqb_neq, VTOMBSTONE_neq_VINITIAL).
                   cbn. auto.
          -- intros x Hx Hl. rewrite (Hsz2 x Hx Hl). f_equal. unfold put_size. rewrite Hm, Happ. reflexivity.
        * rewrite Ha2. reflexivity.
        * rewrite Ha2. reflexivity.
      + apply wp_ret. apply Hdir; [|reflexivity|reflexivity]. exists sz.
        rewrite put_map_no by (rewrite Hm; exact Happ).
        split; [exact HR|]. split; [exact Hraw|]. intros x Hx _. rewrite Hx. f_equal. unfold put_size.
        rewrite Hm, Happ. reflexivity. }
  apply wp_bind. destruct (N.eqb_spec V VINITIAL) as [HV|HV].
  - eapply wp_tableFull; [exact HT|]. intros b. destruct (Hfull b) as [H|[_ H]]; [exact H|contradiction].
  - apply wp_ret. destruct (Hfull false) as [H|[H _]]; [exact H|discriminate].
Qed.

Lemma wp_putBody sz a m j T (Q : N -> state -> Prop) :
  ready sz a m -> j <= st_top a -> st_tabs a !! j = Some T ->
  FU E n (FUEL (st_maxcap a)) ->
  (forall a0 T0, ready sz a0 m -> st_top a0 = st_top a -> st_maxcap a0 = st_maxcap a -> t_len T0 = t_len T ->
     next_ok j T0 m sz a0) ->
  (forall r a', result j m sz a r a' -> Q r a') ->
  wp E (putBody C n (putIfMatch C n (CASvalue C)) CAS j k new old) Q a.
Proof.
  intros HR Hj HT HF Hnext HQ. pose proof HR as [HS HD Hcz].
  pose proof (s_tw _ _ _ _ _ HS _ _ HT) as HTW. pose proof (LIM_ge _ _ _ HTW) as HLIM.
  pose proof Hck as (Hkc & Hk1 & Hk2). pose proof Hnew as (Hnc & Hnu & Hni). pose proof Hold as (Hou & Hoi).
  unfold putBody.
  apply wp_bind, wp_assert; [apply negb_true_iff, N.eqb_neq; exact Hni|].
  apply wp_bind, wp_assert; [rewrite Hnu; reflexivity|].
  apply wp_bind, wp_assert; [rewrite Hou; reflexivity|].
  apply wp_bind. eapply wp_Len; [exact HT|].
  apply wp_bind. apply (wp_claimSlot C E n j k new T a _ 0 (reprobeLimit (t_len T))); auto.
  { apply (tw_pos _ _ _ HTW). }
  { unfold reprobeLimit, REPROBE_LIMIT. lia. }
  { eapply FU_le; [exact HF|]. unfold FUEL. lia. }
  unfold claim_post. fold (probeT C T k).
  destruct (probeT C T k) as [i c|i c|] eqn:Hp.
  - assert (Hi : i < t_len T) by (eapply probeT_lt; [exact HTW|left; exact Hp]).
    destruct (marked_dec (valat (t_pairs T) i)) as [Hmk|Hum].
    + (* migrated entry *)
      assert (HV : valat (t_pairs T) i = TOMBPRIME).
      { destruct (s_nm _ _ _ _ _ HS _ _ i HT Hi) as [H|H]; [congruence|exact H|].
        exfalso. eapply marked_unmarked; eauto. }
      rewrite HV. destruct (N.eqb_spec new TOMBPRIME) as [He|_].
      { exfalso. rewrite He in Hnu. apply TOMBPRIME_not_unmarked, Hnu. }
      destruct (N.eqb_spec TOMBPRIME VINITIAL) as [He|_]; [exfalso; apply VINITIAL_neq_TOMBPRIME; auto|].
      apply wp_bind, wp_ret. rewrite TOMBPRIME_marked, orb_true_r.
      eapply wp_forward; eauto.
      * rewrite HV. apply not_live_TOMBPRIME.
      * intros r a' H1 H2 H3. apply HQ. split; [exact H2|]. split; [exact H3|]. right. exact H1.
    + assert (Hjt : j = st_top a).
      { destruct (Nat.eq_dec j (st_top a)) as [|Hne]; [assumption|]. exfalso.
        assert (HV : valat (t_pairs T) i = TOMBPRIME) by (eapply dead_entry; eauto; lia).
        rewrite HV in Hum. apply TOMBPRIME_not_unmarked, Hum. }
      apply (wp_slot sz a m j T i c); auto.
  - assert (Hjt : j = st_top a).
    { destruct (Nat.eq_dec j (st_top a)) as [|Hne]; [assumption|]. exfalso.
      assert (Hlt : j < st_top a) by lia. exact (dead_not_empty _ _ _ _ _ _ _ HS Hlt HT Hp). }
    assert (Hfwd : forall j' T', j' < j -> st_tabs a !! j' = Some T' -> fwd C T' k).
    { intros j' T' Hj' HT'. eapply dead_fwd; [exact HS| |exact HT']. lia. }
    destruct (N.eqb_spec new VTOMBSTONE) as [He|He].
    + (* nothing to remove *)
      assert (Hm : m !! k = None).
      { exact (dict_empty _ _ _ _ _ _ _ _ _ _ _ HS HD HT Hck Hfwd Hp). }
      apply wp_ret. apply HQ. split; [reflexivity|]. split; [lia|]. left. exists sz.
      assert (Hpm : put_map F new old m k = m).
      { unfold put_map. destruct (decide _); [reflexivity|]. destruct (applies _ _); [|reflexivity].
        rewrite HFt by exact He. apply upd_dead; [apply not_live_VTOMBSTONE|exact Hm]. }
      rewrite Hpm. split; [exact HR|]. split; [rewrite Hm; cbn; auto|].
      intros x Hx _. rewrite Hx. f_equal. unfold put_size, dsize. rewrite Hm, He, N.eqb_refl.
      destruct (applies _ _); reflexivity.
    + destruct (claim_SI0 _ _ _ _ _ _ _ _ _ _ _ HS HD HT Hck Hp Hfwd)
        as (HS1 & HD1 & HT1 & Hp1 & HK & HV & HV1 & Ho1).
      set (a1 := with_tab j upd_slots (with_tab j (aset i CKey k) a)) in *.
      set (T1 := upd_slots (aset i CKey k T)) in *.
      replace (valat (t_pairs T) i) with (valat (t_pairs T1) i) by congruence.
      change (t_len T) with (t_len T1).
      apply (wp_slot sz a1 m j T1 i c); auto.
      * constructor; auto. intros T' HT'. change (st_top a1) with (st_top a) in HT'.
        rewrite <- Hjt, HT1 in HT'. injection HT' as <-. change (t_copyIdx T = 0%N). apply Hcz.
        rewrite <- Hjt. exact HT.
      * rewrite HV1. apply VINITIAL_unmarked.
      * apply Hnext; auto. constructor; auto. intros T' HT'. change (st_top a1) with (st_top a) in HT'.
        rewrite <- Hjt, HT1 in HT'. injection HT' as <-. change (t_copyIdx T = 0%N). apply Hcz.
        rewrite <- Hjt. exact HT.
  - (* probed too far *)
    apply wp_bind. eapply after_resize; eauto.
    intros a1 T1 HR1 Htop1 Hmax1 HT1 HL1 HP1 Hl1.
    assert ((old =? VINITIAL)%N = false) as -> by (apply N.eqb_neq; exact Hoi). cbn [negb].
    apply wp_bind, wp_bind. pose proof HR1 as [HS1 HD1 Hcz1].
    eapply (wp_helpCopy C E n _ a1 (S j) m sz); auto.
    + intros _. rewrite Hmax1. apply put_ok_intro. exact HF.
    + rewrite Hmax1. eapply FU_le; [exact HF|]. unfold FUEL. lia.
    + intros a2 H2. apply wp_ret.
      assert (Hmv : moved j T sz m a a2).
      { eapply moved_help; eauto; lia. }
      apply (Hnext a T HR eq_refl eq_refl eq_refl); [exact Hmv|].
      intros r a3 Hpost Hm3 Ht3. destruct Hmv as (_ & M2 & M3 & M4 & _).
      apply HQ. split; [congruence|]. split; [lia|]. right. split; [exact Hpost|lia].
Qed.

End Body.

(** The default put. *)
Lemma CASvalue_stores new : cas_stores (CASvalue C) new (fun _ => new).
Proof. intros t i V a T Q HT Hi H. eapply wp_CASvalue; eauto. Qed.

Lemma put_post_const new old k m sz r a' : put_post (fun _ => new) new old k m sz r a' ->
  put_post (fun _ => new) new old k m sz r a'.
Proof. auto. Qed.

Lemma wp_put n : forall sz a m j T k new old (Q : N -> state -> Prop),
  ready sz a m -> j <= st_top a -> st_tabs a !! j = Some T ->
  good_new new -> good_old old -> client_key k ->
  FU E n (S (FUEL (st_maxcap a) + lv (st_maxcap a) (t_len T))) ->
  (forall r a', put_post (fun _ => new) new old k m sz r a' -> st_maxcap a' = st_maxcap a ->
     st_top a <= st_top a' -> Q r a') ->
  wp E (putIfMatch C n (CASvalue C) j k new old) Q a.
Proof.
  induction n as [|n IH]; intros sz a m j T k new old Q HR Hj HT Hnew Hold Hck HF HQ.
  { apply wp_err. destruct HF; [assumption|lia]. }
  apply FU_S in HF. cbn [putIfMatch].
  apply (wp_putBody n (CASvalue C) new old k (fun _ => new) (fun _ => new)) with (sz := sz) (m := m) (T := T); auto.
  - apply CASvalue_stores.
  - intros _ _. destruct Hnew as (? & ? & _). auto.
  - eapply FU_le; [exact HF|]. lia.
  - intros a0 T0 HR0 Htop0 Hmax0 HL0 a' Q' Hmv HQ'.
    destruct Hmv as (M1 & M2 & M3 & M4 & TN & M5 & M6).
    eapply (IH sz a' m (S j) TN); auto.
    pose proof (s_tw _ _ _ _ _ (r_si _ _ _ M1) _ _ M5) as HTWN.
    pose proof (s_tw _ _ _ _ _ (r_si _ _ _ HR) _ _ HT) as HTW.
    rewrite M2, Hmax0 in *. pose proof (lv_step _ _ _ _ HTW HTWN) as Hlv. rewrite HL0 in M6. specialize (Hlv M6).
    eapply FU_le; [exact HF|]. lia.
  - intros r a' (R1 & R2 & [R3|[R3 _]]); apply HQ; auto.
Qed.

(** The increment. *)
Definition inc_of (prev : option N) : N := match prev with Some v => incremented v | None => incremented VINITIAL end.

Lemma shl3_clean x : isclean (shl64 x BITS_MARKED) /\ unmarked (shl64 x BITS_MARKED).
Proof.
  unfold isclean, unmarked. rewrite isMarked_dirty, isMarked_mig. unfold shl64, two64, BITS_MARKED.
  split; rewrite N.mod_pow2_bits_low by lia; rewrite N.shiftl_spec_low by lia; reflexivity.
Qed.

Lemma inc_good p : isclean (inc_of p) /\ unmarked (inc_of p).
Proof. destruct p; apply shl3_clean. Qed.

Lemma inc_dead V : unmarked V -> incremented V = inc_of (prev_of V).
Proof.
  intros Hu. unfold prev_of. destruct (live_dec V) as [|Hl]; [reflexivity|].
  destruct (N.eq_dec V VINITIAL) as [->|H1]; [reflexivity|].
  destruct (N.eq_dec V VTOMBSTONE) as [->|H2].
  - unfold inc_of, incremented. rewrite !N.eqb_refl, orb_true_r. reflexivity.
  - exfalso. apply Hl. repeat split; assumption.
Qed.

Lemma increment_stores new : cas_stores (increment C) new incremented.
Proof. intros t i V a T Q HT Hi H. eapply wp_increment; eauto. Qed.

Lemma wp_inc n sz a m T k new old (Q : N -> state -> Prop) :
  ready sz a m -> st_tabs a !! st_top a = Some T ->
  good_new new -> new <> VTOMBSTONE -> good_old old -> client_key k ->
  FU E n (S (FUEL (st_maxcap a) + lv (st_maxcap a) (t_len T))) ->
  (forall r a', put_post inc_of new old k m sz r a' \/
      (put_post (fun _ => new) new old k m sz r a' /\ st_top a < st_top a') ->
     st_maxcap a' = st_maxcap a -> st_top a <= st_top a' -> Q r a') ->
  wp E (putIfMatch C n (increment C) (st_top a) k new old) Q a.
Proof.
  intros HR HT Hnew Hnt Hold Hck HF HQ.
  destruct n as [|n]; [apply wp_err; destruct HF; [assumption|lia]|].
  apply FU_S in HF. cbn [putIfMatch].
  apply (wp_putBody n (increment C) new old k incremented inc_of) with (sz := sz) (m := m) (T := T); auto.
  - apply increment_stores.
  - intros V _. apply inc_dead.
  - intros p _. apply inc_good.
  - contradiction.
  - eapply FU_le; [exact HF|]. lia.
  - intros a0 T0 HR0 Htop0 Hmax0 HL0 a' Q' Hmv HQ'.
    destruct Hmv as (M1 & M2 & M3 & M4 & TN & M5 & M6).
    eapply (wp_put n sz a' m (S (st_top a)) TN); auto.
    pose proof (s_tw _ _ _ _ _ (r_si _ _ _ M1) _ _ M5) as HTWN.
    pose proof (s_tw _ _ _ _ _ (r_si _ _ _ HR) _ _ HT) as HTW.
    rewrite M2, Hmax0 in *. pose proof (lv_step _ _ _ _ HTW HTWN) as Hlv. rewrite HL0 in M6. specialize (Hlv M6).
    eapply FU_le; [exact HF|]. lia.
  - intros r a' (R1 & R2 & R3). apply HQ; auto.
Qed.

End Put.
