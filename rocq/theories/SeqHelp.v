(** Single-threaded migration of a whole table. *)
From Coq Require Import NArith Bool List Lia.
From stdpp Require Import base list gmap.
From Verif Require Import Word Bits Prog HashMap Abs Probe SeqInv SeqCopy.
Import ListNotations.

Section Help.
Context (C : cfg) (E : err -> Prop).
Context (HAF : E AllocFail).

Definition pd0 : nat -> nat := fun _ => 0.
Definition pdt (t w : nat) : nat -> nat := fun j => if decide (j = t) then w else 0.

Lemma pdt_same t w : pdt t w t = w.
Proof. unfold pdt. rewrite decide_True by reflexivity. reflexivity. Qed.
Lemma pdt_ne t w j : j <> t -> pdt t w j = 0.
Proof. intros H. unfold pdt. rewrite decide_False by exact H. reflexivity. Qed.

Lemma mask_small x e : (x < 2 ^ N.of_nat e)%N -> mask x (2 ^ e) = N.to_nat x.
Proof.
  intros H. unfold mask. rewrite Nat2N.inj_pow. change (N.of_nat 2) with 2%N.
  replace (2 ^ N.of_nat e - 1)%N with (N.ones (N.of_nat e)) by (rewrite N.ones_equiv; lia).
  rewrite N.land_ones, N.mod_small by exact H. reflexivity.
Qed.

(** Same table with more migrated entries. *)
Definition more (T T' : table) : Prop :=
  t_len T' = t_len T /\ t_copyIdx T' = t_copyIdx T /\
  forall i, valat (t_pairs T) i = TOMBPRIME -> valat (t_pairs T') i = TOMBPRIME.

Lemma more_refl T : more T T.
Proof. repeat split; auto. Qed.
Lemma more_trans T T' T'' : more T T' -> more T' T'' -> more T T''.
Proof. intros (A & B & D) (A' & B' & D'). repeat split; [congruence|congruence|auto]. Qed.

Lemma tombed_more T i T' : tombed T i T' -> more T T'.
Proof.
  intros (A & B & _ & D & F & _). repeat split; auto.
  intros i' H. destruct (Nat.eq_dec i' i) as [->|Hne]; [exact D|]. rewrite F by exact Hne. exact H.
Qed.

(** The recursive put copies into the successor of the current table. *)
Definition put_ok (put : nat -> N -> N -> N -> prog N) (t : nat) (maxcap : N) : Prop :=
  forall ex pd sz a T k v m (Q : N -> state -> Prop),
  SI0 C ex pd sz a -> Dict a m -> st_tabs a !! t = Some T -> st_maxcap a = maxcap -> st_top a < t ->
  client_key k -> isclean v -> live v ->
  (forall j', t <= j' -> pd j' = 0) -> (forall j' i, t <= j' -> ex <> Some (j', i)) ->
  (forall j' T', j' < t -> st_tabs a !! j' = Some T' -> fwd C T' k) ->
  (forall j' T', t <= j' -> st_tabs a !! j' = Some T' -> ~ has_key T' k) ->
  (forall a', SI0 C ex pd sz a' -> Dict a' (<[k := v]> m) -> below t a a' -> Q VINITIAL a') ->
  wp E (put t k v VINITIAL) Q a.

Lemma put_ok_eq put t maxcap : put_ok put t maxcap -> wp_put_copy C E put t maxcap.
Proof. exact (fun H => H). Qed.

Lemma wp_copyChunk n put t len c cnt : forall i w sz a T m (Q : N -> state -> Prop),
  SI0 C None (pdt t w) sz a -> Dict a m -> st_tabs a !! t = Some T -> t_len T = len ->
  S t < length (st_tabs a) -> st_top a = t -> FU E n 2 ->
  put_ok put (S t) (st_maxcap a) ->
  c + i + cnt <= len ->
  (forall a' T' w', SI0 C None (pdt t w') sz a' -> Dict a' m -> below t a a' ->
     st_tabs a' !! t = Some T' -> more T T' ->
     (forall x, c + i <= x < c + i + cnt -> valat (t_pairs T') x = TOMBPRIME) -> Q (N.of_nat w') a') ->
  wp E (copyChunk C n put t (S t) len (N.of_nat c) i cnt (N.of_nat w)) Q a.
Proof.
  induction cnt as [|cnt IH]; intros i w sz a T m Q HS HD HT HL Hl Htop HF Hput Hb HQ; cbn [copyChunk].
  { apply wp_ret. apply (HQ a T); auto using below_refl, more_refl. intros x Hx. lia. }
  pose proof (s_tw _ _ _ _ _ HS _ _ HT) as HTW. pose proof (tw_lt59 _ _ _ HTW) as H59.
  destruct (tw_pow _ _ _ HTW) as (e & He & _).
  assert (Hmask : mask (add64 (N.of_nat c) (N.of_nat i)) len = c + i).
  { rewrite <- HL, He. unfold add64. rewrite N.mod_small.
    - rewrite mask_small; [lia|]. change 2%N with (N.of_nat 2). rewrite <- Nat2N.inj_pow, <- He. lia.
    - unfold two64. change (2 ^ 64)%N with (32 * 2 ^ 59)%N. lia. }
  rewrite Hmask.
  apply wp_bind.
  apply (wp_copySlot C E (pdt t w) sz a t T m (c + i) n put); auto.
  - lia.
  - intros j' Hj'. apply pdt_ne. lia.
  - intros _. lia.
  - intros a1 T1 b HS1 HD1 Hb1 HT1 Htb _ _.
    pose proof (tombed_more _ _ _ Htb) as Hmore1. destruct Htb as (L1 & _ & _ & V1 & _).
    pose proof Hb1 as (B1 & B2 & B3 & B4).
    assert (HS1' : SI0 C None (pdt t (if b then S w else w)) sz a1).
    { eapply SI0_pd; [|exact HS1]. intros j. destruct b; [|reflexivity]. unfold bump, pdt.
      destruct (decide (j = t)); reflexivity. }
    replace (if b then (N.of_nat w + 1)%N else N.of_nat w) with (N.of_nat (if b then S w else w))
      by (destruct b; lia).
    apply (IH (S i) _ sz a1 T1 m Q HS1' HD1 HT1); auto; try lia.
    + rewrite B2. exact Hput.
    + intros a2 T2 w2 HS2 HD2 Hb2 HT2 Hmore2 Hx2. apply (HQ a2 T2 w2); auto.
      * eapply below_trans; eauto.
      * eapply more_trans; eauto.
      * intros x Hx. destruct (Nat.eq_dec x (c + i)) as [->|Hne].
        -- apply Hmore2. exact V1.
        -- apply Hx2. lia.
Qed.

(** All entries of [T] are migrated. *)
Definition drained (T : table) : Prop := tombs (t_pairs T) = t_len T.

Definition work_of (len : nat) : nat := if (len <? 1024)%nat then len else 1024.

Lemma work_divides e : 3 <= e -> exists q, 2 ^ e = q * work_of (2 ^ e) /\ 0 < work_of (2 ^ e) /\ 0 < q.
Proof.
  intros He. unfold work_of. destruct (Nat.ltb_spec (2 ^ e) 1024) as [H|H].
  - exists 1. assert (2 ^ e <> 0) by (apply Nat.pow_nonzero; lia). lia.
  - change 1024 with (2 ^ 10) in *.
    assert (10 <= e). { apply (Nat.pow_le_mono_r_iff 2); [lia|exact H]. }
    exists (2 ^ (e - 10)). rewrite <- Nat.pow_add_r. replace (e - 10 + 10) with e by lia.
    assert (2 ^ 10 <> 0) by (apply Nat.pow_nonzero; lia).
    assert (2 ^ (e - 10) <> 0) by (apply Nat.pow_nonzero; lia). lia.
Qed.

(** What migrating table [t] leaves behind. *)
Definition helped (t : nat) (m : gmap N N) (sz : option N) (a a' : state) : Prop :=
  SI0 C None pd0 sz a' /\ Dict a' m /\ cz a' /\ st_top a' = S t /\ st_maxcap a' = st_maxcap a /\
  length (st_tabs a) <= length (st_tabs a') /\
  (forall j, j < t -> st_tabs a' !! j = st_tabs a !! j) /\
  (forall T, st_tabs a !! t = Some T -> exists T', st_tabs a' !! t = Some T' /\ t_len T' = t_len T).

(** State during the help loop. *)
Record loopI (t : nat) (m : gmap N N) (sz : option N) (c : nat) (a0 a : state) (T : table) : Prop := {
  li_si : SI0 C None pd0 sz a;
  li_dict : Dict a m;
  li_tab : st_tabs a !! t = Some T;
  li_len : forall T0, st_tabs a0 !! t = Some T0 -> t_len T = t_len T0;
  li_next : S t < length (st_tabs a);
  li_top : (st_top a = t /\ t_copyIdx T = N.of_nat c) \/ (st_top a = S t /\ drained T /\ cz a);
  li_done : forall x, x < c -> valat (t_pairs T) x = TOMBPRIME;
  li_mono : length (st_tabs a0) <= length (st_tabs a);
  li_cap : st_maxcap a = st_maxcap a0;
  li_below : forall j, j < t -> st_tabs a !! j = st_tabs a0 !! j
}.

Lemma drained_all m T : TW C m T -> (forall i, i < t_len T -> valat (t_pairs T) i = TOMBPRIME) -> drained T.
Proof.
  intros H Hi. unfold drained. rewrite <- (tw_length _ _ _ H). apply tombs_all.
  rewrite (tw_length _ _ _ H). exact Hi.
Qed.

Lemma wp_helpLoop a0 t len q sz m put : forall n c a T (Q : unit -> state -> Prop) b x,
  loopI t m sz (c * work_of len) a0 a T -> t_len T = len -> len = q * work_of len -> 0 < work_of len ->
  put_ok put (S t) (st_maxcap a0) ->
  FU E n (q - c + 3) -> b = false ->
  (forall a' T' c', loopI t m sz c' a0 a' T' -> drained T' -> Q tt a') ->
  wp E (helpLoop C n put t (S t) len (work_of len) b x) Q a.
Proof.
  induction n as [|n IH]; intros c a T Q b x HI HL Hq Hw Hput HF Hbf HQ.
  { apply wp_err. destruct HF; [assumption|lia]. }
  cbn [helpLoop]. pose proof HI as [HS HD HT Hlen Hl Htop Hdone Hmono Hcap Hbelow].
  pose proof (s_tw _ _ _ _ _ HS _ _ HT) as HTW. pose proof (tw_lt59 _ _ _ HTW) as H59.
  pose proof (s_done _ _ _ _ _ HS _ _ HT) as Hcd. unfold pd0 in Hcd. rewrite N.add_0_r in Hcd.
  apply wp_bind. eapply wp_LoadF; [exact HT|]. cbn [get_fld]. rewrite <- Hcd.
  destruct (N.ltb_spec (N.of_nat (tombs (t_pairs T))) (N.of_nat len)) as [Hlt|Hge].
  2:{ apply wp_ret. apply (HQ a T (c * work_of len)); auto.
      unfold drained. pose proof (tombs_le (t_pairs T)) as Hle. rewrite (tw_length _ _ _ HTW) in Hle. lia. }
  destruct Htop as [[Htop Hci]|(_ & Hdr & _)]; [|unfold drained in Hdr; lia].
  assert (Hcq : c < q).
  { destruct (le_lt_dec q c) as [Hge|]; [|assumption]. exfalso.
    assert (drained T). { eapply drained_all; [exact HTW|]. intros i Hi. apply Hdone. nia. }
    unfold drained in *. lia. }
  assert (Hcw : c * work_of len + work_of len <= len) by nia.
  apply wp_bind. rewrite Hbf. apply wp_bind. eapply wp_LoadF; [exact HT|]. cbn [get_fld]. rewrite Hci.
  apply FU_S in HF || (replace (q - c + 3) with (S (q - c + 2)) in HF by lia; apply FU_S in HF).
  destruct n as [|n]; [apply wp_err; destruct HF; [assumption|lia]|].
  cbn [claimChunk].
  destruct (N.ltb_spec (N.of_nat (c * work_of len)) (2 * N.of_nat len)) as [_|?]; [|lia].
  apply wp_bind. eapply wp_CasF; [exact HT|]. cbn [get_fld]. rewrite Hci, N.eqb_refl.
  cbn [fst]. apply wp_ret. cbn [orb].
  assert ((2 * N.of_nat len <=? N.of_nat (c * work_of len))%N = false) as -> by (apply N.leb_gt; lia).
  assert (Hadd : add64 (N.of_nat (c * work_of len)) (N.of_nat (work_of len)) = N.of_nat (S c * work_of len)).
  { unfold add64. rewrite N.mod_small; [lia|]. unfold two64. change (2 ^ 64)%N with (32 * 2 ^ 59)%N. lia. }
  rewrite Hadd.
  set (a1 := with_tab t (set_fld FCopyIdx _) a).
  set (T1 := set_fld FCopyIdx (N.of_nat (S c * work_of len)) T).
  assert (HT1 : st_tabs a1 !! t = Some T1) by (apply with_tab_same; exact HT).
  assert (HS1 : SI0 C None (pdt t 0) sz a1).
  { eapply SI0_pd; [|eapply SI0_fld with (pd' := pd0); [exact HS|exact HT| | | | | |]].
    - intros j. unfold pdt, pd0. destruct (decide _); reflexivity.
    - intros _. lia.
    - reflexivity.
    - intros ?; discriminate.
    - reflexivity.
    - reflexivity.
    - intros ?; discriminate. }
  assert (HD1 : Dict a1 m) by (apply dict_fld; exact HD).
  assert (Hl1 : S t < length (st_tabs a1)) by (unfold a1; rewrite with_tab_length; exact Hl).
  apply wp_bind.
  apply (wp_copyChunk (S n) put t len (c * work_of len) (work_of len) 0 0 sz a1 T1 m); auto.
  { eapply FU_le; [exact HF|]. lia. }
  { change (st_maxcap a1) with (st_maxcap a). rewrite Hcap. exact Hput. }
  { lia. }
  intros a2 T2 w HS2 HD2 Hb2 HT2 Hmore2 Hx2.
  destruct Hb2 as (B1 & B2 & B3 & B4). pose proof Hmore2 as (M1 & M2 & M3).
  assert (Hl2 : S t < length (st_tabs a2)) by lia.
  pose proof (s_tw _ _ _ _ _ HS2 _ _ HT2) as HTW2.
  assert (Hdone2 : forall x, x < S c * work_of len -> valat (t_pairs T2) x = TOMBPRIME).
  { intros y Hy. destruct (le_lt_dec (c * work_of len) y) as [Hge|Hlt'].
    - apply Hx2. lia.
    - apply M3. cbn. apply Hdone. exact Hlt'. }
  assert (Hlen2 : t_len T2 = len) by (rewrite M1; exact HL).
  apply wp_bind.
  assert (Hgo : forall a3 T3, loopI t m sz (S c * work_of len) a0 a3 T3 -> t_len T3 = len ->
     wp E (helpLoop C (S n) put t (S t) len (work_of len) false (N.of_nat (S c * work_of len))) Q a3).
  { intros a3 T3 HI3 HL3. apply (IH (S c) a3 T3 Q false); auto. eapply FU_le; [exact HF|]. lia. }
  assert (Hbel2 : forall j, j < t -> st_tabs a2 !! j = st_tabs a0 !! j).
  { intros j Hj. rewrite B4 by exact Hj. unfold a1. rewrite with_tab_ne by lia. apply Hbelow. exact Hj. }
  assert (Hmono2 : length (st_tabs a0) <= length (st_tabs a2)).
  { eapply Nat.le_trans; [exact Hmono|]. unfold a1 in B3. rewrite with_tab_length in B3. exact B3. }
  destruct (N.ltb_spec 0 (N.of_nat w)) as [Hwd|Hwd].
  - apply (wp_promote C E None (pdt t w) sz a2 t T2 m _ w HS2 HD2 HT2 Hl2 (pdt_same t w)).
    intros a3 HS3 HD3 Htabs3 Hmax3 Htop3.
    apply (Hgo a3 (add_done w T2)); [|exact Hlen2]. constructor; auto.
    + eapply SI0_pd; [|exact HS3]. intros j. unfold pd0, reset, pdt. destruct (decide _); reflexivity.
    + rewrite Htabs3. apply with_tab_same. exact HT2.
    + intros T0 HT0. cbn. rewrite <- (Hlen T0 HT0), HL. exact Hlen2.
    + rewrite Htabs3, with_tab_length. exact Hl2.
    + destruct Htop3 as [[Ht3 _]|(Ht3 & Ht3' & Hdr & Hcz)].
      * left. split; [rewrite Ht3, B1; exact Htop|]. cbn. rewrite M2. reflexivity.
      * right. auto.
    + rewrite Htabs3, with_tab_length. exact Hmono2.
    + rewrite Hmax3, B2. exact Hcap.
    + intros j Hj. rewrite Htabs3, with_tab_ne by lia. apply Hbel2. exact Hj.
  - assert (w = 0) as -> by lia. apply wp_ret. apply (Hgo a2 T2); [|exact Hlen2]. constructor; auto.
    + eapply SI0_pd; [|exact HS2]. intros j. unfold pd0, pdt. destruct (decide _); reflexivity.
    + intros T0 HT0. rewrite <- (Hlen T0 HT0), HL. exact Hlen2.
    + left. split; [rewrite B1; exact Htop|]. rewrite M2. reflexivity.
    + rewrite B2. exact Hcap.
Qed.

Lemma wp_helpCopyImpl n put a t T m sz (Q : unit -> state -> Prop) :
  SI0 C None pd0 sz a -> Dict a m -> cz a -> st_top a = t -> st_tabs a !! t = Some T ->
  S t < length (st_tabs a) -> put_ok put (S t) (st_maxcap a) -> FU E n (t_len T + 3) ->
  (forall a', helped t m sz a a' -> Q tt a') ->
  wp E (helpCopyImpl C n put t) Q a.
Proof.
  intros HS HD Hcz Htop HT Hl Hput HF HQ. unfold helpCopyImpl.
  pose proof (s_tw _ _ _ _ _ HS _ _ HT) as HTW.
  destruct (tw_pow _ _ _ HTW) as (e & He & He3). destruct (work_divides e He3) as (q & Hq & Hw & Hq0).
  rewrite <- He in Hq, Hw.
  apply wp_bind. eapply wp_LoadNew; [exact HT|]. rewrite (s_new _ _ _ _ _ HS _ _ HT).
  destruct (Nat.ltb_spec (S t) (length (st_tabs a))); [|lia].
  apply wp_bind. eapply wp_Len; [exact HT|]. fold (work_of (t_len T)).
  apply wp_bind.
  apply (wp_helpLoop a t (t_len T) q sz m put n 0 a T); auto.
  { constructor; auto.
    - intros T0 HT0. congruence.
    - left. split; [exact Htop|]. apply Hcz. rewrite Htop. exact HT.
    - intros x Hx. lia. }
  { eapply FU_le; [exact HF|]. nia. }
  intros a1 T1 c1 [HS1 HD1 HT1 Hlen1 Hl1 Htop1 Hdone1 Hmono1 Hcap1 Hbelow1] Hdr.
  apply (wp_promote C E None pd0 sz a1 t T1 m Q 0 HS1 HD1 HT1 Hl1 eq_refl).
  intros a2 HS2 HD2 Htabs2 Hmax2 Htop2. apply HQ.
  assert (Htabs2' : st_tabs a2 = st_tabs a1).
  { rewrite Htabs2. rewrite (with_tab_id _ _ _ _ HT1 (add_done_0 T1)). reflexivity. }
  assert (Htz : st_top a2 = S t /\ cz a2).
  { destruct Htop2 as [[H2 Hc]|(_ & H2 & _ & H4)]; [|auto].
    destruct Htop1 as [[H1 _]|(H1 & _ & H3)].
    - destruct Hc as [Hc|Hc]; [contradiction|congruence].
    - split; [congruence|]. intros T' HT'. apply H3. rewrite <- Htabs2', <- H2. exact HT'. }
  destruct Htz as (Htop2' & Hcz2). split.
  { eapply SI0_pd; [|exact HS2]. intros j. unfold pd0, reset. destruct (decide _); reflexivity. }
  split; [exact HD2|]. split; [exact Hcz2|]. split; [exact Htop2'|].
  split; [congruence|]. rewrite Htabs2'. split; [exact Hmono1|]. split; [exact Hbelow1|].
  intros T0 HT0. exists T1. split; [exact HT1|]. rewrite (Hlen1 T0 HT0). reflexivity.
Qed.

(** Fuel that suffices for helping. *)
Definition HELP (maxcap : N) : nat := N.to_nat maxcap + 3.

(** What helpCopy leaves behind: everything below the old current table is untouched, and the
    current table has moved on by one if it had a successor. *)
Definition after_help (m : gmap N N) (sz : option N) (a a' : state) : Prop :=
  SI0 C None pd0 sz a' /\ Dict a' m /\ cz a' /\ st_maxcap a' = st_maxcap a /\
  st_top a' = (if S (st_top a) <? length (st_tabs a) then S (st_top a) else st_top a) /\
  length (st_tabs a) <= length (st_tabs a') /\
  (forall j T, st_tabs a !! j = Some T -> j <= st_top a -> exists T', st_tabs a' !! j = Some T' /\ t_len T' = t_len T) /\
  (S (st_top a) = length (st_tabs a) -> a' = a).

Lemma wp_helpCopy n put a h m sz (Q : nat -> state -> Prop) :
  SI0 C None pd0 sz a -> Dict a m -> cz a ->
  (S (st_top a) < length (st_tabs a) -> put_ok put (S (st_top a)) (st_maxcap a)) ->
  FU E n (HELP (st_maxcap a)) ->
  (forall a', after_help m sz a a' -> Q h a') ->
  wp E (helpCopy C n put h) Q a.
Proof.
  intros HS HD Hcz Hput HF HQ. unfold helpCopy.
  pose proof (s_top _ _ _ _ _ HS) as Htop. destruct (lookup_lt_is_Some_2 _ _ Htop) as (T & HT).
  pose proof (s_tw _ _ _ _ _ HS _ _ HT) as HTW. pose proof (tw_le_max _ _ _ HTW) as Hmax.
  apply wp_bind, wp_LoadTop. apply wp_bind. eapply wp_LoadNew; [exact HT|].
  rewrite (s_new _ _ _ _ _ HS _ _ HT).
  destruct (Nat.ltb_spec (S (st_top a)) (length (st_tabs a))) as [Hl|Hl].
  - apply wp_bind. eapply (wp_helpCopyImpl n put a (st_top a) T m sz); auto.
    + eapply FU_le; [exact HF|]. unfold HELP. lia.
    + intros a' (A1 & A2 & A3 & A4 & A5 & A6 & A7 & A8). apply wp_ret, HQ.
      split; [exact A1|]. split; [exact A2|]. split; [exact A3|]. split; [exact A5|].
      destruct (Nat.ltb_spec (S (st_top a)) (length (st_tabs a))); [|lia].
      split; [exact A4|]. split; [exact A6|]. split; [|lia].
      intros j T' HT' Hj. destruct (Nat.eq_dec j (st_top a)) as [->|Hne]; [apply A8; exact HT'|].
      exists T'. rewrite A7 by lia. auto.
  - apply wp_ret, HQ. split; [exact HS|]. split; [exact HD|]. split; [exact Hcz|]. split; [reflexivity|].
    destruct (Nat.ltb_spec (S (st_top a)) (length (st_tabs a))); [lia|].
    split; [reflexivity|]. split; [lia|]. split; [|reflexivity]. intros j T' HT' _. eauto.
Qed.

End Help.
