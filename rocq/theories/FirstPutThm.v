(** One report per entry: the records of FirstPut.v read in an execution. *)
From Coq Require Import NArith Bool List Lia.
From stdpp Require Import base list gmap.
From Verif Require Import Word Bits Prog HashMap Conc Spec LinSpec FirstPutSpec Probe CodecThm SeqInv SeqPut SeqApi LinNew LinNewThm TraceSpec Trace FirstPut.
Import ListNotations.
Open Scope nat_scope.

(** ** Counting *)
Definition cnt {A} (f : A -> bool) (l : list A) : nat := length (List.filter f l).
Notation bit b := (if b then 1 else 0).

Lemma cnt_cons {A} (f : A -> bool) x l : cnt f (x :: l) = bit (f x) + cnt f l.
Proof. unfold cnt. cbn. destruct (f x); reflexivity. Qed.
Lemma cnt_insert {A} (f : A -> bool) l i x y : l !! i = Some x -> cnt f (<[i := y]> l) + bit (f x) = cnt f l + bit (f y).
Proof.
  revert i. induction l as [|z l IH]; intros [|i] H; cbn in H; try discriminate.
  - injection H as ->. change (<[0 := y]> (x :: l)) with (y :: l). rewrite !cnt_cons. lia.
  - change (<[S i := y]> (z :: l)) with (z :: <[i := y]> l). rewrite !cnt_cons. specialize (IH i H). lia.
Qed.
Lemma cnt_pos {A} (f : A -> bool) l i x : l !! i = Some x -> f x = true -> 1 <= cnt f l.
Proof.
  revert i. induction l as [|z l IH]; intros [|i] H Hf; cbn in H; try discriminate; rewrite cnt_cons.
  - injection H as ->. rewrite Hf. lia.
  - specialize (IH i H Hf). lia.
Qed.
Lemma cnt_le {A} (f g : A -> bool) l : (forall x, f x = true -> g x = true) -> cnt f l <= cnt g l.
Proof.
  intros H. induction l as [|z l IH]; [reflexivity|]. rewrite !cnt_cons. pose proof (H z) as Hz. destruct (f z), (g z); lia.
Qed.
Lemma cnt_zero {A} (f : A -> bool) l : (forall i x, l !! i = Some x -> f x = false) -> cnt f l = 0.
Proof.
  induction l as [|z l IH]; intros H; [reflexivity|]. rewrite cnt_cons, (H 0 z eq_refl), IH; [reflexivity|]. intros i x Hi. exact (H (S i) x Hi).
Qed.
Lemma cnt_one {A} (f : A -> bool) l : (forall i j x y, l !! i = Some x -> l !! j = Some y -> f x = true -> f y = true -> i = j) -> cnt f l <= 1.
Proof.
  induction l as [|z l IH]; intros H; [cbn; lia|]. rewrite cnt_cons. destruct (f z) eqn:Hz.
  - rewrite cnt_zero; [lia|]. intros i x Hi. destruct (f x) eqn:Hx; [|reflexivity]. pose proof (H 0 (S i) z x eq_refl Hi Hz Hx). discriminate.
  - apply IH. intros i j x y Hi Hj Hx Hy. pose proof (H (S i) (S j) x y Hi Hj Hx Hy). congruence.
Qed.

(** ** The entries *)
Definition ps0 (s : state) : list pair_ := match st_tabs s !! 0 with Some T => t_pairs T | None => [] end.
Definition taken (k : N) (p : pair_) : bool := (clean (fst p) =? k)%N && negb (clean (snd p) =? VINITIAL)%N.

Record SI (s : state) : Prop := mkSI {
  si_top : st_top s = 0;
  si_tab : exists T, st_tabs s !! 0 = Some T /\ t_new T = None /\ length (t_pairs T) = t_len T;
  si_ent : forall i p, ps0 s !! i = Some p -> (clean (fst p) = KINITIAL -> clean (snd p) = VINITIAL) /\ clean (snd p) <> VTOMBSTONE
}.

Definition know (G : list obs) (s : state) : Prop :=
  (forall L, In (IsLen 0 L) G -> L = length (ps0 s)) /\
  forall i p, ps0 s !! i = Some p ->
    (Seen i G -> snd p <> noval) /\ (Full i G -> clean (snd p) <> VINITIAL) /\ forall k, k <> KINITIAL -> kknown i k G -> clean (fst p) = k.

Definition le_p (p p' : pair_) : Prop :=
  (snd p <> noval -> snd p' <> noval) /\ (clean (snd p) <> VINITIAL -> clean (snd p') <> VINITIAL) /\
  (clean (fst p) <> KINITIAL -> clean (fst p') = clean (fst p)).
Definition mono (s s' : state) : Prop :=
  length (ps0 s') = length (ps0 s) /\ forall i p, ps0 s !! i = Some p -> exists p', ps0 s' !! i = Some p' /\ le_p p p'.

Lemma mono_know G s s' : mono s s' -> know G s -> know G s'.
Proof.
  intros [HL HM] [H1 H2]. split; [intros L HI; rewrite HL; auto|]. intros i p' Hp'.
  destruct (ps0 s !! i) as [p|] eqn:E; [|apply lookup_ge_None in E; apply lookup_lt_Some in Hp'; lia].
  destruct (HM i p E) as (q & Hq & L1 & L2 & L3). rewrite Hp' in Hq. injection Hq as <-. destruct (H2 i p E) as (K1 & K2 & K3).
  split; [auto|]. split; [auto|]. intros k Hk HK. specialize (K3 k Hk HK). rewrite L3; congruence.
Qed.

Lemma rng_entry G s i : know G s -> Rng 0 i G -> exists p, ps0 s !! i = Some p.
Proof. intros [H1 _] (L & HI & Hi). rewrite (H1 L HI) in Hi. destruct (lookup_lt_is_Some_2 _ _ Hi) as [p Hp]. eauto. Qed.

Lemma read_ps0 s i c p : ps0 s !! i = Some p -> read_cell s 0 i c = get_cell c p.
Proof. unfold ps0, read_cell. destruct (st_tabs s !! 0); [|discriminate]. intros ->. reflexivity. Qed.

Lemma ps0_write s i c n p : SI s -> ps0 s !! i = Some p ->
  ps0 (with_tab 0 (write_cell i c n) s) = <[i := set_cell c n p]> (ps0 s).
Proof.
  intros [_ (T & HT & _) _] Hp. unfold ps0, with_tab in *. cbn. rewrite list_lookup_alter. rewrite HT in Hp |- *. cbn.
  apply list_eq. intros j. destruct (Nat.eq_dec j i) as [->|Hne].
  - rewrite list_lookup_alter, Hp, list_lookup_insert by (eapply lookup_lt_Some; eauto). reflexivity.
  - rewrite list_lookup_alter_ne, list_lookup_insert_ne by auto. reflexivity.
Qed.

(** ** One command *)

Lemma know_ans c G s : SI s -> know G s -> ~ broken 0 (snd (exec c s)) -> ans c G (fst (exec c s)).
Proof.
  intros HS HK Hb.
  assert (Hg : forall t i c, good t i c G (read_cell s t i c)).
  { intros t i c' -> -> HR. destruct (rng_entry _ _ _ HK HR) as [p Hp]. rewrite (read_ps0 _ _ _ _ Hp). cbn.
    split; [exact (proj2 (si_ent _ HS _ _ Hp))|]. exact (proj1 (proj2 HK i p Hp)). }
  destruct c; cbn [exec ans fst]; auto.
  - destruct (N.eqb_spec (read_cell s t i c) e) as [E|E]; cbn [fst snd]; split; auto; split; congruence.
  - intros ->. destruct (si_tab _ HS) as (T & HT & Hn & _). rewrite HT. exact Hn.
  - intros -> ->. apply Hb. cbn [exec]. destruct (si_tab _ HS) as (T & HT & Hn & _). rewrite HT, Hn. cbn [option_nat_eqb snd].
    unfold broken. cbn. rewrite list_lookup_alter, HT. discriminate.
  - exact (si_top _ HS).
Qed.

(** A command that changes no entry of the table. *)
Lemma quiet_exec c s : SI s -> ~ broken 0 (snd (exec c s)) ->
  match c with Cas _ _ _ _ _ | CasTop _ _ => False | _ => True end -> SI (snd (exec c s)) /\ ps0 (snd (exec c s)) = ps0 s.
Proof.
  intros HS Hb Hc.
  assert (Hw : forall t f, (forall T, t_pairs (f T) = t_pairs T /\ t_len (f T) = t_len T) -> ~ broken 0 (with_tab t f s) ->
    SI (with_tab t f s) /\ ps0 (with_tab t f s) = ps0 s).
  { intros t f Hf Hb'. assert (E : ps0 (with_tab t f s) = ps0 s).
    { unfold ps0, with_tab. cbn. destruct (Nat.eq_dec t 0) as [->|Hne].
      - rewrite list_lookup_alter. destruct (st_tabs s !! 0); cbn; [apply Hf|reflexivity].
      - rewrite list_lookup_alter_ne by exact Hne. reflexivity. }
    split; [|exact E]. constructor; [exact (si_top _ HS)| |rewrite E; exact (si_ent _ HS)].
    destruct (si_tab _ HS) as (T & HT & Hn & Hl). unfold broken, with_tab in *. cbn in *. destruct (Nat.eq_dec t 0) as [->|Hne].
    - rewrite list_lookup_alter, HT in *. cbn in *. exists (f T). split; [reflexivity|]. split.
      + destruct (t_new (f T)); [exfalso; apply Hb'; discriminate|reflexivity].
      + destruct (Hf T) as [-> ->]. exact Hl.
    - rewrite list_lookup_alter_ne in * by exact Hne. eauto. }
  destruct c; cbn [exec snd] in *; try contradiction; try (split; [exact HS|reflexivity]).
  - apply Hw; auto.
  - apply Hw; [intros T; destruct f; auto|exact Hb].
  - destruct (_ =? _)%N; cbn [snd] in *; [|auto]. apply Hw; [intros T; destruct f; auto|exact Hb].
  - destruct (option_nat_eqb _ _); cbn [snd] in *; [|auto]. apply Hw; auto.
  - split; [|reflexivity]. destruct HS as [A B D]. constructor; auto.
  - destruct (mmap_table _ _ _ _ _) as [T|]; cbn [snd]; [|auto]. destruct (si_tab _ HS) as (T0 & HT & Hn & Hl).
    assert (HT' : (st_tabs s ++ [T]) !! 0 = Some T0) by (rewrite lookup_app_l by (eapply lookup_lt_Some; eauto); exact HT).
    assert (E : ps0 (mkState (st_tabs s ++ [T]) (st_top s) (st_fctr s) (st_files s) (st_ppl s) (st_maxcap s)) = ps0 s).
    { unfold ps0. cbn [st_tabs]. rewrite HT', HT. reflexivity. }
    split; [|exact E]. constructor; [exact (si_top _ HS)| |rewrite E; exact (si_ent _ HS)]. exists T0. auto.
Qed.

Lemma mono_quiet s s' : ps0 s' = ps0 s -> mono s s'.
Proof. intros E. split; [rewrite E; reflexivity|]. rewrite E. intros i p Hp. exists p. split; [exact Hp|]. unfold le_p. auto. Qed.

Definition gained (ko : option N) (c : cmd) (r : res c) (k : N) : nat :=
  if wins c r then match ko with Some k' => bit (k' =? k)%N | None => 0 end else 0.

Lemma step_cmd ko c b G s : SI s -> know G s -> ~ broken 0 (snd (exec c s)) -> duty ko c b G (fst (exec c s)) ->
  SI (snd (exec c s)) /\ mono s (snd (exec c s)) /\ know (obs_of c (fst (exec c s)) ++ G) (snd (exec c s)) /\
  (forall k, k <> KINITIAL -> cnt (taken k) (ps0 (snd (exec c s))) = cnt (taken k) (ps0 s) + gained ko c (fst (exec c s)) k) /\
  (wins c (fst (exec c s)) = true -> b = false /\ ko <> None).
Proof.
  intros HS HK Hb HD.
  assert (Hquiet : SI (snd (exec c s)) /\ ps0 (snd (exec c s)) = ps0 s -> wins c (fst (exec c s)) = false ->
    know (obs_of c (fst (exec c s)) ++ G) s -> 
    SI (snd (exec c s)) /\ mono s (snd (exec c s)) /\ know (obs_of c (fst (exec c s)) ++ G) (snd (exec c s)) /\
    (forall k, k <> KINITIAL -> cnt (taken k) (ps0 (snd (exec c s))) = cnt (taken k) (ps0 s) + gained ko c (fst (exec c s)) k) /\
    (wins c (fst (exec c s)) = true -> b = false /\ ko <> None)).
  { intros [H1 H2] Hw HK'. pose proof (mono_quiet _ _ H2) as HM. split; [exact H1|]. split; [exact HM|]. split; [exact (mono_know _ _ _ HM HK')|].
    split; [|rewrite Hw; discriminate]. intros k _. unfold gained. rewrite Hw, H2. lia. }

  assert (Hsaw : forall t i c', know (Saw t i c' (read_cell s t i c') :: G) s).
  { intros t i c'. destruct HK as [K1 K2]. split; [intros L [E|HI]; [discriminate|auto]|]. intros j p Hp.
    destruct (K2 j p Hp) as (A & B & D). pose proof (read_ps0 s j c' p Hp) as Hrd.
    assert (Hv : forall P, vknown P j (Saw t i c' (read_cell s t i c') :: G) -> P (snd p) \/ vknown P j G).
    { intros P (w & [[E|H]|(e & [E|H])] & HP); [|right; exists w; auto|discriminate|right; exists w; eauto].
      injection E as -> -> -> <-. rewrite Hrd in HP. left. exact HP. }
    split; [intros H; destruct (Hv _ H); auto|]. split; [intros H; destruct (Hv _ H); auto|].
    intros k Hk (w & [[E|H]|(e & [E|H])] & HP); [|apply D; [exact Hk|exists w; auto]|discriminate|apply D; [exact Hk|exists w; eauto]].
    injection E as -> -> -> <-. rewrite Hrd in HP. exact HP. }
  assert (Hnone : forall e, match e with Saw _ _ _ _ | Did _ _ _ _ _ => False | IsLen 0 L => L = length (ps0 s) | _ => True end -> know (e :: G) s).
  { destruct HK as [K1 K2]. intros e He. split; [intros L [->|HI]; [exact He|auto]|]. intros j p Hp.
    destruct (K2 j p Hp) as (A & B & D).
    assert (Hv : forall P, vknown P j (e :: G) -> vknown P j G).
    { intros P (w & [[->|H]|(e' & [->|H])] & HP); [contradiction|exists w; auto|contradiction|exists w; eauto]. }
    split; [auto|]. split; [auto|]. intros k Hk (w & [[->|H]|(e' & [->|H])] & HP); [contradiction|apply D; [exact Hk|exists w; auto]|contradiction|apply D; [exact Hk|exists w; eauto]]. }
  destruct c; try (apply Hquiet; [apply quiet_exec; [exact HS|exact Hb|exact I]|reflexivity|]; cbn [exec obs_of fst snd app];
    first [exact HK | apply Hsaw | (apply Hnone; exact I)]).
  - (* Cas *)
    cbn [exec] in *. destruct (N.eqb_spec (read_cell s t i c) e) as [E|E]; cbn [fst snd obs_of app] in *.
    2:{ apply Hquiet; [auto| |apply Hsaw]. destruct c; reflexivity. }
    cbn [duty fst] in HD. destruct HD as (-> & HR & HD). specialize (HD eq_refl).
    destruct (rng_entry _ _ _ HK HR) as [p Hp]. pose proof (ps0_write s i c n p HS Hp) as EP. rewrite (read_ps0 _ _ _ _ Hp) in E.
    set (s' := with_tab 0 (write_cell i c n) s) in *.
    assert (Hi : i < length (ps0 s)) by (eapply lookup_lt_Some; eauto).
    destruct (si_ent _ HS _ _ Hp) as [Hp1 Hp2]. destruct (proj2 HK i p Hp) as (KA & KB & KD).
    assert (Hle : le_p p (set_cell c n p)).
    { destruct c; cbn [set_cell get_cell fst snd] in *; unfold le_p; cbn [fst snd].
      - split; [auto|]. split; [auto|]. intros H. destruct HD; congruence.
      - destruct HD as (D1 & D2 & D3 & _). split; [auto|]. split; [|auto]. intros H H'. apply H. rewrite E. auto. }
    assert (HM : mono s s').
    { split; [rewrite EP, insert_length; reflexivity|]. intros j q Hq. rewrite EP. destruct (Nat.eq_dec j i) as [->|Hne].
      - rewrite list_lookup_insert by exact Hi. rewrite Hp in Hq. injection Hq as <-. eauto.
      - rewrite list_lookup_insert_ne by auto. exists q. split; [exact Hq|]. unfold le_p. auto. }
    assert (Hne : clean (fst p) = KINITIAL -> c = CVal -> clean n = VINITIAL).
    { intros HKi ->. cbn in E. destruct HD as (D1 & D2 & D3 & D4). destruct (N.eq_dec (clean n) VINITIAL) as [|Hn]; [assumption|exfalso].
      destruct D4 as (_ & k & _ & Hk & Hkk); [rewrite <- E; auto|exact Hn|]. apply Hk. rewrite <- (KD k Hk Hkk). exact HKi. }
    assert (HS' : SI s').
    { constructor; [exact (si_top _ HS)| |].
      - destruct (si_tab _ HS) as (T & HT & Hn & Hl). exists (write_cell i c n T). unfold s', with_tab. cbn. rewrite list_lookup_alter, HT. cbn.
        split; [reflexivity|]. split; [exact Hn|]. rewrite alter_length. exact Hl.
      - intros j q Hq. rewrite EP in Hq. destruct (Nat.eq_dec j i) as [->|Hj].
        + rewrite list_lookup_insert in Hq by exact Hi. injection Hq as <-. destruct c; cbn [set_cell fst snd get_cell] in *.
          * split; [|exact Hp2]. intros Hn. apply Hp1. destruct HD as [HD|HD]; [rewrite E; exact HD|congruence].
          * split; [auto|apply HD].
        + rewrite list_lookup_insert_ne in Hq by auto. exact (si_ent _ HS _ _ Hq). }
    split; [exact HS'|]. split; [exact HM|].
    assert (Hnew : ps0 s' !! i = Some (set_cell c n p)) by (rewrite EP; apply list_lookup_insert; exact Hi).
    split; [|split].
    + pose proof (mono_know _ _ _ HM HK) as [M1 M2]. split; [intros L [HE|HI]; [discriminate|auto]|]. intros j q Hq.
      destruct (M2 j q Hq) as (A & B & D).
      assert (Hv : forall P, vknown P j (Did 0 i c e n :: G) -> P (snd q) \/ vknown P j G).
      { intros P (w & [[HE|H]|(e' & [HE|H])] & HP); [discriminate|right; exists w; auto| |right; exists w; eauto].
        injection HE as -> -> -> ->. rewrite Hnew in Hq. injection Hq as <-. left. exact HP. }
      split; [intros H; destruct (Hv _ H); auto|]. split; [intros H; destruct (Hv _ H); auto|].
      intros k Hk (w & [[HE|H]|(e' & [HE|H])] & HP); [discriminate|apply D; [exact Hk|exists w; auto]| |apply D; [exact Hk|exists w; eauto]].
      injection HE as -> -> -> ->. rewrite Hnew in Hq. injection Hq as <-. exact HP.
    + intros k Hk. rewrite EP. pose proof (cnt_insert (taken k) _ _ _ (set_cell c n p) Hp) as HC.
      assert (bit (taken k (set_cell c n p)) = bit (taken k p) + gained ko (Cas 0 i c e n) (true, read_cell s 0 i c) k); [|lia].
      unfold gained, taken. destruct c; cbn [set_cell get_cell fst snd wins] in *.
      * destruct HD as [HD|HD]; [|rewrite HD, E; lia]. rewrite <- E in HD. rewrite (Hp1 HD), HD, N.eqb_refl. cbn [negb]. rewrite !andb_false_r. reflexivity.
      * rewrite <- E in *. destruct HD as (D1 & D2 & D3 & D4). destruct (N.eqb_spec (clean (snd p)) VINITIAL) as [Hv|Hv]; cbn [negb andb].
        -- rewrite andb_false_r. destruct (N.eqb_spec (clean n) VINITIAL) as [Hn|Hn]; cbn [negb]; [rewrite andb_false_r; reflexivity|].
           destruct (D4 Hv Hn) as (_ & k' & -> & Hk' & HKK). rewrite (KD k' Hk' HKK). rewrite andb_true_r. reflexivity.
        -- destruct (N.eqb_spec (clean n) VINITIAL) as [Hn|Hn]; [destruct (Hv (D3 Hn))|]. cbn [negb]. lia.
    + destruct c; cbn [wins fst andb]; [discriminate|]. intros Hw. apply andb_true_iff in Hw as [W1 W2]. apply N.eqb_eq in W1. apply negb_true_iff, N.eqb_neq in W2.
      destruct HD as (D1 & D2 & D3 & D4). destruct (D4 W1 W2) as (-> & k & -> & _). split; [reflexivity|discriminate].
  - (* Len *)
    apply Hquiet; [apply quiet_exec; [exact HS|exact Hb|exact I]|reflexivity|]; cbn [exec obs_of fst snd app]. apply Hnone. destruct t; [|exact I].
    destruct (si_tab _ HS) as (T & HT & _ & Hl). unfold ps0. rewrite HT. auto.
  - (* CasNew *)
    apply Hquiet; [apply quiet_exec; [exact HS|exact Hb|exact I]|reflexivity|]; cbn [exec obs_of fst snd app].
    destruct (option_nat_eqb _ _); cbn [fst snd app]; [apply Hnone; exact I|exact HK].
  - destruct HD.
Qed.

(** ** The system *)

Definition put_key (o : op) : option N := match o with OPut k _ | OPutIfAbsent k _ => Some k | _ => None end.
Definition newly (o : op) (r : rsp) : bool :=
  match put_key o, r with Some _, RVal x => (x =? NOTFOUND)%N | _, _ => false end.
Definition callQ (o : op) (r : rsp) (b : bool) (G : list obs) : Prop :=
  b = newly o r /\ forall k, put_key o = Some k -> k <> KINITIAL /\ exists i, Rng 0 i G /\ kknown i k G /\ Full i G.

Lemma putting_key k o : putting k o = true <-> put_key o = Some k.
Proof. destruct o; cbn; try (split; discriminate); rewrite N.eqb_eq; split; congruence. Qed.
Lemma reports_new_key k i o r : reports_new k (ERes i o r) = newly o r && bool_decide (put_key o = Some k).
Proof.
  unfold newly. destruct r as [x|]; [|destruct o; reflexivity].
  destruct o as [k'|k'|k' v|k' v|k'|k' v|k' ov v|k'|]; cbn [reports_new putting put_key andb]; try reflexivity;
    destruct (x =? NOTFOUND)%N; rewrite ?andb_false_r, ?andb_true_r; try reflexivity; cbn [andb];
    destruct (N.eqb_spec k' k) as [->|Hne]; symmetry; try (apply bool_decide_eq_true; reflexivity); apply bool_decide_eq_false; congruence.
Qed.

Lemma legal_key_ok k : legal_key k -> isclean k /\ k <> KINITIAL.
Proof. intros (_ & H & _ & H'). split; [exact H|]. intros ->. discriminate. Qed.

Lemma wn_op C n o : legal_op o -> stores o -> forall G, wn (put_key o) (op_prog C n o) (callQ o) false G.
Proof.
  intros Hl Hs G.
  assert (Hget : forall (k : N) ko G0, wn ko (get C n k) (fun _ b' _ => b' = false) false G0) by (intros; apply wn_get).
  assert (Hpub : forall k nv ov, legal_key k -> legal_val nv -> put_key o = Some k -> ov = NO_MATCH_OLD \/ ov = VTOMBSTONE ->
    (forall x, newly o (RVal x) = (x =? NOTFOUND)%N) ->
    wn (put_key o) (bind (putIfMatchPub C n k nv ov (CASvalue C)) (fun r => Ret (RVal r))) (callQ o) false G).
  { intros k nv ov Hk Hv Hko Hov Hnew. destruct (legal_val_neq _ Hv) as (N1 & N2 & _). destruct (legal_key_ok _ Hk) as [Hkc Hki].
    eapply wn_seq; [apply wn_pub; auto; [apply Hv|destruct Hov as [->| ->]; discriminate]|].
    intros r b G1 _ (V & -> & Q1 & Q2 & Q3 & _). cbn [wn]. specialize (Q3 Hov). split.
    - rewrite Hnew. unfold reported. destruct (N.eqb_spec V VTOMBSTONE) as [->|HV].
      + rewrite N.eqb_refl. apply Q1. reflexivity.
      + replace (V =? NOTFOUND)%N with false by (symmetry; apply N.eqb_neq; exact Q3). destruct b; [destruct HV; apply Q1; reflexivity|reflexivity].
    - intros k' Hk'. rewrite Hko in Hk'. injection Hk' as <-. split; [exact Hki|]. apply Q2. exact Q3. }
  destruct o as [k|k|k v|k v|k|k v|k ov v|k|]; cbn [op_prog legal_op stores] in *; try contradiction.
  - eapply wn_seq; [apply Hget|]. intros r b G1 _ ->. split; [reflexivity|discriminate].
  - unfold containsKey. apply wn_bind. eapply wn_seq; [apply Hget|]. intros r b G1 _ ->. cbn [wn]. split; [reflexivity|discriminate].
  - unfold put. apply Hpub; tauto || reflexivity.
  - unfold putIfAbsent. apply Hpub; tauto || reflexivity.
  - unfold replace. apply wn_bind. destruct Hl as (Hk & Hov & Hv). destruct (legal_val_neq _ Hv) as (N1 & N2 & _).
    destruct (legal_val_neq _ Hov) as (O1 & O2 & _ & _ & O5). destruct (legal_key_ok _ Hk) as [Hkc Hki].
    eapply wn_seq; [apply wn_pub; auto; [intros [H|H]; congruence|apply Hv]|].
    intros r b G1 _ (V & _ & _ & _ & _ & Q4). rewrite (Q4 O5 O2). cbn [wn]. split; [reflexivity|discriminate].
  - unfold size, do; cbn [bind wn]. intros t _. split; [exact I|]. intros x _. split; [exact I|]. cbn [wn]. split; [reflexivity|discriminate].
Qed.

Section Sys.
Context (C : cfg) (n : nat).

Definition thr_ok (s : state) (th : thread) (g : option N) : Prop :=
  Forall (fun o : op => legal_op o /\ stores o) (th_todo th) /\
  match th_cur th with
  | None => g = None
  | Some (o, p) => exists (b : bool) (G : list obs), g = (if b then put_key o else None) /\ (b = true -> put_key o <> None) /\ know G s /\
      wn (put_key o) p (callQ o) b G
  end.

Definition is_key (k : N) (g : option N) : bool := bool_decide (g = Some k).

Definition winv (y : sys) : Prop := SI (sy_st y) /\ exists gs,
  length gs = length (sy_thr y) /\
  (forall i th g, sy_thr y !! i = Some th -> gs !! i = Some g -> thr_ok (sy_st y) th g) /\
  (forall k, k <> KINITIAL -> cnt (reports_new k) (sy_hist y) + cnt (is_key k) gs = cnt (taken k) (ps0 (sy_st y))) /\
  (forall i o r k, In (ERes i o r) (sy_hist y) -> putting k o = true -> 1 <= cnt (taken k) (ps0 (sy_st y))).

Lemma thr_mono s s' th g : mono s s' -> thr_ok s th g -> thr_ok s' th g.
Proof.
  intros HM [H1 H2]. split; [exact H1|]. destruct (th_cur th) as [[o p]|]; [|exact H2].
  destruct H2 as (b & G & A & B & D & E). exists b, G. split; [exact A|]. split; [exact B|]. split; [exact (mono_know _ _ _ HM D)|exact E].
Qed.

Lemma winv_step i y : winv y -> ~ broken 0 (sy_st (tstep C n i y)) -> winv (tstep C n i y).
Proof.
  intros (HS & gs & Hlen & Hthr & Hcnt & Hres) Hb. unfold tstep in *.
  destruct (sy_thr y !! i) as [th|] eqn:Hth; [|split; [exact HS|exists gs; auto]].
  assert (Hi : i < length (sy_thr y)) by (eapply lookup_lt_Some; eauto).
  destruct (lookup_lt_is_Some_2 gs i) as [g Hg]; [lia|]. pose proof (Hthr i th g Hth Hg) as [Htd Hcur].
  assert (Hall : forall s' thi gi, mono (sy_st y) s' -> thr_ok s' thi gi ->
    forall j th' g', <[i := thi]> (sy_thr y) !! j = Some th' -> <[i := gi]> gs !! j = Some g' -> thr_ok s' th' g').
  { intros s' thi gi HM Hn j th' g' H1 H2. destruct (Nat.eq_dec j i) as [->|Hne].
    - rewrite list_lookup_insert in H1 by exact Hi. rewrite list_lookup_insert in H2 by lia. injection H1 as <-. injection H2 as <-. exact Hn.
    - rewrite list_lookup_insert_ne in H1 by auto. rewrite list_lookup_insert_ne in H2 by auto. exact (thr_mono _ _ _ _ HM (Hthr _ _ _ H1 H2)). }
  pose proof (mono_quiet (sy_st y) (sy_st y) eq_refl) as Hrefl.
  destruct (th_cur th) as [[o [r|e|c f]]|] eqn:Hc.
  - (* return *)
    destruct Hcur as (b & G & -> & Hbk & HK & HQ). cbn [wn] in HQ. destruct HQ as [-> HQ]. split; [exact HS|]. cbn [sy_st sy_thr sy_hist].
    exists (<[i := None]> gs). split; [rewrite !insert_length; exact Hlen|]. split.
    { apply Hall; [exact Hrefl|]. split; [exact Htd|reflexivity]. }
    split.
    + intros k Hk. specialize (Hcnt k Hk). pose proof (cnt_insert (is_key k) _ _ _ None Hg) as HC. rewrite cnt_cons, reports_new_key.
      assert (E1 : is_key k None = false) by reflexivity. rewrite E1 in HC.
      assert (E2 : is_key k (if newly o r then put_key o else None) = newly o r && bool_decide (put_key o = Some k)) by (destruct (newly o r); reflexivity).
      rewrite E2 in HC. lia.
    + intros j o' r' k [E|Hin] Hp; [|exact (Hres _ _ _ _ Hin Hp)]. injection E as -> -> ->. apply putting_key in Hp.
      destruct (HQ k Hp) as (Hk & i' & HR & HKK & HF). destruct (rng_entry _ _ _ HK HR) as [p Hp']. destruct (proj2 HK i' p Hp') as (_ & B & D).
      apply (cnt_pos _ _ _ _ Hp'). unfold taken. rewrite (D k Hk HKK), N.eqb_refl. apply negb_true_iff, N.eqb_neq. auto.
  - split; [exact HS|exists gs; auto].
  - (* command *)
    destruct Hcur as (b & G & -> & Hbk & HK & HW). cbn [wn] in HW.
    destruct (exec c (sy_st y)) as [r s'] eqn:He. cbn [sy_st sy_thr sy_hist] in *.
    assert (Es : s' = snd (exec c (sy_st y))) by (rewrite He; reflexivity). assert (Er : r = fst (exec c (sy_st y))) by (rewrite He; reflexivity).
    rewrite Es in Hb. pose proof (know_ans c G _ HS HK Hb) as HA. rewrite <- Er in HA. destruct (HW r HA) as [HD HW'].
    rewrite Er in HD. destruct (step_cmd (put_key o) c b G _ HS HK Hb HD) as (S1 & S2 & S3 & S4 & S5). rewrite <- Es, <- Er in *.
    split; [exact S1|]. cbn [sy_st sy_thr sy_hist]. exists (<[i := if b || wins c r then put_key o else None]> gs). split; [rewrite !insert_length; exact Hlen|]. split; [|split].
    + apply Hall; [exact S2|]. split; [exact Htd|]. cbn [th_cur]. exists (b || wins c r), (obs_of c r ++ G). split; [reflexivity|].
      split; [|split; [exact S3|exact HW']]. intros Hw. apply orb_true_iff in Hw as [Hw|Hw]; [auto|]. apply S5. exact Hw.
    + intros k Hk. specialize (Hcnt k Hk). pose proof (cnt_insert (is_key k) _ _ _ (if b || wins c r then put_key o else None) Hg) as HC.
      rewrite (S4 k Hk). unfold gained. destruct (wins c r) eqn:Hw.
      * destruct (S5 eq_refl) as [-> Hn]. cbn [orb] in *. destruct (put_key o) as [k'|]; [|contradiction].
        assert (E1 : is_key k (Some k') = (k' =? k)%N).
        { unfold is_key. destruct (N.eqb_spec k' k) as [->|Hne]; [apply bool_decide_eq_true; reflexivity|apply bool_decide_eq_false; congruence]. }
        assert (E0 : is_key k None = false) by reflexivity. rewrite E0, E1 in HC. lia.
      * rewrite orb_false_r in *. lia.
    + intros j o' r' k Hin Hp. specialize (Hres _ _ _ _ Hin Hp). destruct (N.eq_dec k KINITIAL) as [->|Hk]; [|rewrite (S4 k Hk); lia].
      exfalso. assert (Hz : cnt (taken KINITIAL) (ps0 (sy_st y)) = 0); [|lia]. apply cnt_zero. intros i' p Hp'. unfold taken.
      destruct (N.eqb_spec (clean (fst p)) KINITIAL) as [E|]; [|reflexivity]. rewrite (proj1 (si_ent _ HS _ _ Hp') E), N.eqb_refl. reflexivity.
  - destruct (th_todo th) as [|o os] eqn:Htd'; [split; [exact HS|exists gs; auto]|].
    apply Forall_cons in Htd as [[Ho1 Ho2] Htd]. subst g. split; [exact HS|]. cbn [sy_st sy_thr sy_hist].
    exists gs. split; [rewrite insert_length; exact Hlen|]. split; [|split].
    + assert (E : gs = <[i := None]> gs) by (symmetry; apply list_insert_id; exact Hg). rewrite E.
      apply Hall; [exact Hrefl|]. split; [exact Htd|]. cbn [th_cur]. exists false, []. split; [reflexivity|]. split; [discriminate|].
      split; [|apply wn_op; assumption]. split; [intros L []|]. intros j p _. split; [intros (w & [[]|(e & [])] & _)|]. split; [intros (w & [[]|(e & [])] & _)|].
      intros k _ (w & [[]|(e & [])] & _).
    + intros k Hk. rewrite cnt_cons. exact (Hcnt k Hk).
    + intros j o' r' k [E|Hin] Hp; [discriminate|]. exact (Hres _ _ _ _ Hin Hp).
Qed.

Lemma broken_step i y : broken 0 (sy_st y) -> broken 0 (sy_st (tstep C n i y)).
Proof.
  intros H. unfold tstep. destruct (sy_thr y !! i) as [th|]; [|exact H].
  destruct (th_cur th) as [[o [r|e|c f]]|]; cbn [sy_st]; try exact H.
  - pose proof (broken_exec 0 c _ H) as H'. destruct (exec c (sy_st y)). exact H'.
  - destruct (th_todo th); exact H.
Qed.
Lemma broken_dec s : {broken 0 s} + {~ broken 0 s}.
Proof. unfold broken. destruct (st_tabs s !! 0) as [T|]; [|right; auto]. destruct (t_new T); [left; discriminate|right; auto]. Qed.

Lemma winv_conc sched : forall y, broken 0 (sy_st y) \/ winv y -> broken 0 (sy_st (conc C n sched y)) \/ winv (conc C n sched y).
Proof.
  induction sched as [|i sched IH]; intros y H; [exact H|]. cbn [conc]. apply IH.
  destruct H as [H|H]; [left; apply broken_step; exact H|]. destruct (broken_dec (sy_st (tstep C n i y))) as [Hb|Hb]; [left; exact Hb|right; apply winv_step; assumption].
Qed.
End Sys.

Section Final.
Context (C : cfg) (cap ppl n : nat) (maxcap : N) (todos : list (list op)) (sched : list nat).
Context (Hleg : Forall (Forall legal_op) todos) (Hst : Forall (Forall stores) todos).
Let y := after C n (init_state cap ppl maxcap) todos sched.

Lemma winv_init : winv (start (init_state cap ppl maxcap) todos).
Proof.
  assert (Hps : forall i p, ps0 (init_state cap ppl maxcap) !! i = Some p -> p = (dirty KINITIAL, noval)).
  { intros i p H. cbn in H. apply lookup_replicate in H. apply H. }
  assert (Hz : forall k, cnt (taken k) (ps0 (init_state cap ppl maxcap)) = 0).
  { intros k. apply cnt_zero. intros i p H. rewrite (Hps i p H). unfold taken. cbn [fst snd]. rewrite (clean_dirty VINITIAL), clean_VI, N.eqb_refl. apply andb_false_r. }
  split.
  - constructor; [reflexivity| |].
    + exists (fresh_table cap 0 0). split; [reflexivity|]. split; [reflexivity|]. apply replicate_length.
    + intros i p H. rewrite (Hps i p H). cbn [fst snd]. rewrite !clean_dirty. split; [reflexivity|discriminate].
  - exists (replicate (length todos) None). cbn [sy_thr start sy_hist sy_st]. split; [rewrite replicate_length, map_length; reflexivity|]. split; [|split].
    + intros i th g H1 H2. apply lookup_replicate in H2 as [-> _]. change (map (mkThread None) todos !! i = Some th) in H1. rewrite list_lookup_fmap in H1. destruct (todos !! i) as [os|] eqn:E; [|discriminate].
      injection H1 as <-. split; [|reflexivity]. cbn. pose proof (Forall_lookup_1 _ _ _ _ Hleg E) as A. pose proof (Forall_lookup_1 _ _ _ _ Hst E) as B.
      rewrite Forall_forall in A, B. apply Forall_forall. auto.
    + intros k Hk. rewrite Hz. cbn. apply cnt_zero. intros i x H. apply lookup_replicate in H as [-> _]. reflexivity.
    + intros i o r k [].
Qed.

Lemma winv_final : unresized (sy_st y) -> winv y.
Proof.
  intros Hu. destruct (winv_conc C n sched (start (init_state cap ppl maxcap) todos)) as [H|H]; [right; apply winv_init| |exact H].
  destruct (broken_unresized _ H Hu).
Qed.

Lemma entries_cnt k s : cnt (taken k) (ps0 s) <= entries_of k s.
Proof.
  unfold entries_of, ps0. destruct (st_tabs s !! 0) as [T|]; [|reflexivity]. apply cnt_le. intros p H. apply andb_true_iff in H as [H _]. exact H.
Qed.

Lemma at_most : unresized (sy_st y) -> forall k, legal_key k -> winners k (sy_hist y) <= entries_of k (sy_st y).
Proof.
  intros Hu k Hk. destruct (winv_final Hu) as (_ & gs & _ & _ & Hc & _). specialize (Hc k (proj2 (legal_key_ok _ Hk))).
  pose proof (entries_cnt k (sy_st y)). unfold winners. fold (cnt (reports_new k) (sy_hist y)). lia.
Qed.

Lemma at_least : unresized (sy_st y) -> forall k, legal_key k -> (exists i o r, In (ERes i o r) (sy_hist y) /\ putting k o = true) ->
  (forall i o, in_call y i o -> putting k o = false) -> 1 <= winners k (sy_hist y).
Proof.
  intros Hu k Hk (i & o & r & Hin & Hp) Hno. destruct (winv_final Hu) as (_ & gs & Hlen & Hthr & Hc & Hres). specialize (Hc k (proj2 (legal_key_ok _ Hk))).
  specialize (Hres _ _ _ _ Hin Hp). assert (Hz : cnt (is_key k) gs = 0).
  { apply cnt_zero. intros j g Hg. assert (Hj : j < length (sy_thr y)) by (rewrite <- Hlen; eapply lookup_lt_Some; eauto).
    destruct (lookup_lt_is_Some_2 _ _ Hj) as [th Hth]. destruct (Hthr j th g Hth Hg) as [_ Hcur].
    destruct (th_cur th) as [[o' p]|] eqn:Ec; [|subst g; reflexivity]. destruct Hcur as (b & G & -> & _). destruct b; [|reflexivity].
    apply bool_decide_eq_false. intros E. apply putting_key in E. rewrite (Hno j o') in E; [discriminate|]. exists th, p. auto. }
  unfold winners. fold (cnt (reports_new k) (sy_hist y)). lia.
Qed.

(** Without a race there is one entry. *)
Lemma one_entry : good_cap cap maxcap -> (maxcap <= 2 ^ 32)%N -> no_insert_race (sy_hist y) -> unresized (sy_st y) ->
  forall k, legal_key k -> entries_of k (sy_st y) <= 1.
Proof.
  intros Hcap Hmax Hrace Hu k Hk.
  destruct (sim_final C cap ppl maxcap n todos sched Hcap Hmax Hleg false) as [[H _]|[(m & st & A & _ & HJ & _) _]];
    [split; [apply race_none, Hrace|discriminate]|destruct (broken_unresized _ H Hu)|].
  fold y in HJ. destruct (j_tab _ _ _ _ _ _ _ _ HJ) as (T & HT & HL & HLp & _ & Hent & _). unfold entries_of. rewrite HT. apply cnt_one.
  destruct (legal_key_ok _ Hk) as [_ Hki].
  assert (Hhm : forall i p, t_pairs T !! i = Some p -> (clearMark (fst p) DirtyFlag =? k)%N = true -> exists c, hm C cap false A k i c).
  { intros i p Hp HE. apply N.eqb_eq in HE. assert (Hi : i < cap) by (apply lookup_lt_Some in Hp; lia).
    destruct (Hent i Hi) as [E _]. unfold keyat in E. rewrite Hp in E. cbn in E. change (clean (fst p) = A i) in E.
    assert (EA : A i = k) by (rewrite <- E; exact HE). destruct (j_wp _ _ _ _ _ _ _ _ HJ i Hi) as [_ [c Hc]]; [congruence|]. rewrite EA in Hc. eauto. }
  intros i j p q Hp Hq Ep Eq. destruct (Hhm _ _ Hp Ep) as [c Hc]. destruct (Hhm _ _ Hq Eq) as [c' Hc'].
  exact (proj1 (hm_unique _ _ _ _ _ _ _ _ _ Hc Hc')).
Qed.
End Final.

Lemma c12_per_entry : forall C cap ppl maxcap n todos sched k,
  Forall (Forall legal_op) todos -> Forall (Forall stores) todos -> legal_key k ->
  let y := after C n (init_state cap ppl maxcap) todos sched in
  unresized (sy_st y) ->
  winners k (sy_hist y) <= entries_of k (sy_st y) /\
  ((exists i o r, In (ERes i o r) (sy_hist y) /\ putting k o = true) ->
   (forall i o, in_call y i o -> putting k o = false) -> 1 <= winners k (sy_hist y)).
Proof.
  intros C cap ppl maxcap n todos sched k Hl Hs Hk y Hu. split.
  - exact (at_most C cap ppl n maxcap todos sched Hl Hs Hu k Hk).
  - exact (at_least C cap ppl n maxcap todos sched Hl Hs Hu k Hk).
Qed.

Lemma c12_no_race : forall C cap ppl maxcap n todos sched k,
  good_cap cap maxcap -> (maxcap <= 2 ^ 32)%N ->
  Forall (Forall legal_op) todos -> Forall (Forall stores) todos -> legal_key k ->
  let y := after C n (init_state cap ppl maxcap) todos sched in
  no_insert_race (sy_hist y) -> unresized (sy_st y) ->
  winners k (sy_hist y) <= 1 /\
  ((exists i o r, In (ERes i o r) (sy_hist y) /\ putting k o = true) ->
   (forall i o, in_call y i o -> putting k o = false) -> winners k (sy_hist y) = 1).
Proof.
  intros C cap ppl maxcap n todos sched k Hc Hm Hl Hs Hk y Hr Hu.
  destruct (c12_per_entry C cap ppl maxcap n todos sched k Hl Hs Hk Hu) as [H1 H2]. fold y in H1, H2.
  pose proof (one_entry C cap ppl n maxcap todos sched Hl Hc Hm Hr Hu k Hk) as H3. fold y in H3. split; [lia|].
  intros A B. specialize (H2 A B). lia.
Qed.
