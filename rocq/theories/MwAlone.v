(** A thread that runs alone among any number of calls of the multi-word compare-and-swap that are under way. *)
From Coq Require Import NArith Bool List Lia Sorted Permutation.
From stdpp Require Import base list.
From Verif Require Import Word Bits Codec CodecSpec CodecThm MwCas MwSpec MwWp MwSeq MwRely MwRecover MwHelpSpec MwHelp MwCallSpec MwCall MwStopRec MwWitness MwCallThm MwConflict MwAloneSpec.
Import ListNotations.
Local Open Scope N_scope.

Lemma sorted_nodup l : StronglySorted N.lt l -> NoDup l.
Proof.
  induction l as [|x l IH]; intros H; [apply NoDup_nil_2|]. apply StronglySorted_inv in H as [H1 H2]. apply NoDup_cons. split; [|apply IH, H1].
  rewrite elem_of_list_In. intros Hi. rewrite List.Forall_forall in H2. specialize (H2 x Hi). lia.
Qed.
Lemma sorted_split (done rest : list mword) x y : StronglySorted N.lt (map o_off (done ++ rest)) -> In x done -> In y rest -> o_off x < o_off y.
Proof.
  induction done as [|z done IH]; [intros _ []|]. cbn [app map]. intros H Hx Hy. apply StronglySorted_inv in H as [H1 H2].
  destruct Hx as [->|Hx]; [|apply IH; assumption]. rewrite List.Forall_forall in H2. apply H2, in_map, in_or_app. right. exact Hy.
Qed.

(** ** Arrays *)

Section Arrays.
Context (C : mcfg) (HC : mcfg_ok C).
Local Notation P := (2 ^ m_log C)%N.

Definition num_ok (u : pcall) : Prop := c_tid u < P /\ c_seq u < 2 ^ seqSize P.
Lemma word_mval u : num_ok u -> ~ mval (c_word C u).
Proof. intros [H1 H2]. apply (K_mval C HC (c_tid u) (c_seq u) H1 H2). Qed.
Lemma word_inj u v : num_ok u -> num_ok v -> c_word C u = c_word C v -> c_tid u = c_tid v.
Proof.
  intros [H1 H2] [H3 H4] E. destruct (K_facts C HC _ _ H1 H2) as (_ & _ & _ & D1). destruct (K_facts C HC _ _ H3 H4) as (_ & _ & _ & D2).
  unfold c_word in E. rewrite E, D2 in D1. injection D1. congruence.
Qed.
Lemma tid_inj L u v : NoDup (map c_tid L) -> In u L -> In v L -> c_tid u = c_tid v -> u = v.
Proof.
  induction L as [|w L IH]; [intros _ []|]. cbn [map]. rewrite NoDup_cons, elem_of_list_In. intros [Hn Hnd] [->|Hu] [->|Hv] E; [reflexivity| | |apply IH; assumption].
  - exfalso. apply Hn. rewrite E. apply in_map, Hv.
  - exfalso. apply Hn. rewrite <- E. apply in_map, Hu.
Qed.
Lemma without_ref L a j u : NoDup (map c_tid L) -> (forall v, In v L -> num_ok v) -> In u L -> a j = c_word C u -> without C L a j = old_of (c_ws u) j.
Proof.
  induction L as [|v L IH]; [intros _ _ []|]. intros Hnd Hok Hu E. cbn [without]. destruct (N.eqb_spec (a j) (c_word C v)) as [F|F].
  - assert (u = v) as ->; [|reflexivity]. eapply tid_inj; [exact Hnd|exact Hu|left; reflexivity|]. apply word_inj; [apply Hok, Hu|apply Hok; left; reflexivity|congruence].
  - destruct Hu as [->|Hu]; [contradiction|]. apply IH; [|intros w Hw; apply Hok; right; exact Hw|exact Hu|exact E]. cbn [map] in Hnd. apply NoDup_cons in Hnd as [_ Hnd]. exact Hnd.
Qed.
Lemma without_none L a j : (forall v, In v L -> a j <> c_word C v) -> without C L a j = a j.
Proof.
  induction L as [|v L IH]; [reflexivity|]. intros H. cbn [without]. rewrite (proj2 (N.eqb_neq _ _) (H v (or_introl eq_refl))). apply IH. intros w Hw. apply H. right. exact Hw.
Qed.
Lemma without_mval L a j : (forall v, In v L -> num_ok v) -> mval (a j) -> without C L a j = a j.
Proof. intros Hok V. apply without_none. intros v Hv E. apply (word_mval v (Hok v Hv)). rewrite <- E. exact V. Qed.
Lemma without_ext L a b j : a j = b j -> without C L a j = without C L b j.
Proof. intros E. induction L as [|v L IH]; cbn [without]; [exact E|]. rewrite E, IH. reflexivity. Qed.
End Arrays.

Definition same (a b : N -> N) : Prop := forall j, a j = b j.
Lemma same_match a b ws : same a b -> all_match a ws = all_match b ws.
Proof. intros H. apply match_ext. intros x _. apply H. Qed.
Lemma same_put a b ws : same a b -> same (put_all a ws) (put_all b ws).
Proof. intros H j. induction ws as [|x ws IH]; cbn; [apply H|]. destruct (_ =? _); [reflexivity|exact IH]. Qed.
Lemma same_step a b ws : same a b -> same (snd (mspec a (MwCas ws))) (snd (mspec b (MwCas ws))).
Proof. intros H. cbn [mspec]. rewrite (same_match a b ws H). destruct (all_match b ws); cbn [snd]; [apply same_put, H|exact H]. Qed.
Lemma same_one D : forall a b, same a b -> same (one_by_one a D) (one_by_one b D).
Proof. induction D as [|u D IH]; intros a b H; cbn [one_by_one]; [exact H|]. apply IH, same_step, H. Qed.
Lemma same_statuses m D : forall a b, same a b -> statuses m a D -> statuses m b D.
Proof. induction D as [|u D IH]; intros a b H; cbn [statuses]; [auto|]. rewrite (same_match a b _ H). intros (H1 & H2 & H3). split; [exact H1|]. split; [exact H2|]. eapply IH; [|exact H3]. apply same_step, H. Qed.
Lemma same_trans a b c : same a b -> same b c -> same a c.
Proof. intros H1 H2 j. rewrite H1. apply H2. Qed.
Lemma one_app D1 : forall a D2, one_by_one a (D1 ++ D2) = one_by_one (one_by_one a D1) D2.
Proof. induction D1 as [|u D1 IH]; intros a D2; cbn; [reflexivity|apply IH]. Qed.
Lemma statuses_app m D1 : forall a D2, statuses m a (D1 ++ D2) <-> statuses m a D1 /\ statuses m (one_by_one a D1) D2.
Proof. induction D1 as [|u D1 IH]; intros a D2; cbn [statuses one_by_one app]; [tauto|]. rewrite IH. tauto. Qed.
Lemma statuses_frame m m' D : (forall u, In u D -> kseq m' (c_tid u) = kseq m (c_tid u) /\ kstat m' (c_tid u) = kstat m (c_tid u)) -> forall a, statuses m a D -> statuses m' a D.
Proof.
  induction D as [|u D IH]; intros H a; cbn [statuses]; [auto|]. destruct (H u (or_introl eq_refl)) as [-> ->]. intros (H1 & H2 & H3). split; [exact H1|]. split; [exact H2|]. apply IH; [|exact H3]. intros v Hv. apply H. right. exact Hv.
Qed.
Lemma words_app L1 L2 : words_in (L1 ++ L2) = (words_in L1 + words_in L2)%nat.
Proof. induction L1 as [|u L1 IH]; cbn; [reflexivity|]. rewrite IH. lia. Qed.
Lemma words_perm L1 L2 : Permutation L1 L2 -> words_in L1 = words_in L2.
Proof. induction 1; cbn; lia. Qed.

(** ** The loop *)

Section Alone.
Context (C : mcfg) (HC : mcfg_ok C) (me : N) (Hme : me < 2 ^ m_log C).
Local Notation P := (2 ^ m_log C)%N.
Local Notation wp := (mwp any).
Local Notation K u := (c_word C u).
Local Notation ref u := (call_ref (c_seq u) (c_tid u)).

Lemma ok_num m u : call_ok C m u -> num_ok C u.
Proof. intros H. split; [apply H|apply H]. Qed.
Lemma ok_nodup m u : call_ok C m u -> NoDup (map o_off (c_ws u)).
Proof. intros H. apply sorted_nodup, H. Qed.
(** What the thread changes when it completes the calls [D]. *)
Definition cells (D : list pcall) (l : loc) : Prop := wcell me l \/ (exists j, l = LArr j) \/ exists u, In u D /\ l = LK (c_tid u).
Lemma cells_plain D l : match l with LKCount _ | LKWord _ _ _ => True | _ => False end -> ~ cells D l.
Proof. intros Hl [[->|[[? ->]|[->| ->]]]|[[? ->]|(? & _ & ->)]]; exact Hl. Qed.
Lemma cells_k D t : ~ In t (map c_tid D) -> ~ cells D (LK t).
Proof. intros H [[?|[[? ?]|[?|?]]]|[[? ?]|(u & Hu & E)]]; try discriminate. injection E as ->. apply H, in_map, Hu. Qed.
Lemma cells_more D D' l : (forall u, In u D -> In u D') -> cells D l -> cells D' l.
Proof. intros H [Hl|[Hl|(u & Hu & E)]]; [left; exact Hl|right; left; exact Hl|right; right; exists u; split; [apply H, Hu|exact E]]. Qed.
Lemma ok_frame D m m' u : cleaned_but (cells D) m m' -> ~ In (c_tid u) (map c_tid D) -> call_ok C m u -> call_ok C m' u.
Proof.
  intros A Hn [P1 P2 P3 P4 P5 P6 P7]. split; try assumption.
  - rewrite (cb_clean _ _ _ A) by (apply cells_k, Hn). exact P3.
  - rewrite (cb_plain _ _ _ A) by (exact I || (apply cells_plain; exact I)). exact P4.
  - intros i x Hx. rewrite !(cb_plain _ _ _ A) by (exact I || (apply cells_plain; exact I)). apply P5, Hx.
Qed.
(** What is half installed. *)
Local Notation St m := (settled C m).
Lemma ref_marked u : num_ok C u -> isMarked (K u) RDCSSFlag = false.
Proof. intros [H1 H2]. apply (cref_word C HC); assumption. Qed.
Lemma mval_marked v : mval v -> isMarked v RDCSSFlag = false.
Proof. intros (_ & _ & _ & H). rewrite isMarked_rdcss. exact H. Qed.
Lemma settled_unmarked m j : isMarked (contents m j) RDCSSFlag = false -> St m j = contents m j.
Proof. intros E. unfold settled. rewrite E. reflexivity. Qed.
Lemma settled_ref m j u : num_ok C u -> contents m j = K u -> St m j = K u.
Proof. intros Hu E. rewrite settled_unmarked; [exact E|]. rewrite E. apply ref_marked, Hu. Qed.
Lemma half_marked m t j : half_installed C m t j -> isMarked (contents m j) RDCSSFlag = true.
Proof. intros H. apply (half_mark C HC m t j H). Qed.
Lemma half_settled m t j : half_installed C m t j -> St m j = outcome C m t.
Proof. intros H. apply (half_mark C HC m t j H). Qed.
Lemma half_decode m t j : half_installed C m t j -> desc_decode P (contents m j) = word_ref (wseq m t) t.
Proof. intros H. apply (half_mark C HC m t j H). Qed.
Lemma half_unique m m' t t' j : half_installed C m t j -> half_installed C m' t' j -> contents m' j = contents m j -> t = t'.
Proof. intros H H' E. apply half_decode in H, H'. rewrite E, H in H'. injection H'. auto. Qed.

(** A step that changes the word descriptor of the thread, the statuses of [D], and words in which nothing is half installed
    any more. *)
Definition smooth (m m' : mem) : Prop := forall j, contents m' j = contents m j \/ isMarked (contents m' j) RDCSSFlag = false.
Definition halves (m : mem) : Prop := forall j, isMarked (contents m j) RDCSSFlag = true -> exists t, half_installed C m t j.
Lemma cells_w D t l : t <> me -> match l with LW u | LWWord u _ | LWSeq u | LWTid u => u = t | _ => False end -> ~ cells D l.
Proof. intros Ht Hl [[->|[[? ->]|[->| ->]]]|[[? ->]|(? & _ & ->)]]; cbn in Hl; congruence. Qed.
Section Step.
Context (D : list pcall) (m m' : mem) (A : cleaned_but (cells D) m m') (Hme0 : tidy C m me).
Lemma st_word t f : t <> me -> m' (LWWord t f) = m (LWWord t f).
Proof. intros Ht. apply (cb_plain _ _ _ A); [apply (cells_w D t); [exact Ht|reflexivity]|exact I]. Qed.
Lemma st_kseq t : t <> me -> m' (LWSeq t) = m (LWSeq t).
Proof. intros Ht. apply (cb_plain _ _ _ A); [apply (cells_w D t); [exact Ht|reflexivity]|exact I]. Qed.
Lemma st_ktid t : t <> me -> m' (LWTid t) = m (LWTid t).
Proof. intros Ht. apply (cb_plain _ _ _ A); [apply (cells_w D t); [exact Ht|reflexivity]|exact I]. Qed.
Lemma st_wseq t : t <> me -> wseq m' t = wseq m t.
Proof. intros Ht. apply (cb_wseq _ _ _ A). apply (cells_w D t); [exact Ht|reflexivity]. Qed.
Lemma st_half t j : contents m' j = contents m j -> half_installed C m t j -> half_installed C m' t j.
Proof.
  intros E H. assert (Ht : t <> me) by (intros ->; apply (Hme0 j H)). destruct H as ([H1 H2 H3 H4 H5 H6] & Hj & Hc).
  split; [split|split]; rewrite ?st_word, ?st_kseq, ?st_ktid, ?st_wseq by exact Ht; try assumption. rewrite E. exact Hc.
Qed.
Lemma st_back t j : halves m -> smooth m m' -> half_installed C m' t j -> half_installed C m t j /\ contents m' j = contents m j.
Proof.
  intros Hh Hs H. pose proof (half_marked _ _ _ H) as Hm. destruct (Hs j) as [E|E]; [|congruence]. split; [|exact E]. rewrite E in Hm. destruct (Hh j Hm) as (t' & Ht').
  rewrite <- (half_unique m m' t' t j Ht' H E). exact Ht'.
Qed.
Lemma st_tidy : halves m -> smooth m m' -> tidy C m' me.
Proof. intros Hh Hs j H. apply (Hme0 j), (st_back me j Hh Hs H). Qed.
Lemma st_under t : t <> me -> ~ In (m (LWTid t)) (map c_tid D) -> under_way m' t = under_way m t.
Proof.
  intros Ht Hn. unfold under_way. rewrite st_kseq, st_ktid by exact Ht. rewrite (cb_kseq _ _ _ A), (cb_kstat _ _ _ A) by (apply cells_k, Hn). reflexivity.
Qed.
Lemma st_settled j : halves m -> contents m' j = contents m j -> (forall t, half_installed C m t j -> ~ In (m (LWTid t)) (map c_tid D)) -> St m' j = St m j.
Proof.
  intros Hh E Hn. destruct (isMarked (contents m j) RDCSSFlag) eqn:Em.
  - destruct (Hh j Em) as (t & Ht). assert (Htm : t <> me) by (intros ->; apply (Hme0 j Ht)). rewrite (half_settled m t j Ht), (half_settled m' t j (st_half t j E Ht)).
    unfold outcome. rewrite st_under by (try exact Htm; apply Hn, Ht). rewrite st_kseq, st_ktid, st_word by exact Htm. reflexivity.
  - rewrite !settled_unmarked; congruence.
Qed.
End Step.
Lemma ok_halves m L : calls_ok C m L -> halves m.
Proof. intros H j E. destruct (co_half _ _ _ H j E) as (t & Ht & _). exists t. exact Ht. Qed.
(** The conditions about the words that are half installed, when no call is decided. *)
Lemma st_co_half m m' L : cleaned_but (cells []) m m' -> tidy C m me -> calls_ok C m L -> smooth m m' -> forall j, isMarked (contents m' j) RDCSSFlag = true ->
  exists t, half_installed C m' t j /\ mval (m' (LWWord t WOld)) /\ m' (LWSeq t) <= kseq m' (m' (LWTid t)).
Proof.
  intros A Hme0 Hok Hs j Em. destruct (Hs j) as [E|E]; [|congruence]. rewrite E in Em. destruct (co_half _ _ _ Hok j Em) as (t & Ht & V & Hq). exists t.
  assert (Htm : t <> me) by (intros ->; apply (Hme0 j Ht)). split; [apply (st_half [] m m' A Hme0 t j E Ht)|].
  rewrite (st_word [] m m' A), (st_kseq [] m m' A), (st_ktid [] m m' A) by exact Htm. rewrite (cb_kseq _ _ _ A) by (apply cells_k; intros []). split; assumption.
Qed.
Lemma st_co_expects m m' L : cleaned_but (cells []) m m' -> tidy C m me -> calls_ok C m L -> smooth m m' ->
  forall t u x, half_installed C m' t (o_off x) -> In u L -> In x (c_ws u) -> St m' (o_off x) = K u -> m' (LWWord t WOld) = o_old x.
Proof.
  intros A Hme0 Hok Hs t u x Ht Hu Hx E. pose proof (ok_halves _ _ Hok) as Hh. destruct (st_back m m' t _ Hh Hs Ht) as [Ht0 Ec].
  assert (Htm : t <> me) by (intros ->; apply (Hme0 _ Ht0)). rewrite (st_word [] m m' A) by exact Htm.
  apply (co_expects _ _ _ Hok t u x Ht0 Hu Hx). rewrite <- E. symmetry. apply (st_settled [] m m' A Hme0); [exact Hh|exact Ec|intros ? _ []].
Qed.
Lemma same_smooth m m' : same (contents m) (contents m') -> smooth m m'.
Proof. intros E j. left. symmetry. apply E. Qed.
Lemma same_settled m m' L : cleaned_but (cells []) m m' -> tidy C m me -> calls_ok C m L -> same (contents m) (contents m') -> same (St m) (St m').
Proof. intros A Hme0 Hok E j. symmetry. apply (st_settled [] m m' A Hme0); [apply (ok_halves _ _ Hok)|symmetry; apply E|intros ? _ []]. Qed.
Lemma ok_eq m m' L : cleaned_but (cells []) m m' -> tidy C m me -> smooth m m' -> same (St m) (St m') ->
  (forall u j, In u L -> contents m j = K u -> contents m' j = K u) -> calls_ok C m L -> calls_ok C m' L.
Proof.
  intros A Hme0 Hsm Es Hk Hok. pose proof Hok as [H1 H2 H3 H4 H5 H6 H7]. split.
  - exact H1.
  - intros u Hu. eapply ok_frame; [exact A|intros []|apply H2, Hu].
  - intros j. rewrite <- Es. apply H3.
  - intros u j Hu. rewrite <- Es. apply H4, Hu.
  - intros u x y Hu Hx Hy Hxy. rewrite <- Es. intros E. apply Hk, (H5 u x y); assumption.
  - apply (st_co_half m m' L A Hme0 Hok Hsm).
  - apply (st_co_expects m m' L A Hme0 Hok Hsm).
Qed.
Lemma ok_array_eq m m' L : cleaned_but (cells []) m m' -> tidy C m me -> same (contents m) (contents m') -> calls_ok C m L -> calls_ok C m' L.
Proof.
  intros A Hme0 E Hok. apply (ok_eq m); [exact A|exact Hme0|apply same_smooth, E|eapply same_settled; eassumption|intros u j _; rewrite E; auto|exact Hok].
Qed.
Lemma ok_perm m L L' : Permutation L L' -> calls_ok C m L -> calls_ok C m L'.
Proof.
  intros Hp [H1 H2 H3 H4 H5 H6 H7]. assert (Hin : forall u, In u L' -> In u L) by (intros u; apply Permutation_in, Permutation_sym, Hp). split.
  - rewrite <- (Permutation.Permutation_map c_tid Hp). exact H1.
  - intros u Hu. apply H2, Hin, Hu.
  - intros j. destruct (H3 j) as [V|(u & Hu & E)]; [left; exact V|right; exists u; split; [eapply Permutation_in; eassumption|exact E]].
  - intros u j Hu. apply H4, Hin, Hu.
  - intros u x y Hu. apply H5, Hin, Hu.
  - exact H6.
  - intros t u x Ht Hu. apply H7; [exact Ht|apply Hin, Hu].
Qed.

(** One round of the loop. *)
Lemma wpa_round rec n A i x (Q : N -> mem -> Prop) (m : mem) : call_ok C m A -> nth_error (c_ws A) i = Some x ->
  tidy C m me -> (forall j, isMarked (contents m j) RDCSSFlag = true -> exists t, half_installed C m t j /\ mval (m (LWWord t WOld))) ->
  mval (St m (o_off x)) \/ (exists u, num_ok C u /\ St m (o_off x) = K u) -> wseq m me + 2 < 2 ^ seqSize P ->
  (forall m2, cleaned_but (cells []) m m2 -> (forall j, j <> o_off x -> contents m2 j = contents m j) ->
     contents m2 (o_off x) = (if St m (o_off x) =? o_old x then K A else St m (o_off x)) -> wseq m2 me = wseq m me + 2 ->
     (St m (o_off x) = o_old x \/ St m (o_off x) = K A -> wp (place C (S (S n)) rec me (ref A) (S i) false) Q m2) /\
     (forall u, num_ok C u -> c_tid u <> c_tid A -> St m (o_off x) = K u -> wp (rec (ref u) (LArr (o_off x)) ;;; place C (S (S n)) rec me (ref A) i true)%mprog Q m2) /\
     (mval (St m (o_off x)) -> St m (o_off x) <> o_old x -> Q Failed m2)) ->
  (forall u, num_ok C u -> St m (o_off x) = K u -> c_tid u = c_tid A -> K u = K A) ->
  wp (place C (S (S (S n))) rec me (ref A) i false) Q m.
Proof.
  intros HA Hx Hti Hhv Hv Hsq H Hsame. pose proof HA as [P1 P2 P3 P4 P5 P6 P7]. pose proof (nth_error_In _ _ Hx) as Hxi. destruct (P7 x Hxi) as (Hxs & Hold & Hnew).
  set (t := c_tid A) in *. set (s := c_seq A) in *. destruct (P5 i x Hx) as (K1 & K2 & K3).
  remember (S (S n)) as n1 eqn:En1. cbn [place]. cbn [d_tid call_ref]. change (mkDesc false true false s t) with (call_ref s t). apply mwp_bind. eapply wpc_more; [exact P4|].
  assert (Hi : (i < length (c_ws A))%nat) by (apply nth_error_Some; congruence).
  rewrite (proj2 (N.ltb_lt _ _)) by lia. cbn [negb].
  destruct (kenc_facts Undecided s eq_refl (seq_61 _ _ HC P2)) as (D0 & E0 & F0).
  apply mwp_bind. unfold load_word. do 3 (apply mwp_bind, mwp_load; [exact I|]). cbn [mwp]. rewrite K1, K2, K3.
  apply mwp_bind, wph_createW; [exact Hme|exact P1|].
  intros m1 s1 Hm1 Es1 Hs1 W1 W2 W3 W4 W5. cbn [o_off o_old o_new call_ref d_seq] in W1, W2, W3, W4.
  assert (Es1' : s1 = wseq m me + 2). { rewrite Es1. apply N.mod_small. apply (seq_63 _ _ HC). lia. }
  rewrite (N.mod_small s1) by (rewrite Es1'; lia).
  assert (A1 : cleaned_but (wcell me) m m1).
  { intros l. unfold wcell. destruct (decide (l = LW me)); [tauto|]. destruct (decide (l = LWSeq me)); [tauto|]. destruct (decide (l = LWTid me)); [tauto|].
    destruct l as [?|?|?|? ? ?|?|u f|?|?]; try (right; left; apply Hm1; congruence).
    destruct (decide (u = me)) as [->|Hu]; [left; right; left; eexists; reflexivity|]. right; left; apply Hm1; congruence. }
  assert (Ec1 : forall j, contents m1 j = contents m j). { intros j. apply (cb_contents _ _ _ A1). intros [?|[[? ?]|[?|?]]]; discriminate. }
  assert (A1c : cleaned_but (cells []) m m1) by (eapply cleaned_weaken; [|exact A1]; intros l Hl; left; exact Hl).
  assert (Hh : halves m) by (intros j E; destruct (Hhv j E) as (t' & Ht' & _); exists t'; exact Ht').
  assert (Est1 : forall j, St m1 j = St m j) by (intros j; apply (st_settled [] m m1 A1c Hti); [exact Hh|apply Ec1|intros ? _ []]).
  assert (Hk1 : clean (m1 (LK t)) = kenc Undecided s). { rewrite (cb_clean _ _ _ A1); [exact P3|]. intros [?|[[? ?]|[?|?]]]; discriminate. }
  assert (G1 : word_ok C m1 me). { split; rewrite ?W1, ?W2, ?W4, ?W5, ?Hs1; [exact Hme|rewrite Es1'; lia|exact Hxs|exact P1|exact P2|apply mval_clean, Hold]. }
  assert (U1 : outcome C m1 me = K A).
  { unfold outcome, under_way. rewrite W4, W5. unfold kseq, kstat. change (km_seq (kmut_decode (m1 (LK t)))) with (sq (m1 (LK t))). change (km_status (kmut_decode (m1 (LK t)))) with (stt (m1 (LK t))).
    rewrite <- (sq_clean (m1 (LK t))), <- (stt_clean (m1 (LK t))), Hk1. unfold sq, stt. rewrite D0. cbn [km_seq km_status]. rewrite !N.eqb_refl. reflexivity. }
  apply mwp_bind. rewrite En1, <- Hs1.
  eapply (wph_install_at C HC n me); [exact G1|rewrite W2; apply mval_marked, Hold| |].
  { rewrite W1, Ec1. intros Em. destruct (Hhv _ Em) as (t' & Ht' & V'). exists t'. assert (Htm : t' <> me) by (intros ->; apply (Hti _ Ht')). split.
    - apply (st_half [] m m1 A1c Hti); [apply Ec1|exact Ht'].
    - rewrite (st_word [] m m1 A1c) by exact Htm. apply mval_marked, V'. }
  rewrite W1, W2, U1, !Est1. intros m2 A2 E2. cbn [negb]. apply mwp_bind, mwp_load; [exact I|]. cbn [d_tid word_ref].
  assert (W2' : m2 (LWWord me WOld) = o_old x). { rewrite (cb_plain _ _ _ A2); [exact W2|discriminate|exact I]. }
  rewrite W2'.
  assert (A12 : cleaned_but (cells []) m m2).
  { eapply cleaned_trans; [eapply cleaned_weaken; [|exact A1]|eapply cleaned_weaken; [|exact A2]]; intros l Hl; [left; exact Hl|]. right. left. eexists. exact Hl. }
  assert (Ec2 : forall j, j <> o_off x -> contents m2 j = contents m j). { intros j Hj. rewrite <- Ec1. apply (cb_contents _ _ _ A2). intros E. injection E. exact Hj. }
  assert (Q2 : wseq m2 me = wseq m me + 2). { rewrite (ca_wseq m1 m2 (at_in_arr _ _ _ A2)), Hs1. exact Es1'. }
  destruct (H m2 A12 Ec2 E2 Q2) as (H1 & H2 & H3). clear H. fold s t in H1, H2. rewrite En1 in H1, H2.
  destruct (N.eqb_spec (St m (o_off x)) (o_old x)) as [Em|Em]; [apply H1; left; exact Em|].
  destruct Hv as [V|(u & Hu & Ek)].
  - rewrite decode_kcas. destruct (V) as (_ & _ & -> & _). cbn [mwp]. apply H3; assumption.
  - pose proof Hu as [Hu1 Hu2]. destruct (K_facts C HC _ _ Hu1 Hu2) as (_ & _ & _ & Kd). rewrite Ek. unfold c_word. rewrite Kd. cbn [d_isKCAS call_ref d_isDirty d_tid d_seq]. apply mwp_bind. cbn [mwp].
    destruct (N.eqb_spec (c_tid u) t) as [Et|Et].
    + assert (Ekk : K u = K A) by (apply Hsame; assumption). destruct (K_facts C HC _ _ P1 P2) as (_ & _ & _ & Kd').
      assert (Er : ref u = call_ref s t) by (rewrite <- Kd; unfold c_word in Ekk; rewrite Ekk; exact Kd'). injection Er as Es Et'. rewrite Es, N.eqb_refl. cbn [andb]. apply H1. right. congruence.
    + cbn [andb]. apply mwp_bind. eapply wpc_word_address; [|exact Hxs|].
      { rewrite (cb_plain _ _ _ A12); [exact K1|apply cells_plain; exact I|exact I]. }
      change (mkDesc false true false s t) with (call_ref s t). change (mkDesc false true false (c_seq u) (c_tid u)) with (ref u). apply (H2 u Hu Et Ek).
Qed.
Lemma wpa_end rec n A (Q : N -> mem -> Prop) (m : mem) : call_ok C m A -> Q Succeeded m -> wp (place C (S n) rec me (ref A) (length (c_ws A)) false) Q m.
Proof.
  intros HA H. cbn [place d_tid call_ref]. apply mwp_bind. eapply wpc_more; [apply HA|]. rewrite (proj2 (N.ltb_ge _ _)) by lia. cbn. exact H.
Qed.

(** *** The invariant *)

(** All calls that play a role, and a bound of their numbers of words. *)
Context (G : list pcall) (HG : NoDup (map c_tid G)) (HGok : forall u, In u G -> num_ok C u) (M : nat) (HM : forall u, In u G -> (length (c_ws u) <= M)%nat).
Local Notation lg m := (without C G (St m)).

(** The calls [D] have been completed, the calls [L'] remain; the references to the calls [F] are the same.  Nothing more is half
    installed than before. *)
Record went (O F L : list pcall) (m : mem) (D L' : list pcall) (m' : mem) : Prop := {
  we_perm : Permutation L (D ++ L');
  we_ok : calls_ok C m' (O ++ F ++ L');
  we_same : forall v j, In v F -> (St m' j = K v <-> St m j = K v);
  we_keep : forall v j, In v (O ++ F) -> contents m j = K v -> contents m' j = K v;
  we_lg : same (lg m') (one_by_one (lg m) D);
  we_stat : statuses m' (lg m) D;
  we_cells : cleaned_but (cells D) m m';
  we_half : forall t j, half_installed C m' t j -> half_installed C m t j;
}.
Lemma tids_disjoint L D L' u v : NoDup (map c_tid L) -> Permutation L (D ++ L') -> In u D -> In v L' -> c_tid u <> c_tid v.
Proof.
  intros Hnd Hp Hu Hv E. rewrite (Permutation.Permutation_map c_tid Hp), map_app in Hnd. apply NoDup_app in Hnd as (_ & Hd & _).
  apply (Hd (c_tid u)); rewrite elem_of_list_In; [apply in_map, Hu|rewrite E; apply in_map, Hv].
Qed.
Lemma k_frame D m m' t : cleaned_but (cells D) m m' -> ~ In t (map c_tid D) -> kseq m' t = kseq m t /\ kstat m' t = kstat m t.
Proof.
  intros A Hn. pose proof (cb_clean _ _ _ A _ (cells_k D t Hn)) as E. split.
  - change (sq (m' (LK t)) = sq (m (LK t))). rewrite <- (sq_clean (m' _)), E. apply sq_clean.
  - change (stt (m' (LK t)) = stt (m (LK t))). rewrite <- (stt_clean (m' _)), E. apply stt_clean.
Qed.
Lemma went_trans O F L m D1 L1 m1 D2 L2 m2 : NoDup (map c_tid L) -> went O F L m D1 L1 m1 -> went O F L1 m1 D2 L2 m2 -> went O F L m (D1 ++ D2) L2 m2.
Proof.
  intros Hnd [A1 A2 A3 A4 A5 A6 A7 A8] [B1 B2 B3 B4 B5 B6 B7 B8].
  assert (Hd : forall u, In u D1 -> ~ In (c_tid u) (map c_tid D2)).
  { intros u Hu Hi. apply in_map_iff in Hi as (v & E & Hv). apply (tids_disjoint L D1 L1 u v Hnd A1 Hu); [|congruence].
    eapply Permutation_in; [apply Permutation_sym, B1|]. apply in_or_app. left. exact Hv. }
  split.
  - rewrite A1, <- app_assoc. apply Permutation_app_head. exact B1.
  - exact B2.
  - intros v j Hv. rewrite B3 by exact Hv. apply A3, Hv.
  - intros v j Hv E. apply B4, A4; assumption.
  - rewrite one_app. eapply same_trans; [exact B5|]. apply same_one. exact A5.
  - apply statuses_app. split.
    + eapply statuses_frame; [|exact A6]. intros u Hu. apply (k_frame D2); [exact B7|apply Hd, Hu].
    + eapply same_statuses; [exact A5|exact B6].
  - eapply cleaned_trans; (eapply cleaned_weaken; [|eassumption]); intros l; apply cells_more; intros u Hu; apply in_or_app; auto.
  - intros t j H. apply A8, B8, H.
Qed.
Lemma went_tidy O F L m D L' m' : went O F L m D L' m' -> tidy C m me -> tidy C m' me.
Proof. intros W H j Hj. apply (H j), (we_half _ _ _ _ _ _ _ W), Hj. Qed.
(** A change of the array that does not complete a call. *)
Lemma went_nil O F L m m' : cleaned_but (cells []) m m' -> calls_ok C m' (O ++ F ++ L) -> (forall v j, In v F -> (St m' j = K v <-> St m j = K v)) ->
  (forall v j, In v (O ++ F) -> contents m j = K v -> contents m' j = K v) -> same (lg m') (lg m) -> (forall t j, half_installed C m' t j -> half_installed C m t j) -> went O F L m [] L m'.
Proof. intros A Hok Hf Hk E Hh. split; try assumption; [reflexivity|exact I]. Qed.

Lemma wpa_retry n rec A i (Q : N -> mem -> Prop) (m : mem) : (N.of_nat i <? m (LKCount (c_tid A))) = true -> wp (place C n rec me (ref A) i false) Q m -> wp (place C n rec me (ref A) i true) Q m.
Proof.
  intros E. destruct n as [|n]; [auto|]. cbn [place d_tid call_ref]. unfold more, mdo. cbn [mbind]. cbn [mwp cmd_loc mexec mbind]. intros [_ H]. rewrite E in H. exact H.
Qed.
Lemma lg_ref m u x : In u G -> NoDup (map o_off (c_ws u)) -> In x (c_ws u) -> St m (o_off x) = K u -> lg m (o_off x) = o_old x.
Proof. intros Hu Hnd Hx E. rewrite (without_ref C HC G _ _ u HG HGok Hu E). apply old_of_in; assumption. Qed.
Lemma lg_mval m j : mval (St m j) -> lg m j = St m j.
Proof. apply without_mval; assumption. Qed.
Lemma K_neq u v L : NoDup (map c_tid L) -> (forall w, In w L -> num_ok C w) -> In u L -> In v L -> K u = K v -> u = v.
Proof. intros Hnd Hok Hu Hv E. eapply tid_inj; [exact Hnd|exact Hu|exact Hv|]. apply (word_inj C HC); [apply Hok, Hu|apply Hok, Hv|exact E]. Qed.

Definition call_claim (k : nat) : Prop := forall n B F L a (Q : bool -> mem -> Prop) (m : mem), (length L <= k)%nat -> (M + length L + 3 <= n)%nat ->
  calls_ok C m (B :: F ++ L) -> tidy C m me -> (forall u, In u (B :: F ++ L) -> In u G) -> contents m a = K B -> (forall v j, In v F -> St m j = K v -> j < a + 1) ->
  wseq m me + 2 * N.of_nat (length (c_ws B) + words_in L) < 2 ^ seqSize P ->
  (forall r D L' m', went [] F (B :: L) m (D ++ [B]) L' m' -> r = all_match (one_by_one (lg m) D) (c_ws B) ->
     wseq m' me <= wseq m me + 2 * N.of_nat (length (c_ws B) + words_in D) -> Q r m') ->
  wp (pmwcas C n me (ref B) (Some (LArr a))) Q m.
Definition place_claim (k : nat) : Prop := forall n n2 A F L done rest lo (Q : N -> mem -> Prop) (m : mem), (length L <= k)%nat ->
  (length rest + length L + 2 <= n)%nat -> (M + length L + 2 <= n2)%nat ->
  calls_ok C m (A :: F ++ L) -> tidy C m me -> (forall u, In u (A :: F ++ L) -> In u G) -> c_ws A = done ++ rest -> (forall x, In x done -> contents m (o_off x) = K A) ->
  (forall v j, In v F -> St m j = K v -> j < lo) -> (forall x, In x rest -> lo <= o_off x) ->
  wseq m me + 2 * N.of_nat (length rest + words_in L) < 2 ^ seqSize P ->
  (forall st D L' m', went [A] F L m D L' m' -> st = (if all_match (lg m') (c_ws A) then Succeeded else Failed) ->
     (st = Succeeded -> forall x, In x (c_ws A) -> contents m' (o_off x) = K A) ->
     wseq m' me <= wseq m me + 2 * N.of_nat (length rest + words_in D) -> Q st m') ->
  wp (place C n (fun d' a => pmwcas C n2 me d' (Some a)) me (ref A) (length done) false) Q m.

Lemma place_step k : (forall k', (k' < k)%nat -> call_claim k') -> place_claim k.
Proof.
  intros IHk n n2 A F L done rest. remember (length rest + length L)%nat as z eqn:Ez. revert n A F L done rest Ez.
  induction (lt_wf z) as [z _ IH]. intros n A F L done rest Ez lo Q m Hk Hn Hn2 Hok Hti HinG Hws Hdone Hlo Hrest Hsq H.
  pose proof Hok as [O1 O2 O3 O4 O5 O6 O7]. pose proof (O2 A (or_introl eq_refl)) as HA. pose proof HA as [P1 P2 P3 P4 P5 P6 P7]. pose proof (ok_nodup _ _ HA) as HndA.
  set (rec := fun d' a => pmwcas C n2 me d' (Some a)) in *.
  assert (Hnum : forall u, In u (A :: F ++ L) -> num_ok C u) by (intros u Hu; apply HGok, HinG, Hu).
  pose proof (ok_halves _ _ Hok) as Hh.
  destruct rest as [|x rest].
  { destruct n as [|n]; [lia|]. replace (length done) with (length (c_ws A)) by (rewrite Hws, app_nil_r; reflexivity). apply wpa_end; [exact HA|].
    assert (Hall : forall x, In x (c_ws A) -> contents m (o_off x) = K A) by (rewrite Hws, app_nil_r; exact Hdone).
    apply (H Succeeded [] L m); [| |intros _; exact Hall|cbn; lia].
    - apply went_nil; [apply cleaned_any, cleaned_refl|exact Hok|tauto|tauto|intros j; reflexivity|tauto].
    - replace (all_match (lg m) (c_ws A)) with true; [reflexivity|]. symmetry. apply all_match_iff. intros x Hx. eapply lg_ref; [apply HinG; left; reflexivity|exact HndA|exact Hx|].
      apply settled_ref; [apply Hnum; left; reflexivity|apply Hall, Hx]. }
  cbn [length] in Hn, Hsq, Ez. destruct n as [|[|[|n]]]; [lia|lia|lia|].
  assert (Hxi : In x (c_ws A)) by (rewrite Hws; apply in_or_app; right; left; reflexivity). destruct (P7 x Hxi) as (Hxs & Hold & Hnew).
  assert (Hnth : nth_error (c_ws A) (length done) = Some x) by (rewrite Hws, nth_error_app2, Nat.sub_diag by lia; reflexivity).
  assert (HKA : ~ mval (K A)) by (apply (word_mval C HC), Hnum; left; reflexivity).
  assert (Hgt : forall y, In y rest -> o_off x < o_off y).
  { intros y Hy. apply (sorted_split (done ++ [x]) rest); [rewrite <- app_assoc; cbn [app]; rewrite <- Hws; exact P6|apply in_or_app; right; left; reflexivity|exact Hy]. }
  assert (Hlt : forall y, In y done -> o_off y < o_off x) by (intros y Hy; apply (sorted_split done (x :: rest)); [rewrite <- Hws; exact P6|exact Hy|left; reflexivity]).
  pose proof (Hrest x (or_introl eq_refl)) as Hlox.
  apply wpa_round with (x := x); [exact HA|exact Hnth|exact Hti| | |lia| |].
  { intros j Em. destruct (O6 j Em) as (t & Ht & V & _). exists t. split; assumption. }
  { destruct (O3 (o_off x)) as [V|(u & Hu & E)]; [left; exact V|right; exists u; split; [apply Hnum, Hu|exact E]]. }
  2: { intros u Hu E Et. destruct (O3 (o_off x)) as [V|(w & Hw & Ew)]; [exfalso; apply (word_mval C HC u Hu); rewrite <- E; exact V|].
       assert (w = A) as ->; [|congruence]. eapply tid_inj; [exact O1|exact Hw|left; reflexivity|]. rewrite <- Et. apply (word_inj C HC); [apply Hnum, Hw|exact Hu|congruence]. }
  intros m2 A2 Ec2 E2 Q2.
  assert (Hc2 : m2 (LKCount (c_tid A)) = N.of_nat (length (c_ws A))) by (rewrite (cb_plain _ _ _ A2); [exact P4|apply cells_plain; exact I|exact I]).
  assert (Hfr : forall u, In u (A :: F ++ L) -> call_ok C m2 u) by (intros u Hu; eapply ok_frame; [exact A2|intros []|apply O2, Hu]).
  assert (Hux : isMarked (contents m2 (o_off x)) RDCSSFlag = false).
  { rewrite E2. destruct (_ =? _); [apply ref_marked, Hnum; left; reflexivity|]. destruct (O3 (o_off x)) as [V|(w & Hw & ->)]; [apply mval_marked, V|apply ref_marked, Hnum, Hw]. }
  assert (Hsm : smooth m m2) by (intros j; destruct (N.eq_dec j (o_off x)) as [->|Hj]; [right; exact Hux|left; apply Ec2, Hj]).
  assert (Es2 : forall j, j <> o_off x -> St m2 j = St m j) by (intros j Hj; apply (st_settled [] m m2 A2 Hti); [exact Hh|apply Ec2, Hj|intros ? _ []]).
  assert (Esx : St m2 (o_off x) = contents m2 (o_off x)) by (apply settled_unmarked, Hux).
  pose proof (st_tidy m m2 Hti Hh Hsm) as Hti2.
  assert (Hhb : forall t j, half_installed C m2 t j -> half_installed C m t j) by (intros t j Ht; apply (st_back m m2 t j Hh Hsm Ht)).
  split; [|split].
  - (* the word is installed, or was *)
    intros Hcase.
    assert (Ex2 : contents m2 (o_off x) = K A) by (rewrite E2; destruct Hcase as [->|E]; [rewrite N.eqb_refl; reflexivity|rewrite E; destruct (c_word C A =? o_old x); reflexivity]).
    rewrite Ex2 in Esx.
    assert (Hnot : forall u, In u (A :: F ++ L) -> St m (o_off x) = K u -> u = A).
    { intros u Hu E. destruct Hcase as [Eo|E']; [exfalso; apply (word_mval C HC u (Hnum u Hu)); rewrite <- E, Eo; exact Hold|]. eapply K_neq; [exact O1|exact Hnum|exact Hu|left; reflexivity|congruence]. }
    assert (Hku : forall u j, In u (A :: F ++ L) -> u <> A -> (St m2 j = K u <-> St m j = K u)).
    { intros u j Hu Hn'. destruct (N.eq_dec j (o_off x)) as [->|Hj]; [|rewrite Es2 by exact Hj; tauto]. rewrite Esx. split; intros E; exfalso; apply Hn'.
      - eapply K_neq; [exact O1|exact Hnum|exact Hu|left; reflexivity|congruence].
      - apply Hnot; assumption. }
    assert (Hka : forall u j, In u (A :: F ++ L) -> contents m j = K u -> contents m2 j = K u).
    { intros u j Hu E. destruct (N.eq_dec j (o_off x)) as [->|Hj]; [|rewrite Ec2 by exact Hj; exact E]. rewrite (Hnot u Hu) by (apply settled_ref; [apply Hnum, Hu|exact E]). exact Ex2. }
    assert (HFA : forall v, In v F -> v <> A).
    { intros v Hv ->. cbn [map] in O1. apply NoDup_cons in O1 as [O1 _]. apply O1. rewrite elem_of_list_In. apply in_map, in_or_app. left. exact Hv. }
    assert (Hok2 : calls_ok C m2 (A :: F ++ L)).
    { split; [exact O1|exact Hfr| | | |apply (st_co_half m m2 _ A2 Hti Hok Hsm)|].
      - intros j. destruct (N.eq_dec j (o_off x)) as [->|Hj]; [right; exists A; split; [left; reflexivity|exact Esx]|rewrite Es2 by exact Hj; apply O3].
      - intros u j Hu E. destruct (N.eq_dec j (o_off x)) as [->|Hj]; [|rewrite Es2 in E by exact Hj; apply O4; assumption].
        assert (u = A) as -> by (eapply K_neq; [exact O1|exact Hnum|exact Hu|left; reflexivity|congruence]). apply in_map, Hxi.
      - intros u y z' Hu Hy Hz Hyz E. destruct (N.eq_dec (o_off z') (o_off x)) as [Ez'|Hz'].
        + assert (u = A) as -> by (eapply K_neq; [exact O1|exact Hnum|exact Hu|left; reflexivity|rewrite Ez' in E; congruence]).
          apply (Hka A); [left; reflexivity|]. apply Hdone. rewrite Hws in Hy. apply in_app_or in Hy as [Hy|[<-|Hy]]; [exact Hy|lia|]. specialize (Hgt y Hy). lia.
        + rewrite Es2 in E by exact Hz'. apply (Hka u); [exact Hu|]. apply (O5 u y z' Hu Hy Hz Hyz E).
      - intros t u y Ht Hu Hy E. apply (st_co_expects m m2 _ A2 Hti Hok Hsm t u y Ht Hu Hy E). }
    assert (Elg : same (lg m2) (lg m)).
    { intros j. destruct (N.eq_dec j (o_off x)) as [->|Hj]; [|apply without_ext, Es2, Hj].
      rewrite (lg_ref m2 A x); [|apply HinG; left; reflexivity|exact HndA|exact Hxi|exact Esx].
      destruct Hcase as [Eo|E]; [rewrite lg_mval; [congruence|rewrite Eo; exact Hold]|symmetry; apply (lg_ref m A x); [apply HinG; left; reflexivity|exact HndA|exact Hxi|exact E]]. }
    assert (W2 : went [A] F L m [] L m2).
    { apply went_nil; [exact A2|exact Hok2| | |exact Elg|exact Hhb].
      - intros v j Hv. apply Hku; [right; apply in_or_app; left; exact Hv|apply HFA, Hv].
      - intros v j Hv. apply Hka. destruct Hv as [<-|Hv]; [left; reflexivity|right; apply in_or_app; left; exact Hv]. }
    replace (S (length done)) with (length (done ++ [x])) by (rewrite app_length; cbn; lia).
    eapply (IH (length rest + length L)%nat ltac:(lia) (S (S n)) A F L (done ++ [x]) rest eq_refl lo); [exact Hk|lia|exact Hn2|exact Hok2|exact Hti2|exact HinG|rewrite <- app_assoc; exact Hws| | | | |].
    + intros y Hy. apply in_app_or in Hy as [Hy|[<-|[]]]; [apply (Hka A); [left; reflexivity|apply Hdone, Hy]|exact Ex2].
    + intros v j Hv E. apply (Hlo v j Hv). apply Hku; [right; apply in_or_app; left; exact Hv|apply HFA, Hv|exact E].
    + intros y Hy. apply Hrest. right. exact Hy.
    + lia.
    + intros st D L' m' W Est Hst Hq. apply (H st D L' m'); [|exact Est|exact Hst|cbn [length]; lia].
      apply (went_trans [A] F L m [] L m2 D L' m'); [|exact W2|exact W]. cbn [map] in O1. apply NoDup_cons in O1 as [_ O1]. rewrite map_app in O1. apply NoDup_app in O1 as (_ & _ & O1). exact O1.
  - (* the word refers to another call *)
    intros u Hun Htid Eu.
    destruct (O3 (o_off x)) as [V|(B & HB & EB)]; [exfalso; apply (word_mval C HC u Hun); rewrite <- Eu; exact V|].
    assert (EKK : K u = K B) by congruence.
    assert (Eref : ref u = ref B).
    { destruct Hun as [U1 U2]. destruct (Hnum B HB) as [B1 B2]. destruct (K_facts C HC _ _ U1 U2) as (_ & _ & _ & D1). destruct (K_facts C HC _ _ B1 B2) as (_ & _ & _ & D2).
      unfold c_word in EKK. rewrite EKK, D2 in D1. symmetry. exact D1. }
    rewrite Eref. assert (HBA : B <> A) by (intros ->; injection Eref; congruence).
    assert (HBL : In B L).
    { destruct HB as [E|HB]; [congruence|]. apply in_app_or in HB as [HB|HB]; [|exact HB]. exfalso. specialize (Hlo B _ HB EB). lia. }
    assert (Ex2 : contents m2 (o_off x) = St m (o_off x)).
    { rewrite E2. destruct (N.eqb_spec (St m (o_off x)) (o_old x)) as [E|E]; [|reflexivity]. exfalso. apply (word_mval C HC u Hun). rewrite <- Eu, E. exact Hold. }
    assert (Es : same (St m) (St m2)) by (intros j; destruct (N.eq_dec j (o_off x)) as [->|Hj]; [congruence|symmetry; apply Es2, Hj]).
    assert (Hka : forall w j, num_ok C w -> contents m j = K w -> contents m2 j = K w).
    { intros w j Hw E. destruct (N.eq_dec j (o_off x)) as [->|Hj]; [|rewrite Ec2 by exact Hj; exact E]. rewrite Ex2. apply settled_ref; assumption. }
    assert (Elg : same (lg m2) (lg m)) by (intros j; apply without_ext; symmetry; apply Es).
    destruct (in_split B L HBL) as (La & Lb & EL). set (L1 := La ++ Lb). assert (Hp1 : Permutation L (B :: L1)) by (rewrite EL; symmetry; apply Permutation_middle).
    assert (HlenL : length L = S (length L1)) by (rewrite (Permutation_length Hp1); reflexivity).
    assert (HwL : words_in L = (S (length (c_ws B)) + words_in L1)%nat) by (rewrite (words_perm _ _ Hp1); reflexivity).
    assert (Hp2 : Permutation (A :: F ++ L) (B :: (A :: F) ++ L1)).
    { rewrite Hp1. cbn [app]. rewrite <- Permutation_middle. apply perm_swap. }
    assert (Hok2 : calls_ok C m2 (A :: F ++ L)) by (apply (ok_eq m); [exact A2|exact Hti|exact Hsm|exact Es|intros w j Hw; apply Hka, Hnum, Hw|exact Hok]).
    apply mwp_bind. destruct k as [|k]; [lia|].
    apply (IHk k (Nat.lt_succ_diag_r k) n2 B (A :: F) L1); [lia|lia|eapply ok_perm; [exact Hp2|exact Hok2]|exact Hti2| |rewrite Ex2; exact EB| |lia|].
    { intros w Hw. apply HinG. eapply Permutation_in; [apply Permutation_sym, Hp2|exact Hw]. }
    { intros v j Hv E. rewrite <- Es in E. destruct Hv as [<-|Hv]; [|specialize (Hlo v j Hv E); lia].
      pose proof (O4 A j (or_introl eq_refl) E) as Hj. apply in_map_iff in Hj as (y & <- & Hy). destruct (N.lt_trichotomy (o_off y) (o_off x)) as [F1|[F1|F1]]; [lia|lia|exfalso].
      pose proof (O5 A x y (or_introl eq_refl) Hxi Hy F1 E) as E'. apply settled_ref in E'; [|apply Hnum; left; reflexivity]. apply HBA. eapply K_neq; [exact O1|exact Hnum|right; apply in_or_app; right; exact HBL|left; reflexivity|congruence]. }
    intros r D L' m3 [V1 V2 V3 V4 V5 V6 V7 V8] _ Hq3.
    assert (W3 : went [A] F L m (D ++ [B]) L' m3).
    { apply (went_trans [A] F L m [] L m2 (D ++ [B]) L' m3).
      - cbn [map] in O1. apply NoDup_cons in O1 as [_ O1]. rewrite map_app in O1. apply NoDup_app in O1 as (_ & _ & O1). exact O1.
      - apply went_nil; [exact A2|exact Hok2|intros v j _; rewrite Es; tauto| |exact Elg|exact Hhb]. intros v j Hv. apply Hka, Hnum. destruct Hv as [<-|Hv]; [left; reflexivity|right; apply in_or_app; left; exact Hv].
      - split; [rewrite Hp1; exact V1|exact V2|intros v j Hv; apply V3; right; exact Hv|exact V4|exact V5|exact V6|exact V7|exact V8]. }
    apply wpa_retry.
    { rewrite (cb_plain _ _ _ V7); [rewrite Hc2|apply cells_plain; exact I|exact I]. apply N.ltb_lt. rewrite Hws, app_length. cbn. lia. }
    assert (HwD : words_in (D ++ [B]) = (words_in D + S (length (c_ws B)))%nat) by (rewrite words_app; cbn; lia).
    assert (HlenL' : words_in L = (words_in (D ++ [B]) + words_in L')%nat) by (rewrite (words_perm _ _ (we_perm _ _ _ _ _ _ _ W3)), words_app; reflexivity).
    assert (Hlen' : length L = (length D + 1 + length L')%nat) by (rewrite (Permutation_length (we_perm _ _ _ _ _ _ _ W3)), !app_length; cbn; lia).
    eapply (IH (length (x :: rest) + length L')%nat ltac:(cbn [length]; lia) (S (S n)) A F L' done (x :: rest) eq_refl lo); [lia|cbn [length]; lia|lia|exact V2|eapply went_tidy; eassumption| |exact Hws| | |exact Hrest| |].
    + intros w Hw. apply HinG. destruct Hw as [<-|Hw]; [left; reflexivity|right]. apply in_app_or in Hw as [Hw|Hw]; apply in_or_app; [left; exact Hw|right].
      eapply Permutation_in; [apply Permutation_sym, (we_perm _ _ _ _ _ _ _ W3)|]. apply in_or_app. right. exact Hw.
    + intros y Hy. apply (we_keep _ _ _ _ _ _ _ W3); [left; reflexivity|apply Hdone, Hy].
    + intros v j Hv E. apply (Hlo v j Hv). apply (we_same _ _ _ _ _ _ _ W3); assumption.
    + cbn [length]. lia.
    + intros st D2 L2 m' W Est Hst Hq. apply (H st ((D ++ [B]) ++ D2) L2 m'); [|exact Est|exact Hst|].
      * eapply went_trans; [|exact W3|exact W]. cbn [map] in O1. apply NoDup_cons in O1 as [_ O1]. rewrite map_app in O1. apply NoDup_app in O1 as (_ & _ & O1). exact O1.
      * rewrite words_app, HwD. cbn [length] in Hq |- *. lia.
  - (* the word has another value *)
    intros V Hne. assert (Ex2 : contents m2 (o_off x) = St m (o_off x)) by (rewrite E2, (proj2 (N.eqb_neq _ _) Hne); reflexivity).
    assert (Es : same (St m) (St m2)) by (intros j; destruct (N.eq_dec j (o_off x)) as [->|Hj]; [congruence|symmetry; apply Es2, Hj]).
    assert (Hka : forall w j, num_ok C w -> contents m j = K w -> contents m2 j = K w).
    { intros w j Hw E. destruct (N.eq_dec j (o_off x)) as [->|Hj]; [|rewrite Ec2 by exact Hj; exact E]. rewrite Ex2. apply settled_ref; assumption. }
    apply (H Failed [] L m2); [| |discriminate|cbn [length words_in]; lia].
    + apply went_nil; [exact A2| |intros v j _; rewrite Es; tauto| |intros j; apply without_ext; symmetry; apply Es|exact Hhb].
      * apply (ok_eq m); [exact A2|exact Hti|exact Hsm|exact Es|intros w j Hw; apply Hka, Hnum, Hw|exact Hok].
      * intros v j Hv. apply Hka, Hnum. destruct Hv as [<-|Hv]; [left; reflexivity|right; apply in_or_app; left; exact Hv].
    + replace (all_match (lg m2) (c_ws A)) with false; [reflexivity|]. symmetry. apply not_true_iff_false. rewrite all_match_iff. intros E. specialize (E x Hxi). rewrite lg_mval in E by (rewrite <- Es; exact V). rewrite <- Es in E. congruence.
Qed.

(** The rest of a call, when the references have been placed. *)
Lemma wpa_tail n B F L D L' m0 (Q : bool -> mem -> Prop) (st : N) (m : mem) : (length (c_ws B) < n)%nat -> NoDup (map c_tid (B :: L)) -> In B G -> (forall u, In u (F ++ L') -> In u G) ->
  went [B] F L m0 D L' m -> tidy C m me -> st = (if all_match (lg m) (c_ws B) then Succeeded else Failed) -> (st = Succeeded -> forall x, In x (c_ws B) -> contents m (o_off x) = K B) ->
  (forall r m', went [] F (B :: L) m0 (D ++ [B]) L' m' -> r = all_match (one_by_one (lg m0) D) (c_ws B) -> wseq m' me = wseq m me -> Q r m') ->
  wp ((if (st =? Succeeded)%N then persist_words C n (c_tid B) 0 else MRet tt) ;;;
      let mOld := kmut_encode (mkKmut false Undecided (c_seq B)) in
      let mNew := kmut_encode (mkKmut true st (c_seq B)) in
      c <-- CASField C (ref B) mOld mNew (LK (c_tid B));;
      m_persist (LK (c_tid B)) mNew ;;;
      if negb (snd c) then MRet false
      else finish C n (ref B) st 0 ;;; MRet (st =? Succeeded)%N)%mprog Q m.
Proof.
  intros Hn Hnd HBG HLG [W1 W2 W3 W4 W5 W6 W7 W8] Hti Est Hst H. cbn [app] in W2. pose proof W2 as [O1 O2 O3 O4 O5 O6 O7].
  pose proof (O2 B (or_introl eq_refl)) as HB. pose proof HB as [P1 P2 P3 P4 P5 P6 P7]. pose proof (ok_nodup _ _ HB) as HndB.
  assert (Hnum : forall u, In u (B :: F ++ L') -> num_ok C u) by (intros u [<-|Hu]; apply HGok; [exact HBG|apply HLG, Hu]).
  set (r := all_match (lg m) (c_ws B)) in *. rewrite Est. assert (Hr : r = true -> forall x, In x (c_ws B) -> contents m (o_off x) = K B) by (intros E; apply Hst; rewrite Est, E; reflexivity).
  apply (wpx_tail C HC (c_tid B) (c_seq B) P1 P2 n (c_ws B) r); [exact Hn|exact P3|exact P4|intros i x Hx; apply P5, Hx|exact HndB|exact P7|].
  intros m' A' Ek' E'. assert (HKB : ~ mval (K B)) by (apply (word_mval C HC), Hnum; left; reflexivity).
  assert (HBn : num_ok C B) by (apply Hnum; left; reflexivity). pose proof (ok_halves _ _ W2) as Hh.
  assert (A1 : cleaned_but (cells [B]) m m').
  { eapply cleaned_weaken; [|exact A']. intros l [(x & _ & ->)| ->]; [right; left; eexists; reflexivity|right; right; exists B; split; [left; reflexivity|reflexivity]]. }
  assert (Ep : forall j, contents m j <> K B -> contents m' j = contents m j).
  { intros j Hj. destruct (in_dec N.eq_dec j (map o_off (c_ws B))) as [Hi|Hi].
    - apply in_map_iff in Hi as (x & <- & Hx). rewrite E' by exact Hx. rewrite (proj2 (N.eqb_neq _ _)) by exact Hj. reflexivity.
    - apply (cb_contents _ _ _ A'). intros [(x & Hx & E)|E]; [|discriminate]. injection E as ->. apply Hi, in_map, Hx. }
  assert (Epi : forall x, In x (c_ws B) -> contents m (o_off x) = K B -> contents m' (o_off x) = if r then o_new x else o_old x).
  { intros x Hx E. rewrite E' by exact Hx. rewrite E. unfold c_word. rewrite N.eqb_refl. reflexivity. }
  assert (Hpv : forall j, contents m j = K B -> mval (contents m' j)).
  { intros j E. pose proof (O4 B j (or_introl eq_refl) (settled_ref m j B HBn E)) as Hj. apply in_map_iff in Hj as (x & <- & Hx). rewrite Epi by assumption. destruct r; apply P7, Hx. }
  assert (Hsm : smooth m m').
  { intros j. destruct (N.eq_dec (contents m j) (K B)) as [E|E]; [right; apply mval_marked, Hpv, E|left; apply Ep, E]. }
  assert (Hhb : forall t j, half_installed C m' t j -> half_installed C m t j) by (intros t j Ht; apply (st_back m m' t j Hh Hsm Ht)).
  destruct (kenc_facts (if r then Succeeded else Failed) (c_seq B) ltac:(destruct r; reflexivity) (seq_61 _ _ HC P2)) as (Dk & _).
  assert (Hks' : kseq m' (c_tid B) = c_seq B). { change (sq (m' (LK (c_tid B))) = c_seq B). rewrite <- sq_clean, Ek'. unfold sq. rewrite Dk. reflexivity. }
  assert (Hkt' : kstat m' (c_tid B) = if r then Succeeded else Failed). { change (stt (m' (LK (c_tid B))) = if r then Succeeded else Failed). rewrite <- stt_clean, Ek'. unfold stt. rewrite Dk. reflexivity. }
  destruct (kenc_facts Undecided (c_seq B) eq_refl (seq_61 _ _ HC P2)) as (Du & _).
  assert (Hks : kseq m (c_tid B) = c_seq B). { change (sq (m (LK (c_tid B))) = c_seq B). rewrite <- sq_clean, P3. unfold sq. fold (kenc Undecided (c_seq B)). rewrite Du. reflexivity. }
  assert (Hkt : kstat m (c_tid B) = Undecided). { change (stt (m (LK (c_tid B))) = Undecided). rewrite <- stt_clean, P3. unfold stt. fold (kenc Undecided (c_seq B)). rewrite Du. reflexivity. }
  (* a word that was half installed for this call has its value again *)
  assert (Hhalf : forall t j, half_installed C m t j -> m (LWTid t) = c_tid B -> St m' j = m (LWWord t WOld) /\ (St m j = K B \/ St m j = m (LWWord t WOld))).
  { intros t j Ht Et. assert (Htm : t <> me) by (intros ->; apply (Hti j Ht)). assert (Ec : contents m' j = contents m j).
    { apply Ep. intros E. pose proof (half_marked _ _ _ Ht) as Hm. rewrite E, ref_marked in Hm by exact HBn. discriminate Hm. }
    pose proof (st_half [B] m m' A1 Hti t j Ec Ht) as Ht'. rewrite (half_settled _ _ _ Ht), (half_settled _ _ _ Ht'). unfold outcome, under_way.
    rewrite (st_kseq [B] m m' A1), (st_ktid [B] m m' A1), (st_word [B] m m' A1) by exact Htm. rewrite Et, Hkt', Hkt, Hks. split.
    - destruct r; rewrite andb_false_r; reflexivity.
    - rewrite N.eqb_refl, andb_true_r. destruct (N.eqb_spec (m (LWSeq t)) (c_seq B)) as [->|_]; [left|right]; reflexivity. }
  assert (Hother : forall j, contents m j <> K B -> (forall t, half_installed C m t j -> m (LWTid t) <> c_tid B) -> St m' j = St m j).
  { intros j Hj Hn'. apply (st_settled [B] m m' A1 Hti); [exact Hh|apply Ep, Hj|]. intros t Ht [E|[]]. apply (Hn' t Ht). congruence. }
  assert (Hdec : forall j, (exists t, half_installed C m t j /\ m (LWTid t) = c_tid B) \/ forall t, half_installed C m t j -> m (LWTid t) <> c_tid B).
  { intros j. destruct (isMarked (contents m j) RDCSSFlag) eqn:Em; [|right; intros t Ht; apply half_marked in Ht; congruence]. destruct (Hh j Em) as (t & Ht).
    destruct (N.eq_dec (m (LWTid t)) (c_tid B)) as [E|E]; [left; exists t; split; assumption|right]. intros t' Ht'. rewrite <- (half_unique m m t t' j Ht Ht' eq_refl). exact E. }
  assert (Eo : forall j, St m j <> K B -> St m' j = St m j).
  { intros j Hj. destruct (Hdec j) as [(t & Ht & Et)|Hn'].
    - destruct (Hhalf t j Ht Et) as [-> [E|E]]; [contradiction|congruence].
    - apply Hother; [|exact Hn']. intros E. apply Hj, settled_ref; assumption. }
  assert (Ei : forall x, In x (c_ws B) -> St m (o_off x) = K B -> St m' (o_off x) = if r then o_new x else o_old x).
  { intros x Hx E. destruct (N.eq_dec (contents m (o_off x)) (K B)) as [Ec|Ec].
    - rewrite settled_unmarked; [apply Epi; assumption|]. apply mval_marked, Hpv, Ec.
    - destruct r; [exfalso; apply Ec, Hr; [reflexivity|exact Hx]|]. destruct (isMarked (contents m (o_off x)) RDCSSFlag) eqn:Em; [|rewrite settled_unmarked in E by exact Em; contradiction].
      destruct (Hdec (o_off x)) as [(t & Ht & Et)|Hn'].
      + destruct (Hhalf t _ Ht Et) as [-> _]. apply (O7 t B x Ht (or_introl eq_refl) Hx E).
      + exfalso. destruct (Hh _ Em) as (t & Ht). apply (Hn' t Ht). rewrite (half_settled _ _ _ Ht) in E. unfold outcome in E. destruct (O6 _ Em) as (t' & Ht' & V & _).
        rewrite <- (half_unique m m t t' _ Ht Ht' eq_refl) in V. destruct (under_way m t); [|exfalso; apply HKB; rewrite <- E; exact V].
        destruct (Ht) as ([_ _ _ T4 T5 _] & _). apply (word_inj C HC (mkPcall (m (LWTid t)) (m (LWSeq t)) []) B); [split; assumption|exact HBn|exact E]. }
  assert (Hv : forall j, St m j = K B -> mval (St m' j)).
  { intros j E. pose proof (O4 B j (or_introl eq_refl) E) as Hj. apply in_map_iff in Hj as (x & <- & Hx). rewrite Ei by assumption. destruct r; apply P7, Hx. }
  assert (HnB : forall u, In u (F ++ L') -> c_tid u <> c_tid B).
  { intros u Hu E. cbn [map] in O1. apply NoDup_cons in O1 as [O1 _]. apply O1. rewrite elem_of_list_In, <- E. apply in_map, Hu. }
  assert (HKu : forall u, In u (F ++ L') -> K u <> K B).
  { intros u Hu E. apply (HnB u Hu). apply (word_inj C HC); [apply Hnum; right; exact Hu|apply Hnum; left; reflexivity|exact E]. }
  assert (Hku : forall u j, In u (F ++ L') -> (St m' j = K u <-> St m j = K u)).
  { intros u j Hu. destruct (N.eq_dec (St m j) (K B)) as [E|E]; [|rewrite Eo by exact E; tauto]. split; intros E1; exfalso.
    - apply (word_mval C HC u); [apply Hnum; right; exact Hu|]. rewrite <- E1. apply Hv, E.
    - apply (HKu u Hu). congruence. }
  assert (Hkp : forall u j, In u (F ++ L') -> contents m j = K u -> contents m' j = K u).
  { intros u j Hu E. rewrite Ep; [exact E|]. rewrite E. apply HKu, Hu. }
  assert (HDB : forall u, In u D -> c_tid u <> c_tid B).
  { intros u Hu E. cbn [map] in Hnd. apply NoDup_cons in Hnd as [Hnd _]. apply Hnd. rewrite elem_of_list_In, <- E. apply in_map. eapply Permutation_in; [apply Permutation_sym, W1|]. apply in_or_app. left. exact Hu. }
  assert (Elg : same (lg m') (snd (mspec (lg m) (MwCas (c_ws B))))).
  { intros j. apply snd_mspec; [exact HndB| |].
    - intros Hj. apply without_ext, Eo. intros E. apply Hj, (O4 B j (or_introl eq_refl) E).
    - intros x Hx <-. fold r. destruct (N.eq_dec (St m (o_off x)) (K B)) as [E|E].
      + specialize (Ei x Hx E). rewrite lg_mval by (apply Hv, E). rewrite Ei. destruct r; [reflexivity|]. symmetry. eapply lg_ref; eassumption.
      + destruct r; [exfalso; apply E, settled_ref; [exact HBn|]; apply Hr; [reflexivity|exact Hx]|]. apply without_ext, Eo, E. }
  assert (Er : r = all_match (one_by_one (lg m0) D) (c_ws B)) by (unfold r; apply same_match, W5).
  apply (H r m'); [|exact Er|].
  2: { apply (cb_wseq _ _ _ A'). intros [(? & _ & ?)|?]; discriminate. }
  split.
  - rewrite <- app_assoc. cbn [app]. rewrite <- Permutation_middle. apply perm_skip. exact W1.
  - cbn [app]. split.
    + cbn [map] in O1. apply NoDup_cons in O1 as [_ O1]. exact O1.
    + intros u Hu. eapply ok_frame; [exact A1| |apply O2; right; exact Hu]. intros [E|[]]. apply (HnB u Hu). congruence.
    + intros j. destruct (N.eq_dec (St m j) (K B)) as [E|E]; [left; apply Hv, E|]. rewrite Eo by exact E. destruct (O3 j) as [V|(u & [<-|Hu] & Eu)]; [left; exact V|contradiction|right; exists u; split; assumption].
    + intros u j Hu E. apply O4; [right; exact Hu|]. apply Hku; assumption.
    + intros u x y Hu Hx Hy Hxy E. apply Hkp; [exact Hu|]. apply (O5 u x y); [right; exact Hu|exact Hx|exact Hy|exact Hxy|]. apply Hku; assumption.
    + intros j Em. destruct (Hsm j) as [E|E]; [|congruence]. rewrite E in Em. destruct (O6 j Em) as (t & Ht & V & Hq). exists t. assert (Htm : t <> me) by (intros ->; apply (Hti j Ht)).
      split; [apply (st_half [B] m m' A1 Hti t j E Ht)|]. rewrite (st_word [B] m m' A1), (st_kseq [B] m m' A1), (st_ktid [B] m m' A1) by exact Htm. split; [exact V|].
      destruct (N.eq_dec (m (LWTid t)) (c_tid B)) as [Et|Et]; [rewrite Et in Hq |- *; congruence|]. rewrite (cb_kseq _ _ _ A1); [exact Hq|]. apply cells_k. intros [E1|[]]. congruence.
    + intros t u x Ht Hu Hx E. destruct (st_back m m' t _ Hh Hsm Ht) as [Ht0 Ec]. assert (Htm : t <> me) by (intros ->; apply (Hti _ Ht0)). rewrite (st_word [B] m m' A1) by exact Htm.
      apply (O7 t u x Ht0); [right; exact Hu|exact Hx|]. apply Hku; assumption.
  - intros v j Hv'. rewrite Hku by (apply in_or_app; left; exact Hv'). apply W3, Hv'.
  - intros v j Hv' E. apply Hkp; [apply in_or_app; left; exact Hv'|]. apply W4; [right; exact Hv'|exact E].
  - rewrite one_app. cbn [one_by_one]. eapply same_trans; [exact Elg|]. apply same_step, W5.
  - apply statuses_app. split.
    + eapply statuses_frame; [|exact W6]. intros u Hu. apply (k_frame [B]); [exact A1|]. intros [E|[]]. apply (HDB u Hu). congruence.
    + cbn [statuses]. rewrite <- Er, Hks', Hkt'. auto.
  - eapply cleaned_trans; (eapply cleaned_weaken; [|eassumption]); intros l; apply cells_more; intros u Hu; apply in_or_app; auto.
  - intros t j Ht. apply W8, Hhb, Ht.
Qed.

Lemma call_step k : place_claim k -> call_claim k.
Proof.
  intros Hpl n B F L a Q m Hk Hn Hok Hti HinG Ha Hlo Hsq H. pose proof Hok as [O1 O2 O3 O4 O5 O6 O7].
  pose proof (O2 B (or_introl eq_refl)) as HB. pose proof HB as [P1 P2 P3 P4 P5 P6 P7]. pose proof (HinG B (or_introl eq_refl)) as HBG. pose proof (HM B HBG) as HlenB.
  destruct n as [|n]; [lia|]. cbn [pmwcas d_tid d_seq call_ref]. change (mkDesc false true false (c_seq B) (c_tid B)) with (ref B).
  apply mwp_bind, wph_thread; [exact P1|]. apply mwp_bind. pose proof (HGok B HBG) as HBn. pose proof (O4 B a (or_introl eq_refl) (settled_ref m a B HBn Ha)) as Hin.
  apply (wpx_find C (c_tid B) n a (c_ws B) 0); [lia|exact P4|intros i x Hx; apply P5, Hx|intros x Hx; apply P7, Hx| |exact Hin].
  intros i x Hx Ex. cbn [Nat.add]. apply mwp_bind. pose proof (nth_error_In _ _ Hx) as Hxi.
  assert (Hi : (i < length (c_ws B))%nat) by (apply nth_error_Some; congruence).
  assert (Hsplit : c_ws B = firstn (S i) (c_ws B) ++ skipn (S i) (c_ws B)) by (symmetry; apply firstn_skipn).
  replace (S i) with (length (firstn (S i) (c_ws B))) at 1 by (rewrite firstn_length; lia).
  assert (Hlast : nth_error (firstn (S i) (c_ws B)) i = Some x).
  { rewrite <- Hx at 1. rewrite Hsplit at 2. rewrite nth_error_app1; [reflexivity|]. rewrite firstn_length. lia. }
  assert (Hxf : In x (firstn (S i) (c_ws B))) by (apply (nth_error_In _ _ Hlast)).
  apply (Hpl n n B F L (firstn (S i) (c_ws B)) (skipn (S i) (c_ws B)) (a + 1)); [exact Hk| |lia|exact Hok|exact Hti|exact HinG|exact Hsplit| |exact Hlo| | |].
  - rewrite skipn_length. lia.
  - intros y Hy. destruct (N.eq_dec (o_off y) (o_off x)) as [E|E]; [rewrite E, Ex; exact Ha|].
    assert (Hyl : o_off y < o_off x).
    { apply In_nth_error in Hy as (i' & Hi'). assert (Hil : (i' < S i)%nat) by (apply (Nat.lt_le_trans _ (length (firstn (S i) (c_ws B)))); [apply nth_error_Some; congruence|rewrite firstn_length; lia]).
      assert (i' <> i) by (intros ->; congruence). assert (Hy' : nth_error (c_ws B) i' = Some y) by (rewrite Hsplit, nth_error_app1; [exact Hi'|apply nth_error_Some; congruence]).
      destruct (nth_error_split _ _ Hx) as (l1 & l2 & El & Ell). rewrite El in P6, Hy'. apply (sorted_split l1 (x :: l2)); [exact P6| |left; reflexivity].
      rewrite nth_error_app1 in Hy' by lia. apply (nth_error_In _ _ Hy'). }
    apply (O5 B y x); [left; reflexivity|rewrite Hsplit; apply in_or_app; left; exact Hy|exact Hxi|exact Hyl|rewrite Ex; apply settled_ref; [exact HBn|exact Ha]].
  - intros y Hy. rewrite Hsplit in P6. pose proof (sorted_split _ _ x y P6 Hxf Hy). lia.
  - rewrite skipn_length. lia.
  - intros st D L' m1 W Est Hst Hq. apply (wpa_tail n B F L D L' m); [lia| |exact HBG| |exact W|eapply went_tidy; eassumption|exact Est|exact Hst|].
    + cbn [map] in O1 |- *. rewrite map_app in O1. apply NoDup_cons in O1 as [O0 O1]. apply NoDup_app in O1 as (_ & _ & O1). apply NoDup_cons. split; [|exact O1].
      intros Hc. apply O0. rewrite elem_of_app. right. exact Hc.
    + intros u Hu. apply HinG. right. apply in_app_or in Hu as [Hu|Hu]; apply in_or_app; [left; exact Hu|right]. eapply Permutation_in; [apply Permutation_sym, (we_perm _ _ _ _ _ _ _ W)|]. apply in_or_app. right. exact Hu.
    + intros r m' W' Er Eq. apply (H r D L' m'); [exact W'|exact Er|]. rewrite Eq. rewrite skipn_length in Hq. lia.
Qed.
Lemma claims k : place_claim k /\ call_claim k.
Proof.
  induction (lt_wf k) as [k _ IH]. assert (Hp : place_claim k) by (apply place_step; intros k' Hk'; apply IH, Hk'). split; [exact Hp|apply call_step, Hp].
Qed.

(** A call from its start. *)
Lemma wpa_call n A L (Q : bool -> mem -> Prop) (m : mem) : (M + length L + 3 <= n)%nat -> calls_ok C m (A :: L) -> tidy C m me -> (forall u, In u (A :: L) -> In u G) ->
  wseq m me + 2 * N.of_nat (length (c_ws A) + words_in L) < 2 ^ seqSize P ->
  (forall r D L' m', went [] [] (A :: L) m (D ++ [A]) L' m' -> Permutation L (D ++ L') -> r = all_match (one_by_one (lg m) D) (c_ws A) ->
     wseq m' me <= wseq m me + 2 * N.of_nat (length (c_ws A) + words_in D) -> Q r m') ->
  wp (pmwcas C n me (ref A) None) Q m.
Proof.
  intros Hn Hok Hti HinG Hsq H. pose proof Hok as [O1 O2 O3 O4 O5 O6 O7].
  pose proof (O2 A (or_introl eq_refl)) as HA. pose proof HA as [P1 P2 P3 P4 P5 P6 P7]. pose proof (HinG A (or_introl eq_refl)) as HAG. pose proof (HM A HAG) as HlenA.
  destruct n as [|n]; [lia|]. cbn [pmwcas d_tid d_seq call_ref]. change (mkDesc false true false (c_seq A) (c_tid A)) with (ref A).
  apply mwp_bind, wph_thread; [exact P1|]. apply mwp_bind. cbn [mwp]. apply mwp_bind.
  apply (proj1 (claims (length L)) n n A [] L [] (c_ws A) 0); [lia|lia|lia|exact Hok|exact Hti|exact HinG|reflexivity|intros x []|intros v j []|intros; lia|exact Hsq|].
  intros st D L' m1 W Est Hst Hq. apply (wpa_tail n A [] L D L' m); [lia|exact O1|exact HAG| |exact W|eapply went_tidy; eassumption|exact Est|exact Hst|].
  - intros u Hu. apply HinG. right. eapply Permutation_in; [apply Permutation_sym, (we_perm _ _ _ _ _ _ _ W)|]. apply in_or_app. right. exact Hu.
  - intros r m' W' Er Eq. apply (H r D L' m'); [exact W'|apply (we_perm _ _ _ _ _ _ _ W)|exact Er|]. rewrite Eq. exact Hq.
Qed.

(** Reading a word, and the compare-and-swap of one word. *)
Lemma went_step L m m' : calls_ok C m L -> tidy C m me -> (forall u, In u L -> num_ok C u) -> cleaned_but (cells []) m m' -> smooth m m' -> same (St m) (St m') ->
  (forall u j, In u L -> contents m j = K u -> contents m' j = K u) -> went [] [] L m [] L m'.
Proof.
  intros Hok Hti Hnum A Hsm Es Hk. apply went_nil; [exact A|apply (ok_eq m); assumption|intros v j []|intros v j []|intros j; apply without_ext; symmetry; apply Es|].
  intros t j Ht. apply (st_back m m' t j (ok_halves _ _ Hok) Hsm Ht).
Qed.
Lemma went_clean L m m' : calls_ok C m L -> tidy C m me -> (forall u, In u L -> num_ok C u) -> cleaned m m' -> went [] [] L m [] L m' /\ same (contents m) (contents m').
Proof.
  intros Hok Hti Hnum A. assert (A' : cleaned_but (cells []) m m') by (apply cleaned_any, A). assert (Ec : same (contents m) (contents m')) by (intros j; symmetry; apply (cb_contents _ _ _ A); tauto).
  split; [|exact Ec]. apply went_step; [exact Hok|exact Hti|exact Hnum|exact A'|apply same_smooth, Ec|eapply same_settled; eassumption|intros u j _; rewrite Ec; auto].
Qed.
(** A word that is not half installed. *)
Lemma at_word m L j : calls_ok C m L -> isMarked (contents m j) RDCSSFlag = false -> mval (contents m j) \/ exists u L1, contents m j = K u /\ In u L /\ Permutation L (u :: L1).
Proof.
  intros Hok Em. destruct (co_array _ _ _ Hok j) as [V|(u & Hu & E)]; rewrite settled_unmarked in * by exact Em; [left; exact V|right].
  destruct (in_split u L Hu) as (La & Lb & ->). exists u, (La ++ Lb). split; [exact E|]. split; [exact Hu|symmetry; apply Permutation_middle].
Qed.
Lemma went_unmarked L m D L' m' j : went [] [] L m D L' m' -> isMarked (contents m j) RDCSSFlag = false -> isMarked (contents m' j) RDCSSFlag = false.
Proof.
  intros W Em. destruct (isMarked (contents m' j) RDCSSFlag) eqn:E; [|reflexivity]. destruct (co_half _ _ _ (we_ok _ _ _ _ _ _ _ W) j E) as (t & Ht & _).
  apply (we_half _ _ _ _ _ _ _ W), half_marked in Ht. congruence.
Qed.
Lemma wpa_help1 n u L1 L m (Q : bool -> mem -> Prop) : (M + length L + 2 <= n)%nat -> Permutation L (u :: L1) -> calls_ok C m L -> tidy C m me -> (forall w, In w L -> In w G) ->
  wseq m me + 2 * N.of_nat (words_in L) < 2 ^ seqSize P ->
  (forall r D L' m', went [] [] L m D L' m' -> (length L' < length L)%nat -> wseq m' me + 2 * N.of_nat (words_in L') < 2 ^ seqSize P -> Q r m') ->
  wp (pmwcas C n me (ref u) None) Q m.
Proof.
  intros Hn Hp Hok Hti HG' Hsq H. pose proof (Permutation_length Hp) as Hlen. pose proof (words_perm _ _ Hp) as Hw. cbn [length words_in] in Hlen, Hw.
  apply (wpa_call n u L1); [lia|eapply ok_perm; eassumption|exact Hti|intros w Hw'; apply HG'; eapply Permutation_in; [apply Permutation_sym, Hp|exact Hw']|lia|].
  intros r D L' m' [W1 W2 W3 W4 W5 W6 W7 W8] Hp' _ Hq. pose proof (Permutation_length Hp') as Hl. rewrite app_length in Hl. pose proof (words_perm _ _ Hp') as Hw'. rewrite words_app in Hw'.
  apply (H r (D ++ [u]) L' m'); [|lia|lia]. split; try assumption. rewrite Hp. exact W1.
Qed.
Lemma ok_nodup_tids m L : calls_ok C m L -> NoDup (map c_tid L).
Proof. intros H. apply H. Qed.
Lemma went_in L m D L' m' : went [] [] L m D L' m' -> (forall w, In w L -> In w G) -> forall w, In w L' -> In w G.
Proof. intros W HG' w Hw. apply HG'. eapply Permutation_in; [apply Permutation_sym, (we_perm _ _ _ _ _ _ _ W)|]. apply in_or_app. right. exact Hw. Qed.

(** To complete a word that is half installed. *)
Lemma settle L m t j m' : calls_ok C m L -> tidy C m me -> (forall w, In w L -> In w G) -> half_installed C m t j -> cleaned_but (at_arr j) m m' -> contents m' j = outcome C m t ->
  went [] [] L m [] L m' /\ isMarked (contents m' j) RDCSSFlag = false.
Proof.
  intros Hok Hti HG' Ht B E. rewrite <- (half_settled _ _ _ Ht) in E. assert (Hnum : forall w, In w L -> num_ok C w) by (intros w Hw; apply HGok, HG', Hw).
  assert (Hu : isMarked (contents m' j) RDCSSFlag = false).
  { rewrite E. destruct (co_array _ _ _ Hok j) as [V|(u & Hu & ->)]; [apply mval_marked, V|apply ref_marked, Hnum, Hu]. }
  split; [|exact Hu]. assert (A : cleaned_but (cells []) m m') by (eapply cleaned_weaken; [|exact B]; intros l Hl; right; left; exists j; exact Hl).
  assert (Ec : forall i, i <> j -> contents m' i = contents m i) by (intros i Hi; apply (cb_contents _ _ _ B); intros F; injection F; exact Hi).
  apply went_step; [exact Hok|exact Hti|exact Hnum|exact A| | |].
  - intros i. destruct (N.eq_dec i j) as [->|Hi]; [right; exact Hu|left; apply Ec, Hi].
  - intros i. destruct (N.eq_dec i j) as [->|Hi]; [rewrite (settled_unmarked m') by exact Hu; symmetry; exact E|]. symmetry. apply (st_settled [] m m' A Hti); [apply (ok_halves _ _ Hok)|apply Ec, Hi|intros ? _ []].
  - intros u i Hu' F. destruct (N.eq_dec i j) as [->|Hi]; [|rewrite Ec by exact Hi; exact F]. apply half_marked in Ht. rewrite F, ref_marked in Ht by (apply Hnum, Hu'). discriminate Ht.
Qed.
(** A reference that was read with the dirty bit is not found; but the bit is cleared. *)
Lemma wp_complete_dirty s t (Q : bool -> mem -> Prop) (m : mem) : word_ok C m t -> s < 2 ^ seqSize P ->
  (forall m', cleaned m m' -> m' (LArr (m (LWWord t WOff))) = contents m (m (LWWord t WOff)) -> Q false m') -> wp (completeInstall C (mkDesc true false true s t)) Q m.
Proof.
  intros Hw Hs H. destruct (Hw) as [H1 H2 H3 H4 H5 H6]. set (j := m (LWWord t WOff)) in *. unfold completeInstall. cbn [d_tid].
  apply mwp_bind, wph_thread; [exact H1|]. do 3 (apply mwp_bind, mwp_load; [exact I|]).
  rewrite (N.mod_small (m (LWSeq t))) by exact H5. rewrite (N.mod_small (m (LWTid t))) by (apply tidSize_fits; exact H4).
  apply mwp_bind, wph_thread; [exact H4|]. apply mwp_bind, wph_readField; [eexists; eexists; right; reflexivity|exact H4|exact I|].
  intros m1 E1. cbn [fst snd]. assert (Hf : desc_fits P (mkDesc true false true s t)) by (split; [exact Hs|apply tidSize_fits; exact H1]).
  destruct (desc_flags (m_log C) _ HC Hf) as (F0 & _ & F2). cbn [d_isDirty d_isRDCSS] in F0, F2. set (e := desc_encode P (mkDesc true false true s t)) in *.
  change (isMarked e DirtyFlag = true) in F0. change (isMarked e RDCSSFlag = true) in F2.
  apply mwp_bind, mwp_assert; [exact F2|]. do 2 (apply mwp_bind, mwp_load; [exact I|]).
  pose proof (cleaned_any in_arr _ _ E1) as A1. rewrite !(ca_wword m m1 A1). fold j. apply mwp_bind, wpa_address; [exact H3|]. apply mwp_bind. unfold CASField.
  apply mwp_bind, mwp_read; [exact I|]. intros m2 Ho2 G2. apply mwp_bind. change (getSeq C (mkDesc true false true s t)) with (getSeq C (word_ref s t)).
  apply wph_getSeq; [eexists; eexists; left; reflexivity|exact H1|]. intros m3 E3.
  assert (E12 : cleaned m1 m2) by (intros l; right; destruct (decide (LArr j = l)) as [<-|Hn]; [right; split; [exact G2|exact Logic.I]|left; apply Ho2, Hn]).
  assert (Em3 : m3 (LArr j) = contents m j).
  { unfold contents. rewrite <- (cb_clean _ _ _ E1 (LArr j)) by exact (fun x => x). destruct (E3 (LArr j)) as [[]|[->|[-> _]]]; rewrite G2; [reflexivity|apply clean_clean]. }
  assert (E13 : cleaned m m3) by (eapply cleaned_trans; [exact E1|eapply cleaned_trans; [exact E12|exact E3]]).
  destruct (negb _); [cbn [mwp fst]; apply H; assumption|].
  replace (clean (m1 (LArr j)) =? e) with false; [cbn [negb mwp fst]; apply H; assumption|]. symmetry. apply N.eqb_neq. intros E. rewrite isMarked_dirty, <- E, clean_spec in F0. rewrite andb_false_r in F0. discriminate F0.
Qed.
Lemma raw_decode m t j : half_installed C m t j -> desc_decode P (m (LArr j)) = mkDesc (isMarked (m (LArr j)) DirtyFlag) false true (wseq m t) t.
Proof.
  intros Ht. apply half_decode in Ht. unfold contents, desc_decode in *. rewrite (field_clean _ 1), (field_clean _ 2), (field_clean _ 3), (field_clean _ (seqSize P + 1 + 1 + 1)) in Ht by lia. injection Ht as Ha Hb Hc Hd He. rewrite Hb, Hc, Hd, He. f_equal.
Qed.

Lemma wpa_read0 n : forall L j (Q : N -> mem -> Prop) (m : mem), (M + length L + 3 <= n)%nat -> calls_ok C m L -> tidy C m me -> (forall w, In w L -> In w G) ->
  isMarked (contents m j) RDCSSFlag = false -> wseq m me + 2 * N.of_nat (words_in L) < 2 ^ seqSize P ->
  (forall D L' m', went [] [] L m D L' m' -> mval (contents m' j) -> Q (contents m' j) m') -> wp (PMwCASRead C n me (LArr j)) Q m.
Proof.
  induction n as [|n IH]; intros L j Q m Hn Hok Hti HG' Hum Hsq H; [lia|]. assert (Hnum : forall w, In w L -> num_ok C w) by (intros w Hw; apply HGok, HG', Hw).
  destruct (at_word m L j Hok Hum) as [V|(u & L1 & Ek & Hu & Hp)].
  - apply wp_read_value; [exact V|]. intros m' A. destruct (went_clean L m m' Hok Hti Hnum A) as [W Ec]. rewrite Ec in V |- *. apply (H [] L m' W V).
  - destruct (HGok u (HG' u Hu)) as [U1 U2]. destruct (K_facts C HC _ _ U1 U2) as (Kc & K1 & K2 & Kd). cbn [PMwCASRead]. apply mwp_bind, mwp_load; [exact I|].
    unfold contents, c_word in Ek. rewrite isMarked_rdcss, <- (clean_bit (m (LArr j)) 2), Ek, K2 by discriminate. apply mwp_bind. rewrite isMarked_kcas, K1, Kd.
    assert (Hgo : forall m1, cleaned m m1 -> wp (pmwcas C n me (ref u) None ;;; PMwCASRead C n me (LArr j))%mprog Q m1).
    { intros m1 A. destruct (went_clean L m m1 Hok Hti Hnum A) as [W1 _]. apply mwp_bind.
      apply (wpa_help1 n u L1 L); [lia|exact Hp|exact (we_ok _ _ _ _ _ _ _ W1)|eapply went_tidy; eassumption|exact HG'|rewrite (cb_wseq _ _ _ A) by tauto; exact Hsq|].
      intros r D L' m2 W2 Hl Hq. pose proof (ok_nodup_tids _ _ Hok) as Hnd. pose proof (went_trans [] [] L m [] L m1 D L' m2 Hnd W1 W2) as W12.
      apply (IH L'); [lia|exact (we_ok _ _ _ _ _ _ _ W2)|eapply went_tidy; eassumption|eapply went_in; eassumption|eapply went_unmarked; eassumption|exact Hq|].
      intros D2 L2 m' W3 V. apply (H (D ++ D2) L2 m'); [|exact V]. eapply went_trans; [exact Hnd|exact W12|exact W3]. }
    destruct (isMarked (m (LArr j)) DirtyFlag).
    + apply mwp_persist; [exact I|]. rewrite N.eqb_refl. intros m1 Ho E. apply Hgo. intros l. right. destruct (decide (LArr j = l)) as [<-|Hn']; [right; split; [exact E|exact Logic.I]|left; apply Ho, Hn'].
    + cbn [mwp]. apply Hgo, cleaned_refl.
Qed.
Lemma wpa_read1 n L j (Q : N -> mem -> Prop) (m : mem) : (M + length L + 4 <= n)%nat -> calls_ok C m L -> tidy C m me -> (forall w, In w L -> In w G) ->
  isMarked (m (LArr j)) DirtyFlag = false \/ isMarked (contents m j) RDCSSFlag = false -> wseq m me + 2 * N.of_nat (words_in L) < 2 ^ seqSize P ->
  (forall D L' m', went [] [] L m D L' m' -> mval (contents m' j) -> Q (contents m' j) m') -> wp (PMwCASRead C n me (LArr j)) Q m.
Proof.
  intros Hn Hok Hti HG' Hd Hsq H. destruct (isMarked (contents m j) RDCSSFlag) eqn:Em; [destruct Hd as [Hd|Hd]; [|discriminate Hd]|apply (wpa_read0 n L); try assumption; lia].
  destruct (ok_halves _ _ Hok j Em) as (t & Ht). assert (Htm : t <> me) by (intros ->; apply (Hti j Ht)). destruct n as [|n]; [lia|]. cbn [PMwCASRead]. apply mwp_bind, mwp_load; [exact I|].
  rewrite (raw_decode m t j Ht), Hd. rewrite isMarked_rdcss, <- (clean_bit (m (LArr j)) 2) by discriminate. fold (contents m j). rewrite <- isMarked_rdcss, Em.
  apply mwp_bind, mwp_assert; [cbn [d_tid]; rewrite (proj2 (N.eqb_neq _ _) Htm); reflexivity|]. apply mwp_bind. change (mkDesc false false true (wseq m t) t) with (word_ref (wseq m t) t).
  pose proof Ht as (Hw & Hj & Hc). apply wph_complete; [exact HC|exact Hw|apply Hw|]. intros m1. rewrite Hj, Hc, !N.eqb_refl. cbn [andb]. intros B1 E1.
  destruct (settle L m t j m1 Hok Hti HG' Ht B1 E1) as [W1 Hu1].
  apply (wpa_read0 n L); [lia|exact (we_ok _ _ _ _ _ _ _ W1)|eapply went_tidy; eassumption|exact HG'|exact Hu1|rewrite (cb_wseq _ _ _ B1) by discriminate; exact Hsq|].
  intros D L' m' W V. apply (H D L' m'); [|exact V]. apply (went_trans [] [] L m [] L m1 D L' m'); [apply (ok_nodup_tids _ _ Hok)|exact W1|exact W].
Qed.
Lemma wpa_read n L j (Q : N -> mem -> Prop) (m : mem) : (M + length L + 5 <= n)%nat -> calls_ok C m L -> tidy C m me -> (forall w, In w L -> In w G) ->
  wseq m me + 2 * N.of_nat (words_in L) < 2 ^ seqSize P ->
  (forall D L' m', went [] [] L m D L' m' -> mval (contents m' j) -> Q (contents m' j) m') -> wp (PMwCASRead C n me (LArr j)) Q m.
Proof.
  intros Hn Hok Hti HG' Hsq H. destruct (isMarked (m (LArr j)) DirtyFlag) eqn:Hd; [|apply (wpa_read1 n L); auto; lia].
  destruct (isMarked (contents m j) RDCSSFlag) eqn:Em; [|apply (wpa_read1 n L); auto; lia]. assert (Hnum : forall w, In w L -> num_ok C w) by (intros w Hw; apply HGok, HG', Hw).
  destruct (ok_halves _ _ Hok j Em) as (t & Ht). assert (Htm : t <> me) by (intros ->; apply (Hti j Ht)). destruct n as [|n]; [lia|]. cbn [PMwCASRead]. apply mwp_bind, mwp_load; [exact I|].
  rewrite (raw_decode m t j Ht), Hd. rewrite isMarked_rdcss, <- (clean_bit (m (LArr j)) 2) by discriminate. fold (contents m j). rewrite <- isMarked_rdcss, Em.
  apply mwp_bind, mwp_assert; [cbn [d_tid]; rewrite (proj2 (N.eqb_neq _ _) Htm); reflexivity|]. apply mwp_bind. pose proof Ht as (Hw & Hj & Hc).
  apply wp_complete_dirty; [exact Hw|apply Hw|]. rewrite Hj. intros m1 A E. destruct (went_clean L m m1 Hok Hti Hnum A) as [W1 _].
  apply (wpa_read1 n L); [lia|exact (we_ok _ _ _ _ _ _ _ W1)|eapply went_tidy; eassumption|exact HG'| |rewrite (cb_wseq _ _ _ A) by tauto; exact Hsq|].
  - left. rewrite E. unfold contents. rewrite isMarked_dirty, clean_spec. apply andb_false_r.
  - intros D L' m' W V. apply (H D L' m'); [|exact V]. apply (went_trans [] [] L m [] L m1 D L' m'); [apply (ok_nodup_tids _ _ Hok)|exact W1|exact W].
Qed.
Lemma wpa_cas0 n : forall L j old new (Q : bool * N -> mem -> Prop) (m : mem), (M + length L + 3 <= n)%nat -> calls_ok C m L -> tidy C m me -> (forall w, In w L -> In w G) ->
  isMarked (contents m j) RDCSSFlag = false -> wseq m me + 2 * N.of_nat (words_in L) < 2 ^ seqSize P -> mval old -> mval new ->
  (forall D L' m1 m', went [] [] L m D L' m1 -> mval (contents m1 j) -> cleaned_but (eq (LArr j)) m1 m' ->
     contents m' j = (if contents m1 j =? old then new else contents m1 j) -> forall o, Q (contents m1 j =? old, o) m') -> wp (mwCAS C n me (LArr j) old new) Q m.
Proof.
  induction n as [|n IH]; intros L j old new Q m Hn Hok Hti HG' Hum Hsq Vo Vn H; [lia|]. assert (Hnum : forall w, In w L -> num_ok C w) by (intros w Hw; apply HGok, HG', Hw).
  destruct (at_word m L j Hok Hum) as [V|(u & L1 & Ek & Hu & Hp)].
  - apply wp_cas_value; [exact V|exact Vn|]. intros m' A E o. apply (H [] L m m'); [|exact V|exact A|exact E]. apply (went_clean L m m Hok Hti Hnum), cleaned_refl.
  - destruct (HGok u (HG' u Hu)) as [U1 U2]. destruct (K_facts C HC _ _ U1 U2) as (Kc & K1 & K2 & Kd).
    cbn [mwCAS]. apply mwp_bind, mwp_pcas; [exact I|]. fold (contents m j). rewrite Ek. intros m1 Ho.
    assert (Ene : (K u =? old) = false) by (apply N.eqb_neq; intros E; apply (word_mval C HC u (conj U1 U2)); rewrite E; exact Vo). rewrite Ene. intros Hm. cbn [fst snd].
    assert (A : cleaned m m1) by (intros l; right; destruct (decide (LArr j = l)) as [<-|Hn']; [right; split; [fold (contents m j); congruence|exact Logic.I]|left; apply Ho, Hn']).
    unfold c_word. assert (K0 : N.testbit (as_word C (ref u)) 0 = false) by (rewrite <- Kc, clean_spec; apply andb_false_r).
    rewrite isMarked_rdcss, isMarked_kcas, isMarked_dirty, K0, K1, K2. cbn [negb andb]. do 2 (apply mwp_bind; cbn [mwp]). rewrite Kc, Kd, isMarked_kcas, K1.
    destruct (went_clean L m m1 Hok Hti Hnum A) as [W1 _]. apply mwp_bind, mwp_bind.
    apply (wpa_help1 n u L1 L); [lia|exact Hp|exact (we_ok _ _ _ _ _ _ _ W1)|eapply went_tidy; eassumption|exact HG'|rewrite (cb_wseq _ _ _ A) by tauto; exact Hsq|].
    intros r D L' m2 W2 Hl Hq. pose proof (ok_nodup_tids _ _ Hok) as Hnd. pose proof (went_trans [] [] L m [] L m1 D L' m2 Hnd W1 W2) as W12.
    cbn [mwp]. apply (IH L'); [lia|exact (we_ok _ _ _ _ _ _ _ W2)|eapply went_tidy; eassumption|eapply went_in; eassumption|eapply went_unmarked; eassumption|exact Hq|exact Vo|exact Vn|]. intros D2 L2 m3 m' W3 V A' E o.
    apply (H (D ++ D2) L2 m3 m'); [|exact V|exact A'|exact E]. eapply went_trans; [exact Hnd|exact W12|exact W3].
Qed.
Lemma wpa_cas n L j old new (Q : bool * N -> mem -> Prop) (m : mem) : (M + length L + 4 <= n)%nat -> calls_ok C m L -> tidy C m me -> (forall w, In w L -> In w G) ->
  wseq m me + 2 * N.of_nat (words_in L) < 2 ^ seqSize P -> mval old -> mval new ->
  (forall D L' m1 m', went [] [] L m D L' m1 -> mval (contents m1 j) -> cleaned_but (eq (LArr j)) m1 m' ->
     contents m' j = (if contents m1 j =? old then new else contents m1 j) -> forall o, Q (contents m1 j =? old, o) m') -> wp (mwCAS C n me (LArr j) old new) Q m.
Proof.
  intros Hn Hok Hti HG' Hsq Vo Vn H. destruct (isMarked (contents m j) RDCSSFlag) eqn:Em; [|apply (wpa_cas0 n L); auto; lia].
  assert (Hnum : forall w, In w L -> num_ok C w) by (intros w Hw; apply HGok, HG', Hw).
  destruct (ok_halves _ _ Hok j Em) as (t & Ht). assert (Htm : t <> me) by (intros ->; apply (Hti j Ht)). destruct n as [|n]; [lia|].
  cbn [mwCAS]. apply mwp_bind, mwp_pcas; [exact I|]. fold (contents m j). intros m1 Ho.
  assert (Ene : (contents m j =? old) = false) by (apply N.eqb_neq; intros E; rewrite E, mval_marked in Em by exact Vo; discriminate Em). rewrite Ene. intros Hm. cbn [fst snd].
  assert (A : cleaned m m1) by (intros l; right; destruct (decide (LArr j = l)) as [<-|Hn']; [right; split; [exact Hm|exact Logic.I]|left; apply Ho, Hn']).
  destruct (went_clean L m m1 Hok Hti Hnum A) as [W1 Ec]. assert (Ht1 : half_installed C m1 t j) by (apply (st_half [] m m1 (we_cells _ _ _ _ _ _ _ W1) Hti); [symmetry; apply Ec|exact Ht]).
  pose proof (half_decode _ _ _ Ht) as Hdec. destruct (wref_facts (m_log C) (wseq m t) t HC (wo_seq _ _ _ (proj1 Ht)) (wo_thread _ _ _ (proj1 Ht))) as (R1 & R2 & R3 & R4 & R5).
  destruct Ht as (Hw & Hj & Hc). assert (Ed0 : N.testbit (contents m j) 0 = false) by (rewrite Hc; exact R2). assert (Ed1 : N.testbit (contents m j) 1 = false) by (rewrite Hc; exact R3).
  rewrite Em, isMarked_kcas, isMarked_dirty, Ed0, Ed1. cbn [negb andb]. rewrite Hdec. apply mwp_bind, mwp_bind, mwp_assert; [cbn [word_ref d_tid]; rewrite (proj2 (N.eqb_neq _ _) Htm); reflexivity|].
  pose proof Ht1 as (Hw1 & Hj1 & Hc1). apply mwp_bind. rewrite <- (cb_wseq _ _ _ A t) by tauto. apply wph_complete; [exact HC|exact Hw1|apply Hw1|]. intros m2. rewrite Hj1, Hc1, !N.eqb_refl. cbn [andb]. intros B2 E2.
  destruct (settle L m1 t j m2 (we_ok _ _ _ _ _ _ _ W1) (went_tidy _ _ _ _ _ _ _ W1 Hti) HG' Ht1 B2 E2) as [W2 Hu2]. cbn [mwp]. apply mwp_bind. cbn [mwp].
  replace (clean (contents m j)) with (contents m j) by (unfold contents; rewrite clean_clean; reflexivity). rewrite isMarked_kcas, Ed1. apply mwp_bind. cbn [mwp].
  pose proof (ok_nodup_tids _ _ Hok) as Hnd. pose proof (went_trans [] [] L m [] L m1 [] L m2 Hnd W1 W2) as W12.
  apply (wpa_cas0 n L); [lia|exact (we_ok _ _ _ _ _ _ _ W2)|eapply went_tidy; eassumption|exact HG'|exact Hu2|rewrite (cb_wseq _ _ _ B2), (cb_wseq _ _ _ A) by (tauto || discriminate); exact Hsq|exact Vo|exact Vn|].
  intros D L' m3 m' W3 V A' E o. apply (H D L' m3 m'); [|exact V|exact A'|exact E]. apply (went_trans [] [] L m [] L m2 D L' m3); assumption.
Qed.
End Alone.

Lemma without_sub C G L m j : mcfg_ok C -> NoDup (map c_tid G) -> (forall u, In u G -> num_ok C u) -> (forall u, In u L -> In u G) -> calls_ok C m L ->
  without C G (settled C m) j = without C L (settled C m) j.
Proof.
  intros HC Hnd Hnum Hsub Hok. destruct (co_array _ _ _ Hok j) as [V|(u & Hu & E)].
  - rewrite !without_mval; auto.
  - rewrite (without_ref C HC G _ _ u); auto. rewrite (without_ref C HC L _ _ u); auto. apply Hok.
Qed.

(** A new descriptor of a call changes nothing that is half installed. *)
Definition no_k (l : loc) : Prop := match l with LK _ | LKCount _ | LKWord _ _ _ => False | _ => True end.
Lemma half_eq C m m' t j : (forall l, no_k l -> m' l = m l) -> half_installed C m t j -> half_installed C m' t j.
Proof.
  intros E ([H1 H2 H3 H4 H5 H6] & Hj & Hc). unfold wseq, contents in *.
  split; [split|split]; unfold wseq, contents; rewrite ?E by exact I; assumption.
Qed.
Lemma c67_alone C n me L o m : mcfg_ok C -> me < 2 ^ m_log C -> ~ In me (map c_tid L) -> calls_ok C m L -> tidy C m me -> legal_mop C o -> expects_values o ->
  (forall u, In u L -> (length (c_ws u) + length L + 5 <= n)%nat) -> (op_words o + length L + 5 <= n)%nat ->
  kseq m me + 2 < 2 ^ seqSize (2 ^ m_log C) -> wseq m me + 2 * N.of_nat (op_words o + words_in L) < 2 ^ seqSize (2 ^ m_log C) ->
  let a := without C L (settled C m) in
  exists D L' m', Permutation L (D ++ L') /\ mrun (mop_prog C n me o) m = MOk (fst (mspec (one_by_one a D) o)) m' /\
    (forall j, without C L' (settled C m') j = snd (mspec (one_by_one a D) o) j) /\ statuses m' a D /\ calls_ok C m' L' /\
    (forall t j, half_installed C m' t j -> half_installed C m t j).
Proof.
  intros HC Hme Hnme Hok Hti Hleg Hexp Hfu Hfo Hks Hwq a.
  assert (HnumL : forall u, In u L -> num_ok C u) by (intros u Hu; apply (ok_num C m), Hok, Hu).
  set (M := (n - length L - 5)%nat). assert (HM : forall u, In u L -> (length (c_ws u) <= M)%nat) by (intros u Hu; specialize (Hfu u Hu); unfold M; lia). assert (HMn : (M + length L + 5 <= n)%nat) by (unfold M; lia).
  assert (HndL : NoDup (map c_tid L)) by apply Hok.
  assert (Hsz : forall j, touches o j -> j < m_size C) by apply Hleg.
  destruct o as [ws'|i|i old new]; cbn [op_words expects_values] in *.
  - destruct Hleg as [_ (Hnil & HK & Hnd & Hnew)].
    set (own := sort_words ws'). pose proof (sort_words_perm ws') as Hperm. fold own in Hperm.
    assert (Hin : forall x, In x own <-> In x ws') by (intros x; split; apply Permutation.Permutation_in; [exact Hperm|apply Permutation.Permutation_sym, Hperm]).
    assert (Hlen : length own = length ws') by apply sort_words_length.
    assert (Hndo : NoDup (map o_off own)) by (rewrite (Permutation.Permutation_map o_off Hperm); exact Hnd).
    set (A := mkPcall me (kseq m me + 2) own). set (G := A :: L).
    assert (HG : NoDup (map c_tid G)) by (cbn [G map]; apply NoDup_cons; split; [rewrite elem_of_list_In; exact Hnme|exact HndL]).
    assert (HGok : forall u, In u G -> num_ok C u) by (intros u [<-|Hu]; [split; [exact Hme|exact Hks]|apply HnumL, Hu]).
    assert (HGM : forall u, In u G -> (length (c_ws u) <= M)%nat) by (intros u [<-|Hu]; [cbn [c_ws A]; rewrite Hlen; unfold M; lia|apply HM, Hu]).
    destruct (mwp_run any (mop_prog C n me (MwCas ws')) (fun r m' => exists m1 D L', r = MBool (all_match (one_by_one (without C G (settled C m1)) D) own) /\ (forall j, settled C m1 j = settled C m j) /\ (forall t j, half_installed C m1 t j -> half_installed C m t j) /\
      Permutation L (D ++ L') /\ went C me G [] [] (A :: L) m1 (D ++ [A]) L' m') m) as (r & m' & E & m1 & D & L' & -> & Ec & Hhb & Hp & W).
    { cbn [mop_prog]. apply mwp_bind. unfold PMwCAS. apply mwp_bind, mwp_assert; [destruct ws'; [contradiction|reflexivity]|].
      apply mwp_bind. apply (mwp_fp (MwSeq.own me (fun _ => False))); [intros l _; exact I|].
      assert (Eks : km_seq (kmut_decode (clean (m (LK me)))) = kseq m me) by (change (sq (clean (m (LK me))) = sq (m (LK me))); apply sq_clean).
      apply (wp_createK C HC me Hme (fun _ => False) ws' (kseq m me)); [exact Hnil|exact HK|exact Hnd|exact Eks|exact Hks|].
      intros m1 Hon Ek1 Ec1 Hw1. change (kdesc (kseq m me + 2) me) with (call_ref (c_seq A) (c_tid A)). fold own in Hw1.
      assert (Eq : forall l, ~ kset me l -> m1 l = m l) by exact Hon.
      assert (Ecc : forall j, contents m1 j = contents m j) by (intros j; unfold contents; rewrite Eq; [reflexivity|exact (fun x => x)]).
      assert (HA : call_ok C m1 A).
      { split; cbn [c_tid c_seq c_ws A].
        - exact Hme.
        - exact Hks.
        - rewrite Ek1. apply (kenc_facts Undecided _ eq_refl (seq_61 _ _ HC Hks)).
        - rewrite Hlen. exact Ec1.
        - intros k x Hx. apply Hw1. clear - Hx. revert k Hx. induction own as [|y l IH]; intros [|k] Hx; try discriminate Hx; [exact Hx|apply IH, Hx].
        - pose proof (sort_words_sorted ws' Hnd) as Hs. fold own in Hs. clear - Hs. induction own as [|x l IH]; [constructor|]. cbn [map]. constructor; [apply IH; eapply sorted_tail; exact Hs|].
          apply List.Forall_forall. intros y Hy. apply in_map_iff in Hy as (z & <- & Hz). apply (sorted_head _ _ Hs), Hz.
        - intros x Hx. apply Hin in Hx. split; [apply Hsz, in_map, Hx|]. rewrite List.Forall_forall in Hexp, Hnew. split; [apply Hexp, Hx|apply Hnew, Hx]. }
      assert (HKA : forall j, settled C m j <> c_word C A).
      { intros j E. destruct (co_array _ _ _ Hok j) as [V|(u & Hu & Eu)]; [apply (word_mval C HC A); [apply HGok; left; reflexivity|rewrite <- E; exact V]|].
        apply Hnme. replace me with (c_tid u); [apply in_map, Hu|]. apply (word_inj C HC u A); [apply HnumL, Hu|apply HGok; left; reflexivity|congruence]. }
      assert (Enk : forall l, no_k l -> m1 l = m l) by (intros l Hl; apply Eq; destruct l; cbn in *; tauto).
      assert (Hh1 : forall t j, half_installed C m t j -> half_installed C m1 t j) by (intros t j; apply half_eq, Enk).
      assert (Hh2 : forall t j, half_installed C m1 t j -> half_installed C m t j) by (intros t j; apply half_eq; intros l Hl; symmetry; apply Enk, Hl).
      destruct (kenc_facts Undecided (kseq m me + 2) eq_refl (seq_61 _ _ HC Hks)) as (Du & _).
      assert (Hks1 : kseq m1 me = kseq m me + 2).
      { change (sq (m1 (LK me)) = kseq m me + 2). rewrite <- sq_clean, (ca_mut _ _ _ HA : clean (m1 (LK me)) = kenc Undecided (kseq m me + 2)). unfold sq. rewrite Du. reflexivity. }
      assert (Hko : forall t, t <> me -> m1 (LK t) = m (LK t)) by (intros t Ht; apply Eq; cbn; congruence).
      assert (Est : forall j, settled C m1 j = settled C m j).
      { intros j. destruct (isMarked (contents m j) RDCSSFlag) eqn:Em; [|rewrite !settled_unmarked; [apply Ecc|exact Em|rewrite Ecc; exact Em]].
        destruct (co_half _ _ _ Hok j Em) as (t & Ht & V & Hq). pose proof (half_settled C HC _ _ _ Ht) as E0. pose proof (half_settled C HC _ _ _ (Hh1 t j Ht)) as E1. rewrite E1. rewrite E0. unfold outcome, under_way.
        rewrite !Enk by exact I. destruct (N.eq_dec (m (LWTid t)) me) as [Et|Et].
        - rewrite Et in Hq |- *. rewrite Hks1. rewrite (proj2 (N.eqb_neq (m (LWSeq t)) (kseq m me + 2))) by lia. cbn [andb]. destruct (_ && _) eqn:Eu; [exfalso|reflexivity].
          unfold outcome, under_way in E0. rewrite Et, Eu in E0. destruct Ht as ([_ _ _ T4 T5 _] & _). rewrite Et in T4.
          destruct (co_array _ _ _ Hok j) as [V'|(u & Hu & Ek)].
          + apply (word_mval C HC (mkPcall me (m (LWSeq t)) [])); [split; assumption|]. unfold c_word. cbn [c_tid c_seq]. rewrite <- E0. exact V'.
          + apply Hnme. replace me with (c_tid u); [apply in_map, Hu|]. apply (word_inj C HC u (mkPcall me (m (LWSeq t)) [])); [apply HnumL, Hu|split; assumption|]. rewrite <- Ek. exact E0.
        - unfold kseq, kstat. rewrite (Hko _ Et). reflexivity. }
      assert (Hok1 : calls_ok C m1 (A :: L)).
      { destruct Hok as [O1 O2 O3 O4 O5 O6 O7]. split.
        - exact HG.
        - intros u [<-|Hu]; [exact HA|]. assert (Hut : c_tid u <> me) by (intros F; apply Hnme; rewrite <- F; apply in_map, Hu). destruct (O2 u Hu) as [P1 P2 P3 P4 P5 P6 P7]. split; try assumption.
          + rewrite Eq by (cbn; congruence). exact P3.
          + rewrite Eq by (cbn; congruence). exact P4.
          + intros i x Hx. rewrite !Eq by (cbn; congruence). apply P5, Hx.
        - intros j. rewrite Est. destruct (O3 j) as [V|(u & Hu & F)]; [left; exact V|right; exists u; split; [right; exact Hu|exact F]].
        - intros u j Hu. rewrite Est. destruct Hu as [<-|Hu]; [intros F; exfalso; apply (HKA j F)|apply O4, Hu].
        - intros u x y Hu. rewrite Est, Ecc. destruct Hu as [<-|Hu]; [intros _ _ _ F; exfalso; apply (HKA _ F)|apply O5, Hu].
        - intros j. rewrite Ecc. intros Em. destruct (O6 j Em) as (t & Ht & V & Hq). exists t. split; [apply Hh1, Ht|]. rewrite !Enk by exact I. split; [exact V|].
          destruct (N.eq_dec (m (LWTid t)) me) as [Et|Et]; [rewrite Et in Hq |- *; rewrite Hks1; lia|]. unfold kseq in *. rewrite (Hko _ Et). exact Hq.
        - intros t u x Ht Hu Hx. rewrite Est, Enk by exact I. destruct Hu as [<-|Hu]; [intros F; exfalso; apply (HKA _ F)|]. apply O7; auto. }
      assert (Hti1 : tidy C m1 me) by (intros j Hj; apply (Hti j), Hh2, Hj).
      apply (wpa_call C HC me Hme G HG HGok M HGM n A L); [lia|exact Hok1|exact Hti1|intros u Hu; exact Hu| |].
      - cbn [c_ws A]. rewrite Hlen. unfold wseq in *. rewrite Eq by exact (fun x => x). exact Hwq.
      - intros r D L' m' W Hp Er _. cbn [mwp]. exists m1, D, L'. cbn [c_ws A] in Er. rewrite Er. auto 10. }
    pose proof W as [W1 W2 W3 W4 W5 W6 W7 W8]. cbn [app] in W2.
    assert (Ea : same (without C G (settled C m1)) a).
    { intros j. unfold a. rewrite (without_ext C G _ (settled C m) j (Ec j)). apply without_sub; [exact HC|exact HG|exact HGok|intros u Hu; right; exact Hu|exact Hok]. }
    assert (HsubL' : forall u, In u L' -> In u G) by (intros u Hu; right; eapply Permutation_in; [apply Permutation_sym, Hp|apply in_or_app; right; exact Hu]).
    assert (Em : forall g, all_match g own = all_match g ws').
    { intros g. pose proof (all_match_iff g own) as I1. pose proof (all_match_iff g ws') as I2. apply Bool.eq_iff_eq_true. rewrite I1, I2. split; intros F x Hx; apply F, Hin, Hx. }
    exists D, L', m'. split; [exact Hp|]. split; [|split; [|split; [|split]]].
    + rewrite E. f_equal. rewrite (same_match _ (one_by_one a D)) by (apply same_one, Ea). rewrite Em. cbn [mspec]. destruct (all_match _ ws'); reflexivity.
    + intros j. rewrite <- (without_sub C G L' m' j HC HG HGok HsubL' W2). rewrite (W5 j), one_app. cbn [one_by_one c_ws A].
      rewrite <- (mspec_perm (one_by_one a D) own ws' j Hperm Hndo). apply same_step, same_one, Ea.
    + apply statuses_app in W6 as [W6 _]. eapply same_statuses; [exact Ea|exact W6].
    + exact W2.
    + intros t j Ht. apply Hhb, W8, Ht.
  - destruct (mwp_run any (mop_prog C n me (MwRead i)) (fun r m' => exists D L', r = MWord (contents m' i) /\ went C me L [] [] L m D L' m' /\ mval (contents m' i)) m) as (r & m' & E & D & L' & -> & W & V).
    { cbn [mop_prog]. apply mwp_bind, wpa_address; [apply Hsz; reflexivity|]. apply mwp_bind. apply (wpa_read C HC me Hme L HndL HnumL M HM n L i); [exact HMn|exact Hok|exact Hti|auto|exact Hwq|].
      intros D L' m' W V. cbn [mwp]. eauto. }
    pose proof W as [W1 W2 W3 W4 W5 W6 W7 W8]. exists D, L', m'. split; [exact W1|]. cbn [mspec fst snd].
    assert (HsubL' : forall u, In u L' -> In u L) by (intros u Hu; eapply Permutation_in; [apply Permutation_sym, W1|apply in_or_app; right; exact Hu]).
    split; [|split; [|split; [exact W6|split; [exact W2|exact W8]]]].
    + rewrite E. do 2 f_equal. fold a in W5. rewrite <- (W5 i). assert (Es : settled C m' i = contents m' i) by (apply settled_unmarked, mval_marked, V). rewrite without_mval; [symmetry; exact Es|exact HC|exact HnumL|rewrite Es; exact V].
    + intros j. rewrite <- (without_sub C L L' m' j HC HndL HnumL HsubL' W2). apply W5.
  - destruct Hleg as [_ Hnew].
    destruct (mwp_run any (mop_prog C n me (MwCas1 i old new)) (fun r m' => exists D L' m1, r = MBool (contents m1 i =? old) /\ went C me L [] [] L m D L' m1 /\ mval (contents m1 i) /\
      cleaned_but (eq (LArr i)) m1 m' /\ contents m' i = if contents m1 i =? old then new else contents m1 i) m) as (r & m' & E & D & L' & m1 & -> & W & V & A' & E').
    { cbn [mop_prog]. apply mwp_bind, wpa_address; [apply Hsz; reflexivity|]. apply mwp_bind. apply (wpa_cas C HC me Hme L HndL HnumL M HM n L i); [lia|exact Hok|exact Hti|auto|exact Hwq|exact Hexp|exact Hnew|].
      intros D L' m1 m' W V A' E' o. cbn [mwp fst]. exists D, L', m1. auto. }
    pose proof W as [W1 W2 W3 W4 W5 W6 W7 W8]. cbn [app] in W2. fold a in W5.
    assert (HsubL' : forall u, In u L' -> In u L) by (intros u Hu; eapply Permutation_in; [apply Permutation_sym, W1|apply in_or_app; right; exact Hu]).
    assert (Ep : forall j, j <> i -> contents m' j = contents m1 j) by (intros j Hj; apply (cb_contents _ _ _ A'); congruence).
    assert (V' : mval (contents m' i)) by (rewrite E'; destruct (_ =? _); assumption).
    assert (A2 : cleaned_but (cells me []) m1 m') by (eapply cleaned_weaken; [|exact A']; intros l <-; right; left; eexists; reflexivity).
    pose proof (went_tidy C me L _ _ _ _ _ _ _ W Hti) as Hti1. pose proof (ok_halves C _ _ W2) as Hh1.
    assert (Hsm : smooth m1 m') by (intros j; destruct (N.eq_dec j i) as [->|Hj]; [right; apply mval_marked, V'|left; apply Ep, Hj]).
    assert (Eo : forall j, j <> i -> settled C m' j = settled C m1 j) by (intros j Hj; apply (st_settled C HC me [] m1 m' A2 Hti1); [exact Hh1|apply Ep, Hj|intros ? _ []]).
    assert (Es : settled C m1 i = contents m1 i) by (apply settled_unmarked, mval_marked, V).
    assert (Es' : settled C m' i = contents m' i) by (apply settled_unmarked, mval_marked, V').
    assert (Ei : one_by_one a D i = contents m1 i) by (rewrite <- (W5 i), without_mval; [exact Es|exact HC|exact HnumL|rewrite Es; exact V]).
    assert (Hku : forall u j, In u L' -> (settled C m' j = c_word C u <-> settled C m1 j = c_word C u)).
    { intros u j Hu. destruct (N.eq_dec j i) as [->|Hj]; [|rewrite Eo by exact Hj; tauto]. rewrite Es, Es'. split; intros F; exfalso; apply (word_mval C HC u); auto; rewrite <- F; assumption. }
    assert (Hok' : calls_ok C m' L').
    { pose proof W2 as [O1 O2 O3 O4 O5 O6 O7]. split.
      - exact O1.
      - intros u Hu. eapply ok_frame; [exact A2|intros []|apply O2, Hu].
      - intros j. destruct (N.eq_dec j i) as [->|Hj]; [left; rewrite Es'; exact V'|rewrite Eo by exact Hj; apply O3].
      - intros u j Hu F. apply O4; [exact Hu|]. apply Hku; assumption.
      - intros u x y Hu Hx Hy Hxy F. apply Hku in F; [|exact Hu]. specialize (O5 u x y Hu Hx Hy Hxy F). rewrite Ep; [exact O5|]. intros Ex. apply (word_mval C HC u (HnumL u (HsubL' u Hu))). rewrite <- O5, Ex. exact V.
      - apply (st_co_half C me m1 m' L' A2 Hti1 W2 Hsm).
      - apply (st_co_expects C HC me m1 m' L' A2 Hti1 W2 Hsm). }
    exists D, L', m'. split; [exact W1|]. split; [|split; [|split; [|split; [exact Hok'|]]]].
    + rewrite E. f_equal. cbn [mspec]. rewrite Ei. destruct (_ =? old); reflexivity.
    + intros j. rewrite <- (without_sub C L L' m' j HC HndL HnumL HsubL' Hok'). cbn [mspec]. rewrite Ei. destruct (N.eq_dec j i) as [->|Hj].
      * rewrite without_mval; [|exact HC|exact HnumL|rewrite Es'; exact V']. rewrite Es', E'. destruct (_ =? old); cbn [snd]; [rewrite N.eqb_refl; reflexivity|symmetry; exact Ei].
      * rewrite (without_ext C L _ (settled C m1)) by (apply Eo, Hj). rewrite (W5 j). destruct (_ =? old); cbn [snd]; [|reflexivity]. rewrite (proj2 (N.eqb_neq _ _) Hj). reflexivity.
    + eapply statuses_frame; [|exact W6]. intros u Hu. apply (k_frame me []); [exact A2|intros []].
    + intros t j Ht. apply W8, (st_back C HC m1 m' t j Hh1 Hsm Ht).
Qed.

(** Three calls that are under way: the first word of each refers to it, the second one is the first of the next call.  The one
    of thread 2 is half installed. *)
Definition mx_calls3 : list pcall :=
  [mkPcall 1 2 [mkWord 0 0 8; mkWord 1 0 16]; mkPcall 2 2 [mkWord 1 0 24; mkWord 2 0 32]; mkPcall 3 2 [mkWord 2 0 40; mkWord 3 0 48]].
Definition mx_three : mem := fold_right (fun u m => stopped_in mx_C mx_fuel m (c_tid u) (MwCas (c_ws u)) (if c_tid u =? 2 then 40%nat else 60%nat)) mw_init mx_calls3.
Definition mx_last : mop := MwCas [mkWord 3 48 64; mkWord 0 8 56].
Lemma mx_beyond j : mval (contents mx_three j) \/ In j [0; 1; 2].
Proof.
  destruct j as [|p]; [right; left; reflexivity|]. destruct p as [p|p|]; [destruct p as [p|p|]|destruct p as [p|p|]|]; try (right; cbn; tauto).
  all: left; vm_compute; repeat split.
Qed.
Lemma mx_marked j : isMarked (contents mx_three j) RDCSSFlag = true -> j = 1.
Proof.
  intros E. destruct (mx_beyond j) as [V|Hj]; [rewrite mval_marked in E by exact V; discriminate E|].
  destruct Hj as [<-|[<-|[<-|[]]]]; [vm_compute in E; discriminate E|reflexivity|vm_compute in E; discriminate E].
Qed.
Lemma mx_settled j : mval (settled mx_C mx_three j) \/ In j [0; 1; 2].
Proof. destruct (mx_beyond j) as [V|Hj]; [left|right; exact Hj]. rewrite settled_unmarked; [exact V|apply mval_marked, V]. Qed.
Lemma mx_half2 : half_installed mx_C mx_three 2 1.
Proof. split; [split; vm_compute; reflexivity|]. split; vm_compute; reflexivity. Qed.
Lemma mx_tidy : tidy mx_C mx_three 0.
Proof.
  intros j Hj. pose proof (mx_marked j (half_marked mx_C (proj1 mx_cfg) _ _ _ Hj)) as ->. pose proof (half_unique mx_C (proj1 mx_cfg) _ _ _ _ _ Hj mx_half2 eq_refl) as E. discriminate E.
Qed.
Lemma mx_three_ok : calls_ok mx_C mx_three mx_calls3.
Proof.
  assert (Hnum : forall u, In u mx_calls3 -> num_ok mx_C u) by (intros u [<-|[<-|[<-|[]]]]; split; vm_compute; reflexivity).
  split.
  - apply (bool_decide_unpack _). vm_compute. exact I.
  - intros u [<-|[<-|[<-|[]]]]; (split; [reflexivity|vm_compute; reflexivity|vm_compute; reflexivity|vm_compute; reflexivity| |cbn [c_ws map o_off]; repeat constructor|]).
    all: try (intros [|[|i]] x Hx; cbn in Hx; [injection Hx as <-|injection Hx as <-|destruct i; discriminate Hx]; (split; [|split]); vm_compute; reflexivity).
    all: intros x Hx; cbn in Hx; destruct Hx as [<-|[<-|[]]]; (split; [reflexivity|]; split; value).
  - intros j. destruct (mx_settled j) as [V|Hj]; [left; exact V|right]. destruct Hj as [<-|[<-|[<-|[]]]].
    + exists (mkPcall 1 2 [mkWord 0 0 8; mkWord 1 0 16]). split; [left; reflexivity|vm_compute; reflexivity].
    + exists (mkPcall 2 2 [mkWord 1 0 24; mkWord 2 0 32]). split; [right; left; reflexivity|vm_compute; reflexivity].
    + exists (mkPcall 3 2 [mkWord 2 0 40; mkWord 3 0 48]). split; [right; right; left; reflexivity|vm_compute; reflexivity].
  - intros u j Hu E. destruct (mx_settled j) as [V|Hj]; [exfalso; apply (word_mval mx_C (proj1 mx_cfg) u (Hnum u Hu)); rewrite <- E; exact V|].
    destruct Hu as [<-|[<-|[<-|[]]]]; destruct Hj as [<-|[<-|[<-|[]]]]; vm_compute in E; try discriminate E; cbn; auto.
  - intros u x y Hu Hx Hy Hxy E. destruct Hu as [<-|[<-|[<-|[]]]]; cbn in Hx, Hy; destruct Hx as [<-|[<-|[]]], Hy as [<-|[<-|[]]]; vm_compute in E; try discriminate E; vm_compute in Hxy; try discriminate Hxy; vm_compute; reflexivity.
  - intros j E. rewrite (mx_marked j E). exists 2. split; [exact mx_half2|]. split; [vm_compute; auto 10|vm_compute; discriminate].
  - intros t u x Ht Hu Hx E. pose proof (mx_marked _ (half_marked mx_C (proj1 mx_cfg) _ _ _ Ht)) as Ex. rewrite Ex in Ht. rewrite (half_unique mx_C (proj1 mx_cfg) _ _ _ _ _ Ht mx_half2 eq_refl).
    destruct Hu as [<-|[<-|[<-|[]]]]; cbn in Hx; destruct Hx as [<-|[<-|[]]]; try discriminate Ex; vm_compute in E; try discriminate E; vm_compute; reflexivity.
Qed.
Definition mx_view (r : moutcome mrsp) : option (mrsp * list N * list N) :=
  match r with MOk r m => Some (r, map (contents m) [0; 1; 2; 3], map (kstat m) [1; 2; 3]) | MFail _ _ => None end.
Lemma mx_alone : calls_ok mx_C mx_three mx_calls3 /\ tidy mx_C mx_three 0 /\ half_installed mx_C mx_three 2 1 /\ ~ In 0 (map c_tid mx_calls3) /\ legal_mop mx_C mx_last /\ expects_values mx_last /\
  (forall u, In u mx_calls3 -> (length (c_ws u) + length mx_calls3 + 5 <= mx_fuel)%nat) /\ (op_words mx_last + length mx_calls3 + 5 <= mx_fuel)%nat /\
  kseq mx_three 0 + 2 < 2 ^ seqSize (2 ^ m_log mx_C) /\ wseq mx_three 0 + 2 * N.of_nat (op_words mx_last + words_in mx_calls3) < 2 ^ seqSize (2 ^ m_log mx_C) /\
  mx_view (mrun (mop_prog mx_C mx_fuel 0 mx_last) mx_three) = Some (MBool true, [56; 16; 40; 64], [Succeeded; Failed; Succeeded]) /\
  mx_view (mrun (mop_prog mx_C mx_fuel 0 (MwRead 1)) mx_three) = Some (MWord 0, [as_word mx_C (call_ref 2 1); 0; 40; 48], [Undecided; Failed; Succeeded]).
Proof.
  split; [exact mx_three_ok|]. split; [exact mx_tidy|]. split; [exact mx_half2|]. split; [intros [E|[E|[E|[]]]]; discriminate E|]. split.
  { split; [intros j [<-|[<-|[]]]; reflexivity|]. split; [discriminate|]. split; [apply Nat.leb_le; reflexivity|]. split; [apply (bool_decide_unpack _); vm_compute; exact I|].
    constructor; [value|constructor; [value|constructor]]. }
  split; [constructor; [value|constructor; [value|constructor]]|]. split; [intros u [<-|[<-|[<-|[]]]]; apply Nat.leb_le; reflexivity|]. split; [apply Nat.leb_le; reflexivity|].
  split; [vm_compute; reflexivity|]. split; [vm_compute; reflexivity|]. split; vm_compute; reflexivity.
Qed.
