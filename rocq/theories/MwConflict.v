(** A call of the multi-word compare-and-swap that meets a call of another thread which is under way. *)
From Coq Require Import NArith Bool List Lia Sorted.
From stdpp Require Import base list.
From Verif Require Import Word Bits Codec CodecSpec CodecThm MwCas MwSpec MwWp MwSeq MwRely MwRecover MwHelpSpec MwHelp MwCallSpec MwCall MwStopRec MwWitness MwCallThm.
Import ListNotations.
Local Open Scope N_scope.

Lemma mwp_fp {A} (fp fp' : loc -> Prop) (p : mprog A) Q m : (forall l, fp l -> fp' l) -> mwp fp p Q m -> mwp fp' p Q m.
Proof.
  intros Hf. revert m. induction p as [a|e|c k IH]; intros m; cbn; [auto|auto|]. intros [H1 H2]. split; [apply Hf, H1|].
  destruct (mexec c m) as [r m']. apply IH. exact H2.
Qed.
Lemma sorted_head x l : strictly_sorted (x :: l) = true -> forall y, In y l -> o_off x < o_off y.
Proof.
  revert x. induction l as [|z l IH]; intros x H y Hy; [destruct Hy|].
  change ((o_off x <? o_off z) && strictly_sorted (z :: l) = true) in H. apply andb_prop in H as [H1 H2]. apply N.ltb_lt in H1.
  destruct Hy as [->|Hy]; [exact H1|]. specialize (IH z H2 y Hy). lia.
Qed.
Lemma sorted_tail x l : strictly_sorted (x :: l) = true -> strictly_sorted l = true.
Proof. destruct l as [|z l]; [reflexivity|]. intros H. change ((o_off x <? o_off z) && strictly_sorted (z :: l) = true) in H. apply andb_prop in H as [_ H]. exact H. Qed.
Lemma sorted_app pre post x y : strictly_sorted (pre ++ post) = true -> In x pre -> In y post -> o_off x < o_off y.
Proof.
  induction pre as [|z pre IH]; [intros _ []|]. cbn [app]. intros H [->|Hx] Hy.
  - apply (sorted_head _ _ H). rewrite in_app_iff. right. exact Hy.
  - apply IH; [eapply sorted_tail; exact H|exact Hx|exact Hy].
Qed.

Lemma wpx_find C t n a l i (Q : nat -> mem -> Prop) (m : mem) : (length l < n)%nat -> m (LKCount t) = N.of_nat (i + length l) -> words_at t m i l ->
  (forall x, In x l -> o_off x < m_size C) ->
  (forall k x, nth_error l k = Some x -> o_off x = a -> Q (S (i + k)) m) -> In a (map o_off l) -> mwp any (find_start C n t (LArr a) i) Q m.
Proof.
  revert l i. induction n as [|n IH]; intros l i Hn Hc Hw Hsz H Hin; [lia|]. destruct l as [|x l]; [destruct Hin|]. cbn [find_start].
  apply mwp_bind. eapply wpc_more; [exact Hc|]. rewrite (proj2 (N.ltb_lt _ _)) by (cbn; lia). apply words_cons in Hw as [(K1 & K2 & K3) Hw].
  apply mwp_bind. eapply wpc_word_address; [exact K1|apply Hsz; left; reflexivity|]. destruct (decide (LArr (o_off x) = LArr a)) as [E|E].
  - cbn [mwp]. injection E as E. specialize (H 0%nat x eq_refl E). rewrite Nat.add_0_r in H. exact H.
  - apply (IH l (S i)); [cbn in Hn; lia|rewrite Hc; f_equal; cbn; lia|exact Hw|intros y Hy; apply Hsz; right; exact Hy| |].
    + intros k y Hy Ea. specialize (H (S k) y Hy Ea). rewrite <- plus_n_Sm in H. exact H.
    + destruct Hin as [F|Hin]; [exfalso; apply E; congruence|exact Hin].
Qed.

Section Conflict.
Context (C : mcfg) (HC : mcfg_ok C).
Local Notation P := (2 ^ m_log C)%N.
Local Notation wp := (mwp any).
Context (me q t s : N) (Hme : me < P) (Hq : q < 2 ^ seqSize P) (Hne : me <> t).
Context (ws pre post : list mword) (Hws : ws = pre ++ post) (Hsorted : strictly_sorted ws = true).
Local Notation d := (call_ref q me).
Local Notation K := (as_word C (call_ref s t)).
Local Notation K' := (as_word C (call_ref q me)).

Lemma wpx_retry n rec i (Q : N -> mem -> Prop) (m : mem) : (N.of_nat i <? m (LKCount me)) = true -> wp (place C n rec me d i false) Q m -> wp (place C n rec me d i true) Q m.
Proof.
  intros E. destruct n as [|n]; [auto|]. cbn [place d_tid call_ref]. unfold more, mdo. cbn [mbind]. cbn [mwp cmd_loc mexec mbind]. intros [_ H]. rewrite E in H. exact H.
Qed.

(** The words of the pending call that refer to it are the words [pre]. *)
Local Notation refs m := (refers C m s t pre).

Lemma refs_in m j : refs m -> contents m j = K -> exists x, In x ws /\ o_off x = j /\ In x pre.
Proof. intros Hr E. apply Hr in E. apply in_map_iff in E as (x & Ex & Hx). exists x. rewrite Hws, in_app_iff. auto. Qed.
Lemma refs_out m x c : refs m -> contents m (o_off x) <> K -> contents m c = K -> o_off x < c -> ~ In (o_off x) (map o_off ws).
Proof.
  intros Hr Hx Hc Hlt Hi. rewrite Hws, map_app, in_app_iff in Hi. destruct Hi as [Hi|Hi]; [apply Hx, Hr, Hi|].
  apply in_map_iff in Hi as (y & Ey & Hy). apply Hr in Hc. apply in_map_iff in Hc as (z & Ez & Hz).
  assert (Hzy : o_off z < o_off y) by (apply (sorted_app pre post); [rewrite <- Hws; exact Hsorted|exact Hz|exact Hy]). lia.
Qed.

(** Helping from the word with the offset [a] on. *)
Lemma wpx_help n a (Q : bool -> mem -> Prop) (m : mem) : (length ws < n)%nat -> pending C m s t ws -> refs m -> contents m a = K ->
  wseq m me + 2 * N.of_nat (length ws) < 2 ^ seqSize P ->
  (forall r m', cleaned_but (completed me t ws) m m' -> clean (m' (LK t)) = kenc (if all_match (undone C m s t ws) ws then Succeeded else Failed) s ->
     (forall x, In x ws -> contents m' (o_off x) = after_call C m s t ws (o_off x)) -> moved C me m m' (length ws) -> Q r m') ->
  wp (pmwcas C (S n) me (call_ref s t) (Some (LArr a))) Q m.
Proof.
  intros Hn Hp Hr Ha Hsq H. pose proof Hp as [P1 P2 P3 P4 P5 P6 P7 P8]. cbn [pmwcas d_tid d_seq call_ref]. change (mkDesc false true false s t) with (call_ref s t).
  apply mwp_bind, wph_thread; [exact P1|]. apply mwp_bind.
  destruct (refs_in m a Hr Ha) as (x0 & Hx0 & Ex0 & Hx0p).
  apply (wpx_find C t n a ws 0); [exact Hn|rewrite P4; reflexivity|intros k x Hx; apply P5, Hx|intros x Hx; apply P7, Hx| |].
  2: { rewrite <- Ex0. apply in_map, Hx0. }
  intros k x Hx Ex. cbn [Nat.add].
  assert (Hk : (k < length pre)%nat).
  { destruct (Nat.lt_ge_cases k (length pre)) as [G|G]; [exact G|exfalso]. rewrite Hws in Hx. rewrite nth_error_app2 in Hx by exact G. apply nth_error_In in Hx.
    assert (Hl : o_off x0 < o_off x) by (apply (sorted_app pre post); [rewrite <- Hws; exact Hsorted|exact Hx0p|exact Hx]). lia. }
  assert (Hlw : length ws = (length pre + length post)%nat) by (rewrite Hws; apply app_length).
  apply (wpc_rest C HC me t s Hme P1 P2 n ws (S k) (firstn (S k) ws) (skipn (S k) ws)); [exact Hn|exact Hp|symmetry; apply firstn_skipn|rewrite firstn_length; lia| |exact Hsq|].
  - intros y Hy. apply Hr, in_map. rewrite Hws in Hy. rewrite firstn_app in Hy. replace (S k - length pre)%nat with 0%nat in Hy by lia. cbn [firstn] in Hy. rewrite app_nil_r in Hy.
    rewrite <- (firstn_skipn (S k) pre), in_app_iff. left. exact Hy.
  - intros m' A Ek Ex' Mv. apply (H _ m'); [exact A|exact Ek| |exact Mv]. intros y Hy. rewrite after_in by assumption. apply Ex', Hy.
Qed.

(** The state after the loop that places references to the call: the array was [c], and [a] for the purpose of the comparisons. *)
Record put_in (c a : N -> N) (rest : list mword) (m' : mem) (st : N) : Prop := {
  pi_out : forall j, ~ In j (map o_off rest) -> contents m' j = c j;
  pi_in : forall x, In x rest -> (contents m' (o_off x) = K' /\ c (o_off x) = o_old x) \/ contents m' (o_off x) = c (o_off x);
  pi_all : all_match a rest = true -> forall x, In x rest -> contents m' (o_off x) = K';
  pi_st : st = if all_match a rest then Succeeded else Failed;
}.
Definition conflict_cells (rest : list mword) (l : loc) : Prop := placed me rest l \/ completed me t ws l.
(** The call of [t] has been completed, or it has not been met. *)
Definition met (m : mem) (rest : list mword) (st : N) (m' : mem) : Prop :=
  clean (m' (LK t)) = kenc (if all_match (undone C m s t ws) ws then Succeeded else Failed) s /\
    put_in (after_call C m s t ws) (after_call C m s t ws) rest m' st.
Definition unmet (m : mem) (rest : list mword) (st : N) (m' : mem) : Prop :=
  cleaned_but (placed me rest) m m' /\ put_in (contents m) (undone C m s t ws) rest m' st /\
  (st = Succeeded -> forall x, In x rest -> contents m (o_off x) <> K).

Lemma K_K' : t < P -> s < 2 ^ seqSize P -> K <> K'.
Proof.
  intros Ht Hs E. destruct (K_facts C HC t s Ht Hs) as (_ & _ & _ & D1). destruct (K_facts C HC me q Hme Hq) as (_ & _ & _ & D2).
  rewrite E, D2 in D1. injection D1. congruence.
Qed.
Lemma after_out m j : refs m -> ~ In j (map o_off ws) -> after_call C m s t ws j = contents m j.
Proof.
  intros Hr Hj. assert (Hu : undone C m s t ws j = contents m j).
  { unfold undone. destruct (N.eqb_spec (contents m j) K) as [E|E]; [|reflexivity]. exfalso. apply Hj. destruct (refs_in m j Hr E) as (x & Hx & <- & _). apply in_map, Hx. }
  unfold after_call. cbn [mspec]. destruct (all_match _ _); cbn [snd]; [|exact Hu]. rewrite put_all_out; [exact Hu|exact Hj].
Qed.
Lemma after_ext m m1 : NoDup (map o_off ws) -> (forall x, In x ws -> contents m1 (o_off x) = contents m (o_off x)) ->
  all_match (undone C m1 s t ws) ws = all_match (undone C m s t ws) ws /\ forall x, In x ws -> after_call C m1 s t ws (o_off x) = after_call C m s t ws (o_off x).
Proof.
  intros Hnd E. assert (Eu : forall x, In x ws -> undone C m1 s t ws (o_off x) = undone C m s t ws (o_off x)) by (intros x Hx; apply undone_ext, E, Hx).
  assert (Em : all_match (undone C m1 s t ws) ws = all_match (undone C m s t ws) ws) by (apply match_ext, Eu). split; [exact Em|].
  intros x Hx. rewrite !after_in by assumption. rewrite Em, Eu by exact Hx. reflexivity.
Qed.
Lemma pending_frame m m1 rest : cleaned_but (placed me rest) m m1 -> (forall x, In x ws -> contents m1 (o_off x) = contents m (o_off x)) -> pending C m s t ws -> pending C m1 s t ws.
Proof.
  intros A Ex [P1 P2 P3 P4 P5 P6 P7 P8]. split; try assumption.
  - rewrite (cb_clean _ _ _ A); [exact P3|]. intros [[?|[[? ?]|[?|?]]]|(? & _ & ?)]; discriminate.
  - rewrite (cb_plain _ _ _ A); [exact P4| |exact I]. intros [[?|[[? ?]|[?|?]]]|(? & _ & ?)]; discriminate.
  - intros i x Hx. rewrite !(cb_plain _ _ _ A); try exact I; try (intros [[?|[[? ?]|[?|?]]]|(? & _ & ?)]; discriminate). apply P5, Hx.
  - intros x Hx. rewrite Ex by exact Hx. apply P8, Hx.
Qed.

(** A loop that meets no reference to another call. *)
Lemma wpx_free rec n rest i (Q : N -> mem -> Prop) (m : mem) : (length rest < n)%nat ->
  clean (m (LK me)) = kenc Undecided q -> m (LKCount me) = N.of_nat (i + length rest) -> words_at me m i rest -> NoDup (map o_off rest) ->
  (forall x, In x rest -> o_off x < m_size C /\ mval (o_old x)) -> (forall x, In x rest -> mval (contents m (o_off x))) ->
  wseq m me + 2 * N.of_nat (length rest) < 2 ^ seqSize P ->
  (forall st m', cleaned_but (placed me rest) m m' -> put_in (contents m) (contents m) rest m' st -> Q st m') ->
  wp (place C n rec me d i false) Q m.
Proof.
  intros Hn Hk Hc Hw Hnd Hr Hv Hsq H. apply (wpc_place C HC me me q Hme Hme Hq rec n rest i); [exact Hn|exact Hk|exact Hc|exact Hw|exact Hnd|exact Hr| |exact Hsq|].
  { intros x Hx. right. apply Hv, Hx. }
  assert (Hnk : forall x, In x rest -> (contents m (o_off x) =? K') = false). { intros x Hx. apply N.eqb_neq. intros E. apply (K_mval C HC me q Hme Hq). rewrite <- E. apply Hv, Hx. }
  assert (Hf : forallb (fits C me q m) rest = all_match (contents m) rest).
  { unfold all_match. clear - Hnk. induction rest as [|x rest IH]; [reflexivity|]. cbn. unfold fits at 1. rewrite Hnk by (left; reflexivity). cbn. f_equal. apply IH. intros y Hy. apply Hnk. right. exact Hy. }
  rewrite Hf. intros m' A Ins Sall _. apply (H _ m' A). split; [| |exact Sall|reflexivity].
  - intros j Hj. apply (cb_contents _ _ _ A). intros [[?|[[? ?]|[?|?]]]|(x & Hx & E)]; try discriminate. injection E as ->. apply Hj, in_map, Hx.
  - intros x Hx. destruct (Ins x Hx) as [[E F]|E]; [left; split; [exact E|]|right; exact E]. unfold fits in F. rewrite (Hnk x Hx) in F. apply N.eqb_eq, F.
Qed.

Lemma wpx_place n2 n rest i (Q : N -> mem -> Prop) (m : mem) : (length ws < n2)%nat -> (S (length rest) < n)%nat ->
  clean (m (LK me)) = kenc Undecided q -> m (LKCount me) = N.of_nat (i + length rest) -> words_at me m i rest -> strictly_sorted rest = true -> NoDup (map o_off rest) ->
  (forall x, In x rest -> o_off x < m_size C /\ mval (o_old x)) -> (forall x, In x rest -> contents m (o_off x) = K \/ mval (contents m (o_off x))) ->
  pending C m s t ws -> refs m -> (exists c, In c rest /\ contents m (o_off c) = K) ->
  wseq m me + 2 * N.of_nat (length rest + length ws + 1) < 2 ^ seqSize P ->
  (forall st m', cleaned_but (conflict_cells rest) m m' -> met m rest st m' \/ unmet m rest st m' -> Q st m') ->
  wp (place C n (fun d' a => pmwcas C (S n2) me d' (Some a)) me d i false) Q m.
Proof.
  intros Hn2. revert n i Q m. induction rest as [|x rest IH]; intros n i Q m Hn Hk Hc Hkw Hsr Hnd Hrs Ha Hp Hr Hex Hsq H; [destruct Hex as (? & [] & _)|].
  pose proof Hp as [P1 P2 P3 P4 P5 P6 P7 P8]. destruct n as [|n]; [lia|]. set (rec := fun d' a => pmwcas C (S n2) me d' (Some a)) in *.
  cbn [place]. cbn [d_tid call_ref]. change (mkDesc false true false q me) with d. apply mwp_bind. eapply wpc_more; [exact Hc|].
  rewrite (proj2 (N.ltb_lt _ _)) by (cbn; lia). cbn [negb]. pose proof Hkw as Hkw0. apply words_cons in Hkw as [(K1 & K2 & K3) Hkw].
  destruct (kenc_facts Undecided q eq_refl (seq_61 _ _ HC Hq)) as (D0 & E0 & F0).
  apply mwp_bind. unfold load_word. do 3 (apply mwp_bind, mwp_load; [exact I|]). cbn [mwp]. rewrite K1, K2, K3.
  destruct (Hrs x (or_introl eq_refl)) as [Hx Hold]. pose proof (Ha x (or_introl eq_refl)) as Hvx.
  cbn [length] in Hsq, Hn. apply mwp_bind, wph_createW; [exact Hme|exact Hme|].
  intros m1 s1 Hm1 Es1 Hs1 W1 W2 W3 W4 W5. cbn [o_off o_old o_new call_ref d_seq] in W1, W2, W3, W4.
  assert (Es1' : s1 = wseq m me + 2). { rewrite Es1. apply N.mod_small. apply (seq_63 _ _ HC). lia. }
  rewrite (N.mod_small s1) by (rewrite Es1'; lia).
  assert (A1 : cleaned_but (wcell me) m m1).
  { intros l. unfold wcell. destruct (decide (l = LW me)); [tauto|]. destruct (decide (l = LWSeq me)); [tauto|]. destruct (decide (l = LWTid me)); [tauto|].
    destruct l as [?|?|?|? ? ?|?|u f|?|?]; try (right; left; apply Hm1; congruence).
    destruct (decide (u = me)) as [->|Hu]; [left; right; left; eexists; reflexivity|]. right; left; apply Hm1; congruence. }
  assert (Ec1 : forall j, contents m1 j = contents m j). { intros j. apply (cb_contents _ _ _ A1). intros [?|[[? ?]|[?|?]]]; discriminate. }
  assert (Hk1 : clean (m1 (LK me)) = kenc Undecided q). { rewrite (cb_clean _ _ _ A1); [exact Hk|]. intros [?|[[? ?]|[?|?]]]; discriminate. }
  assert (G1 : word_ok C m1 me). { split; rewrite ?W1, ?W2, ?W4, ?W5, ?Hs1; [exact Hme|rewrite Es1'; lia|exact Hx|exact Hme|exact Hq|apply mval_clean, Hold]. }
  assert (U1 : outcome C m1 me = K').
  { unfold outcome, under_way. rewrite W4, W5. unfold kseq, kstat. change (km_seq (kmut_decode (m1 (LK me)))) with (sq (m1 (LK me))). change (km_status (kmut_decode (m1 (LK me)))) with (stt (m1 (LK me))).
    rewrite <- (sq_clean (m1 (LK me))), <- (stt_clean (m1 (LK me))), Hk1. unfold sq, stt. rewrite D0. cbn [km_seq km_status]. rewrite !N.eqb_refl. reflexivity. }
  destruct (K_facts C HC t s P1 P2) as (Kc & Kk & Kr & Kd). pose proof (K_K' P1 P2) as HKK.
  assert (HK'v : ~ mval K') by (apply (K_mval C HC me q Hme Hq)). assert (HKv : ~ mval K) by (apply (K_mval C HC t s P1 P2)).
  apply mwp_bind. destruct n as [|n]; [lia|]. rewrite <- Hs1.
  eapply (wph_install1 C HC n me); [exact G1| |].
  { rewrite W1, Ec1, isMarked_rdcss. destruct Hvx as [-> |(_ & _ & _ & Hv)]; [exact Kr|exact Hv]. }
  rewrite W1, W2, U1, !Ec1. intros m2 A2 E2. cbn [negb]. apply mwp_bind, mwp_load; [exact I|]. cbn [d_tid word_ref].
  assert (W2' : m2 (LWWord me WOld) = o_old x). { rewrite (cb_plain _ _ _ A2); [exact W2|discriminate|exact I]. }
  rewrite W2'.
  assert (A12 : cleaned_but (placed me [x]) m m2).
  { eapply cleaned_trans; [eapply cleaned_weaken; [|exact A1]|eapply cleaned_weaken; [|exact A2]]; intros l Hl; [left; exact Hl|]. right. exists x. split; [left; reflexivity|exact Hl]. }
  assert (Ec2 : forall j, j <> o_off x -> contents m2 j = contents m j). { intros j Hj. rewrite <- Ec1. apply (cb_contents _ _ _ A2). intros E. injection E. exact Hj. }
  assert (Q2 : wseq m2 me = wseq m me + 2). { rewrite (ca_wseq m1 m2 (at_in_arr _ _ _ A2)), Hs1. exact Es1'. }
  assert (Hk2 : clean (m2 (LK me)) = kenc Undecided q) by (rewrite (cb_clean _ _ _ A2) by discriminate; exact Hk1).
  assert (Hc2 : m2 (LKCount me) = N.of_nat (i + S (length rest))). { rewrite (cb_plain _ _ _ A12); [exact Hc| |exact I]. intros [[?|[[? ?]|[?|?]]]|(? & _ & ?)]; discriminate. }
  assert (Hkw2 : words_at me m2 i (x :: rest)). { intros k y Hy. rewrite !(cb_plain _ _ _ A12); try exact I; try (intros [[?|[[? ?]|[?|?]]]|(? & _ & ?)]; discriminate). apply Hkw0, Hy. }
  pose proof Hnd as Hnd0. change (NoDup (o_off x :: map o_off rest)) in Hnd0. apply NoDup_cons in Hnd0 as [Hni Hnd']. rewrite elem_of_list_In in Hni.
  assert (Hnx : forall y, In y rest -> o_off y <> o_off x) by (intros y Hy E; apply Hni; rewrite <- E; apply in_map, Hy).
  assert (HA12 : cleaned_but (placed me (x :: rest)) m m2). { eapply cleaned_weaken; [|exact A12]. intros l [Hl|(y & [<-|[]] & El)]; [left; exact Hl|right; exists x; split; [left; reflexivity|exact El]]. }
  destruct (N.eqb_spec (contents m (o_off x)) (o_old x)) as [Em|Em].
  - (* the word has the expected value *)
    destruct Hex as (c & [<-|Hcin] & Hcv); [exfalso; apply HKv; rewrite <- Hcv, Em; exact Hold|].
    assert (Hxk : contents m (o_off x) <> K) by (intros E; apply HKv; rewrite <- E, Em; exact Hold).
    assert (Hxw : ~ In (o_off x) (map o_off ws)) by (apply (refs_out m x (o_off c) Hr Hxk Hcv), (sorted_head _ _ Hsr c Hcin)).
    assert (Ew : forall y, In y ws -> contents m2 (o_off y) = contents m (o_off y)). { intros y Hy. apply Ec2. intros E. apply Hxw. rewrite <- E. apply in_map, Hy. }
    destruct (after_ext m m2 P6 Ew) as [Emm Eaf].
    assert (Hr2 : refs m2). { intros j. destruct (N.eq_dec j (o_off x)) as [->|Hj]; [rewrite E2|rewrite Ec2 by exact Hj; apply Hr]. split; [intros E; exfalso; apply HKK; congruence|].
      intros Hi. exfalso. apply Hxw. rewrite Hws, map_app, in_app_iff. left. exact Hi. }
    assert (Haft : forall j, j <> o_off x -> after_call C m2 s t ws j = after_call C m s t ws j).
    { intros j Hj. destruct (in_dec N.eq_dec j (map o_off ws)) as [Hi|Hi]; [apply in_map_iff in Hi as (y & <- & Hy); apply Eaf, Hy|]. rewrite !after_out by assumption. apply Ec2, Hj. }
    assert (Haftx : after_call C m s t ws (o_off x) = o_old x) by (rewrite after_out by assumption; exact Em).
    assert (Haftx2 : after_call C m2 s t ws (o_off x) = K') by (rewrite after_out by assumption; exact E2).
    assert (Hund : forall j, j <> o_off x -> undone C m2 s t ws j = undone C m s t ws j) by (intros j Hj; apply undone_ext, Ec2, Hj).
    assert (Hundx : undone C m s t ws (o_off x) = o_old x) by (unfold undone; rewrite (proj2 (N.eqb_neq _ _) Hxk); exact Em).
    apply (IH (S n) (S i)); [lia|exact Hk2|rewrite Hc2; f_equal; lia|apply words_cons in Hkw2; apply Hkw2|eapply sorted_tail; exact Hsr|exact Hnd'| | |eapply pending_frame; eassumption|exact Hr2| |rewrite Q2; lia|].
    + intros y Hy. apply Hrs. right. exact Hy.
    + intros y Hy. rewrite Ec2 by (apply Hnx, Hy). apply Ha. right. exact Hy.
    + exists c. split; [exact Hcin|]. rewrite Ec2 by (apply Hnx, Hcin). exact Hcv.
    + intros st m' A' [[Hst [O1 O2 O3 O4]]|[B' [[O1 O2 O3 O4] O5]]].
      * assert (Emr : all_match (after_call C m2 s t ws) rest = all_match (after_call C m s t ws) (x :: rest)).
        { unfold all_match. cbn [forallb]. rewrite Haftx, N.eqb_refl. cbn [andb]. apply match_ext. intros y Hy. apply Haft, Hnx, Hy. }
        apply H.
        { eapply cleaned_trans; [eapply cleaned_weaken; [|exact HA12]; intros l Hl; left; exact Hl|]. eapply cleaned_weaken; [|exact A']. intros l [[Hl|(y & Hy & El)]|Hl]; [left; left; exact Hl|left; right; exists y; split; [right; exact Hy|exact El]|right; exact Hl]. }
        left. split; [rewrite <- Emm; exact Hst|]. split.
        -- intros j Hj. rewrite O1 by (intros F; apply Hj; right; exact F). apply Haft. intros ->. apply Hj. left. reflexivity.
        -- intros y [<-|Hy].
           ++ left. split; [rewrite O1 by exact Hni; exact Haftx2|exact Haftx].
           ++ specialize (O2 y Hy). rewrite Haft in O2 by (apply Hnx, Hy). exact O2.
        -- rewrite <- Emr. intros Hall y [<-|Hy]; [rewrite O1 by exact Hni; exact Haftx2|apply O3; assumption].
        -- rewrite <- Emr. exact O4.
      * assert (Emr : all_match (undone C m2 s t ws) rest = all_match (undone C m s t ws) (x :: rest)).
        { unfold all_match. cbn [forallb]. rewrite Hundx, N.eqb_refl. cbn [andb]. apply match_ext. intros y Hy. apply Hund, Hnx, Hy. }
        assert (AB : cleaned_but (placed me (x :: rest)) m m').
        { eapply cleaned_trans; [exact HA12|]. eapply cleaned_weaken; [|exact B']. intros l [Hl|(y & Hy & El)]; [left; exact Hl|right; exists y; split; [right; exact Hy|exact El]]. }
        apply H; [eapply cleaned_weaken; [|exact AB]; intros l Hl; left; exact Hl|]. right. split; [exact AB|]. split.
        -- split.
           ++ intros j Hj. rewrite O1 by (intros F; apply Hj; right; exact F). apply Ec2. intros ->. apply Hj. left. reflexivity.
           ++ intros y [<-|Hy]; [left; split; [rewrite O1 by exact Hni; exact E2|exact Em]|]. specialize (O2 y Hy). rewrite Ec2 in O2 by (apply Hnx, Hy). exact O2.
           ++ rewrite <- Emr. intros Hall y [<-|Hy]; [rewrite O1 by exact Hni; exact E2|apply O3; assumption].
           ++ rewrite <- Emr. exact O4.
        -- intros Est y [<-|Hy]; [exact Hxk|]. rewrite <- Ec2 by (apply Hnx, Hy). apply O5; assumption.
  - destruct Hvx as [Ek|Hv].
    + (* the word refers to the other call *)
      rewrite Ek in E2 |- *. rewrite Kd. cbn [d_isKCAS call_ref d_isDirty d_tid d_seq]. apply mwp_bind. cbn [mwp].
      rewrite (proj2 (N.eqb_neq t me)) by congruence. cbn [andb].
      apply mwp_bind. destruct (words_cons _ _ _ _ _ Hkw2) as [(K1' & _ & _) _]. eapply wpc_word_address; [exact K1'|exact Hx|]. change (mkDesc false true false s t) with (call_ref s t).
      assert (Ec : forall j, contents m2 j = contents m j). { intros j. destruct (N.eq_dec j (o_off x)) as [->|Hj]; [congruence|apply Ec2, Hj]. }
      destruct (after_ext m m2 P6 (fun y _ => Ec (o_off y))) as [Emm Eaf].
      assert (Hr2 : refs m2) by (intros j; rewrite Ec; apply Hr).
      assert (Hp2 : pending C m2 s t ws) by (eapply pending_frame; [exact A12|intros y _; apply Ec|exact Hp]).
      apply mwp_bind. unfold rec at 1. apply (wpx_help n2 (o_off x)); [exact Hn2|exact Hp2|exact Hr2|rewrite Ec; exact Ek|rewrite Q2; lia|].
      intros r m3 A3 Ek3 Ex3 [Mv _]. rewrite Emm in Ek3.
      assert (Hoff3 : forall l, match l with LArr _ => False | LK u => u <> t | LW _ | LWWord _ _ | LWSeq _ | LWTid _ => False | _ => True end -> ~ completed me t ws l).
      { intros l Hl [[[->|[[? ->]|[->| ->]]]|(? & _ & ->)]| ->]; try exact Hl. apply Hl. reflexivity. }
      assert (Ea3 : forall j, contents m3 j = after_call C m s t ws j).
      { intros j. destruct (in_dec N.eq_dec j (map o_off ws)) as [Hi|Hi].
        - apply in_map_iff in Hi as (y & <- & Hy). rewrite Ex3 by exact Hy. apply Eaf, Hy.
        - rewrite after_out by assumption. rewrite <- Ec. apply (cb_contents _ _ _ A3). intros [[[?|[[? ?]|[?|?]]]|(y & Hy & E)]|?]; try discriminate. injection E as ->. apply Hi, in_map, Hy. }
      apply wpx_retry.
      { rewrite (cb_plain _ _ _ A3) by (exact I || (apply Hoff3; exact I)). rewrite Hc2. apply N.ltb_lt. lia. }
      assert (Hval : forall y, In y (x :: rest) -> mval (contents m3 (o_off y))).
      { intros y Hy. rewrite Ea3. destruct (in_dec N.eq_dec (o_off y) (map o_off ws)) as [Hi|Hi].
        - apply in_map_iff in Hi as (z & <- & Hz). apply after_mval; assumption.
        - rewrite after_out by assumption. destruct (Ha y Hy) as [F|F]; [|exact F]. exfalso. apply Hi. destruct (refs_in m _ Hr F) as (z & Hz & <- & _). apply in_map, Hz. }
      apply (wpx_free rec (S n) (x :: rest) i); [cbn; lia| | | |exact Hnd|exact Hrs|exact Hval|cbn [length]; lia|].
      * rewrite (cb_clean _ _ _ A3) by (apply Hoff3; exact Hne). exact Hk2.
      * rewrite (cb_plain _ _ _ A3) by (exact I || (apply Hoff3; exact I)). exact Hc2.
      * intros k y Hy. rewrite !(cb_plain _ _ _ A3) by (exact I || (apply Hoff3; exact I)). apply Hkw2, Hy.
      * intros st m' A' [O1 O2 O3 O4].
        assert (Emr : all_match (contents m3) (x :: rest) = all_match (after_call C m s t ws) (x :: rest)) by (apply match_ext; intros y _; apply Ea3).
        apply H.
        { eapply cleaned_trans; [eapply cleaned_weaken; [|exact HA12]; intros l Hl; left; exact Hl|]. eapply cleaned_trans; [eapply cleaned_weaken; [|exact A3]; intros l Hl; right; exact Hl|].
          eapply cleaned_weaken; [|exact A']. intros l Hl. left. exact Hl. }
        left. split.
        -- rewrite (cb_clean _ _ _ A'); [exact Ek3|]. intros [[?|[[? ?]|[?|?]]]|(? & _ & ?)]; discriminate.
        -- split.
           ++ intros j Hj. rewrite O1 by exact Hj. apply Ea3.
           ++ intros y Hy. specialize (O2 y Hy). rewrite Ea3 in O2. exact O2.
           ++ rewrite <- Emr. exact O3.
           ++ rewrite <- Emr. exact O4.
    + (* another value *)
      rewrite decode_kcas. destruct (Hv) as (_ & _ & -> & _). cbn [mwp].
      assert (Hxk : contents m (o_off x) <> K) by (intros E; apply HKv; rewrite <- E; exact Hv).
      assert (Em0 : all_match (undone C m s t ws) (x :: rest) = false).
      { unfold all_match. cbn [forallb]. unfold undone at 1. rewrite (proj2 (N.eqb_neq _ _) Hxk), (proj2 (N.eqb_neq _ _) Em). reflexivity. }
      apply H; [eapply cleaned_weaken; [|exact HA12]; intros l Hl; left; exact Hl|]. right. split; [exact HA12|].
      split; [split|discriminate].
      * intros j Hj. apply Ec2. intros ->. apply Hj. left. reflexivity.
      * intros y [<-|Hy]; right; [exact E2|apply Ec2, Hnx, Hy].
      * rewrite Em0. discriminate.
      * rewrite Em0. reflexivity.
Qed.

(** The rest of the call, when the status is known. *)
Lemma wpx_tail n own (r : bool) (Q : bool -> mem -> Prop) (m1 : mem) : (length own < n)%nat -> clean (m1 (LK me)) = kenc Undecided q ->
  m1 (LKCount me) = N.of_nat (length own) -> words_at me m1 0 own -> NoDup (map o_off own) ->
  (forall x, In x own -> o_off x < m_size C /\ mval (o_old x) /\ mval (o_new x)) ->
  (forall m', cleaned_but (fun l : loc => arr_of own l \/ l = LK me) m1 m' -> clean (m' (LK me)) = kenc (if r then Succeeded else Failed) q ->
     (forall x, In x own -> contents m' (o_off x) = if contents m1 (o_off x) =? K' then (if r then o_new x else o_old x) else contents m1 (o_off x)) -> Q r m') ->
  let st := if r then Succeeded else Failed in
  wp ((if (st =? Succeeded)%N then persist_words C n me 0 else MRet tt) ;;;
      let mOld := kmut_encode (mkKmut false Undecided q) in
      let mNew := kmut_encode (mkKmut true st q) in
      c <-- CASField C d mOld mNew (LK me);;
      m_persist (LK me) mNew ;;;
      if negb (snd c) then MRet false
      else finish C n d st 0 ;;; MRet (st =? Succeeded)%N)%mprog Q m1.
Proof.
  intros Hn Hk1 Hc Hw Hnd Hows H st. assert (Hst : st < 4) by (unfold st; destruct r; reflexivity).
  destruct (kenc_facts Undecided q eq_refl (seq_61 _ _ HC Hq)) as (D0 & E0 & F0).
  destruct (kenc_facts st q Hst (seq_61 _ _ HC Hq)) as (D1 & E1 & F1).
  assert (Hsr : (st =? Succeeded) = r) by (unfold st; destruct r; reflexivity).
  assert (Hrest : forall m2, cleaned m1 m2 -> wp (let mOld := kmut_encode (mkKmut false Undecided q) in
      let mNew := kmut_encode (mkKmut true st q) in
      c <-- CASField C d mOld mNew (LK me);;
      m_persist (LK me) mNew ;;;
      if negb (snd c) then MRet false
      else finish C n d st 0 ;;; MRet (st =? Succeeded)%N)%mprog Q m2).
  { intros m2 A2. cbn zeta. fold (kenc Undecided q). apply mwp_bind, wph_CASField; [do 2 eexists; right; reflexivity|exact Hme|exact I|].
    intros m3. unfold now. cbn [call_ref d_seq d_isKCAS d_tid].
    assert (Hk2 : clean (m2 (LK me)) = kenc Undecided q) by (rewrite (cb_clean _ _ _ A2) by tauto; exact Hk1).
    assert (Hks : kseq m2 me = q). { unfold kseq. change (sq (m2 (LK me)) = q). rewrite <- sq_clean, Hk2. unfold sq. rewrite D0. reflexivity. }
    rewrite Hks, Hk2, !N.eqb_refl. intros A3 G3. rewrite F1 in G3. rewrite (dirty_id (dirty _)) in G3 by apply isMarked_dirty_dirty. rewrite F1.
    apply mwp_bind, mwp_persist; [exact I|]. rewrite G3, N.eqb_refl, clean_dirty, E1. intros m4 O4 G4. cbn [snd negb]. change (mkDesc false true false q me) with d. rewrite Hsr. apply mwp_bind.
    assert (A4 : cleaned_but (eq (LK me)) m1 m4).
    { eapply cleaned_trans; [apply cleaned_any, A2|]. eapply cleaned_trans; [exact A3|]. intros l. destruct (decide (LK me = l)) as [<-|Hl]; [left; reflexivity|right; left; apply O4; exact Hl]. }
    assert (Hc4 : forall j, contents m4 j = contents m1 j) by (intros j; apply (cb_contents _ _ _ A4); discriminate).
    apply (wpc_finish C HC me me q Hme Hme Hq n st own); [exact Hn| | | |exact Hnd|exact Hows|].
    - unfold kseq. rewrite G4, D1. reflexivity.
    - rewrite (cb_plain _ _ _ A4) by (discriminate || exact I). exact Hc.
    - intros k x Hx. rewrite !(cb_plain _ _ _ A4) by (discriminate || exact I). apply Hw, Hx.
    - intros m5 A5 G5. cbn [mwp]. apply H.
      + eapply cleaned_trans; [eapply cleaned_weaken; [|exact A4]; intros l <-; right; reflexivity|]. eapply cleaned_weaken; [|exact A5]. intros l Hl. left. exact Hl.
      + rewrite (cb_clean _ _ _ A5) by (intros (? & _ & E); discriminate E). rewrite G4. exact E1.
      + intros x Hx. rewrite G5 by exact Hx. rewrite Hc4, Hsr. reflexivity. }
  rewrite Hsr in Hrest. apply mwp_bind. rewrite Hsr. clearbody st. destruct r.
  - apply (wpc_persist_words C me me q Hme Hme Hq n own); [exact Hn|intros x Hx; apply Hows, Hx|exact Hc|exact Hw|exact Hrest].
  - cbn [mwp]. apply Hrest, cleaned_refl.
Qed.

(** The result of the call, and the array: the call of [t] is over or has not been met. *)
Definition ordered (m : mem) (own : list mword) (r : bool) (m' : mem) : Prop :=
  (r = all_match (after_call C m s t ws) own /\ (forall j, contents m' j = snd (mspec (after_call C m s t ws) (MwCas own)) j) /\
     kseq m' t = s /\ kstat m' t = if all_match (undone C m s t ws) ws then Succeeded else Failed) \/
  (r = all_match (undone C m s t ws) own /\ (forall j, undone C m' s t ws j = snd (mspec (undone C m s t ws) (MwCas own)) j) /\ pending C m' s t ws /\ refs m').

Lemma final_array own c a m1 m' (r : bool) : NoDup (map o_off own) -> put_in c a own m1 (if r then Succeeded else Failed) -> (forall x, In x own -> c (o_off x) <> K') ->
  (forall j, ~ In j (map o_off own) -> contents m' j = contents m1 j) ->
  (forall x, In x own -> contents m' (o_off x) = if contents m1 (o_off x) =? K' then (if r then o_new x else o_old x) else contents m1 (o_off x)) ->
  r = all_match a own /\ (forall j, ~ In j (map o_off own) -> contents m' j = c j) /\ forall x, In x own -> contents m' (o_off x) = if r then o_new x else c (o_off x).
Proof.
  intros Hnd [O1 O2 O3 O4] Hck Eo Ei. assert (Er : r = all_match a own) by (destruct r, (all_match a own); congruence || discriminate O4). split; [exact Er|]. split.
  - intros j Hj. rewrite Eo by exact Hj. apply O1, Hj.
  - intros x Hx. rewrite Ei by exact Hx. destruct r.
    + rewrite (O3 (eq_sym Er) x Hx), N.eqb_refl. reflexivity.
    + destruct (O2 x Hx) as [[-> E]|E]; [rewrite N.eqb_refl; symmetry; exact E|]. rewrite E. rewrite (proj2 (N.eqb_neq _ _) (Hck x Hx)). reflexivity.
Qed.
Lemma snd_mspec a own j : NoDup (map o_off own) -> forall v, (~ In j (map o_off own) -> v = a j) -> (forall x, In x own -> o_off x = j -> v = if all_match a own then o_new x else a j) -> v = snd (mspec a (MwCas own)) j.
Proof.
  intros Hnd v Ho Hi. cbn [mspec]. destruct (in_dec N.eq_dec j (map o_off own)) as [Hj|Hj].
  - apply in_map_iff in Hj as (x & Ex & Hx). specialize (Hi x Hx Ex). destruct (all_match a own); cbn [snd]; [|exact Hi]. rewrite <- Ex, put_all_in by assumption. exact Hi.
  - rewrite (Ho Hj). destruct (all_match a own); cbn [snd]; [|reflexivity]. symmetry. apply put_all_out, Hj.
Qed.

Lemma wpx_call n own (Q : bool -> mem -> Prop) (m : mem) : (length ws < n)%nat -> (length own < n)%nat ->
  clean (m (LK me)) = kenc Undecided q -> m (LKCount me) = N.of_nat (length own) -> words_at me m 0 own -> strictly_sorted own = true -> NoDup (map o_off own) ->
  (forall x, In x own -> o_off x < m_size C /\ mval (o_old x) /\ mval (o_new x)) -> (forall x, In x own -> contents m (o_off x) = K \/ mval (contents m (o_off x))) ->
  pending C m s t ws -> refs m -> wseq m me + 2 * N.of_nat (length own + length ws + 1) < 2 ^ seqSize P ->
  (forall r m', ordered m own r m' -> Q r m') ->
  wp (pmwcas C (S (S n)) me d None) Q m.
Proof.
  intros Hn Hno Hk Hc Hkw Hso Hnd Hows Ha Hp Hr Hsq H. pose proof Hp as [P1 P2 P3 P4 P5 P6 P7 P8]. remember (S n) as n1 eqn:En1. cbn [pmwcas]. cbn [d_tid d_seq call_ref]. change (mkDesc false true false q me) with d.
  apply mwp_bind, wph_thread; [exact Hme|]. apply mwp_bind. cbn [mwp]. pose proof (K_K' P1 P2) as HKK.
  assert (HK'v : ~ mval K') by (apply (K_mval C HC me q Hme Hq)). assert (HKv : ~ mval K) by (apply (K_mval C HC t s P1 P2)).
  assert (Hmk' : forall x, In x own -> contents m (o_off x) <> K') by (intros x Hx E; destruct (Ha x Hx) as [F|F]; [congruence|apply HK'v; rewrite <- E; exact F]).
  assert (Hak' : forall x, In x own -> after_call C m s t ws (o_off x) <> K').
  { intros x Hx. destruct (in_dec N.eq_dec (o_off x) (map o_off ws)) as [Hi|Hi]; [|rewrite after_out by assumption; apply Hmk', Hx].
    apply in_map_iff in Hi as (y & <- & Hy). intros E. apply HK'v. rewrite <- E. apply after_mval; assumption. }
  apply mwp_bind.
  assert (G : forall st m1, cleaned_but (conflict_cells own) m m1 -> met m own st m1 \/ unmet m own st m1 ->
    wp ((if (st =? Succeeded)%N then persist_words C n1 me 0 else MRet tt) ;;;
      let mOld := kmut_encode (mkKmut false Undecided q) in
      let mNew := kmut_encode (mkKmut true st q) in
      c <-- CASField C d mOld mNew (LK me);;
      m_persist (LK me) mNew ;;;
      if negb (snd c) then MRet false
      else finish C n1 d st 0 ;;; MRet (st =? Succeeded)%N)%mprog Q m1).
  { intros st m1 A1 Hm. assert (Est : exists r : bool, st = if r then Succeeded else Failed) by (destruct Hm as [[_ [_ _ _ E]]|[_ [[_ _ _ E] _]]]; eexists; exact E). destruct Est as [r ->].
    assert (Hoff : forall l, match l with LArr _ => False | LK u => u <> t | LW _ | LWWord _ _ | LWSeq _ | LWTid _ => False | _ => True end -> ~ conflict_cells own l).
    { intros l Hl [[[->|[[? ->]|[->| ->]]]|(? & _ & ->)]|[[[->|[[? ->]|[->| ->]]]|(? & _ & ->)]| ->]]; try exact Hl. apply Hl. reflexivity. }
    apply (wpx_tail n1 own r); [lia|rewrite (cb_clean _ _ _ A1) by (apply Hoff; exact Hne); exact Hk|rewrite (cb_plain _ _ _ A1) by (exact I || (apply Hoff; exact I)); exact Hc| |exact Hnd|exact Hows|].
    { intros k x Hx. rewrite !(cb_plain _ _ _ A1) by (exact I || (apply Hoff; exact I)). apply Hkw, Hx. }
    intros m' A' _ E'. apply H.
    assert (Eo : forall j, ~ In j (map o_off own) -> contents m' j = contents m1 j).
    { intros j Hj. apply (cb_contents _ _ _ A'). intros [(x & Hx & E)|E]; [|discriminate]. injection E as ->. apply Hj, in_map, Hx. }
    assert (Hkt : ~ (fun l : loc => arr_of own l \/ l = LK me) (LK t)) by (intros [(? & _ & E)|E]; [discriminate|congruence]).
    destruct Hm as [[Hst Hpi]|[B1 [Hpi Hsuc]]].
    - left. destruct (final_array own _ _ m1 m' r Hnd Hpi Hak' Eo E') as (Er & F1 & F2). split; [exact Er|]. split.
      + intros j. apply snd_mspec; [exact Hnd|apply F1|]. intros x Hx <-. rewrite <- Er. apply F2, Hx.
      + set (r0 := all_match (undone C m s t ws) ws) in *. unfold kseq, kstat. change (sq (m' (LK t)) = s /\ stt (m' (LK t)) = if r0 then Succeeded else Failed).
        rewrite <- sq_clean, <- stt_clean, (cb_clean _ _ _ A' _ Hkt), Hst.
        destruct (kenc_facts (if r0 then Succeeded else Failed) s ltac:(destruct r0; reflexivity) (seq_61 _ _ HC P2)) as (D & _). unfold sq, stt. rewrite D. split; reflexivity.
    - right. destruct (final_array own _ _ m1 m' r Hnd Hpi Hmk' Eo E') as (Er & F1 & F2). split; [exact Er|].
      assert (Hnk : r = true -> forall x, In x own -> contents m (o_off x) <> K) by (intros ->; apply Hsuc; reflexivity).
      assert (Huo : forall j, ~ In j (map o_off own) -> undone C m' s t ws j = undone C m s t ws j) by (intros j Hj; apply undone_ext, F1, Hj).
      assert (Hui : forall x, In x own -> undone C m' s t ws (o_off x) = if r then o_new x else undone C m s t ws (o_off x)).
      { intros x Hx. destruct r; [|apply undone_ext, F2, Hx]. unfold undone. rewrite F2 by exact Hx.
        rewrite (proj2 (N.eqb_neq _ _)); [reflexivity|]. intros E. apply HKv. rewrite <- E. apply Hows, Hx. }
      assert (Hval : forall j, contents m' j = contents m j \/ (mval (contents m' j) /\ contents m j <> K)).
      { intros j. destruct (in_dec N.eq_dec j (map o_off own)) as [Hj|Hj]; [|left; apply F1, Hj]. apply in_map_iff in Hj as (x & <- & Hx).
        rewrite F2 by exact Hx. destruct r; [|left; reflexivity]. right. split; [apply Hows, Hx|apply Hnk; [reflexivity|exact Hx]]. }
      split; [|split].
      + intros j. apply snd_mspec; [exact Hnd|apply Huo|]. intros x Hx <-. rewrite <- Er. apply Hui, Hx.
      + assert (Hpm : forall l, match l with LKCount _ | LKWord _ _ _ => True | _ => False end -> m' l = m l).
        { intros l Hl. rewrite (cb_plain _ _ _ A'); [apply (cb_plain _ _ _ B1)| |]; try (destruct l; contradiction || exact I).
          - intros [[->|[[? ->]|[->| ->]]]|(? & _ & ->)]; exact Hl.
          - intros [(? & _ & ->)| ->]; exact Hl. }
        split; try assumption.
        * rewrite (cb_clean _ _ _ A' _ Hkt), (cb_clean _ _ _ B1); [exact P3|]. intros [[?|[[? ?]|[?|?]]]|(? & _ & ?)]; discriminate.
        * rewrite Hpm by exact I. exact P4.
        * intros i x Hx. rewrite !Hpm by exact I. apply P5, Hx.
        * intros x Hx. destruct (Hval (o_off x)) as [->|[V _]]; [apply P8, Hx|right; exact V].
      + intros j. destruct (Hval j) as [->|[V F]]; [apply Hr|]. split; intros E; exfalso; [apply HKv; rewrite <- E; exact V|apply F, Hr, E]. }
  assert (Hcase : (exists c, In c own /\ contents m (o_off c) = K) \/ forall x, In x own -> mval (contents m (o_off x))).
  { clear - Ha. induction own as [|x own IH]; [right; intros x []|]. destruct (Ha x (or_introl eq_refl)) as [E|V]; [left; exists x; split; [left; reflexivity|exact E]|].
    destruct IH as [(c & Hc & E)|V']; [intros y Hy; apply Ha; right; exact Hy|left; exists c; split; [right; exact Hc|exact E]|right]. intros y [<-|Hy]; [exact V|apply V', Hy]. }
  destruct Hcase as [Hex|Hval].
  - rewrite En1 in G |- *. apply (wpx_place n (S n) own 0); [exact Hn|lia|exact Hk|exact Hc|exact Hkw|exact Hso|exact Hnd|intros x Hx; split; apply Hows, Hx|exact Ha|exact Hp|exact Hr|exact Hex|exact Hsq|exact G].
  - apply (wpx_free (fun d' a => pmwcas C n1 me d' (Some a)) n1 own 0); [lia|exact Hk|exact Hc|exact Hkw|exact Hnd|intros x Hx; split; apply Hows, Hx|exact Hval|lia|].
    intros st m1 A1 Hpi. apply G; [eapply cleaned_weaken; [|exact A1]; intros l Hl; left; exact Hl|]. right. split; [exact A1|].
    assert (Hnk : forall x, In x own -> contents m (o_off x) <> K) by (intros x Hx E; apply HKv; rewrite <- E; apply Hval, Hx).
    split; [|intros _; exact Hnk].
    assert (Em : all_match (contents m) own = all_match (undone C m s t ws) own) by (apply match_ext; intros x Hx; unfold undone; rewrite (proj2 (N.eqb_neq _ _) (Hnk x Hx)); reflexivity).
    destruct Hpi as [O1 O2 O3 O4]. rewrite Em in O3, O4. split; assumption.
Qed.
End Conflict.

Lemma strongly_sorted l : StronglySorted N.lt (map o_off l) -> strictly_sorted l = true.
Proof.
  induction l as [|x l IH]; [reflexivity|]. cbn [map]. intros H. apply StronglySorted_inv in H as [H1 H2]. destruct l as [|y l]; [reflexivity|].
  change ((o_off x <? o_off y) && strictly_sorted (y :: l) = true). rewrite IH by exact H1. rewrite andb_true_r. apply N.ltb_lt. cbn [map] in H2. apply Forall_inv in H2. exact H2.
Qed.
Lemma c62_conflict C n me s t ws pre post ws' m : mcfg_ok C -> me < 2 ^ m_log C -> me <> t -> (length ws + length ws' + 3 <= n)%nat ->
  pending C m s t ws -> StronglySorted N.lt (map o_off ws) -> ws = pre ++ post -> refers C m s t pre ->
  let o := MwCas ws' in legal_mop C o -> Forall (fun x => mval (o_old x)) ws' ->
  (forall x, In x ws' -> contents m (o_off x) = as_word C (call_ref s t) \/ mval (contents m (o_off x))) ->
  kseq m me + 2 < 2 ^ seqSize (2 ^ m_log C) -> wseq m me + 2 * N.of_nat (length ws' + length ws + 1) < 2 ^ seqSize (2 ^ m_log C) ->
  let a := after_call C m s t ws in let b := undone C m s t ws in
  exists m',
    (mrun (mop_prog C n me o) m = MOk (fst (mspec a o)) m' /\ (forall j, contents m' j = snd (mspec a o) j) /\
       kseq m' t = s /\ kstat m' t = if all_match b ws then Succeeded else Failed) \/
    (mrun (mop_prog C n me o) m = MOk (fst (mspec b o)) m' /\ (forall j, undone C m' s t ws j = snd (mspec b o) j) /\
       pending C m' s t ws /\ refers C m' s t pre).
Proof.
  intros HC Hme Hne Hn Hp Hs Hws Hr o [Hsz (Hnil & HK & Hnd & Hnew)] Hold Ha Hks Hwq a b.
  pose proof Hp as [P1 P2 P3 P4 P5 P6 P7 P8]. apply strongly_sorted in Hs.
  set (own := sort_words ws'). pose proof (sort_words_perm ws') as Hperm. fold own in Hperm.
  assert (Hin : forall x, In x own <-> In x ws') by (intros x; split; apply Permutation.Permutation_in; [exact Hperm|apply Permutation.Permutation_sym, Hperm]).
  assert (Hlen : length own = length ws') by apply sort_words_length.
  assert (Hndo : NoDup (map o_off own)) by (rewrite (Permutation.Permutation_map o_off Hperm); exact Hnd).
  destruct (mwp_run any (mop_prog C n me o) (fun r m' => exists m1 r', r = MBool r' /\ (forall j, contents m1 j = contents m j) /\ ordered C t s ws pre m1 own r' m') m) as (r & m' & E & m1 & r' & -> & Ec & Ho).
  - cbn [o mop_prog]. apply mwp_bind. unfold PMwCAS. apply mwp_bind, mwp_assert; [destruct ws'; [contradiction|reflexivity]|].
    apply mwp_bind. apply (mwp_fp (MwSeq.own me (fun _ => False))); [intros l _; exact I|].
    assert (Eks : km_seq (kmut_decode (clean (m (LK me)))) = kseq m me) by (change (sq (clean (m (LK me))) = sq (m (LK me))); apply sq_clean).
    apply (wp_createK C HC me Hme (fun _ => False) ws' (kseq m me)); [exact Hnil|exact HK|exact Hnd|exact Eks|exact Hks|].
    intros m1 Hon Ek1 Ec1 Hw1. change (kdesc (kseq m me + 2) me) with (call_ref (kseq m me + 2) me). fold own in Hw1.
    assert (Eq : forall l, ~ kset me l -> m1 l = m l) by exact Hon.
    assert (Ecc : forall j, contents m1 j = contents m j) by (intros j; unfold contents; rewrite Eq; [reflexivity|exact (fun x => x)]).
    destruct n as [|[|n]]; [lia|lia|].
    apply (wpx_call C HC me (kseq m me + 2) t s Hme Hks Hne ws pre post Hws Hs n own); [lia|lia| |rewrite Hlen; exact Ec1| |apply sort_words_sorted, Hnd|exact Hndo| | | | | |].
    + rewrite Ek1. apply (kenc_facts Undecided _ eq_refl (seq_61 _ _ HC Hks)).
    + intros k x Hx. apply Hw1. clear - Hx. revert k Hx. induction own as [|y l IH]; intros [|k] Hx; try discriminate Hx; [exact Hx|apply IH, Hx].
    + intros x Hx. apply Hin in Hx. split; [apply Hsz, in_map, Hx|]. rewrite List.Forall_forall in Hold, Hnew. split; [apply Hold, Hx|apply Hnew, Hx].
    + intros x Hx. rewrite Ecc. apply Ha, Hin, Hx.
    + split; try assumption.
      * rewrite Eq by (cbn; congruence). exact P3.
      * rewrite Eq by (cbn; congruence). exact P4.
      * intros i x Hx. rewrite !Eq by (cbn; congruence). apply P5, Hx.
      * intros x Hx. rewrite Ecc. apply P8, Hx.
    + intros j. rewrite Ecc. apply Hr.
    + rewrite Hlen. unfold wseq in *. rewrite Eq by exact (fun x => x). exact Hwq.
    + intros r m' Ho. cbn [mwp]. exists m1, r. auto.
  - assert (Eu : forall j, undone C m1 s t ws j = b j) by (intros j; apply undone_ext, Ec).
    assert (Emb : all_match (undone C m1 s t ws) ws = all_match b ws) by (apply match_ext; intros x _; apply Eu).
    assert (Eaf : forall j, after_call C m1 s t ws j = a j).
    { intros j. unfold a, after_call. cbn [mspec]. fold b. rewrite Emb. destruct (all_match b ws); cbn [snd]; [|apply Eu].
      destruct (in_dec N.eq_dec j (map o_off ws)) as [Hj|Hj]; [apply in_map_iff in Hj as (x & <- & Hx); rewrite !put_all_in by assumption; reflexivity|rewrite !put_all_out by exact Hj; apply Eu]. }
    assert (Hms : forall f g, (forall j, f j = g j) -> all_match f own = all_match g ws' /\ forall j, snd (mspec f (MwCas own)) j = snd (mspec g (MwCas ws')) j).
    { intros f g Hfg. assert (Eo : all_match f own = all_match g own) by (apply match_ext; intros x _; apply Hfg).
      assert (Eg : all_match g own = all_match g ws'). { pose proof (all_match_iff g own) as I1. pose proof (all_match_iff g ws') as I2. apply Bool.eq_iff_eq_true. rewrite I1, I2. split; intros G x Hx; apply G, Hin, Hx. }
      split; [congruence|]. intros j. rewrite <- (mspec_perm g own ws' j Hperm Hndo). cbn [mspec]. rewrite Eo. destruct (all_match g own); cbn [snd]; [|apply Hfg].
      destruct (in_dec N.eq_dec j (map o_off own)) as [Hj|Hj]; [apply in_map_iff in Hj as (x & <- & Hx); rewrite !put_all_in by assumption; reflexivity|rewrite !put_all_out by exact Hj; apply Hfg]. }
    assert (Hf : forall g, fst (mspec g o) = MBool (all_match g ws')) by (intros g; unfold o; cbn [mspec]; destruct (all_match g ws'); reflexivity).
    exists m'. destruct Ho as [(Er & Hc & Hq & Hst)|(Er & Hc & Hp' & Hr')].
    + left. destruct (Hms _ a Eaf) as [E1 E2]. rewrite Hf, <- E1, <- Er. split; [exact E|]. split; [intros j; rewrite Hc; apply E2|]. split; [exact Hq|]. rewrite <- Emb. exact Hst.
    + right. destruct (Hms _ b Eu) as [E1 E2]. rewrite Hf, <- E1, <- Er. split; [exact E|]. split; [intros j; rewrite Hc; apply E2|]. split; assumption.
Qed.

(** Thread 0 calls with the word 0, which refers to the call of thread 1, and with words that do not. *)
Definition mx_after : list mword := [mkWord 2 0 32; mkWord 0 8 24].
Definition mx_before : list mword := [mkWord 1 0 40; mkWord 2 0 32].
Lemma mx_conflict : pending mx_C (mx_cut 60) 2 1 mx_ws /\ StronglySorted N.lt (map o_off mx_ws) /\ refers mx_C (mx_cut 60) 2 1 [mkWord 0 0 8] /\
  (forall ws', ws' = mx_after \/ ws' = mx_before -> legal_mop mx_C (MwCas ws') /\ Forall (fun x => mval (o_old x)) ws' /\
     forall x, In x ws' -> contents (mx_cut 60) (o_off x) = as_word mx_C (call_ref 2 1) \/ mval (contents (mx_cut 60) (o_off x))) /\
  kseq (mx_cut 60) 0 + 2 < 2 ^ seqSize (2 ^ m_log mx_C) /\ wseq (mx_cut 60) 0 + 2 * 5 < 2 ^ seqSize (2 ^ m_log mx_C) /\
  (exists m, mrun (mop_prog mx_C mx_fuel 0 (MwCas mx_after)) (mx_cut 60) = MOk (MBool true) m /\ map (contents m) [0; 1; 2; 3] = [24; 16; 32; 0] /\ kstat m 1 = Succeeded) /\
  (exists m, mrun (mop_prog mx_C mx_fuel 0 (MwCas mx_before)) (mx_cut 60) = MOk (MBool true) m /\ map (undone mx_C m 2 1 mx_ws) [0; 1; 2; 3] = [0; 40; 32; 0] /\ kstat m 1 = Undecided).
Proof.
  split; [exact (proj1 mx_pending)|]. split; [repeat constructor|]. split.
  { intros j. cbn [map In o_off]. destruct j as [|p]; [split; [auto|vm_compute; reflexivity]|]. split; [|intros [F|[]]; discriminate F]. vm_compute. discriminate. }
  split.
  { intros ws' [-> | ->]; (split; [split; [intros j [<-|[<-|[]]]; reflexivity|]; split; [discriminate|]; split; [apply Nat.leb_le; reflexivity|]; split; [apply (bool_decide_unpack _); vm_compute; exact I|repeat constructor; value]|]);
    (split; [repeat constructor; value|]); intros x [<-|[<-|[]]]; cbn [o_off]; try (right; vm_compute; repeat split; reflexivity). left. vm_compute. reflexivity. }
  split; [vm_compute; reflexivity|]. split; [vm_compute; reflexivity|].
  split.
  - destruct (mrun (mop_prog mx_C mx_fuel 0 (MwCas mx_after)) (mx_cut 60)) as [r m|e m] eqn:E.
    + exists m. assert (F : match mrun (mop_prog mx_C mx_fuel 0 (MwCas mx_after)) (mx_cut 60) with MOk r m => r = MBool true /\ map (contents m) [0; 1; 2; 3] = [24; 16; 32; 0] /\ kstat m 1 = Succeeded | _ => False end) by (vm_compute; repeat split).
      rewrite E in F. destruct F as (-> & F). split; [reflexivity|exact F].
    + exfalso. assert (F : match mrun (mop_prog mx_C mx_fuel 0 (MwCas mx_after)) (mx_cut 60) with MOk _ _ => True | _ => False end) by (vm_compute; exact Logic.I). rewrite E in F. exact F.
  - destruct (mrun (mop_prog mx_C mx_fuel 0 (MwCas mx_before)) (mx_cut 60)) as [r m|e m] eqn:E.
    + exists m. assert (F : match mrun (mop_prog mx_C mx_fuel 0 (MwCas mx_before)) (mx_cut 60) with MOk r m => r = MBool true /\ map (undone mx_C m 2 1 mx_ws) [0; 1; 2; 3] = [0; 40; 32; 0] /\ kstat m 1 = Undecided | _ => False end) by (vm_compute; repeat split).
      rewrite E in F. destruct F as (-> & F). split; [reflexivity|exact F].
    + exfalso. assert (F : match mrun (mop_prog mx_C mx_fuel 0 (MwCas mx_before)) (mx_cut 60) with MOk _ _ => True | _ => False end) by (vm_compute; exact Logic.I). rewrite E in F. exact F.
Qed.
