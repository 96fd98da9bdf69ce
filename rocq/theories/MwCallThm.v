(** Completing calls that are under way, and recovering from them: the statements about runs. *)
From Coq Require Import NArith Bool List Lia.
From stdpp Require Import base list.
From Verif Require Import Word Bits Codec CodecSpec CodecThm MwCas MwSpec MwWp MwSeq MwRely MwRecover MwHelpSpec MwHelp MwCallSpec MwCall MwStop MwStopRec MwWitness.
Import ListNotations.
Local Open Scope N_scope.

(** ** Helping *)

Section Help.
Context (C : mcfg) (HC : mcfg_ok C).
Local Notation P := (2 ^ m_log C)%N.
Local Notation wp := (mwp any).
Context (me t s : N) (ws : list mword) (Hme : me < P).
Local Notation K := (as_word C (call_ref s t)).

Lemma undone_ext m m' j : contents m' j = contents m j -> undone C m' s t ws j = undone C m s t ws j.
Proof. intros E. unfold undone. rewrite E. reflexivity. Qed.
Lemma after_in m x : NoDup (map o_off ws) -> In x ws ->
  after_call C m s t ws (o_off x) = if all_match (undone C m s t ws) ws then o_new x else undone C m s t ws (o_off x).
Proof. intros Hnd Hx. unfold after_call. cbn [mspec]. destruct (all_match _ _); cbn [snd]; [apply put_all_in; assumption|reflexivity]. Qed.
Lemma after_mval m x : pending C m s t ws -> In x ws -> mval (after_call C m s t ws (o_off x)).
Proof.
  intros [P1 P2 P3 P4 P5 P6 P7 P8] Hx. rewrite after_in by assumption. destruct (P7 x Hx) as (_ & Vo & Vn). destruct (all_match _ _); [exact Vn|].
  unfold undone. destruct (contents m (o_off x) =? K) eqn:E; [rewrite old_of_in by assumption; exact Vo|]. destruct (P8 x Hx) as [F|V]; [apply N.eqb_neq in E; contradiction|exact V].
Qed.
Lemma wp_help n (Q : bool -> mem -> Prop) m : (length ws < n)%nat -> pending C m s t ws -> wseq m me + 2 * N.of_nat (length ws) < 2 ^ seqSize P ->
  (forall m', completes C me m s t ws m' -> Q (all_match (undone C m s t ws) ws) m') -> wp (pmwcas C (S n) me (call_ref s t) None) Q m.
Proof.
  intros Hn Hp Hq H. pose proof Hp as [P1 P2 P3 P4 P5 P6 P7 P8]. apply (wpc_pmwcas C HC me t s Hme P1 P2 n ws); [exact Hn|exact Hp|exact Hq|].
  intros m' A Ek Ex _. apply H. set (r := all_match (undone C m s t ws) ws) in *.
  assert (Hsub : forall l, completed me t ws l -> help_cells me t ws l).
  { intros l [[[->|[[? ->]|[->| ->]]]|(x & Hx & ->)]| ->]; try reflexivity. apply in_map, Hx. }
  split.
  - unfold kseq, kstat. change (sq (m' (LK t)) = s /\ stt (m' (LK t)) = if r then Succeeded else Failed). rewrite <- sq_clean, <- stt_clean, Ek.
    destruct (kenc_facts (if r then Succeeded else Failed) s ltac:(destruct r; reflexivity) (seq_61 _ _ HC P2)) as (D & _). unfold sq, stt. rewrite D. split; reflexivity.
  - intros x Hx. rewrite after_in by assumption. apply Ex, Hx.
  - intros j Hj. apply (cb_contents _ _ _ A). intros Hc. apply Hsub in Hc. contradiction.
  - eapply cleaned_weaken; [exact Hsub|exact A].
Qed.
Lemma pending_clean m m1 : cleaned m m1 -> pending C m s t ws -> pending C m1 s t ws.
Proof.
  intros A [P1 P2 P3 P4 P5 P6 P7 P8]. split; try assumption.
  - rewrite (cb_clean _ _ _ A) by tauto. exact P3.
  - rewrite (cb_plain _ _ _ A) by (exact (fun x => x) || exact I). exact P4.
  - intros i x Hx. rewrite !(cb_plain _ _ _ A) by (exact (fun x => x) || exact I). apply P5, Hx.
  - intros x Hx. rewrite (cb_contents _ _ _ A) by tauto. apply P8, Hx.
Qed.
Lemma completes_clean m m1 m' : cleaned m m1 -> NoDup (map o_off ws) -> completes C me m1 s t ws m' -> completes C me m s t ws m' /\
  all_match (undone C m1 s t ws) ws = all_match (undone C m s t ws) ws /\ forall x, In x ws -> after_call C m1 s t ws (o_off x) = after_call C m s t ws (o_off x).
Proof.
  intros A Hnd [C1 C2 C3 C4]. assert (Eu : forall j, undone C m1 s t ws j = undone C m s t ws j) by (intros j; apply undone_ext, (cb_contents _ _ _ A); tauto).
  assert (Em : all_match (undone C m1 s t ws) ws = all_match (undone C m s t ws) ws) by (apply match_ext; intros x _; apply Eu).
  assert (Ea : forall x, In x ws -> after_call C m1 s t ws (o_off x) = after_call C m s t ws (o_off x)) by (intros x Hx; rewrite !after_in by assumption; rewrite Em, Eu; reflexivity).
  split; [|split; assumption]. split.
  - rewrite <- Em. exact C1.
  - intros x Hx. rewrite <- Ea by exact Hx. apply C2, Hx.
  - intros j Hj. rewrite C3 by exact Hj. apply (cb_contents _ _ _ A). tauto.
  - eapply cleaned_trans; [apply cleaned_any, A|exact C4].
Qed.
Lemma clean_bit w k : k <> 0 -> N.testbit (clean w) k = N.testbit w k.
Proof. intros Hk. rewrite clean_spec. destruct (N.eqb_spec k 0); [contradiction|apply andb_true_r]. Qed.
Lemma wp_read_value n j (Q : N -> mem -> Prop) m : mval (contents m j) -> (forall m', cleaned m m' -> Q (contents m j) m') -> wp (PMwCASRead C (S n) me (LArr j)) Q m.
Proof.
  intros (V0 & V1 & V2 & V3) H. cbn [PMwCASRead]. apply mwp_bind, mwp_load; [exact I|]. unfold contents in V1, V2, V3.
  rewrite isMarked_rdcss, <- (clean_bit (m (LArr j)) 2), V3 by discriminate. apply mwp_bind.
  rewrite isMarked_kcas, V2. fold (contents m j). destruct (isMarked (m (LArr j)) DirtyFlag).
  - apply mwp_persist; [exact I|]. rewrite N.eqb_refl. intros m' Ho E. cbn [mwp]. apply H. intros l. right. destruct (decide (LArr j = l)) as [<-|Hn]; [right; split; [exact E|exact I]|left; apply Ho, Hn].
  - cbn [mwp]. apply H, cleaned_refl.
Qed.
Lemma wp_read_pending n x (Q : N -> mem -> Prop) m : (length ws < n)%nat -> pending C m s t ws -> wseq m me + 2 * N.of_nat (length ws) < 2 ^ seqSize P ->
  In x ws -> contents m (o_off x) = K ->
  (forall m', completes C me m s t ws m' -> Q (after_call C m s t ws (o_off x)) m') -> wp (PMwCASRead C (S (S n)) me (LArr (o_off x))) Q m.
Proof.
  intros Hn Hp Hq Hx Hk H. pose proof Hp as [P1 P2 P3 P4 P5 P6 P7 P8]. destruct (K_facts C HC t s P1 P2) as (Kc & K1 & K2 & Kd).
  remember (S n) as n1 eqn:En1. cbn [PMwCASRead]. apply mwp_bind, mwp_load; [exact I|].
  unfold contents in Hk. rewrite isMarked_rdcss, <- (clean_bit (m (LArr (o_off x))) 2), Hk, K2 by discriminate. apply mwp_bind. rewrite isMarked_kcas, K1, Kd.
  assert (G : forall m1, cleaned m m1 -> wp (pmwcas C n1 me (call_ref s t) None ;;; PMwCASRead C n1 me (LArr (o_off x)))%mprog Q m1).
  { intros m1 A. subst n1. apply mwp_bind, wp_help; [exact Hn|eapply pending_clean; eassumption|rewrite (cb_wseq _ _ _ A) by tauto; exact Hq|]. intros m2 Hc. destruct (completes_clean _ _ _ A P6 Hc) as (Hc' & _ & _).
    apply wp_read_value; [rewrite (co_words _ _ _ _ _ _ _ Hc' x Hx); apply after_mval; assumption|]. intros m3 A3. rewrite (co_words _ _ _ _ _ _ _ Hc' x Hx). apply H.
    destruct Hc' as [C1 C2 C3 C4]. split.
    - rewrite (cb_kseq _ _ _ A3), (cb_kstat _ _ _ A3) by tauto. exact C1.
    - intros y Hy. rewrite (cb_contents _ _ _ A3) by tauto. apply C2, Hy.
    - intros j Hj. rewrite (cb_contents _ _ _ A3) by tauto. apply C3, Hj.
    - eapply cleaned_trans; [exact C4|apply cleaned_any, A3]. }
  destruct (isMarked (m (LArr (o_off x))) DirtyFlag).
  - apply mwp_persist; [exact I|]. rewrite N.eqb_refl. intros m1 Ho E. apply G. intros l. right. destruct (decide (LArr (o_off x) = l)) as [<-|Hn']; [right; split; [exact E|exact I]|left; apply Ho, Hn'].
  - cbn [mwp]. apply G, cleaned_refl.
Qed.
Lemma wp_cas_value n j old new (Q : bool * N -> mem -> Prop) m : mval (contents m j) -> mval new ->
  (forall m', cleaned_but (eq (LArr j)) m m' -> contents m' j = (if contents m j =? old then new else contents m j) ->
     forall o, Q (contents m j =? old, o) m') -> wp (mwCAS C (S n) me (LArr j) old new) Q m.
Proof.
  intros (V0 & V1 & V2 & V3) Vn H. cbn [mwCAS]. apply mwp_bind, mwp_pcas; [exact I|]. fold (contents m j). intros m' Ho.
  assert (A : cleaned_but (eq (LArr j)) m m') by (intros l; destruct (decide (LArr j = l)) as [<-|Hn]; [left; reflexivity|right; left; apply Ho, Hn]).
  destruct (contents m j =? old) eqn:E.
  - intros Hm. cbn [fst mwp]. rewrite ?E. apply H; [exact A|]. unfold contents at 1. rewrite Hm, clean_dirty. apply mval_clean, Vn.
  - intros Hm. cbn [fst snd]. rewrite isMarked_rdcss, isMarked_kcas, isMarked_dirty, V1, V2, V3. cbn [negb andb mwp]. apply H; [exact A|]. unfold contents at 1. rewrite Hm. apply clean_clean.
Qed.
Lemma wp_cas_pending n x old new (Q : bool * N -> mem -> Prop) m : (length ws < n)%nat -> pending C m s t ws -> wseq m me + 2 * N.of_nat (length ws) < 2 ^ seqSize P ->
  In x ws -> contents m (o_off x) = K -> mval old -> mval new ->
  (forall m1 m', completes C me m s t ws m1 -> cleaned_but (eq (LArr (o_off x))) m1 m' ->
     contents m' (o_off x) = (if after_call C m s t ws (o_off x) =? old then new else after_call C m s t ws (o_off x)) ->
     forall o, Q (after_call C m s t ws (o_off x) =? old, o) m') -> wp (mwCAS C (S (S n)) me (LArr (o_off x)) old new) Q m.
Proof.
  intros Hn Hp Hq Hx Hk Vo Vn H. pose proof Hp as [P1 P2 P3 P4 P5 P6 P7 P8]. destruct (K_facts C HC t s P1 P2) as (Kc & K1 & K2 & Kd).
  remember (S n) as n1 eqn:En1. cbn [mwCAS]. apply mwp_bind, mwp_pcas; [exact I|]. fold (contents m (o_off x)). rewrite Hk. intros m1 Ho.
  assert (Ene : (K =? old) = false) by (apply N.eqb_neq; intros E; apply (K_mval C HC t s P1 P2); rewrite E; exact Vo). rewrite Ene. intros Hm. cbn [fst snd].
  assert (A : cleaned m m1) by (intros l; right; destruct (decide (LArr (o_off x) = l)) as [<-|Hn']; [right; split; [fold (contents m (o_off x)); congruence|exact I]|left; apply Ho, Hn']).
  assert (K0 : N.testbit K 0 = false) by (rewrite <- Kc, clean_spec; apply andb_false_r).
  rewrite isMarked_rdcss, isMarked_kcas, isMarked_dirty, K0, K1, K2. cbn [negb andb]. do 2 (apply mwp_bind; cbn [mwp]). rewrite Kc, Kd, isMarked_kcas, K1. subst n1.
  apply mwp_bind, mwp_bind, wp_help; [exact Hn|eapply pending_clean; eassumption|rewrite (cb_wseq _ _ _ A) by tauto; exact Hq|]. intros m2 Hc. destruct (completes_clean _ _ _ A P6 Hc) as (Hc' & _ & _). cbn [mwp].
  pose proof (co_words _ _ _ _ _ _ _ Hc' x Hx) as Ex. apply wp_cas_value; [rewrite Ex; apply after_mval; assumption|exact Vn|]. rewrite Ex. intros m3 A3 E3 o. eapply H; eassumption.
Qed.
End Help.

Lemma c62_help C n me s t ws m : mcfg_ok C -> me < 2 ^ m_log C -> (length ws < n)%nat -> pending C m s t ws -> wseq m me + 2 * N.of_nat (length ws) < 2 ^ seqSize (2 ^ m_log C) ->
  exists m', mrun (pmwcas C (S n) me (call_ref s t) None) m = MOk (all_match (undone C m s t ws) ws) m' /\ completes C me m s t ws m'.
Proof.
  intros HC Hme Hn Hp Hq. destruct (mwp_run any (pmwcas C (S n) me (call_ref s t) None) (fun r m' => r = all_match (undone C m s t ws) ws /\ completes C me m s t ws m') m) as (r & m' & E & -> & H).
  - apply (wp_help C HC me t s ws Hme); auto.
  - exists m'. split; assumption.
Qed.
Lemma c62_read C n me s t ws m x : mcfg_ok C -> me < 2 ^ m_log C -> (length ws < n)%nat -> pending C m s t ws -> wseq m me + 2 * N.of_nat (length ws) < 2 ^ seqSize (2 ^ m_log C) ->
  In x ws -> contents m (o_off x) = as_word C (call_ref s t) ->
  exists m', mrun (mop_prog C (S (S n)) me (MwRead (o_off x))) m = MOk (MWord (after_call C m s t ws (o_off x))) m' /\ completes C me m s t ws m'.
Proof.
  intros HC Hme Hn Hp Hq Hx Hk.
  destruct (mwp_run any (mop_prog C (S (S n)) me (MwRead (o_off x))) (fun r m' => r = MWord (after_call C m s t ws (o_off x)) /\ completes C me m s t ws m') m) as (r & m' & E & -> & H).
  - cbn [mop_prog]. apply mwp_bind, wpa_address; [apply Hp, Hx|]. apply mwp_bind, (wp_read_pending C HC me t s ws Hme); auto. intros m' Hc. cbn [mwp]. auto.
  - exists m'. split; assumption.
Qed.
Lemma c62_cas C n me s t ws m x old new : mcfg_ok C -> me < 2 ^ m_log C -> (length ws < n)%nat -> pending C m s t ws -> wseq m me + 2 * N.of_nat (length ws) < 2 ^ seqSize (2 ^ m_log C) ->
  In x ws -> contents m (o_off x) = as_word C (call_ref s t) -> mval old -> mval new ->
  let o := MwCas1 (o_off x) old new in
  exists m1 m', completes C me m s t ws m1 /\ mrun (mop_prog C (S (S n)) me o) m = MOk (fst (mspec (contents m1) o)) m' /\
    (forall j, contents m' j = snd (mspec (contents m1) o) j) /\ cleaned_but (eq (LArr (o_off x))) m1 m'.
Proof.
  intros HC Hme Hn Hp Hq Hx Hk Vo Vn o.
  destruct (mwp_run any (mop_prog C (S (S n)) me o) (fun r m' => exists m1, completes C me m s t ws m1 /\ r = fst (mspec (contents m1) o) /\
    (forall j, contents m' j = snd (mspec (contents m1) o) j) /\ cleaned_but (eq (LArr (o_off x))) m1 m') m) as (r & m' & E & m1 & H1 & -> & H2 & H3).
  - unfold o. cbn [mop_prog]. apply mwp_bind, wpa_address; [apply Hp, Hx|]. apply mwp_bind, (wp_cas_pending C HC me t s ws Hme); auto.
    intros m1 m' Hc A Ex o'. cbn [mwp fst]. exists m1. split; [exact Hc|]. cbn [mspec]. rewrite (co_words _ _ _ _ _ _ _ Hc x Hx).
    assert (Eo : forall j, j <> o_off x -> contents m' j = contents m1 j) by (intros j Hj; apply (cb_contents _ _ _ A); intros F; injection F; congruence).
    destruct (after_call C m s t ws (o_off x) =? old); cbn [fst snd]; (split; [reflexivity|]; split; [|exact A]); intros j; (destruct (N.eqb_spec j (o_off x)) as [->|Hj]); auto.
    rewrite Ex. symmetry. apply (co_words _ _ _ _ _ _ _ Hc x Hx).
  - exists m1, m'. auto.
Qed.

(** ** The memory that a call leaves *)

Lemma conc_idle C n i k y : ms_thr y !! i = Some (mkMthread None []) -> mconc C n (replicate k i) y = y.
Proof. intros H. induction k as [|k IH]; [reflexivity|]. cbn [replicate mconc]. unfold mtstep. rewrite H. cbn [mt_cur mt_todo]. exact IH. Qed.
Lemma conc_px (I Stop : mem -> Prop) C n i o Q k p y : ms_thr y !! i = Some (mkMthread (Some (o, p)) []) -> mwpx I Stop p Q (ms_mem y) -> I (ms_mem y) ->
  (forall k', (k' <= k)%nat -> ~ Stop (ms_mem (mconc C n (replicate k' i) y))) -> I (ms_mem (mconc C n (replicate k i) y)).
Proof.
  revert p y. induction k as [|k IH]; intros p y Hy Hp HI Hs; [exact HI|]. cbn [replicate mconc].
  assert (Hl : (i < length (ms_thr y))%nat) by (eapply lookup_lt_Some; exact Hy).
  assert (Es : mtstep C n i y = match p with
    | MRet r => mkMsys (ms_mem y) (<[i := mkMthread None []]> (ms_thr y)) (MRes i o r :: ms_hist y)
    | MErr e => y
    | MVis c k => let (r, m) := mexec c (ms_mem y) in mkMsys m (<[i := mkMthread (Some (o, k r)) []]> (ms_thr y)) (ms_hist y) end).
  { unfold mtstep. rewrite Hy. cbn [mt_cur mt_todo]. destruct p; reflexivity. }
  destruct p as [r|e|c f]; cbn [mwpx] in Hp; [|contradiction|].
  - rewrite Es, conc_idle; [exact HI|]. cbn. apply list_lookup_insert, Hl.
  - pose proof (Hs 1%nat ltac:(lia)) as H1. cbn [replicate mconc] in H1. rewrite Es in H1 |- *. destruct (mexec c (ms_mem y)) as [r m] eqn:Ec. cbn [ms_mem] in H1.
    destruct Hp as [HI' [Hst|Hp]]; [contradiction|]. eapply IH; [cbn; apply list_lookup_insert, Hl|exact Hp|exact HI'|].
    intros k' Hk'. specialize (Hs (S k') ltac:(lia)). cbn [replicate mconc] in Hs. rewrite Es, ?Ec in Hs. exact Hs.
Qed.
Lemma stopped_px (I Stop : mem -> Prop) C n m t o Q k : mwpx I Stop (mop_prog C n t o) Q m -> I m ->
  (forall i, (i <= k)%nat -> ~ Stop (stopped_in C n m t o i)) -> I (stopped_in C n m t o k).
Proof.
  intros Hp HI Hs. unfold stopped_in, mafter in *. set (i := N.to_nat t) in *. set (todos := replicate i [] ++ [[o]]) in *.
  destruct k as [|k]; [exact HI|]. cbn [replicate mconc].
  assert (Ey : ms_thr (mstart m todos) !! i = Some (mkMthread None [o])).
  { unfold mstart, todos. cbn [ms_thr]. rewrite map_app. rewrite lookup_app_r by (rewrite map_length, replicate_length; lia). rewrite map_length, replicate_length, Nat.sub_diag. reflexivity. }
  assert (Es : mtstep C n i (mstart m todos) = mkMsys m (<[i := mkMthread (Some (o, mop_prog C n t o)) []]> (ms_thr (mstart m todos))) [MInv i o]).
  { unfold mtstep. rewrite Ey. cbn [mt_cur mt_todo]. unfold i. rewrite N2Nat.id. reflexivity. }
  rewrite Es. eapply (conc_px I Stop); [cbn [ms_thr]; apply list_lookup_insert; eapply lookup_lt_Some; exact Ey|exact Hp|exact HI|].
  intros k' Hk'. specialize (Hs (S k') ltac:(lia)). cbn [replicate mconc] in Hs. rewrite Es in Hs. exact Hs.
Qed.

Lemma mspec_perm a ws ws' j : Permutation ws ws' -> NoDup (map o_off ws) -> snd (mspec a (MwCas ws)) j = snd (mspec a (MwCas ws')) j.
Proof.
  intros Hp Hnd. assert (Hnd' : NoDup (map o_off ws')) by (rewrite <- (Permutation.Permutation_map o_off Hp); exact Hnd).
  assert (Hin : forall x, In x ws <-> In x ws') by (intros x; split; apply Permutation.Permutation_in; [exact Hp|apply Permutation.Permutation_sym, Hp]).
  cbn [mspec]. assert (Em : all_match a ws = all_match a ws').
  { destruct (all_match a ws) eqn:E, (all_match a ws') eqn:E'; try reflexivity; exfalso.
    - apply eq_true_false_abs with (2 := E'). apply all_match_iff. intros x Hx. apply (proj1 (all_match_iff a ws) E), Hin, Hx.
    - apply eq_true_false_abs with (2 := E). apply all_match_iff. intros x Hx. apply (proj1 (all_match_iff a ws') E'), Hin, Hx. }
  rewrite <- Em. destruct (all_match a ws); cbn [snd]; [|reflexivity]. destruct (in_dec N.eq_dec j (map o_off ws)) as [Hi|Hi].
  - apply in_map_iff in Hi as (x & <- & Hx). rewrite !put_all_in by (assumption || apply Hin, Hx). reflexivity.
  - rewrite !put_all_out; [reflexivity| |exact Hi]. intros F. apply Hi. unfold offs in F. apply in_map_iff in F as (x & <- & Hx). apply in_map, Hin, Hx.
Qed.
Lemma c51_undecided C n m t r ws k : mcfg_ok C -> (mfuel C <= n)%nat -> (N.to_nat (2 ^ m_log C) <= n)%nat -> t < 2 ^ m_log C -> r < 2 ^ m_log C ->
  legal_mop C (MwCas ws) -> Forall (fun x => mval (o_old x)) ws -> ready C m t (N.of_nat (length ws)) ->
  (forall i, (i <= k)%nat -> ~ decided_in m t (stopped_in C n m t (MwCas ws) i)) ->
  let x := stopped_in C n m t (MwCas ws) k in
  exists m', mrun (mw_recover C n r) x = MOk tt m' /\ quiescent C m' /\
    forall j, j < m_size C -> contents m' j = if kseq x t =? kseq m t + 2 then snd (mspec (contents m) (MwCas ws)) j else contents m j.
Proof.
  intros HC Hn HP Ht Hr (Hoff & Hne & HK & Hnd & Hnew) Hold Hrd Hd x. set (s := kseq m t + 2). set (wss := sort_words ws).
  pose proof (sort_words_perm ws) as Hperm. pose proof (sort_words_length ws) as Hlen.
  assert (Hin : forall x, In x wss <-> In x ws) by (intros y; split; apply Permutation.Permutation_in; [exact Hperm|apply Permutation.Permutation_sym, Hperm]).
  assert (Hnds : NoDup (map o_off wss)) by (unfold wss; rewrite (Permutation.Permutation_map o_off Hperm); exact Hnd).
  assert (Hwss : forall x, In x wss -> o_off x < m_size C /\ mval (o_old x) /\ mval (o_new x)).
  { intros y Hy. apply Hin in Hy. rewrite List.Forall_forall in Hold. rewrite List.Forall_forall in Hnew. split; [apply Hoff; cbn; apply in_map, Hy|]. split; [apply Hold, Hy|apply Hnew, Hy]. }
  assert (Hm0 : forall x, In x wss -> mval (contents m (o_off x))) by (intros y Hy; apply Hrd, Hwss, Hy).
  assert (Hs : s < 2 ^ seqSize (2 ^ m_log C)) by apply (rd_kseq C m t _ Hrd).
  assert (Hrd' : ready C m t (N.of_nat (length wss))) by (unfold wss; rewrite Hlen; exact Hrd).
  destruct n as [|n]; [unfold mfuel in Hn; lia|].
  assert (Hins : inside C t s wss m x).
  { unfold x. apply (stopped_px (inside C t s wss m) (decided t s)) with (Q := fun _ _ => True).
    - cbn [mop_prog]. apply mwpx_bind. eapply (x_PMwCAS C HC t s Ht Hs wss m Hnds Hwss Hm0 ws eq_refl Hne HK eq_refl (rd_even C m t _ Hrd) (qu_woffs C m (rd_quiet C m t _ Hrd) t Ht) (rd_koffs C m t _ Hrd)).
      + unfold wss, mfuel in *. lia.
      + unfold wbound, wss. pose proof (rd_wseq C m t _ Hrd t Ht). lia.
    - left. apply (begun_0 C t s Ht Hs wss m ws HK eq_refl); apply Hrd; exact Ht.
    - exact Hd. }
  destruct (recover_inside C HC t s Ht Hs wss m Hnds Hwss Hrd' eq_refl r (S n) x) as (m' & E & Hq & Hc); [exact Hr|exact HP|unfold wss, mfuel in *; lia|exact Hins|apply (Hd k); lia|].
  exists m'. split; [exact E|]. split; [exact Hq|]. intros j Hj. rewrite (Hc j Hj). unfold final. fold s. destruct (kseq x t =? s); [|reflexivity]. apply mspec_perm; [exact Hperm|exact Hnds].
Qed.

(** ** Concrete cases *)

(** The status of the descriptor of thread [t] in the first [k] steps. *)
Lemma below_forall (p : nat -> bool) k : forallb p (seq 0 (S k)) = true -> forall i, (i <= k)%nat -> p i = true.
Proof. intros H i Hi. rewrite forallb_forall in H. apply H, in_seq. lia. Qed.
Definition undecidedb (m0 : mem) (t : N) (m : mem) : bool := negb ((kseq m t =? kseq m0 t + 2) && negb (kstat m t =? Undecided)).
Lemma undecidedb_ok m0 t m : undecidedb m0 t m = true -> ~ decided_in m0 t m.
Proof. intros H [E1 E2]. unfold undecidedb in H. rewrite E1, N.eqb_refl in H. apply N.eqb_neq in E2. rewrite E2 in H. discriminate. Qed.

Definition mx_olds : Forall (fun x => mval (o_old x)) mx_ws.
Proof. repeat constructor; value. Qed.
Lemma mx_ready t : t < 4 -> ready mx_C mw_init t (N.of_nat (length mx_ws)).
Proof.
  intros Ht. split.
  - split; [intros j _; value|intros j _; reflexivity|intros j _; reflexivity|intros j _ _; discriminate|exists 1; split; [reflexivity|discriminate]].
  - reflexivity.
  - intros i. reflexivity.
  - right. reflexivity.
  - exists (if t =? 1 then 2 else 1). destruct (N.eqb_spec t 1) as [->|Hn]; (split; [congruence|]); split; try reflexivity; discriminate.
  - reflexivity.
  - intros u _. reflexivity.
Qed.
Definition mx_cut (k : nat) : mem := stopped_in mx_C mx_fuel mw_init 1 (MwCas mx_ws) k.
(** Thread 1 stops at various points before anything is decided. *)
Lemma mx_undecided : (forall i, (i <= 90)%nat -> ~ decided_in mw_init 1 (mx_cut i)) /\
  map (contents (mx_cut 90)) [0; 1; 2; 3] = [as_word mx_C (call_ref 2 1); as_word mx_C (call_ref 2 1); 0; 0] /\
  map (contents (mx_cut 75)) [0; 1; 2; 3] = [as_word mx_C (call_ref 2 1); as_word mx_C (word_ref 4 1); 0; 0] /\
  map (contents (mx_cut 60)) [0; 1; 2; 3] = [as_word mx_C (call_ref 2 1); 0; 0; 0] /\
  map (fun k => kseq (mx_cut k) 1) [0%nat; 10%nat; 30%nat; 90%nat] = [0; 1; 2; 2].
Proof.
  split.
  - intros i Hi. apply undecidedb_ok. revert i Hi. apply (below_forall (fun i => undecidedb mw_init 1 (mx_cut i)) 90). vm_compute. reflexivity.
  - vm_compute. repeat split.
Qed.
Lemma mx_pending : pending mx_C (mx_cut 60) 2 1 mx_ws /\ wseq (mx_cut 60) 0 + 2 * N.of_nat (length mx_ws) < 2 ^ seqSize (2 ^ m_log mx_C) /\
  map (undone mx_C (mx_cut 60) 2 1 mx_ws) [0; 1; 2; 3] = [0; 0; 0; 0] /\ map (after_call mx_C (mx_cut 60) 2 1 mx_ws) [0; 1; 2; 3] = [8; 16; 0; 0] /\
  contents (mx_cut 60) 0 = as_word mx_C (call_ref 2 1) /\ In (mkWord 0 0 8) mx_ws.
Proof.
  split; [|vm_compute; repeat split; left; reflexivity]. split.
  - reflexivity.
  - vm_compute. reflexivity.
  - vm_compute. reflexivity.
  - vm_compute. reflexivity.
  - intros [|[|i]] x Hx; cbn in Hx; [| |destruct i; discriminate]; injection Hx as <-; vm_compute; repeat split.
  - apply (bool_decide_unpack _). vm_compute. exact I.
  - intros x [<-|[<-|[]]]; (split; [reflexivity|split; value]).
  - intros x [<-|[<-|[]]]; [left|right]; vm_compute; repeat split.
Qed.
(** Thread 0 has completed a call when thread 1 stops in one on the same word. *)
Definition mx_ws1 : list mword := [mkWord 0 8 24].
Lemma c51_undecided_refuted : exists C n m t ws k m', mcfg_ok C /\ (mfuel C <= n)%nat /\ (N.to_nat (2 ^ m_log C) <= n)%nat /\ t < 2 ^ m_log C /\
  legal_mop C (MwCas ws) /\ Forall (fun x => mval (o_old x)) ws /\ quiescent C m /\
  (forall i, (i <= k)%nat -> ~ decided_in m t (stopped_in C n m t (MwCas ws) i)) /\
  mrun (mw_recover C n 0) (stopped_in C n m t (MwCas ws) k) = MFail MAssertFail m'.
Proof.
  assert (E : oerr (mrun (mw_recover mx_C mx_fuel 0) (stopped_in mx_C mx_fuel mx_quiet 1 (MwCas mx_ws1) 50)) = Some MAssertFail) by (vm_compute; reflexivity). apply oerr_fail in E as [m' E].
  exists mx_C, mx_fuel, mx_quiet, 1, mx_ws1, 50%nat, m'. split; [apply mx_cfg|]. split; [apply mx_cfg|]. split; [exact (proj2 (proj2 mx_quiescent))|]. split; [reflexivity|]. split.
  { split; [intros j [<-|[]]; reflexivity|]. split; [discriminate|]. split; [apply Nat.leb_le; reflexivity|]. split; [apply (bool_decide_unpack _); vm_compute; exact I|]. repeat constructor; value. }
  split; [repeat constructor; value|]. split; [exact (proj1 mx_quiescent)|]. split; [|exact E].
  intros i Hi. apply undecidedb_ok. revert i Hi. apply (below_forall (fun i => undecidedb mx_quiet 1 (stopped_in mx_C mx_fuel mx_quiet 1 (MwCas mx_ws1) i)) 50). vm_compute. reflexivity.
Qed.
