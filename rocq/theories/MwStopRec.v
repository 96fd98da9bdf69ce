(** Recovery of the memory that a call leaves when it stops before it is decided. *)
From Coq Require Import NArith Bool List Lia.
From stdpp Require Import base list.
From Verif Require Import Word Bits Codec CodecSpec CodecThm MwCas MwSpec MwWp MwSeq MwRely MwRecover MwHelpSpec MwHelp MwCallSpec MwCall MwStop.
Import ListNotations.
Local Open Scope N_scope.

Section Rec.
Context (C : mcfg) (HC : mcfg_ok C).
Local Notation P := (2 ^ m_log C)%N.
Local Notation wp := (mwp any).
Context (t s : N) (Ht : t < P) (Hs : s < 2 ^ seqSize P) (ws : list mword) (m0 : mem).
Context (Hnd : NoDup (map o_off ws)) (Hws : forall x, In x ws -> o_off x < m_size C /\ mval (o_old x) /\ mval (o_new x)).
Context (Hr : ready C m0 t (N.of_nat (length ws))) (Hsk : s = kseq m0 t + 2).
Local Notation d := (call_ref s t).
Local Notation K := (as_word C (call_ref s t)).
Local Notation framed := (framed C t ws m0).
Local Notation plain := (plain C t s m0).
Local Notation based := (based C t s ws m0).
Local Notation full := (full C t s ws m0).
Local Notation half_at := (half_at C t s ws m0).
Local Notation begun := (begun C t ws m0).
Local Notation owned := (owned t).

Lemma other_k u : u <> t -> ~ owned (LK u) /\ ~ owned (LKCount u) /\ (forall i f, ~ owned (LKWord u i f)) /\ (forall f, ~ owned (LWWord u f)) /\ ~ owned (LW u).
Proof. intros Hu. unfold owned. repeat split; intros; (intros [Hk|[Hk|[? ?]]]; [cbn in Hk|cbn in Hk|]; congruence). Qed.
Lemma framed_woffs m : framed m -> forall u, u < P -> m (LWWord u WOff) < m_size C.
Proof.
  intros (F1 & F2 & _) u Hu. destruct (decide (u = t)) as [->|Hn]; [exact F2|].
  rewrite (cb_plain _ _ _ F1); [apply Hr, Hu|apply other_k, Hn|exact I].
Qed.
Lemma framed_koffs m : framed m -> (forall i, m (LKWord t i WOff) < m_size C) -> forall u, u < P -> m (LKWord u (N.to_nat u) WOff) < m_size C.
Proof.
  intros (F1 & _) Hk u Hu. destruct (decide (u = t)) as [->|Hn]; [apply Hk|].
  rewrite (cb_plain _ _ _ F1); [apply Hr, Hu|apply other_k, Hn|exact I].
Qed.
Lemma framed_decided m : framed m -> forall u, u < P -> u <> t -> kseq m u mod 2 = 0 -> kstat m u <> Undecided.
Proof.
  intros (F1 & _) u Hu Hn. rewrite (cb_kseq _ _ _ F1), (cb_kstat _ _ _ F1) by apply other_k, Hn. apply Hr, Hu.
Qed.
Lemma framed_first m : framed m -> t = 0 \/ m (LKCount 0) = 0.
Proof.
  intros (F1 & _). destruct (decide (0 = t)) as [E|Hn]; [left; symmetry; exact E|right]. rewrite (cb_plain _ _ _ F1); [|apply other_k, Hn|exact I].
  destruct (rd_first C m0 t _ Hr) as [E|E]; [congruence|exact E].
Qed.
Lemma framed_ends m : framed m -> exists u, u <> t /\ u < P /\ m (LKCount u) <= u.
Proof.
  intros (F1 & _). destruct (rd_ends C m0 t _ Hr) as (u & Hn & Hu & He). exists u. split; [exact Hn|]. split; [exact Hu|].
  rewrite (cb_plain _ _ _ F1); [exact He|apply other_k, Hn|exact I].
Qed.
Lemma framed_wseq m me : me < P -> framed m -> wseq m me + 2 * N.of_nat (length ws) < 2 ^ seqSize P.
Proof.
  intros Hme (F1 & _ & F3 & _). pose proof (rd_wseq C m0 t _ Hr me Hme) as Hq. destruct (decide (me = t)) as [->|Hn]; [unfold wbound in F3; lia|].
  rewrite (cb_wseq _ _ _ F1) by apply other_k, Hn. lia.
Qed.

(** ** Before the descriptor is complete *)

Lemma begun_quiescent m : begun m -> quiescent C m.
Proof.
  intros (F & B2 & B3 & B4). split.
  - intros j Hj. rewrite B2. apply Hr, Hj.
  - apply framed_woffs, F.
  - apply framed_koffs; assumption.
  - intros u Hu. destruct (decide (u = t)) as [->|Hn]; [|apply framed_decided; assumption]. destruct B4 as [B4|[-> ->]]; [rewrite B4; discriminate|apply Hr, Hu].
  - destruct (framed_ends m F) as (u & _ & Hu). exists u. exact Hu.
Qed.

(** ** When it is complete and nothing is half installed *)

Record waiting (me : N) (m : mem) : Prop := {
  wt_pending : pending C m s t ws;
  wt_others : forall j, j < m_size C -> ~ In j (map o_off ws) -> contents m j = contents m0 j;
  wt_plain : forall x, In x ws -> plain m x;
  wt_woffs : forall u, u < P -> m (LWWord u WOff) < m_size C;
  wt_koffs : forall u, u < P -> m (LKWord u (N.to_nat u) WOff) < m_size C;
  wt_decided : forall u, u < P -> u <> t -> kseq m u mod 2 = 0 -> kstat m u <> Undecided;
  wt_first : t = 0 \/ m (LKCount 0) = 0;
  wt_ends : exists u, u <> t /\ u < P /\ m (LKCount u) <= u;
  wt_wseq : wseq m me + 2 * N.of_nat (length ws) < 2 ^ seqSize P;
}.
Lemma m0_vals x : In x ws -> mval (contents m0 (o_off x)).
Proof. intros Hx. apply Hr, Hws, Hx. Qed.
Lemma waiting_keeps me m m' : keeps m m' -> (forall i f, m' (LKWord t i f) = m (LKWord t i f)) -> m' (LKCount t) = m (LKCount t) ->
  clean (m' (LK t)) = clean (m (LK t)) -> wseq m' me = wseq m me -> waiting me m -> waiting me m'.
Proof.
  intros (K1 & K2 & K3 & K4 & K5) H1 H2 H3 H4 [[P1 P2 P3 P4 P5 P6 P7 P8] W2 W3 W4 W5 W6 W7 W8 W9]. split.
  - split; try assumption; [rewrite H3; exact P3|rewrite H2; exact P4|intros i x Hx; rewrite !H1; apply P5, Hx|intros x Hx; rewrite K1; apply P8, Hx].
  - intros j Hj Hi. rewrite K1. apply W2; assumption.
  - intros x Hx. unfold MwStop.plain. rewrite K1. apply W3, Hx.
  - intros u Hu. rewrite K2. apply W4, Hu.
  - intros u Hu. rewrite K3. apply W5, Hu.
  - intros u Hu Hn. destruct (K5 u) as [[-> ->]|[_ ->]]; [apply W6; assumption|discriminate].
  - destruct W7 as [W7|W7]; [left; exact W7|right]. specialize (K4 0). lia.
  - destruct W8 as (u & Hn & Hu & W8). exists u. split; [exact Hn|]. split; [exact Hu|]. specialize (K4 u). lia.
  - rewrite H4. exact W9.
Qed.
Lemma waiting_read me u m m' : only (eq (LK u)) m m' -> m' (LK u) = clean (m (LK u)) -> waiting me m -> waiting me m'.
Proof.
  intros Ho E Hw. apply (waiting_keeps me m m').
  - eapply keeps_clean; [exact Ho|exact E|exact I].
  - intros i f. apply Ho. discriminate.
  - apply Ho. discriminate.
  - destruct (decide (u = t)) as [<-|Hn]; [rewrite E; apply clean_clean|rewrite Ho by congruence; reflexivity].
  - unfold wseq. rewrite Ho by discriminate. reflexivity.
  - exact Hw.
Qed.
Lemma waiting_reset me u m : u <> t -> waiting me m -> waiting me (upd (upd m (LK u) (kmut_encode (mkKmut true Succeeded 0))) (LKCount u) 0).
Proof.
  intros Hn. apply waiting_keeps.
  - split; [|split; [|split; [|split]]].
    + intros j. unfold contents. rewrite !upd_other by discriminate. reflexivity.
    + intros t'. rewrite !upd_other by discriminate. reflexivity.
    + intros t' i. rewrite !upd_other by discriminate. reflexivity.
    + intros t'. destruct (decide (t' = u)) as [->|Hn']; [rewrite upd_same; lia|rewrite !upd_other by congruence; lia].
    + intros t'. unfold kseq, kstat. rewrite (upd_other _ (LKCount u)) by discriminate. destruct (decide (t' = u)) as [->|Hn'].
      * right. rewrite upd_same. split; reflexivity.
      * left. rewrite upd_other by congruence. split; reflexivity.
  - intros i f. rewrite !upd_other by discriminate. reflexivity.
  - rewrite !upd_other by congruence. reflexivity.
  - rewrite !upd_other by congruence. reflexivity.
  - unfold wseq. rewrite !upd_other by discriminate. reflexivity.
Qed.
Lemma waiting_of me m m1 : me < P -> based m -> cleaned_but in_arr m m1 ->
  (forall j, j < m_size C -> ~ In j (map o_off ws) -> contents m1 j = contents m0 j) -> (forall x, In x ws -> plain m1 x) -> waiting me m1.
Proof.
  intros Hme (F & B2 & B3 & B4 & B5) A Ho Hp. split.
  - split; [exact Ht|exact Hs| | | |exact Hnd|exact Hws|].
    + rewrite (cb_clean _ _ _ A) by (intros [? ?]; discriminate). exact B2.
    + rewrite (cb_plain _ _ _ A); [exact B3|intros [? ?]; discriminate|exact I].
    + intros i x Hx. rewrite !(cb_plain _ _ _ A) by ((intros [? ?]; discriminate) || exact I). apply (B4 i x Hx).
    + intros x Hx. destruct (Hp x Hx) as [-> |[-> _]]; [right; apply m0_vals, Hx|left; reflexivity].
  - exact Ho.
  - exact Hp.
  - intros u Hu. rewrite (ca_wword m m1 A). apply framed_woffs; assumption.
  - intros u Hu. rewrite (cb_plain _ _ _ A) by ((intros [? ?]; discriminate) || exact I). apply framed_koffs; assumption.
  - intros u Hu Hn. rewrite (ca_kseq m m1 A), (ca_kstat m m1 A). apply framed_decided; assumption.
  - rewrite (cb_plain _ _ _ A) by ((intros [? ?]; discriminate) || exact I). apply (framed_first m), F.
  - destruct (framed_ends m F) as (u & Hn & Hu & He). exists u. split; [exact Hn|]. split; [exact Hu|]. rewrite (cb_plain _ _ _ A) by ((intros [? ?]; discriminate) || exact I). exact He.
  - rewrite (ca_wseq m m1 A). apply framed_wseq; assumption.
Qed.

(** ** The first pass of the recovery *)

Lemma plain_unmarked m x : In x ws -> plain m x -> isMarked (contents m (o_off x)) RDCSSFlag = false.
Proof.
  intros Hx Hp. rewrite isMarked_rdcss. destruct Hp as [-> |[-> _]]; [apply m0_vals, Hx|]. apply (K_facts C HC t s Ht Hs).
Qed.
Lemma other_unmarked m j : j < m_size C -> contents m j = contents m0 j -> isMarked (contents m j) RDCSSFlag = false.
Proof. intros Hj ->. rewrite isMarked_rdcss. apply Hr, Hj. Qed.
Lemma off_in j : In j (map o_off ws) -> exists x, In x ws /\ o_off x = j.
Proof. rewrite in_map_iff. intros (x & E & Hx). exists x. split; assumption. Qed.
Lemma full_words me cnt (Q : unit -> mem -> Prop) m : me < P -> N.of_nat cnt = P -> full m -> (forall m1, waiting me m1 -> Q tt m1) -> wp (recover_words C cnt 0) Q m.
Proof.
  intros Hme Hc [B Hp] H. pose proof (proj1 B) as F. pose proof F as (_ & _ & _ & F4).
  assert (Hu : forall j, j < m_size C -> isMarked (contents m j) RDCSSFlag = false).
  { intros j Hj. destruct (in_dec N.eq_dec j (map o_off ws)) as [Hi|Hi]; [|apply other_unmarked; [exact Hj|apply F4, Hi]].
    destruct (off_in j Hi) as (x & Hx & <-). apply plain_unmarked; [exact Hx|apply Hp, Hx]. }
  apply (wph_recover_words C HC); [lia|apply framed_woffs, F| |].
  - intros j Hj Hm. rewrite Hu in Hm by exact Hj. discriminate.
  - intros m1 A E. assert (E' : forall j, j < m_size C -> contents m1 j = contents m j). { intros j Hj. rewrite E by exact Hj. unfold settled. rewrite Hu by exact Hj. reflexivity. }
    apply H, (waiting_of me m); [exact Hme|exact B|exact A| |].
    + intros j Hj Hi. rewrite E' by exact Hj. apply F4, Hi.
    + intros x Hx. unfold MwStop.plain. rewrite E' by apply Hws, Hx. apply Hp, Hx.
Qed.
Lemma half_words me cnt x (Q : unit -> mem -> Prop) m : me < P -> N.of_nat cnt = P -> In x ws -> half_at x m -> (forall m1, waiting me m1 -> Q tt m1) -> wp (recover_words C cnt 0) Q m.
Proof.
  intros Hme Hc Hx (B & Hp & Hh & Hold & Ha & Hsq & Htid) H. pose proof (proj1 B) as F. pose proof F as (_ & _ & _ & F4).
  assert (Hu : forall j, j < m_size C -> j <> o_off x -> isMarked (contents m j) RDCSSFlag = false).
  { intros j Hj Hn. destruct (in_dec N.eq_dec j (map o_off ws)) as [Hi|Hi]; [|apply other_unmarked; [exact Hj|apply F4, Hi]].
    destruct (off_in j Hi) as (y & Hy & <-). apply plain_unmarked; [exact Hy|apply Hp; assumption]. }
  destruct (based_seq C HC t s Hs ws m0 m B) as [Hks Hkt].
  apply (wph_recover_words C HC); [lia|apply framed_woffs, F| |].
  - intros j Hj Hm. destruct (decide (j = o_off x)) as [->|Hn]; [|rewrite Hu in Hm by assumption; discriminate].
    exists t. split; [lia|]. split; [exact Hh|]. rewrite Hold, isMarked_rdcss. apply Hws, Hx.
  - intros m1 A E. assert (E' : forall j, j < m_size C -> j <> o_off x -> contents m1 j = contents m j). { intros j Hj Hn. rewrite E by exact Hj. unfold settled. rewrite Hu by assumption. reflexivity. }
    assert (Ex : contents m1 (o_off x) = K).
    { rewrite E by apply Hws, Hx. destruct Hh as (Hw & _ & Hc'). unfold settled. rewrite Hc'. destruct (wref_facts _ (wseq m t) t HC (wo_seq C m t Hw) Ht) as (R1 & R2 & R3 & R4 & R5).
      unfold as_word, word_ref. fold (wdesc (wseq m t) t). rewrite isMarked_rdcss, R4, R1. cbn [wdesc d_tid]. unfold outcome, under_way. rewrite Hsq, Htid, Hks, Hkt, N.eqb_refl. reflexivity. }
    apply H, (waiting_of me m); [exact Hme|exact B|exact A| |].
    + intros j Hj Hi. rewrite E'; [apply F4, Hi|exact Hj|]. intros ->. apply Hi, in_map, Hx.
    + intros y Hy. destruct (decide (o_off y = o_off x)) as [Ey|Hn].
      * right. rewrite Ey. split; [exact Ex|]. rewrite Ha. symmetry. f_equal. apply (eq_off ws Hnd x y); assumption.
      * unfold MwStop.plain. rewrite E' by (assumption || apply Hws, Hy). apply Hp; assumption.
Qed.

(** ** The second pass *)

Definition final (j : N) : N := snd (mspec (contents m0) (MwCas ws)) j.
Lemma undone_plain m x : In x ws -> plain m x -> undone C m s t ws (o_off x) = contents m0 (o_off x).
Proof.
  intros Hx Hp. unfold undone. destruct Hp as [-> |[-> Ha]].
  - destruct (N.eqb_spec (contents m0 (o_off x)) K) as [E|E]; [|reflexivity]. exfalso. apply (K_mval C HC t s Ht Hs). rewrite <- E. apply m0_vals, Hx.
  - rewrite N.eqb_refl, Ha. apply old_of_in; assumption.
Qed.
Lemma match_ext a b l : (forall x, In x l -> a (o_off x) = b (o_off x)) -> all_match a l = all_match b l.
Proof.
  intros H. unfold all_match. induction l as [|x l IH]; [reflexivity|]. cbn. rewrite H by (left; reflexivity). rewrite IH; [reflexivity|]. intros y Hy. apply H. right. exact Hy.
Qed.
Lemma wpr_call me n (Q : bool -> mem -> Prop) m : me < P -> (length ws < n)%nat -> waiting me m ->
  (forall b m', quiescent C m' -> (forall j, j < m_size C -> contents m' j = final j) -> Q b m') -> wp (pmwcas C (S n) me d None) Q m.
Proof.
  intros Hme Hn [W1 W2 W3 W4 W5 W6 W7 W8 W9] H. apply (wpc_pmwcas C HC me t s Hme Ht Hs n ws); [exact Hn|exact W1|exact W9|].
  rewrite (match_ext _ (contents m0)) by (intros x Hx; apply undone_plain; [exact Hx|apply W3, Hx]). set (r := all_match (contents m0) ws). intros m' A Ek Ex [_ Hw].
  assert (Ef : forall j, j < m_size C -> contents m' j = final j).
  { intros j Hj. unfold final. cbn [mspec]. fold r. destruct (in_dec N.eq_dec j (map o_off ws)) as [Hi|Hi].
    - destruct (off_in j Hi) as (x & Hx & <-). rewrite (Ex x Hx). rewrite undone_plain by (exact Hx || apply W3, Hx). destruct r; cbn [snd]; [rewrite put_all_in by assumption|]; reflexivity.
    - rewrite (cb_contents _ _ _ A); [rewrite W2 by assumption; destruct r; cbn [snd]; [rewrite put_all_out by exact Hi|]; reflexivity|].
      intros [[[?|[[? ?]|[?|?]]]|(x & Hx & E)]|?]; try discriminate. injection E as ->. apply Hi, in_map, Hx. }
  assert (Hpl : forall l, match l with LKCount _ | LKWord _ _ _ => True | _ => False end -> m' l = m l).
  { intros l Hl. apply (cb_plain _ _ _ A); [|destruct l; contradiction || exact I]. intros [[[->|[[? ->]|[->| ->]]]|(? & _ & ->)]| ->]; exact Hl. }
  apply H; [|exact Ef]. split.
  - intros j Hj. rewrite Ef by exact Hj. unfold final. cbn [mspec]. fold r. destruct r; cbn [snd]; [|apply Hr, Hj].
    destruct (in_dec N.eq_dec j (map o_off ws)) as [Hi|Hi]; [|rewrite put_all_out by exact Hi; apply Hr, Hj]. destruct (off_in j Hi) as (x & Hx & <-). rewrite put_all_in by assumption. apply Hws, Hx.
  - intros u Hu. destruct (decide (u = me)) as [->|Hne]; [apply Hw, W4, Hu|]. rewrite (cb_plain _ _ _ A); [apply W4, Hu| |exact I].
    intros [[[?|[[? E]|[?|?]]]|(? & _ & ?)]|?]; try discriminate. injection E. congruence.
  - intros u Hu. rewrite Hpl by exact I. apply W5, Hu.
  - intros u Hu. destruct (decide (u = t)) as [->|Hne].
    + intros _. unfold kstat. change (stt (m' (LK t)) <> Undecided). rewrite <- stt_clean, Ek. destruct (kenc_facts (if r then Succeeded else Failed) s ltac:(destruct r; reflexivity) (seq_61 _ _ HC Hs)) as (D & _).
      unfold stt. rewrite D. cbn [km_status]. destruct r; discriminate.
    + assert (Hnc : ~ completed me t ws (LK u)). { intros [[[?|[[? ?]|[?|?]]]|(? & _ & ?)]|E]; try discriminate. injection E. exact Hne. }
      rewrite (cb_kseq _ _ _ A), (cb_kstat _ _ _ A) by exact Hnc. apply W6; assumption.
  - destruct W8 as (u & _ & Hu & W8). exists u. split; [exact Hu|]. rewrite Hpl by exact I. exact W8.
Qed.
Lemma wpr_descs me n cnt u (Q : unit -> mem -> Prop) m : me < P -> (N.to_nat P <= n)%nat -> (S (length ws) < n)%nat -> u + N.of_nat cnt = P -> u <= t -> waiting me m ->
  (forall m', quiescent C m' -> (forall j, j < m_size C -> contents m' j = final j) -> Q tt m') -> wp (recover_descs C n cnt me u) Q m.
Proof.
  intros Hme HP Hn. revert u Q m. induction cnt as [|cnt IH]; intros u Q m Hc Hut Hw H; [lia|]. cbn [recover_descs].
  assert (Hu : u < P) by lia. apply mwp_bind, mwp_read; [exact I|]. intros m1 O1 E1. pose proof (waiting_read me u _ _ O1 E1 Hw) as Hw1.
  change (km_seq (kmut_decode (clean (m (LK u))))) with (sq (clean (m (LK u)))). rewrite sq_clean. change (sq (m (LK u))) with (kseq m u).
  assert (Hseq : forall m, waiting me m -> kseq m t = s /\ kstat m t = Undecided).
  { intros m' [[_ _ P3 _ _ _ _ _] _ _ _ _ _ _ _ _]. unfold kseq, kstat. change (sq (m' (LK t)) = s /\ stt (m' (LK t)) = Undecided). rewrite <- sq_clean, <- stt_clean, P3.
    fold (kenc Undecided s). destruct (kenc_facts Undecided s eq_refl (seq_61 _ _ HC Hs)) as (D0 & _). unfold sq, stt. rewrite D0. split; reflexivity. }
  assert (Hev : s mod 2 = 0). { rewrite Hsk. rewrite <- N.add_mod_idemp_l by discriminate. rewrite (rd_even C m0 t _ Hr). reflexivity. }
  destruct (decide (u = t)) as [->|Hne].
  - destruct (Hseq m Hw) as [-> _]. rewrite Hev. cbn [N.eqb negb]. apply mwp_bind, mwp_read; [exact I|]. intros m2 O2 E2. pose proof (waiting_read me t _ _ O2 E2 Hw1) as Hw2.
    change (km_status (kmut_decode (clean (m1 (LK t))))) with (stt (clean (m1 (LK t)))). rewrite stt_clean. change (stt (m1 (LK t))) with (kstat m1 t).
    destruct (Hseq m1 Hw1) as [_ ->]. change (Undecided =? Undecided) with true. cbv iota. apply mwp_bind, mwp_bind, mwp_read; [exact I|]. intros m3 O3 E3. pose proof (waiting_read me t _ _ O3 E3 Hw2) as Hw3.
    change (km_seq (kmut_decode (clean (m2 (LK t))))) with (sq (clean (m2 (LK t)))). rewrite sq_clean. change (sq (m2 (LK t))) with (kseq m2 t). destruct (Hseq m2 Hw2) as [-> _].
    rewrite (N.mod_small s) by exact Hs. rewrite (N.mod_small t) by (apply tidSize_fits; exact Ht). change (mkDesc false true false s t) with d.
    destruct n as [|n]; [lia|]. apply mwp_bind, (wpr_call me n); [exact Hme|lia|exact Hw3|]. intros b m4 Q4 E4. cbn [mwp].
    apply mwp_bind, wp_recover_check; [exact Q4|lia| |].
    { destruct (qu_ends C m4 Q4) as (u & Hu' & Hc'). exists u. split; [exact Hu'|]. split; [lia|exact Hc']. }
    intros m5 K5. pose proof (keeps_quiescent C _ _ K5 Q4) as Q5. apply wp_recover_descs; [exact HP|lia|exact Q5|]. intros m6 K6. apply H; [eapply keeps_quiescent; eassumption|].
    intros j Hj. destruct K6 as (-> & _). destruct K5 as (-> & _). apply E4, Hj.
  - assert (Hc0 : forall m, waiting me m -> m (LKCount 0) = 0) by (intros m' W; destruct (wt_first me m' W) as [E|E]; [lia|exact E]).
    destruct (kseq m u mod 2 =? 0) eqn:Ee; cbn [negb].
    + apply mwp_bind, mwp_read; [exact I|]. intros m2 O2 E2. pose proof (waiting_read me u _ _ O2 E2 Hw1) as Hw2.
      change (km_status (kmut_decode (clean (m1 (LK u))))) with (stt (clean (m1 (LK u)))). rewrite stt_clean. change (stt (m1 (LK u))) with (kstat m1 u).
      assert (Hd : kstat m1 u <> Undecided). { apply (wt_decided me m1 Hw1); [exact Hu|exact Hne|]. unfold kseq. change (sq (m1 (LK u)) mod 2 = 0). rewrite E1, sq_clean. apply N.eqb_eq, Ee. }
      rewrite (proj2 (N.eqb_neq _ _) Hd). apply mwp_bind. cbn [mwp]. apply mwp_bind. destruct n as [|n]; [lia|]. cbn [recover_check].
      apply mwp_bind, wph_thread; [lia|]. apply mwp_bind. unfold more. apply mwp_bind, mwp_load; [exact I|]. change (N.of_nat 0) with 0. rewrite Hc0 by exact Hw2. cbn [mwp N.ltb N.compare].
      apply IH; [lia|lia|exact Hw2|exact H].
    + do 2 (apply mwp_bind, mwp_store; [exact I|]). apply IH; [lia|lia|apply waiting_reset; assumption|exact H].
Qed.

(** ** The whole recovery *)

Lemma recover_inside me n m : me < P -> (N.to_nat P <= n)%nat -> (S (length ws) < n)%nat -> inside C t s ws m0 m -> ~ decided t s m ->
  exists m', mrun (mw_recover C n me) m = MOk tt m' /\ quiescent C m' /\ forall j, j < m_size C -> contents m' j = if kseq m t =? s then final j else contents m0 j.
Proof.
  intros Hme HP Hn Hin Hd. destruct Hin as [Hb|[Hf|[(x & Hx & Hh)|Hd']]]; [| | |contradiction].
  - destruct (recover_quiescent C n me m HP (begun_quiescent m Hb)) as (m' & E & Hc & Hq). exists m'. split; [exact E|]. split; [exact Hq|].
    intros j _. rewrite Hc. destruct Hb as (_ & Hb2 & _ & Hb4). rewrite Hb2.
    replace (kseq m t =? s) with false; [reflexivity|]. symmetry. apply N.eqb_neq. intros E'. destruct Hb4 as [Hb4|[Hb4 _]]; [|lia].
    rewrite E', Hsk in Hb4. rewrite <- N.add_mod_idemp_l in Hb4 by discriminate. rewrite (rd_even C m0 t _ Hr) in Hb4. discriminate.
  - assert (W : wp (mw_recover C n me) (fun _ m' => quiescent C m' /\ forall j, j < m_size C -> contents m' j = final j) m).
    { unfold mw_recover. apply mwp_bind, (full_words me); [exact Hme|apply N2Nat.id|exact Hf|]. intros m1 Hw. apply (wpr_descs me n _ 0); [exact Hme|exact HP|exact Hn|rewrite N2Nat.id; lia|lia|exact Hw|]. auto. }
    apply mwp_run in W. destruct W as ([] & m' & E & Hq & Hc). exists m'. split; [exact E|]. split; [exact Hq|].
    destruct (based_seq C HC t s Hs ws m0 m (proj1 Hf)) as [-> _]. rewrite N.eqb_refl. exact Hc.
  - assert (W : wp (mw_recover C n me) (fun _ m' => quiescent C m' /\ forall j, j < m_size C -> contents m' j = final j) m).
    { unfold mw_recover. apply mwp_bind, (half_words me _ x); [exact Hme|apply N2Nat.id|exact Hx|exact Hh|]. intros m1 Hw. apply (wpr_descs me n _ 0); [exact Hme|exact HP|exact Hn|rewrite N2Nat.id; lia|lia|exact Hw|]. auto. }
    apply mwp_run in W. destruct W as ([] & m' & E & Hq & Hc). exists m'. split; [exact E|]. split; [exact Hq|].
    destruct (based_seq C HC t s Hs ws m0 m (proj1 Hh)) as [-> _]. rewrite N.eqb_refl. exact Hc.
Qed.
End Rec.
