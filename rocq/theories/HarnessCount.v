(** The drivers that count the numbers in a file. *)
From Coq Require Import NArith Bool List Ascii String Lia.
From stdpp Require Import base list gmap.
From Verif Require Import Word Bits Prog HashMap Spec Abs SeqInv SeqApi SeqThm Codec CodecThm Container ContainerSpec ContainerThm
  Harness HarnessSpec HarnessText.
Import ListNotations.
Open Scope nat_scope.

(** ** Which elements are incremented *)
Lemma reddit_lines_ok ls vs : Forall2 begins_with ls vs -> Forall one_line ls -> forall nls val,
  Forall2 ended ls nls -> reddit_lines nls val = HOk vs.
Proof.
  induction 1 as [|l v ls vs (ws & sg & nt & rest & x & -> & Hw & Hd & -> & Hr) _ IH]; intros Ho nls val He; inversion He as [|? nl ? nls' He1 He2]; subst;
    [reflexivity|].
  apply Forall_cons in Ho as [Ho1 Ho]. cbn [reddit_lines]. rewrite (chomp_ended _ nl Ho1 He1).
  rewrite (extract_signed ws sg nt x rest Hw Hd Hr). destruct (x <? two64)%N; rewrite IH by assumption; reflexivity.
Qed.
Lemma c57_reddit ls vs f : Forall2 begins_with ls vs -> Forall one_line ls -> text_of ls f ->
  reddit_keys f = HOk vs.
Proof. intros H Ho Hf. unfold reddit_keys. apply (reddit_lines_ok ls); auto using lines_text. Qed.

(** ** Any lines *)
Lemma digit_inv c d : digit c = Some d -> (d < 10)%N /\ c = ascii_of_N (48 + d).
Proof.
  unfold digit. destruct ((48 <=? N_of_ascii c) && (N_of_ascii c <=? 57))%N eqn:E; [|discriminate]. intros [= <-].
  apply andb_true_iff in E as [E1 E2]. apply N.leb_le in E1, E2. split; [lia|].
  replace (48 + (N_of_ascii c - 48))%N with (N_of_ascii c) by lia. symmetry. apply ascii_N_embedding.
Qed.
Lemma digit_none c t : digit c = None -> no_digit (c :: t).
Proof.
  unfold digit, no_digit. destruct ((48 <=? N_of_ascii c) && (N_of_ascii c <=? 57))%N eqn:E; [discriminate|]. intros _.
  apply andb_false_iff in E as [E|E]; apply N.leb_gt in E; [left|right]; exact E.
Qed.
Lemma digits_inv cs : forall acc v rest, digits acc cs = (v, rest) -> exists ds, Forall (fun d => (d < 10)%N) ds /\
  cs = map (fun d => ascii_of_N (48 + d)) ds ++ rest /\ v = fold_left (fun a d => (10 * a + d)%N) ds acc /\ no_digit rest.
Proof.
  induction cs as [|c cs IH]; intros acc v rest H; cbn [digits] in H.
  - injection H as <- <-. exists []. repeat split; constructor.
  - destruct (digit c) as [d|] eqn:E.
    + destruct (digit_inv _ _ E) as [Hd Hc]. destruct (IH _ _ _ H) as (ds & H1 & H2 & H3 & H4). exists (d :: ds).
      split; [now constructor|]. split; [cbn [map app]; congruence|]. split; [exact H3|exact H4].
    + injection H as <- <-. exists []. split; [constructor|]. split; [reflexivity|]. split; [reflexivity|exact (digit_none c cs E)].
Qed.
Lemma unsigned_inv cs v rest : unsigned cs = Some (v, rest) -> exists nt, cs = nt ++ rest /\ decimal nt v /\ no_digit rest.
Proof.
  unfold unsigned. destruct cs as [|c cs]; [discriminate|]. destruct (digit c) as [d|] eqn:E; [|discriminate].
  intros H0. assert (H : digits 0%N (c :: cs) = (v, rest)) by (revert H0; generalize (digits 0%N (c :: cs)); congruence).
  destruct (digits_inv _ _ _ _ H) as (ds & H1 & H2 & H3 & H4).
  exists (map (fun d => ascii_of_N (48 + d)) ds). split; [exact H2|]. split; [|exact H4].
  exists ds. split; [|now repeat split]. intros ->. cbn in H2. subst rest. rewrite (no_digit_digit _ _ H4) in E. discriminate.
Qed.
Lemma signed_inv cs neg v rest : signed cs = Some (neg, v, rest) ->
  exists sg nt, cs = sign_text sg ++ nt ++ rest /\ decimal nt v /\ no_digit rest.
Proof.
  unfold signed. destruct cs as [|c cs]; [discriminate|].
  destruct (Ascii.eqb_spec c "-") as [->|_]; [|destruct (Ascii.eqb_spec c "+") as [->|_]].
  - destruct (unsigned cs) as [[w r]|] eqn:E; [|discriminate]. cbn. intros [= _ <- <-].
    destruct (unsigned_inv _ _ _ E) as (nt & -> & H). exists (Some true), nt. split; [reflexivity|exact H].
  - destruct (unsigned cs) as [[w r]|] eqn:E; [|discriminate]. cbn. intros [= _ <- <-].
    destruct (unsigned_inv _ _ _ E) as (nt & -> & H). exists (Some false), nt. split; [reflexivity|exact H].
  - destruct (unsigned (c :: cs)) as [[w r]|] eqn:E; [|discriminate]. cbn. intros [= _ <- <-].
    destruct (unsigned_inv _ _ _ E) as (nt & -> & H). exists None, nt. split; [reflexivity|exact H].
Qed.
Lemma skip_space_split l : exists ws, l = ws ++ skip_space l /\ blank ws.
Proof.
  induction l as [|c l (ws & E & H)]; [exists []; split; [reflexivity|constructor]|]. cbn [skip_space].
  destruct (is_space c) eqn:Hc; [|exists []; split; [reflexivity|constructor]].
  exists (c :: ws). split; [cbn; congruence|]. constructor; [now apply is_space_true|exact H].
Qed.
(** What extract does with a line, whatever it is. *)
Definition value_after (l : text) (prev : option N) : option N :=
  match extract l with ENone => prev | EFail v => Some v | EGot v _ => Some v end.
Lemma begins_value l x prev : begins_with l x -> value_after l prev = Some x.
Proof.
  intros (ws & sg & nt & rest & y & -> & Hw & Hd & -> & Hr). unfold value_after. rewrite (extract_signed ws sg nt y rest Hw Hd Hr).
  destruct (y <? two64)%N; reflexivity.
Qed.
Lemma blank_value l prev : blank l -> value_after l prev = prev.
Proof. intros H. unfold value_after, extract. rewrite (skip_space_blank l H). reflexivity. Qed.
Lemma line_cases l : (exists x, begins_with l x) \/ blank l \/ (~ blank l /\ (forall x, ~ begins_with l x) /\ forall prev, value_after l prev = Some 0%N).
Proof.
  destruct (skip_space_split l) as (ws & E & Hw). destruct (skip_space l) as [|c cs] eqn:Es.
  { right; left. rewrite E, app_nil_r. exact Hw. }
  destruct (signed (c :: cs)) as [[[neg v] rest]|] eqn:Eg.
  - left. destruct (signed_inv _ _ _ _ Eg) as (sg & nt & E2 & Hd & Hr). exists (signed_value sg v), ws, sg, nt, rest, v.
    split; [congruence|]. auto.
  - right; right. assert (Hb : ~ blank l) by (intros Hb; rewrite (skip_space_blank l Hb) in Es; discriminate).
    assert (Hv : extract l = EFail 0) by (unfold extract; rewrite Es, Eg; reflexivity).
    split; [exact Hb|]. split; [|intros prev; unfold value_after; rewrite Hv; reflexivity].
    intros x (ws' & sg & nt & r & y & El & Hw' & Hd & _ & Hr). rewrite El, (skip_space_app ws' _ Hw') in Es.
    rewrite (skip_space_signed sg nt y r Hd) in Es. rewrite <- Es, (signed_sign sg nt y r Hd Hr) in Eg. discriminate.
Qed.
Lemma reads_value prev l o : reads prev l o <-> value_after l prev = o.
Proof.
  split.
  - intros [x Hb|Hb|Hb Hn]; [exact (begins_value _ _ _ Hb)|exact (blank_value _ _ Hb)|].
    destruct (line_cases l) as [[x Hx]|[Hx|(_ & _ & Hx)]]; [now apply Hn in Hx|contradiction|apply Hx].
  - intros <-. destruct (line_cases l) as [[x Hx]|[Hx|(H1 & H2 & Hx)]].
    + rewrite (begins_value _ _ _ Hx). now constructor.
    + rewrite (blank_value _ _ Hx). now constructor.
    + rewrite Hx. now constructor.
Qed.
Lemma reddit_lines_reads ls : Forall one_line ls -> forall nls val, Forall2 ended ls nls ->
  (forall xs, reads_all val ls xs <-> reddit_lines nls val = HOk xs) /\
  (reddit_lines nls val = HBad Uninit <-> val = None /\ exists l ls', ls = l :: ls' /\ blank l) /\
  (forall e, reddit_lines nls val = HBad e -> e = Uninit).
Proof.
  induction ls as [|l ls IH]; intros Ho nls val He; inversion He as [|? nl ? nls' He1 He2]; subst.
  - cbn. split; [|split; [split; [discriminate|intros (_ & l & ls' & [=] & _)]|discriminate]].
    intros xs. split; [intros H; now inversion H|intros [= <-]; constructor].
  - apply Forall_cons in Ho as [Ho1 Ho]. cbn [reddit_lines]. rewrite (chomp_ended _ nl Ho1 He1). fold (value_after l val).
    destruct (value_after l val) as [v|] eqn:Ev.
    + destruct (IH Ho nls' (Some v) He2) as (H1 & H2 & H3). destruct (reddit_lines nls' (Some v)) as [vs|e] eqn:Er.
      * split; [|split; [split; [discriminate|]|discriminate]].
        -- intros xs. split.
           ++ intros H. inversion H as [|? ? x ? ys Hr Ha]; subst. apply reads_value in Hr. rewrite Ev in Hr. injection Hr as <-.
              apply H1 in Ha. congruence.
           ++ intros [= <-]. constructor; [now apply reads_value|now apply H1].
        -- intros (-> & l' & ls' & [= <- <-] & Hb). rewrite (blank_value _ _ Hb) in Ev. discriminate.
      * exfalso. pose proof (H3 e eq_refl). subst e. destruct (proj1 H2 eq_refl) as [Hx _]. discriminate.
    + assert (Hn : val = None /\ blank l).
      { destruct (line_cases l) as [[x Hx]|[Hx|(_ & _ & Hx)]].
        - rewrite (begins_value _ _ _ Hx) in Ev. discriminate.
        - rewrite (blank_value _ _ Hx) in Ev. auto.
        - rewrite Hx in Ev. discriminate. }
      split; [|split; [split; [|reflexivity]|now intros e [= <-]]].
      * intros xs. split; [|discriminate]. intros H. inversion H as [|? ? x ? ys Hr Ha]; subst. apply reads_value in Hr. congruence.
      * intros _. destruct Hn. eauto.
Qed.
Lemma c57_reddit_all ls f : Forall one_line ls -> text_of ls f ->
  (forall xs, reads_all None ls xs <-> reddit_keys f = HOk xs) /\
  (forall e, reddit_keys f = HBad e <-> e = Uninit /\ exists l ls', ls = l :: ls' /\ blank l).
Proof.
  intros Ho Hf. destruct (reddit_lines_reads ls Ho (lines_of f) None (lines_text ls f Ho Hf)) as (H1 & H2 & H3).
  split; [exact H1|]. intros e. split.
  - intros H. pose proof (H3 e H). subst e. split; [reflexivity|]. now apply H2.
  - intros (-> & H). apply H2. auto.
Qed.
(** Every file consists of lines. *)
Lemma c57_every_file f : exists ls, Forall one_line ls /\ text_of ls f.
Proof.
  induction f as [|c f (ls & Ho & Hf)]; [exists []; split; [constructor|now left]|].
  destruct (Ascii.eqb_spec c NL) as [->|Hc].
  - exists ([] :: ls). split; [constructor; [intros []|exact Ho]|]. destruct Hf as [->|(ls' & l & -> & Hl & ->)]; [now left|].
    right. exists ([] :: ls'), l. repeat split; auto.
  - destruct ls as [|l ls].
    + exists [[c]]. split; [constructor; [intros [E|[]]; congruence|constructor]|]. right. exists [], [c]. split; [reflexivity|].
      split; [discriminate|]. destruct Hf as [->|(ls' & l & E & _)]; [reflexivity|]. destruct ls'; discriminate.
    + apply Forall_cons in Ho as [Ho1 Ho]. exists ((c :: l) :: ls). split; [constructor; [intros [E|E]; [congruence|exact (Ho1 E)]|exact Ho]|].
      destruct Hf as [->|(ls' & l' & E & Hl & ->)]; [now left|]. right. destruct ls' as [|l0 ls'].
      * injection E as -> ->. exists [], (c :: l'). split; [reflexivity|]. split; [discriminate|reflexivity].
      * injection E as -> ->. exists ((c :: l0) :: ls'), l'. repeat split; auto.
Qed.

Lemma decimal_nonempty t v : decimal t v -> 1 <= List.length t.
Proof. intros Hd. destruct (decimal_first _ _ Hd) as (c & t' & -> & _). cbn. lia. Qed.
Lemma degree_cols_ok n l p inc : pair_line l p -> List.length l <= n -> 3 <= n ->
  degree_cols n 0 l inc = HOk (Some (snd p)).
Proof.
  intros (w1 & s1 & n1 & v1 & w2 & s2 & n2 & v2 & w3 & -> & Hw1 & Hw2 & Hne & Hw3 & Hd1 & Hd2 & Hv1 & Hv2 & ->) Hn Hn3.
  apply N.ltb_lt in Hv1, Hv2. cbn [fst snd].
  destruct n as [|[|[|n]]]; try lia. clear Hn Hn3. cbn [degree_cols].
  assert (Hnd3 : no_digit w3) by (rewrite <- (app_nil_r w3); apply blank_no_digit; [exact Hw3|exact I]).
  rewrite <- !app_assoc. rewrite (extract_signed w1 s1 n1 v1 _ Hw1 Hd1), Hv1.
  2:{ destruct Hw2 as [|c w2 Hc]; [congruence|]. cbn. lia. }
  assert (exists w, blank w /\ skip_blank (w2 ++ sign_text s2 ++ n2 ++ w3) = w ++ sign_text s2 ++ n2 ++ w3) as (w & Hw & ->).
  { destruct Hw2 as [|c w2 Hc Hw2]; [congruence|]. cbn [app skip_blank]. destruct (Ascii.eqb c " "); [eauto|].
    exists (c :: w2). split; [now constructor|reflexivity]. }
  rewrite (extract_signed w s2 n2 v2 w3 Hw Hd2 Hnd3), Hv2.
  assert (extract (skip_blank w3) = ENone) as ->; [|reflexivity].
  unfold extract. replace (skip_space (skip_blank w3)) with (@nil ascii); [reflexivity|].
  symmetry. apply skip_space_blank. destruct Hw3 as [|c w3 Hc Hw3]; [constructor|]. cbn [skip_blank].
  destruct (Ascii.eqb c " "); [exact Hw3|now constructor].
Qed.

Lemma degree_lines_ok ls ps : Forall2 pair_line ls ps -> Forall one_line ls -> forall nls inc,
  Forall2 ended ls nls -> degree_lines nls inc = HOk (map snd ps).
Proof.
  induction 1 as [|l p ls ps Hp _ IH]; intros Ho nls inc He; inversion He as [|? nl ? nls' He1 He2]; subst; [reflexivity|].
  apply Forall_cons in Ho as [Ho1 Ho]. cbn [map degree_lines]. rewrite (chomp_ended _ nl Ho1 He1).
  assert (Hlen : List.length l <= List.length nl) by (destruct He1 as [->| ->]; rewrite ?app_length; lia).
  rewrite (degree_cols_ok _ l p inc Hp).
  - rewrite IH by assumption. reflexivity.
  - lia.
  - cut (3 <= List.length l); [lia|]. clear Hlen. destruct Hp as (w1 & s1 & n1 & v1 & w2 & s2 & n2 & v2 & w3 & -> & _ & _ & Hne & _ & Hd1 & Hd2 & _).
    pose proof (decimal_nonempty _ _ Hd1). pose proof (decimal_nonempty _ _ Hd2).
    rewrite !app_length. destruct w2; [congruence|]. cbn [List.length]. lia.
Qed.
Lemma c57_degree ls ps f : Forall2 pair_line ls ps -> Forall one_line ls -> text_of ls f -> degree_keys f = HOk (map snd ps).
Proof. intros H Ho Hf. unfold degree_keys. apply (degree_lines_ok ls); auto using lines_text. Qed.

(** ** Any lines of the degree driver *)
Lemma skip_blank_extract l : extract (skip_blank l) = extract l.
Proof.
  destruct l as [|c l]; [reflexivity|]. cbn [skip_blank]. destruct (Ascii.eqb_spec c " ") as [->|_]; [|reflexivity].
  unfold extract. reflexivity.
Qed.
Lemma skip_blank_cols n i l inc : degree_cols n i (skip_blank l) inc = degree_cols n i l inc.
Proof. destruct n as [|n]; [reflexivity|]. cbn [degree_cols]. rewrite skip_blank_extract. reflexivity. Qed.
Lemma extract_inv l x rest : extract l = EGot x rest -> exists ws sg nt v, l = ws ++ sign_text sg ++ nt ++ rest /\ blank ws /\
  decimal nt v /\ no_digit rest /\ (v < 2 ^ 64)%N.
Proof.
  intros H. destruct (skip_space_split l) as (ws & E & Hw). unfold extract in H. destruct (skip_space l) as [|c cs] eqn:Es; [discriminate|].
  destruct (signed (c :: cs)) as [[[neg v] r]|] eqn:Eg; [|discriminate].
  destruct (N.ltb_spec v two64) as [Hv|]; [|discriminate]. injection H as _ ->.
  destruct (signed_inv _ _ _ _ Eg) as (sg & nt & E2 & Hd & Hr). exists ws, sg, nt, v. split; [congruence|]. auto.
Qed.
Lemma columns_extract l ns : columns l ns -> match ns with
  | [] => forall x rest, extract l <> EGot x rest
  | x :: ns' => exists rest, extract l = EGot x rest /\ columns rest ns' end.
Proof.
  intros [l' H|ws sg nt rest v ns' Hw Hd Hr Hv Hc].
  - intros x rest E. destruct (extract_inv _ _ _ E) as (ws & sg & nt & v & E2 & Hw & Hd & Hr & Hv).
    exact (H ws sg nt rest v Hw Hd Hr Hv E2).
  - exists rest. split; [|exact Hc]. rewrite (extract_signed ws sg nt v rest Hw Hd Hr). change (2 ^ 64)%N with two64 in Hv.
    apply N.ltb_lt in Hv. rewrite Hv. reflexivity.
Qed.
Lemma columns_length l ns : columns l ns -> List.length ns <= List.length l.
Proof.
  induction 1 as [l H|ws sg nt rest v ns Hw Hd Hr Hv Hc IH]; [cbn; lia|]. pose proof (decimal_nonempty _ _ Hd).
  cbn [List.length]. rewrite !app_length. lia.
Qed.
Lemma c57_every_line l : exists ns, columns l ns.
Proof.
  assert (H : forall n l, List.length l <= n -> exists ns, columns l ns); [|exact (H _ l (le_n _))].
  induction n as [|n IH]; intros t Hn.
  - exists []. constructor. intros ws sg nt rest v Hw Hd Hr Hv ->. pose proof (decimal_nonempty _ _ Hd). rewrite !app_length in Hn. lia.
  - destruct (extract t) as [|x|x rest] eqn:E.
    + exists []. constructor. intros ws sg nt rest v Hw Hd Hr Hv ->. rewrite (extract_signed ws sg nt v rest Hw Hd Hr) in E.
      destruct (v <? two64)%N; discriminate.
    + exists []. constructor. intros ws sg nt rest v Hw Hd Hr Hv ->. rewrite (extract_signed ws sg nt v rest Hw Hd Hr) in E.
      change (2 ^ 64)%N with two64 in Hv. apply N.ltb_lt in Hv. rewrite Hv in E. discriminate.
    + destruct (extract_inv _ _ _ E) as (ws & sg & nt & v & -> & Hw & Hd & Hr & Hv). destruct (IH rest) as (ns & Hc).
      * pose proof (decimal_nonempty _ _ Hd). rewrite !app_length in Hn. lia.
      * exists (signed_value sg v :: ns). now constructor.
Qed.
Lemma no_more n i l inc : (forall x rest, extract l <> EGot x rest) -> degree_cols (S n) i l inc = HOk inc.
Proof. intros H. cbn [degree_cols]. destruct (extract l) as [| |x rest]; [reflexivity|reflexivity|]. now destruct (H x rest). Qed.
Lemma degree_cols_columns n l ns inc : columns l ns -> List.length ns < n ->
  degree_cols n 0 l inc = match ns with [] | [_] => HOk inc | [_; x] => HOk (Some x) | _ => HBad Throws end.
Proof.
  intros Hc Hn. destruct n as [|n]; [lia|]. destruct ns as [|a ns]; [now apply no_more, (columns_extract _ _ Hc)|].
  destruct (columns_extract _ _ Hc) as (r1 & E1 & Hc1). cbn [degree_cols]. rewrite E1, skip_blank_cols. cbn [List.length] in Hn.
  destruct n as [|n]; [lia|]. destruct ns as [|b ns]; [now apply no_more, (columns_extract _ _ Hc1)|].
  destruct (columns_extract _ _ Hc1) as (r2 & E2 & Hc2). cbn [degree_cols]. rewrite E2, skip_blank_cols. cbn [List.length] in Hn.
  destruct n as [|n]; [lia|]. destruct ns as [|c ns]; [now apply no_more, (columns_extract _ _ Hc2)|].
  destruct (columns_extract _ _ Hc2) as (r3 & E3 & Hc3). cbn [degree_cols]. rewrite E3. reflexivity.
Qed.
Lemma degree_lines_columns ls nss : Forall2 columns ls nss -> Forall one_line ls -> forall nls inc, Forall2 ended ls nls ->
  degree_lines nls inc = second_numbers inc nss.
Proof.
  induction 1 as [|l ns ls nss Hc _ IH]; intros Ho nls inc He; inversion He as [|? nl ? nls' He1 He2]; subst; [reflexivity|].
  apply Forall_cons in Ho as [Ho1 Ho]. cbn [degree_lines second_numbers]. rewrite (chomp_ended _ nl Ho1 He1).
  assert (Hlen : List.length l <= List.length nl) by (destruct He1 as [->| ->]; rewrite ?app_length; lia).
  rewrite (degree_cols_columns _ l ns inc Hc) by (pose proof (columns_length _ _ Hc); lia).
  destruct ns as [|a [|b [|c ns]]]; [destruct inc as [x|]; [|reflexivity]|destruct inc as [x|]; [|reflexivity]| |reflexivity];
    rewrite IH by assumption; reflexivity.
Qed.
Lemma c57_degree_all ls nss f : Forall2 columns ls nss -> Forall one_line ls -> text_of ls f -> degree_keys f = second_numbers None nss.
Proof. intros H Ho Hf. unfold degree_keys. apply (degree_lines_columns ls); auto using lines_text. Qed.
Lemma columns_unique l ns ns' : columns l ns -> columns l ns' -> ns = ns'.
Proof.
  revert l ns'. induction ns as [|a ns IH]; intros l ns' H H'; apply columns_extract in H, H'; destruct ns' as [|b ns'].
  - reflexivity.
  - destruct H' as (r & E & _). now destruct (H b r).
  - destruct H as (r & E & _). now destruct (H' a r).
  - destruct H as (r & E & Hc), H' as (r' & E' & Hc'). rewrite E in E'. injection E' as -> ->. f_equal. eauto.
Qed.

(** ** What the counts are *)
Definition counts (m : gmap N N) (els : list N) : Prop := forall el, legal_el el ->
  m !! encode_el el = if (occurrences el els =? 0)%N then None else Some (8 * occurrences el els)%N.

Lemma occurrences_snoc el els e : occurrences el (els ++ [e]) = (occurrences el els + if (el =? e)%N then 1 else 0)%N.
Proof. unfold occurrences. rewrite List.filter_app, app_length. cbn [List.filter]. destruct (el =? e)%N; cbn [List.length]; lia. Qed.
Lemma occurrences_le el els : (occurrences el els <= N.of_nat (List.length els))%N.
Proof.
  unfold occurrences. induction els as [|e els IH]; cbn [List.filter List.length]; [lia|].
  destruct (el =? e)%N; cbn [List.length]; lia.
Qed.

Lemma next_count_small x : (x + 1 < 2 ^ 61)%N -> next_count (Some (8 * x)%N) = (8 * (x + 1))%N.
Proof.
  intros H. unfold next_count. rewrite (N.mul_comm 8 x), N.div_mul by lia. rewrite N.mod_small; [lia|].
  assert (2 ^ 64 = 8 * 2 ^ 61)%N as -> by reflexivity. lia.
Qed.
Lemma count_not_reserved x : (0 < x)%N -> (x + 2 < 2 ^ 61)%N -> (8 * x)%N <> VINITIAL /\ (8 * x)%N <> VTOMBSTONE.
Proof.
  intros H0 H. rewrite VINITIAL_val, VTOMBSTONE_val.
  assert (2 ^ 61 = 2305843009213693952)%N as E by reflexivity. rewrite E in H. lia.
Qed.

Lemma counts_step m els el : legal_el el -> (N.of_nat (List.length els) + 4 < 2 ^ 61)%N -> counts m els ->
  m !! encode_el el <> Some INCREMENT_ARG /\ counts (inc_map m (encode_el el)) (els ++ [el]).
Proof.
  intros Hel Hn Hc. pose proof (Hc el Hel) as He. pose proof (occurrences_le el els) as Hle.
  assert (Hnext : next_count (m !! encode_el el) = (8 * (occurrences el els + 1))%N).
  { rewrite He. destruct (N.eqb_spec (occurrences el els) 0) as [->|Hne]; [reflexivity|].
    apply next_count_small. lia. }
  split.
  - rewrite He. destruct (N.eqb_spec (occurrences el els) 0); [discriminate|]. intros E. assert (E2 := Some_inj _ _ E). clear E. rename E2 into E.
    assert (INCREMENT_ARG = 8 * (2 ^ 61 - 3))%N as EI by reflexivity. rewrite EI in E.
    assert (2 ^ 61 = 2305843009213693952)%N as E61 by reflexivity. rewrite E61 in E, Hn. lia.
  - destruct (count_not_reserved (occurrences el els + 1)) as (H1 & H2); [lia|lia|].
    intros el' Hel'. unfold inc_map. rewrite Hnext. rewrite decide_False by tauto. rewrite occurrences_snoc.
    destruct (N.eqb_spec el' el) as [->|Hne].
    + rewrite lookup_insert. destruct (N.eqb_spec (occurrences el els + 1) 0); [lia|reflexivity].
    + rewrite lookup_insert_ne; [|intros E; apply Hne; symmetry; now apply legal_el_inj].
      rewrite N.add_0_r. now apply Hc.
Qed.

Section Init.
Context (C : cfg) (cap ppl : nat) (maxcap : N).
Hypothesis Hcap : good_cap cap maxcap.
Hypothesis Hmax : (maxcap <= 2 ^ 32)%N.
Notation s0 := (init_state cap ppl maxcap).

Lemma counted_ok els s : counted_to C s0 els s -> Forall legal_el els -> (N.of_nat (List.length els) + 3 < 2 ^ 61)%N ->
  exists sz m, okstate C sz (abs s) m /\ counts m els.
Proof.
  induction 1 as [|els s n el r s' Hr IH Hs Htop]; intros Hl Hn.
  - destruct (init_ok C cap ppl maxcap Hcap Hmax) as (sz & Hok). exists sz, ∅. split; [exact Hok|].
    intros el _. apply lookup_empty.
  - apply Forall_app in Hl as [Hl Hel]. apply Forall_inv in Hel. rewrite app_length in Hn. cbn [List.length] in Hn.
    destruct IH as (sz & m & Hok & Hc); [exact Hl|lia|].
    assert (Hs' : run (cop_prog C n (CIncrement el)) s = Ok (CNum r) s') by (cbn [cop_prog]; rewrite run_bind, Hs; reflexivity).
    destruct (cop_run _ _ _ _ _ _ Hs') as (r0 & Hr0 & _). cbn [map_op] in Hr0.
    pose proof (op_any C n sz s m (OIncrement (encode_el el)) Hok (proj1 (legal_el_key _ Hel))) as P. rewrite Hr0 in P.
    destruct P as (m' & sz' & Hok' & _ & _ & _ & _ & _ & P4).
    destruct (counts_step m els el Hel ltac:(lia) Hc) as (Hne & Hc').
    specialize (P4 (encode_el el) eq_refl Htop Hne). subst m'. eauto.
Qed.

Lemma read_ok n sz s m el b s' : okstate C sz (abs s) m -> legal_el el -> run (c_contains C n el) s = Ok b s' ->
  b = bool_decide (is_Some (m !! encode_el el)) /\ exists sz', okstate C sz' (abs s') m.
Proof.
  intros Hok Hel Hs.
  assert (Hs' : run (op_prog C n (OContains (encode_el el))) s = Ok (RBool b) s').
  { cbn [op_prog]. unfold c_contains in Hs. rewrite run_bind, Hs. reflexivity. }
  pose proof (op_any C n sz s m (OContains (encode_el el)) Hok (proj1 (legal_el_key _ Hel))) as P. rewrite Hs' in P.
  destruct P as (m' & sz' & Hok' & (E & ->) & _). injection E as ->. eauto.
Qed.
Lemma value_ok n sz s m el v s' : okstate C sz (abs s) m -> legal_el el -> run (c_get C n el) s = Ok v s' ->
  v = decode_el (lookup_result m (encode_el el)) /\ exists sz', okstate C sz' (abs s') m.
Proof.
  intros Hok Hel Hs. unfold c_get in Hs. apply run_ret_inv in Hs. destruct Hs as (x & Hs & ->).
  assert (Hs' : run (op_prog C n (OGet (encode_el el))) s = Ok (RVal x) s').
  { cbn [op_prog]. rewrite run_bind, Hs. reflexivity. }
  pose proof (op_any C n sz s m (OGet (encode_el el)) Hok (proj1 (legal_el_key _ Hel))) as P. rewrite Hs' in P.
  destruct P as (m' & sz' & Hok' & (E & ->) & _). injection E as ->. eauto.
Qed.
Lemma count_ok (n : nat) sz s m v s' : okstate C sz (abs s) m -> run c_count s = Ok v s' ->
  exists sz', okstate C sz' (abs s') m.
Proof.
  intros Hok Hs. assert (Hs' : run (op_prog C n OSize) s = Ok (RVal v) s').
  { cbn [op_prog]. unfold c_count in Hs. rewrite run_bind, Hs. reflexivity. }
  pose proof (op_any C n sz s m OSize Hok I) as P. rewrite Hs' in P.
  destruct P as (m' & sz' & Hok' & (_ & ->) & _). eauto.
Qed.

Lemma decode_count x : (x < 2 ^ 61)%N -> decode_el (8 * x)%N = x.
Proof.
  intros H. rewrite <- (decode_encode x) at 2 by exact H. f_equal. rewrite encode_small by exact H. lia.
Qed.

Lemma counts_value m els el : counts m els -> legal_el el -> (N.of_nat (List.length els) + 3 < 2 ^ 61)%N ->
  bool_decide (is_Some (m !! encode_el el)) = (0 <? occurrences el els)%N /\
  ((0 < occurrences el els)%N -> decode_el (lookup_result m (encode_el el)) = occurrences el els).
Proof.
  intros Hc Hel Hn. specialize (Hc el Hel). pose proof (occurrences_le el els). unfold lookup_result. rewrite Hc.
  destruct (N.eqb_spec (occurrences el els) 0) as [E|E].
  - rewrite E. split; [reflexivity|lia].
  - split; [symmetry; apply N.ltb_lt; lia|]. intros _. cbn. apply decode_count. lia.
Qed.

Lemma c57_counts els s n el : counted_to C s0 els s -> Forall legal_el els -> (N.of_nat (List.length els) + 3 < 2 ^ 61)%N ->
  legal_el el ->
  (forall b s', run (c_contains C n el) s = Ok b s' -> b = (0 <? occurrences el els)%N) /\
  (forall v s', run (c_get C n el) s = Ok v s' -> (0 < occurrences el els)%N -> v = occurrences el els).
Proof.
  intros Hr Hl Hn Hel. destruct (counted_ok _ _ Hr Hl Hn) as (sz & m & Hok & Hc).
  destruct (counts_value m els el Hc Hel Hn) as (H1 & H2). split.
  - intros b s' Hs. destruct (read_ok _ _ _ _ _ _ _ Hok Hel Hs) as (-> & _). exact H1.
  - intros v s' Hs. destruct (value_ok _ _ _ _ _ _ _ Hok Hel Hs) as (-> & _). exact H2.
Qed.

(** ** What is printed *)
Lemma report_from_ok n els m : counts m els -> (N.of_nat (List.length els) + 3 < 2 ^ 61)%N -> forall todo i sz s out s',
  okstate C sz (abs s) m -> (i + N.of_nat todo + 4 <= 2 ^ 61)%N -> run (report_from C n todo i) s = Ok out s' ->
  forall el v, In (el, v) out <-> (i <= el < i + N.of_nat todo)%N /\ (0 < occurrences el els)%N /\ v = occurrences el els.
Proof.
  intros Hc Hn. induction todo as [|todo IH]; intros i sz s out s' Hok Hi Hs el v; cbn [report_from] in Hs.
  - injection Hs as <- <-. cbn. split; [easy|]. lia.
  - assert (Hel : legal_el i) by (unfold legal_el; lia). destruct (counts_value m els i Hc Hel Hn) as (H1 & H2).
    rewrite run_bind in Hs. destruct (run (c_contains C n i) s) as [b s1|] eqn:Eb; [|discriminate].
    destruct (read_ok _ _ _ _ _ _ _ Hok Hel Eb) as (-> & sz1 & Hok1). rewrite H1 in Hs.
    rewrite run_bind in Hs. destruct (N.ltb_spec 0 (occurrences i els)) as [Hp|Hz].
    + rewrite run_bind in Hs. destruct (run (c_get C n i) s1) as [x s2|] eqn:Ex; [|discriminate].
      destruct (value_ok _ _ _ _ _ _ _ Hok1 Hel Ex) as (-> & sz2 & Hok2). rewrite H2 in Hs by exact Hp. cbn [run] in Hs.
      apply run_ret_inv in Hs. destruct Hs as (rest & Hs & ->).
      pose proof (IH (i + 1)%N _ _ _ _ Hok2 ltac:(lia) Hs el v) as HI. rewrite in_app_iff, HI. cbn [In]. split.
      * intros [[[= <- <-]|[]]|?]; lia.
      * intros (Ha & Hb & ->). destruct (N.eq_dec i el) as [->|]; [left; left; reflexivity|right; lia].
    + cbn [run] in Hs. apply run_ret_inv in Hs. destruct Hs as (rest & Hs & ->). cbn [app].
      pose proof (IH (i + 1)%N _ _ _ _ Hok1 ltac:(lia) Hs el v) as HI. rewrite HI.
      split; [lia|]. intros (Ha & Hb & ->). destruct (N.eq_dec i el) as [->|]; lia.
Qed.

Lemma c57_report els s n c s1 out s2 : counted_to C s0 els s -> Forall legal_el els ->
  (N.of_nat (List.length els) + 3 < 2 ^ 61)%N -> run c_count s = Ok c s1 -> (c + 4 <= 2 ^ 61)%N ->
  run (report C n) s = Ok out s2 ->
  forall el v, In (el, v) out <-> (el < c)%N /\ (0 < occurrences el els)%N /\ v = occurrences el els.
Proof.
  intros Hr Hl Hn Hs Hc4 Hrep el v. destruct (counted_ok _ _ Hr Hl Hn) as (sz & m & Hok & Hc).
  unfold report in Hrep. rewrite run_bind, Hs in Hrep. destruct (count_ok n _ _ _ _ _ Hok Hs) as (sz' & Hok').
  pose proof (report_from_ok n els m Hc Hn (N.to_nat c) 0%N sz' s1 out s2 Hok' ltac:(lia) Hrep el v) as H.
  rewrite H. lia.
Qed.
End Init.

(** ** Legal calls never go wrong *)
Lemma cop_safe C n o s e s' : run (cop_prog C n o) s = Fail e s' -> exists s2, run (op_prog C n (map_op o)) s = Fail e s2.
Proof.
  destruct o; cbn [cop_prog map_op op_prog]; unfold c_insert, c_erase, c_contains, c_get, c_count; rewrite ?run_bind.
  - destruct (run (put C n (encode_el el) (encode_el el)) s); cbn; [discriminate|]. intros [= <- <-]. eauto.
  - destruct (run (remove C n (encode_el el)) s); cbn; [discriminate|]. intros [= <- <-]. eauto.
  - destruct (run (containsKey C n (encode_el el)) s); cbn; [discriminate|]. intros [= <- <-]. eauto.
  - destruct (run (get C n (encode_el el)) s); cbn; [discriminate|]. intros [= <- <-]. eauto.
  - destruct (run size s); cbn; [discriminate|]. intros [= <- <-]. eauto.
  - change (c_increment C n el) with (incrementOp C n (encode_el el)).
    destruct (run (incrementOp C n (encode_el el)) s); cbn; [discriminate|]. intros [= <- <-]. eauto.
Qed.

Lemma cops_safe C n os : Forall (fun o => legal_op (map_op o)) os -> forall sz s m e s',
  okstate C sz (abs s) m -> run (cops_prog C n os) s = Fail e s' -> e = AllocFail \/ e = OutOfFuel.
Proof.
  induction 1 as [|o os Ho _ IH]; intros sz s m e s' Hok H; cbn [cops_prog] in H; [discriminate|].
  rewrite run_bind in H. pose proof (op_any C n sz s m (map_op o) Hok Ho) as P.
  destruct (run (cop_prog C n o) s) as [r s1|e1 s1] eqn:E.
  - destruct (cop_run _ _ _ _ _ _ E) as (r0 & E0 & _). rewrite E0 in P. destruct P as (m' & sz' & Hok' & _).
    rewrite run_bind in H. destruct (run (cops_prog C n os) s1) as [rs s2|e2 s2] eqn:E2; [discriminate|].
    injection H as <- <-. exact (IH _ _ _ _ _ Hok' E2).
  - injection H as <- <-. destruct (cop_safe _ _ _ _ _ _ E) as (s2 & E2). rewrite E2 in P. exact P.
Qed.
