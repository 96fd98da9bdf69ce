(** Reading numbers and lines. *)
From Coq Require Import NArith Bool List Ascii String Lia.
From stdpp Require Import base list.
From Verif Require Import Word Prog HashMap Container Harness HarnessSpec.
Import ListNotations.
Open Scope nat_scope.

(** ** Lines *)
Lemma split_lines_line l : forall cur cs, ~ In NL l -> split_lines cur (l ++ NL :: cs) = (rev cur ++ l ++ [NL]) :: split_lines [] cs.
Proof.
  induction l as [|c l IH]; intros cur cs Hl.
  - cbn [app split_lines]. rewrite Ascii.eqb_refl. cbn [rev]. reflexivity.
  - cbn [app split_lines]. destruct (Ascii.eqb_spec c NL) as [->|Hne]; [exfalso; apply Hl; now left|].
    rewrite IH by (intros H; apply Hl; now right). cbn [rev]. rewrite <- !app_assoc. reflexivity.
Qed.

Lemma lines_of_file ls : Forall one_line ls -> lines_of (file_of ls) = map (fun l => l ++ [NL]) ls.
Proof.
  unfold lines_of, file_of. induction 1 as [|l ls Hl _ IH]; [reflexivity|].
  cbn [map concat]. rewrite <- app_assoc. change ([NL] ++ ?x) with (NL :: x).
  rewrite split_lines_line by exact Hl. cbn [rev app]. f_equal. exact IH.
Qed.

(** A line as it is read. *)
Definition ended (l nl : text) : Prop := nl = l ++ [NL] \/ nl = l.
Lemma split_lines_end l : forall cur, ~ In NL l -> rev cur ++ l <> [] -> split_lines cur l = [rev cur ++ l].
Proof.
  induction l as [|c l IH]; intros cur Hl Hne; cbn [split_lines].
  - destruct cur; [now destruct Hne|]. now rewrite app_nil_r.
  - destruct (Ascii.eqb_spec c NL) as [->|_]; [exfalso; apply Hl; now left|].
    rewrite IH; [cbn [rev]; now rewrite <- app_assoc|intros H; apply Hl; now right|].
    cbn [rev]. rewrite <- app_assoc. destruct (rev cur); discriminate.
Qed.
Lemma split_file ls rest : Forall one_line ls ->
  lines_of (file_of ls ++ rest) = map (fun l => l ++ [NL]) ls ++ split_lines [] rest.
Proof.
  unfold lines_of, file_of. induction 1 as [|l ls Hl _ IH]; [reflexivity|].
  cbn [map concat]. rewrite <- !app_assoc. change ([NL] ++ ?x) with (NL :: x).
  rewrite split_lines_line by exact Hl. cbn [rev app]. f_equal. exact IH.
Qed.
Lemma lines_text ls f : Forall one_line ls -> text_of ls f -> Forall2 ended ls (lines_of f).
Proof.
  assert (Hm : forall ls, Forall2 ended ls (map (fun l => l ++ [NL]) ls)).
  { intros l. induction l; cbn; constructor; [now left|assumption]. }
  intros Ho [->|(ls' & l & -> & Hne & ->)].
  - rewrite lines_of_file by exact Ho. apply Hm.
  - apply Forall_app in Ho as [Ho Hl]. apply List.Forall_inv in Hl. rewrite split_file by exact Ho.
    rewrite split_lines_end; [|exact Hl|exact Hne]. apply Forall2_app; [apply Hm|]. constructor; [now right|constructor].
Qed.

Lemma chomp_line l : one_line l -> chomp (l ++ [NL]) = l.
Proof.
  unfold chomp, one_line. intros H. rewrite List.filter_app. cbn [List.filter]. rewrite Ascii.eqb_refl. cbn [negb].
  rewrite app_nil_r. induction l as [|c l IH]; [reflexivity|]. cbn [List.filter].
  destruct (Ascii.eqb_spec c NL) as [->|Hne]; [exfalso; apply H; now left|].
  cbn [negb]. f_equal. apply IH. intros Hi. apply H. now right.
Qed.

Lemma chomp_one l : one_line l -> chomp l = l.
Proof.
  intros H. pose proof (chomp_line l H) as E. unfold chomp in *. rewrite List.filter_app in E. cbn [List.filter] in E.
  rewrite Ascii.eqb_refl in E. cbn [negb] in E. now rewrite app_nil_r in E.
Qed.
Lemma chomp_ended l nl : one_line l -> ended l nl -> chomp nl = l.
Proof. intros H [->| ->]; [now apply chomp_line|now apply chomp_one]. Qed.

(** ** Numbers *)
Lemma N_of_ascii_digit d : (d < 10)%N -> N_of_ascii (ascii_of_N (48 + d)) = (48 + d)%N.
Proof. intros H. apply N_ascii_embedding. lia. Qed.

Lemma digit_digit d : (d < 10)%N -> digit (ascii_of_N (48 + d)) = Some d.
Proof.
  intros H. unfold digit. rewrite N_of_ascii_digit by exact H.
  destruct (N.leb_spec 48 (48 + d)); [|lia]. destruct (N.leb_spec (48 + d) 57); [|lia]. cbn [andb]. f_equal. lia.
Qed.
Lemma no_digit_digit c t : no_digit (c :: t) -> digit c = None.
Proof.
  unfold no_digit, digit. intros H. destruct (N.leb_spec 48 (N_of_ascii c)); [|reflexivity].
  destruct (N.leb_spec (N_of_ascii c) 57); [lia|reflexivity].
Qed.

Lemma digits_app ds : forall acc rest, Forall (fun d => (d < 10)%N) ds -> no_digit rest ->
  digits acc (map (fun d => ascii_of_N (48 + d)) ds ++ rest) = (fold_left (fun a d => (10 * a + d)%N) ds acc, rest).
Proof.
  induction ds as [|d ds IH]; intros acc rest Hds Hr; cbn [map app digits fold_left].
  - destruct rest as [|c rest]; [reflexivity|]. cbn [digits]. rewrite (no_digit_digit _ _ Hr). reflexivity.
  - apply Forall_cons in Hds as [Hd Hds]. rewrite digit_digit by exact Hd. now apply IH.
Qed.

Lemma unsigned_decimal t v rest : decimal t v -> no_digit rest -> unsigned (t ++ rest) = Some (v, rest).
Proof.
  intros (ds & Hne & Hds & -> & ->) Hr. unfold unsigned. destruct ds as [|d ds]; [congruence|].
  pose proof Hds as Hd. apply List.Forall_inv in Hd. cbn [map app]. rewrite digit_digit by exact Hd.
  f_equal. change (ascii_of_N (48 + d) :: map (fun d => ascii_of_N (48 + d)) ds ++ rest)
    with (map (fun d => ascii_of_N (48 + d)) (d :: ds) ++ rest).
  now apply digits_app.
Qed.

(** The first character of a number. *)
Lemma decimal_first t v : decimal t v -> exists c t', t = c :: t' /\ (48 <= N_of_ascii c <= 57)%N.
Proof.
  intros (ds & Hne & Hds & -> & _). destruct ds as [|d ds]; [congruence|]. apply List.Forall_inv in Hds.
  cbn [map]. eexists _, _. split; [reflexivity|]. rewrite N_of_ascii_digit by exact Hds. lia.
Qed.

Lemma signed_decimal t v rest : decimal t v -> no_digit rest -> signed (t ++ rest) = Some (false, v, rest).
Proof.
  intros Hd Hr. pose proof (unsigned_decimal t v rest Hd Hr) as Hu.
  destruct (decimal_first _ _ Hd) as (c & t' & -> & Hc). cbn [app] in *. unfold signed.
  destruct (Ascii.eqb_spec c "-") as [->|_]; [exfalso; now apply (proj1 Hc)|].
  destruct (Ascii.eqb_spec c "+") as [->|_]; [exfalso; now apply (proj1 Hc)|].
  rewrite Hu. reflexivity.
Qed.

Lemma is_space_true c : is_space c = true <-> (N_of_ascii c = 32 \/ 9 <= N_of_ascii c <= 13)%N.
Proof. unfold is_space. rewrite orb_true_iff, andb_true_iff, N.eqb_eq, !N.leb_le. reflexivity. Qed.

Lemma skip_space_app ws t : blank ws -> skip_space (ws ++ t) = skip_space t.
Proof.
  induction 1 as [|c ws Hc _ IH]; [reflexivity|]. cbn [app skip_space].
  replace (is_space c) with true; [exact IH|]. symmetry. apply is_space_true. exact Hc.
Qed.
Lemma skip_space_decimal t v rest : decimal t v -> skip_space (t ++ rest) = t ++ rest.
Proof.
  intros Hd. destruct (decimal_first _ _ Hd) as (c & t' & -> & Hc). cbn [app skip_space].
  destruct (is_space c) eqn:E; [|reflexivity]. apply is_space_true in E. lia.
Qed.

Lemma to_u64_small v : (v < two64)%N -> to_u64 false v = v.
Proof. intros H. unfold to_u64. destruct (N.ltb_spec v two64); [reflexivity|lia]. Qed.

Lemma to_u64_value v : to_u64 false v = word_value v.
Proof.
  unfold to_u64, word_value. change (2 ^ 64)%N with two64. destruct (N.ltb_spec v two64); [|change two64 with 18446744073709551616%N in *; lia].
  change two64 with 18446744073709551616%N in *. lia.
Qed.

Lemma scan_decimal ws t v rest : blank ws -> decimal t v -> no_digit rest ->
  scan_zu (ws ++ t ++ rest) = Some (word_value v).
Proof.
  intros Hw Hd Hr. unfold scan_zu. rewrite skip_space_app by exact Hw.
  rewrite (skip_space_decimal _ _ _ Hd), (signed_decimal _ _ _ Hd Hr), to_u64_value. reflexivity.
Qed.

Lemma to_u64_signed sg v : to_u64 match sg with Some true => true | _ => false end v = signed_value sg v.
Proof.
  destruct sg as [[|]|]; [|apply to_u64_value|apply to_u64_value]. unfold to_u64, signed_value. change (2 ^ 64)%N with two64. destruct (N.ltb_spec v two64) as [H|_]; [|reflexivity].
  change (2 ^ 64)%Z with (Z.of_N two64). assert (Ht : two64 <> 0%N) by discriminate. apply N2Z.inj. rewrite Z2N.id by (apply Z.mod_pos_bound; reflexivity).
  rewrite N2Z.inj_mod, N2Z.inj_sub by lia. rewrite <- (Z.add_0_l (- Z.of_N v)%Z), <- (Z_mod_plus_full (0 + _)%Z 1). f_equal. lia.
Qed.
Lemma signed_sign sg t v rest : decimal t v -> no_digit rest -> signed (sign_text sg ++ t ++ rest) = Some (match sg with Some true => true | _ => false end, v, rest).
Proof.
  intros Hd Hr. destruct sg as [[|]|]; [| |exact (signed_decimal t v rest Hd Hr)]; cbn; rewrite (unsigned_decimal t v rest Hd Hr); reflexivity.
Qed.
Lemma scan_signed ws sg t v rest : blank ws -> decimal t v -> no_digit rest ->
  scan_zu (ws ++ sign_text sg ++ t ++ rest) = Some (signed_value sg v).
Proof.
  intros Hw Hd Hr. unfold scan_zu. rewrite skip_space_app by exact Hw.
  assert (E : skip_space (sign_text sg ++ t ++ rest) = sign_text sg ++ t ++ rest)
    by (destruct sg as [[|]|]; [reflexivity|reflexivity|exact (skip_space_decimal _ _ _ Hd)]).
  rewrite E, (signed_sign sg t v rest Hd Hr), to_u64_signed. reflexivity.
Qed.

Lemma extract_decimal ws t v rest : blank ws -> decimal t v -> (v < two64)%N -> no_digit rest ->
  extract (ws ++ t ++ rest) = EGot v rest.
Proof.
  intros Hw Hd Hv Hr. unfold extract. rewrite skip_space_app by exact Hw.
  rewrite (skip_space_decimal _ _ _ Hd). pose proof (signed_decimal _ _ _ Hd Hr) as Hs.
  destruct (decimal_first _ _ Hd) as (c & t' & -> & Hc). cbn [app] in *. rewrite Hs.
  destruct (N.ltb_spec v two64); [|lia]. now rewrite to_u64_small.
Qed.

(** The value that is stored, whether or not the number fits. *)
Lemma extract_value ws t v rest : blank ws -> decimal t v -> no_digit rest ->
  extract (ws ++ t ++ rest) = EGot (word_value v) rest \/ extract (ws ++ t ++ rest) = EFail (word_value v).
Proof.
  intros Hw Hd Hr. unfold extract. rewrite skip_space_app by exact Hw.
  rewrite (skip_space_decimal _ _ _ Hd). pose proof (signed_decimal _ _ _ Hd Hr) as Hs.
  destruct (decimal_first _ _ Hd) as (c & t' & -> & Hc). cbn [app] in *. rewrite Hs, to_u64_value.
  destruct (v <? two64)%N; auto.
Qed.

(** The same with signs. *)
Lemma skip_space_signed sg t v rest : decimal t v -> skip_space (sign_text sg ++ t ++ rest) = sign_text sg ++ t ++ rest.
Proof. intros Hd. destruct sg as [[|]|]; [reflexivity|reflexivity|exact (skip_space_decimal _ _ _ Hd)]. Qed.
Lemma extract_signed ws sg t v rest : blank ws -> decimal t v -> no_digit rest ->
  extract (ws ++ sign_text sg ++ t ++ rest) = if (v <? two64)%N then EGot (signed_value sg v) rest else EFail (signed_value sg v).
Proof.
  intros Hw Hd Hr. unfold extract. rewrite skip_space_app by exact Hw. rewrite (skip_space_signed sg t v rest Hd).
  pose proof (signed_sign sg t v rest Hd Hr) as Hs. rewrite <- to_u64_signed.
  destruct (sign_text sg ++ t ++ rest) as [|c cs] eqn:E; [|rewrite Hs; reflexivity].
  apply app_eq_nil in E as [_ E]. apply app_eq_nil in E as [-> _]. destruct (decimal_first _ _ Hd) as (c & t' & E & _). discriminate.
Qed.

Lemma skip_space_blank ws : blank ws -> skip_space ws = [].
Proof. intros H. rewrite <- (app_nil_r ws), skip_space_app by exact H. reflexivity. Qed.

Lemma blank_no_digit ws t : blank ws -> no_digit t -> no_digit (ws ++ t).
Proof. destruct 1; [easy|]. cbn. intros _. lia. Qed.

(** ** C strings *)
Definition nonul (t : text) : Prop := ~ In NUL t.
(** What follows an embedded NUL is not part of the string. *)
Lemma cstr_prefix t rest st : nonul t -> exists t', cstr (t ++ rest ++ NUL :: st) = HOk (t ++ t') /\ exists r2, rest = t' ++ r2.
Proof.
  unfold nonul. revert rest. induction t as [|c t IH]; intros rest H; cbn [app cstr].
  - induction rest as [|c rest IH]; cbn [app cstr]; [exists []; split; [reflexivity|now exists []]|].
    destruct (Ascii.eqb_spec c NUL) as [->|_]; [exists []; split; [reflexivity|eexists; reflexivity]|].
    destruct IH as (t' & -> & r2 & ->). exists (c :: t'). split; [reflexivity|]. now exists r2.
  - destruct (Ascii.eqb_spec c NUL) as [->|_]; [exfalso; apply H; now left|].
    destruct (IH rest) as (t' & -> & Hr2); [intros Hi; apply H; now right|]. eauto.
Qed.
Lemma decimal_nonul t v : decimal t v -> nonul t.
Proof.
  intros (ds & _ & Hds & -> & _) Hi. apply in_map_iff in Hi. destruct Hi as (d & Hd & Hi).
  rewrite List.Forall_forall in Hds. apply Hds in Hi. apply (f_equal N_of_ascii) in Hd.
  rewrite N_of_ascii_digit in Hd by exact Hi. change (N_of_ascii NUL) with 0%N in Hd. lia.
Qed.
