(** Table file names and the constructor with recovery. *)
From Coq Require Import NArith ZArith Bool List Ascii String DecimalString DecimalN DecimalFacts DecimalPos Decimal Lia Sorted.
From stdpp Require Import base list strings gmap.
From Verif Require Import Word Prog HashMap Recovery RecoverySpec.
Import ListNotations.
Open Scope nat_scope.

Notation chars := list_ascii_of_string.

(** ** Decimal numbers *)

Lemma chars_app a b : chars (a ++ b)%string = chars a ++ chars b.
Proof.
  induction a as [|c a IH]; [reflexivity|].
  change (c :: chars (a ++ b)%string = c :: (chars a ++ chars b)). now rewrite IH.
Qed.

Lemma chars_inj a b : chars a = chars b -> a = b.
Proof. intros H. rewrite <- (string_of_list_ascii_of_string a), <- (string_of_list_ascii_of_string b). now rewrite H. Qed.

Definition is_digit (c : ascii) : Prop := exists d, digit c = Some d /\ (d < 10)%N /\ N_of_ascii c = (48 + d)%N.

Lemma uint_digits u : Forall is_digit (chars (NilEmpty.string_of_uint u)).
Proof.
  induction u as [|u IH|u IH|u IH|u IH|u IH|u IH|u IH|u IH|u IH|u IH]; cbn; constructor; try exact IH;
    eexists; (split; [reflexivity|split; reflexivity]).
Qed.

Lemma atoi_uint_acc u : forall acc,
  atoi_digits (chars (NilEmpty.string_of_uint u)) (Npos acc) = Npos (Pos.of_uint_acc u acc).
Proof.
  induction u as [|u IH|u IH|u IH|u IH|u IH|u IH|u IH|u IH|u IH|u IH]; intros acc; [reflexivity|..];
    cbn [NilEmpty.string_of_uint list_ascii_of_string atoi_digits Pos.of_uint_acc];
    match goal with |- context [digit ?c] => let d := eval vm_compute in (digit c) in change (digit c) with d end;
    cbv iota beta; rewrite <- IH; f_equal; lia.
Qed.

Lemma atoi_uint u : atoi_digits (chars (NilEmpty.string_of_uint u)) 0 = N.of_uint u.
Proof.
  induction u as [|u IH|u IH|u IH|u IH|u IH|u IH|u IH|u IH|u IH|u IH]; [reflexivity|exact IH|..];
    cbn [NilEmpty.string_of_uint list_ascii_of_string atoi_digits]; unfold N.of_uint; cbn [Pos.of_uint];
    rewrite <- atoi_uint_acc; reflexivity.
Qed.

Lemma to_dec_val n : atoi_digits (chars (to_dec n)) 0 = n.
Proof. unfold to_dec. rewrite atoi_uint. apply DecimalN.Unsigned.of_to. Qed.

Lemma to_dec_digits n : Forall is_digit (chars (to_dec n)).
Proof. apply uint_digits. Qed.

(** The value of a list of digits. *)
Fixpoint val (l : list ascii) : N :=
  match l with
  | [] => 0
  | c :: l' => (default 0 (digit c) * 10 ^ N.of_nat (length l') + val l')%N
  end.

Lemma pow10_S n : (10 ^ N.of_nat (S n) = 10 * 10 ^ N.of_nat n)%N.
Proof. rewrite Nat2N.inj_succ. apply N.pow_succ_r'. Qed.

Lemma atoi_val l : Forall is_digit l -> forall acc, atoi_digits l acc = (acc * 10 ^ N.of_nat (length l) + val l)%N.
Proof.
  induction 1 as [|c l (d & Hd & _ & _) Hl IH]; intros acc; cbn [atoi_digits val length].
  - change (10 ^ N.of_nat 0)%N with 1%N. lia.
  - rewrite Hd. cbn [default]. rewrite IH. unfold default, from_option, id. rewrite pow10_S. lia.
Qed.

Lemma val_bound l : Forall is_digit l -> (val l < 10 ^ N.of_nat (length l))%N.
Proof.
  induction 1 as [|c l (d & Hd & Hb & _) Hl IH]; cbn [val length]; [reflexivity|].
  rewrite Hd. unfold default, from_option, id. rewrite pow10_S. nia.
Qed.

Lemma to_dec_is n : val (chars (to_dec n)) = n.
Proof. rewrite <- (to_dec_val n) at 2. rewrite atoi_val by apply to_dec_digits. lia. Qed.

Lemma to_dec_inj n m : to_dec n = to_dec m -> n = m.
Proof. intros H. rewrite <- (to_dec_is n), <- (to_dec_is m). now rewrite H. Qed.

(** No leading zeros: the number of digits is determined by the value. *)
Lemma to_dec_head n : n <> 0%N -> exists c l, chars (to_dec n) = c :: l /\ c <> "0"%char.
Proof.
  intros Hn. unfold to_dec. pose proof (DecimalN.Unsigned.to_of (N.to_uint n)) as H.
  rewrite DecimalN.Unsigned.of_to in H. unfold unorm in H.
  pose proof (nzhead_nonzero (N.to_uint n)) as Hz.
  assert (N.to_uint n <> Decimal.Nil) as Hnil.
  { intros E. apply Hn. rewrite <- (DecimalN.Unsigned.of_to n), E. reflexivity. }
  assert (nzhead (N.to_uint n) <> Decimal.Nil) as Hnz.
  { intros E. rewrite E in H. apply Hn. rewrite <- (DecimalN.Unsigned.of_to n), H. reflexivity. }
  assert (E : N.to_uint n = nzhead (N.to_uint n)) by (destruct (nzhead (N.to_uint n)); congruence).
  rewrite E. clear E H Hnil. destruct (nzhead (N.to_uint n)) as [|u|u|u|u|u|u|u|u|u|u]; cbn;
    try (eexists _, _; split; [reflexivity|discriminate]); [congruence|].
  exfalso. apply (Hz u). reflexivity.
Qed.

Lemma digit_pos c : is_digit c -> c <> "0"%char -> (1 <= default 0 (digit c))%N.
Proof.
  intros (d & Hd & Hb & Hc) Hne. rewrite Hd. unfold default, from_option, id.
  destruct (N.eq_dec d 0) as [->|]; [|lia]. exfalso. apply Hne.
  rewrite <- (ascii_N_embedding c), Hc. reflexivity.
Qed.

Lemma to_dec_length n : n <> 0%N ->
  (10 ^ N.of_nat (length (chars (to_dec n)) - 1) <= n < 10 ^ N.of_nat (length (chars (to_dec n))))%N.
Proof.
  intros Hn. pose proof (to_dec_digits n) as Hd. pose proof (to_dec_is n) as Hv.
  pose proof (val_bound _ Hd) as Hb. rewrite Hv in Hb. split; [|exact Hb].
  destruct (to_dec_head n Hn) as (c & l & E & Hc). rewrite E in *. cbn [length]. rewrite Nat.sub_succ, Nat.sub_0_r.
  apply Forall_cons in Hd. destruct Hd as (Hdc & _). pose proof (digit_pos c Hdc Hc) as H1.
  cbn [val] in Hv. nia.
Qed.

Lemma to_dec_short n : (n < 2 ^ 31)%N -> length (chars (to_dec n)) < 240.
Proof.
  intros Hn. destruct (N.eq_dec n 0) as [->|Hz]; [cbn; lia|].
  pose proof (to_dec_length n Hz) as (H & _).
  destruct (Nat.lt_ge_cases (length (chars (to_dec n))) 240) as [|Hge]; [assumption|exfalso].
  assert (2 ^ 31 <= 10 ^ N.of_nat (length (chars (to_dec n)) - 1))%N; [|lia].
  transitivity (10 ^ 31)%N; [vm_compute; discriminate|]. apply N.pow_le_mono_r; lia.
Qed.

(** ** numFromName *)

Lemma last_index_app c a b : last_index c (a ++ b) =
  match last_index c b with Some i => Some (length a + i) | None => last_index c a end.
Proof.
  induction a as [|x a IH]; cbn; [destruct (last_index c b); reflexivity|]. rewrite IH.
  destruct (last_index c b) as [i|]; reflexivity.
Qed.

Lemma last_index_none c l : Forall (fun x => x <> c) l -> last_index c l = None.
Proof.
  induction 1 as [|x l Hx Hl IH]; cbn; [reflexivity|]. rewrite IH.
  destruct (Ascii.eqb_spec x c); [contradiction|reflexivity].
Qed.

Lemma digit_not c x : digit c = None -> is_digit x -> x <> c.
Proof. intros Hc (d & Hd & _) ->. congruence. Qed.

Lemma digits_no c l : digit c = None -> Forall is_digit l -> Forall (fun x => x <> c) l.
Proof. intros Hc H. eapply Forall_impl; [exact H|]. intros x. now apply digit_not. Qed.

Lemma digit_not_space c : is_digit c -> isspace c = false.
Proof.
  intros (d & _ & Hb & Hc). unfold isspace. rewrite Hc.
  apply orb_false_iff. split; [apply N.eqb_neq; lia|]. apply andb_false_iff. right. apply N.leb_gt. lia.
Qed.

Lemma atoi_digit_list l : l <> [] -> Forall is_digit l ->
  atoi l = if (val l <? 2 ^ 31)%N then Some (Z.of_N (val l)) else None.
Proof.
  intros Hne Hl. destruct l as [|c l]; [contradiction|]. pose proof Hl as Hl'. apply Forall_cons in Hl'. destruct Hl' as (Hc & _).
  cbn [atoi]. rewrite (digit_not_space c Hc).
  destruct (Ascii.eqb_spec c "-") as [->|_]; [destruct Hc as (? & ? & _); discriminate|].
  destruct (Ascii.eqb_spec c "+") as [->|_]; [destruct Hc as (? & ? & _); discriminate|].
  rewrite (atoi_val (c :: l) Hl 0%N). rewrite N.mul_0_l, N.add_0_l. reflexivity.
Qed.

Lemma to_dec_nonempty n : chars (to_dec n) <> [].
Proof.
  destruct (N.eq_dec n 0) as [->|Hn]; [discriminate|].
  destruct (to_dec_head n Hn) as (c & l & -> & _). discriminate.
Qed.

(** The number in "<directory>/<number>.dat", whatever the directory. *)
Lemma numFromName_gen (dir : string) n : (length (chars (to_dec n)) < 240) ->
  numFromName (dir ++ "/" ++ bare_name n) = if (n <? 2 ^ 31)%N then Some n else None.
Proof.
  intros Hlen. unfold numFromName, bare_name.
  rewrite !chars_app. cbn [list_ascii_of_string].
  set (D := chars (to_dec n)) in *. set (X := chars dir).
  assert (HD : Forall is_digit D) by apply to_dec_digits.
  assert (H1 : last_index "." (X ++ ["/"%char] ++ D ++ ["."; "d"; "a"; "t"]%char) = Some (length X + (1 + length D))).
  { rewrite last_index_app, last_index_app, last_index_app. cbn. repeat f_equal; lia. }
  assert (H2 : last_index "/" (X ++ ["/"%char] ++ D ++ ["."; "d"; "a"; "t"]%char) = Some (length X)).
  { rewrite last_index_app, last_index_app, last_index_app.
    rewrite (last_index_none "/" D) by (apply digits_no; [reflexivity|exact HD]). cbn. f_equal. lia. }
  rewrite H1, H2. clear H1 H2.
  replace (length X + (1 + length D) - (length X + 1)) with (length D) by lia.
  assert (Ht : take (length D) (drop (length X + 1) (X ++ ["/"%char] ++ D ++ ["."; "d"; "a"; "t"]%char)) = D).
  { rewrite (app_assoc X). rewrite drop_app_alt by (rewrite app_length; reflexivity).
    apply take_app. }
  rewrite Ht. clear Ht. destruct (Nat.ltb_spec (length D) 240) as [_|]; [|lia].
  rewrite atoi_digit_list; [|apply to_dec_nonempty|exact HD]. unfold D. rewrite to_dec_is.
  destruct (N.ltb_spec n (2 ^ 31)) as [Hn|Hn]; [|reflexivity]. cbn [option_map]. f_equal.
  rewrite Z.mod_small; [apply N2Z.id|]. change (2 ^ 31)%N with 2147483648%N in Hn.
  change (Z.of_N two64) with 18446744073709551616%Z. lia.
Qed.

Lemma numFromName_ordered n : (n < 2 ^ 31)%N -> numFromName (getOrderedFileName n) = Some n.
Proof.
  intros Hn. unfold getOrderedFileName.
  change (table_dir ++ bare_name n)%string with ("/mnt/pmem/pm1/tables" ++ "/" ++ bare_name n)%string.
  rewrite numFromName_gen by (now apply to_dec_short). destruct (N.ltb_spec n (2 ^ 31)); [reflexivity|lia].
Qed.

Lemma bare_name_inj n m : bare_name n = bare_name m -> n = m.
Proof.
  intros H. apply to_dec_inj. apply chars_inj. apply (f_equal chars) in H. unfold bare_name in H.
  rewrite !chars_app in H. now apply app_inv_tail in H.
Qed.

Lemma numFromName_bare name : no_slash name = true -> numFromName name = None.
Proof.
  intros H. unfold numFromName, no_slash in *.
  rewrite (last_index_none "/"); [destruct (last_index "." _); reflexivity|].
  rewrite forallb_forall in H. apply Forall_forall. intros x Hx. apply elem_of_list_In in Hx.
  specialize (H x Hx). intros ->. discriminate.
Qed.

(** ** Sorting *)

Definition sle (a b : string) : Prop := String.leb a b = true.

Lemma ascii_compare a b : Ascii.compare a b = (N_of_ascii a ?= N_of_ascii b)%N.
Proof. reflexivity. Qed.

Lemma ascii_N_inj a b : N_of_ascii a = N_of_ascii b -> a = b.
Proof. intros H. now rewrite <- (ascii_N_embedding a), <- (ascii_N_embedding b), H. Qed.

Lemma compare_trans : forall a b c, String.compare a b <> Gt -> String.compare b c <> Gt -> String.compare a c <> Gt.
Proof.
  induction a as [|x a IH]; intros [|y b] [|z c]; cbn [String.compare]; try (intros; discriminate); try tauto.
  rewrite !ascii_compare.
  destruct (N.compare_spec (N_of_ascii x) (N_of_ascii y)) as [E1|E1|E1]; [| |congruence];
    destruct (N.compare_spec (N_of_ascii y) (N_of_ascii z)) as [E2|E2|E2]; try congruence;
    destruct (N.compare_spec (N_of_ascii x) (N_of_ascii z)) as [E3|E3|E3]; try lia; try discriminate.
  apply IH.
Qed.

Lemma sle_compare a b : sle a b <-> String.compare a b <> Gt.
Proof. unfold sle, String.leb. destruct (String.compare a b); split; try discriminate; try congruence. Qed.

Lemma sle_trans a b c : sle a b -> sle b c -> sle a c.
Proof. rewrite !sle_compare. apply compare_trans. Qed.

Lemma sle_total a b : sle a b \/ sle b a.
Proof. unfold sle. apply String.leb_total. Qed.

Lemma insert_perm x l : Permutation (insert_name x l) (x :: l).
Proof.
  induction l as [|y l IH]; cbn; [reflexivity|]. destruct (String.leb x y); [reflexivity|].
  rewrite IH. constructor.
Qed.

Lemma sort_perm l : Permutation (sort_names l) l.
Proof. induction l as [|x l IH]; cbn; [reflexivity|]. rewrite insert_perm. now constructor. Qed.

Lemma insert_sorted x l : StronglySorted sle l -> StronglySorted sle (insert_name x l).
Proof.
  induction 1 as [|y l Hl IH Hy]; cbn; [repeat constructor|].
  destruct (String.leb x y) eqn:E.
  - constructor; [constructor; assumption|]. constructor; [exact E|].
    eapply Forall_impl; [exact Hy|]. intros z. now apply sle_trans.
  - constructor; [exact IH|]. apply Forall_forall. intros z Hz. rewrite insert_perm in Hz.
    apply elem_of_cons in Hz. destruct Hz as [->|Hz].
    + destruct (sle_total y x) as [H|H]; [exact H|]. unfold sle in H. congruence.
    + rewrite Forall_forall in Hy. now apply Hy.
Qed.

Lemma sort_sorted l : StronglySorted sle (sort_names l).
Proof. induction l as [|x l IH]; cbn; [constructor|]. now apply insert_sorted. Qed.

Lemma sle_antisym a b : sle a b -> sle b a -> a = b.
Proof. unfold sle. intros H1 H2. now apply String.leb_antisym. Qed.

(** A sorted permutation is unique. *)
Lemma sorted_unique l1 : forall l2, StronglySorted sle l1 -> StronglySorted sle l2 -> Permutation l1 l2 -> l1 = l2.
Proof.
  induction l1 as [|x l1 IH]; intros l2 H1 H2 HP.
  - apply Permutation_nil in HP. now subst.
  - destruct l2 as [|y l2]; [symmetry in HP; apply Permutation_nil in HP; discriminate|].
    apply StronglySorted_inv in H1. apply StronglySorted_inv in H2. destruct H1 as (H1 & F1). destruct H2 as (H2 & F2).
    assert (x = y) as ->.
    { assert (In x (y :: l2)) as Hx by (eapply Permutation_in; [exact HP|left; reflexivity]).
      assert (In y (x :: l1)) as Hy by (eapply Permutation_in; [symmetry; exact HP|left; reflexivity]).
      destruct Hx as [->|Hx]; [reflexivity|]. destruct Hy as [->|Hy]; [reflexivity|].
      rewrite List.Forall_forall in F1, F2. apply sle_antisym; auto. }
    f_equal. apply IH; try assumption. now apply Permutation_cons_inv in HP.
Qed.

(** Names of numbers with equally many digits are ordered like the numbers. *)
Lemma digits_compare : forall a b ra rb, length (chars a) = length (chars b) ->
  Forall is_digit (chars a) -> Forall is_digit (chars b) -> (val (chars a) < val (chars b))%N ->
  sle (a ++ ra)%string (b ++ rb)%string.
Proof.
  induction a as [|x a IH]; intros [|y b] ra rb Hl Ha Hb Hv; cbn in Hl; try discriminate.
  cbn [list_ascii_of_string] in Ha, Hb. apply Forall_cons in Ha. apply Forall_cons in Hb.
    destruct Ha as ((dx & Hdx & Bx & Nx) & Ha). destruct Hb as ((dy & Hdy & By & Ny) & Hb).
    cbn [list_ascii_of_string val] in Hv. rewrite Hdx, Hdy in Hv. unfold default, from_option, id in Hv.
    pose proof (val_bound _ Ha) as Va. pose proof (val_bound _ Hb) as Vb. injection Hl as Hl. rewrite <- Hl in Hv, Vb.
    apply sle_compare.
    change (String.compare (String x (a ++ ra)) (String y (b ++ rb)) <> Gt). cbn [String.compare].
    rewrite ascii_compare, Nx, Ny.
    set (p := (10 ^ N.of_nat (length (chars a)))%N) in *. clearbody p.
    destruct (N.compare_spec (48 + dx) (48 + dy)) as [E|E|E]; [|discriminate|nia].
    apply sle_compare. apply IH; try assumption. assert (dx = dy) as -> by lia. lia.
Qed.

Lemma bare_name_le d n m : length (chars (to_dec n)) = d -> length (chars (to_dec m)) = d -> (n <= m)%N ->
  sle (bare_name n) (bare_name m).
Proof.
  intros Hn Hm Hle. destruct (N.eq_dec n m) as [->|Hne].
  - destruct (sle_total (bare_name m) (bare_name m)); assumption.
  - unfold bare_name. apply digits_compare; [congruence|apply to_dec_digits|apply to_dec_digits|].
    rewrite !to_dec_is. lia.
Qed.

Lemma names_sorted d ns : Forall (fun n => length (chars (to_dec n)) = d) ns -> StronglySorted N.le ns ->
  StronglySorted sle (map bare_name ns).
Proof.
  intros HF HS. induction HS as [|n ns Hs IH Hn]; cbn; [constructor|].
  apply Forall_cons in HF. destruct HF as (Hd & HF). constructor; [now apply IH|].
  apply Forall_forall. intros x Hx. apply elem_of_list_fmap in Hx. destruct Hx as (m & -> & Hm).
  rewrite Forall_forall in HF, Hn. apply (bare_name_le d); auto.
Qed.

(** ** Directories *)

Lemma strip_prefix_spec p : forall s r, strip_prefix p s = Some r <-> s = (p ++ r)%string.
Proof.
  induction p as [|a p IH]; intros s r.
  - cbn. split; [intros [= ->]; reflexivity|]. intros ->. reflexivity.
  - destruct s as [|b s]; cbn [strip_prefix]; [split; discriminate|].
    change (String a p ++ r)%string with (String a (p ++ r)).
    destruct (Ascii.eqb_spec a b) as [->|Hne].
    + rewrite IH. split; [intros ->; reflexivity|intros [= ->]; reflexivity].
    + split; [discriminate|]. intros [= E _]. congruence.
Qed.

Lemma name_in_spec dir path name : name_in dir path = Some name <-> path = (dir ++ name)%string /\ no_slash name = true.
Proof.
  unfold name_in. destruct (strip_prefix dir path) as [r|] eqn:E.
  - apply strip_prefix_spec in E. subst path. destruct (no_slash r) eqn:Er.
    + split; [intros [= ->]; auto|]. intros (H & _). f_equal.
      apply (f_equal chars) in H. rewrite !chars_app in H. apply app_inv_head in H. now apply chars_inj.
    + split; [discriminate|]. intros (H & Hn).
      apply (f_equal chars) in H. rewrite !chars_app in H. apply app_inv_head in H. apply chars_inj in H. congruence.
  - split; [discriminate|]. intros (-> & _). assert (strip_prefix dir (dir ++ name)%string = Some name) by now apply strip_prefix_spec.
    congruence.
Qed.

Lemma app_inj dir a b : (dir ++ a)%string = (dir ++ b)%string -> a = b.
Proof. intros H. apply (f_equal chars) in H. rewrite !chars_app in H. apply app_inv_head in H. now apply chars_inj. Qed.

Lemma table_names_in fs dir name : In name (table_names fs dir) <->
  is_Some (fs !! (dir ++ name)%string) /\ no_slash name = true.
Proof.
  unfold table_names. rewrite <- elem_of_list_In, sort_perm, elem_of_list_omap. split.
  - intros ((p & c) & Hp & Hn). cbn in Hn. apply name_in_spec in Hn. destruct Hn as (-> & Hn).
    apply elem_of_map_to_list in Hp. split; [eauto|exact Hn].
  - intros ((c & Hc) & Hn). exists ((dir ++ name)%string, c). split; [now apply elem_of_map_to_list|].
    cbn. now apply name_in_spec.
Qed.

Lemma table_names_nodup fs dir : NoDup (table_names fs dir).
Proof.
  unfold table_names. rewrite sort_perm.
  assert (Hl : forall l : list (string * list pair_), NoDup l.*1 -> NoDup (omap (fun f => name_in dir (fst f)) l));
    [|apply Hl; apply NoDup_fst_map_to_list].
  intros l Hnd. induction l as [|(p & c) l IH]; cbn [omap list_omap]; [constructor|].
  cbn in Hnd. apply NoDup_cons in Hnd. destruct Hnd as (Hp & Hnd). cbn [fst].
  destruct (name_in dir p) as [name|] eqn:E; [|now apply IH].
  constructor; [|now apply IH]. intros Hin. apply elem_of_list_omap in Hin. destruct Hin as ((p' & c') & Hin & E').
  cbn in E'. apply name_in_spec in E, E'. destruct E as (-> & _). destruct E' as (-> & _).
  apply Hp. apply elem_of_list_fmap. eexists (_, _). split; [|exact Hin]. reflexivity.
Qed.

(** ** The order in which recovery visits the tables *)

Lemma bare_no_slash n : no_slash (bare_name n) = true.
Proof.
  unfold no_slash, bare_name. rewrite chars_app, forallb_app. apply andb_true_iff. split; [|reflexivity].
  apply forallb_forall. intros x Hx. pose proof (to_dec_digits n) as H. rewrite List.Forall_forall in H.
  specialize (H x Hx). destruct (Ascii.eqb_spec x "/") as [->|]; [destruct H as (? & ? & _); discriminate|reflexivity].
Qed.

Lemma numbered_names fs dir ns : NoDup ns -> numbered fs dir ns -> Permutation (table_names fs dir) (map bare_name ns).
Proof.
  intros Hnd Hn. apply NoDup_Permutation; [apply table_names_nodup|apply NoDup_fmap_2_strong; [|exact Hnd]|].
  - intros x y _ _. apply bare_name_inj.
  - intros name. rewrite elem_of_list_In, table_names_in, elem_of_list_In, in_map_iff. split.
    + intros (H & Hs). apply Hn in H; [|exact Hs]. destruct H as (n & Hin & ->). eauto.
    + intros (n & <- & Hin). split; [|apply bare_no_slash]. apply Hn; [apply bare_no_slash|eauto].
Qed.

Lemma has_digits_length d n : has_digits d n -> length (chars (to_dec n)) = d.
Proof.
  intros (H1 & H2). destruct (N.eq_dec n 0) as [->|Hn].
  - destruct H2 as [->|H2]; [reflexivity|]. assert (10 ^ N.of_nat (d - 1) <> 0)%N by (apply N.pow_nonzero; discriminate). lia.
  - pose proof (to_dec_length n Hn) as (L1 & L2). pose proof (to_dec_nonempty n) as Hne.
    assert (length (chars (to_dec n)) <> 0) as Hl by (destruct (chars (to_dec n)); [contradiction|discriminate]).
    set (len := length (chars (to_dec n))) in *. clearbody len.
    assert (H3 : (N.of_nat (len - 1) < N.of_nat d)%N).
    { apply (N.pow_lt_mono_r_iff 10); [reflexivity|]. lia. }
    destruct H2 as [->|H2]; [lia|].
    assert (H4 : (N.of_nat (d - 1) < N.of_nat len)%N).
    { apply (N.pow_lt_mono_r_iff 10); [reflexivity|]. lia. }
    lia.
Qed.

Lemma order_same_digits fs dir ns d : StronglySorted N.lt ns -> numbered fs dir ns -> Forall (has_digits d) ns ->
  table_names fs dir = map bare_name ns.
Proof.
  intros Hs Hn Hd. apply sorted_unique.
  - apply sort_sorted.
  - apply (names_sorted d).
    + eapply Forall_impl; [exact Hd|]. intros n. apply has_digits_length.
    + clear Hn Hd. induction Hs as [|n ns Hs IH Hf]; constructor; [exact IH|].
      eapply Forall_impl; [exact Hf|]. intros m. cbv beta. lia.
  - apply numbered_names; [|exact Hn]. clear Hn Hd. induction Hs as [|n ns Hs IH Hf]; constructor; [|exact IH].
    intros Hin. rewrite Forall_forall in Hf. specialize (Hf n Hin). lia.
Qed.

Lemma sorted_before l x y : StronglySorted sle l -> In x l -> In y l -> sle x y -> x <> y -> before l x y.
Proof.
  induction 1 as [|z l Hl IH Hz]; intros Hx Hy Hle Hne; [destruct Hx|].
  destruct Hx as [->|Hx].
  - destruct Hy as [->|Hy]; [congruence|]. exists [x], l. split; [reflexivity|]. split; [left; reflexivity|exact Hy].
  - destruct Hy as [->|Hy].
    + exfalso. apply Hne. rewrite List.Forall_forall in Hz. apply sle_antisym; auto.
    + destruct (IH Hx Hy Hle Hne) as (l1 & l2 & -> & H1 & H2). exists (z :: l1), l2. split; [reflexivity|].
      split; [right; exact H1|exact H2].
Qed.

Lemma order_wrong fs dir : is_Some (fs !! (dir ++ bare_name 2)%string) -> is_Some (fs !! (dir ++ bare_name 10)%string) ->
  before (table_names fs dir) (bare_name 10) (bare_name 2).
Proof.
  intros H2 H10. apply sorted_before; [apply sort_sorted|apply table_names_in; auto using bare_no_slash..| |discriminate].
  reflexivity.
Qed.

(** ** Recovery as written *)

Lemma recover_written dir cwd cap maxcap fs : recover written dir cwd cap maxcap fs = inr (OutOfBounds, fs).
Proof.
  unfold recover. destruct (table_names fs dir) as [|name names] eqn:E; [reflexivity|].
  cbn [visit p_path p_flag written]. unfold mmap_named, parse.
  rewrite numFromName_bare; [reflexivity|].
  apply (table_names_in fs dir name). rewrite E. left. reflexivity.
Qed.

(** ** Recovery with everything but the flag repaired *)

Lemma fresh_size cap n : t_size (fresh_table cap 0 n) = 0%N.
Proof. reflexivity. Qed.
Lemma fresh_done cap n : migrationDone (fresh_table cap 0 n) = true.
Proof. unfold migrationDone, fresh_table. cbn [t_pairs]. induction cap; cbn [replicate forallb]; auto. Qed.

Lemma visit_charitable f dir cwd cap maxcap names : can_alloc cap maxcap = true -> forall fs,
  visit (charitable f) dir cwd cap maxcap names [] fs =
  inl ([], foldl (fun fs name => delete (dir ++ name)%string fs) fs names).
Proof.
  intros Ha. induction names as [|name names IH]; intros fs; [reflexivity|]. cbn [visit p_path p_flag charitable foldl].
  assert (Hp : exists n, parse (charitable f) name = Some n).
  { unfold parse. destruct (numFromName name); eauto. }
  destruct Hp as (n & Hp). unfold mmap_named. rewrite Hp, Ha. rewrite fresh_size, fresh_done. cbn [N.eqb andb negb p_freed charitable].
  rewrite IH. rewrite delete_insert_delete. reflexivity.
Qed.

Definition delete_all (dir : string) (names : list string) (fs : fsys) : fsys :=
  foldl (fun fs name => delete (dir ++ name)%string fs) fs names.

Lemma delete_all_out names : forall (fs : fsys) dir path, (forall name, In name names -> path <> (dir ++ name)%string) ->
  delete_all dir names fs !! path = fs !! path.
Proof.
  unfold delete_all. induction names as [|name names IH]; intros fs dir path H; cbn [foldl]; [reflexivity|].
  rewrite IH; [|intros n Hn; apply H; right; exact Hn]. apply lookup_delete_ne.
  intros E. apply (H name); [left; reflexivity|now symmetry].
Qed.

Lemma delete_all_none names : forall (fs : fsys) dir path, fs !! path = None -> delete_all dir names fs !! path = None.
Proof.
  unfold delete_all. induction names as [|name names IH]; intros fs dir path H; cbn [foldl]; [exact H|].
  apply IH. destruct (decide (path = (dir ++ name)%string)) as [->|Hne]; [apply lookup_delete|].
  rewrite lookup_delete_ne by congruence. exact H.
Qed.

Lemma delete_all_in names : forall (fs : fsys) dir name, In name names ->
  delete_all dir names fs !! (dir ++ name)%string = None.
Proof.
  induction names as [|n names IH]; intros fs dir name H; [destruct H|].
  destruct H as [->|H]; [|apply IH; exact H].
  apply (delete_all_none names (delete (dir ++ name)%string fs)). apply lookup_delete.
Qed.

Lemma recover_charitable f dir cwd cap maxcap fs : can_alloc cap maxcap = true ->
  recover (charitable f) dir cwd cap maxcap fs = inr (OutOfBounds, delete_all dir (table_names fs dir) fs).
Proof. intros Ha. unfold recover. rewrite visit_charitable by exact Ha. reflexivity. Qed.

Lemma deleted_all fs dir : (forall name, no_slash name = true ->
    delete_all dir (table_names fs dir) fs !! (dir ++ name)%string = None) /\
  (forall path, (forall name, no_slash name = true -> path <> (dir ++ name)%string) ->
    delete_all dir (table_names fs dir) fs !! path = fs !! path).
Proof.
  split.
  - intros name Hn. destruct (fs !! (dir ++ name)%string) as [c|] eqn:E; [|now apply delete_all_none].
    apply delete_all_in. apply table_names_in. eauto.
  - intros path Hp. apply delete_all_out. intros name Hn. apply Hp. apply table_names_in in Hn. tauto.
Qed.

(** ** The file-name counter after a repaired recovery *)

Lemma repaired_counter dir cwd cap maxcap fs ns R : NoDup ns -> numbered fs dir ns -> Forall (fun n => (n < 2 ^ 31)%N) ns ->
  recover repaired dir cwd cap maxcap fs = inl R ->
  In (r_counter R) ns /\ bare_name (r_counter R) = List.last (table_names fs dir) ""%string.
Proof.
  intros Hnd Hn Hb HR. unfold recover in HR.
  destruct (visit _ _ _ _ _ _ _ _) as [(kept & fs1)|e] eqn:EV; [|discriminate].
  destruct kept as [|T kept]; [discriminate|].
  destruct (parse repaired _) as [count|] eqn:EP; [|discriminate]. injection HR as <-. cbn [r_counter].
  pose proof (numbered_names fs dir ns Hnd Hn) as HP.
  destruct (table_names fs dir) as [|n0 names] eqn:EN.
  - cbn in EV. discriminate.
  - assert (Hin : In (List.last (n0 :: names) ""%string) (n0 :: names)).
    { destruct (exists_last (l := n0 :: names) ltac:(discriminate)) as (l' & a & E). rewrite E, last_last. apply in_or_app. right. left. reflexivity. }
    set (nm := List.last (n0 :: names) ""%string) in *. clearbody nm.
    apply (Permutation_in nm) in HP; [|exact Hin]. apply in_map_iff in HP. destruct HP as (n & <- & Hns).
    rewrite List.Forall_forall in Hb. specialize (Hb n Hns).
    unfold parse in EP. rewrite numFromName_bare in EP by apply bare_no_slash. cbn [p_bare repaired] in EP.
    change (table_dir ++ bare_name n)%string with (getOrderedFileName n) in EP.
    rewrite numFromName_ordered in EP by exact Hb. cbn in EP. injection EP as <-. auto.
Qed.

(** ** The tables a repaired recovery keeps *)

Lemma link_length l : forall i, length (link i l) = length l.
Proof.
  induction l as [|T l IH]; intros i; [reflexivity|]. cbn [link]. destruct l as [|T' l]; [reflexivity|].
  cbn [length]. f_equal. apply (IH (S i)).
Qed.

Lemma link_lookup l : forall i j T, Forall (fun T => t_new T = None) l -> link i l !! j = Some T ->
  exists T0, l !! j = Some T0 /\ t_pairs T = t_pairs T0 /\ t_id T = t_id T0 /\
    t_new T = if (S j <? length l)%nat then Some (S (i + j)) else None.
Proof.
  induction l as [|T0 l IH]; intros i j T HF HT; [discriminate|]. inversion HF as [|? ? HN HF']; subst. cbn [link] in HT.
  destruct l as [|T1 l].
  - destruct j; [|discriminate]. cbn in HT. injection HT as <-. exists T0. repeat split; auto.
  - destruct j as [|j].
    + cbn in HT. injection HT as <-. exists T0. repeat split; auto. cbn [length]. rewrite Nat.add_0_r. reflexivity.
    + cbn [lookup list_lookup] in HT. destruct (IH (S i) j T HF' HT) as (T2 & H1 & H2 & H3 & H4). exists T2. repeat split; auto.
      rewrite H4. replace (S i + j) with (i + S j) by lia. reflexivity.
Qed.

Lemma existing_new content n : t_new (existing_table content n) = None.
Proof. reflexivity. Qed.
Lemma existing_id content n : t_id (existing_table content n) = n.
Proof. reflexivity. Qed.

Lemma parse_policy P n : (n < 2 ^ 31)%N -> parse P (getOrderedFileName n) = Some n.
Proof. intros H. unfold parse. rewrite numFromName_ordered by exact H. reflexivity. Qed.
Lemma parse_repaired n : (n < 2 ^ 31)%N -> parse repaired (bare_name n) = Some n.
Proof.
  intros H. unfold parse. rewrite numFromName_bare by apply bare_no_slash. cbn [p_bare repaired].
  change (table_dir ++ bare_name n)%string with (getOrderedFileName n). rewrite numFromName_ordered by exact H. reflexivity.
Qed.
