(** When the recovery check of the alternating test succeeds. *)
From Coq Require Import NArith Arith Bool List Lia.
From Verif Require Import Word Prog HashMap Codec CodecThm RecCheck RecCheckSpec.
Import ListNotations.
Local Open Scope N_scope.

Lemma sext32_small a : a < 2 ^ 31 -> sext32 a = a.
Proof.
  intros H. unfold sext32. rewrite N.mod_small; [apply N.ltb_lt in H; rewrite H; reflexivity|].
  change (2 ^ 32) with 4294967296. change (2 ^ 31) with 2147483648 in H. lia.
Qed.

Lemma bmember_app el l1 l2 now : bmember el (l1 ++ l2) now = bmember el l2 (bmember el l1 now).
Proof. revert now. induction l1 as [|[e|e] l1 IH]; intros now; cbn; auto. Qed.

(** [a <= x < b] *)
Definition inr_ (a b x : N) : bool := (a <=? x) && (x <? b).
Lemma inr_spec a b x : reflect (a <= x < b) (inr_ a b x).
Proof.
  apply iff_reflect. unfold inr_. rewrite andb_true_iff, N.leb_le, N.ltb_lt. reflexivity.
Qed.

(** How many of the first [j] of the last [m] calls insert. *)
Fixpoint ins (m j : nat) : N :=
  match m, j with S m', S j' => (if Nat.odd m then 1 else 0) + ins m' j' | _, _ => 0 end.
Fixpoint era (m j : nat) : N :=
  match m, j with S m', S j' => (if Nat.odd m then 0 else 1) + era m' j' | _, _ => 0 end.

Lemma odd_S m : Nat.odd (S m) = negb (Nat.odd m).
Proof. rewrite Nat.odd_succ, <- Nat.negb_odd. reflexivity. Qed.

Lemma ins_era m j : if Nat.odd m then era m j <= ins m j <= era m j + 1 else ins m j <= era m j <= ins m j + 1.
Proof.
  revert j. induction m as [|m IH]; intros j; [cbn; lia|]. destruct j as [|j].
  - cbn [ins era]. destruct (Nat.odd (S m)); lia.
  - cbn [ins era]. specialize (IH j). rewrite odd_S in *. destruct (Nat.odd m); cbn [negb]; lia.
Qed.
Lemma ins_sum m j : ins m j + era m j = N.min (N.of_nat m) (N.of_nat j).
Proof.
  revert j. induction m as [|m IH]; intros j; [cbn; lia|]. destruct j as [|j]; [cbn [ins era]; lia|].
  cbn [ins era]. specialize (IH j). destruct (Nat.odd (S m)); lia.
Qed.

Section Thread.
Context (thr w : N) (Hb : thr * w + w <= 2 ^ 31).
Notation el num := (thr * w + num).

Lemma gen num : num < w -> genElem num thr w = Some (el num).
Proof. intros H. apply genElem_val; [exact H|]. change (2 ^ 31) with 2147483648 in Hb. unfold two64. change (2 ^ 64) with 18446744073709551616. lia. Qed.
Lemma gen_lt num e : genElem num thr w = Some e -> num < w.
Proof. unfold genElem. destruct (N.ltb_spec num w); [auto|discriminate]. Qed.
Lemma pass num : num < w -> passed (el num) = el num.
Proof. intros H. apply sext32_small. lia. Qed.
Lemma el_eqb a b : (el a =? el b) = (a =? b).
Proof. destruct (N.eqb_spec a b) as [->|]; [apply N.eqb_refl|]. apply N.eqb_neq. lia. Qed.

Lemma prefix_member cnt : forall wrid l num now, alt_prefix cnt thr w wrid = Some l ->
  bmember (el num) l now = now || inr_ wrid (wrid + N.of_nat cnt) num.
Proof.
  induction cnt as [|cnt IH]; intros wrid l num now H; cbn [alt_prefix] in H.
  - injection H as <-. cbn [bmember]. destruct (inr_spec wrid (wrid + N.of_nat 0) num); [lia|]. rewrite orb_false_r. reflexivity.
  - destruct (genElem wrid thr w) as [e|] eqn:E; [|discriminate]. pose proof (gen_lt _ _ E) as Hw. rewrite (gen _ Hw) in E. injection E as <-.
    destruct (alt_prefix cnt thr w (wrid + 1)) as [l'|] eqn:E; [|discriminate]. injection H as <-. cbn [bmember].
    rewrite pass, el_eqb by exact Hw. rewrite (IH _ _ _ _ E). destruct (N.eqb_spec wrid num) as [->|Hne].
    + destruct (inr_spec num (num + N.of_nat (S cnt)) num); [|lia]. rewrite orb_true_r. reflexivity.
    + f_equal. destruct (inr_spec (wrid + 1) (wrid + 1 + N.of_nat cnt) num), (inr_spec wrid (wrid + N.of_nat (S cnt)) num); try reflexivity; lia.
Qed.

(** Erasing what was inserted before. *)
Lemma main_after m : forall wrid rdid l j num now, alt_main m thr w wrid rdid = Some l ->
  (if Nat.odd m then rdid <= wrid else rdid < wrid) ->
  bmember (el num) (firstn j l) now = (now || inr_ wrid (wrid + ins m j) num) && negb (inr_ rdid (rdid + era m j) num).
Proof.
  induction m as [|m IH]; intros wrid rdid l j num now H Ho.
  - injection H as <-. rewrite firstn_nil. cbn [bmember ins era]. destruct (inr_spec wrid (wrid + 0) num), (inr_spec rdid (rdid + 0) num); try lia.
    rewrite orb_false_r, andb_true_r. reflexivity.
  - cbn [alt_main] in H. destruct j as [|j].
    { cbn [firstn bmember ins era]. destruct (inr_spec wrid (wrid + 0) num), (inr_spec rdid (rdid + 0) num); try lia. rewrite orb_false_r, andb_true_r. reflexivity. }
    cbn [ins era]. rewrite odd_S in *. destruct (Nat.odd m) eqn:Eo; cbn [negb] in *.
    + destruct (genElem rdid thr w) as [e|] eqn:E; [|discriminate]. pose proof (gen_lt _ _ E) as Hw. rewrite (gen _ Hw) in E. injection E as <-.
      destruct (alt_main m thr w wrid (rdid + 1)) as [l'|] eqn:E; [|discriminate]. injection H as <-. cbn [firstn bmember].
      rewrite pass, el_eqb by exact Hw. rewrite (IH _ _ _ j num _ E) by (cbv iota; lia). rewrite N.add_0_l.
      destruct (N.eqb_spec rdid num) as [->|Hne].
      * destruct (inr_spec num (num + (1 + era m j)) num), (inr_spec wrid (wrid + ins m j) num); try lia; rewrite ?andb_false_r; reflexivity.
      * f_equal. f_equal. destruct (inr_spec (rdid + 1) (rdid + 1 + era m j) num), (inr_spec rdid (rdid + (1 + era m j)) num); try reflexivity; lia.
    + destruct (genElem wrid thr w) as [e|] eqn:E; [|discriminate]. pose proof (gen_lt _ _ E) as Hw. rewrite (gen _ Hw) in E. injection E as <-.
      destruct (alt_main m thr w (wrid + 1) rdid) as [l'|] eqn:E; [|discriminate]. injection H as <-. cbn [firstn bmember].
      rewrite pass, el_eqb by exact Hw. rewrite (IH _ _ _ j num _ E) by (cbv iota; lia). rewrite N.add_0_l. f_equal.
      destruct (N.eqb_spec wrid num) as [->|Hne].
      * destruct (inr_spec num (num + (1 + ins m j)) num); [|lia]. rewrite orb_true_r. reflexivity.
      * f_equal. destruct (inr_spec (wrid + 1) (wrid + 1 + ins m j) num), (inr_spec wrid (wrid + (1 + ins m j)) num); try reflexivity; lia.
Qed.

(** Erasing what has not been inserted yet. *)
Lemma main_before m : forall wrid rdid l j num now, alt_main m thr w wrid rdid = Some l ->
  (if Nat.odd m then wrid < rdid else wrid <= rdid) ->
  bmember (el num) (firstn j l) now = (now && negb (inr_ rdid (rdid + era m j) num)) || inr_ wrid (wrid + ins m j) num.
Proof.
  induction m as [|m IH]; intros wrid rdid l j num now H Ho.
  - injection H as <-. rewrite firstn_nil. cbn [bmember ins era]. destruct (inr_spec wrid (wrid + 0) num), (inr_spec rdid (rdid + 0) num); try lia.
    rewrite orb_false_r, andb_true_r. reflexivity.
  - cbn [alt_main] in H. destruct j as [|j].
    { cbn [firstn bmember ins era]. destruct (inr_spec wrid (wrid + 0) num), (inr_spec rdid (rdid + 0) num); try lia. rewrite orb_false_r, andb_true_r. reflexivity. }
    cbn [ins era]. rewrite odd_S in *. destruct (Nat.odd m) eqn:Eo; cbn [negb] in *.
    + destruct (genElem rdid thr w) as [e|] eqn:E; [|discriminate]. pose proof (gen_lt _ _ E) as Hw. rewrite (gen _ Hw) in E. injection E as <-.
      destruct (alt_main m thr w wrid (rdid + 1)) as [l'|] eqn:E; [|discriminate]. injection H as <-. cbn [firstn bmember].
      rewrite pass, el_eqb by exact Hw. rewrite (IH _ _ _ j num _ E) by (cbv iota; lia). rewrite N.add_0_l. f_equal.
      destruct (N.eqb_spec rdid num) as [->|Hne].
      * destruct (inr_spec num (num + (1 + era m j)) num); [|lia]. cbn. rewrite andb_false_r. reflexivity.
      * f_equal. f_equal. destruct (inr_spec (rdid + 1) (rdid + 1 + era m j) num), (inr_spec rdid (rdid + (1 + era m j)) num); try reflexivity; lia.
    + destruct (genElem wrid thr w) as [e|] eqn:E; [|discriminate]. pose proof (gen_lt _ _ E) as Hw. rewrite (gen _ Hw) in E. injection E as <-.
      destruct (alt_main m thr w (wrid + 1) rdid) as [l'|] eqn:E; [|discriminate]. injection H as <-. cbn [firstn bmember].
      rewrite pass, el_eqb by exact Hw. rewrite (IH _ _ _ j num _ E) by (cbv iota; lia). rewrite N.add_0_l.
      destruct (N.eqb_spec wrid num) as [->|Hne].
      * destruct (inr_spec num (num + (1 + ins m j)) num); [|lia]. destruct (inr_spec rdid (rdid + era m j) num); [lia|]. rewrite orb_true_r. reflexivity.
      * f_equal. destruct (inr_spec (wrid + 1) (wrid + 1 + ins m j) num), (inr_spec wrid (wrid + (1 + ins m j)) num); try reflexivity; lia.
Qed.

(** ** The loops of the check *)
Context (C : cfg) (has : N -> bool).
Notation h num := (has (el num)).

Lemma genC num : num < w -> genElemChecked num thr w = Some (el num).
Proof. intros H. unfold genElemChecked. destruct (N.leb_spec w num); [lia|]. apply gen, H. Qed.
Lemma genC_end num : w <= num -> genElemChecked num thr w = None.
Proof. intros H. unfold genElemChecked. apply N.leb_le in H. rewrite H. reflexivity. Qed.

Lemma first_ok cnt : forall opid nv sc, opid + N.of_nat cnt <= w -> exists x b,
  check_first C (pure has) cnt thr w opid nv sc = Ret (x, b) /\ x <= nv + N.of_nat cnt /\
  (b = true <-> sc = true /\ forall num, opid <= num < opid + N.of_nat cnt -> h num = true) /\
  ((forall num, opid <= num < opid + N.of_nat cnt -> h num = true) -> x = nv + N.of_nat cnt).
Proof.
  induction cnt as [|cnt IH]; intros opid nv sc Hc.
  - exists nv, sc. split; [reflexivity|]. split; [lia|]. split; [|lia]. split; [intros ->; split; [reflexivity|lia]|tauto].
  - cbn [check_first]. rewrite genC by lia. cbn [checked bind pure]. destruct (h opid) eqn:E.
    + destruct (IH (opid + 1) (nv + 1) sc) as (x & b & H1 & H2 & H3 & H4); [lia|]. exists x, b. split; [exact H1|]. split; [lia|].
      assert (Hq : (forall num, opid <= num < opid + N.of_nat (S cnt) -> h num = true) <->
                   (forall num, opid + 1 <= num < opid + 1 + N.of_nat cnt -> h num = true)).
      { split; intros H num Hn; [apply H; lia|]. destruct (N.eq_dec num opid) as [->|]; [exact E|apply H; lia]. }
      rewrite Hq. split; [exact H3|]. intros H. rewrite (H4 H). lia.
    + destruct (IH (opid + 1) nv false) as (x & b & H1 & H2 & H3 & H4); [lia|]. exists x, b. split; [exact H1|]. split; [lia|].
      assert (Hn : ~ forall num, opid <= num < opid + N.of_nat (S cnt) -> h num = true).
      { intros H. rewrite (H opid) in E by lia. discriminate. }
      split; [|intros H; contradiction]. rewrite H3. split; [intros [? _]; discriminate|intros [_ H]; contradiction].
Qed.

Lemma find_ok n : forall rdid, rdid <= w -> w - rdid < N.of_nat n -> exists lo,
  find_first (pure has) n thr w rdid = Ret lo /\ rdid <= lo <= w /\ (forall num, rdid <= num < lo -> h num = false) /\ (lo = w \/ h lo = true).
Proof.
  induction n as [|n IH]; intros rdid Hr Hn; [lia|]. cbn [find_first]. destruct (N.eq_dec rdid w) as [->|Hne].
  - rewrite genC_end by lia. exists w. split; [reflexivity|]. split; [lia|]. split; [lia|auto].
  - rewrite genC by lia. cbn [bind pure]. destruct (h rdid) eqn:E.
    + exists rdid. split; [reflexivity|]. split; [lia|]. split; [lia|auto].
    + destruct (IH (rdid + 1)) as (lo & H1 & H2 & H3 & H4); [lia|lia|]. exists lo. split; [exact H1|]. split; [lia|]. split; [|exact H4].
      intros num Hm. destruct (N.eq_dec num rdid) as [->|]; [exact E|apply H3; lia].
Qed.

Lemma count_ok n : forall rdid cs, rdid <= w -> w - rdid < N.of_nat n -> exists hi,
  count_sequ (pure has) n thr w rdid cs = Ret (hi, cs + (hi - rdid)) /\ rdid <= hi <= w /\
  (forall num, rdid <= num < hi -> h num = true) /\ (hi = w \/ h hi = false).
Proof.
  induction n as [|n IH]; intros rdid cs Hr Hn; [lia|]. cbn [count_sequ]. destruct (N.eq_dec rdid w) as [->|Hne].
  - rewrite genC_end by lia. exists w. rewrite N.sub_diag, N.add_0_r. split; [reflexivity|]. split; [lia|]. split; [lia|auto].
  - rewrite genC by lia. cbn [bind pure]. destruct (h rdid) eqn:E.
    + destruct (IH (rdid + 1) (cs + 1)) as (hi & H1 & H2 & H3 & H4); [lia|lia|]. exists hi.
      split; [rewrite H1; do 2 f_equal; lia|]. split; [lia|]. split; [|exact H4].
      intros num Hm. destruct (N.eq_dec num rdid) as [->|]; [exact E|apply H3; lia].
    + exists rdid. rewrite N.sub_diag, N.add_0_r. split; [reflexivity|]. split; [lia|]. split; [lia|auto].
Qed.

Lemma last_ok cnt : forall opid sc, opid + N.of_nat cnt <= w -> exists b,
  check_last C (pure has) cnt thr w opid sc = Ret b /\
  (b = true <-> sc = true /\ forall num, opid <= num < opid + N.of_nat cnt -> h num = false).
Proof.
  induction cnt as [|cnt IH]; intros opid sc Hc.
  - exists sc. split; [reflexivity|]. split; [intros ->; split; [reflexivity|lia]|tauto].
  - cbn [check_last]. rewrite genC by lia. cbn [checked bind pure].
    destruct (IH (opid + 1) (if h opid then false else sc)) as (b & H1 & H2); [lia|]. exists b. split; [exact H1|]. rewrite H2.
    destruct (h opid) eqn:E; split.
    + intros [? _]; discriminate.
    + intros [_ H]. rewrite (H opid) in E by lia. discriminate.
    + intros [H H']. split; [exact H|]. intros num Hm. destruct (N.eq_dec num opid) as [->|]; [exact E|apply H'; lia].
    + intros [H H']. split; [exact H|]. intros num Hm. apply H'. lia.
Qed.
End Thread.

Lemma tenth a : a / 10 <= a.
Proof. pose proof (N.mul_div_le a 10 ltac:(discriminate)) as H. revert H. generalize (a / 10). intros. lia. Qed.

(** ** One thread *)
Section One.
Context (C : cfg) (n total : N) (has : N -> bool).
Notation w := (width n total).
Context (Hn : n <> 0) (Htot : total < 2 ^ 64) (Hb : n * w < 2 ^ 31).

Definition ops (thr : N) : N := if thr =? 0 then w else total / n.
Lemma ops_ok thr : thr < n -> opsPerThread n total thr = Some (ops thr).
Proof. intros H. rewrite (opsPerThread_val n total thr Hn H Htot). reflexivity. Qed.
Lemma ops_le thr : ops thr <= w.
Proof. unfold ops, width. destruct (thr =? 0); [apply N.le_refl|apply N.le_add_r]. Qed.
Lemma ops_0 : opsPerThread n total 0 = Some w.
Proof. rewrite ops_ok by lia. reflexivity. Qed.
Lemma bound thr : thr < n -> thr * w + w <= 2 ^ 31.
Proof. intros H. etransitivity; [|apply N.lt_le_incl; exact Hb]. replace (thr * w + w) with ((thr + 1) * w) by lia. apply N.mul_le_mono_r. lia. Qed.

Definition iw (thr : N) : N := ops thr / 10.
Lemma iw_ok thr : ops thr - opsMainLoop (ops thr) = iw thr.
Proof. unfold opsMainLoop, iw. pose proof (tenth (ops thr)) as H. revert H. generalize (ops thr), (ops thr / 10). clear. intros. lia. Qed.
Definition nm (thr : N) : N := opsMainLoop (ops thr).
Lemma nm_ok thr : iw thr + nm thr = ops thr.
Proof. unfold nm, opsMainLoop, iw. pose proof (tenth (ops thr)) as H. revert H. generalize (ops thr), (ops thr / 10). clear. intros. lia. Qed.

Lemma elements_ok thr : thr < n -> exists x b lo hi,
  check_elements C (pure has) n total thr = Ret (x, b) /\ x <= w /\
  iw thr / 2 <= lo <= w /\ (forall num, iw thr / 2 <= num < lo -> has (thr * w + num) = false) /\ (lo = w \/ has (thr * w + lo) = true) /\
  lo <= hi <= w /\ (forall num, lo <= num < hi -> has (thr * w + num) = true) /\ (hi = w \/ has (thr * w + hi) = false) /\
  (b = true -> forall num, num < iw thr / 2 -> has (thr * w + num) = true) /\
  (b = true -> hi - lo <= iw thr - iw thr / 2 + 1) /\
  ((forall num, num < iw thr / 2 -> has (thr * w + num) = true) -> x = iw thr / 2 + (hi - lo)) /\
  ((forall num, num < iw thr / 2 -> has (thr * w + num) = true) -> (iw thr = 0 \/ iw thr - iw thr / 2 <= hi - lo + 1) ->
     hi - lo <= iw thr - iw thr / 2 + 1 -> (forall num, hi <= num < w -> has (thr * w + num) = false) -> b = true).
Proof.
  intros Ht. pose proof (bound thr Ht) as Hbt. pose proof (ops_le thr) as Hle. pose proof (nm_ok thr) as Hnm.
  unfold check_elements. rewrite ops_0, (ops_ok thr Ht). cbv zeta. rewrite iw_ok. fold (nm thr).
  set (i := iw thr) in *. set (q := nm thr) in *. clearbody i q.
  assert (Hi2 : 2 * (i / 2) <= i) by (apply N.mul_div_le; discriminate).
  assert (Hq2 : 2 * (q / 2) <= q) by (apply N.mul_div_le; discriminate).
  destruct (first_ok thr w Hbt C has (N.to_nat (i / 2)) 0 0 true) as (x & b1 & F1 & F2 & F3 & F4); [lia|]. rewrite F1. cbn [bind].
  destruct (find_ok thr w Hbt has (S (N.to_nat w)) (i / 2)) as (lo & G1 & G2 & G3 & G4); [lia|lia|]. rewrite G1. cbn [bind].
  destruct (count_ok thr w Hbt has (S (N.to_nat w)) lo 0) as (hi & K1 & K2 & K3 & K4); [lia|lia|]. rewrite K1. cbn [bind]. rewrite N.add_0_l.
  set (limit := i + (if 0 <? q / 2 then q / 2 - 1 else 0)).
  assert (Hlim : limit <= w) by (unfold limit; destruct (0 <? q / 2); lia).
  assert (Hl : (limit <=? w) = true) by (apply N.leb_le; exact Hlim). unfold assert_. rewrite Hl. cbn [orb bind].
  set (sc := if i - i / 2 + 1 <? hi - lo then false else if (0 <? i) && (hi - lo <? i - i / 2 - 1) then false else b1).
  destruct (last_ok thr w Hbt C has (N.to_nat (limit - hi)) hi sc) as (b & L1 & L2); [lia|].
  rewrite L1. cbn [bind]. exists (x + (hi - lo)), b, lo, hi.
  assert (Hall : (forall num, 0 <= num < 0 + N.of_nat (N.to_nat (i / 2)) -> has (thr * w + num) = true) <->
                 (forall num, num < i / 2 -> has (thr * w + num) = true)) by (split; intros H num Hm; apply H; lia).
  rewrite Hall in F3, F4.
  split; [reflexivity|]. split; [lia|]. split; [exact G2|]. split; [exact G3|]. split; [exact G4|]. split; [exact K2|]. split; [exact K3|]. split; [exact K4|].
  split; [|split; [|split]].
  - intros H. apply L2 in H as [H _]. unfold sc in H. destruct (i - i / 2 + 1 <? hi - lo); [discriminate|]. destruct ((0 <? i) && (hi - lo <? i - i / 2 - 1)); [discriminate|]. apply F3, H.
  - intros H. apply L2 in H as [H _]. unfold sc in H. destruct (N.ltb_spec (i - i / 2 + 1) (hi - lo)); [discriminate|]. lia.
  - intros H. rewrite (F4 H). lia.
  - intros H1 H2 H3 H4. apply L2. split.
    + unfold sc. destruct (N.ltb_spec (i - i / 2 + 1) (hi - lo)); [lia|]. destruct (N.ltb_spec 0 i); cbn [andb].
      * destruct (N.ltb_spec (hi - lo) (i - i / 2 - 1)); [lia|]. apply F3. auto.
      * apply F3. auto.
    + intros num Hm. apply H4. lia.
Qed.

(** ** What is in the container *)
Lemma run_some thr : thr < n -> exists pre main, alt_run n total thr = Some (pre, main) /\ length main = N.to_nat (nm thr) /\
  alt_prefix (if thr =? 0 then N.to_nat (iw thr) else O) thr w 0 = Some pre /\
  alt_main (N.to_nat (nm thr)) thr w (iw thr) (iw thr / 2) = Some main.
Proof.
  intros Ht. pose proof (bound thr Ht) as Hbt. pose proof (ops_le thr) as Hle. pose proof (nm_ok thr) as Hnm.
  assert (Hb64 : thr * w + w <= two64).
  { etransitivity; [exact Hbt|]. unfold two64. apply N.pow_le_mono_r; lia. }
  assert (Hi2 : 2 * (iw thr / 2) <= iw thr) by (apply N.mul_div_le; discriminate).
  assert (Hq2 : 2 * (nm thr / 2) <= nm thr) by (apply N.mul_div_le; discriminate).
  destruct (alt_prefix_ok thr w (if thr =? 0 then N.to_nat (iw thr) else O) 0 Hb64) as (pre & P1 & _); [destruct (thr =? 0); lia|].
  destruct (alt_main_ok thr w (N.to_nat (nm thr)) (iw thr) (iw thr / 2) Hb64) as (main & M1 & M2 & _).
  - unfold nins. destruct (N.to_nat (nm thr)) as [|m] eqn:Em; [simpl; lia|].
    assert (Nat.div (S m + 1) 2 <= S m)%nat; [|lia]. apply Nat.div_le_upper_bound; lia.
  - rewrite N2Nat.id. lia.
  - exists pre, main. split; [|split; [exact M2|split; [exact P1|exact M1]]].
    unfold alt_run. rewrite ops_0, (ops_ok thr Ht). cbv zeta. rewrite iw_ok. fold (nm thr). rewrite P1, M1. reflexivity.
Qed.

Context (js : N -> nat) (Hst : stopped n total js has).
Notation I thr := (ins (N.to_nat (nm thr)) (js thr)).
Notation D thr := (era (N.to_nat (nm thr)) (js thr)).

Lemma stopped_at thr num : thr < n -> num < w -> exists pre main, length main = N.to_nat (nm thr) /\
  alt_prefix (if thr =? 0 then N.to_nat (iw thr) else O) thr w 0 = Some pre /\
  alt_main (N.to_nat (nm thr)) thr w (iw thr) (iw thr / 2) = Some main /\
  has (thr * w + num) = bmember (thr * w + num) (firstn (js thr) main) (bmember (thr * w + num) pre false).
Proof.
  intros Ht Hw. destruct (run_some thr Ht) as (pre & main & H1 & H2 & H3 & H4). exists pre, main. split; [exact H2|]. split; [exact H3|]. split; [exact H4|].
  rewrite (Hst thr pre main _ Ht H1) by lia. apply bmember_app.
Qed.

Lemma odd_N m : Nat.odd (N.to_nat m) = N.odd m.
Proof.
  destruct (N.odd m) eqn:E.
  - apply N.odd_spec in E as [k Hk]. apply Nat.odd_spec. exists (N.to_nat k). lia.
  - rewrite <- N.negb_even in E. apply negb_false_iff, N.even_spec in E as [k Hk]. rewrite <- Nat.negb_even. apply negb_false_iff, Nat.even_spec.
    exists (N.to_nat k). lia.
Qed.

Definition pfx (thr : N) : N := if thr =? 0 then iw thr else 0.
(** The contents, unless elements are erased before they are inserted. *)
Lemma has_after thr num : thr < n -> num < w -> (iw thr <> 0 \/ N.odd (nm thr) = true) ->
  has (thr * w + num) = (inr_ 0 (pfx thr) num || inr_ (iw thr) (iw thr + I thr) num) && negb (inr_ (iw thr / 2) (iw thr / 2 + D thr) num).
Proof.
  intros Ht Hw Hc. destruct (stopped_at thr num Ht Hw) as (pre & main & _ & H3 & H4 & ->). pose proof (bound thr Ht) as Hbt.
  rewrite (main_after thr w Hbt _ _ _ _ _ _ _ H4).
  - rewrite (prefix_member thr w Hbt _ _ _ _ _ H3). cbn [orb]. f_equal. f_equal. unfold pfx. rewrite N.add_0_l. f_equal. destruct (thr =? 0); lia.
  - assert (Hi2 : 2 * (iw thr / 2) <= iw thr) by (apply N.mul_div_le; discriminate). rewrite odd_N.
    destruct (N.odd (nm thr)); [lia|]. destruct Hc as [Hc|Hc]; [lia|discriminate].
Qed.
Lemma has_before thr num : thr < n -> num < w -> iw thr = 0 -> N.odd (nm thr) = false -> has (thr * w + num) = inr_ 0 (I thr) num.
Proof.
  intros Ht Hw Hi Ho. destruct (stopped_at thr num Ht Hw) as (pre & main & _ & H3 & H4 & ->). pose proof (bound thr Ht) as Hbt.
  rewrite Hi in *. rewrite (main_before thr w Hbt _ _ _ _ _ _ _ H4).
  - rewrite (prefix_member thr w Hbt _ _ _ _ _ H3). cbn [orb]. destruct (inr_spec 0 (0 + N.of_nat (if thr =? 0 then N.to_nat 0 else 0%nat)) num) as [Hx|Hx].
    + exfalso. destruct (thr =? 0); cbn in Hx; lia.
    + cbn [andb orb]. rewrite N.add_0_l. reflexivity.
  - rewrite odd_N, Ho. cbn. lia.
Qed.

(** The contents as a window. *)
Lemma has_window thr : thr < n -> (thr = 0 \/ ops thr < 20) -> exists a b, iw thr / 2 <= a <= b /\ b <= w /\
  (forall num, num < w -> has (thr * w + num) = inr_ 0 (iw thr / 2) num || inr_ a b num) /\
  (iw thr = 0 \/ iw thr - iw thr / 2 <= b - a + 1) /\
  ((N.odd (ops thr) = true \/ 10 <= ops thr \/ ops thr < 4) -> b - a <= iw thr - iw thr / 2 + 1).
Proof.
  intros Ht Hth. pose proof (ops_le thr) as Hle. pose proof (nm_ok thr) as Hnm.
  assert (Hi2 : 2 * (iw thr / 2) <= iw thr) by (apply N.mul_div_le; discriminate).
  assert (Hi10 : 10 * iw thr <= ops thr) by (unfold iw; apply N.mul_div_le; discriminate).
  assert (Hi10' : ops thr < 10 * iw thr + 10) by (unfold iw; pose proof (N.mul_succ_div_gt (ops thr) 10); lia).
  assert (Hi3 : iw thr <= 2 * (iw thr / 2) + 1) by (pose proof (N.mul_succ_div_gt (iw thr) 2); lia).
  pose proof (ins_era (N.to_nat (nm thr)) (js thr)) as Hie. pose proof (ins_sum (N.to_nat (nm thr)) (js thr)) as His. rewrite odd_N in Hie. rewrite N2Nat.id in His.
  destruct (N.eq_dec (iw thr) 0) as [Hi|Hi]; [destruct (N.odd (nm thr)) eqn:Ho|].
  - (* no prefix, insertions first *)
    rewrite Hi in *. change (0 / 2) with 0 in *. exists (D thr), (I thr). split; [lia|]. split; [lia|]. split; [|split; [auto|lia]].
    intros num Hm. rewrite (has_after thr num Ht Hm) by auto. unfold pfx. rewrite Hi. change (0 / 2) with 0. rewrite !N.add_0_l.
    destruct (thr =? 0); destruct (inr_spec 0 0 num), (inr_spec 0 (I thr) num), (inr_spec 0 (D thr) num), (inr_spec (D thr) (I thr) num); try reflexivity; lia.
  - (* no prefix, erasures first *)
    rewrite Hi in *. change (0 / 2) with 0 in *. exists 0, (I thr). split; [lia|]. split; [lia|]. split; [|split; [auto|]].
    + intros num Hm. rewrite (has_before thr num Ht Hm Hi Ho). destruct (inr_spec 0 0 num); [lia|]. reflexivity.
    + intros [H|H]; [|lia]. exfalso. assert (nm thr = ops thr) as E by lia. congruence.
  - (* prefix *)
    destruct (N.eq_dec thr 0) as [H0|H0].
    + assert (Hp : pfx thr = iw thr) by (unfold pfx; rewrite H0; reflexivity).
      exists (iw thr / 2 + D thr), (iw thr + I thr).
      assert (Hsh : D thr <= I thr + 1 /\ I thr <= D thr + 1) by (destruct (N.odd (nm thr)); lia).
      split; [lia|]. split; [lia|]. split; [|split; lia].
      intros num Hm. rewrite (has_after thr num Ht Hm) by auto. rewrite Hp.
      destruct (inr_spec 0 (iw thr) num), (inr_spec (iw thr) (iw thr + I thr) num), (inr_spec (iw thr / 2) (iw thr / 2 + D thr) num),
        (inr_spec 0 (iw thr / 2) num), (inr_spec (iw thr / 2 + D thr) (iw thr + I thr) num); try reflexivity; lia.
    + (* the prefix was not executed *)
      assert (iw thr = 1) as E1 by (destruct Hth; lia). assert (Hp : pfx thr = 0) by (unfold pfx; apply N.eqb_neq in H0; rewrite H0; reflexivity).
      rewrite E1 in *. change (1 / 2) with 0 in *.
      assert (Hsh : D thr <= I thr + 1 /\ I thr <= D thr + 1) by (destruct (N.odd (nm thr)); lia).
      exists (N.max 1 (D thr)), (1 + I thr). split; [lia|]. split; [lia|]. split; [|split; lia].
      intros num Hm. rewrite (has_after thr num Ht Hm) by (left; lia). rewrite Hp, E1. change (1 / 2) with 0.
      destruct (inr_spec 0 0 num), (inr_spec 1 (1 + I thr) num), (inr_spec 0 (0 + D thr) num), (inr_spec (N.max 1 (D thr)) (1 + I thr) num); try reflexivity; lia.
Qed.

(** ** Counting *)
Definition cnt (from : N) (len : nat) : N := N.of_nat (length (List.filter has (map N.of_nat (seq (N.to_nat from) len)))).
Lemma cnt_app from a b : cnt from (a + b) = cnt from a + cnt (from + N.of_nat a) b.
Proof.
  unfold cnt. rewrite seq_app, List.map_app, List.filter_app, app_length. replace (N.to_nat (from + N.of_nat a)) with (N.to_nat from + a)%nat by lia. lia.
Qed.
Lemma cnt_all from len : (forall x, from <= x < from + N.of_nat len -> has x = true) -> cnt from len = N.of_nat len.
Proof.
  revert from. induction len as [|len IH]; intros from H; [reflexivity|]. change (S len) with (1 + len)%nat. rewrite cnt_app, IH.
  - unfold cnt. cbn. rewrite N2Nat.id, H by lia. cbn. lia.
  - intros x Hx. apply H. lia.
Qed.
Lemma cnt_none from len : (forall x, from <= x < from + N.of_nat len -> has x = false) -> cnt from len = 0.
Proof.
  revert from. induction len as [|len IH]; intros from H; [reflexivity|]. change (S len) with (1 + len)%nat. rewrite cnt_app, IH.
  - unfold cnt. cbn. rewrite N2Nat.id, H by lia. reflexivity.
  - intros x Hx. apply H. lia.
Qed.

Lemma thread_accepts thr : thr < n -> (thr = 0 \/ ops thr < 20) -> (N.odd (ops thr) = true \/ 10 <= ops thr \/ ops thr < 4) ->
  check_elements C (pure has) n total thr = Ret (cnt (thr * w) (N.to_nat w), true).
Proof.
  intros Ht Hth Hops. destruct (has_window thr Ht Hth) as (a & b & Ha & Hbw & Hh & Hlo & Hhi). specialize (Hhi Hops).
  destruct (elements_ok thr Ht) as (x & bb & lo & hi & E & _ & E1 & E2 & E3 & E4 & E5 & E6 & _ & _ & E7 & E8).
  set (r := iw thr / 2) in *.
  assert (Hfirst : forall num, num < r -> has (thr * w + num) = true).
  { intros num Hm. rewrite Hh by lia. destruct (inr_spec 0 r num); [reflexivity|lia]. }
  assert (Hwin : forall num, a <= num < b -> has (thr * w + num) = true).
  { intros num Hm. rewrite Hh by lia. destruct (inr_spec a b num); [apply orb_true_r|lia]. }
  assert (Hout : forall num, r <= num < w -> (num < a \/ b <= num) -> has (thr * w + num) = false).
  { intros num Hm Hm'. rewrite Hh by lia. destruct (inr_spec 0 r num), (inr_spec a b num); try reflexivity; lia. }
  assert (Hcnt : cnt (thr * w) (N.to_nat w) = r + (b - a)).
  { replace (N.to_nat w) with (N.to_nat r + (N.to_nat (a - r) + (N.to_nat (b - a) + N.to_nat (w - b))))%nat by lia.
    rewrite !cnt_app, (cnt_all (thr * w)), cnt_none, cnt_all, cnt_none.
    - lia.
    - intros y Hy. replace y with (thr * w + (y - thr * w)) by lia. apply Hout; lia.
    - intros y Hy. replace y with (thr * w + (y - thr * w)) by lia. apply Hwin; lia.
    - intros y Hy. replace y with (thr * w + (y - thr * w)) by lia. apply Hout; lia.
    - intros y Hy. replace y with (thr * w + (y - thr * w)) by lia. apply Hfirst; lia. }
  assert (Hl : hi - lo = b - a /\ forall num, hi <= num < w -> has (thr * w + num) = false).
  { destruct (N.eq_dec a b) as [Eab|Nab].
    - assert (lo = w) as Elo.
      { destruct E3 as [|E3]; [assumption|]. destruct (N.eq_dec lo w); [assumption|]. rewrite Hout in E3 by lia. discriminate. }
      split; [lia|]. intros num Hm. lia.
    - assert (lo = a) as Elo.
      { destruct (N.lt_trichotomy lo a) as [Hlt|[|Hgt]]; [|assumption|].
        - destruct E3 as [E3|E3]; [lia|]. rewrite Hout in E3 by lia. discriminate.
        - specialize (E2 a ltac:(lia)). rewrite Hwin in E2 by lia. discriminate. }
      assert (hi = b) as Ehi.
      { destruct (N.lt_trichotomy hi b) as [Hlt|[|Hgt]]; [|assumption|].
        - destruct E6 as [E6|E6]; [lia|]. rewrite Hwin in E6 by lia. discriminate.
        - specialize (E5 b ltac:(lia)). rewrite Hout in E5 by lia. discriminate. }
      split; [lia|]. intros num Hm. apply Hout; lia. }
  destruct Hl as [Hl1 Hl2]. rewrite E, (E7 Hfirst), Hl1, Hcnt. do 2 f_equal.
  apply E8; [exact Hfirst|lia|lia|exact Hl2].
Qed.

Lemma thread_flag thr x b : thr < n -> check_elements C (pure has) n total thr = Ret (x, b) -> b = true ->
  (thr = 0 \/ ops thr < 20) /\ ((N.to_nat (nm thr) <= js thr)%nat -> N.odd (ops thr) = true \/ 10 <= ops thr \/ ops thr < 4).
Proof.
  intros Ht E Hbt. destruct (elements_ok thr Ht) as (x' & bb & lo & hi & E' & _ & E1 & E2 & E3 & E4 & E5 & E6 & F1 & F2 & _).
  rewrite E in E'. injection E' as <- <-. specialize (F1 Hbt). specialize (F2 Hbt).
  assert (Hi10 : 10 * iw thr <= ops thr) by (unfold iw; apply N.mul_div_le; discriminate).
  assert (Hi10' : ops thr < 10 * iw thr + 10) by (unfold iw; pose proof (N.mul_succ_div_gt (ops thr) 10); lia).
  assert (Hi3 : iw thr <= 2 * (iw thr / 2) + 1) by (pose proof (N.mul_succ_div_gt (iw thr) 2); lia).
  pose proof (ops_le thr) as Hle. pose proof (nm_ok thr) as Hnm. split.
  - destruct (N.eq_dec thr 0) as [|H0]; [auto|right]. destruct (N.lt_ge_cases (ops thr) 20) as [|H20]; [assumption|exfalso].
    specialize (F1 0 ltac:(lia)). rewrite has_after in F1 by (auto; try (left; lia); lia).
    assert (Hp : pfx thr = 0) by (unfold pfx; apply N.eqb_neq in H0; rewrite H0; reflexivity). rewrite Hp in F1.
    destruct (inr_spec 0 0 0), (inr_spec (iw thr) (iw thr + I thr) 0); first [lia|discriminate].
  - intros Hj. destruct (N.odd (ops thr)) eqn:Ho; [auto|right]. destruct (N.lt_ge_cases (ops thr) 10) as [H10|]; [|auto]. right.
    destruct (N.lt_ge_cases (ops thr) 4) as [|H4]; [assumption|exfalso].
    assert (Hi : iw thr = 0) by lia. assert (nm thr = ops thr) as Enm by lia.
    pose proof (ins_era (N.to_nat (nm thr)) (js thr)) as Hie. pose proof (ins_sum (N.to_nat (nm thr)) (js thr)) as His. assert (Ho' : N.odd (nm thr) = false) by (rewrite Enm; exact Ho). rewrite odd_N, Ho' in Hie. rewrite N2Nat.id in His.
    rewrite Hi in *. change (0 / 2) with 0 in *.
    assert (Hh : forall num, num < w -> has (thr * w + num) = inr_ 0 (I thr) num).
    { intros num Hm. apply has_before; assumption. }
    assert (HI : 2 <= I thr) by lia. assert (HIw : I thr <= w) by lia.
    assert (lo = 0) as ->.
    { destruct (N.eq_dec lo 0) as [|Hlo]; [assumption|]. specialize (E2 0 ltac:(lia)). rewrite Hh in E2 by lia. destruct (inr_spec 0 (I thr) 0); [discriminate|lia]. }
    destruct (N.lt_ge_cases hi (I thr)) as [Hlt|Hge]; [|lia]. destruct E6 as [E6|E6]; [lia|]. rewrite Hh in E6 by lia.
    destruct (inr_spec 0 (I thr) hi); [discriminate|lia].
Qed.

(** ** All threads *)
Lemma cnt_le from len : cnt from len <= N.of_nat len.
Proof.
  revert from. induction len as [|len IH]; intros from; [cbn; lia|]. change (S len) with (1 + len)%nat. rewrite cnt_app. specialize (IH (from + N.of_nat 1)).
  assert (cnt from 1 <= 1); [|lia]. unfold cnt. cbn. destruct (has _); cbn; lia.
Qed.

Lemma threads_accept : checkable n total -> forall k i, i + N.of_nat k = n ->
  check_threads C (pure has) k n total i (cnt 0 (N.to_nat (i * w))) true = Ret (cnt 0 (N.to_nat (n * w)), true).
Proof.
  intros Hch. induction k as [|k IH]; intros i Hi.
  - assert (i = n) as -> by lia. reflexivity.
  - cbn [check_threads]. destruct (Hch i (ops i) ltac:(lia) (ops_ok i ltac:(lia))) as [H1 H2].
    rewrite (thread_accepts i) by (assumption || lia). cbn [bind fst snd].
    rewrite <- (IH (i + 1)) by lia. f_equal. pose proof (cnt_le (i * w) (N.to_nat w)) as Hc1. pose proof (cnt_le 0 (N.to_nat (i * w))) as Hc2.
    pose proof (bound i ltac:(lia)) as Hbi. change (2 ^ 31) with 2147483648 in *.
    assert (Hib : (i + 1) * w <= n * w) by (apply N.mul_le_mono_r; lia). rewrite sext32_small by (change (2 ^ 31) with 2147483648; lia).
    unfold add64, two64. rewrite N.mod_small by (change (2 ^ 64) with 18446744073709551616; lia).
    replace (N.to_nat ((i + 1) * w)) with (N.to_nat (i * w) + N.to_nat w)%nat by lia. rewrite cnt_app. f_equal. f_equal. lia.
Qed.

Lemma threads_flag : forall k i cs sc, i + N.of_nat k = n -> exists x b, check_threads C (pure has) k n total i cs sc = Ret (x, b) /\
  (b = true -> sc = true /\ forall thr, i <= thr < n -> exists y, check_elements C (pure has) n total thr = Ret (y, true)).
Proof.
  induction k as [|k IH]; intros i cs sc Hi.
  - exists cs, sc. split; [reflexivity|]. intros H. split; [exact H|lia].
  - cbn [check_threads]. destruct (elements_ok i ltac:(lia)) as (x & b & _ & _ & E & _). rewrite E. cbn [bind fst snd].
    destruct (IH (i + 1) (add64 cs (sext32 x)) (if b then sc else false) ltac:(lia)) as (y & b' & E' & H). exists y, b'. split; [exact E'|].
    intros Hb'. destruct (H Hb') as [H1 H2]. destruct b; [|discriminate]. split; [exact H1|]. intros thr Ht.
    destruct (N.eq_dec thr i) as [->|]; [exists x; exact E|apply H2; lia].
Qed.

Lemma accepts : checkable n total -> check_all_elements C (pure has) (N.of_nat (length (contents n total has))) total n = Ret true.
Proof.
  intros Hch. unfold check_all_elements. pose proof (threads_accept Hch (N.to_nat n) 0 ltac:(lia)) as H. change (cnt 0 (N.to_nat (0 * w))) with 0 in H.
  rewrite H. cbn [bind]. change (N.of_nat (length (contents n total has))) with (cnt 0 (N.to_nat (n * w))). rewrite N.eqb_refl. reflexivity.
Qed.

Lemma answers actsize : exists b, check_all_elements C (pure has) actsize total n = Ret b /\
  (b = true -> forall thr, thr < n -> (thr = 0 \/ ops thr < 20) /\ ((N.to_nat (nm thr) <= js thr)%nat -> N.odd (ops thr) = true \/ 10 <= ops thr \/ ops thr < 4)).
Proof.
  unfold check_all_elements. destruct (threads_flag (N.to_nat n) 0 0 true ltac:(lia)) as (x & b & E & H). rewrite E. cbn [bind].
  destruct (negb (x =? actsize)); [exists false; split; [reflexivity|discriminate]|]. destruct b; [|exists false; split; [reflexivity|discriminate]].
  exists true. split; [reflexivity|]. intros _ thr Ht. destruct (H eq_refl) as [_ H']. destruct (H' thr ltac:(lia)) as [y Ey].
  apply (thread_flag thr y true Ht Ey eq_refl).
Qed.
End One.
