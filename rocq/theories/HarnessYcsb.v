(** The distribution of a YCSB trace over the threads. *)
From Coq Require Import NArith Bool List Ascii String Lia Permutation.
From stdpp Require Import base list.
From Verif Require Import Word Prog HashMap Container Harness HarnessSpec HarnessText.
Import ListNotations.
Open Scope nat_scope.

Lemma starts_app p rest : starts p (p ++ rest) = true.
Proof. induction p as [|c p IH]; [reflexivity|]. cbn [app starts]. now rewrite Ascii.eqb_refl. Qed.
Lemma starts_prefix p : forall l st, nonul p -> starts p (l ++ NUL :: st) = true -> exists rest, l = p ++ rest.
Proof.
  unfold nonul. induction p as [|c p IH]; intros l st Hp H; [now exists l|].
  destruct l as [|d l]; cbn [app starts] in H; apply andb_true_iff in H; destruct H as (H1 & H2);
    apply Ascii.eqb_eq in H1; subst.
  - exfalso. apply Hp. now left.
  - destruct (IH l st) as (rest & ->); [intros Hi; apply Hp; now right|exact H2|]. now exists rest.
Qed.
Lemma keyword_nonul k : nonul (keyword k).
Proof. destruct k; cbn; intros H; repeat (destruct H as [H|H]; [discriminate|]); exact H. Qed.

Definition off_of (k : ykind) : nat := match k with YRead => 5 | _ => 7 end.
Lemma recognise_op k l st : recognise (keyword k ++ l ++ st) = Some (k, off_of k).
Proof. destruct k; reflexivity. Qed.
Lemma recognise_other l st : line_is l None -> recognise (l ++ NUL :: st) = None.
Proof.
  intros H. unfold recognise.
  change (txt "INSERT") with (keyword YInsert). change (txt "READ") with (keyword YRead).
  change (txt "DELETE") with (keyword YDelete). change (txt "UPDATE") with (keyword YUpdate).
  repeat match goal with |- context [starts (keyword ?k) ?b] =>
    let E := fresh in destruct (starts (keyword k) b) eqn:E;
    [exfalso; apply starts_prefix in E; [destruct E as (r & E); exact (H _ _ E)|apply keyword_nonul]|] end.
  reflexivity.
Qed.

Lemma skip_keyword k t : skipn (off_of k) (keyword k ++ txt " " ++ t) = t.
Proof. destruct k; reflexivity. Qed.

Lemma no_digit_prefix a b : no_digit (a ++ b) -> no_digit a.
Proof. destruct a; [easy|]. exact id. Qed.

Lemma scan_op o l st old : line_is l (Some o) -> scan_at (l ++ NUL :: st) (off_of (y_kind o)) old = HOk (Some (y_val o)).
Proof.
  intros (ws & sg & nt & rest & v & -> & Hw & Hd & -> & Hr). unfold scan_at. rewrite <- !app_assoc, skip_keyword.
  assert (Hn : nonul (ws ++ sign_text sg ++ nt)).
  { intros Hi. apply in_app_or in Hi as [Hi|Hi]; [|apply in_app_or in Hi as [Hi|Hi]; [|exact (decimal_nonul _ _ Hd Hi)]].
    - unfold blank in Hw. rewrite List.Forall_forall in Hw. apply Hw in Hi. change (N_of_ascii NUL) with 0%N in Hi. lia.
    - destruct sg as [[|]|]; cbn in Hi; [destruct Hi as [Hi|[]]; discriminate|destruct Hi as [Hi|[]]; discriminate|exact Hi]. }
  destruct (cstr_prefix (ws ++ sign_text sg ++ nt) rest st Hn) as (t' & E & r2 & ->). rewrite <- !app_assoc in E. rewrite <- !app_assoc, E.
  rewrite (scan_signed ws sg nt v); [reflexivity|exact Hw|exact Hd|].
  exact (no_digit_prefix _ _ Hr).
Qed.

Definition fitsb (l : text) : Prop := List.length l < 1024.
Lemma getline_fits buf l : List.length buf = 1024 -> fitsb l ->
  exists st, getline buf l = HOk (l ++ NUL :: st) /\ List.length (l ++ NUL :: st) = 1024.
Proof.
  unfold fitsb, getline. intros Hb Hl. rewrite Hb. destruct (Nat.leb_spec (S (List.length l)) 1024); [|lia].
  eexists. split; [reflexivity|]. rewrite app_length. cbn [List.length]. rewrite skipn_length, Hb. lia.
Qed.

(** What is in the queues after the lines [items], numbered from 0. *)
Definition dealt (T : N) (items : list (option yop)) (q : list (list yop)) : Prop :=
  List.length q = N.to_nat T /\
  forall t, (t < T)%N -> q !! N.to_nat t = Some (ops_of (share T t 0 items)).

Lemma share_snoc T t i items : forall j, share T t j (items ++ [i]) =
  share T t j items ++ (if ((j + N.of_nat (List.length items)) mod T =? t)%N then [i] else []).
Proof.
  induction items as [|x items IH]; intros j; cbn [app share List.length].
  - rewrite N.add_0_r. destruct (_ =? _)%N; reflexivity.
  - rewrite IH. replace (j + 1 + N.of_nat (List.length items))%N with (j + N.of_nat (S (List.length items)))%N by lia.
    destruct (j mod T =? t)%N; reflexivity.
Qed.
Lemma ops_of_app a b : ops_of (a ++ b) = ops_of a ++ ops_of b.
Proof. apply flat_map_app. Qed.
Lemma ops_of_length l : List.length (ops_of l) <= List.length l.
Proof.
  unfold ops_of. induction l as [|i l IH]; cbn [flat_map List.length]; [lia|]. rewrite app_length.
  destruct i; cbn [List.length]; lia.
Qed.
Lemma share_length T t items : forall j, List.length (share T t j items) <= List.length items.
Proof. induction items as [|i items IH]; intros j; cbn; [lia|]. specialize (IH (j + 1)%N). destruct (_ =? _)%N; cbn; lia. Qed.

(** A thread's share is smaller than the trace when there is another thread. *)
Lemma share_small T t items : (2 <= T)%N -> items <> [] -> (N.of_nat (List.length items) mod T = t)%N ->
  List.length (share T t 0 items) < List.length items.
Proof.
  intros HT Hne Ht. destruct (exists_last Hne) as (its & i & ->). clear Hne.
  rewrite share_snoc, app_length. rewrite app_length in Ht |- *. cbn [List.length] in *.
  pose proof (share_length T t its 0) as Hs. rewrite N.add_0_l.
  destruct (N.eqb_spec (N.of_nat (List.length its) mod T) t) as [E|]; [|cbn; lia].
  exfalso. rewrite <- Ht in E. replace (N.of_nat (List.length its + 1)) with (N.of_nat (List.length its) + 1)%N in E by lia.
  pose proof (N.mod_upper_bound (N.of_nat (List.length its)) T ltac:(lia)).
  rewrite N.add_mod in E by lia. rewrite (N.mod_small 1 T) in E by lia.
  clear Ht Hs. revert E H. generalize (N.of_nat (List.length its) mod T)%N. intros m E H.
  destruct (N.eq_dec (m + 1) T) as [E2|E2].
  - rewrite E2, N.mod_same in E by lia. lia.
  - rewrite N.mod_small in E by lia. lia.
Qed.

Lemma share_ops T t items : forall j, List.length (ops_of (share T t j items)) <= List.length (ops_of items).
Proof.
  induction items as [|i items IH]; intros j; cbn [share]; [lia|]. specialize (IH (j + 1)%N).
  destruct (_ =? _)%N; unfold ops_of in *; cbn [flat_map]; rewrite !app_length; lia.
Qed.

Section Deal.
Context (nd : bool) (cap T : N).
(** The queues have room for what is dealt out. *)
Definition room (items : list (option yop)) : Prop := (2 <= T)%N \/ (N.of_nat (List.length (ops_of items)) <= cap)%N.
Lemma room_prefix a b : room (a ++ b) -> room a.
Proof. intros [H|H]; [now left|right]. rewrite ops_of_app, app_length in H. lia. Qed.

Lemma fill_line_ok l i y items :
  (1 <= T)%N -> room (items ++ [i]) -> (N.of_nat (List.length items) <= cap)%N -> (1 <= cap)%N ->
  List.length (y_buf y) = 1024 -> fitsb l -> line_is l i ->
  y_num y = N.of_nat (List.length items) -> dealt T items (y_q y) ->
  exists y', fill_line nd cap T l y = HOk y' /\ List.length (y_buf y') = 1024 /\
    y_num y' = N.of_nat (List.length (items ++ [i])) /\ dealt T (items ++ [i]) (y_q y').
Proof.
  intros HT Hroom Hn Hc Hb Hf Hl Hnum (Hq1 & Hq2). unfold fill_line.
  destruct (getline_fits _ l Hb Hf) as (st & -> & Hlen). destruct (N.eqb_spec T 0); [lia|].
  set (t := (y_num y mod T)%N). assert (Ht : (t < T)%N) by (apply N.mod_upper_bound; lia).
  pose proof (Hq2 t Ht) as Hqt.
  assert (Hshort : (N.of_nat (List.length (ops_of (share T t 0 items))) + match i with Some _ => 1 | None => 0 end <= cap)%N).
  { pose proof (ops_of_length (share T t 0 items)). destruct (decide (items = [])) as [->|Hne]; [destruct i; cbn; lia|].
    destruct Hroom as [HT2|Hroom].
    - pose proof (share_small T t items HT2 Hne) as Hsm. rewrite <- Hnum in Hsm. specialize (Hsm eq_refl). destruct i; lia.
    - pose proof (share_ops T t items 0). rewrite ops_of_app, app_length in Hroom. destruct i; cbn in Hroom |- *; lia. }
  assert (Hoff : forall t', t' <> t -> share T t' 0 (items ++ [i]) = share T t' 0 items).
  { intros t' Hne. rewrite share_snoc, N.add_0_l, <- Hnum. fold t. destruct (N.eqb_spec t t'); [congruence|]. apply app_nil_r. }
  assert (Hon : share T t 0 (items ++ [i]) = share T t 0 items ++ [i]).
  { rewrite share_snoc, N.add_0_l, <- Hnum. fold t. now rewrite N.eqb_refl. }
  assert (Hlen1 : List.length (items ++ [i]) = S (List.length items)) by (rewrite app_length; cbn; lia).
  destruct i as [o|].
  - pose proof Hl as (ws & sg & nt & rest & v0 & El & _).
    assert (recognise (l ++ NUL :: st) = Some (y_kind o, off_of (y_kind o))) as ->.
    { rewrite El, <- app_assoc. rewrite recognise_op. reflexivity. }
    rewrite (scan_op o l st (y_scan y) Hl). unfold push. rewrite Hqt.
    destruct (N.ltb_spec (N.of_nat (List.length (ops_of (share T t 0 items)))) cap); [|lia].
    destruct o as [k v]. cbn [y_kind y_val]. unfold move_ok.
    rewrite list_lookup_insert by lia.
    assert ((N.of_nat (List.length (ops_of (share T t 0 items) ++ [mkYop k v])) <=? cap)%N = true) as ->.
    { rewrite app_length. cbn [List.length]. apply N.leb_le. lia. }
    rewrite orb_true_r. eexists. split; [reflexivity|]. cbn [y_buf y_num y_q]. split; [exact Hlen|].
    split; [rewrite Hlen1; lia|]. split; [now rewrite insert_length|].
    intros t' Ht'. destruct (N.eq_dec t' t) as [->|Hne].
    + rewrite list_lookup_insert by lia. rewrite Hon, ops_of_app. reflexivity.
    + rewrite list_lookup_insert_ne by lia. rewrite Hoff by exact Hne. now apply Hq2.
  - rewrite recognise_other by exact Hl. unfold move_ok. rewrite Hqt.
    destruct (N.leb_spec (N.of_nat (List.length (ops_of (share T t 0 items)))) cap); [|lia].
    rewrite orb_true_r. eexists. split; [reflexivity|]. cbn [y_buf y_num y_q]. split; [exact Hlen|].
    split; [rewrite Hlen1; lia|]. split; [exact Hq1|].
    intros t' Ht'. destruct (N.eq_dec t' t) as [->|Hne].
    + rewrite Hon, ops_of_app. cbn. rewrite app_nil_r. exact Hqt.
    + rewrite Hoff by exact Hne. now apply Hq2.
Qed.

Lemma fill_ok ls items : Forall2 line_is ls items -> forall y done,
  (1 <= T)%N -> room (done ++ firstn (N.to_nat (cap + 1 - N.of_nat (List.length done))) items) ->
  (N.of_nat (List.length done) <= cap)%N -> (1 <= cap)%N ->
  List.length (y_buf y) = 1024 -> Forall fitsb ls ->
  y_num y = N.of_nat (List.length done) -> dealt T done (y_q y) ->
  exists y', fill nd cap T ls y = HOk y' /\
    dealt T (done ++ firstn (N.to_nat (cap + 1 - N.of_nat (List.length done))) items) (y_q y').
Proof.
  induction 1 as [|l i ls items Hl _ IH]; intros y done HT Hroom Hn Hc Hb Hf Hnum Hd; cbn [fill].
  - exists y. split; [reflexivity|]. rewrite firstn_nil, app_nil_r. exact Hd.
  - apply Forall_cons in Hf as [Hf1 Hf].
    replace (N.to_nat (cap + 1 - N.of_nat (List.length done)))
      with (S (N.to_nat (cap + 1 - N.of_nat (S (List.length done))))) in * by lia. cbn [firstn] in *.
    change (done ++ i :: ?x) with (done ++ [i] ++ x) in *. rewrite app_assoc in *.
    destruct (fill_line_ok l i y done HT (room_prefix _ _ Hroom) Hn Hc Hb Hf1 Hl Hnum Hd) as (y' & -> & Hb' & Hnum' & Hd').
    assert (Hlen1 : List.length (done ++ [i]) = S (List.length done)) by (rewrite app_length; cbn; lia).
    destruct (N.ltb_spec cap (y_num y')) as [Hbig|Hsm].
    + exists y'. split; [reflexivity|]. rewrite Hnum', Hlen1 in Hbig.
      replace (N.to_nat (cap + 1 - N.of_nat (S (List.length done)))) with 0 by lia. cbn [firstn]. rewrite app_nil_r. exact Hd'.
    + rewrite <- Hlen1 in Hroom |- *. destruct (IH y' (done ++ [i]) HT Hroom) as (y'' & E & Hd''); auto;
        [rewrite <- Hnum'; exact Hsm|]. exists y''. split; [exact E|exact Hd''].
Qed.
End Deal.

Lemma dealt_init T : dealt T [] (repeat [] (N.to_nat T)).
Proof.
  split; [apply repeat_length|]. intros t Ht. cbn.
  assert (H : N.to_nat t < N.to_nat T) by lia. revert H. generalize (N.to_nat t), (N.to_nat T). clear.
  intros t T. revert t. induction T as [|T IH]; intros [|t] Ht; cbn; try lia; [reflexivity|]. apply IH. lia.
Qed.

Lemma deal_queues nd cap T ls items buf :
  (1 <= cap)%N -> (1 <= T)%N -> room cap T (firstn (N.to_nat (cap + 1)) items) ->
  Forall2 line_is ls items -> Forall fitsb ls -> List.length buf = 1024 ->
  exists y, fill nd cap T ls (yst0 buf T) = HOk y /\ List.length (y_q y) = N.to_nat T /\
    forall t, (t < T)%N -> y_q y !! N.to_nat t = Some (ops_of (share T t 0 (firstn (N.to_nat (cap + 1)) items))).
Proof.
  intros Hc HT Hroom Hl Hf Hb.
  destruct (fill_ok nd cap T ls items Hl (yst0 buf T) [] HT) as (y & E & Hd); auto;
    [cbn [List.length app]; now rewrite N.sub_0_r|cbn; lia|apply dealt_init|].
  exists y. split; [exact E|]. cbn [List.length app] in Hd. rewrite N.sub_0_r in Hd. exact Hd.
Qed.

(** ** Nothing is lost or doubled *)
Lemma share_all T items : forall j, (0 < T)%N ->
  Permutation (concat (map (fun t => share T (N.of_nat t) j items) (seq 0 (N.to_nat T)))) items.
Proof.
  induction items as [|i items IH]; intros j HT; cbn [share].
  - replace (concat _) with (@nil (option yop)); [constructor|].
    symmetry. induction (seq 0 (N.to_nat T)); [reflexivity|exact IHl].
  - set (a := N.to_nat (j mod T)%N). pose proof (N.mod_upper_bound j T ltac:(lia)) as Hm.
    assert (Ha : N.of_nat a = (j mod T)%N) by (unfold a; lia).
    assert (Hr : exists r, N.to_nat T = a + (1 + r)) by (exists (N.to_nat T - S a); lia). destruct Hr as (r & Hr).
    rewrite Hr in IH |- *.
    rewrite !seq_app, !List.map_app, !concat_app, !Nat.add_0_l. cbn [seq map concat]. rewrite Ha, N.eqb_refl, app_nil_r.
    assert (Hoff : forall l, ~ In a l ->
      map (fun t => if (j mod T =? N.of_nat t)%N then i :: share T (N.of_nat t) (j + 1) items
                    else share T (N.of_nat t) (j + 1) items) l = map (fun t => share T (N.of_nat t) (j + 1) items) l).
    { intros l Hl. apply map_ext_in. intros t Ht. destruct (N.eqb_spec (j mod T) (N.of_nat t)) as [E|]; [|reflexivity].
      exfalso. apply Hl. replace a with t by lia. exact Ht. }
    rewrite Hoff by (rewrite in_seq; lia). rewrite Hoff by (rewrite in_seq; lia).
    cbn [app].
    etransitivity; [symmetry; apply Permutation_middle|]. apply perm_skip.
    etransitivity; [|apply (IH (j + 1)%N HT)].
    rewrite !seq_app, !List.map_app, !concat_app, !Nat.add_0_l. cbn [seq map concat]. rewrite Ha, app_nil_r. reflexivity.
Qed.

Lemma seq_at a n i : i < n -> seq a n !! i = Some (a + i).
Proof.
  revert a i. induction n as [|n IH]; intros a [|i] H; cbn; try lia; [f_equal; lia|].
  change (seq (S a) n !! i = Some (a + S i)). rewrite IH by lia. f_equal. lia.
Qed.
Lemma lookup_all {A} (q : list A) (f : N -> A) T : List.length q = N.to_nat T ->
  (forall t, (t < T)%N -> q !! N.to_nat t = Some (f t)) -> q = map (fun t => f (N.of_nat t)) (seq 0 (N.to_nat T)).
Proof.
  intros Hl Hq. apply list_eq. intros n. change (map ?g ?l) with (g <$> l). rewrite list_lookup_fmap.
  destruct (decide (n < N.to_nat T)) as [Hn|Hn].
  - rewrite (seq_at 0 (N.to_nat T) n) by exact Hn. cbn. specialize (Hq (N.of_nat n) ltac:(lia)). rewrite Nat2N.id in Hq. exact Hq.
  - rewrite (proj2 (lookup_ge_None (seq 0 (N.to_nat T)) n)) by (rewrite seq_length; lia). cbn. apply lookup_ge_None. lia.
Qed.

Lemma ops_of_concat {A} (f : A -> list (option yop)) l :
  concat (map (fun t => ops_of (f t)) l) = ops_of (concat (map f l)).
Proof. induction l as [|t l IH]; [reflexivity|]. cbn [map concat]. now rewrite ops_of_app, IH. Qed.

Lemma deal_once nd cap T ls items buf y :
  (1 <= cap)%N -> (1 <= T)%N -> room cap T (firstn (N.to_nat (cap + 1)) items) ->
  Forall2 line_is ls items -> Forall fitsb ls -> List.length buf = 1024 ->
  fill nd cap T ls (yst0 buf T) = HOk y ->
  Permutation (concat (y_q y)) (ops_of (firstn (N.to_nat (cap + 1)) items)).
Proof.
  intros Hc HT Hroom Hl Hf Hb E. destruct (deal_queues nd cap T ls items buf Hc HT Hroom Hl Hf Hb) as (y' & E' & Hlen & Hq).
  rewrite E in E'. injection E' as <-. rewrite (lookup_all _ _ _ Hlen Hq).
  pose proof (share_all T (firstn (N.to_nat (cap + 1)) items) 0 ltac:(lia)) as HP.
  apply (Permutation_flat_map (fun i => match i with Some o => [o] | None => [] end)) in HP.
  fold (ops_of (firstn (N.to_nat (cap + 1)) items)) in HP. etransitivity; [|exact HP].
  rewrite (ops_of_concat (fun t => share T (N.of_nat t) 0 (firstn (N.to_nat (cap + 1)) items))). reflexivity.
Qed.

(** ** With one thread the queue overflows *)
Lemma fill_overflow nd cap ls os : Forall2 (fun l o => line_is l (Some o)) ls os -> forall y q,
  List.length (y_buf y) = 1024 -> Forall fitsb ls -> y_q y = [q] -> y_num y = N.of_nat (List.length q) ->
  (N.of_nat (List.length q) <= cap)%N -> (cap < N.of_nat (List.length q + List.length os))%N ->
  fill nd cap 1 ls y = HBad WritePast.
Proof.
  induction 1 as [|l o ls os Hl _ IH]; intros y q Hb Hf Hq Hnum Hle Hgt; cbn [List.length] in Hgt; [lia|].
  apply Forall_cons in Hf as [Hf1 Hf]. cbn [fill]. unfold fill_line.
  destruct (getline_fits _ l Hb Hf1) as (st & -> & Hlen). cbn [N.eqb].
  rewrite N.mod_1_r.
  pose proof Hl as (ws & sg & nt & rest & v0 & El & _).
  assert (recognise (l ++ NUL :: st) = Some (y_kind o, off_of (y_kind o))) as ->.
  { rewrite El, <- app_assoc. rewrite recognise_op. reflexivity. }
  rewrite (scan_op o l st (y_scan y) Hl). unfold push. rewrite Hq. cbn [N.to_nat lookup list_lookup].
  destruct (N.ltb_spec (N.of_nat (List.length q)) cap) as [Hlt|Hge]; [|reflexivity].
  destruct o as [k v]. cbn [y_kind y_val insert list_insert]. unfold move_ok. cbn [N.to_nat lookup list_lookup].
  assert ((N.of_nat (List.length (q ++ [mkYop k v])) <=? cap)%N = true) as ->.
  { rewrite app_length. cbn [List.length]. apply N.leb_le. lia. }
  rewrite orb_true_r. cbn [y_num]. destruct (N.ltb_spec cap (y_num y + 1)); [lia|].
  apply (IH _ (q ++ [mkYop k v])); cbn [y_buf y_num y_q]; auto; rewrite app_length; cbn [List.length]; lia.
Qed.

Lemma deal_one nd cap ls os buf : Forall2 (fun l o => line_is l (Some o)) ls os -> Forall fitsb ls ->
  List.length buf = 1024 -> (cap < N.of_nat (List.length os))%N -> fill nd cap 1 ls (yst0 buf 1) = HBad WritePast.
Proof. intros Hl Hf Hb Hc. apply (fill_overflow nd cap ls os Hl _ []); cbn; auto; lia. Qed.

(** ** The load phase *)
Lemma load_ok ls items : Forall2 line_is ls items -> forall buf, List.length buf = 1024 -> Forall fitsb ls ->
  exists buf', List.length buf' = 1024 /\
    load ls buf = HOk (inserts_of items, buf').
Proof.
  induction 1 as [|l i ls items Hl _ IH]; intros buf Hb Hf; cbn [load]; [eauto|].
  apply Forall_cons in Hf as [Hf1 Hf]. destruct (getline_fits _ l Hb Hf1) as (st & -> & Hlen).
  destruct (IH _ Hlen Hf) as (buf' & Hb' & E). exists buf'. split; [exact Hb'|]. rewrite E. clear IH E. unfold inserts_of. cbn [flat_map].
  destruct i as [[k v]|].
  - pose proof Hl as (ws & sg & nt & rest & v0 & El & _). cbn [y_kind] in El.
    assert (starts (txt "INSERT") (l ++ NUL :: st) = match k with YInsert => true | _ => false end) as ->.
    { rewrite El, <- app_assoc. destruct k; reflexivity. }
    destruct k; try reflexivity.
    pose proof (scan_op (mkYop YInsert v) l st None Hl) as Hs. cbn [y_kind y_val off_of] in Hs. rewrite Hs. reflexivity.
  - destruct (starts (txt "INSERT") (l ++ NUL :: st)) eqn:Es; [|reflexivity].
    exfalso. change (txt "INSERT") with (keyword YInsert) in Es.
    apply starts_prefix in Es; [|apply keyword_nonul]. destruct Es as (r & Es). exact (Hl _ _ Es).
Qed.

(** ** Whole files *)
Lemma keyword_no_nl k : ~ In NL (keyword k).
Proof. destruct k; cbn; intros H; repeat (destruct H as [H|H]; [discriminate|]); exact H. Qed.
Lemma line_is_nl l i : line_is l i -> line_is (l ++ [NL]) i.
Proof.
  destruct i as [o|].
  - intros (ws & sg & nt & rest & v & -> & Hw & Hd & Hv & Hr). exists ws, sg, nt, (rest ++ [NL]), v.
    split; [now rewrite <- !app_assoc|]. split; [exact Hw|]. split; [exact Hd|]. split; [exact Hv|].
    destruct rest; [cbn; left; vm_compute; reflexivity|exact Hr].
  - intros H k rest E. destruct (decide (rest = [])) as [->|Hne].
    + apply (keyword_no_nl k). rewrite app_nil_r in E. rewrite <- E. apply in_or_app. right. now left.
    + destruct (exists_last Hne) as (r & c & ->). rewrite app_assoc in E. apply app_inj_tail in E.
      destruct E as (E & _). exact (H _ _ E).
Qed.
Lemma lines_ended ls items : Forall2 line_is ls items -> forall nls, Forall2 ended ls nls -> Forall2 line_is nls items.
Proof.
  induction 1 as [|l i ls items Hl _ IH]; intros nls He; inversion He as [|? nl ? nls' [->| ->] He2]; subst; constructor;
    auto using line_is_nl.
Qed.
Lemma fits_ended ls : Forall fits ls -> forall nls, Forall2 ended ls nls -> Forall fitsb nls.
Proof.
  induction 1 as [|l ls H _ IH]; intros nls He; inversion He as [|? nl ? nls' He1 He2]; subst; constructor; auto.
  unfold fitsb, fits in *. destruct He1 as [->| ->]; rewrite ?app_length; cbn; lia.
Qed.

Section Files.
Context (nd : bool) (cap T : N) (ls1 ls2 : list text) (f1 f2 : text) (items1 items2 : list (option yop)) (buf : text).
Hypotheses (Hl1 : Forall2 line_is ls1 items1) (Hl2 : Forall2 line_is ls2 items2) (Ho1 : Forall one_line ls1)
  (Ho2 : Forall one_line ls2) (Hf1 : Forall fits ls1) (Hf2 : Forall fits ls2) (Ht1 : text_of ls1 f1) (Ht2 : text_of ls2 f2)
  (Hb : List.length buf = 1024).

Let L1 := lines_ended _ _ Hl1 _ (lines_text _ _ Ho1 Ht1).
Let L2 := lines_ended _ _ Hl2 _ (lines_text _ _ Ho2 Ht2).
Let F1 := fits_ended _ Hf1 _ (lines_text _ _ Ho1 Ht1).
Let F2 := fits_ended _ Hf2 _ (lines_text _ _ Ho2 Ht2).

Lemma c56_queues : (1 <= cap)%N -> (1 <= T)%N ->
  (2 <= T)%N \/ (N.of_nat (List.length (ops_of (firstn (N.to_nat (cap + 1)) items2))) <= cap)%N ->
  exists qs, ycsb_prefix nd cap T f1 f2 buf = HOk (inserts_of items1, qs) /\
    List.length qs = N.to_nat T /\
    (forall t, (t < T)%N -> qs !! N.to_nat t = Some (ops_of (share T t 0 (firstn (N.to_nat (cap + 1)) items2)))) /\
    Permutation (concat qs) (ops_of (firstn (N.to_nat (cap + 1)) items2)).
Proof.
  intros Hc HT Hr. unfold ycsb_prefix.
  destruct (load_ok _ _ L1 buf Hb F1) as (buf' & Hb' & ->).
  destruct (deal_queues nd cap T _ _ buf' Hc HT Hr L2 F2 Hb') as (y & E & Hlen & Hq).
  pose proof (deal_once nd cap T _ _ buf' y Hc HT Hr L2 F2 Hb' E) as HP.
  rewrite E. eauto.
Qed.

Lemma c56_one_thread os : items2 = map Some os -> (cap < N.of_nat (List.length os))%N ->
  ycsb_prefix nd cap 1 f1 f2 buf = HBad WritePast.
Proof.
  intros Hos Hc. unfold ycsb_prefix.
  destruct (load_ok _ _ L1 buf Hb F1) as (buf' & Hb' & ->).
  rewrite (deal_one nd cap _ os buf'); auto.
  pose proof L2 as H. rewrite Hos in H. clear -H. revert H. generalize (lines_of f2). intros ls.
  revert os. induction ls as [|l ls IH]; intros [|o os] H; inversion H; subst; constructor; auto.
Qed.
End Files.
