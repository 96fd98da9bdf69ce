(** What numFromName makes of any name, and what creating a table file leaves on the disk. *)
From Coq Require Import NArith ZArith Bool List Ascii String Lia.
From stdpp Require Import base list strings gmap.
From Verif Require Import Word Bits Prog HashMap Spec Recovery RecoverySpec RecoveryThm.
Import ListNotations.
Open Scope nat_scope.

Lemma digit_char d : (d < 10)%N -> digit (ascii_of_N (48 + d)) = Some d.
Proof.
  intros H. unfold digit. rewrite N_ascii_embedding by lia.
  destruct (N.leb_spec 48 (48 + d)); [|lia]. destruct (N.leb_spec (48 + d) 57); [|lia]. cbn [andb]. f_equal. lia.
Qed.
Lemma atoi_digits_app ds rest : Forall (fun d => (d < 10)%N) ds ->
  match rest with c :: _ => (N_of_ascii c < 48 \/ 57 < N_of_ascii c)%N | [] => True end -> forall acc,
  atoi_digits (map (fun d => ascii_of_N (48 + d)) ds ++ rest) acc = fold_left (fun a d => (10 * a + d)%N) ds acc.
Proof.
  induction 1 as [|d ds Hd _ IH]; intros Hr acc; cbn [map app fold_left].
  - destruct rest as [|c rest]; [reflexivity|]. cbn [atoi_digits]. unfold digit.
    destruct (N.leb_spec 48 (N_of_ascii c)); [|reflexivity]. destruct (N.leb_spec (N_of_ascii c) 57); [lia|reflexivity].
  - cbn [atoi_digits]. rewrite digit_char by exact Hd. rewrite N.mul_comm. now apply IH.
Qed.
Lemma spells_head t v rest : spells t v rest -> exists d t', t = ascii_of_N (48 + d) :: t' /\ (d < 10)%N.
Proof.
  intros (ds & Hne & Hd & -> & _). destruct ds as [|d ds]; [congruence|]. apply List.Forall_inv in Hd. cbn [map]. eauto.
Qed.
Lemma atoi_spells ws t v rest : spaces ws -> spells t v rest -> (v < 2 ^ 31)%N -> atoi (ws ++ t ++ rest) = Some (Z.of_N v).
Proof.
  intros Hw Ht Hv. induction Hw as [|c ws Hc _ IH]; cbn [app].
  - destruct (spells_head _ _ _ Ht) as (d & t' & E & Hd). destruct Ht as (ds & Hne & Hds & E2 & Ev & Hr).
    assert (Hn : N_of_ascii (ascii_of_N (48 + d)) = (48 + d)%N) by (apply N_ascii_embedding; lia).
    rewrite E. cbn [app]. cbn [atoi].
    assert (isspace (ascii_of_N (48 + d)) = false) as ->.
    { unfold isspace. rewrite Hn. apply orb_false_iff. split; [apply N.eqb_neq; lia|]. apply andb_false_iff. right. apply N.leb_gt. lia. }
    destruct (Ascii.eqb_spec (ascii_of_N (48 + d)) "-") as [E3|_]; [rewrite E3 in Hn; change (N_of_ascii "-") with 45%N in Hn; lia|].
    destruct (Ascii.eqb_spec (ascii_of_N (48 + d)) "+") as [E3|_]; [rewrite E3 in Hn; change (N_of_ascii "+") with 43%N in Hn; lia|].
    change (ascii_of_N (48 + d) :: t' ++ rest) with ((ascii_of_N (48 + d) :: t') ++ rest). rewrite <- E, E2.
    rewrite atoi_digits_app by assumption. rewrite <- Ev. destruct (N.ltb_spec v (2 ^ 31)); [reflexivity|lia].
  - cbn [atoi]. assert (isspace c = true) as ->; [|exact IH].
    unfold isspace. apply orb_true_iff. rewrite andb_true_iff, N.eqb_eq, !N.leb_le. exact Hc.
Qed.

Lemma last_index_without c l : without c l -> last_index c l = None.
Proof. intros H. apply last_index_none, Forall_forall. intros x Hx ->. apply H. now apply elem_of_list_In. Qed.

(** Between the last slash and the last dot: white space, a number, and anything. *)
Lemma numFromName_any dir ws t v rest ext : spaces ws -> spells t v rest -> (v < 2 ^ 31)%N ->
  without "/" (ws ++ t ++ rest ++ ext) -> without "." ext -> List.length (ws ++ t ++ rest) < 240 ->
  numFromName (string_of_list_ascii (dir ++ ["/"%char] ++ (ws ++ t ++ rest) ++ ["."%char] ++ ext)) = Some v.
Proof.
  intros Hw Ht Hv Hs Hd Hl. unfold numFromName. rewrite list_ascii_of_string_of_list_ascii.
  pose proof (atoi_spells ws t v rest Hw Ht Hv) as Ha.
  assert (Hs1 : without "/" (ws ++ t ++ rest)).
  { intros Hi. apply Hs. rewrite !in_app_iff in *. tauto. }
  assert (Hs2 : without "/" ext) by (intros Hi; apply Hs; rewrite !in_app_iff; tauto). clear Hs.
  revert Ha Hs1 Hl. generalize (ws ++ t ++ rest). clear ws t rest Hw Ht. intros D Ha Hs1 Hl.
  assert (H1 : last_index "." (dir ++ ["/"%char] ++ D ++ ["."%char] ++ ext) = Some (List.length dir + (1 + List.length D))).
  { rewrite !last_index_app, (last_index_without _ _ Hd). cbn. f_equal. lia. }
  assert (H2 : last_index "/" (dir ++ ["/"%char] ++ D ++ ["."%char] ++ ext) = Some (List.length dir)).
  { rewrite !last_index_app, (last_index_without _ _ Hs2), (last_index_without _ _ Hs1). cbn. f_equal. lia. }
  rewrite H1, H2. clear H1 H2.
  replace (List.length dir + (1 + List.length D) - (List.length dir + 1)) with (List.length D) by lia.
  assert (Ht : take (List.length D) (drop (List.length dir + 1) (dir ++ ["/"%char] ++ D ++ ["."%char] ++ ext)) = D).
  { rewrite (app_assoc dir). rewrite drop_app_alt by (rewrite app_length; reflexivity). apply take_app. }
  rewrite Ht, Ha. destruct (Nat.ltb_spec (List.length D) 240) as [_|]; [|lia]. cbn [option_map]. f_equal.
  rewrite Z.mod_small; [apply N2Z.id|]. change (2 ^ 31)%N with 2147483648%N in Hv.
  change (Z.of_N two64) with 18446744073709551616%Z. lia.
Qed.

(** Creating or opening a table leaves the table's entries in its file and touches no other. *)
Lemma mmap_named_file P b cap ex maxcap name path fs T fs' :
  mmap_named P b cap ex maxcap name path fs = inl (T, fs') ->
  fs' !! path = Some (t_pairs T) /\ (forall path', path' <> path -> fs' !! path' = fs !! path') /\
  t_len T = List.length (t_pairs T).
Proof.
  unfold mmap_named. destruct (parse P name) as [count|]; [|discriminate].
  destruct (if b then fs !! path else None) as [[|p content]|].
  - discriminate.
  - intros [= <- <-]. rewrite lookup_insert. split; [reflexivity|]. split; [intros q Hq; apply lookup_insert_ne; congruence|].
    cbn. now rewrite map_length.
  - destruct (can_alloc cap maxcap); [|discriminate]. intros [= <- <-]. rewrite lookup_insert.
    split; [reflexivity|]. split; [intros q Hq; apply lookup_insert_ne; congruence|]. cbn. now rewrite replicate_length.
Qed.
(** A new file holds no key and no value. *)
Lemma mmap_named_new P b cap ex maxcap name path fs T fs' :
  mmap_named P b cap ex maxcap name path fs = inl (T, fs') -> (b = true -> fs !! path = None) ->
  t_len T = cap /\ forall i, i < cap -> exists k v, t_pairs T !! i = Some (k, v) /\ same_word k KINITIAL /\ same_word v VINITIAL.
Proof.
  unfold mmap_named. destruct (parse P name) as [count|]; [|discriminate]. intros H Hb.
  assert (E : (if b then fs !! path else None) = None) by (destruct b; auto). rewrite E in H.
  destruct (can_alloc cap maxcap); [|discriminate]. injection H as <- <-. split; [reflexivity|]. intros i Hi.
  exists (dirty KINITIAL), (dirty VINITIAL). split; [cbn; now rewrite lookup_replicate_2|].
  split; vm_compute; reflexivity.
Qed.

Lemma c29_any_example :
  spaces (list_ascii_of_string " ") /\ spells (list_ascii_of_string "12") 12 (list_ascii_of_string "x") /\
  numFromName "/tmp/a.b/ 12x.dat" = Some 12%N.
Proof.
  split; [constructor; [now left|constructor]|]. split; [|reflexivity].
  exists [1; 2]%N. split; [discriminate|]. split; [repeat constructor|]. split; [reflexivity|]. split; [reflexivity|].
  right. reflexivity.
Qed.
Lemma c28_file_example : exists T fs,
  mmap_named repaired true 4 0 4096 "0.dat" "/mnt/0.dat" ∅ = inl (T, fs) /\ t_len T = 4.
Proof. eexists _, _. split; [vm_compute; reflexivity|reflexivity]. Qed.
