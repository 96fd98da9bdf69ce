(** The random driver, the start barrier and the command line. *)
From Coq Require Import NArith Bool List Ascii String Lia.
From stdpp Require Import base list gmap.
From Verif Require Import Word Bits Prog HashMap Spec Codec CodecThm Container ContainerSpec ContainerThm
  Harness HarnessSpec HarnessText HarnessCount SeqApi SeqThm.
Import ListNotations.
Open Scope nat_scope.

(** ** The random driver's calls *)
Lemma draw_in sh rs : forall v rs', draw sh rs = Some (v, rs') -> In v rs /\ (forall x, In x rs' -> In x rs).
Proof.
  induction rs as [|x rs IH]; intros v rs' H; [discriminate|]. cbn [draw] in H. destruct (_ || _) in H.
  - destruct (IH _ _ H) as (H1 & H2). split; [now right|]. intros y Hy. right. now apply H2.
  - injection H as <- <-. split; [now left|]. intros y Hy. now right.
Qed.

Lemma random_op_legal v c : legal_el v -> Forall legal_rop (random_op v c).
Proof.
  intros H. unfold random_op. destruct (c mod 8)%N as [|p]; [constructor; [exact H|constructor]|].
  destruct p as [[[]|[]|]|[[]|[]|]|]; cbn; repeat constructor; exact H.
Qed.

Lemma c59_main n : forall rs os, (forall r, In r rs -> legal_el r) -> random_main n rs = Some os -> Forall legal_rop os.
Proof.
  induction n as [|n IH]; intros rs os Hr H; cbn [random_main] in H; [injection H as <-; constructor|].
  destruct (draw 0 rs) as [[v [|c rs']]|] eqn:E; try discriminate. destruct (draw_in _ _ _ _ E) as (H1 & H2).
  destruct (random_main n rs') as [os'|] eqn:E'; [|discriminate]. injection H as <-. apply List.Forall_app. split.
  - apply random_op_legal. now apply Hr.
  - apply (IH rs'); [|exact E']. intros r Hi. apply Hr, H2. now right.
Qed.
Lemma c59_prefix n : forall rs os rs', (forall r, In r rs -> legal_el r) -> random_prefix n rs = Some (os, rs') ->
  Forall legal_rop os /\ (forall r, In r rs' -> In r rs).
Proof.
  induction n as [|n IH]; intros rs os rs' Hr H; cbn [random_prefix] in H; [injection H as <- <-; auto|].
  destruct rs as [|c rs]; [discriminate|]. destruct (c mod 2 =? 0)%N.
  - destruct (IH _ _ _ (fun r Hi => Hr r (or_intror Hi)) H) as (H1 & H2). split; [exact H1|]. intros r Hi. right. now apply H2.
  - destruct (draw BITS_MARKED rs) as [[v rs1]|] eqn:E; [|discriminate]. destruct (draw_in _ _ _ _ E) as (D1 & D2).
    destruct (random_prefix n rs1) as [[os1 rs2]|] eqn:E1; [|discriminate]. injection H as <- <-.
    destruct (IH _ _ _ (fun r Hi => Hr r (or_intror (D2 r Hi))) E1) as (H1 & H2). split.
    + constructor; [|exact H1]. apply Hr. now right.
    + intros r Hi. right. now apply D2, H2.
Qed.

Lemma random_op_call v c : random_op v c = random_call v c.
Proof.
  unfold random_op, random_call. pose proof (N.mod_upper_bound c 8 ltac:(discriminate)) as H.
  destruct (c mod 8)%N as [|p]; [reflexivity|].
  do 3 (destruct p as [p|p|]; try reflexivity); destruct p; discriminate H.
Qed.
(** Drawing values that are not reserved, the driver makes the call that each choice says. *)
Lemma draw_legal v rs : legal_el v -> draw 0 (v :: rs) = Some (v, rs).
Proof.
  intros H. unfold draw. unfold legal_el in H. assert (2 ^ 61 = 2305843009213693952)%N as E by reflexivity. rewrite E in H.
  assert (shl64 v 0 = v) as ->.
  { unfold shl64. rewrite N.shiftl_0_r. apply N.mod_small. change two64 with 18446744073709551616%N. lia. }
  assert (isKeyReserved v = false) as ->.
  { unfold isKeyReserved. rewrite KINITIAL_val, KTOMBSTONE_val, VINITIAL_val, VTOMBSTONE_val. rewrite orb_false_iff, !N.eqb_neq. lia. }
  assert (isValueReserved v = false) as ->; [|reflexivity].
  unfold isValueReserved. rewrite VINITIAL_val, VTOMBSTONE_val, ?TOMBPRIME_val, ?MATCH_ANY_val, ?NO_MATCH_OLD_val.
  rewrite !orb_false_iff, !N.eqb_neq. lia.
Qed.
Lemma draw_legal3 v rs : legal_el v -> draw BITS_MARKED (v :: rs) = Some (v, rs).
Proof.
  intros H. destruct (legal_el_key v H) as ((_ & _ & _ & K) & (_ & _ & _ & V)). unfold draw.
  change (shl64 v BITS_MARKED) with (encode_el v). rewrite K, V. reflexivity.
Qed.
Lemma c59_calls ps rs : Forall (fun p => legal_el (fst p)) ps ->
  random_main (List.length ps) (flat_map (fun p => [fst p; snd p]) ps ++ rs) =
    Some (flat_map (fun p => random_call (fst p) (snd p)) ps).
Proof.
  induction 1 as [|[v c] ps Hv _ IH]; [reflexivity|]. cbn [List.length flat_map fst snd app] in *. cbn [random_main].
  rewrite draw_legal by exact Hv. rewrite IH, random_op_call. reflexivity.
Qed.
(** Before the threads start, a value is inserted for each odd choice. *)
Lemma c59_inserts ps rs : Forall (fun p => forall v, p = Some v -> legal_el v) ps ->
  random_prefix (List.length ps) (flat_map (fun p => match p with Some v => [1; v]%N | None => [0%N] end) ps ++ rs) =
    Some (flat_map (fun p => match p with Some v => [CInsert v] | None => [] end) ps, rs).
Proof.
  induction 1 as [|[v|] ps Hv _ IH]; [reflexivity| |]; cbn [List.length flat_map app] in *; cbn [random_prefix N.eqb N.modulo N.div_eucl].
  - change (1 mod 2 =? 0)%N with false. cbv iota. rewrite draw_legal3 by (now apply Hv). rewrite IH. reflexivity.
  - exact IH.
Qed.

Lemma legal_rop_op o : legal_rop o -> legal_op (map_op o).
Proof. destruct o; cbn [legal_rop]; intros H; try now apply legal_map_op. apply (legal_el_key _ H). Qed.

Lemma c59_safe C cap ppl maxcap n os1 os2 k1 k2 rs rs' e s' :
  good_cap cap maxcap -> (maxcap <= 2 ^ 32)%N -> (forall r, In r rs -> (r < 2 ^ 31)%N) ->
  random_prefix k1 rs = Some (os1, rs') -> random_main k2 rs' = Some os2 ->
  run (cops_prog C n (os1 ++ os2)) (init_state cap ppl maxcap) = Fail e s' -> e = AllocFail \/ e = OutOfFuel.
Proof.
  intros Hc Hm Hr H1 H2 H. assert (Hr' : forall r, In r rs -> legal_el r).
  { intros r Hi. specialize (Hr r Hi). unfold legal_el. assert (2 ^ 31 = 2147483648)%N as E1 by reflexivity.
    assert (2 ^ 61 = 2305843009213693952)%N as E2 by reflexivity. rewrite E1 in Hr. rewrite E2. lia. }
  destruct (c59_prefix _ _ _ _ Hr' H1) as (L1 & Hin).
  pose proof (c59_main _ _ _ (fun r Hi => Hr' r (Hin r Hi)) H2) as L2.
  destruct (init_ok C cap ppl maxcap Hc Hm) as (sz & Hok).
  refine (cops_safe C n (os1 ++ os2) _ _ _ _ _ _ Hok H).
  apply List.Forall_forall. intros o Ho. apply legal_rop_op. apply in_app_or in Ho.
  rewrite List.Forall_forall in L1, L2. destruct Ho; auto.
Qed.

(** ** The barrier *)
Definition rank (p : bpc) : nat := match p with BAssert => 0 | BDec => 1 | BSpin => 2 | BGo => 3 end.
Definition early (p : bpc) : nat := match p with BAssert | BDec => 1 | _ => 0 end.
Fixpoint waiting (ps : list bpc) : nat := match ps with [] => 0 | p :: ps' => early p + waiting ps' end.

Lemma waiting_insert ps : forall i p q, ps !! i = Some p -> waiting (<[i := q]> ps) + early p = waiting ps + early q.
Proof.
  induction ps as [|x ps IH]; intros [|i] p q H; cbn [lookup list_lookup] in H; try discriminate.
  - injection H as ->. cbn. lia.
  - specialize (IH i p q H). change (<[S i:=q]> (x :: ps)) with (x :: <[i:=q]> ps). cbn [waiting]. lia.
Qed.
Lemma waiting_ge ps i p : ps !! i = Some p -> early p <= waiting ps.
Proof.
  revert i. induction ps as [|x ps IH]; intros [|i] H; cbn [lookup list_lookup] in H; try discriminate.
  - injection H as ->. cbn. lia.
  - specialize (IH i H). cbn. lia.
Qed.
Lemma waiting_zero ps : waiting ps = 0 <-> Forall (fun p => 2 <= rank p) ps.
Proof.
  induction ps as [|p ps IH]; [split; [constructor|reflexivity]|]. cbn [waiting]. rewrite Forall_cons, <- IH.
  destruct p; cbn; lia.
Qed.

Definition binv (T : nat) (s : bst) : Prop :=
  List.length (b_pcs s) = T /\ b_wait s = N.of_nat (waiting (b_pcs s)) /\
  forall i, b_pcs s !! i = Some BGo -> b_wait s = 0%N.

Lemma waiting_le ps : waiting ps <= List.length ps.
Proof. induction ps as [|[] ps IH]; cbn; lia. Qed.

Lemma binv0 T : binv T (bst0 T).
Proof.
  split; [apply repeat_length|]. split.
  - cbn. f_equal. induction T as [|T IH]; [reflexivity|]. cbn. now rewrite <- IH.
  - intros i H. exfalso. cbn in H. apply elem_of_list_lookup_2 in H. apply elem_of_list_In, repeat_spec in H. discriminate.
Qed.

Lemma bstep_inv nd T i s : (N.of_nat T < two64)%N -> binv T s ->
  exists s', bstep nd i s = Some s' /\ binv T s' /\
    (forall j p, b_pcs s !! j = Some p -> exists p', b_pcs s' !! j = Some p' /\ rank p <= rank p' /\
        (j = i -> rank p < 2 -> rank p' = S (rank p)) /\ (j = i -> b_wait s = 0%N -> 2 <= rank p -> p' = BGo)).
Proof.
  intros HT (Hlen & Hw & Hgo). unfold bstep. pose proof (waiting_le (b_pcs s)) as Hwl.
  assert (Hsame : forall j p, b_pcs s !! j = Some p -> j <> i \/ rank p = 3 \/ (rank p = 2 /\ b_wait s <> 0%N) ->
     exists p', b_pcs s !! j = Some p' /\ rank p <= rank p' /\
        (j = i -> rank p < 2 -> rank p' = S (rank p)) /\ (j = i -> b_wait s = 0%N -> 2 <= rank p -> p' = BGo)).
  { intros j p Hj Hc. exists p. split; [exact Hj|]. split; [lia|]. split; intros -> H.
    - destruct Hc as [|[|[]]]; lia || congruence.
    - intros Hr. destruct p; cbn in *; try lia; reflexivity. }
  assert (Hmove : forall p q w, b_pcs s !! i = Some p -> rank q = S (rank p) ->
    forall j p0, b_pcs s !! j = Some p0 -> exists p', b_pcs (mkBst w (<[i := q]> (b_pcs s))) !! j = Some p' /\ rank p0 <= rank p' /\
        (j = i -> rank p0 < 2 -> rank p' = S (rank p0)) /\ (j = i -> b_wait s = 0%N -> 2 <= rank p0 -> p' = BGo)).
  { intros p q w Hp Hq j p0 Hj. cbn [b_pcs]. destruct (decide (j = i)) as [->|Hne].
    - rewrite Hp in Hj. injection Hj as <-. exists q. rewrite list_lookup_insert by (apply lookup_lt_Some in Hp; exact Hp).
      split; [reflexivity|]. split; [lia|]. split; [lia|]. intros _ _ Hr. destruct p, q; cbn in *; try lia; reflexivity.
    - exists p0. rewrite list_lookup_insert_ne by congruence. split; [exact Hj|]. split; [lia|]. split; congruence. }
  destruct (b_pcs s !! i) as [p|] eqn:Ei.
  2:{ exists s. split; [reflexivity|]. split; [repeat split; assumption|]. intros j p Hj. apply Hsame; [exact Hj|]. left. congruence. }
  pose proof (waiting_ge _ _ _ Ei) as Hge.
  assert (Hgo' : forall q w, q <> BGo -> (w = 0%N \/ b_wait s = w \/ (exists x, b_wait s = N.succ x)) ->
            forall j, <[i := q]> (b_pcs s) !! j = Some BGo -> w = 0%N).
  { intros q w Hq Hww j Hj. destruct (decide (j = i)) as [->|Hne].
    - rewrite list_lookup_insert in Hj by (apply lookup_lt_Some in Ei; exact Ei). congruence.
    - rewrite list_lookup_insert_ne in Hj by congruence. apply Hgo in Hj. destruct Hww as [|[|(x & ?)]]; [assumption|congruence|lia]. }
  destruct p.
  - pose proof (waiting_insert _ _ _ BDec Ei) as HW. cbn [early] in *.
    assert (nd || negb (b_wait s =? 0)%N = true) as ->.
    { apply orb_true_iff. right. apply negb_true_iff, N.eqb_neq. lia. }
    eexists. split; [reflexivity|]. split; [|apply (Hmove _ _ _ eq_refl); reflexivity].
    split; [cbn [b_pcs]; now rewrite insert_length|]. split; [cbn [b_pcs b_wait]; lia|].
    cbn [b_pcs b_wait]. apply Hgo'; [discriminate|auto].
  - pose proof (waiting_insert _ _ _ BSpin Ei) as HW. cbn [early] in *.
    assert (((b_wait s + (two64 - 1)) mod two64)%N = (b_wait s - 1)%N) as ->.
    { replace (b_wait s + (two64 - 1))%N with ((b_wait s - 1) + 1 * two64)%N by (unfold two64 in *; lia).
      rewrite N.mod_add by discriminate. apply N.mod_small. lia. }
    eexists. split; [reflexivity|]. split; [|apply (Hmove _ _ _ eq_refl); reflexivity].
    split; [cbn [b_pcs]; now rewrite insert_length|]. split; [cbn [b_pcs b_wait]; lia|].
    cbn [b_pcs b_wait]. apply Hgo'; [discriminate|]. right. right. exists (N.pred (b_wait s)). lia.
  - destruct (N.eqb_spec (b_wait s) 0) as [Hz|Hz].
    + pose proof (waiting_insert _ _ _ BGo Ei) as HW. cbn [early] in *.
      eexists. split; [reflexivity|]. split; [|apply (Hmove _ _ _ eq_refl); reflexivity].
      split; [cbn [b_pcs]; now rewrite insert_length|]. split; [cbn [b_pcs b_wait]; lia|]. auto.
    + exists s. split; [reflexivity|]. split; [repeat split; assumption|]. intros j p Hj. apply Hsame; [exact Hj|].
      destruct (decide (j = i)) as [->|]; [|auto]. right. right. rewrite Ei in Hj. injection Hj as <-. auto.
  - exists s. split; [reflexivity|]. split; [repeat split; assumption|]. intros j p Hj. apply Hsame; [exact Hj|].
    destruct (decide (j = i)) as [->|]; [|auto]. right. left. rewrite Ei in Hj. injection Hj as <-. reflexivity.
Qed.

Lemma brun_inv nd T sched : (N.of_nat T < two64)%N -> forall s, binv T s ->
  exists s', brun nd sched s = Some s' /\ binv T s' /\
    (forall j p, b_pcs s !! j = Some p -> exists p', b_pcs s' !! j = Some p' /\ rank p <= rank p' /\
       (2 <= rank p + turns j sched -> 2 <= rank p') /\
       (b_wait s = 0%N -> 2 <= rank p -> 1 <= turns j sched -> p' = BGo)).
Proof.
  intros HT. induction sched as [|i sched IH]; intros s Hs.
  - exists s. split; [reflexivity|]. split; [exact Hs|]. intros j p Hj. exists p. split; [exact Hj|]. split; [lia|].
    unfold turns. cbn. split; lia.
  - cbn [brun]. destruct (bstep_inv nd T i s HT Hs) as (s1 & -> & Hs1 & H1).
    destruct (IH s1 Hs1) as (s2 & -> & Hs2 & H2). exists s2. split; [reflexivity|]. split; [exact Hs2|].
    intros j p Hj. destruct (H1 j p Hj) as (p1 & Hj1 & Hr1 & Hu1 & Hg1). destruct (H2 j p1 Hj1) as (p2 & Hj2 & Hr2 & Hu2 & Hg2).
    exists p2. split; [exact Hj2|]. split; [lia|]. unfold turns in *. cbn [List.filter].
    destruct (Nat.eqb_spec j i) as [->|Hne]; cbn [List.length].
    + split.
      * intros H. destruct (decide (rank p < 2)) as [Hlt|Hge]; [specialize (Hu1 eq_refl Hlt); apply Hu2; lia|lia].
      * intros Hz Hr _. specialize (Hg1 eq_refl Hz Hr). subst p1. destruct p2; cbn in Hr2; try lia. reflexivity.
    + split; [intros H; apply Hu2; lia|]. intros Hz Hr Hturn. apply Hg2; [|lia|exact Hturn].
      destruct Hs1 as (Hl1 & Hw1 & Hgo1). rewrite Hw1. destruct Hs as (Hl & Hw & Hgo). rewrite Hw in Hz.
      assert (Hall : Forall (fun p => 2 <= rank p) (b_pcs s)) by (apply waiting_zero; lia).
      assert (waiting (b_pcs s1) = 0) as ->; [|reflexivity]. apply waiting_zero, Forall_lookup. intros x q Hx.
      assert (Hlt : x < List.length (b_pcs s)) by (apply lookup_lt_Some in Hx; lia).
      apply lookup_lt_is_Some in Hlt. destruct Hlt as (q0 & Hq0). destruct (H1 _ _ Hq0) as (q1 & Hq1 & Hle & _).
      rewrite Hx in Hq1. injection Hq1 as <-. rewrite Forall_lookup in Hall. specialize (Hall _ _ Hq0). lia.
Qed.

(** The assertion holds, and nobody starts before everybody has arrived. *)
Lemma c60_safe nd T sched : (N.of_nat T < two64)%N ->
  exists s, brun nd sched (bst0 T) = Some s /\ List.length (b_pcs s) = T /\
    forall i, b_pcs s !! i = Some BGo -> forall j p, b_pcs s !! j = Some p -> p = BSpin \/ p = BGo.
Proof.
  intros HT. destruct (brun_inv nd T sched HT _ (binv0 T)) as (s & E & (Hl & Hw & Hgo) & _).
  exists s. split; [exact E|]. split; [exact Hl|]. intros i Hi j p Hj. specialize (Hgo i Hi). rewrite Hw in Hgo.
  assert (Hall : Forall (fun p => 2 <= rank p) (b_pcs s)) by (apply waiting_zero; lia).
  rewrite Forall_lookup in Hall. specialize (Hall _ _ Hj). destruct p; cbn in Hall; try lia; auto.
Qed.

Lemma brun_app nd a b : forall s, brun nd (a ++ b) s = match brun nd a s with Some s' => brun nd b s' | None => None end.
Proof. induction a as [|i a IH]; intros s; cbn [app brun]; [reflexivity|]. destruct (bstep nd i s); auto. Qed.

Lemma c60_live nd T sched1 sched2 s : (N.of_nat T < two64)%N ->
  (forall i, i < T -> 2 <= turns i sched1 /\ 1 <= turns i sched2) ->
  brun nd (sched1 ++ sched2) (bst0 T) = Some s -> b_pcs s = repeat BGo T.
Proof.
  intros HT Ht. rewrite brun_app. destruct (brun_inv nd T sched1 HT _ (binv0 T)) as (s1 & -> & Hs1 & H1).
  destruct (brun_inv nd T sched2 HT _ Hs1) as (s2 & -> & Hs2 & H2). intros [= <-].
  assert (Hall1 : forall i, i < T -> exists p, b_pcs s1 !! i = Some p /\ 2 <= rank p).
  { intros i Hi. assert (Hi0 : i < List.length (b_pcs (bst0 T))) by (cbn; now rewrite repeat_length).
    apply lookup_lt_is_Some in Hi0. destruct Hi0 as (p & Hp). destruct (H1 _ _ Hp) as (p1 & Hp1 & _ & Hr & _).
    exists p1. split; [exact Hp1|]. apply Hr. destruct (Ht i Hi). lia. }
  assert (Hz : b_wait s1 = 0%N).
  { destruct Hs1 as (Hl & -> & _). assert (waiting (b_pcs s1) = 0) as ->; [|reflexivity].
    apply waiting_zero, Forall_lookup. intros x q Hx. assert (Hlt : x < T) by (apply lookup_lt_Some in Hx; lia).
    destruct (Hall1 x Hlt) as (p & Hp & Hr). congruence. }
  destruct Hs2 as (Hl2 & _). apply list_eq. intros i. destruct (decide (i < T)) as [Hi|Hi].
  - destruct (Hall1 i Hi) as (p & Hp & Hr). destruct (H2 _ _ Hp) as (p2 & Hp2 & _ & _ & Hg).
    rewrite (Hg Hz Hr) in Hp2 by (apply Ht; exact Hi). rewrite Hp2. symmetry. clear -Hi. revert i Hi.
    induction T as [|T IH]; intros [|i] Hi; cbn; try lia; [reflexivity|]. apply IH. lia.
  - rewrite !(proj2 (lookup_ge_None _ _)); [reflexivity|rewrite repeat_length; lia|lia].
Qed.

(** ** The command line *)
Lemma sel_name o : sel (option_name o) = Some match o with
  | SThreads _ => WT | SOps _ => WN | SRuns _ => WP | SCap _ => WC | SFile _ => WF | SRecover _ => WR | SWipe _ => WW end.
Proof. destruct o; reflexivity. Qed.

Lemma conv_num_begins v x : begins_with v x -> conv_num v = HOk x.
Proof.
  intros (ws & sg & nt & rest & y & -> & Hw & Hd & -> & Hr). unfold conv_num. rewrite (extract_signed ws sg nt y rest Hw Hd Hr).
  destruct (y <? two64)%N; reflexivity.
Qed.
Lemma conv_bool_signed ws sg nt rest y b : blank ws -> decimal nt y -> no_digit rest -> (b = true <-> y <> 0%N) ->
  conv_bool (ws ++ sign_text sg ++ nt ++ rest) = HOk b.
Proof.
  intros Hw Hd Hr Hb. unfold conv_bool. rewrite skip_space_app by exact Hw. rewrite (skip_space_signed sg nt y rest Hd).
  pose proof (signed_sign sg nt y rest Hd Hr) as Hs. destruct (sign_text sg ++ nt ++ rest) as [|c cs] eqn:E.
  - apply app_eq_nil in E as [_ E]. apply app_eq_nil in E as [-> _]. destruct (decimal_first _ _ Hd) as (c & t' & E & _). discriminate.
  - rewrite Hs. f_equal. destruct (N.eqb_spec y 0) as [->|Hy]; destruct b; cbn; try reflexivity; exfalso.
    + now apply Hb.
    + apply Hb in Hy. discriminate.
Qed.

Lemma conv_text_first a w rest : Forall (fun c => N_of_ascii c = 32 \/ 9 <= N_of_ascii c <= 13)%N a ->
  Forall (fun c => ~ (N_of_ascii c = 32 \/ 9 <= N_of_ascii c <= 13))%N w -> w <> [] ->
  match rest with [] => True | c :: _ => (N_of_ascii c = 32 \/ 9 <= N_of_ascii c <= 13)%N end -> conv_text (a ++ w ++ rest) = w.
Proof.
  intros Ha Hw Hne Hr. assert (Hs : forall c, In c w -> is_space c = false).
  { intros c Hc. destruct (is_space c) eqn:E; [|reflexivity]. apply is_space_true in E. rewrite List.Forall_forall in Hw. exfalso. exact (Hw c Hc E). }
  unfold conv_text. assert (skip_space (a ++ w ++ rest) = w ++ rest) as ->.
  { induction Ha as [|c a Hc Ha IH]; cbn [app skip_space]; [|apply is_space_true in Hc; rewrite Hc; exact IH].
    destruct w as [|c w]; [contradiction|]. cbn. now rewrite (Hs c (or_introl eq_refl)). }
  clear Hw Hne. induction w as [|c w IH]; cbn [app word_of].
  - destruct rest as [|c rest]; [reflexivity|]. cbn [word_of]. apply is_space_true in Hr. now rewrite Hr.
  - rewrite (Hs c (or_introl eq_refl)). f_equal. apply IH. intros d Hd. apply Hs. now right.
Qed.
Lemma c58_file a w rest s : Forall (fun c => N_of_ascii c = 32 \/ 9 <= N_of_ascii c <= 13)%N a ->
  Forall (fun c => ~ (N_of_ascii c = 32 \/ 9 <= N_of_ascii c <= 13))%N w -> w <> [] ->
  match rest with [] => True | c :: _ => (N_of_ascii c = 32 \/ 9 <= N_of_ascii c <= 13)%N end ->
  parse_args [txt "-f"; a ++ w ++ rest] s = HOk (CRun (apply_setting s (SFile w))).
Proof. intros H1 H2 H3 H4. cbn [parse_args]. change (sel (txt "-f")) with (Some WF). cbn [assign]. rewrite conv_text_first by assumption. reflexivity. Qed.
Lemma c58_threads nd s : check_threads nd s = HOk tt <-> nd = true \/ (1 <= set_threads s)%N.
Proof.
  unfold check_threads. destruct nd; cbn [orb]; [split; [left; reflexivity|reflexivity]|]. destruct (N.ltb_spec 0 (set_threads s)) as [H|H].
  - split; [right; lia|reflexivity].
  - split; [discriminate|intros [E|E]; [discriminate|lia]].
Qed.

Lemma parse_one o v rest s : option_value o v ->
  parse_args (option_name o :: v :: rest) s = parse_args rest (apply_setting s o).
Proof.
  intros H. cbn [parse_args]. rewrite sel_name. destruct o; cbn [option_value] in H; cbn [assign].
  1-4: rewrite (conv_num_begins _ _ H); reflexivity.
  - destruct H as (ws & r & -> & Hw & Hne & Hr & Hf). rewrite conv_text_first; [reflexivity|exact Hw|exact Hf|exact Hne|].
    destruct r as [|c r]; [exact I|]. now inversion Hr.
  - destruct H as (ws & sg & nt & r & y & -> & Hw & Hd & Hr & Hb). rewrite (conv_bool_signed ws sg nt r y b Hw Hd Hr Hb). reflexivity.
  - destruct H as (ws & sg & nt & r & y & -> & Hw & Hd & Hr & Hb). rewrite (conv_bool_signed ws sg nt r y b Hw Hd Hr Hb). reflexivity.
Qed.

Lemma parse_many os vs s rest : Forall2 option_value os vs ->
  parse_args (concat (zip_with (fun o v => [option_name o; v]) os vs) ++ rest) s = parse_args rest (fold_left apply_setting os s).
Proof.
  intros H. revert s. induction H as [|o v os vs Hv _ IH]; intros s; [reflexivity|].
  cbn [zip_with concat app fold_left]. rewrite parse_one by exact Hv. apply IH.
Qed.
Lemma c58_parse os vs s : Forall2 option_value os vs ->
  parse_args (concat (zip_with (fun o v => [option_name o; v]) os vs)) s = HOk (CRun (fold_left apply_setting os s)).
Proof. intros H. rewrite <- (app_nil_r (concat _)), parse_many by exact H. reflexivity. Qed.

(** -h ends the program with the help text, and so does what begins with it. *)
Lemma c58_help os vs s h rest : Forall2 option_value os vs ->
  parse_args (concat (zip_with (fun o v => [option_name o; v]) os vs) ++ (txt "-h" ++ h) :: rest) s = HOk CHelp.
Proof. intros H. rewrite parse_many by exact H. reflexivity. Qed.

Lemma starts_inv p : forall a, starts p a = true -> exists rest, a = p ++ rest.
Proof.
  induction p as [|c p IH]; intros a H; [now exists a|]. destruct a as [|d a]; [discriminate|].
  cbn [starts] in H. apply andb_true_iff in H. destruct H as (H1 & H2). apply Ascii.eqb_eq in H1. subst d.
  destruct (IH _ H2) as (rest & ->). now exists rest.
Qed.
Lemma sel_option a : sel a <> None -> is_option a.
Proof.
  unfold sel. intros H. unfold is_option.
  repeat match type of H with context [if starts ?p a then _ else _] =>
    let E := fresh in destruct (starts p a) eqn:E;
    [apply starts_inv in E; destruct E as (rest & ->); eexists _, rest; split; [|reflexivity]; cbn; tauto|] end.
  congruence.
Qed.
(** Anything else ends it with an error. *)
Lemma c58_unknown os vs s a rest : Forall2 option_value os vs -> ~ is_option a ->
  parse_args (concat (zip_with (fun o v => [option_name o; v]) os vs) ++ a :: rest) s = HOk (CUnknown a).
Proof.
  intros H Ha. rewrite parse_many by exact H. cbn [parse_args]. destruct (sel a) as [w|] eqn:E; [|reflexivity].
  exfalso. apply Ha, sel_option. congruence.
Qed.

(** ** Every list of arguments *)
Lemma sel_name_app o x : sel (option_name o ++ x) = Some match o with
  | SThreads _ => WT | SOps _ => WN | SRuns _ => WP | SCap _ => WC | SFile _ => WF | SRecover _ => WR | SWipe _ => WW end.
Proof. destruct o; reflexivity. Qed.
Lemma conv_num_value v : conv_num v = match value_after v None with Some x => HOk x | None => HBad Uninit end.
Proof. unfold conv_num, value_after. destruct (extract v); reflexivity. Qed.
Lemma conv_num_text v : ~ blank v -> (forall y, ~ begins_with v y) -> conv_num v = HOk 0%N.
Proof.
  intros Hb Hn. rewrite conv_num_value. rewrite (proj1 (reads_value None v (Some 0%N))) by now constructor. reflexivity.
Qed.
Lemma conv_num_blank v : blank v -> conv_num v = HBad Uninit.
Proof. intros H. rewrite conv_num_value, (blank_value v None H). reflexivity. Qed.
Lemma conv_bool_text v : ~ blank v -> (forall y, ~ begins_with v y) -> conv_bool v = HOk false.
Proof.
  intros Hb Hn. destruct (skip_space_split v) as (ws & E & Hw). unfold conv_bool. destruct (skip_space v) as [|c cs] eqn:Es.
  - exfalso. apply Hb. rewrite E, app_nil_r. exact Hw.
  - destruct (signed (c :: cs)) as [[[neg y] rest]|] eqn:Eg; [|reflexivity]. exfalso.
    destruct (signed_inv _ _ _ _ Eg) as (sg & nt & E2 & Hd & Hr). apply (Hn (signed_value sg y)). exists ws, sg, nt, rest, y.
    split; [congruence|]. auto.
Qed.
Lemma conv_bool_blank v : blank v -> conv_bool v = HBad Uninit.
Proof. intros H. unfold conv_bool. rewrite (skip_space_blank v H). reflexivity. Qed.
Lemma conv_text_blank v : blank v -> conv_text v = [].
Proof. intros H. unfold conv_text. rewrite (skip_space_blank v H). reflexivity. Qed.

Lemma parse_gets o x v rest s : option_gets o v ->
  parse_args ((option_name o ++ x) :: v :: rest) s = parse_args rest (apply_setting s o).
Proof.
  intros [H|H].
  - rewrite <- (parse_one o v rest s H). cbn [parse_args]. rewrite sel_name_app, sel_name. destruct o; reflexivity.
  - cbn [parse_args]. rewrite sel_name_app. destruct o; cbn [assign].
    1-4: destruct H as (-> & Hb & Hn); rewrite conv_num_text by assumption; reflexivity.
    + destruct H as (-> & Hb). rewrite conv_text_blank by exact Hb. reflexivity.
    + destruct H as (-> & Hb & Hn). rewrite conv_bool_text by assumption. reflexivity.
    + destruct H as (-> & Hb & Hn). rewrite conv_bool_text by assumption. reflexivity.
Qed.
Lemma command_line_parse args s r : command_line args s r -> parse_args args s = r.
Proof.
  induction 1 as [s|h rest s|a rest s Ha|o x s|o x v rest s r Hg _ IH|o x v rest s Ho Hb].
  - reflexivity.
  - reflexivity.
  - apply (c58_unknown [] [] s a rest); [constructor|exact Ha].
  - cbn [parse_args]. rewrite sel_name_app. destruct o; reflexivity.
  - rewrite (parse_gets o x v rest s Hg). exact IH.
  - cbn [parse_args]. rewrite sel_name_app. destruct o; cbn [assign].
    1-4: rewrite conv_num_blank by exact Hb; reflexivity.
    + now destruct (Ho f).
    + rewrite conv_bool_blank by exact Hb. reflexivity.
    + rewrite conv_bool_blank by exact Hb. reflexivity.
Qed.
Lemma first_word l : blank l \/ exists ws f rest, l = ws ++ f ++ rest /\ blank ws /\ f <> [] /\ blank (firstn 1 rest) /\
  Forall (fun c => ~ (N_of_ascii c = 32 \/ 9 <= N_of_ascii c <= 13))%N f.
Proof.
  destruct (skip_space_split l) as (ws & E & Hw). destruct (skip_space l) as [|c cs] eqn:Es; [left; rewrite E, app_nil_r; exact Hw|]. right.
  assert (Hc : is_space c = false).
  { clear -Es. induction l as [|d l IH]; [discriminate|]. cbn [skip_space] in Es. destruct (is_space d) eqn:Ed; [now apply IH|].
    injection Es as <- _. exact Ed. }
  assert (H : forall t, exists f rest, t = f ++ rest /\ blank (firstn 1 rest) /\
    Forall (fun c => ~ (N_of_ascii c = 32 \/ 9 <= N_of_ascii c <= 13))%N f).
  { induction t as [|d t (f & rest & -> & Hr & Hf)]; [exists [], []; repeat split; constructor|].
    destruct (is_space d) eqn:Ed.
    - exists [], (d :: f ++ rest). split; [reflexivity|]. split; [|constructor]. constructor; [now apply is_space_true|constructor].
    - exists (d :: f), rest. split; [reflexivity|]. split; [exact Hr|]. constructor; [|exact Hf]. intros Hd. apply is_space_true in Hd. congruence. }
  destruct (H cs) as (f & rest & -> & Hr & Hf). exists ws, (c :: f), rest. split; [exact E|]. split; [exact Hw|]. split; [discriminate|].
  split; [exact Hr|]. constructor; [|exact Hf]. intros Hd. apply is_space_true in Hd. congruence.
Qed.
Lemma gets_bool v : blank v \/ exists b, option_gets (SRecover b) v /\ option_gets (SWipe b) v.
Proof.
  destruct (line_cases v) as [[x (ws & sg & nt & rest & y & E & Hw & Hd & _ & Hr)]|[H|(H1 & H2 & _)]]; [right|now left|right].
  - exists (negb (y =? 0)%N). assert (Hb : negb (y =? 0)%N = true <-> y <> 0%N) by (destruct (N.eqb_spec y 0); cbn; split; congruence).
    split; left; exists ws, sg, nt, rest, y; auto.
  - exists false. split; right; auto.
Qed.
Lemma gets_num v : blank v \/ exists x, begins_with v x \/ (x = 0%N /\ ~ blank v /\ forall y, ~ begins_with v y).
Proof. destruct (line_cases v) as [[x H]|[H|(H1 & H2 & _)]]; [right; exists x; auto|now left|right; exists 0%N; auto]. Qed.
Lemma command_line_total n : forall args s, List.length args <= n -> exists r, command_line args s r.
Proof.
  induction n as [|n IH]; intros args s Hn.
  - destruct args; [|cbn in Hn; lia]. eexists. constructor.
  - destruct args as [|a rest]; [eexists; constructor|]. cbn [List.length] in Hn.
    destruct (sel a) as [w|] eqn:Ea; [|eexists; apply line_unknown; intros (c & t & Hc & ->); cbn in Hc;
      repeat (destruct Hc as [<-|Hc]; [discriminate|]); contradiction].
    destruct (sel_option a) as (c & t & Hc & ->); [congruence|]. clear w Ea.
    assert (Hset : forall o, option_name o = txt "-" ++ [c] -> forall v rest', rest = v :: rest' -> option_gets o v ->
      exists r, command_line ((txt "-" ++ c :: t) :: rest) s r).
    { intros o Eo v rest' -> Hg. destruct (IH rest' (apply_setting s o)) as (r & Hr); [cbn in Hn; lia|]. exists r.
      change (txt "-" ++ c :: t) with ((txt "-" ++ [c]) ++ t). rewrite <- Eo. now constructor. }
    assert (Hbl : forall o, option_name o = txt "-" ++ [c] -> (forall f, o <> SFile f) -> forall v rest', rest = v :: rest' -> blank v ->
      exists r, command_line ((txt "-" ++ c :: t) :: rest) s r).
    { intros o Eo Ho v rest' -> Hb. eexists. change (txt "-" ++ c :: t) with ((txt "-" ++ [c]) ++ t). rewrite <- Eo. now apply line_blank. }
    assert (Hmi : forall o, option_name o = txt "-" ++ [c] -> rest = [] -> exists r, command_line ((txt "-" ++ c :: t) :: rest) s r).
    { intros o Eo ->. eexists. change (txt "-" ++ c :: t) with ((txt "-" ++ [c]) ++ t). rewrite <- Eo. apply line_missing. }
    assert (Hnum : forall o : N -> setting, (forall x, option_name (o x) = txt "-" ++ [c]) -> (forall x f, o x <> SFile f) ->
      (forall x v, begins_with v x \/ (x = 0%N /\ ~ blank v /\ forall y, ~ begins_with v y) -> option_gets (o x) v) ->
      exists r, command_line ((txt "-" ++ c :: t) :: rest) s r).
    { intros o Eo Ho Hg. destruct rest as [|v rest']; [exact (Hmi (o 0%N) (Eo _) eq_refl)|].
      destruct (gets_num v) as [Hb|(x & Hx)]; [exact (Hbl (o 0%N) (Eo _) (Ho _) v rest' eq_refl Hb)|].
      exact (Hset (o x) (Eo _) v rest' eq_refl (Hg x v Hx)). }
    assert (Hbool : forall o : bool -> setting, (forall x, option_name (o x) = txt "-" ++ [c]) -> (forall x f, o x <> SFile f) ->
      (forall b v, option_gets (SRecover b) v /\ option_gets (SWipe b) v -> option_gets (o b) v) ->
      exists r, command_line ((txt "-" ++ c :: t) :: rest) s r).
    { intros o Eo Ho Hg. destruct rest as [|v rest']; [exact (Hmi (o true) (Eo _) eq_refl)|].
      destruct (gets_bool v) as [Hb|(b & Hx)]; [exact (Hbl (o true) (Eo _) (Ho _) v rest' eq_refl Hb)|].
      exact (Hset (o b) (Eo _) v rest' eq_refl (Hg b v Hx)). }
    destruct Hc as [<-|[<-|[<-|[<-|[<-|[<-|[<-|[<-|[]]]]]]]]].
    + apply (Hnum SThreads); [reflexivity|discriminate|]. intros x v [H|H]; [left; exact H|right; exact H].
    + apply (Hnum SOps); [reflexivity|discriminate|]. intros x v [H|H]; [left; exact H|right; exact H].
    + apply (Hnum SRuns); [reflexivity|discriminate|]. intros x v [H|H]; [left; exact H|right; exact H].
    + apply (Hnum SCap); [reflexivity|discriminate|]. intros x v [H|H]; [left; exact H|right; exact H].
    + destruct rest as [|v rest']; [exact (Hmi (SFile []) eq_refl eq_refl)|]. destruct (first_word v) as [Hb|(ws & f & r & H)].
      * apply (Hset (SFile []) eq_refl v rest' eq_refl). right. auto.
      * apply (Hset (SFile f) eq_refl v rest' eq_refl). left. exists ws, r. exact H.
    + apply (Hbool SRecover); [reflexivity|discriminate|]. intros b v [H _]. exact H.
    + apply (Hbool SWipe); [reflexivity|discriminate|]. intros b v [_ H]. exact H.
    + eexists. apply (line_help t rest s).
Qed.
Lemma c58_all args s r : command_line args s r <-> parse_args args s = r.
Proof.
  split; [apply command_line_parse|]. intros <-. destruct (command_line_total _ args s (le_n _)) as (r & H).
  rewrite (command_line_parse _ _ _ H). exact H.
Qed.

Lemma c58_average total s : (0 < set_runs s)%N ->
  exists a, average total s = HOk a /\ (a * set_runs s <= total < (a + 1) * set_runs s)%N.
Proof.
  intros H. unfold average. destruct (N.eqb_spec (set_runs s) 0) as [|Hne]; [lia|]. eexists. split; [reflexivity|].
  pose proof (N.mul_div_le total (set_runs s) Hne) as H1. pose proof (N.mul_succ_div_gt total (set_runs s) Hne) as H2.
  rewrite N.mul_comm in H1, H2. now rewrite N.add_1_r.
Qed.

Lemma c58_capacity c : (c < 31)%N -> real_capacity c = HOk (2 ^ c)%N.
Proof. intros H. unfold real_capacity. destruct (N.ltb_spec c 31); [|lia]. rewrite N.shiftl_1_l. reflexivity. Qed.
Lemma c58_capacity_refuted : real_capacity 31 = HOk (2 ^ 64 - 2 ^ 31)%N /\ forall c, (32 <= c)%N -> real_capacity c = HBad BadShift.
Proof.
  split; [reflexivity|]. intros c H. unfold real_capacity. destruct (N.ltb_spec c 31); [lia|]. destruct (N.eqb_spec c 31); [lia|reflexivity].
Qed.
