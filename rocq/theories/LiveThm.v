(** Executions in which the first table has no successor: no failure, and every call returns after a bounded number of
    steps of its own thread. *)
From Coq Require Import NArith Bool List Lia.
From stdpp Require Import base list gmap.
From Verif Require Import Word Bits Prog HashMap Conc Spec LinSpec Abs Probe CodecThm SeqInv SeqPut SeqGet SeqApi Lin LinThm LinNew LinNewAbs LinCount LinNewThm LiveSpec Live.
Import ListNotations.
Open Scope nat_scope.

Lemma sum_insert (cs : list nat) i c c' : cs !! i = Some c -> list_sum (<[i := c']> cs) + c = list_sum cs + c'.
Proof.
  revert i. induction cs as [|a cs IH]; intros [|i] H; try discriminate H.
  - injection H as <-. change (c' + list_sum cs + a = a + list_sum cs + c'). lia.
  - specialize (IH i H). change (a + list_sum (<[i := c']> cs) + c = a + list_sum cs + c'). lia.
Qed.

Section Sys.
Context (C : cfg) (n L M : nat).
Context (HL : 8 <= L) (HL58 : (N.of_nat L < 2 ^ 58)%N) (Hn : need L M n).
Notation b0 := (put_steps L M).
Notation U := (U L).
Notation env := (env L).
Notation lf := (lf L M).

(** Thread [th], with [cr] value writes allowed and [left] steps allowed. *)
Definition tlive (E : nat) (s : state) (th : thread) (cr left : nat) : Prop :=
  Forall legal_op (th_todo th) /\
  match th_cur th with
  | None => length (th_todo th) <= cr /\ length (th_todo th) * (b0 + 2) <= left
  | Some (o, p) => exists w b E0 s0, env E0 s0 E s /\ lf p any w b E0 s0 /\
      length (th_todo th) + (if w : bool then 1 else 0) <= cr /\ length (th_todo th) * (b0 + 2) + b + 1 <= left
  end.

Definition alive (y : sys) (lefts : nat -> nat) : Prop := exists E cs, U (sy_st y) /\ E + list_sum cs <= M /\
  forall i th, sy_thr y !! i = Some th -> exists c, cs !! i = Some c /\ tlive E (sy_st y) th c (lefts i).

Definition live (y : sys) (lefts : nat -> nat) : Prop := broken 0 (sy_st y) \/ alive y lefts.
Definition tick (i : nat) (lefts : nat -> nat) : nat -> nat := fun j => if Nat.eq_dec i j then lefts j - 1 else lefts j.

Lemma tlive_env E s E' s' th c l : tlive E s th c l -> env E s E' s' -> tlive E' s' th c l.
Proof.
  intros [H1 H2] He. split; [exact H1|]. destruct (th_cur th) as [[o p]|]; [|exact H2].
  destruct H2 as (w & b & E0 & s0 & H3 & H4). exists w, b, E0, s0. split; [eapply env_trans; eauto|exact H4].
Qed.

(** Thread [i] moves from [th] to [th']. *)
Lemma alive_move E cs s s' thr h' lefts i th th' E' c c' :
  U s' -> env E s E' s' -> thr !! i = Some th -> cs !! i = Some c -> E + list_sum cs <= M ->
  (forall j thj, thr !! j = Some thj -> exists c, cs !! j = Some c /\ tlive E s thj c (lefts j)) ->
  E' + c' <= E + c -> tlive E' s' th' c' (lefts i - 1) ->
  alive (mkSys s' (<[i := th']> thr) h') (tick i lefts).
Proof.
  intros HU He Hi Hc1 HM Ht Hc Hth. exists E', (<[i := c']> cs). cbn [sy_st sy_thr]. split; [exact HU|]. split.
  - pose proof (sum_insert cs i c c' Hc1). lia.
  - intros j thj Hj. unfold tick. destruct (Nat.eq_dec i j) as [<-|Hne].
    + rewrite list_lookup_insert in Hj by (eapply lookup_lt_Some; eauto). injection Hj as <-. exists c'.
      rewrite list_lookup_insert by (eapply lookup_lt_Some; eauto). auto.
    + rewrite list_lookup_insert_ne in Hj by exact Hne. destruct (Ht j thj Hj) as (cj & H1 & H3). exists cj.
      rewrite list_lookup_insert_ne by exact Hne. split; [exact H1|]. eapply tlive_env; eauto.
Qed.

Lemma live_step i y lefts : live y lefts -> live (tstep C n i y) (tick i lefts).
Proof.
  intros H. destruct y as [s thr h]. destruct H as [Hb|(E & cs & HU & HM & Ht)].
  - left. unfold tstep. cbn [sy_st sy_thr sy_hist] in *. destruct (thr !! i) as [th|]; [|exact Hb].
    destruct (th_cur th) as [[o [r|e|c k]]|]; [exact Hb|exact Hb| |destruct (th_todo th); exact Hb].
    pose proof (broken_exec 0 c _ Hb) as Hb'. destruct (exec c s) as [r s']. exact Hb'.
  - cbn [sy_st sy_thr] in *. unfold tstep. cbn [sy_st sy_thr sy_hist]. destruct (thr !! i) as [th|] eqn:Hi.
    + destruct (Ht i th Hi) as (c & Hc1 & Hth). destruct Hth as [Hleg Hcur].
      destruct (th_cur th) as [[o p]|] eqn:Hcu.
      * destruct Hcur as (w & b & E0 & s0 & He & Hp & Hcr & Hlf). destruct p as [r|e|cm k].
        -- right. apply (alive_move E cs s s thr _ lefts i th _ E c c); try assumption; [apply env_refl; assumption|lia|].
           split; [exact Hleg|]. cbn [th_cur th_todo]. split; lia.
        -- destruct Hp.
        -- destruct b as [|b]; [destruct Hp|]. cbn [Live.lf] in Hp. specialize (Hp E s HU He ltac:(lia)).
           destruct (exec cm s) as [r s'] eqn:Ex. cbn [fst snd] in Hp. destruct Hp as [Hb|(w' & E'' & HU' & He' & Hmv & Hp)]; [left; exact Hb|right].
           apply (alive_move E cs s s' thr h lefts i th _ E'' c (length (th_todo th) + (if w' then 1 else 0))); try assumption.
           ++ destruct Hmv as [[-> ->]|(-> & -> & ->)]; lia.
           ++ split; [exact Hleg|]. cbn [th_cur th_todo]. exists w', b, E'', s'. split; [apply env_refl; assumption|]. split; [exact Hp|]. lia.
      * destruct Hcur as [Hcr Hlf]. destruct (th_todo th) as [|o os] eqn:Etd.
        -- right. rewrite <- (list_insert_id thr i th Hi).
           apply (alive_move E cs s s thr _ lefts i th th E c c); try assumption; [apply env_refl; assumption|lia|].
           split; [rewrite Etd; constructor|]. rewrite Hcu, Etd. cbn [length]. lia.
        -- right. apply Forall_cons in Hleg as [Ho Hos]. cbn [length] in Hcr, Hlf.
           apply (alive_move E cs s s thr _ lefts i th _ E c c); try assumption; [apply env_refl; assumption|lia|].
           split; [exact Hos|]. cbn [th_cur th_todo]. exists true, b0, E, s. split; [apply env_refl; assumption|]. split; [|lia].
           apply lf_op; try assumption; lia.
    + right. exists E, cs. split; [exact HU|]. split; [exact HM|]. intros j th Hj. cbn [sy_thr] in Hj.
      unfold tick. destruct (Nat.eq_dec i j) as [<-|Hne]; [congruence|]. exact (Ht j th Hj).
Qed.

Lemma live_ext y f g : (forall i, f i = g i) -> live y f -> live y g.
Proof.
  intros Hfg [H|(E & cs & H1 & H2 & H3)]; [left; exact H|right]. exists E, cs. split; [exact H1|]. split; [exact H2|].
  intros i th Hi. rewrite <- Hfg. exact (H3 i th Hi).
Qed.

Lemma live_conc sched : forall y lefts, live y lefts -> live (conc C n sched y) (fun i => lefts i - steps_of i sched).
Proof.
  induction sched as [|j sched IH]; intros y lefts H; cbn [conc].
  - eapply live_ext; [|exact H]. intros i. cbn. lia.
  - eapply live_ext; [|apply IH, live_step, H]. intros i. unfold tick, steps_of. cbn [count_occ].
    destruct (Nat.eq_dec j i); lia.
Qed.

Lemma live_start s todos : U s -> length (concat todos) <= M -> Forall (Forall legal_op) todos ->
  live (start s todos) (fun i => length (default [] (todos !! i)) * (b0 + 2)).
Proof.
  intros HU HM Hleg. right. exists 0, (map (@length op) todos). split; [exact HU|]. split.
  - assert (E : list_sum (map (@length op) todos) = length (concat todos)); [|lia]. clear.
    induction todos as [|os l IH]; cbn; [reflexivity|]. rewrite app_length, <- IH. reflexivity.
  - intros i th Hi. cbn in Hi. rewrite lookup_map in Hi. destruct (todos !! i) as [os|] eqn:E; [|discriminate]. injection Hi as <-.
    exists (length os). split; [rewrite lookup_map, E; reflexivity|]. split; [exact (Forall_lookup_1 _ _ _ _ Hleg E)|]. cbn. lia.
Qed.

Lemma live_result y lefts : live y lefts -> unresized (sy_st y) ->
  ~ some_failure y /\ forall i, lefts i = 0 -> i < length (sy_thr y) -> all_returned y i.
Proof.
  intros [H|(E & cs & _ & _ & Ht)] Hun; [destruct (broken_unresized _ H Hun)|]. split.
  - intros (i & th & o & e & Hi & Hc). destruct (Ht i th Hi) as (c & _ & _ & Hcur). rewrite Hc in Hcur.
    destruct Hcur as (w & b & E0 & s0 & _ & Hp & _). exact Hp.
  - intros i H0 Hi. destruct (lookup_lt_is_Some_2 _ i Hi) as [th Hth]. unfold all_returned. rewrite Hth.
    destruct (Ht i th Hth) as (c & _ & _ & Hcur). destruct th as [cur todo]. cbn [th_cur th_todo] in Hcur. rewrite H0 in Hcur. destruct cur as [[o p]|].
    + destruct Hcur as (w & b & E0 & s0 & _ & _ & _ & Hl). lia.
    + destruct todo; [reflexivity|]. cbn [length] in Hcur. lia.
Qed.
End Sys.

(** ** The results *)

Lemma conc_length C n sched y : length (sy_thr (conc C n sched y)) = length (sy_thr y).
Proof.
  revert y. induction sched as [|i l IH]; intros y; cbn [conc]; [reflexivity|]. rewrite IH. unfold tstep.
  destruct (sy_thr y !! i) as [th|]; [|reflexivity]. destruct (th_cur th) as [[o [r|e|c k]]|].
  - cbn. apply insert_length.
  - reflexivity.
  - destruct (exec c (sy_st y)). cbn. apply insert_length.
  - destruct (th_todo th); [reflexivity|]. cbn. apply insert_length.
Qed.

(** A program that runs alone. *)
Lemma broken_run {B} (p : prog B) : forall s, broken 0 s -> match run p s with Ok _ s' | Fail _ s' => broken 0 s' end.
Proof.
  induction p as [a|e|c k IH]; intros s H; cbn [run]; [exact H|exact H|].
  pose proof (broken_exec 0 c s H) as H'. destruct (exec c s) as [r s']. exact (IH r s' H').
Qed.
Lemma lf_run {B} L M (p : prog B) Q : 8 <= L -> (N.of_nat L < 2 ^ 58)%N -> forall w b E s, lf L M p Q w b E s -> U L s ->
  E + (if w : bool then 1 else 0) <= M ->
  match run p s with Ok _ _ => True | Fail _ s' => broken 0 s' end.
Proof.
  intros HL HL58. induction p as [a|e|c k IH]; intros w b E s H HU HM; cbn [run]; [exact I|destruct H|].
  destruct b as [|b]; [destruct H|]. cbn [lf] in H. destruct (H E s HU) as [Hb|(w' & E' & H1 & H2 & H3 & H4)];
    [apply env_refl; assumption|lia| |].
  - pose proof (fun r => broken_run (k r) _ Hb) as H'. destruct (exec c s) as [r s']. cbn [snd] in H'. specialize (H' r).
    destruct (run (k r) s'); [exact I|exact H'].
  - destruct (exec c s) as [r s']. cbn [fst snd] in *. eapply IH; [exact H4|exact H1|]. destruct H3 as [[-> ->]|(-> & -> & ->)]; lia.
Qed.

Section Main.
Context (C : cfg) (cap ppl : nat) (maxcap : N) (n : nat) (todos : list (list op)) (sched : list nat).
Context (Hcap : good_cap cap maxcap) (H2 : (2 * N.of_nat cap <= maxcap)%N) (Hmax : (maxcap <= 2 ^ 32)%N).
Context (Hleg : Forall (Forall legal_op) todos) (Hn : enough_fuel cap (length (concat todos)) n).
Let y := after C n (init_state cap ppl maxcap) todos sched.

Lemma U_init : U cap (init_state cap ppl maxcap).
Proof.
  constructor; [reflexivity|reflexivity|exact H2| |].
  - exists (fresh_table cap 0 0). cbn. rewrite replicate_length. auto.
  - intros i Hi. unfold vw, read_cell. cbn. rewrite lookup_replicate_2 by exact Hi. apply VINITIAL_unmarked.
Qed.

Lemma cap_live : 8 <= cap /\ (N.of_nat cap < 2 ^ 58)%N.
Proof.
  destruct Hcap as [(e & He & He3) _]. split; [rewrite He; change 8 with (2 ^ 3); apply Nat.pow_le_mono_r; lia|].
  eapply N.le_lt_trans with (2 ^ 32)%N; [lia|reflexivity].
Qed.

Lemma live_main : live cap (length (concat todos)) y (fun i => length (default [] (todos !! i)) * (put_steps cap (length (concat todos)) + 2) - steps_of i sched).
Proof.
  destruct cap_live as [F1 F3].
  apply (live_conc C n cap (length (concat todos)) F1 F3 Hn sched (start (init_state cap ppl maxcap) todos)
    (fun i => length (default [] (todos !! i)) * (put_steps cap (length (concat todos)) + 2))).
  apply live_start; try assumption; [apply U_init|lia].
Qed.

Lemma live_final : unresized (sy_st y) -> ~ some_failure y /\
  forall i os, todos !! i = Some os -> length os * call_steps cap (length (concat todos)) <= steps_of i sched -> all_returned y i.
Proof.
  intros Hun. destruct cap_live as [F1 F3]. destruct (live_result _ _ F1 F3 _ _ live_main Hun) as [R1 R2]. split; [exact R1|]. intros i os Hi Hs. apply R2.
  - cbn beta. rewrite Hi. change (default [] (Some os)) with os. unfold call_steps in Hs. unfold put_steps, reprobeLimit, REPROBE_LIMIT.
    rewrite !(Nat.mul_comm (length os)) in *. lia.
  - unfold y, after. rewrite conc_length. cbn. rewrite map_length. eapply lookup_lt_Some; eauto.
Qed.

Lemma live_few : no_insert_race (sy_hist y) -> forall ks, writes_among ks todos -> length ks < Nat.min cap (S REPROBE_LIMIT) ->
  ~ some_failure y /\
  forall i os, todos !! i = Some os -> length os * call_steps cap (length (concat todos)) <= steps_of i sched -> all_returned y i.
Proof.
  intros Hr ks Hk Hl. apply live_final. apply (new_few C cap ppl maxcap n todos sched Hcap Hmax Hleg Hr ks Hk Hl).
Qed.

Lemma live_alone : unresized (sy_st y) -> forall m o, legal_op o -> enough_fuel cap 1 m -> returned_or_resized (run (op_prog C m o) (sy_st y)).
Proof.
  intros Hun m o Ho Hm. destruct cap_live as [F1 F3]. destruct live_main as [H|(E & cs & HU & _)]; [destruct (broken_unresized _ H Hun)|].
  assert (H : lf cap 1 (op_prog C m o) any true (put_steps cap 1) 0 (sy_st y)) by (apply lf_op; try assumption; lia).
  apply (lf_run _ _ _ _ F1 F3) in H; [|exact HU|cbn; lia]. unfold returned_or_resized. destruct (run _ _) as [a s|e s]; [exact I|].
  intros Hu. exact (broken_unresized _ H Hu).
Qed.
End Main.
