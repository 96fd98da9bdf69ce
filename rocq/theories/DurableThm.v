(** Crashes of single-threaded executions. *)
From Coq Require Import NArith Bool List Lia Arith.
From stdpp Require Import base list.
From Verif Require Import Word Bits Prog HashMap Spec ConcSpec ConcInv Probe SeqCopy DurableSpec Durable DurableMap.
Import ListNotations.
Open Scope nat_scope.

Section Thm.
Context (C : cfg) (F : Prop).

Lemma sf_during {A} (p : prog A) Q s s' : good C F s -> sf C F p Q s -> during p s s' -> good C F s' /\ ext s s'.
Proof.
  intros Hg H Hd. revert Hg H. induction Hd as [p s|c k s s' Hd IH]; intros Hg H; [split; [exact Hg|apply ext_refl]|].
  cbn in H. destruct (exec c s) as [r s1]. cbn in *. destruct H as (H1 & H2 & H3). destruct (IH H1 H3) as (H4 & H5).
  split; [exact H4|exact (ext_trans _ _ _ H2 H5)].
Qed.

Lemma sf_run {A} (p : prog A) Q s a s' : good C F s -> sf C F p Q s -> run p s = Ok a s' -> Q a s' /\ good C F s' /\ ext s s'.
Proof.
  revert s. induction p as [x|e|c k IH]; intros s Hg H Hr; cbn in *; [|discriminate|].
  - injection Hr as <- <-. split; [exact H|]. split; [exact Hg|apply ext_refl].
  - destruct (exec c s) as [r s1]. destruct H as (H1 & H2 & H3). destruct (IH r s1 H1 H3 Hr) as (H4 & H5 & H6).
    split; [exact H4|]. split; [exact H5|exact (ext_trans _ _ _ H2 H6)].
Qed.

Lemma reach_good s0 os rs s : good C F s0 -> (F -> Forall legal_op os) -> reach C s0 os rs s -> good C F s /\ ext s0 s.
Proof.
  intros Hg Hl H. induction H as [|os rs s n o r s' H IH Hr]; [split; [exact Hg|apply ext_refl]|].
  destruct IH as (Hg1 & He1); [intros HF; apply (Forall_app _ os [o]), Hl, HF|].
  destruct (sf_run _ _ _ _ _ Hg1 (sf_op C F n o s ltac:(intros HF; specialize (Hl HF); apply Forall_app in Hl as (_ & Hl); apply Forall_inv in Hl; exact Hl) Hg1) Hr) as (_ & Hg2 & He2).
  split; [exact Hg2|exact (ext_trans _ _ _ He1 He2)].
Qed.
End Thm.

Lemma init_good C cap ppl maxcap files s0 : init_state_files cap ppl maxcap files = Some s0 -> good C False s0.
Proof.
  unfold init_state_files. destruct (mmap_table 0 cap 0 maxcap files) as [T|] eqn:E; [|discriminate]. intros [= <-].
  assert (HT : t_new T = None /\ forall p, dur p T).
  { unfold mmap_table in E. destruct (find_file 0 files) as [[|p ps]|]; [discriminate| |destruct (can_alloc _ _); [|discriminate]].
    - injection E as <-. split; [reflexivity|]. intros. apply dur_single; [reflexivity| |reflexivity]. cbn. rewrite map_length. reflexivity.
    - injection E as <-. split; [reflexivity|]. intros. apply dur_single; [reflexivity| |reflexivity]. cbn. apply replicate_length. }
  destruct HT as (HN & HD). split; [|split; [|split]]; cbn [st_tabs length].
  - intros [|t] T' H; [injection H as <-; apply HD|discriminate].
  - intros [|t] T' x H; [injection H as <-; rewrite HN; discriminate|discriminate].
  - intros [].
  - lia.
Qed.

(** A crash point: some calls have returned, and another one may be under way. *)
Lemma at_good C cap ppl maxcap files s0 os rs s n o s' : init_state_files cap ppl maxcap files = Some s0 ->
  reach C s0 os rs s -> during (op_prog C n o) s s' -> good C False s' /\ ext s s'.
Proof.
  intros Hi Hr Hd. apply init_good with (C := C) in Hi. destruct (reach_good C False _ _ _ _ Hi ltac:(intros []) Hr) as (Hg & _).
  apply (sf_during C False _ _ _ _ Hg (sf_op C False n o s ltac:(intros []) Hg) Hd).
Qed.

Lemma crash_chist s t i p T : st_tabs s !! t = Some T -> crash_entry s t i p ->
  exists b v, t_pers T !! (i / st_ppl s) = Some b /\ b <= v /\ hist_entry T v i = Some p.
Proof.
  intros HT (T' & b & v & ps & HT' & Hb & Hv & Hps & Hp). rewrite HT in HT'. injection HT' as <-.
  exists b, v. split; [exact Hb|]. split; [exact Hv|]. unfold hist_entry. rewrite Hps. exact Hp.
Qed.

Lemma hist_cur T i : hist_entry T (length (t_past T)) i = t_pairs T !! i.
Proof. unfold hist_entry. rewrite versions_last. reflexivity. Qed.

Lemma hist_len ppl T v i p : dur ppl T -> hist_entry T v i = Some p -> i < t_len T.
Proof.
  intros HD. unfold hist_entry. destruct (versions T !! v) as [ps|] eqn:E; [|discriminate]. intros Hp.
  pose proof (d_vlen _ _ HD) as HV. rewrite Forall_lookup in HV. rewrite <- (HV v ps E). exact (lookup_lt_Some _ _ _ Hp).
Qed.

Lemma hist_chist T v i p c : hist_entry T v i = Some p -> chist T v i c = Some (get_cell c p).
Proof. intros H. unfold chist. rewrite H. reflexivity. Qed.

Lemma dur_last_or_previous ppl T i b v p c : dur ppl T -> t_pers T !! (i / ppl) = Some b -> b <= v -> hist_entry T v i = Some p ->
  last_or_previous T i c (get_cell c p).
Proof.
  intros HD Hb Hv Hp. pose proof (hist_len _ _ _ _ _ HD Hp) as Hi. rewrite <- (d_len _ _ HD) in Hi.
  apply lookup_lt_is_Some in Hi as (q & Hq). exists q. split; [exact Hq|].
  assert (Hc : chist T (length (t_past T)) i c = Some (get_cell c q)) by (rewrite chist_cur, Hq; reflexivity).
  destruct (d_cell _ _ HD i c b _ Hb Hc) as (a & A1 & A2 & A3 & A4).
  destruct (isMarked (get_cell c q) DirtyFlag) eqn:HM.
  - destruct (Nat.le_gt_cases a v) as [Ha|Ha]; [left; exact (A2 v _ Ha (hist_chist _ _ _ _ c Hp))|].
    right. split; [reflexivity|]. assert (Hva : a - 1 <= length (t_past T)) by lia.
    destruct (hist_entry T (a - 1) i) as [old|] eqn:Ho.
    + exists (a - 1), old. split; [exact Ho|]. split; [exact (A3 v _ _ Hv Ha (hist_chist _ _ _ _ c Hp) (hist_chist _ _ _ _ c Ho))|].
      intros w new Hw Hn. exact (A2 w _ ltac:(lia) (hist_chist _ _ _ _ c Hn)).
    + exfalso. unfold hist_entry in Ho. assert (Hl : a - 1 < length (versions T)) by (rewrite versions_len; lia).
      apply lookup_lt_is_Some in Hl as (ps & Hps). rewrite Hps in Ho. pose proof (d_vlen _ _ HD) as HV. rewrite Forall_lookup in HV.
      pose proof (HV _ _ Hps) as HL. cbn beta in HL. apply lookup_ge_None in Ho. apply lookup_lt_Some in Hq. rewrite (d_len _ _ HD) in Hq. lia.
  - left. exact (A4 HM v _ Hv (hist_chist _ _ _ _ c Hp)).
Qed.

Theorem crash_last_or_previous C cap ppl maxcap files s0 os rs s n o s' t i p T :
  init_state_files cap ppl maxcap files = Some s0 -> reach C s0 os rs s -> during (op_prog C n o) s s' ->
  st_tabs s' !! t = Some T -> crash_entry s' t i p ->
  last_or_previous T i CKey (fst p) /\ last_or_previous T i CVal (snd p).
Proof.
  intros Hi Hr Hd HT Hc. destruct (at_good _ _ _ _ _ _ _ _ _ _ _ _ Hi Hr Hd) as ((G1 & _) & _).
  destruct (crash_chist _ _ _ _ _ HT Hc) as (b & v & Hb & Hv & Hp).
  split; [exact (dur_last_or_previous _ _ _ _ _ _ CKey (G1 _ _ HT) Hb Hv Hp)|exact (dur_last_or_previous _ _ _ _ _ _ CVal (G1 _ _ HT) Hb Hv Hp)].
Qed.

Lemma text_hist T T' v i p : text T T' -> hist_entry T v i = Some p -> hist_entry T' v i = Some p.
Proof.
  intros (_ & (e & E) & _) H. unfold hist_entry in *. rewrite E. destruct (versions T !! v) as [ps|] eqn:Ev; [|discriminate].
  rewrite (lookup_app_l_Some _ _ _ _ Ev). exact H.
Qed.

Theorem read_survives C cap ppl maxcap files s0 os rs s n k v s1 :
  init_state_files cap ppl maxcap files = Some s0 -> reach C s0 os rs s -> run (get C n k) s = Ok v s1 -> v <> NOTFOUND ->
  exists t i T1, st_tabs s1 !! t = Some T1 /\ t_pairs T1 !! i = Some (k, v) /\
    forall os2 rs2 s2 n2 o2 s3, reach C s1 os2 rs2 s2 -> during (op_prog C n2 o2) s2 s3 ->
    exists T3, st_tabs s3 !! t = Some T3 /\
    forall p, crash_entry s3 t i p -> same_word (fst p) k /\ since T3 (length (t_past T1)) i CVal (snd p).
Proof.
  intros Hi Hr Hget Hv. apply init_good with (C := C) in Hi. destruct (reach_good C False _ _ _ _ Hi ltac:(intros []) Hr) as (Hg & _).
  destruct (sf_run C False _ _ _ _ _ Hg (sf_get C False n k s Hg) Hget) as (HP & Hg1 & He1).
  destruct HP as [HP|(t & i & HVc & HK & (T1 & p1 & HT1 & Hp1 & HV))]; [contradiction|].
  pose proof HK as (Hk1 & Hk2 & T1' & p1' & HT1' & Hp1' & HKK). rewrite HT1 in HT1'. injection HT1' as <-. rewrite Hp1 in Hp1'. injection Hp1' as <-.
  cbn [get_cell] in HV, HKK. exists t, i, T1. split; [exact HT1|]. split; [rewrite Hp1; destruct p1; cbn in *; congruence|].
  intros os2 rs2 s2 n2 o2 s3 Hr2 Hd. destruct (reach_good C False _ _ _ _ Hg1 ltac:(intros []) Hr2) as (Hg2 & He2).
  destruct (sf_during C False _ _ _ _ Hg2 (sf_op C False n2 o2 s2 ltac:(intros []) Hg2) Hd) as (Hg3 & He3).
  assert (He : ext s1 s3) by exact (ext_trans _ _ _ He2 He3). pose proof He as (Eppl & Htab). destruct (Htab t T1 HT1) as (T3 & HT3 & Hx).
  exists T3. split; [exact HT3|]. intros p Hc. destruct (crash_chist _ _ _ _ _ HT3 Hc) as (b & w & Hb & Hw & Hp).
  pose proof (proj1 Hg3 _ _ HT3) as D3. pose proof (proj1 Hg1 _ _ HT1) as D1. split.
  - destruct (KeyC_ext _ _ _ _ _ He HK) as (_ & _ & T3' & q & HT3' & Hq & HKq). rewrite HT3 in HT3'. injection HT3' as <-.
    assert (Hcur : chist T3 (length (t_past T3)) i CKey = Some k) by (rewrite chist_cur, Hq; cbn; f_equal; exact HKq).
    destruct (d_cell _ _ D3 i CKey b k Hb Hcur) as (_ & _ & _ & _ & A4). exact (A4 Hk2 w _ Hw (hist_chist _ _ _ _ CKey Hp)).
  - destruct (Nat.le_gt_cases (length (t_past T1)) w) as [Hl|Hl].
    + exists w, p. split; [exact Hl|]. split; [exact Hp|reflexivity].
    + exists (length (t_past T1)), p1. split; [lia|]. split; [apply (text_hist T1); [exact Hx|rewrite hist_cur; exact Hp1]|].
      cbn [get_cell]. rewrite HV. pose proof Hx as (_ & _ & HPers & _).
      destruct (Forall2_lookup_r _ _ _ _ _ HPers Hb) as (b1 & Hb1 & Hle). rewrite Eppl in Hb1.
      assert (Hcur : chist T1 (length (t_past T1)) i CVal = Some v) by (rewrite chist_cur, Hp1; cbn; f_equal; exact HV).
      destruct (d_cell _ _ D1 i CVal b1 v Hb1 Hcur) as (_ & _ & _ & _ & A4).
      assert (Hp' : hist_entry T1 w i = Some p).
      { pose proof Hx as (_ & (e & E) & _). unfold hist_entry in Hp |- *. rewrite E, lookup_app_l in Hp; [exact Hp|]. rewrite versions_len. lia. }
      exact (A4 HVc w _ ltac:(lia) (hist_chist _ _ _ _ CVal Hp')).
Qed.
