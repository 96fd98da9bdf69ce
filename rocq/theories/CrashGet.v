(** A key that has been read is found again after a crash, whatever the other threads do. *)
From Coq Require Import NArith Bool List Lia Arith.
From stdpp Require Import base list gmap.
From Verif Require Import Word Bits Prog HashMap Spec Conc ConcSpec ConcInv ConcCmd ConcProg ConcMap ConcThm CrashSpec Abs Probe SeqInv SeqGet ReopenThm.
From Verif Require Import CrashReopen CrashConc CrashGrow.
Import ListNotations.
Open Scope nat_scope.

(** ** get in a table where other keys precede the key *)

Section Walk.
Context (C : cfg) (E : err -> Prop).

Lemma wp_walk put rec h k T a d : st_tabs a !! 0 = Some T -> 0 < t_len T -> (d = 0 \/ d < reprobeLimit (t_len T)) ->
  (forall c, c < d -> keyat (t_pairs T) (pos h (t_len T) c) <> KINITIAL /\ keyat (t_pairs T) (pos h (t_len T) c) <> k /\
     keyat (t_pairs T) (pos h (t_len T) c) <> KTOMBSTONE) ->
  keyat (t_pairs T) (pos h (t_len T) d) = k -> k <> KINITIAL -> unmarked (valat (t_pairs T) (pos h (t_len T) d)) ->
  forall n c, c <= d -> FU E n (S (d - c)) ->
  wp E (getLoop C n put rec 0 k (t_len T) (pos h (t_len T) c) c)
    (fun r _ => r = if (valat (t_pairs T) (pos h (t_len T) d) =? VTOMBSTONE)%N then VINITIAL else valat (t_pairs T) (pos h (t_len T) d)) a.
Proof.
  intros HT Hlen Hd Hpre Hk Hk0 Hu. induction n as [|n IH]; intros c Hc HF.
  { cbn. apply wp_err. destruct HF; [assumption|lia]. }
  cbn [getLoop]. assert (Hidx : pos h (t_len T) c < t_len T) by (apply pos_lt; auto).
  apply wp_bind. eapply wp_key; [exact HT|exact Hidx|]. rewrite (read_key _ _ _ _ HT).
  apply wp_bind. eapply wp_value; [exact HT|exact Hidx|]. rewrite (read_val _ _ _ _ HT).
  destruct (Nat.eq_dec c d) as [->|Hne].
  - rewrite Hk, (proj2 (N.eqb_neq _ _) Hk0). apply wp_bind. eapply wp_LoadNew; [exact HT|].
    rewrite N.eqb_refl. unfold unmarked in Hu. rewrite Hu. cbn [negb]. apply wp_ret. reflexivity.
  - destruct (Hpre c ltac:(lia)) as (P1 & P2 & P3). rewrite (proj2 (N.eqb_neq _ _) P1). apply wp_bind. eapply wp_LoadNew; [exact HT|].
    rewrite (proj2 (N.eqb_neq _ _) P2), (proj2 (N.eqb_neq _ _) P3).
    assert (Hl : reprobeLimit (t_len T) <=? S c = false) by (apply Nat.leb_gt; lia). rewrite Hl. cbn [orb].
    apply (IH (S c)); [lia|]. destruct HF; [left; assumption|right; lia].
Qed.

Lemma wp_get_walk n k T a d : st_top a = 0 -> st_tabs a !! 0 = Some T -> 0 < t_len T -> (d = 0 \/ d < reprobeLimit (t_len T)) ->
  let h := sext32 (hash C k) in
  (forall c, c < d -> keyat (t_pairs T) (pos h (t_len T) c) <> KINITIAL /\ keyat (t_pairs T) (pos h (t_len T) c) <> k /\
     keyat (t_pairs T) (pos h (t_len T) c) <> KTOMBSTONE) ->
  keyat (t_pairs T) (pos h (t_len T) d) = k -> k <> KINITIAL -> unmarked (valat (t_pairs T) (pos h (t_len T) d)) ->
  FU E n (S (S d)) ->
  wp E (get C n k)
    (fun r _ => r = if (valat (t_pairs T) (pos h (t_len T) d) =? VTOMBSTONE)%N then VINITIAL else valat (t_pairs T) (pos h (t_len T) d)) a.
Proof.
  intros Htop HT Hlen Hd h Hpre Hk Hk0 Hu HF. unfold get. apply wp_bind, wp_LoadTop. rewrite Htop.
  destruct n as [|n]; [apply wp_bind; apply wp_err; destruct HF; [assumption|lia]|]. cbn [getImpl].
  apply wp_bind. apply wp_bind. eapply wp_Len; [exact HT|]. 
  eapply wp_conseq; [apply (wp_walk _ _ h k T a d HT Hlen Hd Hpre Hk Hk0 Hu n 0); [lia|destruct HF; [left; assumption|right; lia]]|].
  intros r a' ->. apply wp_bind, wp_assert; [|apply wp_ret; reflexivity].
  apply negb_true_iff. destruct (_ =? VTOMBSTONE)%N; [exact VINITIAL_unmarked|exact Hu].
Qed.
End Walk.

(** ** The image *)

Lemma reopened_pair img i p : img !! i = Some p -> clean (fst p) <> KINITIAL ->
  let ps := t_pairs (absT (existing_table img 0)) in
  keyat ps i = clean (fst p) /\ valat ps i = if (clean (snd p) =? VINITIAL)%N then VTOMBSTONE else clean (snd p).
Proof.
  intros Hp Hk ps. assert (E : ps !! i = Some (clean (fst p), if (clean (snd p) =? VINITIAL)%N then VTOMBSTONE else clean (snd p))).
  { unfold ps. cbn [absT existing_table t_pairs]. rewrite !list_lookup_fmap, Hp. cbn. unfold clean2, repair_entry. cbn [fst snd].
    rewrite (proj2 (N.eqb_neq _ _) Hk), clean_clean. cbn [negb andb]. destruct (_ =? VINITIAL)%N; [rewrite (clean_id _ VTOMBSTONE_clean)|rewrite clean_clean]; reflexivity. }
  unfold keyat, valat. rewrite E. auto.
Qed.

Theorem crash_get : forall C cap ppl n maxcap todos sched h1 h2 i k v img files cap' ppl',
  good_cap cap maxcap -> (maxcap <= 2 ^ 32)%N -> Forall (Forall legal_op) todos ->
  let at_ x := after C n (init_state cap ppl maxcap) todos x in let st_ x := sy_st (at_ x) in
  sy_hist (at_ sched) = h1 ++ ERes i (OGet k) (RVal v) :: h2 -> v <> NOTFOUND ->
  length (st_tabs (st_ sched)) = 1 -> crash_table (st_ sched) 0 img -> find_file 0 files = Some img ->
  exists s1 r x y, init_state_files cap' ppl' maxcap files = Some s1 /\ sched = x ++ y /\ says (st_ x) k r /\
    (never_back (st_ sched) k -> exists x0 x1, x = x0 ++ x1 /\ says (st_ x0) k (Some v)) /\
    (forall n' g s2, run (get C n' k) s1 = Ok g s2 -> g = default NOTFOUND r) /\
    exists n' s2, run (get C n' k) s1 = Ok (default NOTFOUND r) s2.
Proof.
  intros C cap ppl n maxcap todos sched h1 h2 i k u img files cap' ppl' Hcap Hmax Hleg at_ st_ Hhist Hu H1 HC Hf.
  pose proof (after_inv C cap ppl n maxcap todos Hcap Hleg sched) as HI. fold (at_ sched) in HI. unfold world_of in HI. fold (st_ sched) in HI.
  destruct (st_tabs (st_ sched)) as [|T [|]] eqn:Etabs; try discriminate. pose proof (Inv_one cap maxcap Hcap Hmax _ _ _ HI Etabs) as HO.
  assert (HTs : st_tabs (st_ sched) !! 0 = Some T) by (rewrite Etabs; reflexivity).
  set (ops := ConcSpec.invoked (sy_hist (at_ sched))) in *.
  pose proof (img_len _ T img HO HC) as Hil.
  destruct (after_res C cap ppl n maxcap todos Hcap Hleg _ _ _ _ _ _ Hhist) as (w2 & A1 & A2 & A3 & A4). cbn [resOK] in A3.
  pose proof (get_live C cap ppl n maxcap todos Hcap Hleg _ _ _ _ _ _ Hhist Hu) as Hlive.
  destruct A3 as [HG|HG]; [destruct (Hu HG)|].
  pose proof (getOK_rel cap (sext32 (hash C k)) k u w2 _ A2 A4 (or_intror HG)) as [HG'|HG']; [destruct (Hu HG')|]. clear HG A1 A2 A4 w2.
  destruct HG' as (_ & _ & _ & t & j & HK & HP & _ & HD & HPa).
  pose proof (KeyIs_InR cap _ _ _ _ HI HK) as Hin. destruct Hin as (L & (T' & HT' & HL') & HjL).
  change (st_tabs (st_ sched) !! t = Some T') in HT'. rewrite Etabs in HT'. destruct t as [|t]; [|discriminate]. injection HT' as <-.
  destruct (HPa eq_refl) as (L2 & d & Ej & (T' & HT' & HL2) & Hd & Hpre). clear HPa.
  change (st_tabs (st_ sched) !! 0 = Some T') in HT'. rewrite Etabs in HT'. injection HT' as <-. subst L L2.
  set (h := sext32 (hash C k)) in *. set (len := t_len T) in *.
  assert (Hpos : 0 < len) by lia.
  (* keys in the image *)
  assert (Hkey : forall c K, KPer 0 c K (ops, st_ sched) -> c < len -> exists p b v, img !! c = Some p /\ clean (fst p) = K /\
    t_pers T !! (c / st_ppl (st_ sched)) = Some b /\ b <= v /\ hist_entry T v c = Some p).
  { intros c K (T' & b & HT' & Hb & H) Hc. cbn [snd] in HT', Hb. rewrite HTs in HT'. injection HT' as <-.
    destruct (lookup_lt_is_Some_2 img c) as (p & Hp); [lia|].
    destruct (img_entry cap ops _ T img HI HO HC c p Hp) as (b' & v & Hb' & Hv & Hh). rewrite Hb in Hb'. injection Hb' as <-.
    exists p, b, v. split; [exact Hp|]. split; [|auto]. unfold hist_entry in Hh. destruct (versions T !! v) as [ps|] eqn:Ev; [|discriminate]. exact (H v ps p Hv Ev Hh). }
  destruct (Hkey j k HP HjL) as (p & b & v & Hp & Ek & Hb & Hv & Hh).
  assert (Hk0 : k <> KINITIAL) by exact (proj1 HK).
  assert (Hun : unmarked (clean (snd p))).
  { unfold unmarked. destruct (isMarked (clean (snd p)) MigrationFlag) eqn:Em; [exfalso|reflexivity]. rewrite isMarked_clean_mig in Em.
    exact (crash_marked_new C cap ppl n maxcap todos Hcap Hleg sched 0 T img j p HTs HC Hp Em (proj2 HO)). }
  assert (Hclk : clean k = k) by (rewrite <- Ek; apply clean_id, clean_isclean).
  assert (Hvl : v <= length (t_past T)).
  { unfold hist_entry in Hh. destruct (versions T !! v) eqn:E; [|discriminate]. apply lookup_lt_Some in E. rewrite versions_len in E. lia. }
  destruct (moment C cap ppl n maxcap todos Hcap Hleg sched T HTs v Hvl) as (x & y & X & -> & HX & HXv).
  destruct (moment_version C cap ppl n maxcap todos Hcap Hleg x y X T HX HTs) as (_ & HVX). rewrite HXv in HVX.
  (* what an entry says at a version *)
  set (s1 := reopened img ppl' maxcap files). exists s1, (held (snd p)), x, y. split; [|split; [reflexivity|split; [|split]]].
  - unfold init_state_files, mmap_table. rewrite Hf. destruct img as [|p0 l]; [discriminate|reflexivity].
  - apply says_entry with j.
    + unfold entry, st_, at_. rewrite HX. unfold hist_entry in Hh. rewrite HVX in Hh. exact Hh.
    + change (clean (fst p) = clean k). congruence.
  - intros Hnb.
    destruct (hist_prel cap ops _ T HI HO _ _ _ Hh) as (q & Hq & R1 & _).
    assert (Eq : clean (fst q) = k) by (rewrite R1; rewrite ?Ek; auto).
    assert (Hnr : never_returns T j). { apply (Hnb T j q HTs Hq). change (clean (fst q) = clean k). congruence. }
    destruct (HD T HTs (never_no_reuse _ _ Hnr)) as (a & o & (T1 & ps1 & HT1 & Hps1 & Ho) & Eo & (T2 & b2 & HT2 & Hb2 & Ha)).
    cbn [snd] in HT1, HT2, Hb2. change (st_tabs (st_ (x ++ y)) !! 0 = Some T1) in HT1. change (st_tabs (st_ (x ++ y)) !! 0 = Some T2) in HT2.
    rewrite HTs in HT1, HT2. injection HT1 as <-. injection HT2 as <-.
    change (t_pers T !! (j / st_ppl (st_ (x ++ y))) = Some b2) in Hb2. rewrite Hb in Hb2. injection Hb2 as <-.
    assert (Hle : a <= length (t_past X)) by lia.
    destruct (moment C cap ppl n maxcap todos Hcap Hleg x X HX a Hle) as (x0 & x1 & X0 & -> & HX0 & HXa).
    exists x0, x1. split; [reflexivity|]. pose proof HTs as HTs'. unfold st_, at_ in HTs'. rewrite <- app_assoc in HTs'.
    destruct (moment_version C cap ppl n maxcap todos Hcap Hleg x0 (x1 ++ y) X0 T HX0 HTs') as (_ & HV0). rewrite HXa, Hps1 in HV0. injection HV0 as ->.
    assert (Hho : hist_entry T a j = Some o) by (unfold hist_entry; rewrite Hps1; exact Ho).
    assert (Eh : held (snd o) = Some u).
    { unfold held. change (clearMark (snd o) DirtyFlag) with (clean (snd o)). rewrite Eo. destruct Hlive as (_ & L1 & L2). apply N.eqb_neq in L1, L2. rewrite L1, L2. reflexivity. }
    rewrite <- Eh. apply says_entry with j; [unfold entry, st_, at_; rewrite HX0; exact Ho|]. change (clean (fst o) = clean k). rewrite Hclk, <- Eq.
    apply (hist_key cap ops _ T HI HO _ _ _ _ Hho Hq). intros E0. destruct Hlive as (_ & L1 & _). apply L1. rewrite <- Eo. 
    exact (proj1 (proj2 (hist_pair cap ops _ T HI HO _ _ _ Hho)) E0).
  - set (T0 := absT (existing_table img 0)). assert (HL0 : t_len T0 = len) by exact Hil.
    destruct (reopened_pair img j p Hp ltac:(congruence)) as (B1 & B2). fold T0 in B1, B2.
    assert (Hval : (if (valat (t_pairs T0) j =? VTOMBSTONE)%N then VINITIAL else valat (t_pairs T0) j) = default NOTFOUND (held (snd p))).
    { rewrite B2. unfold held. change (clearMark (snd p) DirtyFlag) with (clean (snd p)). destruct (N.eqb_spec (clean (snd p)) VINITIAL) as [E|E].
      - rewrite N.eqb_refl. reflexivity.
      - cbn [orb]. destruct (N.eqb_spec (clean (snd p)) VTOMBSTONE); reflexivity. }
    assert (Hwp : forall E n', FU E n' (S (S d)) -> wp E (get C n' k) (fun r _ => r = default NOTFOUND (held (snd p))) (abs s1)).
    { intros E n' HF. rewrite <- Hval. rewrite Ej. change (t_len T) with len. rewrite <- HL0.
      apply (wp_get_walk C E n' k T0 (abs s1) d); try assumption; try reflexivity; try (rewrite HL0; assumption).
      - intros c Hc. rewrite HL0. destruct (Hpre c Hc) as (K & K1 & K2 & K3 & _ & K5).
        destruct (Hkey _ K K5 ltac:(apply pos_lt; exact Hpos)) as (pc & _ & _ & Hpc & EK & _).
        destruct (reopened_pair img _ pc Hpc ltac:(congruence)) as (BK & _). fold T0 in BK. fold h. rewrite BK, EK. auto.
      - rewrite HL0. fold h. rewrite <- Ej, B1. exact Ek.
      - rewrite HL0. fold h. rewrite <- Ej, B2. destruct (_ =? VINITIAL)%N; [exact VTOMBSTONE_unmarked|exact Hun]. }
    split.
    + intros n' g s2 Hr. specialize (Hwp (fun _ => True) n' (or_introl Logic.I) s1 eq_refl). rewrite Hr in Hwp. exact Hwp.
    + specialize (Hwp (fun _ => False) (S (S d)) (or_intror (le_n _)) s1 eq_refl). destruct (run (get C (S (S d)) k) s1) as [g s2|] eqn:Er; [|contradiction].
      subst g. exists (S (S d)), s2. exact Er.
Qed.
