(** A write that has been read survives a crash. *)
From Coq Require Import NArith Bool List Lia.
From stdpp Require Import base list gmap.
From Verif Require Import Word Prog HashMap Spec ConcSpec DurableSpec Abs CrashReadSpec CrashReopen.
Import ListNotations.
Open Scope nat_scope.

Lemma dtrace_length ms os rs : dtrace ms os rs -> length ms = S (length os) /\ length rs = length os.
Proof. induction 1 as [|ms m os rs o r m' H [IH1 IH2] Hd]; [auto|]. rewrite !app_length in *. cbn in *. lia. Qed.
Lemma dtrace_step ms os rs i o : dtrace ms os rs -> os !! i = Some o ->
  exists m r m', ms !! i = Some m /\ ms !! S i = Some m' /\ rs !! i = Some r /\ dstep m o r m'.
Proof.
  intros H. revert i. induction H as [|ms m os rs o' r m' H IH Hd]; intros i Hi; [discriminate|].
  destruct (dtrace_length _ _ _ H) as [L1 L2]. rewrite app_length in L1. cbn in L1.
  apply lookup_app_Some in Hi as [Hi|[Hl Hi]].
  - destruct (IH i Hi) as (a & r0 & b & A & B & D & E). exists a, r0, b. assert (Hlt : i < length os) by (eapply lookup_lt_Some, Hi).
    change (ms ++ [m; m']) with (ms ++ ([m] ++ [m'])). rewrite app_assoc.
    split; [apply lookup_app_l_Some, A|]. split; [apply lookup_app_l_Some, B|]. split; [apply lookup_app_l_Some, D|exact E].
  - assert (i = length os) as ->. { apply lookup_lt_Some in Hi. cbn in Hi. lia. } rewrite Nat.sub_diag in Hi. injection Hi as <-. exists m, r, m'.
    assert (E : length os = length ms) by lia.
    split; [rewrite E; apply list_lookup_middle; reflexivity|]. split; [rewrite E, lookup_app_r by lia; replace (S (length ms) - length ms) with 1 by lia; reflexivity|].
    split; [rewrite <- L2; apply list_lookup_middle; reflexivity|exact Hd].
Qed.

Lemma dstep_leaves m o r m' k : dstep m o r m' -> leaves k o -> m' !! k = m !! k.
Proof.
  intros H [Hk|[->| ->]]; [|destruct H as [_ ->]; reflexivity|destruct H as [_ ->]; reflexivity].
  destruct o as [x|x|x v|x v|x|x v|x w v|x|]; cbn [dstep op_key] in *; destruct H as [_ H]; try (subst m'; reflexivity).
  all: assert (Hne : x <> k) by congruence.
  - subst m'. apply lookup_insert_ne, Hne.
  - subst m'. destruct (m !! x); [reflexivity|apply lookup_insert_ne, Hne].
  - subst m'. apply lookup_delete_ne, Hne.
  - subst m'. destruct (decide _); [apply lookup_delete_ne, Hne|reflexivity].
  - subst m'. destruct (decide _); [apply lookup_insert_ne, Hne|reflexivity].
  - destruct H as [->| ->]; [destruct (decide _); [apply lookup_delete_ne, Hne|apply lookup_insert_ne, Hne]|apply lookup_insert_ne, Hne].
Qed.
Lemma dtrace_leaves ms os rs k i j m m' : dtrace ms os rs -> ms !! i = Some m -> i <= j -> ms !! j = Some m' ->
  (forall i' o, i <= i' -> os !! i' = Some o -> leaves k o) -> m' !! k = m !! k.
Proof.
  intros H Hi Hij. revert m'. induction Hij as [|j Hij IH]; intros m' Hj Hl; [congruence|].
  assert (Hlt : j < length os). { destruct (dtrace_length _ _ _ H) as [L _]. apply lookup_lt_Some in Hj. lia. }
  destruct (lookup_lt_is_Some_2 os j Hlt) as [o Ho]. destruct (dtrace_step _ _ _ _ _ H Ho) as (a & r & b & A & B & _ & D).
  rewrite Hj in B. injection B as <-. rewrite (dstep_leaves _ _ _ _ _ D (Hl j o Hij Ho)). apply IH; [exact A|exact Hl].
Qed.

Lemma read_reopen C cap ppl maxcap os1 os2 os3 rs k v s n o s' img files cap' ppl' :
  good_cap cap maxcap -> (maxcap <= 2 ^ 32)%N ->
  reach C (init_state cap ppl maxcap) (os1 ++ OPut k v :: os2 ++ OGet k :: os3) rs s ->
  Forall legal_op (os1 ++ OPut k v :: os2 ++ OGet k :: os3) -> legal_op o ->
  Forall (leaves k) os2 -> Forall (leaves k) os3 -> leaves k o ->
  during (op_prog C n o) s s' -> length (st_tabs s') = 1 -> crash_table s' 0 img ->
  find_file 0 files = Some img -> (forall x, (0 < x)%N -> find_file x files = None) ->
  exists s1, init_state_files cap' ppl' maxcap files = Some s1 /\ forall n' r s2, run (get C n' k) s1 = Ok r s2 -> r = v.
Proof.
  intros Hcap Hmax Hr Hleg Hlego Hl2 Hl3 Hlo Hd Hlen Himg Hf Hf'. set (os := os1 ++ OPut k v :: os2 ++ OGet k :: os3) in *.
  destruct (crash_reopen C cap ppl maxcap os rs s n o s' img files cap' ppl' Hcap Hmax Hr Hleg Hlego Hd Hlen Himg Hf Hf') as (s1 & m & ms & Hs1 & Htr & Hlost & _ & Hdict).
  set (p := length os1). set (g := S p + length os2).
  assert (Hlegk : legal_key k /\ legal_val v).
  { rewrite List.Forall_forall in Hleg. apply (Hleg (OPut k v)). unfold os. rewrite in_app_iff. right. left. reflexivity. }
  assert (Hp : os !! p = Some (OPut k v)) by (apply list_lookup_middle; reflexivity).
  assert (Eg : os = (os1 ++ OPut k v :: os2) ++ OGet k :: os3) by (unfold os; rewrite <- app_assoc; reflexivity).
  assert (Hg : os !! g = Some (OGet k)). { rewrite Eg. apply list_lookup_middle. rewrite app_length. cbn. unfold g, p. lia. }
  assert (Hrest : forall i x, S p <= i -> os !! i = Some x -> leaves k x).
  { intros i x Hi Hx. unfold os in Hx. rewrite lookup_app_r in Hx by (unfold p in Hi; lia). fold p in Hx. destruct (i - p) as [|q] eqn:Eq; [lia|]. cbn in Hx.
    apply lookup_app_Some in Hx as [Hx|[_ Hx]]; [eapply Forall_lookup_1; [exact Hl2|exact Hx]|]. destruct (q - length os2) as [|q']; cbn in Hx; [injection Hx as <-; right; left; reflexivity|].
    eapply Forall_lookup_1; [exact Hl3|exact Hx]. }
  assert (Hlr : length rs = length os). { clear -Hr. induction Hr as [|os' rs' s n o r s' H IH Hrun]; [reflexivity|]. rewrite !app_length, IH. reflexivity. }
  (* the trace, with or without the call under way *)
  assert (G : exists os' rs', dtrace ms os' rs' /\ (forall i, i < length os -> os' !! i = os !! i /\ rs' !! i = rs !! i) /\ forall i x, S p <= i -> os' !! i = Some x -> leaves k x).
  { destruct Htr as [H|(r & s2 & _ & H)]; [exists os, rs; auto|]. exists (os ++ [o]), (rs ++ [r]). split; [exact H|]. split.
    - intros i Hi. rewrite !lookup_app_l by lia. auto.
    - intros i x Hi Hx. apply lookup_app_Some in Hx as [Hx|[Hl Hx]]; [apply (Hrest i); assumption|]. destruct (i - length os) as [|q]; cbn in Hx; [injection Hx as <-; exact Hlo|discriminate]. }
  destruct G as (os' & rs' & Htr' & Hsame & Hrest').
  assert (Lp : p < length os) by (eapply lookup_lt_Some, Hp). assert (Lg : g < length os) by (eapply lookup_lt_Some, Hg).
  destruct (dtrace_step ms os' rs' p (OPut k v) Htr') as (a & r1 & b & A1 & A2 & _ & A4). { rewrite (proj1 (Hsame p Lp)). exact Hp. }
  destruct A4 as [_ ->]. assert (Hv : forall j m', S p <= j -> ms !! j = Some m' -> m' !! k = Some v).
  { intros j m' Hj Hm'. rewrite (dtrace_leaves ms os' rs' k (S p) j _ m' Htr' A2 Hj Hm' Hrest'). apply lookup_insert. }
  destruct (dtrace_step ms os' rs' g (OGet k) Htr') as (c & r2 & d & B1 & _ & B3 & B4). { rewrite (proj1 (Hsame g Lg)). exact Hg. }
  destruct B4 as [-> _]. assert (Ec : c !! k = Some v) by (apply (Hv g); [unfold g; lia|exact B1]).
  rewrite (proj2 (Hsame g Lg)) in B3. unfold lookup_result in B3. rewrite Ec in B3. cbn in B3.
  assert (Hfound : found_before os rs k (S g)).
  { right. exists g, v. split; [reflexivity|]. split; [exact Hg|]. split; [exact B3|]. destruct Hlegk as [_ (_ & _ & _ & Hv')]. intros ->. discriminate Hv'. }
  destruct (Hlost k (S g) (proj1 Hlegk) Hfound) as (j & mj & Hj & Hmj & Em & _).
  assert (Emk : m !! k = Some v) by (rewrite Em; apply (Hv j); [unfold g in Hj; lia|exact Hmj]).
  exists s1. split; [exact Hs1|]. intros n' r s2 Hrun.
  destruct (Hdict [OGet k] [RVal r] s2) as [m' Hm'].
  - change [OGet k] with ([] ++ [OGet k]). change [RVal r] with ([] ++ [RVal r]). eapply (reach_snoc C s1 [] [] s1 n' (OGet k)); [constructor|]. cbn [op_prog].
    rewrite run_bind, Hrun. reflexivity.
  - constructor; [exact (proj1 Hlegk)|constructor].
  - inversion Hm' as [|? ? ? m1 ? ? ? Hst]; subst. destruct Hst as [E _]. injection E as ->. unfold lookup_result. rewrite Emk. reflexivity.
Qed.
