(** Facts about the calls of MwCas.v in all executions. *)
From Coq Require Import NArith Bool List Lia.
From stdpp Require Import base list.
From Verif Require Import Word Bits Codec CodecSpec CodecThm MwCas MwSpec MwWp MwSeq.
Import ListNotations.
Local Open Scope N_scope.

(** ** Fields and the dirty bit *)

Lemma field_clean w sh sz : 0 < sh -> field (clean w) sh sz = field w sh sz.
Proof.
  intros H. unfold field, shr64. f_equal. apply N.bits_inj. intros n. rewrite !N.shiftr_spec by apply N.le_0_l. rewrite clean_spec.
  rewrite (proj2 (N.eqb_neq (n + sh) 0)) by lia. apply andb_true_r.
Qed.
Lemma field_dirty w sh sz : 0 < sh -> field (dirty w) sh sz = field w sh sz.
Proof. intros H. rewrite <- field_clean, clean_dirty, field_clean by exact H. reflexivity. Qed.

Definition sq (w : N) : N := km_seq (kmut_decode w).
Definition stt (w : N) : N := km_status (kmut_decode w).
Lemma sq_clean w : sq (clean w) = sq w.
Proof. apply field_clean. reflexivity. Qed.
Lemma stt_clean w : stt (clean w) = stt w.
Proof. apply field_clean. reflexivity. Qed.
Lemma sq_dirty w : sq (dirty w) = sq w.
Proof. apply field_dirty. reflexivity. Qed.
Lemma stt_dirty w : stt (dirty w) = stt w.
Proof. apply field_dirty. reflexivity. Qed.
Lemma sq_enc d st s : st < 4 -> s < 2 ^ 61 -> sq (kmut_encode (mkKmut d st s)) = s /\ stt (kmut_encode (mkKmut d st s)) = st.
Proof. intros H1 H2. unfold sq, stt. destruct (kmut_roundtrip (mkKmut d st s) H2 H1) as (E & _). rewrite E. split; reflexivity. Qed.
Lemma sq_lt w : sq w < 2 ^ 61.
Proof. apply field_lt. reflexivity. Qed.

(** ** Programs in an environment *)

Section Rely.
Context (C : mcfg) (HC : mcfg_ok C) (V : N -> Prop) (HV0 : V 0) (HV : forall v, V v -> mval v) (me : N).
Local Notation P := (2 ^ m_log C)%N.

(** What the cells contain. *)
Definition aok (w : N) : Prop := V w \/ N.testbit w 1 = true \/ N.testbit w 2 = true.
Definition good (l : loc) (v : N) : Prop :=
  match l with
  | LArr _ => aok (clean v)
  | LKWord _ _ WOld | LKWord _ _ WNew | LWWord _ WOld => V v
  | _ => True
  end.
Definition typed (m : mem) : Prop := forall l, good l (m l).
Lemma good_clean l v : good l v -> good l (clean v).
Proof.
  destruct l as [| | |t i []| |t []| |]; cbn; try exact (fun H => H); try (intros H; rewrite mval_clean by (apply HV; exact H); exact H).
  rewrite clean_clean. exact (fun H => H).
Qed.
Lemma aok_V v : V v -> aok (clean v).
Proof. intros H. rewrite mval_clean by (apply HV; exact H). left. exact H. Qed.
Lemma aok_dirty v : aok (clean v) -> good (LArr 0) (dirty v).
Proof. cbn. rewrite clean_dirty. exact (fun H => H). Qed.

Definition know (s : N) (m : mem) : Prop := sq (m (LK me)) = s /\ typed m.
Definition guar (m m' : mem) : Prop := forall t, kchange me t m m'.

Fixpoint rg {A : Type} (p : mprog A) (Q : A -> N -> Prop) (s : N) : Prop :=
  match p with
  | MRet a => Q a s
  | MErr _ => True
  | MVis c k => forall m, know s m -> let (r, m') := mexec c m in guar m m' /\ exists s', know s' m' /\ rg (k r) Q s'
  end.

Lemma rg_bind {A B} (p : mprog A) (f : A -> mprog B) Q s : rg p (fun a s' => rg (f a) Q s') s -> rg (mbind p f) Q s.
Proof.
  revert s. induction p as [a|e|c k IH]; intros s; cbn; [auto|auto|]. intros H m Hm. specialize (H m Hm). destruct (mexec c m) as [r m'].
  destruct H as (Hg & s' & Hs' & H). split; [exact Hg|]. exists s'. split; [exact Hs'|]. apply IH, H.
Qed.
Lemma rg_mono {A} (p : mprog A) (Q Q' : A -> N -> Prop) s : rg p Q s -> (forall a s', Q a s' -> Q' a s') -> rg p Q' s.
Proof.
  revert s. induction p as [a|e|c k IH]; intros s; cbn; [auto|auto|]. intros H HQ m Hm. specialize (H m Hm). destruct (mexec c m) as [r m'].
  destruct H as (Hg & s' & Hs' & H). split; [exact Hg|]. exists s'. split; [exact Hs'|]. apply IH; assumption.
Qed.
Lemma guar_refl m m' : (forall t, m' (LK t) = m (LK t)) -> guar m m'.
Proof. intros H t. left. unfold kseq, kstat. rewrite H. tauto. Qed.
Lemma know_upd s m l v : know s m -> good l v -> (l = LK me -> sq v = s) -> know s (upd m l v).
Proof.
  intros [H1 H2] Hg Hk. split.
  - unfold upd. destruct (decide (LK me = l)) as [E|E]; [apply Hk; congruence|exact H1].
  - intros l'. unfold upd. destruct (decide (l' = l)) as [->|E]; [exact Hg|apply H2].
Qed.

Lemma rg_load l (Q : N -> N -> Prop) s : (forall v, good l v -> (l = LK me -> sq v = s) -> Q v s) -> rg (mdo (MLoad l)) Q s.
Proof.
  intros H m Hm. cbn. split; [apply guar_refl; reflexivity|]. exists s. split; [exact Hm|]. apply H; [apply Hm|]. intros ->. apply Hm.
Qed.
Definition isLK (l : loc) : bool := match l with LK _ => true | _ => false end.
Lemma rg_store l v (Q : unit -> N -> Prop) s : isLK l = false -> good l v -> Q tt s -> rg (mdo (MStore l v)) Q s.
Proof.
  intros Hl Hg H m Hm. cbn. split.
  - apply guar_refl. intros t. apply upd_other. intros <-. discriminate.
  - exists s. split; [|exact H]. apply know_upd; [exact Hm|exact Hg|]. intros ->. discriminate.
Qed.
Lemma rg_store_K v (Q : unit -> N -> Prop) s : sq v = (s + 1) mod 2 ^ 61 -> stt v = Undecided -> Q tt (sq v) -> rg (mdo (MStore (LK me) v)) Q s.
Proof.
  intros H1 H2 H m [Hm Ht]. cbn. split.
  - intros t. destruct (decide (t = me)) as [->|E].
    + right. split; [reflexivity|]. unfold kseq, kstat. rewrite upd_same. fold (sq v) (stt v) (sq (m (LK me))). rewrite Hm. split; assumption.
    + left. unfold kseq, kstat. rewrite upd_other by congruence. tauto.
  - exists (sq v). split; [|exact H]. split; [rewrite upd_same; reflexivity|]. intros l. unfold upd. destruct (decide (l = LK me)) as [->|E]; [exact I|apply Ht].
Qed.
(** A CAS on the mutables of a descriptor keeps the sequence number, and changes only an undecided status. *)
Definition kmove (e n : N) : Prop := sq n = sq e /\ (stt n = stt e \/ stt e = Undecided).
Lemma rg_cas l e n (Q : bool * N -> N -> Prop) s : (isLK l = true -> kmove e n) -> (good l e -> good l n) ->
  (forall b v, good l v -> (l = LK me -> sq v = s) -> (b = true -> v = e) -> Q (b, v) s) -> rg (mdo (MCas l e n)) Q s.
Proof.
  intros Hk Hg H m Hm. cbn. destruct (m l =? e) eqn:E.
  - apply N.eqb_eq in E. assert (Hgl : good l (m l)) by apply Hm. split.
    + intros t. destruct (decide (LK t = l)) as [<-|Et].
      * left. destruct (Hk eq_refl) as [K1 K2]. unfold kseq, kstat. rewrite upd_same. fold (sq n) (stt n) (sq (m (LK t))) (stt (m (LK t))). rewrite E. split; assumption.
      * left. unfold kseq, kstat. rewrite upd_other by exact Et. tauto.
    + exists s. split; [|apply H; [exact Hgl|intros ->; apply Hm|intros _; exact E]]. apply know_upd; [exact Hm|apply Hg; rewrite <- E; exact Hgl|].
      intros ->. destruct (Hk eq_refl) as [K1 _]. rewrite K1, <- E. apply Hm.
  - split; [apply guar_refl; reflexivity|]. exists s. split; [exact Hm|]. apply H; [apply Hm|intros ->; apply Hm|discriminate].
Qed.

Lemma kmove_clean v : kmove v (clean v).
Proof. split; [apply sq_clean|left; apply stt_clean]. Qed.
Lemma rg_persist l v (Q : unit -> N -> Prop) s : Q tt s -> rg (m_persist l v) Q s.
Proof.
  intros H. unfold m_persist. apply rg_bind, rg_cas; [intros _; apply kmove_clean|apply good_clean|]. intros b w _ _ _. exact H.
Qed.
Lemma rg_read l (Q : N -> N -> Prop) s : (forall v, good l v -> (l = LK me -> sq v = s) -> Q v s) -> rg (m_read l) Q s.
Proof.
  intros H. unfold m_read. apply rg_bind, rg_load. intros v Hg Hs. apply rg_bind.
  assert (Hrest : rg (MRet (clean v)) Q s). { cbn. apply H; [apply good_clean, Hg|]. intros E. rewrite sq_clean. apply Hs, E. }
  destruct (isMarked v DirtyFlag); [apply rg_persist; exact Hrest|exact Hrest].
Qed.
Lemma rg_assert b (Q : unit -> N -> Prop) s : (b || m_ndebug C = true -> Q tt s) -> rg (massert C b) Q s.
Proof. intros H. unfold massert. destruct (b || m_ndebug C); [apply H; reflexivity|exact I]. Qed.
Lemma rg_pcas l e n (Q : bool * N -> N -> Prop) s : (isLK l = true -> kmove e (dirty n)) -> (good l e -> good l (dirty n)) ->
  (forall b v, v = e \/ good l v -> Q (b, v) s) -> rg (m_pcas C l e n) Q s.
Proof.
  intros Hk Hg H. unfold m_pcas. apply rg_bind, rg_read. intros _ _ _. apply rg_bind, rg_cas; [exact Hk|exact Hg|]. intros b v Hv _ _. cbn [fst snd].
  apply rg_bind, rg_assert. intros _. cbn. apply H. destruct b; [left; reflexivity|right; exact Hv].
Qed.

Lemma rg_thread t (Q : unit -> N -> Prop) s : (t < P -> Q tt s) -> rg (thread_ok C t) Q s.
Proof. intros H. unfold thread_ok. destruct (t <? P) eqn:E; [apply H, N.ltb_lt, E|exact I]. Qed.
Lemma rg_address off (Q : loc -> N -> Prop) s : (Q (LArr off) s) -> rg (address C off) Q s.
Proof. intros H. unfold address. destruct (off <? m_size C); [exact H|exact I]. Qed.
Lemma rg_getSeq d (Q : N -> N -> Prop) s : (forall v, Q v s) -> rg (getSeq C d) Q s.
Proof.
  intros H. unfold getSeq. destruct (d_isKCAS d && negb (d_isRDCSS d)); [|destruct (negb (d_isKCAS d) && d_isRDCSS d); [|exact I]];
    apply rg_bind, rg_thread; intros _; apply rg_bind, rg_read; intros v _ _; apply H.
Qed.
Lemma rg_readField d l (Q : N * bool -> N -> Prop) s : (forall r, Q r s) -> rg (readField C d l) Q s.
Proof. intros H. unfold readField. apply rg_bind, rg_read. intros v _ _. apply rg_bind, rg_getSeq. intros q. apply H. Qed.
Lemma rg_CASField d l e n (Q : bool * N * bool -> N -> Prop) s : (isLK l = true -> kmove e (dirty n)) -> (good l e -> good l (dirty n)) ->
  (forall b v ok, v = e \/ good l v -> Q (b, v, ok) s) -> rg (CASField C d e n l) Q s.
Proof.
  intros Hk Hg H. unfold CASField. apply rg_bind, rg_read. intros v Hv _. apply rg_bind, rg_getSeq. intros q. destruct (negb _); [apply H; left; reflexivity|].
  destruct (negb (v =? e)); [apply H; right; exact Hv|]. apply rg_bind, rg_pcas; [exact Hk|exact Hg|]. intros b w Hw. apply H, Hw.
Qed.
Lemma rg_CAS_arr d j e n (Q : bool * N * bool -> N -> Prop) s : aok (clean n) ->
  (forall b v ok, v = e \/ aok (clean v) -> Q (b, v, ok) s) -> rg (CASField C d e n (LArr j)) Q s.
Proof. intros Hn H. apply rg_CASField; [discriminate|intros _; cbn; rewrite clean_dirty; exact Hn|]. exact H. Qed.

(** References carry their flag. *)
Lemma aok_kref q t : q < 2 ^ seqSize P -> t < 2 ^ tidSize P -> aok (clean (desc_encode P (kdesc q t))).
Proof.
  intros Hq Ht. destruct (desc_flags (m_log C) (kdesc q t) HC) as (_ & H1 & _); [split; assumption|]. change PMwCASFlag with (2 ^ 1) in H1. rewrite land_pow2 in H1.
  right. left. rewrite clean_spec, H1. reflexivity.
Qed.
Lemma aok_wref q t : q < 2 ^ seqSize P -> t < P -> aok (clean (desc_encode P (wdesc q t))).
Proof.
  intros Hq Ht. destruct (wref_facts (m_log C) q t HC Hq Ht) as (_ & _ & _ & H2 & _). right. right. rewrite clean_spec, H2. reflexivity.
Qed.
Lemma mod_seq q : q mod 2 ^ seqSize P < 2 ^ seqSize P.
Proof. apply N.mod_lt, N.pow_nonzero. discriminate. Qed.

Lemma rg_completeInstall d (Q : bool -> N -> Prop) s : (forall b, Q b s) -> rg (completeInstall C d) Q s.
Proof.
  intros H. unfold completeInstall. apply rg_bind, rg_thread. intros _. apply rg_bind, rg_load. intros kq _ _. apply rg_bind, rg_load. intros kt _ _.
  apply rg_bind, rg_load. intros kt' _ _. apply rg_bind, rg_thread. intros _. apply rg_bind, rg_readField. intros r. apply rg_bind, rg_assert. intros _.
  apply rg_bind, rg_load. intros old Hold _. apply rg_bind, rg_load. intros off _ _. apply rg_bind, rg_address. apply rg_bind, rg_CAS_arr.
  - destruct (_ && _); [|apply aok_V; exact Hold]. apply aok_kref; [apply mod_seq|]. apply N.mod_lt, N.pow_nonzero. discriminate.
  - intros b v ok _. apply H.
Qed.
Lemma rg_install n d (Q : N * bool -> N -> Prop) s : aok (clean (desc_encode P d)) -> (forall v b, Q (v, b) s) -> rg (install C n d) Q s.
Proof.
  intros Hd. revert Q s. induction n as [|n IH]; intros Q s H; [exact I|]. cbn [install]. apply rg_bind, rg_load. intros old Hold _. apply rg_bind, rg_load. intros off _ _.
  apply rg_bind, rg_address. apply rg_bind, rg_CAS_arr; [exact Hd|]. intros b v ok _. apply rg_bind, rg_assert. intros _.
  destruct (negb ok); [apply H|]. destruct (d_isRDCSS (desc_decode P v)).
  - apply rg_bind, rg_completeInstall. intros _. apply IH, H.
  - apply rg_bind. destruct (v =? old); [apply rg_bind, rg_completeInstall; intros _|]; apply H.
Qed.
Lemma rg_more t i (Q : bool -> N -> Prop) s : (forall b, Q b s) -> rg (more t i) Q s.
Proof. intros H. unfold more. apply rg_bind, rg_load. intros v _ _. apply H. Qed.
Lemma rg_word_address t i (Q : loc -> N -> Prop) s : (forall j, Q (LArr j) s) -> rg (word_address C t i) Q s.
Proof. intros H. unfold word_address. apply rg_bind, rg_load. intros v _ _. apply rg_address, H. Qed.
Lemma rg_load_word t i (Q : mword -> N -> Prop) s : (forall x, V (o_old x) -> V (o_new x) -> Q x s) -> rg (load_word t i) Q s.
Proof. intros H. unfold load_word. apply rg_bind, rg_load. intros a _ _. apply rg_bind, rg_load. intros b Hb _. apply rg_bind, rg_load. intros c Hc _. apply H; assumption. Qed.
Lemma rg_createW h x kd (Q : descref -> N -> Prop) s : V (o_old x) -> (forall q, q < 2 ^ seqSize P -> me < P -> Q (wdesc q me) s) -> rg (createW C me h x kd) Q s.
Proof.
  intros Hx H. unfold createW. do 2 (apply rg_bind, rg_assert; intros _). apply rg_bind, rg_thread. intros Hme. apply rg_bind, rg_read. intros w _ _. cbn zeta.
  apply rg_bind, rg_store; [reflexivity|exact I|]. apply rg_bind, rg_persist. apply rg_bind, rg_store; [reflexivity|exact I|]. apply rg_bind, rg_store; [reflexivity|exact Hx|].
  do 4 (apply rg_bind, rg_store; [reflexivity|exact I|]). apply rg_bind, rg_persist. cbn. apply H; [apply mod_seq|exact Hme].
Qed.
Lemma rg_find_start n t a i (Q : nat -> N -> Prop) s : (forall k, Q k s) -> rg (find_start C n t a i) Q s.
Proof.
  intros H. revert i. induction n as [|n IH]; intros i; [exact I|]. cbn [find_start]. apply rg_bind, rg_more. intros [|]; [|apply H].
  apply rg_bind, rg_word_address. intros j. destruct (decide _); [apply H|apply IH].
Qed.
Lemma rg_place n rec d i retry (Q : N -> N -> Prop) s : (forall w a (Q' : bool -> N -> Prop), (forall b, Q' b s) -> rg (rec (desc_decode P w) a) Q' s) ->
  (forall st, st < 4 -> Q st s) -> rg (place C n rec me d i retry) Q s.
Proof.
  intros Hrec H. revert i retry. induction n as [|n IH]; intros i retry; [exact I|]. cbn [place]. apply rg_bind.
  assert (Hrest : forall b : bool, rg (if negb b then MRet Succeeded else
        word <-- load_word (d_tid d) i;;
        wd <-- createW C me (d_tid d) word d;;
        r <-- install C n wd;;
        let '(rval, success) := r in
        if negb (success : bool) then MRet Succeeded
        else
          o <-- mdo (MLoad (LWWord (d_tid wd) WOld));;
          if (rval =? o)%N then place C n rec me d (S i) false
          else if d_isKCAS (desc_decode P rval) then
            (if d_isDirty (desc_decode P rval)
             then a <-- word_address C (d_tid d) i;; m_persist a rval
             else MRet tt) ;;;
            if (d_tid (desc_decode P rval) =? d_tid d)%N && (d_seq (desc_decode P rval) =? d_seq d)%N
            then place C n rec me d (S i) false
            else
              a <-- word_address C (d_tid d) i;;
              rec (desc_decode P rval) a ;;; place C n rec me d i true
          else MRet Failed)%mprog Q s).
  { intros b. destruct (negb b); [apply H; reflexivity|]. apply rg_bind, rg_load_word. intros x Hx _. apply rg_bind, rg_createW; [exact Hx|]. intros q Hq Hme.
    apply rg_bind, rg_install; [apply aok_wref; assumption|]. intros v ok. destruct (negb ok); [apply H; reflexivity|]. apply rg_bind, rg_load. intros o _ _.
    destruct (v =? o); [apply IH|]. destruct (d_isKCAS (desc_decode P v)); [|apply H; reflexivity]. apply rg_bind.
    assert (Hgo : rg (if (d_tid (desc_decode P v) =? d_tid d)%N && (d_seq (desc_decode P v) =? d_seq d)%N
            then place C n rec me d (S i) false
            else
              a <-- word_address C (d_tid d) i;;
              rec (desc_decode P v) a ;;; place C n rec me d i true)%mprog Q s).
    { destruct (_ && _); [apply IH|]. apply rg_bind, rg_word_address. intros j. apply rg_bind, Hrec. intros _. apply IH. }
    destruct (d_isDirty (desc_decode P v)); [|exact Hgo]. apply rg_bind, rg_word_address. intros j. apply rg_persist. exact Hgo. }
  destruct retry; [apply Hrest|apply rg_more; exact Hrest].
Qed.
Lemma rg_persist_words n t i (Q : unit -> N -> Prop) s : Q tt s -> rg (persist_words C n t i) Q s.
Proof.
  intros H. revert i. induction n as [|n IH]; intros i; [exact I|]. cbn [persist_words]. apply rg_bind, rg_more. intros [|]; [|exact H].
  apply rg_bind, rg_word_address. intros j. apply rg_bind, rg_read. intros _ _ _. apply IH.
Qed.
Lemma rg_finish n d st i (Q : unit -> N -> Prop) s : Q tt s -> rg (finish C n d st i) Q s.
Proof.
  intros H. revert i. induction n as [|n IH]; intros i; [exact I|]. cbn [finish]. apply rg_bind, rg_more. intros [|]; [|exact H].
  apply rg_bind, rg_load. intros v Hv _. assert (Hv' : V v) by (destruct (st =? Succeeded); exact Hv). apply rg_bind, rg_word_address. intros j.
  apply rg_bind, rg_CAS_arr; [apply aok_V; exact Hv'|]. intros b w ok _. destruct (negb _); [exact H|]. apply rg_bind.
  assert (Hrest : forall ok' : bool, rg (if negb ok' then MRet tt else a <-- word_address C (d_tid d) i;; m_persist a v ;;; finish C n d st (S i))%mprog Q s).
  { intros ok'. destruct (negb ok'); [exact H|]. apply rg_bind, rg_word_address. intros k. apply rg_bind, rg_persist. apply IH. }
  match goal with |- rg (if ?c then _ else _) _ _ => destruct c end; [|apply Hrest]. apply rg_bind, rg_word_address. intros k. apply rg_bind, rg_CAS_arr; [apply aok_V; exact Hv'|]. intros b' w' ok' _. apply Hrest.
Qed.

(** The references have sequence numbers of at most 61 bits when they come from words. *)
Lemma decode_seq_lt w : d_seq (desc_decode P w) < 2 ^ seqSize P.
Proof. cbn. apply field_lt. pose proof (seqSize_le (m_log C) HC). lia. Qed.
Lemma rg_pmwcas n d addr (Q : bool -> N -> Prop) s : d_seq d < 2 ^ seqSize P -> (forall b, Q b s) -> rg (pmwcas C n me d addr) Q s.
Proof.
  revert d addr Q. induction n as [|n IH]; intros d addr Q Hd H; [exact I|]. cbn [pmwcas]. apply rg_bind, rg_thread. intros _. apply rg_bind.
  assert (Hrest : forall i, rg (
      st <-- place C n (fun d' a => pmwcas C n me d' (Some a)) me d i false;;
      (if (st =? Succeeded)%N then persist_words C n (d_tid d) 0 else MRet tt) ;;;
      let mOld := kmut_encode (mkKmut false Undecided (d_seq d)) in
      let mNew := kmut_encode (mkKmut true st (d_seq d)) in
      c <-- CASField C d mOld mNew (LK (d_tid d));;
      m_persist (LK (d_tid d)) mNew ;;;
      if negb (snd c) then MRet false
      else finish C n d st 0 ;;; MRet (st =? Succeeded)%N)%mprog Q s).
  { intros i. apply rg_bind.
    (* a call on behalf of another descriptor *)
    apply rg_place; [intros w a Q' HQ'; apply IH; [apply decode_seq_lt|exact HQ']|]. intros st Hst. apply rg_bind.
    assert (Hgo : rg (let mOld := kmut_encode (mkKmut false Undecided (d_seq d)) in
      let mNew := kmut_encode (mkKmut true st (d_seq d)) in
      c <-- CASField C d mOld mNew (LK (d_tid d));;
      m_persist (LK (d_tid d)) mNew ;;;
      if negb (snd c) then MRet false
      else finish C n d st 0 ;;; MRet (st =? Succeeded)%N)%mprog Q s).
    { cbn zeta. pose proof (seq_61 _ _ HC Hd) as H61. apply rg_bind, rg_CASField.
      - intros _. unfold kmove. rewrite sq_dirty, stt_dirty. destruct (sq_enc false Undecided (d_seq d) eq_refl H61) as [E1 E2], (sq_enc true st (d_seq d) Hst H61) as [E3 E4].
        rewrite E1, E3, E2. split; [reflexivity|right; reflexivity].
      - intros _. exact I.
      - intros b v ok _. apply rg_bind, rg_persist. destruct (negb _); [apply H|]. apply rg_bind, rg_finish. apply H. }
    destruct (st =? Succeeded); [apply rg_persist_words|]; exact Hgo. }
  destruct addr; [apply rg_find_start; exact Hrest|exact (Hrest 0%nat)].
Qed.

(** ** The calls *)

Lemma rg_store_words t i l (Q : unit -> N -> Prop) s : Forall (fun x => V (o_old x) /\ V (o_new x)) l -> Q tt s -> rg (store_words t i l) Q s.
Proof.
  intros Hl H. revert i. induction l as [|x l IH]; intros i; [exact H|]. apply List.Forall_cons_iff in Hl as [[H1 H2] Hl]. cbn [store_words].
  apply rg_bind, rg_store; [reflexivity|exact I|]. apply rg_bind, rg_store; [reflexivity|exact H1|]. apply rg_bind, rg_store; [reflexivity|exact H2|]. apply IH, Hl.
Qed.
Lemma sorted_values ws : Forall (fun x => V (o_old x) /\ V (o_new x)) ws -> Forall (fun x => V (o_old x) /\ V (o_new x)) (sort_words ws).
Proof. rewrite !List.Forall_forall. intros H x Hx. apply H. eapply Permutation.Permutation_in; [apply sort_words_perm|exact Hx]. Qed.
Lemma rg_createK ws (Q : descref -> N -> Prop) s : Forall (fun x => V (o_old x) /\ V (o_new x)) ws ->
  (forall d s', d_seq d < 2 ^ seqSize P -> Q d s') -> rg (createK C me ws) Q s.
Proof.
  intros Hws H. unfold createK. do 2 (apply rg_bind, rg_assert; intros _). apply rg_bind, rg_thread. intros Hme. apply rg_bind, rg_read. intros w _ Hs. specialize (Hs eq_refl). cbn zeta.
  fold (sq w). rewrite Hs. assert (Hm : forall q, q mod 2 ^ 61 < 2 ^ 61) by (intros q; apply N.mod_lt; discriminate).
  destruct (sq_enc true Undecided ((s + 1) mod 2 ^ 61) eq_refl (Hm _)) as [E1 E2].
  destruct (sq_enc true Undecided (((s + 1) mod 2 ^ 61 + 1) mod 2 ^ 61) eq_refl (Hm _)) as [E3 E4].
  apply rg_bind, rg_store_K; [exact E1|exact E2|]. rewrite E1. apply rg_bind, rg_persist. apply rg_bind, rg_assert. intros _.
  apply rg_bind, rg_store; [reflexivity|exact I|]. apply rg_bind, rg_store_words; [apply sorted_values, Hws|]. apply rg_bind, rg_load. intros w' _ _.
  apply rg_bind, rg_assert. intros _. apply rg_bind, rg_store_K; [exact E3|exact E4|]. apply rg_bind, rg_persist. cbn. apply H. apply mod_seq.
Qed.
Lemma rg_PMwCASRead n j (Q : N -> N -> Prop) s : (forall v, V v -> Q v s) -> rg (PMwCASRead C n me (LArr j)) Q s.
Proof.
  intros H. induction n as [|n IH]; [exact I|]. cbn [PMwCASRead]. apply rg_bind, rg_load. intros v Hv _. rewrite isMarked_rdcss. destruct (N.testbit v 2) eqn:E2.
  - apply rg_bind, rg_assert. intros _. apply rg_bind, rg_completeInstall. intros _. exact IH.
  - apply rg_bind. assert (Hrest : rg (if isMarked (clean v) PMwCASFlag then pmwcas C n me (desc_decode P (clean v)) None ;;; PMwCASRead C n me (LArr j) else MRet (clean v))%mprog Q s).
    { rewrite isMarked_kcas, clean_spec. cbn [N.eqb negb]. rewrite andb_true_r. destruct (N.testbit v 1) eqn:E1.
      - apply rg_bind, rg_pmwcas; [apply decode_seq_lt|]. intros _. exact IH.
      - cbn. apply H. destruct Hv as [Hv|Hv]; [exact Hv|]. exfalso. rewrite !clean_spec, E1, E2 in Hv. cbn in Hv. destruct Hv; discriminate. }
    destruct (isMarked v DirtyFlag); [apply rg_persist|]; exact Hrest.
Qed.
Lemma rg_mwCAS n j old new (Q : bool * N -> N -> Prop) s : V new -> (forall r, Q r s) -> rg (mwCAS C n me (LArr j) old new) Q s.
Proof.
  intros Hnew H. induction n as [|n IH]; [exact I|]. cbn [mwCAS]. apply rg_bind, rg_pcas; [discriminate|intros _; cbn; rewrite clean_dirty; apply aok_V, Hnew|].
  intros b v _. cbn [fst snd]. destruct b; [apply H|]. destruct (negb _ && negb _ && negb _); [apply H|]. apply rg_bind.
  assert (H3 : rg ((if isMarked (clean v) PMwCASFlag then pmwcas C n me (desc_decode P (clean v)) None ;;; MRet tt else MRet tt) ;;; mwCAS C n me (LArr j) old new)%mprog Q s).
  { apply rg_bind. destruct (isMarked (clean v) PMwCASFlag); [|exact IH]. apply rg_bind, rg_pmwcas; [apply decode_seq_lt|]. intros _. exact IH. }
  assert (H2 : rg ((if isMarked v DirtyFlag then m_persist (LArr j) v else MRet tt) ;;;
    (if isMarked (clean v) PMwCASFlag then pmwcas C n me (desc_decode P (clean v)) None ;;; MRet tt else MRet tt) ;;; mwCAS C n me (LArr j) old new)%mprog Q s).
  { apply rg_bind. destruct (isMarked v DirtyFlag); [apply rg_persist|]; exact H3. }
  destruct (isMarked v RDCSSFlag); [|exact H2]. apply rg_bind, rg_assert. intros _. apply rg_bind, rg_completeInstall. intros _. exact H2.
Qed.
Lemma rg_mop n o (Q : mrsp -> N -> Prop) s : (forall v, op_value o v -> V v) -> (forall b s', Q (MBool b) s') -> (forall v s', V v -> Q (MWord v) s') ->
  rg (mop_prog C n me o) Q s.
Proof.
  intros Ho HB HW. destruct o as [ws|j|j old new]; cbn [mop_prog op_value] in *.
  - apply rg_bind. unfold PMwCAS. apply rg_bind, rg_assert. intros _. apply rg_bind, rg_createK.
    + apply List.Forall_forall. intros x Hx. split; apply Ho; exists x; tauto.
    + intros d s' Hd. apply rg_pmwcas; [exact Hd|]. intros b. apply HB.
  - apply rg_bind, rg_address. apply rg_bind, rg_PMwCASRead. intros v Hv. apply HW, Hv.
  - apply rg_bind, rg_address. apply rg_bind, rg_mwCAS; [apply Ho; reflexivity|]. intros r. apply HB.
Qed.
End Rely.

(** ** All executions *)

Section Conc.
Context (C : mcfg) (HC : mcfg_ok C) (n : nat) (V : N -> Prop) (HV0 : V 0) (HV : forall v, V v -> mval v).

Definition rsp_ok (r : mrsp) : Prop := match r with MWord v => V v | MBool _ => True end.
Definition ev_ok (e : mevent) : Prop := match e with MRes _ _ r => rsp_ok r | MInv _ _ => True end.
Definition thr_ok (m : mem) (i : nat) (th : mthread) : Prop :=
  (forall o v, o ∈ mt_todo th -> op_value o v -> V v) /\
  match mt_cur th with
  | None => True
  | Some (_, p) => rg V (N.of_nat i) p (fun r _ => rsp_ok r) (kseq m (N.of_nat i))
  end.
Definition sys_ok (y : msys) : Prop :=
  typed V (ms_mem y) /\ (forall i th, ms_thr y !! i = Some th -> thr_ok (ms_mem y) i th) /\ Forall ev_ok (ms_hist y).

Lemma step_ok y i : sys_ok y -> sys_ok (mtstep C n i y) /\ forall t, kchange (N.of_nat i) t (ms_mem y) (ms_mem (mtstep C n i y)).
Proof.
  intros (Ht & Hthr & Hh). assert (Hsame : forall t m, kchange (N.of_nat i) t m m) by (intros t m; left; tauto).
  unfold mtstep. destruct (ms_thr y !! i) as [th|] eqn:Eth; [|split; [exact (conj Ht (conj Hthr Hh))|intros t; apply Hsame]].
  assert (Hlti : (i < length (ms_thr y))%nat) by (eapply lookup_lt_Some, Eth). destruct (Hthr i th Eth) as [Htodo Hcur].
  destruct (mt_cur th) as [[o p]|].
  - destruct p as [r|e|c k]; [| |].
    + cbn in Hcur. split; [|intros t; apply Hsame]. split; [exact Ht|]. cbn [ms_mem ms_thr ms_hist]. split; [|constructor; [exact Hcur|exact Hh]].
      intros i' th' H. apply list_lookup_insert_Some in H as [(-> & <- & _)|[_ H]]; [split; [exact Htodo|exact I]|apply Hthr, H].
    + split; [exact (conj Ht (conj Hthr Hh))|intros t; apply Hsame].
    + cbn [rg] in Hcur. specialize (Hcur (ms_mem y) (conj eq_refl Ht)). destruct (mexec c (ms_mem y)) as [r m'] eqn:Ee. destruct Hcur as (Hg & s' & [Hs' Ht'] & Hr).
      split; [|exact Hg]. split; [exact Ht'|]. cbn [ms_mem ms_thr ms_hist]. split; [|exact Hh].
      intros i' th' H. apply list_lookup_insert_Some in H as [(-> & <- & _)|[Hne H]].
      * split; [exact Htodo|]. cbn [mt_cur mt_todo]. rewrite (Hs' : kseq m' (N.of_nat i') = s'). exact Hr.
      * destruct (Hthr i' th' H) as [H1 H2]. split; [exact H1|]. destruct (mt_cur th') as [[o' p']|]; [|exact I].
        destruct (Hg (N.of_nat i')) as [[E _]|[E _]]; [rewrite E; exact H2|lia].
  - destruct (mt_todo th) as [|o os] eqn:Et; [split; [exact (conj Ht (conj Hthr Hh))|intros t; apply Hsame]|]. split; [|intros t; apply Hsame]. split; [exact Ht|]. cbn [ms_mem ms_thr ms_hist].
    split; [|constructor; [exact I|exact Hh]]. intros i' th' H. apply list_lookup_insert_Some in H as [(-> & <- & _)|[_ H]]; [|apply Hthr, H].
    split; [intros o' v Ho'; apply Htodo; right; exact Ho'|]. cbn. apply (rg_mop C HC V HV); [intros v Hv; eapply Htodo; [left|exact Hv]|intros; exact I|intros v s' Hv; exact Hv].
Qed.
Lemma conc_ok sched y : sys_ok y -> sys_ok (mconc C n sched y).
Proof. revert y. induction sched as [|i l IH]; intros y H; [exact H|]. cbn. apply IH, step_ok, H. Qed.
Lemma start_ok todos : (forall os o v, os ∈ todos -> o ∈ os -> op_value o v -> V v) -> sys_ok (mstart mw_init todos).
Proof.
  intros H. split; [|split; [|constructor]].
  - intros l. destruct l as [| | |t i []| |t []| |]; cbn; try exact I; try exact HV0. left. exact HV0.
  - intros i th Hth. cbn [mstart ms_thr ms_mem] in *. rewrite list_lookup_fmap in Hth. destruct (todos !! i) as [os|] eqn:E; [|discriminate]. injection Hth as <-.
    split; [|exact I]. intros o v Ho. eapply H; [eapply elem_of_list_lookup_2, E|exact Ho].
Qed.
End Conc.

Lemma mconc_app C n l l' y : mconc C n (l ++ l') y = mconc C n l' (mconc C n l y).
Proof. revert y. induction l as [|i l IH]; intros y; [reflexivity|]. apply IH. Qed.

Lemma decided_once C n todos sched i t : mcfg_ok C -> (forall v, client_value todos v -> mval v) ->
  kchange (N.of_nat i) t (ms_mem (mafter C n mw_init todos sched)) (ms_mem (mafter C n mw_init todos (sched ++ [i]))).
Proof.
  intros HC Hv. unfold mafter. rewrite mconc_app. cbn [mconc].
  assert (Hs : sys_ok (client_value todos) (mconc C n sched (mstart mw_init todos))).
  { apply conc_ok; [exact HC|exact Hv|]. apply start_ok; [left; reflexivity|]. intros os o v Hos Ho Hval. right. exists os, o. auto. }
  apply (step_ok C HC n (client_value todos) Hv _ i Hs).
Qed.
Lemma reads_known C n todos sched i o v : mcfg_ok C -> (forall v, client_value todos v -> mval v) ->
  MRes i o (MWord v) ∈ ms_hist (mafter C n mw_init todos sched) -> client_value todos v.
Proof.
  intros HC Hv H. assert (Hs : sys_ok (client_value todos) (mafter C n mw_init todos sched)).
  { apply conc_ok; [exact HC|exact Hv|]. apply start_ok; [left; reflexivity|]. intros os o' v' Hos Ho Hval. right. exists os, o'. auto. }
  destruct Hs as (_ & _ & Hh). rewrite List.Forall_forall in Hh. rewrite elem_of_list_In in H. exact (Hh _ H).
Qed.
