(** What a crash may leave of the words of the multi-word compare-and-swap. *)
From Coq Require Import NArith Bool List Lia Permutation.
From stdpp Require Import base list.
From Verif Require Import Word Bits Codec CodecSpec CodecThm MwCas MwSpec MwWp MwSeq MwRely MwThm MwDurSpec.
Import ListNotations.
Local Open Scope N_scope.

(** ** Commands *)

Lemma dexec_mem c s : ds_mem (snd (dexec c s)) = snd (mexec c (ds_mem s)).
Proof. unfold dexec. destruct (mexec c (ds_mem s)). reflexivity. Qed.
Lemma dexec_res c s : fst (dexec c s) = fst (mexec c (ds_mem s)).
Proof. unfold dexec. destruct (mexec c (ds_mem s)). reflexivity. Qed.
Lemma dexec_per c s x : ds_per (snd (dexec c s)) x = if ds_mem (snd (dexec c s)) x =? ds_mem s x then ds_per s x else ds_mem (snd (dexec c s)) x :: ds_per s x.
Proof. unfold dexec. destruct (mexec c (ds_mem s)). reflexivity. Qed.
Lemma dpre_mem c s : ds_mem (dpre c s) = ds_mem s.
Proof. unfold dpre. destruct (flushes c); reflexivity. Qed.
Lemma drun_mrun {A} (p : mprog A) s : match drun p s with DOk a s' => mrun p (ds_mem s) = MOk a (ds_mem s') | DFail e s' => mrun p (ds_mem s) = MFail e (ds_mem s') end.
Proof.
  revert s. induction p as [a|e|c k IH]; intros s; cbn; [reflexivity|reflexivity|].
  pose proof (dexec_mem c (dpre c s)) as Em. pose proof (dexec_res c (dpre c s)) as Er. rewrite dpre_mem in *.
  destruct (dexec c (dpre c s)) as [r s']. destruct (mexec c (ds_mem s)) as [r' m']. cbn in Em, Er. subst. apply IH.
Qed.

(** The present word survives a write of a word that differs only in the flag, and a flush. *)
Lemma survives_flush l x s : survives s x -> survives (dflush l s) x.
Proof.
  intros H v. cbn. destruct (decide (x = l)) as [->|_]; [|apply H]. rewrite elem_of_list_In. intros [<-|[]]. reflexivity.
Qed.
Lemma flush_survives l s : survives (dflush l s) l.
Proof. intros v. cbn. rewrite decide_True by reflexivity. rewrite elem_of_list_In. intros [<-|[]]. reflexivity. Qed.
Lemma survives_pre c x s : survives s x -> survives (dpre c s) x.
Proof. intros H. unfold dpre. destruct (flushes c); [apply survives_flush|]; exact H. Qed.
Lemma survives_exec c x s : clean (ds_mem (snd (dexec c s)) x) = clean (ds_mem s x) -> survives s x -> survives (snd (dexec c s)) x.
Proof.
  intros E H v. rewrite dexec_per, E. destruct (_ =? _); [apply H|]. rewrite elem_of_cons. intros [->|Hv]; [exact E|apply H, Hv].
Qed.
Lemma survives_same c x s : ds_mem (snd (dexec c s)) x = ds_mem s x -> survives s x -> survives (snd (dexec c s)) x.
Proof. intros E. apply survives_exec. rewrite E. reflexivity. Qed.
Lemma mexec_elsewhere c m x : cmd_loc c <> x -> snd (mexec c m) x = m x.
Proof. intros H. apply (mexec_only c m). exact H. Qed.

(** The commands of the program: flagged cells get words with the flag, or the flag is cleared.  [ck]: the words of the
    descriptors of calls are not written. *)
Definition tidy (ck : bool) (c : mcmd) : Prop :=
  match c with
  | MLoad _ => True
  | MStore l v => (has_flag l -> isMarked v DirtyFlag = true) /\ match l with LKCount _ | LKWord _ _ _ => ck = false | _ => True end
  | MCas l e n => has_flag l /\ (isMarked n DirtyFlag = true \/ n = clean e)
  end.
Fixpoint alls (T : mcmd -> Prop) {A : Type} (p : mprog A) (Q : A -> Prop) : Prop :=
  match p with
  | MRet a => Q a
  | MErr _ => True
  | MVis c k => T c /\ forall r, alls T (k r) Q
  end.
Section Alls.
Context (C : mcfg) (HC : mcfg_ok C) (me : N) (T : mcmd -> Prop).
Context (Tload : forall l, T (MLoad l)) (Tclean : forall l e, has_flag l -> T (MCas l e (clean e))) (Tarr : forall j e n, T (MCas (LArr j) e (dirty n))).
Context (Tlk : forall t q st, q < 2 ^ 61 -> st = Succeeded \/ st = Failed -> T (MCas (LK t) (kenc Undecided q) (dirty (kmut_encode (mkKmut true st q))))).
Context (Tlw : forall q, T (MStore (LW me) (wmut_encode (mkWmut true q)))) (Tww : forall f v, T (MStore (LWWord me f) v)).
Context (Tws : forall v, T (MStore (LWSeq me) v)) (Twt : forall v, T (MStore (LWTid me) v)).
Local Notation al := (alls T).
Lemma al_bind {A B} (p : mprog A) (f : A -> mprog B) (Q : B -> Prop) : al p (fun a => al (f a) Q) -> al (mbind p f) Q.
Proof. induction p as [a|e|c k IH]; cbn; [auto|auto|]. intros [H1 H2]. split; [exact H1|]. intros r. apply IH, H2. Qed.
Lemma al_mono {A} (p : mprog A) (Q Q' : A -> Prop) : al p Q -> (forall a, Q a -> Q' a) -> al p Q'.
Proof. intros H HQ. induction p as [a|e|c k IH]; cbn in *; [auto|auto|]. destruct H as [H1 H2]. split; [exact H1|]. intros r. apply IH, H2. Qed.
Lemma al_do c (Q : mres c -> Prop) : T c -> (forall r, Q r) -> al (mdo c) Q.
Proof. intros H H'. split; [exact H|]. intros r. apply H'. Qed.
Lemma al_load l (Q : N -> Prop) : (forall r, Q r) -> al (mdo (MLoad l)) Q.
Proof. intros H. split; [apply Tload|]. exact H. Qed.
Lemma al_persist l v (Q : unit -> Prop) : has_flag l -> Q tt -> al (m_persist l v) Q.
Proof. intros Hl H. apply al_bind, al_do; [apply Tclean, Hl|]. intros _. exact H. Qed.
Lemma al_read l (Q : N -> Prop) : has_flag l -> (forall v, Q v) -> al (m_read l) Q.
Proof.
  intros Hl H. apply al_bind, al_load. intros v. apply al_bind. destruct (isMarked v DirtyFlag); [apply al_persist; [exact Hl|]|]; cbn; apply H.
Qed.
Lemma al_assert b (Q : unit -> Prop) : Q tt -> al (massert C b) Q.
Proof. intros H. unfold massert. destruct (_ || _); [exact H|exact I]. Qed.
Lemma al_thread t (Q : unit -> Prop) : Q tt -> al (thread_ok C t) Q.
Proof. intros H. unfold thread_ok. destruct (_ <? _); [exact H|exact I]. Qed.
Lemma al_address off (Q : loc -> Prop) : Q (LArr off) -> al (address C off) Q.
Proof. intros H. unfold address. destruct (_ <? _); [exact H|exact I]. Qed.
Lemma al_pcas l e n (Q : bool * N -> Prop) : has_flag l -> T (MCas l e (dirty n)) -> (forall r, Q r) -> al (m_pcas C l e n) Q.
Proof.
  intros Hl Ht H. apply al_bind, al_read; [exact Hl|]. intros _. apply al_bind, al_do; [exact Ht|].
  intros r. cbn zeta. apply al_bind, al_assert. cbn. apply H.
Qed.
Lemma al_getSeq d (Q : N -> Prop) : (forall v, Q v) -> al (getSeq C d) Q.
Proof.
  intros H. unfold getSeq. destruct (_ && _); [|destruct (_ && _); [|exact I]];
    (apply al_bind, al_thread; apply al_bind, al_read; [exact I|]; intros v; apply H).
Qed.
Lemma al_readField d l (Q : N * bool -> Prop) : has_flag l -> (forall r, Q r) -> al (readField C d l) Q.
Proof. intros Hl H. apply al_bind, al_read; [exact Hl|]. intros v. apply al_bind, al_getSeq. intros q. apply H. Qed.
Lemma al_CASField d e n l (Q : bool * N * bool -> Prop) : has_flag l -> T (MCas l e (dirty n)) -> (forall r, Q r) -> al (CASField C d e n l) Q.
Proof.
  intros Hl Ht H. apply al_bind, al_read; [exact Hl|]. intros v. apply al_bind, al_getSeq. intros q. destruct (negb _); [apply H|].
  destruct (negb _); [apply H|]. apply al_bind, al_pcas; [exact Hl|exact Ht|]. intros r. apply H.
Qed.
Lemma al_completeInstall d (Q : bool -> Prop) : (forall b, Q b) -> al (completeInstall C d) Q.
Proof.
  intros H. apply al_bind, al_thread. apply al_bind, al_load. intros kq. apply al_bind, al_load. intros kt. cbn zeta. apply al_bind, al_load. intros kt'.
  apply al_bind, al_thread. apply al_bind, al_readField; [exact I|]. intros r. cbn zeta. apply al_bind, al_assert. apply al_bind, al_load. intros old.
  apply al_bind, al_load. intros off. apply al_bind, al_address. apply al_bind, al_CASField; [exact I|apply Tarr|]. intros c. apply H.
Qed.
Lemma al_install n d (Q : N * bool -> Prop) : (forall r, Q r) -> al (install C n d) Q.
Proof.
  revert Q. induction n as [|n IH]; intros Q H; [exact I|]. cbn [install]. apply al_bind, al_load. intros old. apply al_bind, al_load. intros off.
  apply al_bind, al_address. apply al_bind, al_CASField; [exact I|apply Tarr|]. intros [[b v] ok]. apply al_bind, al_assert. destruct (negb ok); [apply H|].
  destruct (d_isRDCSS _); [apply al_bind, al_completeInstall; intros _; apply IH, H|].
  apply al_bind. destruct (v =? old); [apply al_bind, al_completeInstall; intros _|]; apply H.
Qed.
Lemma al_load_word t i (Q : mword -> Prop) : (forall x, Q x) -> al (load_word t i) Q.
Proof. intros H. apply al_bind, al_load. intros a. apply al_bind, al_load. intros b. apply al_bind, al_load. intros c. apply H. Qed.
Lemma al_word_address t i (Q : loc -> Prop) : (forall off, Q (LArr off)) -> al (word_address C t i) Q.
Proof. intros H. apply al_bind, al_load. intros off. apply al_address, H. Qed.
Lemma al_more t i (Q : bool -> Prop) : (forall b, Q b) -> al (more t i) Q.
Proof. intros H. apply al_bind, al_load. intros c. apply H. Qed.
Lemma al_find_start n t a i (Q : nat -> Prop) : (forall r, Q r) -> al (find_start C n t a i) Q.
Proof.
  revert i. induction n as [|n IH]; intros i H; [exact I|]. cbn [find_start]. apply al_bind, al_more. intros [|]; [|apply H].
  apply al_bind, al_word_address. intros off. destruct (decide _); [apply H|apply IH, H].
Qed.
Lemma bit0_add x y : N.testbit (add64 x y) 0 = xorb (N.testbit x 0) (N.testbit y 0).
Proof. unfold add64. change two64 with (2 ^ 64). rewrite N.mod_pow2_bits_low by reflexivity. rewrite !N.bit0_odd. apply N.odd_add. Qed.
Lemma bit0_shl x n : 0 < n -> N.testbit (shl64 x n) 0 = false.
Proof. intros H. unfold shl64. change two64 with (2 ^ 64). rewrite N.mod_pow2_bits_low by reflexivity. apply N.shiftl_spec_low, H. Qed.
Lemma kmut_dirty st q : isMarked (kmut_encode (mkKmut true st q)) DirtyFlag = true.
Proof. rewrite isMarked_dirty. unfold kmut_encode. cbn [km_seq km_status km_isDirty]. rewrite !bit0_add, !bit0_shl by reflexivity. reflexivity. Qed.
Lemma wmut_dirty q : isMarked (wmut_encode (mkWmut true q)) DirtyFlag = true.
Proof. rewrite isMarked_dirty. unfold wmut_encode. cbn [wm_seq wm_isDirty]. rewrite bit0_add, bit0_shl by reflexivity. reflexivity. Qed.
Lemma al_createW t x d (Q : descref -> Prop) : (forall d, Q d) -> al (createW C me t x d) Q.
Proof.
  intros H. apply al_bind, al_assert. apply al_bind, al_assert. apply al_bind, al_thread. apply al_bind, al_read; [exact I|]. intros w. cbn zeta.
  apply al_bind, al_do; [apply Tlw|]. intros _. apply al_bind, al_persist; [exact I|].
  do 5 (apply al_bind, al_do; [auto|]; intros _).
  apply al_bind, al_do; [apply Tlw|]. intros _. apply al_bind, al_persist; [exact I|]. apply H.
Qed.
Lemma al_place n rec d i retry (Q : N -> Prop) : (forall d' off (R : bool -> Prop), d_seq d' < 2 ^ 61 -> (forall b, R b) -> al (rec d' (LArr off)) R) ->
  (forall st, st = Succeeded \/ st = Failed -> Q st) -> al (place C n rec me d i retry) Q.
Proof.
  intros Hrec H. revert i retry. induction n as [|n IH]; intros i retry; [exact I|]. cbn [place]. apply al_bind.
  assert (Hb : forall b : bool, al (if negb b then MRet Succeeded
      else
        word <-- load_word (d_tid d) i;;
        wd <-- createW C me (d_tid d) word d;;
        r <-- install C n wd;;
        let '(rval, success) := r in
        if negb (success : bool) then MRet Succeeded
        else
          o <-- mdo (MLoad (LWWord (d_tid wd) WOld));;
          if (rval =? o)%N then place C n rec me d (S i) false
          else if d_isKCAS (desc_decode (2 ^ m_log C) rval) then
            (if d_isDirty (desc_decode (2 ^ m_log C) rval)
             then a <-- word_address C (d_tid d) i;; m_persist a rval
             else MRet tt) ;;;
            if (d_tid (desc_decode (2 ^ m_log C) rval) =? d_tid d)%N && (d_seq (desc_decode (2 ^ m_log C) rval) =? d_seq d)%N
            then place C n rec me d (S i) false
            else
              a <-- word_address C (d_tid d) i;;
              rec (desc_decode (2 ^ m_log C) rval) a ;;; place C n rec me d i true
          else MRet Failed)%mprog Q).
  { intros b. destruct (negb b); [apply H; auto|]. apply al_bind, al_load_word. intros x. apply al_bind, al_createW. intros wd.
    apply al_bind, al_install. intros [v ok]. destruct (negb ok); [apply H; auto|]. apply al_bind, al_load. intros o.
    destruct (v =? o); [apply IH|]. destruct (d_isKCAS _); [|apply H; auto]. apply al_bind.
    assert (Hrest : al (if (d_tid (desc_decode (2 ^ m_log C) v) =? d_tid d)%N && (d_seq (desc_decode (2 ^ m_log C) v) =? d_seq d)%N
            then place C n rec me d (S i) false
            else
              a <-- word_address C (d_tid d) i;;
              rec (desc_decode (2 ^ m_log C) v) a ;;; place C n rec me d i true)%mprog Q).
    { destruct (_ && _); [apply IH|]. apply al_bind, al_word_address. intros off. apply al_bind, Hrec; [apply (seq_61 _ _ HC), decode_seq_lt, HC|]. intros _. apply IH. }
    destruct (d_isDirty _); [|exact Hrest]. apply al_bind, al_word_address. intros off. apply al_persist; [exact I|exact Hrest]. }
  destruct retry; [apply Hb|]. apply al_more, Hb.
Qed.
Lemma al_persist_words n t i (Q : unit -> Prop) : Q tt -> al (persist_words C n t i) Q.
Proof.
  intros H. revert i. induction n as [|n IH]; intros i; [exact I|]. cbn [persist_words]. apply al_bind, al_more. intros [|]; [|exact H].
  apply al_bind, al_word_address. intros off. apply al_bind, al_read; [exact I|]. intros _. apply IH.
Qed.
Lemma al_finish n d st i (Q : unit -> Prop) : Q tt -> al (finish C n d st i) Q.
Proof.
  intros H. revert i. induction n as [|n IH]; intros i; [exact I|]. cbn [finish]. apply al_bind, al_more. intros [|]; [|exact H].
  apply al_bind, al_load. intros v. cbn zeta. apply al_bind, al_word_address. intros off. apply al_bind, al_CASField; [exact I|apply Tarr|]. intros [[b w] ok]. cbn [fst snd].
  destruct (negb ok); [exact H|].
  assert (Hrest : forall ok' : bool, al (if negb ok' then MRet tt else a <-- word_address C (d_tid d) i;; m_persist a v ;;; finish C n d st (S i))%mprog Q).
  { intros ok'. destruct (negb ok'); [exact H|]. apply al_bind, al_word_address. intros off'. apply al_bind, al_persist; [exact I|]. apply IH. }
  apply al_bind. destruct (w =? _); [|apply Hrest]. apply al_bind, al_word_address. intros off'. apply al_bind, al_CASField; [exact I|apply Tarr|]. intros c. apply Hrest.
Qed.
Lemma al_pmwcas n d a (Q : bool -> Prop) : d_seq d < 2 ^ 61 -> (forall b, Q b) -> al (pmwcas C n me d a) Q.
Proof.
  revert d a Q. induction n as [|n IH]; intros d a Q Hd H; [exact I|]. cbn [pmwcas]. apply al_bind, al_thread. apply al_bind.
  assert (Hs : forall s, al (st <-- place C n (fun d' a => pmwcas C n me d' (Some a)) me d s false;;
      (if (st =? Succeeded)%N then persist_words C n (d_tid d) 0 else MRet tt) ;;;
      let mOld := kmut_encode (mkKmut false Undecided (d_seq d)) in
      let mNew := kmut_encode (mkKmut true st (d_seq d)) in
      c <-- CASField C d mOld mNew (LK (d_tid d));;
      m_persist (LK (d_tid d)) mNew ;;;
      if negb (snd c) then MRet false
      else finish C n d st 0 ;;; MRet (st =? Succeeded)%N)%mprog Q).
  { intros s. apply al_bind, al_place; [intros d' off R Hd' HR; apply IH; assumption|]. intros st Hst. apply al_bind.
    assert (Hrest : al (let mOld := kmut_encode (mkKmut false Undecided (d_seq d)) in
      let mNew := kmut_encode (mkKmut true st (d_seq d)) in
      c <-- CASField C d mOld mNew (LK (d_tid d));;
      m_persist (LK (d_tid d)) mNew ;;;
      if negb (snd c) then MRet false
      else finish C n d st 0 ;;; MRet (st =? Succeeded)%N)%mprog Q).
    { cbn zeta. apply al_bind, al_CASField; [exact I|apply Tlk; assumption|]. intros c. apply al_bind, al_persist; [exact I|]. destruct (negb _); [apply H|].
      apply al_bind, al_finish. apply H. }
    destruct (st =? Succeeded); [apply al_persist_words|]; exact Hrest. }
  destruct a as [a|]; [apply al_find_start|]; apply Hs.
Qed.
Lemma al_PMwCASRead n off (Q : N -> Prop) : (forall v, Q v) -> al (PMwCASRead C n me (LArr off)) Q.
Proof.
  intros H. induction n as [|n IH]; [exact I|]. cbn [PMwCASRead]. apply al_bind, al_load. intros v. destruct (isMarked v RDCSSFlag).
  - apply al_bind, al_assert. apply al_bind, al_completeInstall. intros _. exact IH.
  - assert (Hrest : al (let v := clean v in if isMarked v PMwCASFlag then pmwcas C n me (desc_decode (2 ^ m_log C) v) None ;;; PMwCASRead C n me (LArr off) else MRet v)%mprog Q).
    { cbn zeta. destruct (isMarked _ _); [apply al_bind, al_pmwcas; [apply (seq_61 _ _ HC), decode_seq_lt, HC|intros _; exact IH]|apply H]. }
    apply al_bind. destruct (isMarked v DirtyFlag); [apply al_persist; [exact I|]|]; exact Hrest.
Qed.
Lemma al_mwCAS n off old new (Q : bool * N -> Prop) : (forall v, Q v) -> al (mwCAS C n me (LArr off) old new) Q.
Proof.
  intros H. induction n as [|n IH]; [exact I|]. cbn [mwCAS]. apply al_bind, al_pcas; [exact I|apply Tarr|]. intros r. destruct (fst r); [apply H|]. cbn zeta.
  destruct (_ && _); [apply H|]. apply al_bind.
  assert (H3 : al ((if isMarked (clean (snd r)) PMwCASFlag then pmwcas C n me (desc_decode (2 ^ m_log C) (clean (snd r))) None ;;; MRet tt else MRet tt) ;;; mwCAS C n me (LArr off) old new)%mprog Q).
  { apply al_bind. destruct (isMarked _ PMwCASFlag); [apply al_bind, al_pmwcas; [apply (seq_61 _ _ HC), decode_seq_lt, HC|intros _]|]; exact IH. }
  assert (H2 : al ((if isMarked (snd r) DirtyFlag then m_persist (LArr off) (snd r) else MRet tt) ;;;
    (if isMarked (clean (snd r)) PMwCASFlag then pmwcas C n me (desc_decode (2 ^ m_log C) (clean (snd r))) None ;;; MRet tt else MRet tt) ;;; mwCAS C n me (LArr off) old new)%mprog Q).
  { apply al_bind. destruct (isMarked _ DirtyFlag); [apply al_persist; [exact I|]|]; exact H3. }
  destruct (isMarked _ RDCSSFlag); [|exact H2]. apply al_bind, al_assert. apply al_bind, al_completeInstall. intros _. exact H2.
Qed.

Context (Tk : forall q, T (MStore (LK me) (kmut_encode (mkKmut true Undecided q)))) (Tkc : forall v, T (MStore (LKCount me) v)) (Tkw : forall i f v, T (MStore (LKWord me i f) v)).
Lemma al_store_words i l (Q : unit -> Prop) : Q tt -> al (store_words me i l) Q.
Proof.
  intros H. revert i. induction l as [|x l IH]; intros i; [exact H|]. cbn [store_words].
  do 3 (apply al_bind, al_do; [apply Tkw|]; intros _). apply IH.
Qed.
Lemma al_createK ws (Q : descref -> Prop) : (forall d, d_seq d < 2 ^ 61 -> Q d) -> al (createK C me ws) Q.
Proof.
  intros H. apply al_bind, al_assert. apply al_bind, al_assert. apply al_bind, al_thread. apply al_bind, al_read; [exact I|]. intros w. cbn zeta.
  apply al_bind, al_do; [apply Tk|]. intros _. apply al_bind, al_persist; [exact I|]. apply al_bind, al_assert.
  apply al_bind, al_do; [apply Tkc|]. intros _. apply al_bind, al_store_words. apply al_bind, al_load. intros w'.
  apply al_bind, al_assert. apply al_bind, al_do; [apply Tk|]. intros _. apply al_bind, al_persist; [exact I|]. apply H.
  cbn [d_seq]. apply (seq_61 _ _ HC), N.mod_lt, N.pow_nonzero. discriminate.
Qed.
Lemma al_PMwCAS n ws (Q : bool -> Prop) : (forall b, Q b) -> al (PMwCAS C n me ws) Q.
Proof. intros H. apply al_bind, al_assert. apply al_bind, al_createK. intros d Hd. apply al_pmwcas; [exact Hd|exact H]. Qed.
Lemma al_mop n o (Q : mrsp -> Prop) : (forall r, Q r) -> al (mop_prog C n me o) Q.
Proof.
  intros H. destruct o as [ws|i|i old new]; cbn [mop_prog].
  - apply al_bind, al_PMwCAS. intros b. apply H.
  - apply al_bind, al_address. apply al_bind, al_PMwCASRead. intros v. apply H.
  - apply al_bind, al_address. apply al_bind, al_mwCAS. intros v. apply H.
Qed.
End Alls.

(** For the discipline of the dirty flag. *)
Lemma tidy_facts ck me : (forall l, tidy ck (MLoad l)) /\ (forall l e, has_flag l -> tidy ck (MCas l e (clean e))) /\ (forall j e n, tidy ck (MCas (LArr j) e (dirty n))) /\
  (forall t q st, q < 2 ^ 61 -> st = Succeeded \/ st = Failed -> tidy ck (MCas (LK t) (kenc Undecided q) (dirty (kmut_encode (mkKmut true st q))))) /\
  (forall q, tidy ck (MStore (LW me) (wmut_encode (mkWmut true q)))) /\ (forall f v, tidy ck (MStore (LWWord me f) v)) /\
  (forall v, tidy ck (MStore (LWSeq me) v)) /\ (forall v, tidy ck (MStore (LWTid me) v)) /\ (forall q, tidy ck (MStore (LK me) (kmut_encode (mkKmut true Undecided q)))).
Proof.
  split; [intros; exact I|]. split; [intros l e H; split; [exact H|right; reflexivity]|]. split; [intros; split; [exact I|left; apply isMarked_dirty_dirty]|].
  split; [intros; split; [exact I|left; apply isMarked_dirty_dirty]|]. split; [intros q; split; [intros _; apply wmut_dirty|exact I]|].
  do 3 (split; [intros; split; [intros []|exact I]|]). intros q. split; [intros _; apply kmut_dirty|exact I].
Qed.
Ltac tidies ck me := destruct (tidy_facts ck me) as (T1 & T2 & T3 & T4 & T5 & T6 & T7 & T8 & T9).
Lemma tidy_mop C n me o : mcfg_ok C -> alls (tidy false) (mop_prog C n me o) (fun _ => True).
Proof. intros HC. tidies false me. apply al_mop; auto; intros; split; try reflexivity; intros []. Qed.
Lemma tidy_pmwcas C n me d a ck : mcfg_ok C -> d_seq d < 2 ^ 61 -> alls (tidy ck) (pmwcas C n me d a) (fun _ => True).
Proof. intros HC Hd. tidies ck me. apply al_pmwcas; auto. Qed.
Lemma tidy_completeInstall C d ck : alls (tidy ck) (completeInstall C d) (fun _ => True).
Proof. tidies ck 0. apply al_completeInstall; auto. Qed.

(** ** A cell without the flag survives *)

Lemma clean_survive_exec ck c s : tidy ck c -> clean_survive s -> clean_survive (snd (dexec c (dpre c s))).
Proof.
  intros Ht Hs x Hx. destruct (decide (cmd_loc c = x)) as [<-|Hn].
  2: { rewrite dexec_mem, dpre_mem, mexec_elsewhere by exact Hn. intros Hd. apply survives_same.
       - rewrite dexec_mem, dpre_mem. apply mexec_elsewhere, Hn.
       - apply survives_pre, Hs; assumption. }
  rewrite dexec_mem, dpre_mem. destruct c as [l|l v|l e n]; cbn [cmd_loc mexec snd] in *.
  - intros Hd. apply survives_same; [rewrite dexec_mem, dpre_mem; reflexivity|]. apply survives_pre, Hs; assumption.
  - rewrite upd_same. intros Hd. destruct Ht as [Ht _]. rewrite Ht in Hd by exact Hx. discriminate.
  - destruct (N.eqb_spec (ds_mem s l) e) as [E|E]; cbn [snd].
    + rewrite upd_same. intros Hd. destruct Ht as [_ [Ht| ->]]; [congruence|].
      apply survives_exec.
      * rewrite dexec_mem, dpre_mem. cbn [mexec]. rewrite E, N.eqb_refl. cbn [snd]. rewrite upd_same. apply clean_clean.
      * unfold dpre, flushes. rewrite N.eqb_refl. apply flush_survives.
    + intros Hd. apply survives_same.
      * rewrite dexec_mem, dpre_mem. cbn [mexec]. rewrite (proj2 (N.eqb_neq _ _) E). reflexivity.
      * apply survives_pre, Hs; assumption.
Qed.
Lemma clean_survive_start m : clean_survive (dstart m).
Proof. intros l _ _ v. cbn. rewrite elem_of_list_In. intros [<-|[]]. reflexivity. Qed.

Definition thr_ok (th : mthread) : Prop := match mt_cur th with Some (_, p) => alls (tidy false) p (fun _ => True) | None => True end.
Definition sys_ok (y : dsys) : Prop := clean_survive (dy_st y) /\ forall i th, dy_thr y !! i = Some th -> thr_ok th.
Lemma sys_ok_step C n i y : mcfg_ok C -> sys_ok y -> sys_ok (dtstep C n false i y).
Proof.
  intros HC [Hs Ht]. unfold dtstep. destruct (dy_thr y !! i) as [th|] eqn:Ei; [|split; assumption]. pose proof (Ht i th Ei) as Hth. unfold thr_ok in Hth.
  assert (Hins : forall th', thr_ok th' -> forall k th0, <[i := th']> (dy_thr y) !! k = Some th0 -> thr_ok th0).
  { intros th' H' k th0 Hk. apply list_lookup_insert_Some in Hk as [(_ & <- & _)|[_ Hk]]; [exact H'|]. eapply Ht, Hk. }
  destruct (mt_cur th) as [[o [r|e|c k]]|].
  - split; [exact Hs|]. cbn [dy_thr]. apply Hins. exact I.
  - split; assumption.
  - cbn [negb]. cbn zeta. destruct Hth as [Htc Hk]. pose proof (clean_survive_exec false c (dy_st y) Htc Hs) as Hs'.
    destruct (dexec c (dpre c (dy_st y))) as [r s']. split; [exact Hs'|]. cbn [dy_thr]. apply Hins. apply Hk.
  - destruct (mt_todo th) as [|o os]; [split; assumption|]. split; [exact Hs|]. cbn [dy_thr]. apply Hins. apply tidy_mop, HC.
Qed.
Lemma always_clean_survive C n m todos sched : mcfg_ok C -> clean_survive (dy_st (dafter C n false m todos sched)).
Proof.
  intros HC. enough (H : forall y, sys_ok y -> sys_ok (dconc C n false sched y)).
  { apply H. split; [apply clean_survive_start|]. intros i th Hi. apply list_lookup_fmap_Some in Hi as (os & H1 & H2). subst th. exact I. }
  induction sched as [|i sched IH]; intros y Hy; [exact Hy|]. cbn [dconc]. apply IH, sys_ok_step; assumption.
Qed.

(** ** A thread alone *)

Fixpoint dwp {A : Type} (p : mprog A) (Q : A -> dst -> Prop) (s : dst) : Prop :=
  match p with
  | MRet a => Q a s
  | MErr _ => True
  | MVis c k => let (r, s') := dexec c (dpre c s) in dwp (k r) Q s'
  end.
Lemma dwp_bind {A B} (p : mprog A) (f : A -> mprog B) Q s : dwp p (fun a s' => dwp (f a) Q s') s -> dwp (mbind p f) Q s.
Proof. revert s. induction p as [a|e|c k IH]; intros s; cbn; [auto|auto|]. destruct (dexec c (dpre c s)) as [r s']. apply IH. Qed.
Lemma dwp_mono {A} (p : mprog A) (Q Q' : A -> dst -> Prop) s : dwp p Q s -> (forall a s', Q a s' -> Q' a s') -> dwp p Q' s.
Proof. revert s. induction p as [a|e|c k IH]; intros s; cbn; [auto|auto|]. destruct (dexec c (dpre c s)) as [r s']. apply IH. Qed.
Lemma dwp_run {A} (p : mprog A) (Q : A -> dst -> Prop) s a s' : dwp p Q s -> drun p s = DOk a s' -> Q a s'.
Proof.
  revert s. induction p as [b|e|c k IH]; intros s; cbn; [intros H E; injection E as -> ->; exact H|discriminate|]. destruct (dexec c (dpre c s)) as [r s1]. apply IH.
Qed.
(** What the commands of a program preserve. *)
Lemma dwp_alls {A} (T : mcmd -> Prop) (p : mprog A) (Q : A -> Prop) (J : dst -> Prop) s : (forall c s, T c -> J s -> J (snd (dexec c (dpre c s)))) ->
  alls T p Q -> J s -> dwp p (fun a s' => Q a /\ J s') s.
Proof.
  intros HJ. revert s. induction p as [a|e|c k IH]; intros s; cbn; [auto|auto|]. intros [Ht H] Hs. specialize (HJ c s Ht Hs) as Hs'.
  destruct (dexec c (dpre c s)) as [r s']. apply IH; [apply H|exact Hs'].
Qed.

(** The words of the descriptors of calls. *)
Definition kcell (l : loc) : Prop := match l with LKCount _ | LKWord _ _ _ => True | _ => False end.
Definition ksame (s0 s : dst) : Prop := forall l, kcell l -> ds_mem s l = ds_mem s0 l.
Lemma ksame_exec s0 c s : tidy true c -> ksame s0 s -> ksame s0 (snd (dexec c (dpre c s))).
Proof.
  intros Ht H l Hl. rewrite <- (H l Hl), dexec_mem, dpre_mem. destruct c as [x|x v|x e n]; [reflexivity| |]; apply mexec_elsewhere; cbn; intros ->.
  - destruct Ht as [_ Ht]. destruct l; try contradiction; discriminate.
  - destruct Ht as [Ht _]. destruct l; contradiction.
Qed.

Lemma sq_clean w : sq (clean w) = sq w.
Proof. unfold sq. cbn. apply field_clean. lia. Qed.

Section Alone.
Context (C : mcfg) (t q : N) (s0 : dst).
Local Notation d := (kdesc q t).

Record J (S : loc -> Prop) (s : dst) : Prop := {
  j_same : ksame s0 s;
  j_seq : sq (ds_mem s (LK t)) = q;
  j_surv : forall l, S l -> survives s l;
}.
Lemma J_weaken (S S' : loc -> Prop) s : (forall l, S' l -> S l) -> J S s -> J S' s.
Proof. intros H [H1 H2 H3]. split; [exact H1|exact H2|]. intros l Hl. apply H3, H, Hl. Qed.

Lemma d_load S l (Q : N -> dst -> Prop) s : J S s -> (forall s', J S s' -> Q (ds_mem s l) s') -> dwp (mdo (MLoad l)) Q s.
Proof.
  intros HJ H. cbn. apply H. destruct HJ as [H1 H2 H3]. split; [exact H1|exact H2|]. intros x Hx. apply (survives_same (MLoad l) x s); [reflexivity|]. apply H3, Hx.
Qed.
Lemma d_cas (S S' : loc -> Prop) l e n (Q : bool * N -> dst -> Prop) s : J S s -> has_flag l ->
  (l = LK t -> ds_mem s l = e -> sq n = q) ->
  (forall x, S' x -> S x \/ flushes (MCas l e n) = Some x) ->
  (S' l -> clean n = clean e) ->
  (forall r s', J S' s' -> Q r s') -> dwp (mdo (MCas l e n)) Q s.
Proof.
  intros [H1 H2 H3] Hl Hsq HS HSl H. unfold mdo. cbn [dwp]. pose proof (dexec_mem (MCas l e n) (dpre (MCas l e n) s)) as Em. rewrite dpre_mem in Em.
  assert (Hsurv : forall x, S' x -> survives (snd (dexec (MCas l e n) (dpre (MCas l e n) s))) x).
  { intros x Hx. assert (Hp : survives (dpre (MCas l e n) s) x).
    { destruct (HS x Hx) as [Hx'|Hf]; [apply survives_pre, H3, Hx'|]. unfold dpre. rewrite Hf. apply flush_survives. }
    apply survives_exec; [|exact Hp]. rewrite Em, dpre_mem. cbn [mexec]. destruct (N.eqb_spec (ds_mem s l) e) as [E|E]; [|reflexivity]. cbn [snd].
    destruct (decide (x = l)) as [->|Hn]; [rewrite upd_same, HSl by exact Hx; congruence|rewrite upd_other by exact Hn; reflexivity]. }
  destruct (dexec (MCas l e n) (dpre (MCas l e n) s)) as [r s']. cbn [snd] in *. apply H. split; [| |exact Hsurv].
  - intros x Hx. rewrite Em, <- (H1 x Hx). apply mexec_elsewhere. cbn. intros ->. destruct x; contradiction.
  - rewrite Em. cbn [mexec]. destruct (N.eqb_spec (ds_mem s l) e) as [E|E]; [|exact H2]. cbn [snd]. destruct (decide (LK t = l)) as [<-|Hn].
    + rewrite upd_same. apply Hsq; [reflexivity|exact E].
    + rewrite upd_other by exact Hn. exact H2.
Qed.
Lemma d_persist S l v (Q : unit -> dst -> Prop) s : J S s -> has_flag l -> (forall s', J (fun x => S x \/ x = l) s' -> Q tt s') -> dwp (m_persist l v) Q s.
Proof.
  intros HJ Hl H. apply dwp_bind. apply (d_cas S (fun x => S x \/ x = l)); [exact HJ|exact Hl| | | |].
  - intros -> <-. rewrite sq_clean. apply HJ.
  - intros x [Hx| ->]; [left; exact Hx|right]. cbn. rewrite N.eqb_refl. reflexivity.
  - intros _. apply clean_clean.
  - intros r s' HJ'. cbn. apply H, HJ'.
Qed.
Lemma d_read S l (Q : N -> dst -> Prop) s : J S s -> has_flag l -> (forall v s', J S s' -> (l = LK t -> sq v = q) -> Q v s') -> dwp (m_read l) Q s.
Proof.
  intros HJ Hl H. apply dwp_bind. eapply d_load; [exact HJ|]. intros s' HJ'. apply dwp_bind.
  assert (Hv : l = LK t -> sq (clean (ds_mem s l)) = q) by (intros ->; rewrite sq_clean; apply HJ).
  destruct (isMarked _ _); [|cbn; apply H; assumption]. eapply d_persist; [exact HJ'|exact Hl|]. intros s2 HJ2. cbn. apply H; [|exact Hv].
  eapply J_weaken; [|exact HJ2]. cbn. auto.
Qed.
Lemma d_assert b S (Q : unit -> dst -> Prop) s : J S s -> Q tt s -> dwp (massert C b) Q s.
Proof. intros _ H. unfold massert. destruct (_ || _); [exact H|exact I]. Qed.
Lemma d_thread u S (Q : unit -> dst -> Prop) s : J S s -> Q tt s -> dwp (thread_ok C u) Q s.
Proof. intros _ H. unfold thread_ok. destruct (_ <? _); [exact H|exact I]. Qed.
Lemma d_pcas S l e n (Q : bool * N -> dst -> Prop) s : J S s -> has_flag l -> (l = LK t -> sq (dirty n) = q) ->
  (forall r s', J (fun x => S x /\ x <> l) s' -> Q r s') -> dwp (m_pcas C l e n) Q s.
Proof.
  intros HJ Hl Hn H. apply dwp_bind. eapply d_read; [exact HJ|exact Hl|]. intros v s1 HJ1 _. apply dwp_bind.
  apply (d_cas S (fun x => S x /\ x <> l)); [exact HJ1|exact Hl|intros E _; apply Hn, E|intros x [Hx _]; left; exact Hx|intros [_ F]; contradiction|].
  intros r s' HJ'. cbn zeta. apply dwp_bind. eapply d_assert; [exact HJ'|]. cbn. apply H, HJ'.
Qed.
Lemma d_getSeq S (Q : N -> dst -> Prop) s : J S s -> (forall s', J S s' -> Q q s') -> dwp (getSeq C d) Q s.
Proof.
  intros HJ H. unfold getSeq. cbn [d_isKCAS d_isRDCSS d_tid kdesc andb negb]. apply dwp_bind. eapply d_thread; [exact HJ|]. apply dwp_bind.
  eapply d_read; [exact HJ|exact I|]. intros v s' HJ' Hv. cbn. change (Q (sq v) s'). rewrite Hv by reflexivity. apply H, HJ'.
Qed.
Lemma d_CASField S l e n (Q : bool * N * bool -> dst -> Prop) s : J S s -> has_flag l -> (l = LK t -> sq (dirty n) = q) ->
  (forall r v s', J (fun x => S x /\ x <> l) s' -> Q (r, v, true) s') -> dwp (CASField C d e n l) Q s.
Proof.
  intros HJ Hl Hn H. apply dwp_bind. eapply d_read; [exact HJ|exact Hl|]. intros v s1 HJ1 _. apply dwp_bind. eapply d_getSeq; [exact HJ1|]. intros s2 HJ2.
  cbn [d_seq kdesc]. rewrite N.eqb_refl. cbn [negb]. destruct (negb _).
  - cbn. apply H. eapply J_weaken; [|exact HJ2]. cbn. tauto.
  - apply dwp_bind. eapply d_pcas; [exact HJ2|exact Hl|exact Hn|]. intros r s3 HJ3. cbn. apply H, HJ3.
Qed.
Local Notation off := (fun i => ds_mem s0 (LKWord t i WOff)).
Lemma d_word_address S i (Q : loc -> dst -> Prop) s : J S s -> (forall s', J S s' -> Q (LArr (off i)) s') -> dwp (word_address C t i) Q s.
Proof.
  intros HJ H. apply dwp_bind. eapply d_load; [exact HJ|]. intros s' HJ'. rewrite (j_same _ _ HJ) by exact I. unfold address. destruct (_ <? _); [apply H, HJ'|exact I].
Qed.
Lemma d_more S i (Q : bool -> dst -> Prop) s : J S s -> (forall s', J S s' -> Q (N.of_nat i <? ds_mem s0 (LKCount t)) s') -> dwp (more t i) Q s.
Proof. intros HJ H. apply dwp_bind. eapply d_load; [exact HJ|]. intros s' HJ'. rewrite (j_same _ _ HJ) by exact I. cbn. apply H, HJ'. Qed.

(** Installing the final values: each word is flushed after it was written. *)
Definition upto (i : nat) (l : loc) : Prop := exists j, (j < i)%nat /\ l = LArr (off j).
Lemma d_finish n st i (Q : unit -> dst -> Prop) s : J (upto i) s ->
  (forall s', J (upto (N.to_nat (ds_mem s0 (LKCount t)))) s' -> Q tt s') -> dwp (finish C n d st i) Q s.
Proof.
  intros HJ H. revert i s HJ. induction n as [|n IH]; intros i s HJ; [exact I|]. cbn [finish]. cbn [d_tid kdesc].
  change (mkDesc false true false q t) with d. apply dwp_bind. eapply d_more; [exact HJ|]. clear s HJ. intros s HJ.
  destruct (N.ltb_spec (N.of_nat i) (ds_mem s0 (LKCount t))) as [Hi|Hi].
  2: { cbn. apply H. eapply J_weaken; [|exact HJ]. intros l (j & Hj & ->). exists j. split; [lia|reflexivity]. }
  apply dwp_bind. eapply d_load; [exact HJ|]. intros s1 HJ1. generalize (ds_mem s (LKWord t i (if st =? Succeeded then WNew else WOld))). intros v. clear s HJ. cbn zeta.
  apply dwp_bind. eapply d_word_address; [exact HJ1|]. clear s1 HJ1. intros s HJ. apply dwp_bind. eapply d_CASField; [exact HJ|exact I|discriminate|]. clear s HJ. intros b w s HJ. cbn [fst snd negb].
  apply dwp_bind.
  assert (Hrest : forall s, J (fun x => upto i x /\ x <> LArr (off i)) s -> dwp (a <-- word_address C t i;; m_persist a v ;;; finish C n d st (S i))%mprog Q s).
  { clear s HJ. intros s HJ. apply dwp_bind. eapply d_word_address; [exact HJ|]. clear s HJ. intros s HJ. apply dwp_bind. eapply d_persist; [exact HJ|exact I|]. clear s HJ. intros s HJ.
    apply IH. eapply J_weaken; [|exact HJ]. intros l (j & Hj & ->). cbn. destruct (decide (LArr (off j) = LArr (off i))) as [->|Hne]; [right; reflexivity|left].
    split; [|exact Hne]. exists j. split; [|reflexivity]. assert (j <> i) by congruence. lia. }
  destruct (w =? _); [|cbn; apply Hrest, HJ]. apply dwp_bind. eapply d_word_address; [exact HJ|]. clear s HJ. intros s HJ. apply dwp_bind. eapply d_CASField; [exact HJ|exact I|discriminate|].
  clear s HJ. intros b' w' s HJ. cbn [snd dwp negb]. apply Hrest. eapply J_weaken; [|exact HJ]. cbn. tauto.
Qed.
End Alone.

(** The words that are stored in the descriptor. *)
Lemma dwp_store l v (Q : unit -> dst -> Prop) s : (forall s', ds_mem s' = upd (ds_mem s) l v -> Q tt s') -> dwp (mdo (MStore l v)) Q s.
Proof. intros H. cbn. apply H. reflexivity. Qed.
Lemma dwp_store_words t i l (Q : unit -> dst -> Prop) s :
  (forall s', ds_mem s' (LKCount t) = ds_mem s (LKCount t) -> (forall k, (k < i)%nat -> ds_mem s' (LKWord t k WOff) = ds_mem s (LKWord t k WOff)) ->
     (forall k x, l !! k = Some x -> ds_mem s' (LKWord t (i + k) WOff) = o_off x) -> Q tt s') -> dwp (store_words t i l) Q s.
Proof.
  revert i s. induction l as [|x l IH]; intros i s H.
  - cbn. apply H; [reflexivity|reflexivity|]. intros k x Hk. discriminate.
  - cbn [store_words]. apply dwp_bind, dwp_store. intros s1 E1. apply dwp_bind, dwp_store. intros s2 E2. apply dwp_bind, dwp_store. intros s3 E3. apply IH.
    intros s' Hc Hb Ha. assert (E : forall k, ds_mem s3 (LKWord t k WOff) = if Nat.eqb k i then o_off x else ds_mem s (LKWord t k WOff)).
    { intros k. rewrite E3, upd_other, E2, upd_other, E1 by discriminate. destruct (Nat.eqb_spec k i) as [->|Hn]; [apply upd_same|]. apply upd_other. congruence. }
    apply H.
    + rewrite Hc, E3, upd_other, E2, upd_other, E1 by discriminate. apply upd_other. discriminate.
    + intros k Hk. rewrite Hb by lia. rewrite E, (proj2 (Nat.eqb_neq k i)) by lia. reflexivity.
    + intros [|k] y Hy.
      * injection Hy as <-. rewrite Hb by lia. rewrite E, (proj2 (Nat.eqb_eq _ _)) by lia. reflexivity.
      * replace (i + S k)%nat with (S i + k)%nat by lia. apply Ha, Hy.
Qed.
Definition filled (t : N) (ws : list mword) (s : dst) : Prop :=
  ds_mem s (LKCount t) = N.of_nat (length ws) /\ forall k x, sort_words ws !! k = Some x -> ds_mem s (LKWord t k WOff) = o_off x.
Lemma filled_same t ws s0 s : ksame s0 s -> filled t ws s0 -> filled t ws s.
Proof. intros H [H1 H2]. split; [rewrite H by exact I; exact H1|]. intros k x Hk. rewrite H by exact I. apply H2, Hk. Qed.
Lemma dwp_assert C b (Q : unit -> dst -> Prop) s : Q tt s -> dwp (massert C b) Q s.
Proof. intros H. unfold massert. destruct (_ || _); [exact H|exact I]. Qed.
Lemma dwp_thread C u (Q : unit -> dst -> Prop) s : Q tt s -> dwp (thread_ok C u) Q s.
Proof. intros H. unfold thread_ok. destruct (_ <? _); [exact H|exact I]. Qed.
(** A program of which only the shape matters. *)
Lemma dwp_any {A} (p : mprog A) (Q : A -> dst -> Prop) s : alls (fun _ => True) p (fun _ => True) -> (forall a s', Q a s') -> dwp p Q s.
Proof. intros Hp H. eapply dwp_mono; [eapply (dwp_alls (fun _ => True) p _ (fun _ => True)); [auto|exact Hp|exact I]|]. intros a s' _. apply H. Qed.
Lemma dwp_createK C me ws (Q : descref -> dst -> Prop) s : (forall q s', q < 2 ^ seqSize (2 ^ m_log C) -> filled me ws s' -> Q (kdesc q me) s') -> dwp (createK C me ws) Q s.
Proof.
  intros H. apply dwp_bind, dwp_assert. apply dwp_bind, dwp_assert. apply dwp_bind, dwp_thread. apply dwp_bind, dwp_any; [apply al_read; cbn; auto|]. intros w s1. cbn zeta.
  apply dwp_bind, dwp_store. intros s2 _. apply dwp_bind, dwp_any; [apply al_persist; cbn; auto|]. intros _ s3. apply dwp_bind, dwp_assert.
  apply dwp_bind, dwp_store. intros s4 E4. apply dwp_bind, dwp_store_words. intros s5 Hc _ Ha. cbn [Nat.add] in Ha.
  assert (Hf : filled me ws s5) by (split; [rewrite Hc, E4; apply upd_same|exact Ha]).
  eapply dwp_mono.
  - eapply (dwp_alls (tidy true) _ (fun d => exists q, q < 2 ^ seqSize (2 ^ m_log C) /\ d = kdesc q me) (ksame s5)); [intros c x; apply ksame_exec| |intros l _; reflexivity].
    tidies true me. apply al_bind, al_load; [exact T1|]. intros w'. apply al_bind, al_assert. apply al_bind, al_do; [apply T9|]. intros _. apply al_bind, al_persist; [exact T2|exact I|].
    eexists. split; [|reflexivity]. apply N.mod_lt, N.pow_nonzero. discriminate.
  - intros d s' [(q & Hq & ->) Hs']. apply H; [exact Hq|]. eapply filled_same; eassumption.
Qed.

(** ** The calls *)

Lemma dwp_PMwCAS C n me ws s : mcfg_ok C ->
  dwp (PMwCAS C n me ws) (fun r s' => r = true -> forall x, In x ws -> survives s' (LArr (o_off x))) s.
Proof.
  intros HC. tidies true me. apply dwp_bind, dwp_assert. apply dwp_bind, dwp_createK. intros q s0 Hq Hf. destruct n as [|n]; [exact I|]. cbn [pmwcas]. cbn [d_tid kdesc]. apply dwp_bind, dwp_thread.
  apply dwp_bind. cbn [dwp]. change (mkDesc false true false q me) with (kdesc q me). pose proof (seq_61 _ _ HC Hq) as Hq61. apply dwp_bind.
  eapply dwp_mono; [apply (dwp_alls (tidy true) _ (fun st => st = Succeeded \/ st = Failed) (ksame s0)); [intros c x; apply ksame_exec| |intros l _; reflexivity]|].
  { apply al_place; auto. intros d' off R Hd' HR. apply al_pmwcas; auto. }
  intros st s1 [Hst' Hs1]. assert (Hst : st < 4) by (destruct Hst' as [-> | ->]; reflexivity). apply dwp_bind. eapply dwp_mono; [apply (dwp_alls (tidy true) _ (fun _ => True) (ksame s0)); [intros c x; apply ksame_exec| |exact Hs1]|].
  { destruct (st =? Succeeded); [apply al_persist_words; auto|exact I]. }
  clear s1 Hs1. intros _ s1 [_ Hs1]. cbn zeta. cbn [d_seq kdesc]. change (mkDesc false true false q me) with (kdesc q me).
  set (mOld := kmut_encode (mkKmut false Undecided q)). set (mNew := kmut_encode (mkKmut true st q)).
  assert (HNew : sq (dirty mNew) = q).
  { destruct (kenc_facts st q Hst Hq61) as (D & E & F). unfold mNew. rewrite F. rewrite <- sq_clean, !clean_dirty, E. unfold sq. rewrite D. reflexivity. }
  apply dwp_bind. unfold CASField. apply dwp_bind.
  (* the sequence number is the one of the call, or the call returns false *)
  eapply dwp_mono; [apply (dwp_alls (tidy true) _ (fun _ => True) (ksame s0)); [intros c x; apply ksame_exec|apply al_read; auto; exact I|exact Hs1]|].
  clear s1 Hs1. intros expVal s1 [_ Hs1]. apply dwp_bind.
  enough (Hseq : dwp (getSeq C (kdesc q me)) (fun v s' => ksame s0 s' /\ sq (ds_mem s' (LK me)) = v) s1).
  { eapply dwp_mono; [exact Hseq|]. clear s1 Hs1 Hseq. intros v s1 [Hs1 Hv]. cbn [d_seq kdesc]. destruct (N.eqb_spec q v) as [E|E]; cbn [negb].
    2: { cbn [dwp]. apply dwp_bind, dwp_any; [apply al_persist; cbn; auto|]. intros _ s2. cbn. discriminate. }
    assert (HJ : J me q s0 (fun _ => False) s1) by (split; [exact Hs1|congruence|intros l []]). clear Hs1 Hv E.
    assert (Hrest : forall c s2, J me q s0 (fun _ => False) s2 -> dwp (m_persist (LK me) mNew ;;; (if negb (snd (c : bool * N * bool)) then MRet false else finish C n (kdesc q me) st 0 ;;; MRet (st =? Succeeded)))%mprog
      (fun r s' => r = true -> forall x, In x ws -> survives s' (LArr (o_off x))) s2).
    { intros c s2 HJ2. apply dwp_bind. eapply d_persist; [exact HJ2|exact I|]. intros s3 HJ3. destruct (negb _); [cbn; discriminate|]. apply dwp_bind. eapply d_finish.
      - eapply J_weaken; [|exact HJ3]. intros l (j & Hj & _). lia.
      - intros s4 HJ4. cbn. intros _ x Hx. apply (j_surv _ _ _ _ _ HJ4).
        assert (Hx' : In x (sort_words ws)) by (eapply Permutation_in; [symmetry; apply sort_words_perm|exact Hx]).
        apply elem_of_list_In, elem_of_list_lookup in Hx' as (k & Hk). exists k. destruct Hf as [Hf1 Hf2]. split; [|f_equal; symmetry; apply Hf2, Hk].
        rewrite Hf1, Nnat.Nat2N.id, <- (sort_words_length ws). eapply lookup_lt_Some, Hk. }
    destruct (negb _).
    - cbn [dwp]. apply Hrest, HJ.
    - apply dwp_bind. eapply d_pcas; [exact HJ|exact I|intros _; exact HNew|]. intros r s2 HJ2. cbn [dwp]. apply Hrest. eapply J_weaken; [|exact HJ2]. intros l []. }
  unfold getSeq. cbn [d_isKCAS d_isRDCSS d_tid kdesc andb negb]. apply dwp_bind, dwp_thread. apply dwp_bind.
  eapply (d_read me (sq (ds_mem s1 (LK me))) s0 (fun _ => False)); [split; [exact Hs1|reflexivity|intros l []]|exact I|]. intros v s2 HJ2 Hv. cbn [dwp]. split; [apply HJ2|].
  change (sq (ds_mem s2 (LK me)) = sq v). rewrite (j_seq _ _ _ _ _ HJ2). symmetry. apply Hv. reflexivity.
Qed.

Lemma call_survives C n me ws s s' : mcfg_ok C -> drun (PMwCAS C n me ws) s = DOk true s' -> forall x, In x ws -> survives s' (LArr (o_off x)).
Proof. intros HC E. apply (dwp_run _ _ _ _ _ (dwp_PMwCAS C n me ws s HC) E). reflexivity. Qed.
Lemma call_outcome C n me ws b s : mcfg_ok C -> (mfuel C <= n)%nat -> (forall j, j < m_size C -> mval (contents (ds_mem s) j)) ->
  (forall t, t < 2 ^ m_log C -> seqs_le (ds_mem s) t b) -> me < 2 ^ m_log C -> legal_mop C (MwCas ws) -> b + mcost (MwCas ws) < 2 ^ seqSize (2 ^ m_log C) ->
  all_match (contents (ds_mem s)) ws = true ->
  exists s', drun (PMwCAS C n me ws) s = DOk true s' /\ forall x v, In x ws -> v ∈ ds_per s' (LArr (o_off x)) -> clean v = o_new x.
Proof.
  intros HC Hn Hv Hs Hme Hl Hb Hm. destruct (run_calls_correct C n [(me, MwCas ws)] (ds_mem s) b HC Hn Hv Hs) as (m' & E & Hc).
  { constructor; [split; assumption|constructor]. }
  { cbn [map snd mcosts]. rewrite N.add_0_r. exact Hb. }
  cbn [run_calls map snd mspecs mspec] in E, Hc. rewrite Hm in E, Hc. cbn [fst snd] in E, Hc.
  destruct (mrun (mop_prog C n me (MwCas ws)) (ds_mem s)) as [r m1|] eqn:Er; [|discriminate]. injection E as -> ->. cbn [mop_prog] in Er.
  pose proof (drun_mrun (PMwCAS C n me ws) s) as Hd.
  assert (Hbind : forall (p : mprog bool) m, mrun (r <-- p;; MRet (MBool r))%mprog m = match mrun p m with MOk a m' => MOk (MBool a) m' | MFail e m' => MFail e m' end).
  { induction p as [a|e|c k IH]; intros m; cbn; [reflexivity|reflexivity|]. destruct (mexec c m) as [r m2]. apply IH. }
  rewrite Hbind in Er. destruct (drun (PMwCAS C n me ws) s) as [r s'|e s'] eqn:Ed; rewrite Hd in Er; [|discriminate]. injection Er as -> <-.
  exists s'. split; [reflexivity|]. intros x v Hx Hin. rewrite (call_survives C n me ws s s' HC Ed x Hx v Hin). change (contents (ds_mem s') (o_off x) = o_new x).
  rewrite Hc. destruct Hl as (_ & _ & _ & Hnd & _). apply put_all_in; assumption.
Qed.

(** Reading. *)
Lemma dwp_persist_self l (Q : unit -> dst -> Prop) s : has_flag l -> clean_survive s ->
  (forall s', clean_survive s' -> survives s' l -> clean (ds_mem s' l) = clean (ds_mem s l) -> Q tt s') -> dwp (m_persist l (ds_mem s l)) Q s.
Proof.
  intros Hl Hs H. apply dwp_bind. unfold mdo. cbn [dwp]. set (c := MCas l (ds_mem s l) (clean (ds_mem s l))).
  assert (E : clean (ds_mem (snd (dexec c (dpre c s))) l) = clean (ds_mem s l)).
  { rewrite dexec_mem, dpre_mem. cbn. rewrite N.eqb_refl. cbn. rewrite upd_same. apply clean_clean. }
  assert (H1 : clean_survive (snd (dexec c (dpre c s)))) by (eapply (clean_survive_exec false); [split; [exact Hl|right; reflexivity]|exact Hs]).
  assert (H2 : survives (snd (dexec c (dpre c s))) l).
  { apply survives_exec; [rewrite E, dpre_mem; reflexivity|]. assert (Ef : flushes c = Some l) by (cbn; rewrite N.eqb_refl; reflexivity). unfold dpre. rewrite Ef. apply flush_survives. }
  destruct (dexec c (dpre c s)) as [r s']. apply H; assumption.
Qed.
Lemma dwp_PMwCASRead C n me j s : mcfg_ok C -> clean_survive s ->
  dwp (PMwCASRead C n me (LArr j)) (fun v s' => contents (ds_mem s') j = v /\ survives s' (LArr j)) s.
Proof.
  intros HC. revert s. induction n as [|n IH]; intros s Hs; [exact I|]. cbn [PMwCASRead]. apply dwp_bind. unfold mdo. cbn [dwp].
  pose proof (clean_survive_exec false (MLoad (LArr j)) s I Hs) as Hs1. pose proof (dexec_mem (MLoad (LArr j)) (dpre (MLoad (LArr j)) s)) as Em. pose proof (dexec_res (MLoad (LArr j)) (dpre (MLoad (LArr j)) s)) as Er.
  destruct (dexec (MLoad (LArr j)) (dpre (MLoad (LArr j)) s)) as [v s1]. cbn in Em, Er. subst v. rewrite <- Em. clear Em. cbn [snd] in Hs1. clear s Hs. rename s1 into s, Hs1 into Hs.
  assert (Hkeep : forall A (p : mprog A) (f : A -> mprog N) s, clean_survive s -> alls (tidy false) p (fun _ => True) ->
    (forall a s, clean_survive s -> dwp (f a) (fun v s' => contents (ds_mem s') j = v /\ survives s' (LArr j)) s) ->
    dwp (mbind p f) (fun v s' => contents (ds_mem s') j = v /\ survives s' (LArr j)) s).
  { intros A p f s1 Hs1 Hp Hf. apply dwp_bind. eapply dwp_mono; [apply (dwp_alls (tidy false) p (fun _ => True) clean_survive); [intros c x; apply clean_survive_exec|exact Hp|exact Hs1]|].
    intros a s2 [_ Hs2]. apply Hf, Hs2. }
  destruct (isMarked (ds_mem s (LArr j)) RDCSSFlag).
  - apply Hkeep; [exact Hs|apply al_assert; exact I|]. intros _ s1 Hs1. apply Hkeep; [exact Hs1|apply tidy_completeInstall|]. intros _ s2 Hs2. apply IH, Hs2.
  - assert (Hrest : forall s1, clean_survive s1 -> survives s1 (LArr j) -> clean (ds_mem s1 (LArr j)) = clean (ds_mem s (LArr j)) ->
      dwp (let v := clean (ds_mem s (LArr j)) in if isMarked v PMwCASFlag then pmwcas C n me (desc_decode (2 ^ m_log C) v) None ;;; PMwCASRead C n me (LArr j) else MRet v)%mprog
        (fun v s' => contents (ds_mem s') j = v /\ survives s' (LArr j)) s1).
    { intros s1 H1 H2 H3. cbn zeta. destruct (isMarked _ PMwCASFlag); [|split; assumption]. apply Hkeep; [exact H1|apply tidy_pmwcas; [exact HC|apply (seq_61 _ _ HC), decode_seq_lt, HC]|]. intros _ s2 Hs2. apply IH, Hs2. }
    apply dwp_bind. destruct (isMarked (ds_mem s (LArr j)) DirtyFlag) eqn:Ed.
    + apply dwp_persist_self; [exact I|exact Hs|exact Hrest].
    + cbn [dwp]. apply Hrest; [exact Hs|apply Hs; [exact I|exact Ed]|reflexivity].
Qed.
Lemma read_survives C n me j s v s' : mcfg_ok C -> clean_survive s -> drun (PMwCASRead C n me (LArr j)) s = DOk v s' -> contents (ds_mem s') j = v /\ survives s' (LArr j).
Proof. intros HC Hs E. exact (dwp_run _ _ _ _ _ (dwp_PMwCASRead C n me j s HC Hs) E). Qed.
