(** What the threads do for one another in the multi-word compare-and-swap of MwCas.v: vocabulary for its properties. *)
From Coq Require Import NArith Bool List.
From stdpp Require Import base list.
From Verif Require Import Word Codec MwCas MwSpec.
Import ListNotations.
Local Open Scope N_scope.

(** The sequence number of the word descriptor of thread [t]. *)
Definition wseq (m : mem) (t : N) : N := wm_seq (wmut_decode (m (LW t))).
(** References to the descriptors of thread [t]: to the one of a word, and to the one of a call. *)
Definition word_ref (s t : N) : descref := mkDesc false false true s t.
Definition call_ref (s t : N) : descref := mkDesc false true false s t.
Definition a_ref (d : descref) : Prop := exists s t, d = word_ref s t \/ d = call_ref s t.
(** The number that a reference has to have to be up to date. *)
Definition now (m : mem) (d : descref) : N := if d_isKCAS d then kseq m (d_tid d) else wseq m (d_tid d).
(** The words of the array as references. *)
Definition as_word (C : mcfg) (d : descref) : N := desc_encode (2 ^ m_log C) d.

(** Nothing changed but dirty bits that were cleared, apart from the locations [X]. *)
Definition cleaned_but (X : loc -> Prop) (m m' : mem) : Prop :=
  forall l, X l \/ m' l = m l \/ (m' l = clean (m l) /\ match l with LArr _ | LK _ | LW _ => True | _ => False end).
Definition cleaned : mem -> mem -> Prop := cleaned_but (fun _ => False).

(** The word descriptor of thread [t] describes a word of the array and a call of an existing thread. *)
Record word_ok (C : mcfg) (m : mem) (t : N) : Prop := {
  wo_thread : t < 2 ^ m_log C;
  wo_seq : wseq m t < 2 ^ seqSize (2 ^ m_log C);
  wo_off : m (LWWord t WOff) < m_size C;
  wo_ktid : m (LWTid t) < 2 ^ m_log C;
  wo_kseq : m (LWSeq t) < 2 ^ seqSize (2 ^ m_log C);
  wo_old : clean (m (LWWord t WOld)) = m (LWWord t WOld);
}.
(** Its call is neither over nor decided. *)
Definition under_way (m : mem) (t : N) : bool := (m (LWSeq t) =? kseq m (m (LWTid t))) && (kstat m (m (LWTid t)) =? Undecided).
(** What has to become of a word that refers to it: a reference to the call if this is still under way, otherwise the value
    that was there before. *)
Definition outcome (C : mcfg) (m : mem) (t : N) : N :=
  if under_way m t then as_word C (call_ref (m (LWSeq t)) (m (LWTid t))) else m (LWWord t WOld).
(** The word [j] refers to the word descriptor of thread [t], which describes this word. *)
Definition half_installed (C : mcfg) (m : mem) (t j : N) : Prop :=
  word_ok C m t /\ m (LWWord t WOff) = j /\ contents m j = as_word C (word_ref (wseq m t) t).
(** Every reference to a word descriptor is such a one; the values that were there before are no such references. *)
Definition helpable (C : mcfg) (m : mem) : Prop :=
  (forall t, t < 2 ^ m_log C -> m (LWWord t WOff) < m_size C) /\
  forall j, j < m_size C -> isMarked (contents m j) RDCSSFlag = true ->
    exists t, half_installed C m t j /\ isMarked (m (LWWord t WOld)) RDCSSFlag = false.
(** The word [j] once nothing is half installed in it. *)
Definition settled (C : mcfg) (m : mem) (j : N) : N :=
  if isMarked (contents m j) RDCSSFlag then outcome C m (d_tid (desc_decode (2 ^ m_log C) (contents m j))) else contents m j.
