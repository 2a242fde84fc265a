(** Executions of transition systems. *)
From Coq Require Import Lia Arith.

Inductive steps {St : Type} (R : St -> St -> Prop) : nat -> St -> St -> Prop :=
| steps_0 : forall s, steps R 0 s s
| steps_S : forall n s1 s2 s3, steps R n s1 s2 -> R s2 s3 -> steps R (S n) s1 s3.

(** Some execution leads from s to s'. *)
Definition reach {St} (R : St -> St -> Prop) (s s' : St) : Prop := exists n, steps R n s s'.

(** No step is possible. *)
Definition stuck {St} (R : St -> St -> Prop) (s : St) : Prop := forall s', ~ R s s'.

Lemma steps_inv {St} (R : St -> St -> Prop) (I : St -> Prop) :
  (forall s s', I s -> R s s' -> I s') ->
  forall n s s', I s -> steps R n s s' -> I s'.
Proof. intros H n s s' Hs Hst. induction Hst; eauto. Qed.

Lemma reach_inv {St} (R : St -> St -> Prop) (I : St -> Prop) :
  (forall s s', I s -> R s s' -> I s') ->
  forall s s', I s -> reach R s s' -> I s'.
Proof. intros H s s0 Hs [n Hn]. exact (steps_inv R I H _ _ _ Hs Hn). Qed.

Lemma steps_measure {St} (R : St -> St -> Prop) (I : St -> Prop) (m : St -> nat) :
  (forall s s', I s -> R s s' -> I s') ->
  (forall s s', I s -> R s s' -> m s' < m s) ->
  forall n s s', I s -> steps R n s s' -> n + m s' <= m s.
Proof.
  intros HI Hm n s s' Hs Hst. induction Hst; [lia|].
  specialize (IHHst Hs).
  pose proof (Hm _ _ (steps_inv R I HI _ _ _ Hs Hst) H). lia.
Qed.

Lemma steps_trans {St} (R : St -> St -> Prop) n m a b c : steps R n a b -> steps R m b c -> steps R (m + n) a c.
Proof. intros H1 H2. induction H2; [exact H1|]. simpl. econstructor; eauto. Qed.

Lemma reach_refl {St} (R : St -> St -> Prop) s : reach R s s.
Proof. exists 0. constructor. Qed.
Lemma reach_trans {St} (R : St -> St -> Prop) a b c : reach R a b -> reach R b c -> reach R a c.
Proof. intros [n H] [m H']. exists (m + n). eapply steps_trans; eauto. Qed.
Lemma reach_one {St} (R : St -> St -> Prop) a b : R a b -> reach R a b.
Proof. intros H. exists 1. econstructor; [constructor|exact H]. Qed.
