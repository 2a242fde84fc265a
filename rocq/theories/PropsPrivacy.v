(** Theorems about the law of the noise and about differential privacy. *)
From Coq Require Import Reals Psatz Bool ZArith List Lia.
From Coquelicot Require Import Coquelicot.
From Flocq Require Import Core.
From Verif Require Import NoiseReal PrivacySpec NoiseRealProofs PrivacyProofs.
Import ListNotations.
Local Open Scope R_scope.

(** The probability of an event is unique, so the theorems below may speak of
    any function [p] that gives the probability of each sample. *)
Lemma unit_prob_unique A p q : unit_prob A p -> unit_prob A q -> p = q.
Proof.
  intros (g & G1 & G2) (h & H1 & H2).
  assert (E : forall u, 0 < u < 1 -> g u = h u).
  { intros u Hu. rewrite <- (is_RInt_unique _ _ _ _ (G1 u Hu)). apply is_RInt_unique. apply H1. exact Hu. }
  rewrite <- (is_RInt_unique _ _ _ _ G2). apply is_RInt_unique. eapply is_RInt_ext; [|exact H2].
  intros u Hu. rewrite Rmin_left, Rmax_right in Hu by lra. symmetry. apply E. exact Hu.
Qed.

Lemma expect_ext p q m hist : (forall k, p k = q k) -> forall f, expect p m hist f = expect q m hist f.
Proof.
  intros E. induction hist as [|h hist IH]; intros f; cbn [expect]; [reflexivity|]. apply rsum_ext. intros z _. rewrite E, IH. reflexivity.
Qed.

(** C23: the untruncated noise has the Laplace law with scale 2/epsilon. *)
Theorem C23_laplace_law : forall span x, 0 < span ->
  unit_prob (fun u1 u2 => if Rlt_dec (laplaceR 0 span u1 u2) x then true else false) (laplace_cdf span x).
Proof. exact laplace_law. Qed.

(** C23: the cutoff is the positive point that the Laplace noise of scale
    2/epsilon exceeds with probability exactly delta/2. *)
Theorem C23_cutoff : forall epsilon delta, 0 < epsilon -> 0 < delta < 1 ->
  0 < cutoffR epsilon delta /\ 1 - laplace_cdf (2 / epsilon) (cutoffR epsilon delta) = delta / 2.
Proof. intros e d He Hd. split; [apply (cutoff_val e d He Hd)|apply (cutoff_tail e d He Hd)]. Qed.

(** C23: InvCDF is the upper quantile function at every probability. *)
Theorem C23_upper_quantile : forall span prob, 0 < span -> 0 < prob < 1 ->
  1 - laplace_cdf span (inv_cdfR 0 span prob) = prob.
Proof. exact inv_cdf_upper. Qed.

(** C23: a sample lies between 0 and floor(2*cutoff), and takes each value
    with the probability that the Laplace noise, shifted by the cutoff, falls
    in the unit interval above it (the two extreme values absorb the tails). *)
Theorem C23_sample_law : forall epsilon delta, 0 < epsilon -> 0 < delta < 1 ->
  let F x := laplace_cdf (2 / epsilon) (x - cutoffR epsilon delta) in
  let top := Zfloor (2 * cutoffR epsilon delta) in
  (forall u1 u2, (0 <= sampleR epsilon delta u1 u2 <= top)%Z) /\
  forall k : Z, (0 <= k <= top)%Z ->
    unit_prob (fun u1 u2 => Z.eqb (sampleR epsilon delta u1 u2) k)
      ((if Z.eqb k top then 1 else F (IZR k + 1)) - (if Z.eqb k 0 then 0 else F (IZR k))).
Proof.
  intros e d He Hd F t. destruct (cutoff_val e d He Hd) as (_ & Hb & Hc & _).
  assert (Ht : (0 <= t)%Z) by exact (topZ_nonneg e d Hc). split.
  - intros u1 u2. split.
    + apply Z.nlt_ge. intros C. apply (sample_below e d u1 u2 0 Hc) in C. exact C.
    + assert (sampleR e d u1 u2 < Z.of_nat (S (top e d)))%Z.
      { apply (sample_below e d u1 u2 (S (top e d)) Hc). destruct (le_dec _ _) as [C|C]; [lia|exact I]. }
      unfold top, topZ in *. fold t in H. lia.
  - intros k Hk. pose proof (pmf_law e d (Z.to_nat k) He Hd) as P. rewrite Z2Nat.id in P by lia.
    replace (_ - _) with (pmf e d (Z.to_nat k)); [exact P|]. unfold pmf.
    assert (T : top e d = Z.to_nat t) by reflexivity.
    assert (X : forall n, (0 <= n)%Z -> INR (Z.to_nat n) = IZR n) by (intros n Hn; rewrite INR_IZR_INZ, Z2Nat.id by lia; reflexivity).
    f_equal.
    + destruct (Z.eqb_spec k t) as [Hkt|Hkt].
      * apply G_out; lia.
      * rewrite G_in by lia. unfold F. rewrite S_INR, X by lia. reflexivity.
    + destruct (Z.eqb_spec k 0) as [->|Hk0]; [reflexivity|]. rewrite G_in by lia. unfold F. rewrite X by lia. reflexivity.
Qed.

(** C24: counts released with this noise are
    (epsilon, (e^(epsilon/2) + e^epsilon) delta)-differentially private. *)
Theorem C24_private : forall epsilon delta p, 0 < epsilon -> 0 < delta < 1 ->
  (forall k, unit_prob (fun u1 u2 => Z.eqb (sampleR epsilon delta u1 u2) (Z.of_nat k)) (p k)) ->
  private p (Z.to_nat (Zfloor (2 * cutoffR epsilon delta))) epsilon ((exp (epsilon / 2) + exp epsilon) * delta).
Proof.
  intros e d p He Hd Hp hist hist' N f Hf.
  assert (E : forall k, p k = pmf e d k) by (intros k; eapply unit_prob_unique; [apply Hp|apply pmf_law; assumption]).
  rewrite !(expect_ext p (pmf e d) _ _ E). exact (mechanism_private e d He Hd hist hist' N f Hf).
Qed.

(** C24: they are not (epsilon, delta)-differentially private in the usual
    range of parameters. *)
Theorem C24_not_plain_delta : forall epsilon delta p, 0 < epsilon -> 0 < delta < 1 ->
  (forall k, unit_prob (fun u1 u2 => Z.eqb (sampleR epsilon delta u1 u2) (Z.of_nat k)) (p k)) ->
  delta <= exp (- (epsilon / 2)) -> exp (epsilon / 2) * delta < 2 * (exp (epsilon / 2) - 1) ->
  ~ private p (Z.to_nat (Zfloor (2 * cutoffR epsilon delta))) epsilon delta.
Proof.
  intros e d p He Hd Hp H1 H2 P. apply (plain_delta_fails e d He Hd H1 H2).
  assert (E : forall k, p k = pmf e d k) by (intros k; eapply unit_prob_unique; [apply Hp|apply pmf_law; assumption]).
  intros hist hist' N f Hf. rewrite <- !(expect_ext p (pmf e d) _ _ E). exact (P hist hist' N f Hf).
Qed.

(** The hypotheses are met: every epsilon and delta have such a [p] ... *)
Example C24_has_law : forall epsilon delta, 0 < epsilon -> 0 < delta < 1 ->
  exists p, forall k, unit_prob (fun u1 u2 => Z.eqb (sampleR epsilon delta u1 u2) (Z.of_nat k)) (p k).
Proof. intros e d He Hd. exists (pmf e d). intros k. apply pmf_law; assumption. Qed.

(** ... and epsilon = 1, delta = e^-2 are in the range of the refutation. *)
Example C24_range : 0 < exp (-2) < 1 /\ exp (-2) <= exp (- (1 / 2)) /\ exp (1 / 2) * exp (-2) < 2 * (exp (1 / 2) - 1).
Proof.
  pose proof (exp_ineq1 (1 / 2) ltac:(lra)). rewrite <- exp_plus.
  assert (exp (1 / 2 + -2) < exp 0) by (apply exp_increasing; lra). assert (exp (-2) < exp 0) by (apply exp_increasing; lra).
  assert (exp (-2) < exp (- (1 / 2))) by (apply exp_increasing; lra). rewrite exp_0 in *. pose proof (exp_pos (-2)). lra.
Qed.
(** There are neighbouring histograms over a three-row database. *)
Example C24_neighbours : neighbours [3; 5; 2]%nat [2; 5; 3]%nat.
Proof. exact (nb_left [] [5%nat] [] 2 2). Qed.
Example C23_span_example : 0 < 2 / 1 /\ laplace_cdf 2 0 = 1 / 2.
Proof. split; [lra|]. unfold laplace_cdf. destruct (Rle_dec 0 0); [|lra]. replace (0 / 2) with 0 by lra. rewrite exp_0. lra. Qed.

Print Assumptions C23_laplace_law.
Print Assumptions C23_cutoff.
Print Assumptions C23_upper_quantile.
Print Assumptions C23_sample_law.
Print Assumptions C24_private.
Print Assumptions C24_not_plain_delta.
