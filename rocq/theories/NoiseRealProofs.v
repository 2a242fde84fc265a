(** The sampler follows the (clamped, rounded) Laplace law. *)
From Coq Require Import Reals Psatz Bool ZArith.
From Coquelicot Require Import Coquelicot.
From Flocq Require Import Core.
From Verif Require Import NoiseReal PrivacySpec.
Local Open Scope R_scope.

Lemma chasles (f : R -> R) a b c l1 l2 : is_RInt f a b l1 -> is_RInt f b c l2 -> is_RInt f a c (l1 + l2).
Proof. exact (@is_RInt_Chasles R_NormedModule f a b c l1 l2). Qed.

Lemma const_int a b v w : w = (b - a) * v -> is_RInt (fun _ : R => v) a b w.
Proof. intros ->. exact (@is_RInt_const R_NormedModule a b v). Qed.

Lemma is_RInt_interval a b : 0 <= a -> a <= b -> b <= 1 ->
  forall f : R -> R, (forall u, 0 < u < a -> f u = 0) -> (forall u, a < u < b -> f u = 1) -> (forall u, b < u < 1 -> f u = 0) ->
  is_RInt f 0 1 (b - a).
Proof.
  intros H0 Hab H1 f F0 F1 F2.
  assert (I0 : is_RInt f 0 a 0).
  { apply (is_RInt_ext (fun _ => 0)); [intros u Hu; rewrite Rmin_left, Rmax_right in Hu by lra; symmetry; apply F0; exact Hu|].
    apply const_int. lra. }
  assert (I1 : is_RInt f a b (b - a)).
  { apply (is_RInt_ext (fun _ => 1)); [intros u Hu; rewrite Rmin_left, Rmax_right in Hu by lra; symmetry; apply F1; exact Hu|].
    apply const_int. lra. }
  assert (I2 : is_RInt f b 1 0).
  { apply (is_RInt_ext (fun _ => 0)); [intros u Hu; rewrite Rmin_left, Rmax_right in Hu by lra; symmetry; apply F2; exact Hu|].
    apply const_int. lra. }
  replace (b - a) with (0 + (b - a) + 0) by lra.
  exact (chasles _ _ _ _ _ _ (chasles _ _ _ _ _ _ I0 I1) I2).
Qed.

Lemma is_RInt_outside a b : 0 <= a -> a <= b -> b <= 1 ->
  forall f : R -> R, (forall u, 0 < u < a -> f u = 1) -> (forall u, a < u < b -> f u = 0) -> (forall u, b < u < 1 -> f u = 1) ->
  is_RInt f 0 1 (1 - (b - a)).
Proof.
  intros H0 Hab H1 f F0 F1 F2.
  assert (I : is_RInt (fun u => 1 - f u) 0 1 (b - a)).
  { apply is_RInt_interval; auto; intros u Hu; [rewrite F0 by exact Hu|rewrite F1 by exact Hu|rewrite F2 by exact Hu]; lra. }
  assert (C : is_RInt (fun _ : R => 1) 0 1 1).
  { apply const_int. lra. }
  pose proof (is_RInt_minus _ _ _ _ _ _ C I) as M.
  apply (is_RInt_ext _ f) in M; [exact M|]. intros u _. unfold minus, plus, opp; cbn. lra.
Qed.

Lemma is_RInt_all c (f : R -> R) : (forall u, 0 < u < 1 -> f u = c) -> is_RInt f 0 1 c.
Proof.
  intros H. apply (is_RInt_ext (fun _ => c)).
  - intros u Hu. rewrite Rmin_left, Rmax_right in Hu by lra. symmetry. apply H. exact Hu.
  - apply const_int. lra.
Qed.

Lemma is_RInt_half l r (f : R -> R) : (forall u, 0 < u < 1 / 2 -> f u = l) -> (forall u, 1 / 2 < u < 1 -> f u = r) ->
  is_RInt f 0 1 ((l + r) / 2).
Proof.
  intros Hl Hr.
  assert (I0 : is_RInt f 0 (1 / 2) (l / 2)).
  { apply (is_RInt_ext (fun _ => l)); [intros u Hu; rewrite Rmin_left, Rmax_right in Hu by lra; symmetry; apply Hl; exact Hu|].
    apply const_int. lra. }
  assert (I1 : is_RInt f (1 / 2) 1 (r / 2)).
  { apply (is_RInt_ext (fun _ => r)); [intros u Hu; rewrite Rmin_left, Rmax_right in Hu by lra; symmetry; apply Hr; exact Hu|].
    apply const_int. lra. }
  replace ((l + r) / 2) with (l / 2 + r / 2) by lra. exact (chasles _ _ _ _ _ _ I0 I1).
Qed.

(** The argument of the logarithm. *)
Lemma arg_pos u : 0 < u < 1 -> 0 < 1 - 2 * Rabs (u - 1 / 2) <= 1.
Proof. intros H. split_Rabs; lra. Qed.

Lemma ln_lt_iff w t : 0 < w -> (ln w < t <-> w < exp t).
Proof.
  intros Hw. split; intros H.
  - rewrite <- (exp_ln w Hw). apply exp_increasing. exact H.
  - apply exp_lt_inv. rewrite exp_ln by exact Hw. exact H.
Qed.
Lemma ln_gt_iff w t : 0 < w -> (t < ln w <-> exp t < w).
Proof.
  intros Hw. split; intros H.
  - rewrite <- (exp_ln w Hw). apply exp_increasing. exact H.
  - apply exp_lt_inv. rewrite exp_ln by exact Hw. exact H.
Qed.

Lemma ln_nonpos w : 0 < w <= 1 -> ln w <= 0.
Proof.
  intros [H1 H2]. destruct (Req_dec w 1) as [->|]; [rewrite ln_1; lra|].
  left. rewrite <- ln_1. apply ln_increasing; lra.
Qed.

Lemma exp_le1 t : t <= 0 -> exp t <= 1.
Proof. intros H. rewrite <- exp_0. destruct (Req_dec t 0) as [->|]; [lra|]. left. apply exp_increasing. lra. Qed.
Lemma exp_ge1 t : 0 <= t -> 1 <= exp t.
Proof. intros H. rewrite <- exp_0. destruct (Req_dec t 0) as [->|]; [lra|]. left. apply exp_increasing. lra. Qed.

Definition ltb (x y : R) : bool := if Rlt_dec x y then true else false.
Lemma ltb_true x y : ltb x y = true <-> x < y.
Proof. unfold ltb. destruct (Rlt_dec x y); split; auto; discriminate. Qed.
Lemma ltb_ind x y : (if ltb x y then 1 else 0) = 1 <-> x < y.
Proof. unfold ltb. destruct (Rlt_dec x y); split; intros; auto; lra. Qed.
Lemma ind1 x y : x < y -> (if ltb x y then 1 else 0) = 1.
Proof. intros H. unfold ltb. destruct (Rlt_dec x y); [reflexivity|contradiction]. Qed.
Lemma ind0 x y : ~ x < y -> (if ltb x y then 1 else 0) = 0.
Proof. intros H. unfold ltb. destruct (Rlt_dec x y); [contradiction|reflexivity]. Qed.

Lemma div_lt_r x b y : 0 < b -> (x < b * y <-> x / b < y).
Proof.
  intros H. assert (E : x = b * (x / b)) by (field; lra). split; intros L.
  - rewrite E in L. apply Rmult_lt_reg_l with b; assumption.
  - rewrite E. apply Rmult_lt_compat_l; assumption.
Qed.
Lemma div_lt_l x b y : 0 < b -> (b * y < x <-> y < x / b).
Proof.
  intros H. assert (E : x = b * (x / b)) by (field; lra). split; intros L.
  - rewrite E in L. apply Rmult_lt_reg_l with b; assumption.
  - rewrite E. apply Rmult_lt_compat_l; assumption.
Qed.

Lemma laplace_law b x : 0 < b -> unit_prob (fun u1 u2 => ltb (laplaceR 0 b u1 u2) x) (laplace_cdf b x).
Proof.
  intros Hb. unfold unit_prob. destruct (Rle_dec x 0) as [Hx|Hx].
  - set (e := exp (x / b)). assert (He : 0 < e <= 1).
    { split; [apply exp_pos|]. apply exp_le1. unfold Rdiv. apply Rmult_le_0_r; [exact Hx|]. left. apply Rinv_0_lt_compat. exact Hb. }
    exists (fun u1 => if Rlt_dec u1 (1 / 2) then e else 0). split.
    + intros u1 _. unfold laplaceR. destruct (Rlt_dec u1 (1 / 2)) as [_|_].
      * replace e with (1 - ((1 - e / 2) - e / 2)) by lra.
        apply is_RInt_outside; [lra|lra|lra| | |]; intros u Hu.
        -- apply ind1. pose proof (arg_pos u ltac:(lra)) as Ha.
           replace (0 - -1 * b * ln (1 - 2 * Rabs (u - 1 / 2))) with (b * ln (1 - 2 * Rabs (u - 1 / 2))) by lra.
           apply div_lt_l; [exact Hb|]. apply ln_lt_iff; [lra|]. fold e. split_Rabs; lra.
        -- apply ind0. pose proof (arg_pos u ltac:(lra)) as Ha. intros C.
           replace (0 - -1 * b * ln (1 - 2 * Rabs (u - 1 / 2))) with (b * ln (1 - 2 * Rabs (u - 1 / 2))) in C by lra.
           apply div_lt_l in C; [|exact Hb]. apply ln_lt_iff in C; [|lra]. fold e in C. split_Rabs; lra.
        -- apply ind1. pose proof (arg_pos u ltac:(lra)) as Ha.
           replace (0 - -1 * b * ln (1 - 2 * Rabs (u - 1 / 2))) with (b * ln (1 - 2 * Rabs (u - 1 / 2))) by lra.
           apply div_lt_l; [exact Hb|]. apply ln_lt_iff; [lra|]. fold e. split_Rabs; lra.
      * apply is_RInt_all. intros u Hu. apply ind0. pose proof (ln_nonpos _ (arg_pos u Hu)). nra.
    + unfold laplace_cdf. destruct (Rle_dec x 0) as [_|C]; [|contradiction]. fold e. replace (e / 2) with ((e + 0) / 2) by lra.
      apply is_RInt_half; intros u Hu; destruct (Rlt_dec u (1 / 2)); lra.
  - set (e := exp (- x / b)). assert (He : 0 < e <= 1).
    { split; [apply exp_pos|]. apply exp_le1. unfold Rdiv. apply Rmult_le_0_r; [lra|]. left. apply Rinv_0_lt_compat. exact Hb. }
    exists (fun u1 => if Rlt_dec u1 (1 / 2) then 1 else 1 - e). split.
    + intros u1 _. unfold laplaceR. destruct (Rlt_dec u1 (1 / 2)) as [_|_].
      * apply is_RInt_all. intros u Hu. apply ind1. pose proof (ln_nonpos _ (arg_pos u Hu)). nra.
      * replace (1 - e) with ((1 - e / 2) - e / 2) by lra.
        apply is_RInt_interval; [lra|lra|lra| | |]; intros u Hu; pose proof (arg_pos u ltac:(lra)) as Ha.
        -- apply ind0. intros C.
           assert (D : - x / b < ln (1 - 2 * Rabs (u - 1 / 2))) by (apply div_lt_r; [exact Hb|lra]).
           apply ln_gt_iff in D; [|lra]. fold e in D. split_Rabs; lra.
        -- apply ind1.
           assert (D : - x / b < ln (1 - 2 * Rabs (u - 1 / 2))) by (apply ln_gt_iff; [lra|]; fold e; split_Rabs; lra).
           apply div_lt_r in D; [|exact Hb]. lra.
        -- apply ind0. intros C.
           assert (D : - x / b < ln (1 - 2 * Rabs (u - 1 / 2))) by (apply div_lt_r; [exact Hb|lra]).
           apply ln_gt_iff in D; [|lra]. fold e in D. split_Rabs; lra.
    + unfold laplace_cdf. destruct (Rle_dec x 0) as [C|_]; [contradiction|]. fold e. replace (1 - e / 2) with ((1 + (1 - e)) / 2) by lra.
      apply is_RInt_half; intros u Hu; destruct (Rlt_dec u (1 / 2)); lra.
Qed.

(** ** The cutoff *)
Lemma cutoff_val epsilon delta : 0 < epsilon -> 0 < delta < 1 ->
  cutoffR epsilon delta = - (spanR epsilon * ln delta) /\ 0 < spanR epsilon /\ 0 < cutoffR epsilon delta /\
  exp (- cutoffR epsilon delta / spanR epsilon) = delta.
Proof.
  intros He Hd. assert (Hb : 0 < spanR epsilon) by (unfold spanR, Rdiv; apply Rmult_lt_0_compat; [lra|apply Rinv_0_lt_compat; exact He]).
  assert (Ec : cutoffR epsilon delta = - (spanR epsilon * ln delta)).
  { unfold cutoffR, inv_cdfR. destruct (Rlt_dec (1 / 2) (delta / 2)) as [C|_]; [lra|].
    replace (1 - 2 * Rabs (delta / 2 - 1 / 2)) with delta by (rewrite Rabs_left by lra; lra). lra. }
  split; [exact Ec|]. split; [exact Hb|].
  assert (Hl : ln delta < 0) by (rewrite <- ln_1; apply ln_increasing; lra). split; [rewrite Ec; nra|].
  rewrite Ec. replace (- - (spanR epsilon * ln delta) / spanR epsilon) with (ln delta) by (field; lra). apply exp_ln. lra.
Qed.

Lemma cutoff_tail epsilon delta : 0 < epsilon -> 0 < delta < 1 ->
  0 < cutoffR epsilon delta /\ 1 - laplace_cdf (spanR epsilon) (cutoffR epsilon delta) = delta / 2.
Proof.
  intros He Hd. destruct (cutoff_val epsilon delta He Hd) as (_ & Hb & Hc & E). split; [exact Hc|].
  unfold laplace_cdf. destruct (Rle_dec (cutoffR epsilon delta) 0) as [C|_]; [lra|]. rewrite E. lra.
Qed.

(** The comment in noise.cc:21 promises Prob[lap <= x] = prob; the value is the
    point above which the mass is prob. *)
Lemma inv_cdf_upper span prob : 0 < span -> 0 < prob < 1 -> 1 - laplace_cdf span (inv_cdfR 0 span prob) = prob.
Proof.
  intros Hb Hp. unfold inv_cdfR, laplace_cdf. destruct (Rlt_dec (1 / 2) prob) as [H|H].
  - replace (1 - 2 * Rabs (prob - 1 / 2)) with (2 * (1 - prob)) by (rewrite Rabs_pos_eq by lra; lra).
    assert (Hl : ln (2 * (1 - prob)) < 0) by (rewrite <- ln_1; apply ln_increasing; lra).
    destruct (Rle_dec _ 0) as [_|C]; [|exfalso; apply C; nra].
    replace ((0 - -1 * span * ln (2 * (1 - prob))) / span) with (ln (2 * (1 - prob))) by (field; lra). rewrite exp_ln by lra. lra.
  - replace (1 - 2 * Rabs (prob - 1 / 2)) with (2 * prob) by (rewrite Rabs_left1 by lra; lra).
    assert (Hl : ln (2 * prob) <= 0) by (apply ln_nonpos; lra).
    destruct (Rle_dec _ 0) as [C|_].
    + assert (Z : ln (2 * prob) = 0) by nra. assert (E : 2 * prob = 1) by (rewrite <- (exp_ln (2 * prob)), Z, exp_0 by lra; reflexivity).
      rewrite Z. replace ((0 - 1 * span * 0) / span) with 0 by (field; lra). rewrite exp_0. lra.
    + replace (- (0 - 1 * span * ln (2 * prob)) / span) with (ln (2 * prob)) by (field; lra). rewrite exp_ln by lra. lra.
Qed.

(** ** The law of a sample *)
Definition topZ (epsilon delta : R) : Z := Zfloor (2 * cutoffR epsilon delta).
Definition top (epsilon delta : R) : nat := Z.to_nat (topZ epsilon delta).
(** Probability that a sample is below k. *)
Definition below (epsilon delta : R) (k : nat) : R :=
  match k with
  | O => 0
  | S _ => if le_dec k (top epsilon delta) then laplace_cdf (spanR epsilon) (INR k - cutoffR epsilon delta) else 1
  end.
Definition pmf (epsilon delta : R) (k : nat) : R := below epsilon delta (S k) - below epsilon delta k.

Lemma topZ_nonneg epsilon delta : 0 < cutoffR epsilon delta -> (0 <= topZ epsilon delta)%Z.
Proof. intros H. apply Zfloor_lub. cbn. lra. Qed.
Lemma INR_top epsilon delta : 0 < cutoffR epsilon delta -> INR (top epsilon delta) = IZR (topZ epsilon delta).
Proof. intros H. unfold top. rewrite INR_IZR_INZ, Z2Nat.id by (apply topZ_nonneg; exact H). reflexivity. Qed.

Lemma sample_below epsilon delta u1 u2 k : 0 < cutoffR epsilon delta ->
  ((sampleR epsilon delta u1 u2 < Z.of_nat k)%Z <->
   match k with
   | O => False
   | S _ => if le_dec k (top epsilon delta) then laplaceR 0 (spanR epsilon) u1 u2 < INR k - cutoffR epsilon delta else True
   end).
Proof.
  intros Hc. set (c := cutoffR epsilon delta) in *. unfold sampleR. fold c. set (L := laplaceR 0 (spanR epsilon) u1 u2).
  set (x := Rmax 0 (c + Rmin c L)).
  assert (Hx : 0 <= x <= 2 * c).
  { unfold x. split; [apply Rmax_l|]. apply Rmax_lub; [lra|]. pose proof (Rmin_l c L). lra. }
  assert (F : forall n, (Zfloor x < n)%Z <-> x < IZR n).
  { intros n. split; intros H.
    - apply Rlt_le_trans with (IZR (Zfloor x) + 1); [apply Zfloor_ub|]. rewrite <- plus_IZR. apply IZR_le. lia.
    - apply lt_IZR. apply Rle_lt_trans with x; [apply Zfloor_lb|exact H]. }
  rewrite F. destruct k as [|k]; [split; [cbn; lra|contradiction]|]. rewrite <- INR_IZR_INZ.
  assert (Hk : 0 < INR (S k)) by (apply lt_0_INR; lia).
  assert (Et : INR (top epsilon delta) <= 2 * c).
  { rewrite INR_top by exact Hc. apply Zfloor_lb. }
  destruct (le_dec (S k) (top epsilon delta)) as [Hle|Hle].
  - assert (Hkc : INR (S k) <= 2 * c) by (apply Rle_trans with (INR (top epsilon delta)); [apply le_INR; exact Hle|exact Et]).
    unfold x. split; intros H.
    + apply Rle_lt_trans with (r1 := c + Rmin c L) in H; [|apply Rmax_r].
      unfold Rmin in H. destruct (Rle_dec c L); lra.
    + apply Rmax_lub_lt; [exact Hk|]. pose proof (Rmin_r c L). lra.
  - split; [auto|]. intros _. assert (Hgt : 2 * c < INR (S k)).
    { apply Rlt_le_trans with (IZR (topZ epsilon delta) + 1); [apply Zfloor_ub|]. rewrite <- INR_top by exact Hc.
      rewrite <- S_INR. apply le_INR. lia. }
    lra.
Qed.

Lemma unit_prob_ext A B p : (forall u1 u2, A u1 u2 = B u1 u2) -> unit_prob A p -> unit_prob B p.
Proof.
  intros E (g & H1 & H2). exists g. split; [|exact H2]. intros u1 Hu. eapply is_RInt_ext; [|apply H1; exact Hu].
  intros u2 _. cbn. rewrite E. reflexivity.
Qed.
Lemma unit_prob_const (v : bool) : unit_prob (fun _ _ => v) (if v then 1 else 0).
Proof.
  exists (fun _ => if v then 1 else 0). split; intros; apply is_RInt_all; reflexivity.
Qed.
Lemma unit_prob_minus A B p q : (forall u1 u2, B u1 u2 = true -> A u1 u2 = true) -> unit_prob A p -> unit_prob B q ->
  unit_prob (fun u1 u2 => A u1 u2 && negb (B u1 u2)) (p - q).
Proof.
  intros I (g & G1 & G2) (h & H1 & H2). exists (fun u => g u - h u). split.
  - intros u1 Hu. pose proof (is_RInt_minus _ _ _ _ _ _ (G1 u1 Hu) (H1 u1 Hu)) as M. eapply is_RInt_ext; [|exact M].
    intros u2 _. cbn beta. pose proof (I u1 u2) as I'. unfold minus, plus, opp; cbn.
    destruct (A u1 u2), (B u1 u2); cbn; try lra; discriminate (I' eq_refl).
  - exact (is_RInt_minus _ _ _ _ _ _ G2 H2).
Qed.

Lemma below_law epsilon delta k : 0 < epsilon -> 0 < delta < 1 ->
  unit_prob (fun u1 u2 => (sampleR epsilon delta u1 u2 <? Z.of_nat k)%Z) (below epsilon delta k).
Proof.
  intros He Hd. destruct (cutoff_val epsilon delta He Hd) as (_ & Hb & Hc & _).
  pose proof (fun u1 u2 => sample_below epsilon delta u1 u2 k Hc) as S. unfold below. destruct k as [|k].
  - eapply unit_prob_ext; [|exact (unit_prob_const false)]. intros u1 u2. cbn beta. symmetry. apply Z.ltb_nlt. intros C. apply S in C. exact C.
  - destruct (le_dec (Datatypes.S k) (top epsilon delta)) as [H|H].
    + eapply unit_prob_ext; [|apply (laplace_law (spanR epsilon) (INR (Datatypes.S k) - cutoffR epsilon delta) Hb)].
      intros u1 u2. cbn beta. specialize (S u1 u2). unfold ltb. destruct (Rlt_dec _ _) as [L|L]; symmetry.
      * apply Z.ltb_lt. apply S. exact L.
      * apply Z.ltb_nlt. intros C. apply L. apply S. exact C.
    + eapply unit_prob_ext; [|exact (unit_prob_const true)]. intros u1 u2. cbn beta. symmetry. apply Z.ltb_lt. apply S. exact I.
Qed.

Lemma pmf_law epsilon delta k : 0 < epsilon -> 0 < delta < 1 ->
  unit_prob (fun u1 u2 => (sampleR epsilon delta u1 u2 =? Z.of_nat k)%Z) (pmf epsilon delta k).
Proof.
  intros He Hd. eapply unit_prob_ext; [|eapply unit_prob_minus; [|exact (below_law epsilon delta (S k) He Hd)|exact (below_law epsilon delta k He Hd)]].
  - intros u1 u2. cbn beta. rewrite Nat2Z.inj_succ.
    destruct (Z.ltb_spec (sampleR epsilon delta u1 u2) (Z.succ (Z.of_nat k))), (Z.ltb_spec (sampleR epsilon delta u1 u2) (Z.of_nat k)),
      (Z.eqb_spec (sampleR epsilon delta u1 u2) (Z.of_nat k)); cbn; try reflexivity; lia.
  - intros u1 u2 H. cbn beta in *. apply Z.ltb_lt in H. apply Z.ltb_lt. lia.
Qed.
