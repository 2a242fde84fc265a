(** Differential privacy of the noisy counts. *)
From Coq Require Import Reals Psatz Bool ZArith List Lia.
From Coquelicot Require Import Coquelicot.
From Flocq Require Import Core.
From Verif Require Import NoiseReal PrivacySpec NoiseRealProofs.
Import ListNotations.
Local Open Scope R_scope.

(** ** Sums *)
Lemma rsum_ext n f g : (forall i, (i < n)%nat -> f i = g i) -> rsum n f = rsum n g.
Proof. induction n as [|n IH]; intros H; cbn; [reflexivity|]. rewrite IH, H by auto. reflexivity. Qed.
Lemma rsum_le n f g : (forall i, (i < n)%nat -> f i <= g i) -> rsum n f <= rsum n g.
Proof. induction n as [|n IH]; intros H; cbn; [lra|]. specialize (IH (fun i Hi => H i (Nat.lt_lt_succ_r _ _ Hi))). specialize (H n (Nat.lt_succ_diag_r n)). lra. Qed.
Lemma rsum_nonneg n f : (forall i, (i < n)%nat -> 0 <= f i) -> 0 <= rsum n f.
Proof. intros H. replace 0 with (rsum n (fun _ => 0)). { apply rsum_le. exact H. } clear H. induction n; cbn; lra. Qed.
Lemma rsum_shift n f : rsum (S n) f = f 0%nat + rsum n (fun i => f (S i)).
Proof. induction n as [|n IH]; [cbn; lra|]. change (rsum (S (S n)) f) with (rsum (S n) f + f (S n)). rewrite IH. cbn. lra. Qed.
Lemma rsum_lin n f a : rsum n (fun i => a * f i) = a * rsum n f.
Proof. induction n as [|n IH]; cbn; [lra|]. rewrite IH. lra. Qed.
Lemma rsum_plus n f g : rsum n (fun i => f i + g i) = rsum n f + rsum n g.
Proof. induction n as [|n IH]; cbn; [lra|]. rewrite IH. lra. Qed.
Lemma rsum_tele n G : rsum n (fun k => G (S k) - G k) = G n - G 0%nat.
Proof. induction n as [|n IH]; cbn; [lra|]. rewrite IH. lra. Qed.

(** ** Shift inequality for one count, and composition *)
Section Shift.
  Context (p : nat -> R) (m : nat) (a d : R).
  Context (p_pos : forall z, 0 <= p z) (p_sum : rsum (S m) p = 1) (a_ge : 1 <= a).
  Context (p_up : forall z, (1 <= z < m)%nat -> p z <= a * p (z - 1)%nat)
          (p_down : forall z, (1 <= z < m)%nat -> p z <= a * p (S z)).
  Context (d_zero : m = 0%nat -> 1 <= d) (d_ends : (1 <= m)%nat -> p 0%nat + p m <= d).

  Lemma shift_up h (g : nat -> R) : (forall o, 0 <= g o <= 1) ->
    rsum (S m) (fun z => p z * g (h + z)%nat) <= a * rsum (S m) (fun z => p z * g (S h + z)%nat) + d.
  Proof.
    intros Hg.
    assert (N : forall n h', 0 <= rsum n (fun z => p z * g (h' + z)%nat)).
    { intros n h'. apply rsum_nonneg. intros i _. apply Rmult_le_pos; [apply p_pos|apply Hg]. }
    destruct m as [|k].
    - pose proof (d_zero eq_refl). pose proof (N 1%nat (S h)) as N1.
      assert (rsum 1 (fun z => p z * g (h + z)%nat) <= rsum 1 p).
      { apply rsum_le. intros i _. pose proof (p_pos i). pose proof (Hg (h + i)%nat). nra. }
      nra.
    - pose proof (d_ends ltac:(lia)) as De.
      change (rsum (S (S k)) (fun z => p z * g (h + z)%nat)) with (rsum (S k) (fun z => p z * g (h + z)%nat) + p (S k) * g (h + S k)%nat).
      rewrite rsum_shift.
      assert (I : rsum k (fun z => p (S z) * g (h + S z)%nat) <= rsum k (fun z => a * (p z * g (S h + z)%nat))).
      { apply rsum_le. intros z Hz. replace (S h + z)%nat with (h + S z)%nat by lia.
        pose proof (p_up (S z) ltac:(lia)) as U. replace (S z - 1)%nat with z in U by lia. pose proof (Hg (h + S z)%nat). nra. }
      rewrite rsum_lin in I.
      assert (J : rsum k (fun z => p z * g (S h + z)%nat) <= rsum (S (S k)) (fun z => p z * g (S h + z)%nat)).
      { cbn [rsum]. assert (0 <= p k * g (S h + k)%nat) by (apply Rmult_le_pos; [apply p_pos|apply Hg]).
        assert (0 <= p (S k) * g (S h + S k)%nat) by (apply Rmult_le_pos; [apply p_pos|apply Hg]). lra. }
      pose proof (Hg (h + 0)%nat). pose proof (Hg (h + S k)%nat). pose proof (p_pos 0%nat). pose proof (p_pos (S k)).
      assert (p 0%nat * g (h + 0)%nat <= p 0%nat) by nra. assert (p (S k) * g (h + S k)%nat <= p (S k)) by nra. nra.
  Qed.

  Lemma shift_down h (g : nat -> R) : (forall o, 0 <= g o <= 1) ->
    rsum (S m) (fun z => p z * g (S h + z)%nat) <= a * rsum (S m) (fun z => p z * g (h + z)%nat) + d.
  Proof.
    intros Hg.
    assert (N : forall n h', 0 <= rsum n (fun z => p z * g (h' + z)%nat)).
    { intros n h'. apply rsum_nonneg. intros i _. apply Rmult_le_pos; [apply p_pos|apply Hg]. }
    destruct m as [|k].
    - pose proof (d_zero eq_refl). pose proof (N 1%nat h) as N1.
      assert (rsum 1 (fun z => p z * g (S h + z)%nat) <= rsum 1 p).
      { apply rsum_le. intros i _. pose proof (p_pos i). pose proof (Hg (S h + i)%nat). nra. }
      nra.
    - pose proof (d_ends ltac:(lia)) as De.
      change (rsum (S (S k)) (fun z => p z * g (S h + z)%nat)) with (rsum (S k) (fun z => p z * g (S h + z)%nat) + p (S k) * g (S h + S k)%nat).
      rewrite rsum_shift.
      assert (I : rsum k (fun z => p (S z) * g (S h + S z)%nat) <= rsum k (fun z => a * (p (S (S z)) * g (h + S (S z))%nat))).
      { apply rsum_le. intros z Hz. replace (S h + S z)%nat with (h + S (S z))%nat by lia.
        pose proof (p_down (S z) ltac:(lia)) as U. pose proof (Hg (h + S (S z))%nat). nra. }
      rewrite rsum_lin in I.
      assert (J : rsum k (fun z => p (S (S z)) * g (h + S (S z))%nat) <= rsum (S (S k)) (fun z => p z * g (h + z)%nat)).
      { rewrite !rsum_shift. assert (0 <= p 0%nat * g (h + 0)%nat) by (apply Rmult_le_pos; [apply p_pos|apply Hg]).
        assert (0 <= p 1%nat * g (h + 1)%nat) by (apply Rmult_le_pos; [apply p_pos|apply Hg]). lra. }
      pose proof (Hg (S h + 0)%nat). pose proof (Hg (S h + S k)%nat). pose proof (p_pos 0%nat). pose proof (p_pos (S k)).
      assert (p 0%nat * g (S h + 0)%nat <= p 0%nat) by nra. assert (p (S k) * g (S h + S k)%nat <= p (S k)) by nra. nra.
  Qed.

  Lemma expect_bounds hist : forall f, (forall os, 0 <= f os <= 1) -> 0 <= expect p m hist f <= 1.
  Proof.
    induction hist as [|h hist IH]; intros f Hf; cbn [expect]; [apply Hf|]. split.
    - apply rsum_nonneg. intros i _. apply Rmult_le_pos; [apply p_pos|]. apply IH. intros; apply Hf.
    - rewrite <- p_sum. apply rsum_le. intros i _. pose proof (p_pos i).
      destruct (IH (fun os => f ((h + i)%nat :: os)) ltac:(intros; apply Hf)). nra.
  Qed.

  Lemma expect_le hist : forall f f' b e, (forall os, f os <= b * f' os + e) ->
    expect p m hist f <= b * expect p m hist f' + e.
  Proof.
    induction hist as [|h hist IH]; intros f f' b e H; cbn [expect]; [apply H|].
    replace e with (rsum (S m) (fun z => e * p z)) by (rewrite rsum_lin, p_sum; lra).
    rewrite <- rsum_lin, <- rsum_plus. apply rsum_le. intros i _. pose proof (p_pos i).
    pose proof (IH (fun os => f ((h + i)%nat :: os)) (fun os => f' ((h + i)%nat :: os)) b e ltac:(intros; apply H)). nra.
  Qed.

  Lemma one_up l1 y l2 f : (forall os, 0 <= f os <= 1) ->
    expect p m (l1 ++ y :: l2) f <= a * expect p m (l1 ++ S y :: l2) f + d.
  Proof.
    revert f. induction l1 as [|h l1 IH]; intros f Hf.
    - cbn [app expect]. apply (shift_up y (fun o => expect p m l2 (fun os => f (o :: os)))).
      intros o. apply expect_bounds. intros; apply Hf.
    - cbn [app expect]. replace d with (rsum (S m) (fun z => d * p z)) by (rewrite rsum_lin, p_sum; lra).
      rewrite <- rsum_lin, <- rsum_plus. apply rsum_le. intros i _. pose proof (p_pos i).
      pose proof (IH (fun os => f ((h + i)%nat :: os)) ltac:(intros; apply Hf)). nra.
  Qed.
  Lemma one_down l1 y l2 f : (forall os, 0 <= f os <= 1) ->
    expect p m (l1 ++ S y :: l2) f <= a * expect p m (l1 ++ y :: l2) f + d.
  Proof.
    revert f. induction l1 as [|h l1 IH]; intros f Hf.
    - cbn [app expect]. apply (shift_down y (fun o => expect p m l2 (fun os => f (o :: os)))).
      intros o. apply expect_bounds. intros; apply Hf.
    - cbn [app expect]. replace d with (rsum (S m) (fun z => d * p z)) by (rewrite rsum_lin, p_sum; lra).
      rewrite <- rsum_lin, <- rsum_plus. apply rsum_le. intros i _. pose proof (p_pos i).
      pose proof (IH (fun os => f ((h + i)%nat :: os)) ltac:(intros; apply Hf)). nra.
  Qed.

  Lemma two_counts hist hist' f : neighbours hist hist' -> (forall os, 0 <= f os <= 1) ->
    expect p m hist f <= a * a * expect p m hist' f + (1 + a) * d.
  Proof.
    intros H Hf. destruct H as [l1 l2 l3 x y|l1 l2 l3 x y].
    - pose proof (one_down l1 x (l2 ++ y :: l3) f Hf) as H1.
      replace (l1 ++ x :: l2 ++ y :: l3) with ((l1 ++ x :: l2) ++ y :: l3) in H1 by (rewrite <- app_assoc; reflexivity).
      pose proof (one_up (l1 ++ x :: l2) y l3 f Hf) as H2.
      replace (l1 ++ x :: l2 ++ S y :: l3) with ((l1 ++ x :: l2) ++ S y :: l3) by (rewrite <- app_assoc; reflexivity).
      nra.
    - pose proof (one_up l1 x (l2 ++ S y :: l3) f Hf) as H1.
      replace (l1 ++ S x :: l2 ++ S y :: l3) with ((l1 ++ S x :: l2) ++ S y :: l3) in H1 by (rewrite <- app_assoc; reflexivity).
      pose proof (one_down (l1 ++ S x :: l2) y l3 f Hf) as H2.
      replace (l1 ++ S x :: l2 ++ y :: l3) with ((l1 ++ S x :: l2) ++ y :: l3) by (rewrite <- app_assoc; reflexivity).
      nra.
  Qed.
End Shift.

(** ** The Laplace distribution function *)
Section Laplace.
  Context (b : R) (Hb : 0 < b).
  Notation F := (laplace_cdf b).
  Notation a := (exp (1 / b)).

  Lemma ib_pos : 0 < / b. Proof. apply Rinv_0_lt_compat. exact Hb. Qed.
  Lemma F_neg x : x <= 0 -> F x = exp (x / b) / 2.
  Proof. intros H. unfold laplace_cdf. destruct (Rle_dec x 0); [reflexivity|contradiction]. Qed.
  Lemma F_pos x : 0 <= x -> F x = 1 - exp (- x / b) / 2.
  Proof.
    intros H. unfold laplace_cdf. destruct (Rle_dec x 0) as [H0|_]; [|reflexivity].
    assert (x = 0) as -> by lra. replace (- 0 / b) with (0 / b) by lra. unfold Rdiv. rewrite Rmult_0_l, exp_0. lra.
  Qed.
  Lemma exp_inv x : exp (x / b) * exp (- x / b) = 1.
  Proof. rewrite <- exp_plus. replace (x / b + - x / b) with 0 by (field; lra). apply exp_0. Qed.
  Lemma exp_shift x : exp ((x + 1) / b) = exp (x / b) * a.
  Proof. rewrite <- exp_plus. f_equal. field. lra. Qed.
  Lemma a_ge1 : 1 < a.
  Proof. pose proof ib_pos. apply Rlt_le_trans with (1 + 1 / b); [lra|]. apply exp_ineq1_le. Qed.

  Lemma F_upper x : F x <= exp (x / b) / 2.
  Proof.
    destruct (Rle_or_lt x 0) as [H|H]; [rewrite F_neg by exact H; lra|]. rewrite F_pos by lra.
    pose proof (exp_inv x) as E. pose proof (exp_pos (x / b)). pose proof (exp_pos (- x / b)).
    assert (0 <= (exp (x / b) - 1) * (exp (x / b) - 1)) by (apply Rle_0_sqr).
    set (t := exp (x / b)) in *. set (i := exp (- x / b)) in *. nra.
  Qed.
  Lemma F_sym x : F (- x) = 1 - F x.
  Proof.
    destruct (Rle_or_lt x 0) as [H|H].
    - rewrite (F_pos (- x)), (F_neg x) by lra. rewrite Ropp_involutive. lra.
    - rewrite (F_neg (- x)), (F_pos x) by lra. lra.
  Qed.
  Lemma F_tail x : 1 - F x <= exp (- x / b) / 2.
  Proof. rewrite <- F_sym. apply F_upper. Qed.
  Lemma F_range x : 0 < F x < 1.
  Proof.
    assert (P : forall y, 0 < F y).
    { intros y. destruct (Rle_or_lt y 0) as [H|H].
      - rewrite F_neg by exact H. pose proof (exp_pos (y / b)). lra.
      - rewrite F_pos by lra. assert (exp (- y / b) <= 1); [|lra]. apply exp_le1. unfold Rdiv. pose proof ib_pos. nra. }
    split; [apply P|]. pose proof (P (- x)) as H. rewrite F_sym in H. lra.
  Qed.
  Lemma F_mono1 x : F x <= F (x + 1).
  Proof.
    pose proof a_ge1 as Ha. pose proof (exp_pos (x / b)) as Ht. pose proof (exp_shift x) as Es.
    destruct (Rle_or_lt (x + 1) 0) as [H|H].
    - rewrite !F_neg by lra. rewrite Es. nra.
    - destruct (Rle_or_lt x 0) as [H0|H0].
      + rewrite (F_neg x), (F_pos (x + 1)) by lra.
        assert (exp (x / b) <= 1) by (apply exp_le1; unfold Rdiv; pose proof ib_pos; nra).
        assert (exp (- (x + 1) / b) <= 1) by (apply exp_le1; unfold Rdiv; pose proof ib_pos; nra). lra.
      + rewrite !F_pos by lra. assert (exp (- (x + 1) / b) <= exp (- x / b)); [|lra].
        left. apply exp_increasing. unfold Rdiv. pose proof ib_pos. nra.
  Qed.

  Lemma quad w A : 1 <= A -> 1 <= w <= A -> 0 <= - (A * A + A - 1) * w * w + 2 * (A * A * A) * w - A * A * A.
  Proof.
    intros HA Hw.
    assert (E : - (A * A + A - 1) * w * w + 2 * (A * A * A) * w - A * A * A =
      (A * A + A - 1) * ((w - 1) * (A - w)) + ((A * A * A - 2 * A * A + 1) * w + A * A - A)) by ring.
    rewrite E. apply Rplus_le_le_0_compat.
    - apply Rmult_le_pos; [nra|]. apply Rmult_le_pos; lra.
    - (* linear in w, nonnegative at both ends *)
      assert (H1 : 0 <= A * A * A - 2 * A * A + 1 + A * A - A).
      { replace (A * A * A - 2 * A * A + 1 + A * A - A) with ((A - 1) * (A - 1) * (A + 1)) by ring.
        apply Rmult_le_pos; [apply Rle_0_sqr|lra]. }
      assert (H2 : 0 <= (A * A * A - 2 * A * A + 1) * A + A * A - A).
      { replace ((A * A * A - 2 * A * A + 1) * A + A * A - A) with ((A * (A - 1)) * (A * (A - 1))) by ring. apply Rle_0_sqr. }
      destruct (Rle_or_lt 0 (A * A * A - 2 * A * A + 1)) as [K|K]; nra.
  Qed.

  Lemma ratio_up x : F (x + 1) - F x <= a * (F (x + 2) - F (x + 1)).
  Proof.
    pose proof a_ge1 as Ha. set (A := a) in *. set (j := / A).
    assert (Ej : A * j = 1) by (unfold j; field; lra). assert (Hj : 0 < j) by (unfold j; apply Rinv_0_lt_compat; lra).
    set (t := exp (x / b)). set (i := exp (- x / b)). assert (Et : t * i = 1) by apply exp_inv.
    assert (Ht : 0 < t) by apply exp_pos. assert (Hi : 0 < i) by apply exp_pos.
    assert (E1 : exp ((x + 1) / b) = t * A) by apply exp_shift.
    assert (E2 : exp ((x + 2) / b) = t * A * A).
    { replace (x + 2) with (x + 1 + 1) by lra. rewrite exp_shift, E1. reflexivity. }
    assert (I1 : exp (- (x + 1) / b) = i * j).
    { pose proof (exp_inv (x + 1)) as E. rewrite E1 in E. apply Rmult_eq_reg_l with (t * A); [|nra]. rewrite E.
      replace (t * A * (i * j)) with ((t * i) * (A * j)) by ring. rewrite Et, Ej. ring. }
    assert (I2 : exp (- (x + 2) / b) = i * j * j).
    { pose proof (exp_inv (x + 2)) as E. rewrite E2 in E. apply Rmult_eq_reg_l with (t * A * A); [|nra]. rewrite E.
      replace (t * A * A * (i * j * j)) with ((t * i) * (A * j) * (A * j)) by ring. rewrite Et, Ej. ring. }
    pose proof ib_pos as Hib.
    destruct (Rle_or_lt 0 x) as [H0|H0]; [|destruct (Rle_or_lt x (-2)) as [H2|H2]; [|destruct (Rle_or_lt x (-1)) as [H1|H1]]].
    - rewrite !F_pos by lra. rewrite I1, I2. fold i.
      replace (A * (1 - i * j * j / 2 - (1 - i * j / 2))) with (i * (A * j) / 2 - i * j * (A * j) / 2) by field. rewrite Ej. lra.
    - rewrite !F_neg by lra. rewrite E1, E2. fold t.
      assert (0 <= t * (A - 1) * ((A * A - 1) / 2)).
      { apply Rmult_le_pos; [apply Rmult_le_pos; lra|nra]. }
      nra.
    - rewrite (F_neg x), (F_neg (x + 1)), (F_pos (x + 2)) by lra. rewrite E1, I2. fold t.
      (* w = t A^2 lies in [1, A] *)
      set (w := t * A * A).
      assert (Hw : 1 <= w <= A).
      { unfold w. rewrite <- E2. split.
        - apply exp_ge1. unfold Rdiv. apply Rmult_le_pos; lra.
        - unfold A. destruct (Req_dec (x + 2) 1) as [->|]; [lra|]. left. apply exp_increasing. unfold Rdiv. apply Rmult_lt_compat_r; lra. }
      assert (Ew : t = w * j * j).
      { unfold w. replace (t * A * A * j * j) with (t * (A * j) * (A * j)) by ring. rewrite Ej. ring. }
      assert (Ei : i * j * j * w = 1).
      { unfold w. replace (i * j * j * (t * A * A)) with ((t * i) * (A * j) * (A * j)) by ring. rewrite Et, Ej. ring. }
      pose proof (quad w A ltac:(lra) Hw) as Q.
      (* multiply by 2 w A^2 *)
      assert (G : 0 <= 2 * w * (A * A) * (A * (1 - i * j * j / 2 - t * A / 2) - (t * A / 2 - t / 2))).
      { replace (2 * w * (A * A) * (A * (1 - i * j * j / 2 - t * A / 2) - (t * A / 2 - t / 2)))
          with (2 * (A * A * A) * w - (A * A * A) * (i * j * j * w) - w * (t * A * A) * (A * A) - w * (t * A * A) * A + w * (t * A * A)) by field.
        rewrite Ei. change (t * A * A) with w. lra. }
      assert (0 < 2 * w * (A * A)) by nra.
      apply Rmult_le_reg_l with (2 * w * (A * A)); [assumption|]. lra.
    - rewrite (F_neg x), (F_pos (x + 1)), (F_pos (x + 2)) by lra. rewrite I1, I2. fold t.
      replace (A * (1 - i * j * j / 2 - (1 - i * j / 2))) with (i * (A * j) / 2 - i * j * (A * j) / 2) by field. rewrite Ej.
      assert (1 - t / 2 <= i / 2); [|lra]. assert (0 <= (t - 1) * (t - 1)) by apply Rle_0_sqr. nra.
  Qed.
  Lemma ratio_down x : F (x + 1) - F x <= a * (F x - F (x - 1)).
  Proof.
    pose proof (ratio_up (- x - 1)) as H.
    replace (- x - 1 + 1) with (- x) in H by lra. replace (- x - 1 + 2) with (- (x - 1)) in H by lra.
    replace (- x - 1) with (- (x + 1)) in H by lra. rewrite !F_sym in H. lra.
  Qed.
End Laplace.

(** ** The mechanism *)
Section Mechanism.
  Context (epsilon delta : R) (He : 0 < epsilon) (Hd : 0 < delta < 1).
  Notation b := (spanR epsilon).
  Notation c := (cutoffR epsilon delta).
  Notation F := (laplace_cdf b).
  Notation M := (top epsilon delta).
  Notation p := (pmf epsilon delta).
  Notation G := (below epsilon delta).

  Lemma Hb : 0 < b. Proof. apply (cutoff_val epsilon delta He Hd). Qed.
  Lemma Hc : 0 < c. Proof. apply (cutoff_val epsilon delta He Hd). Qed.
  Lemma Edelta : exp (- c / b) = delta. Proof. apply (cutoff_val epsilon delta He Hd). Qed.
  Lemma Ea : exp (1 / b) = exp (epsilon / 2).
  Proof. f_equal. unfold spanR. field. lra. Qed.

  Lemma M_bounds : INR M <= 2 * c < INR M + 1.
  Proof. rewrite INR_top by exact Hc. split; [apply Zfloor_lb|apply Zfloor_ub]. Qed.

  Lemma G_in k : (1 <= k <= M)%nat -> G k = F (INR k - c).
  Proof. intros H. unfold below. destruct k; [lia|]. destruct (le_dec (S k) M); [reflexivity|lia]. Qed.
  Lemma G_out k : (M < k)%nat -> G k = 1.
  Proof. intros H. unfold below. destruct k; [lia|]. destruct (le_dec (S k) M); [lia|reflexivity]. Qed.
  Lemma G_range k : 0 <= G k <= 1.
  Proof.
    destruct k as [|k]; [cbn; lra|]. destruct (le_dec (S k) M) as [H|H].
    - rewrite G_in by lia. pose proof (F_range b Hb (INR (S k) - c)). lra.
    - rewrite G_out by lia. lra.
  Qed.
  Lemma F_S k : F (INR (S k) - c) = F (INR k - c + 1).
  Proof. f_equal. rewrite S_INR. lra. Qed.

  Lemma p_nonneg z : 0 <= p z.
  Proof.
    unfold pmf. destruct z as [|z]; [pose proof (G_range 1); cbn [below] in *; lra|].
    destruct (le_dec (S (S z)) M) as [H|H].
    - rewrite !G_in by lia. rewrite (F_S (S z)). pose proof (F_mono1 b Hb (INR (S z) - c)). lra.
    - rewrite (G_out (S (S z))) by lia. pose proof (G_range (S z)). lra.
  Qed.
  Lemma p_total : rsum (S M) p = 1.
  Proof. unfold pmf. rewrite rsum_tele, G_out by lia. cbn [below]. lra. Qed.

  Lemma p_inner z : (1 <= z < M)%nat -> p z = F (INR z - c + 1) - F (INR z - c).
  Proof. intros H. unfold pmf. rewrite !G_in by lia. rewrite F_S. reflexivity. Qed.
  Lemma p_last : (1 <= M)%nat -> p M = 1 - F (INR M - c).
  Proof. intros H. unfold pmf. rewrite G_out, G_in by lia. reflexivity. Qed.
  Lemma p_first : (1 <= M)%nat -> p 0%nat = F (1 - c).
  Proof. intros H. unfold pmf. rewrite G_in by lia. cbn [below INR]. lra. Qed.

  Lemma p_up z : (1 <= z < M)%nat -> p z <= exp (1 / b) * p (z - 1)%nat.
  Proof.
    intros H. rewrite p_inner by exact H. eapply Rle_trans; [apply ratio_down; exact Hb|].
    apply Rmult_le_compat_l; [left; apply exp_pos|].
    destruct (Nat.eq_dec z 1) as [->|Hz].
    - cbn [Nat.sub INR]. rewrite p_first by lia. pose proof (F_range b Hb (1 - c - 1)). lra.
    - rewrite p_inner by lia. rewrite minus_INR by lia. cbn [INR].
      replace (INR z - 1 - c + 1) with (INR z - c) by lra. replace (INR z - 1 - c) with (INR z - c - 1) by lra. lra.
  Qed.
  Lemma p_down z : (1 <= z < M)%nat -> p z <= exp (1 / b) * p (S z).
  Proof.
    intros H. rewrite p_inner by exact H. eapply Rle_trans; [apply ratio_up; exact Hb|].
    apply Rmult_le_compat_l; [left; apply exp_pos|].
    destruct (Nat.eq_dec (S z) M) as [Hz|Hz].
    - rewrite Hz, p_last, <- Hz by lia. rewrite S_INR. replace (INR z + 1 - c) with (INR z - c + 1) by lra.
      pose proof (F_range b Hb (INR z - c + 2)). lra.
    - rewrite p_inner by lia. rewrite S_INR. replace (INR z + 1 - c + 1) with (INR z - c + 2) by lra.
      replace (INR z + 1 - c) with (INR z - c + 1) by lra. lra.
  Qed.
  Lemma exp_1c : exp ((1 - c) / b) = exp (1 / b) * delta.
  Proof. pose proof Hb. replace ((1 - c) / b) with (1 / b + - c / b) by (field; lra). rewrite exp_plus, Edelta. reflexivity. Qed.

  Lemma p_ends : (1 <= M)%nat -> p 0%nat <= exp (1 / b) * delta / 2 /\ p M <= exp (1 / b) * delta / 2.
  Proof.
    intros H. split.
    - rewrite p_first by exact H. rewrite <- exp_1c. apply F_upper. exact Hb.
    - rewrite p_last by exact H. eapply Rle_trans; [apply F_tail; exact Hb|]. rewrite <- exp_1c.
      apply Rmult_le_compat_r; [lra|]. left. apply exp_increasing. unfold Rdiv. apply Rmult_lt_compat_r; [apply ib_pos; exact Hb|].
      pose proof M_bounds. lra.
  Qed.
  Lemma zero_top : M = 0%nat -> 1 <= exp (1 / b) * delta.
  Proof.
    intros H. rewrite <- exp_1c. apply exp_ge1. unfold Rdiv. apply Rmult_le_pos; [|left; apply ib_pos; exact Hb].
    pose proof M_bounds as B. rewrite H in B. cbn in B. lra.
  Qed.

  Lemma mechanism_private : private p M epsilon ((exp (epsilon / 2) + exp epsilon) * delta).
  Proof.
    intros hist hist' N f Hf. set (a := exp (1 / b)).
    assert (Ha : 1 < a) by (apply a_ge1; exact Hb).
    assert (E1 : exp (epsilon / 2) = a) by (symmetry; apply Ea).
    assert (E2 : exp epsilon = a * a) by (rewrite <- E1, <- exp_plus; f_equal; field).
    assert (Ha1 : 1 <= a) by lra.
    assert (Pe : (1 <= M)%nat -> p 0%nat + p M <= a * delta).
    { intros H. destruct (p_ends H). unfold a. lra. }
    pose proof (two_counts p M a (a * delta) p_nonneg p_total Ha1 p_up p_down zero_top
      Pe hist hist' f N Hf) as T.
    rewrite E1, E2. eapply Rle_trans; [exact T|]. apply Req_le. ring.
  Qed.

  Lemma plain_delta_fails : delta <= exp (- (epsilon / 2)) -> exp (epsilon / 2) * delta < 2 * (exp (epsilon / 2) - 1) ->
    ~ private p M epsilon delta.
  Proof.
    intros Hc1 Hsmall P. set (a := exp (epsilon / 2)) in *.
    assert (Ea' : exp (1 / b) = a) by apply Ea.
    assert (C1 : 1 <= c).
    { (* exp (- c / b) = delta <= exp (- 1 / b) *)
      destruct (Rle_or_lt 1 c) as [L|L]; [exact L|]. exfalso.
      assert (exp (- (epsilon / 2)) < exp (- c / b)); [|rewrite Edelta in *; lra]. apply exp_increasing.
      replace (- (epsilon / 2)) with (- 1 / b) by (unfold spanR; field; lra). unfold Rdiv. apply Rmult_lt_compat_r; [apply ib_pos; exact Hb|lra]. }
    pose proof M_bounds as B.
    assert (HM : (1 <= M)%nat).
    { destruct M as [|k]; [cbn in B; lra|lia]. }
    assert (P0 : p 0%nat = a * delta / 2).
    { rewrite p_first by exact HM. rewrite F_neg by lra. rewrite exp_1c, Ea'. reflexivity. }
    assert (PM : delta / 2 <= p M).
    { rewrite p_last by exact HM. rewrite F_pos by lra.
      assert (delta <= exp (- (INR M - c) / b)); [|lra]. apply Rle_trans with (exp (- c / b)); [rewrite Edelta; lra|].
      destruct (Req_dec (INR M - c) c) as [->|]; [lra|]. left. apply exp_increasing. unfold Rdiv. apply Rmult_lt_compat_r; [apply ib_pos; exact Hb|lra]. }
    set (f := fun os : list nat => match os with [o1; o2] => if Nat.eq_dec o1 (S M) then 1 else if Nat.eq_dec o2 0 then 1 else 0 | _ => 0 end).
    assert (Hf : forall os, 0 <= f os <= 1).
    { intros [|o1 [|o2 [|? ?]]]; cbn; try lra. destruct (Nat.eq_dec o1 (S M)); [lra|]. destruct (Nat.eq_dec o2 0); lra. }
    assert (N : neighbours [1; 0]%nat [0; 1]%nat) by exact (nb_left [] [] [] 0 0).
    pose proof (P _ _ N f Hf) as I.
    assert (Z : expect p M [0; 1]%nat f = 0).
    { cbn [expect]. rewrite (rsum_ext _ _ (fun _ => 0 * 0)).
      - rewrite rsum_lin. lra.
      - intros z Hz. rewrite (rsum_ext _ _ (fun _ => 0 * 0)); [rewrite rsum_lin; lra|].
        intros z2 Hz2. unfold f. destruct (Nat.eq_dec (0 + z) (S M)); [lia|]. destruct (Nat.eq_dec (1 + z2) 0); [lia|]. lra. }
    assert (L : p M + (1 - p M) * p 0%nat <= expect p M [1; 0]%nat f).
    { cbn [expect]. change (rsum (S M) ?g) with (rsum M g + g M).
      assert (S1 : rsum M (fun z => p z * p 0%nat) <= rsum M (fun z => p z * rsum (S M) (fun z2 => p z2 * f [(1 + z)%nat; (0 + z2)%nat]))).
      { apply rsum_le. intros z Hz. apply Rmult_le_compat_l; [apply p_nonneg|]. rewrite rsum_shift. unfold f at 1.
        destruct (Nat.eq_dec (1 + z) (S M)) as [X|X]; [lia|]. destruct (Nat.eq_dec (0 + 0) 0) as [_|X2]; [|lia].
        assert (0 <= rsum M (fun i => p (S i) * f [(1 + z)%nat; (0 + S i)%nat])); [|lra].
        apply rsum_nonneg. intros i _. apply Rmult_le_pos; [apply p_nonneg|apply Hf]. }
      assert (S2 : rsum (S M) (fun z2 => p z2 * f [(1 + M)%nat; (0 + z2)%nat]) = 1).
      { rewrite <- p_total. apply rsum_ext. intros z2 _. unfold f. destruct (Nat.eq_dec (1 + M) (S M)) as [_|X]; [lra|lia]. }
      assert (S3 : rsum M (fun z => p z * p 0%nat) = (1 - p M) * p 0%nat).
      { rewrite (rsum_ext _ _ (fun z => p 0%nat * p z)) by (intros; lra). rewrite rsum_lin.
        pose proof p_total as T. cbn [rsum] in T. rewrite <- T. lra. }
      cbn beta. unfold expect in *. rewrite S2. lra. }
    rewrite Z in I. rewrite P0 in L.
    assert (0 < a) by apply exp_pos.
    assert (Hp : a * delta / 2 <= 1).
    { assert (a * delta <= 1); [|lra]. apply Rle_trans with (a * exp (- (epsilon / 2))); [apply Rmult_le_compat_l; lra|].
      unfold a. rewrite <- exp_plus. replace (epsilon / 2 + - (epsilon / 2)) with 0 by lra. rewrite exp_0. lra. }
    assert (K : delta / 2 * (1 - a * delta / 2) <= p M * (1 - a * delta / 2)) by (apply Rmult_le_compat_r; lra).
    assert (Q : delta < delta / 2 * (1 - a * delta / 2) + a * delta / 2); [|lra].
    assert (0 < delta * (2 * (a - 1) - a * delta)) by (apply Rmult_lt_0_compat; lra). lra.
  Qed.
End Mechanism.
