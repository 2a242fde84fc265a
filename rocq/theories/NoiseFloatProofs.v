(** Proofs about the double-precision noise code. *)
From Coq Require Import Reals Psatz.
From Flocq Require Import Core IEEE754.BinarySingleNaN Mult_error.
From Verif Require Import Base BaseProofs Range NoiseFloat.

Local Open Scope R_scope.
Notation rnd64 := (round radix2 (SpecFloat.fexp 53 1024) ZnearestE).
Notation fmt64 := (generic_format radix2 (SpecFloat.fexp 53 1024)).
#[local] Existing Instance prec64.
#[local] Existing Instance emax64.

#[local] Instance valid64 : Valid_exp (SpecFloat.fexp 53 1024) := FLT_exp_valid (SpecFloat.emin 53 1024) 53.

Lemma round_int rnd x : round radix2 (FIX_exp 0) rnd x = IZR (rnd x).
Proof. unfold round, scaled_mantissa, cexp, FIX_exp, F2R. cbn [Fnum Fexp]. change (bpow radix2 (- 0)) with 1. change (bpow radix2 0) with 1. rewrite !Rmult_1_r. reflexivity. Qed.

Lemma bpow_big : (1 * 2 ^ 53 < bpow radix2 1024)%R.
Proof. replace (1 * 2 ^ 53)%R with (bpow radix2 53) by (cbn; lra). apply bpow_lt. lia. Qed.

Lemma fmt_scale m e : (Z.abs m < 2 ^ 53)%Z -> (-1074 <= e)%Z -> fmt64 (IZR m * bpow radix2 e).
Proof.
  intros H He. apply (generic_format_FLT radix2 (SpecFloat.emin 53 1024) 53). exists (Float radix2 m e).
  - reflexivity.
  - exact H.
  - exact He.
Qed.
Lemma fmt_int m : (Z.abs m < 2 ^ 53)%Z -> fmt64 (IZR m).
Proof. intros H. rewrite <- (Rmult_1_r (IZR m)). apply (fmt_scale m 0 H). lia. Qed.

Lemma abs_int_lt m : (Z.abs m < 2 ^ 53)%Z -> Rabs (IZR m) < bpow radix2 1024.
Proof.
  intros H. rewrite <- abs_IZR. apply Rlt_trans with (IZR (2 ^ 53)); [apply IZR_lt; exact H|].
  pose proof bpow_big. lra.
Qed.

Lemma dz_correct m : (Z.abs m < 2 ^ 53)%Z -> B2R (dz m) = IZR m /\ is_finite (dz m) = true.
Proof.
  intros H. pose proof (@binary_normalize_correct 53 1024 prec64 emax64 mode_NE m 0 false) as B.
  cbv zeta in B. unfold F2R in B. cbn [Fnum Fexp] in B. change (bpow radix2 0) with 1 in B. rewrite Rmult_1_r in B.
  cbn [round_mode] in B. rewrite (round_generic radix2 _ ZnearestE _ (fmt_int m H)) in B.
  rewrite Rlt_bool_true in B by (apply abs_int_lt; exact H). destruct B as (B1 & B2 & _). split; [exact B1|exact B2].
Qed.

Lemma dhalf_correct : B2R dhalf = / 2 /\ is_finite dhalf = true.
Proof.
  pose proof (@binary_normalize_correct 53 1024 prec64 emax64 mode_NE 1 (-1) false) as B.
  cbv zeta in B. unfold F2R in B. cbn [Fnum Fexp] in B. replace (1 * bpow radix2 (-1)) with (/ 2) in B by (cbn; lra).
  cbn [round_mode] in B. assert (F : fmt64 (/ 2)).
  { replace (/ 2) with (IZR 1 * bpow radix2 (-1)) by (cbn; lra). apply fmt_scale; lia. }
  rewrite (round_generic radix2 _ ZnearestE _ F) in B.
  rewrite Rlt_bool_true in B.
  - destruct B as (B1 & B2 & _). split; [exact B1|exact B2].
  - rewrite Rabs_pos_eq by lra. pose proof bpow_big. lra.
Qed.

Lemma dfloor_correct x : B2R (dfloor x) = IZR (Zfloor (B2R x)) /\ is_finite (dfloor x) = is_finite x.
Proof.
  destruct (@Bnearbyint_correct 53 1024 emax64 mode_DN x) as (H1 & H2 & _). rewrite round_int in H1. split; [exact H1|exact H2].
Qed.
Lemma dceil_correct x : B2R (dceil x) = IZR (Zceil (B2R x)) /\ is_finite (dceil x) = is_finite x.
Proof.
  destruct (@Bnearbyint_correct 53 1024 emax64 mode_UP x) as (H1 & H2 & _). rewrite round_int in H1. split; [exact H1|exact H2].
Qed.

Lemma Btrunc_Z (x : double) : Btrunc x = Ztrunc (B2R x).
Proof. apply eq_IZR. rewrite (@Btrunc_correct 53 1024 emax64), round_int. reflexivity. Qed.

Lemma to_u32_spec x v : to_u32 x = Ok v <-> is_finite x = true /\ v = Ztrunc (B2R x) /\ (0 <= v < 2 ^ 32)%Z.
Proof.
  unfold to_u32. rewrite Btrunc_Z. destruct (is_finite x); cbn [andb]; [|split; [discriminate|intros [H _]; discriminate]].
  destruct (Z.leb_spec 0 (Ztrunc (B2R x))) as [H1|H1]; cbn [andb].
  - destruct (Z.ltb_spec (Ztrunc (B2R x)) (2 ^ 32)) as [H2|H2].
    + split; [intros E; inversion E; subst; auto|intros (_ & -> & _); reflexivity].
    + split; [discriminate|intros (_ & -> & H); lia].
  - split; [discriminate|intros (_ & -> & H); lia].
Qed.
Lemma to_u32_UB x : to_u32 x = UB <-> is_finite x = false \/ ~ (0 <= Ztrunc (B2R x) < 2 ^ 32)%Z.
Proof.
  unfold to_u32. rewrite Btrunc_Z. destruct (is_finite x); cbn [andb]; [|split; auto].
  destruct (Z.leb_spec 0 (Ztrunc (B2R x))) as [H1|H1]; cbn [andb].
  - destruct (Z.ltb_spec (Ztrunc (B2R x)) (2 ^ 32)) as [H2|H2].
    + split; [discriminate|intros [H|H]; [discriminate|lia]].
    + split; [intros _; right; lia|reflexivity].
  - split; [intros _; right; lia|reflexivity].
Qed.
Lemma to_u32_floor x v : to_u32 (dfloor x) = Ok v <-> is_finite x = true /\ v = Zfloor (B2R x) /\ (0 <= v < 2 ^ 32)%Z.
Proof. rewrite to_u32_spec. destruct (dfloor_correct x) as [-> ->]. rewrite Ztrunc_IZR. reflexivity. Qed.
Lemma to_u32_floor_UB x : to_u32 (dfloor x) = UB <-> is_finite x = false \/ ~ (0 <= Zfloor (B2R x) < 2 ^ 32)%Z.
Proof. rewrite to_u32_UB. destruct (dfloor_correct x) as [-> ->]. rewrite Ztrunc_IZR. reflexivity. Qed.

Lemma overflow_not_finite (x : double) s : B2SF x = binary_overflow 53 1024 mode_NE s -> is_finite x = false.
Proof. intros H. rewrite <- is_finite_SF_B2SF, H. reflexivity. Qed.

(** Doubling is exact. *)
Lemma dmul_two x : is_finite (dmul (dz 2) x) = true ->
  is_finite x = true /\ B2R (dmul (dz 2) x) = 2 * B2R x /\ Rabs (2 * B2R x) < bpow radix2 1024.
Proof.
  intros F. destruct (dz_correct 2 ltac:(lia)) as [E2 F2].
  assert (Fx : is_finite x = true).
  { destruct x as [s|s| |s m e He]; try reflexivity; vm_compute in F; discriminate. }
  split; [exact Fx|].
  pose proof (@Bmult_correct 53 1024 prec64 emax64 mode_NE (dz 2) x) as B. rewrite E2 in B. cbn [round_mode] in B.
  assert (Fm : fmt64 (2 * B2R x)).
  { rewrite Rmult_comm. apply (mult_bpow_pos_exact_FLT radix2 (SpecFloat.emin 53 1024) 53 (B2R x) 1); [|lia].
    apply (@generic_format_B2R 53 1024). }
  rewrite (round_generic radix2 _ ZnearestE _ Fm) in B.
  destruct (Rlt_bool_spec (Rabs (2 * B2R x)) (bpow radix2 1024)) as [H|H].
  - destruct B as (B1 & _). split; [exact B1|exact H].
  - apply overflow_not_finite in B. unfold dmul in F. congruence.
Qed.

(** ** C26 The constructor *)
Definition cutoff_of (flog : double -> double) (epsilon delta : double) : double :=
  if deq epsilon (dz 0) || deq delta (dz 0) then dz 0 else inv_cdf flog (dz 0) (ddiv (dz 2) epsilon) (ddiv delta (dz 2)).

Lemma noise_new_spec flog epsilon delta :
  (forall d, noise_new flog epsilon delta = Ok d <->
     (d = if deq epsilon (dz 0) || deq delta (dz 0)
          then {| nd_debug := true; nd_span := dz 0; nd_cutoff := dz 0 |}
          else {| nd_debug := false; nd_span := ddiv (dz 2) epsilon; nd_cutoff := cutoff_of flog epsilon delta |}) /\
     is_finite (dmul (dz 2) (cutoff_of flog epsilon delta)) = true /\
     (0 <= Zfloor (2 * B2R (cutoff_of flog epsilon delta)) < 2 ^ 32)%Z) /\
  (noise_new flog epsilon delta = UB <->
     ~ (is_finite (dmul (dz 2) (cutoff_of flog epsilon delta)) = true /\
       (0 <= Zfloor (2 * B2R (cutoff_of flog epsilon delta)) < 2 ^ 32)%Z)) /\
  noise_new flog epsilon delta <> Abort /\ noise_new flog epsilon delta <> NoFuel.
Proof.
  unfold noise_new, cutoff_of.
  set (d0 := if deq epsilon (dz 0) || deq delta (dz 0) then _ else _).
  set (c := if deq epsilon (dz 0) || deq delta (dz 0) then dz 0 else _).
  assert (Ec : nd_cutoff d0 = c) by (unfold d0, c; destruct (deq epsilon (dz 0) || deq delta (dz 0)); reflexivity).
  assert (Ed : d0 = if deq epsilon (dz 0) || deq delta (dz 0)
          then {| nd_debug := true; nd_span := dz 0; nd_cutoff := dz 0 |}
          else {| nd_debug := false; nd_span := ddiv (dz 2) epsilon; nd_cutoff := c |})
    by (unfold d0, c; destruct (deq epsilon (dz 0) || deq delta (dz 0)); reflexivity).
  rewrite <- Ed. rewrite Ec. clearbody d0 c.
  destruct (is_finite (dmul (dz 2) c)) eqn:F.
  - destruct (dmul_two c F) as (_ & E2 & _).
    destruct (Z_le_dec 0 (Zfloor (2 * B2R c))) as [H1|H1]; [destruct (Z_lt_dec (Zfloor (2 * B2R c)) (2 ^ 32)) as [H2|H2]|].
    + assert (E : to_u32 (dfloor (dmul (dz 2) c)) = Ok (Zfloor (2 * B2R c))) by (apply to_u32_floor; rewrite E2; auto).
      rewrite E. cbn [bind]. unfold w32. rewrite Z.mod_small, Z.eqb_refl by lia. cbn [negb].
      split; [|split; [|split; discriminate]].
      * intros d. split; [intros X; inversion X; auto|intros (-> & _); reflexivity].
      * split; [discriminate|]. intros X. exfalso. apply X. auto.
    + assert (E : to_u32 (dfloor (dmul (dz 2) c)) = UB) by (apply to_u32_floor_UB; rewrite E2; right; lia).
      rewrite E. cbn [bind]. split; [|split; [|split; discriminate]].
      * intros d. split; [discriminate|]. intros (_ & _ & X). lia.
      * split; [|reflexivity]. intros _ [_ X]. lia.
    + assert (E : to_u32 (dfloor (dmul (dz 2) c)) = UB) by (apply to_u32_floor_UB; rewrite E2; right; lia).
      rewrite E. cbn [bind]. split; [|split; [|split; discriminate]].
      * intros d. split; [discriminate|]. intros (_ & _ & X). lia.
      * split; [|reflexivity]. intros _ [_ X]. lia.
  - assert (E : to_u32 (dfloor (dmul (dz 2) c)) = UB) by (apply to_u32_floor_UB; auto).
    rewrite E. cbn [bind]. split; [|split; [|split; discriminate]].
    + intros d. split; [discriminate|]. intros (_ & X & _). discriminate.
    + split; [|reflexivity]. intros _ [X _]. discriminate.
Qed.

(** What a successfully constructed distribution satisfies. *)
Lemma noise_new_cutoff flog epsilon delta d : noise_new flog epsilon delta = Ok d ->
  is_finite (nd_cutoff d) = true /\ B2R (dmul (dz 2) (nd_cutoff d)) = 2 * B2R (nd_cutoff d) /\
  is_finite (dmul (dz 2) (nd_cutoff d)) = true /\
  (0 <= Zfloor (2 * B2R (nd_cutoff d)) < 2 ^ 32)%Z /\ 0 <= B2R (nd_cutoff d).
Proof.
  intros E. apply (noise_new_spec flog epsilon delta) in E. destruct E as (-> & F & R).
  assert (Ec : nd_cutoff (if deq epsilon (dz 0) || deq delta (dz 0)
          then {| nd_debug := true; nd_span := dz 0; nd_cutoff := dz 0 |}
          else {| nd_debug := false; nd_span := ddiv (dz 2) epsilon; nd_cutoff := cutoff_of flog epsilon delta |}) = cutoff_of flog epsilon delta).
  { unfold cutoff_of. destruct (deq epsilon (dz 0) || deq delta (dz 0)); reflexivity. }
  rewrite Ec. destruct (dmul_two _ F) as (Fx & E2 & _). split; [exact Fx|]. split; [exact E2|]. split; [exact F|]. split; [exact R|].
  pose proof (Zfloor_lb (2 * B2R (cutoff_of flog epsilon delta))) as L.
  assert (0 <= IZR (Zfloor (2 * B2R (cutoff_of flog epsilon delta)))) by (apply IZR_le; lia). lra.
Qed.

(** ** C22 Bounds of a sample *)
Lemma dlt_finite (x y : double) : is_finite x = true -> is_finite y = true -> dlt x y = Rlt_bool (B2R x) (B2R y).
Proof. apply Bltb_correct. Qed.

Lemma sample_any c u : is_finite c = true -> is_finite (dmul (dz 2) c) = true -> 0 <= B2R c ->
  (Zfloor (2 * B2R c) < 2 ^ 32)%Z ->
  exists v, to_u32 (dfloor (dfmax (dz 0) (dadd c (dfmin c u)))) = Ok v /\ (0 <= v <= Zfloor (2 * B2R c))%Z.
Proof.
  intros Fc F2 Hc Hm. destruct (dmul_two c F2) as (_ & E2 & Hb). destruct (dz_correct 0 ltac:(lia)) as [Ez Fz].
  assert (Hfl : (0 <= Zfloor (2 * B2R c))%Z) by (apply Zfloor_lub; cbn; lra).
  assert (Nc : disnan c = false) by (unfold disnan; destruct c; try reflexivity; discriminate).
  (* the inner minimum is -infinity or a finite number not above c *)
  assert (M : dfmin c u = B754_infinity true \/ (is_finite (dfmin c u) = true /\ B2R (dfmin c u) <= B2R c)).
  { unfold dfmin. rewrite Nc. destruct (disnan u) eqn:Nu; [right; split; [exact Fc|lra]|].
    destruct (is_finite u) eqn:Fu.
    - rewrite dlt_finite by assumption. destruct (Rlt_bool_spec (B2R u) (B2R c)); right; split; auto; lra.
    - destruct u as [s|s| |s m e He]; try discriminate. destruct s.
      + left. destruct c as [s|s| |s m e He]; try discriminate Fc; cbn; [destruct s; reflexivity|destruct s; reflexivity].
      + right. replace (dlt (B754_infinity false) c) with false; [split; [exact Fc|lra]|].
        destruct c as [s|s| |s m e He]; try discriminate Fc; destruct s; reflexivity. }
  (* the maximum is between 0 and 2c *)
  assert (X : exists w, dfmax (dz 0) (dadd c (dfmin c u)) = w /\ is_finite w = true /\ 0 <= B2R w <= 2 * B2R c).
  { assert (Nz : disnan (dz 0) = false) by reflexivity.
    destruct M as [->|[Fm Hle]].
    - exists (dz 0). assert (Es : dadd c (B754_infinity true) = B754_infinity true).
      { destruct c as [s|s| |s m e He]; try discriminate Fc; reflexivity. }
      rewrite Es. split; [reflexivity|]. rewrite Ez, Fz. split; [reflexivity|lra].
    - set (m := dfmin c u) in *. pose proof (@Bplus_correct 53 1024 prec64 emax64 mode_NE c m Fc Fm) as B. cbn [round_mode] in B.
      assert (Hup : rnd64 (B2R c + B2R m) <= 2 * B2R c).
      { rewrite <- E2. rewrite <- (round_generic radix2 _ ZnearestE (B2R (dmul (dz 2) c))) by apply (@generic_format_B2R 53 1024).
        apply round_le; [exact valid64|apply valid_rnd_N|]. rewrite E2. lra. }
      destruct (Rlt_bool_spec (Rabs (rnd64 (B2R c + B2R m))) (bpow radix2 1024)) as [H|H].
      + destruct B as (B1 & B2 & _). fold (dadd c m) in B1, B2.
        assert (Ns : disnan (dadd c m) = false) by (unfold disnan; destruct (dadd c m); try reflexivity; discriminate).
        unfold dfmax. rewrite Nz, Ns, (dlt_finite _ _ Fz B2), Ez.
        destruct (Rlt_bool_spec 0 (B2R (dadd c m))) as [Hp|Hp].
        * eexists. split; [reflexivity|]. split; [exact B2|]. rewrite B1 in *. lra.
        * eexists. split; [reflexivity|]. split; [exact Fz|]. rewrite Ez. lra.
      + destruct B as (B1 & B2). fold (dadd c m) in B1.
        (* overflow is only possible downwards *)
        assert (Hs : Bsign c = true).
        { destruct (Rle_or_lt 0 (rnd64 (B2R c + B2R m))) as [Hp|Hp].
          - rewrite Rabs_pos_eq in H by exact Hp. rewrite Rabs_pos_eq in Hb by lra. lra.
          - assert (Hneg : B2R c + B2R m < 0).
            { destruct (Rlt_or_le (B2R c + B2R m) 0) as [L|L]; [exact L|]. exfalso.
              assert (0 <= rnd64 (B2R c + B2R m)).
              { rewrite <- (round_0 radix2 (SpecFloat.fexp 53 1024) ZnearestE). apply round_le; [exact valid64|apply valid_rnd_N|exact L]. }
              lra. }
            rewrite B2. destruct m as [s|s| |s mm e He]; try discriminate Fm; destruct s; try reflexivity; exfalso.
            + cbn in Hneg. lra.
            + assert (0 <= B2R (B754_finite false mm e He : double)) by (apply F2R_ge_0; cbn; lia). lra. }
        rewrite Hs in B1. assert (Es : dadd c m = B754_infinity true) by (apply B2SF_inj; exact B1).
        rewrite Es. exists (dz 0). split; [reflexivity|]. rewrite Ez, Fz. split; [reflexivity|lra]. }
  destruct X as (w & -> & Fw & Hw). exists (Zfloor (B2R w)). split.
  - apply to_u32_floor. split; [exact Fw|]. split; [reflexivity|]. split.
    + apply Zfloor_lub. cbn. lra.
    + apply Z.le_lt_trans with (Zfloor (2 * B2R c)); [apply Zfloor_le; lra|exact Hm].
  - split; [apply Zfloor_lub; cbn; lra|apply Zfloor_le; lra].
Qed.

Lemma sample_real_bounded flog epsilon delta d : noise_new flog epsilon delta = Ok d ->
  forall r1 r2, exists v, sample_real flog d r1 r2 = Ok v /\ (0 <= v <= Zfloor (2 * B2R (nd_cutoff d)))%Z.
Proof.
  intros E r1 r2. destruct (noise_new_cutoff _ _ _ _ E) as (Fc & E2 & F2 & R & Hc).
  unfold sample_real. apply sample_any; [exact Fc|exact F2|exact Hc|lia].
Qed.

Lemma sample_zero flog epsilon delta : deq epsilon (dz 0) = true \/ deq delta (dz 0) = true ->
  exists d, noise_new flog epsilon delta = Ok d /\ B2R (nd_cutoff d) = 0 /\
    forall b r1 r2, sample b flog d r1 r2 = Ok 0%Z.
Proof.
  intros H. destruct (dz_correct 0 ltac:(lia)) as [Ez Fz].
  assert (Hd : deq epsilon (dz 0) || deq delta (dz 0) = true) by (destruct H as [->| ->]; [reflexivity|apply orb_true_r]).
  assert (E : noise_new flog epsilon delta = Ok {| nd_debug := true; nd_span := dz 0; nd_cutoff := dz 0 |}).
  { unfold noise_new. rewrite Hd. reflexivity. }
  eexists. split; [exact E|]. split; [exact Ez|]. intros [|] r1 r2.
  - cbn [sample]. destruct (sample_real_bounded _ _ _ _ E r1 r2) as (v & Ev & Hv). cbn [nd_cutoff] in Hv.
    rewrite Ez, Rmult_0_r, Zfloor_IZR in Hv. rewrite Ev. f_equal. lia.
  - reflexivity.
Qed.

(** ** C25 The default build *)
Lemma sample_const flog epsilon delta d : noise_new flog epsilon delta = Ok d ->
  forall r1 r2, sample false flog d r1 r2 = Ok (Zfloor (B2R (nd_cutoff d))) /\
    (0 <= Zfloor (B2R (nd_cutoff d)) <= Zfloor (2 * B2R (nd_cutoff d)))%Z.
Proof.
  intros E r1 r2. destruct (noise_new_cutoff _ _ _ _ E) as (Fc & E2 & F2 & R & Hc).
  assert (H1 : (0 <= Zfloor (B2R (nd_cutoff d)))%Z) by (apply Zfloor_lub; cbn; lra).
  assert (H2 : (Zfloor (B2R (nd_cutoff d)) <= Zfloor (2 * B2R (nd_cutoff d)))%Z) by (apply Zfloor_le; lra).
  split; [|lia]. cbn [sample]. apply to_u32_spec. split; [exact Fc|]. split; [|lia].
  unfold Ztrunc. rewrite Rlt_bool_false by lra. reflexivity.
Qed.

(** ** C21 The rounded-up quotient *)
Lemma Zceil_mul a b : (0 < b)%Z -> Zceil (IZR a / IZR b) = (- ((- a) / b))%Z.
Proof.
  intros Hb. unfold Zceil. f_equal. replace (- (IZR a / IZR b)) with (IZR (- a) / IZR b) by (rewrite opp_IZR; field; apply IZR_neq; lia).
  apply Zfloor_div. lia.
Qed.

Lemma ceil_rnd a b : (0 <= a < 2 ^ 32)%Z -> (1 <= b <= 255)%Z -> Zceil (rnd64 (IZR a / IZR b)) = Zceil (IZR a / IZR b).
Proof.
  intros Ha Hb. set (x := IZR a / IZR b).
  assert (Hb0 : 0 < IZR b) by (apply IZR_lt; lia).
  assert (Ex : x * IZR b = IZR a) by (unfold x; field; lra).
  set (n := Zfloor x). pose proof (Zfloor_lb x) as L. pose proof (Zfloor_ub x) as U. fold n in L, U.
  assert (Hn : n = (a / b)%Z) by (unfold n, x; apply Zfloor_div; lia).
  assert (Bn : (0 <= n < 2 ^ 32)%Z).
  { rewrite Hn. split; [apply Z.div_pos; lia|]. apply Z.le_lt_trans with a; [|lia]. apply Z.div_le_upper_bound; nia. }
  destruct (Req_dec (IZR n) x) as [En|En].
  - rewrite <- En. rewrite round_generic; [reflexivity|apply valid_rnd_N|]. apply fmt_int. lia.
  - assert (Hx : IZR n < x) by lra.
    assert (Gap : IZR n + bpow radix2 (-8) <= x).
    { (* a - n*b is a positive integer, so x - n >= 1/b *)
      assert (Hi : (1 <= a - n * b)%Z).
      { assert (IZR (n * b) < IZR a); [rewrite mult_IZR; nra|]. apply lt_IZR in H. lia. }
      assert (H1 : 1 <= (x - IZR n) * IZR b).
      { replace ((x - IZR n) * IZR b) with (IZR (a - n * b)) by (rewrite minus_IZR, mult_IZR; lra). apply IZR_le in Hi. exact Hi. }
      change (bpow radix2 (-8)) with (/ 256).
      assert (Hb2 : IZR b <= 255) by (apply IZR_le; lia). nra. }
    assert (Lo : IZR n + bpow radix2 (-8) <= rnd64 x).
    { apply round_ge_generic; [exact valid64|apply valid_rnd_N| |exact Gap].
      replace (IZR n + bpow radix2 (-8)) with (IZR (n * 256 + 1) * bpow radix2 (-8)).
      - apply fmt_scale; lia.
      - rewrite plus_IZR, mult_IZR. change (bpow radix2 (-8)) with (/ 256). field. }
    assert (Hi : rnd64 x <= IZR (n + 1)).
    { apply round_le_generic; [exact valid64|apply valid_rnd_N| |rewrite plus_IZR; lra]. apply fmt_int. lia. }
    assert (E1 : Zceil (rnd64 x) = (n + 1)%Z).
    { apply Zceil_imp. replace (n + 1 - 1)%Z with n by lia. split; [|exact Hi].
      change (bpow radix2 (-8)) with (/ 256) in Lo. lra. }
    assert (E2 : Zceil x = (n + 1)%Z).
    { apply Zceil_imp. replace (n + 1 - 1)%Z with n by lia. split; [exact Hx|rewrite plus_IZR; lra]. }
    congruence.
Qed.

Lemma dmul_one a : (0 <= a < 2 ^ 32)%Z -> B2R (dmul (dz 1) (dz a)) = IZR a /\ is_finite (dmul (dz 1) (dz a)) = true.
Proof.
  intros Ha. destruct (dz_correct 1 ltac:(lia)) as [E1 F1]. destruct (dz_correct a ltac:(lia)) as [Ea Fa].
  pose proof (@Bmult_correct 53 1024 prec64 emax64 mode_NE (dz 1) (dz a)) as B. rewrite E1, Ea in B. cbn [round_mode] in B.
  rewrite Rmult_1_l in B. rewrite (round_generic radix2 _ ZnearestE _ (fmt_int a ltac:(lia))) in B.
  rewrite Rlt_bool_true in B by (apply abs_int_lt; lia). destruct B as (B1 & B2 & _). rewrite F1, Fa in B2. split; [exact B1|exact B2].
Qed.

Lemma range_size_fp db servers : (0 <= db < 2 ^ 32)%Z -> (1 <= servers <= 255)%Z ->
  to_u32 (dceil (ddiv (dmul (dz 1) (dz db)) (dz servers))) = Ok (range_size servers db).
Proof.
  intros Hd Hs. destruct (dmul_one db Hd) as [Ed Fd]. destruct (dz_correct servers ltac:(lia)) as [Es Fs].
  assert (Hne : IZR servers <> 0) by (apply IZR_neq; lia).
  pose proof (@Bdiv_correct 53 1024 prec64 emax64 mode_NE (dmul (dz 1) (dz db)) (dz servers) ltac:(rewrite Es; exact Hne)) as B.
  rewrite Ed, Es in B. cbn [round_mode] in B.
  assert (Hs0 : 1 <= IZR servers) by (apply IZR_le; lia). assert (Hd0 : 0 <= IZR db) by (apply IZR_le; lia).
  assert (Hq : 0 <= IZR db / IZR servers <= IZR db).
  { assert (0 < / IZR servers <= 1) by (split; [apply Rinv_0_lt_compat; lra|rewrite <- Rinv_1; apply Rinv_le_contravar; lra]). unfold Rdiv. nra. }
  assert (Hr : 0 <= rnd64 (IZR db / IZR servers) <= IZR db).
  { split.
    - apply round_ge_generic; [exact valid64|apply valid_rnd_N|apply generic_format_0|lra].
    - apply round_le_generic; [exact valid64|apply valid_rnd_N|apply fmt_int; lia|lra]. }
  rewrite Rlt_bool_true in B.
  2:{ apply Rle_lt_trans with (Rabs (IZR db)); [rewrite !Rabs_pos_eq by lra; lra|]. apply abs_int_lt. lia. }
  destruct B as (B1 & B2 & _). rewrite Fd in B2. apply to_u32_spec.
  destruct (dceil_correct (ddiv (dmul (dz 1) (dz db)) (dz servers))) as [C1 C2]. unfold ddiv in *. rewrite C2, C1, B1, Ztrunc_IZR.
  split; [exact B2|]. rewrite ceil_rnd by assumption. rewrite Zceil_mul by lia. split; [reflexivity|]. unfold range_size.
  assert (0 <= - ((- db) / servers) <= db)%Z.
  { Z.div_mod_to_equations. nia. }
  lia.
Qed.

Lemma find_range_fp_spec asserts s n db : (0 <= db < 2 ^ 32)%Z -> (1 <= n <= 255)%Z ->
  find_range_fp asserts s n db = find_range asserts s n db.
Proof.
  intros Hd Hn. unfold find_range_fp, find_range. destruct (if asserts then _ else _); cbn [bind]; try reflexivity.
  rewrite range_size_fp by assumption. reflexivity.
Qed.
