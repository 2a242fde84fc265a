(** Model of the noise sampler in exact real arithmetic (DPPIR/noise/noise.cc).
    Simplification with respect to [NoiseFloat]: no rounding, the natural
    logarithm instead of std::log, and uniform reals instead of rand(). *)
From Coq Require Import Reals.
From Flocq Require Import Core.
Local Open Scope R_scope.

(** noise.cc:15-19  Laplace *)
Definition laplaceR (mean span u1 u2 : R) : R :=
  let sign := if Rlt_dec u1 (1 / 2) then -1 else 1 in
  mean - sign * span * ln (1 - 2 * Rabs (u2 - 1 / 2)).

(** noise.cc:22-25  InvCDF *)
Definition inv_cdfR (mean span prob : R) : R :=
  let sign := if Rlt_dec (1 / 2) prob then -1 else 1 in
  mean - sign * span * ln (1 - 2 * Rabs (prob - 1 / 2)).

(** noise.cc:54-55  span_ and cutoff_ for non-zero epsilon and delta *)
Definition spanR (epsilon : R) : R := 2 / epsilon.
Definition cutoffR (epsilon delta : R) : R := inv_cdfR 0 (spanR epsilon) (delta / 2).

(** noise.cc:66-71  SampleReal *)
Definition sampleR (epsilon delta u1 u2 : R) : Z :=
  let u := laplaceR 0 (spanR epsilon) u1 u2 in
  Zfloor (Rmax 0 (cutoffR epsilon delta + Rmin (cutoffR epsilon delta) u)).
