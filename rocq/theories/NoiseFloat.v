(** Model of DPPIR/noise/noise.{h,cc} in IEEE-754 double precision (Flocq's
    binary64 with a single NaN; round to nearest even).  std::log is a
    parameter [flog]; everything else is the exact IEEE operation. *)
From Flocq Require Import Core IEEE754.BinarySingleNaN.
From Verif Require Import Base.

Definition prec64 : Prec_gt_0 53 := eq_refl.
Definition emax64 : Prec_lt_emax 53 1024 := eq_refl.
Definition double : Type := binary_float 53 1024.
Definition dadd : double -> double -> double := @Bplus 53 1024 prec64 emax64 mode_NE.
Definition dsub : double -> double -> double := @Bminus 53 1024 prec64 emax64 mode_NE.
Definition dmul : double -> double -> double := @Bmult 53 1024 prec64 emax64 mode_NE.
Definition ddiv : double -> double -> double := @Bdiv 53 1024 prec64 emax64 mode_NE.
Definition dabs (x : double) : double := Babs x.
Definition deq (x y : double) : bool := Beqb x y.
Definition dlt (x y : double) : bool := Bltb x y.
Definition disnan (x : double) : bool := is_nan x.
(** m * 2^e as a double; integers convert with [dz] (exact below 2^53). *)
Definition dscale (m e : Z) : double := @binary_normalize 53 1024 prec64 emax64 mode_NE m e false.
Definition dz (z : Z) : double := dscale z 0.
Definition dhalf : double := dscale 1 (-1).
(** std::floor, std::ceil *)
Definition dfloor (x : double) : double := @Bnearbyint 53 1024 emax64 mode_DN x.
Definition dceil (x : double) : double := @Bnearbyint 53 1024 emax64 mode_UP x.
(** std::fmin, std::fmax: a NaN argument is ignored. *)
Definition dfmin (x y : double) : double :=
  if disnan x then y else if disnan y then x else if dlt y x then y else x.
Definition dfmax (x y : double) : double :=
  if disnan x then y else if disnan y then x else if dlt x y then y else x.
(** Conversion of a double to uint32_t: truncation, undefined for NaN,
    infinities and out-of-range values. *)
Definition to_u32 (x : double) : res Z :=
  if is_finite x && (0 <=? Btrunc x) && (Btrunc x <? 2 ^ 32) then Ok (Btrunc x) else UB.

(** noise.cc:30  RandUniform: rand() / (double) RAND_MAX, for a result [r] of rand(). *)
Definition rand_uniform (r : Z) : double := ddiv (dz r) (dz 2147483647).

(** noise.cc:15-19  Laplace, from two results of rand(). *)
Definition laplace (flog : double -> double) (mean span : double) (r1 r2 : Z) : double :=
  let sign := if dlt (rand_uniform r1) dhalf then -1 else 1 in
  let u := rand_uniform r2 in
  dsub mean (dmul (dmul (dz sign) span) (flog (dsub (dz 1) (dmul (dz 2) (dabs (dsub u dhalf)))))).

(** noise.cc:22-25  InvCDF *)
Definition inv_cdf (flog : double -> double) (mean span prob : double) : double :=
  let sign := if dlt dhalf prob then -1 else 1 in
  dsub mean (dmul (dmul (dz sign) span) (flog (dsub (dz 1) (dmul (dz 2) (dabs (dsub prob dhalf)))))).

(** noise.h:36-39  the fields of NoiseDistribution *)
Record dist := { nd_debug : bool; nd_span : double; nd_cutoff : double }.

(** noise.cc:46-64  constructor.  sample_t and index_t are both uint32_t
    (types.h), so the conversion in the check on line 60 is [w32]. *)
Definition noise_new (flog : double -> double) (epsilon delta : double) : res dist :=
  let d :=
    if deq epsilon (dz 0) || deq delta (dz 0)
    then {| nd_debug := true; nd_span := dz 0; nd_cutoff := dz 0 |}
    else
      let span := ddiv (dz 2) epsilon in
      {| nd_debug := false; nd_span := span; nd_cutoff := inv_cdf flog (dz 0) span (ddiv delta (dz 2)) |} in
  let* max := to_u32 (dfloor (dmul (dz 2) (nd_cutoff d))) in
  if negb (max =? w32 max) then Abort else Ok d.

(** noise.cc:66-71  SampleReal *)
Definition sample_real (flog : double -> double) (d : dist) (r1 r2 : Z) : res Z :=
  let u := laplace flog (dz 0) (nd_span d) r1 r2 in
  let u := dfmax (dz 0) (dadd (nd_cutoff d) (dfmin (nd_cutoff d) u)) in
  to_u32 (dfloor u).

(** noise.h:28-32  Sample: without DPPIR_SAMPLE the cutoff, converted. *)
Definition sample (dppir_sample : bool) (flog : double -> double) (d : dist) (r1 r2 : Z) : res Z :=
  if dppir_sample then sample_real flog d r1 r2 else to_u32 (nd_cutoff d).

(** noise.cc:33-43  FindRange with the floating-point division: 1.0 * db_size,
    divided by servers_count, rounded up, converted to uint32_t. *)
Definition find_range_fp (asserts : bool) (server_id servers_count db_size : Z) : res (Z * Z) :=
  let* _ := (if asserts then assert_ (servers_count <=? db_size) else Ok tt) in
  let* range := to_u32 (dceil (ddiv (dmul (dz 1) (dz db_size)) (dz servers_count))) in
  let range_start := w32 (server_id * range) in
  let range_end := w32 (range_start + range) in
  Ok (range_start, if server_id =? servers_count - 1 then db_size else range_end).
