(** Theorems about noise: ranges, double-precision sampling, constant noise. *)
From Coq Require Import Reals.
From Flocq Require Import Core IEEE754.BinarySingleNaN.
From Verif Require Import Base BaseProofs Range NoiseFloat NoiseFloatProofs RangeProofs
  Wire Onion Shuffle State Database Handlers Batch Party Chain Spec Toy PropsShuffle ChainSpec OnlineProofs ChainProofs PropsChain.

(** C20 Noise ranges.  [ceil_div]: db_size divided by the servers, rounded up. *)
Definition ceil_div (db servers : Z) : Z := (db + servers - 1) / servers.
Lemma ceil_div_range db servers : 1 <= servers -> ceil_div db servers = range_size servers db.
Proof. intros H. unfold ceil_div, range_size. Z.div_mod_to_equations. nia. Qed.

Theorem C20_ranges_tile : forall servers db, 1 <= servers <= 255 -> servers <= db < 2 ^ 32 ->
  (servers - 1) * ceil_div db servers <= db ->
  (forall s, 0 <= s < servers -> exists a b, find_range_fp true s servers db = Ok (a, b) /\ 0 <= a <= b /\ b <= db) /\
  (forall k, 0 <= k < db ->
     exists! s, 0 <= s < servers /\ exists a b, find_range_fp true s servers db = Ok (a, b) /\ a <= k < b).
Proof. intros servers db H1 H2 H3. rewrite ceil_div_range in H3 by lia. exact (c20_tile servers db H1 H2 H3). Qed.
Print Assumptions C20_ranges_tile.
Theorem C20_large_database : forall servers db, 1 <= servers <= 255 -> servers * (servers - 1) <= db ->
  (servers - 1) * ceil_div db servers <= db.
Proof. intros servers db H1 H2. rewrite ceil_div_range by lia. apply range_size_small; nia. Qed.
Print Assumptions C20_large_database.
(** Otherwise the last server's range starts after its end. *)
Theorem C20_range_inverted : forall servers db, 1 <= servers <= 255 -> servers <= db < 2 ^ 32 ->
  db < (servers - 1) * ceil_div db servers ->
  exists a b, find_range_fp true (servers - 1) servers db = Ok (a, b) /\ b = db /\ b < a.
Proof. intros servers db H1 H2 H3. rewrite ceil_div_range in H3 by lia. exact (c20_gap servers db H1 H2 H3). Qed.
Print Assumptions C20_range_inverted.
Example C20_example : (4 - 1) * ceil_div 9 4 <= 9 /\ 5 < (4 - 1) * ceil_div 5 4 /\
  map (fun s => find_range_fp true s 4 9) [0; 1; 2; 3] = [Ok (0, 3); Ok (3, 6); Ok (6, 9); Ok (9, 9)] /\
  find_range_fp true 3 4 5 = Ok (6, 5).
Proof. vm_compute. repeat split; discriminate. Qed.

(** C21 The double-precision expression is the exact ceiling. *)
Theorem C21_exact_ceiling : forall servers db, 1 <= servers <= 255 -> 0 <= db < 2 ^ 32 ->
  to_u32 (dceil (ddiv (dmul (dz 1) (dz db)) (dz servers))) = Ok (ceil_div db servers).
Proof. intros servers db H1 H2. rewrite ceil_div_range by lia. exact (range_size_fp db servers H2 H1). Qed.
Print Assumptions C21_exact_ceiling.
(** So FindRange computes without rounding or wrapping, for every server of every
    deployment, and refuses exactly the databases with fewer rows than servers. *)
Theorem C21_find_range : forall asserts servers db s, 1 <= servers <= 255 -> 0 <= db < 2 ^ 32 -> 0 <= s < servers ->
  find_range_fp asserts s servers db =
    if asserts && (db <? servers) then Abort
    else Ok (s * ceil_div db servers, if s =? servers - 1 then db else (s + 1) * ceil_div db servers).
Proof.
  intros asserts servers db s H1 H2 H3. rewrite find_range_fp_spec by lia. unfold find_range. rewrite <- ceil_div_range by lia.
  assert (B : 0 <= (servers - 1) * ceil_div db servers < 2 ^ 32 /\ 0 <= ceil_div db servers).
  { unfold ceil_div. pose proof (Z.div_mod (db + servers - 1) servers ltac:(lia)) as D.
    pose proof (Z.mod_pos_bound (db + servers - 1) servers ltac:(lia)) as M.
    revert D M. generalize ((db + servers - 1) mod servers) ((db + servers - 1) / servers). intros r c D M.
    assert (0 <= c) by nia. split; [|assumption]. split; [nia|].
    destruct (Z.le_gt_cases db 100000); nia. }
  assert (A : (let* _ := (if asserts then assert_ (servers <=? db) else Ok tt) in Ok tt) = if asserts && (db <? servers) then Abort else Ok tt).
  { destruct asserts; cbn; [|reflexivity]. unfold assert_. destruct (Z.leb_spec servers db), (Z.ltb_spec db servers); try lia; reflexivity. }
  destruct (asserts && (db <? servers)); destruct (if asserts then _ else _); cbn in A |- *; try discriminate A; try reflexivity.
  revert B. generalize (ceil_div db servers). intros c (B1 & B2).
  assert (0 <= s * c <= (servers - 1) * c) by nia.
  unfold w32. rewrite (Z.mod_small (s * c)) by lia. destruct (Z.eqb_spec s (servers - 1)); [reflexivity|].
  assert (0 <= (s + 1) * c <= (servers - 1) * c) by nia. rewrite Z.mod_small by lia. do 2 f_equal. lia.
Qed.
Print Assumptions C21_find_range.
Example C21_example : to_u32 (dceil (ddiv (dmul (dz 1) (dz 4294967295)) (dz 254))) = Ok 16909321.
Proof. vm_compute. reflexivity. Qed.

(** C22 Samples are bounded, whatever std::log and rand() return. *)
Theorem C22_sample_bounds : forall flog epsilon delta d, noise_new flog epsilon delta = Ok d ->
  forall r1 r2, exists v, sample true flog d r1 r2 = Ok v /\ 0 <= v <= Zfloor (2 * B2R (nd_cutoff d)) /\ v < 2 ^ 32.
Proof.
  intros flog epsilon delta d E r1 r2. destruct (sample_real_bounded flog epsilon delta d E r1 r2) as (v & Ev & Hv).
  destruct (noise_new_cutoff _ _ _ _ E) as (_ & _ & _ & R & _). exists v. split; [exact Ev|]. lia.
Qed.
Print Assumptions C22_sample_bounds.
Theorem C22_no_noise : forall flog epsilon delta, deq epsilon (dz 0) = true \/ deq delta (dz 0) = true ->
  exists d, noise_new flog epsilon delta = Ok d /\ forall mode r1 r2, sample mode flog d r1 r2 = Ok 0.
Proof.
  intros flog epsilon delta H. destruct (sample_zero flog epsilon delta H) as (d & E & _ & S). exists d. auto.
Qed.
Print Assumptions C22_no_noise.
(** A stand-in for std::log with log(2^-10) = -7 that maps 0 to minus infinity. *)
Definition ex_log (x : double) : double := if deq x (dz 0) then B754_infinity true else dz (-7).
Example C22_example : forall mode r1 r2 v,
  In (mode, r1, r2, v) [(true, 1, 1000000, 0); (true, 2147483647, 1000000, 224); (true, 1, 0, 0); (true, 2147483647, 0, 224);
                        (false, 0, 0, 112)] ->
  (let* d := noise_new ex_log (dscale 1 (-3)) (dscale 1 (-10)) in sample mode ex_log d r1 r2) = Ok v.
Proof.
  intros mode r1 r2 v H. repeat (destruct H as [H|H]; [inversion H; subst; vm_compute; reflexivity|]). destruct H.
Qed.

(** C25 The default build adds floor(cutoff) to every key ... *)
Theorem C25_constant_noise : forall flog epsilon delta d, noise_new flog epsilon delta = Ok d ->
  forall r1 r2, sample false flog d r1 r2 = Ok (Zfloor (B2R (nd_cutoff d))).
Proof. intros flog epsilon delta d E r1 r2. apply (sample_const flog epsilon delta d E r1 r2). Qed.
Print Assumptions C25_constant_noise.
(** ... so the backend's counts reveal how often the client asked for each key:
    the number of lookups minus a constant. *)
Theorem C25_backend_learns_histogram : forall flog epsilon delta d b rng db junk c parties keys bpk bsk,
  noise_new flog epsilon delta = Ok d ->
  (forall cf, In cf parties -> forall i, exists r1 r2, sample false flog d r1 r2 = Ok (pf_samples cf i)) ->
  deployment rng db c parties keys -> keyed b db c parties keys bpk bsk -> bytes 52 junk ->
  exists o, run b true rng db junk c parties bpk bsk = Ok o /\
    forall k, (k < length db)%nat ->
      count_occ Z.eq_dec (ct_keys c) (Z.of_nat k) =
      (count_occ Z.eq_dec (oc_keys o) (Z.of_nat k) - length parties * Z.to_nat (Zfloor (B2R (nd_cutoff d))))%nat.
Proof.
  intros flog epsilon delta d b rng db junk c parties keys bpk bsk E S D K J.
  destruct (C44_backend_counts b rng db junk c parties keys bpk bsk D K J) as (o & Eo & H).
  exists o. split; [exact Eo|]. intros k Hk. rewrite (H k Hk).
  assert (X : list_sum (map (fun cf => Z.to_nat (pf_samples cf k)) parties) = (length parties * Z.to_nat (Zfloor (B2R (nd_cutoff d))))%nat).
  { clear - S E. induction parties as [|cf l IH]; [reflexivity|]. cbn [map list_sum fold_right length]. rewrite Nat.mul_succ_l, Nat.add_comm.
    f_equal.
    - apply IH. intros cf' Hin. apply S. right. exact Hin.
    - destruct (S cf (or_introl eq_refl) k) as (r1 & r2 & Es). rewrite (proj1 (sample_const flog epsilon delta d E r1 r2)) in Es. congruence. }
  rewrite X, Nat.add_sub. reflexivity.
Qed.
Print Assumptions C25_backend_learns_histogram.
(** Two clients the backend cannot tell apart by its counts asked for the same keys. *)
Theorem C25_counts_determine_queries : forall b rng db junk1 junk2 c1 c2 parties keys bpk bsk o1 o2,
  deployment rng db c1 parties keys -> keyed b db c1 parties keys bpk bsk -> bytes 52 junk1 ->
  deployment rng db c2 parties keys -> keyed b db c2 parties keys bpk bsk -> bytes 52 junk2 ->
  run b true rng db junk1 c1 parties bpk bsk = Ok o1 -> run b true rng db junk2 c2 parties bpk bsk = Ok o2 ->
  Permutation (oc_keys o1) (oc_keys o2) -> Permutation (ct_keys c1) (ct_keys c2).
Proof.
  intros b rng db junk1 junk2 c1 c2 parties keys bpk bsk o1 o2 D1 K1 J1 D2 K2 J2 E1 E2 P.
  destruct (C44_backend_view b rng db junk1 c1 parties keys bpk bsk D1 K1 J1) as (o1' & E1' & P1).
  destruct (C44_backend_view b rng db junk2 c2 parties keys bpk bsk D2 K2 J2) as (o2' & E2' & P2).
  rewrite E1 in E1'. inversion E1'; subst o1'. rewrite E2 in E2'. inversion E2'; subst o2'.
  apply (Permutation_app_inv_r (flat_map (noise_keys (length db)) parties)).
  eapply Permutation_trans; [apply Permutation_sym; exact P1|]. eapply Permutation_trans; [exact P|exact P2].
Qed.
Print Assumptions C25_counts_determine_queries.

(** A deployment with constant noise 112 from [C22_example]. *)
Definition const_conf (i : nat) : pconf :=
  {| pf_party := i; pf_parties := 3; pf_server := 0; pf_servers := 1;
     pf_pkeys := map fst ex_keys; pf_pkey := nth i (map fst ex_keys) []; pf_skey := []; pf_seed := 5 + Z.of_nat i; pf_db := 3;
     pf_rand := ex_rand (1 + Z.of_nat i); pf_samples := fun _ => 112 |}.
Example C25_example :
  (forall d, noise_new ex_log (dscale 1 (-3)) (dscale 1 (-10)) = Ok d ->
     forall cf, In cf [const_conf 0; const_conf 1] -> forall i, exists r1 r2, sample false ex_log d r1 r2 = Ok (pf_samples cf i)) /\
  deployment ex_rng ex_db ex_client [const_conf 0; const_conf 1] ex_keys /\
  keyed toy_box ex_db ex_client [const_conf 0; const_conf 1] ex_keys [3] [].
Proof.
  split; [|split].
  - intros d E cf Hin i. pose proof (C22_example false 0 0 112 ltac:(cbn; auto 6)) as Es. rewrite E in Es. cbn [bind] in Es.
    exists 0, 0. destruct Hin as [<-|[<-|[]]]; exact Es.
  - split.
    + reflexivity.
    + cbn. lia.
    + intros k cf N. assert (Hc : cf = const_conf k /\ (k < 2)%nat).
      { destruct k as [|[|[|k]]]; inversion N; split; auto; lia. }
      destruct Hc as [-> Hk]. split; try reflexivity.
      * intros i. apply ex_rng_range.
      * intros i Hi. cbn. lia.
    + cbn. lia.
    + exact (dp_db _ _ _ _ _ ex_deployment).
    + exact (dp_queries _ _ _ _ _ ex_deployment).
    + vm_compute. reflexivity.
  - split.
    + intros pk sk _. apply toy_box_ok.
    + intros k cf N. assert (Hc : cf = const_conf k /\ (k < 2)%nat).
      { destruct k as [|[|[|k]]]; inversion N; split; auto; lia. }
      destruct Hc as [-> Hk]. split.
      * reflexivity.
      * destruct k as [|[|k]]; [reflexivity|reflexivity|lia].
      * cbn [pf_rand const_conf]. apply ex_good_rand; [lia|]. change (length ex_keys) with 3%nat. lia.
    + reflexivity.
    + reflexivity.
    + apply ex_good_rand; [lia|reflexivity].
Qed.

(** C26 The constructor never rejects its parameters; when twice the cutoff,
    rounded down, does not fit 32 bits (or is negative, infinite or NaN) the
    conversion before the check is undefined. *)
Theorem C26_never_rejects : forall flog epsilon delta,
  noise_new flog epsilon delta <> Abort /\
  (forall d, noise_new flog epsilon delta = Ok d -> 0 <= Zfloor (2 * B2R (nd_cutoff d)) < 2 ^ 32) /\
  (deq epsilon (dz 0) = false -> deq delta (dz 0) = false ->
   let c := inv_cdf flog (dz 0) (ddiv (dz 2) epsilon) (ddiv delta (dz 2)) in
   (is_finite c = false \/ ~ (0 <= Zfloor (2 * B2R c) < 2 ^ 32) -> noise_new flog epsilon delta = UB)).
Proof.
  intros flog epsilon delta. destruct (noise_new_spec flog epsilon delta) as (_ & HU & HA & _). split; [exact HA|]. split.
  - intros d E. apply (noise_new_cutoff _ _ _ _ E).
  - intros H1 H2 c Hc. apply HU. unfold cutoff_of. rewrite H1, H2. cbn [orb]. fold c. intros [F R].
    destruct (dmul_two c F) as (Fc & _). destruct Hc as [Hc|Hc]; [congruence|apply Hc; exact R].
Qed.
Print Assumptions C26_never_rejects.
Example C26_example : noise_new ex_log (dscale 1 (-30)) (dscale 1 (-10)) = UB.
Proof. vm_compute. reflexivity. Qed.
