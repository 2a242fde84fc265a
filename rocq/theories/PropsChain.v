(** Theorems about whole runs of a single-server deployment. *)
From Verif Require Import Base BaseProofs Incremental IncrementalProofs Wire Additive AdditiveProofs Onion Shuffle State Database Range Handlers Batch Party Chain Spec
  Toy PropsShuffle ChainSpec OnlineProofs OfflineProofs OfflineParty ChainProofs WrapProofs.

Lemma rows_of db keys : Forall (fun k => 0 <= k < Z.of_nat (length db)) keys ->
  map Some (map (row db) keys) = map (fun k => nth_error db (Z.to_nat k)) keys.
Proof.
  induction 1 as [|k keys H F IH]; [reflexivity|]. cbn [map]. rewrite IH. f_equal. unfold row. symmetry. apply nth_error_nth'. lia.
Qed.

Lemma noise_keys_sum rows : forall parties, length (flat_map (noise_keys rows) parties) = list_sum (map (noise_total rows) parties).
Proof. induction parties as [|cf l IH]; cbn; [reflexivity|]. rewrite app_length, noise_keys_length, IH. reflexivity. Qed.

Lemma level_at rows parties keys levels j : levels_keys rows parties keys levels -> (j <= length parties)%nat ->
  exists l, nth_error levels j = Some l /\
    length l = (length keys + list_sum (map (noise_total rows) (firstn j parties)))%nat.
Proof.
  intros [L H] Hj. destruct (nth_error levels j) as [l|] eqn:E; [|apply nth_error_None in E; lia].
  exists l. split; [reflexivity|]. apply H, Permutation_length in E. rewrite map_length, app_length, noise_keys_sum in E. exact E.
Qed.

(** C42 End-to-end: every run of the offline and then the online stage succeeds
    (nothing aborts, nothing is accessed out of bounds, nobody waits for a
    message that is not sent) and the i-th result is the row of the i-th key. *)
Theorem C42_end_to_end : forall b rng db junk c parties keys bpk bsk,
  deployment rng db c parties keys -> keyed b db c parties keys bpk bsk -> bytes 52 junk ->
  exists o, run b true rng db junk c parties bpk bsk = Ok o /\
    map Some (oc_result o) = map (fun k => nth_error db (Z.to_nat k)) (ct_keys c).
Proof.
  intros b rng db junk c parties keys bpk bsk D K J. destruct (run_spec b rng db junk c parties keys bpk bsk D K J) as (o & E & (R & _) & _).
  exists o. split; [exact E|]. rewrite R. apply rows_of. exact (dp_queries _ _ _ _ _ D).
Qed.
Print Assumptions C42_end_to_end.

(** C43 The same when the offline stage is simulated. *)
Theorem C43_simulated_end_to_end : forall rng db junk c parties keys,
  deployment rng db c parties keys -> bytes 52 junk ->
  exists o, run_simulated true rng db junk c parties = Ok o /\
    map Some (oc_result o) = map (fun k => nth_error db (Z.to_nat k)) (ct_keys c).
Proof.
  intros rng db junk c parties keys D J. destruct (run_simulated_spec rng db junk c parties keys D J) as (o & E & (R & _)).
  exists o. split; [exact E|]. rewrite R. apply rows_of. exact (dp_queries _ _ _ _ _ D).
Qed.
Print Assumptions C43_simulated_end_to_end.

(** C44 The multiset of keys the backend looks up. *)
Theorem C44_backend_view : forall b rng db junk c parties keys bpk bsk,
  deployment rng db c parties keys -> keyed b db c parties keys bpk bsk -> bytes 52 junk ->
  exists o, run b true rng db junk c parties bpk bsk = Ok o /\
    Permutation (oc_keys o) (ct_keys c ++ flat_map (noise_keys (length db)) parties).
Proof.
  intros b rng db junk c parties keys bpk bsk D K J. destruct (run_spec b rng db junk c parties keys bpk bsk D K J) as (o & E & (_ & P & _) & _).
  exists o. split; [exact E|exact P].
Qed.
Print Assumptions C44_backend_view.
Theorem C44_backend_view_simulated : forall rng db junk c parties keys,
  deployment rng db c parties keys -> bytes 52 junk ->
  exists o, run_simulated true rng db junk c parties = Ok o /\
    Permutation (oc_keys o) (ct_keys c ++ flat_map (noise_keys (length db)) parties).
Proof.
  intros rng db junk c parties keys D J. destruct (run_simulated_spec rng db junk c parties keys D J) as (o & E & (_ & P & _)).
  exists o. split; [exact E|exact P].
Qed.
Print Assumptions C44_backend_view_simulated.

(** The same as counts: how often a key is looked up. *)
Lemma count_noise rows cf k : (k < rows)%nat ->
  count_occ Z.eq_dec (noise_keys rows cf) (Z.of_nat k) = Z.to_nat (pf_samples cf k).
Proof.
  assert (R : forall x n y, count_occ Z.eq_dec (repeat x n) y = if Z.eq_dec x y then n else 0%nat).
  { intros x n y. induction n as [|n IH]; cbn; destruct (Z.eq_dec x y); rewrite ?IH; reflexivity. }
  assert (F : forall n a, count_occ Z.eq_dec (flat_map (fun k => repeat (Z.of_nat k) (Z.to_nat (pf_samples cf k))) (seq a n)) (Z.of_nat k) =
     if (a <=? k)%nat && (k <? a + n)%nat then Z.to_nat (pf_samples cf k) else 0%nat).
  { induction n as [|n IH]; intros a; cbn [seq flat_map].
    - destruct (Nat.leb_spec a k), (Nat.ltb_spec k (a + 0)); try reflexivity; lia.
    - rewrite count_occ_app, IH, R.
      destruct (Z.eq_dec (Z.of_nat a) (Z.of_nat k)) as [E|E], (Nat.leb_spec (S a) k), (Nat.ltb_spec k (S a + n)), (Nat.leb_spec a k), (Nat.ltb_spec k (a + S n));
        cbn [andb]; try lia; try (replace a with k by lia; lia). }
  intros H. unfold noise_keys. rewrite F. destruct (Nat.leb_spec 0 k), (Nat.ltb_spec k (0 + rows)); cbn [andb]; lia.
Qed.
Theorem C44_backend_counts : forall b rng db junk c parties keys bpk bsk,
  deployment rng db c parties keys -> keyed b db c parties keys bpk bsk -> bytes 52 junk ->
  exists o, run b true rng db junk c parties bpk bsk = Ok o /\
    forall k, (k < length db)%nat ->
      count_occ Z.eq_dec (oc_keys o) (Z.of_nat k) =
      (count_occ Z.eq_dec (ct_keys c) (Z.of_nat k) + list_sum (map (fun cf => Z.to_nat (pf_samples cf k)) parties))%nat.
Proof.
  intros b rng db junk c parties keys bpk bsk D K J. destruct (run_spec b rng db junk c parties keys bpk bsk D K J) as (o & E & (_ & P & _) & _).
  exists o. split; [exact E|]. intros k Hk. rewrite (proj1 (Permutation_count_occ Z.eq_dec _ _) P), count_occ_app. f_equal.
  clear - Hk. induction parties as [|cf l IH]; cbn [flat_map map list_sum fold_right]; [reflexivity|].
  rewrite count_occ_app, count_noise by exact Hk. rewrite IH. reflexivity.
Qed.
Print Assumptions C44_backend_counts.

(** C45 Link j goes from the client (j = 0) or party j-1 to party j or the
    backend (j = number of parties).  The count announced on it is the number of
    the client's queries plus the noise of the parties before it, and that many
    ciphers, queries and responses travel over it. *)
Theorem C45_counts : forall b rng db junk c parties keys bpk bsk,
  deployment rng db c parties keys -> keyed b db c parties keys bpk bsk -> bytes 52 junk ->
  exists o, run b true rng db junk c parties bpk bsk = Ok o /\
    forall j, (j <= length parties)%nat ->
      let n := (length (ct_keys c) + list_sum (map (noise_total (length db)) (firstn j parties)))%nat in
      nth_error (oc_counts o) j = Some (Z.of_nat n) /\
      (exists cs, nth_error (oc_ciphers o) j = Some cs /\ length cs = n) /\
      (exists qs, nth_error (oc_queries o) j = Some qs /\ length qs = n) /\
      (exists rs, nth_error (oc_responses o) j = Some rs /\ length rs = n).
Proof.
  intros b rng db junk c parties keys bpk bsk D K J.
  destruct (run_spec b rng db junk c parties keys bpk bsk D K J) as (o & E & (_ & _ & levels & LK & L1 & L2 & L3) & _ & LC).
  exists o. split; [exact E|]. intros j Hj n. destruct (level_at _ _ _ _ j LK Hj) as (l & Nl & Ll). fold n in Ll.
  rewrite L1, L2, L3, !nth_error_map, Nl. cbn [option_map]. rewrite Ll. split; [reflexivity|]. split; [|split].
  - assert (N : nth_error (map (fun l => length l) (oc_ciphers o)) j = Some n).
    { rewrite LC, L2, map_map, nth_error_map, Nl. cbn. rewrite map_length, Ll. reflexivity. }
    rewrite nth_error_map in N. destruct (nth_error (oc_ciphers o) j) as [cs|]; [|discriminate]. exists cs. split; [reflexivity|]. cbn in N. congruence.
  - eexists. split; [reflexivity|]. rewrite map_length. exact Ll.
  - eexists. split; [reflexivity|]. rewrite map_length. exact Ll.
Qed.
Print Assumptions C45_counts.

(** C39 The tags on every link are 0 .. count-1 in some order. *)
Theorem C39_tags_distinct : forall b rng db junk c parties keys bpk bsk,
  deployment rng db c parties keys -> keyed b db c parties keys bpk bsk -> bytes 52 junk ->
  exists o, run b true rng db junk c parties bpk bsk = Ok o /\ length (oc_queries o) = S (length parties) /\
    forall j qs, nth_error (oc_queries o) j = Some qs ->
      nth_error (oc_counts o) j = Some (Z.of_nat (length qs)) /\
      Permutation (map q_tag qs) (map Z.of_nat (seq 0 (length qs))) /\ NoDup (map q_tag qs).
Proof.
  intros b rng db junk c parties keys bpk bsk D K J.
  destruct (run_spec b rng db junk c parties keys bpk bsk D K J) as (o & E & (_ & _ & levels & LK & L1 & L2 & L3) & T & _).
  exists o. split; [exact E|]. split; [rewrite L2, map_length; apply LK|]. intros j qs N. split.
  - rewrite L2, nth_error_map in N. rewrite L1, nth_error_map. destruct (nth_error levels j); [|discriminate].
    inversion N; subst. cbn. rewrite map_length. reflexivity.
  - rewrite Forall_forall in T. apply nth_error_In in N. apply T in N. split; [exact N|]. apply (NoDup_tags q_tag qs _ N).
Qed.
Print Assumptions C39_tags_distinct.

(** A deployment with two noise-adding parties and a backend. *)
Definition ex_rand (s : Z) : rand :=
  {| rn_x := fun i k => (s * 1000 + Z.of_nat i * 77 + Z.of_nat k * 13) mod 2147483647;
     rn_y := fun i k => (s * 555 + Z.of_nat i * 19 + Z.of_nat k * 31) mod 2147483646;
     rn_masks := fun i => map (fun k => repeat ((s + Z.of_nat i * 3 + Z.of_nat k * 5) mod 256) 52) (seq 0 (Z.to_nat (3 - s)));
     rn_coins := fun _ _ => O; rn_junk1 := fun _ _ => 1; rn_junk2 := fun _ _ => 2 |}.
Definition ex_keys : list (list Z * list Z) := [([1], []); ([2], []); ([3], [])].
Definition ex_conf (i : nat) : pconf :=
  {| pf_party := i; pf_parties := 3; pf_server := 0; pf_servers := 1;
     pf_pkeys := map fst ex_keys; pf_pkey := nth i (map fst ex_keys) []; pf_skey := []; pf_seed := 5 + Z.of_nat i; pf_db := 3;
     pf_rand := ex_rand (1 + Z.of_nat i); pf_samples := fun k => Z.of_nat (k mod 2) |}.
Definition ex_db : list response := map db_row (seq 0 3).
Definition ex_client : client := {| ct_pkeys := map fst ex_keys; ct_rand := ex_rand 0; ct_keys := [2; 0] |}.

Lemma ex_good_rand s n m : (0 <= s <= 3) -> m = Z.to_nat (3 - s) -> good_rand (ex_rand s) n m.
Proof.
  intros Hs -> i Hi. split; [|split].
  - intros k Hk. cbn [rn_x rn_y ex_rand]. unfold p31. split; apply Z.mod_pos_bound; lia.
  - cbn [rn_masks ex_rand]. rewrite map_length, seq_length. reflexivity.
  - cbn [rn_masks ex_rand]. apply Forall_map. apply Forall_forall. intros k _. split; [apply repeat_length|].
    apply Forall_repeat. unfold byte. dlia.
Qed.
Lemma ex_deployment : deployment ex_rng ex_db ex_client [ex_conf 0; ex_conf 1] ex_keys.
Proof.
  split.
  - reflexivity.
  - cbn. lia.
  - intros k cf N. assert (E : cf = ex_conf k /\ (k < 2)%nat).
    { destruct k as [|[|[|k]]]; inversion N; split; auto; lia. }
    destruct E as [-> Hk]. split; try reflexivity.
    + intros i. apply ex_rng_range.
    + intros i Hi. cbn [pf_samples ex_conf]. change (length ex_db) with 3%nat in Hi.
      destruct i as [|[|[|i]]]; cbn; lia.
  - cbn. lia.
  - unfold ex_db. cbn [map seq]. repeat constructor; cbn; unfold u32; try lia; try (repeat constructor; unfold byte; lia).
  - repeat constructor; cbn; lia.
  - cbn. lia.
Qed.
Lemma ex_keyed : keyed toy_box ex_db ex_client [ex_conf 0; ex_conf 1] ex_keys [3] [].
Proof.
  split.
  - intros pk sk _. apply toy_box_ok.
  - intros k cf N. assert (E : cf = ex_conf k /\ (k < 2)%nat).
    { destruct k as [|[|[|k]]]; inversion N; split; auto; lia. }
    destruct E as [-> Hk]. split.
    + reflexivity.
    + destruct k as [|[|k]]; [reflexivity|reflexivity|lia].
    + cbn [pf_rand ex_conf]. apply ex_good_rand; [lia|]. change (length ex_keys) with 3%nat. lia.
  - reflexivity.
  - reflexivity.
  - apply ex_good_rand; [lia|reflexivity].
Qed.
Example C42_example : (let* o := run toy_box true ex_rng ex_db (repeat 9 52) ex_client [ex_conf 0; ex_conf 1] [3] [] in
    Ok (oc_counts o, oc_keys o, map q_tag (nth 2 (oc_queries o) []), map r_value (oc_result o))) =
  Ok ([2; 3; 4], [1; 2; 0; 1], [2; 0; 1; 3], [4; 0]).
Proof. vm_compute. reflexivity. Qed.
Example C43_example : (let* o := run_simulated true ex_rng ex_db (repeat 9 52) ex_client [ex_conf 0; ex_conf 1] in
    Ok (oc_counts o, map r_value (oc_result o))) = Ok ([2; 3; 4], [4; 0]).
Proof. vm_compute. reflexivity. Qed.

(** C57 32-bit counters: the announced count is the true total modulo 2^32. *)
Theorem C57_count_wraps : forall rng keys rows k cf input,
  good_party rng keys rows k cf -> (1 <= rows)%nat -> Z.of_nat rows < 2 ^ 32 -> 0 <= input < 2 ^ 32 ->
  exists start_ end_ noise noise_count, noise_samples true cf = Ok (start_, end_, noise, noise_count) /\
    shuffled_count input noise_count = (input + Z.of_nat (noise_total rows cf)) mod 2 ^ 32 /\
    (shuffled_count input noise_count = input + Z.of_nat (noise_total rows cf) <->
     input + Z.of_nat (noise_total rows cf) < 2 ^ 32).
Proof.
  intros rng keys rows k cf input G H1 H2 Hi. eexists _, _, _, _. split; [exact (noise_samples_raw rng keys rows k cf G H1 H2)|].
  assert (E : shuffled_count input (Z.of_nat (noise_total rows cf) mod 2 ^ 32) = (input + Z.of_nat (noise_total rows cf)) mod 2 ^ 32)
    by (unfold shuffled_count, w32; apply Zplus_mod_idemp_r).
  split; [exact E|]. rewrite E. split.
  - intros F. pose proof (Z.mod_pos_bound (input + Z.of_nat (noise_total rows cf)) (2 ^ 32)). lia.
  - intros F. apply Z.mod_small. lia.
Qed.
Print Assumptions C57_count_wraps.
(** Nothing checks it: when the noise fits but the sum does not, a party that
    starts (here with the simulated offline stage) indexes out of bounds. *)
Theorem C57_overflow : forall rng keys rows k cf input,
  good_party rng keys rows k cf -> (length keys <= 255)%nat -> (k + 1 < length keys)%nat ->
  (1 <= rows)%nat -> Z.of_nat rows <= 2 ^ 31 - 1 -> 0 <= input < 2 ^ 32 ->
  Z.of_nat (noise_total rows cf) < 2 ^ 32 -> 2 ^ 32 <= input + Z.of_nat (noise_total rows cf) ->
  party_simulate true rng cf input = UB.
Proof. exact simulate_overflow. Qed.
Print Assumptions C57_overflow.
Definition ex_big : pconf :=
  {| pf_party := 0; pf_parties := 2; pf_server := 0; pf_servers := 1;
     pf_pkeys := []; pf_pkey := []; pf_skey := []; pf_seed := 5; pf_db := 2;
     pf_rand := ex_rand 0; pf_samples := fun _ => 2 ^ 30 |}.
Example C57_example : good_party ex_rng [([1], []); ([2], [])] 2 0 ex_big /\
  Z.of_nat (noise_total 2 ex_big) = 2 ^ 31 /\ 2 ^ 32 <= 2 ^ 31 + Z.of_nat (noise_total 2 ex_big).
Proof.
  assert (E : Z.of_nat (noise_total 2 ex_big) = 2 ^ 31).
  { unfold noise_total. cbn [seq map list_sum fold_right pf_samples ex_big]. lia. }
  split; [|rewrite E; lia]. split; try reflexivity.
  - intros i. apply ex_rng_range.
  - intros i _. cbn [pf_samples ex_big]. lia.
Qed.
