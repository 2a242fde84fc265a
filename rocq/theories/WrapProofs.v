(** What happens to a party whose batch does not fit 32 bits (C57). *)
From Verif Require Import Base BaseProofs Incremental Wire Onion Shuffle State StateProofs Range Handlers Batch Party Spec ShuffleProofs
  ChainSpec OnlineProofs OfflineProofs OfflineParty ChainProofs.

Lemma for_or_ub {S} (I : nat -> S -> Prop) n i f (s : S) :
  I i s ->
  (forall k t, (i <= k < i + n)%nat -> I k t -> f k t = UB \/ exists t', f k t = Ok t' /\ I (Datatypes.S k) t') ->
  for_ n i f s = UB \/ exists s', for_ n i f s = Ok s' /\ I (i + n)%nat s'.
Proof.
  revert i s; induction n as [|n IH]; intros i s H0 Hs; cbn [for_].
  - right. exists s. rewrite Nat.add_0_r. auto.
  - destruct (Hs i s ltac:(lia) H0) as [->|(t & -> & Ht)]; [left; reflexivity|]. cbn [bind].
    replace (i + Datatypes.S n)%nat with (Datatypes.S i + n)%nat by lia. apply IH; [exact Ht|].
    intros k t' Hk. apply Hs. lia.
Qed.

Lemma noise_queries_ub rng keys rows k cf n ls ns m :
  good_party rng keys rows k cf -> ls_ok n ls -> (n < noise_total rows cf)%nat ->
  Z.of_nat (noise_total rows cf) < 2 ^ 32 -> Z.of_nat rows <= 2 ^ 31 - 1 ->
  (forall i, cs_get_tag (load_times (S i) ns) = Ok 0 /\ cs_get_incs (load_times (S i) ns) = Ok (repeat id_share m)) ->
  noise_queries 0 (Z.of_nat rows) {| bt_data := map (pf_samples cf) (seq 0 rows); bt_right := rows |} ls ns
       (bt_initialize zero_query n) = UB.
Proof.
  intros G O Hn Ht Hr Hs. unfold noise_queries. rewrite Z.sub_0_r, Nat2Z.id. pose proof (noise_total_pre rows cf) as Et.
  set (body := fun (j : nat) (s : Z * cstate * batch query) => _).
  destruct (for_or_ub (fun j s => exists data, s = (Z.of_nat (pre_total cf j), load_times (pre_total cf j) ns,
       {| bt_data := data; bt_right := 0 |}) /\ length data = n /\ (pre_total cf j <= n)%nat)
     rows 0 body (0, ns, bt_initialize zero_query n)) as [E|(s & E & I)].
  - exists (repeat zero_query n). split; [reflexivity|]. rewrite repeat_length. cbn. lia.
  - intros j s Hj (data & -> & Ld & Hp). unfold body.
    assert (Eg : get (map (pf_samples cf) (seq 0 rows)) j = Ok (pf_samples cf j)) by (apply get_Ok; apply nth_error_map_seq; lia).
    unfold bt_get; cbn [bt_data]. rewrite Eg. cbn [bind].
    pose proof (gp_samples _ _ _ _ _ G j ltac:(lia)) as Hsj.
    assert (Hm : (pre_total cf (S j) <= pre_total cf rows)%nat) by (apply pre_total_mono; lia).
    assert (Es : Z.of_nat (pre_total cf j) + pf_samples cf j = Z.of_nat (pre_total cf (S j))).
    { rewrite pre_total_S. unfold smp. lia. }
    rewrite Es. rewrite w32_id by (unfold u32; lia).
    replace (Z.to_nat (Z.of_nat (pre_total cf (S j)) - Z.of_nat (pre_total cf j))) with (smp cf j)
      by (rewrite pre_total_S; lia).
    rewrite Nat2Z.id.
    destruct (for_or_ub (fun i s => exists data, s = (load_times i ns, {| bt_data := data; bt_right := 0 |}) /\ length data = n /\ (i <= n)%nat)
      (smp cf j) (pre_total cf j) (fun i s' =>
      let* target := ls_shuffle ls i in
      let* q := make_query (fst s') (0 + Z.of_nat j) in
      let* qs' := bt_set (snd s') target (fst q) in
      Ok (snd q, qs')) (load_times (pre_total cf j) ns, {| bt_data := data; bt_right := 0 |})) as [Et'|(t & Et' & It)].
    + exists data. auto.
    + intros i t Hi (data' & -> & Ld' & Hi'). cbn [fst snd].
      destruct (Nat.eq_dec i n) as [->|Hne].
      * left. unfold ls_shuffle, get. destruct O as (O1 & _). rewrite (proj2 (nth_error_None _ _)) by lia. reflexivity.
      * right. destruct (ls_ok_fwd n ls i O ltac:(lia)) as (p & Hp' & -> & _). cbn [bind].
        destruct (sim_item_ok rows m (Z.of_nat j) Hr ltac:(lia)) as [_ Egt].
        destruct (Hs i) as [T1 T2]. rewrite Z.add_0_l, (make_query_at _ _ _ _ _ _ T1 T2 Egt). cbn [bind fst snd].
        unfold bt_set. cbn [bt_data bt_right]. rewrite set_Ok by lia.
        cbn [bind]. eexists. split; [reflexivity|]. eexists. split; [reflexivity|]. rewrite length_upd. lia.
    + left. bindE Et'. reflexivity.
    + right. bindE Et'. destruct It as (data' & -> & Ld' & Hi'). cbn [fst snd].
      replace (pre_total cf j + smp cf j)%nat with (pre_total cf (S j)) in * by (rewrite pre_total_S; reflexivity).
      eexists. split; [reflexivity|]. exists data'. rewrite Z.max_r by (rewrite pre_total_S; lia). auto.
  - bindE E. reflexivity.
  - destruct I as (data & _ & _ & H). cbn [Nat.add] in H. lia.
Qed.

Lemma simulate_overflow rng keys rows k cf input :
  good_party rng keys rows k cf -> (length keys <= 255)%nat -> (k + 1 < length keys)%nat ->
  (1 <= rows)%nat -> Z.of_nat rows <= 2 ^ 31 - 1 -> 0 <= input < 2 ^ 32 ->
  Z.of_nat (noise_total rows cf) < 2 ^ 32 -> 2 ^ 32 <= input + Z.of_nat (noise_total rows cf) ->
  party_simulate true rng cf input = UB.
Proof.
  intros G H255 Hk Hr1 Hr Hi Hn Ht. unfold party_simulate. rewrite (party_check_spec rng keys rows k cf G Hk). cbn [bind].
  rewrite (noise_samples_spec rng keys rows k cf G Hr1) by lia. cbn [bind].
  assert (Esh : shuffled_count input (Z.of_nat (noise_total rows cf)) = input + Z.of_nat (noise_total rows cf) - 2 ^ 32).
  { unfold shuffled_count, w32. rewrite <- (Z_mod_plus_full _ (-1)). apply Z.mod_small. lia. }
  rewrite Esh. set (n := Z.to_nat (input + Z.of_nat (noise_total rows cf) - 2 ^ 32)).
  destruct (ls_initialize_spec rng (pf_seed cf) n (gp_rng _ _ _ _ _ G)) as (ls & El & O); [lia|].
  rewrite El. cbn [bind]. rewrite (remaining_spec rng keys rows k cf G Hk H255). set (m := (length keys - k - 1)%nat).
  destruct (cs_initialize cs_new m (Z.of_nat (noise_total rows cf)) true true) as [ns| | |] eqn:En; try discriminate En.
  cbn [bind]. rewrite (noise_queries_ub rng keys rows k cf n ls ns m G O); [reflexivity|lia|exact Hn|exact Hr|].
  intros i. destruct (c37_simulated cs_new m (Z.of_nat (noise_total rows cf)) true (S i)) as (c0 & Ec & T1 & T2 & _).
  rewrite En in Ec. inversion Ec; subst c0. split; [exact T1|exact T2].
Qed.
