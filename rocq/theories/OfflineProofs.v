(** The offline stage of a single-server deployment: making secrets, noise
    samples and noise queries, and one party's whole stage. *)
From Verif Require Import Base BaseProofs Incremental IncrementalProofs Wire WireProofs Additive AdditiveProofs Onion OnionProofs
  Shuffle Sizes State Database CipherBatch CipherBatchProofs Range Handlers Batch Party Chain Spec SharingProofs ShuffleProofs
  StateProofs ChainSpec OnlineProofs.

(** Replace the first bound computation by its known result (up to conversion). *)
Ltac bindE E :=
  match type of E with
  | _ = ?r => match goal with |- context [bind ?x _] => replace x with r by (symmetry; exact E) end
  end; cbn [bind].

(** ** Making secrets *)
Definition mk_secret (tag : Z) (ip : ishare * list Z) : osecret :=
  {| o_tag := tag; o_next := tag; o_share := fst ip; o_preshare := snd ip |}.
Definition mk_secrets (tag : Z) (incs : list ishare) (pres : list (list Z)) : list osecret :=
  map (mk_secret tag) (combine incs pres).
Definition tally_of (key : Z) (incs : list ishare) : Z :=
  match generate_incremental_tally key incs with Ok t => t | _ => 0 end.
Definition mk_item (tag key : Z) (incs : list ishare) (pres : list (list Z)) : item :=
  {| it_tag := tag; it_secrets := mk_secrets tag incs pres; it_key := key; it_tally := tally_of key incs |}.

Lemma combine_fst {A B} (a : list A) (b : list B) : length a = length b -> map fst (combine a b) = a.
Proof. revert b; induction a as [|x a IH]; intros [|y b] H; cbn; try discriminate; auto. f_equal. apply IH. cbn in H. lia. Qed.
Lemma combine_snd {A B} (a : list A) (b : list B) : length a = length b -> map snd (combine a b) = b.
Proof. revert b; induction a as [|x a IH]; intros [|y b] H; cbn; try discriminate; auto. f_equal. apply IH. cbn in H. lia. Qed.

Lemma mk_shares tag incs pres : length incs = length pres -> map o_share (mk_secrets tag incs pres) = incs.
Proof. intros H. unfold mk_secrets. rewrite map_map. cbn. apply combine_fst. exact H. Qed.
Lemma mk_pres tag incs pres : length incs = length pres -> map o_preshare (mk_secrets tag incs pres) = pres.
Proof. intros H. unfold mk_secrets. rewrite map_map. cbn. apply combine_snd. exact H. Qed.
Lemma mk_length tag incs pres : length incs = length pres -> length (mk_secrets tag incs pres) = length incs.
Proof. intros H. unfold mk_secrets. rewrite map_length, combine_length. lia. Qed.

Lemma mk_wf tag incs pres : u64 tag -> Forall wf_share incs -> Forall (bytes 52) pres ->
  Forall (fun s => wf_osecret s /\ o_tag s = tag /\ o_next s = tag) (mk_secrets tag incs pres).
Proof.
  intros Ht Hi Hp. unfold mk_secrets. apply Forall_map. apply Forall_forall. intros [i p] Hin.
  rewrite Forall_forall in Hi, Hp. apply in_combine_l in Hin as H1. apply in_combine_r in Hin as H2.
  destruct (wf_u32 i (Hi i H1)) as [Hx Hy]. unfold mk_secret, wf_osecret. cbn. auto 10.
Qed.

Lemma ok_mk_item rows tag key incs pres : u64 tag -> Forall wf_share incs -> Forall (bytes 52) pres ->
  length incs = length pres -> Z.of_nat rows <= 2 ^ 31 - 1 -> 0 <= key < Z.of_nat rows ->
  ok_item rows (length incs) (mk_item tag key incs pres) /\
  generate_incremental_tally key incs = Ok (it_tally (mk_item tag key incs pres)).
Proof.
  intros Ht Hi Hp L Hr Hk.
  destruct (roundtrip_list key incs) as (t & E & B & R); [rewrite PRIME_val; lia|exact Hi|].
  unfold ok_item, mk_item, tally_of. cbn [it_tag it_secrets it_key it_tally]. rewrite E.
  split; [|reflexivity]. split; [apply mk_length; exact L|]. split; [apply mk_wf; assumption|].
  split; [|exact Hk]. rewrite mk_shares by exact L. exact R.
Qed.

Lemma secret_loop_spec incs pres t n : forall i, (i + n <= length incs)%nat -> (i + n <= length pres)%nat ->
  secret_loop incs pres t n i t = Ok (map (mk_secret t) (combine (firstn n (skipn i incs)) (firstn n (skipn i pres))), t).
Proof.
  induction n as [|n IH]; intros i H1 H2; cbn [secret_loop]; [reflexivity|].
  unfold at_. destruct (get_lt incs i) as (x & _ & Nx); [lia|]. destruct (get_lt pres i) as (y & _ & Ny); [lia|].
  rewrite Nx, Ny. cbn [bind]. rewrite IH by lia. cbn [bind fst snd].
  rewrite (skipn_nth _ _ _ Nx), (skipn_nth _ _ _ Ny). reflexivity.
Qed.

Lemma make_shares rx ry masks n tag : valid_draws rx ry n -> length masks = n -> Forall (bytes 52) masks ->
  let incs := pre_incremental_secret_shares rx ry n in
  length incs = n /\ Forall wf_share incs /\
  generate_additive_secret_shares masks (n + 1) = Ok (masks ++ [xor_all masks]) /\
  secret_loop incs (masks ++ [xor_all masks]) tag n 0 tag = Ok (mk_secrets tag incs masks, tag).
Proof.
  intros Hd L Hm incs.
  destruct (pre_shares_wf rx ry n 0) as [Hw Hl].
  { intros k Hk. unfold valid_draws in Hd. rewrite p31_val in Hd. apply Hd. lia. }
  split; [exact Hl|]. split; [exact Hw|]. split.
  - rewrite Nat.add_1_r, generate_additive_spec by (auto; lia). rewrite firstn_all2 by lia. reflexivity.
  - unfold incs, pre_incremental_secret_shares. rewrite secret_loop_spec by (rewrite ?Hl, ?app_length; cbn; lia).
    cbn [skipn]. rewrite (firstn_all2 (pre_shares _ _ _ _)) by lia.
    rewrite (firstn_app_exact masks) by exact L. reflexivity.
Qed.

(** ** Noise samples *)
Definition smp (cf : pconf) (k : nat) : nat := Z.to_nat (pf_samples cf k).
Definition pre_total (cf : pconf) (k : nat) : nat := list_sum (map (smp cf) (seq 0 k)).
Lemma pre_total_S cf k : pre_total cf (S k) = (pre_total cf k + smp cf k)%nat.
Proof. unfold pre_total. rewrite seq_S, map_app, list_sum_app. cbn. lia. Qed.
Lemma noise_total_pre rows cf : noise_total rows cf = pre_total cf rows.
Proof. reflexivity. Qed.
Lemma pre_total_mono cf k n : (k <= n)%nat -> (pre_total cf k <= pre_total cf n)%nat.
Proof. induction 1; [lia|]. rewrite pre_total_S. lia. Qed.

Lemma noise_keys_length rows cf : length (noise_keys rows cf) = noise_total rows cf.
Proof.
  rewrite noise_total_pre. unfold noise_keys. induction rows as [|n IH]; [reflexivity|].
  rewrite seq_S, flat_map_app, app_length, IH, pre_total_S. cbn [flat_map Nat.add]. rewrite app_nil_r, repeat_length. reflexivity.
Qed.
Lemma noise_keys_nth cf rows j i : (j < rows)%nat -> (i < smp cf j)%nat ->
  nth_error (noise_keys rows cf) (pre_total cf j + i) = Some (Z.of_nat j).
Proof.
  intros Hj Hi. unfold noise_keys. replace rows with (j + S (rows - S j))%nat by lia.
  rewrite seq_app, flat_map_app. pose proof (noise_keys_length j cf) as Lj. unfold noise_keys in Lj. rewrite noise_total_pre in Lj.
  rewrite nth_error_app2 by lia. replace (pre_total cf j + i - _)%nat with i by lia.
  cbn [seq flat_map Nat.add]. rewrite nth_error_app1 by (rewrite repeat_length; exact Hi).
  rewrite nth_error_repeat by exact Hi. reflexivity.
Qed.
Lemma noise_keys_bound rows cf : Forall (fun k => 0 <= k < Z.of_nat rows) (noise_keys rows cf).
Proof.
  apply Forall_forall. intros x H. unfold noise_keys in H. apply in_flat_map in H. destruct H as (k & Hk & Hx).
  apply repeat_spec in Hx. apply in_seq in Hk. lia.
Qed.

Lemma find_range_one rows : (1 <= rows)%nat -> find_range true 0 1 (Z.of_nat rows) = Ok (0, Z.of_nat rows).
Proof.
  intros H. unfold find_range. assert ((1 <=? Z.of_nat rows) = true) as -> by (apply Z.leb_le; lia). reflexivity.
Qed.

(** Every sample is kept; the counter is the sum modulo 2^32. *)
Lemma noise_samples_raw rng keys rows k cf : good_party rng keys rows k cf -> (1 <= rows)%nat -> Z.of_nat rows < 2 ^ 32 ->
  noise_samples true cf =
  Ok (0, Z.of_nat rows, {| bt_data := map (pf_samples cf) (seq 0 rows); bt_right := rows |},
      Z.of_nat (noise_total rows cf) mod 2 ^ 32).
Proof.
  intros G H1 H2. unfold noise_samples. rewrite (gp_server _ _ _ _ _ G), (gp_servers _ _ _ _ _ G), (gp_db _ _ _ _ _ G).
  rewrite find_range_one by exact H1. cbn [bind fst snd]. rewrite Z.sub_0_r, w32_id by (unfold u32; lia). rewrite Nat2Z.id.
  destruct (for_inv (fun i s => s = ({| bt_data := map (pf_samples cf) (seq 0 i) ++ repeat 0 (rows - i); bt_right := i |},
     Z.of_nat (pre_total cf i) mod 2 ^ 32)) rows 0 (fun i s =>
    let sample := pf_samples cf i in
    let* n := bt_push (fst s) sample in
    Ok (n, w32 (snd s + sample))) (bt_initialize 0 rows, 0)) as (s & E & I).
  - cbn. rewrite Nat.sub_0_r. reflexivity.
  - intros i t Hi ->. cbn [fst snd].
    replace (rows - i)%nat with (S (length (seq (S i) (rows - S i)))) by (rewrite seq_length; lia).
    pose proof (push_rest (map (pf_samples cf) (seq 0 i)) (pf_samples cf i) (map (pf_samples cf) (seq (S i) (rows - S i))) 0 i) as P.
    rewrite !map_length, !seq_length in P. rewrite seq_length. rewrite P by reflexivity. cbn [bind].
    eexists. split; [reflexivity|]. rewrite seq_S, map_app. cbn [map Nat.add]. f_equal.
    + f_equal. rewrite app_length, map_length, seq_length. cbn. lia.
    + rewrite pre_total_S. unfold w32, smp. rewrite Zplus_mod_idemp_l. f_equal.
      pose proof (gp_samples _ _ _ _ _ G i ltac:(lia)). lia.
  - cbn [Nat.add] in I. bindE E. subst s. cbn [bind fst snd]. rewrite Nat.sub_diag. cbn [repeat]. rewrite app_nil_r. reflexivity.
Qed.
Lemma noise_samples_spec rng keys rows k cf : good_party rng keys rows k cf -> (1 <= rows)%nat -> Z.of_nat rows < 2 ^ 32 ->
  Z.of_nat (noise_total rows cf) < 2 ^ 32 ->
  noise_samples true cf =
  Ok (0, Z.of_nat rows, {| bt_data := map (pf_samples cf) (seq 0 rows); bt_right := rows |}, Z.of_nat (noise_total rows cf)).
Proof. intros G H1 H2 H3. rewrite (noise_samples_raw rng keys rows k cf G H1 H2), Z.mod_small by lia. reflexivity. Qed.

(** ** Noise queries *)
Lemma noise_queries_spec rng keys rows k cf n ls (noise rest : list item) ns :
  good_party rng keys rows k cf -> ls_ok n ls -> length (noise ++ rest) = n ->
  Z.of_nat (noise_total rows cf) < 2 ^ 32 ->
  map it_key noise = noise_keys rows cf ->
  (forall i it, nth_error noise i = Some it ->
     make_query (load_times i ns) (it_key it) = Ok (q_of it, load_times (S i) ns)) ->
  exists qs, noise_queries 0 (Z.of_nat rows) {| bt_data := map (pf_samples cf) (seq 0 rows); bt_right := rows |} ls ns
       (bt_initialize zero_query n) = Ok qs /\
    filled ls (length noise) (map q_of (noise ++ rest)) (bt_data qs).
Proof.
  intros G O Ln Ht Hk Hq. set (src := map q_of (noise ++ rest)).
  assert (Lsrc : length src = n) by (unfold src; rewrite map_length; exact Ln).
  assert (Lnoise : length noise = pre_total cf rows).
  { rewrite <- (map_length it_key noise), Hk, noise_keys_length. reflexivity. }
  unfold noise_queries. rewrite Z.sub_0_r, Nat2Z.id.
  set (body := fun (j : nat) (s : Z * cstate * batch query) => _).
  destruct (for_inv (fun j s => exists data, s = (Z.of_nat (pre_total cf j), load_times (pre_total cf j) ns,
       {| bt_data := data; bt_right := 0 |}) /\ filled ls (pre_total cf j) src data)
     rows 0 body (0, ns, bt_initialize zero_query n)) as (s & E & I).
  - exists (repeat zero_query n). split; [reflexivity|]. split; [rewrite repeat_length; lia|]. cbn. intros; lia.
  - intros j s Hj (data & -> & F). unfold body. cbn [bt_get bt_data].
    assert (Eg : get (map (pf_samples cf) (seq 0 rows)) j = Ok (pf_samples cf j)) by (apply get_Ok; apply nth_error_map_seq; lia).
    unfold bt_get; cbn [bt_data]. rewrite Eg. cbn [bind].
    pose proof (gp_samples _ _ _ _ _ G j ltac:(lia)) as Hs.
    assert (Hm : (pre_total cf (S j) <= pre_total cf rows)%nat) by (apply pre_total_mono; lia).
    pose proof (noise_total_pre rows cf) as Et.
    assert (Es : Z.of_nat (pre_total cf j) + pf_samples cf j = Z.of_nat (pre_total cf (S j))).
    { rewrite pre_total_S. unfold smp. lia. }
    rewrite Es. rewrite w32_id by (unfold u32; lia).
    replace (Z.to_nat (Z.of_nat (pre_total cf (S j)) - Z.of_nat (pre_total cf j))) with (smp cf j)
      by (rewrite pre_total_S; lia).
    rewrite Nat2Z.id.
    destruct (for_inv (fun i s => exists data, s = (load_times i ns, {| bt_data := data; bt_right := 0 |}) /\ filled ls i src data)
      (smp cf j) (pre_total cf j) (fun i s' =>
      let* target := ls_shuffle ls i in
      let* q := make_query (fst s') (0 + Z.of_nat j) in
      let* qs' := bt_set (snd s') target (fst q) in
      Ok (snd q, qs')) (load_times (pre_total cf j) ns, {| bt_data := data; bt_right := 0 |})) as (t & Et' & It).
    + exists data. auto.
    + intros i t Hi (data' & -> & F'). cbn [fst snd].
      destruct (get_lt noise i) as (it & _ & Nit); [rewrite pre_total_S in Hm; lia|].
      assert (Nsrc : nth_error src i = Some (q_of it)).
      { unfold src. rewrite nth_error_map, nth_error_app1, Nit by (apply nth_error_Some; congruence). reflexivity. }
      destruct (filled_set n ls i src data' _ O Lsrc F' Nsrc) as (p & Ep & Esp & F'').
      rewrite Ep. cbn [bind].
      assert (Ek : it_key it = Z.of_nat j).
      { pose proof (noise_keys_nth cf rows j (i - pre_total cf j) ltac:(lia) ltac:(lia)) as N.
        replace (pre_total cf j + (i - pre_total cf j))%nat with i in N by lia.
        rewrite <- Hk, nth_error_map, Nit in N. cbn in N. congruence. }
      rewrite Z.add_0_l. rewrite <- Ek. rewrite (Hq i it Nit). cbn [bind fst snd].
      unfold bt_set. cbn [bt_data bt_right]. rewrite Esp. cbn [bind].
      eexists. split; [reflexivity|]. eexists. split; [reflexivity|exact F''].
    + bindE Et'. destruct It as (data' & -> & F'). cbn [fst snd].
      replace (pre_total cf j + smp cf j)%nat with (pre_total cf (S j)) in * by (rewrite pre_total_S; reflexivity).
      eexists. split; [reflexivity|]. exists data'. split; [|exact F'].
      rewrite Z.max_r by (rewrite pre_total_S; lia). reflexivity.
  - bindE E. destruct I as (data & -> & F). cbn [Nat.add] in F. cbn [snd bt_data].
    eexists. split; [reflexivity|]. rewrite Lnoise. exact F.
Qed.
