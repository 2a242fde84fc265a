(** The counts and shufflers of all servers of a party. *)
From Verif Require Import Base BaseProofs Wire WireProofs Shuffle ShuffleProofs ParShuffle ParShuffleProofs ParShuffleFacts
  Range RangeProofs State Handlers Batch Party Parallel Spec ChainSpec ParSpec OnlineProofs OfflineProofs ParMergeProofs ParForwardProofs
  ParBackwardProofs ParOnlineProofs.

Lemma range_size_ceil S db : 1 <= S -> range_size S db = (db + S - 1) / S.
Proof.
  intros H. unfold range_size. pose proof (Z.div_mod (db + S - 1) S ltac:(lia)). pose proof (Z.mod_pos_bound (db + S - 1) S ltac:(lia)).
  rewrite <- (Z.div_unique (- db) S (- ((db + S - 1) / S)) (S * ((db + S - 1) / S) - db)); lia.
Qed.

Section Ranges.
Variables N rows : nat.
Hypothesis HT : tiled N rows.
Lemma per_pos : 1 <= keys_per_server N rows.
Proof using All. destruct HT as (H1 & H2 & H3 & H4). unfold keys_per_server. apply Z.div_le_lower_bound; lia. Qed.
Lemma per_mul : Z.of_nat (N - 1) * keys_per_server N rows <= Z.of_nat rows <= Z.of_nat N * keys_per_server N rows.
Proof using All.
  destruct HT as (H1 & H2 & H3 & H4). split; [exact H4|]. unfold keys_per_server.
  pose proof (Z.div_mod (Z.of_nat rows + Z.of_nat N - 1) (Z.of_nat N) ltac:(lia)).
  pose proof (Z.mod_pos_bound (Z.of_nat rows + Z.of_nat N - 1) (Z.of_nat N) ltac:(lia)). lia.
Qed.
Lemma first_key_bound s : (s < N)%nat -> 0 <= first_key N rows s <= end_key N rows s /\ end_key N rows s <= Z.of_nat rows.
Proof using All.
  intros Hs. unfold first_key, end_key. pose proof per_pos as Hp. pose proof per_mul as Hm.
  set (r := keys_per_server N rows) in *. destruct (Nat.eqb_spec s (N - 1)) as [->|Hne]; [nia|].
  assert (Z.of_nat (S s) <= Z.of_nat (N - 1)) by lia. nia.
Qed.
Lemma next_first s : (S s < N)%nat -> end_key N rows s = first_key N rows (S s).
Proof using All. intros Hs. unfold end_key, first_key. destruct (Nat.eqb_spec s (N - 1)); [lia|reflexivity]. Qed.
Lemma last_end : end_key N rows (N - 1) = Z.of_nat rows.
Proof using All. unfold end_key. rewrite Nat.eqb_refl. reflexivity. Qed.
Lemma end_first_count s : (s < N)%nat -> end_key N rows s = first_key N rows s + Z.of_nat (key_count N rows s).
Proof using All. intros Hs. unfold key_count. pose proof (first_key_bound s Hs). lia. Qed.

Lemma find_range_key s : (s < N)%nat ->
  find_range true (Z.of_nat s) (Z.of_nat N) (Z.of_nat rows) = Ok (first_key N rows s, end_key N rows s).
Proof using All.
  intros Hs. destruct HT as (H1 & H2 & H3 & H4). unfold find_range.
  assert ((Z.of_nat N <=? Z.of_nat rows) = true) as -> by (apply Z.leb_le; lia). cbn [bind assert_].
  rewrite range_size_ceil by lia. fold (keys_per_server N rows).
  pose proof (first_key_bound s Hs) as Hb.
  rewrite (w32_id (Z.of_nat s * _)) by (unfold first_key, u32 in *; lia).
  fold (first_key N rows s). unfold end_key in *.
  destruct (Nat.eqb_spec s (N - 1)) as [E|E], (Z.eqb_spec (Z.of_nat s) (Z.of_nat N - 1)) as [F|F]; try lia; [reflexivity|].
  unfold first_key in *. rewrite w32_id by (unfold u32; nia). do 2 f_equal. nia.
Qed.
End Ranges.

Lemma noise_samples_gen cf lo width : (forall i, (i < width)%nat -> 0 <= pf_samples cf i < 2 ^ 32) ->
  0 <= lo -> lo + Z.of_nat width < 2 ^ 32 ->
  find_range true (pf_server cf) (pf_servers cf) (pf_db cf) = Ok (lo, lo + Z.of_nat width) ->
  noise_samples true cf =
  Ok (lo, lo + Z.of_nat width, {| bt_data := map (pf_samples cf) (seq 0 width); bt_right := width |},
      Z.of_nat (noise_total width cf) mod 2 ^ 32).
Proof.
  intros Hs H0 H1 E. unfold noise_samples. rewrite E. cbn [bind fst snd].
  replace (lo + Z.of_nat width - lo) with (Z.of_nat width) by lia. rewrite w32_id by (unfold u32; lia). rewrite Nat2Z.id.
  destruct (for_inv (fun i s => s = ({| bt_data := map (pf_samples cf) (seq 0 i) ++ repeat 0 (width - i); bt_right := i |},
     Z.of_nat (pre_total cf i) mod 2 ^ 32)) width 0 (fun i s =>
    let sample := pf_samples cf i in
    let* n := bt_push (fst s) sample in
    Ok (n, w32 (snd s + sample))) (bt_initialize 0 width, 0)) as (s & E' & I).
  - cbn. rewrite Nat.sub_0_r. reflexivity.
  - intros i t Hi ->. cbn [fst snd].
    replace (width - i)%nat with (S (length (seq (S i) (width - S i)))) by (rewrite seq_length; lia).
    pose proof (push_rest (map (pf_samples cf) (seq 0 i)) (pf_samples cf i) (map (pf_samples cf) (seq (S i) (width - S i))) 0 i) as P.
    rewrite !map_length, !seq_length in P. rewrite seq_length. rewrite P by reflexivity. cbn [bind].
    eexists. split; [reflexivity|]. rewrite seq_S, map_app. cbn [map Nat.add]. f_equal.
    + f_equal. rewrite app_length, map_length, seq_length. cbn. lia.
    + rewrite pre_total_S. unfold w32, smp. rewrite Zplus_mod_idemp_l. f_equal.
      specialize (Hs i ltac:(lia)). lia.
  - cbn [Nat.add] in I. bindE E'. subst s. cbn [bind fst snd]. rewrite Nat.sub_diag. cbn [repeat]. rewrite app_nil_r. reflexivity.
Qed.

Lemma fold_sum32 l : Forall (fun c => 0 <= c) l -> forall t, 0 <= t -> t + fold_right Z.add 0 l < 2 ^ 32 ->
  fold_left (fun t c => w32 (t + c)) l t = t + fold_right Z.add 0 l.
Proof.
  induction 1 as [|c l Hc F IH]; intros t Ht Hs; cbn [fold_left fold_right] in *; [lia|].
  assert (0 <= fold_right Z.add 0 l) by (clear - F; induction F; cbn; lia).
  rewrite w32_id by (unfold u32; lia). rewrite IH by lia. lia.
Qed.
Lemma sum32_spec l : Z.of_nat (sum l) < 2 ^ 32 -> sum32 (map Z.of_nat l) = Z.of_nat (sum l).
Proof.
  assert (E : forall l, fold_right Z.add 0 (map Z.of_nat l) = Z.of_nat (sum l)).
  { induction l0 as [|c l' IH]; cbn; [reflexivity|]. rewrite IH. unfold sum. lia. }
  intros H. unfold sum32. rewrite fold_sum32; [rewrite E; lia| |lia|rewrite E; lia].
  apply Forall_map. apply Forall_forall. intros; lia.
Qed.

Lemma share_slice total N t : share_of total N t = slice total N t.
Proof. reflexivity. Qed.

Lemma par_shuffled_spec total N t : (1 <= N)%nat -> (t < N)%nat -> Z.of_nat total < 2 ^ 32 ->
  par_shuffled (Z.of_nat total) (Z.of_nat N) (Z.of_nat t) = Z.of_nat (share_of total N t).
Proof.
  intros HN Ht Hb. unfold par_shuffled, share_of.
  rewrite <- Nat2Z.inj_div. set (q := (total / N)%nat).
  assert (Hq : (N * q <= total)%nat) by (apply Nat.mul_div_le; lia).
  destruct (Nat.eqb_spec t (N - 1)) as [E|E], (Z.eqb_spec (Z.of_nat t) (Z.of_nat N - 1)) as [F|F]; try lia.
  assert (((N - 1) * q <= total)%nat) by nia.
  rewrite (w32_id (Z.of_nat q * _)) by (unfold u32; nia). rewrite w32_id by (unfold u32; nia). nia.
Qed.

Section Siblings.
Variables (rng : rng_t) (parties k rows N : nat) (confs : list sconf) (inputs : list nat).
Hypothesis G : good_siblings rng parties k rows N confs inputs.
Hypothesis Htot : Z.of_nat (sum (batch_counts N rows confs inputs)) < 2 ^ 32.
Definition nz (s : nat) : nat := nth s (noise_counts N rows confs) 0%nat.
Notation ips := (fun s => nth s inputs 0%nat).
Notation counts := (batch_counts N rows confs inputs).
Notation total := (sum counts).

Lemma nz_conf s sf : nth_error confs s = Some sf -> nz s = server_noise N rows s (sf_conf sf).
Proof using All.
  intros H. unfold nz, noise_counts. apply nth_error_nth. rewrite nth_error_map_seq, H; [reflexivity|].
  rewrite <- (gb_length _ _ _ _ _ _ _ G). apply nth_error_Some. congruence.
Qed.
Lemma counts_nth s : (s < N)%nat -> nth s counts 0%nat = (nz s + ips s)%nat.
Proof using All. intros H. apply nth_error_nth. unfold batch_counts. rewrite nth_error_map_seq by exact H. reflexivity. Qed.
Lemma counts_length : length counts = N.
Proof using All. unfold batch_counts. rewrite map_length, seq_length. reflexivity. Qed.
Lemma count_le s : (s < N)%nat -> (nz s + ips s <= total)%nat.
Proof using All.
  intros H. rewrite <- counts_nth by exact H.
  assert (L : forall l s, (nth s l 0 <= sum l)%nat).
  { induction l as [|c l IH]; intros [|i]; cbn; try lia. specialize (IH i). unfold sum in *. lia. }
  apply L.
Qed.

Definition ct (s : nat) (sf : sconf) : counted := {|
  co_start := first_key N rows s; co_end := end_key N rows s;
  co_samples := {| bt_data := map (pf_samples (sf_conf sf)) (seq 0 (key_count N rows s)); bt_right := key_count N rows s |};
  co_noise := Z.of_nat (nz s); co_input := Z.of_nat (ips s); co_at := map Z.of_nat counts;
  co_total := Z.of_nat total; co_shuffled := Z.of_nat (share_of total N s) |}.

Lemma par_counts_spec : exists cts, par_counts true confs (map Z.of_nat inputs) = Ok cts /\ length cts = N /\
  forall s sf, nth_error confs s = Some sf -> nth_error cts s = Some (ct s sf).
Proof using All.
  pose proof (gb_length _ _ _ _ _ _ _ G) as L. pose proof (gb_inputs _ _ _ _ _ _ _ G) as Li.
  pose proof (gb_tiled _ _ _ _ _ _ _ G) as T. destruct (gb_servers _ _ _ _ _ _ _ G) as (shared & Hsh & GS).
  pose proof (gb_parties _ _ _ _ _ _ _ G) as Hp. pose proof T as (T1 & T2 & T3 & T4).
  unfold par_counts.
  destruct (map_res_exists (fun cf =>
    let* _ := par_check true (sf_conf cf) in noise_samples true (sf_conf cf))
    (fun cf r => forall s, nth_error confs s = Some cf -> r = (first_key N rows s, end_key N rows s,
       {| bt_data := map (pf_samples (sf_conf cf)) (seq 0 (key_count N rows s)); bt_right := key_count N rows s |}, Z.of_nat (nz s)))
    confs) as (smps & E & F).
  { intros cf Hin. apply In_nth_error in Hin. destruct Hin as (s & Hs). pose proof (GS s cf Hs) as g.
    assert (Hlt : (s < N)%nat) by (rewrite <- L; apply nth_error_Some; congruence).
    unfold par_check. rewrite (gs_parties _ _ _ _ _ _ _ _ g), (gs_party _ _ _ _ _ _ _ _ g), (gs_server _ _ _ _ _ _ _ _ g), (gs_servers _ _ _ _ _ _ _ _ g).
    assert (((2 <=? parties)%nat && (k <? parties - 1)%nat) = true) as ->.
    { apply andb_true_intro. split; [apply Nat.leb_le; lia|apply Nat.ltb_lt; lia]. }
    assert (((1 <? Z.of_nat N) && (Z.of_nat s <? Z.of_nat N)) = true) as ->.
    { apply andb_true_intro. split; apply Z.ltb_lt; lia. }
    cbn [bind assert_].
    pose proof (first_key_bound N rows T s Hlt) as Hb. pose proof (end_first_count N rows T s Hlt) as Ee.
    assert (Ns : noise_samples true (sf_conf cf) = Ok (first_key N rows s, end_key N rows s,
       {| bt_data := map (pf_samples (sf_conf cf)) (seq 0 (key_count N rows s)); bt_right := key_count N rows s |}, Z.of_nat (nz s))).
    { rewrite Ee. rewrite (noise_samples_gen (sf_conf cf) (first_key N rows s) (key_count N rows s)).
      - rewrite Z.mod_small; [rewrite (nz_conf s cf Hs); reflexivity|].
        pose proof (count_le s Hlt) as Hc. rewrite (nz_conf s cf Hs) in Hc. unfold server_noise in Hc. lia.
      - apply (gs_samples _ _ _ _ _ _ _ _ g).
      - lia.
      - lia.
      - rewrite (gs_server _ _ _ _ _ _ _ _ g), (gs_servers _ _ _ _ _ _ _ _ g), (gs_db _ _ _ _ _ _ _ _ g), <- Ee.
        apply find_range_key; assumption. }
    rewrite Ns. eexists. split; [reflexivity|].
    intros s' Hs'. pose proof (GS s' cf Hs') as g'.
    pose proof (gs_server _ _ _ _ _ _ _ _ g) as A1. pose proof (gs_server _ _ _ _ _ _ _ _ g') as A2.
    assert (s' = s) by lia. subst s'. reflexivity. }
  rewrite E. cbn [bind]. rewrite L.
  pose proof (map_res_length _ _ _ E) as Lsm. rewrite L in Lsm.
  assert (Hsmp : forall s sf, nth_error confs s = Some sf -> nth_error smps s = Some (first_key N rows s, end_key N rows s,
       {| bt_data := map (pf_samples (sf_conf sf)) (seq 0 (key_count N rows s)); bt_right := key_count N rows s |}, Z.of_nat (nz s))).
  { intros s sf Hs. destruct (get_lt smps s) as (r & _ & Nr); [rewrite Lsm, <- L; apply nth_error_Some; congruence|].
    rewrite Nr. f_equal. apply (F s sf r Hs Nr s Hs). }
  assert (Hin : forall s, (s < N)%nat -> get (map Z.of_nat inputs) s = Ok (Z.of_nat (ips s))).
  { intros s Hs. unfold get. rewrite nth_error_map, (nth_error_nth' inputs 0%nat) by lia. reflexivity. }
  rewrite (map_res_Ok _ (fun s => Z.of_nat (nth s counts 0%nat))).
  2:{ intros s Hs. apply in_seq in Hs. destruct (get_lt confs s) as (sf & _ & Nf); [lia|].
      unfold get at 1. rewrite (Hsmp s sf Nf). cbn [bind]. rewrite Hin by lia. cbn [bind snd]. f_equal.
      rewrite counts_nth by lia. pose proof (count_le s ltac:(lia)). cbn beta in *. rewrite w32_id by (unfold u32; lia). lia. }
  cbn [bind].
  assert (Eat : map (fun s => Z.of_nat (nth s counts 0%nat)) (seq 0 N) = map Z.of_nat counts).
  { rewrite <- (map_map (fun s => nth s counts 0%nat)). f_equal.
    pose proof (nth_seq_all 0%nat counts) as Hn. rewrite counts_length in Hn. exact Hn. }
  rewrite Eat.
  destruct (map_res_exists (fun i =>
    let* cf := get confs i in
    let* s := get smps i in
    let* n := get (map Z.of_nat inputs) i in
    let '(start_, end_, samples, noise) := s in
    let total := sum32 (map Z.of_nat counts) in
    Ok {| co_start := start_; co_end := end_; co_samples := samples; co_noise := noise; co_input := n;
          co_at := map Z.of_nat counts; co_total := total;
          co_shuffled := par_shuffled total (pf_servers (sf_conf cf)) (pf_server (sf_conf cf)) |})
    (fun s c => forall sf, nth_error confs s = Some sf -> c = ct s sf) (seq 0 N)) as (cts & Ec & Fc).
  { intros s Hs. apply in_seq in Hs. destruct (get_lt confs s) as (sf & Ef & Nf); [lia|].
    rewrite Ef. cbn [bind]. unfold get at 1. rewrite (Hsmp s sf Nf). cbn [bind]. rewrite Hin by lia. cbn [bind].
    eexists. split; [reflexivity|]. intros sf' Nf'. rewrite Nf in Nf'. inversion Nf'; subst sf'.
    pose proof (GS s sf Nf) as g. rewrite (gs_server _ _ _ _ _ _ _ _ g), (gs_servers _ _ _ _ _ _ _ _ g).
    rewrite sum32_spec by exact Htot. rewrite par_shuffled_spec by lia. reflexivity. }
  exists cts. split; [exact Ec|]. pose proof (map_res_length _ _ _ Ec) as Lc. rewrite seq_length in Lc. split; [exact Lc|].
  intros s sf Nf. assert (Hs : (s < N)%nat) by (rewrite <- L; apply nth_error_Some; congruence).
  destruct (get_lt cts s) as (c & _ & Nc); [lia|]. rewrite Nc. f_equal.
  apply (Fc s s c (nth_error_seq 0 N s Hs) Nc sf Nf).
Qed.

Lemma running_spec l : forall t, running t l = map (fun s => (t + sum (firstn (S s) l))%nat) (seq 0 (length l)).
Proof.
  induction l as [|x l IH]; intros t; cbn [running length seq map]; [reflexivity|].
  f_equal; [cbn; lia|]. rewrite IH, <- seq_shift, map_map. apply map_ext. intros s. cbn. unfold sum. lia.
Qed.

(** The shufflers of all servers fit together. *)
Lemma par_shufflers_spec cts : par_counts true confs (map Z.of_nat inputs) = Ok cts ->
  exists tb, tb_ok N tb /\ tb_counts tb = counts /\ (forall s, (s < N)%nat -> tb_noise tb s = nz s) /\
    par_shufflers true rng confs cts =
      Ok (map (shuf (tb_M tb) (tb_counts tb) N (tb_noise tb) (tb_ls tb)) (seq 0 N)).
Proof using All.
  intros Ects. destruct par_counts_spec as (cts' & E' & Lc & Hc). rewrite Ects in E'. inversion E'; subst cts'. clear E' Ects.
  pose proof (gb_length _ _ _ _ _ _ _ G) as L. pose proof (gb_tiled _ _ _ _ _ _ _ G) as (T1 & T2 & T3 & T4).
  destruct (gb_servers _ _ _ _ _ _ _ G) as (shared & Hsh & GS).
  destruct (ps_initialize_spec rng shared counts N Hsh counts_length ltac:(lia) Htot) as (M & HM & Hps).
  assert (Hsz : forall t, (t < N)%nat -> Z.of_nat (size counts N t) < 2 ^ 32).
  { intros t Ht. unfold size, slice, slice_size. set (q := (sum counts / N)%nat).
    assert (Hq : (N * q <= sum counts)%nat) by (apply Nat.mul_div_le; lia).
    clearbody q. destruct (t =? N - 1)%nat; [apply Z.le_lt_trans with (Z.of_nat (sum counts)); [apply Nat2Z.inj_le, Nat.le_sub_l|exact Htot]|]. assert (q <= sum counts)%nat by (clear - Hq T1; nia). lia. }
  destruct (map_res_exists (fun s => let* cf := get confs s in ls_initialize rng (pf_seed (sf_conf cf)) (size counts N s))
     (fun s ls => ls_ok (size counts N s) ls /\ exists cf, nth_error confs s = Some cf /\
       ls_initialize rng (pf_seed (sf_conf cf)) (size counts N s) = Ok ls) (seq 0 N)) as (lss & El & Fl).
  { intros s Hs. apply in_seq in Hs. destruct (get_lt confs s) as (sf & Ef & Nf); [lia|]. rewrite Ef. cbn [bind].
    destruct (ls_initialize_spec rng (pf_seed (sf_conf sf)) (size counts N s)) as (ls & E1 & E2).
    - intros i. apply (gs_rng _ _ _ _ _ _ _ _ (GS s sf Nf)).
    - apply Hsz. lia.
    - exists ls. split; [exact E1|]. split; [exact E2|]. exists sf. auto. }
  pose proof (map_res_length _ _ _ El) as Ll. rewrite seq_length in Ll.
  set (lsf := fun s => nth s lss {| ls_forward := []; ls_backward := [] |}).
  assert (Hlsf : forall s, (s < N)%nat -> nth_error lss s = Some (lsf s)) by (intros s Hs; apply nth_error_nth'; lia).
  exists {| tb_M := M; tb_counts := counts; tb_noise := nz; tb_ls := lsf |}. cbn [tb_M tb_counts tb_noise tb_ls].
  split; [|split; [reflexivity|split; [reflexivity|]]].
  { split; [exact HM|]. split; [lia|]. split; [exact Htot|]. cbn [tb_M tb_counts tb_noise tb_ls]. split.
    - intros t Ht. apply (Fl t t (lsf t) (nth_error_seq 0 N t Ht) (Hlsf t Ht)).
    - intros a Ha. rewrite counts_nth by exact Ha. lia. }
  unfold par_shufflers. rewrite L.
  rewrite (map_res_Ok _ (fun s => ps_spec M counts N s (nz s))).
  2:{ intros s Hs. apply in_seq in Hs. destruct (get_lt confs s) as (sf & Ef & Nf); [lia|]. rewrite Ef. cbn [bind].
      unfold get. rewrite (Hc s sf Nf). cbn [bind]. pose proof (GS s sf Nf) as g.
      rewrite (gs_server _ _ _ _ _ _ _ _ g), (gs_servers _ _ _ _ _ _ _ _ g), (gs_shared _ _ _ _ _ _ _ _ g), !Nat2Z.id.
      cbn [ct co_at co_noise]. rewrite map_map, (map_ext _ (fun x => x)) by (intros; apply Nat2Z.id). rewrite map_id, Nat2Z.id.
      rewrite Hps by lia. cbn [bind co_shuffled ct ps_slice ps_spec]. rewrite share_slice, Z.eqb_refl. reflexivity. }
  cbn [bind].
  rewrite (map_res_Ok _ (shuf M counts N nz lsf)); [reflexivity|].
  intros s Hs. apply in_seq in Hs. destruct (get_lt confs s) as (sf & Ef & Nf); [lia|]. rewrite Ef. cbn [bind].
  unfold get at 1. rewrite (Hc s sf Nf). cbn [bind]. rewrite get_map by lia. cbn [bind].
  assert (En : map_res (fun q => ps_count_noise_to q s) (map (fun s0 => ps_spec M counts N s0 (nz s0)) (seq 0 N)) =
     Ok (map (nfrom M counts nz s) (seq 0 N))).
  { assert (Hgen : forall l, (forall a, In a l -> (a < N)%nat) ->
      map_res (fun q => ps_count_noise_to q s) (map (fun s0 => ps_spec M counts N s0 (nz s0)) l) = Ok (map (nfrom M counts nz s) l)).
    { induction l as [|a l IH]; intros Hl; cbn [map map_res]; [reflexivity|].
      unfold ps_count_noise_to at 1. cbn [ps_spec ps_to_noise]. rewrite get_map by lia. cbn [bind].
      rewrite IH by (intros; apply Hl; right; assumption). reflexivity. }
    apply Hgen. intros a Ha. apply in_seq in Ha. lia. }
  rewrite En. cbn [bind ct co_shuffled]. rewrite Nat2Z.id, share_slice.
  destruct (Fl s s (lsf s) (nth_error_seq 0 N s ltac:(lia)) (Hlsf s ltac:(lia))) as (_ & sf' & Nf' & E').
  rewrite Nf in Nf'. inversion Nf'; subst sf'. unfold size in E'. rewrite E'. cbn [bind].
  unfold shuf. do 2 f_equal. rewrite running_spec, map_length, seq_length. apply map_ext_in. intros a Ha. apply in_seq in Ha.
  cbn [Nat.add]. rewrite firstn_map. do 2 f_equal.
  replace N with (S a + (N - S a))%nat by lia. rewrite seq_app, firstn_app, seq_length, firstn_all2 by (rewrite seq_length; lia).
  replace (S a - S a)%nat with 0%nat by lia. cbn [firstn]. apply app_nil_r.
Qed.

(** InitializeNoiseQueries only writes into the batch. *)
Lemma par_noise_queries_length lo hi noise ns qs qs' : par_noise_queries lo hi noise ns qs = Ok qs' ->
  length (bt_data qs') = length (bt_data qs).
Proof.
  unfold par_noise_queries. intros H.
  destruct (for_ _ 0 _ (0, ns, qs)) as [r| | |] eqn:E; try discriminate. cbn [bind] in H. inversion H; subst qs'. clear H.
  revert r E. generalize (Z.to_nat (hi - lo)) as n. 
  match goal with |- forall n r, for_ n 0 ?f _ = _ -> _ => set (body := f) end.
  assert (Hb : forall j s s', body j s = Ok s' -> length (bt_data (snd s')) = length (bt_data (snd s))).
  { intros j ((idx & ns') & q) s' H. unfold body in H. destruct (bt_get noise j) as [sample| | |]; try discriminate. cbn [bind] in H.
    match type of H with bind (for_ ?n ?a ?f ?s0) _ = _ => destruct (for_ n a f s0) as [t| | |] eqn:E; try discriminate;
      set (inner := f) in E; revert E; generalize n as m; generalize a as a0; intros a0 m E end.
    cbn [bind] in H. inversion H; subst s'. cbn [snd].
    assert (Hi : forall m a0 s0 t, for_ m a0 inner s0 = Ok t -> length (bt_data (snd t)) = length (bt_data (snd s0))).
    { induction m0 as [|m0 IH]; intros a1 s0 t0 E0; cbn [for_] in E0; [inversion E0; reflexivity|].
      destruct (inner a1 s0) as [s1| | |] eqn:E1; try discriminate. cbn [bind] in E0. apply IH in E0. rewrite E0.
      unfold inner in E1. destruct (make_query _ _) as [q0| | |]; try discriminate. cbn [bind] in E1.
      unfold bt_set, set_ in E1. destruct (a1 <? length (bt_data (snd s0)))%nat; try discriminate. cbn [bind] in E1.
      inversion E1. cbn [snd bt_data]. apply length_upd. }
    apply Hi in E. exact E. }
  intros n. assert (Hn : forall n a s r, for_ n a body s = Ok r -> length (bt_data (snd r)) = length (bt_data (snd s))).
  { induction n0 as [|n0 IH]; intros a s r E; cbn [for_] in E; [inversion E; reflexivity|].
    destruct (body a s) as [s1| | |] eqn:E1; try discriminate. cbn [bind] in E. apply IH in E. apply Hb in E1. congruence. }
  intros r E. apply Hn in E. exact E.
Qed.

Definition noise_part (rps : list pready) (a : nat) : list query :=
  match nth_error rps a with Some rp => firstn (nz a) (bt_data (pr_queries rp)) | None => [] end.

Lemma par_ready_ok cts tb nss states rps :
  par_counts true confs (map Z.of_nat inputs) = Ok cts ->
  tb_ok N tb -> tb_counts tb = counts -> (forall s, (s < N)%nat -> tb_noise tb s = nz s) ->
  par_ready confs cts (map (shuf (tb_M tb) (tb_counts tb) N (tb_noise tb) (tb_ls tb)) (seq 0 N)) nss states = Ok rps ->
  par_ok N tb rps (noise_part rps) /\ (forall a, (a < N)%nat -> inp tb a = ips a) /\
  forall a rp, nth_error rps a = Some rp -> nth_error states a = Some (pr_state rp).
Proof using All.
  intros Ects HT Et En E. destruct par_counts_spec as (cts' & E' & Lc & Hc). rewrite Ects in E'. inversion E'; subst cts'. clear E' Ects.
  pose proof (gb_length _ _ _ _ _ _ _ G) as L. unfold par_ready in E. rewrite L in E.
  pose proof (map_res_length _ _ _ E) as Lr. rewrite seq_length in Lr.
  assert (Hinp : forall a, (a < N)%nat -> inp tb a = ips a).
  { intros a Ha. unfold inp. rewrite Et, En, counts_nth by exact Ha. cbn beta. lia. }
  assert (Hall : forall a rp, nth_error rps a = Some rp ->
    pr_noise rp = Z.of_nat (nz a) /\ pr_input rp = Z.of_nat (ips a) /\ pr_shuffled rp = Z.of_nat (share_of total N a) /\
    pr_sh rp = shuf (tb_M tb) (tb_counts tb) N (tb_noise tb) (tb_ls tb) a /\
    pr_tags rp = bt_initialize 0 (ips a) /\ length (bt_data (pr_queries rp)) = (nz a + ips a)%nat /\
    nth_error states a = Some (pr_state rp)).
  { intros a rp Nrp. assert (Ha : (a < N)%nat) by (rewrite <- Lr; apply nth_error_Some; congruence).
    destruct (map_res_nth _ _ _ a a E (nth_error_seq 0 N a Ha)) as (rp' & E' & N'). rewrite Nrp in N'. inversion N'; subst rp'. clear N'.
    destruct (get_lt confs a) as (sf & _ & Nf); [lia|]. unfold get in E' at 1. rewrite (Hc a sf Nf) in E'. cbn [bind] in E'.
    rewrite get_map in E' by exact Ha. cbn [bind] in E'.
    destruct (get nss a) as [ns| | |]; try discriminate. cbn [bind] in E'.
    destruct (get states a) as [st| | |] eqn:Es; try discriminate. cbn [bind] in E'.
    match type of E' with bind ?x _ = _ => destruct x as [qs| | |] eqn:Eq; try discriminate end.
    cbn [bind ct co_start co_end co_samples co_noise co_input co_shuffled] in E'. inversion E'; subst rp. clear E'.
    cbn [pr_noise pr_input pr_shuffled pr_sh pr_tags pr_queries pr_state].
    apply get_Ok in Es. apply par_noise_queries_length in Eq. cbn [bt_initialize bt_data] in Eq.
    rewrite repeat_length in Eq. cbn [ct co_input co_noise] in Eq. pose proof (count_le a Ha) as Hle. cbn beta in Hle.
    rewrite w32_id in Eq by (unfold u32; lia).
    repeat (split; [first [reflexivity|rewrite Nat2Z.id; reflexivity|rewrite Eq; lia]|]). exact Es. }
  split; [|split; [exact Hinp|intros a rp Nrp; apply (Hall a rp Nrp)]].
  split; [exact Lr|]. intros a rp Nrp. assert (Ha : (a < N)%nat) by (rewrite <- Lr; apply nth_error_Some; congruence).
  destruct (Hall a rp Nrp) as (E1 & E2 & E3 & E4 & E5 & E6 & E7). rewrite Hinp, En by exact Ha.
  unfold noise_part. rewrite Nrp. split; [exact E1|]. split; [exact E2|]. split; [rewrite Et; exact E3|]. split; [exact E4|].
  split; [exact E5|]. split; [rewrite Et, counts_nth by exact Ha; exact E6|]. split; [|reflexivity].
  rewrite firstn_length, E6. lia.
Qed.
End Siblings.
