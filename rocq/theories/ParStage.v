(** The offline stage of a party with several servers. *)
From Verif Require Import Base BaseProofs Incremental IncrementalProofs Wire WireProofs Additive AdditiveProofs Onion OnionProofs
  Shuffle Sizes State Database CipherBatch CipherBatchProofs Range Handlers Batch Party Chain Spec SharingProofs ShuffleProofs
  StateProofs ChainSpec OnlineProofs OfflineProofs OfflineParty ChainProofs ParShuffle ParShuffleProofs ParShuffleFacts Parallel ParSpec
  ParMergeProofs ParForwardProofs ParBackwardProofs ParOnlineProofs ParPartyProofs ParFacts ParSecretsProofs ParTagProofs.

Local Notation advance := OnlineProofs.advance.

(** ** Items of one sender *)
Definition gen_item (m : nat) (r : rand) (t0 : nat) (ks : list Z) (i : nat) : item :=
  mk_item (Z.of_nat (t0 + i)) (nth i ks 0) (rnd_incs r m i) (rn_masks r i).
Definition gen_items (m : nat) (r : rand) (t0 : nat) (ks : list Z) : list item := map (gen_item m r t0 ks) (seq 0 (length ks)).

Lemma gen_length m r t0 ks : length (gen_items m r t0 ks) = length ks.
Proof. unfold gen_items. rewrite map_length, seq_length. reflexivity. Qed.
Lemma gen_keys m r t0 ks : map it_key (gen_items m r t0 ks) = ks.
Proof. unfold gen_items. rewrite map_map. cbn. apply nth_seq_all. Qed.
Lemma gen_tags m r t0 ks : map it_tag (gen_items m r t0 ks) = map Z.of_nat (seq t0 (length ks)).
Proof.
  unfold gen_items. rewrite map_map. cbn [gen_item mk_item it_tag]. generalize (length ks) as n. intros n.
  apply nth_error_ext. intros i. destruct (Nat.lt_ge_cases i n) as [H|H].
  - rewrite nth_error_map_seq by exact H. rewrite nth_error_map, nth_error_seq by exact H. reflexivity.
  - rewrite !(proj2 (nth_error_None _ _)); [reflexivity| |]; rewrite map_length, seq_length; lia.
Qed.
Lemma gen_item_ok rows m r t0 ks i : good_rand r (length ks) m -> Z.of_nat rows <= 2 ^ 31 - 1 ->
  Forall (fun k => 0 <= k < Z.of_nat rows) ks -> Z.of_nat (t0 + length ks) <= 2 ^ 32 -> (i < length ks)%nat ->
  ok_item rows m (gen_item m r t0 ks i) /\
  generate_incremental_tally (it_key (gen_item m r t0 ks i)) (rnd_incs r m i) = Ok (it_tally (gen_item m r t0 ks i)).
Proof.
  intros G Hr Fk Ht Hi. destruct (G i Hi) as (Gd & Gl & Gm).
  destruct (make_shares _ _ _ m 0 Gd Gl Gm) as (Li & Wi & _). unfold gen_item.
  rewrite Forall_forall in Fk.
  destruct (ok_mk_item rows (Z.of_nat (t0 + i)) (nth i ks 0) (rnd_incs r m i) (rn_masks r i)) as [H1 H2].
  - unfold u64. lia.
  - exact Wi.
  - exact Gm.
  - unfold rnd_incs. lia.
  - exact Hr.
  - apply Fk. apply nth_In. exact Hi.
  - split; [|exact H2]. unfold rnd_incs in H1 at 1. rewrite Li in H1. exact H1.
Qed.
Lemma gen_items_ok rows m r t0 ks : good_rand r (length ks) m -> Z.of_nat rows <= 2 ^ 31 - 1 ->
  Forall (fun k => 0 <= k < Z.of_nat rows) ks -> Z.of_nat (t0 + length ks) <= 2 ^ 32 -> Forall (ok_item rows m) (gen_items m r t0 ks).
Proof.
  intros G Hr Fk Ht. apply Forall_map. apply Forall_forall. intros i Hi. apply in_seq in Hi. apply gen_item_ok; auto. lia.
Qed.

(** ** Ciphers of the noise *)
Lemma par_noise_ciphers_spec b keys rows k cf ct t0 input ks :
  pf_party cf = k -> pf_parties cf = length keys -> pf_pkeys cf = map fst keys ->
  let m := (length keys - k - 1)%nat in
  co_noise ct = Z.of_nat (length ks) -> co_input ct = Z.of_nat input ->
  good_rand (pf_rand cf) (length ks) m ->
  (forall i, (i < length ks)%nat -> par_sample_tag ct (pf_db cf) (Z.of_nat i) = Ok (Z.of_nat (t0 + i))) ->
  (forall pk sk, In (pk, sk) keys -> box_ok b pk sk) -> (length keys <= 255)%nat -> (k + 1 < length keys)%nat ->
  Z.of_nat rows <= 2 ^ 31 - 1 -> Forall (fun k => 0 <= k < Z.of_nat rows) ks -> Z.of_nat (t0 + length ks) < 2 ^ 32 ->
  let items := gen_items m (pf_rand cf) t0 ks in
  exists ns0 cb ns cs rest,
    cs_initialize cs_new (remaining_parties cf) (co_noise ct) true false = Ok ns0 /\
    par_noise_ciphers b true cf ct ns0 = Ok (cb, ns) /\
    rep cb cs [] [] rest /\ cb_short cb = (124 * m)%nat /\ cb_long cb = (124 * S m)%nat /\
    length rest = (input * (124 * S m))%nat /\
    Forall2 (opens b (skipn (S k) keys)) cs items /\
    (forall i it, nth_error items i = Some it -> make_query (load_times i ns) (it_key it) = Ok (q_of it, load_times (S i) ns)).
Proof.
  intros Ep Epn Epk m En Ei GR Htag Hb H255 Hk Hr Fk Ht items.
  assert (Erm : remaining_parties cf = m) by (unfold remaining_parties; rewrite Ep, Epn; apply as_party_id_sub1; lia).
  rewrite Erm, En.
  set (N := length ks) in *.
  set (done := fun i => map (fun i => (Z.of_nat (t0 + i), rnd_incs (pf_rand cf) m i)) (seq 0 i)).
  destruct (cs_initialize cs_new m (Z.of_nat N) true false) as [ns0| | |] eqn:E0; try discriminate E0.
  assert (A0 : ns_at ns0 (done 0%nat) N).
  { inversion E0. rewrite Nat2Z.id. unfold ns_at; cbn. auto 10. }
  unfold par_noise_ciphers. rewrite Ep, Epn.
  unfold party_out_size, party_in_size. rewrite as_party_id_sub1, as_party_id_sub by lia. fold m.
  rewrite !Csz. rewrite En, Ei, !Nat2Z.id.
  replace (length keys - k)%nat with (S m) by (unfold m; lia).
  destruct (rep_init (m * 124) (S m * 124) N input) as (gap0 & rest0 & R0 & Lg0 & Lr0 & S0 & S0').
  set (body := fun (i : nat) (s : cbatch * cstate) => _).
  destruct (for_inv (fun i s => exists cs gap, rep (fst s) cs gap [] rest0 /\ cb_short (fst s) = (m * 124)%nat /\
      cb_long (fst s) = (S m * 124)%nat /\ length gap = ((N - i) * (m * 124))%nat /\
      Forall2 (opens b (skipn (S k) keys)) cs (map (gen_item m (pf_rand cf) t0 ks) (seq 0 i)) /\ ns_at (snd s) (done i) (N - i))
    N 0 body (cb_initialize (m * 124) (S m * 124) N input, ns0)) as (s & E & I).
  - exists [], gap0. cbn [fst snd seq map]. rewrite Nat.sub_0_r. repeat split; try assumption; try constructor; try apply R0; try apply A0.
  - intros i [cb ns] Hi (cs & gap & R & B1 & B2 & Lg & F2 & A). cbn [fst snd] in *.
    destruct (GR i) as (Gd & Gl & Gm); [lia|].
    destruct (make_shares _ _ _ m (Z.of_nat (t0 + i)) Gd Gl Gm) as (Li & Wi & Eg & Es).
    unfold body. cbn [fst snd]. rewrite Htag by lia. cbn [bind]. rewrite Erm.
    unfold make_noise_secret. rewrite Eg. cbn [bind]. rewrite Es. cbn [bind fst snd].
    replace (N - i)%nat with (S (N - S i)) in A by lia.
    destruct (ns_at_step ns (done i) (N - S i) (Z.of_nat (t0 + i)) (rnd_incs (pf_rand cf) m i) A) as (ns' & Ens & A').
    { unfold done. rewrite map_length, seq_length. lia. }
    unfold rnd_incs in Ens. rewrite Ens. cbn [bind fst snd].
    destruct (gen_item_ok rows m (pf_rand cf) t0 ks i) as [Oi _]; [exact GR|exact Hr|exact Fk|fold N; lia|fold N; lia|].
    destruct (encrypt_item b keys (k + 1) (rn_coins (pf_rand cf) i) (rn_junk1 (pf_rand cf) i) (rn_junk2 (pf_rand cf) i)
      (gen_item m (pf_rand cf) t0 ks i) rows m Hb H255 Oi) as (c & Ec & Lc & Oc); [unfold m; lia|].
    rewrite Epk.
    change (mk_secrets (Z.of_nat (t0 + i)) (pre_incremental_secret_shares (rn_x (pf_rand cf) i) (rn_y (pf_rand cf) i) m)
       (rn_masks (pf_rand cf) i)) with (it_secrets (gen_item m (pf_rand cf) t0 ks i)).
    rewrite Ec. cbn [bind].
    destruct (rep_push_short cb cs gap [] rest0 c R) as (cb' & Epu & R' & B3 & B4).
    { lia. }
    { rewrite B1, Lg. replace (N - i)%nat with (S (N - S i)) by lia. rewrite Nat.mul_succ_l. apply Nat.le_add_l. }
    rewrite Epu. cbn [bind]. eexists. split; [reflexivity|]. cbn [fst snd].
    eexists _, _. split; [exact R'|]. split; [lia|]. split; [lia|]. split.
    + rewrite skipn_length, B1, Lg. replace (N - i)%nat with (S (N - S i)) by lia. rewrite Nat.mul_succ_l. apply Nat.add_sub.
    + split.
      * rewrite seq_S, map_app. apply Forall2_app; [exact F2|]. constructor; [|constructor].
        rewrite firstn_all2 by lia. rewrite Nat.add_1_r in Oc. exact Oc.
      * unfold done. rewrite seq_S, map_app. exact A'.
  - cbn [Nat.add] in I. destruct I as (cs & gap & R & B1 & B2 & Lg & F2 & A). rewrite Nat.sub_diag in A, Lg.
    assert (gap = []) as -> by (apply length_zero_iff_nil; exact Lg).
    exists ns0, (fst s), (snd s), cs, rest0. split; [reflexivity|]. split; [rewrite <- surjective_pairing; exact E|].
    split; [exact R|]. split; [lia|]. split; [lia|]. split; [lia|]. split; [exact F2|].
    intros i it Nit. assert (Hi : (i < N)%nat).
    { unfold N. rewrite <- (gen_length m (pf_rand cf) t0 ks). apply nth_error_Some. unfold items in Nit. congruence. }
    unfold items, gen_items in Nit. fold N in Nit. rewrite nth_error_map_seq in Nit by exact Hi. inversion Nit; subst it.
    destruct (gen_item_ok rows m (pf_rand cf) t0 ks i) as [_ Eg]; [exact GR|exact Hr|exact Fk|fold N; lia|fold N; lia|].
    destruct (ns_at_get (snd s) (done N) i (Z.of_nat (t0 + i)) (rnd_incs (pf_rand cf) m i)) as [T1 T2].
    + exact A.
    + unfold done. rewrite map_length, seq_length. lia.
    + unfold done. rewrite nth_error_map, nth_error_seq by exact Hi. reflexivity.
    + rewrite (make_query_at _ _ _ _ _ _ T1 T2 Eg). reflexivity.
Qed.

(** ** Batches of ciphers *)
Lemma cb_all_rep c (shorts : list (list Z)) gap rest s : rep c shorts gap [] rest -> cb_short c = s -> (0 < s)%nat ->
  (shorts = [] -> gap = []) -> cb_all c = Ok shorts.
Proof.
  intros R Es Hs Hg. pose proof R as (_ & S1 & _ & E1 & E2 & _). unfold cb_all.
  assert (Ee : (if (cb_last_short c =? 0)%nat then cb_first_long c else cb_last_short c) = (length shorts * s)%nat).
  { pose proof (sized_concat _ _ S1) as Lc. rewrite Es in Lc. rewrite E1, E2, Lc. destruct shorts as [|x l].
    - rewrite Hg by reflexivity. reflexivity.
    - destruct (Nat.eqb_spec (length (x :: l) * s) 0) as [E|E]; [cbn in E; lia|reflexivity]. }
  rewrite Ee, Es. destruct (Nat.eqb_spec s 0); [lia|].
  rewrite Nat.mod_mul, Nat.div_mul by lia. cbn [Nat.eqb].
  rewrite (map_res_Ok _ (fun i => nth i shorts [])); [rewrite nth_seq_all; reflexivity|].
  intros i Hi. apply in_seq in Hi. eapply rep_get; [exact R|]. apply nth_error_nth'. lia.
Qed.

Definition cb_flat (s : nat) (c : cbatch) (l : list (list Z)) : Prop :=
  cb_mem c = concat l /\ sized s l /\ cb_short c = s /\ cb_last_short c = 0%nat /\ cb_first_long c = (length l * s)%nat.

Lemma upd_split {A} (a b : list A) x y : upd (a ++ x :: b) (length a) y = a ++ y :: b.
Proof. induction a as [|z a IH]; cbn; [reflexivity|]. f_equal. exact IH. Qed.

Lemma cb_flat_set s c l i x : cb_flat s c l -> (i < length l)%nat -> length x = s ->
  exists c', cb_set_short c i x = Ok c' /\ cb_flat s c' (upd l i x).
Proof.
  intros (M & S1 & Es & E1 & E2) Hi Lx. unfold cb_set_short. rewrite Es, rd_Ok by lia. cbn [bind skipn].
  rewrite firstn_all2 by lia.
  destruct (get_lt l i Hi) as (o & _ & No). destruct (nth_error_split _ _ No) as (a & b & El & La). subst l i.
  apply Forall_app in S1. destruct S1 as [Sa Sb]. inversion Sb as [|? ? Lo Sb']; subst.
  rewrite M, concat_app. cbn [concat]. rewrite <- (sized_concat _ _ Sa), wr_mid by congruence. cbn [bind].
  eexists. split; [reflexivity|]. unfold cb_flat. cbn [cb_mem cb_short cb_last_short cb_first_long].
  rewrite upd_split. split; [rewrite concat_app; reflexivity|]. split.
  - apply Forall_app. split; [exact Sa|]. constructor; assumption.
  - split; [congruence|]. split; [exact E1|]. rewrite E2, !app_length. reflexivity.
Qed.
Lemma cb_flat_init s l n : cb_flat s (cb_initialize s l n 0) (repeat (repeat 0 s) n).
Proof.
  unfold cb_flat, cb_initialize. cbn [cb_mem cb_short cb_last_short cb_first_long]. rewrite repeat_length.
  split; [|split; [|auto]].
  - cbn [Nat.mul]. rewrite Nat.add_0_r. induction n as [|n IH]; [reflexivity|]. cbn [repeat concat Nat.mul]. rewrite <- IH. apply repeat_app.
  - apply Forall_repeat. apply repeat_length.
Qed.
Lemma cb_flat_all s c l : cb_flat s c l -> (0 < s)%nat -> cb_all c = Ok l.
Proof.
  intros (M & S1 & Es & E1 & E2) Hs. unfold cb_all. rewrite E1, E2, Es. cbn [Nat.eqb].
  destruct (Nat.eqb_spec s 0); [lia|]. rewrite Nat.mod_mul, Nat.div_mul by lia. cbn [Nat.eqb].
  rewrite (map_res_Ok _ (fun i => nth i l [])); [rewrite nth_seq_all; reflexivity|].
  intros i Hi. apply in_seq in Hi. unfold cb_get_short. rewrite M, Es.
  destruct (get_lt l i ltac:(lia)) as (o & _ & No). rewrite (nth_error_nth _ _ _ No).
  destruct (nth_error_split _ _ No) as (a & b & El & La). subst l i.
  apply Forall_app in S1. destruct S1 as [Sa Sb]. inversion Sb as [|? ? Lo Sb']; subst.
  rewrite concat_app. cbn [concat]. rewrite <- (sized_concat _ _ Sa).
  rewrite rd_Ok by (rewrite !app_length; lia). rewrite skipn_exact, <- Lo, firstn_exact. reflexivity.
Qed.

(** ** One server: collecting and installing *)
Lemma server_install b keys rows k cf input cb ncs rest cs items :
  pf_party cf = k -> pf_parties cf = length keys -> nth_error keys k = Some (pf_pkey cf, pf_skey cf) ->
  (length keys <= 255)%nat -> (k + 1 < length keys)%nat ->
  let m := (length keys - k - 1)%nat in
  rep cb ncs [] [] rest -> cb_short cb = (124 * m)%nat -> cb_long cb = (124 * S m)%nat -> length rest = (input * (124 * S m))%nat ->
  Forall2 (opens b (skipn k keys)) cs items -> Forall (ok_item rows (S m)) items -> NoDup (map it_tag items) ->
  length items = input ->
  exists cb2 cb3 p outs,
    collect_ciphers (Z.of_nat input) cs cb = Ok cb2 /\
    install_secrets b true cf (Z.of_nat input) cb2 (qs_initialize_state qs_new false) = Ok (cb3, p) /\
    cb_all cb3 = Ok (ncs ++ outs) /\
    install_all true (qs_initialize_state qs_new false) (map first_secret items) = Ok p /\
    Forall2 (opens b (skipn (S k) keys)) outs (map advance items).
Proof.
  intros Ep Epn Ek H255 Hk m R1 B1 B2 Lr F2 Oc Nd Li.
  assert (Lc : length cs = input) by (rewrite (Forall2_length' _ _ _ F2); exact Li).
  destruct (skipn k keys) as [|[pk sk] ks] eqn:Esk.
  { apply (f_equal (@length _)) in Esk. rewrite skipn_length in Esk. cbn in Esk. lia. }
  assert (Eks : ks = skipn (S k) keys).
  { change (S k) with (1 + k)%nat. rewrite <- (skipn_skipn' keys 1 k), Esk. reflexivity. }
  assert (Lks : length ((pk, sk) :: ks) = S m).
  { rewrite <- Esk, skipn_length. unfold m. lia. }
  assert (Epk : nth_error keys k = Some (pk, sk)).
  { rewrite <- (Nat.add_0_r k), <- nth_error_skipn, Esk. reflexivity. }
  rewrite Ek in Epk. inversion Epk as [[Ep' Es]].
  assert (Scs : Forall (fun c => length c = (124 * S m)%nat) cs).
  { clear -F2 Lks. induction F2 as [|c it cs its H _ IH]; constructor; [|exact IH].
    apply peels_length in H. rewrite Lks in H. exact H. }
  unfold collect_ciphers. rewrite Nat2Z.id, recv_all by exact Lc. cbn [bind]. rewrite push_longs.
  destruct (push_all_spec (124 * m) (124 * S m) (map inr cs) cb ncs [] [] rest R1 B1 B2) as (cb2 & E2 & R2 & B3 & B4).
  { rewrite lefts_inr. constructor. }
  { rewrite rights_inr. exact Scs. }
  { rewrite lefts_inr. cbn. lia. }
  { rewrite rights_inr. lia. }
  rewrite lefts_inr, rights_inr in R2. cbn [app length Nat.mul skipn] in R2. rewrite app_nil_r in R2.
  assert (Nd' : NoDup (map o_tag (map first_secret items))) by (rewrite (map_first_tag rows m) by exact Oc; exact Nd).
  destruct (install_spec true (map first_secret items) (qs_initialize_state qs_new false) Nd') as (p' & Ei & Si & Mi).
  { intros; reflexivity. }
  assert (En : as_party_id (Z.of_nat (pf_parties cf) - Z.of_nat (pf_party cf)) = S m).
  { rewrite Ep, Epn, as_party_id_sub by lia. unfold m. lia. }
  destruct (peel_install b cf (S m) pk sk ks En Ep' Es Lks cs items F2 _ _ Ei) as (outs & Epl & Fo).
  unfold install_secrets. rewrite Nat2Z.id.
  assert (Hd : forall c it, opens b ((pk, sk) :: ks) c it -> exists s c', onion_decrypt b true c (S m) pk sk = Ok (s, c') /\ length c' = (124 * m)%nat).
  { intros c it H. unfold opens in H. cbn [peels] in H. destruct (it_secrets it) as [|s ss]; [contradiction|].
    destruct H as (_ & c' & Ed & Lc' & _). rewrite Lks in Ed. exists s, c'. split; [exact Ed|]. cbn in Lks. lia. }
  assert (Hin : forall c, In c cs -> exists s c', onion_decrypt b true c (S m) pk sk = Ok (s, c') /\ length c' = (124 * m)%nat).
  { intros c Hc. clear -Hd F2 Hc. induction F2 as [|c' it cs its H _ IH]; [contradiction|].
    destruct Hc as [->|Hc]; [exact (Hd _ _ H)|exact (IH Hc)]. }
  pose proof (process_spec (install_one b true cf) (124 * m) (124 * S m) ltac:(lia) ltac:(lia) cs) as PS.
  specialize (PS ltac:(intros st c junk Hc; unfold install_one; rewrite En, decrypt_app; [reflexivity|
      rewrite Forall_forall in Scs; apply Scs; exact Hc])).
  assert (Hlen : forall (st : qstate) c st' o, In c cs -> install_one b true cf st c = Ok (st', o) -> length o = (124 * m)%nat).
  { intros st c st' o Hc Ec. destruct (Hin c Hc) as (s & c' & Ed & Lc'). unfold install_one in Ec. rewrite En, Ep', Es, Ed in Ec.
    cbn [bind fst snd] in Ec. destruct (qs_store true st s); cbn [bind] in Ec; inversion Ec; subst. exact Lc'. }
  specialize (PS Hlen input cb2 (qs_initialize_state qs_new false) ncs _ _ ltac:(lia) R2 B3 B4).
  rewrite Epl in PS. destruct PS as (cb3 & gap' & E3 & R3 & B5 & B6 & Lo).
  exists cb2, cb3, p', outs. split; [exact E2|]. split; [exact E3|]. split; [|split; [exact Ei|rewrite <- Eks; exact Fo]].
  destruct cs as [|c0 cs0].
  - (* nothing to install: the batch is unchanged *)
    assert (Hl := has_long_spec _ _ _ _ _ R2 ltac:(lia)).
    assert (Eq : cb_process (install_one b true cf) input cb2 (qs_initialize_state qs_new false) = Ok (cb2, qs_initialize_state qs_new false))
      by (destruct input; cbn [cb_process]; rewrite Hl; reflexivity).
    rewrite E3 in Eq. inversion Eq; subst cb3.
    destruct outs; [|discriminate Lo]. rewrite app_nil_r in *.
    apply (cb_all_rep cb2 ncs [] _ (124 * m) R2 B3); [unfold m; lia|reflexivity].
  - eapply cb_all_rep; [exact R3|exact B5|unfold m; lia|].
    intros H. apply (f_equal (@length _)) in H. rewrite app_length, Lo in H. cbn in H. lia.
Qed.

(** ** Noise queries *)
Lemma par_noise_queries_spec cf lo width (noise : list item) ns T :
  (forall i, (i < width)%nat -> 0 <= pf_samples cf i < 2 ^ 32) ->
  Z.of_nat (noise_total width cf) < 2 ^ 32 -> (noise_total width cf <= T)%nat ->
  map it_key noise = map (Z.add lo) (noise_keys width cf) ->
  (forall i it, nth_error noise i = Some it -> make_query (load_times i ns) (it_key it) = Ok (q_of it, load_times (S i) ns)) ->
  exists qs, par_noise_queries lo (lo + Z.of_nat width) {| bt_data := map (pf_samples cf) (seq 0 width); bt_right := width |} ns
       (bt_initialize zero_query T) = Ok qs /\ length (bt_data qs) = T /\
    firstn (length noise) (bt_data qs) = map q_of noise.
Proof.
  intros Hs Ht HT Hk Hq.
  assert (Lnoise : length noise = pre_total cf width).
  { rewrite <- (map_length it_key noise), Hk, map_length, noise_keys_length. reflexivity. }
  rewrite noise_total_pre in *.
  unfold par_noise_queries. replace (lo + Z.of_nat width - lo) with (Z.of_nat width) by lia. rewrite Nat2Z.id.
  set (body := fun (j : nat) (s : Z * cstate * batch query) => _).
  set (inv := fun (i : nat) (data : list query) => length data = T /\ firstn i data = map q_of (firstn i noise)).
  destruct (for_inv (fun j s => exists data, s = (Z.of_nat (pre_total cf j), load_times (pre_total cf j) ns,
       {| bt_data := data; bt_right := 0 |}) /\ inv (pre_total cf j) data)
     width 0 body (0, ns, bt_initialize zero_query T)) as (s & E & I).
  - exists (repeat zero_query T). split; [reflexivity|]. split; [apply repeat_length|reflexivity].
  - intros j s Hj (data & -> & F). unfold body.
    assert (Eg : get (map (pf_samples cf) (seq 0 width)) j = Ok (pf_samples cf j)) by (apply get_Ok; apply nth_error_map_seq; lia).
    unfold bt_get; cbn [bt_data]. rewrite Eg. cbn [bind].
    pose proof (Hs j ltac:(lia)) as Hsj.
    assert (Hm : (pre_total cf (S j) <= pre_total cf width)%nat) by (apply pre_total_mono; lia).
    assert (Es : Z.of_nat (pre_total cf j) + pf_samples cf j = Z.of_nat (pre_total cf (S j))).
    { rewrite pre_total_S. unfold smp. lia. }
    rewrite Es. rewrite w32_id by (unfold u32; lia).
    replace (Z.to_nat (Z.of_nat (pre_total cf (S j)) - Z.of_nat (pre_total cf j))) with (smp cf j)
      by (rewrite pre_total_S; lia).
    rewrite Nat2Z.id.
    destruct (for_inv (fun i s => exists data, s = (load_times i ns, {| bt_data := data; bt_right := 0 |}) /\ inv i data)
      (smp cf j) (pre_total cf j) (fun i s' =>
      let* q := make_query (fst s') (lo + Z.of_nat j) in
      let* qs' := bt_set (snd s') i (fst q) in
      Ok (snd q, qs')) (load_times (pre_total cf j) ns, {| bt_data := data; bt_right := 0 |})) as (t & Et' & It).
    + exists data. auto.
    + intros i t Hi (data' & -> & F'). cbn [fst snd]. rewrite pre_total_S in Hm.
      destruct (get_lt noise i) as (it & _ & Nit); [lia|].
      assert (Ek : it_key it = lo + Z.of_nat j).
      { pose proof (noise_keys_nth cf width j (i - pre_total cf j) ltac:(lia) ltac:(lia)) as N.
        replace (pre_total cf j + (i - pre_total cf j))%nat with i in N by lia.
        apply (map_nth_error (Z.add lo)) in N. rewrite <- Hk, nth_error_map, Nit in N. cbn in N. congruence. }
      rewrite <- Ek. rewrite (Hq i it Nit). cbn [bind fst snd].
      destruct F' as (Ld & Fd). unfold bt_set. cbn [bt_data bt_right]. rewrite set_Ok by lia. cbn [bind].
      eexists. split; [reflexivity|]. eexists. split; [reflexivity|]. split; [rewrite length_upd; exact Ld|].
      apply nth_error_ext. intros n. rewrite nth_error_map.
      destruct (Nat.lt_ge_cases n (S i)) as [Hn|Hn].
      * rewrite !nth_error_firstn, (proj2 (Nat.ltb_lt _ _) Hn). destruct (Nat.eq_dec n i) as [->|Hne].
        -- rewrite nth_error_upd_eq by lia. rewrite Nit. reflexivity.
        -- rewrite nth_error_upd_ne by lia. pose proof (f_equal (fun l => nth_error l n) Fd) as Fn. cbn beta in Fn.
           rewrite nth_error_map, !nth_error_firstn in Fn. rewrite (proj2 (Nat.ltb_lt n i)) in Fn by lia. exact Fn.
      * rewrite !(proj2 (nth_error_None _ _)); [reflexivity| |]; rewrite firstn_length; lia.
    + bindE Et'. destruct It as (data' & -> & F'). cbn [fst snd].
      replace (pre_total cf j + smp cf j)%nat with (pre_total cf (S j)) in * by (rewrite pre_total_S; reflexivity).
      eexists. split; [reflexivity|]. exists data'. split; [|exact F'].
      rewrite Z.max_r by (rewrite pre_total_S; lia). reflexivity.
  - bindE E. destruct I as (data & -> & Ld & Fd). cbn [Nat.add] in Fd. cbn [snd bt_data].
    eexists. split; [reflexivity|]. cbn [bt_data]. split; [exact Ld|]. rewrite Lnoise, Fd, firstn_all2 by lia. reflexivity.
Qed.
