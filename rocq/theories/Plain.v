(** Runs with a simulated offline stage: the links carry keys and rows in the clear. *)
From Verif Require Import Base BaseProofs Incremental IncrementalProofs Wire WireProofs Additive AdditiveProofs Onion OnionProofs
  Shuffle Sizes State Database CipherBatch CipherBatchProofs Range Handlers Batch Party Chain Spec SharingProofs ShuffleProofs
  StateProofs ChainSpec OnlineProofs OfflineProofs OfflineParty ChainProofs ParShuffle ParShuffleProofs ParShuffleFacts Parallel ParChain
  ParSpec ParChainSpec ParMergeProofs ParForwardProofs ParBackwardProofs ParOnlineProofs ParPartyProofs PermFacts ParFacts
  ParSecretsProofs ParTagProofs ParStage ParParty UpstreamSpec TagProofs ParChainProofs PlainSpec.

Local Notation advance := OnlineProofs.advance.

(** ** Items without secrets *)
Definition plain (it : item) : Prop := (exists m, is_sim m it) /\ it_tally it = it_key it.

Lemma reconstruct_id t : 0 <= t < PRIME -> incremental_reconstruct t id_share = t.
Proof.
  intros H. pose proof PRIME_val as HP. unfold incremental_reconstruct, id_share. cbn [sx sy]. rewrite Z.mul_1_r, Z.add_0_r.
  rewrite !(w64_id t) by (unfold u64; lia). rewrite Z.mod_small by exact H. apply w32_id. unfold u32. lia.
Qed.

Lemma tally_step_id t : 0 <= t < PRIME -> tally_step t id_share = Ok t.
Proof.
  intros H. pose proof PRIME_val as HP. unfold tally_step. cbn [id_share sx sy].
  replace (mod_inverse 1 PRIME) with (Ok 1) by (vm_compute; reflexivity). cbn [bind].
  replace (t <? 0) with false by (symmetry; apply Z.ltb_ge; lia). rewrite Z.add_0_r, Z.sub_0_r, Z.mul_1_r.
  rewrite !(w64_id t) by (unfold u64; lia). rewrite Z.mod_small by exact H. reflexivity.
Qed.

Lemma tally_of_id key m : 0 <= key < PRIME -> tally_of key (repeat id_share m) = key.
Proof.
  intros H. pose proof PRIME_val as HP. unfold tally_of, generate_incremental_tally.
  assert (E : tally_loop (repeat id_share m) (length (repeat id_share m)) key = Ok key).
  { induction m as [|m IH]; [reflexivity|]. cbn [repeat length]. rewrite tally_loop_cons, IH. cbn [bind]. apply tally_step_id. exact H. }
  rewrite E. cbn [bind]. apply w32_id. unfold u32. lia.
Qed.

Lemma plain_sim_item rows m key : Z.of_nat rows <= 2 ^ 31 - 1 -> 0 <= key < Z.of_nat rows -> plain (sim_item m key).
Proof.
  intros Hr Hk. split; [exists m; apply is_sim_item|]. cbn [sim_item mk_item it_tally it_key]. apply tally_of_id. rewrite PRIME_val. lia.
Qed.

Lemma plain_advance rows m it : Z.of_nat rows <= 2 ^ 31 - 1 -> ok_item rows (S m) it -> plain it -> plain (advance it).
Proof.
  intros Hr (L & _ & _ & B) ((n & Hs) & Ht). destruct n as [|n]; [destruct Hs as [_ Hs]; rewrite Hs in L; discriminate|].
  split; [exists n; apply is_sim_advance; exact Hs|]. destruct Hs as [_ Hs]. unfold advance. cbn [it_tally it_key].
  rewrite Hs. cbn [repeat mk_secrets combine map o_share]. rewrite Ht. apply reconstruct_id. rewrite PRIME_val. lia.
Qed.

Lemma plain_queries l : Forall plain l -> map q_of l = map plain_query (map it_key l).
Proof.
  intros F. rewrite map_map. apply map_ext_in. intros it Hin. rewrite Forall_forall in F. destruct (F it Hin) as ((n & Hs & _) & Ht).
  unfold q_of, plain_query. rewrite Hs, Ht. reflexivity.
Qed.

Lemma xor_all_zero n : xor_all (repeat zero52 n) = zero52.
Proof. induction n as [|n IH]; [reflexivity|]. cbn [repeat xor_all fold_right]. unfold xor_all in IH. rewrite IH. reflexivity. Qed.

Lemma plain_responses db l : Forall wf_response db -> Forall plain l -> map (answer db) l = map (plain_response db) (map it_key l).
Proof.
  intros W F. rewrite map_map. apply map_ext_in. intros it Hin. rewrite Forall_forall in F. destruct (F it Hin) as ((n & _ & Hs) & _).
  unfold answer, plain_response. rewrite Hs, mk_pres by (rewrite !repeat_length; reflexivity). rewrite xor_all_zero.
  apply xorl_zero_r. fold (row db (it_key it)). apply (bytes_enc_response (row db (it_key it))).
  unfold row. destruct (nth_in_or_default (Z.to_nat (it_key it)) db db_zero) as [H|H].
  - rewrite Forall_forall in W. apply W. exact H.
  - rewrite H. unfold wf_response, db_zero. cbn. split; [unfold u32; lia|]. split; [reflexivity|]. repeat constructor; unfold u8; lia.
Qed.

(** ** One server per party *)
Section Single.
  Context (rng : rng_t) (keys : list (list Z * list Z)) (rows : nat).
  Context (H255 : (length keys <= 255)%nat) (Hr1 : (1 <= rows)%nat) (Hr : Z.of_nat rows <= 2 ^ 31 - 1).

  Lemma simulate_chain_plain : forall parties k items,
    (S k + length parties = length keys)%nat ->
    (forall j cf, nth_error parties j = Some cf -> good_party rng keys rows (k + j) cf) ->
    Z.of_nat (length items + list_sum (map (noise_total rows) parties)) < 2 ^ 32 ->
    Forall (ok_item rows (length keys - k)) items -> Forall (is_sim (length keys - k)) items ->
    exists counts states levels,
      simulate_chain true rng parties (Z.of_nat (length items)) = Ok (counts, states, backend_simulate) /\
      chain_ok rows backend_simulate states (items :: levels) /\
      levels_keys rows parties (map it_key items) (items :: levels) /\
      counts = map (fun l => Z.of_nat (length l)) (items :: levels) /\
      length states = length parties /\
      (Forall plain items -> Forall (Forall plain) (items :: levels)).
  Proof.
    induction parties as [|cf parties IH]; intros k items Hk Gp Ht Oi Si.
    - cbn [length] in *. replace (length keys - k)%nat with 1%nat in * by lia. cbn [simulate_chain].
      exists [Z.of_nat (length items)], [], []. split; [reflexivity|]. split; [|split; [|split; [|split; [reflexivity|]]]].
      + constructor; [exact Oi|]. eapply Forall_impl; [|exact Si]. intros it H. apply knows_knows_last. apply (sim_knows 0 it H).
      + split; [reflexivity|]. intros [|j] l N; [|destruct j; discriminate]. inversion N; subst. cbn. rewrite app_nil_r. apply Permutation_refl.
      + reflexivity.
      + intros S. constructor; [exact S|constructor].
    - cbn [length map list_sum fold_right] in *.
      pose proof (Gp 0%nat cf eq_refl) as G. rewrite Nat.add_0_r in G.
      destruct (party_simulate_spec rng keys rows k cf items G H255 ltac:(lia) Hr1 Hr ltac:(unfold list_sum in *; lia) Si) as (rp & E & Hh).
      set (noise := sim_noise rows (length keys - k - 1) cf) in *.
      assert (Ln : length noise = noise_total rows cf) by apply sim_noise_length.
      assert (O : ls_ok (length noise + length items) (rp_shuffler rp)) by apply Hh.
      set (next := next_items (rp_shuffler rp) noise items) in *.
      assert (Lnext : length next = (length noise + length items)%nat) by apply (next_length rp noise items Hh).
      pose proof (next_perm _ _ noise items O eq_refl) as Pn. fold next in Pn.
      assert (Kn : map it_key noise = noise_keys rows cf) by (unfold noise, sim_noise; rewrite map_map; apply map_id).
      destruct (IH (S k) next) as (counts & states & levels & E' & C & LK & Lf & Lst & Sm).
      + lia.
      + intros j cf' N. rewrite Nat.add_succ_l, <- Nat.add_succ_r. apply (Gp (S j) cf' N).
      + unfold list_sum in *. lia.
      + apply (Forall_ok_next rows _ _ _ noise items O eq_refl).
        * replace (length keys - S k)%nat with (length keys - k - 1)%nat by lia.
          unfold noise, sim_noise. apply Forall_map. eapply Forall_impl; [|apply noise_keys_bound].
          intros key Hkey. apply sim_item_ok; assumption.
        * replace (S (length keys - S k)) with (length keys - k)%nat by lia. exact Oi.
      + eapply Permutation_Forall; [exact Pn|]. replace (length keys - S k)%nat with (length keys - k - 1)%nat by lia.
        apply Forall_app. split.
        * unfold noise, sim_noise. apply Forall_map. apply Forall_forall. intros; apply is_sim_item.
        * apply Forall_map. eapply Forall_impl; [|exact Si]. intros it H. apply is_sim_advance.
          replace (S (length keys - k - 1)) with (length keys - k)%nat by lia. exact H.
      + exists (Z.of_nat (length items) :: counts), (rp :: states), (next :: levels).
        cbn [simulate_chain]. rewrite E. cbn [bind fst snd]. rewrite <- Lnext, E'. cbn [bind]. split; [reflexivity|].
        split; [|split; [|split; [|split]]].
        * apply chain_party; [exact Hh| |exact C].
          replace (S (S (length states))) with (length keys - k)%nat by lia. exact Oi.
        * apply (levels_keys_cons rows cf parties items next levels noise Kn Pn LK).
        * cbn [map]. f_equal. exact Lf.
        * cbn. lia.
        * intros Hp. constructor; [exact Hp|]. apply Sm. eapply Permutation_Forall; [exact Pn|]. apply Forall_app. split.
          -- unfold noise, sim_noise. apply Forall_map. eapply Forall_impl; [|apply noise_keys_bound].
             intros key Hkey. apply (plain_sim_item rows); assumption.
          -- apply Forall_map. rewrite Forall_forall in *. intros it Hin. replace (length keys - k)%nat with (S (length keys - k - 1)) in Oi by lia.
             apply (plain_advance rows (length keys - k - 1)%nat); [exact Hr|apply Oi; exact Hin|apply Hp; exact Hin].
  Qed.
End Single.

Lemma run_simulated_plain rng db junk c parties keys :
  deployment rng db c parties keys -> bytes 52 junk ->
  exists o, run_simulated true rng db junk c parties = Ok o /\
    length (oc_queries o) = S (length parties) /\ length (oc_responses o) = S (length parties) /\
    nth_error (oc_queries o) 0 = Some (map plain_query (ct_keys c)) /\
    forall j qs rs, nth_error (oc_queries o) j = Some qs -> nth_error (oc_responses o) j = Some rs ->
      plain_link db (ct_keys c ++ flat_map (noise_keys (length db)) (firstn j parties)) [qs] [rs].
Proof.
  intros D J. pose proof (dp_rows _ _ _ _ _ D) as [Hr1 Hr]. pose proof (dp_total _ _ _ _ _ D) as Ht.
  pose proof (dp_max _ _ _ _ _ D) as H255. pose proof (dp_count _ _ _ _ _ D) as Hc.
  unfold run_simulated. rewrite Hc.
  destruct (client_simulate_spec (length db) (length keys) (ct_keys c) Hr (dp_queries _ _ _ _ _ D)) as (st & E & C).
  rewrite E. cbn [bind]. set (items := map (sim_item (length keys)) (ct_keys c)) in *.
  assert (Li : length items = length (ct_keys c)) by apply map_length.
  assert (Ki : map it_key items = ct_keys c) by (unfold items; rewrite map_map; apply map_id).
  assert (Oi : Forall (ok_item (length db) (length keys)) items).
  { apply Forall_map. eapply Forall_impl; [|exact (dp_queries _ _ _ _ _ D)]. intros key Hk. apply sim_item_ok; assumption. }
  destruct (simulate_chain_plain rng keys (length db) H255 Hr1 Hr parties 0 items)
    as (counts & states & levels & E1 & Ch & LK & Lf & _ & Sm).
  - cbn. exact Hc.
  - intros j cf N. apply (dp_parties _ _ _ _ _ D j cf N).
  - rewrite Li. exact Ht.
  - rewrite Nat.sub_0_r. exact Oi.
  - rewrite Nat.sub_0_r. apply Forall_map. apply Forall_forall. intros; apply is_sim_item.
  - rewrite <- Li, E1. cbn [bind]. pose proof (client_queries_spec st items C) as Eq. rewrite Ki in Eq. rewrite Eq. cbn [bind fst snd].
    pose proof (online_spec db junk backend_simulate (dp_db _ _ _ _ _ D) J states (items :: levels) Ch) as E2.
    assert (El : last counts 0 = Z.of_nat (length (last (items :: levels) []))).
    { rewrite Lf. apply (last_map (fun l => Z.of_nat (length l))). discriminate. }
    rewrite El. cbn [hd] in E2. rewrite E2. cbn [bind fst snd map].
    pose proof (client_responses_spec db (length keys) st items C (dp_db _ _ _ _ _ D) Oi) as Er. rewrite Ki in Er. rewrite Er. cbn [bind].
    assert (Pi : Forall plain items).
    { apply Forall_map. eapply Forall_impl; [|exact (dp_queries _ _ _ _ _ D)]. intros key Hk. apply (plain_sim_item (length db)); assumption. }
    specialize (Sm Pi). pose proof LK as [LL LP].
    eexists. split; [reflexivity|]. cbn [oc_queries oc_responses]. cbn [map fst snd]. rewrite !map_map. cbn [fst snd].
    change (map q_of items :: map (fun x => map q_of x) levels) with (map (map q_of) (items :: levels)).
    change (map (answer db) items :: map (fun x => map (answer db) x) levels) with (map (map (answer db)) (items :: levels)).
    rewrite !map_length. rewrite <- ?Hc. split; [exact LL|]. split; [exact LL|]. split.
    + cbn [map nth_error]. f_equal. rewrite <- Ki. apply (plain_queries items Pi).
    + intros j qs rs Nq Nr. rewrite nth_error_map in Nq, Nr. destruct (nth_error (items :: levels) j) as [l|] eqn:Nl; [|discriminate].
      cbn [option_map] in Nq, Nr. injection Nq as <-. injection Nr as <-.
      assert (Pl : Forall plain l) by (rewrite Forall_forall in Sm; apply Sm; eapply nth_error_In; exact Nl).
      exists [map it_key l]. cbn [concat map]. rewrite app_nil_r. split; [rewrite <- Ki; apply LP; exact Nl|].
      rewrite (plain_queries l Pl), (plain_responses db l (dp_db _ _ _ _ _ D) Pl). split; reflexivity.
Qed.

(** ** Several servers per party *)
Section Several.
Variables (rng : rng_t) (keys : list (list Z * list Z)) (rows N : nat).
Hypothesis H255 : (length keys <= 255)%nat.
Hypothesis Ht : tiled N rows.

Lemma par_simulate_chain_plain : forall parties k its,
  (S k + length parties = length keys)%nat ->
  (forall j confs, nth_error parties j = Some confs -> length confs = N /\
    (exists shared, (forall i, 0 <= rng shared i <= 2 ^ 31 - 1) /\
      forall s sf, nth_error confs s = Some sf -> good_server rng (length keys) (k + j) rows N shared s sf)) ->
  Z.of_nat (length (concat its) + length (flat_map (party_noise_keys N rows) parties)) < 2 ^ 32 ->
  length its = N -> Forall (Forall (ok_item rows (length keys - k))) its -> Forall (Forall (is_sim (length keys - k))) its ->
  exists trs levels states bps, length trs = length parties /\ length states = length parties /\
    levels_ok N rows parties (map it_key (concat its)) (its :: levels) /\ (Forall (Forall plain) its -> Forall (Forall (Forall plain)) (its :: levels)) /\
  forall scs, Forall2 (fits_online N) trs scs ->
    par_simulate_chain true rng (combine parties scs) (lens its) = Ok (map lens (its :: levels), states, bps) /\
    par_chain_ok N rows bps (combine states scs) (its :: levels).
Proof using All.
  induction parties as [|confs parties IH]; intros k its Hk Gp Htot L Oi Si.
  - cbn [length] in *. replace (length keys - k)%nat with 1%nat in Oi, Si by lia.
    exists [], [], [], (map (fun _ => backend_simulate) (lens its)). split; [reflexivity|]. split; [reflexivity|]. split; [apply levels_ok_end|]. split; [intros Pl; constructor; [exact Pl|constructor]|].
    intros scs Fs. inversion Fs; subst scs. split; [reflexivity|]. cbn [combine]. constructor.
    + exact L.
    + unfold lens. rewrite !map_length. exact L.
    + exact Oi.
    + intros i p Np. rewrite nth_error_map in Np. destruct (nth_error (lens its) i); [|discriminate]. inversion Np; subst p.
      destruct (Nat.lt_ge_cases i (length its)) as [Hi|Hi]; [|rewrite nth_overflow by exact Hi; constructor].
      rewrite Forall_forall in Si. eapply Forall_impl; [|apply Si, nth_In; exact Hi].
      intros it H. apply knows_knows_last. apply (sim_knows 0 it H).
  - cbn [length flat_map] in *. rewrite app_length in Htot.
    destruct (Gp 0%nat confs eq_refl) as (Lc & GS). rewrite Nat.add_0_r in GS.
    assert (G : good_siblings rng (length keys) k rows N confs (map (fun l => length l) its)).
    { split; auto; [lia|rewrite map_length; exact L]. }
    assert (Htb : Z.of_nat (length (concat its) + length (party_noise_keys N rows confs)) < 2 ^ 32) by lia.
    pose proof (total_batch rng keys k rows N confs its G Htb) as Hsum.
    replace (length keys - k)%nat with (S (length keys - k - 1)) in Oi, Si by lia.
    destruct (par_simulate_spec rng keys k rows N confs its G Hsum H255 ltac:(apply Forall_forall; exact Si))
      as (tb & HT & Et & En & rps & Esim & Hh).
    set (noise := sim_server_noise keys k rows N confs) in *.
    assert (Hkn : forall s sf, nth_error confs s = Some sf -> map it_key (noise s) = server_noise_keys N rows s (sf_conf sf)).
    { intros s sf Nf. unfold noise, sim_server_noise. rewrite Nf, map_map. apply map_id. }
    destruct (next_facts rng keys k rows N confs its G Htb tb noise HT Et En Hkn) as (HL & Kn & P & Ln & Hsh & Enc).
    set (next := nexts N tb noise its) in *.
    assert (Hin : forall (Q : item -> Prop) it, Forall (Forall Q) its -> In it (concat its) -> Q it).
    { intros Q it F Hin. rewrite Forall_forall in F. apply in_concat in Hin. destruct Hin as (l & H1 & H2).
      specialize (F l H1). rewrite Forall_forall in F. apply F. exact H2. }
    assert (On : Forall (Forall (ok_item rows (length keys - S k))) next).
    { replace (length keys - S k)%nat with (length keys - k - 1)%nat by lia.
      apply (Forall_next N rows (length keys - k - 1) tb noise its HT L HL _ Oi).
      - intros s Hs. destruct (get_lt confs s ltac:(lia)) as (sf & _ & Nf). unfold noise, sim_server_noise. rewrite Nf.
        pose proof Ht as (_ & _ & Hr & _). apply Forall_map. eapply Forall_impl; [|apply server_keys_bound; eauto].
        intros key Hkey. apply sim_item_ok; assumption.
      - intros it Hit. apply ok_advance. apply (Hin _ it Oi Hit). }
    assert (Sn : Forall (Forall (is_sim (length keys - S k))) next).
    { replace (length keys - S k)%nat with (length keys - k - 1)%nat by lia.
      apply (Forall_next N rows (length keys - k - 1) tb noise its HT L HL _ Oi).
      - intros s Hs. unfold noise, sim_server_noise. destruct (nth_error confs s); [|constructor].
        apply Forall_map. apply Forall_forall. intros; apply is_sim_item.
      - intros it Hit. apply is_sim_advance. apply (Hin _ it Si Hit). }
    destruct (IH (S k) next) as (trs & levels & states & bps & Lt & Lst & LO & Pn & Hrun).
    + lia.
    + intros j cf' Nf. rewrite Nat.add_succ_l, <- Nat.add_succ_r. apply (Gp (S j) cf' Nf).
    + rewrite Ln. lia.
    + apply nexts_length.
    + exact On.
    + exact Sn.
    + exists ({| tr_forward := from (tb_M tb) (tb_counts tb); tr_secrets := fun _ _ => 0%nat; tr_back := back_traffic tb |} :: trs), (next :: levels), (rps :: states), bps.
      split; [cbn; lia|]. split; [cbn; lia|]. split; [apply (levels_ok_cons N rows confs parties its next levels noise Kn P Hsh LO)|]. split.
      { intros Pl. constructor; [exact Pl|]. apply Pn. pose proof Ht as (_ & _ & Hr & _).
        apply (Forall_next N rows (length keys - k - 1) tb noise its HT L HL _ Oi).
        - intros s Hs. destruct (get_lt confs s ltac:(lia)) as (sf & _ & Nf). unfold noise, sim_server_noise. rewrite Nf.
          apply Forall_map. eapply Forall_impl; [|apply server_keys_bound; eauto]. intros key Hkey. apply (plain_sim_item rows); assumption.
        - intros it Hit. apply (plain_advance rows (length keys - k - 1)%nat); [exact Hr|apply (Hin _ it Oi Hit)|apply (Hin _ it Pl Hit)]. }
      intros scs Fs. inversion Fs as [|tr sc trs' scs' (F1' & F2') Fs']; subst. cbn [tr_forward tr_secrets tr_back] in *.
      destruct (Hrun scs' Fs') as (E' & C).
      cbn [combine par_simulate_chain]. rewrite <- lens_inputs, Esim. cbn [bind fst snd]. rewrite Enc, E'. cbn [bind map]. rewrite lens_inputs.
      split; [reflexivity|].
      assert (Lcomb : length (combine states scs') = length parties).
      { rewrite combine_length, Lst, <- Lt, (Forall2_len _ _ _ Fs'). lia. }
      apply par_chain_party; auto.
      * rewrite Lcomb. replace (S (length parties)) with (length keys - k - 1)%nat by lia. exact Oi.
      * rewrite Lcomb. replace (S (length parties)) with (length keys - S k)%nat by lia. exact On.
Qed.
End Several.

Lemma par_run_simulated_plain rng db junk N clients parties keys :
  par_deployment rng db N clients parties keys -> bytes 52 junk ->
  exists trs, length trs = length parties /\
  forall scs, Forall2 (fits_online N) trs scs ->
  exists o, par_run_simulated true rng db junk clients (combine parties scs) = Ok o /\
    length (po_queries o) = S (length parties) /\ length (po_responses o) = S (length parties) /\
    nth_error (po_queries o) 0 = Some (map (fun c => map plain_query (ct_keys c)) clients) /\
    forall j qss rss, nth_error (po_queries o) j = Some qss -> nth_error (po_responses o) j = Some rss ->
      plain_link db (client_keys clients ++ flat_map (party_noise_keys N (length db)) (firstn j parties)) qss rss.
Proof.
  intros D J. pose proof (pd_tiled _ _ _ _ _ _ D) as T. pose proof T as (_ & _ & Hr & _).
  pose proof (pd_max _ _ _ _ _ _ D) as H255. pose proof (pd_count _ _ _ _ _ _ D) as Hc. pose proof (pd_clients _ _ _ _ _ _ D) as Lc.
  set (its := map (fun c => map (sim_item (length keys)) (ct_keys c)) clients).
  assert (Hk : map it_key (concat its) = client_keys clients).
  { unfold its, client_keys. rewrite <- flat_map_concat_map, map_flat_map. apply flat_map_ext_in. intros c _. rewrite map_map. apply map_id. }
  assert (Hl : lens its = map (fun c => Z.of_nat (length (ct_keys c))) clients).
  { unfold lens, its. rewrite map_map. apply map_ext. intros c. rewrite map_length. reflexivity. }
  assert (Oi : Forall (Forall (ok_item (length db) (length keys))) its).
  { apply Forall_map. apply Forall_forall. intros c Hin. apply Forall_map.
    eapply Forall_impl; [|apply (Forall_flat _ _ _ _ (pd_queries _ _ _ _ _ _ D) Hin)]. intros key Hkey. apply sim_item_ok; assumption. }
  destruct (par_simulate_chain_plain rng keys (length db) N H255 T parties 0 its) as (trs & levels & states & bps & Lt & Lst & LO & Sm & Hrun).
  - cbn. exact Hc.
  - intros j confs Nc. apply (pd_parties _ _ _ _ _ _ D j confs Nc).
  - rewrite <- (map_length it_key (concat its)), Hk. apply (pd_total _ _ _ _ _ _ D).
  - unfold its. rewrite map_length. exact Lc.
  - rewrite Nat.sub_0_r. exact Oi.
  - rewrite Nat.sub_0_r. apply Forall_map. apply Forall_forall. intros c _. apply Forall_map. apply Forall_forall. intros; apply is_sim_item.
  - exists trs. split; [exact Lt|]. intros scs Fs. destruct (Hrun scs Fs) as (E & C).
    pose proof (Forall2_len _ _ _ Fs) as Lsc.
    unfold par_run_simulated. rewrite combine_length, <- Lsc, Lt, Nat.min_id, Hc.
    assert (Hst : exists sts, map_res (fun c => client_simulate (length keys) (length (ct_keys c))) clients = Ok sts /\
      length sts = length clients /\ forall i st, nth_error sts i = Some st -> client_ready st (nth i its [])).
    { unfold its. pose proof (pd_queries _ _ _ _ _ _ D) as Fq. clear - Fq Hr. unfold client_keys in Fq.
      induction clients as [|c cl IH]; [exists []; split; [reflexivity|]; split; [reflexivity|]; intros [|i] st; discriminate|].
      cbn [flat_map] in Fq. apply Forall_app in Fq. destruct Fq as (F1 & F2). destruct (IH F2) as (sts & E & L & H).
      destruct (client_simulate_spec (length db) (length keys) (ct_keys c) Hr F1) as (st & Es & Cr).
      exists (st :: sts). cbn [map_res]. rewrite Es. cbn [bind]. rewrite E. split; [reflexivity|]. split; [cbn; lia|].
      intros [|i] st' N; cbn [nth_error] in N; [inversion N; subst; exact Cr|]. cbn [map nth]. apply H. exact N. }
    destruct Hst as (sts & Est & Ls & Hready). rewrite Est. cbn [bind]. rewrite <- Hl, E. cbn [bind].
    destruct (par_client_queries_spec db (length keys) clients its sts) as (cqs & Eq & Ef & Er).
    + apply (pd_db _ _ _ _ _ _ D).
    + unfold its. apply map_length.
    + exact Ls.
    + intros i c Nc. unfold its. erewrite nth_error_nth; [|rewrite nth_error_map, Nc; reflexivity]. rewrite map_map. apply map_id.
    + exact Hready.
    + exact Oi.
    + rewrite Eq. cbn [bind]. rewrite combine_snd by lia. rewrite Ef.
      rewrite (last_map lens (its :: levels) [] []) by discriminate.
      pose proof (par_online_spec db junk N bps (pd_db _ _ _ _ _ _ D) J _ _ C) as E2. cbn [hd] in E2. rewrite E2. cbn [bind fst snd map].
      rewrite Er. cbn [bind].
      assert (Pi : Forall (Forall plain) its).
      { apply Forall_map. apply Forall_forall. intros c Hin. apply Forall_map.
        eapply Forall_impl; [|apply (Forall_flat _ _ _ _ (pd_queries _ _ _ _ _ _ D) Hin)]. intros key Hkey. apply (plain_sim_item (length db)); assumption. }
      specialize (Sm Pi). destruct LO as [LL LP _ _].
      eexists. split; [reflexivity|]. cbn [po_queries po_responses map fst snd]. rewrite !map_map. cbn [fst snd].
      change (map (map q_of) its :: map (fun x => map (map q_of) x) levels) with (map (map (map q_of)) (its :: levels)).
      change (map (map (answer db)) its :: map (fun x => map (map (answer db)) x) levels) with (map (map (map (answer db))) (its :: levels)).
      rewrite !map_length. rewrite <- ?Hc. split; [exact LL|]. split; [exact LL|].
      assert (Hall : forall l, Forall (Forall plain) l -> map (map q_of) l = map (map plain_query) (map (map it_key) l) /\
        map (map (answer db)) l = map (map (plain_response db)) (map (map it_key) l)).
      { intros l Pl. rewrite !(map_map (map it_key)). split; apply map_ext_in; intros x Hx; rewrite Forall_forall in Pl; specialize (Pl x Hx).
        - apply plain_queries; exact Pl.
        - apply plain_responses; [exact (pd_db _ _ _ _ _ _ D)|exact Pl]. }
      split.
      * cbn [map nth_error]. f_equal. rewrite (proj1 (Hall its Pi)). unfold its. rewrite !map_map. apply map_ext. intros c. rewrite !map_map. reflexivity.
      * intros j qss rss Nq Nr. rewrite nth_error_map in Nq, Nr. destruct (nth_error (its :: levels) j) as [l|] eqn:Nl; [|discriminate].
        cbn [option_map] in Nq, Nr. injection Nq as <-. injection Nr as <-.
        assert (Pl : Forall (Forall plain) l) by (rewrite Forall_forall in Sm; apply Sm; eapply nth_error_In; exact Nl).
        exists (map (map it_key) l). rewrite <- concat_map. split; [rewrite <- Hk; apply LP; exact Nl|]. exact (Hall l Pl).
Qed.
