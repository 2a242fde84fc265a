(** The bytes on the links of a deployment with several servers per entity and no
    offline stage. *)
From Verif Require Import Base BaseProofs Incremental IncrementalProofs Wire WireProofs Additive AdditiveProofs Onion OnionProofs
  Shuffle Sizes State Database CipherBatch CipherBatchProofs Range Handlers Batch Party Chain Spec SharingProofs ShuffleProofs
  StateProofs ChainSpec OnlineProofs OfflineProofs OfflineParty ChainProofs ParShuffle ParShuffleProofs ParShuffleFacts Parallel ParChain
  ParSpec ParChainSpec ParMergeProofs ParForwardProofs ParBackwardProofs ParOnlineProofs ParPartyProofs PermFacts ParFacts
  ParSecretsProofs ParTagProofs ParStage ParParty ParChainProofs Stream StreamProofs Net Lts Procs ProcProofs ProcChain ProcNet ParProcs ParCrash ProcExchange
  ParRules ParLocal ParServer ParEntity ReadProofs ParRead ParSized ParRuns ParGraph ParNet TalkSpec TrafficSpec ParTrafficSpec ProcNetCrash ParCrashProofs ParCrashNet ParTraffic PlainSpec Plain.


Local Notation advance := OnlineProofs.advance.

(** ** What the links carry *)
Section Links.
Variables (N : nat) (db : list response) (offline online : bool) (P : nat) (acc : nat -> nat -> list nat) (lk : nat -> dlink) (pl : nat -> plan).
Hypothesis Hacc : forall e t, (t < N)%nat -> Permutation (acc e t) (seq 0 t).
Notation tot := (total mchan_eqb (bdata N)).

Lemma tot_app c x y : tot c (x ++ y) = tot c x ++ tot c y.
Proof. apply flat_map_app. Qed.
Lemma tot_none c l : amount N c l = 0%nat -> tot c l = [].
Proof. unfold amount. apply length_zero_iff_nil. Qed.
Lemma tot_flat {A} c (f : A -> list gev) l : tot c (flat_map f l) = flat_map (fun a => tot c (f a)) l.
Proof. induction l as [|a l IH]; [reflexivity|]. cbn [flat_map]. rewrite tot_app, IH. reflexivity. Qed.
Lemma tot_bytes c d l : tot c (map (Byte d) l) = if mchan_eqb c d then l else [].
Proof.
  induction l as [|v l IH]; [destruct (mchan_eqb c d); reflexivity|]. cbn [map]. change (Byte d v :: map (Byte d) l) with ([Byte d v : gev] ++ map (Byte d) l).
  rewrite tot_app, IH. unfold total. cbn [flat_map]. destruct (mchan_eqb c d); reflexivity.
Qed.
Lemma tot_on i d bs : (i < N)%nat -> tot (Link i d) (on N d bs) = bs i.
Proof.
  intros Hi. unfold on. rewrite tot_flat. replace N with (S (pred N)) at 1 by lia.
  match goal with |- flat_map ?f _ = _ => assert (Hf : forall j, j <> i -> f j = []) end.
  { intros j Hj. rewrite tot_bytes. cbn [mchan_eqb]. rewrite (proj2 (Nat.eqb_neq i j)) by congruence. reflexivity. }
  rewrite (proj1 (flat_at _ (pred N) i ltac:(lia) Hf)).
  rewrite tot_bytes. cbn [mchan_eqb]. rewrite Nat.eqb_refl. replace (chan_eqb d d) with true by (symmetry; apply NetChain.chan_eqb_spec; reflexivity). reflexivity.
Qed.
Lemma tot_ents i ch f g e : tot (Link i ch) (ents P f g e) = [].
Proof. apply tot_none. apply amount_blks_link. Qed.
Lemma tot_up i j bs f : (i < N)%nat -> (j <= P)%nat -> tot (Link i (Fwd j)) (g_up N P bs f) = bs j i.
Proof.
  intros Hi Hj. unfold g_up, fwd. rewrite tot_flat.
  match goal with |- flat_map ?f _ = _ => assert (Hf : forall j', j' <> j -> f j' = []) end.
  { intros j' Hj'. rewrite tot_app, tot_ents, app_nil_r. apply tot_none. rewrite amount_on. cbn [chan_eqb]. rewrite (proj2 (Nat.eqb_neq j j')) by congruence. reflexivity. }
  rewrite (proj1 (flat_at _ P j Hj Hf)).
  rewrite tot_app, tot_ents, app_nil_r. apply tot_on. exact Hi.
Qed.
Lemma tot_down i j bs f : (i < N)%nat -> (j <= P)%nat -> tot (Link i (Bwd j)) (g_down N P bs f) = bs j i.
Proof.
  intros Hi Hj. unfold g_down, bwd. rewrite tot_flat.
  match goal with |- flat_map ?f _ = _ => assert (Hf : forall j', j' <> j -> f j' = []) end.
  { intros j' Hj'. rewrite tot_app, tot_ents. apply tot_none. rewrite amount_on. cbn [chan_eqb]. rewrite (proj2 (Nat.eqb_neq j j')) by congruence. reflexivity. }
  rewrite (proj2 (flat_at _ P j Hj Hf)).
  rewrite tot_app, tot_ents. apply tot_on. exact Hi.
Qed.

Notation g_all := (g_all N db offline online P acc lk pl).
Lemma tot_forward i j : (i < N)%nat -> (j <= P)%nat -> tot (Link i (Fwd j)) g_all =
  le 4 (Z.of_nat (l_count (lk j) i)) ++ (if offline then concat (l_ciphers (lk j) i) else []) ++ (if online then concat (l_queries (lk j) i) else []).
Proof using All.
  intros Hi Hj. unfold ParGraph.g_all. rewrite !tot_app.
  rewrite (tot_none _ (g_connect N P)) by (rewrite (connect_link N db true true P acc lk pl Hacc); reflexivity).
  rewrite (tot_none _ (g_setup N P acc)) by (rewrite (gsetup_link N db true true P acc lk pl Hacc); reflexivity). cbn [app].
  unfold g_stage, g_online. destruct offline, online; rewrite ?tot_app, ?(tot_up i j) by assumption;
    rewrite ?(tot_none _ (g_down N P _ _)) by (rewrite (down_link N db true true P acc lk pl Hacc); reflexivity);
    rewrite ?(tot_none _ (g_stay P _ _)) by (apply (stay_link N db true true P acc lk pl Hacc)); rewrite ?app_nil_r; reflexivity.
Qed.
Lemma tot_backward i j : (i < N)%nat -> (j <= P)%nat -> tot (Link i (Bwd j)) g_all =
  (if offline then [1] else []) ++ [1] ++ (if online then concat (l_responses db (lk j) i) else []).
Proof using All.
  intros Hi Hj. unfold ParGraph.g_all. rewrite !tot_app.
  rewrite (tot_none _ (g_connect N P)) by (rewrite (connect_link N db true true P acc lk pl Hacc); reflexivity).
  rewrite (tot_none _ (g_setup N P acc)) by (rewrite (gsetup_link N db true true P acc lk pl Hacc); reflexivity). cbn [app].
  unfold g_stage, g_online. destruct offline, online; rewrite ?tot_app, ?(tot_down i j) by assumption;
    rewrite ?(tot_none _ (g_up N P _ _)) by (rewrite (up_link N db true true P acc lk pl Hacc); reflexivity);
    rewrite ?(tot_none _ (g_stay P _ _)) by (apply (stay_link N db true true P acc lk pl Hacc)); rewrite ?app_nil_r; reflexivity.
Qed.
End Links.

(** ** The items on the links *)
Section Simulated.
Variables (b : sealbox) (rng : rng_t) (iter : iteration) (db : list response) (junk : list Z) (online : bool) (N : nat) (bpk bsk : list Z).
Variables (keys : list (list Z * list Z)).
Notation rows := (length db).
Hypothesis Hdb : Forall wf_response db.
Hypothesis J : bytes 52 junk.
Hypothesis H255 : (length keys <= 255)%nat.
Hypothesis Ht : tiled N rows.

Lemma simulated_runs_plain : forall parties k its,
  (S k + length parties = length keys)%nat ->
  (forall j confs, nth_error parties j = Some confs -> length confs = N /\
    (exists shared, (forall i, 0 <= rng shared i <= 2 ^ 31 - 1) /\
      forall s sf, nth_error confs s = Some sf -> good_server rng (length keys) (k + j) rows N shared s sf)) ->
  Z.of_nat (length (concat its) + length (flat_map (party_noise_keys N rows) parties)) < 2 ^ 32 ->
  length its = N -> Forall (Forall (ok_item rows (length keys - k))) its -> Forall (Forall (is_sim (length keys - k))) its -> Forall (Forall small_tally) its -> Forall (Forall plain) its ->
  exists links plans, runs_from b rng iter db junk false online N bpk bsk k parties ({| dl_its := its; dl_css := [] |} :: links) plans /\
    levels_ok N rows parties (map it_key (concat its)) (its :: map dl_its links) /\
    passes rng N rows parties (its :: map dl_its links) /\ Forall (Forall (Forall plain)) (its :: map dl_its links) /\
    planned rng N rows (length keys) db false k parties ({| dl_its := its; dl_css := [] |} :: links) plans.
Proof using All.
  induction parties as [|confs parties IH]; intros k its Hk Gp Htot L Oi Sim Si Pi; pose proof Ht as ((T1 & T2) & _).
  - cbn [length] in *. cbn [flat_map] in Htot. replace (length keys - k)%nat with 1%nat in Oi, Sim by lia.
    assert (Hl : Z.of_nat (length (concat its)) < 2 ^ 32) by (cbn [length] in *; lia).
    exists [], [{| pl_count := fun _ => 0; pl_noise := fun _ _ => 0; pl_cipher := fun _ => []; pl_entries := fun _ => 0;
      pl_secret := fun _ => []; pl_query := fun _ => []; pl_response := fun _ => [] |}].
    split; [|split; [apply levels_ok_end|split; [constructor|split; [constructor; [exact Pi|constructor]|]]]].
    2: { constructor; [eapply link_amount; [exact Hdb|exact L|exact Oi|discriminate]|discriminate]. }
    constructor; [eapply ok_answered; [exact Hdb|exact Oi]|]. intros i mem acc Hi Hmem Ha. cbn [dl_its].
    apply obs_pbserver with (P := backend_knows i its); auto; try lia.
    + intros tx rx Etx Erx. apply (obs_backend_simulate N k i its Hi L Hl _ [] Sim).
    + intros s Hs _. apply (fo_backend_queries db junk N k i mem its Hdb J Hmem Hi L Oi Hl [] s Hs Si).
  - cbn [length flat_map] in *. rewrite app_length in Htot.
    destruct (Gp 0%nat confs eq_refl) as (Lc & GS). rewrite Nat.add_0_r in GS.
    assert (G : good_siblings rng (length keys) k rows N confs (map (fun l => length l) its)).
    { split; auto; [lia|rewrite map_length; exact L]. }
    assert (Htb : Z.of_nat (length (concat its) + length (party_noise_keys N rows confs)) < 2 ^ 32) by lia.
    pose proof (total_batch rng keys k rows N confs its G Htb) as Hsum.
    replace (length keys - k)%nat with (S (length keys - k - 1)) in Oi, Sim by lia.
    destruct (par_counts_spec rng (length keys) k rows N confs _ G Hsum) as (cts & Ects & Lcts & Hcts).
    destruct (par_shufflers_spec rng _ k rows N confs _ G Hsum cts Ects) as (tb & HT & Et & En & Eshs).
    set (noise := sim_server_noise keys k rows N confs) in *.
    assert (Hkn : forall s sf, nth_error confs s = Some sf -> map it_key (noise s) = server_noise_keys N rows s (sf_conf sf)).
    { intros s sf Nf. unfold noise, sim_server_noise. rewrite Nf, map_map. apply map_id. }
    destruct (next_facts rng keys k rows N confs its G Htb tb noise HT Et En Hkn) as (HL & Kn & P & Ln & Hsh & Enc).
    set (next := nexts N tb noise its) in *.
    assert (On : Forall (Forall (ok_item rows (length keys - k - 1))) next).
    { apply (Forall_next N rows (length keys - k - 1) tb noise its HT L HL _ Oi).
      - intros s Hs. destruct (get_lt confs s ltac:(lia)) as (sf & _ & Nf). unfold noise, sim_server_noise. rewrite Nf.
        pose proof Ht as (_ & _ & Hr & _). apply Forall_map. eapply Forall_impl; [|apply server_keys_bound; eauto].
        intros key Hkey. apply sim_item_ok; assumption.
      - intros it Hit. apply ok_advance. apply (Forall_in _ _ _ Oi Hit). }
    assert (Simn : Forall (Forall (is_sim (length keys - k - 1))) next).
    { apply (Forall_next N rows (length keys - k - 1) tb noise its HT L HL _ Oi).
      - intros s Hs. unfold noise, sim_server_noise. destruct (nth_error confs s); [|constructor].
        apply Forall_map. apply Forall_forall. intros; apply is_sim_item.
      - intros it Hit. apply is_sim_advance. apply (Forall_in _ _ _ Sim Hit). }
    assert (Sn : Forall (Forall small_tally) next).
    { apply (Forall_next N rows (length keys - k - 1) tb noise its HT L HL _ Oi).
      - intros s Hs. unfold noise, sim_server_noise. destruct (nth_error confs s); [|constructor].
        apply Forall_map. apply Forall_forall. intros; apply small_mk_item.
      - intros it Hin. apply small_advance. apply (Forall_in _ _ _ Si Hin). }
    assert (Pln : Forall (Forall plain) next).
    { pose proof Ht as (_ & _ & Hr & _). apply (Forall_next N rows (length keys - k - 1) tb noise its HT L HL _ Oi).
      - intros s Hs. destruct (get_lt confs s ltac:(lia)) as (sf & _ & Nf). unfold noise, sim_server_noise. rewrite Nf.
        apply Forall_map. eapply Forall_impl; [|apply server_keys_bound; eauto]. intros key Hkey. apply (plain_sim_item rows); assumption.
      - intros it Hit. apply (plain_advance rows (length keys - k - 1)%nat); [exact Hr|apply (Forall_in _ _ _ Oi Hit)|apply (Forall_in _ _ _ Pi Hit)]. }
    assert (Lnx : length next = N) by apply nexts_length.
    destruct (IH (S k) next) as (links & plans & R & LO & PL & PI & PN).
    + lia.
    + intros j cf' Nf. rewrite Nat.add_succ_l, <- Nat.add_succ_r. apply (Gp (S j) cf' Nf).
    + rewrite Ln. lia.
    + exact Lnx.
    + replace (length keys - S k)%nat with (length keys - k - 1)%nat by lia. exact On.
    + replace (length keys - S k)%nat with (length keys - k - 1)%nat by lia. exact Simn.
    + exact Sn.
    + exact Pln.
    + set (pl := {| pl_count := fun s => Z.of_nat (nth s (batch_counts N rows confs (map (fun l : list item => length l) its)) 0%nat);
        pl_noise := fun s t => Z.of_nat (nfrom (tb_M tb) (tb_counts tb) (tb_noise tb) t s);
        pl_cipher := fun _ => []; pl_entries := fun _ => 0; pl_secret := fun _ => [];
        pl_query := query_sends N tb noise its; pl_response := response_sends db N tb noise its |}).
      exists ({| dl_its := next; dl_css := [] |} :: links), (pl :: plans).
      assert (Eshs' : forall cts', par_counts true confs (map Z.of_nat (map (fun l : list item => length l) its)) = Ok cts' ->
        par_shufflers true rng confs cts' = Ok (map (shuf (tb_M tb) (tb_counts tb) N (tb_noise tb) (tb_ls tb)) (seq 0 N))).
      { intros cts' E'. rewrite Ects in E'. injection E' as <-. exact Eshs. }
      split; [|split; cbn [map dl_its];
        [apply (levels_ok_cons N rows confs parties its next (map dl_its links) noise Kn P Hsh LO)
        |split; [apply passes_party; [apply (drawn_so rng keys k rows N confs its tb noise G Hsum HT Et En Hkn HL Eshs')|exact PL]|split; [constructor; [exact Pi|exact PI]|]]]].
      2: { assert (Enn : forall s, (s < N)%nat -> tb_noise tb s = length (noise s)).
        { intros s Hs. rewrite (En s Hs). destruct (get_lt confs s ltac:(lia)) as (sf & _ & Nf). rewrite (nz_conf rng _ k rows N confs _ G Hsum s sf Nf).
          rewrite <- (map_length it_key (noise s)), (Hkn s sf Nf). symmetry. apply server_keys_length. }
        apply planned_party with (tb := tb) (noise := noise); [exact (drawn_so rng keys k rows N confs its tb noise G Hsum HT Et En Hkn HL Eshs')|reflexivity|eapply link_amount; [exact Hdb|exact L|exact Oi|discriminate]|discriminate| |exact PN].
        intros s t Hs Ht0. cbn [pl pl_query pl_response pl_cipher].
        split; [apply (queries_amount db N (length keys - k - 1) tb noise its Hdb HT L HL Enn On); exact Hs|].
        split; [apply (responses_amount db N (length keys - k - 1) tb noise its Hdb HT L HL Enn On); assumption|]. discriminate. }
      constructor; [eapply ok_answered; [exact Hdb|exact Oi]|exact Lc| |exact R]. intros i sf mem acc Nf Hmem Ha.
      assert (Hi : (i < N)%nat) by (rewrite <- Lc; apply nth_error_Some; congruence).
      apply obs_pserver with (P := fun rp => exists rps, nth_error rps i = Some rp /\ par_holds N tb rps noise its); auto; try lia.
      * apply (counts_local rng keys k rows N confs its G Hsum i sf Nf (fun t => Sib (S k) i t) (fun t => Sib (S k) t i) (fun _ _ => eq_refl) (fun _ _ => eq_refl)).
      * intros tx rx Etx Erx. unfold party_stage, l_count. cbn [dl_its dl_css].
        rewrite <- (next_share N rows confs its next i Hi Lnx Enc).
        apply (obs_simulate rng keys k rows N confs its G Hsum i sf Nf tx rx Etx Erx pl eq_refl tb HT Et En Eshs' eq_refl H255).
        apply Forall_forall. exact Sim.
      * intros tx rx rp Etx Erx (rps & Nrp & Hh) _. unfold l_queries, l_responses. cbn [dl_its].
        apply (obs_online db N (length keys - k - 1) tb rps noise its Hdb Hh Oi On k i rp Nrp tx rx Etx Erx pl mem Hmem eq_refl eq_refl ltac:(lia) Si Sn).
Qed.
End Simulated.

Lemma par_simulated_set_up_plain b rng iter db junk online N clients parties keys bpk bsk mem :
  par_deployment rng db N clients parties keys -> bytes 52 junk -> (forall p, smem_ok (mem p)) ->
  exists links plans, par_set_up b rng iter db junk false online N clients parties bpk bsk mem links plans /\
    planned rng N (length db) (length keys) db false 0 parties links plans /\
    map (fun l : list item => length l) (dl_its (nth 0 links d_none)) = map (fun c => length (ct_keys c)) clients /\
    levels_ok N (length db) parties (client_keys clients) (map dl_its links) /\ Forall (Forall (Forall plain)) (map dl_its links) /\
    dl_its (nth 0 links d_none) = map (fun c => map (sim_item (length keys)) (ct_keys c)) clients.
Proof.
  intros D J Hmem. pose proof (pd_tiled _ _ _ _ _ _ D) as T. pose proof T as (_ & _ & Hr & _).
  pose proof (pd_max _ _ _ _ _ _ D) as H255. pose proof (pd_count _ _ _ _ _ _ D) as Hc. pose proof (pd_clients _ _ _ _ _ _ D) as Lc.
  set (its := map (fun c => map (sim_item (length keys)) (ct_keys c)) clients).
  assert (Hk : map it_key (concat its) = client_keys clients).
  { unfold its, client_keys. rewrite <- flat_map_concat_map, map_flat_map. apply flat_map_ext_in. intros c _. rewrite map_map. apply map_id. }
  assert (Oi : Forall (Forall (ok_item (length db) (length keys))) its).
  { apply Forall_map. apply Forall_forall. intros c Hin. apply Forall_map.
    eapply Forall_impl; [|apply (Forall_flat _ _ _ _ (pd_queries _ _ _ _ _ _ D) Hin)]. intros key Hkey. apply sim_item_ok; assumption. }
  destruct (simulated_runs_plain b rng iter db junk online N bpk bsk keys (pd_db _ _ _ _ _ _ D) J H255 T parties 0 its) as (links & plans & R & LO & PL & PI & PN).
  - cbn. exact Hc.
  - intros j confs Nc. apply (pd_parties _ _ _ _ _ _ D j confs Nc).
  - rewrite <- (map_length it_key (concat its)), Hk. apply (pd_total _ _ _ _ _ _ D).
  - unfold its. rewrite map_length. exact Lc.
  - rewrite Nat.sub_0_r. exact Oi.
  - rewrite Nat.sub_0_r. apply Forall_map. apply Forall_forall. intros c _. apply Forall_map. apply Forall_forall. intros; apply is_sim_item.
  - apply Forall_map. apply Forall_forall. intros c _. apply Forall_map. apply Forall_forall. intros; apply small_mk_item.
  - apply Forall_map. apply Forall_forall. intros c Hin. apply Forall_map.
    eapply Forall_impl; [|apply (Forall_flat _ _ _ _ (pd_queries _ _ _ _ _ _ D) Hin)]. intros key Hkey. apply (plain_sim_item (length db)); assumption.
  - assert (Hmapk : map (map it_key) its = map ct_keys clients) by (unfold its; rewrite map_map; apply map_ext; intros c; rewrite map_map; apply map_id).
    eexists _, plans. split; [|split; [exact PN|split; [cbn [nth dl_its]; rewrite <- (map_map ct_keys (fun l => length l)), <- Hmapk, map_map; apply map_ext; intros l; symmetry; apply map_length|]]].
    2: { cbn [map dl_its nth]. split; [rewrite <- Hk; exact LO|]. split; [exact PI|reflexivity]. }
    split; [exact R|]. split.
    + intros i c d0 Nc. cbn [nth].
      assert (Ei : nth i its [] = map (sim_item (length keys)) (ct_keys c)) by (unfold its; erewrite nth_error_nth; [|rewrite nth_error_map, Nc; reflexivity]; reflexivity).
      pose proof (Forall_flat _ _ _ _ (pd_queries _ _ _ _ _ _ D) (nth_error_In _ _ Nc)) as Fq.
      destruct (client_simulate_spec (length db) (length keys) (ct_keys c) Hr Fq) as (st & Es & Cr).
      rewrite Hc. apply (obs_client b db N i (mem i) (length keys) its [] c st (pd_db _ _ _ _ _ _ D) (Hmem i)).
      * lia.
      * rewrite Ei. apply Forall_map. eapply Forall_impl; [|exact Fq]. intros key Hkey. apply sim_item_ok; assumption.
      * rewrite Ei, map_map. apply map_id.
      * rewrite Ei. exact Cr.
      * pose proof (pd_total _ _ _ _ _ _ D) as Ht. assert (length (ct_keys c) <= length (client_keys clients))%nat; [|lia].
        apply nth_error_split in Nc. destruct Nc as (l1 & l2 & -> & _). unfold client_keys. rewrite flat_map_app. cbn [flat_map]. rewrite !app_length. lia.
      * exact Es.
    + destruct (levels_last N (length db) parties _ {| dl_its := its; dl_css := [] |} links (eq_trans (map_length _ _) Lc) LO) as (X1 & X2).
      split; [exact X1|]. split; [rewrite <- Hk; exact X2|].
      assert (Lits : length its = N) by (unfold its; rewrite map_length; exact Lc).
      split; [exact (links_read rng N (length db) parties {| dl_its := its; dl_css := [] |} links clients PL Lits Hmapk)|].
      rewrite Hk in LO. exact (links_busy _ _ _ _ _ _ _ _ _ _ _ _ {| dl_its := its; dl_css := [] |} links _ clients Lits Lc R Hmapk LO).
Qed.

Lemma par_simulated_links b rng iter mem acc db junk N clients parties keys bpk bsk :
  (forall p, smem_ok (mem p)) -> (forall p, Permutation (acc p) (seq 0 (p mod N))) ->
  par_deployment rng db N clients parties keys -> bytes 52 junk ->
  exists (sent : mchan -> list Z) (links : list (list (list Z))), length links = S (length parties) /\ nth_error links 0 = Some (map ct_keys clients) /\
    (forall j kss, nth_error links j = Some kss -> length kss = N /\
      Permutation (concat kss) (client_keys clients ++ flat_map (party_noise_keys N (length db)) (firstn j parties)) /\
      forall i ks, nth_error kss i = Some ks -> sent (Link i (Fwd j)) = plain_forward ks /\ sent (Link i (Bwd j)) = plain_backward db ks) /\
    (forall cap h s, (forall c, (1 <= cap c)%nat) -> (forall k s t, (BUFFER_SIZE <= cap (Sib k s t))%nat) ->
      carries (net_step mchan_eqb cap) (net_start (par_entity b true rng iter false true N mem acc db junk clients parties bpk bsk)) h s ->
      (forall c, begins (h c) (sent c)) /\ (stuck (net_step mchan_eqb cap) s -> forall c, h c = sent c)) /\
    forall cap h s,
      crash_carries pn_net (par_crash_step N cap) (par_crash_start (par_entity b true rng iter false true N mem acc db junk clients parties bpk bsk)) h s ->
      forall c, begins (h c) (sent c).
Proof.
  intros Hm Ha D J. destruct (par_simulated_set_up_plain b rng iter db junk true N clients parties keys bpk bsk mem D J Hm)
    as (dls & plans & SU & PN & _ & LO & PI & E0).
  pose proof SU as (R & Hcl & _). pose proof (pd_tiled _ _ _ _ _ _ D) as ((T1 & _) & _).
  exists (fun c => total mchan_eqb (bdata N) c (par_graph db false true N acc parties dls plans)), (map (fun d => map (map it_key) (dl_its d)) dls).
  destruct LO as [LL LP LS _]. rewrite map_length in LL |- *.
  split; [exact LL|]. split.
  { destruct dls as [|d dls]; [discriminate|]. cbn [map nth_error nth] in *. f_equal. rewrite E0, map_map. apply map_ext. intros c. rewrite map_map. apply map_id. }
  split; [|split].
  - intros j kss Nk. rewrite nth_error_map in Nk. destruct (nth_error dls j) as [d|] eqn:Nd; [|discriminate]. injection Nk as <-.
    assert (Hj : (j <= length parties)%nat) by (enough (j < length dls)%nat by lia; apply nth_error_Some; congruence).
    assert (Nl : nth_error (map dl_its dls) j = Some (dl_its d)) by (rewrite nth_error_map, Nd; reflexivity).
    assert (Ln : length (dl_its d) = N).
    { destruct j as [|j].
      - rewrite <- (pd_clients _ _ _ _ _ _ D). erewrite nth_error_nth in E0 by exact Nd. rewrite E0. apply map_length.
      - apply LS in Nl. apply (f_equal (@length Z)) in Nl. unfold lens in Nl. rewrite !map_length, seq_length in Nl. exact Nl. }
    split; [rewrite map_length; exact Ln|]. split; [rewrite <- concat_map; apply LP; exact Nl|].
    intros i ks Ni. rewrite nth_error_map in Ni. destruct (nth_error (dl_its d) i) as [l|] eqn:Nli; [|discriminate]. injection Ni as <-.
    assert (Hi : (i < N)%nat) by (rewrite <- Ln; apply nth_error_Some; congruence).
    assert (Pl : Forall plain l).
    { rewrite Forall_forall in PI. specialize (PI _ (nth_error_In _ _ Nl)). rewrite Forall_forall in PI. apply PI. eapply nth_error_In. exact Nli. }
    assert (Hacc : forall e t, (t < N)%nat -> Permutation (acc (e * N + t)%nat) (seq 0 t)).
    { intros e t Ht. specialize (Ha (e * N + t)%nat). rewrite Nat.add_comm, Nat.mod_add, Nat.mod_small in Ha by lia. rewrite (Nat.add_comm (e * N)). exact Ha. }
    unfold par_graph. rewrite (tot_forward N db false true _ _ _ _ Hacc i j Hi Hj), (tot_backward N db false true _ _ _ _ Hacc i j Hi Hj).
    unfold l_count, l_queries, l_responses. erewrite (nth_error_nth dls) by exact Nd. erewrite (nth_error_nth (dl_its d)) by exact Nli.
    unfold plain_forward, plain_backward. rewrite map_length. cbn [app]. split.
    + f_equal. rewrite (plain_queries l Pl). rewrite map_map, <- flat_map_concat_map. apply flat_map_ext. intros k. reflexivity.
    + rewrite (plain_responses db l (pd_db _ _ _ _ _ _ D) Pl), <- flat_map_concat_map. reflexivity.
  - intros cap h s Hc1 Hc Hh.
    exact (par_sends b rng iter db junk false true N bpk bsk mem acc clients parties dls plans cap ltac:(lia) Hm Ha (pd_clients _ _ _ _ _ _ D) R Hcl Hc1 Hc h s Hh).
  - intros cap h s Hh.
    exact (run_carries b rng iter db junk false true N bpk bsk mem acc clients parties dls plans ltac:(lia) Hm Ha (pd_clients _ _ _ _ _ _ D) SU cap h s Hh).
Qed.
