(** Along a chain, every server of every entity follows its script. *)
From Verif Require Import Base BaseProofs Incremental IncrementalProofs Wire WireProofs Additive AdditiveProofs Onion OnionProofs
  Shuffle Sizes State Database CipherBatch CipherBatchProofs Range Handlers Batch Party Chain Spec SharingProofs ShuffleProofs
  StateProofs ChainSpec OnlineProofs OfflineProofs OfflineParty ChainProofs ParShuffle ParShuffleProofs ParShuffleFacts Parallel ParChain
  ParSpec ParChainSpec ParMergeProofs ParForwardProofs ParBackwardProofs ParOnlineProofs ParPartyProofs PermFacts ParFacts
  ParSecretsProofs ParTagProofs ParStage ParParty ParChainProofs Stream StreamProofs Net Procs ProcProofs ProcChain ProcNet ParProcs ParCrash ProcExchange
  ParRules ParLocal ParServer ParEntity ReadProofs ParRead ParSized.

Local Notation advance := OnlineProofs.advance.

Section Runs.
Variables (b : sealbox) (rng : rng_t) (iter : iteration) (db : list response) (junk : list Z) (offline online : bool) (N : nat) (bpk bsk : list Z).

(** Entity S k and those behind it follow their scripts, given what the links carry. *)
(** Every query on a link has an answer that is not empty. *)
Definition answered (d : dlink) : Prop := forall l it, List.In l (dl_its d) -> List.In it l -> answer db it <> [].
Inductive runs_from : nat -> list (list sconf) -> list dlink -> list plan -> Prop :=
| runs_end k d pl : answered d ->
    (forall i mem acc, (i < N)%nat -> smem_ok mem -> Forall (fun t => (t < i)%nat) acc ->
       obs N (S k * N + i) (eq (BackendEnd (if online then map it_key (nth i (dl_its d) []) else [])))
         (pbserver b true iter offline online N (S k) i mem acc db junk bpk bsk) (backend_script db offline online N k i acc pl d)) ->
    runs_from k [] [d] [pl]
| runs_party k confs parties d d' pl links plans : answered d ->
    length confs = N ->
    (forall i sf mem acc, nth_error confs i = Some sf -> smem_ok mem -> Forall (fun t => (t < i)%nat) acc ->
       obs N (S k * N + i) (eq PartyEnd) (pserver b true rng iter offline online N (S k) i mem acc sf) (party_script db offline online N k i acc pl d d')) ->
    runs_from (S k) parties (d' :: links) plans ->
    runs_from k (confs :: parties) (d :: d' :: links) (pl :: plans).
End Runs.

Lemma ok_answered db m its css : Forall wf_response db -> Forall (Forall (ok_item (length db) m)) its -> answered db {| dl_its := its; dl_css := css |}.
Proof.
  intros Hdb F l it Hl Hit E. rewrite Forall_forall in F. specialize (F l Hl). rewrite Forall_forall in F. specialize (F it Hit).
  destruct (answer_bytes db m it Hdb F) as [L _]. rewrite E in L. discriminate.
Qed.

Lemma Forall_in {A} (Q : A -> Prop) (its : list (list A)) it : Forall (Forall Q) its -> List.In it (concat its) -> Q it.
Proof.
  intros F Hin. rewrite Forall_forall in F. apply in_concat in Hin. destruct Hin as (l & H1 & H2).
  specialize (F l H1). rewrite Forall_forall in F. apply F. exact H2.
Qed.
Lemma next_share N rows confs (its next : list (list item)) i : (i < N)%nat -> length next = N -> next_counts rows N confs its = lens next ->
  share_of (list_sum (batch_counts N rows confs (map (fun l => length l) its))) N i = length (nth i next []).
Proof.
  intros Hi Ln E. apply (f_equal (fun l => nth i l 0)) in E. unfold next_counts, lens in E.
  erewrite (nth_error_nth (map _ (seq 0 N))) in E by (rewrite nth_error_map_seq by exact Hi; reflexivity).
  rewrite (map_nth (fun x : list item => Z.of_nat (length x)) next [] i : nth i (map _ next) 0 = _) in E. lia.
Qed.

(** The tables are those the public seeds lead to. *)
Lemma drawn_so rng (keys : list (list Z * list Z)) k rows N confs its tb noise :
  good_siblings rng (length keys) k rows N confs (map (fun l => length l) its) ->
  Z.of_nat (list_sum (batch_counts N rows confs (map (fun l => length l) its))) < 2 ^ 32 ->
  tb_ok N tb -> tb_counts tb = batch_counts N rows confs (map (fun l => length l) its) ->
  (forall s, (s < N)%nat -> tb_noise tb s = nz rows N confs s) ->
  (forall s sf, nth_error confs s = Some sf -> map it_key (noise s) = server_noise_keys N rows s (sf_conf sf)) ->
  (forall s, (s < N)%nat -> (length (noise s) + length (nth s its []) = nth s (tb_counts tb) 0)%nat) ->
  (forall cts, par_counts true confs (map Z.of_nat (map (fun l => length l) its)) = Ok cts ->
     par_shufflers true rng confs cts = Ok (map (shuf (tb_M tb) (tb_counts tb) N (tb_noise tb) (tb_ls tb)) (seq 0 N))) ->
  drawn rng N rows confs its tb noise.
Proof.
  intros G Hsum HT Et En Hkn HL Eshs. pose proof (gb_length _ _ _ _ _ _ _ G) as Lc.
  split; [exact HT|]. split; [rewrite Et; exact (counts_length rng (length keys) k rows N confs _ G Hsum)|].
  split; [rewrite <- (map_length (fun l : list item => length l)); exact (gb_inputs _ _ _ _ _ _ _ G)|]. split; [exact HL|].
  intros s Hs. destruct (get_lt confs s ltac:(lia)) as (sf & _ & Nf). exists sf. split; [exact Nf|].
  assert (Ln : length (noise s) = server_noise N rows s (sf_conf sf)).
  { rewrite <- (map_length it_key), (Hkn s sf Nf). apply server_keys_length. }
  split; [exact Ln|].
  destruct (shufflers_local rng keys k rows N confs its G Hsum s sf Nf (fun t => Sib (S k) s t) (fun t => Sib (S k) t s) (fun _ _ => eq_refl) (fun _ _ => eq_refl)
    {| pl_count := fun s => Z.of_nat (nth s (batch_counts N rows confs (map (fun l : list item => length l) its)) 0%nat);
       pl_noise := fun s t => Z.of_nat (nfrom (tb_M tb) (tb_counts tb) (tb_noise tb) t s); pl_cipher := fun _ => []; pl_entries := fun _ => 0;
       pl_secret := fun _ => []; pl_query := fun _ => []; pl_response := fun _ => [] |} eq_refl tb HT Et En Eshs eq_refl) as (E1 & _ & _ & E2 & _).
  destruct (gb_servers _ _ _ _ _ _ _ G) as (shared & _ & GS). pose proof (GS s sf Nf) as g.
  cbn [ct co_at co_noise co_shuffled shuf sh_ps sh_ls] in E1, E2.
  rewrite (gs_server _ _ _ _ _ _ _ _ g), (gs_servers _ _ _ _ _ _ _ _ g), !Nat2Z.id in E1. rewrite map_map in E1.
  rewrite (map_ext _ (fun x => x) Nat2Z.id), map_id in E1. rewrite <- Et in E1.
  rewrite Nat2Z.id in E2. rewrite (nz_conf rng _ k rows N confs _ G Hsum s sf Nf), <- Ln in E1.
  split; [eexists; split; [exact E1|reflexivity]|].
  rewrite share_slice, <- Et in E2. exact E2.
Qed.

(** Amounts. *)
Lemma link_amount db L offline N k its css m : Forall wf_response db -> length its = N -> Forall (Forall (ok_item (length db) m)) its ->
  (offline = true -> Forall2 (Forall2 (fun (c : list Z) (_ : item) => length c = (124 * (L - k))%nat)) css its) ->
  link_sized N L db offline k {| dl_its := its; dl_css := css |}.
Proof.
  intros Hdb Ll Oi F. split; [exact Ll|]. split.
  - intros i Hi. unfold l_responses, l_count. cbn [dl_its]. rewrite (sized_concat 52), map_length; [reflexivity|].
    apply Forall_map. rewrite Forall_forall in Oi. eapply Forall_impl; [|apply (Oi (nth i its [])), nth_In; lia].
    intros it H. apply (answer_bytes db m it Hdb H).
  - intros Eo i Hi. unfold l_ciphers, l_count. cbn [dl_its dl_css].
    assert (Fi : Forall2 (fun (c : list Z) (_ : item) => length c = (124 * (L - k))%nat) (nth i css []) (nth i its [])).
    { apply (Forall2_nth_default _ css its (F Eo)). rewrite (Forall2_len _ _ _ (F Eo)). lia. }
    rewrite (sized_concat (124 * (L - k))), (Forall2_len _ _ _ Fi); [reflexivity|]. clear - Fi. induction Fi; constructor; assumption.
Qed.
Lemma opened_sizes b keys k css its : Forall2 (Forall2 (opens b (skipn k keys))) css its ->
  Forall2 (Forall2 (fun (c : list Z) (_ : item) => length c = (124 * (length keys - k))%nat)) css its.
Proof.
  intros F. induction F as [|cs l css its F' F IH]; constructor; [|exact IH]. clear F IH.
  induction F' as [|c it cs l H F IH]; constructor; [|exact IH]. apply peels_length in H. rewrite skipn_length in H. exact H.
Qed.
Lemma secrets_amount N pack iter (st : nat -> qstate) its s t : (forall i (l : list (Z * stored)), Permutation (iter i l) l) ->
  length (qs_map (st s)) = length (nth s its []) -> (forall e, List.In e (qs_map (st s)) -> wf_osecret (pack e)) -> (t < N)%nat -> s <> t ->
  length (concat (map enc_osecret (outgoing t (concat (secret_sents N pack iter st s))))) = (76 * length (nth s its ([] : list item)))%nat.
Proof.
  intros Hiter L W Ht Hne. rewrite secret_stream by exact Ht. rewrite (proj2 (Nat.eqb_neq s t) Hne).
  rewrite (sized_concat 76); [rewrite !map_length, (Permutation_length (Hiter s _)), L; reflexivity|].
  rewrite map_map. apply Forall_map. apply Forall_forall. intros e He. apply osecret_roundtrip. apply W. apply (Permutation_in _ (Hiter s _)). exact He.
Qed.

Lemma held rng keys k rows N confs its b c css v s : good_siblings rng (length keys) k rows N confs (map (fun l => length l) its) ->
  Forall (Forall (ok_item rows (S (length keys - k - 1)))) its -> NoDup (map it_tag (concat its)) ->
  (forall s, (s < N)%nat -> alone keys k rows N confs its b c css s (v s)) -> (s < N)%nat ->
  qs_map (v_p (v s)) = rev (map entry (map first_secret (nth s its []))).
Proof.
  intros G Oi ND Hv Hs. pose proof (gb_length _ _ _ _ _ _ _ G) as Lc.
  assert (L : length its = N) by (rewrite <- (map_length (fun l : list item => length l)); exact (gb_inputs _ _ _ _ _ _ _ G)).
  destruct (get_lt confs s ltac:(lia)) as (sf' & _ & Nf'). destruct (Hv s Hs sf' Nf') as (_ & _ & _ & _ & _ & E & _).
  destruct (install_spec true (map first_secret (nth s its [])) (qs_initialize_state qs_new false)) as (p' & E' & _ & Em).
  - rewrite (map_first_tag rows (length keys - k - 1)) by (rewrite Forall_forall in Oi; apply Oi, nth_In; lia).
    assert (Hn : nth_error its s = Some (nth s its [])) by (apply nth_error_nth'; lia).
    apply nth_error_split in Hn. destruct Hn as (l1 & l2 & El & _). pose proof ND as ND'. rewrite El in ND'. rewrite concat_app, map_app in ND'.
    cbn [concat] in ND'. apply NoDup_app_r in ND'. rewrite map_app in ND'. apply NoDup_app_l in ND'. exact ND'.
  - intros o _. reflexivity.
  - rewrite E in E'. injection E' as ->. rewrite Em. apply app_nil_r.
Qed.

Section Offline.
Variables (b : sealbox) (rng : rng_t) (iter : iteration) (db : list response) (junk : list Z) (online : bool) (N : nat) (bpk bsk : list Z).
Variables (keys : list (list Z * list Z)).
Notation rows := (length db).
Hypothesis Hdb : Forall wf_response db.
Hypothesis J : bytes 52 junk.
Hypothesis Hbox : forall pk sk, List.In (pk, sk) keys -> box_ok b pk sk.
Hypothesis H255 : (length keys <= 255)%nat.
Hypothesis Ht : tiled N rows.
Hypothesis Hiter : forall i l, Permutation (iter i l) l.

Lemma offline_runs_sized : forall parties k its css,
  (S k + length parties = length keys)%nat ->
  nth_error keys (k + length parties) = Some (bpk, bsk) ->
  (forall j confs, nth_error parties j = Some confs -> length confs = N /\
    (exists shared, (forall i, 0 <= rng shared i <= 2 ^ 31 - 1) /\
      forall s sf, nth_error confs s = Some sf -> good_server rng (length keys) (k + j) rows N shared s sf) /\
    (forall s sf, nth_error confs s = Some sf -> pf_pkeys (sf_conf sf) = map fst keys /\
       nth_error keys (k + j) = Some (pf_pkey (sf_conf sf), pf_skey (sf_conf sf)) /\
       good_rand (pf_rand (sf_conf sf)) (server_noise N rows s (sf_conf sf)) (length keys - (k + j) - 1)) /\
    exists c, forall s sf i, nth_error confs s = Some sf -> (i < key_count N rows s)%nat -> pf_samples (sf_conf sf) i = Z.of_nat c) ->
  Z.of_nat (length (concat its) + length (flat_map (party_noise_keys N rows) parties)) < 2 ^ 32 ->
  length its = N -> Forall (Forall (ok_item rows (length keys - k))) its -> unique_tags its -> Forall (Forall small_tally) its ->
  Forall2 (Forall2 (opens b (skipn k keys))) css its ->
  exists links plans, runs_from b rng iter db junk true online N bpk bsk k parties ({| dl_its := its; dl_css := css |} :: links) plans /\
    levels_ok N rows parties (map it_key (concat its)) (its :: map dl_its links) /\
    passes rng N rows parties (its :: map dl_its links) /\
    planned rng N rows (length keys) db true k parties ({| dl_its := its; dl_css := css |} :: links) plans.
Proof using All.
  induction parties as [|confs parties IH]; intros k its css Hk Hbk Gp Htot L Oi U Si F2; pose proof Ht as ((T1 & T2) & _).
  - cbn [length] in *. rewrite Nat.add_0_r in *. cbn [flat_map] in Htot.
    assert (Ek : skipn k keys = [(bpk, bsk)]).
    { rewrite (skipn_nth _ _ _ Hbk). f_equal. apply skipn_all2. lia. }
    replace (length keys - k)%nat with 1%nat in Oi by lia. rewrite Ek in F2.
    assert (Hl : Z.of_nat (length (concat its)) < 2 ^ 32) by (cbn [length] in *; lia).
    destruct (backend_parts b rng iter keys rows N bpk bsk Hbox H255 Ht Hiter its L Oi (NoDup_tags _ _ _ U) Hl css F2) as (st & Hst & Hall).
    exists [], [{| pl_count := fun _ => 0; pl_noise := fun _ _ => 0; pl_cipher := fun _ => []; pl_entries := secret_count st;
      pl_secret := secret_sents N backend_pack iter st; pl_query := fun _ => []; pl_response := fun _ => [] |}].
    split; [|split; [apply levels_ok_end|split; [constructor|]]].
    2: { constructor.
      - eapply link_amount; [exact Hdb|exact L|exact Oi|]. intros _. apply opened_sizes with (b := b). rewrite Ek. exact F2.
      - intros _ s t Hs Ht0 Hne. cbn [pl_secret]. unfold l_count. cbn [dl_its]. apply (secrets_amount N backend_pack iter st its s t Hiter).
        + rewrite (proj2 (proj2 (Hst s Hs))), rev_length, !map_length. reflexivity.
        + intros e He. rewrite (proj2 (proj2 (Hst s Hs))) in He. apply in_rev in He. rewrite !map_map in He. apply in_map_iff in He. destruct He as (it & <- & Hit).
          assert (Hok : ok_item rows 1 it).
          { rewrite Forall_forall in Oi. assert (HF : Forall (ok_item rows 1) (nth s its [])) by (apply Oi, nth_In; lia). rewrite Forall_forall in HF. apply HF. exact Hit. }
          destruct Hok as (Lo & Fo & _). unfold first_secret. destruct (it_secrets it) as [|o os]; [discriminate|]. inversion Fo as [|? ? [Ho _] _]; subst.
          cbn [hd]. destruct o as [tag nx sh pre]. destruct Ho as (W1 & W2 & W3). unfold entry, backend_pack, drop_next, wf_osecret.
          cbn [fst snd st_next st_share st_pre o_tag o_next o_share o_preshare] in *. repeat split; try apply W3; try apply W1; unfold u64; lia.
        + exact Ht0.
        + exact Hne. }
    constructor; [eapply ok_answered; [exact Hdb|exact Oi]|]. intros i mem acc Hi Hmem Ha. cbn [dl_its].
    apply obs_pbserver with (P := backend_knows i its); auto; try lia.
    + intros tx rx Etx Erx. apply (obs_backend_offline db junk N k i mem its Hdb J Hmem Hi L Oi Hl b iter bpk bsk css st Hiter F2 Hst Hall ltac:(lia) _ tx rx Etx Erx); reflexivity.
    + intros s Hs _. apply (fo_backend_queries db junk N k i mem its Hdb J Hmem Hi L Oi Hl css s Hs Si).
  - cbn [length flat_map] in *. rewrite app_length in Htot.
    destruct (Gp 0%nat confs eq_refl) as (Lc & GS & GK & c & Hc). rewrite Nat.add_0_r in GS, GK.
    assert (G : good_siblings rng (length keys) k rows N confs (map (fun l => length l) its)).
    { split; auto; [lia|rewrite map_length; exact L]. }
    assert (Htb : Z.of_nat (length (concat its) + length (party_noise_keys N rows confs)) < 2 ^ 32) by lia.
    pose proof (total_batch rng keys k rows N confs its G Htb) as Hsum.
    replace (length keys - k)%nat with (S (length keys - k - 1)) in Oi by lia.
    destruct (par_counts_spec rng (length keys) k rows N confs _ G Hsum) as (cts & Ects & Lcts & Hcts).
    destruct (par_shufflers_spec rng _ k rows N confs _ G Hsum cts Ects) as (tb & HT & Et & En & Eshs).
    pose proof (NoDup_tags _ _ _ U) as ND.
    destruct (servers_alone rng keys k rows N confs its G Hsum b c iter Hbox H255 Hc Hiter GK css Oi ND F2) as (v & Hv).
    pose proof (passed_on_open rng keys k rows N confs its G Hsum b c iter Hbox H255 Hc Hiter GK tb css v HT Et Hv) as F2n.
    set (noise := server_noise_items keys k rows N confs its c) in *.
    assert (Hkn : forall s sf, nth_error confs s = Some sf -> map it_key (noise s) = server_noise_keys N rows s (sf_conf sf)).
    { intros s sf Nf. unfold noise, server_noise_items. rewrite Nf. apply gen_keys. }
    destruct (next_facts rng keys k rows N confs its G Htb tb noise HT Et En Hkn) as (HL & Kn & P & Ln & Hsh & Enc).
    set (next := nexts N tb noise its) in *.
    assert (On : Forall (Forall (ok_item rows (length keys - k - 1))) next).
    { apply (Forall_next N rows (length keys - k - 1) tb noise its HT L HL _ Oi).
      - intros s Hs. destruct (get_lt confs s ltac:(lia)) as (sf & _ & Nf). unfold noise, server_noise_items. rewrite Nf.
        pose proof Ht as (_ & _ & Hr & _). destruct (GK s sf Nf) as (_ & _ & Gr).
        pose proof (tag_room rng keys k rows N confs its G Hsum b c iter Hbox H255 Hc Hiter GK s Hs) as Hroom.
        rewrite (nz_conf rng _ k rows N confs _ G Hsum s sf Nf) in Hroom.
        apply gen_items_ok; rewrite ?server_keys_length; auto.
        + apply server_keys_bound; auto.
        + lia.
      - intros it Hin. apply ok_advance. apply (Forall_in _ _ _ Oi Hin). }
    assert (Sn : Forall (Forall small_tally) next).
    { apply (Forall_next N rows (length keys - k - 1) tb noise its HT L HL _ Oi).
      - intros s Hs. unfold noise, server_noise_items. destruct (nth_error confs s); [|constructor].
        apply Forall_map. apply Forall_forall. intros; apply small_mk_item.
      - intros it Hin. apply small_advance. apply (Forall_in _ _ _ Si Hin). }
    assert (Un : unique_tags next) by (apply (next_tags rng keys k rows N confs its G Htb c Hc tb U P)).
    assert (Lnx : length next = N) by apply nexts_length.
    destruct (IH (S k) next (passed_on N tb v)) as (links & plans & R & LO & PL & PN).
    + lia.
    + rewrite Nat.add_succ_l, <- Nat.add_succ_r. exact Hbk.
    + intros j cf' Nf. rewrite Nat.add_succ_l, <- Nat.add_succ_r. apply (Gp (S j) cf' Nf).
    + rewrite Ln. lia.
    + exact Lnx.
    + replace (length keys - S k)%nat with (length keys - k - 1)%nat by lia. exact On.
    + exact Un.
    + exact Sn.
    + exact F2n.
    + set (pl := {| pl_count := fun s => Z.of_nat (nth s (batch_counts N rows confs (map (fun l : list item => length l) its)) 0%nat);
        pl_noise := fun s t => Z.of_nat (nfrom (tb_M tb) (tb_counts tb) (tb_noise tb) t s);
        pl_cipher := shuffle_sends (tb_M tb) (tb_counts tb) (out_batches N v);
        pl_entries := secret_count (fun s => v_p (v s)); pl_secret := secret_sents N party_pack iter (fun s => v_p (v s));
        pl_query := query_sends N tb noise its; pl_response := response_sends db N tb noise its |}).
      exists ({| dl_its := next; dl_css := passed_on N tb v |} :: links), (pl :: plans).
      assert (Eshs' : forall cts', par_counts true confs (map Z.of_nat (map (fun l : list item => length l) its)) = Ok cts' ->
        par_shufflers true rng confs cts' = Ok (map (shuf (tb_M tb) (tb_counts tb) N (tb_noise tb) (tb_ls tb)) (seq 0 N))).
      { intros cts' E'. rewrite Ects in E'. injection E' as <-. exact Eshs. }
      split; [|split; cbn [map dl_its];
        [apply (levels_ok_cons N rows confs parties its next (map dl_its links) noise Kn P Hsh LO)
        |split; [apply passes_party; [apply (drawn_so rng keys k rows N confs its tb noise G Hsum HT Et En Hkn HL Eshs')|exact PL]|]]].
      2: { assert (Enn : forall s, (s < N)%nat -> tb_noise tb s = length (noise s)).
        { intros s Hs. rewrite (En s Hs). destruct (get_lt confs s ltac:(lia)) as (sf & _ & Nf). rewrite (nz_conf rng _ k rows N confs _ G Hsum s sf Nf).
          rewrite <- (map_length it_key (noise s)), (Hkn s sf Nf). symmetry. apply server_keys_length. }
        apply planned_party with (tb := tb) (noise := noise); [exact (drawn_so rng keys k rows N confs its tb noise G Hsum HT Et En Hkn HL Eshs')|reflexivity|eapply link_amount; [exact Hdb|exact L|exact Oi|intros _; apply opened_sizes with (b := b); exact F2]| | |exact PN].
        { intros _ s t Hs Ht0 Hne. cbn [pl pl_secret]. unfold l_count. cbn [dl_its]. apply (secrets_amount N party_pack iter (fun s => v_p (v s)) its s t Hiter).
          - cbn beta. rewrite (held rng keys k rows N confs its b c css v s G Oi ND Hv) by exact Hs. rewrite rev_length, !map_length. reflexivity.
          - intros e He. cbn beta in He. rewrite (held rng keys k rows N confs its b c css v s G Oi ND Hv) in He by exact Hs.
            apply in_rev in He. rewrite map_map in He. apply in_map_iff in He. destruct He as (it & <- & Hit).
            assert (Hok : ok_item rows (S (length keys - k - 1)) it).
            { rewrite Forall_forall in Oi. assert (HF : Forall (ok_item rows (S (length keys - k - 1))) (nth s its [])) by (apply Oi, nth_In; lia). rewrite Forall_forall in HF. apply HF. exact Hit. }
            destruct Hok as (Lo & Fo & _). unfold first_secret. destruct (it_secrets it) as [|o os]; [discriminate|]. inversion Fo as [|? ? [Ho _] _]; subst.
            cbn [hd]. unfold entry, party_pack. cbn [fst snd st_next st_share st_pre]. destruct o; exact Ho.
          - exact Ht0.
          - exact Hne. }
        intros s t Hs Ht0. cbn [pl pl_query pl_response pl_cipher].
        split; [apply (queries_amount db N (length keys - k - 1) tb noise its Hdb HT L HL Enn On); exact Hs|].
        split; [apply (responses_amount db N (length keys - k - 1) tb noise its Hdb HT L HL Enn On); assumption|]. 
        intros _. rewrite (sized_concat (124 * (length keys - S k))).
        - f_equal. apply (shuffled_amount db N (length keys - k - 1) tb noise its Hdb HT L HL Enn On); [exact Hs|].
          rewrite (Forall2_len _ _ _ (out_batches_open rng keys k rows N confs its G Hsum b c iter Hbox H255 Hc Hiter GK css v Hv s Hs)).
          apply (batches_length N tb noise its HT HL L s Hs).
        - apply Forall_forall. intros x Hx. apply outgoing_in in Hx. unfold shuffle_sends in Hx. apply in_combine_r in Hx.
          pose proof (opens_out_length rng keys k rows N confs its G Hsum b c iter Hbox H255 Hc Hiter GK _ _
            (out_batches_open rng keys k rows N confs its G Hsum b c iter Hbox H255 Hc Hiter GK css v Hv s Hs)) as F.
          rewrite Forall_forall in F. rewrite (F x Hx). lia. }
      constructor; [eapply ok_answered; [exact Hdb|exact Oi]|exact Lc| |exact R]. intros i sf mem acc Nf Hmem Ha.
      assert (Hi : (i < N)%nat) by (rewrite <- Lc; apply nth_error_Some; congruence).
      apply obs_pserver with (P := fun rp => exists rps, nth_error rps i = Some rp /\ par_holds N tb rps noise its); auto; try lia.
      * apply (counts_local rng keys k rows N confs its G Hsum i sf Nf (fun t => Sib (S k) i t) (fun t => Sib (S k) t i) (fun _ _ => eq_refl) (fun _ _ => eq_refl)).
      * intros tx rx Etx Erx. unfold party_stage, l_count, l_ciphers. cbn [dl_its dl_css].
        rewrite <- (next_share N rows confs its next i Hi Lnx Enc).
        apply (obs_offline rng keys k rows N confs its G Hsum i sf Nf tx rx Etx Erx pl eq_refl tb HT Et En Eshs' eq_refl b c iter Hbox H255 Hc Hiter GK Oi ND css v F2 Hv eq_refl
          mem Hmem eq_refl eq_refl).
      * intros tx rx rp Etx Erx (rps & Nrp & Hh) _. unfold l_queries, l_responses. cbn [dl_its].
        apply (obs_online db N (length keys - k - 1) tb rps noise its Hdb Hh Oi On k i rp Nrp tx rx Etx Erx pl mem Hmem eq_refl eq_refl ltac:(lia) Si Sn).
Qed.
End Offline.

Section Simulated.
Variables (b : sealbox) (rng : rng_t) (iter : iteration) (db : list response) (junk : list Z) (online : bool) (N : nat) (bpk bsk : list Z).
Variables (keys : list (list Z * list Z)).
Notation rows := (length db).
Hypothesis Hdb : Forall wf_response db.
Hypothesis J : bytes 52 junk.
Hypothesis H255 : (length keys <= 255)%nat.
Hypothesis Ht : tiled N rows.

Lemma simulated_runs_sized : forall parties k its,
  (S k + length parties = length keys)%nat ->
  (forall j confs, nth_error parties j = Some confs -> length confs = N /\
    (exists shared, (forall i, 0 <= rng shared i <= 2 ^ 31 - 1) /\
      forall s sf, nth_error confs s = Some sf -> good_server rng (length keys) (k + j) rows N shared s sf)) ->
  Z.of_nat (length (concat its) + length (flat_map (party_noise_keys N rows) parties)) < 2 ^ 32 ->
  length its = N -> Forall (Forall (ok_item rows (length keys - k))) its -> Forall (Forall (is_sim (length keys - k))) its -> Forall (Forall small_tally) its ->
  exists links plans, runs_from b rng iter db junk false online N bpk bsk k parties ({| dl_its := its; dl_css := [] |} :: links) plans /\
    levels_ok N rows parties (map it_key (concat its)) (its :: map dl_its links) /\
    passes rng N rows parties (its :: map dl_its links) /\
    planned rng N rows (length keys) db false k parties ({| dl_its := its; dl_css := [] |} :: links) plans.
Proof using All.
  induction parties as [|confs parties IH]; intros k its Hk Gp Htot L Oi Sim Si; pose proof Ht as ((T1 & T2) & _).
  - cbn [length] in *. cbn [flat_map] in Htot. replace (length keys - k)%nat with 1%nat in Oi, Sim by lia.
    assert (Hl : Z.of_nat (length (concat its)) < 2 ^ 32) by (cbn [length] in *; lia).
    exists [], [{| pl_count := fun _ => 0; pl_noise := fun _ _ => 0; pl_cipher := fun _ => []; pl_entries := fun _ => 0;
      pl_secret := fun _ => []; pl_query := fun _ => []; pl_response := fun _ => [] |}].
    split; [|split; [apply levels_ok_end|split; [constructor|]]].
    2: { constructor; [eapply link_amount; [exact Hdb|exact L|exact Oi|discriminate]|discriminate]. }
    constructor; [eapply ok_answered; [exact Hdb|exact Oi]|]. intros i mem acc Hi Hmem Ha. cbn [dl_its].
    apply obs_pbserver with (P := backend_knows i its); auto; try lia.
    + intros tx rx Etx Erx. apply (obs_backend_simulate N k i its Hi L Hl _ [] Sim).
    + intros s Hs _. apply (fo_backend_queries db junk N k i mem its Hdb J Hmem Hi L Oi Hl [] s Hs Si).
  - cbn [length flat_map] in *. rewrite app_length in Htot.
    destruct (Gp 0%nat confs eq_refl) as (Lc & GS). rewrite Nat.add_0_r in GS.
    assert (G : good_siblings rng (length keys) k rows N confs (map (fun l => length l) its)).
    { split; auto; [lia|rewrite map_length; exact L]. }
    assert (Htb : Z.of_nat (length (concat its) + length (party_noise_keys N rows confs)) < 2 ^ 32) by lia.
    pose proof (total_batch rng keys k rows N confs its G Htb) as Hsum.
    replace (length keys - k)%nat with (S (length keys - k - 1)) in Oi, Sim by lia.
    destruct (par_counts_spec rng (length keys) k rows N confs _ G Hsum) as (cts & Ects & Lcts & Hcts).
    destruct (par_shufflers_spec rng _ k rows N confs _ G Hsum cts Ects) as (tb & HT & Et & En & Eshs).
    set (noise := sim_server_noise keys k rows N confs) in *.
    assert (Hkn : forall s sf, nth_error confs s = Some sf -> map it_key (noise s) = server_noise_keys N rows s (sf_conf sf)).
    { intros s sf Nf. unfold noise, sim_server_noise. rewrite Nf, map_map. apply map_id. }
    destruct (next_facts rng keys k rows N confs its G Htb tb noise HT Et En Hkn) as (HL & Kn & P & Ln & Hsh & Enc).
    set (next := nexts N tb noise its) in *.
    assert (On : Forall (Forall (ok_item rows (length keys - k - 1))) next).
    { apply (Forall_next N rows (length keys - k - 1) tb noise its HT L HL _ Oi).
      - intros s Hs. destruct (get_lt confs s ltac:(lia)) as (sf & _ & Nf). unfold noise, sim_server_noise. rewrite Nf.
        pose proof Ht as (_ & _ & Hr & _). apply Forall_map. eapply Forall_impl; [|apply server_keys_bound; eauto].
        intros key Hkey. apply sim_item_ok; assumption.
      - intros it Hit. apply ok_advance. apply (Forall_in _ _ _ Oi Hit). }
    assert (Simn : Forall (Forall (is_sim (length keys - k - 1))) next).
    { apply (Forall_next N rows (length keys - k - 1) tb noise its HT L HL _ Oi).
      - intros s Hs. unfold noise, sim_server_noise. destruct (nth_error confs s); [|constructor].
        apply Forall_map. apply Forall_forall. intros; apply is_sim_item.
      - intros it Hit. apply is_sim_advance. apply (Forall_in _ _ _ Sim Hit). }
    assert (Sn : Forall (Forall small_tally) next).
    { apply (Forall_next N rows (length keys - k - 1) tb noise its HT L HL _ Oi).
      - intros s Hs. unfold noise, sim_server_noise. destruct (nth_error confs s); [|constructor].
        apply Forall_map. apply Forall_forall. intros; apply small_mk_item.
      - intros it Hin. apply small_advance. apply (Forall_in _ _ _ Si Hin). }
    assert (Lnx : length next = N) by apply nexts_length.
    destruct (IH (S k) next) as (links & plans & R & LO & PL & PN).
    + lia.
    + intros j cf' Nf. rewrite Nat.add_succ_l, <- Nat.add_succ_r. apply (Gp (S j) cf' Nf).
    + rewrite Ln. lia.
    + exact Lnx.
    + replace (length keys - S k)%nat with (length keys - k - 1)%nat by lia. exact On.
    + replace (length keys - S k)%nat with (length keys - k - 1)%nat by lia. exact Simn.
    + exact Sn.
    + set (pl := {| pl_count := fun s => Z.of_nat (nth s (batch_counts N rows confs (map (fun l : list item => length l) its)) 0%nat);
        pl_noise := fun s t => Z.of_nat (nfrom (tb_M tb) (tb_counts tb) (tb_noise tb) t s);
        pl_cipher := fun _ => []; pl_entries := fun _ => 0; pl_secret := fun _ => [];
        pl_query := query_sends N tb noise its; pl_response := response_sends db N tb noise its |}).
      exists ({| dl_its := next; dl_css := [] |} :: links), (pl :: plans).
      assert (Eshs' : forall cts', par_counts true confs (map Z.of_nat (map (fun l : list item => length l) its)) = Ok cts' ->
        par_shufflers true rng confs cts' = Ok (map (shuf (tb_M tb) (tb_counts tb) N (tb_noise tb) (tb_ls tb)) (seq 0 N))).
      { intros cts' E'. rewrite Ects in E'. injection E' as <-. exact Eshs. }
      split; [|split; cbn [map dl_its];
        [apply (levels_ok_cons N rows confs parties its next (map dl_its links) noise Kn P Hsh LO)
        |split; [apply passes_party; [apply (drawn_so rng keys k rows N confs its tb noise G Hsum HT Et En Hkn HL Eshs')|exact PL]|]]].
      2: { assert (Enn : forall s, (s < N)%nat -> tb_noise tb s = length (noise s)).
        { intros s Hs. rewrite (En s Hs). destruct (get_lt confs s ltac:(lia)) as (sf & _ & Nf). rewrite (nz_conf rng _ k rows N confs _ G Hsum s sf Nf).
          rewrite <- (map_length it_key (noise s)), (Hkn s sf Nf). symmetry. apply server_keys_length. }
        apply planned_party with (tb := tb) (noise := noise); [exact (drawn_so rng keys k rows N confs its tb noise G Hsum HT Et En Hkn HL Eshs')|reflexivity|eapply link_amount; [exact Hdb|exact L|exact Oi|discriminate]|discriminate| |exact PN].
        intros s t Hs Ht0. cbn [pl pl_query pl_response pl_cipher].
        split; [apply (queries_amount db N (length keys - k - 1) tb noise its Hdb HT L HL Enn On); exact Hs|].
        split; [apply (responses_amount db N (length keys - k - 1) tb noise its Hdb HT L HL Enn On); assumption|]. discriminate. }
      constructor; [eapply ok_answered; [exact Hdb|exact Oi]|exact Lc| |exact R]. intros i sf mem acc Nf Hmem Ha.
      assert (Hi : (i < N)%nat) by (rewrite <- Lc; apply nth_error_Some; congruence).
      apply obs_pserver with (P := fun rp => exists rps, nth_error rps i = Some rp /\ par_holds N tb rps noise its); auto; try lia.
      * apply (counts_local rng keys k rows N confs its G Hsum i sf Nf (fun t => Sib (S k) i t) (fun t => Sib (S k) t i) (fun _ _ => eq_refl) (fun _ _ => eq_refl)).
      * intros tx rx Etx Erx. unfold party_stage, l_count. cbn [dl_its dl_css].
        rewrite <- (next_share N rows confs its next i Hi Lnx Enc).
        apply (obs_simulate rng keys k rows N confs its G Hsum i sf Nf tx rx Etx Erx pl eq_refl tb HT Et En Eshs' eq_refl H255).
        apply Forall_forall. exact Sim.
      * intros tx rx rp Etx Erx (rps & Nrp & Hh) _. unfold l_queries, l_responses. cbn [dl_its].
        apply (obs_online db N (length keys - k - 1) tb rps noise its Hdb Hh Oi On k i rp Nrp tx rx Etx Erx pl mem Hmem eq_refl eq_refl ltac:(lia) Si Sn).
Qed.
End Simulated.
