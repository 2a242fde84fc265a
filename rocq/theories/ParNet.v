(** Whole deployments with several servers per entity, one system call at a time. *)
From Verif Require Import Base BaseProofs Incremental IncrementalProofs Wire WireProofs Additive AdditiveProofs Onion OnionProofs
  Shuffle Sizes State Database CipherBatch CipherBatchProofs Range Handlers Batch Party Chain Spec SharingProofs ShuffleProofs
  StateProofs ChainSpec OnlineProofs OfflineProofs OfflineParty ChainProofs ParShuffle ParShuffleProofs ParShuffleFacts Parallel ParChain
  ParSpec ParChainSpec ParMergeProofs ParForwardProofs ParBackwardProofs ParOnlineProofs ParPartyProofs PermFacts ParFacts
  ParSecretsProofs ParTagProofs ParStage ParParty ParChainProofs Stream StreamProofs Net Lts Procs ProcProofs ProcChain ProcNet ParProcs ParCrash ProcExchange
  ParRules ParLocal ParServer ParEntity ReadProofs ParRead ParSized ParRuns ParGraph TalkSpec TrafficSpec.

Lemma runs_nth b rng iter db junk offline online N bpk bsk : forall k parties links plans,
  runs_from b rng iter db junk offline online N bpk bsk k parties links plans ->
  (forall j confs, nth_error parties j = Some confs -> length confs = N /\
     forall i sf mem acc d0 p0, nth_error confs i = Some sf -> smem_ok mem -> Forall (fun t => (t < i)%nat) acc ->
       obs N (S (k + j) * N + i) (eq PartyEnd) (pserver b true rng iter offline online N (S (k + j)) i mem acc sf)
         (party_script db offline online N (k + j) i acc (nth j plans p0) (nth j links d0) (nth (S j) links d0))) /\
  (forall i mem acc d0 p0, (i < N)%nat -> smem_ok mem -> Forall (fun t => (t < i)%nat) acc ->
     obs N (S (k + length parties) * N + i) (eq (BackendEnd (if online then map it_key (nth i (dl_its (nth (length parties) links d0)) []) else [])))
       (pbserver b true iter offline online N (S (k + length parties)) i mem acc db junk bpk bsk)
       (backend_script db offline online N (k + length parties) i acc (nth (length parties) plans p0) (nth (length parties) links d0))).
Proof.
  intros k parties links plans H. induction H as [k d pl _ H|k confs parties d d' pl links plans _ L H R [IH1 IH2]].
  - split; [intros [|j] confs Nc; discriminate|]. intros i mem acc d0 p0 Hi Hm Ha. cbn [length nth]. rewrite Nat.add_0_r. apply H; assumption.
  - split.
    + intros [|j] confs' Nc; cbn [nth_error] in Nc.
      * injection Nc as <-. rewrite Nat.add_0_r. split; [exact L|]. intros i sf mem acc d0 p0 Nf Hm Ha. cbn [nth]. apply H; assumption.
      * rewrite Nat.add_succ_r. cbn [nth]. exact (IH1 j confs' Nc).
    + intros i mem acc d0 p0 Hi Hm Ha. cbn [length]. rewrite Nat.add_succ_r. cbn [nth]. apply IH2; assumption.
Qed.

Lemma runs_answered b rng iter db junk offline online N bpk bsk : forall k parties links plans,
  runs_from b rng iter db junk offline online N bpk bsk k parties links plans ->
  forall j d, nth_error links j = Some d -> answered db d.
Proof.
  intros k parties links plans H. induction H as [k d pl A H|k confs parties d d' pl links plans A L H R IH]; intros [|j] d0 Nd; cbn [nth_error] in Nd.
  - injection Nd as <-. exact A.
  - destruct j; discriminate.
  - injection Nd as <-. exact A.
  - apply (IH j d0 Nd).
Qed.

Section Run.
Variables (b : sealbox) (rng : rng_t) (iter : iteration) (db : list response) (junk : list Z) (offline online : bool) (N : nat) (bpk bsk : list Z).
Variables (mem : nat -> smem) (acc : nat -> list nat) (clients : list client) (parties : list (list sconf)).
Variables (links : list dlink) (plans : list plan) (cap : mchan -> nat).
Hypothesis HN : (0 < N)%nat.
Hypothesis Hmem : forall p, smem_ok (mem p).
Hypothesis Hacc : forall p, Permutation (acc p) (seq 0 (p mod N)).
Hypothesis Lc : length clients = N.
Hypothesis R : runs_from b rng iter db junk offline online N bpk bsk 0 parties links plans.
Hypothesis Hcl : forall i c d0, nth_error clients i = Some c ->
  obs N i (eq (ClientEnd (if online then map (row db) (ct_keys c) else [])))
    (relabel (Link i) (pclient b true offline online (Z.of_nat i) (sm_link (mem i)) (S (length parties)) db c)) (client_script db offline online i (nth 0 links d0)).
Hypothesis Hcap1 : forall c, (1 <= cap c)%nat.
Hypothesis Hcap : forall k s t, (BUFFER_SIZE <= cap (Sib k s t))%nat.

Definition d_none : dlink := {| dl_its := []; dl_css := [] |}.
Definition p_none : plan := {| pl_count := fun _ => 0; pl_noise := fun _ _ => 0; pl_cipher := fun _ => []; pl_entries := fun _ => 0;
  pl_secret := fun _ => []; pl_query := fun _ => []; pl_response := fun _ => [] |}.
Definition par_goal (p : nat) : ending :=
  let i := (p mod N)%nat in
  match (p / N)%nat with
  | O => match nth_error clients i with Some c => ClientEnd (if online then map (row db) (ct_keys c) else []) | None => PartyEnd end
  | S j => if (j =? length parties)%nat then BackendEnd (if online then map it_key (nth i (dl_its (nth (length parties) links d_none)) []) else []) else PartyEnd
  end.
Definition par_graph : list gev := g_all N db offline online (length parties) (fun e t => acc (e * N + t)%nat) (fun j => nth j links d_none) (fun e => nth (pred e) plans p_none).

Lemma acc_at e t : (t < N)%nat -> Permutation (acc (e * N + t)%nat) (seq 0 t).
Proof using Hacc. intros Ht. rewrite <- (server_mod N e t Ht) at 2. apply Hacc. Qed.
Lemma acc_below e t : (t < N)%nat -> Forall (fun u => (u < t)%nat) (acc (e * N + t)%nat).
Proof using Hacc.
  intros Ht. apply Forall_forall. intros u Hu. apply (Permutation_in _ (acc_at e t Ht)) in Hu. apply in_seq in Hu. apply Hu.
Qed.
Lemma par_obeys p : (p < S (S (length parties)) * N)%nat ->
  obs N p (eq (par_goal p)) (par_entity b true rng iter offline online N mem acc db junk clients parties bpk bsk p) (scripts (mfrom N) (mto N) (bmember N) p par_graph).
Proof using All.
  intros Hp. destruct (runs_nth _ _ _ _ _ _ _ _ _ _ _ _ _ _ R) as [R1 R2].
  set (e := (p / N)%nat). set (i := (p mod N)%nat).
  assert (Hi : (i < N)%nat) by (apply Nat.mod_upper_bound; lia).
  assert (Ep : p = (e * N + i)%nat) by (unfold e, i; rewrite (Nat.div_mod p N) at 1 by lia; lia).
  assert (He : (e <= S (length parties))%nat) by (assert (e < S (S (length parties)))%nat; [apply Nat.div_lt_upper_bound; lia|lia]).
  unfold par_goal, par_entity. fold e i. unfold par_graph. clearbody e i. subst p.
  destruct e as [|j].
  - destruct (nth_error clients i) as [c|] eqn:Nc; [|apply nth_error_None in Nc; lia].
    rewrite g_client by (try exact Hi; exact acc_at). cbn [Nat.mul Nat.add]. apply Hcl. exact Nc.
  - destruct (nth_error parties j) as [confs|] eqn:Nc.
    + assert (Hj : (j < length parties)%nat) by (apply nth_error_Some; congruence). rewrite (proj2 (Nat.eqb_neq _ _)) by lia.
      destruct (R1 j confs Nc) as [L H]. destruct (nth_error confs i) as [sf|] eqn:Nf; [|apply nth_error_None in Nf; lia].
      rewrite g_party by (try assumption; exact acc_at). cbn [pred]. apply (H i sf _ _ d_none p_none Nf (Hmem _)). apply acc_below. exact Hi.
    + apply nth_error_None in Nc. assert (j = length parties) as -> by lia. rewrite Nat.eqb_refl.
      rewrite g_backend by (try exact Hi; exact acc_at). cbn [pred]. apply (R2 i _ _ d_none p_none Hi (Hmem _)). apply acc_below. exact Hi.
Qed.
Definition par_bound : nat :=
  list_sum (map (fun p => cost (bgas N) p (scripts (mfrom N) (mto N) (bmember N) p par_graph)) (seq 0 (S (S (length parties)) * N))).
Lemma par_runs n s :
  steps (net_step mchan_eqb cap) n (net_start (par_entity b true rng iter offline online N mem acc db junk clients parties bpk bsk)) s ->
  (n <= par_bound)%nat /\ (forall p f, nt_proc s p <> Crash f) /\
  ((exists s', net_step mchan_eqb cap s s') \/ (forall p, nt_proc s p = Ret (par_goal p)) /\ (forall c, nt_chan s c = [])).
Proof using All.
  apply (network_ends mchan_eqb (mfrom N) (mto N) (bdata N) (bmember N) (bgas N) BUFFER_SIZE bk_small mchan_eqb_spec (fun c => mfrom_to N c HN) (bdata_member N) cap Hcap1).
  - intros x c Hd. destruct c; try (exfalso; apply Hd; reflexivity). apply Hcap.
  - intros x c Hx Hs. pose proof (g_small N _ _ _ _ _ _ _ acc_at x c Hx Hs) as Hl. destruct c; try (cbn [bdata length]; lia).
    etransitivity; [exact Hl|]. etransitivity; [|apply Hcap]. unfold BUFFER_SIZE. lia.
  - apply g_nodup. exact acc_at.
  - intros p Hp. set (e := (p / N)%nat). set (i := (p mod N)%nat).
    assert (Hi : (i < N)%nat) by (apply Nat.mod_upper_bound; lia).
    assert (Ep : p = (e * N + i)%nat) by (unfold e, i; rewrite (Nat.div_mod p N) at 1 by lia; lia).
    assert (He : (S (length parties) < e)%nat) by (apply Nat.div_le_lower_bound; lia).
    unfold par_goal, par_entity. fold e i. unfold par_graph. clearbody e i. subst p. split; [apply g_beyond; try assumption; exact acc_at|].
    destruct e as [|j]; [lia|]. rewrite (proj2 (nth_error_None parties j)) by lia. rewrite (proj2 (Nat.eqb_neq _ _)) by lia. reflexivity.
  - intros p Hp. pose proof (par_obeys p Hp (fun _ => false) (or_introl eq_refl) []) as H. rewrite app_nil_r in H. eapply ob_mono; [exact H|]. intros a st [Ha Hs]. split; [symmetry; exact Ha|exact Hs].
Qed.
Lemma par_sends h s :
  carries (net_step mchan_eqb cap) (net_start (par_entity b true rng iter offline online N mem acc db junk clients parties bpk bsk)) h s ->
  (forall c, begins (h c) (total mchan_eqb (bdata N) c par_graph)) /\
  ((forall s', ~ net_step mchan_eqb cap s s') -> forall c, h c = total mchan_eqb (bdata N) c par_graph).
Proof using All.
  apply (network_sends mchan_eqb (mfrom N) (mto N) (bdata N) (bmember N) (bgas N) BUFFER_SIZE bk_small mchan_eqb_spec (fun c => mfrom_to N c HN) (bdata_member N) cap Hcap1) with (goal := par_goal) (NP := (S (S (length parties)) * N)%nat).
  - intros x c Hd. destruct c; try (exfalso; apply Hd; reflexivity). apply Hcap.
  - intros x c Hx Hs. pose proof (g_small N _ _ _ _ _ _ _ acc_at x c Hx Hs) as Hl. destruct c; try (cbn [bdata length]; lia).
    etransitivity; [exact Hl|]. etransitivity; [|apply Hcap]. unfold BUFFER_SIZE. lia.
  - apply g_nodup. exact acc_at.
  - intros p Hp. set (e := (p / N)%nat). set (i := (p mod N)%nat).
    assert (Hi : (i < N)%nat) by (apply Nat.mod_upper_bound; lia).
    assert (Ep : p = (e * N + i)%nat) by (unfold e, i; rewrite (Nat.div_mod p N) at 1 by lia; lia).
    assert (He : (S (length parties) < e)%nat) by (apply Nat.div_le_lower_bound; lia).
    unfold par_goal, par_entity. fold e i. unfold par_graph. clearbody e i. subst p. split; [apply g_beyond; try assumption; exact acc_at|].
    destruct e as [|j]; [lia|]. rewrite (proj2 (nth_error_None parties j)) by lia. rewrite (proj2 (Nat.eqb_neq _ _)) by lia. reflexivity.
  - intros p Hp. pose proof (par_obeys p Hp (fun _ => false) (or_introl eq_refl) []) as H. rewrite app_nil_r in H. eapply ob_mono; [exact H|]. intros a st [Ha Hs]. split; [symmetry; exact Ha|exact Hs].
Qed.
End Run.

(** What [par_runs] needs, for deployments. *)
Definition par_set_up b rng iter db junk (offline online : bool) N clients parties bpk bsk mem links plans : Prop :=
  runs_from b rng iter db junk offline online N bpk bsk 0 parties links plans /\
  (forall i c d0, nth_error clients i = Some c ->
     obs N i (eq (ClientEnd (if online then map (row db) (ct_keys c) else [])))
       (relabel (Link i) (pclient b true offline online (Z.of_nat i) (sm_link (mem i)) (S (length parties)) db c)) (client_script db offline online i (nth 0 links d0))) /\
  length (dl_its (nth (length parties) links d_none)) = N /\
  Permutation (map it_key (concat (dl_its (nth (length parties) links d_none)))) (client_keys clients ++ flat_map (party_noise_keys N (length db)) parties) /\
  par_read_off rng N (map (par_seeds N (length db)) parties) (map (fun c => length (ct_keys c)) clients)
    (map (map it_key) (dl_its (nth (length parties) links d_none))) = map ct_keys clients /\
  (Forall (fun c => ct_keys c <> []) clients -> forall j t, (j <= length parties)%nat -> (t < N)%nat -> concat (l_responses db (nth j links d_none) t) <> []).

(** If every client asks for something, every server has something to answer. *)
Lemma links_busy b rng iter db junk offline online N bpk bsk rows parties d links plans (clients : list client) : length (dl_its d) = N -> length clients = N ->
  runs_from b rng iter db junk offline online N bpk bsk 0 parties (d :: links) plans ->
  map (map it_key) (dl_its d) = map ct_keys clients ->
  levels_ok N rows parties (client_keys clients) (dl_its d :: map dl_its links) ->
  Forall (fun c => ct_keys c <> []) clients -> forall j t, (j <= length parties)%nat -> (t < N)%nat -> concat (l_responses db (nth j (d :: links) d_none) t) <> [].
Proof.
  intros Ld Lc R Ek [L K Sh _] F j t Hj Ht. change (dl_its d :: map dl_its links) with (map dl_its (d :: links)) in *. rewrite map_length in L.
  set (dj := nth j (d :: links) d_none). assert (Nd : nth_error (d :: links) j = Some dj) by (apply nth_error_nth'; lia).
  assert (Nl : nth_error (map dl_its (d :: links)) j = Some (dl_its dj)) by (rewrite nth_error_map, Nd; reflexivity).
  assert (Tot : (N <= length (client_keys clients))%nat).
  { rewrite <- Lc. unfold client_keys. clear - F. induction F as [|c l H _ IH]; [apply le_n|]. cbn [flat_map length]. rewrite app_length. destruct (ct_keys c); [contradiction|cbn [length]; lia]. }
  assert (Tj : (N <= length (concat (dl_its dj)))%nat).
  { apply K in Nl. apply Permutation_length in Nl. rewrite map_length, app_length in Nl. lia. }
  assert (Ne : nth t (dl_its dj) [] <> [] /\ List.In (nth t (dl_its dj) []) (dl_its dj)).
  { destruct j as [|j].
    - change dj with d. split; [|apply nth_In; lia]. intros E. apply (f_equal (fun l => nth t l [])) in Ek.
      change (@nil Z) with (map it_key []) in Ek at 1. rewrite map_nth, E in Ek. cbn [map] in Ek.
      rewrite Forall_forall in F. destruct (nth_error clients t) as [c|] eqn:Nc; [|apply nth_error_None in Nc; lia].
      apply (F c (nth_error_In _ _ Nc)). erewrite (nth_error_nth (map ct_keys clients)) in Ek by (rewrite nth_error_map, Nc; reflexivity). symmetry. exact Ek.
    - apply Sh in Nl. pose proof Nl as Nl'. apply (f_equal (fun l => length l)) in Nl'. unfold lens in Nl'. rewrite !map_length, seq_length in Nl'.
      split; [|apply nth_In; lia]. intros E. unfold lens in Nl. apply (f_equal (fun l => nth t l 0)) in Nl.
      rewrite (map_nth (fun x : list item => Z.of_nat (length x)) _ [] t : nth t (map _ _) 0 = _) in Nl.
      erewrite (nth_error_nth (map _ (seq 0 N))) in Nl by (rewrite nth_error_map_seq by exact Ht; reflexivity). rewrite E in Nl. cbn [length] in Nl.
      assert (D1 : (1 <= length (concat (dl_its dj)) / N)%nat) by (apply Nat.div_le_lower_bound; lia).
      assert (D2 : (N * (length (concat (dl_its dj)) / N) <= length (concat (dl_its dj)))%nat) by (apply Nat.mul_div_le; lia).
      unfold share_of in Nl. destruct (t =? N - 1)%nat; [|lia]. assert ((N - 1) * (length (concat (dl_its dj)) / N) < length (concat (dl_its dj)))%nat; [|lia].
      destruct N as [|n]; [lia|]. replace (S n - 1)%nat with n by lia. nia. }
  destruct Ne as [Ne Hin]. unfold l_responses. fold dj. destruct (nth t (dl_its dj) []) as [|it l] eqn:E; [contradiction|]. cbn [map concat].
  pose proof (runs_answered _ _ _ _ _ _ _ _ _ _ _ _ _ _ R j dj Nd _ it Hin (or_introl eq_refl)) as A. destruct (answer db it); [contradiction|discriminate].
Qed.

Lemma links_read rng N rows parties d links clients : passes rng N rows parties (dl_its d :: map dl_its links) -> length (dl_its d) = N ->
  map (map it_key) (dl_its d) = map ct_keys clients ->
  par_read_off rng N (map (par_seeds N rows) parties) (map (fun c => length (ct_keys c)) clients)
    (map (map it_key) (dl_its (nth (length parties) (d :: links) d_none))) = map ct_keys clients.
Proof.
  intros PL L E. rewrite <- (map_nth dl_its). change (map dl_its (d :: links)) with (dl_its d :: map dl_its links).
  rewrite (passes_last _ _ _ _ _ _ PL). rewrite <- (map_map ct_keys). rewrite <- (passes_read rng N rows parties _ _ _ PL L E) at 2. reflexivity.
Qed.

Lemma levels_last N rows parties ks d links :
  length (dl_its d) = N -> levels_ok N rows parties ks (dl_its d :: map dl_its links) ->
  length (dl_its (nth (length parties) (d :: links) d_none)) = N /\
  Permutation (map it_key (concat (dl_its (nth (length parties) (d :: links) d_none)))) (ks ++ flat_map (party_noise_keys N rows) parties).
Proof.
  intros Ld [L K S]. change (dl_its d :: map dl_its links) with (map dl_its (d :: links)) in *. rewrite map_length in L.
  assert (Nl : nth_error (map dl_its (d :: links)) (length parties) = Some (dl_its (nth (length parties) (d :: links) d_none))).
  { rewrite nth_error_map. rewrite (nth_error_nth' (d :: links) d_none) by lia. reflexivity. }
  split; [|apply K in Nl; rewrite firstn_all in Nl; exact Nl].
  destruct (length parties) as [|j]; [exact Ld|]. apply S in Nl. apply (f_equal (fun l => length l)) in Nl. unfold lens in Nl. rewrite !map_length, seq_length in Nl. exact Nl.
Qed.

Lemma par_simulated_set_up_sized b rng iter db junk online N clients parties keys bpk bsk mem :
  par_deployment rng db N clients parties keys -> bytes 52 junk -> (forall p, smem_ok (mem p)) ->
  exists links plans, par_set_up b rng iter db junk false online N clients parties bpk bsk mem links plans /\
    planned rng N (length db) (length keys) db false 0 parties links plans /\
    map (fun l : list item => length l) (dl_its (nth 0 links d_none)) = map (fun c => length (ct_keys c)) clients.
Proof.
  intros D J Hmem. pose proof (pd_tiled _ _ _ _ _ _ D) as T. pose proof T as (_ & _ & Hr & _).
  pose proof (pd_max _ _ _ _ _ _ D) as H255. pose proof (pd_count _ _ _ _ _ _ D) as Hc. pose proof (pd_clients _ _ _ _ _ _ D) as Lc.
  set (its := map (fun c => map (sim_item (length keys)) (ct_keys c)) clients).
  assert (Hk : map it_key (concat its) = client_keys clients).
  { unfold its, client_keys. rewrite <- flat_map_concat_map, map_flat_map. apply flat_map_ext_in. intros c _. rewrite map_map. apply map_id. }
  assert (Oi : Forall (Forall (ok_item (length db) (length keys))) its).
  { apply Forall_map. apply Forall_forall. intros c Hin. apply Forall_map.
    eapply Forall_impl; [|apply (Forall_flat _ _ _ _ (pd_queries _ _ _ _ _ _ D) Hin)]. intros key Hkey. apply sim_item_ok; assumption. }
  destruct (simulated_runs_sized b rng iter db junk online N bpk bsk keys (pd_db _ _ _ _ _ _ D) J H255 T parties 0 its) as (links & plans & R & LO & PL & PN).
  - cbn. exact Hc.
  - intros j confs Nc. apply (pd_parties _ _ _ _ _ _ D j confs Nc).
  - rewrite <- (map_length it_key (concat its)), Hk. apply (pd_total _ _ _ _ _ _ D).
  - unfold its. rewrite map_length. exact Lc.
  - rewrite Nat.sub_0_r. exact Oi.
  - rewrite Nat.sub_0_r. apply Forall_map. apply Forall_forall. intros c _. apply Forall_map. apply Forall_forall. intros; apply is_sim_item.
  - apply Forall_map. apply Forall_forall. intros c _. apply Forall_map. apply Forall_forall. intros; apply small_mk_item.
  - assert (Hmapk : map (map it_key) its = map ct_keys clients) by (unfold its; rewrite map_map; apply map_ext; intros c; rewrite map_map; apply map_id).
    eexists _, plans. split; [|split; [exact PN|cbn [nth dl_its]; rewrite <- (map_map ct_keys (fun l => length l)), <- Hmapk, map_map; apply map_ext; intros l; symmetry; apply map_length]].
    split; [exact R|]. split.
    + intros i c d0 Nc. cbn [nth].
      assert (Ei : nth i its [] = map (sim_item (length keys)) (ct_keys c)) by (unfold its; erewrite nth_error_nth; [|rewrite nth_error_map, Nc; reflexivity]; reflexivity).
      pose proof (Forall_flat _ _ _ _ (pd_queries _ _ _ _ _ _ D) (nth_error_In _ _ Nc)) as Fq.
      destruct (client_simulate_spec (length db) (length keys) (ct_keys c) Hr Fq) as (st & Es & Cr).
      rewrite Hc. apply (obs_client b db N i (mem i) (length keys) its [] c st (pd_db _ _ _ _ _ _ D) (Hmem i)).
      * lia.
      * rewrite Ei. apply Forall_map. eapply Forall_impl; [|exact Fq]. intros key Hkey. apply sim_item_ok; assumption.
      * rewrite Ei, map_map. apply map_id.
      * rewrite Ei. exact Cr.
      * pose proof (pd_total _ _ _ _ _ _ D) as Ht. assert (length (ct_keys c) <= length (client_keys clients))%nat; [|lia].
        apply nth_error_split in Nc. destruct Nc as (l1 & l2 & -> & _). unfold client_keys. rewrite flat_map_app. cbn [flat_map]. rewrite !app_length. lia.
      * exact Es.
    + destruct (levels_last N (length db) parties _ {| dl_its := its; dl_css := [] |} links (eq_trans (map_length _ _) Lc) LO) as (X1 & X2).
      split; [exact X1|]. split; [rewrite <- Hk; exact X2|].
      assert (Lits : length its = N) by (unfold its; rewrite map_length; exact Lc).
      split; [exact (links_read rng N (length db) parties {| dl_its := its; dl_css := [] |} links clients PL Lits Hmapk)|].
      rewrite Hk in LO. exact (links_busy _ _ _ _ _ _ _ _ _ _ _ _ {| dl_its := its; dl_css := [] |} links _ clients Lits Lc R Hmapk LO).
Qed.
Lemma par_simulated_set_up b rng iter db junk online N clients parties keys bpk bsk mem :
  par_deployment rng db N clients parties keys -> bytes 52 junk -> (forall p, smem_ok (mem p)) ->
  exists links plans, par_set_up b rng iter db junk false online N clients parties bpk bsk mem links plans.
Proof.
  intros. edestruct par_simulated_set_up_sized as (links & plans & H' & _); try eassumption. exists links, plans. exact H'.
Qed.

Lemma par_offline_set_up_sized b rng iter db junk online N clients parties keys bpk bsk mem :
  par_deployment rng db N clients parties keys -> par_keyed b db N clients parties keys bpk bsk ->
  (forall i l, Permutation (iter i l) l) -> bytes 52 junk -> (forall p, smem_ok (mem p)) ->
  exists links plans, par_set_up b rng iter db junk true online N clients parties bpk bsk mem links plans /\
    planned rng N (length db) (length keys) db true 0 parties links plans /\
    map (fun l : list item => length l) (dl_its (nth 0 links d_none)) = map (fun c => length (ct_keys c)) clients.
Proof.
  intros D K Hiter J Hmem. pose proof (pd_tiled _ _ _ _ _ _ D) as T. pose proof T as ((T1 & _) & _ & Hr & _).
  pose proof (pd_max _ _ _ _ _ _ D) as H255. pose proof (pd_count _ _ _ _ _ _ D) as Hc. pose proof (pd_clients _ _ _ _ _ _ D) as Lc.
  destruct (pk_equal _ _ _ _ _ _ _ _ K) as (n & Hn).
  assert (Hcl : forall i c, nth_error clients i = Some c -> length (ct_keys c) = n /\ ct_pkeys c = map fst keys /\
    good_rand (ct_rand c) (length (ct_keys c)) (length keys) /\ Forall (fun k => 0 <= k < Z.of_nat (length db)) (ct_keys c)).
  { intros i c Nc. apply nth_error_In in Nc. rewrite Forall_forall in Hn. split; [auto|].
    pose proof (pk_clients _ _ _ _ _ _ _ _ K) as Kc. rewrite Forall_forall in Kc. destruct (Kc c Nc) as (K1 & K2).
    split; [exact K1|]. split; [exact K2|]. apply (Forall_flat _ _ _ _ (pd_queries _ _ _ _ _ _ D) Nc). }
  set (item_of := fun i => match nth_error clients i with Some c => gen_items (length keys) (ct_rand c) (i * n) (ct_keys c) | None => [] end).
  set (its := map item_of (seq 0 N)).
  assert (Lits : length its = N) by (unfold its; rewrite map_length, seq_length; reflexivity).
  assert (Hnth : forall i c, nth_error clients i = Some c -> nth i its [] = gen_items (length keys) (ct_rand c) (i * n) (ct_keys c)).
  { intros i c Nc. assert (Hi : (i < N)%nat) by (rewrite <- Lc; apply nth_error_Some; congruence).
    unfold its. erewrite nth_error_nth; [|rewrite nth_error_map_seq by exact Hi; reflexivity]. unfold item_of. rewrite Nc. reflexivity. }
  assert (Hmapk : map (map it_key) its = map ct_keys clients).
  { apply nth_error_ext. intros i. destruct (Nat.lt_ge_cases i N) as [Hi|Hi].
    - destruct (get_lt clients i ltac:(lia)) as (c & _ & Nc). rewrite !nth_error_map, Nc. cbn [option_map].
      unfold its. rewrite nth_error_map_seq by exact Hi. cbn [option_map]. unfold item_of. rewrite Nc, gen_keys. reflexivity.
    - rewrite !(proj2 (nth_error_None _ _)); [reflexivity| |]; rewrite map_length; lia. }
  assert (Hk : map it_key (concat its) = client_keys clients).
  { rewrite concat_map, Hmapk. unfold client_keys. rewrite flat_map_concat_map. reflexivity. }
  assert (Htags : map it_tag (concat its) = map Z.of_nat (seq 0 (N * n))).
  { unfold its. rewrite <- flat_map_concat_map, map_flat_map. rewrite <- client_seq, map_flat_map. apply flat_map_ext_in.
    intros i Hi. apply in_seq in Hi. destruct (get_lt clients i ltac:(lia)) as (c & _ & Nc). unfold item_of. rewrite Nc, gen_tags.
    destruct (Hcl i c Nc) as (-> & _). reflexivity. }
  assert (Lconc : length (concat its) = (N * n)%nat).
  { apply (f_equal (fun l => length l)) in Htags. rewrite !map_length, seq_length in Htags. exact Htags. }
  assert (Lk : length (concat its) = length (client_keys clients)) by (rewrite <- Hk, map_length; reflexivity).
  pose proof (pd_total _ _ _ _ _ _ D) as Ht.
  assert (Hroom : forall i c, nth_error clients i = Some c -> Z.of_nat (i * length (ct_keys c) + length (ct_keys c)) < 2 ^ 32).
  { intros i c Nc. assert (Hi : (i < N)%nat) by (rewrite <- Lc; apply nth_error_Some; congruence). destruct (Hcl i c Nc) as (-> & _).
    assert (i * n + n <= N * n)%nat by nia. lia. }
  assert (Oi : Forall (Forall (ok_item (length db) (length keys))) its).
  { apply Forall_map. apply Forall_forall. intros i Hi. apply in_seq in Hi. destruct (get_lt clients i ltac:(lia)) as (c & _ & Nc).
    unfold item_of. rewrite Nc. destruct (Hcl i c Nc) as (En & _ & Gr & Fk). specialize (Hroom i c Nc). rewrite En in Hroom.
    apply gen_items_ok; auto. rewrite En. lia. }
  assert (U : unique_tags its) by (unfold unique_tags; rewrite Lconc, Htags; apply Permutation_refl).
  destruct (choose_fun N (fun i (x : list (list Z) * cstate) => forall c, nth_error clients i = Some c ->
    client_offline b true (Z.of_nat i) (length keys) (ct_pkeys c) (ct_rand c) (length (ct_keys c)) = Ok x /\
    Forall2 (opens b keys) (fst x) (nth i its []) /\ client_ready (snd x) (nth i its []))) as (f & Hf).
  { lia. }
  { intros i Hi. destruct (get_lt clients i ltac:(lia)) as (c & _ & Nc). destruct (Hcl i c Nc) as (En & Ep & Gr & Fk).
    destruct (client_offline_at b (length db) keys i (ct_rand c) (ct_keys c) (pk_box _ _ _ _ _ _ _ _ K) H255 Gr Hr Fk (Hroom i c Nc)) as (cs & st & E1 & E2 & E3).
    exists (cs, st). intros c' Nc'. rewrite Nc in Nc'. inversion Nc'; subst c'. rewrite Ep, (Hnth i c Nc), <- En. auto. }
  set (css := map fst (map f (seq 0 N))).
  assert (Ecs : forall i, (i < N)%nat -> nth i css [] = fst (f i)).
  { intros i Hi. unfold css. erewrite nth_error_nth; [|rewrite map_map, nth_error_map_seq by exact Hi; reflexivity]. reflexivity. }
  destruct (offline_runs_sized b rng iter db junk online N bpk bsk keys (pd_db _ _ _ _ _ _ D) J (pk_box _ _ _ _ _ _ _ _ K) H255 T Hiter parties 0 its css) as (links & plans & R & LO & PL & PN).
  - cbn. exact Hc.
  - exact (pk_backend _ _ _ _ _ _ _ _ K).
  - intros j confs Nc. cbn [Nat.add]. destruct (pd_parties _ _ _ _ _ _ D j confs Nc) as (L1 & L2). split; [exact L1|]. split; [exact L2|].
    split; [intros s sf Nf; apply (pk_parties _ _ _ _ _ _ _ _ K j confs s sf Nc Nf)|apply (pk_constant _ _ _ _ _ _ _ _ K j confs Nc)].
  - rewrite Lk. exact Ht.
  - exact Lits.
  - rewrite Nat.sub_0_r. exact Oi.
  - exact U.
  - apply Forall_map. apply Forall_forall. intros i _. unfold item_of. destruct (nth_error clients i); [|constructor].
    apply Forall_map. apply Forall_forall. intros; apply small_mk_item.
  - cbn [skipn]. unfold css. rewrite map_map. rewrite <- (nth_seq_all [] its), Lits. apply Forall2_map_seq. intros i Hi.
    destruct (get_lt clients i ltac:(lia)) as (c & _ & Nc). apply (Hf i Hi c Nc).
  - eexists _, plans. split; [|split; [exact PN|cbn [nth dl_its]; rewrite <- (map_map ct_keys (fun l => length l)), <- Hmapk, map_map; apply map_ext; intros l; symmetry; apply map_length]].
    split; [exact R|]. split.
    + intros i c d0 Nc. cbn [nth]. assert (Hi : (i < N)%nat) by (rewrite <- Lc; apply nth_error_Some; congruence).
      destruct (Hf i Hi c Nc) as (E1 & E2 & E3). destruct (Hcl i c Nc) as (En & Ep & Gr & Fk).
      rewrite Hc. apply (obs_client b db N i (mem i) (length keys) its css c (snd (f i)) (pd_db _ _ _ _ _ _ D) (Hmem i)).
      * lia.
      * rewrite Forall_forall in Oi. apply Oi. apply nth_In. lia.
      * rewrite (Hnth i c Nc). apply gen_keys.
      * exact E3.
      * specialize (Hroom i c Nc). lia.
      * rewrite Ecs by exact Hi. split; [rewrite E1; destruct (f i); reflexivity|].
        clear - E2. induction E2 as [|x it cs l H _ IH]; constructor; [|exact IH]. apply peels_length in H. exact H.
    + destruct (levels_last N (length db) parties _ {| dl_its := its; dl_css := css |} links Lits LO) as (X1 & X2).
      split; [exact X1|]. split; [rewrite <- Hk; exact X2|].
      split; [exact (links_read rng N (length db) parties {| dl_its := its; dl_css := css |} links clients PL Lits Hmapk)|].
      rewrite Hk in LO. exact (links_busy _ _ _ _ _ _ _ _ _ _ _ _ {| dl_its := its; dl_css := css |} links _ clients Lits Lc R Hmapk LO).
Qed.
Lemma par_offline_set_up b rng iter db junk online N clients parties keys bpk bsk mem :
  par_deployment rng db N clients parties keys -> par_keyed b db N clients parties keys bpk bsk ->
  (forall i l, Permutation (iter i l) l) -> bytes 52 junk -> (forall p, smem_ok (mem p)) ->
  exists links plans, par_set_up b rng iter db junk true online N clients parties bpk bsk mem links plans.
Proof.
  intros. edestruct par_offline_set_up_sized as (links & plans & H' & _); try eassumption. exists links, plans. exact H'.
Qed.
