(** Whole runs with several servers per entity. *)
From Verif Require Import Base BaseProofs Incremental IncrementalProofs Wire WireProofs Additive AdditiveProofs Onion OnionProofs
  Shuffle Sizes State Database CipherBatch CipherBatchProofs Range Handlers Batch Party Chain Spec SharingProofs ShuffleProofs
  StateProofs ChainSpec OnlineProofs OfflineProofs OfflineParty ChainProofs ParShuffle ParShuffleProofs ParShuffleFacts Parallel ParChain
  ParSpec ParChainSpec ParMergeProofs ParForwardProofs ParBackwardProofs ParOnlineProofs ParPartyProofs PermFacts ParFacts
  ParSecretsProofs ParTagProofs ParStage ParParty UpstreamSpec TagProofs.

Local Notation advance := OnlineProofs.advance.

(** ** Online stage *)
Definition lens {A} (l : list (list A)) : list Z := map (fun x => Z.of_nat (length x)) l.

Inductive par_chain_ok (N rows : nat) (bps : list qstate) : list (list pready * schedule) -> list (list (list item)) -> Prop :=
| par_chain_end its :
    length its = N -> length bps = N -> Forall (Forall (ok_item rows 1)) its ->
    (forall i p, nth_error bps i = Some p -> Forall (knows_last p) (nth i its [])) ->
    par_chain_ok N rows bps [] [its]
| par_chain_party rps sc rest tb noise its levels :
    par_holds N tb rps noise its ->
    complete N (from (tb_M tb) (tb_counts tb)) (sc_queries sc) -> complete N (back_traffic tb) (sc_responses sc) ->
    Forall (Forall (ok_item rows (S (S (length rest))))) its ->
    Forall (Forall (ok_item rows (S (length rest)))) (nexts N tb noise its) ->
    par_chain_ok N rows bps rest (nexts N tb noise its :: levels) ->
    par_chain_ok N rows bps ((rps, sc) :: rest) (its :: nexts N tb noise its :: levels).

Lemma par_backend_spec db junk N its bps : Forall wf_response db -> bytes 52 junk -> length its = N -> length bps = N ->
  Forall (Forall (ok_item (length db) 1)) its -> (forall i p, nth_error bps i = Some p -> Forall (knows_last p) (nth i its [])) ->
  par_backend_online db junk (lens its) bps (map (map q_of) its) = Ok (map (map it_key) its, map (map (answer db)) its).
Proof.
  intros F J L Lb Oi K. unfold par_backend_online, lens. rewrite map_length, L.
  rewrite (map_res_seq _ (fun i => (map it_key (nth i its []), map (answer db) (nth i its [])))).
  - cbn [bind]. rewrite !map_map. cbn [fst snd]. do 2 f_equal.
    + rewrite <- (map_map (fun i => nth i its []) (map it_key)), <- L, nth_seq_all. reflexivity.
    + rewrite <- (map_map (fun i => nth i its []) (map (answer db))), <- L, nth_seq_all. reflexivity.
  - intros i Hi. destruct (get_lt its i ltac:(lia)) as (l & _ & Nl). destruct (get_lt bps i ltac:(lia)) as (p & E & Np).
    unfold get at 1. rewrite nth_error_map, Nl. cbn [option_map bind]. rewrite E. cbn [bind]. unfold get. rewrite nth_error_map, Nl. cbn [option_map bind].
    rewrite (nth_error_nth _ _ _ Nl). apply backend_online_spec; auto.
    + rewrite Forall_forall in Oi. apply Oi. eapply nth_error_In; exact Nl.
    + rewrite <- (nth_error_nth _ _ [] Nl). apply K. exact Np.
Qed.

Section Step.
Variables (db : list response) (N m : nat) (tb : tables) (rps : list pready) (noise : nat -> list item) (its : list (list item)).
Hypothesis Hdb : Forall wf_response db.
Hypothesis Hh : par_holds N tb rps noise its.
Hypothesis Oi : Forall (Forall (ok_item (length db) (S m))) its.
Hypothesis On : Forall (Forall (ok_item (length db) m)) (nexts N tb noise its).
Notation next := (nexts N tb noise its).

Lemma hold_counts s : (s < N)%nat -> (length (noise s) + length (nth s its []) = nth s (tb_counts tb) 0)%nat.
Proof using All.
  intros Hs. destruct Hh as (HT & _ & _ & Hl & _). destruct (Hl s Hs) as (H1 & H2). unfold inp in H2.
  destruct HT as (_ & _ & _ & _ & Hn). specialize (Hn s Hs). lia.
Qed.

Lemma forward_items order : complete N (from (tb_M tb) (tb_counts tb)) order ->
  exists rps', par_forward rps (map (map q_of) its) order = Ok (rps', map (map q_of) next) /\
    par_ok' N tb rps' (map (map q_of) its) /\ same_state rps rps'.
Proof using All.
  intros Ho. destruct Hh as (HT & Hok & Lits & Hl & Hk).
  assert (Hn1 : forall a, nth a (map (map q_of) its) [] = map q_of (nth a its [])) by (intros a; apply (map_nth (map q_of) its [])).
  assert (Hn2 : forall a, nth a (map (map (fun it => q_of (advance it))) its) [] = map (fun it => q_of (advance it)) (nth a its []))
    by (intros a; apply (map_nth (map (fun it => q_of (advance it))) its [])).
  destruct (par_forward_spec N tb HT rps (fun s => map q_of (noise s)) (map (map q_of) its) (map (map (fun it => q_of (advance it))) its) order)
    as (rps' & outs & E & Hok' & Hs & Eo); auto.
  - rewrite map_length. exact Lits.
  - rewrite map_length. exact Lits.
  - intros a Ha. rewrite Hn1, map_length. apply (Hl a Ha).
  - intros a rp Nrp. rewrite Hn1, Hn2. specialize (Hk a rp Nrp). induction Hk as [|it l H _ IH]; cbn [map]; constructor; [|exact IH].
    eexists. apply handle_query_item. exact H.
  - exists rps'. split; [|auto]. rewrite E. do 2 f_equal. rewrite Eo. unfold nexts. rewrite map_map. apply map_ext_in. intros t Ht.
    rewrite <- (pick_map q_of). f_equal. apply received_map. intros s Hs'. rewrite batches_nth by exact Hs'.
    erewrite nth_error_nth; [|rewrite nth_error_map_seq by exact Hs'; reflexivity]. rewrite Hn2, map_app, map_map. reflexivity.
Qed.

Lemma backward_items rps' order : par_ok' N tb rps' (map (map q_of) its) -> same_state rps rps' ->
  complete N (back_traffic tb) order ->
  par_backward rps' (map (map (answer db)) next) order = Ok (map (map (answer db)) its).
Proof using All.
  intros Hok' Hs Ho. destruct Hh as (HT & Hok & Lits & Hl & Hk).
  assert (Hn1 : forall a, nth a (map (map q_of) its) [] = map q_of (nth a its [])) by (intros a; apply (map_nth (map q_of) its [])).
  assert (Ha : forall t, nth t (map (map (answer db)) next) [] = map (answer db) (nth t next [])) by (intros t; apply (map_nth (map (answer db)) next [])).
  assert (Hoi : forall a, Forall (ok_item (length db) (S m)) (nth a its [])).
  { intros a. destruct (Nat.lt_ge_cases a (length its)) as [H|H]; [|rewrite nth_overflow by exact H; constructor].
    rewrite Forall_forall in Oi. apply Oi. apply nth_In. exact H. }
  destruct (par_backward_spec N tb HT rps' (map (map q_of) its) (fun a => map it_tag (nth a its []))
    (fun a => map (fun it => o_preshare (first_secret it)) (nth a its [])) (map (map (answer db)) next) order Hok') as (result & E & Lr & Hr).
  - intros a Hx. rewrite Hn1, !map_map, map_length. split; [reflexivity|apply (Hl a Hx)].
  - intros a rp' Nrp'. destruct Hok' as (Lrps' & _). assert (Hx : (a < N)%nat) by (rewrite <- Lrps'; apply nth_error_Some; congruence).
    destruct (get_lt rps a) as (rp & _ & Nrp); [destruct Hok as (Lrps & _); lia|]. destruct (Hs a rp rp' Nrp Nrp') as (Em & Es).
    specialize (Hk a rp Nrp). specialize (Hoi a). clear - Hk Hoi Em Es. induction Hk as [|it l H _ IH]; cbn [map]; constructor.
    + inversion Hoi as [|? ? Ho _]; subst. destruct H as (s & ss & E & F). unfold first_secret. rewrite E. cbn [hd]. split.
      * unfold qs_preshare. rewrite Em, Es. rewrite F. reflexivity.
      * destruct Ho as (_ & Fs & _). rewrite E in Fs. inversion Fs as [|? ? ((_ & _ & _ & _ & W) & _) _]; subst. exact W.
    + apply IH. inversion Hoi; assumption.
  - rewrite map_length. apply nexts_length.
  - intros t Ht. rewrite Ha, map_length. split; [apply (nexts_size N tb noise its HT hold_counts Lits t Ht)|].
    apply Forall_map. rewrite Forall_forall in On. eapply Forall_impl; [|apply On, nth_In; rewrite nexts_length; exact Ht].
    intros it Ho'. apply (answer_bytes db m); assumption.
  - exact Ho.
  - rewrite E. f_equal. apply nth_error_ext. intros a. destruct (Nat.lt_ge_cases a N) as [Hx|Hx].
    2:{ rewrite !(proj2 (nth_error_None _ _)); [reflexivity| |]; rewrite ?map_length; lia. }
    rewrite (nth_error_nth' result []) by lia. rewrite (nth_error_nth' (map (map (answer db)) its) []) by (rewrite map_length; lia). f_equal.
    replace (nth a (map (map (answer db)) its) []) with (map (answer db) (nth a its [])) by (symmetry; apply (map_nth (map (answer db)) its [])).
    destruct (Hr a Hx) as (L1 & H1). destruct (Hl a Hx) as (L2 & L3).
    apply nth_error_ext. intros j. destruct (Nat.lt_ge_cases j (inp tb a)) as [Hj|Hj].
    2:{ rewrite !(proj2 (nth_error_None _ _)); [reflexivity| |]; rewrite ?map_length; lia. }
    rewrite H1 by exact Hj. cbn zeta. destruct (get_lt (nth a its []) j) as (it & _ & Nit); [lia|].
    rewrite nth_error_map, Nit. cbn [option_map]. f_equal.
    pose proof (hold_counts a Hx) as Hc.
    pose proof (pos_server N tb HT a (tb_noise tb a + j) Hx ltac:(cbn beta; rewrite <- Hc; lia)) as (P1 & P2).
    pose proof (pos_nth N tb HT no_item (batches N noise its) a (tb_noise tb a + j) Hx ltac:(cbn beta; rewrite <- Hc; lia)
      (fun s Hs' => batches_length N tb noise its HT hold_counts Lits s Hs')) as P3.
    rewrite <- nexts_nth in P3 by exact P1. rewrite batches_nth in P3 by exact Hx.
    rewrite nth_error_app2 in P3 by lia. replace (tb_noise tb a + j - length (noise a))%nat with j in P3 by lia.
    rewrite nth_error_map, Nit in P3. cbn [option_map] in P3.
    rewrite Ha. erewrite (nth_error_nth (map (answer db) _)); [|rewrite nth_error_map, P3; reflexivity].
    erewrite nth_error_nth; [|rewrite nth_error_map, Nit; reflexivity].
    assert (Hit : ok_item (length db) (S m) it) by (specialize (Hoi a); rewrite Forall_forall in Hoi; apply Hoi; eapply nth_error_In; exact Nit).
    destruct (first_tag _ _ _ Hit) as (_ & _ & E3). apply (answer_advance db (first_secret it) (tl (it_secrets it))). exact E3.
Qed.
End Step.

Lemma par_online_spec db junk N bps : Forall wf_response db -> bytes 52 junk -> forall parties levels,
  par_chain_ok N (length db) bps parties levels ->
  par_online_chain parties db junk (lens (last levels [])) bps (map (map q_of) (hd [] levels)) =
  Ok (map (fun its => (map (map q_of) its, map (map (answer db)) its)) levels, map (map it_key) (last levels [])).
Proof.
  intros F J. induction 1 as [its L Lb Oi K|rps sc rest tb noise its levels Hh Ho Hb Oi On C IH].
  - cbn [par_online_chain hd last map]. rewrite (par_backend_spec db junk N its bps F J L Lb Oi K). reflexivity.
  - cbn [par_online_chain hd].
    destruct (forward_items db N (S (length rest)) tb rps noise its F Hh Oi On (sc_queries sc) Ho) as (rps' & E & Hok' & Hs).
    rewrite E. cbn [bind fst snd]. change (last (its :: nexts N tb noise its :: levels) []) with (last (nexts N tb noise its :: levels) []).
    cbn [hd] in IH. rewrite IH. cbn [bind fst snd map].
    rewrite (backward_items db N (S (length rest)) tb rps noise its F Hh Oi On rps' (sc_responses sc) Hok' Hs Hb). reflexivity.
Qed.

(** ** Facts about the links *)
Record levels_ok (N rows : nat) (parties : list (list sconf)) (ks : list Z) (levels : list (list (list item))) : Prop := {
  lo_length : length levels = S (length parties);
  lo_keys : forall j l, nth_error levels j = Some l ->
    Permutation (map it_key (concat l)) (ks ++ flat_map (party_noise_keys N rows) (firstn j parties));
  lo_shares : forall j l, nth_error levels (S j) = Some l ->
    lens l = map (fun t => Z.of_nat (share_of (length (concat l)) N t)) (seq 0 N);
  lo_carried : forall j l, nth_error levels j = Some l -> incl (map tagged (concat (hd [] levels))) (map tagged (concat l))
}.
Definition unique_tags (l : list (list item)) : Prop :=
  Permutation (map it_tag (concat l)) (map Z.of_nat (seq 0 (length (concat l)))).

Lemma levels_ok_end N rows its : levels_ok N rows [] (map it_key (concat its)) [its].
Proof.
  split; [reflexivity| | |].
  - intros [|j] l E; [|destruct j; discriminate]. inversion E; subst. cbn. rewrite app_nil_r. apply Permutation_refl.
  - intros [|j] l E; discriminate.
  - intros [|j] l E; [|destruct j; discriminate]. inversion E; subst. apply incl_refl.
Qed.

Lemma levels_ok_cons N rows confs parties its next levels (noise : nat -> list item) :
  map it_key (flat_map noise (seq 0 N)) = party_noise_keys N rows confs ->
  Permutation (concat next) (flat_map noise (seq 0 N) ++ map advance (concat its)) ->
  lens next = map (fun t => Z.of_nat (share_of (length (concat next)) N t)) (seq 0 N) ->
  levels_ok N rows parties (map it_key (concat next)) (next :: levels) ->
  levels_ok N rows (confs :: parties) (map it_key (concat its)) (its :: next :: levels).
Proof.
  intros Hk P Hs [L K S C]. split; [cbn in *; lia| | |].
  - intros [|j] l E; cbn [nth_error] in E.
    + inversion E; subst. cbn. rewrite app_nil_r. apply Permutation_refl.
    + apply K in E. eapply Permutation_trans; [exact E|]. cbn [firstn flat_map]. rewrite app_assoc. apply Permutation_app_tail.
      apply (Permutation_map it_key) in P. rewrite map_app, map_key_advance, Hk in P.
      eapply Permutation_trans; [exact P|]. apply Permutation_app_comm.
  - intros [|j] l E; [inversion E; subst; exact Hs|]. apply (S j). exact E.
  - intros [|j] l E; cbn [nth_error hd] in E |- *; [inversion E; subst; apply incl_refl|].
    eapply incl_tran; [|exact (C j l E)]. cbn [hd]. apply (Permutation_map tagged) in P. rewrite map_app, tagged_advance in P.
    intros x H. apply (Permutation_in x (Permutation_sym P)). apply in_or_app. right. exact H.
Qed.

Lemma map_flat_map {A B C} (f : B -> C) (g : A -> list B) l : map f (flat_map g l) = flat_map (fun x => map f (g x)) l.
Proof. induction l as [|x l IH]; [reflexivity|]. cbn. rewrite map_app, IH. reflexivity. Qed.
Lemma flat_map_ext_in {A B} (f g : A -> list B) l : (forall x, In x l -> f x = g x) -> flat_map f l = flat_map g l.
Proof. induction l as [|x l IH]; intros H; [reflexivity|]. cbn. rewrite H, IH; auto; [intros; apply H; right; assumption|left; reflexivity]. Qed.

Lemma party_noise_length N rows confs : length confs = N ->
  length (party_noise_keys N rows confs) = list_sum (map (nz rows N confs) (seq 0 N)).
Proof.
  intros L. unfold party_noise_keys. rewrite flat_map_concat_map, length_concat_sum, map_map. f_equal. apply map_ext_in. intros s Hs. apply in_seq in Hs.
  unfold nz. erewrite (nth_error_nth (noise_counts N rows confs)); [|unfold noise_counts; rewrite nth_error_map_seq by lia; reflexivity].
  destruct (nth_error confs s); [apply server_keys_length|reflexivity].
Qed.
Lemma batch_total N rows confs (its : list (list item)) : length confs = N -> length its = N ->
  list_sum (batch_counts N rows confs (map (fun l => length l) its)) = (length (party_noise_keys N rows confs) + length (concat its))%nat.
Proof.
  intros L Li. rewrite party_noise_length by exact L. rewrite length_concat_sum.
  assert (Ei : list_sum (map (fun l : list item => length l) its) = list_sum (map (fun s => nth s (map (fun l : list item => length l) its) 0%nat) (seq 0 N))).
  { replace N with (length (map (fun l : list item => length l) its)) by (rewrite map_length; exact Li). rewrite nth_seq_all. reflexivity. }
  rewrite Ei. unfold batch_counts. change (fun s => nth s (noise_counts N rows confs) 0 + nth s (map (fun l : list item => length l) its) 0)%nat
    with (fun s => nz rows N confs s + nth s (map (fun l : list item => length l) its) 0)%nat.
  generalize (nz rows N confs) as f. clear. intros f. induction (seq 0 N) as [|s l IH]; [reflexivity|].
  cbn [map list_sum fold_right]. unfold list_sum in IH. rewrite IH. lia.
Qed.

Lemma Forall_next N rows m tb noise its : tb_ok N tb -> length its = N ->
  (forall s, (s < N)%nat -> (length (noise s) + length (nth s its []) = nth s (tb_counts tb) 0)%nat) ->
  forall P : item -> Prop, Forall (Forall (ok_item rows (S m))) its -> (forall s, (s < N)%nat -> Forall P (noise s)) ->
  (forall it, In it (concat its) -> P (advance it)) -> Forall (Forall P) (nexts N tb noise its).
Proof.
  intros HT L HL P Oi Hn Ha. apply Forall_concat. eapply Permutation_Forall; [apply Permutation_sym, nexts_perm; assumption|].
  apply Forall_app. split; [|apply Forall_map, Forall_forall; exact Ha].
  apply Forall_flat_map. apply Forall_forall. intros s Hs. apply in_seq in Hs. apply Hn. lia.
Qed.

(** ** Offline stage *)
Lemma lens_inputs (its : list (list item)) : map Z.of_nat (map (fun l => length l) its) = lens its.
Proof. unfold lens. apply map_map. Qed.

Section Party.
Variables (rng : rng_t) (keys : list (list Z * list Z)) (k rows N : nat) (confs : list sconf) (its : list (list item)).
Hypothesis G : good_siblings rng (length keys) k rows N confs (map (fun l => length l) its).
Hypothesis Htot : Z.of_nat (length (concat its) + length (party_noise_keys N rows confs)) < 2 ^ 32.
Notation m := (length keys - k - 1)%nat.

Lemma total_batch : Z.of_nat (list_sum (batch_counts N rows confs (map (fun l => length l) its))) < 2 ^ 32.
Proof using All.
  rewrite batch_total; [lia|exact (gb_length _ _ _ _ _ _ _ G)|]. rewrite <- (map_length (fun l : list item => length l)). exact (gb_inputs _ _ _ _ _ _ _ G).
Qed.

(** Common facts about the messages that leave a party. *)
Lemma next_facts tb noise : tb_ok N tb -> tb_counts tb = batch_counts N rows confs (map (fun l => length l) its) ->
  (forall s, (s < N)%nat -> tb_noise tb s = nz rows N confs s) ->
  (forall s sf, nth_error confs s = Some sf -> map it_key (noise s) = server_noise_keys N rows s (sf_conf sf)) ->
  (forall s, (s < N)%nat -> (length (noise s) + length (nth s its []) = nth s (tb_counts tb) 0)%nat) /\
  map it_key (flat_map noise (seq 0 N)) = party_noise_keys N rows confs /\
  Permutation (concat (nexts N tb noise its)) (flat_map noise (seq 0 N) ++ map advance (concat its)) /\
  length (concat (nexts N tb noise its)) = (length (party_noise_keys N rows confs) + length (concat its))%nat /\
  lens (nexts N tb noise its) = map (fun t => Z.of_nat (share_of (length (concat (nexts N tb noise its))) N t)) (seq 0 N) /\
  next_counts rows N confs its = lens (nexts N tb noise its).
Proof using All.
  intros HT Et En Hk. pose proof (gb_length _ _ _ _ _ _ _ G) as L.
  assert (Li : length its = N) by (rewrite <- (map_length (fun l : list item => length l)); exact (gb_inputs _ _ _ _ _ _ _ G)).
  assert (HL : forall s, (s < N)%nat -> (length (noise s) + length (nth s its []) = nth s (tb_counts tb) 0)%nat).
  { intros s Hs. rewrite Et. unfold batch_counts. erewrite (nth_error_nth (map _ (seq 0 N))); [|rewrite nth_error_map_seq by exact Hs; reflexivity].
    rewrite input_nth. f_equal. destruct (get_lt confs s ltac:(lia)) as (sf & _ & Nf).
    rewrite <- (map_length it_key), (Hk s sf Nf), server_keys_length. symmetry. apply (nz_conf rng _ k rows N confs _ G total_batch s sf Nf). }
  assert (P : Permutation (concat (nexts N tb noise its)) (flat_map noise (seq 0 N) ++ map advance (concat its))) by (apply nexts_perm; assumption).
  assert (Kn : map it_key (flat_map noise (seq 0 N)) = party_noise_keys N rows confs).
  { rewrite map_flat_map. unfold party_noise_keys. apply flat_map_ext_in. intros s Hs. apply in_seq in Hs.
    destruct (get_lt confs s ltac:(lia)) as (sf & _ & Nf). rewrite Nf. apply Hk. exact Nf. }
  assert (Ln : length (concat (nexts N tb noise its)) = (length (party_noise_keys N rows confs) + length (concat its))%nat).
  { rewrite (Permutation_length P), app_length, map_length. f_equal. rewrite <- Kn, map_length. reflexivity. }
  assert (Ec : next_counts rows N confs its = lens (nexts N tb noise its)) by (apply (next_sizes rng keys k); auto using total_batch).
  repeat split; auto. rewrite <- Ec, Ln. unfold next_counts. rewrite batch_total by assumption. reflexivity.
Qed.

(** Tags of the fake queries. *)
Section Tags.
Variables (c : nat).
Hypothesis Hconst : forall s sf i, nth_error confs s = Some sf -> (i < key_count N rows s)%nat -> pf_samples (sf_conf sf) i = Z.of_nat c.

Lemma noise_item_tags n : (n <= N)%nat ->
  map it_tag (flat_map (server_noise_items keys k rows N confs its c) (seq 0 n)) =
  map Z.of_nat (seq (length (concat its)) (before rows N n * c)).
Proof using All.
  induction n as [|n IH]; intros Hn; [reflexivity|]. rewrite seq_S, flat_map_app, map_app, IH by lia. cbn [flat_map Nat.add]. rewrite app_nil_r.
  destruct (get_lt confs n) as (sf & _ & Nf); [rewrite (gb_length _ _ _ _ _ _ _ G); lia|].
  unfold server_noise_items. rewrite Nf, gen_tags, server_keys_length.
  rewrite <- (nz_conf rng _ k rows N confs _ G total_batch n sf Nf), (nz_const rng _ k rows N confs _ c G total_batch Hconst n) by lia.
  unfold first_tag_of. rewrite <- map_app. f_equal. rewrite length_concat_sum, <- seq_app. f_equal.
  unfold before. rewrite seq_S, map_app, list_sum_app. cbn [map list_sum fold_right Nat.add]. lia.
Qed.

Lemma next_tags tb : unique_tags its ->
  Permutation (concat (nexts N tb (server_noise_items keys k rows N confs its c) its))
    (flat_map (server_noise_items keys k rows N confs its c) (seq 0 N) ++ map advance (concat its)) ->
  unique_tags (nexts N tb (server_noise_items keys k rows N confs its c) its).
Proof using All.
  intros U P. unfold unique_tags in *. pose proof (noise_item_tags N (Nat.le_refl N)) as E. rewrite (before_all rng _ k rows N confs _ c G total_batch Hconst) in E.
  pose proof (f_equal (fun l => length l) E) as EL. cbn beta in EL. rewrite !map_length, seq_length in EL.
  eapply Permutation_trans; [apply Permutation_map; exact P|]. rewrite (Permutation_length P), app_length, EL, map_length.
  rewrite map_app, E, map_tag_advance, Nat.add_comm, seq_app, map_app. cbn [Nat.add].
  eapply Permutation_trans; [apply Permutation_app_comm|]. apply Permutation_app_tail. exact U.
Qed.
End Tags.
End Party.

Lemma opens_lens b ks css its : Forall2 (Forall2 (opens b ks)) css its -> lens css = lens its.
Proof. induction 1 as [|cs l css its H _ IH]; [reflexivity|]. cbn. rewrite (Forall2_len _ _ _ H). unfold lens in IH. rewrite IH. reflexivity. Qed.

Definition traffic_of (ns : list nat) (t s : nat) : nat := if (s =? t)%nat then 0%nat else nth s ns 0%nat.
Lemma traffic_lens ns (its : list (list item)) t s : map (fun l => length l) its = ns -> secret_traffic its t s = traffic_of ns t s.
Proof.
  intros <-. unfold secret_traffic, traffic_of. destruct (s =? t)%nat; [reflexivity|]. symmetry.
  exact (map_nth (fun l : list item => length l) its [] s).
Qed.

Section Stage.
Variables (b : sealbox) (rng : rng_t) (iter : iteration) (keys : list (list Z * list Z)) (rows N : nat) (bpk bsk : list Z).
Hypothesis Hbox : forall pk sk, In (pk, sk) keys -> box_ok b pk sk.
Hypothesis H255 : (length keys <= 255)%nat.
Hypothesis Ht : tiled N rows.
Hypothesis Hiter : forall i l, Permutation (iter i l) l.

Lemma backend_parts its : length its = N -> Forall (Forall (ok_item rows 1)) its -> NoDup (map it_tag (concat its)) ->
  Z.of_nat (length (concat its)) < 2 ^ 32 ->
  forall css, Forall2 (Forall2 (opens b [(bpk, bsk)])) css its ->
  exists st, (forall i, (i < N)%nat -> length (nth i css []) = length (nth i its []) /\
      fold_res (backend_handle_cipher b true bpk bsk) (nth i css []) (qs_initialize_state qs_new false) = Ok (st i) /\
      qs_map (st i) = rev (map entry (map drop_next (map first_secret (nth i its []))))) /\
    forall border, complete N (secret_traffic its) border ->
    exists bps, broadcast_secrets backend_pack (bs_store true) iter (map st (seq 0 N)) border = Ok bps /\ length bps = N /\
      forall i p, nth_error bps i = Some p -> Forall (knows_last p) (nth i its []).
Proof using All.
  intros L Oi ND Hl css F2. pose proof Ht as ((T1 & _) & _).
  assert (Oc : Forall (ok_item rows 1) (concat its)) by (apply Forall_concat; exact Oi).
  set (secrets := map (map first_secret) its).
  assert (Ec : concat secrets = map first_secret (concat its)) by (symmetry; apply concat_map).
  assert (NDs : NoDup (map o_tag (concat secrets))) by (rewrite Ec, (map_first_tag rows 0) by exact Oc; exact ND).
  assert (Hst : forall i, (i < N)%nat -> exists p,
    install_all_backend true (qs_initialize_state qs_new false) (map first_secret (nth i its [])) = Ok p /\
    qs_map p = rev (map entry (map drop_next (map first_secret (nth i its []))))).
  { intros i Hi. rewrite bs_install. assert (Nd : NoDup (map o_tag (map first_secret (nth i its [])))).
    { rewrite (map_first_tag rows 0).
      - destruct (nth_split its [] (n := i)) as (l1 & l2 & E & _); [lia|]. rewrite E, concat_app, map_app in ND. cbn [concat] in ND.
        apply NoDup_app_r in ND. rewrite map_app in ND. apply NoDup_app_l in ND. exact ND.
      - rewrite Forall_forall in Oi. apply Oi. apply nth_In. lia. }
    destruct (install_spec true (map drop_next (map first_secret (nth i its []))) (qs_initialize_state qs_new false)) as (p & E & _ & Em).
    - rewrite (map_map _ o_tag). exact Nd.
    - intros; reflexivity.
    - exists p. split; [exact E|]. rewrite Em. apply app_nil_r. }
  destruct (choose_fun N (fun i p => install_all_backend true (qs_initialize_state qs_new false) (map first_secret (nth i its [])) = Ok p /\
    qs_map p = rev (map entry (map drop_next (map first_secret (nth i its [])))))) as (st & Hs); [lia|exact Hst|].
  assert (Ls : length secrets = N) by (unfold secrets; rewrite map_length; exact L).
  exists st. split.
  - intros i Hi. destruct (get_lt its i ltac:(lia)) as (l & _ & Nl).
    destruct (get_lt css i) as (cs & _ & Nc); [rewrite (Forall2_len _ _ _ F2); lia|].
    pose proof (Forall2_nth_err _ _ _ i _ _ F2 Nc Nl) as Fc. destruct (Hs i Hi) as (H1 & H2).
    rewrite (nth_error_nth _ _ _ Nc), (nth_error_nth _ _ _ Nl) in *. split; [apply (Forall2_len _ _ _ Fc)|]. split; [|exact H2].
    apply (backend_install b bpk bsk cs l Fc). exact H1.
  - intros border Ho. destruct (c48_backend true iter secrets (map st (seq 0 N)) border Hiter) as (bps & Eb & Lb & Fb).
    + rewrite <- (nth_seq_all [] secrets), Ls. apply Forall2_map_seq. intros i Hi. unfold secrets.
      change (@nil osecret) with (map first_secret []). rewrite (map_nth (map first_secret)). apply Hs. exact Hi.
    + exact NDs.
    + rewrite Ec, map_length. exact Hl.
    + rewrite Ls. eapply complete_ext; [|exact Ho]. intros t s _ _. unfold secret_traffic, secrets.
      change (@nil osecret) with (map first_secret []). rewrite (map_nth (map first_secret)), map_length. reflexivity.
    + exists bps. split; [exact Eb|]. split; [lia|].
      intros i p Np. rewrite Forall_forall in Fb. destruct (Fb p (nth_error_In _ _ Np)) as (Sim & Pm).
      apply Forall_forall. intros it Hin.
      assert (Hin' : In it (concat its)).
      { destruct (Nat.lt_ge_cases i (length its)) as [Hi|Hi]; [|rewrite nth_overflow in Hin by exact Hi; contradiction].
        apply in_concat. exists (nth i its []). split; [apply nth_In; exact Hi|exact Hin]. }
      rewrite Forall_forall in Oc. destruct (first_tag rows 0 it (Oc it Hin')) as (U1 & U2 & U3).
      exists (first_secret it), (tl (it_secrets it)), 0. split; [exact U3|]. rewrite Sim.
      assert (Et : map o_tag (map drop_next (concat secrets)) = map o_tag (concat secrets)) by (rewrite map_map; reflexivity).
      pose proof (find_in_perm _ _ (drop_next (first_secret it)) ltac:(rewrite Et; exact NDs) Pm) as Ef.
      cbn [drop_next o_tag] in Ef. rewrite U1 in Ef. rewrite Ef; [reflexivity|]. apply in_map. rewrite Ec. apply in_map. exact Hin'.
Qed.

Lemma par_backend_install its : length its = N -> Forall (Forall (ok_item rows 1)) its -> NoDup (map it_tag (concat its)) ->
  Z.of_nat (length (concat its)) < 2 ^ 32 ->
  forall css border, Forall2 (Forall2 (opens b [(bpk, bsk)])) css its -> complete N (secret_traffic its) border ->
  exists bps, par_backend_offline b true bpk bsk iter (lens its) css border = Ok bps /\ length bps = N /\
    forall i p, nth_error bps i = Some p -> Forall (knows_last p) (nth i its []).
Proof using All.
  intros L Oi ND Hl css border F2 Ho. pose proof Ht as ((T1 & _) & _).
  destruct (backend_parts its L Oi ND Hl css F2) as (st & Hs & Hall). destruct (Hall border Ho) as (bps & Eb & Lb & Fb).
  exists bps. split; [|auto]. unfold par_backend_offline, lens. rewrite map_length, L. rewrite (map_res_seq _ st).
  - cbn [bind]. destruct (Nat.ltb_spec 1 N); [exact Eb|lia].
  - intros i Hi. destruct (Hs i Hi) as (H1 & H2 & _). destruct (get_lt its i ltac:(lia)) as (l & _ & Nl).
    destruct (get_lt css i) as (cs & _ & Nc); [rewrite (Forall2_len _ _ _ F2); lia|]. rewrite (nth_error_nth _ _ _ Nc), (nth_error_nth _ _ _ Nl) in *.
    unfold get. rewrite nth_error_map, Nl, Nc. cbn [option_map bind]. unfold backend_offline.
    rewrite Nat2Z.id, recv_all by exact H1. exact H2.
Qed.

(** The messages on the links behind [k] parties, by the tables and the number of
    fake queries per key of each party; [its] are those sent to the first. *)
Fixpoint par_below (k : nat) (plan : list (tables * nat)) (parties : list (list sconf)) (its : list (list item)) : list (list (list item)) :=
  match plan, parties with
  | (tb, c) :: plan', confs :: rest =>
      let next := nexts N tb (server_noise_items keys k rows N confs its c) its in
      next :: par_below (S k) plan' rest next
  | _, _ => []
  end.

Lemma par_offline_chain_spec : forall parties k ns,
  (S k + length parties = length keys)%nat ->
  nth_error keys (k + length parties) = Some (bpk, bsk) ->
  (forall j confs, nth_error parties j = Some confs -> length confs = N /\
    (exists shared, (forall i, 0 <= rng shared i <= 2 ^ 31 - 1) /\
      forall s sf, nth_error confs s = Some sf -> good_server rng (length keys) (k + j) rows N shared s sf) /\
    (forall s sf, nth_error confs s = Some sf -> pf_pkeys (sf_conf sf) = map fst keys /\
       nth_error keys (k + j) = Some (pf_pkey (sf_conf sf), pf_skey (sf_conf sf)) /\
       good_rand (pf_rand (sf_conf sf)) (server_noise N rows s (sf_conf sf)) (length keys - (k + j) - 1)) /\
    exists c, forall s sf i, nth_error confs s = Some sf -> (i < key_count N rows s)%nat -> pf_samples (sf_conf sf) i = Z.of_nat c) ->
  Z.of_nat (list_sum ns + length (flat_map (party_noise_keys N rows) parties)) < 2 ^ 32 ->
  length ns = N ->
  exists trs btr plan, length trs = length parties /\ length plan = length parties /\
  forall its, map (fun l => length l) its = ns -> Forall (Forall (ok_item rows (length keys - k))) its -> unique_tags its ->
    let levels := par_below k plan parties its in
    levels_ok N rows parties (map it_key (concat its)) (its :: levels) /\ Forall unique_tags (its :: levels) /\
  forall css scs border, Forall2 (Forall2 (opens b (skipn k keys))) css its -> Forall2 (fits N) trs scs -> complete N btr border ->
  exists links states bps,
    par_offline_chain b true rng iter (combine parties scs) bpk bsk border (lens its) css = Ok (links, states, bps) /\
    par_chain_ok N rows bps (combine states scs) (its :: levels) /\
    map fst links = map lens (its :: levels) /\ map (fun l => lens (snd l)) links = map lens (its :: levels) /\
    length states = length parties /\
    forall j l, nth_error links j = Some l -> Forall2 (Forall2 (opens b (skipn (k + j) keys))) (snd l) (nth j (its :: levels) []).
Proof using All.
  induction parties as [|confs parties IH]; intros k ns Hk Hbk Gp Htot Ln0.
  - cbn [length] in *. rewrite Nat.add_0_r in *. cbn [flat_map] in Htot.
    assert (Ek : skipn k keys = [(bpk, bsk)]).
    { rewrite (skipn_nth _ _ _ Hbk). f_equal. apply skipn_all2. lia. }
    exists [], (traffic_of ns), []. split; [reflexivity|]. split; [reflexivity|]. intros its Ens Oi U. cbn [par_below]; cbv zeta.
    assert (L : length its = N) by (rewrite <- (map_length (fun l : list item => length l)), Ens; exact Ln0).
    replace (length keys - k)%nat with 1%nat in Oi by lia.
    split; [apply levels_ok_end|]. split; [constructor; [exact U|constructor]|].
    intros css scs border F2 Fs Hb. inversion Fs; subst scs. pose proof F2 as F2'. rewrite Ek in F2.
    assert (Hlt : Z.of_nat (length (concat its)) < 2 ^ 32) by (rewrite length_concat_sum, Ens; cbn [length] in Htot; lia).
    destruct (par_backend_install its L Oi (NoDup_tags _ _ _ U) Hlt css border F2) as (bps & E & Lb & K).
    + eapply complete_ext; [|exact Hb]. intros t s _ _. symmetry. apply traffic_lens. exact Ens.
    + cbn [combine par_offline_chain]. rewrite E. cbn [bind]. exists [(lens its, css)], [], bps. split; [reflexivity|].
      split; [constructor; assumption|]. split; [reflexivity|]. split; [|split; [reflexivity|]].
      * cbn. f_equal. eapply opens_lens. exact F2.
      * intros [|j] l Nl; [|destruct j; discriminate]. injection Nl as <-. rewrite Nat.add_0_r. exact F2'.
  - cbn [length flat_map] in *. rewrite app_length in Htot.
    destruct (Gp 0%nat confs eq_refl) as (Lc & GS & GK & c & Hc). rewrite Nat.add_0_r in GS, GK.
    assert (G : good_siblings rng (length keys) k rows N confs ns) by (split; auto; lia).
    set (its0 := map (repeat no_item) ns).
    assert (Ens0 : map (fun l : list item => length l) its0 = ns).
    { unfold its0. rewrite map_map. rewrite <- (map_id ns) at 2. apply map_ext. intros n. apply repeat_length. }
    clearbody its0.
    assert (Htb : forall its : list (list item), map (fun l => length l) its = ns -> Z.of_nat (length (concat its) + length (party_noise_keys N rows confs)) < 2 ^ 32).
    { intros its Ens. rewrite length_concat_sum, Ens. lia. }
    assert (Hsum : Z.of_nat (list_sum (batch_counts N rows confs ns)) < 2 ^ 32).
    { rewrite <- Ens0. apply (total_batch rng keys k); [rewrite Ens0; exact G|apply Htb; exact Ens0]. }
    destruct (fitting_exists rng keys k rows N confs its0) as (tb & Hfit); [rewrite Ens0; exact G|rewrite Ens0; exact Hsum|].
    rewrite Ens0 in Hfit. pose proof Hfit as (HT & Et & En & _).
    set (noise := server_noise_items keys k rows N confs its0 c) in *.
    assert (Hnoise : forall its, map (fun l => length l) its = ns -> server_noise_items keys k rows N confs its c = noise).
    { intros its Ens. unfold noise, server_noise_items, first_tag_of. rewrite Ens, Ens0. reflexivity. }
    assert (Hkn : forall s sf, nth_error confs s = Some sf -> map it_key (noise s) = server_noise_keys N rows s (sf_conf sf)).
    { intros s sf Nf. unfold noise, server_noise_items. rewrite Nf. apply gen_keys. }
    assert (Hnext : forall its, map (fun l => length l) its = ns ->
      map (fun l => length l) (nexts N tb noise its) = map (share_of (list_sum (batch_counts N rows confs ns)) N) (seq 0 N)).
    { intros its Ens.
      destruct (next_facts rng keys k rows N confs its ltac:(rewrite Ens; exact G) (Htb its Ens) tb noise HT ltac:(rewrite Ens; exact Et) En Hkn) as (_ & _ & _ & _ & _ & Enc).
      unfold next_counts in Enc. rewrite Ens, <- lens_inputs in Enc. rewrite <- (map_map _ Z.of_nat) in Enc.
      symmetry. revert Enc. generalize (map (share_of (list_sum (batch_counts N rows confs ns)) N) (seq 0 N)) as xs, (map (fun l : list item => length l) (nexts N tb noise its)) as ys.
      induction xs as [|x xs IHx]; intros [|y ys] E; cbn [map] in E; try discriminate; [reflexivity|]. injection E as E1 E2. f_equal; [lia|auto]. }
    destruct (IH (S k) (map (share_of (list_sum (batch_counts N rows confs ns)) N) (seq 0 N))) as (trs & btr & plan & Lt & Lp & Hrun).
    + lia.
    + rewrite Nat.add_succ_l, <- Nat.add_succ_r. exact Hbk.
    + intros j cf' Nf. rewrite Nat.add_succ_l, <- Nat.add_succ_r. apply (Gp (S j) cf' Nf).
    + destruct (next_facts rng keys k rows N confs its0 ltac:(rewrite Ens0; exact G) (Htb its0 Ens0) tb noise HT ltac:(rewrite Ens0; exact Et) En Hkn) as (_ & _ & _ & Ln & _).
      rewrite <- (Hnext its0 Ens0), <- length_concat_sum, Ln, length_concat_sum, Ens0. lia.
    + rewrite map_length, seq_length. reflexivity.
    + exists ({| tr_forward := from (tb_M tb) (tb_counts tb); tr_secrets := traffic_of ns; tr_back := back_traffic tb |} :: trs), btr, ((tb, c) :: plan).
      split; [cbn; lia|]. split; [cbn; lia|]. intros its Ens Oi U. cbn [par_below]. cbv zeta. rewrite (Hnoise its Ens).
      assert (L : length its = N) by (rewrite <- (map_length (fun l : list item => length l)), Ens; exact Ln0).
      assert (Gi : good_siblings rng (length keys) k rows N confs (map (fun l => length l) its)) by (rewrite Ens; exact G).
      assert (Hsi : Z.of_nat (list_sum (batch_counts N rows confs (map (fun l => length l) its))) < 2 ^ 32) by (rewrite Ens; exact Hsum).
      destruct (next_facts rng keys k rows N confs its Gi (Htb its Ens) tb noise HT ltac:(rewrite Ens; exact Et) En Hkn) as (HL & Kn & P & Ln & Hsh & Enc).
      replace (length keys - k)%nat with (S (length keys - k - 1)) in Oi by lia.
      set (next := nexts N tb noise its) in *.
      assert (On : Forall (Forall (ok_item rows (length keys - S k))) next).
      { replace (length keys - S k)%nat with (length keys - k - 1)%nat by lia.
        apply (Forall_next N rows (length keys - k - 1) tb noise its HT L HL _ Oi).
        - intros s Hs. destruct (get_lt confs s ltac:(lia)) as (sf & _ & Nf). rewrite <- (Hnoise its Ens). unfold server_noise_items. rewrite Nf.
          pose proof Ht as (_ & _ & Hr & _). destruct (GK s sf Nf) as (_ & _ & Gr).
          pose proof (tag_room rng keys k rows N confs its Gi Hsi b c iter Hbox H255 Hc Hiter GK s Hs) as Hroom.
          rewrite (nz_conf rng _ k rows N confs _ Gi Hsi s sf Nf) in Hroom.
          apply gen_items_ok; rewrite ?server_keys_length; auto.
          + apply server_keys_bound; auto.
          + lia.
        - intros it Hin. apply ok_advance. rewrite Forall_forall in Oi. apply in_concat in Hin. destruct Hin as (l & H1 & H2).
          specialize (Oi l H1). rewrite Forall_forall in Oi. apply Oi. exact H2. }
      assert (Un : unique_tags next).
      { unfold next in P |- *. rewrite <- (Hnoise its Ens) in P |- *. apply (next_tags rng keys k rows N confs its Gi (Htb its Ens) c Hc tb U P). }
      destruct (Hrun next (Hnext its Ens) On Un) as (LO & LU & Hgo). cbv zeta in *. set (levels := par_below (S k) plan parties next) in *.
      split; [apply (levels_ok_cons N rows confs parties its next levels noise Kn P Hsh LO)|].
      split; [constructor; assumption|].
      intros css scs border F2 Fs Hb. inversion Fs as [|tr sc trs' scs' (F1' & F2' & F3' & F4') Fs' Et1 Et2]; subst scs; clear Et1. cbn [tr_forward tr_secrets tr_back] in *.
      destruct (par_offline_spec rng keys k rows N confs its Gi Hsi b c iter Hbox H255 Hc Hiter GK tb ltac:(rewrite Ens; exact Hfit) Oi (NoDup_tags _ _ _ U) css (sc_ciphers sc) (sc_secrets sc) F2 F1')
        as (css' & rps & E & Hh & F2n).
      { eapply complete_ext; [|exact F2']. intros t s _ _. symmetry. apply traffic_lens. exact Ens. }
      rewrite (Hnoise its Ens) in Hh, F2n. fold next in F2n.
      destruct (Hgo css' scs' border F2n Fs' Hb) as (links & states & bps & E' & C & Lf & Lcs & Lst & Lo).
      cbn [combine par_offline_chain]. rewrite <- lens_inputs, E. cbn [bind]. rewrite Enc, E'. cbn [bind].
      exists ((map Z.of_nat (map (fun l => length l) its), css) :: links), (rps :: states), bps. split; [reflexivity|].
      assert (Lcomb : length (combine states scs') = length parties).
      { rewrite combine_length, Lst, <- Lt, (Forall2_len _ _ _ Fs'). lia. }
      split; [|split; [|split; [|split]]].
      * cbn [combine]. apply par_chain_party; auto.
        -- rewrite Lcomb. replace (S (length parties)) with (length keys - k - 1)%nat by lia. exact Oi.
        -- rewrite Lcomb. replace (S (length parties)) with (length keys - S k)%nat by lia. exact On.
      * cbn [map fst]. rewrite lens_inputs. f_equal. exact Lf.
      * cbn [map snd]. rewrite Lcs. f_equal. eapply opens_lens. exact F2.
      * cbn. lia.
      * intros [|j] l Nl; cbn [nth_error nth] in Nl |- *; [injection Nl as <-; rewrite Nat.add_0_r; exact F2|].
        rewrite Nat.add_succ_r, <- Nat.add_succ_l. exact (Lo j l Nl).
Qed.
End Stage.

(** ** Simulated offline stage *)
Section Simulated.
Variables (rng : rng_t) (keys : list (list Z * list Z)) (rows N : nat).
Hypothesis H255 : (length keys <= 255)%nat.
Hypothesis Ht : tiled N rows.

Lemma par_simulate_chain_spec : forall parties k its,
  (S k + length parties = length keys)%nat ->
  (forall j confs, nth_error parties j = Some confs -> length confs = N /\
    (exists shared, (forall i, 0 <= rng shared i <= 2 ^ 31 - 1) /\
      forall s sf, nth_error confs s = Some sf -> good_server rng (length keys) (k + j) rows N shared s sf)) ->
  Z.of_nat (length (concat its) + length (flat_map (party_noise_keys N rows) parties)) < 2 ^ 32 ->
  length its = N -> Forall (Forall (ok_item rows (length keys - k))) its -> Forall (Forall (is_sim (length keys - k))) its ->
  exists trs levels states bps, length trs = length parties /\ length states = length parties /\
    levels_ok N rows parties (map it_key (concat its)) (its :: levels) /\
  forall scs, Forall2 (fits_online N) trs scs ->
    par_simulate_chain true rng (combine parties scs) (lens its) = Ok (map lens (its :: levels), states, bps) /\
    par_chain_ok N rows bps (combine states scs) (its :: levels).
Proof using All.
  induction parties as [|confs parties IH]; intros k its Hk Gp Htot L Oi Si.
  - cbn [length] in *. replace (length keys - k)%nat with 1%nat in Oi, Si by lia.
    exists [], [], [], (map (fun _ => backend_simulate) (lens its)). split; [reflexivity|]. split; [reflexivity|]. split; [apply levels_ok_end|].
    intros scs Fs. inversion Fs; subst scs. split; [reflexivity|]. cbn [combine]. constructor.
    + exact L.
    + unfold lens. rewrite !map_length. exact L.
    + exact Oi.
    + intros i p Np. rewrite nth_error_map in Np. destruct (nth_error (lens its) i); [|discriminate]. inversion Np; subst p.
      destruct (Nat.lt_ge_cases i (length its)) as [Hi|Hi]; [|rewrite nth_overflow by exact Hi; constructor].
      rewrite Forall_forall in Si. eapply Forall_impl; [|apply Si, nth_In; exact Hi].
      intros it H. apply knows_knows_last. apply (sim_knows 0 it H).
  - cbn [length flat_map] in *. rewrite app_length in Htot.
    destruct (Gp 0%nat confs eq_refl) as (Lc & GS). rewrite Nat.add_0_r in GS.
    assert (G : good_siblings rng (length keys) k rows N confs (map (fun l => length l) its)).
    { split; auto; [lia|rewrite map_length; exact L]. }
    assert (Htb : Z.of_nat (length (concat its) + length (party_noise_keys N rows confs)) < 2 ^ 32) by lia.
    pose proof (total_batch rng keys k rows N confs its G Htb) as Hsum.
    replace (length keys - k)%nat with (S (length keys - k - 1)) in Oi, Si by lia.
    destruct (par_simulate_spec rng keys k rows N confs its G Hsum H255 ltac:(apply Forall_forall; exact Si))
      as (tb & HT & Et & En & rps & Esim & Hh).
    set (noise := sim_server_noise keys k rows N confs) in *.
    assert (Hkn : forall s sf, nth_error confs s = Some sf -> map it_key (noise s) = server_noise_keys N rows s (sf_conf sf)).
    { intros s sf Nf. unfold noise, sim_server_noise. rewrite Nf, map_map. apply map_id. }
    destruct (next_facts rng keys k rows N confs its G Htb tb noise HT Et En Hkn) as (HL & Kn & P & Ln & Hsh & Enc).
    set (next := nexts N tb noise its) in *.
    assert (Hin : forall (Q : item -> Prop) it, Forall (Forall Q) its -> In it (concat its) -> Q it).
    { intros Q it F Hin. rewrite Forall_forall in F. apply in_concat in Hin. destruct Hin as (l & H1 & H2).
      specialize (F l H1). rewrite Forall_forall in F. apply F. exact H2. }
    assert (On : Forall (Forall (ok_item rows (length keys - S k))) next).
    { replace (length keys - S k)%nat with (length keys - k - 1)%nat by lia.
      apply (Forall_next N rows (length keys - k - 1) tb noise its HT L HL _ Oi).
      - intros s Hs. destruct (get_lt confs s ltac:(lia)) as (sf & _ & Nf). unfold noise, sim_server_noise. rewrite Nf.
        pose proof Ht as (_ & _ & Hr & _). apply Forall_map. eapply Forall_impl; [|apply server_keys_bound; eauto].
        intros key Hkey. apply sim_item_ok; assumption.
      - intros it Hit. apply ok_advance. apply (Hin _ it Oi Hit). }
    assert (Sn : Forall (Forall (is_sim (length keys - S k))) next).
    { replace (length keys - S k)%nat with (length keys - k - 1)%nat by lia.
      apply (Forall_next N rows (length keys - k - 1) tb noise its HT L HL _ Oi).
      - intros s Hs. unfold noise, sim_server_noise. destruct (nth_error confs s); [|constructor].
        apply Forall_map. apply Forall_forall. intros; apply is_sim_item.
      - intros it Hit. apply is_sim_advance. apply (Hin _ it Si Hit). }
    destruct (IH (S k) next) as (trs & levels & states & bps & Lt & Lst & LO & Hrun).
    + lia.
    + intros j cf' Nf. rewrite Nat.add_succ_l, <- Nat.add_succ_r. apply (Gp (S j) cf' Nf).
    + rewrite Ln. lia.
    + apply nexts_length.
    + exact On.
    + exact Sn.
    + exists ({| tr_forward := from (tb_M tb) (tb_counts tb); tr_secrets := fun _ _ => 0%nat; tr_back := back_traffic tb |} :: trs), (next :: levels), (rps :: states), bps.
      split; [cbn; lia|]. split; [cbn; lia|]. split; [apply (levels_ok_cons N rows confs parties its next levels noise Kn P Hsh LO)|].
      intros scs Fs. inversion Fs as [|tr sc trs' scs' (F1' & F2') Fs']; subst. cbn [tr_forward tr_secrets tr_back] in *.
      destruct (Hrun scs' Fs') as (E' & C).
      cbn [combine par_simulate_chain]. rewrite <- lens_inputs, Esim. cbn [bind fst snd]. rewrite Enc, E'. cbn [bind map]. rewrite lens_inputs.
      split; [reflexivity|].
      assert (Lcomb : length (combine states scs') = length parties).
      { rewrite combine_length, Lst, <- Lt, (Forall2_len _ _ _ Fs'). lia. }
      apply par_chain_party; auto.
      * rewrite Lcomb. replace (S (length parties)) with (length keys - k - 1)%nat by lia. exact Oi.
      * rewrite Lcomb. replace (S (length parties)) with (length keys - S k)%nat by lia. exact On.
Qed.
End Simulated.

(** ** Clients *)
Lemma client_offline_at b rows keys s r qs :
  (forall pk sk, In (pk, sk) keys -> box_ok b pk sk) -> (length keys <= 255)%nat ->
  good_rand r (length qs) (length keys) -> Z.of_nat rows <= 2 ^ 31 - 1 ->
  Forall (fun k => 0 <= k < Z.of_nat rows) qs -> Z.of_nat (s * length qs + length qs) < 2 ^ 32 ->
  let items := gen_items (length keys) r (s * length qs) qs in
  exists cs st, client_offline b true (Z.of_nat s) (length keys) (map fst keys) r (length qs) = Ok (cs, st) /\
    Forall2 (opens b keys) cs items /\ client_ready st items.
Proof.
  intros Hb H255 G Hr Fk Ht items. set (m := length keys) in *. set (N := length qs) in *. set (t0 := (s * N)%nat) in *.
  set (done := fun i => map (fun i => (Z.of_nat (t0 + i), rnd_incs r m i, xor_all (rn_masks r i))) (seq 0 i)).
  unfold client_offline.
  destruct (cs_init_at cs_new m qs) as (st0 & E0 & A0). fold N in E0, A0. rewrite Nat.add_0_r in A0. rewrite E0. cbn [bind].
  set (body := fun (i : nat) (s : list (list Z) * cstate) => _).
  destruct (for_inv (fun i s => Forall2 (opens b keys) (fst s) (map (gen_item m r t0 qs) (seq 0 i)) /\ cs_at (snd s) (done i) (N - i))
    N 0 body ([], st0)) as (st & E & I).
  - cbn [fst snd seq map]. rewrite Nat.sub_0_r. split; [constructor|exact A0].
  - intros i [cs st] Hi (F2 & A). cbn [fst snd] in *. destruct (G i) as (Gd & Gl & Gm); [fold N; lia|].
    destruct (make_shares _ _ _ m (Z.of_nat (t0 + i)) Gd Gl Gm) as (Li & Wi & Eg & Es).
    unfold body. cbn [fst snd]. unfold client_make_secret, client_sample_tag.
    assert (Etag : w32 (w32 (Z.of_nat s * Z.of_nat N) + Z.of_nat i) = Z.of_nat (t0 + i)).
    { replace (Z.of_nat s * Z.of_nat N) with (Z.of_nat t0) by (unfold t0; lia). rewrite (w32_id (Z.of_nat t0)) by (unfold u32; lia).
      rewrite w32_id by (unfold u32; lia). lia. }
    rewrite Etag, Eg. cbn [bind]. rewrite Es. cbn [bind fst snd].
    unfold at_. rewrite nth_error_app2 by lia. replace (m - length (rn_masks r i))%nat with 0%nat by (rewrite Gl; lia).
    cbn [nth_error bind].
    replace (N - i)%nat with (S (N - S i)) in A by lia.
    destruct (cs_at_step st (done i) (N - S i) (Z.of_nat (t0 + i), rnd_incs r m i, xor_all (rn_masks r i)) A) as (st' & En & A').
    { unfold done. rewrite map_length, seq_length. lia. }
    cbn [fst snd] in En. unfold rnd_incs in En. rewrite En. cbn [bind fst snd].
    destruct (gen_item_ok rows m r t0 qs i G Hr Fk) as [Oi _]; [fold N; lia|fold N; lia|].
    destruct (encrypt_item b keys 0 (rn_coins r i) (rn_junk1 r i) (rn_junk2 r i) (gen_item m r t0 qs i) rows m Hb H255 Oi eq_refl)
      as (c & Ec & Lc & Oc).
    change (mk_secrets (Z.of_nat (t0 + i)) (pre_incremental_secret_shares (rn_x r i) (rn_y r i) m) (rn_masks r i))
      with (it_secrets (gen_item m r t0 qs i)).
    fold m in Ec. rewrite Ec. cbn [bind]. eexists. split; [reflexivity|]. cbn [fst snd]. split.
    + rewrite seq_S, map_app. apply Forall2_app; [exact F2|]. constructor; [exact Oc|constructor].
    + unfold done. rewrite seq_S, map_app. exact A'.
  - cbn [Nat.add] in I. rewrite Nat.sub_diag in I. destruct I as [F2 A]. exists (fst st), (snd st).
    split; [rewrite <- surjective_pairing; exact E|]. split; [exact F2|].
    intros i it Nit. assert (Hi : (i < N)%nat).
    { unfold N. rewrite <- (gen_length m r t0 qs). apply nth_error_Some. unfold items in Nit. congruence. }
    unfold items, gen_items in Nit. fold N in Nit. rewrite nth_error_map_seq in Nit by exact Hi. inversion Nit; subst it.
    destruct (gen_item_ok rows m r t0 qs i G Hr Fk) as [_ Eg]; [fold N; lia|exact Hi|].
    destruct (cs_at_get (snd st) (done N) i (Z.of_nat (t0 + i)) (rnd_incs r m i) (xor_all (rn_masks r i))) as (T1 & T2 & T3).
    + exact A.
    + unfold done. rewrite map_length, seq_length. lia.
    + unfold done. rewrite nth_error_map, nth_error_seq by exact Hi. reflexivity.
    + split; [rewrite (make_query_at _ _ _ _ _ _ T1 T2 Eg); reflexivity|].
      intros m0. rewrite T3. cbn [gen_item mk_item it_secrets]. rewrite mk_pres; [reflexivity|].
      destruct (G i Hi) as (Gd & Gl & Gm). destruct (make_shares _ _ _ m 0 Gd Gl Gm) as (Li & _). unfold rnd_incs. lia.
Qed.

(** What the clients do, given that client i is ready to make the queries its!!i. *)
Section Clients.
Variables (db : list response) (m : nat) (clients : list client) (its : list (list item)) (sts : list cstate).
Hypothesis Hdb : Forall wf_response db.
Hypothesis Lits : length its = length clients.
Hypothesis Lsts : length sts = length clients.
Hypothesis Hkeys : forall i c, nth_error clients i = Some c -> map it_key (nth i its []) = ct_keys c.
Hypothesis Hready : forall i st, nth_error sts i = Some st -> client_ready st (nth i its []).
Hypothesis Hok : Forall (Forall (ok_item (length db) m)) its.

Lemma par_client_queries_spec : exists cqs, par_client_queries sts clients = Ok cqs /\ map fst cqs = map (map q_of) its /\
  par_client_responses true db (map snd cqs) clients (map (map (answer db)) its) =
  Ok (map (fun c => map (row db) (ct_keys c)) clients).
Proof using All.
  exists (map (fun i => (map q_of (nth i its []), cs_finish (load_times (length (nth i its [])) (nth i sts cs_new)))) (seq 0 (length clients))).
  assert (Hs : forall i, (i < length clients)%nat -> exists st c, nth_error sts i = Some st /\ nth_error clients i = Some c /\
     nth i sts cs_new = st /\ map it_key (nth i its []) = ct_keys c /\ client_ready st (nth i its [])).
  { intros i Hi. destruct (get_lt sts i ltac:(lia)) as (st & _ & Ns). destruct (get_lt clients i Hi) as (c & _ & Nc).
    exists st, c. split; [exact Ns|]. split; [exact Nc|]. split; [apply (nth_error_nth _ _ _ Ns)|]. split; [apply Hkeys; exact Nc|apply Hready; exact Ns]. }
  split; [|split].
  - unfold par_client_queries. apply map_res_seq. intros i Hi. destruct (Hs i Hi) as (st & c & Ns & Nc & En & Ek & C).
    unfold get. rewrite Ns, Nc. cbn [bind]. rewrite <- Ek, En. apply client_queries_spec. exact C.
  - rewrite map_map. cbn [fst]. rewrite <- (map_map (fun i => nth i its []) (map q_of)), <- Lits, nth_seq_all. reflexivity.
  - unfold par_client_responses. rewrite map_map. cbn [snd].
    rewrite (map_res_seq _ (fun i => map (fun it => row db (it_key it)) (nth i its []))).
    + f_equal. apply nth_error_ext. intros i. destruct (Nat.lt_ge_cases i (length clients)) as [Hi|Hi].
      2:{ rewrite !(proj2 (nth_error_None _ _)); [reflexivity| |]; rewrite map_length, ?seq_length; lia. }
      rewrite nth_error_map_seq by exact Hi. destruct (Hs i Hi) as (st & c & Ns & Nc & En & Ek & C).
      rewrite nth_error_map, Nc. cbn [option_map]. f_equal. apply map_row_items. exact Ek.
    + intros i Hi. destruct (Hs i Hi) as (st & c & Ns & Nc & En & Ek & C).
      unfold get. rewrite nth_error_map_seq by exact Hi. cbn [bind]. rewrite Nc. cbn [bind].
      destruct (get_lt its i ltac:(lia)) as (l & _ & Nl). rewrite nth_error_map, Nl. cbn [option_map bind].
      rewrite (nth_error_nth _ _ _ Nl) in *. rewrite <- Ek, En. apply (client_responses_spec db m st l C Hdb).
      rewrite Forall_forall in Hok. apply Hok. eapply nth_error_In; exact Nl.
Qed.
End Clients.

(** ** From the links to the facts of a run *)
Lemma levels_facts db N clients parties its levels o :
  map it_key (concat its) = client_keys clients -> lens its = map (fun c => Z.of_nat (length (ct_keys c))) clients ->
  levels_ok N (length db) parties (map it_key (concat its)) (its :: levels) ->
  po_results o = map (fun c => map (row db) (ct_keys c)) clients ->
  po_keys o = map (map it_key) (last (its :: levels) []) -> po_counts o = map lens (its :: levels) ->
  po_queries o = map (map (map q_of)) (its :: levels) -> po_responses o = map (map (map (answer db))) (its :: levels) ->
  par_facts db N clients parties o.
Proof.
  intros Hk Hl [L K S _] Er Ek Ec Eq Ea. unfold par_facts.
  assert (Hlen : forall A (f : item -> A), map (map (fun l => Z.of_nat (length l))) (map (map (map f)) (its :: levels)) = map lens (its :: levels)).
  { intros A f. rewrite map_map. apply map_ext. intros l. unfold lens. rewrite map_map. apply map_ext. intros x. rewrite map_length. reflexivity. }
  repeat split.
  - rewrite Er. reflexivity.
  - rewrite Ek, <- concat_map. pose proof (last_nth_error (its :: levels) [] ltac:(discriminate)) as Nl. apply K in Nl.
    rewrite L in Nl. rewrite firstn_all2 in Nl by lia. rewrite <- Hk. exact Nl.
  - rewrite Ec, map_length. exact L.
  - rewrite Ec. exact Hl.
  - intros j counts Nc. cbn zeta. rewrite Ec in Nc. rewrite nth_error_map in Nc. destruct (nth_error (its :: levels) (Datatypes.S j)) as [l|] eqn:Nl; [|discriminate].
    inversion Nc; subst counts. rewrite (S j l Nl). apply K in Nl. apply Permutation_length in Nl. rewrite map_length, app_length in Nl.
    rewrite Nl, Hk. reflexivity.
  - rewrite Eq, Ec. apply Hlen.
  - rewrite Ea, Ec. apply Hlen.
Qed.

(** ** Whole runs *)
Lemma Forall_flat {A B} (P : B -> Prop) (f : A -> list B) l x : Forall P (flat_map f l) -> In x l -> Forall P (f x).
Proof. intros F Hin. rewrite Forall_flat_map, Forall_forall in F. apply F. exact Hin. Qed.
Lemma combine_snd {A B} : forall (l : list A) (l' : list B), length l = length l' -> map snd (combine l l') = l'.
Proof. induction l as [|x l IH]; intros [|y l'] H; cbn in *; try discriminate; [reflexivity|]. rewrite IH by lia. reflexivity. Qed.
Lemma client_seq n m : flat_map (fun i => seq (i * n) n) (seq 0 m) = seq 0 (m * n).
Proof.
  induction m as [|m IH]; [reflexivity|]. rewrite seq_S, flat_map_app, IH. cbn [flat_map Nat.add]. rewrite app_nil_r.
  replace (S m * n)%nat with (m * n + n)%nat by lia. rewrite seq_app. reflexivity.
Qed.

Lemma par_run_simulated_spec rng db junk N clients parties keys :
  par_deployment rng db N clients parties keys -> bytes 52 junk ->
  exists trs, length trs = length parties /\
  forall scs, Forall2 (fits_online N) trs scs ->
  exists o, par_run_simulated true rng db junk clients (combine parties scs) = Ok o /\ par_facts db N clients parties o.
Proof.
  intros D J. pose proof (pd_tiled _ _ _ _ _ _ D) as T. pose proof T as (_ & _ & Hr & _).
  pose proof (pd_max _ _ _ _ _ _ D) as H255. pose proof (pd_count _ _ _ _ _ _ D) as Hc. pose proof (pd_clients _ _ _ _ _ _ D) as Lc.
  set (its := map (fun c => map (sim_item (length keys)) (ct_keys c)) clients).
  assert (Hk : map it_key (concat its) = client_keys clients).
  { unfold its, client_keys. rewrite <- flat_map_concat_map, map_flat_map. apply flat_map_ext_in. intros c _. rewrite map_map. apply map_id. }
  assert (Hl : lens its = map (fun c => Z.of_nat (length (ct_keys c))) clients).
  { unfold lens, its. rewrite map_map. apply map_ext. intros c. rewrite map_length. reflexivity. }
  assert (Oi : Forall (Forall (ok_item (length db) (length keys))) its).
  { apply Forall_map. apply Forall_forall. intros c Hin. apply Forall_map.
    eapply Forall_impl; [|apply (Forall_flat _ _ _ _ (pd_queries _ _ _ _ _ _ D) Hin)]. intros key Hkey. apply sim_item_ok; assumption. }
  destruct (par_simulate_chain_spec rng keys (length db) N H255 T parties 0 its) as (trs & levels & states & bps & Lt & Lst & LO & Hrun).
  - cbn. exact Hc.
  - intros j confs Nc. apply (pd_parties _ _ _ _ _ _ D j confs Nc).
  - rewrite <- (map_length it_key (concat its)), Hk. apply (pd_total _ _ _ _ _ _ D).
  - unfold its. rewrite map_length. exact Lc.
  - rewrite Nat.sub_0_r. exact Oi.
  - rewrite Nat.sub_0_r. apply Forall_map. apply Forall_forall. intros c _. apply Forall_map. apply Forall_forall. intros; apply is_sim_item.
  - exists trs. split; [exact Lt|]. intros scs Fs. destruct (Hrun scs Fs) as (E & C).
    pose proof (Forall2_len _ _ _ Fs) as Lsc.
    unfold par_run_simulated. rewrite combine_length, <- Lsc, Lt, Nat.min_id, Hc.
    assert (Hst : exists sts, map_res (fun c => client_simulate (length keys) (length (ct_keys c))) clients = Ok sts /\
      length sts = length clients /\ forall i st, nth_error sts i = Some st -> client_ready st (nth i its [])).
    { unfold its. pose proof (pd_queries _ _ _ _ _ _ D) as Fq. clear - Fq Hr. unfold client_keys in Fq.
      induction clients as [|c cl IH]; [exists []; split; [reflexivity|]; split; [reflexivity|]; intros [|i] st; discriminate|].
      cbn [flat_map] in Fq. apply Forall_app in Fq. destruct Fq as (F1 & F2). destruct (IH F2) as (sts & E & L & H).
      destruct (client_simulate_spec (length db) (length keys) (ct_keys c) Hr F1) as (st & Es & Cr).
      exists (st :: sts). cbn [map_res]. rewrite Es. cbn [bind]. rewrite E. split; [reflexivity|]. split; [cbn; lia|].
      intros [|i] st' N; cbn [nth_error] in N; [inversion N; subst; exact Cr|]. cbn [map nth]. apply H. exact N. }
    destruct Hst as (sts & Est & Ls & Hready). rewrite Est. cbn [bind]. rewrite <- Hl, E. cbn [bind].
    destruct (par_client_queries_spec db (length keys) clients its sts) as (cqs & Eq & Ef & Er).
    + apply (pd_db _ _ _ _ _ _ D).
    + unfold its. apply map_length.
    + exact Ls.
    + intros i c Nc. unfold its. erewrite nth_error_nth; [|rewrite nth_error_map, Nc; reflexivity]. rewrite map_map. apply map_id.
    + exact Hready.
    + exact Oi.
    + rewrite Eq. cbn [bind]. rewrite combine_snd by lia. rewrite Ef.
      rewrite (last_map lens (its :: levels) [] []) by discriminate.
      pose proof (par_online_spec db junk N bps (pd_db _ _ _ _ _ _ D) J _ _ C) as E2. cbn [hd] in E2. rewrite E2. cbn [bind fst snd map].
      rewrite Er. cbn [bind]. eexists. split; [reflexivity|].
      apply (levels_facts db N clients parties its levels); auto; cbn [po_queries po_responses map fst snd]; rewrite !map_map; reflexivity.
Qed.

(** What the clients send. *)
Definition client_batches (m : nat) (clients : list client) : list (list item) :=
  map (fun i => match nth_error clients i with
                | Some c => gen_items m (ct_rand c) (i * length (ct_keys c)) (ct_keys c)
                | None => []
                end) (seq 0 (length clients)).

(** The same [plan] for all clients with as many queries. *)
Lemma par_run_levels b rng iter db junk N clients0 parties keys bpk bsk :
  par_deployment rng db N clients0 parties keys -> par_keyed b db N clients0 parties keys bpk bsk ->
  (forall i l, Permutation (iter i l) l) -> bytes 52 junk ->
  exists trs btr plan, length trs = length parties /\ length plan = length parties /\
  forall clients scs border, par_deployment rng db N clients parties keys -> par_keyed b db N clients parties keys bpk bsk ->
  map (fun c => length (ct_keys c)) clients = map (fun c => length (ct_keys c)) clients0 ->
  Forall2 (fits N) trs scs -> complete N btr border ->
  exists o, par_run b true rng iter db junk clients (combine parties scs) bpk bsk border = Ok o /\
   (par_facts db N clients parties o /\
    Forall (fun qss => Permutation (map q_tag (concat qss)) (map Z.of_nat (seq 0 (length (concat qss))))) (po_queries o) /\
    map (map (fun l => Z.of_nat (length l))) (po_ciphers o) = po_counts o /\
    map (key_of_query (map q_tag (concat (last (po_queries o) []))) (concat (po_keys o))) (seq 0 (length (client_keys clients))) =
      map Some (client_keys clients)) /\
    let its := client_batches (length keys) clients in
    let levels := its :: par_below keys (length db) N 0 plan parties its in
    length levels = S (length parties) /\
    po_counts o = map lens levels /\ po_queries o = map (map (map q_of)) levels /\ po_responses o = map (map (map (answer db))) levels /\
    forall j css, nth_error (po_ciphers o) j = Some css -> Forall2 (Forall2 (opens b (skipn j keys))) css (nth j levels []).
Proof.
  intros D0 K0 Hiter J. pose proof (pd_tiled _ _ _ _ _ _ D0) as T.
  pose proof (pd_max _ _ _ _ _ _ D0) as H255. pose proof (pd_count _ _ _ _ _ _ D0) as Hc.
  destruct (par_offline_chain_spec b rng iter keys (length db) N bpk bsk (pk_box _ _ _ _ _ _ _ _ K0) H255 T Hiter parties 0 (map (fun c => length (ct_keys c)) clients0))
    as (trs & btr & plan & Lt & Lp & Hall).
  { cbn. exact Hc. }
  { exact (pk_backend _ _ _ _ _ _ _ _ K0). }
  { intros j confs Nc. cbn [Nat.add]. destruct (pd_parties _ _ _ _ _ _ D0 j confs Nc) as (L1 & L2). split; [exact L1|]. split; [exact L2|].
    split; [intros s sf Nf; apply (pk_parties _ _ _ _ _ _ _ _ K0 j confs s sf Nc Nf)|apply (pk_constant _ _ _ _ _ _ _ _ K0 j confs Nc)]. }
  { pose proof (pd_total _ _ _ _ _ _ D0) as H0. unfold client_keys in H0 at 1. rewrite flat_map_concat_map, length_concat_sum, map_map in H0. exact H0. }
  { rewrite map_length. exact (pd_clients _ _ _ _ _ _ D0). }
  exists trs, btr, plan. split; [exact Lt|]. split; [exact Lp|]. clear H255 Hc T. intros clients scs border D K Elen Fs Hb.
  pose proof (pd_tiled _ _ _ _ _ _ D) as T. pose proof T as ((T1 & _) & _ & Hr & _).
  pose proof (pd_max _ _ _ _ _ _ D) as H255. pose proof (pd_count _ _ _ _ _ _ D) as Hc. pose proof (pd_clients _ _ _ _ _ _ D) as Lc.
  destruct (pk_equal _ _ _ _ _ _ _ _ K) as (n & Hn).
  assert (Hcl : forall i c, nth_error clients i = Some c -> length (ct_keys c) = n /\ ct_pkeys c = map fst keys /\
    good_rand (ct_rand c) (length (ct_keys c)) (length keys) /\ Forall (fun k => 0 <= k < Z.of_nat (length db)) (ct_keys c)).
  { intros i c Nc. apply nth_error_In in Nc. rewrite Forall_forall in Hn. split; [auto|].
    pose proof (pk_clients _ _ _ _ _ _ _ _ K) as Kc. rewrite Forall_forall in Kc. destruct (Kc c Nc) as (K1 & K2).
    split; [exact K1|]. split; [exact K2|]. apply (Forall_flat _ _ _ _ (pd_queries _ _ _ _ _ _ D) Nc). }
  set (item_of := fun i => match nth_error clients i with Some c => gen_items (length keys) (ct_rand c) (i * n) (ct_keys c) | None => [] end).
  set (its := map item_of (seq 0 N)).
  assert (Lits : length its = N) by (unfold its; rewrite map_length, seq_length; reflexivity).
  assert (Hnth : forall i c, nth_error clients i = Some c -> nth i its [] = gen_items (length keys) (ct_rand c) (i * n) (ct_keys c)).
  { intros i c Nc. assert (Hi : (i < N)%nat) by (rewrite <- Lc; apply nth_error_Some; congruence).
    unfold its. erewrite nth_error_nth; [|rewrite nth_error_map_seq by exact Hi; reflexivity]. unfold item_of. rewrite Nc. reflexivity. }
  assert (Hmapk : map (map it_key) its = map ct_keys clients).
  { apply nth_error_ext. intros i. destruct (Nat.lt_ge_cases i N) as [Hi|Hi].
    - destruct (get_lt clients i ltac:(lia)) as (c & _ & Nc). rewrite !nth_error_map, Nc. cbn [option_map].
      unfold its. rewrite nth_error_map_seq by exact Hi. cbn [option_map]. unfold item_of. rewrite Nc, gen_keys. reflexivity.
    - rewrite !(proj2 (nth_error_None _ _)); [reflexivity| |]; rewrite map_length; lia. }
  assert (Hk : map it_key (concat its) = client_keys clients).
  { rewrite concat_map, Hmapk. unfold client_keys. rewrite flat_map_concat_map. reflexivity. }
  assert (Hl : lens its = map (fun c => Z.of_nat (length (ct_keys c))) clients).
  { transitivity (lens (map (map it_key) its)).
    - unfold lens. rewrite map_map. apply map_ext. intros l. rewrite map_length. reflexivity.
    - rewrite Hmapk. unfold lens. rewrite map_map. reflexivity. }
  assert (Htags : map it_tag (concat its) = map Z.of_nat (seq 0 (N * n))).
  { unfold its. rewrite <- flat_map_concat_map, map_flat_map. rewrite <- client_seq, map_flat_map. apply flat_map_ext_in.
    intros i Hi. apply in_seq in Hi. destruct (get_lt clients i ltac:(lia)) as (c & _ & Nc). unfold item_of. rewrite Nc, gen_tags.
    destruct (Hcl i c Nc) as (-> & _). reflexivity. }
  assert (Lconc : length (concat its) = (N * n)%nat).
  { apply (f_equal (fun l => length l)) in Htags. rewrite !map_length, seq_length in Htags. exact Htags. }
  assert (Lk : length (concat its) = length (client_keys clients)) by (rewrite <- Hk, map_length; reflexivity).
  pose proof (pd_total _ _ _ _ _ _ D) as Ht.
  assert (Hroom : forall i c, nth_error clients i = Some c -> Z.of_nat (i * length (ct_keys c) + length (ct_keys c)) < 2 ^ 32).
  { intros i c Nc. assert (Hi : (i < N)%nat) by (rewrite <- Lc; apply nth_error_Some; congruence). destruct (Hcl i c Nc) as (-> & _).
    assert (i * n + n <= N * n)%nat by nia. lia. }
  assert (Oi : Forall (Forall (ok_item (length db) (length keys))) its).
  { apply Forall_map. apply Forall_forall. intros i Hi. apply in_seq in Hi. destruct (get_lt clients i ltac:(lia)) as (c & _ & Nc).
    unfold item_of. rewrite Nc. destruct (Hcl i c Nc) as (En & _ & Gr & Fk). specialize (Hroom i c Nc). rewrite En in Hroom.
    apply gen_items_ok; auto. rewrite En. lia. }
  assert (U : unique_tags its) by (unfold unique_tags; rewrite Lconc, Htags; apply Permutation_refl).
  assert (Eits : client_batches (length keys) clients = its).
  { unfold client_batches, its. rewrite Lc. apply map_ext_in. intros i Hi. apply in_seq in Hi. unfold item_of.
    destruct (get_lt clients i ltac:(lia)) as (c & _ & Nc). rewrite Nc. destruct (Hcl i c Nc) as (-> & _). reflexivity. }
  rewrite Eits. destruct (Hall its) as (LO & LU & Hrun).
  - unfold lens in Hl. rewrite <- Elen. rewrite <- (map_map (fun l : list item => length l) Z.of_nat), <- (map_map (fun c => length (ct_keys c)) Z.of_nat) in Hl.
    revert Hl. generalize (map (fun c => length (ct_keys c)) clients) as ys, (map (fun l : list item => length l) its) as xs.
    intros ys xs. revert ys. induction xs as [|x xs IHx]; intros [|y ys] E; cbn [map] in E; try discriminate; [reflexivity|]. injection E as E1 E2. f_equal; [lia|auto].
  - rewrite Nat.sub_0_r. exact Oi.
  - exact U.
  - cbv zeta in *. set (levels := par_below keys (length db) N 0 plan parties its) in *. pose proof (Forall2_len _ _ _ Fs) as Lsc.
    unfold par_run. rewrite combine_length, <- Lsc, Lt, Nat.min_id, Hc.
    destruct (choose_fun N (fun i (x : list (list Z) * cstate) => forall c, nth_error clients i = Some c ->
      client_offline b true (Z.of_nat i) (length keys) (ct_pkeys c) (ct_rand c) (length (ct_keys c)) = Ok x /\
      Forall2 (opens b keys) (fst x) (nth i its []) /\ client_ready (snd x) (nth i its []))) as (f & Hf).
    + lia.
    + intros i Hi. destruct (get_lt clients i ltac:(lia)) as (c & _ & Nc). destruct (Hcl i c Nc) as (En & Ep & Gr & Fk).
      destruct (client_offline_at b (length db) keys i (ct_rand c) (ct_keys c) (pk_box _ _ _ _ _ _ _ _ K) H255 Gr Hr Fk (Hroom i c Nc)) as (cs & st & E1 & E2 & E3).
      exists (cs, st). intros c' Nc'. rewrite Nc in Nc'. inversion Nc'; subst c'. rewrite Ep, (Hnth i c Nc), <- En. auto.
    + rewrite (map_res_seq _ f).
      2:{ intros i Hi. destruct (get_lt clients i Hi) as (c & Gc & Nc). rewrite Gc. cbn [bind]. apply (Hf i ltac:(lia) c Nc). }
      cbn [bind]. rewrite Lc. rewrite <- Hl.
      destruct (Hrun (map fst (map f (seq 0 N))) scs border) as (links & states & bps & E & C & Lf & Lcs & Lst & Lo).
      * cbn [skipn]. rewrite map_map. rewrite <- (nth_seq_all [] its), Lits. apply Forall2_map_seq. intros i Hi.
        destruct (get_lt clients i ltac:(lia)) as (c & _ & Nc). apply (Hf i Hi c Nc).
      * exact Fs.
      * exact Hb.
      * rewrite E. cbn [bind].
        destruct (par_client_queries_spec db (length keys) clients its (map snd (map f (seq 0 N)))) as (cqs & Eq & Ef & Er).
        -- apply (pd_db _ _ _ _ _ _ D).
        -- lia.
        -- rewrite !map_length, seq_length. lia.
        -- intros i c Nc. rewrite (Hnth i c Nc). apply gen_keys.
        -- intros i st Ns. assert (Hi : (i < N)%nat).
           { assert (H : (i < length (map snd (map f (seq 0 N))))%nat) by (apply nth_error_Some; congruence). rewrite !map_length, seq_length in H. exact H. }
           rewrite map_map, nth_error_map_seq in Ns by exact Hi. inversion Ns; subst st.
           destruct (get_lt clients i ltac:(lia)) as (c & _ & Nc). apply (Hf i Hi c Nc).
        -- exact Oi.
        -- rewrite Eq. cbn [bind]. rewrite combine_snd by lia. rewrite Ef, Lf.
           rewrite (last_map lens (its :: levels) [] []) by discriminate.
           pose proof (par_online_spec db junk N bps (pd_db _ _ _ _ _ _ D) J _ _ C) as E2. cbn [hd] in E2. rewrite E2. cbn [bind fst snd map].
           rewrite Er. cbn [bind]. eexists. split; [reflexivity|]. split; [split; [|split; [|split]]|].
           ++ apply (levels_facts db N clients parties its levels); auto; cbn [po_counts po_queries po_responses map fst snd]; rewrite ?map_map; reflexivity.
           ++ cbn [po_queries map fst]. rewrite map_map. cbn [fst].
              change (Forall (fun qss => Permutation (map q_tag (concat qss)) (map Z.of_nat (seq 0 (length (concat qss))))) (map (map (map q_of)) (its :: levels))).
              apply Forall_map. eapply Forall_impl; [|exact LU]. intros l H. unfold unique_tags in H. rewrite <- concat_map, map_map, map_length. exact H.
           ++ cbn [po_ciphers po_counts]. rewrite map_map. etransitivity; [exact Lcs|]. reflexivity.
           ++ cbn [po_queries po_keys map fst snd]. rewrite map_map. cbn [fst].
              change (map (map q_of) its :: map (fun x => map (map q_of) x) levels) with (map (map (map q_of)) (its :: levels)).
              rewrite (last_map (map (map q_of)) (its :: levels) [] []) by discriminate.
              rewrite <- !concat_map, map_map. cbn [q_tag q_of]. rewrite <- Lk, <- Hk.
              apply keys_found.
              ** rewrite Lconc, Htags. reflexivity.
              ** pose proof (last_nth_error (its :: levels) [] ltac:(discriminate)) as Nl. apply nth_error_In in Nl.
                 rewrite Forall_forall in LU. apply LU in Nl. exact (tags_NoDup _ _ Nl).
              ** apply (lo_carried _ _ _ _ _ LO (length (its :: levels) - 1)). apply last_nth_error. discriminate.
           ++ split; [rewrite <- Hc; exact (lo_length _ _ _ _ _ LO)|]. split; [reflexivity|].
              cbn [po_queries po_responses po_ciphers map fst snd]. rewrite !map_map. split; [reflexivity|]. split; [reflexivity|].
              intros j css Nj. rewrite nth_error_map in Nj. destruct (nth_error links j) as [l|] eqn:El; [|discriminate]. injection Nj as <-. exact (Lo j l El).
Qed.

Lemma par_run_spec b rng iter db junk N clients parties keys bpk bsk :
  par_deployment rng db N clients parties keys -> par_keyed b db N clients parties keys bpk bsk ->
  (forall i l, Permutation (iter i l) l) -> bytes 52 junk ->
  exists trs btr, length trs = length parties /\
  forall scs border, Forall2 (fits N) trs scs -> complete N btr border ->
  exists o, par_run b true rng iter db junk clients (combine parties scs) bpk bsk border = Ok o /\ par_facts db N clients parties o /\
    Forall (fun qss => Permutation (map q_tag (concat qss)) (map Z.of_nat (seq 0 (length (concat qss))))) (po_queries o) /\
    map (map (fun l => Z.of_nat (length l))) (po_ciphers o) = po_counts o /\
    map (key_of_query (map q_tag (concat (last (po_queries o) []))) (concat (po_keys o))) (seq 0 (length (client_keys clients))) =
      map Some (client_keys clients).
Proof.
  intros D K Hiter J. destruct (par_run_levels b rng iter db junk N clients parties keys bpk bsk D K Hiter J) as (trs & btr & plan & Lt & _ & H).
  exists trs, btr. split; [exact Lt|]. intros scs border Fs Hb. destruct (H clients scs border D K eq_refl Fs Hb) as (o & E & F & _). exists o. auto.
Qed.

Lemma fits_exist N trs : exists scs, Forall2 (fits N) trs scs.
Proof.
  induction trs as [|tr trs (scs & IH)]; [exists []; constructor|].
  destruct (complete_exists N (tr_forward tr)) as (o1 & H1). destruct (complete_exists N (tr_secrets tr)) as (o2 & H2).
  destruct (complete_exists N (tr_back tr)) as (o3 & H3).
  exists ({| sc_ciphers := o1; sc_secrets := o2; sc_queries := o1; sc_responses := o3 |} :: scs). constructor; [|exact IH].
  repeat split; cbn; auto; apply H1 || apply H2 || apply H3; auto.
Qed.
