(** What the keys looked up at the backend reveal to someone with the
    configuration: the order in which they arrive. *)
From Verif Require Import Base BaseProofs Incremental IncrementalProofs Wire WireProofs Additive AdditiveProofs Onion OnionProofs
  Shuffle Sizes State Database CipherBatch CipherBatchProofs Range Handlers Batch Party Chain Spec SharingProofs ShuffleProofs
  StateProofs ChainSpec OnlineProofs OfflineProofs OfflineParty ChainProofs.

(** ** Where the queries end up *)
(** Place j of a batch holds [Some i] if query number i of the client is there. *)
Definition place (rng : rng_t) (party : Z * nat) (toks : list (option nat)) : list (option nat) :=
  match ls_initialize rng (fst party) (snd party + length toks) with
  | Ok ls => pick None (repeat None (snd party) ++ toks) (ls_backward ls)
  | _ => []
  end.
Definition places (rng : rng_t) (parties : list (Z * nat)) (n : nat) : list (option nat) :=
  fold_left (fun toks party => place rng party toks) parties (map Some (seq 0 n)).
Definition at_place (i : nat) (p : option nat * Z) : bool := match fst p with Some j => (j =? i)%nat | None => false end.
Definition read_places (toks : list (option nat)) (n : nat) (looked : list Z) : list Z :=
  map (fun i => match find (at_place i) (combine toks looked) with Some (_, k) => k | None => 0 end) (seq 0 n).
Definition read_off (rng : rng_t) (parties : list (Z * nat)) (n : nat) (looked : list Z) : list Z :=
  read_places (places rng parties n) n looked.

Definition noted (keys : list Z) (o : option nat) (key : Z) : Prop := forall i, o = Some i -> nth_error keys i = Some key.

Lemma find_place keys i : forall toks looked, Forall2 (noted keys) toks looked -> In (Some i) toks ->
  exists o k, find (at_place i) (combine toks looked) = Some (o, k) /\ nth_error keys i = Some k.
Proof.
  intros toks looked F. induction F as [|o k toks looked Ho F IH]; intros Hin; [destruct Hin|].
  cbn [combine find]. unfold at_place at 1. cbn [fst]. destruct o as [j|].
  - destruct (Nat.eqb_spec j i) as [->|Hne].
    + exists (Some i), k. split; [reflexivity|apply Ho; reflexivity].
    + apply IH. destruct Hin as [H|H]; [congruence|exact H].
  - apply IH. destruct Hin as [H|H]; [discriminate|exact H].
Qed.

Lemma read_places_spec keys toks looked : Forall2 (noted keys) toks looked ->
  (forall i, (i < length keys)%nat -> In (Some i) toks) -> read_places toks (length keys) looked = keys.
Proof.
  intros F H. apply nth_error_ext. intros i. unfold read_places. destruct (Nat.lt_ge_cases i (length keys)) as [Hi|Hi].
  - rewrite nth_error_map_seq by exact Hi. destruct (find_place keys i toks looked F (H i Hi)) as (o & k & E & N). rewrite E, N. reflexivity.
  - rewrite !(proj2 (nth_error_None _ _)); [reflexivity|exact Hi|rewrite map_length, seq_length; exact Hi].
Qed.

Lemma Forall2_nth_or {A B} (R : A -> B -> Prop) da db_ l l' : Forall2 R l l' -> R da db_ -> forall i, R (nth i l da) (nth i l' db_).
Proof. intros F Hd. induction F as [|x y l l' H F IH]; intros [|i]; cbn; auto. Qed.
Lemma Forall2_pick {A B} (R : A -> B -> Prop) da db_ l l' idx : Forall2 R l l' -> R da db_ -> Forall2 R (pick da l idx) (pick db_ l' idx).
Proof. intros F Hd. unfold pick. induction idx as [|i idx IH]; cbn; constructor; [apply Forall2_nth_or; assumption|exact IH]. Qed.
Lemma Forall2_repeat_None keys ks : Forall2 (noted keys) (repeat None (length ks)) ks.
Proof. induction ks as [|k ks IH]; cbn; constructor; [intros i H; discriminate|exact IH]. Qed.
Lemma Forall2_start keys : Forall2 (noted keys) (map Some (seq 0 (length keys))) keys.
Proof.
  assert (G : forall l pre, keys = pre ++ l -> Forall2 (noted keys) (map Some (seq (length pre) (length l))) l); [|exact (G keys [] eq_refl)].
  induction l as [|k l IH]; intros pre E; cbn [length seq map]; constructor.
  - intros i H. inversion H; subst i. rewrite E, nth_error_app2, Nat.sub_diag by lia. reflexivity.
  - specialize (IH (pre ++ [k])). rewrite app_length, Nat.add_1_r in IH. apply IH. rewrite E, <- app_assoc. reflexivity.
Qed.
Lemma in_start n i : (i < n)%nat -> In (Some i) (map Some (seq 0 n)).
Proof. intros H. apply in_map. apply in_seq. lia. Qed.

(** ** One party *)
Definition shuffled_with (rng : rng_t) (rows : nat) (cf : pconf) (rp : ready) : Prop :=
  ls_initialize rng (pf_seed cf) (Z.to_nat (rp_shuffled rp)) = Ok (rp_shuffler rp) /\ rp_noise rp = Z.of_nat (noise_total rows cf).

Lemma party_offline_shuffler b rng rows cf input sent n out rp : party_offline b true rng cf input sent = Ok (n, out, rp) ->
  (forall s e ns m, noise_samples true cf = Ok (s, e, ns, m) -> m = Z.of_nat (noise_total rows cf)) -> shuffled_with rng rows cf rp.
Proof.
  unfold party_offline. intros E H. apply bind_Ok in E as (? & _ & E). apply bind_Ok in E as ([[[s e] ns] m] & E1 & E).
  do 3 (apply bind_Ok in E as (? & _ & E)). apply bind_Ok in E as (? & _ & E). do 2 (apply bind_Ok in E as (? & _ & E)).
  apply bind_Ok in E as (ls & E2 & E). apply bind_Ok in E as (? & _ & E). inversion E; subst. split; cbn; [exact E2|exact (H _ _ _ _ E1)].
Qed.
Lemma party_simulate_shuffler rng rows cf input n rp : party_simulate true rng cf input = Ok (n, rp) ->
  (forall s e ns m, noise_samples true cf = Ok (s, e, ns, m) -> m = Z.of_nat (noise_total rows cf)) -> shuffled_with rng rows cf rp.
Proof.
  unfold party_simulate. intros E H. apply bind_Ok in E as (? & _ & E). apply bind_Ok in E as ([[[s e] ns] m] & E1 & E).
  apply bind_Ok in E as (ls & E2 & E). do 2 (apply bind_Ok in E as (? & _ & E)). inversion E; subst. split; cbn; [exact E2|exact (H _ _ _ _ E1)].
Qed.

Lemma offline_shufflers b rng rows bpk bsk : forall parties count cs links states p,
  offline_chain b true rng parties bpk bsk count cs = Ok (links, states, p) ->
  Forall (fun cf => forall s e ns m, noise_samples true cf = Ok (s, e, ns, m) -> m = Z.of_nat (noise_total rows cf)) parties ->
  Forall2 (shuffled_with rng rows) parties states.
Proof.
  induction parties as [|cf parties IH]; intros count cs links states p E F; cbn [offline_chain] in E.
  - apply bind_Ok in E as (? & _ & E). inversion E; subst. constructor.
  - apply bind_Ok in E as ([[n out] rp] & E1 & E). apply bind_Ok in E as ([[links' states'] p'] & E2 & E). inversion E; subst.
    inversion F; subst. constructor; [eapply party_offline_shuffler; eassumption|eapply IH; eassumption].
Qed.
Lemma simulate_shufflers rng rows : forall parties count links states p,
  simulate_chain true rng parties count = Ok (links, states, p) ->
  Forall (fun cf => forall s e ns m, noise_samples true cf = Ok (s, e, ns, m) -> m = Z.of_nat (noise_total rows cf)) parties ->
  Forall2 (shuffled_with rng rows) parties states.
Proof.
  induction parties as [|cf parties IH]; intros count links states p E F; cbn [simulate_chain] in E.
  - inversion E; subst. constructor.
  - apply bind_Ok in E as ([n rp] & E1 & E). apply bind_Ok in E as ([[links' states'] p'] & E2 & E). inversion E; subst.
    inversion F; subst. constructor; [eapply party_simulate_shuffler; eassumption|eapply IH; eassumption].
Qed.

(** ** The chain *)
Definition seeds (rows : nat) (parties : list pconf) : list (Z * nat) := map (fun cf => (pf_seed cf, noise_total rows cf)) parties.

Lemma chain_places rng rows bp keys n : forall states levels, chain_ok rows bp states levels ->
  forall parties toks, Forall2 (shuffled_with rng rows) parties states ->
  Forall2 (noted keys) toks (map it_key (hd [] levels)) -> (forall i, (i < n)%nat -> In (Some i) toks) ->
  let toks' := fold_left (fun toks party => place rng party toks) (seeds rows parties) toks in
  Forall2 (noted keys) toks' (map it_key (last levels [])) /\ forall i, (i < n)%nat -> In (Some i) toks'.
Proof.
  induction 1 as [items O K|rp rest noise items levels H O C IH]; intros parties toks F Ft Hin.
  - inversion F; subst. split; assumption.
  - inversion F as [|cf ? parties' ? [E1 E2] F']; subst. cbn [seeds map fold_left hd].
    change (last (items :: next_items (rp_shuffler rp) noise items :: levels) []) with (last (next_items (rp_shuffler rp) noise items :: levels) []).
    cbn [hd] in Ft. apply IH; [exact F'| |]; clear IH; destruct H as (Hn & Hi & Hs & Hls & _).
    + assert (L : length toks = length items) by (apply Forall2_length' in Ft; rewrite map_length in Ft; exact Ft).
      unfold place. cbn [fst snd]. rewrite Hn in E2. apply Nat2Z.inj in E2. rewrite Hs, Nat2Z.id in E1. rewrite <- E2, L, E1.
      cbn [hd]. unfold next_items. rewrite <- pick_map. apply Forall2_pick; [|intros i Hx; discriminate].
      rewrite map_app, map_key_advance. apply Forall2_app; [|exact Ft]. rewrite <- (map_length it_key). apply Forall2_repeat_None.
    + intros i Hx. assert (L : length toks = length items) by (apply Forall2_length' in Ft; rewrite map_length in Ft; exact Ft).
      unfold place. cbn [fst snd]. rewrite Hn in E2. apply Nat2Z.inj in E2. rewrite Hs, Nat2Z.id in E1. rewrite <- E2, L, E1.
      eapply Permutation_in; [|apply in_or_app; right; apply Hin; exact Hx].
      apply pick_perm. rewrite app_length, repeat_length, L. apply Hls.
Qed.

Lemma chain_read rng rows bp parties states items levels keys : chain_ok rows bp states (items :: levels) ->
  Forall2 (shuffled_with rng rows) parties states -> map it_key items = keys ->
  read_off rng (seeds rows parties) (length keys) (map it_key (last (items :: levels) [])) = keys.
Proof.
  intros C F E. destruct (chain_places rng rows bp keys (length keys) states (items :: levels) C parties (map Some (seq 0 (length keys))) F) as (F2 & Hin).
  - cbn [hd]. rewrite E. apply Forall2_start.
  - apply in_start.
  - apply read_places_spec; assumption.
Qed.

Lemma good_noise rng db c parties keys : deployment rng db c parties keys ->
  Forall (fun cf => forall s e ns m, noise_samples true cf = Ok (s, e, ns, m) -> m = Z.of_nat (noise_total (length db) cf)) parties.
Proof.
  intros D. apply Forall_forall. intros cf Hin s e ns m E. apply In_nth_error in Hin. destruct Hin as (k & N).
  pose proof (dp_rows _ _ _ _ _ D) as [H1 H2]. pose proof (dp_total _ _ _ _ _ D) as Ht.
  assert (Hle : (noise_total (length db) cf <= list_sum (map (noise_total (length db)) parties))%nat).
  { clear - N. revert k N. induction parties as [|x l IH]; intros [|k] N; try discriminate; cbn [map]; change (list_sum (?a :: ?b)) with (a + list_sum b)%nat.
    - inversion N; subst. lia.
    - specialize (IH k N). lia. }
  rewrite (noise_samples_spec rng keys (length db) k cf (dp_parties _ _ _ _ _ D k cf N) H1) in E by lia. inversion E. reflexivity.
Qed.

Lemma run_read b rng db junk c parties keys bpk bsk o :
  deployment rng db c parties keys -> keyed b db c parties keys bpk bsk -> bytes 52 junk ->
  run b true rng db junk c parties bpk bsk = Ok o ->
  read_off rng (seeds (length db) parties) (length (ct_keys c)) (oc_keys o) = ct_keys c.
Proof.
  intros D K J. pose proof (dp_rows _ _ _ _ _ D) as [Hr1 Hr]. pose proof (dp_total _ _ _ _ _ D) as Ht.
  pose proof (dp_max _ _ _ _ _ D) as H255. pose proof (dp_count _ _ _ _ _ D) as Hc.
  unfold run. rewrite Hc, (ky_client _ _ _ _ _ _ _ K).
  destruct (client_offline_spec b (length db) keys (ct_rand c) (ct_keys c) (ky_box _ _ _ _ _ _ _ K) H255
    (ky_rand _ _ _ _ _ _ _ K) Hr (dp_queries _ _ _ _ _ D) ltac:(lia)) as (cs & st & E & F2 & C).
  rewrite E. cbn [bind fst snd]. set (items := client_items (ct_rand c) (length keys) (ct_keys c)) in *.
  assert (Li : length items = length (ct_keys c)) by apply client_items_length.
  assert (Ki : map it_key items = ct_keys c) by apply client_items_keys.
  assert (Oi : Forall (ok_item (length db) (length keys)) items).
  { apply Forall_map. apply Forall_forall. intros i Hi. apply in_seq in Hi.
    apply client_item_ok; [exact (ky_rand _ _ _ _ _ _ _ K)|exact Hr|exact (dp_queries _ _ _ _ _ D)|lia|lia]. }
  destruct (offline_chain_spec b rng keys (length db) bpk bsk (ky_box _ _ _ _ _ _ _ K) H255 Hr1 Hr parties 0 items items cs)
    as (links & states & bp & levels & E1 & Ch & LK & LT & Lf & Ls & _).
  - cbn. exact Hc.
  - exact (ky_backend _ _ _ _ _ _ _ K).
  - intros j cf N. cbn [Nat.add]. split; [apply (dp_parties _ _ _ _ _ D j cf N)|apply (ky_parties _ _ _ _ _ _ _ K j cf N)].
  - rewrite Li. exact Ht.
  - exact F2.
  - apply Permutation_refl.
  - rewrite Nat.sub_0_r. exact Oi.
  - rewrite Li. unfold items. rewrite client_items_tags. apply Permutation_refl.
  - rewrite <- Li at 1. rewrite E1. cbn [bind]. pose proof (client_queries_spec st items C) as Eq. rewrite Ki in Eq. rewrite Eq. cbn [bind fst snd].
    pose proof (online_spec db junk bp (dp_db _ _ _ _ _ D) J states (items :: levels) Ch) as E2.
    assert (El : last (map fst links) 0 = Z.of_nat (length (last (items :: levels) []))).
    { rewrite Lf. apply (last_map (fun l => Z.of_nat (length l))). discriminate. }
    rewrite El. cbn [hd] in E2. rewrite E2. cbn [bind fst snd]. intros Eo. apply bind_Ok in Eo as (? & _ & Eo). inversion Eo; subst o. cbn [oc_keys].
    eapply chain_read; [exact Ch| |exact Ki]. eapply offline_shufflers; [exact E1|]. eapply good_noise. exact D.
Qed.

Lemma run_simulated_read rng db junk c parties keys o :
  deployment rng db c parties keys -> bytes 52 junk -> run_simulated true rng db junk c parties = Ok o ->
  read_off rng (seeds (length db) parties) (length (ct_keys c)) (oc_keys o) = ct_keys c.
Proof.
  intros D J. pose proof (dp_rows _ _ _ _ _ D) as [Hr1 Hr]. pose proof (dp_total _ _ _ _ _ D) as Ht.
  pose proof (dp_max _ _ _ _ _ D) as H255. pose proof (dp_count _ _ _ _ _ D) as Hc.
  unfold run_simulated. rewrite Hc.
  destruct (client_simulate_spec (length db) (length keys) (ct_keys c) Hr (dp_queries _ _ _ _ _ D)) as (st & E & C).
  rewrite E. cbn [bind]. set (items := map (sim_item (length keys)) (ct_keys c)) in *.
  assert (Li : length items = length (ct_keys c)) by apply map_length.
  assert (Ki : map it_key items = ct_keys c) by (unfold items; rewrite map_map; apply map_id).
  assert (Oi : Forall (ok_item (length db) (length keys)) items).
  { apply Forall_map. eapply Forall_impl; [|exact (dp_queries _ _ _ _ _ D)]. intros key Hk. apply sim_item_ok; assumption. }
  destruct (simulate_chain_spec rng keys (length db) H255 Hr1 Hr parties 0 items)
    as (counts & states & levels & E1 & Ch & LK & Lf & _).
  - cbn. exact Hc.
  - intros j cf N. apply (dp_parties _ _ _ _ _ D j cf N).
  - rewrite Li. exact Ht.
  - rewrite Nat.sub_0_r. exact Oi.
  - rewrite Nat.sub_0_r. apply Forall_map. apply Forall_forall. intros; apply is_sim_item.
  - rewrite <- Li at 1. rewrite E1. cbn [bind]. pose proof (client_queries_spec st items C) as Eq. rewrite Ki in Eq. rewrite Eq. cbn [bind fst snd].
    pose proof (online_spec db junk backend_simulate (dp_db _ _ _ _ _ D) J states (items :: levels) Ch) as E2.
    assert (El : last counts 0 = Z.of_nat (length (last (items :: levels) []))).
    { rewrite Lf. apply (last_map (fun l => Z.of_nat (length l))). discriminate. }
    rewrite El. cbn [hd] in E2. rewrite E2. cbn [bind fst snd]. intros Eo. apply bind_Ok in Eo as (? & _ & Eo). inversion Eo; subst o. cbn [oc_keys].
    eapply chain_read; [exact Ch| |exact Ki]. eapply simulate_shufflers; [exact E1|]. eapply good_noise. exact D.
Qed.
