(** The offline stage of all servers of a party. *)
From Verif Require Import Base BaseProofs Incremental IncrementalProofs Wire WireProofs Additive AdditiveProofs Onion OnionProofs
  Shuffle Sizes State Database CipherBatch CipherBatchProofs Range Handlers Batch Party Chain Spec SharingProofs ShuffleProofs
  StateProofs ChainSpec OnlineProofs OfflineProofs OfflineParty ChainProofs ParShuffle ParShuffleProofs ParShuffleFacts Parallel ParSpec
  ParMergeProofs ParForwardProofs ParBackwardProofs ParOnlineProofs ParPartyProofs PermFacts ParFacts ParSecretsProofs ParTagProofs ParStage.

Local Notation advance := OnlineProofs.advance.

(** ** What a party passes on *)
Definition batches (N : nat) (noise : nat -> list item) (its : list (list item)) : list (list item) :=
  map (fun s => noise s ++ map advance (nth s its [])) (seq 0 N).
Definition nexts (N : nat) (tb : tables) (noise : nat -> list item) (its : list (list item)) : list (list item) :=
  map (fun t => pick no_item (received (tb_M tb) (tb_counts tb) N t (batches N noise its)) (ls_backward (tb_ls tb t))) (seq 0 N).

Definition par_holds (N : nat) (tb : tables) (rps : list pready) (noise : nat -> list item) (its : list (list item)) : Prop :=
  tb_ok N tb /\ par_ok N tb rps (fun s => map q_of (noise s)) /\ length its = N /\
  (forall s, (s < N)%nat -> length (noise s) = tb_noise tb s /\ length (nth s its []) = inp tb s) /\
  forall a rp, nth_error rps a = Some rp -> Forall (knows (pr_state rp)) (nth a its []).

Lemma batches_nth N noise its s : (s < N)%nat -> nth s (batches N noise its) [] = noise s ++ map advance (nth s its []).
Proof. intros H. apply nth_error_nth. unfold batches. rewrite nth_error_map_seq by exact H. reflexivity. Qed.

Section Nexts.
Variables (N : nat) (tb : tables) (noise : nat -> list item) (its : list (list item)).
Hypothesis HT : tb_ok N tb.
Hypothesis HL : forall s, (s < N)%nat -> (length (noise s) + length (nth s its []) = nth s (tb_counts tb) 0)%nat.
Hypothesis Hits : length its = N.
Lemma batches_length s : (s < N)%nat -> length (nth s (batches N noise its) []) = nth s (tb_counts tb) 0%nat.
Proof using All. intros H. rewrite batches_nth by exact H. rewrite app_length, map_length. auto. Qed.
Lemma nexts_perm : Permutation (concat (nexts N tb noise its)) (flat_map noise (seq 0 N) ++ map advance (concat its)).
Proof using All.
  unfold nexts. rewrite (outs_perm N tb HT no_item _ batches_length). rewrite (concat_nth_seq its N Hits).
  rewrite (flat_map_concat_map (fun i => nth i its [])), concat_map, map_map, <- flat_map_concat_map, <- flat_map_app_perm.
  apply Permutation_flat_map_ext. intros s Hs. apply in_seq in Hs. rewrite batches_nth by lia. reflexivity.
Qed.
Lemma nexts_length : length (nexts N tb noise its) = N.
Proof using. unfold nexts. rewrite map_length, seq_length. reflexivity. Qed.
Lemma nexts_nth t : (t < N)%nat -> nth t (nexts N tb noise its) [] =
  pick no_item (received (tb_M tb) (tb_counts tb) N t (batches N noise its)) (ls_backward (tb_ls tb t)).
Proof using. intros H. apply nth_error_nth. unfold nexts. rewrite nth_error_map_seq by exact H. reflexivity. Qed.
Lemma nexts_size t : (t < N)%nat -> length (nth t (nexts N tb noise its) []) = size (tb_counts tb) N t.
Proof using All. intros H. rewrite nexts_nth by exact H. unfold pick. rewrite map_length. destruct HT as (_ & _ & _ & Hls & _). apply (Hls t H). Qed.
End Nexts.

Lemma choose_fun {X} N (P : nat -> X -> Prop) : (0 < N)%nat -> (forall i, (i < N)%nat -> exists x, P i x) ->
  exists f : nat -> X, forall i, (i < N)%nat -> P i (f i).
Proof.
  intros HN H. assert (C : exists l, length l = N /\ forall i x, nth_error l i = Some x -> P i x).
  { clear HN. induction N as [|N IH].
    - exists []. split; [reflexivity|]. intros [|i] x E; discriminate.
    - destruct IH as (l & L & Hl); [intros i Hi; apply H; lia|]. destruct (H N) as (x & Hx); [lia|].
      exists (l ++ [x]). split; [rewrite app_length; cbn; lia|]. intros i y E.
      destruct (Nat.lt_ge_cases i N) as [Hi|Hi]; [rewrite nth_error_app1 in E by lia; auto|].
      rewrite nth_error_app2 in E by lia. destruct (i - length l)%nat as [|n] eqn:Ei; [|destruct n; discriminate].
      inversion E; subst y. replace i with N by lia. exact Hx. }
  destruct C as (l & L & Hl). destruct l as [|d l']; [cbn in L; lia|]. set (l := d :: l') in *.
  exists (fun i => nth i l d). intros i Hi. apply Hl. apply nth_error_nth'. lia.
Qed.

Lemma Forall2_nth_intro {A B} (R : A -> B -> Prop) da db_ : forall l l', length l = length l' ->
  (forall i, (i < length l)%nat -> R (nth i l da) (nth i l' db_)) -> Forall2 R l l'.
Proof.
  induction l as [|x l IH]; intros [|y l'] L H; try discriminate L; constructor.
  - apply (H 0%nat). cbn; lia.
  - apply IH; [cbn in L; lia|]. intros i Hi. apply (H (S i)). cbn; lia.
Qed.
Lemma Forall2_map_seq {A B} (R : A -> B -> Prop) f g N : (forall t, (t < N)%nat -> R (f t) (g t)) -> Forall2 R (map f (seq 0 N)) (map g (seq 0 N)).
Proof.
  intros H. assert (Hs : forall t, In t (seq 0 N) -> (t < N)%nat) by (intros t Ht; apply in_seq in Ht; lia).
  induction (seq 0 N) as [|x l IH]; cbn [map]; constructor; [apply H, Hs; left; reflexivity|].
  apply IH. intros t Ht. apply Hs. right; exact Ht.
Qed.
Lemma length_concat_sum {A} (l : list (list A)) : length (concat l) = list_sum (map (fun x => length x) l).
Proof. induction l as [|x l IH]; [reflexivity|]. cbn [concat map]. rewrite app_length, IH. reflexivity. Qed.

Lemma map_res_map {A B C} (f : B -> res C) (g : A -> B) l : map_res f (map g l) = map_res (fun x => f (g x)) l.
Proof. induction l as [|x l IH]; cbn [map map_res]; [reflexivity|]. rewrite IH. reflexivity. Qed.
Lemma map_res_seq {A} (f : nat -> res A) (g : nat -> A) N : (forall i, (i < N)%nat -> f i = Ok (g i)) -> map_res f (seq 0 N) = Ok (map g (seq 0 N)).
Proof. intros H. apply map_res_Ok. intros i Hi. apply in_seq in Hi. apply H. lia. Qed.

Lemma addressed_Forall2 {A B} (R : A -> B -> Prop) t : forall ts l l', Forall2 R l l' -> Forall2 R (addressed_to t ts l) (addressed_to t ts l').
Proof.
  induction ts as [|x ts IH]; intros l l' H; [constructor|]. destruct H as [|a b l l' Hab H]; [constructor|].
  specialize (IH _ _ H). unfold addressed_to in *. cbn [combine filter fst]. destruct (x =? t)%nat; cbn [map snd]; [constructor; assumption|exact IH].
Qed.
Lemma addressed_map {A B} (f : A -> B) t : forall ts l, addressed_to t ts (map f l) = map f (addressed_to t ts l).
Proof.
  induction ts as [|x ts IH]; intros l; [reflexivity|]. destruct l as [|a l]; [reflexivity|].
  specialize (IH l). unfold addressed_to in *. cbn [map combine filter fst]. destruct (x =? t)%nat; cbn [map snd]; rewrite IH; reflexivity.
Qed.
Lemma received_Forall2 {A B} (R : A -> B -> Prop) M counts N t (ins : list (list A)) (ins' : list (list B)) :
  (forall s, (s < N)%nat -> Forall2 R (nth s ins []) (nth s ins' [])) ->
  Forall2 R (received M counts N t ins) (received M counts N t ins').
Proof.
  intros H. unfold received. assert (Hs : forall s, In s (seq 0 N) -> (s < N)%nat) by (intros s Hs; apply in_seq in Hs; lia).
  induction (seq 0 N) as [|s l IH]; cbn [flat_map]; [constructor|]. apply Forall2_app.
  - apply addressed_Forall2, H, Hs. left; reflexivity.
  - apply IH. intros x Hx. apply Hs. right; exact Hx.
Qed.
Lemma received_map {A B} (f : A -> B) M counts N t (ins : list (list A)) (ins' : list (list B)) :
  (forall s, (s < N)%nat -> nth s ins' [] = map f (nth s ins [])) ->
  received M counts N t ins' = map f (received M counts N t ins).
Proof.
  intros H. unfold received. assert (Hs : forall s, In s (seq 0 N) -> (s < N)%nat) by (intros s Hs; apply in_seq in Hs; lia).
  induction (seq 0 N) as [|s l IH]; cbn [flat_map map]; [reflexivity|]. rewrite map_app. f_equal.
  - rewrite H by (apply Hs; left; reflexivity). apply addressed_map.
  - apply IH. intros x Hx. apply Hs. right; exact Hx.
Qed.

Lemma server_keys_bound N rows s cf : tiled N rows -> (s < N)%nat -> Forall (fun k => 0 <= k < Z.of_nat rows) (server_noise_keys N rows s cf).
Proof.
  intros T Hs. unfold server_noise_keys. apply Forall_map. eapply Forall_impl; [|apply noise_keys_bound]. cbn beta.
  intros x Hx. pose proof (first_key_bound N rows T s Hs). pose proof (end_first_count N rows T s Hs). lia.
Qed.
Lemma server_keys_length N rows s cf : length (server_noise_keys N rows s cf) = server_noise N rows s cf.
Proof. unfold server_noise_keys. rewrite map_length. apply noise_keys_length. Qed.

Section PartyStage.
Variables (rng : rng_t) (keys : list (list Z * list Z)) (k rows N : nat) (confs : list sconf) (its : list (list item)).
Notation inputs := (map (fun l : list item => length l) its).
Hypothesis G : good_siblings rng (length keys) k rows N confs inputs.
Hypothesis Htot : Z.of_nat (list_sum (batch_counts N rows confs inputs)) < 2 ^ 32.
Notation m := (length keys - k - 1)%nat.
Notation cnt := (ct rows N confs inputs).

Lemma input_nth s : nth s inputs 0%nat = length (nth s its []).
Proof using. apply (map_nth (fun l : list item => length l) its []). Qed.
Lemma its_length : length its = N.
Proof using All. pose proof (gb_inputs _ _ _ _ _ _ _ G) as H. rewrite map_length in H. exact H. Qed.
Lemma conf_at s : (s < N)%nat -> exists sf, get confs s = Ok sf /\ nth_error confs s = Some sf.
Proof using All. intros Hs. destruct (get_lt confs s) as (sf & E & Nf); [rewrite (gb_length _ _ _ _ _ _ _ G); exact Hs|]. exists sf. auto. Qed.

Definition next_counts : list Z := map (fun t => Z.of_nat (share_of (list_sum (batch_counts N rows confs inputs)) N t)) (seq 0 N).
Lemma shuffled_counts cts : par_counts true confs (map Z.of_nat inputs) = Ok cts -> map co_shuffled cts = next_counts.
Proof using All.
  intros E. destruct (par_counts_spec rng (length keys) k rows N confs inputs G Htot) as (cts' & E' & Lc & Hc).
  rewrite E in E'. inversion E'; subst cts'. apply nth_error_ext. intros s. rewrite nth_error_map. unfold next_counts.
  destruct (Nat.lt_ge_cases s N) as [Hs|Hs].
  - rewrite nth_error_map_seq by exact Hs. destruct (conf_at s Hs) as (sf & _ & Nf). rewrite (Hc s sf Nf). reflexivity.
  - rewrite (proj2 (nth_error_None cts s)) by lia. rewrite (proj2 (nth_error_None (map _ _) s)); [reflexivity|]. rewrite map_length, seq_length. exact Hs.
Qed.
Lemma next_sizes tb noise : tb_ok N tb -> tb_counts tb = batch_counts N rows confs inputs ->
  (forall s, (s < N)%nat -> (length (noise s) + length (nth s its []) = nth s (tb_counts tb) 0)%nat) ->
  next_counts = map (fun l => Z.of_nat (length l)) (nexts N tb noise its).
Proof using All.
  intros HT Et HL. unfold next_counts, nexts. rewrite map_map. apply map_ext_in. intros t Ht. apply in_seq in Ht. f_equal.
  rewrite <- nexts_nth by lia. rewrite (nexts_size N tb noise its HT HL its_length) by lia. rewrite Et. reflexivity.
Qed.

(** The servers between the stages. *)
Lemma par_ready_spec cts tb nss states noise :
  par_counts true confs (map Z.of_nat inputs) = Ok cts ->
  tb_ok N tb -> tb_counts tb = batch_counts N rows confs inputs -> (forall s, (s < N)%nat -> tb_noise tb s = nz rows N confs s) ->
  length nss = N -> length states = N ->
  (forall s sf, nth_error confs s = Some sf -> map it_key (noise s) = server_noise_keys N rows s (sf_conf sf)) ->
  (forall s ns i it, nth_error nss s = Some ns -> nth_error (noise s) i = Some it ->
     make_query (load_times i ns) (it_key it) = Ok (q_of it, load_times (S i) ns)) ->
  (forall s st, nth_error states s = Some st -> Forall (knows st) (nth s its [])) ->
  exists rps, par_ready confs cts (map (shuf (tb_M tb) (tb_counts tb) N (tb_noise tb) (tb_ls tb)) (seq 0 N)) nss states = Ok rps /\
    par_holds N tb rps noise its.
Proof using All.
  intros Ects HT Et En Lns Lst Hk Hq Hst.
  destruct (par_counts_spec rng (length keys) k rows N confs inputs G Htot) as (cts' & E' & Lc & Hc).
  rewrite Ects in E'. inversion E'; subst cts'. clear E'.
  pose proof (gb_length _ _ _ _ _ _ _ G) as L. pose proof (gb_tiled _ _ _ _ _ _ _ G) as T.
  destruct (gb_servers _ _ _ _ _ _ _ G) as (shared & Hsh & GS).
  assert (Lnoise : forall s, (s < N)%nat -> length (noise s) = nz rows N confs s).
  { intros s Hs. destruct (conf_at s Hs) as (sf & _ & Nf). rewrite (nz_conf rng _ k rows N confs inputs G Htot s sf Nf).
    rewrite <- server_keys_length, <- (Hk s sf Nf), map_length. reflexivity. }
  destruct (map_res_exists (fun i =>
    let* ct := get cts i in
    let* sh := get (map (shuf (tb_M tb) (tb_counts tb) N (tb_noise tb) (tb_ls tb)) (seq 0 N)) i in
    let* ns := get nss i in
    let* st := get states i in
    let* qs := par_noise_queries (co_start ct) (co_end ct) (co_samples ct) ns
                 (bt_initialize zero_query (Z.to_nat (w32 (co_input ct + co_noise ct)))) in
    Ok {| pr_noise := co_noise ct; pr_input := co_input ct; pr_shuffled := co_shuffled ct; pr_state := st;
          pr_sh := sh; pr_tags := bt_initialize 0 (Z.to_nat (co_input ct)); pr_queries := qs |})
    (fun s rp => firstn (length (noise s)) (bt_data (pr_queries rp)) = map q_of (noise s)) (seq 0 N)) as (rps & E & F).
  { intros s Hs. apply in_seq in Hs. assert (Hs' : (s < N)%nat) by lia. destruct (conf_at s Hs') as (sf & _ & Nf).
    unfold get at 1. rewrite (Hc s sf Nf). cbn [bind]. rewrite get_map by exact Hs'. cbn [bind].
    destruct (get_lt nss s) as (ns & E1 & N1); [lia|]. rewrite E1. cbn [bind].
    destruct (get_lt states s) as (st & E2 & N2); [lia|]. rewrite E2. cbn [bind].
    cbn [ParPartyProofs.ct co_start co_end co_samples co_noise co_input co_shuffled].
    pose proof (count_le rng _ k rows N confs inputs G Htot s Hs') as Hle. cbn beta in Hle. change (sum ?l) with (list_sum l) in Hle.
    rewrite w32_id by (unfold u32; lia).
    rewrite (end_first_count N rows T s Hs').
    pose proof (nz_conf rng _ k rows N confs inputs G Htot s sf Nf) as Enz. unfold server_noise in Enz.
    destruct (par_noise_queries_spec (sf_conf sf) (first_key N rows s) (key_count N rows s) (noise s) ns
      (Z.to_nat (Z.of_nat (nth s inputs 0%nat) + Z.of_nat (nz rows N confs s)))) as (qs & Eq & _ & Fq).
    - apply (gs_samples _ _ _ _ _ _ _ _ (GS s sf Nf)).
    - lia.
    - lia.
    - exact (Hk s sf Nf).
    - intros i it Ni. apply (Hq s ns i it N1 Ni).
    - rewrite Eq. cbn [bind]. eexists. split; [reflexivity|]. exact Fq. }
  exists rps. unfold par_ready at 1. rewrite L. split; [exact E|].
  assert (E' : par_ready confs cts (map (shuf (tb_M tb) (tb_counts tb) N (tb_noise tb) (tb_ls tb)) (seq 0 N)) nss states = Ok rps)
    by (unfold par_ready; rewrite L; exact E).
  destruct (par_ready_ok rng _ k rows N confs inputs G Htot cts tb nss states rps Ects HT Et En E') as (Hok & Hinp & Hs).
  split; [exact HT|]. split; [|split; [exact its_length|split]].
  - destruct Hok as (Lr & Hok). split; [exact Lr|]. intros a rp Nrp.
    assert (Ha : (a < N)%nat) by (rewrite <- Lr; apply nth_error_Some; congruence).
    destruct (Hok a rp Nrp) as (H1 & H2 & H3 & H4 & H5 & H6 & _ & _). repeat (split; [assumption|]). split.
    + rewrite map_length, Lnoise, En by exact Ha. reflexivity.
    + rewrite En, <- Lnoise by exact Ha. apply (F a a rp); [apply nth_error_seq; exact Ha|exact Nrp].
  - intros s Hs'. rewrite En, Lnoise, Hinp, input_nth by exact Hs'. auto.
  - intros a rp Nrp. apply Hst. apply Hs. exact Nrp.
Qed.

(** ** Simulated stage *)
Definition sim_server_noise (s : nat) : list item :=
  match nth_error confs s with Some sf => map (sim_item m) (server_noise_keys N rows s (sf_conf sf)) | None => [] end.

Lemma simulate_parts cts tb : (length keys <= 255)%nat -> (forall l, In l its -> Forall (is_sim (S m)) l) ->
  par_counts true confs (map Z.of_nat inputs) = Ok cts -> tb_ok N tb -> tb_counts tb = batch_counts N rows confs inputs ->
  (forall s, (s < N)%nat -> tb_noise tb s = nz rows N confs s) ->
  exists ns, (forall s, (s < N)%nat -> cs_initialize cs_new m (Z.of_nat (nz rows N confs s)) true true = Ok (ns s)) /\
  exists rps, par_ready confs cts (map (shuf (tb_M tb) (tb_counts tb) N (tb_noise tb) (tb_ls tb)) (seq 0 N)) (map ns (seq 0 N))
    (map (fun _ => qs_initialize_state qs_new true) confs) = Ok rps /\ par_holds N tb rps sim_server_noise its.
Proof using All.
  intros H255 Hsim Ects HT Et En. pose proof (gb_length _ _ _ _ _ _ _ G) as L. pose proof (gb_tiled _ _ _ _ _ _ _ G) as T. pose proof T as (T1 & T2 & T3 & T4).
  destruct (choose_fun N (fun s ns => cs_initialize cs_new m (Z.of_nat (nz rows N confs s)) true true = Ok ns)) as (ns & Hns).
  { lia. }
  { intros s Hs. destruct (cs_initialize cs_new m (Z.of_nat (nz rows N confs s)) true true) as [x| | |] eqn:E; try discriminate E. exists x. reflexivity. }
  exists ns. split; [exact Hns|].
  apply (par_ready_spec cts tb (map ns (seq 0 N)) (map (fun _ => qs_initialize_state qs_new true) confs) sim_server_noise Ects HT Et En).
  - rewrite map_length, seq_length. reflexivity.
  - rewrite map_length. exact L.
  - intros s sf Nf. unfold sim_server_noise. rewrite Nf, map_map. apply map_id.
  - intros s st i it Ns Nit. assert (Hs : (s < N)%nat).
    { assert (H : (s < length (map ns (seq 0 N)))%nat) by (apply nth_error_Some; congruence). rewrite map_length, seq_length in H. exact H. }
    rewrite nth_error_map_seq in Ns by exact Hs. inversion Ns; subst st. clear Ns.
    destruct (conf_at s Hs) as (sf & _ & Nf). unfold sim_server_noise in Nit. rewrite Nf, nth_error_map in Nit.
    destruct (nth_error (server_noise_keys N rows s (sf_conf sf)) i) as [key|] eqn:Ek; [|discriminate]. inversion Nit; subst it. cbn [sim_item mk_item it_key].
    destruct (c37_simulated cs_new m (Z.of_nat (nz rows N confs s)) true (S i)) as (c0 & Ec & U1 & U2 & _).
    rewrite (Hns s Hs) in Ec. inversion Ec as [Eq].
    apply (sim_query (ns s) 0 0 m key i rows); [right; exact I|lia| |rewrite Eq; exact U1|rewrite Eq; exact U2].
    pose proof (server_keys_bound N rows s (sf_conf sf) T Hs) as B. rewrite Forall_forall in B. apply B. eapply nth_error_In; exact Ek.
  - intros s st Ns. rewrite nth_error_map in Ns. destruct (nth_error confs s); [|discriminate]. inversion Ns; subst st.
    destruct (Nat.lt_ge_cases s (length its)) as [Hs|Hs]; [|rewrite nth_overflow by exact Hs; constructor].
    eapply Forall_impl; [|apply Hsim, nth_In; exact Hs]. intros it. apply sim_knows.
Qed.

Lemma par_simulate_spec : (length keys <= 255)%nat ->
  (forall l, In l its -> Forall (is_sim (S m)) l) ->
  exists tb, tb_ok N tb /\ tb_counts tb = batch_counts N rows confs inputs /\
    (forall s, (s < N)%nat -> tb_noise tb s = nz rows N confs s) /\
  exists rps, par_simulate true rng confs (map Z.of_nat inputs) = Ok (next_counts, rps) /\ par_holds N tb rps sim_server_noise its.
Proof using All.
  intros H255 Hsim. pose proof (gb_length _ _ _ _ _ _ _ G) as L. pose proof (gb_tiled _ _ _ _ _ _ _ G) as T. pose proof T as (T1 & T2 & T3 & T4).
  pose proof (gb_parties _ _ _ _ _ _ _ G) as Hp. destruct (gb_servers _ _ _ _ _ _ _ G) as (shared & Hsh & GS).
  destruct (par_counts_spec rng (length keys) k rows N confs inputs G Htot) as (cts & Ects & Lc & Hc).
  destruct (par_shufflers_spec rng _ k rows N confs inputs G Htot cts Ects) as (tb & HT & Et & En & Eshs).
  exists tb. split; [exact HT|]. split; [exact Et|]. split; [exact En|].
  unfold par_simulate. rewrite Ects. cbn [bind]. rewrite Eshs. cbn [bind]. rewrite L.
  destruct (simulate_parts cts tb H255 Hsim Ects HT Et En) as (ns & Hns & rps & Er & Hh).
  rewrite (map_res_seq _ ns).
  2:{ intros s Hs. destruct (conf_at s Hs) as (sf & Ef & Nf). rewrite Ef. cbn [bind]. unfold get. rewrite (Hc s sf Nf). cbn [bind ParPartyProofs.ct co_noise].
      unfold remaining_parties. rewrite (gs_party _ _ _ _ _ _ _ _ (GS s sf Nf)), (gs_parties _ _ _ _ _ _ _ _ (GS s sf Nf)), as_party_id_sub1 by lia.
      apply Hns. exact Hs. }
  cbn [bind]. rewrite Er. cbn [bind]. exists rps. split; [|exact Hh]. rewrite (shuffled_counts cts Ects). reflexivity.
Qed.

(** ** Offline stage *)
Section Keyed.
Variables (b : sealbox) (c : nat) (iter : iteration).
Hypothesis Hbox : forall pk sk, In (pk, sk) keys -> box_ok b pk sk.
Hypothesis H255 : (length keys <= 255)%nat.
Hypothesis Hconst : forall s sf i, nth_error confs s = Some sf -> (i < key_count N rows s)%nat -> pf_samples (sf_conf sf) i = Z.of_nat c.
Hypothesis Hiter : forall i l, Permutation (iter i l) l.
Hypothesis Hkeys : forall s sf, nth_error confs s = Some sf ->
  pf_pkeys (sf_conf sf) = map fst keys /\ nth_error keys k = Some (pf_pkey (sf_conf sf), pf_skey (sf_conf sf)) /\
  good_rand (pf_rand (sf_conf sf)) (server_noise N rows s (sf_conf sf)) m.

Definition first_tag_of (s : nat) : nat := (list_sum inputs + before rows N s * c)%nat.
Definition server_noise_items (s : nat) : list item :=
  match nth_error confs s with
  | Some sf => gen_items m (pf_rand (sf_conf sf)) (first_tag_of s) (server_noise_keys N rows s (sf_conf sf))
  | None => []
  end.
Definition secret_traffic (t s : nat) : nat := if (s =? t)%nat then 0%nat else length (nth s its []).

Lemma tag_room s : (s < N)%nat -> (first_tag_of s + nz rows N confs s <= list_sum (batch_counts N rows confs inputs))%nat.
Proof using All.
  intros Hs. rewrite (total_split rng _ k rows N confs inputs c G Htot Hconst). unfold first_tag_of.
  rewrite (nz_const rng _ k rows N confs inputs c G Htot Hconst s Hs).
  pose proof (before_all rng _ k rows N confs inputs c G Htot Hconst) as Ba.
  assert (before rows N s + key_count N rows s <= rows)%nat; [|nia].
  pose proof (sum_seq_lt (key_count N rows) s N Hs) as Hlt. unfold before in *. change (sum ?l) with (list_sum l) in Hlt. lia.
Qed.

Record srv := { v_ns0 : cstate; v_cb : cbatch; v_ns : cstate; v_ncs : list (list Z); v_cb2 : cbatch; v_cb3 : cbatch;
                v_p : qstate; v_outs : list (list Z) }.

(** What server s computes without its siblings from the ciphers of css. *)
Definition alone (css : list (list (list Z))) (s : nat) (v : srv) : Prop := forall sf, nth_error confs s = Some sf ->
  cs_initialize cs_new (remaining_parties (sf_conf sf)) (co_noise (cnt s sf)) true false = Ok (v_ns0 v) /\
  par_noise_ciphers b true (sf_conf sf) (cnt s sf) (v_ns0 v) = Ok (v_cb v, v_ns v) /\
  collect_ciphers (co_input (cnt s sf)) (nth s css []) (v_cb v) = Ok (v_cb2 v) /\
  install_secrets b true (sf_conf sf) (co_input (cnt s sf)) (v_cb2 v) (qs_initialize_state qs_new false) = Ok (v_cb3 v, v_p v) /\
  cb_all (v_cb3 v) = Ok (v_ncs v ++ v_outs v) /\
  install_all true (qs_initialize_state qs_new false) (map first_secret (nth s its [])) = Ok (v_p v) /\
  Forall2 (opens b (skipn (S k) keys)) (v_ncs v) (server_noise_items s) /\
  Forall2 (opens b (skipn (S k) keys)) (v_outs v) (map advance (nth s its [])) /\
  forall i it, nth_error (server_noise_items s) i = Some it -> make_query (load_times i (v_ns v)) (it_key it) = Ok (q_of it, load_times (S i) (v_ns v)).

Lemma noise_keys_count s sf : nth_error confs s = Some sf -> length (server_noise_keys N rows s (sf_conf sf)) = nz rows N confs s.
Proof using All. intros Nf. rewrite server_keys_length. symmetry. apply (nz_conf rng _ k rows N confs inputs G Htot s sf Nf). Qed.
Lemma noise_items_of s sf : nth_error confs s = Some sf -> server_noise_items s =
  gen_items m (pf_rand (sf_conf sf)) (first_tag_of s) (server_noise_keys N rows s (sf_conf sf)).
Proof using. intros Nf. unfold server_noise_items. rewrite Nf. reflexivity. Qed.

Lemma servers_alone css :
  Forall (Forall (ok_item rows (S m))) its -> NoDup (map it_tag (concat its)) -> Forall2 (Forall2 (opens b (skipn k keys))) css its ->
  exists v, forall s, (s < N)%nat -> alone css s (v s).
Proof using All.
  intros Oi ND F2. pose proof (gb_tiled _ _ _ _ _ _ _ G) as T. pose proof T as (T1 & T2 & T3 & T4).
  pose proof (gb_parties _ _ _ _ _ _ _ G) as Hp. destruct (gb_servers _ _ _ _ _ _ _ G) as (shared & Hsh & GS). pose proof its_length as Lits.
  apply choose_fun; [lia|].
  intros s Hs. destruct (conf_at s Hs) as (sf & _ & Nf). destruct (Hkeys s sf Nf) as (K1 & K2 & K3). pose proof (GS s sf Nf) as g.
    destruct (par_noise_ciphers_spec b keys rows k (sf_conf sf) (cnt s sf) (first_tag_of s) (length (nth s its []))
      (server_noise_keys N rows s (sf_conf sf)) (gs_party _ _ _ _ _ _ _ _ g) (gs_parties _ _ _ _ _ _ _ _ g) K1)
      as (ns0 & cb & ns & ncs & rest & A1 & A2 & A3 & A4 & A5 & A6 & A7 & A8).
    - rewrite (noise_keys_count s sf Nf). reflexivity.
    - cbn [ParPartyProofs.ct co_input]. rewrite input_nth. reflexivity.
    - rewrite server_keys_length. exact K3.
    - intros i Hi. rewrite (noise_keys_count s sf Nf) in Hi. rewrite (gs_db _ _ _ _ _ _ _ _ g).
      apply (sample_tag rng _ k rows N confs inputs c G Htot Hconst s sf i Nf Hi).
    - exact Hbox.
    - exact H255.
    - lia.
    - exact T3.
    - apply server_keys_bound; assumption.
    - rewrite (noise_keys_count s sf Nf). pose proof (tag_room s Hs). lia.
    - destruct (server_install b keys rows k (sf_conf sf) (length (nth s its [])) cb ncs rest (nth s css []) (nth s its [])
        (gs_party _ _ _ _ _ _ _ _ g) (gs_parties _ _ _ _ _ _ _ _ g) K2 H255 ltac:(lia) A3 A4 A5 A6)
        as (cb2 & cb3 & p & outs & B1 & B2 & B3 & B4 & B5).
      + apply (Forall2_nth_default _ css its F2). rewrite (Forall2_len _ _ _ F2). lia.
      + rewrite Forall_forall in Oi. apply Oi. apply nth_In. lia.
      + assert (Hn : nth_error its s = Some (nth s its [])) by (apply nth_error_nth'; lia).
        apply nth_error_split in Hn. destruct Hn as (l1 & l2 & El & _). rewrite El in ND. rewrite concat_app, map_app in ND.
        cbn [concat] in ND. apply NoDup_app_r in ND. rewrite map_app in ND. apply NoDup_app_l in ND. exact ND.
      + reflexivity.
      + exists {| v_ns0 := ns0; v_cb := cb; v_ns := ns; v_ncs := ncs; v_cb2 := cb2; v_cb3 := cb3; v_p := p; v_outs := outs |}.
        cbn [v_ns0 v_cb v_ns v_ncs v_cb2 v_cb3 v_p v_outs]. intros sf' Nf'. rewrite Nf in Nf'. inversion Nf'; subst sf'.
        rewrite (noise_items_of s sf Nf). assert (Ei : co_input (cnt s sf) = Z.of_nat (length (nth s its []))).
        { cbn [ParPartyProofs.ct co_input]. rewrite input_nth. reflexivity. }
        rewrite Ei. repeat (split; [assumption|]). exact A8. 
Qed.

(** What the siblings exchange. *)
Definition out_batches (v : nat -> srv) : list (list (list Z)) := map (fun s => v_ncs (v s) ++ v_outs (v s)) (seq 0 N).
Definition passed_on (tb : tables) (v : nat -> srv) : list (list (list Z)) :=
  map (fun t => pick [] (received (tb_M tb) (tb_counts tb) N t (out_batches v)) (ls_backward (tb_ls tb t))) (seq 0 N).
Definition empty_batches : list cbatch :=
  map (fun s => cb_initialize (124 * m) (124 * S m) (share_of (list_sum (batch_counts N rows confs inputs)) N s) 0) (seq 0 N).
Notation shs tb := (map (shuf (tb_M tb) (tb_counts tb) N (tb_noise tb) (tb_ls tb)) (seq 0 N)).

Lemma out_batches_open css v : (forall s, (s < N)%nat -> alone css s (v s)) ->
  forall s, (s < N)%nat -> Forall2 (opens b (skipn (S k) keys)) (nth s (out_batches v) []) (nth s (batches N server_noise_items its) []).
Proof using All.
  intros Hv s Hs. unfold out_batches. rewrite batches_nth by exact Hs. erewrite nth_error_nth; [|rewrite nth_error_map_seq by exact Hs; reflexivity].
  destruct (conf_at s Hs) as (sf & _ & Nf). apply Forall2_app; apply (Hv s Hs sf Nf).
Qed.
Lemma noise_and_its tb s : tb_counts tb = batch_counts N rows confs inputs -> (s < N)%nat ->
  (length (server_noise_items s) + length (nth s its []) = nth s (tb_counts tb) 0)%nat.
Proof using All.
  intros Et Hs. rewrite Et, (counts_nth rng _ k rows N confs inputs G Htot s Hs). cbn beta. rewrite input_nth. f_equal.
  destruct (conf_at s Hs) as (sf & _ & Nf). rewrite (noise_items_of s sf Nf), gen_length. apply noise_keys_count. exact Nf.
Qed.
Lemma opens_out_length cs l : Forall2 (opens b (skipn (S k) keys)) cs l -> Forall (fun y => length y = (124 * m)%nat) cs.
Proof using All.
  pose proof (gb_parties _ _ _ _ _ _ _ G) as Hp. assert (Hskip : length (skipn (S k) keys) = m) by (rewrite skipn_length; lia).
  induction 1 as [|x it cs l H _ IH]; constructor; [|exact IH]. apply peels_length in H. rewrite Hskip in H. exact H.
Qed.

Lemma shuffle_parts tb css v order_c : tb_ok N tb -> tb_counts tb = batch_counts N rows confs inputs ->
  (forall s, (s < N)%nat -> alone css s (v s)) -> complete N (from (tb_M tb) (tb_counts tb)) order_c ->
  exists outb, par_shuffle cb_set_short (shs tb) next_counts (out_batches v) empty_batches order_c = Ok outb /\ map_res cb_all outb = Ok (passed_on tb v).
Proof using All.
  intros HT Et Hv Ho. pose proof (gb_parties _ _ _ _ _ _ _ G) as Hp. pose proof its_length as Lits.
  assert (Enc : next_counts = map (fun t => Z.of_nat (size (tb_counts tb) N t)) (seq 0 N)) by (rewrite Et; reflexivity).
  pose proof (out_batches_open css v Hv) as Hins.
  assert (HTc := HT). destruct HTc as (HM & HN & Hsum & Hls & Hnoise).
  unfold empty_batches. set (total := list_sum (batch_counts N rows confs inputs)) in *.
  destruct (par_shuffle_spec (tb_M tb) (tb_counts tb) N (tb_noise tb) (tb_ls tb) HM HN Hsum Hls (cb_flat (124 * m)) (fun x => length x = (124 * m)%nat)
     cb_set_short (fun bb l i x => cb_flat_set (124 * m) bb l i x) [] (out_batches v)
     (map (fun s => cb_initialize (124 * m) (124 * S m) (share_of total N s) 0) (seq 0 N)) order_c) as (outb & Eo & Lo & Ro).
  { unfold out_batches. rewrite map_length, seq_length. reflexivity. }
  { rewrite map_length, seq_length. reflexivity. }
  { intros s Hs. rewrite (Forall2_len _ _ _ (Hins s Hs)). apply (batches_length N tb server_noise_items its HT (fun s => noise_and_its tb s Et) Lits s Hs). }
  { intros s y Hy. destruct (Nat.lt_ge_cases s N) as [Hs|Hs].
    - pose proof (opens_out_length _ _ (Hins s Hs)) as F. rewrite Forall_forall in F. apply F. exact Hy.
    - unfold out_batches in Hy. rewrite nth_overflow in Hy by (rewrite map_length, seq_length; exact Hs). contradiction. }
  { intros t e Ne. assert (Ht : (t < N)%nat).
    { assert (Hx : (t < length (map (fun s => cb_initialize (124 * m) (124 * S m) (share_of total N s) 0) (seq 0 N)))%nat) by (apply nth_error_Some; congruence).
      rewrite map_length, seq_length in Hx. exact Hx. }
    rewrite nth_error_map_seq in Ne by exact Ht. inversion Ne; subst e. eexists. split; [apply cb_flat_init|].
    rewrite repeat_length. rewrite Et. reflexivity. }
  { exact Ho. }
  rewrite Enc. exists outb. split; [exact Eo|]. unfold passed_on.
  apply map_res_eq; [rewrite map_length, seq_length; exact Lo|]. intros t bb Nb.
  assert (Ht : (t < N)%nat) by (rewrite <- Lo; apply nth_error_Some; congruence).
  eexists. split; [rewrite nth_error_map_seq by exact Ht; reflexivity|].
  apply (cb_flat_all (124 * m)); [apply Ro; exact Nb|lia].
Qed.

Lemma passed_on_open tb css v : tb_ok N tb -> tb_counts tb = batch_counts N rows confs inputs ->
  (forall s, (s < N)%nat -> alone css s (v s)) ->
  Forall2 (Forall2 (opens b (skipn (S k) keys))) (passed_on tb v) (nexts N tb server_noise_items its).
Proof using All.
  intros HT Et Hv. pose proof its_length as Lits. pose proof (out_batches_open css v Hv) as Hins.
  assert (HTc := HT). destruct HTc as (HM & HN & Hsum & Hls & Hnoise).
  unfold passed_on, nexts. apply Forall2_map_seq. intros t Ht. apply Forall2_pick.
  - apply received_Forall2. exact Hins.
  - intros j Hj. rewrite (received_length (tb_M tb) (tb_counts tb) N (tb_noise tb) (tb_ls tb) HM HN Hsum Hls _ t Ht).
    + destruct (Hls t Ht) as (_ & _ & _ & Pb & _). apply (Permutation_in _ (Permutation_sym Pb)) in Hj. apply in_seq in Hj. lia.
    + intros s Hs. rewrite (Forall2_len _ _ _ (Hins s Hs)). apply (batches_length N tb server_noise_items its HT (fun s => noise_and_its tb s Et) Lits s Hs).
Qed.

Lemma secrets_parts cts tb css v order_s :
  par_counts true confs (map Z.of_nat inputs) = Ok cts -> tb_ok N tb -> tb_counts tb = batch_counts N rows confs inputs ->
  (forall s, (s < N)%nat -> tb_noise tb s = nz rows N confs s) ->
  Forall (Forall (ok_item rows (S m))) its -> NoDup (map it_tag (concat its)) ->
  (forall s, (s < N)%nat -> alone css s (v s)) -> complete N secret_traffic order_s ->
  exists states rps, broadcast_secrets party_pack (qs_store true) iter (map (fun s => v_p (v s)) (seq 0 N)) order_s = Ok states /\
    par_ready confs cts (shs tb) (map (fun s => v_ns (v s)) (seq 0 N)) states = Ok rps /\ par_holds N tb rps server_noise_items its.
Proof using All.
  intros Ects HT Et En Oi ND Hv Hs_. pose proof its_length as Lits.
  set (secrets := map (map first_secret) its).
  assert (Hconcat : concat secrets = map first_secret (concat its)) by (symmetry; apply concat_map).
  assert (Oall : Forall (ok_item rows (S m)) (concat its)) by (apply Forall_concat; exact Oi).
  assert (NDs : NoDup (map o_tag (concat secrets))) by (rewrite Hconcat, (map_first_tag rows m) by exact Oall; exact ND).
  assert (Lsec : length secrets = N) by (unfold secrets; rewrite map_length; exact Lits).
  destruct (c48_party true iter secrets (map (fun s => v_p (v s)) (seq 0 N)) order_s Hiter) as (states & Ebc & Lst & Fst).
  { unfold secrets. apply (Forall2_nth_intro _ [] qs_new).
    - rewrite !map_length, seq_length. exact Lits.
    - intros s Hs. rewrite map_length in Hs. rewrite (nth_indep _ [] (map first_secret [])) by (rewrite map_length; exact Hs).
      rewrite (map_nth (map first_secret)). erewrite (nth_error_nth (map _ (seq 0 N))); [|rewrite nth_error_map_seq by lia; reflexivity].
      destruct (conf_at s ltac:(lia)) as (sf & _ & Nf). apply (Hv s ltac:(lia) sf Nf). }
  { exact NDs. }
  { rewrite Hconcat, map_length.
    pose proof (total_split rng _ k rows N confs inputs c G Htot Hconst) as Hts.
    rewrite <- length_concat_sum in Hts. lia. }
  { rewrite Lsec. apply (complete_ext N secret_traffic); [|exact Hs_]. intros t s Ht Hs. unfold secret_traffic.
    destruct (s =? t)%nat; [reflexivity|]. unfold secrets. change (@nil osecret) with (map first_secret []). rewrite map_nth, map_length. reflexivity. }
  destruct (par_ready_spec cts tb (map (fun s => v_ns (v s)) (seq 0 N)) states server_noise_items Ects HT Et En)
    as (rps & Er & Hh).
  - rewrite map_length, seq_length. reflexivity.
  - lia.
  - intros s sf Nf. rewrite (noise_items_of s sf Nf). apply gen_keys.
  - intros s st i it Ns Nit. assert (Hs : (s < N)%nat).
    { assert (H : (s < length (map (fun x => v_ns (v x)) (seq 0 N)))%nat) by (apply nth_error_Some; congruence). rewrite map_length, seq_length in H. exact H. }
    rewrite nth_error_map_seq in Ns by exact Hs. inversion Ns; subst st.
    destruct (conf_at s Hs) as (sf & _ & Nf). apply (Hv s Hs sf Nf). exact Nit.
  - intros s st Ns. rewrite Forall_forall in Fst. destruct (Fst st (nth_error_In _ _ Ns)) as (Sim & Pm).
    apply Forall_forall. intros it Hin.
    assert (Hin' : In it (concat its)).
    { destruct (Nat.lt_ge_cases s (length its)) as [Hs|Hs]; [|rewrite nth_overflow in Hin by exact Hs; contradiction].
      apply in_concat. exists (nth s its []). split; [apply nth_In; exact Hs|exact Hin]. }
    rewrite Forall_forall in Oall. destruct (first_tag rows m it (Oall it Hin')) as (U1 & U2 & U3).
    exists (first_secret it), (tl (it_secrets it)). split; [exact U3|]. rewrite Sim.
    rewrite <- U1 at 1. rewrite (find_in_perm _ (concat secrets) (first_secret it) NDs Pm).
    + unfold entry. cbn [snd]. rewrite U2. reflexivity.
    + rewrite Hconcat. apply in_map. exact Hin'.
  - exists states, rps. auto.
Qed.

(** The tables depend on nothing but the numbers of messages. *)
Definition fitting (inputs' : list nat) (tb : tables) : Prop :=
  tb_ok N tb /\ tb_counts tb = batch_counts N rows confs inputs' /\
  (forall s, (s < N)%nat -> tb_noise tb s = nz rows N confs s) /\
  exists cts, par_counts true confs (map Z.of_nat inputs') = Ok cts /\ par_shufflers true rng confs cts = Ok (shs tb).
Lemma fitting_exists : exists tb, fitting inputs tb.
Proof using G Htot.
  destruct (par_counts_spec rng (length keys) k rows N confs inputs G Htot) as (cts & Ects & Lc & Hc).
  destruct (par_shufflers_spec rng _ k rows N confs inputs G Htot cts Ects) as (tb & HT & Et & En & Eshs).
  exists tb. split; [exact HT|]. split; [exact Et|]. split; [exact En|]. exists cts. auto.
Qed.

Lemma par_offline_spec tb :
  fitting inputs tb ->
  Forall (Forall (ok_item rows (S m))) its ->
  NoDup (map it_tag (concat its)) ->
  forall css order_c order_s, Forall2 (Forall2 (opens b (skipn k keys))) css its -> complete N (from (tb_M tb) (tb_counts tb)) order_c -> complete N secret_traffic order_s ->
  exists css' rps, par_offline b true rng iter confs (map Z.of_nat inputs) css order_c order_s = Ok (next_counts, css', rps) /\
    par_holds N tb rps server_noise_items its /\
    Forall2 (Forall2 (opens b (skipn (S k) keys))) css' (nexts N tb server_noise_items its).
Proof using All.
  intros (HT & Et & En & cts & Ects & Eshs) Oi ND.
  pose proof (gb_length _ _ _ _ _ _ _ G) as L. pose proof (gb_tiled _ _ _ _ _ _ _ G) as T. pose proof T as (T1 & T2 & T3 & T4).
  pose proof (gb_parties _ _ _ _ _ _ _ G) as Hp. destruct (gb_servers _ _ _ _ _ _ _ G) as (shared & Hsh & GS).
  pose proof its_length as Lits.
  destruct (par_counts_spec rng (length keys) k rows N confs inputs G Htot) as (cts' & Ects' & Lc & Hc).
  rewrite Ects in Ects'. injection Ects' as <-.
  intros css order_c order_s F2 Ho Hs_. destruct (servers_alone css Oi ND F2) as (v & Hv).
  destruct (shuffle_parts tb css v order_c HT Et Hv Ho) as (outb & Eo & Eout).
  destruct (secrets_parts cts tb css v order_s Ects HT Et En Oi ND Hv Hs_) as (states & rps & Ebc & Er & Hh).
  unfold par_offline. rewrite Ects. cbn [bind]. rewrite L.
  pose proof (Forall2_len _ _ _ F2) as Lcss. rewrite Lits in Lcss.
  rewrite (map_res_seq _ (fun s => (v_cb (v s), v_ns (v s)))).
  2:{ intros s Hs. destruct (conf_at s Hs) as (sf & Ef & Nf). rewrite Ef. cbn [bind]. unfold get. rewrite (Hc s sf Nf). cbn [bind].
      destruct (Hv s Hs sf Nf) as (E1 & E2 & _). rewrite E1. cbn [bind]. exact E2. }
  cbn [bind].
  rewrite (map_res_seq _ (fun s => v_cb2 (v s))).
  2:{ intros s Hs. destruct (conf_at s Hs) as (sf & Ef & Nf). unfold get at 1. rewrite (Hc s sf Nf). cbn [bind].
      rewrite get_map by exact Hs. cbn [bind fst]. unfold get. rewrite (nth_error_nth' css []) by lia. cbn [bind].
      apply (Hv s Hs sf Nf). }
  cbn [bind]. rewrite Eshs. cbn [bind].
  rewrite (map_res_seq _ (fun s => (v_cb3 (v s), v_p (v s)))).
  2:{ intros s Hs. destruct (conf_at s Hs) as (sf & Ef & Nf). rewrite Ef. cbn [bind]. unfold get at 1. rewrite (Hc s sf Nf). cbn [bind].
      rewrite get_map by exact Hs. cbn [bind]. apply (Hv s Hs sf Nf). }
  cbn [bind]. rewrite map_res_map. cbn [fst].
  rewrite (map_res_seq _ (fun s => v_ncs (v s) ++ v_outs (v s))).
  2:{ intros s Hs. destruct (conf_at s Hs) as (sf & Ef & Nf). apply (Hv s Hs sf Nf). }
  cbn [bind].
  set (total := list_sum (batch_counts N rows confs inputs)) in *.
  rewrite (map_res_seq _ (fun s => cb_initialize (124 * m) (124 * S m) (share_of total N s) 0)).
  2:{ intros s Hs. destruct (conf_at s Hs) as (sf & Ef & Nf). rewrite Ef. cbn [bind]. unfold get at 1. rewrite (Hc s sf Nf). cbn [bind].
      pose proof (GS s sf Nf) as g. rewrite (gs_party _ _ _ _ _ _ _ _ g), (gs_parties _ _ _ _ _ _ _ _ g).
      unfold party_out_size, party_in_size. rewrite as_party_id_sub1, as_party_id_sub by lia. rewrite !Csz.
      cbn [ParPartyProofs.ct co_shuffled]. rewrite Nat2Z.id. do 2 f_equal; lia. }
  cbn [bind]. rewrite (shuffled_counts cts Ects). fold (out_batches v). fold total empty_batches in Eo |- *.
  unfold empty_batches in Eo. fold total in Eo. rewrite Eo. cbn [bind]. rewrite Eout. cbn [bind]. rewrite !map_map. cbn [snd].
  rewrite Ebc. cbn [bind]. rewrite Er. cbn [bind]. exists (passed_on tb v), rps. split; [reflexivity|]. split; [exact Hh|].
  exact (passed_on_open tb css v HT Et Hv).
Qed.
End Keyed.
End PartyStage.
