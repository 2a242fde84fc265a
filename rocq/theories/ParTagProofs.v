(** Secrets after the broadcast, and the tags of noise. *)
From Verif Require Import Base BaseProofs Wire Incremental Shuffle ParShuffleProofs State StateProofs Range Handlers Batch Party Parallel
  Spec ChainSpec ParSpec ParMergeProofs ParOnlineProofs PermFacts ParPartyProofs ParSecretsProofs OfflineProofs.

Lemma NoDup_app_r {A} (l m : list A) : NoDup (l ++ m) -> NoDup m.
Proof. induction l as [|x l IH]; cbn; intros H; [exact H|]. inversion H; subst. auto. Qed.

(** States that hold what the servers stored. *)
Lemma stored_maps a : forall secrets states,
  Forall2 (fun l p => install_all a (qs_initialize_state qs_new false) l = Ok p) secrets states ->
  NoDup (map o_tag (concat secrets)) ->
  Permutation (flat_map qs_map states) (map entry (concat secrets)) /\ Forall (fun p => qs_sim p = false) states /\
  map (fun p => length (qs_map p)) states = map (fun l => length l) secrets.
Proof.
  induction 1 as [|l p secrets states H F IH]; intros ND; cbn [flat_map concat map]; [auto|].
  cbn [concat] in ND. rewrite map_app in ND.
  destruct (install_spec a l (qs_initialize_state qs_new false)) as (p' & E & Es & Em).
  { apply NoDup_app_l in ND. exact ND. }
  { intros; reflexivity. }
  rewrite E in H. inversion H; subst p'. destruct (IH (NoDup_app_r _ _ ND)) as (I1 & I2 & I3).
  rewrite map_app, Em. cbn [qs_initialize_state qs_map qs_new]. rewrite app_nil_r.
  split; [|split].
  - apply Permutation_app; [apply Permutation_sym, Permutation_rev|exact I1].
  - constructor; [exact Es|exact I2].
  - f_equal; [rewrite rev_length, map_length; reflexivity|exact I3].
Qed.

Lemma complete_ext N tr tr' order : (forall t s, (t < N)%nat -> (s < N)%nat -> tr t s = tr' t s) -> complete N tr order -> complete N tr' order.
Proof. intros H C t Ht. destruct (C t Ht) as (C1 & C2). split; [exact C1|]. intros s Hs. rewrite <- H by assumption. auto. Qed.

Lemma held_lengths states (secrets : list (list osecret)) :
  map (fun p => length (qs_map p)) states = map (fun l => length l) secrets ->
  forall s, length (qs_map (nth s states qs_new)) = length (nth s secrets []).
Proof.
  intros H s. pose proof (f_equal (fun l => nth s l 0%nat) H) as E. cbn beta in E.
  change 0%nat with ((fun p => length (qs_map p)) qs_new) in E at 1. rewrite map_nth in E.
  change 0%nat with (length (@nil osecret)) in E. rewrite (map_nth (fun l : list osecret => length l)) in E. exact E.
Qed.

Lemma c48_party a iter secrets states order :
  (forall i m, Permutation (iter i m) m) ->
  Forall2 (fun l p => install_all a (qs_initialize_state qs_new false) l = Ok p) secrets states ->
  NoDup (map o_tag (concat secrets)) -> Z.of_nat (length (concat secrets)) < 2 ^ 32 ->
  complete (length secrets) (fun t s => if (s =? t)%nat then 0%nat else length (nth s secrets [])) order ->
  exists states', broadcast_secrets party_pack (qs_store a) iter states order = Ok states' /\
    length states' = length secrets /\ Forall (fun p => qs_sim p = false /\ Permutation (qs_map p) (map entry (concat secrets))) states'.
Proof.
  intros Hi F ND Hb Ho. destruct (stored_maps a secrets states F ND) as (P & S & L).
  pose proof (Forall2_len _ _ _ F) as Ln.
  destruct (broadcast_spec party_pack (qs_store a) (fun o => o) a iter states order) as (st & E & Le & H).
  - reflexivity.
  - intros p e _ _. destruct e as [t []]. reflexivity.
  - exact Hi.
  - rewrite (Permutation_length P), map_length. exact Hb.
  - rewrite <- Ln. eapply complete_ext; [|exact Ho]. intros t s _ _. cbn beta. destruct (s =? t)%nat; [reflexivity|]. symmetry. apply held_lengths. exact L.
  - apply (Permutation_NoDup (l := map o_tag (concat secrets))); [|exact ND]. rewrite <- map_fst_entry. apply Permutation_map, Permutation_sym, P.
  - exists st. split; [exact E|]. split; [congruence|]. apply Forall_forall. intros p' Hin. apply In_nth_error in Hin. destruct Hin as (i & Np').
    destruct (get_lt states i) as (p & _ & Np); [rewrite <- Le; apply nth_error_Some; congruence|].
    destruct (H i p p' Np Np') as (H1 & H2). split; [|rewrite H2; exact P].
    rewrite H1. rewrite Forall_forall in S. apply S. eapply nth_error_In; exact Np.
Qed.

Definition drop_next (o : osecret) : osecret := {| o_tag := o_tag o; o_next := 0; o_share := o_share o; o_preshare := o_preshare o |}.
Lemma c48_backend a iter secrets states order :
  (forall i m, Permutation (iter i m) m) ->
  Forall2 (fun l p => install_all_backend a (qs_initialize_state qs_new false) l = Ok p) secrets states ->
  NoDup (map o_tag (concat secrets)) -> Z.of_nat (length (concat secrets)) < 2 ^ 32 ->
  complete (length secrets) (fun t s => if (s =? t)%nat then 0%nat else length (nth s secrets [])) order ->
  exists states', broadcast_secrets backend_pack (bs_store a) iter states order = Ok states' /\
    length states' = length secrets /\
    Forall (fun p => qs_sim p = false /\ Permutation (qs_map p) (map entry (map drop_next (concat secrets)))) states'.
Proof.
  intros Hi F ND Hb Ho.
  assert (F' : Forall2 (fun l p => install_all a (qs_initialize_state qs_new false) l = Ok p) (map (map drop_next) secrets) states).
  { clear - F. induction F as [|l p ls ps H F IH]; constructor; auto. rewrite <- H. symmetry. apply bs_install. }
  assert (Ec : concat (map (map drop_next) secrets) = map drop_next (concat secrets)) by (symmetry; apply concat_map).
  assert (Et : map o_tag (map drop_next (concat secrets)) = map o_tag (concat secrets)) by (rewrite map_map; reflexivity).
  assert (ND' : NoDup (map o_tag (concat (map (map drop_next) secrets)))) by (rewrite Ec, Et; exact ND).
  destruct (stored_maps a _ states F' ND') as (P & S & L). rewrite Ec in P.
  pose proof (Forall2_len _ _ _ F) as Ln.
  destruct (broadcast_spec backend_pack (bs_store a) drop_next a iter states order) as (st & E & Le & H).
  - reflexivity.
  - intros p e Hp He. assert (In e (flat_map qs_map states)) as He' by (apply in_flat_map; exists p; auto).
    apply (Permutation_in _ P) in He'. apply in_map_iff in He'. destruct He' as (o & <- & Hin).
    apply in_map_iff in Hin. destruct Hin as (o' & <- & _). reflexivity.
  - exact Hi.
  - rewrite (Permutation_length P), !map_length. exact Hb.
  - rewrite <- Ln. eapply complete_ext; [|exact Ho]. intros t s _ _. cbn beta. destruct (s =? t)%nat; [reflexivity|]. rewrite (held_lengths _ _ L).
    change (@nil osecret) with (map drop_next []) at 2. rewrite map_nth, map_length. reflexivity.
  - apply (Permutation_NoDup (l := map o_tag (concat secrets))); [|exact ND]. rewrite <- Et, <- map_fst_entry. apply Permutation_map, Permutation_sym, P.
  - exists st. split; [exact E|]. split; [congruence|]. apply Forall_forall. intros p' Hin. apply In_nth_error in Hin. destruct Hin as (i & Np').
    destruct (get_lt states i) as (p & _ & Np); [rewrite <- Le; apply nth_error_Some; congruence|].
    destruct (H i p p' Np Np') as (H1 & H2). split; [|rewrite H2; exact P].
    rewrite H1. rewrite Forall_forall in S. apply S. eapply nth_error_In; exact Np.
Qed.

Lemma find_in_perm m l o : NoDup (map o_tag l) -> Permutation m (map entry l) -> In o l -> find_tag m (o_tag o) = Some (snd (entry o)).
Proof.
  intros ND P Hin. apply find_tag_In.
  - apply (Permutation_NoDup (l := map o_tag l)); [|exact ND]. rewrite <- map_fst_entry. apply Permutation_map, Permutation_sym, P.
  - apply (Permutation_in _ (Permutation_sym P)). change (o_tag o, snd (entry o)) with (entry o). apply in_map. exact Hin.
Qed.
Lemma find_not_in_perm m l t : Permutation m (map entry l) -> ~ In t (map o_tag l) -> find_tag m t = None.
Proof.
  intros P H. apply find_tag_None. intros Hin. apply H. rewrite <- map_fst_entry. apply (Permutation_in _ (Permutation_map fst P)). exact Hin.
Qed.

(** ** Noise tags *)
Lemma map_res_eq {A B} (f : A -> res B) : forall l r, length l = length r ->
  (forall i x, nth_error l i = Some x -> exists y, nth_error r i = Some y /\ f x = Ok y) -> map_res f l = Ok r.
Proof.
  induction l as [|x l IH]; intros [|y r] L H; try discriminate L; [reflexivity|]. cbn [map_res].
  destruct (H 0%nat x eq_refl) as (y' & E1 & E2). inversion E1; subst y'. rewrite E2. cbn [bind].
  rewrite (IH r); [reflexivity|cbn in L; lia|]. intros i a Ni. apply (H (S i) a Ni).
Qed.
Lemma noise_const c n cf : (forall i, (i < n)%nat -> pf_samples cf i = Z.of_nat c) -> noise_total n cf = (n * c)%nat.
Proof.
  intros H. unfold noise_total. rewrite (map_ext_in _ (fun _ => c)).
  - clear H. rewrite <- (seq_length n 0) at 2. induction (seq 0 n) as [|x l IH]; [reflexivity|]. cbn [map length Nat.mul]. rewrite <- IH. reflexivity.
  - intros i Hi. apply in_seq in Hi. rewrite H by lia. apply Nat2Z.id.
Qed.

Section Tags.
Variables (rng : rng_t) (parties k rows N : nat) (confs : list sconf) (inputs : list nat) (c : nat).
Hypothesis G : good_siblings rng parties k rows N confs inputs.
Hypothesis Htot : Z.of_nat (list_sum (batch_counts N rows confs inputs)) < 2 ^ 32.
Hypothesis HC : forall s sf i, nth_error confs s = Some sf -> (i < key_count N rows s)%nat -> pf_samples (sf_conf sf) i = Z.of_nat c.

Lemma nz_const s : (s < N)%nat -> nz rows N confs s = (key_count N rows s * c)%nat.
Proof using All.
  intros Hs. destruct (get_lt confs s) as (sf & _ & Nf); [rewrite (gb_length _ _ _ _ _ _ _ G); exact Hs|].
  rewrite (nz_conf rng parties k rows N confs inputs G Htot s sf Nf). unfold server_noise. apply noise_const. intros i Hi. eapply HC; eauto.
Qed.
(** The keys before server s. *)
Definition before (s : nat) : nat := list_sum (map (key_count N rows) (seq 0 s)).
Lemma before_first s : (s < N)%nat -> Z.of_nat (before s) = first_key N rows s.
Proof using All.
  pose proof (gb_tiled _ _ _ _ _ _ _ G) as T.
  induction s as [|s IH]; intros Hs; [unfold before, first_key; cbn; lia|].
  unfold before in *. rewrite seq_S, map_app, list_sum_app. cbn [map list_sum fold_right Nat.add].
  rewrite <- (next_first N rows T s Hs), (end_first_count N rows T s) by lia. rewrite <- IH by lia. lia.
Qed.
Lemma before_all : before N = rows.
Proof using All.
  pose proof (gb_tiled _ _ _ _ _ _ _ G) as T. pose proof T as (T1 & _).
  assert (Z.of_nat (before N) = Z.of_nat rows); [|lia].
  replace N with (S (N - 1)) at 1 by lia. unfold before. rewrite seq_S, map_app, list_sum_app. cbn [map list_sum fold_right Nat.add].
  rewrite <- (last_end N rows T), (end_first_count N rows T (N - 1)) by lia.
  rewrite <- before_first by lia. unfold before. lia.
Qed.
Lemma noise_sum n : (n <= N)%nat -> list_sum (map (nz rows N confs) (seq 0 n)) = (before n * c)%nat.
Proof using All.
  induction n as [|n IH]; intros Hn; [reflexivity|]. unfold before in *. rewrite seq_S, !map_app, !list_sum_app. cbn [map list_sum fold_right Nat.add].
  unfold list_sum in *. rewrite IH by lia. rewrite nz_const by lia. lia.
Qed.
Lemma total_split : list_sum (batch_counts N rows confs inputs) = (rows * c + list_sum inputs)%nat.
Proof using All.
  pose proof (noise_sum N (Nat.le_refl N)) as E. rewrite before_all in E. rewrite <- E.
  pose proof (gb_inputs _ _ _ _ _ _ _ G) as Li. unfold batch_counts.
  assert (Ei : list_sum inputs = list_sum (map (fun s => nth s inputs 0%nat) (seq 0 N))).
  { rewrite <- Li. rewrite OnlineProofs.nth_seq_all. reflexivity. }
  rewrite Ei. change (fun s => nth s (noise_counts N rows confs) 0 + nth s inputs 0)%nat with (fun s => nz rows N confs s + nth s inputs 0)%nat.
  generalize (nz rows N confs) as f. clear. intros f. induction (seq 0 N) as [|s l IH]; [reflexivity|].
  cbn [map list_sum fold_right]. unfold list_sum in IH. rewrite IH. lia.
Qed.

Lemma sample_tag s sf id : nth_error confs s = Some sf -> (id < nz rows N confs s)%nat ->
  par_sample_tag (ct rows N confs inputs s sf) (Z.of_nat rows) (Z.of_nat id) =
  Ok (Z.of_nat (list_sum inputs + before s * c + id)).
Proof using All.
  intros Nf Hid. assert (Hs : (s < N)%nat) by (rewrite <- (gb_length _ _ _ _ _ _ _ G); apply nth_error_Some; congruence).
  pose proof (gb_tiled _ _ _ _ _ _ _ G) as T. pose proof T as (T1 & T2 & T3 & T4).
  pose proof (nz_const s Hs) as En. pose proof (end_first_count N rows T s Hs) as Ee. pose proof (first_key_bound N rows T s Hs) as (B1 & B2).
  pose proof total_split as Et. pose proof (before_first s Hs) as Eb.
  assert (Hkc : (1 <= key_count N rows s)%nat) by nia.
  assert (Hle : (before s + key_count N rows s <= rows)%nat) by lia.
  unfold par_sample_tag. cbn [ct co_end co_start co_noise co_total].
  assert (Er : end_key N rows s - first_key N rows s = Z.of_nat (key_count N rows s)) by lia.
  rewrite Er, <- Eb. rewrite (w32_id (Z.of_nat (key_count N rows s))) by (unfold u32; lia).
  destruct (Z.eqb_spec (Z.of_nat (key_count N rows s)) 0); [lia|].
  assert (Eq : Z.of_nat (nz rows N confs s) / Z.of_nat (key_count N rows s) = Z.of_nat c).
  { rewrite En, Nat2Z.inj_mul, Z.mul_comm. apply Z.div_mul. lia. }
  rewrite Eq. rewrite Et in Htot.
  set (K := key_count N rows s) in *. set (B := before s) in *. set (I := list_sum inputs) in *. clearbody K B I. 
  change (sum (batch_counts N rows confs inputs)) with (list_sum (batch_counts N rows confs inputs)). rewrite Et.
  assert ((B + K) * c <= rows * c)%nat by (apply Nat.mul_le_mono_r; exact Hle).
  rewrite (w32_id (Z.of_nat c * Z.of_nat rows)) by (unfold u32; nia).
  rewrite (w32_id (Z.of_nat B * Z.of_nat c)) by (unfold u32; nia).
  rewrite w32_id by (unfold u32; nia).
  f_equal. rewrite w64_id by (unfold u64; nia). nia.
Qed.

Lemma c40 : exists cts, par_counts true confs (map Z.of_nat inputs) = Ok cts /\ length cts = N /\
  exists tags, map_res (fun ct => map_res (fun id => par_sample_tag ct (Z.of_nat rows) (Z.of_nat id)) (seq 0 (Z.to_nat (co_noise ct)))) cts = Ok tags /\
    concat tags = map Z.of_nat (seq (list_sum inputs) (rows * c)).
Proof using All.
  destruct (par_counts_spec rng parties k rows N confs inputs G Htot) as (cts & E & L & H). exists cts. split; [exact E|]. split; [exact L|].
  exists (map (fun s => map Z.of_nat (seq (list_sum inputs + before s * c) (nz rows N confs s))) (seq 0 N)). split.
  - apply map_res_eq; [rewrite map_length, seq_length; exact L|]. intros s x Nx.
    assert (Hs : (s < N)%nat) by (rewrite <- L; apply nth_error_Some; congruence).
    destruct (get_lt confs s) as (sf & _ & Nf); [rewrite (gb_length _ _ _ _ _ _ _ G); exact Hs|].
    rewrite (H s sf Nf) in Nx. inversion Nx; subst x. rewrite nth_error_map_seq by exact Hs. eexists. split; [reflexivity|].
    cbn [co_noise ct]. rewrite Nat2Z.id. apply map_res_eq; [rewrite map_length, !seq_length; reflexivity|].
    intros i x Ni. assert (Hi : (i < nz rows N confs s)%nat) by (rewrite <- (seq_length (nz rows N confs s) 0); apply nth_error_Some; congruence).
    rewrite nth_error_seq in Ni by exact Hi. inversion Ni; subst x. rewrite nth_error_map, nth_error_seq by exact Hi. eexists. split; [reflexivity|].
    cbn [Nat.add]. apply sample_tag; assumption.
  - assert (Hn : forall n, (n <= N)%nat -> concat (map (fun s => map Z.of_nat (seq (list_sum inputs + before s * c) (nz rows N confs s))) (seq 0 n)) =
      map Z.of_nat (seq (list_sum inputs) (before n * c))).
    { induction n as [|n IH]; intros Hn; [reflexivity|]. rewrite seq_S, map_app, concat_app, IH by lia. cbn [map concat Nat.add]. rewrite app_nil_r, <- map_app. f_equal.
      rewrite nz_const by lia. rewrite <- seq_app. f_equal. unfold before. rewrite seq_S, map_app, list_sum_app. cbn [map list_sum fold_right Nat.add]. lia. }
    rewrite (Hn N (Nat.le_refl N)), before_all. reflexivity.
Qed.
End Tags.
