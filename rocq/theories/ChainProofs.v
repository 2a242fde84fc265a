(** Whole runs of a single-server deployment. *)
From Verif Require Import Base BaseProofs Incremental IncrementalProofs Wire WireProofs Additive AdditiveProofs Onion OnionProofs
  Shuffle Sizes State Database CipherBatch CipherBatchProofs Range Handlers Batch Party Chain Spec SharingProofs ShuffleProofs
  StateProofs ChainSpec OnlineProofs OfflineProofs OfflineParty.

(** ** Simulated stage *)
Definition id_share : ishare := {| sx := 0; sy := 1 |}.
Definition sim_item (m : nat) (key : Z) : item := mk_item 0 key (repeat id_share m) (repeat zero52 m).
Definition is_sim (m : nat) (it : item) : Prop := it_tag it = 0 /\ it_secrets it = mk_secrets 0 (repeat id_share m) (repeat zero52 m).
Definition sim_noise (rows m : nat) (cf : pconf) : list item := map (sim_item m) (noise_keys rows cf).

Lemma wf_id : wf_share id_share.
Proof. unfold wf_share, id_share. pose proof PRIME_val. cbn. lia. Qed.
Lemma Forall_repeat {A} (P : A -> Prop) x n : P x -> Forall P (repeat x n).
Proof. intros H. apply Forall_forall. intros y Hy. apply repeat_spec in Hy. subst. exact H. Qed.

Lemma sim_item_ok rows m key : Z.of_nat rows <= 2 ^ 31 - 1 -> 0 <= key < Z.of_nat rows ->
  ok_item rows m (sim_item m key) /\
  generate_incremental_tally key (repeat id_share m) = Ok (it_tally (sim_item m key)).
Proof.
  intros Hr Hk. destruct (ok_mk_item rows 0 key (repeat id_share m) (repeat zero52 m)) as [H1 H2].
  - unfold u64. lia.
  - apply Forall_repeat. exact wf_id.
  - apply Forall_repeat. exact bytes_zero52.
  - rewrite !repeat_length. reflexivity.
  - exact Hr.
  - exact Hk.
  - rewrite repeat_length in H1. split; [exact H1|exact H2].
Qed.

Lemma is_sim_item m key : is_sim m (sim_item m key).
Proof. split; reflexivity. Qed.
Lemma is_sim_advance m it : is_sim (S m) it -> is_sim m (advance it).
Proof. intros [H1 H2]. unfold is_sim, advance. cbn [it_tag it_secrets]. rewrite H2. split; [exact H1|reflexivity]. Qed.

Lemma sim_knows m it : is_sim (S m) it -> knows (qs_initialize_state qs_new true) it.
Proof.
  intros [H1 H2]. cbn [repeat] in H2. unfold mk_secrets in H2. cbn [combine map] in H2.
  eexists _, _. split; [exact H2|]. rewrite H1. reflexivity.
Qed.
Lemma knows_knows_last p it : knows p it -> knows_last p it.
Proof. intros (s & ss & E & F). exists s, ss, (it_tag it). auto. Qed.

Lemma sim_query st c0 pc m key i rows : cs_initialize st pc c0 true true = Ok st \/ True ->
  Z.of_nat rows <= 2 ^ 31 - 1 -> 0 <= key < Z.of_nat rows ->
  cs_get_tag (load_times (S i) st) = Ok 0 -> cs_get_incs (load_times (S i) st) = Ok (repeat id_share m) ->
  make_query (load_times i st) key = Ok (q_of (sim_item m key), load_times (S i) st).
Proof.
  intros _ Hr Hk H1 H2. destruct (sim_item_ok rows m key Hr Hk) as [_ Eg].
  rewrite (make_query_at _ _ _ _ _ _ H1 H2 Eg). reflexivity.
Qed.

Lemma sim_noise_length rows m cf : length (sim_noise rows m cf) = noise_total rows cf.
Proof. unfold sim_noise. rewrite map_length. apply noise_keys_length. Qed.

Lemma party_simulate_spec rng keys rows k cf items :
  good_party rng keys rows k cf -> (length keys <= 255)%nat -> (k + 1 < length keys)%nat ->
  (1 <= rows)%nat -> Z.of_nat rows <= 2 ^ 31 - 1 -> Z.of_nat (length items + noise_total rows cf) < 2 ^ 32 ->
  Forall (is_sim (length keys - k)) items ->
  let noise := sim_noise rows (length keys - k - 1) cf in
  exists rp, party_simulate true rng cf (Z.of_nat (length items)) = Ok (Z.of_nat (length noise + length items), rp) /\
    holds rp noise items.
Proof.
  intros G H255 Hk Hr1 Hr Ht Si noise. set (m := (length keys - k - 1)%nat) in *. set (input := length items) in *.
  assert (Lnoise : length noise = noise_total rows cf) by apply sim_noise_length.
  unfold party_simulate. rewrite (party_check_spec rng keys rows k cf G Hk). cbn [bind].
  rewrite (noise_samples_spec rng keys rows k cf G Hr1) by lia. cbn [bind].
  assert (Esh : shuffled_count (Z.of_nat input) (Z.of_nat (noise_total rows cf)) = Z.of_nat (length noise + input)).
  { unfold shuffled_count. rewrite w32_id by (unfold u32; lia). lia. }
  rewrite Esh. set (n := (length noise + input)%nat) in *. rewrite !Nat2Z.id.
  destruct (ls_initialize_spec rng (pf_seed cf) n (gp_rng _ _ _ _ _ G)) as (ls & El & O); [lia|].
  rewrite El. cbn [bind]. rewrite (remaining_spec rng keys rows k cf G Hk H255). fold m.
  destruct (cs_initialize cs_new m (Z.of_nat (noise_total rows cf)) true true) as [ns| | |] eqn:En; try discriminate En.
  assert (Q : forall i it, nth_error noise i = Some it -> make_query (load_times i ns) (it_key it) = Ok (q_of it, load_times (S i) ns)).
  { intros i it Nit. unfold noise, sim_noise in Nit. rewrite nth_error_map in Nit.
    destruct (nth_error (noise_keys rows cf) i) as [key|] eqn:Ek; [|discriminate]. inversion Nit; subst it. cbn [sim_item mk_item it_key].
    destruct (c37_simulated cs_new m (Z.of_nat (noise_total rows cf)) true (S i)) as (c0 & Ec & T1 & T2 & _).
    rewrite En in Ec. inversion Ec; subst c0.
    apply (sim_query ns 0 0 m key i rows); auto.
    pose proof (noise_keys_bound rows cf) as B. rewrite Forall_forall in B. apply B. eapply nth_error_In; exact Ek. }
  cbn [bind].
  destruct (noise_queries_spec rng keys rows k cf n ls noise (map advance items) ns G O) as (qs & Eqs & Fq).
  { rewrite app_length, map_length. reflexivity. }
  { lia. }
  { unfold noise, sim_noise. rewrite map_map. cbn. apply map_id. }
  { exact Q. }
  rewrite Eqs. cbn [bind]. eexists. split; [reflexivity|].
  unfold holds. cbn. rewrite <- Lnoise. fold input n. repeat (split; [reflexivity|]). split; [exact O|].
  split; [reflexivity|]. split; [|exact Fq].
  eapply Forall_impl; [|exact Si]. intros it H. replace (length keys - k)%nat with (S m) in H by (unfold m; lia).
  apply (sim_knows m it H).
Qed.

(** ** Multisets of keys and tags along the chain *)
Definition levels_keys (rows : nat) (parties : list pconf) (keys : list Z) (levels : list (list item)) : Prop :=
  length levels = S (length parties) /\
  forall j l, nth_error levels j = Some l ->
    Permutation (map it_key l) (keys ++ flat_map (noise_keys rows) (firstn j parties)).
Definition levels_tags (levels : list (list item)) : Prop :=
  Forall (fun l => Permutation (map it_tag l) (map Z.of_nat (seq 0 (length l)))) levels.

Lemma map_key_advance items : map it_key (map advance items) = map it_key items.
Proof. rewrite map_map. reflexivity. Qed.
Lemma map_tag_advance items : map it_tag (map advance items) = map it_tag items.
Proof. rewrite map_map. reflexivity. Qed.

Lemma levels_keys_cons rows cf parties items next levels noise :
  map it_key noise = noise_keys rows cf -> Permutation (noise ++ map advance items) next ->
  levels_keys rows parties (map it_key next) (next :: levels) ->
  levels_keys rows (cf :: parties) (map it_key items) (items :: next :: levels).
Proof.
  intros Hn P [L H]. split; [cbn in *; lia|]. intros [|j] l N; cbn [nth_error] in N.
  - inversion N; subst. cbn. rewrite app_nil_r. apply Permutation_refl.
  - apply H in N. eapply Permutation_trans; [exact N|]. cbn [firstn flat_map]. rewrite app_assoc. apply Permutation_app_tail.
    apply (Permutation_map it_key) in P. rewrite map_app, map_key_advance, Hn in P.
    eapply Permutation_trans; [apply Permutation_sym; exact P|]. apply Permutation_app_comm.
Qed.

Lemma Forall_ok_next rows m n ls noise items : ls_ok n ls -> (length noise + length items = n)%nat ->
  Forall (ok_item rows m) noise -> Forall (ok_item rows (S m)) items -> Forall (ok_item rows m) (next_items ls noise items).
Proof.
  intros O L Fn Fi. eapply Permutation_Forall; [apply (next_perm n ls noise items O L)|].
  apply Forall_app. split; [exact Fn|]. apply Forall_map. eapply Forall_impl; [|exact Fi]. intros it. apply ok_advance.
Qed.

Lemma backend_install b pk sk : forall cs items, Forall2 (opens b [(pk, sk)]) cs items -> forall p p',
  install_all_backend true p (map first_secret items) = Ok p' ->
  fold_res (backend_handle_cipher b true pk sk) cs p = Ok p'.
Proof.
  induction 1 as [|c it cs items H F IH]; intros p p' E.
  - exact E.
  - unfold opens in H. cbn [peels] in H. destruct (it_secrets it) as [|s ss] eqn:Es; [contradiction|].
    destruct H as (Lc & c' & Ed & Lc' & P). cbn [length] in Ed.
    unfold install_all_backend in E. cbn [map fold_res] in E. unfold first_secret at 1 in E. rewrite Es in E. cbn [hd] in E.
    cbn [fold_res]. unfold backend_handle_cipher at 1. rewrite Ed. cbn [bind fst].
    destruct (bs_store true p s) as [p1| | |]; try discriminate E. cbn [bind] in *. apply IH. exact E.
Qed.

(** Sizes of what crosses the links. *)
Definition small_tally (it : item) : Prop := u32 (it_tally it).
Lemma small_reconstruct t s : u32 (incremental_reconstruct t s).
Proof. unfold incremental_reconstruct, u32, w32. dlia. Qed.
Lemma small_mk_item tag key incs pres : small_tally (mk_item tag key incs pres).
Proof.
  unfold small_tally, mk_item, tally_of. cbn [it_tally]. unfold generate_incremental_tally.
  destruct (tally_loop incs (length incs) key) as [t| | |]; cbn [bind]; unfold u32, w32; dlia.
Qed.
Lemma small_advance it : small_tally it -> small_tally (advance it).
Proof. unfold small_tally, advance. cbn [it_tally]. destruct (it_secrets it); [auto|]. intros _. apply small_reconstruct. Qed.
Lemma small_next n ls noise items : ls_ok n ls -> (length noise + length items = n)%nat ->
  Forall small_tally noise -> Forall small_tally items -> Forall small_tally (next_items ls noise items).
Proof.
  intros O L Fn Fi. eapply Permutation_Forall; [apply (next_perm n ls noise items O L)|].
  apply Forall_app. split; [exact Fn|]. apply Forall_map. eapply Forall_impl; [|exact Fi]. intros it. apply small_advance.
Qed.
Lemma chain_ok_items rows bp rps levels : chain_ok rows bp rps levels ->
  Forall (Forall (fun it => exists m, ok_item rows (S m) it)) levels.
Proof.
  induction 1 as [items O K|rp rest noise items levels Hh O C IH].
  - constructor; [|constructor]. eapply Forall_impl; [|exact O]. intros it Hi. exists 0%nat. exact Hi.
  - constructor; [|exact IH]. eapply Forall_impl; [|exact O]. intros it Hi. eexists. exact Hi.
Qed.
Lemma ok_wf_query rows m it : ok_item rows (S m) it -> small_tally it -> wf_query (q_of it).
Proof.
  intros (L & F & _) S. split; [|exact S]. cbn [q_of q_tag]. destruct (it_secrets it) as [|s ss]; [discriminate|].
  inversion F as [|? ? [(W & _) [T _]] F']; subst. rewrite <- T. exact W.
Qed.

Section Stage.
  Context (b : sealbox) (rng : rng_t) (keys : list (list Z * list Z)) (rows : nat) (bpk bsk : list Z).
  Context (Hbox : forall pk sk, In (pk, sk) keys -> box_ok b pk sk) (H255 : (length keys <= 255)%nat)
          (Hr1 : (1 <= rows)%nat) (Hr : Z.of_nat rows <= 2 ^ 31 - 1).

  Lemma offline_chain_spec : forall parties k items items_c cs,
    (S k + length parties = length keys)%nat ->
    nth_error keys (k + length parties) = Some (bpk, bsk) ->
    (forall j cf, nth_error parties j = Some cf -> good_party rng keys rows (k + j) cf /\ good_party_keys keys rows (k + j) cf) ->
    Z.of_nat (length items + list_sum (map (noise_total rows) parties)) < 2 ^ 32 ->
    Forall2 (opens b (skipn k keys)) cs items_c -> Permutation items_c items ->
    Forall (ok_item rows (length keys - k)) items ->
    Permutation (map it_tag items) (map Z.of_nat (seq 0 (length items))) ->
    exists links states bp levels,
      offline_chain b true rng parties bpk bsk (Z.of_nat (length items)) cs = Ok (links, states, bp) /\
      chain_ok rows bp states (items :: levels) /\
      levels_keys rows parties (map it_key items) (items :: levels) /\ levels_tags (items :: levels) /\
      map fst links = map (fun l => Z.of_nat (length l)) (items :: levels) /\
      map (fun l => length (snd l)) links = map (fun l => length l) (items :: levels) /\
      length states = length parties /\
      (Forall small_tally items -> Forall (Forall small_tally) (items :: levels)) /\
      Forall (fun l => Z.of_nat (length l) < 2 ^ 32) (items :: levels) /\
      (forall j l, nth_error links j = Some l -> Forall (fun x => length x = (124 * (length keys - (k + j)))%nat) (snd l)).
  Proof.
    assert (Lens : forall k cs its, Forall2 (opens b (skipn k keys)) cs its ->
      Forall (fun x => length x = (124 * (length keys - k))%nat) cs).
    { intros k cs its F2. induction F2 as [|x it xs its Hx F2 IHF]; constructor; [|exact IHF].
      apply peels_length in Hx. rewrite Hx, skipn_length. reflexivity. }
    induction parties as [|cf parties IH]; intros k items items_c cs Hk Hbk Gp Ht F2 Pc Oi Tg.
    - cbn [length] in *. rewrite Nat.add_0_r in *.
      pose proof (Lens _ _ _ F2) as Lk.
      assert (Ek : skipn k keys = [(bpk, bsk)]).
      { rewrite (skipn_nth _ _ _ Hbk). f_equal. apply skipn_all2. lia. }
      rewrite Ek in F2.
      assert (Lc : length cs = length items) by (rewrite (Forall2_length' _ _ _ F2); apply Permutation_length; exact Pc).
      replace (length keys - k)%nat with 1%nat in Oi by lia.
      assert (Oc : Forall (ok_item rows 1) items_c) by (eapply Permutation_Forall; [apply Permutation_sym; exact Pc|exact Oi]).
      assert (Nd : NoDup (map o_tag (map first_secret items_c))).
      { rewrite (map_first_tag rows 0) by exact Oc. apply (NoDup_tags it_tag _ (length items)).
        eapply Permutation_trans; [|exact Tg]. apply Permutation_map. exact Pc. }
      set (strip := fun o => {| o_tag := o_tag o; o_next := 0; o_share := o_share o; o_preshare := o_preshare o |}).
      assert (Nd' : NoDup (map o_tag (map strip (map first_secret items_c)))) by (rewrite (map_map strip); exact Nd).
      destruct (install_spec true (map strip (map first_secret items_c)) (qs_initialize_state qs_new false) Nd') as (p' & Ei & Si & Mi).
      { intros; reflexivity. }
      pose proof (bs_install true (qs_initialize_state qs_new false) (map first_secret items_c)) as Eb.
      fold strip in Eb. rewrite Ei in Eb.
      cbn [offline_chain]. unfold backend_offline. rewrite Nat2Z.id, recv_all by exact Lc. cbn [bind].
      rewrite (backend_install b bpk bsk cs items_c F2 _ _ Eb). cbn [bind].
      exists [(Z.of_nat (length items), cs)], [], p', []. split; [reflexivity|].
      split; [|split; [|split; [|split; [|split; [|split; [|split; [|split]]]]]]].
      + constructor; [exact Oi|]. apply Forall_forall. intros it Hin.
        assert (Hc : In it items_c) by (apply (Permutation_in _ (Permutation_sym Pc)); exact Hin).
        rewrite Forall_forall in Oc. destruct (first_tag rows 0 it (Oc it Hc)) as (T1 & T2 & T3).
        exists (first_secret it), (tl (it_secrets it)), 0. split; [exact T3|].
        rewrite Si, Mi. cbn [qs_initialize_state qs_sim qs_map qs_new].
        pose proof (find_installed (map strip (map first_secret items_c)) (strip (first_secret it)) Nd'
          ltac:(apply in_map, in_map; exact Hc)) as Ef.
        change (o_tag (strip (first_secret it))) with (o_tag (first_secret it)) in Ef. rewrite T1 in Ef. rewrite Ef. reflexivity.
      + split; [reflexivity|]. intros [|j] l N; [|destruct j; discriminate]. inversion N; subst. cbn. rewrite app_nil_r. apply Permutation_refl.
      + constructor; [exact Tg|constructor].
      + reflexivity.
      + cbn. rewrite Lc. reflexivity.
      + reflexivity.
      + intros S. constructor; [exact S|constructor].
      + constructor; [cbn in Ht; lia|constructor].
      + intros [|j] l N; [|destruct j; discriminate]. inversion N; subst. rewrite Nat.add_0_r. exact Lk.
    - cbn [length map list_sum fold_right] in *.
      destruct (Gp 0%nat cf eq_refl) as [G GK]. rewrite Nat.add_0_r in G, GK.
      destruct (party_offline_spec b rng keys rows k cf cs items_c items G GK Hbox H255 ltac:(lia) Hr1 Hr ltac:(unfold list_sum in *; lia) F2 Pc Oi Tg)
        as (rp & cs' & items_c' & E & Hh & F2' & Pc' & _).
      set (noise := noise_items rows (length keys - k - 1) cf (length items)) in *.
      assert (Ln : length noise = noise_total rows cf) by apply noise_items_length.
      assert (O : ls_ok (length noise + length items) (rp_shuffler rp)) by apply Hh.
      set (next := next_items (rp_shuffler rp) noise items) in *.
      assert (Lnext : length next = (length noise + length items)%nat) by apply (next_length rp noise items Hh).
      pose proof (next_perm _ _ noise items O eq_refl) as Pn. fold next in Pn.
      assert (Kn : map it_key noise = noise_keys rows cf) by apply noise_items_keys.
      assert (Tn : map it_tag noise = map Z.of_nat (seq (length items) (noise_total rows cf))) by apply noise_items_tags.
      destruct (IH (S k) next items_c' cs') as (links & states & bp & levels & E' & C & LK & LT & Lf & Ls & Lst & Sm & Bd & Ck).
      + lia.
      + rewrite Nat.add_succ_l, <- Nat.add_succ_r. exact Hbk.
      + intros j cf' N. rewrite Nat.add_succ_l, <- Nat.add_succ_r. apply (Gp (S j) cf' N).
      + unfold list_sum in *. lia.
      + exact F2'.
      + exact Pc'.
      + apply (Forall_ok_next rows _ _ _ noise items O eq_refl).
        * replace (length keys - S k)%nat with (length keys - k - 1)%nat by lia.
          apply noise_items_ok; [exact (gp_rand _ _ _ _ GK)|exact Hr|unfold list_sum in *; lia].
        * replace (S (length keys - S k)) with (length keys - k)%nat by lia. exact Oi.
      + apply (Permutation_map it_tag) in Pn. rewrite map_app, map_tag_advance, Tn in Pn.
        eapply Permutation_trans; [apply Permutation_sym; exact Pn|]. rewrite Lnext, Ln, Nat.add_comm, seq_app, map_app. cbn [Nat.add].
        eapply Permutation_trans; [apply Permutation_app_comm|]. apply Permutation_app_tail. exact Tg.
      + exists ((Z.of_nat (length items), cs) :: links), (rp :: states), bp, (next :: levels).
        cbn [offline_chain]. rewrite E. cbn [bind]. rewrite <- Lnext, E'. cbn [bind]. split; [reflexivity|].
        split; [|split; [|split; [|split; [|split; [|split; [|split; [|split]]]]]]].
        * apply chain_party; [exact Hh| |exact C].
          replace (S (S (length states))) with (length keys - k)%nat by lia. exact Oi.
        * apply (levels_keys_cons rows cf parties items next levels noise Kn Pn LK).
        * constructor; [exact Tg|exact LT].
        * cbn [map fst]. f_equal. exact Lf.
        * cbn [map snd]. rewrite Ls. f_equal. rewrite (Forall2_length' _ _ _ F2). apply Permutation_length. exact Pc.
        * cbn. lia.
        * intros S. constructor; [exact S|]. apply Sm. apply (small_next _ _ noise items O eq_refl); [|exact S].
          unfold noise, noise_items. apply Forall_map. apply Forall_forall. intros i _. apply small_mk_item.
        * constructor; [unfold list_sum in *; lia|exact Bd].
        * intros [|j] l N; cbn [nth_error] in N.
          -- inversion N; subst. rewrite Nat.add_0_r. exact (Lens _ _ _ F2).
          -- rewrite Nat.add_succ_r, <- Nat.add_succ_l. exact (Ck j l N).
  Qed.

End Stage.

Section Simulated.
  Context (rng : rng_t) (keys : list (list Z * list Z)) (rows : nat).
  Context (H255 : (length keys <= 255)%nat) (Hr1 : (1 <= rows)%nat) (Hr : Z.of_nat rows <= 2 ^ 31 - 1).

  Lemma simulate_chain_spec : forall parties k items,
    (S k + length parties = length keys)%nat ->
    (forall j cf, nth_error parties j = Some cf -> good_party rng keys rows (k + j) cf) ->
    Z.of_nat (length items + list_sum (map (noise_total rows) parties)) < 2 ^ 32 ->
    Forall (ok_item rows (length keys - k)) items -> Forall (is_sim (length keys - k)) items ->
    exists counts states levels,
      simulate_chain true rng parties (Z.of_nat (length items)) = Ok (counts, states, backend_simulate) /\
      chain_ok rows backend_simulate states (items :: levels) /\
      levels_keys rows parties (map it_key items) (items :: levels) /\
      counts = map (fun l => Z.of_nat (length l)) (items :: levels) /\
      length states = length parties /\
      (Forall small_tally items -> Forall (Forall small_tally) (items :: levels)) /\
      Forall (fun l => Z.of_nat (length l) < 2 ^ 32) (items :: levels).
  Proof.
    induction parties as [|cf parties IH]; intros k items Hk Gp Ht Oi Si.
    - cbn [length] in *. replace (length keys - k)%nat with 1%nat in * by lia. cbn [simulate_chain].
      exists [Z.of_nat (length items)], [], []. split; [reflexivity|]. split; [|split; [|split; [|split; [reflexivity|split]]]].
      + constructor; [exact Oi|]. eapply Forall_impl; [|exact Si]. intros it H. apply knows_knows_last. apply (sim_knows 0 it H).
      + split; [reflexivity|]. intros [|j] l N; [|destruct j; discriminate]. inversion N; subst. cbn. rewrite app_nil_r. apply Permutation_refl.
      + reflexivity.
      + intros S. constructor; [exact S|constructor].
      + constructor; [cbn in Ht; lia|constructor].
    - cbn [length map list_sum fold_right] in *.
      pose proof (Gp 0%nat cf eq_refl) as G. rewrite Nat.add_0_r in G.
      destruct (party_simulate_spec rng keys rows k cf items G H255 ltac:(lia) Hr1 Hr ltac:(unfold list_sum in *; lia) Si) as (rp & E & Hh).
      set (noise := sim_noise rows (length keys - k - 1) cf) in *.
      assert (Ln : length noise = noise_total rows cf) by apply sim_noise_length.
      assert (O : ls_ok (length noise + length items) (rp_shuffler rp)) by apply Hh.
      set (next := next_items (rp_shuffler rp) noise items) in *.
      assert (Lnext : length next = (length noise + length items)%nat) by apply (next_length rp noise items Hh).
      pose proof (next_perm _ _ noise items O eq_refl) as Pn. fold next in Pn.
      assert (Kn : map it_key noise = noise_keys rows cf) by (unfold noise, sim_noise; rewrite map_map; apply map_id).
      destruct (IH (S k) next) as (counts & states & levels & E' & C & LK & Lf & Lst & Sm & Bd).
      + lia.
      + intros j cf' N. rewrite Nat.add_succ_l, <- Nat.add_succ_r. apply (Gp (S j) cf' N).
      + unfold list_sum in *. lia.
      + apply (Forall_ok_next rows _ _ _ noise items O eq_refl).
        * replace (length keys - S k)%nat with (length keys - k - 1)%nat by lia.
          unfold noise, sim_noise. apply Forall_map. eapply Forall_impl; [|apply noise_keys_bound].
          intros key Hkey. apply sim_item_ok; assumption.
        * replace (S (length keys - S k)) with (length keys - k)%nat by lia. exact Oi.
      + eapply Permutation_Forall; [exact Pn|]. replace (length keys - S k)%nat with (length keys - k - 1)%nat by lia.
        apply Forall_app. split.
        * unfold noise, sim_noise. apply Forall_map. apply Forall_forall. intros; apply is_sim_item.
        * apply Forall_map. eapply Forall_impl; [|exact Si]. intros it H. apply is_sim_advance.
          replace (S (length keys - k - 1)) with (length keys - k)%nat by lia. exact H.
      + exists (Z.of_nat (length items) :: counts), (rp :: states), (next :: levels).
        cbn [simulate_chain]. rewrite E. cbn [bind fst snd]. rewrite <- Lnext, E'. cbn [bind]. split; [reflexivity|].
        split; [|split; [|split; [|split; [|split]]]].
        * apply chain_party; [exact Hh| |exact C].
          replace (S (S (length states))) with (length keys - k)%nat by lia. exact Oi.
        * apply (levels_keys_cons rows cf parties items next levels noise Kn Pn LK).
        * cbn [map]. f_equal. exact Lf.
        * cbn. lia.
        * intros S. constructor; [exact S|]. apply Sm. apply (small_next _ _ noise items O eq_refl); [|exact S].
          unfold noise, sim_noise. apply Forall_map. apply Forall_forall. intros i _. apply small_mk_item.
        * constructor; [unfold list_sum in *; lia|exact Bd].
  Qed.
End Simulated.

(** ** The client *)
Definition client_ready (st : cstate) (items : list item) : Prop :=
  forall i it, nth_error items i = Some it ->
    make_query (load_times i st) (it_key it) = Ok (q_of it, load_times (S i) st) /\
    forall m, cs_get_pre (load_times (S i) (cs_finish (load_times m st))) = Ok (xor_all (map o_preshare (it_secrets it))).

Lemma client_queries_loop st items : client_ready st items -> forall rest done, items = done ++ rest ->
  fold_res (fun s key => let* q := make_query (snd s) key in Ok (fst s ++ [fst q], snd q)) (map it_key rest)
    (map q_of done, load_times (length done) st) = Ok (map q_of items, load_times (length items) st).
Proof.
  intros C. induction rest as [|it rest IH]; intros done E; cbn [map fold_res].
  - subst. rewrite app_nil_r. reflexivity.
  - assert (N : nth_error items (length done) = Some it) by (rewrite E, nth_error_app2, Nat.sub_diag by lia; reflexivity).
    destruct (C _ _ N) as [Q _]. cbn [fst snd]. rewrite Q. cbn [bind fst snd].
    specialize (IH (done ++ [it])). rewrite <- app_assoc in IH. specialize (IH E).
    rewrite map_app, app_length, Nat.add_1_r in IH. exact IH.
Qed.

Lemma client_queries_spec st items : client_ready st items ->
  client_queries st (map it_key items) = Ok (map q_of items, cs_finish (load_times (length items) st)).
Proof.
  intros C. unfold client_queries. pose proof (client_queries_loop st items C items [] eq_refl) as E.
  cbn [map length] in E. change (load_times 0 st) with st in E. rewrite E. reflexivity.
Qed.

Lemma client_responses_spec db m st items : client_ready st items -> Forall wf_response db ->
  Forall (ok_item (length db) m) items ->
  client_responses true db (cs_finish (load_times (length items) st)) (map it_key items) (map (answer db) items) =
  Ok (map (fun it => row db (it_key it)) items).
Proof.
  intros C F Oi. unfold client_responses. rewrite recv_all by (rewrite !map_length; reflexivity). cbn [bind].
  set (st' := cs_finish (load_times (length items) st)).
  assert (G : forall rest done, items = done ++ rest ->
    fold_res (fun s kr =>
      let* m := client_reconstruct (snd s) (snd kr) in
      let response := dec_response (fst m) in
      let* expected := db_lookup db (fst kr) in
      let* eq := response_eqb response expected in
      let* _ := (if true then assert_ eq else Ok tt) in
      Ok (fst s ++ [response], snd m)) (combine (map it_key rest) (map (answer db) rest))
      (map (fun it => row db (it_key it)) done, load_times (length done) st') =
    Ok (map (fun it => row db (it_key it)) items, load_times (length items) st')).
  { induction rest as [|it rest IH]; intros done E; cbn [map combine fold_res].
    - subst items. rewrite app_nil_r. reflexivity.
    - assert (N : nth_error items (length done) = Some it) by (rewrite E, nth_error_app2, Nat.sub_diag by lia; reflexivity).
      destruct (C _ _ N) as [_ Pm]. specialize (Pm (length items)). fold st' in Pm.
      assert (Oit : ok_item (length db) m it) by (rewrite Forall_forall in Oi; apply Oi; eapply nth_error_In; exact N).
      destruct (Oit) as (_ & Fs & _ & B).
      assert (Wr : wf_response (row db (it_key it))) by (apply row_wf; assumption).
      assert (Wx : bytes 52 (xor_all (map o_preshare (it_secrets it)))).
      { apply bytes_xor_all. apply Forall_map. eapply Forall_impl; [|exact Fs]. intros s ((_ & _ & _ & _ & W) & _). exact W. }
      cbn [fst snd]. unfold client_reconstruct at 1.
      change (cs_load_next (load_times (length done) st')) with (load_times (S (length done)) st').
      rewrite Pm. cbn [bind]. unfold additive_reconstruct. rewrite xor_inplace_spec by (try apply (answer_bytes db m); assumption).
      assert (Ed : dec_response (xorl (answer db it) (xor_all (map o_preshare (it_secrets it)))) = row db (it_key it)).
      { unfold answer. pose proof (bytes_enc_response _ Wr) as Wb.
        rewrite xorl_assoc, xorl_nilp, xorl_zero_r by (first [exact (proj1 Wb)|exact (proj1 Wx)|rewrite (proj1 Wx); exact (proj1 Wb)]).
        destruct (response_roundtrip _ Wr) as [_ ->]. reflexivity. }
      assert (El : db_lookup db (it_key it) = Ok (row db (it_key it))).
      { unfold db_lookup, get. rewrite (nth_error_nth' db db_zero) by lia. reflexivity. }
      cbn [bind fst snd]. rewrite Ed, El. cbn [bind].
      destruct (response_eqb_spec _ _ Wr Wr) as (e & -> & He). cbn [bind]. rewrite (proj2 He eq_refl). cbn [assert_ bind].
      specialize (IH (done ++ [it])). rewrite <- app_assoc in IH. specialize (IH E).
      rewrite map_app, app_length, Nat.add_1_r in IH. cbn [map] in IH. exact IH. }
  specialize (G items [] eq_refl). cbn [map length] in G. change (load_times 0 st') with st' in G. bindE G. reflexivity.
Qed.

Definition client_item (r : rand) (m : nat) (keys : list Z) (i : nat) : item :=
  mk_item (Z.of_nat i) (nth i keys 0) (rnd_incs r m i) (rn_masks r i).
Definition client_items (r : rand) (m : nat) (keys : list Z) : list item := map (client_item r m keys) (seq 0 (length keys)).

Lemma client_items_length r m keys : length (client_items r m keys) = length keys.
Proof. unfold client_items. rewrite map_length, seq_length. reflexivity. Qed.
Lemma client_items_keys r m keys : map it_key (client_items r m keys) = keys.
Proof. unfold client_items. rewrite map_map. cbn. apply nth_seq_all. Qed.
Lemma client_items_tags r m keys : map it_tag (client_items r m keys) = map Z.of_nat (seq 0 (length keys)).
Proof. unfold client_items. rewrite map_map. reflexivity. Qed.

Lemma client_item_ok rows r m keys i : good_rand r (length keys) m -> Z.of_nat rows <= 2 ^ 31 - 1 ->
  Forall (fun k => 0 <= k < Z.of_nat rows) keys -> Z.of_nat (length keys) < 2 ^ 32 -> (i < length keys)%nat ->
  ok_item rows m (client_item r m keys i) /\
  generate_incremental_tally (it_key (client_item r m keys i)) (rnd_incs r m i) = Ok (it_tally (client_item r m keys i)).
Proof.
  intros G Hr Fk Ht Hi. destruct (G i Hi) as (Gd & Gl & Gm).
  destruct (make_shares _ _ _ m 0 Gd Gl Gm) as (Li & Wi & _). unfold client_item.
  rewrite Forall_forall in Fk.
  destruct (ok_mk_item rows (Z.of_nat i) (nth i keys 0) (rnd_incs r m i) (rn_masks r i)) as [H1 H2].
  - unfold u64. lia.
  - exact Wi.
  - exact Gm.
  - unfold rnd_incs. lia.
  - exact Hr.
  - apply Fk. apply nth_In. exact Hi.
  - split; [|exact H2]. unfold rnd_incs in H1 at 1. rewrite Li in H1. exact H1.
Qed.

Lemma cs_at_step c done room x : cs_at c done (S room) -> Z.of_nat (S (length done)) < 2 ^ 32 ->
  exists c', cs_add c (fst (fst x)) (snd (fst x)) (snd x) = Ok c' /\ cs_at c' (done ++ [x]) room.
Proof.
  intros H Hb. destruct (store_all_spec [x] c done room H) as (c' & E & A); [cbn; lia|].
  exists c'. split; [|exact A]. unfold store_all in E. cbn [fold_res fst snd] in E.
  destruct (cs_add c (fst (fst x)) (snd (fst x)) (snd x)); cbn [bind] in E; try discriminate. exact E.
Qed.

Lemma cs_at_get c l i tag incs mask : cs_at c l 0 -> Z.of_nat (length l) < 2 ^ 32 -> nth_error l i = Some (tag, incs, mask) ->
  cs_get_tag (load_times (S i) c) = Ok tag /\ cs_get_incs (load_times (S i) c) = Ok incs /\
  forall m, cs_get_pre (load_times (S i) (cs_finish (load_times m c))) = Ok mask.
Proof.
  intros (H1 & H2 & H3 & H4 & H5 & H6) Hb N. cbn [repeat] in *. rewrite app_nil_r in *.
  assert (Hi : (i < length l)%nat) by (apply nth_error_Some; congruence).
  assert (Ei : w32 (w32 (0 + Z.of_nat (S i)) - 1) = Z.of_nat i).
  { rewrite (w32_id (0 + _)) by (unfold u32; lia). rewrite w32_id by (unfold u32; lia). lia. }
  destruct (load_times_spec (S i) c) as (r & E & _ & R). rewrite E, R by lia. rewrite H3.
  unfold cs_get_tag, cs_get_incs, cs_get_pre, cs_cur; cbn [cs_sim cs_r cs_tags cs_incs]. rewrite H1, H4, H5, Ei. cbn [ptr bind].
  split; [|split]; [apply getz_nth; rewrite Nat2Z.id; exact (nth_map_some st_tag _ _ _ N)|
    apply getz_nth; rewrite Nat2Z.id; exact (nth_map_some st_incs _ _ _ N)|].
  intros m. destruct (load_times_spec m c) as (rm & Em & _). rewrite Em.
  match goal with |- context [load_times (S i) ?c0] => destruct (load_times_spec (S i) c0) as (r' & E' & _ & R') end.
  rewrite E', R' by lia. unfold cs_finish; cbn [cs_sim cs_r cs_tags cs_incs cs_pre]. rewrite H1, Ei, H6. cbn [ptr bind].
  apply getz_nth; rewrite Nat2Z.id; exact (nth_map_some st_mask _ _ _ N).
Qed.

Lemma client_offline_spec b rows keys r qs :
  (forall pk sk, In (pk, sk) keys -> box_ok b pk sk) -> (length keys <= 255)%nat ->
  good_rand r (length qs) (length keys) -> Z.of_nat rows <= 2 ^ 31 - 1 ->
  Forall (fun k => 0 <= k < Z.of_nat rows) qs -> Z.of_nat (length qs) < 2 ^ 32 ->
  exists cs st, client_offline b true 0 (length keys) (map fst keys) r (length qs) = Ok (cs, st) /\
    Forall2 (opens b keys) cs (client_items r (length keys) qs) /\ client_ready st (client_items r (length keys) qs).
Proof.
  intros Hb H255 G Hr Fk Ht. set (m := length keys). set (N := length qs).
  set (done := fun i => map (fun i => (Z.of_nat i, rnd_incs r m i, xor_all (rn_masks r i))) (seq 0 i)).
  unfold client_offline.
  destruct (cs_init_at cs_new m qs) as (st0 & E0 & A0). fold N in E0, A0. rewrite Nat.add_0_r in A0. rewrite E0. cbn [bind].
  set (body := fun (i : nat) (s : list (list Z) * cstate) => _).
  destruct (for_inv (fun i s => Forall2 (opens b keys) (fst s) (map (client_item r m qs) (seq 0 i)) /\ cs_at (snd s) (done i) (N - i))
    N 0 body ([], st0)) as (s & E & I).
  - cbn [fst snd seq map]. rewrite Nat.sub_0_r. split; [constructor|exact A0].
  - intros i [cs st] Hi (F2 & A). cbn [fst snd] in *. destruct (G i) as (Gd & Gl & Gm); [fold N; lia|].
    destruct (make_shares _ _ _ m (Z.of_nat i) Gd Gl Gm) as (Li & Wi & Eg & Es).
    unfold body. cbn [fst snd]. unfold client_make_secret, client_sample_tag.
    assert (Etag : w32 (w32 (0 * Z.of_nat N) + Z.of_nat i) = Z.of_nat i).
    { cbn [Z.mul]. rewrite w32_id by (unfold u32, w32; rewrite Z.mod_0_l by lia; lia). unfold w32. rewrite Z.mod_0_l by lia. lia. }
    rewrite Etag, Eg. cbn [bind]. rewrite Es. cbn [bind fst snd].
    unfold at_. rewrite nth_error_app2 by lia. replace (m - length (rn_masks r i))%nat with 0%nat by (rewrite Gl; lia).
    cbn [nth_error bind].
    replace (N - i)%nat with (S (N - S i)) in A by lia.
    destruct (cs_at_step st (done i) (N - S i) (Z.of_nat i, rnd_incs r m i, xor_all (rn_masks r i)) A) as (st' & En & A').
    { unfold done. rewrite map_length, seq_length. lia. }
    cbn [fst snd] in En. unfold rnd_incs in En. rewrite En. cbn [bind fst snd].
    destruct (client_item_ok rows r m qs i G Hr Fk Ht) as [Oi _]; [lia|].
    destruct (encrypt_item b keys 0 (rn_coins r i) (rn_junk1 r i) (rn_junk2 r i) (client_item r m qs i) rows m Hb H255 Oi eq_refl)
      as (c & Ec & Lc & Oc).
    change (mk_secrets (Z.of_nat i) (pre_incremental_secret_shares (rn_x r i) (rn_y r i) m) (rn_masks r i))
      with (it_secrets (client_item r m qs i)).
    fold m in Ec. rewrite Ec. cbn [bind]. eexists. split; [reflexivity|]. cbn [fst snd]. split.
    + rewrite seq_S, map_app. apply Forall2_app; [exact F2|]. constructor; [exact Oc|constructor].
    + unfold done. rewrite seq_S, map_app. exact A'.
  - cbn [Nat.add] in I. rewrite Nat.sub_diag in I. destruct I as [F2 A]. exists (fst s), (snd s).
    split; [rewrite <- surjective_pairing; exact E|]. split; [exact F2|].
    intros i it Nit. assert (Hi : (i < N)%nat).
    { unfold N. rewrite <- (client_items_length r m qs). apply nth_error_Some. congruence. }
    unfold client_items in Nit. fold N in Nit. rewrite nth_error_map_seq in Nit by exact Hi. inversion Nit; subst it.
    destruct (client_item_ok rows r m qs i G Hr Fk Ht) as [_ Eg]; [exact Hi|].
    destruct (cs_at_get (snd s) (done N) i (Z.of_nat i) (rnd_incs r m i) (xor_all (rn_masks r i))) as (T1 & T2 & T3).
    + exact A.
    + unfold done. rewrite map_length, seq_length. exact Ht.
    + unfold done. rewrite nth_error_map, nth_error_seq by exact Hi. reflexivity.
    + split; [rewrite (make_query_at _ _ _ _ _ _ T1 T2 Eg); reflexivity|].
      intros m0. rewrite T3. cbn [client_item mk_item it_secrets]. rewrite mk_pres; [reflexivity|].
      destruct (G i Hi) as (Gd & Gl & Gm). destruct (make_shares _ _ _ m 0 Gd Gl Gm) as (Li & _). unfold rnd_incs. lia.
Qed.

Lemma xor_all_zero m : xor_all (repeat zero52 m) = zero52.
Proof. induction m as [|m IH]; cbn [repeat xor_all fold_right]; [reflexivity|]. unfold xor_all in IH. rewrite IH. apply xorl_zero_l. reflexivity. Qed.

Lemma client_simulate_spec rows m qs : Z.of_nat rows <= 2 ^ 31 - 1 -> Forall (fun k => 0 <= k < Z.of_nat rows) qs ->
  exists st, client_simulate m (length qs) = Ok st /\ client_ready st (map (sim_item m) qs).
Proof.
  intros Hr Fk. unfold client_simulate.
  destruct (cs_initialize cs_new m (Z.of_nat (length qs)) false true) as [st| | |] eqn:E; try discriminate E.
  exists st. split; [reflexivity|]. intros i it N. rewrite nth_error_map in N.
  destruct (nth_error qs i) as [key|] eqn:Ek; [|discriminate]. inversion N; subst it.
  destruct (c37_simulated cs_new m (Z.of_nat (length qs)) false (S i)) as (c0 & Ec & T1 & T2 & T3).
  rewrite E in Ec. inversion Ec; subst c0. split.
  - apply (sim_query st 0 0 m key i rows); auto. rewrite Forall_forall in Fk. apply Fk. eapply nth_error_In; exact Ek.
  - intros m0. rewrite (T3 eq_refl). cbn [sim_item mk_item it_secrets]. rewrite mk_pres by (rewrite !repeat_length; reflexivity).
    rewrite xor_all_zero. reflexivity.
Qed.

(** ** Whole runs *)
Lemma last_map {A B} (f : A -> B) l d d' : l <> [] -> last (map f l) d = f (last l d').
Proof.
  induction l as [|x l IH]; intros H; [contradiction|]. destruct l as [|y l]; [reflexivity|].
  change (last (map f (y :: l)) d = f (last (y :: l) d')). apply IH. discriminate.
Qed.

Definition run_facts (db : list response) (c : client) (parties : list pconf) (o : outcome) : Prop :=
  oc_result o = map (row db) (ct_keys c) /\
  Permutation (oc_keys o) (ct_keys c ++ flat_map (noise_keys (length db)) parties) /\
  exists levels, levels_keys (length db) parties (ct_keys c) levels /\
    oc_counts o = map (fun l => Z.of_nat (length l)) levels /\
    oc_queries o = map (map q_of) levels /\ oc_responses o = map (map (answer db)) levels.

Lemma last_nth_error {A} (l : list A) d : l <> [] -> nth_error l (length l - 1) = Some (last l d).
Proof.
  induction l as [|x l IH]; intros H; [contradiction|]. destruct l as [|y l]; [reflexivity|].
  cbn [length]. replace (S (S (length l)) - 1)%nat with (S (length (y :: l) - 1)) by (cbn [length]; lia). cbn [nth_error]. apply IH. discriminate.
Qed.

Lemma levels_last rows parties keys levels : levels_keys rows parties keys levels ->
  Permutation (map it_key (last levels [])) (keys ++ flat_map (noise_keys rows) parties).
Proof.
  intros [L H]. assert (Hne : levels <> []) by (intros ->; discriminate).
  pose proof (last_nth_error levels [] Hne) as N. apply H in N. rewrite L in N. rewrite firstn_all2 in N by lia. exact N.
Qed.

Lemma map_row_items db items keys : map it_key items = keys -> map (fun it => row db (it_key it)) items = map (row db) keys.
Proof. intros <-. rewrite map_map. reflexivity. Qed.

(** The messages on the links have the sizes the sockets use. *)
Definition wire_facts (o : outcome) : Prop :=
  Forall u32 (oc_counts o) /\ Forall (Forall wf_query) (oc_queries o) /\ Forall (Forall (bytes 52)) (oc_responses o).

Lemma wire_levels db levels : Forall wf_response db ->
  Forall (Forall (fun it => exists m, ok_item (length db) (S m) it)) levels -> Forall (Forall small_tally) levels ->
  Forall (fun l => Z.of_nat (length l) < 2 ^ 32) levels ->
  Forall u32 (map (fun l => Z.of_nat (length l)) levels) /\ Forall (Forall wf_query) (map (map q_of) levels) /\
  Forall (Forall (bytes 52)) (map (map (answer db)) levels).
Proof.
  intros D O S B. rewrite Forall_forall in O, S, B. split; [|split]; apply Forall_map; apply Forall_forall; intros l Hl.
  - specialize (B l Hl). unfold u32. lia.
  - specialize (O l Hl). specialize (S l Hl). rewrite Forall_forall in O, S. apply Forall_map. apply Forall_forall. intros it Hi.
    destruct (O it Hi) as (m & Hm). exact (ok_wf_query _ _ _ Hm (S it Hi)).
  - specialize (O l Hl). rewrite Forall_forall in O. apply Forall_map. apply Forall_forall. intros it Hi.
    destruct (O it Hi) as (m & Hm). exact (answer_bytes db _ it D Hm).
Qed.

Lemma run_full b rng db junk c parties keys bpk bsk :
  deployment rng db c parties keys -> keyed b db c parties keys bpk bsk -> bytes 52 junk ->
  exists o, run b true rng db junk c parties bpk bsk = Ok o /\ run_facts db c parties o /\
    Forall (fun qs => Permutation (map q_tag qs) (map Z.of_nat (seq 0 (length qs)))) (oc_queries o) /\
    map (fun l => length l) (oc_ciphers o) = map (fun l => length l) (oc_queries o) /\
    wire_facts o /\
    (forall j l, nth_error (oc_ciphers o) j = Some l -> Forall (fun x => length x = (124 * (length keys - j))%nat) l).
Proof.
  intros D K J. pose proof (dp_rows _ _ _ _ _ D) as [Hr1 Hr]. pose proof (dp_total _ _ _ _ _ D) as Ht.
  pose proof (dp_max _ _ _ _ _ D) as H255. pose proof (dp_count _ _ _ _ _ D) as Hc.
  unfold run. rewrite Hc, (ky_client _ _ _ _ _ _ _ K).
  destruct (client_offline_spec b (length db) keys (ct_rand c) (ct_keys c) (ky_box _ _ _ _ _ _ _ K) H255
    (ky_rand _ _ _ _ _ _ _ K) Hr (dp_queries _ _ _ _ _ D) ltac:(lia)) as (cs & st & E & F2 & C).
  rewrite E. cbn [bind fst snd]. set (items := client_items (ct_rand c) (length keys) (ct_keys c)) in *.
  assert (Li : length items = length (ct_keys c)) by apply client_items_length.
  assert (Ki : map it_key items = ct_keys c) by apply client_items_keys.
  assert (Oi : Forall (ok_item (length db) (length keys)) items).
  { apply Forall_map. apply Forall_forall. intros i Hi. apply in_seq in Hi.
    apply client_item_ok; [exact (ky_rand _ _ _ _ _ _ _ K)|exact Hr|exact (dp_queries _ _ _ _ _ D)|lia|lia]. }
  destruct (offline_chain_spec b rng keys (length db) bpk bsk (ky_box _ _ _ _ _ _ _ K) H255 Hr1 Hr parties 0 items items cs)
    as (links & states & bp & levels & E1 & Ch & LK & LT & Lf & Ls & _ & Sm & Bd & Ck).
  - cbn. exact Hc.
  - exact (ky_backend _ _ _ _ _ _ _ K).
  - intros j cf N. cbn [Nat.add]. split; [apply (dp_parties _ _ _ _ _ D j cf N)|apply (ky_parties _ _ _ _ _ _ _ K j cf N)].
  - rewrite Li. exact Ht.
  - exact F2.
  - apply Permutation_refl.
  - rewrite Nat.sub_0_r. exact Oi.
  - rewrite Li. unfold items. rewrite client_items_tags. apply Permutation_refl.
  - rewrite <- Li, E1. cbn [bind]. pose proof (client_queries_spec st items C) as Eq. rewrite Ki in Eq. rewrite Eq. cbn [bind fst snd].
    pose proof (online_spec db junk bp (dp_db _ _ _ _ _ D) J states (items :: levels) Ch) as E2.
    assert (El : last (map fst links) 0 = Z.of_nat (length (last (items :: levels) []))).
    { rewrite Lf. apply (last_map (fun l => Z.of_nat (length l))). discriminate. }
    rewrite El. cbn [hd] in E2. rewrite E2. cbn [bind fst snd map].
    pose proof (client_responses_spec db (length keys) st items C (dp_db _ _ _ _ _ D) Oi) as Er. rewrite Ki in Er. rewrite Er. cbn [bind].
    eexists. split; [reflexivity|]. split; [|split; [|split; [|split]]].
    + split; [cbn [oc_result]; apply map_row_items; exact Ki|].
      split; [cbn [oc_keys]; rewrite <- Ki; apply levels_last; exact LK|].
      exists (items :: levels). split; [rewrite <- Ki; exact LK|]. cbn [oc_counts oc_queries oc_responses].
      split; [exact Lf|]. cbn [map fst snd]. rewrite !map_map. split; reflexivity.
    + cbn [oc_queries map fst]. rewrite map_map. cbn [fst].
      change (map q_of items :: map (fun l => map q_of l) levels) with (map (map q_of) (items :: levels)).
      apply Forall_map. eapply Forall_impl; [|exact LT]. intros l H. rewrite map_map, map_length. exact H.
    + cbn [oc_ciphers oc_queries]. rewrite map_map. etransitivity; [exact Ls|].
      cbn [map fst]. rewrite !map_map. cbn [fst]. rewrite map_length. f_equal. apply map_ext. intros l. rewrite map_length. reflexivity.
    + destruct (wire_levels db (items :: levels) (dp_db _ _ _ _ _ D) (chain_ok_items _ _ _ _ Ch)
        (Sm ltac:(unfold items, client_items; apply Forall_map; apply Forall_forall; intros; apply small_mk_item)) Bd) as (W1 & W2 & W3).
      unfold wire_facts. cbn [oc_counts oc_queries oc_responses map fst snd]. rewrite !map_map, Lf. split; [exact W1|]. split; [exact W2|exact W3].
    + cbn [oc_ciphers]. intros j l N. rewrite nth_error_map in N. destruct (nth_error links j) as [x|] eqn:Ex; [|discriminate].
      inversion N; subst. exact (Ck j x Ex).
Qed.

Lemma run_spec b rng db junk c parties keys bpk bsk :
  deployment rng db c parties keys -> keyed b db c parties keys bpk bsk -> bytes 52 junk ->
  exists o, run b true rng db junk c parties bpk bsk = Ok o /\ run_facts db c parties o /\
    Forall (fun qs => Permutation (map q_tag qs) (map Z.of_nat (seq 0 (length qs)))) (oc_queries o) /\
    map (fun l => length l) (oc_ciphers o) = map (fun l => length l) (oc_queries o).
Proof.
  intros D K J. destruct (run_full b rng db junk c parties keys bpk bsk D K J) as (o & E & F & T & L & _).
  exists o. auto.
Qed.

Lemma run_simulated_full rng db junk c parties keys :
  deployment rng db c parties keys -> bytes 52 junk ->
  exists o, run_simulated true rng db junk c parties = Ok o /\ run_facts db c parties o /\ wire_facts o.
Proof.
  intros D J. pose proof (dp_rows _ _ _ _ _ D) as [Hr1 Hr]. pose proof (dp_total _ _ _ _ _ D) as Ht.
  pose proof (dp_max _ _ _ _ _ D) as H255. pose proof (dp_count _ _ _ _ _ D) as Hc.
  unfold run_simulated. rewrite Hc.
  destruct (client_simulate_spec (length db) (length keys) (ct_keys c) Hr (dp_queries _ _ _ _ _ D)) as (st & E & C).
  rewrite E. cbn [bind]. set (items := map (sim_item (length keys)) (ct_keys c)) in *.
  assert (Li : length items = length (ct_keys c)) by apply map_length.
  assert (Ki : map it_key items = ct_keys c) by (unfold items; rewrite map_map; apply map_id).
  assert (Oi : Forall (ok_item (length db) (length keys)) items).
  { apply Forall_map. eapply Forall_impl; [|exact (dp_queries _ _ _ _ _ D)]. intros key Hk. apply sim_item_ok; assumption. }
  destruct (simulate_chain_spec rng keys (length db) H255 Hr1 Hr parties 0 items)
    as (counts & states & levels & E1 & Ch & LK & Lf & _ & Sm & Bd).
  - cbn. exact Hc.
  - intros j cf N. apply (dp_parties _ _ _ _ _ D j cf N).
  - rewrite Li. exact Ht.
  - rewrite Nat.sub_0_r. exact Oi.
  - rewrite Nat.sub_0_r. apply Forall_map. apply Forall_forall. intros; apply is_sim_item.
  - rewrite <- Li, E1. cbn [bind]. pose proof (client_queries_spec st items C) as Eq. rewrite Ki in Eq. rewrite Eq. cbn [bind fst snd].
    pose proof (online_spec db junk backend_simulate (dp_db _ _ _ _ _ D) J states (items :: levels) Ch) as E2.
    assert (El : last counts 0 = Z.of_nat (length (last (items :: levels) []))).
    { rewrite Lf. apply (last_map (fun l => Z.of_nat (length l))). discriminate. }
    rewrite El. cbn [hd] in E2. rewrite E2. cbn [bind fst snd map].
    pose proof (client_responses_spec db (length keys) st items C (dp_db _ _ _ _ _ D) Oi) as Er. rewrite Ki in Er. rewrite Er. cbn [bind].
    eexists. split; [reflexivity|]. split.
    2:{ destruct (wire_levels db (items :: levels) (dp_db _ _ _ _ _ D) (chain_ok_items _ _ _ _ Ch)
          (Sm ltac:(unfold items; apply Forall_map; apply Forall_forall; intros; apply small_mk_item)) Bd) as (W1 & W2 & W3).
        unfold wire_facts. cbn [oc_counts oc_queries oc_responses map fst snd]. rewrite !map_map, Lf. split; [exact W1|]. split; [exact W2|exact W3]. }
    split; [cbn [oc_result]; apply map_row_items; exact Ki|].
    split; [cbn [oc_keys]; rewrite <- Ki; apply levels_last; exact LK|].
    exists (items :: levels). split; [rewrite <- Ki; exact LK|]. cbn [oc_counts oc_queries oc_responses].
    split; [exact Lf|]. cbn [map fst snd]. rewrite !map_map. split; reflexivity.
Qed.

Lemma run_simulated_spec rng db junk c parties keys :
  deployment rng db c parties keys -> bytes 52 junk ->
  exists o, run_simulated true rng db junk c parties = Ok o /\ run_facts db c parties o.
Proof. intros D J. destruct (run_simulated_full rng db junk c parties keys D J) as (o & E & F & _). exists o. auto. Qed.
