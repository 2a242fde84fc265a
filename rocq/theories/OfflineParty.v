(** One party's offline stage, and the simulated one. *)
From Verif Require Import Base BaseProofs Incremental IncrementalProofs Wire WireProofs Additive AdditiveProofs Onion OnionProofs
  Shuffle Sizes State Database CipherBatch CipherBatchProofs Range Handlers Batch Party Chain Spec SharingProofs ShuffleProofs
  StateProofs ChainSpec OnlineProofs OfflineProofs.

Lemma as_party_id_sub n k : (k <= n)%nat -> (n <= 255)%nat -> as_party_id (Z.of_nat n - Z.of_nat k) = (n - k)%nat.
Proof. intros H1 H2. unfold as_party_id. rewrite w8_id by (unfold u8; lia). lia. Qed.
Lemma as_party_id_sub1 n k : (k + 1 <= n)%nat -> (n <= 255)%nat -> as_party_id (Z.of_nat n - Z.of_nat k - 1) = (n - k - 1)%nat.
Proof. intros H1 H2. unfold as_party_id. rewrite w8_id by (unfold u8; lia). lia. Qed.

Lemma remaining_spec rng keys rows k cf : good_party rng keys rows k cf -> (k + 1 < length keys)%nat -> (length keys <= 255)%nat ->
  remaining_parties cf = (length keys - k - 1)%nat.
Proof.
  intros G H1 H2. unfold remaining_parties. rewrite (gp_party _ _ _ _ _ G), (gp_parties _ _ _ _ _ G).
  apply as_party_id_sub1; lia.
Qed.

Lemma party_check_spec rng keys rows k cf : good_party rng keys rows k cf -> (k + 1 < length keys)%nat -> party_check true cf = Ok tt.
Proof.
  intros G H. unfold party_check. rewrite (gp_party _ _ _ _ _ G), (gp_parties _ _ _ _ _ G), (gp_servers _ _ _ _ _ G).
  assert ((2 <=? length keys)%nat && (k <? length keys - 1)%nat = true) as ->; [|reflexivity].
  apply andb_true_iff. split; [apply Nat.leb_le|apply Nat.ltb_lt]; lia.
Qed.

(** ** Stored noise secrets *)
Lemma ns_at_get c l i tag incs : ns_at c l 0 -> Z.of_nat (length l) < 2 ^ 32 -> nth_error l i = Some (tag, incs) ->
  cs_get_tag (load_times (S i) c) = Ok tag /\ cs_get_incs (load_times (S i) c) = Ok incs.
Proof.
  intros (H1 & H2 & H3 & H4 & H5) Hb N. cbn [repeat] in *. rewrite app_nil_r in *.
  assert (Hi : (i < length l)%nat) by (apply nth_error_Some; congruence).
  destruct (load_times_spec (S i) c) as (r & E & _ & R). rewrite E, R by lia. rewrite H3.
  assert (Ei : w32 (w32 (0 + Z.of_nat (S i)) - 1) = Z.of_nat i).
  { rewrite (w32_id (0 + _)) by (unfold u32; lia). rewrite w32_id by (unfold u32; lia). lia. }
  unfold cs_get_tag, cs_get_incs, cs_cur; cbn [cs_sim cs_r cs_tags cs_incs]. rewrite H1, H4, H5, Ei. cbn [ptr bind].
  split; apply getz_nth; rewrite Nat2Z.id.
  - exact (nth_map_some fst _ _ _ N).
  - exact (nth_map_some snd _ _ _ N).
Qed.
Lemma ns_at_step c done room tag incs : ns_at c done (S room) -> Z.of_nat (S (length done)) < 2 ^ 32 ->
  exists c', cs_add_noise c tag incs = Ok c' /\ ns_at c' (done ++ [(tag, incs)]) room.
Proof.
  intros H Hb. destruct (store_noise_spec [(tag, incs)] c done room H) as (c' & E & A); [cbn; lia|].
  exists c'. split; [|exact A]. unfold store_noise in E. cbn [fold_res fst snd] in E.
  destruct (cs_add_noise c tag incs); cbn [bind] in E; try discriminate. exact E.
Qed.

Lemma make_query_at st i key tag incs t :
  cs_get_tag (load_times (S i) st) = Ok tag -> cs_get_incs (load_times (S i) st) = Ok incs ->
  generate_incremental_tally key incs = Ok t ->
  make_query (load_times i st) key = Ok ({| q_tag := tag; q_tally := t |}, load_times (S i) st).
Proof.
  intros H1 H2 H3. unfold make_query. change (cs_load_next (load_times i st)) with (load_times (S i) st).
  rewrite H1. cbn [bind]. rewrite H2. cbn [bind]. rewrite H3. reflexivity.
Qed.

(** ** The noise items of a party *)
Definition rnd_incs (r : rand) (m i : nat) : list ishare := pre_incremental_secret_shares (rn_x r i) (rn_y r i) m.
Definition noise_item (rows m : nat) (cf : pconf) (input i : nat) : item :=
  mk_item (Z.of_nat input + Z.of_nat i) (nth i (noise_keys rows cf) 0) (rnd_incs (pf_rand cf) m i) (rn_masks (pf_rand cf) i).
Definition noise_items (rows m : nat) (cf : pconf) (input : nat) : list item :=
  map (noise_item rows m cf input) (seq 0 (noise_total rows cf)).

Lemma noise_items_keys rows m cf input : map it_key (noise_items rows m cf input) = noise_keys rows cf.
Proof.
  unfold noise_items. rewrite map_map. cbn [noise_item mk_item it_key].
  rewrite <- (noise_keys_length rows cf). apply nth_seq_all.
Qed.
Lemma noise_items_tags rows m cf input :
  map it_tag (noise_items rows m cf input) = map (fun i => Z.of_nat i) (seq input (noise_total rows cf)).
Proof.
  unfold noise_items. rewrite map_map. cbn [noise_item mk_item it_tag].
  generalize (noise_total rows cf) as n. intros n.
  apply nth_error_ext. intros i. destruct (Nat.lt_ge_cases i n) as [H|H].
  - rewrite nth_error_map_seq by exact H. rewrite nth_error_map, nth_error_seq by exact H. cbn. f_equal. lia.
  - rewrite !(proj2 (nth_error_None _ _)); [reflexivity| |]; rewrite map_length, seq_length; lia.
Qed.
Lemma noise_items_length rows m cf input : length (noise_items rows m cf input) = noise_total rows cf.
Proof. unfold noise_items. rewrite map_length, seq_length. reflexivity. Qed.

Lemma noise_item_ok rows m cf input i : good_rand (pf_rand cf) (noise_total rows cf) m ->
  Z.of_nat rows <= 2 ^ 31 - 1 -> (i < noise_total rows cf)%nat -> Z.of_nat (input + noise_total rows cf) < 2 ^ 32 ->
  ok_item rows m (noise_item rows m cf input i) /\
  generate_incremental_tally (it_key (noise_item rows m cf input i)) (rnd_incs (pf_rand cf) m i) =
    Ok (it_tally (noise_item rows m cf input i)).
Proof.
  intros G Hr Hi Ht. destruct (G i Hi) as (Gd & Gl & Gm).
  destruct (make_shares _ _ _ m 0 Gd Gl Gm) as (Li & Wi & _). unfold noise_item.
  pose proof (noise_keys_bound rows cf) as B. rewrite Forall_forall in B.
  destruct (ok_mk_item rows (Z.of_nat input + Z.of_nat i) (nth i (noise_keys rows cf) 0) (rnd_incs (pf_rand cf) m i)
              (rn_masks (pf_rand cf) i)) as [H1 H2].
  - unfold u64. lia.
  - exact Wi.
  - exact Gm.
  - unfold rnd_incs. lia.
  - exact Hr.
  - apply B. apply nth_In. rewrite noise_keys_length. exact Hi.
  - split; [|exact H2]. unfold rnd_incs in H1 at 1. rewrite Li in H1. exact H1.
Qed.

Lemma noise_items_ok rows m cf input : good_rand (pf_rand cf) (noise_total rows cf) m ->
  Z.of_nat rows <= 2 ^ 31 - 1 -> Z.of_nat (input + noise_total rows cf) < 2 ^ 32 ->
  Forall (ok_item rows m) (noise_items rows m cf input).
Proof.
  intros G Hr Ht. apply Forall_map. apply Forall_forall. intros i Hi. apply in_seq in Hi.
  apply noise_item_ok; auto. lia.
Qed.

(** Opening [c] with the keys [ks] shows the item's secrets. *)
Definition opens (b : sealbox) (ks : list (list Z * list Z)) (c : list Z) (it : item) : Prop := peels b ks (it_secrets it) c.

Lemma combine_keys (keys : list (list Z * list Z)) : combine (map fst keys) (map snd keys) = keys.
Proof. induction keys as [|[a b] l IH]; cbn; [reflexivity|]. rewrite IH. reflexivity. Qed.

Lemma encrypt_item b keys first coins j1 j2 it rows m :
  (forall pk sk, In (pk, sk) keys -> box_ok b pk sk) -> (length keys <= 255)%nat ->
  ok_item rows m it -> (first + m = length keys)%nat ->
  exists c, onion_encrypt b true coins j1 j2 (it_secrets it) first (length keys) (map fst keys) = Ok c /\
    length c = (124 * m)%nat /\ opens b (skipn first keys) c it.
Proof.
  intros Hb H255 (L & F & _) Hf.
  destruct (onion_encrypt_spec b coins j1 j2 (it_secrets it) first (length keys) (map fst keys) (map snd keys)) as (c & E & Lc & _ & P).
  - lia.
  - lia.
  - apply map_length.
  - apply map_length.
  - eapply Forall_impl; [|exact F]. intros s [W _]; exact W.
  - intros k pk sk H1 H2. apply Hb. rewrite nth_error_map in H1, H2.
    destruct (nth_error keys k) as [[pk' sk']|] eqn:E; cbn in *; [|discriminate]. inversion H1; inversion H2; subst.
    eapply nth_error_In; exact E.
  - exists c. split; [exact E|]. split; [lia|]. unfold opens. rewrite combine_keys in P. exact P.
Qed.

Lemma create_noise_spec b rng keys rows k cf input :
  good_party rng keys rows k cf -> good_party_keys keys rows k cf ->
  (forall pk sk, In (pk, sk) keys -> box_ok b pk sk) -> (length keys <= 255)%nat -> (k + 1 < length keys)%nat ->
  Z.of_nat rows <= 2 ^ 31 - 1 -> Z.of_nat (input + noise_total rows cf) < 2 ^ 32 ->
  let m := (length keys - k - 1)%nat in
  let items := noise_items rows m cf input in
  exists ns0 cb ns cs gap rest,
    cs_initialize cs_new (remaining_parties cf) (Z.of_nat (noise_total rows cf)) true false = Ok ns0 /\
    create_noise_ciphers b true cf (Z.of_nat input) (Z.of_nat (noise_total rows cf)) ns0 = Ok (cb, ns) /\
    rep cb cs gap [] rest /\ cb_short cb = (124 * m)%nat /\ cb_long cb = (124 * S m)%nat /\
    length rest = (input * (124 * S m))%nat /\
    Forall2 (opens b (skipn (S k) keys)) cs items /\
    (forall i it, nth_error items i = Some it -> make_query (load_times i ns) (it_key it) = Ok (q_of it, load_times (S i) ns)).
Proof.
  intros G GK Hb H255 Hk Hr Ht m items. rewrite (remaining_spec rng keys rows k cf G Hk H255). fold m.
  set (N := noise_total rows cf) in *.
  set (done := fun i => map (fun i => (Z.of_nat input + Z.of_nat i, rnd_incs (pf_rand cf) m i)) (seq 0 i)).
  destruct (cs_initialize cs_new m (Z.of_nat N) true false) as [ns0| | |] eqn:E0; try discriminate E0.
  assert (A0 : ns_at ns0 (done 0%nat) N).
  { inversion E0. rewrite Nat2Z.id. unfold ns_at; cbn. auto 10. }
  unfold create_noise_ciphers. rewrite (gp_party _ _ _ _ _ G), (gp_parties _ _ _ _ _ G).
  unfold party_out_size, party_in_size. rewrite as_party_id_sub1, as_party_id_sub by lia. fold m.
  rewrite !Csz. rewrite !Nat2Z.id.
  replace (length keys - k)%nat with (S m) by (unfold m; lia).
  destruct (rep_init (m * 124) (S m * 124) N input) as (gap0 & rest0 & R0 & Lg0 & Lr0 & S0 & S0').
  set (body := fun (i : nat) (s : cbatch * cstate) => _).
  destruct (for_inv (fun i s => exists cs gap, rep (fst s) cs gap [] rest0 /\ cb_short (fst s) = (m * 124)%nat /\
      cb_long (fst s) = (S m * 124)%nat /\ length gap = ((N - i) * (m * 124))%nat /\
      Forall2 (opens b (skipn (S k) keys)) cs (map (noise_item rows m cf input) (seq 0 i)) /\ ns_at (snd s) (done i) (N - i))
    N 0 body (cb_initialize (m * 124) (S m * 124) N input, ns0)) as (s & E & I).
  - exists [], gap0. cbn [fst snd seq map]. rewrite Nat.sub_0_r. repeat split; try assumption; try constructor; try apply R0; try apply A0.
  - intros i [cb ns] Hi (cs & gap & R & B1 & B2 & Lg & F2 & A). cbn [fst snd] in *.
    destruct (gp_rand _ _ _ _ GK i) as (Gd & Gl & Gm); [fold N; lia|]. fold m in Gd, Gl.
    destruct (make_shares _ _ _ m (Z.of_nat input + Z.of_nat i) Gd Gl Gm) as (Li & Wi & Eg & Es).
    unfold body. cbn [fst snd]. rewrite (remaining_spec rng keys rows k cf G Hk H255). fold m.
    unfold make_noise_secret. unfold party_sample_tag. rewrite w32_id by (unfold u32; lia).
    rewrite Eg. cbn [bind]. rewrite Es. cbn [bind fst snd].
    replace (N - i)%nat with (S (N - S i)) in A by lia.
    destruct (ns_at_step ns (done i) (N - S i) (Z.of_nat input + Z.of_nat i) (rnd_incs (pf_rand cf) m i) A) as (ns' & En & A').
    { unfold done. rewrite map_length, seq_length. lia. }
    unfold rnd_incs in En. rewrite En. cbn [bind fst snd].
    destruct (noise_item_ok rows m cf input i) as [Oi _]; [exact (gp_rand _ _ _ _ GK)|exact Hr|fold N; lia|exact Ht|].
    destruct (encrypt_item b keys (k + 1) (rn_coins (pf_rand cf) i) (rn_junk1 (pf_rand cf) i) (rn_junk2 (pf_rand cf) i)
      (noise_item rows m cf input i) rows m Hb H255 Oi) as (c & Ec & Lc & Oc); [unfold m; lia|].
    rewrite (gp_pkeys _ _ _ _ GK).
    change (mk_secrets (Z.of_nat input + Z.of_nat i) (pre_incremental_secret_shares (rn_x (pf_rand cf) i) (rn_y (pf_rand cf) i) m)
       (rn_masks (pf_rand cf) i)) with (it_secrets (noise_item rows m cf input i)).
    rewrite Ec. cbn [bind].
    destruct (rep_push_short cb cs gap [] rest0 c R) as (cb' & Ep & R' & B3 & B4).
    { lia. }
    { rewrite B1, Lg. replace (N - i)%nat with (S (N - S i)) by lia. rewrite Nat.mul_succ_l. apply Nat.le_add_l. }
    rewrite Ep. cbn [bind]. eexists. split; [reflexivity|]. cbn [fst snd].
    eexists _, _. split; [exact R'|]. split; [lia|]. split; [lia|]. split.
    + rewrite skipn_length, B1, Lg. replace (N - i)%nat with (S (N - S i)) by lia. rewrite Nat.mul_succ_l. apply Nat.add_sub.
    + split.
      * rewrite seq_S, map_app. apply Forall2_app; [exact F2|]. constructor; [|constructor].
        rewrite firstn_all2 by lia. rewrite Nat.add_1_r in Oc. exact Oc.
      * unfold done. rewrite seq_S, map_app. exact A'.
  - cbn [Nat.add] in I. destruct I as (cs & gap & R & B1 & B2 & Lg & F2 & A). rewrite Nat.sub_diag in A.
    exists ns0, (fst s), (snd s), cs, gap, rest0. split; [reflexivity|]. split; [rewrite <- surjective_pairing; exact E|].
    split; [exact R|]. split; [lia|]. split; [lia|]. split; [lia|]. split; [exact F2|].
    intros i it Nit. assert (Hi : (i < N)%nat).
    { unfold N. rewrite <- (noise_items_length rows m cf input). apply nth_error_Some. unfold items in Nit. congruence. }
    unfold items, noise_items in Nit. fold N in Nit. rewrite nth_error_map_seq in Nit by exact Hi. inversion Nit; subst it.
    destruct (noise_item_ok rows m cf input i) as [_ Eg]; [exact (gp_rand _ _ _ _ GK)|exact Hr|fold N; lia|exact Ht|].
    destruct (ns_at_get (snd s) (done N) i (Z.of_nat input + Z.of_nat i) (rnd_incs (pf_rand cf) m i)) as [T1 T2].
    + exact A.
    + unfold done. rewrite map_length, seq_length. lia.
    + unfold done. rewrite nth_error_map, nth_error_seq by exact Hi. reflexivity.
    + rewrite (make_query_at _ _ _ _ _ _ T1 T2 Eg). reflexivity.
Qed.

(** ** Installing secrets *)
Lemma push_longs cs : forall c, fold_res cb_push_long cs c = push_all c (map inr cs).
Proof.
  induction cs as [|x cs IH]; intros c; [reflexivity|]. unfold push_all in *. cbn [fold_res map].
  destruct (cb_push_long c x); cbn [bind]; auto.
Qed.
Lemma lefts_inr {A B} (l : list B) : lefts (map (@inr A B) l) = [].
Proof. induction l; cbn; auto. Qed.
Lemma rights_inr {A B} (l : list B) : rights (map (@inr A B) l) = l.
Proof. induction l as [|x l IH]; cbn; [reflexivity|]. f_equal. exact IH. Qed.

Lemma decrypt_app b c junk n pk sk : length c = (124 * n)%nat ->
  onion_decrypt b true (c ++ junk) n pk sk = onion_decrypt b true c n pk sk.
Proof.
  intros L. unfold onion_decrypt. rewrite Csz.
  destruct (n * 124 <? SEALBYTES)%nat; [reflexivity|].
  rewrite !rd_Ok by (rewrite ?app_length; lia). cbn [bind skipn].
  rewrite firstn_app, (firstn_all2 c) by lia. replace (n * 124 - length c)%nat with 0%nat by lia.
  rewrite firstn_O, app_nil_r. reflexivity.
Qed.

Definition no_secret : osecret := {| o_tag := 0; o_next := 0; o_share := {| sx := 0; sy := 1 |}; o_preshare := [] |}.
Definition first_secret (it : item) : osecret := hd no_secret (it_secrets it).

Lemma peel_install b cf n pk sk ks :
  as_party_id (Z.of_nat (pf_parties cf) - Z.of_nat (pf_party cf)) = n -> pf_pkey cf = pk -> pf_skey cf = sk ->
  length ((pk, sk) :: ks) = n ->
  forall cs items, Forall2 (opens b ((pk, sk) :: ks)) cs items -> forall p p',
  install_all true p (map first_secret items) = Ok p' ->
  exists outs, peel_all (install_one b true cf) p cs = Ok (p', outs) /\
    Forall2 (opens b ks) outs (map advance items).
Proof.
  intros En Epk Esk Ln. induction 1 as [|c it cs items H F IH]; intros p p' E.
  - exists []. cbn in *. inversion E; subst. split; [reflexivity|constructor].
  - unfold opens in H. cbn [peels] in H. destruct (it_secrets it) as [|s ss] eqn:Es; [contradiction|].
    destruct H as (Lc & c' & Ed & Lc' & P). rewrite Ln in Ed.
    unfold install_all in E. cbn [map fold_res] in E. unfold first_secret at 1 in E. rewrite Es in E. cbn [hd] in E.
    destruct (qs_store true p s) as [p1| | |] eqn:Eq; try discriminate E. cbn [bind] in E.
    destruct (IH p1 p' E) as (outs & Ep & F').
    exists (c' :: outs). cbn [peel_all]. unfold install_one at 1. rewrite En, Epk, Esk, Ed. cbn [bind fst snd].
    rewrite Eq. cbn [bind fst snd]. rewrite Ep. cbn [bind fst snd]. split; [reflexivity|].
    constructor; [|exact F']. unfold opens, advance. cbn [it_secrets]. rewrite Es. exact P.
Qed.

Lemma first_tag rows m it : ok_item rows (S m) it -> o_tag (first_secret it) = it_tag it /\ o_next (first_secret it) = it_tag it /\
  it_secrets it = first_secret it :: tl (it_secrets it).
Proof.
  intros (L & F & _). unfold first_secret. destruct (it_secrets it) as [|s ss]; [discriminate|].
  inversion F as [|? ? (_ & H1 & H2) _]; subst. cbn. auto.
Qed.

Lemma map_first_tag rows m items : Forall (ok_item rows (S m)) items -> map o_tag (map first_secret items) = map it_tag items.
Proof.
  intros F. rewrite map_map. apply map_ext_in. intros it Hin. rewrite Forall_forall in F. apply (first_tag rows m it (F it Hin)).
Qed.

Lemma NoDup_tags {A} (f : A -> Z) l n : Permutation (map f l) (map Z.of_nat (seq 0 n)) -> NoDup (map f l).
Proof.
  intros P. apply Permutation_sym in P. apply (Permutation_NoDup P).
  apply FinFun.Injective_map_NoDup; [intros x y H; lia|]. apply seq_NoDup.
Qed.

Lemma Forall2_length' {A B} (R : A -> B -> Prop) a b : Forall2 R a b -> length a = length b.
Proof. induction 1; cbn; auto. Qed.

Lemma Forall2_pick {A B} (R : A -> B -> Prop) da db_ a b idx : Forall2 R a b -> (forall j, In j idx -> (j < length a)%nat) ->
  Forall2 R (pick da a idx) (pick db_ b idx).
Proof.
  intros F. assert (N : forall j, (j < length a)%nat -> R (nth j a da) (nth j b db_)).
  { induction F as [|x y a b H F IH]; intros j Hj; [cbn in Hj; lia|]. destruct j; [exact H|]. cbn in *. apply IH. lia. }
  intros H. unfold pick. induction idx as [|j idx IH]; cbn; [constructor|].
  constructor; [apply N, H; left; reflexivity|]. apply IH. intros j' Hj'. apply H. right. exact Hj'.
Qed.

Lemma send_spec n ls cb (shorts : list (list Z)) gap rest : ls_ok n ls -> rep cb shorts gap [] rest -> length shorts = n ->
  send_ciphers ls (Z.of_nat n) cb = Ok (pick [] shorts (ls_forward ls)).
Proof.
  intros O R L. unfold send_ciphers. rewrite Nat2Z.id.
  rewrite (map_res_Ok _ (fun i => nth (nth i (ls_forward ls) 0%nat) shorts [])).
  - f_equal. unfold pick. pose proof (nth_seq_all 0%nat (ls_forward ls)) as En.
    destruct O as (Lf & _). rewrite Lf in En. transitivity (map (fun j => nth j shorts []) (map (fun j => nth j (ls_forward ls) 0%nat) (seq 0 n)));
      [rewrite map_map; reflexivity|rewrite En; reflexivity].
  - intros i Hi. apply in_seq in Hi. destruct (ls_ok_fwd n ls i O) as (j & Hj & E & _); [lia|].
    rewrite E. cbn [bind]. apply get_Ok in E. rewrite (nth_error_nth _ _ _ E).
    eapply rep_get; [exact R|]. apply nth_error_nth'. lia.
Qed.

Lemma ls_forward_lt n ls j : ls_ok n ls -> In j (ls_forward ls) -> (j < n)%nat.
Proof. intros (_ & _ & P & _) H. apply Permutation_sym in P. apply (Permutation_in _ P) in H. apply in_seq in H. lia. Qed.

Definition no_item : item := {| it_tag := 0; it_secrets := []; it_key := 0; it_tally := 0 |}.

Lemma party_offline_spec b rng keys rows k cf cs items_c items :
  good_party rng keys rows k cf -> good_party_keys keys rows k cf ->
  (forall pk sk, In (pk, sk) keys -> box_ok b pk sk) -> (length keys <= 255)%nat -> (k + 1 < length keys)%nat ->
  (1 <= rows)%nat -> Z.of_nat rows <= 2 ^ 31 - 1 -> Z.of_nat (length items + noise_total rows cf) < 2 ^ 32 ->
  Forall2 (opens b (skipn k keys)) cs items_c -> Permutation items_c items ->
  Forall (ok_item rows (length keys - k)) items ->
  Permutation (map it_tag items) (map Z.of_nat (seq 0 (length items))) ->
  let noise := noise_items rows (length keys - k - 1) cf (length items) in
  exists rp cs' items_c',
    party_offline b true rng cf (Z.of_nat (length items)) cs = Ok (Z.of_nat (length noise + length items), cs', rp) /\
    holds rp noise items /\
    Forall2 (opens b (skipn (S k) keys)) cs' items_c' /\
    Permutation items_c' (next_items (rp_shuffler rp) noise items) /\
    items_c' = pick no_item (noise ++ map advance items_c) (ls_forward (rp_shuffler rp)) /\
    ls_initialize rng (pf_seed cf) (length noise + length items) = Ok (rp_shuffler rp).
Proof.
  intros G GK Hb H255 Hk Hr1 Hr Ht F2 Pc Oi Tg noise.
  set (m := (length keys - k - 1)%nat) in *. set (input := length items) in *.
  assert (Lnoise : length noise = noise_total rows cf) by apply noise_items_length.
  unfold party_offline. rewrite (party_check_spec rng keys rows k cf G Hk). cbn [bind].
  rewrite (noise_samples_spec rng keys rows k cf G Hr1) by lia. cbn [bind].
  assert (Esh : shuffled_count (Z.of_nat input) (Z.of_nat (noise_total rows cf)) = Z.of_nat (length noise + input)).
  { unfold shuffled_count. rewrite w32_id by (unfold u32; lia). lia. }
  rewrite Esh. set (n := (length noise + input)%nat) in *. rewrite !Nat2Z.id.
  destruct (create_noise_spec b rng keys rows k cf input G GK Hb H255 Hk Hr Ht)
    as (ns0 & cb & ns & ncs & gap & rest & E0 & E1 & R1 & B1 & B2 & Lr & Fn & Q).
  fold m noise in E1, B1, B2, Lr, Fn, Q.
  rewrite E0. cbn [bind]. rewrite E1. cbn [bind fst snd].
  (* collecting *)
  assert (Lc : length cs = input).
  { rewrite (Forall2_length' _ _ _ F2). rewrite (Permutation_length Pc). reflexivity. }
  destruct (skipn k keys) as [|[pk sk] ks] eqn:Ek.
  { apply (f_equal (@length _)) in Ek. rewrite skipn_length in Ek. cbn in Ek. lia. }
  assert (Eks : ks = skipn (S k) keys).
  { change (S k) with (1 + k)%nat. rewrite <- (skipn_skipn' keys 1 k), Ek. reflexivity. }
  assert (Lks : length ((pk, sk) :: ks) = S m).
  { rewrite <- Ek, skipn_length. unfold m. lia. }
  assert (Epk : nth_error keys k = Some (pk, sk)).
  { rewrite <- (Nat.add_0_r k), <- nth_error_skipn, Ek. reflexivity. }
  rewrite (gp_keys _ _ _ _ GK) in Epk. inversion Epk as [[Ep Es]].
  assert (Scs : Forall (fun c => length c = (124 * S m)%nat) cs).
  { clear -F2 Lks. induction F2 as [|c it cs its H _ IH]; constructor; [|exact IH].
    apply peels_length in H. rewrite Lks in H. exact H. }
  unfold collect_ciphers. rewrite Nat2Z.id, recv_all by exact Lc. cbn [bind]. rewrite push_longs.
  destruct (push_all_spec (124 * m) (124 * S m) (map inr cs) cb ncs gap [] rest R1 B1 B2) as (cb2 & E2 & R2 & B3 & B4).
  { rewrite lefts_inr. constructor. }
  { rewrite rights_inr. exact Scs. }
  { rewrite lefts_inr. cbn. lia. }
  { rewrite rights_inr. lia. }
  rewrite E2. cbn [bind]. rewrite lefts_inr, rights_inr in R2. cbn [app] in R2. rewrite app_nil_r in R2.
  (* shuffler *)
  destruct (ls_initialize_spec rng (pf_seed cf) n (gp_rng _ _ _ _ _ G)) as (ls & El & O); [lia|].
  rewrite El. cbn [bind].
  (* installing *)
  assert (Oc : Forall (ok_item rows (S m)) items_c).
  { replace (S m) with (length keys - k)%nat by (unfold m; lia). eapply Permutation_Forall; [apply Permutation_sym; exact Pc|exact Oi]. }
  assert (Nd : NoDup (map o_tag (map first_secret items_c))).
  { rewrite (map_first_tag rows m) by exact Oc. apply (NoDup_tags it_tag _ input).
    eapply Permutation_trans; [|exact Tg]. apply Permutation_map. exact Pc. }
  destruct (install_spec true (map first_secret items_c) (qs_initialize_state qs_new false) Nd) as (p' & Ei & Si & Mi).
  { intros; reflexivity. }
  assert (En : as_party_id (Z.of_nat (pf_parties cf) - Z.of_nat (pf_party cf)) = S m).
  { rewrite (gp_party _ _ _ _ _ G), (gp_parties _ _ _ _ _ G), as_party_id_sub by lia. unfold m. lia. }
  destruct (peel_install b cf (S m) pk sk ks En Ep Es Lks cs items_c F2 _ _ Ei) as (outs & Epl & Fo).
  unfold install_secrets. rewrite Nat2Z.id.
  assert (Hd : forall c it, opens b ((pk, sk) :: ks) c it -> exists s c', onion_decrypt b true c (S m) pk sk = Ok (s, c') /\ length c' = (124 * m)%nat).
  { intros c it H. unfold opens in H. cbn [peels] in H. destruct (it_secrets it) as [|s ss]; [contradiction|].
    destruct H as (_ & c' & Ed & Lc' & _). rewrite Lks in Ed. exists s, c'. split; [exact Ed|]. cbn in Lks. lia. }
  assert (Hin : forall c, In c cs -> exists s c', onion_decrypt b true c (S m) pk sk = Ok (s, c') /\ length c' = (124 * m)%nat).
  { intros c Hc. clear -Hd F2 Hc. induction F2 as [|c' it cs its H _ IH]; [contradiction|].
    destruct Hc as [->|Hc]; [exact (Hd _ _ H)|exact (IH Hc)]. }
  pose proof (process_spec (install_one b true cf) (124 * m) (124 * S m) ltac:(lia) ltac:(lia) cs) as PS.
  specialize (PS ltac:(intros st c junk Hc; unfold install_one; rewrite En, decrypt_app; [reflexivity|
      rewrite Forall_forall in Scs; apply Scs; exact Hc])).
  assert (Hlen : forall (st : qstate) c st' o, In c cs -> install_one b true cf st c = Ok (st', o) -> length o = (124 * m)%nat).
  { intros st c st' o Hc Ec. destruct (Hin c Hc) as (s & c' & Ed & Lc'). unfold install_one in Ec. rewrite En, Ep, Es, Ed in Ec.
    cbn [bind fst snd] in Ec. destruct (qs_store true st s); cbn [bind] in Ec; inversion Ec; subst. exact Lc'. }
  specialize (PS Hlen input cb2 (qs_initialize_state qs_new false) ncs _ _ ltac:(lia) R2 B3 B4).
  rewrite Epl in PS. destruct PS as (cb3 & gap' & E3 & R3 & B5 & B6 & Lo).
  rewrite E3. cbn [bind fst snd].
  (* sending *)
  assert (Lshort : length (ncs ++ outs) = n).
  { rewrite app_length, Lo, (Forall2_length' _ _ _ Fn). unfold n. lia. }
  rewrite (send_spec n ls cb3 (ncs ++ outs) gap' _ O R3 Lshort). cbn [bind].
  destruct (noise_queries_spec rng keys rows k cf n ls noise (map advance items) ns G O) as (qs & Eqs & Fq).
  { rewrite app_length, map_length. reflexivity. }
  { lia. }
  { apply noise_items_keys. }
  { exact Q. }
  rewrite Eqs. cbn [bind].
  eexists _, _, (pick no_item (noise ++ map advance items_c) (ls_forward ls)). split; [reflexivity|].
  cbn [rp_shuffler]. split; [|split; [|split; [|split; reflexivity]]].
  - unfold holds. cbn. rewrite <- Lnoise. fold input. fold n. repeat (split; [reflexivity|]). split; [exact O|].
    split; [reflexivity|]. split; [|exact Fq].
    apply Forall_forall. intros it Hin'.
    assert (Hc : In it items_c) by (apply (Permutation_in _ (Permutation_sym Pc)); exact Hin').
    rewrite Forall_forall in Oc. destruct (first_tag rows m it (Oc it Hc)) as (T1 & T2 & T3).
    exists (first_secret it), (tl (it_secrets it)). split; [exact T3|].
    rewrite Si, Mi. cbn [qs_initialize_state qs_sim qs_map qs_new].
    rewrite <- T1. rewrite find_installed; [|exact Nd|apply in_map; exact Hc]. unfold entry; cbn [snd]. rewrite T2, T1. reflexivity.
  - rewrite Eks in Fo. apply Forall2_pick; [apply Forall2_app; assumption|].
    intros j Hj. rewrite Lshort. apply (ls_forward_lt n ls j O Hj).
  - assert (Lall : length (noise ++ map advance items_c) = n).
    { rewrite app_length, map_length, (Permutation_length Pc). reflexivity. }
    apply Permutation_trans with (noise ++ map advance items_c).
    + apply Permutation_sym, pick_perm. rewrite Lall. apply O.
    + apply Permutation_trans with (noise ++ map advance items).
      * apply Permutation_app_head. apply Permutation_map. exact Pc.
      * apply (next_perm n ls noise items O). reflexivity.
Qed.
