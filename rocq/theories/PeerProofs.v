(** One party or the backend facing an arbitrary peer. *)
From Verif Require Import Base BaseProofs Incremental Wire WireProofs Additive AdditiveProofs Onion OnionProofs
  Shuffle Sizes State Database CipherBatch CipherBatchProofs Range Handlers Batch Party Chain Spec SharingProofs ShuffleProofs
  StateProofs ChainSpec OnlineProofs OfflineProofs OfflineParty PeerSpec.

Definition between (N n : nat) (ls : lshuffler) (p : qstate) (data : batch query) : ready :=
  {| rp_noise := Z.of_nat N; rp_input := Z.of_nat n; rp_shuffled := Z.of_nat (N + n); rp_state := p;
     rp_shuffler := ls; rp_tags := bt_initialize 0 n; rp_queries := data |}.

(** ** Ciphers *)
Section PartyCiphers.
  Variables (b : sealbox) (cf : pconf) (m : nat).
  Hypothesis En : as_party_id (Z.of_nat (pf_parties cf) - Z.of_nat (pf_party cf)) = S m.
  Hypothesis Hsz : box_sizes b (pf_pkey cf) (pf_skey cf).
  Notation sh := (shows b (pf_pkey cf) (pf_skey cf)).

  Lemma install_one_shows a p c junk : bytes (124 * S m) c ->
    install_one b a cf p (c ++ junk) =
    match sh c with
    | Some (s, inner) => let* p' := qs_store a p s in Ok (p', inner)
    | None => if a then Abort else UB
    end.
  Proof using All.
    intros [L B]. unfold install_one, onion_decrypt. rewrite En, Csz.
    assert ((S m * 124 <? SEALBYTES)%nat = false) as -> by (apply Nat.ltb_ge; unfold SEALBYTES; lia).
    rewrite rd_Ok by (rewrite app_length; lia). cbn [bind skipn].
    rewrite firstn_app, (firstn_all2 c) by lia. replace (S m * 124 - length c)%nat with 0%nat by lia.
    rewrite firstn_O, app_nil_r. unfold shows.
    destruct (box_open b (pf_pkey cf) (pf_skey cf) c) as [plain|] eqn:Eo; [|destruct a; reflexivity].
    destruct (Hsz c plain B Eo) as [Lp _]. unfold SECRET_SIZE. rewrite rd_Ok by lia. cbn [bind skipn fst snd]. reflexivity.
  Qed.

  Lemma shows_inner c s inner : bytes (124 * S m) c -> sh c = Some (s, inner) -> length inner = (124 * m)%nat /\ bytes 52 (o_preshare s).
  Proof using All.
    intros [L B] H. unfold shows in H.
    destruct (box_open b (pf_pkey cf) (pf_skey cf) c) as [plain|] eqn:Eo; [|discriminate].
    destruct (Hsz c plain B Eo) as [Lp Bp]. assert (Hs : s = dec_osecret (firstn 76 plain)) by congruence. assert (Hi : inner = skipn 76 plain) by congruence. subst s inner. split; [rewrite skipn_length; lia|].
    unfold dec_osecret; cbn [o_preshare]. split.
    - rewrite skipn_length, firstn_length. lia.
    - apply Forall_forall. intros x Hx. rewrite Forall_forall in Bp. apply Bp.
      assert (Sk : forall (l : list Z) k y, In y (skipn k l) -> In y l).
      { intros l k y Hy. rewrite <- (firstn_skipn k l). apply in_or_app. right. exact Hy. }
      apply Sk in Hx. rewrite <- (firstn_skipn 76 plain). apply in_or_app. left. exact Hx.
  Qed.

  Lemma peel_shows a cs : Forall (bytes (124 * S m)) cs -> forall opens p, map sh cs = map Some opens ->
    peel_all (install_one b a cf) p cs =
    match install_all a p (map fst opens) with Ok p' => Ok (p', map snd opens) | Abort => Abort | UB => UB | NoFuel => NoFuel end.
  Proof using All.
    induction 1 as [|c cs Hc F IH]; intros [|[s inner] opens] p E; try discriminate E; [reflexivity|].
    cbn [map] in E. inversion E as [[E1 E2]]. cbn [peel_all map]. unfold install_all. cbn [fold_res fst snd].
    rewrite <- (app_nil_r c) at 1. rewrite (install_one_shows a p c [] Hc), E1.
    destruct (qs_store a p s) as [p1| | |]; cbn [bind fst snd]; try reflexivity.
    rewrite (IH opens p1 E2). unfold install_all.
    destruct (fold_res (qs_store a) (map fst opens) p1); reflexivity.
  Qed.

  Lemma peel_bad cs : Forall (bytes (124 * S m)) cs -> forall p, (exists c, In c cs /\ sh c = None) ->
    peel_all (install_one b true cf) p cs = Abort.
  Proof using All.
    induction 1 as [|c cs Hc F IH]; intros p (c0 & Hin & E0); [contradiction|].
    cbn [peel_all]. rewrite <- (app_nil_r c) at 1. rewrite (install_one_shows true p c [] Hc).
    destruct (sh c) as [[s inner]|] eqn:E; [|reflexivity].
    destruct Hin as [->|Hin]; [congruence|].
    unfold qs_store. destruct (find_tag (qs_map p) (o_tag s)); cbn [bind]; [reflexivity|].
    cbn [fst snd]. rewrite IH by (exists c0; auto). reflexivity.
  Qed.
End PartyCiphers.

Lemma all_or_bad (b : sealbox) pk sk cs :
  (exists c, In c cs /\ shows b pk sk c = None) \/ exists opens, map (shows b pk sk) cs = map Some opens.
Proof.
  induction cs as [|c cs IH]; [right; exists []; reflexivity|].
  destruct (shows b pk sk c) as [x|] eqn:E; [|left; exists c; split; [left; reflexivity|exact E]].
  destruct IH as [(c0 & Hin & E0)|(opens & E0)]; [left; exists c0; split; [right; exact Hin|exact E0]|].
  right. exists (x :: opens). cbn. rewrite E, E0. reflexivity.
Qed.

Lemma party_offline_any b rng keys rows k cf n :
  good_party rng keys rows k cf -> good_party_keys keys rows k cf ->
  (forall pk sk, In (pk, sk) keys -> box_ok b pk sk) -> box_sizes b (pf_pkey cf) (pf_skey cf) ->
  (length keys <= 255)%nat -> (k + 1 < length keys)%nat ->
  (1 <= rows)%nat -> Z.of_nat rows <= 2 ^ 31 - 1 -> Z.of_nat (n + noise_total rows cf) < 2 ^ 32 ->
  let N := noise_total rows cf in let m := (length keys - k - 1)%nat in
  let nqs := map q_of (noise_items rows m cf n) in
  exists ls ncs data, ls_initialize rng (pf_seed cf) (N + n) = Ok ls /\ ls_ok (N + n) ls /\
    length ncs = N /\ sized (124 * m) ncs /\ length (bt_data data) = (N + n)%nat /\
    (forall i q j, nth_error nqs i = Some q -> ls_shuffle ls i = Ok j -> nth_error (bt_data data) j = Some q) /\
    forall cs, length cs = n -> Forall (bytes (124 * S m)) cs ->
      party_offline b true rng cf (Z.of_nat n) cs =
      match peel_all (install_one b true cf) (qs_initialize_state qs_new false) cs with
      | Ok (p, outs) => Ok (Z.of_nat (N + n), pick [] (ncs ++ outs) (ls_forward ls), between N n ls p data)
      | Abort => Abort | UB => UB | NoFuel => NoFuel
      end.
Proof.
  intros G GK Hb Hsz H255 Hk Hr1 Hr Ht N m nqs. subst nqs.
  set (noise := noise_items rows m cf n).
  assert (Lnoise : length noise = N) by apply noise_items_length.
  destruct (create_noise_spec b rng keys rows k cf n G GK Hb H255 Hk Hr Ht)
    as (ns0 & cb & ns & ncs & gap & rest & E0 & E1 & R1 & B1 & B2 & Lr & Fn & Q).
  fold m noise in E1, B1, B2, Lr, Fn, Q.
  destruct (ls_initialize_spec rng (pf_seed cf) (N + n) (gp_rng _ _ _ _ _ G)) as (ls & El & O); [unfold N; lia|].
  fold (ls_ok (N + n) ls) in O.
  destruct (noise_queries_spec rng keys rows k cf (N + n) ls noise (repeat no_item n) ns G O) as (qs & Eqs & Fq).
  { rewrite app_length, repeat_length, Lnoise. reflexivity. }
  { unfold N in *. lia. }
  { apply noise_items_keys. }
  { exact Q. }
  assert (Lncs : length ncs = N) by (rewrite (Forall2_length' _ _ _ Fn); exact Lnoise).
  exists ls, ncs, qs. split; [exact El|]. split; [exact O|]. split; [exact Lncs|].
  split. { destruct R1 as (_ & S1 & _). rewrite B1 in S1. exact S1. }
  destruct Fq as (Lq & Fq). rewrite map_length, app_length, repeat_length, Lnoise in Lq.
  split; [exact Lq|]. split.
  { intros i q j Ni Ej.
    assert (Hi : (i < N)%nat).
    { rewrite <- Lnoise. rewrite <- (map_length q_of). apply nth_error_Some. congruence. }
    apply (Fq i q j); [lia| |exact Ej]. rewrite map_app, nth_error_app1; [exact Ni|]. rewrite map_length. lia. }
  intros cs Lc Bc.
  assert (Sc : Forall (fun c => length c = (124 * S m)%nat) cs) by (eapply Forall_impl; [|exact Bc]; intros c [L _]; exact L).
  unfold party_offline. rewrite (party_check_spec rng keys rows k cf G Hk). cbn [bind].
  rewrite (noise_samples_spec rng keys rows k cf G Hr1) by lia. cbn [bind]. fold N.
  assert (Esh : shuffled_count (Z.of_nat n) (Z.of_nat N) = Z.of_nat (N + n)).
  { unfold shuffled_count. rewrite w32_id by (unfold u32, N; lia). lia. }
  rewrite Esh, !Nat2Z.id. fold N in E0, E1. rewrite E0. cbn [bind]. rewrite E1. cbn [bind fst snd].
  unfold collect_ciphers. rewrite Nat2Z.id, recv_all by exact Lc. cbn [bind]. rewrite push_longs.
  destruct (push_all_spec (124 * m) (124 * S m) (map inr cs) cb ncs gap [] rest R1 B1 B2) as (cb2 & E2 & R2 & B3 & B4).
  { rewrite lefts_inr. constructor. }
  { rewrite rights_inr. exact Sc. }
  { rewrite lefts_inr. cbn. lia. }
  { rewrite rights_inr. lia. }
  rewrite E2. cbn [bind]. rewrite lefts_inr, rights_inr in R2. cbn [app] in R2. rewrite app_nil_r in R2.
  rewrite El. cbn [bind]. unfold install_secrets. rewrite Nat2Z.id.
  assert (En : as_party_id (Z.of_nat (pf_parties cf) - Z.of_nat (pf_party cf)) = S m).
  { rewrite (gp_party _ _ _ _ _ G), (gp_parties _ _ _ _ _ G), as_party_id_sub by lia. unfold m. lia. }
  pose proof (process_spec (install_one b true cf) (124 * m) (124 * S m) ltac:(lia) ltac:(lia) cs) as PS.
  specialize (PS ltac:(intros st c junk Hc; rewrite Forall_forall in Bc;
    rewrite (install_one_shows b cf m En Hsz true st c junk (Bc _ Hc));
    rewrite <- (app_nil_r c) at 2; rewrite (install_one_shows b cf m En Hsz true st c [] (Bc _ Hc)); reflexivity)).
  assert (Hlen : forall (st : qstate) c st' o, In c cs -> install_one b true cf st c = Ok (st', o) -> length o = (124 * m)%nat).
  { intros st c st' o Hc Ec. rewrite Forall_forall in Bc. rewrite <- (app_nil_r c) in Ec.
    rewrite (install_one_shows b cf m En Hsz true st c [] (Bc _ Hc)) in Ec.
    destruct (shows b (pf_pkey cf) (pf_skey cf) c) as [[s inner]|] eqn:Es; [|discriminate].
    destruct (qs_store true st s); cbn [bind] in Ec; try discriminate. inversion Ec; subst.
    apply (shows_inner b cf m En Hsz c s o (Bc _ Hc) Es). }
  specialize (PS Hlen n cb2 (qs_initialize_state qs_new false) ncs _ _ ltac:(lia) R2 B3 B4).
  destruct (peel_all (install_one b true cf) (qs_initialize_state qs_new false) cs) as [[p outs]| | |];
    [|rewrite PS; reflexivity..].
  destruct PS as (cb3 & gap' & E3 & R3 & B5 & B6 & Lo). rewrite E3. cbn [bind fst snd].
  assert (Lshort : length (ncs ++ outs) = (N + n)%nat) by (rewrite app_length; lia).
  rewrite (send_spec (N + n) ls cb3 (ncs ++ outs) gap' _ O R3 Lshort). cbn [bind].
  rewrite Eqs. reflexivity.
Qed.

(** ** Queries *)
Lemma handle_load p t q : handle_query (qs_load p t) q = handle_query p q.
Proof. reflexivity. Qed.

Lemma forward_any_ok n ls (nqs : list query) : ls_ok n ls -> forall rest hrest done hdone p data right,
  (length nqs + length done + length rest = n)%nat -> length hdone = length done ->
  Forall2 (fun q h => handle_query p q = Ok (h, qs_load p (q_tag q))) rest hrest ->
  filled ls (length nqs + length done) (nqs ++ hdone ++ hrest) data ->
  exists p' data', fold_res (fun s q =>
    let '(read, p, tags, qs) := s in
    let* tags' := bt_push tags (q_tag q) in
    let* target := ls_shuffle ls read in
    let* h := handle_query p q in
    let* qs' := bt_set qs target (fst h) in
    Ok (S read, snd h, tags', qs')) rest
      ((length nqs + length done)%nat, p,
       {| bt_data := map q_tag done ++ repeat 0 (length rest); bt_right := length done |},
       {| bt_data := data; bt_right := right |}) =
    Ok (n, p', {| bt_data := map q_tag (done ++ rest); bt_right := length (done ++ rest) |},
        {| bt_data := data'; bt_right := right |}) /\
    qs_sim p' = qs_sim p /\ qs_map p' = qs_map p /\
    filled ls n (nqs ++ hdone ++ hrest) data'.
Proof.
  intros O. induction rest as [|q rest IH]; intros hrest done hdone p data right L Lh F Fd.
  - inversion F; subst hrest. cbn [fold_res length repeat] in *. rewrite !app_nil_r in *.
    exists p, data. replace (length nqs + length done)%nat with n in * by lia. auto.
  - inversion F as [|q' h l' hrest' E1 F' Eq1 Eq2]; subst q' l' hrest. cbn [length] in L.
    set (src := nqs ++ hdone ++ h :: hrest') in *.
    assert (Lsrc : length src = n).
    { unfold src. rewrite !app_length. cbn [length]. rewrite <- (Forall2_length' _ _ _ F'). lia. }
    assert (Nk : nth_error src (length nqs + length done) = Some h).
    { unfold src. rewrite nth_error_app2 by lia. rewrite nth_error_app2 by lia.
      replace (length nqs + length done - length nqs - length hdone)%nat with 0%nat by lia. reflexivity. }
    destruct (filled_set n ls _ src data _ O Lsrc Fd Nk) as (j & Ej & Es & Fd').
    cbn [fold_res length].
    pose proof (push_rest (map q_tag done) (q_tag q) (map q_tag rest) 0 (length done)
                  ltac:(rewrite map_length; reflexivity)) as Hp.
    rewrite (map_length q_tag rest) in Hp. rewrite Hp. cbn [bind].
    rewrite Ej. cbn [bind]. rewrite E1. cbn [bind fst snd].
    unfold bt_set at 1. cbn [bt_data bt_right]. rewrite Es. cbn [bind].
    destruct (IH hrest' (done ++ [q]) (hdone ++ [h]) (qs_load p (q_tag q)) (upd data j h) right) as (p' & data' & E & S1 & M1 & F'').
    + rewrite app_length. cbn [length]. lia.
    + rewrite !app_length. cbn [length]. lia.
    + exact F'.
    + rewrite <- app_assoc. cbn [app]. rewrite app_length. cbn [length].
      replace (length nqs + (length done + 1))%nat with (S (length nqs + length done)) by lia. exact Fd'.
    + exists p', data'. rewrite <- !app_assoc in *. cbn [app] in *. split; [|auto].
      rewrite <- E. clear. rewrite map_app, !app_length, map_length. cbn [map length].
      do 3 f_equal; [f_equal; lia|rewrite <- app_assoc; reflexivity].
Qed.

Lemma forward_any_bad n ls N : ls_ok n ls -> forall rest done p data right,
  (N + length done + length rest = n)%nat -> length data = n ->
  (forall q, In q rest -> (exists h, handle_query p q = Ok (h, qs_load p (q_tag q))) \/ handle_query p q = UB) ->
  (exists q, In q rest /\ handle_query p q = UB) ->
  fold_res (fun s q =>
    let '(read, p, tags, qs) := s in
    let* tags' := bt_push tags (q_tag q) in
    let* target := ls_shuffle ls read in
    let* h := handle_query p q in
    let* qs' := bt_set qs target (fst h) in
    Ok (S read, snd h, tags', qs')) rest
      ((N + length done)%nat, p,
       {| bt_data := map q_tag done ++ repeat 0 (length rest); bt_right := length done |},
       {| bt_data := data; bt_right := right |}) = UB.
Proof.
  intros O. induction rest as [|q rest IH]; intros done p data right L Ld Hall (q0 & Hin & Hq); [contradiction|].
  cbn [length] in L. cbn [fold_res length].
  pose proof (push_rest (map q_tag done) (q_tag q) (map q_tag rest) 0 (length done)
                ltac:(rewrite map_length; reflexivity)) as Hp.
  rewrite (map_length q_tag rest) in Hp. rewrite Hp. cbn [bind].
  destruct (ls_ok_fwd n ls (N + length done) O) as (j & Hj & Ej & _); [lia|]. rewrite Ej. cbn [bind].
  destruct (Hall q (or_introl eq_refl)) as [(h & Eh)|Eh]; rewrite Eh; cbn [bind fst snd]; [|reflexivity].
  destruct Hin as [->|Hin]; [congruence|].
  unfold bt_set at 1. cbn [bt_data bt_right]. rewrite set_Ok by lia. cbn [bind].
  specialize (IH (done ++ [q]) (qs_load p (q_tag q)) (upd data j h) right).
  rewrite <- IH.
  - clear. rewrite map_app, !app_length, map_length. cbn [map length].
    do 3 f_equal. replace (N + (length done + 1))%nat with (S (N + length done)) by lia. reflexivity.
  - rewrite app_length. cbn [length]. lia.
  - rewrite length_upd. exact Ld.
  - intros q' Hq'. apply (Hall q'). right. exact Hq'.
  - exists q0. split; [exact Hin|exact Hq].
Qed.

(** A store holding exactly the given secrets. *)
Definition stores (p : qstate) (l : list osecret) : Prop :=
  qs_sim p = false /\
  (forall o, In o l -> find_tag (qs_map p) (o_tag o) = Some (snd (entry o))) /\
  (forall t, ~ In t (map o_tag l) -> find_tag (qs_map p) t = None).
Lemma stores_handle p l q s : stores p l -> secret_of l q s -> handle_query p q = Ok (handled q s, qs_load p (q_tag q)).
Proof.
  intros (S0 & K & _) (Hin & Ht). unfold handle_query, qs_next_tag, qs_incremental, qs_load. cbn [qs_it].
  rewrite S0, <- Ht, (K s Hin). reflexivity.
Qed.
Lemma stores_handle_bad p l q : stores p l -> ~ In (q_tag q) (map o_tag l) -> handle_query p q = UB.
Proof.
  intros (S0 & _ & K) H. unfold handle_query, qs_next_tag, qs_incremental, qs_load. cbn [qs_it].
  rewrite S0, (K _ H). reflexivity.
Qed.
Lemma stores_response p l q s old resp : stores p l -> secret_of l q s -> bytes 52 (o_preshare s) -> bytes 52 resp -> bytes 52 old ->
  handle_response p (q_tag q) resp old = Ok (xorl resp (o_preshare s)).
Proof.
  intros (S0 & K & _) (Hin & Ht) B1 B2 B3. unfold handle_response, qs_preshare. rewrite S0, <- Ht, (K s Hin). cbn [bind].
  apply reconstruct_to; assumption.
Qed.

Lemma known_or_not l q : (exists s, secret_of l q s) \/ ~ In (q_tag q) (map o_tag l).
Proof.
  destruct (in_dec Z.eq_dec (q_tag q) (map o_tag l)) as [H|H]; [left|right; exact H].
  apply in_map_iff in H. destruct H as (s & E & Hs). exists s. split; [exact Hs|exact E].
Qed.

Lemma party_forward_any N n ls p data l nqs : ls_ok (N + n) ls -> stores p l -> length nqs = N ->
  length (bt_data data) = (N + n)%nat ->
  (forall i q j, nth_error nqs i = Some q -> ls_shuffle ls i = Ok j -> nth_error (bt_data data) j = Some q) ->
  forall qs, length qs = n ->
  ((exists q, In q qs /\ ~ In (q_tag q) (map o_tag l)) -> party_forward (between N n ls p data) qs = UB) /\
  (forall secs, Forall2 (secret_of l) qs secs ->
     exists rp', party_forward (between N n ls p data) qs =
         Ok (rp', pick zero_query (nqs ++ map (fun x => handled (fst x) (snd x)) (combine qs secs)) (ls_backward ls)) /\
       rp_noise rp' = Z.of_nat N /\ rp_input rp' = Z.of_nat n /\ rp_shuffled rp' = Z.of_nat (N + n) /\ rp_shuffler rp' = ls /\
       rp_tags rp' = {| bt_data := map q_tag qs; bt_right := n |} /\ stores (rp_state rp') l).
Proof.
  intros O K Ln Ld Hn qs Lq. destruct data as [data right]. cbn [bt_data] in *. unfold party_forward, between.
  cbn [rp_noise rp_input rp_shuffled rp_state rp_shuffler rp_tags rp_queries].
  replace (Z.to_nat (Z.of_nat (N + n) - Z.of_nat N)) with n by lia. rewrite recv_all by exact Lq. cbn [bind].
  rewrite Nat2Z.id. unfold bt_initialize. split.
  - intros (q0 & Hin & Hq).
    pose proof (forward_any_bad (N + n) ls N O qs [] p data right) as H. cbn [map app length] in H. rewrite Nat.add_0_r, Lq in H.
    rewrite H; [reflexivity|reflexivity|exact Ld| |].
    + intros q _. destruct (known_or_not l q) as [(s & Hs)|Hs]; [left; eexists; apply (stores_handle p l); eassumption|
        right; apply (stores_handle_bad p l); assumption].
    + exists q0. split; [exact Hin|apply (stores_handle_bad p l); assumption].
  - intros secs F.
    set (hs := map (fun x => handled (fst x) (snd x)) (combine qs secs)).
    assert (Fh : Forall2 (fun q h => handle_query p q = Ok (h, qs_load p (q_tag q))) qs hs).
    { unfold hs. clear -F K. induction F as [|q s qs secs H F IH]; cbn [combine map fst snd]; constructor; [|exact IH].
      apply (stores_handle p l); assumption. }
    pose proof (Forall2_length' _ _ _ Fh) as Lhs.
    destruct (forward_any_ok (N + n) ls nqs O qs hs [] [] p data right) as (p' & data' & E & S1 & M1 & F'').
    + cbn [length]. lia.
    + reflexivity.
    + exact Fh.
    + cbn [length app]. rewrite Nat.add_0_r. split; [rewrite app_length; lia|].
      intros i x j Hi Ni Ej. apply (Hn i x j); [|exact Ej]. rewrite nth_error_app1 in Ni by exact Hi. exact Ni.
    + cbn [map app length] in E. rewrite Nat.add_0_r, Ln, Lq in E. rewrite E. cbn [bind]. eexists. split.
      * f_equal. f_equal. unfold bt_all; cbn [bt_data app] in *. apply (filled_all _ (N + n)); [exact O| |exact F''].
        rewrite app_length. lia.
      * cbn [rp_noise rp_input rp_shuffled rp_state rp_shuffler rp_tags]. repeat (split; [reflexivity|]).
        destruct K as (K1 & K2 & K3). unfold stores. rewrite S1, M1. auto.
Qed.

(** ** Responses *)
Definition returned_to (ls : lshuffler) (N : nat) (masks : list (list Z)) (all : list (list Z)) (read : nat) (out : list (list Z)) : Prop :=
  length out = length masks /\ Forall (bytes 52) out /\
  forall i mk j r, nth_error masks i = Some mk -> ls_shuffle ls (N + i) = Ok j -> (j < read)%nat -> nth_error all j = Some r ->
    nth_error out i = Some (xorl r mk).

Lemma backward_gen n ls p N qs secs all : ls_ok n ls ->
  Forall2 (fun q s => forall resp old, bytes 52 resp -> bytes 52 old -> handle_response p (q_tag q) resp old = Ok (xorl resp (o_preshare s))) qs secs ->
  Forall (fun s => bytes 52 (o_preshare s)) secs -> Forall (bytes 52) all -> length all = n ->
  (N + length qs = n)%nat -> forall resps read out right,
  resps = skipn read all -> (read <= n)%nat ->
  returned_to ls N (map o_preshare secs) all read out ->
  exists out', fold_res (fun s resp =>
    let '(read, out) := s in
    let* target := ls_deshuffle ls read in
    if (Z.of_nat target <? Z.of_nat N) then Ok (S read, out)
    else
      let target_index := (target - Z.to_nat (Z.of_nat N))%nat in
      let* old := bt_get out target_index in
      let* tag := bt_get {| bt_data := map q_tag qs; bt_right := length qs |} target_index in
      let* v := handle_response p tag resp old in
      let* out' := bt_set out target_index v in
      Ok (S read, out')) resps (read, {| bt_data := out; bt_right := right |}) =
    Ok (n, {| bt_data := out'; bt_right := right |}) /\ returned_to ls N (map o_preshare secs) all n out'.
Proof.
  intros O F Bs Ba La Ln. rewrite Nat2Z.id. pose proof (Forall2_length' _ _ _ F) as Lsec.
  induction resps as [|x resps IH]; intros read out right Er Hread R; cbn [fold_res].
  - exists out. assert (read = n).
    { apply (f_equal (@length _)) in Er. rewrite skipn_length in Er. cbn in Er. lia. }
    subst read. auto.
  - assert (Hlt : (read < n)%nat).
    { apply (f_equal (@length _)) in Er. rewrite skipn_length in Er. cbn in Er. lia. }
    assert (Nx : nth_error all read = Some x).
    { rewrite <- (Nat.add_0_r read), <- nth_error_skipn, <- Er. reflexivity. }
    assert (Er' : resps = skipn (S read) all).
    { change (S read) with (1 + read)%nat. rewrite <- (skipn_skipn' all 1 read), <- Er. reflexivity. }
    assert (Bx : bytes 52 x) by (rewrite Forall_forall in Ba; apply Ba; eapply nth_error_In; eauto).
    destruct (ls_ok_bwd n ls read O) as (i & Hi & Ei & Ni); [lia|]. rewrite Ei. cbn [bind].
    destruct R as (Lo & Fo & Ro). rewrite map_length in Lo.
    destruct (Z.ltb_spec (Z.of_nat i) (Z.of_nat N)) as [Hl|Hge]; cbn [bind].
    + apply IH; [exact Er'|lia|].
      split; [rewrite map_length; exact Lo|]. split; [exact Fo|]. intros i' mk j' r Nm E Hj Nr.
      destruct (Nat.eq_dec j' read) as [->|Hne]; [|apply (Ro i' mk j'); [assumption|assumption|lia|assumption]].
      exfalso. apply get_Ok in E. apply (proj1 (proj2 (proj2 (proj2 (proj2 O))) _ _)) in E.
      apply get_Ok in Ei. rewrite E in Ei. inversion Ei; subst. lia.
    + destruct (get_lt qs (i - N)) as (q & _ & Nq); [lia|].
      destruct (get_lt secs (i - N)) as (s & _ & Ns); [lia|].
      destruct (get_lt out (i - N)) as (old & Eold & Nold); [lia|].
      unfold bt_get. cbn [bt_data]. rewrite Eold. cbn [bind].
      assert (get (map q_tag qs) (i - N) = Ok (q_tag q)) as -> by (apply get_Ok; rewrite nth_error_map, Nq; reflexivity).
      cbn [bind].
      assert (Sq : forall resp old, bytes 52 resp -> bytes 52 old -> handle_response p (q_tag q) resp old = Ok (xorl resp (o_preshare s))).
      { clear -F Nq Ns. revert Nq Ns. generalize (i - N)%nat as a. induction F as [|q' s' qs secs H F IH]; intros [|a] Nq Ns; try discriminate.
        - inversion Nq; inversion Ns; subst. exact H.
        - exact (IH a Nq Ns). }
      assert (Bm : bytes 52 (o_preshare s)) by (rewrite Forall_forall in Bs; apply Bs; eapply nth_error_In; eauto).
      assert (Bold : bytes 52 old) by (rewrite Forall_forall in Fo; apply Fo; eapply nth_error_In; eauto).
      rewrite (Sq x old Bx Bold). cbn [bind].
      unfold bt_set. cbn [bt_data bt_right]. rewrite set_Ok by lia. cbn [bind].
      apply IH; [exact Er'|lia|].
      split; [rewrite length_upd, map_length; exact Lo|].
      split; [apply Forall_upd; [exact Fo|apply bytes_xorl; assumption]|].
      intros i' mk j' r Nm E Hj Nr. apply get_Ok in E.
      destruct (Nat.eq_dec j' read) as [->|Hne].
      * apply (proj1 (proj2 (proj2 (proj2 (proj2 O))) _ _)) in E. apply get_Ok in Ei. rewrite E in Ei.
        inversion Ei; subst i. replace (N + i' - N)%nat with i' in * by lia.
        rewrite nth_error_map, Ns in Nm. cbn in Nm. inversion Nm; subst mk. rewrite Nx in Nr. inversion Nr; subst r.
        apply nth_error_upd_eq. lia.
      * rewrite nth_error_upd_ne.
        -- apply (Ro i' mk j'); [assumption|apply get_Ok; exact E|lia|exact Nr].
        -- intros Heq. subst i'. replace (N + (i - N))%nat with i in E by lia. congruence.
Qed.

Lemma party_backward_gen N n ls rp' qs secs : ls_ok (N + n) ls -> length qs = n ->
  rp_noise rp' = Z.of_nat N -> rp_input rp' = Z.of_nat n -> rp_shuffled rp' = Z.of_nat (N + n) -> rp_shuffler rp' = ls ->
  rp_tags rp' = {| bt_data := map q_tag qs; bt_right := n |} -> Forall2 (fun q s => forall resp old, bytes 52 resp -> bytes 52 old -> handle_response (rp_state rp') (q_tag q) resp old = Ok (xorl resp (o_preshare s))) qs secs ->
  Forall (fun s => bytes 52 (o_preshare s)) secs ->
  forall resps, length resps = (N + n)%nat -> Forall (bytes 52) resps ->
  exists back, party_backward rp' resps = Ok back /\ length back = n /\
    forall i s j r, nth_error secs i = Some s -> ls_shuffle ls (N + i) = Ok j -> nth_error resps j = Some r ->
      nth_error back i = Some (xorl r (o_preshare s)).
Proof.
  intros O Lq E1 E2 E3 E4 E5 F Bs resps Lr Br. unfold party_backward. rewrite E1, E2, E3, E4, E5, !Nat2Z.id.
  rewrite recv_all by exact Lr. cbn [bind]. pose proof (Forall2_length' _ _ _ F) as Lsec.
  destruct (backward_gen (N + n) ls (rp_state rp') N qs secs resps O F Bs Br Lr ltac:(lia) resps 0%nat
    (repeat zero_response n) 0%nat eq_refl ltac:(lia)) as (out & E & R).
  { split; [rewrite repeat_length, map_length; lia|]. split; [apply Forall_bytes_zero|]. intros; lia. }
  rewrite Nat2Z.id in E. unfold bt_initialize.
  match goal with |- context [bind ?x _] => assert (x = Ok ((N + n)%nat, {| bt_data := out; bt_right := 0 |})) as -> end.
  { rewrite <- E. rewrite Lq. reflexivity. }
  cbn [bind snd]. unfold bt_all; cbn [bt_data]. destruct R as (Lo & _ & R). exists out. split; [reflexivity|].
  rewrite map_length in Lo. split; [lia|]. intros i s j r Ns Ej Nr. apply (R i (o_preshare s) j r); [|exact Ej| |exact Nr].
  - rewrite nth_error_map, Ns. reflexivity.
  - rewrite <- Lr. apply nth_error_Some. congruence.
Qed.
Lemma party_backward_any N n ls rp' l qs secs : ls_ok (N + n) ls -> length qs = n ->
  rp_noise rp' = Z.of_nat N -> rp_input rp' = Z.of_nat n -> rp_shuffled rp' = Z.of_nat (N + n) -> rp_shuffler rp' = ls ->
  rp_tags rp' = {| bt_data := map q_tag qs; bt_right := n |} -> stores (rp_state rp') l ->
  Forall2 (secret_of l) qs secs -> Forall (fun s => bytes 52 (o_preshare s)) secs ->
  forall resps, length resps = (N + n)%nat -> Forall (bytes 52) resps ->
  exists back, party_backward rp' resps = Ok back /\ length back = n /\
    forall i s j r, nth_error secs i = Some s -> ls_shuffle ls (N + i) = Ok j -> nth_error resps j = Some r ->
      nth_error back i = Some (xorl r (o_preshare s)).
Proof.
  intros O Lq E1 E2 E3 E4 E5 K F Bs. apply (party_backward_gen N n ls rp' qs secs); try assumption.
  clear - K F Bs. induction F as [|q s qs secs Hs F IH]; [constructor|]. inversion Bs; subst. constructor; [|apply IH; assumption].
  intros resp old B1 B2. apply (stores_response (rp_state rp') l q s old resp K Hs); assumption.
Qed.

(** ** Backend *)
Lemma backend_cipher_shows b a pk sk p c : box_sizes b pk sk -> bytes 124 c ->
  backend_handle_cipher b a pk sk p c =
  match shows b pk sk c with Some (s, _) => bs_store a p s | None => if a then Abort else UB end.
Proof.
  intros Hsz [L B]. unfold backend_handle_cipher, onion_decrypt. rewrite Csz. cbn [Nat.mul Nat.add].
  change ((124 <? SEALBYTES)%nat) with false. rewrite rd_Ok by lia. cbn [bind skipn].
  rewrite firstn_all2 by lia. unfold shows. destruct (box_open b pk sk c) as [plain|] eqn:Eo; [|destruct a; reflexivity].
  destruct (Hsz c plain B Eo) as [Lp _]. unfold SECRET_SIZE. rewrite rd_Ok by lia. cbn [bind skipn fst]. reflexivity.
Qed.

Lemma backend_fold_shows b a pk sk cs : box_sizes b pk sk -> Forall (bytes 124) cs -> forall opens p,
  map (shows b pk sk) cs = map Some opens ->
  fold_res (backend_handle_cipher b a pk sk) cs p = install_all_backend a p (map fst opens).
Proof.
  intros Hsz. induction 1 as [|c cs Hc F IH]; intros [|[s inner] opens] p E; try discriminate E; [reflexivity|].
  cbn [map] in E. inversion E as [[E1 E2]]. unfold install_all_backend. cbn [fold_res map fst].
  rewrite (backend_cipher_shows b a pk sk p c Hsz Hc), E1. destruct (bs_store a p s); cbn [bind]; try reflexivity.
  apply (IH opens). exact E2.
Qed.

Lemma backend_fold_bad b (a : bool) pk sk cs : box_sizes b pk sk -> Forall (bytes 124) cs -> forall p,
  (exists c, In c cs /\ shows b pk sk c = None) ->
  fold_res (backend_handle_cipher b a pk sk) cs p = if a then Abort else UB.
Proof.
  intros Hsz. induction 1 as [|c cs Hc F IH]; intros p (c0 & Hin & E0); [contradiction|].
  cbn [fold_res]. rewrite (backend_cipher_shows b a pk sk p c Hsz Hc).
  destruct (shows b pk sk c) as [[s inner]|] eqn:E; [|destruct a; reflexivity].
  destruct Hin as [->|Hin]; [congruence|].
  unfold bs_store, qs_store. cbn [o_tag]. destruct (find_tag (qs_map p) (o_tag s)).
  - destruct a; cbn [bind]; [reflexivity|]. apply IH. exists c0. auto.
  - cbn [bind]. apply IH. exists c0. auto.
Qed.

Lemma install_stores a l : NoDup (map o_tag l) ->
  exists p, install_all a (qs_initialize_state qs_new false) l = Ok p /\ stores p l.
Proof.
  intros Nd. destruct (install_spec a l (qs_initialize_state qs_new false) Nd) as (p & E & S1 & M1); [reflexivity|].
  exists p. split; [exact E|]. cbn [qs_initialize_state qs_sim qs_map qs_new] in *. split; [exact S1|]. rewrite M1. split.
  - intros o Ho. apply find_installed; assumption.
  - intros t Ht. apply find_tag_None. rewrite app_nil_r, map_rev, map_fst_entry. intros H. apply Ht. apply in_rev. exact H.
Qed.

Lemma pick_length {A} (d : A) src idx : length (pick d src idx) = length idx.
Proof. apply map_length. Qed.

Section Party.
  Variables (b : sealbox) (rng : rng_t) (keys : list (list Z * list Z)) (rows k : nat) (cf : pconf) (n : nat).
  Hypothesis H : honest_party b rng keys rows k cf n.
  Notation N := (noise_total rows cf).
  Notation m := (length keys - k - 1)%nat.
  Notation sh := (shows b (pf_pkey cf) (pf_skey cf)).

  Lemma honest_any : exists ls ncs data, ls_initialize rng (pf_seed cf) (N + n) = Ok ls /\ ls_ok (N + n) ls /\
    length ncs = N /\ sized (124 * m) ncs /\ length (bt_data data) = (N + n)%nat /\
    (forall i q j, nth_error (map q_of (noise_items rows m cf n)) i = Some q -> ls_shuffle ls i = Ok j -> nth_error (bt_data data) j = Some q) /\
    forall cs, length cs = n -> Forall (bytes (124 * (length keys - k))) cs ->
      ((exists c, In c cs /\ sh c = None) -> party_offline b true rng cf (Z.of_nat n) cs = Abort) /\
      forall opens, map sh cs = map Some opens ->
        (~ NoDup (map o_tag (map fst opens)) -> party_offline b true rng cf (Z.of_nat n) cs = Abort) /\
        (NoDup (map o_tag (map fst opens)) -> exists p, stores p (map fst opens) /\
           Forall (fun s => bytes 52 (o_preshare s)) (map fst opens) /\
           party_offline b true rng cf (Z.of_nat n) cs =
             Ok (Z.of_nat (N + n), pick [] (ncs ++ map snd opens) (ls_forward ls), between N n ls p data)).
  Proof using All.
    destruct H as [G GK Hb Hsz [H255 Hk] [Hr1 Hr] Ht].
    destruct (party_offline_any b rng keys rows k cf n G GK Hb Hsz H255 Hk Hr1 Hr Ht)
      as (ls & ncs & data & El & O & L1 & S1 & L2 & Fq & E).
    exists ls, ncs, data. repeat (split; [assumption|]). intros cs Lc Bc.
    assert (Bc' : Forall (bytes (124 * S m)) cs).
    { replace (S m) with (length keys - k)%nat by lia. exact Bc. }
    assert (En : as_party_id (Z.of_nat (pf_parties cf) - Z.of_nat (pf_party cf)) = S m).
    { rewrite (gp_party _ _ _ _ _ G), (gp_parties _ _ _ _ _ G), as_party_id_sub by lia. lia. }
    rewrite (E cs Lc Bc'). split.
    - intros Hbad. rewrite (peel_bad b cf m En Hsz cs Bc' _ Hbad). reflexivity.
    - intros opens Eo. rewrite (peel_shows b cf m En Hsz true cs Bc' opens _ Eo). split.
      + intros Nd. rewrite (proj1 (c38_dup _ Nd)). reflexivity.
      + intros Nd. destruct (install_stores true _ Nd) as (p & Ep & Sp). rewrite Ep. exists p. split; [exact Sp|]. split; [|reflexivity].
        apply Forall_forall. intros s Hs. apply in_map_iff in Hs. destruct Hs as ([s' inner] & <- & Hin). cbn [fst].
        assert (Hm : In (Some (s', inner)) (map sh cs)) by (rewrite Eo; apply in_map; exact Hin).
        apply in_map_iff in Hm. destruct Hm as (c & Ec & Hc). rewrite Forall_forall in Bc'.
        apply (shows_inner b cf m En Hsz c s' inner (Bc' _ Hc) Ec).
  Qed.

  Lemma c60_party ls : ls_initialize rng (pf_seed cf) (N + n) = Ok ls ->
    exists ncs, length ncs = N /\ Forall (fun c => length c = (124 * m)%nat) ncs /\
    forall cs, length cs = n -> Forall (bytes (124 * (length keys - k))) cs ->
      ((exists c, In c cs /\ sh c = None) -> party_offline b true rng cf (Z.of_nat n) cs = Abort) /\
      forall opens, map sh cs = map Some opens ->
        (~ NoDup (map (fun x => o_tag (fst x)) opens) -> party_offline b true rng cf (Z.of_nat n) cs = Abort) /\
        (NoDup (map (fun x => o_tag (fst x)) opens) -> exists cs' rp,
           party_offline b true rng cf (Z.of_nat n) cs = Ok (Z.of_nat (N + n), cs', rp) /\ length cs' = (N + n)%nat /\
           forall i j, ls_shuffle ls i = Ok j -> nth_error cs' i = nth_error (ncs ++ map snd opens) j).
  Proof using All.
    intros El. destruct honest_any as (ls' & ncs & data & El' & O & L1 & S1 & L2 & Fq & E).
    rewrite El in El'. inversion El'; subst ls'. exists ncs. split; [exact L1|]. split; [exact S1|].
    intros cs Lc Bc. destruct (E cs Lc Bc) as (E1 & E2). split; [exact E1|].
    intros opens Eo. destruct (E2 opens Eo) as (E3 & E4). rewrite map_map in E3, E4. split; [exact E3|].
    intros Nd. destruct (E4 Nd) as (p & _ & _ & Ep). eexists _, _. split; [exact Ep|]. split.
    - rewrite pick_length. apply O.
    - intros i j Ej. pose proof Ej as Ej'. apply get_Ok in Ej.
      assert (Hj : (j < N + n)%nat) by (apply (ls_forward_lt (N + n) ls j O); eapply nth_error_In; exact Ej).
      assert (Lo : length opens = n) by (rewrite <- Lc, <- (map_length sh cs), Eo, map_length; reflexivity).
      destruct (get_lt (ncs ++ map snd opens) j) as (x & _ & Nx); [rewrite app_length, map_length; lia|].
      rewrite (pick_nth [] _ _ i j x Ej Nx). symmetry. exact Nx.
  Qed.

  Lemma c61_party ls : ls_initialize rng (pf_seed cf) (N + n) = Ok ls ->
    exists nqs, length nqs = N /\
    forall cs opens count cs' rp, length cs = n -> Forall (bytes (124 * (length keys - k))) cs ->
      party_offline b true rng cf (Z.of_nat n) cs = Ok (count, cs', rp) -> map sh cs = map Some opens ->
      forall qs, length qs = n ->
        ((exists q, In q qs /\ ~ In (q_tag q) (map (fun x => o_tag (fst x)) opens)) -> party_forward rp qs = UB) /\
        (forall secs, Forall2 (secret_of (map fst opens)) qs secs -> exists rp' out,
           party_forward rp qs = Ok (rp', out) /\ length out = (N + n)%nat /\
           (forall i j, ls_shuffle ls i = Ok j ->
              nth_error out j = nth_error (nqs ++ map (fun x => handled (fst x) (snd x)) (combine qs secs)) i) /\
           forall resps, length resps = (N + n)%nat -> Forall (bytes 52) resps -> exists back,
             party_backward rp' resps = Ok back /\ length back = n /\
             forall i s j r, nth_error secs i = Some s -> ls_shuffle ls (N + i) = Ok j -> nth_error resps j = Some r ->
               nth_error back i = Some (xorl r (o_preshare s))).
  Proof using All.
    intros El. destruct honest_any as (ls' & ncs & data & El' & O & L1 & S1 & L2 & Fq & E).
    rewrite El in El'. inversion El'; subst ls'. clear El'.
    set (nqs := map q_of (noise_items rows m cf n)) in *.
    assert (Lnq : length nqs = N) by (unfold nqs; rewrite map_length; apply noise_items_length).
    exists nqs. split; [exact Lnq|].
    intros cs opens count cs' rp Lc Bc Er Eo qs Lq. destruct (E cs Lc Bc) as (_ & E2). destruct (E2 opens Eo) as (E3 & E4).
    destruct (ListDec.NoDup_dec Z.eq_dec (map o_tag (map fst opens))) as [Nd|Nd]; [|rewrite (E3 Nd) in Er; discriminate].
    destruct (E4 Nd) as (p & Sp & Bp & Ep). rewrite Ep in Er. inversion Er; subst rp. clear Er.
    destruct (party_forward_any N n ls p data (map fst opens) nqs O Sp Lnq L2 Fq qs Lq) as (Fbad & Fok). split.
    - rewrite <- map_map with (f := fst) (g := o_tag). exact Fbad.
    - intros secs Fs. destruct (Fok secs Fs) as (rp' & Ef & R1 & R2 & R3 & R4 & R5 & R6).
      eexists rp', _. split; [exact Ef|]. split; [rewrite pick_length; apply O|]. split.
      + intros i j Ej. pose proof Ej as Ej'. apply get_Ok in Ej'. apply (proj1 (proj2 (proj2 (proj2 (proj2 O))) _ _)) in Ej'.
        assert (Hi : (i < N + n)%nat).
        { apply get_Ok in Ej. destruct O as (Lf & _). rewrite <- Lf. apply nth_error_Some. congruence. }
        pose proof (Forall2_length' _ _ _ Fs) as Lsec.
        destruct (get_lt (nqs ++ map (fun x => handled (fst x) (snd x)) (combine qs secs)) i) as (x & _ & Nx).
        { rewrite app_length, map_length, combine_length. lia. }
        rewrite (pick_nth zero_query _ _ j i x Ej' Nx). symmetry. exact Nx.
      + apply (party_backward_any N n ls rp' (map fst opens) qs secs); try assumption.
        apply Forall_forall. intros s Hs. rewrite Forall_forall in Bp. apply Bp.
        clear -Fs Hs. induction Fs as [|q s' qs secs [Hin _] Fs IH]; [contradiction|]. destruct Hs as [->|Hs]; auto.
  Qed.
End Party.

Lemma c60_backend b a pk sk cs : box_sizes b pk sk -> Forall (bytes 124) cs ->
  ((exists c, In c cs /\ shows b pk sk c = None) ->
     backend_offline b a pk sk (Z.of_nat (length cs)) cs = if a then Abort else UB) /\
  forall opens, map (shows b pk sk) cs = map Some opens ->
    backend_offline b a pk sk (Z.of_nat (length cs)) cs =
      install_all_backend a (qs_initialize_state qs_new false) (map fst opens) /\
    (~ NoDup (map (fun x => o_tag (fst x)) opens) -> backend_offline b true pk sk (Z.of_nat (length cs)) cs = Abort).
Proof.
  intros Hsz Bc. unfold backend_offline. rewrite Nat2Z.id, recv_all by reflexivity. cbn [bind]. split.
  - apply backend_fold_bad; assumption.
  - intros opens Eo. rewrite !(backend_fold_shows b _ pk sk cs Hsz Bc opens _ Eo). split; [reflexivity|].
    intros Nd. apply c38_dup. rewrite map_map. exact Nd.
Qed.

Definition stores_last (p : qstate) (l : list osecret) : Prop :=
  qs_sim p = false /\
  (forall o, In o l -> exists nx, find_tag (qs_map p) (o_tag o) = Some {| st_next := nx; st_share := o_share o; st_pre := o_preshare o |}) /\
  (forall t, ~ In t (map o_tag l) -> find_tag (qs_map p) t = None).

Lemma install_stores_last a l : NoDup (map o_tag l) ->
  exists p, install_all_backend a (qs_initialize_state qs_new false) l = Ok p /\ stores_last p l.
Proof.
  intros Nd. rewrite bs_install. set (l' := map _ l).
  assert (T : map o_tag l' = map o_tag l) by (unfold l'; rewrite map_map; reflexivity).
  destruct (install_stores a l') as (p & E & S1 & S2 & S3); [rewrite T; exact Nd|].
  exists p. split; [exact E|]. split; [exact S1|]. split.
  - intros o Ho. exists 0. specialize (S2 {| o_tag := o_tag o; o_next := 0; o_share := o_share o; o_preshare := o_preshare o |}).
    apply S2. unfold l'. apply in_map_iff. exists o. auto.
  - intros t Ht. apply S3. rewrite T. exact Ht.
Qed.

Lemma backend_query_ok db junk p l q s : stores_last p l -> Forall wf_response db -> bytes 52 junk -> secret_of l q s ->
  bytes 52 (o_preshare s) ->
  backend_handle_query db junk p q =
  let key := incremental_reconstruct (q_tally q) (o_share s) in
  match nth_error db (Z.to_nat key) with
  | Some row => Ok (key, xorl (enc_response row) (o_preshare s), qs_load p (q_tag q))
  | None => UB
  end.
Proof.
  intros (S0 & K & _) F J (Hin & Ht) B. unfold backend_handle_query, qs_incremental, bs_preshare, qs_load. cbn [qs_it].
  destruct (K s Hin) as (nx & Ek). rewrite S0, <- Ht, Ek. cbn [ptr bind st_share st_pre].
  unfold db_lookup, get. destruct (nth_error db _) as [r|] eqn:Er; cbn [bind]; [|reflexivity].
  rewrite reconstruct_to; [reflexivity| |exact B|exact J].
  apply bytes_enc_response. rewrite Forall_forall in F. apply F. eapply nth_error_In; exact Er.
Qed.
Lemma backend_query_bad db junk p l q : stores_last p l -> ~ In (q_tag q) (map o_tag l) -> backend_handle_query db junk p q = UB.
Proof.
  intros (S0 & _ & K) Ht. unfold backend_handle_query, qs_incremental, qs_load. cbn [qs_it]. rewrite S0, (K _ Ht). reflexivity.
Qed.

Lemma backend_any db junk l : Forall wf_response db -> bytes 52 junk -> Forall (fun s => bytes 52 (o_preshare s)) l ->
  forall qs p keys resps, stores_last p l ->
  let loop := fold_res (fun s q =>
    let '(keys, resps, p) := s in
    let* h := backend_handle_query db junk p q in
    let '(key, resp, p') := h in
    Ok (keys ++ [key], resps ++ [resp], p')) qs (keys, resps, p) in
  ((exists q, In q qs /\ ~ In (q_tag q) (map o_tag l)) -> loop = UB) /\
  (forall secs, Forall2 (secret_of l) qs secs ->
     let ks := map (fun x => incremental_reconstruct (q_tally (fst x)) (o_share (snd x))) (combine qs secs) in
     ((exists k, In k ks /\ nth_error db (Z.to_nat k) = None) -> loop = UB) /\
     (forall rows, map (fun k => nth_error db (Z.to_nat k)) ks = map Some rows -> exists p',
        loop = Ok (keys ++ ks, resps ++ map (fun x => xorl (enc_response (fst x)) (o_preshare (snd x))) (combine rows secs), p'))).
Proof.
  intros F J B. induction qs as [|q qs IH]; intros p keys resps K loop; subst loop; cbn [fold_res].
  - split; [intros (q & [] & _)|]. intros secs Fs. inversion Fs; subst. cbn [combine map]. split; [intros (k & [] & _)|].
    intros [|r rows] E; [|discriminate]. exists p. cbn. rewrite !app_nil_r. reflexivity.
  - destruct (known_or_not l q) as [(s & Hs)|Hs].
    2:{ rewrite (backend_query_bad db junk p l q K Hs). cbn [bind]. split; [reflexivity|].
        intros secs Fs. exfalso. inversion Fs as [|? s ? ? [Hin Ht] ?]; subst. apply Hs. rewrite <- Ht. apply in_map. exact Hin. }
    assert (Bs : bytes 52 (o_preshare s)) by (rewrite Forall_forall in B; apply B, Hs).
    assert (E : forall s', secret_of l q s' -> backend_handle_query db junk p q =
      match nth_error db (Z.to_nat (incremental_reconstruct (q_tally q) (o_share s'))) with
      | Some row => Ok (incremental_reconstruct (q_tally q) (o_share s'), xorl (enc_response row) (o_preshare s'), qs_load p (q_tag q))
      | None => UB end).
    { intros s' Hs'. apply (backend_query_ok db junk p l); auto. rewrite Forall_forall in B. apply B, Hs'. }
    split.
    + intros (q0 & Hin & Hq). rewrite (E s Hs).
      destruct (nth_error db _) as [row|]; cbn [bind]; [|reflexivity].
      destruct Hin as [->|Hin].
      * exfalso. apply Hq. destruct Hs as [H1 <-]. apply in_map. exact H1.
      * apply (IH (qs_load p (q_tag q))); [exact K|]. exists q0. auto.
    + intros secs Fs. inversion Fs as [|? s' ? secs' Hs' Fs']; subst. cbn [combine map fst snd]. rewrite (E s' Hs'). split.
      * intros (k & Hin & Hk).
        destruct (nth_error db (Z.to_nat (incremental_reconstruct (q_tally q) (o_share s')))) as [row|] eqn:Er; cbn [bind]; [|reflexivity].
        destruct Hin as [<-|Hin]; [congruence|].
        edestruct (IH (qs_load p (q_tag q))) as (_ & IH2); [exact K|]. destruct (IH2 secs' Fs') as (IH3 & _). apply IH3. exists k. auto.
      * intros [|row rows] Er; [discriminate|]. cbn [map] in Er. injection Er as Er1 Er2. rewrite Er1. cbn [bind].
        destruct (IH (qs_load p (q_tag q)) (keys ++ [incremental_reconstruct (q_tally q) (o_share s')])
          (resps ++ [xorl (enc_response row) (o_preshare s')]) K) as (_ & IH2).
        destruct (IH2 secs' Fs') as (_ & IH3). destruct (IH3 rows Er2) as (p' & Ep). exists p'. rewrite Ep.
        cbn [combine map fst snd]. rewrite <- !app_assoc. reflexivity.
Qed.

Lemma backend_shows_bytes b pk sk cs opens : box_sizes b pk sk -> Forall (bytes 124) cs -> map (shows b pk sk) cs = map Some opens ->
  Forall (fun s => bytes 52 (o_preshare s)) (map fst opens).
Proof.
  intros Hsz Bc Eo. apply Forall_forall. intros s Hs. apply in_map_iff in Hs. destruct Hs as ([s' inner] & <- & Hin). cbn [fst].
  assert (Hm : In (Some (s', inner)) (map (shows b pk sk) cs)) by (rewrite Eo; apply in_map; exact Hin).
  apply in_map_iff in Hm. destruct Hm as (c & Ec & Hc). rewrite Forall_forall in Bc. destruct (Bc _ Hc) as [L Bb]. unfold shows in Ec.
  destruct (box_open b pk sk c) as [plain|] eqn:Eop; [|discriminate]. destruct (Hsz c plain Bb Eop) as [Lp Bp].
  assert (s' = dec_osecret (firstn 76 plain)) by congruence. subst s'.
  unfold dec_osecret; cbn [o_preshare]. split.
  - rewrite skipn_length, firstn_length. lia.
  - apply Forall_forall. intros x Hx. rewrite Forall_forall in Bp. apply Bp.
    assert (Sk : forall (l : list Z) k y, In y (skipn k l) -> In y l).
    { intros l k y Hy. rewrite <- (firstn_skipn k l). apply in_or_app. right. exact Hy. }
    apply Sk in Hx. rewrite <- (firstn_skipn 76 plain). apply in_or_app. left. exact Hx.
Qed.

Lemma c61_backend b a pk sk db junk cs opens p qs : box_sizes b pk sk -> Forall (bytes 124) cs ->
  Forall wf_response db -> bytes 52 junk ->
  map (shows b pk sk) cs = map Some opens -> NoDup (map (fun x => o_tag (fst x)) opens) ->
  backend_offline b a pk sk (Z.of_nat (length cs)) cs = Ok p -> length qs = length cs ->
  ((exists q, In q qs /\ ~ In (q_tag q) (map (fun x => o_tag (fst x)) opens)) ->
     backend_online db junk (Z.of_nat (length cs)) p qs = UB) /\
  (forall secs, Forall2 (secret_of (map fst opens)) qs secs ->
     let ks := map (fun x => incremental_reconstruct (q_tally (fst x)) (o_share (snd x))) (combine qs secs) in
     ((exists k, In k ks /\ nth_error db (Z.to_nat k) = None) -> backend_online db junk (Z.of_nat (length cs)) p qs = UB) /\
     (forall rows, map (fun k => nth_error db (Z.to_nat k)) ks = map Some rows ->
        backend_online db junk (Z.of_nat (length cs)) p qs =
        Ok (ks, map (fun x => xorl (enc_response (fst x)) (o_preshare (snd x))) (combine rows secs)))).
Proof.
  intros Hsz Bc F J Eo Nd Ep Lq. rewrite (proj1 (proj2 (c60_backend b a pk sk cs Hsz Bc) opens Eo)) in Ep.
  rewrite <- map_map with (f := fst) (g := o_tag) in *.
  destruct (install_stores_last a (map fst opens) Nd) as (p' & Ep' & K). rewrite Ep' in Ep. inversion Ep; subst p'.
  unfold backend_online. rewrite Nat2Z.id, <- Lq. rewrite recv_all by reflexivity. cbn [bind].
  unfold bt_initialize. pose proof (push_all_queries zero_query qs [] 0 eq_refl) as E. cbn [app] in E. rewrite E. cbn [bind].
  unfold bt_all; cbn [bt_data].
  destruct (backend_any db junk (map fst opens) F J (backend_shows_bytes b pk sk cs opens Hsz Bc Eo) qs p [] [] K) as (A1 & A2).
  split.
  - intros Hb. rewrite (A1 Hb). reflexivity.
  - intros secs Fs. destruct (A2 secs Fs) as (A3 & A4). split.
    + intros Hk. rewrite (A3 Hk). reflexivity.
    + intros rows Er. destruct (A4 rows Er) as (q' & Eq). rewrite Eq. reflexivity.
Qed.
