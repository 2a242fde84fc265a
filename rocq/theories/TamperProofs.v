(** Integrity of answers. *)
From Verif Require Import Base BaseProofs Incremental IncrementalProofs Wire WireProofs Additive AdditiveProofs Onion OnionProofs
  Shuffle Sizes State Database CipherBatch CipherBatchProofs Range Handlers Batch Party Chain Spec SharingProofs ShuffleProofs
  StateProofs ChainSpec OnlineProofs OfflineProofs OfflineParty ChainProofs PeerSpec TamperSpec.

Definition first_mask (it : item) : list Z := match it_secrets it with s :: _ => o_preshare s | [] => [] end.

Lemma handle_response_any p it rows m x old : ok_item rows (S m) it -> knows p it -> bytes 52 x -> bytes 52 old ->
  handle_response p (it_tag it) x old = Ok (xorl x (first_mask it)) /\ bytes 52 (first_mask it).
Proof.
  intros O (s & ss & E & K) Hx Ho. unfold handle_response, qs_preshare, first_mask. rewrite K, E. cbn [bind st_pre].
  assert (W : bytes 52 (o_preshare s)).
  { destruct O as (_ & Fs & _). rewrite E in Fs. inversion Fs as [|? ? ((_ & _ & _ & _ & W) & _) _]; subst. exact W. }
  rewrite reconstruct_to by assumption. auto.
Qed.

(** The answers to the items whose responses have been read. *)
Definition passed (ls : lshuffler) (all : list (list Z)) (noise : nat) (items : list item) (read : nat) (out : list (list Z)) : Prop :=
  length out = length items /\ Forall (bytes 52) out /\
  forall i it j x, nth_error items i = Some it -> ls_shuffle ls (noise + i) = Ok j -> (j < read)%nat ->
    nth_error all j = Some x -> nth_error out i = Some (xorl x (first_mask it)).

Lemma backward_loop_any n ls rows m p noise items all : ls_ok n ls ->
  (noise + length items = n)%nat -> Forall (bytes 52) all ->
  Forall (ok_item rows (S m)) items -> Forall (knows p) items ->
  forall resps read out right,
  (forall j, nth_error resps j = nth_error all (read + j)) ->
  (read + length resps = n)%nat ->
  passed ls all noise items read out ->
  exists out', fold_res (fun s resp =>
    let '(read, out) := s in
    let* target := ls_deshuffle ls read in
    if (Z.of_nat target <? Z.of_nat noise) then Ok (S read, out)
    else
      let target_index := (target - Z.to_nat (Z.of_nat noise))%nat in
      let* old := bt_get out target_index in
      let* tag := bt_get {| bt_data := map it_tag items; bt_right := length items |} target_index in
      let* v := handle_response p tag resp old in
      let* out' := bt_set out target_index v in
      Ok (S read, out')) resps (read, {| bt_data := out; bt_right := right |}) =
    Ok (n, {| bt_data := out'; bt_right := right |}) /\ passed ls all noise items n out'.
Proof.
  intros O Ln Ball Ok_ K. rewrite Nat2Z.id.
  induction resps as [|x resps IH]; intros read out right H L R; cbn [fold_res].
  - exists out. cbn [length] in L. replace read with n in * by lia. auto.
  - cbn [length] in L.
    destruct (ls_ok_bwd n ls read O) as (i & Hi & Ei & Ni); [lia|]. rewrite Ei. cbn [bind].
    destruct R as (Lo & Fo & Ro).
    assert (Hx : nth_error all read = Some x) by (rewrite <- (Nat.add_0_r read), <- H; reflexivity).
    assert (Hs : forall j, nth_error resps j = nth_error all (S read + j)).
    { intros j. specialize (H (S j)). rewrite Nat.add_succ_r in H. exact H. }
    assert (Bx : bytes 52 x) by (rewrite Forall_forall in Ball; apply Ball; eapply nth_error_In; eauto).
    destruct (Z.ltb_spec (Z.of_nat i) (Z.of_nat noise)) as [Hlt|Hge]; cbn [bind].
    + apply IH; [exact Hs| lia |].
      split; [exact Lo|]. split; [exact Fo|]. intros i' it j' y N E Hj Ny.
      destruct (Nat.eq_dec j' read) as [->|Hne]; [|apply (Ro i' it j'); [assumption|assumption|lia|assumption]].
      exfalso. apply get_Ok in E. apply (proj1 (proj2 (proj2 (proj2 (proj2 O))) _ _)) in E.
      apply get_Ok in Ei. rewrite E in Ei. inversion Ei; subst. lia.
    + destruct (get_lt items (i - noise)) as (it & _ & Nit); [lia|].
      destruct (get_lt out (i - noise)) as (old & Eold & Nold); [lia|].
      unfold bt_get. cbn [bt_data]. rewrite Eold. cbn [bind].
      assert (get (map it_tag items) (i - noise) = Ok (it_tag it)) as -> by (apply get_Ok; rewrite nth_error_map, Nit; reflexivity).
      cbn [bind].
      assert (Oit : ok_item rows (S m) it) by (rewrite Forall_forall in Ok_; apply Ok_; eapply nth_error_In; eauto).
      assert (Kit : knows p it) by (rewrite Forall_forall in K; apply K; eapply nth_error_In; eauto).
      assert (Bold : bytes 52 old) by (rewrite Forall_forall in Fo; apply Fo; eapply nth_error_In; eauto).
      destruct (handle_response_any p it rows m x old Oit Kit Bx Bold) as [Eh Bm]. rewrite Eh. cbn [bind].
      unfold bt_set. cbn [bt_data bt_right]. rewrite set_Ok by lia. cbn [bind].
      apply IH; [exact Hs| lia |].
      split; [rewrite length_upd; exact Lo|]. split; [apply Forall_upd; [exact Fo|apply bytes_xorl; assumption]|].
      intros i' it' j' y N E Hj Ny. apply get_Ok in E.
      destruct (Nat.eq_dec j' read) as [->|Hne].
      * apply (proj1 (proj2 (proj2 (proj2 (proj2 O))) _ _)) in E. apply get_Ok in Ei. rewrite E in Ei.
        inversion Ei; subst i. replace (noise + i' - noise)%nat with i' in * by lia.
        rewrite Nit in N. inversion N; subst it'. rewrite Hx in Ny. inversion Ny; subst y. apply nth_error_upd_eq. lia.
      * rewrite nth_error_upd_ne.
        -- apply (Ro i' it' j'); [assumption|apply get_Ok; exact E|lia|exact Ny].
        -- intros Heq. subst i'. replace (noise + (i - noise))%nat with i in E by lia. congruence.
Qed.

Lemma party_backward_passes rows m rp rp' noise items rs : holds rp noise items ->
  Forall (ok_item rows (S m)) items ->
  rp_noise rp' = rp_noise rp -> rp_input rp' = rp_input rp -> rp_shuffled rp' = rp_shuffled rp ->
  rp_shuffler rp' = rp_shuffler rp -> rp_tags rp' = {| bt_data := map it_tag items; bt_right := length items |} ->
  Forall (knows (rp_state rp')) items ->
  length rs = (length noise + length items)%nat -> Forall (bytes 52) rs ->
  exists out, party_backward rp' rs = Ok out /\
    passed (rp_shuffler rp) rs (length noise) items (length noise + length items) out.
Proof.
  intros H Ok_ E1 E2 E3 E4 E5 K Lr Br.
  destruct H as (Hn & Hi & Hs & O & Ht & _ & _). unfold party_backward.
  rewrite E1, E2, E3, E4, E5, Hn, Hi, Hs, !Nat2Z.id.
  rewrite recv_all by exact Lr. cbn [bind].
  set (n := (length noise + length items)%nat) in *. set (ls := rp_shuffler rp) in *.
  destruct (backward_loop_any n ls rows m (rp_state rp') (length noise) items rs O eq_refl Br Ok_ K
    rs 0%nat (repeat zero_response (length items)) 0%nat) as (out & E & R).
  - reflexivity.
  - exact Lr.
  - split; [apply repeat_length|]. split; [apply Forall_bytes_zero|]. intros; lia.
  - exists out. rewrite Nat2Z.id in E. unfold bt_initialize. split; [|exact R].
    match goal with |- bind ?x _ = _ => assert (x = Ok (n, {| bt_data := out; bt_right := 0 |})) as -> by exact E end.
    reflexivity.
Qed.

Lemma xorl_cancel a b : bytes 52 a -> bytes 52 b -> xorl a (xorl a b) = b.
Proof.
  intros [La _] [Lb _]. rewrite <- xorl_assoc, xorl_nilp, xorl_zero_l by assumption. reflexivity.
Qed.

Definition rs_of (db : list response) (l : list item) : list (list Z) := map (answer db) l.

Lemma answers_bytes db m l : Forall wf_response db -> Forall (ok_item (length db) m) l -> Forall (bytes 52) (rs_of db l).
Proof. intros D F. apply Forall_map. eapply Forall_impl; [|exact F]. intros it H. exact (answer_bytes db m it D H). Qed.

Lemma at_nth rs p x : nth_error rs p = Some x -> at_ rs p = x.
Proof. intros H. unfold at_. exact (nth_error_nth rs p _ H). Qed.
Lemma at_some rs p : (p < length rs)%nat -> nth_error rs p = Some (at_ rs p).
Proof. intros H. unfold at_. apply nth_error_nth'. exact H. Qed.
Lemma at_bytes rs p : Forall (bytes 52) rs -> (p < length rs)%nat -> bytes 52 (at_ rs p).
Proof. intros F H. rewrite Forall_forall in F. apply F. unfold at_. apply nth_In. exact H. Qed.

Lemma chain_bytes db bp rps levels : Forall wf_response db -> chain_ok (length db) bp rps levels ->
  Forall (fun l => Forall (bytes 52) (rs_of db l)) levels.
Proof.
  intros D. induction 1 as [items Ok_ K | rp rest noise items levels H Ok_ C IH].
  - repeat constructor. exact (answers_bytes db _ _ D Ok_).
  - constructor; [exact (answers_bytes db _ _ D Ok_)|exact IH].
Qed.

Lemma tampered_spec db bp : Forall wf_response db -> forall rps levels, chain_ok (length db) bp rps levels ->
  forall j, (j <= length rps)%nat -> exists pos,
    let rs := rs_of db (nth j levels []) in
    length pos = length (hd [] levels) /\ NoDup pos /\ Forall (fun p => (p < length rs)%nat) pos /\
    forall rs', length rs' = length rs -> Forall (bytes 52) rs' ->
      exists out, online_tampered j rs' rps (map q_of (hd [] levels)) = Ok out /\
        length out = length (hd [] levels) /\ Forall (bytes 52) out /\
        forall i it p, nth_error (hd [] levels) i = Some it -> nth_error pos i = Some p ->
          nth_error out i = Some (xorl (answer db it) (xorl (at_ rs p) (at_ rs' p))).
Proof.
  intros D rps levels C. induction C as [items Ok_ K | rp rest noise items levels H Ok_ C IH]; intros j Hj.
  - cbn [length] in Hj. assert (j = 0)%nat as -> by lia. cbn [nth hd].
    exists (seq 0 (length items)). cbv zeta. split; [apply seq_length|]. split; [apply seq_NoDup|].
    split; [apply Forall_forall; intros p Hp; apply in_seq in Hp; unfold rs_of; rewrite map_length; lia|].
    intros rs' L F. exists rs'. split; [reflexivity|]. unfold rs_of in L. rewrite map_length in L. split; [exact L|]. split; [exact F|].
    intros i it p Ni Np. assert (Hi : (i < length items)%nat) by (apply nth_error_Some; congruence).
    rewrite nth_error_seq in Np by exact Hi. inversion Np; subst p. cbn [Nat.add].
    rewrite (at_some rs' i) by lia. f_equal.
    rewrite (at_nth (rs_of db items) i (answer db it)) by (unfold rs_of; rewrite nth_error_map, Ni; reflexivity).
    rewrite xorl_cancel; [reflexivity| |apply at_bytes; [exact F|lia]].
    pose proof (answers_bytes db _ _ D Ok_) as B. rewrite Forall_forall in B. apply B. unfold rs_of. apply in_map. eapply nth_error_In; eauto.
  - destruct j as [|j].
    + cbn [nth hd].
      exists (seq 0 (length items)). cbv zeta. split; [apply seq_length|]. split; [apply seq_NoDup|].
      split; [apply Forall_forall; intros p Hp; apply in_seq in Hp; unfold rs_of; rewrite map_length; lia|].
      intros rs' L F. exists rs'. split; [reflexivity|]. unfold rs_of in L. rewrite map_length in L. split; [exact L|]. split; [exact F|].
      intros i it p Ni Np. assert (Hi : (i < length items)%nat) by (apply nth_error_Some; congruence).
      rewrite nth_error_seq in Np by exact Hi. inversion Np; subst p. cbn [Nat.add].
      rewrite (at_some rs' i) by lia. f_equal.
      rewrite (at_nth (rs_of db items) i (answer db it)) by (unfold rs_of; rewrite nth_error_map, Ni; reflexivity).
      rewrite xorl_cancel; [reflexivity| |apply at_bytes; [exact F|lia]].
      pose proof (answers_bytes db _ _ D Ok_) as B. rewrite Forall_forall in B. apply B. unfold rs_of. apply in_map. eapply nth_error_In; eauto.
    + cbn [length] in Hj. destruct (IH j ltac:(lia)) as (pos' & Lp & ND & Rg & T). clear IH.
      cbn [hd] in *. change (nth (S j) (items :: next_items (rp_shuffler rp) noise items :: levels) [])
        with (nth j (next_items (rp_shuffler rp) noise items :: levels) []) in *.
      set (nxt := next_items (rp_shuffler rp) noise items) in *. set (rs := rs_of db (nth j (nxt :: levels) [])) in *.
      pose proof (next_length _ _ _ H) as Ln. fold nxt in Ln.
      destruct (H) as (_ & _ & _ & O & _).
      set (ls := rp_shuffler rp) in *. set (n := (length noise + length items)%nat) in *.
      exists (map (fun i => nth (nth (length noise + i) (ls_forward ls) 0%nat) pos' 0%nat) (seq 0 (length items))).
      assert (Fwd : forall i, (i < length items)%nat -> exists q, ls_shuffle ls (length noise + i) = Ok q /\ (q < n)%nat /\
        nth (length noise + i) (ls_forward ls) 0%nat = q).
      { intros i Hi. destruct (ls_ok_fwd n ls (length noise + i) O) as (q & Hq & E & _); [unfold n; lia|].
        exists q. split; [exact E|]. split; [exact Hq|]. apply nth_error_nth. apply get_Ok. exact E. }
      cbv zeta. split; [rewrite map_length, seq_length; reflexivity|]. split; [|split].
      * (* injective *)
        apply NoDup_nth_error. rewrite map_length, seq_length. intros i1 i2 H1 Heq.
        assert (H2 : (i2 < length items)%nat).
        { rewrite nth_error_map, nth_error_seq in Heq by exact H1. cbn in Heq.
          assert (nth_error (map (fun i => nth (nth (length noise + i) (ls_forward ls) 0%nat) pos' 0%nat) (seq 0 (length items))) i2 <> None) as X by congruence.
          apply nth_error_Some in X. rewrite map_length, seq_length in X. exact X. }
        rewrite !nth_error_map, !nth_error_seq in Heq by assumption. cbn [option_map Nat.add] in Heq. injection Heq as Heq.
        destruct (Fwd i1 H1) as (q1 & E1 & Hq1 & X1). destruct (Fwd i2 H2) as (q2 & E2 & Hq2 & X2).
        rewrite X1, X2 in Heq. assert (q1 = q2).
        { apply (proj1 (NoDup_nth pos' 0%nat) ND); [lia|lia|exact Heq]. }
        assert (E2' : ls_shuffle ls (length noise + i2) = Ok q1) by congruence. pose proof (ls_inj n ls _ _ q1 O E1 E2'). lia.
      * apply Forall_map. apply Forall_forall. intros i Hi. apply in_seq in Hi.
        destruct (Fwd i ltac:(lia)) as (q & _ & Hq & ->). rewrite Forall_forall in Rg. apply Rg. apply nth_In. lia.
      * intros rs' L F. destruct (T rs' L F) as (out' & Eo & Lo & Bo & Vo).
        destruct (party_forward_spec rp noise items H) as (rp' & E & E1 & E2 & E3 & E4 & E5 & K).
        cbn [online_tampered]. rewrite E. cbn [bind fst snd]. fold ls. fold nxt. rewrite Eo. cbn [bind].
        destruct (party_backward_passes (length db) (S (length rest)) rp rp' noise items out' H Ok_ E1 E2 E3 E4 E5 K) as (out & Eb & Lb & Bb & Vb);
          [rewrite Lo; exact Ln|exact Bo|].
        exists out. split; [exact Eb|]. split; [exact Lb|]. split; [exact Bb|].
        intros i it p Ni Np. assert (Hi : (i < length items)%nat) by (apply nth_error_Some; congruence).
        rewrite nth_error_map, nth_error_seq in Np by exact Hi. cbn [option_map Nat.add] in Np.
        destruct (Fwd i Hi) as (q & Es & Hq & X). rewrite X in Np. injection Np as Np.
        assert (Nn : nth_error nxt q = Some (advance it)).
        { unfold nxt, next_items. destruct (ls_ok_fwd n ls (length noise + i) O) as (q' & _ & Es' & Nb); [unfold n; lia|].
          rewrite Es in Es'. inversion Es'; subst q'.
          apply (pick_nth _ _ _ q (length noise + i)); [exact Nb|].
          rewrite nth_error_app2 by lia. replace (length noise + i - length noise)%nat with i by lia.
          rewrite nth_error_map, Ni. reflexivity. }
        assert (Np' : nth_error pos' q = Some p).
        { rewrite <- Np. apply nth_error_nth'. lia. }
        rewrite (Vb i it q _ Ni Es Hq (Vo q (advance it) p Nn Np')). f_equal.
        assert (Oit : ok_item (length db) (S (S (length rest))) it) by (rewrite Forall_forall in Ok_; apply Ok_; eapply nth_error_In; eauto).
        unfold first_mask. destruct (it_secrets it) as [|s ss] eqn:Es1.
        { destruct Oit as (Lx & _). rewrite Es1 in Lx. discriminate Lx. }
        rewrite <- (answer_advance db s ss it Es1). rewrite !xorl_assoc. f_equal.
        rewrite <- !xorl_assoc. rewrite (xorl_comm _ (o_preshare s)). rewrite <- xorl_assoc. reflexivity.
Qed.

(** ** The client *)
Lemma dec_response_wf x : bytes 52 x -> wf_response (dec_response x).
Proof.
  intros [Hl Hb]. unfold wf_response, dec_response. cbn [r_value r_sig].
  rewrite <- (firstn_skipn 4 x), Forall_app in Hb. destruct Hb as [H1 H2]. split.
  - pose proof (of_le_bound _ H1) as B. rewrite firstn_length, Nat.min_l in B by lia. exact B.
  - split; [rewrite skipn_length; lia|exact H2].
Qed.

Definition delta (rs rs' : list (list Z)) (p : nat) : list Z := xorl (at_ rs p) (at_ rs' p).

Lemma client_responses_any db m st items : client_ready st items -> Forall wf_response db ->
  Forall (ok_item (length db) m) items -> forall ds, length ds = length items -> Forall (bytes 52) ds ->
  let keys := map it_key items in
  let got := map (fun p => xorl (answer db (fst p)) (snd p)) (combine items ds) in
  client_responses false db (cs_finish (load_times (length items) st)) keys got =
    Ok (map (fun p => dec_response (xorl (enc_response (row db (it_key (fst p)))) (snd p))) (combine items ds)) /\
  (Forall (fun d => d = zero52) ds ->
    client_responses true db (cs_finish (load_times (length items) st)) keys got = Ok (map (row db) keys)) /\
  (~ Forall (fun d => d = zero52) ds ->
    client_responses true db (cs_finish (load_times (length items) st)) keys got = Abort).
Proof.
  intros C F Oi ds Ld Bd keys got. unfold client_responses.
  assert (Lg : length got = length keys).
  { unfold got, keys. rewrite !map_length, combine_length. lia. }
  rewrite recv_all by exact Lg. cbn [bind]. subst keys got.
  set (st' := cs_finish (load_times (length items) st)).
  assert (Step : forall it d done, nth_error items done = Some it -> bytes 52 d ->
    client_reconstruct (load_times done st') (xorl (answer db it) d) =
      Ok (xorl (enc_response (row db (it_key it))) d, load_times (S done) st') /\
    db_lookup db (it_key it) = Ok (row db (it_key it)) /\
    exists e, response_eqb (dec_response (xorl (enc_response (row db (it_key it))) d)) (row db (it_key it)) = Ok e /\
      (e = true <-> d = zero52)).
  { intros it d done N Hd. destruct (C _ _ N) as [_ Pm]. specialize (Pm (length items)). fold st' in Pm.
    assert (Oit : ok_item (length db) m it) by (rewrite Forall_forall in Oi; apply Oi; eapply nth_error_In; exact N).
    destruct (Oit) as (_ & Fs & _ & B).
    assert (Wr : wf_response (row db (it_key it))) by (apply row_wf; assumption).
    assert (Wx : bytes 52 (xor_all (map o_preshare (it_secrets it)))).
    { apply bytes_xor_all. apply Forall_map. eapply Forall_impl; [|exact Fs]. intros s ((_ & _ & _ & _ & W) & _). exact W. }
    pose proof (bytes_enc_response _ Wr) as Wb.
    split; [|split].
    - unfold client_reconstruct.
      change (cs_load_next (load_times done st')) with (load_times (S done) st').
      rewrite Pm. cbn [bind]. unfold additive_reconstruct.
      rewrite xor_inplace_spec by (try apply bytes_xorl; try apply (answer_bytes db m); assumption).
      cbn [bind]. do 2 f_equal. unfold answer. rewrite !xorl_assoc. f_equal.
      rewrite (xorl_comm d), <- xorl_assoc, xorl_nilp, xorl_zero_l; [reflexivity|exact (proj1 Hd)|exact (proj1 Wx)].
    - unfold db_lookup, get. rewrite (nth_error_nth' db db_zero) by lia. reflexivity.
    - assert (Bx : bytes 52 (xorl (enc_response (row db (it_key it))) d)) by (apply bytes_xorl; assumption).
      destruct (response_eqb_spec _ _ (dec_response_wf _ Bx) Wr) as (e & -> & He). exists e. split; [reflexivity|].
      rewrite He. split.
      + intros Heq. apply (f_equal enc_response) in Heq. rewrite dec_enc_response in Heq by exact Bx.
        apply (f_equal (xorl (enc_response (row db (it_key it))))) in Heq.
        rewrite xorl_cancel in Heq by assumption. rewrite Heq, xorl_nilp; [reflexivity|exact (proj1 Wb)].
      + intros ->. rewrite xorl_zero_r by exact (proj1 Wb). apply response_roundtrip. exact Wr. }
  assert (G : forall rest drest done acc, length drest = length rest -> Forall (bytes 52) drest -> items = done ++ rest ->
    let f := fun checks s kr =>
      let* m := client_reconstruct (snd s) (snd kr) in
      let response := dec_response (fst m) in
      let* expected := db_lookup db (fst kr) in
      let* eq := response_eqb response expected in
      let* _ := (if checks : bool then assert_ eq else Ok tt) in
      Ok (fst s ++ [response], snd m) in
    let got := map (fun p => xorl (answer db (fst p)) (snd p)) (combine rest drest) in
    let out := map (fun p => dec_response (xorl (enc_response (row db (it_key (fst p)))) (snd p))) (combine rest drest) in
    fold_res (f false) (combine (map it_key rest) got) (acc, load_times (length done) st') =
      Ok (acc ++ out, load_times (length items) st') /\
    (Forall (fun d => d = zero52) drest ->
      fold_res (f true) (combine (map it_key rest) got) (acc, load_times (length done) st') =
        Ok (acc ++ out, load_times (length items) st')) /\
    (~ Forall (fun d => d = zero52) drest ->
      fold_res (f true) (combine (map it_key rest) got) (acc, load_times (length done) st') = Abort)).
  { induction rest as [|it rest IH]; intros [|d drest] done acc L B E; try discriminate L.
    - cbn. subst items. rewrite !app_nil_r. split; [reflexivity|]. split; [reflexivity|]. intros N. exfalso. apply N. constructor.
    - intros f. cbn [combine map fst snd]. cbn [fold_res].
      inversion B as [|? ? Bd1 Bd2]; subst x l.
      assert (N : nth_error items (length done) = Some it) by (rewrite E, nth_error_app2, Nat.sub_diag by lia; reflexivity).
      destruct (Step it d (length done) N Bd1) as (E1 & E2 & e & E3 & He).
      assert (Ef : forall checks, f checks (acc, load_times (length done) st') (it_key it, xorl (answer db it) d) =
        bind (if checks : bool then assert_ e else Ok tt)
          (fun _ => Ok (acc ++ [dec_response (xorl (enc_response (row db (it_key it))) d)], load_times (S (length done)) st'))).
      { intros checks. unfold f. cbn [fst snd]. rewrite E1. cbn [bind fst snd]. rewrite E2. cbn [bind]. rewrite E3. reflexivity. }
      rewrite !Ef. cbn [bind].
      specialize (IH drest (done ++ [it]) (acc ++ [dec_response (xorl (enc_response (row db (it_key it))) d)])).
      cbn [length] in L. specialize (IH ltac:(lia) Bd2). rewrite <- app_assoc in IH. specialize (IH E). cbv zeta in IH.
      rewrite app_length, Nat.add_1_r, <- app_assoc in IH. destruct IH as (I1 & I2 & I3).
      split; [exact I1|]. split.
      + intros Z0. inversion Z0 as [|? ? Zd Zr]; subst x l. rewrite (proj2 He Zd). cbn [assert_ bind]. apply I2. exact Zr.
      + intros NZ. destruct e; cbn [assert_ bind]; [|reflexivity]. apply I3. intros Zr. apply NZ. constructor; [apply He; reflexivity|exact Zr]. }
  specialize (G items ds [] [] Ld Bd eq_refl). cbv zeta in G. cbn [app length] in G. change (load_times 0 st') with st' in G.
  destruct G as (G1 & G2 & G3). split; [|split].
  - bindE G1. reflexivity.
  - intros Z0. pose proof (G2 Z0) as G2'. bindE G2'. f_equal. cbn [fst].
    clear - Z0 Ld F Oi. revert ds Ld Z0. induction Oi as [|it items O Oi IH]; intros [|d ds] L Z0; try discriminate L; [reflexivity|].
    inversion Z0; subst. cbn [combine map fst snd]. f_equal; [|apply IH; [cbn in L; lia|assumption]].
    destruct O as (_ & _ & _ & B). assert (Wr : wf_response (row db (it_key it))) by (apply row_wf; assumption).
    rewrite xorl_zero_r by (apply response_roundtrip; exact Wr). apply response_roundtrip. exact Wr.
  - intros NZ. pose proof (G3 NZ) as G3'. bindE G3'. reflexivity.
Qed.

(** ** Whole runs *)
Lemma nth_error_combine {A B} (l : list A) : forall (l' : list B) i x y,
  nth_error l i = Some x -> nth_error l' i = Some y -> nth_error (combine l l') i = Some (x, y).
Proof.
  induction l as [|a l IH]; intros [|b l'] [|i] x y H H'; try discriminate; cbn in *; [congruence|]. apply IH; assumption.
Qed.

Lemma xorl_eq_zero a b : bytes 52 a -> bytes 52 b -> xorl a b = zero52 <-> b = a.
Proof.
  intros Ha Hb. split.
  - intros E. apply (f_equal (xorl a)) in E. rewrite xorl_cancel, xorl_zero_r in E by (try assumption; exact (proj1 Ha)). exact E.
  - intros ->. apply xorl_nilp. exact (proj1 Ha).
Qed.

Lemma tampering_levels db bp m st items levels states tampered j :
  Forall wf_response db -> chain_ok (length db) bp states (items :: levels) -> (j <= length states)%nat ->
  client_ready st items -> Forall (ok_item (length db) m) items ->
  (forall checks rs', tampered checks rs' =
     bind (online_tampered j rs' states (map q_of items))
       (fun rs => client_responses checks db (cs_finish (load_times (length items) st)) (map it_key items) rs)) ->
  exists pos, tampering tampered db (map it_key items) (rs_of db (nth j (items :: levels) [])) pos.
Proof.
  intros D Ch Hj C Oi Et. destruct (tampered_spec db bp D states (items :: levels) Ch j Hj) as (pos & Lp & ND & Rg & T).
  cbn [hd] in *. set (rs := rs_of db (nth j (items :: levels) [])) in *. exists pos.
  assert (Brs : Forall (bytes 52) rs).
  { pose proof (chain_bytes db bp _ _ D Ch) as B. rewrite Forall_forall in B. unfold rs.
    destruct (Nat.lt_ge_cases j (length (items :: levels))) as [H|H]; [apply B; apply nth_In; exact H|].
    rewrite nth_overflow by exact H. constructor. }
  assert (Hpos : forall i p, nth_error pos i = Some p -> (p < length rs)%nat).
  { intros i p N. rewrite Forall_forall in Rg. apply Rg. eapply nth_error_In; eauto. }
  assert (Main : forall rs', length rs' = length rs -> Forall (bytes 52) rs' ->
    let ds := map (delta rs rs') pos in
    (length ds = length items)%nat /\ Forall (bytes 52) ds /\
    (forall checks, tampered checks rs' = client_responses checks db (cs_finish (load_times (length items) st)) (map it_key items)
       (map (fun p => xorl (answer db (fst p)) (snd p)) (combine items ds))) /\
    (Forall (fun d => d = zero52) ds <-> Forall (fun p => at_ rs' p = at_ rs p) pos)).
  { intros rs' L F ds. assert (Lds : length ds = length items) by (unfold ds; rewrite map_length; exact Lp).
    assert (Hd : forall p, In p pos -> bytes 52 (at_ rs p) /\ bytes 52 (at_ rs' p)).
    { intros p Hp. apply In_nth_error in Hp. destruct Hp as (i & N). apply Hpos in N. split; apply at_bytes; auto. lia. }
    split; [exact Lds|]. split; [|split].
    - apply Forall_map. apply Forall_forall. intros p Hp. destruct (Hd p Hp). apply bytes_xorl; assumption.
    - intros checks. destruct (T rs' L F) as (out & Eo & Lo & Bo & Vo). rewrite Et, Eo. cbn [bind]. f_equal.
      apply nth_error_ext. intros i. destruct (Nat.lt_ge_cases i (length items)) as [H|H].
      + destruct (get_lt items i H) as (it & _ & N). destruct (get_lt pos i) as (p & _ & Np); [lia|].
        rewrite (Vo i it p N Np). rewrite nth_error_map.
        rewrite (nth_error_combine items ds i it (delta rs rs' p)); [reflexivity|exact N|].
        unfold ds. rewrite nth_error_map, Np. reflexivity.
      + rewrite !(proj2 (nth_error_None _ _)); [reflexivity| |]; rewrite ?map_length, ?combine_length; lia.
    - unfold ds. rewrite Forall_map, !Forall_forall.
      split; intros H p Hp; destruct (Hd p Hp) as [H1 H2].
      + apply (proj1 (xorl_eq_zero _ _ H1 H2)). exact (H p Hp).
      + exact (proj2 (xorl_eq_zero _ _ H1 H2) (H p Hp)). }
  constructor.
  - rewrite map_length. exact Lp.
  - exact ND.
  - exact Rg.
  - intros rs' L F. destruct (Main rs' L F) as (Lds & Bds & Er & _). set (ds := map (delta rs rs') pos) in *.
    destruct (client_responses_any db m st items C D Oi ds Lds Bds) as (U & _). cbv zeta in U. rewrite Er, U.
    eexists. split; [reflexivity|]. split; [rewrite !map_length, combine_length; lia|].
    intros i k p r Nk Np Nr. rewrite nth_error_map in Nk. destruct (nth_error items i) as [it|] eqn:Ni; [|discriminate].
    injection Nk as <-.
    eexists. split.
    + rewrite nth_error_map, (nth_error_combine items ds i it (delta rs rs' p)); [reflexivity|exact Ni|].
      unfold ds. rewrite nth_error_map, Np. reflexivity.
    + cbn [fst snd]. unfold row. rewrite (nth_error_nth db _ _ Nr).
      assert (Wr : wf_response r) by (rewrite Forall_forall in D; apply D; eapply nth_error_In; eauto).
      rewrite dec_enc_response; [reflexivity|]. apply bytes_xorl; [apply bytes_enc_response; exact Wr|].
      pose proof (Hpos i p Np) as Hp. apply bytes_xorl; apply at_bytes; auto. lia.
  - intros rs' L F. destruct (Main rs' L F) as (Lds & Bds & Er & Ez). set (ds := map (delta rs rs') pos) in *.
    destruct (client_responses_any db m st items C D Oi ds Lds Bds) as (_ & U1 & U2). cbv zeta in U1, U2. rewrite Er. split.
    + intros H. apply Ez in H. rewrite (U1 H). eexists. split; [reflexivity|]. rewrite !map_map.
      apply map_ext_in. intros it Hi. rewrite Forall_forall in Oi. destruct (Oi it Hi) as (_ & _ & _ & B).
      unfold row. symmetry. apply nth_error_nth'. lia.
    + intros H. apply U2. intros Z0. apply H. apply Ez. exact Z0.
Qed.

Lemma offline_states_length b rng : forall parties bpk bsk count ciphers links states p,
  offline_chain b true rng parties bpk bsk count ciphers = Ok (links, states, p) -> length states = length parties.
Proof.
  induction parties as [|cf rest IH]; intros bpk bsk count ciphers links states p H; cbn [offline_chain] in H.
  - destruct (backend_offline _ _ _ _ _ _); cbn in H; try discriminate. inversion H. reflexivity.
  - destruct (party_offline _ _ _ _ _ _) as [[[c' ci'] rp]| | |]; cbn [bind] in H; try discriminate.
    destruct (offline_chain b true rng rest bpk bsk c' ci') as [[[l' s'] p']| | |] eqn:E; cbn [bind] in H; try discriminate.
    inversion H; subst. cbn [length]. f_equal. exact (IH _ _ _ _ _ _ _ E).
Qed.
Lemma simulate_states_length rng : forall parties count links states p,
  simulate_chain true rng parties count = Ok (links, states, p) -> length states = length parties.
Proof.
  induction parties as [|cf rest IH]; intros count links states p H; cbn [simulate_chain] in H.
  - inversion H. reflexivity.
  - destruct (party_simulate _ _ _ _) as [[c' rp]| | |]; cbn [bind fst snd] in H; try discriminate.
    destruct (simulate_chain true rng rest c') as [[[l' s'] p']| | |] eqn:E; cbn [bind] in H; try discriminate.
    inversion H; subst. cbn [length]. f_equal. exact (IH _ _ _ _ E).
Qed.

Lemma run_tampering b rng db junk c parties keys bpk bsk :
  deployment rng db c parties keys -> keyed b db c parties keys bpk bsk -> bytes 52 junk ->
  exists o, run b true rng db junk c parties bpk bsk = Ok o /\
    forall j, (j <= length parties)%nat -> exists pos,
      tampering (fun checks rs' => run_tampered b checks rng db c parties bpk bsk j rs') db (ct_keys c) (nth j (oc_responses o) []) pos.
Proof.
  intros D K J. pose proof (dp_rows _ _ _ _ _ D) as [Hr1 Hr]. pose proof (dp_total _ _ _ _ _ D) as Ht.
  pose proof (dp_max _ _ _ _ _ D) as H255. pose proof (dp_count _ _ _ _ _ D) as Hc.
  unfold run, run_tampered. rewrite Hc, (ky_client _ _ _ _ _ _ _ K).
  destruct (client_offline_spec b (length db) keys (ct_rand c) (ct_keys c) (ky_box _ _ _ _ _ _ _ K) H255
    (ky_rand _ _ _ _ _ _ _ K) Hr (dp_queries _ _ _ _ _ D) ltac:(lia)) as (cs & st & E & F2 & C).
  rewrite E. cbn [bind fst snd]. set (items := client_items (ct_rand c) (length keys) (ct_keys c)) in *.
  assert (Li : length items = length (ct_keys c)) by apply client_items_length.
  assert (Ki : map it_key items = ct_keys c) by apply client_items_keys.
  assert (Oi : Forall (ok_item (length db) (length keys)) items).
  { apply Forall_map. apply Forall_forall. intros i Hi. apply in_seq in Hi.
    apply client_item_ok; [exact (ky_rand _ _ _ _ _ _ _ K)|exact Hr|exact (dp_queries _ _ _ _ _ D)|lia|lia]. }
  destruct (offline_chain_spec b rng keys (length db) bpk bsk (ky_box _ _ _ _ _ _ _ K) H255 Hr1 Hr parties 0 items items cs)
    as (links & states & bp & levels & E1 & Ch & LK & LT & Lf & Ls & _ & Sm & Bd & Ck).
  - cbn. exact Hc.
  - exact (ky_backend _ _ _ _ _ _ _ K).
  - intros j cf N. cbn [Nat.add]. split; [apply (dp_parties _ _ _ _ _ D j cf N)|apply (ky_parties _ _ _ _ _ _ _ K j cf N)].
  - rewrite Li. exact Ht.
  - exact F2.
  - apply Permutation_refl.
  - rewrite Nat.sub_0_r. exact Oi.
  - rewrite Li. unfold items. rewrite client_items_tags. apply Permutation_refl.
  - assert (Lst : length states = length parties) by (eapply offline_states_length; exact E1).
    rewrite <- Li, E1. cbn [bind]. pose proof (client_queries_spec st items C) as Eq. rewrite Ki in Eq. rewrite Eq. cbn [bind fst snd].
    pose proof (online_spec db junk bp (dp_db _ _ _ _ _ D) J states (items :: levels) Ch) as E2.
    assert (El : last (map fst links) 0 = Z.of_nat (length (last (items :: levels) []))).
    { rewrite Lf. apply (last_map (fun l => Z.of_nat (length l))). discriminate. }
    rewrite El. cbn [hd] in E2. rewrite E2. cbn [bind fst snd map].
    pose proof (client_responses_spec db (length keys) st items C (dp_db _ _ _ _ _ D) Oi) as Er. rewrite Ki in Er. rewrite Er. cbn [bind].
    eexists. split; [reflexivity|]. cbn [oc_responses]. intros j Hj.
    destruct (tampering_levels db bp (length keys) st items levels states
      (fun checks rs' => bind (online_tampered j rs' states (map q_of items))
         (fun rs => client_responses checks db (cs_finish (load_times (length items) st)) (ct_keys c) rs)) j
      (dp_db _ _ _ _ _ D) Ch ltac:(lia) C Oi) as (pos & T).
    + intros checks rs'. rewrite Ki. reflexivity.
    + exists pos. rewrite Ki in T. cbn [map snd]. rewrite map_map. cbn [snd].
      change (map (answer db) items :: map (fun x => map (answer db) x) levels) with (map (rs_of db) (items :: levels)).
      change (@nil (list Z)) with (rs_of db []) at 1. rewrite map_nth. exact T.
Qed.

Lemma run_simulated_tampering rng db junk c parties keys :
  deployment rng db c parties keys -> bytes 52 junk ->
  exists o, run_simulated true rng db junk c parties = Ok o /\
    forall j, (j <= length parties)%nat -> exists pos,
      tampering (fun checks rs' => run_simulated_tampered checks rng db c parties j rs') db (ct_keys c) (nth j (oc_responses o) []) pos.
Proof.
  intros D J. pose proof (dp_rows _ _ _ _ _ D) as [Hr1 Hr]. pose proof (dp_total _ _ _ _ _ D) as Ht.
  pose proof (dp_max _ _ _ _ _ D) as H255. pose proof (dp_count _ _ _ _ _ D) as Hc.
  unfold run_simulated, run_simulated_tampered. rewrite Hc.
  destruct (client_simulate_spec (length db) (length keys) (ct_keys c) Hr (dp_queries _ _ _ _ _ D)) as (st & E & C).
  rewrite E. cbn [bind]. set (items := map (sim_item (length keys)) (ct_keys c)) in *.
  assert (Li : length items = length (ct_keys c)) by apply map_length.
  assert (Ki : map it_key items = ct_keys c) by (unfold items; rewrite map_map; apply map_id).
  assert (Oi : Forall (ok_item (length db) (length keys)) items).
  { apply Forall_map. eapply Forall_impl; [|exact (dp_queries _ _ _ _ _ D)]. intros key Hk. apply sim_item_ok; assumption. }
  destruct (simulate_chain_spec rng keys (length db) H255 Hr1 Hr parties 0 items)
    as (counts & states & levels & E1 & Ch & LK & Lf & _ & Sm & Bd).
  - cbn. exact Hc.
  - intros j cf N. apply (dp_parties _ _ _ _ _ D j cf N).
  - rewrite Li. exact Ht.
  - rewrite Nat.sub_0_r. exact Oi.
  - rewrite Nat.sub_0_r. apply Forall_map. apply Forall_forall. intros; apply is_sim_item.
  - assert (Lst : length states = length parties) by (eapply simulate_states_length; exact E1).
    rewrite <- Li, E1. cbn [bind]. pose proof (client_queries_spec st items C) as Eq. rewrite Ki in Eq. rewrite Eq. cbn [bind fst snd].
    pose proof (online_spec db junk backend_simulate (dp_db _ _ _ _ _ D) J states (items :: levels) Ch) as E2.
    assert (El : last counts 0 = Z.of_nat (length (last (items :: levels) []))).
    { rewrite Lf. apply (last_map (fun l => Z.of_nat (length l))). discriminate. }
    rewrite El. cbn [hd] in E2. rewrite E2. cbn [bind fst snd map].
    pose proof (client_responses_spec db (length keys) st items C (dp_db _ _ _ _ _ D) Oi) as Er. rewrite Ki in Er. rewrite Er. cbn [bind].
    eexists. split; [reflexivity|]. cbn [oc_responses]. intros j Hj.
    destruct (tampering_levels db backend_simulate (length keys) st items levels states
      (fun checks rs' => bind (online_tampered j rs' states (map q_of items))
         (fun rs => client_responses checks db (cs_finish (load_times (length items) st)) (ct_keys c) rs)) j
      (dp_db _ _ _ _ _ D) Ch ltac:(lia) C Oi) as (pos & T).
    + intros checks rs'. rewrite Ki. reflexivity.
    + exists pos. rewrite Ki in T. cbn [map snd]. rewrite map_map. cbn [snd].
      change (map (answer db) items :: map (fun x => map (answer db) x) levels) with (map (rs_of db) (items :: levels)).
      change (@nil (list Z)) with (rs_of db []) at 1. rewrite map_nth. exact T.
Qed.
