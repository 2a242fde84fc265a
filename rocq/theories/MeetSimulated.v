(** A party among arbitrary peers, the offline stage simulated. *)
From Verif Require Import Base BaseProofs Incremental IncrementalProofs Wire WireProofs Additive AdditiveProofs Onion Shuffle Sizes State StateProofs Database CipherBatch
  Range Handlers Batch Party Chain Net Stream CipherBatchProofs SharingProofs StreamProofs Lts Procs ProcProofs Spec ChainSpec ShuffleProofs OnlineProofs OfflineProofs OfflineParty ChainProofs ProcChain
  PeerSpec PeerProofs TalkSpec TalkProofs MeetSpec MeetProofs MeetParty.


(** ** Whole batches *)
Definition nothing_secret : osecret := {| o_tag := 0; o_next := 0; o_share := {| sx := 0; sy := 1 |}; o_preshare := repeat 0 52 |}.
Lemma handled_nothing q : 0 <= q_tally q < 2 ^ 32 -> handled q nothing_secret = {| q_tag := 0; q_tally := q_tally q mod PRIME |}.
Proof.
  intros B. unfold handled, nothing_secret, incremental_reconstruct. cbn [o_next o_share sx sy]. f_equal.
  rewrite Z.mul_1_r, Z.add_0_r. rewrite (w64_id (q_tally q)) by (unfold u64; lia). rewrite w64_id by (unfold u64; lia).
  apply w32_id. pose proof PRIME_val. pose proof (Z.mod_pos_bound (q_tally q) PRIME ltac:(lia)). unfold u32. lia.
Qed.
Lemma dec_tally m : bytes 12 m -> 0 <= q_tally (dec_query m) < 2 ^ 32.
Proof.
  intros [L B]. unfold dec_query. cbn [q_tally]. pose proof (of_le_bound (skipn 8 m) (Forall_skipn _ _ _ B)) as H.
  rewrite skipn_length, L in H. exact H.
Qed.
Lemma tally_nothing key m : 0 <= key < PRIME -> tally_of key (repeat id_share m) = key.
Proof.
  intros B. pose proof PRIME_val as EP. unfold tally_of, generate_incremental_tally. rewrite repeat_length.
  assert (E : forall i, (i <= m)%nat -> tally_loop (repeat id_share m) i key = Ok key).
  { induction i as [|i IH]; intros Hi; cbn [tally_loop]; [reflexivity|].
    assert (get (repeat id_share m) i = Ok id_share) as ->.
    { unfold get. rewrite nth_error_repeat by lia. reflexivity. }
    cbn [bind]. unfold tally_step. change (sx id_share) with 0. change (sy id_share) with 1.
    assert (mod_inverse 1 PRIME = Ok 1) as -> by (vm_compute; reflexivity). cbn [bind].
    destruct (Z.ltb_spec key 0); [lia|]. rewrite Z.add_0_r, Z.sub_0_r, Z.mul_1_r, !w64_id by (repeat rewrite w64_id; unfold u64; lia).
    rewrite Z.mod_small by lia. apply IH. lia. }
  rewrite E by lia. cbn [bind]. apply w32_id. unfold u32. lia.
Qed.
Lemma sim_handle p q : qs_sim p = true -> find_tag (qs_map p) 0 = Some identity_secret ->
  handle_query p q = Ok (handled q nothing_secret, qs_load p (q_tag q)).
Proof. intros E1 E2. unfold handle_query, qs_next_tag, qs_incremental, qs_load. cbn [qs_it]. rewrite E1, E2. reflexivity. Qed.
Lemma sim_response p t resp old : qs_sim p = true -> find_tag (qs_map p) 0 = Some identity_secret -> bytes 52 resp -> bytes 52 old ->
  handle_response p t resp old = Ok (xorl resp (o_preshare nothing_secret)).
Proof.
  intros E1 E2 B1 B2. unfold handle_response, qs_preshare. rewrite E1, E2. cbn [bind]. apply reconstruct_to; try assumption.
  split; [reflexivity|]. apply Forall_forall. intros x Hx. apply repeat_spec in Hx. subst x. unfold byte. lia.
Qed.
Lemma xorl_nothing r : length r = 52%nat -> xorl r (o_preshare nothing_secret) = r.
Proof. exact (xorl_zero_r r). Qed.

Definition sim_noise_queries (rows : nat) (cf : pconf) : list query := map (fun key => {| q_tag := 0; q_tally := key |}) (noise_keys rows cf).

Section Facts.
  Variables (b : sealbox) (rng : rng_t) (keys : list (list Z * list Z)) (rows j : nat) (cf : pconf) (n : nat).
  Hypothesis H : honest_party b rng keys rows j cf n.
  Notation N := (noise_total rows cf).
  Notation nqs := (sim_noise_queries rows cf).

  Lemma sim_facts ls : ls_initialize rng (pf_seed cf) (N + n) = Ok ls -> length nqs = N /\
    exists rp, party_simulate true rng cf (Z.of_nat n) = Ok (Z.of_nat (N + n), rp) /\
    forall raw, length raw = n -> Forall (bytes 12) raw -> exists rp' out',
      party_forward rp (map dec_query raw) = Ok (rp', out') /\ queries_passed ls n nqs raw out' /\
      forall resps, length resps = (N + n)%nat -> Forall (bytes 52) resps -> exists back,
        party_backward rp' resps = Ok back /\ sized 52 back /\ responses_passed ls n nqs resps back.
  Proof using All.
    intros El. pose proof H as [G GK Hb Hsz [H255 Hk] [Hr1 Hr] Ht].
    destruct (ls_initialize_spec rng (pf_seed cf) (N + n) (gp_rng _ _ _ _ _ G)) as (ls' & El' & O); [lia|].
    rewrite El in El'. inversion El'; subst ls'. clear El'. fold (ls_ok (N + n) ls) in O.
    set (m := (length keys - j - 1)%nat).
    set (noise := sim_noise rows m cf).
    assert (Lnoise : length noise = N) by apply sim_noise_length.
    assert (Enq : map q_of noise = nqs).
    { unfold noise, sim_noise, sim_noise_queries. rewrite map_map. apply map_ext_in. intros key Hin.
      pose proof (noise_keys_bound rows cf) as B. rewrite Forall_forall in B. specialize (B key Hin).
      unfold q_of, sim_item, mk_item. cbn [it_tag it_tally]. f_equal. apply tally_nothing. pose proof PRIME_val. lia. }
    split; [rewrite <- Enq, map_length; exact Lnoise|].
    unfold party_simulate. rewrite (party_check_spec rng keys rows j cf G Hk). cbn [bind].
    rewrite (noise_samples_spec rng keys rows j cf G Hr1) by lia. cbn [bind].
    assert (Esh : shuffled_count (Z.of_nat n) (Z.of_nat N) = Z.of_nat (N + n)).
    { unfold shuffled_count. rewrite w32_id by (unfold u32; lia). lia. }
    rewrite Esh, !Nat2Z.id, El. cbn [bind]. rewrite (remaining_spec rng keys rows j cf G Hk H255). fold m.
    destruct (cs_initialize cs_new m (Z.of_nat N) true true) as [ns| | |] eqn:En; try discriminate En.
    assert (Q : forall i it, nth_error noise i = Some it -> make_query (load_times i ns) (it_key it) = Ok (q_of it, load_times (S i) ns)).
    { intros i it Nit. unfold noise, sim_noise in Nit. rewrite nth_error_map in Nit.
      destruct (nth_error (noise_keys rows cf) i) as [key|] eqn:Ek; [|discriminate]. inversion Nit; subst it. cbn [sim_item mk_item it_key].
      destruct (c37_simulated cs_new m (Z.of_nat N) true (S i)) as (c0 & Ec & T1 & T2 & _).
      rewrite En in Ec. inversion Ec; subst c0.
      apply (sim_query ns 0 0 m key i rows); auto.
      pose proof (noise_keys_bound rows cf) as B. rewrite Forall_forall in B. apply B. eapply nth_error_In; exact Ek. }
    cbn [bind].
    destruct (noise_queries_spec rng keys rows j cf (N + n) ls noise (repeat no_item n) ns G O) as (qb & Eqs & Fq).
    { rewrite app_length, repeat_length, Lnoise. reflexivity. }
    { lia. }
    { unfold noise, sim_noise. rewrite map_map. cbn. apply map_id. }
    { exact Q. }
    rewrite Eqs. cbn [bind]. eexists. split; [reflexivity|].
    set (p := qs_initialize_state qs_new true).
    intros raw Lraw Braw. set (qs := map dec_query raw). assert (Lqs : length qs = n) by (unfold qs; rewrite map_length; exact Lraw).
    set (hs := map passed raw).
    assert (Fh : Forall2 (fun q h => handle_query p q = Ok (h, qs_load p (q_tag q))) qs hs).
    { unfold qs, hs. clear -Braw. induction Braw as [|x raw Bx _ IH]; cbn [map]; constructor; [|exact IH].
      rewrite sim_handle by reflexivity. rewrite handled_nothing by (apply dec_tally; exact Bx). reflexivity. }
    destruct qb as [data right]. cbn [bt_data] in Fq.
    destruct (forward_any_ok (N + n) ls nqs O qs hs [] [] p data right) as (p' & data' & E & S1 & M1 & F'').
    { rewrite <- Enq, map_length. cbn [length]. lia. }
    { reflexivity. }
    { exact Fh. }
    { rewrite <- Enq, map_length. cbn [length app]. rewrite Nat.add_0_r, Lnoise. destruct Fq as [F1 F2].
      split; [rewrite F1; unfold hs; rewrite map_length, !app_length, !map_length, repeat_length; lia|].
      intros i x t Hi Ni Et. rewrite nth_error_app1 in Ni by (rewrite map_length; lia). apply (F2 i x t); [lia| |exact Et].
      rewrite map_app, nth_error_app1 by (rewrite map_length; lia). exact Ni. }
    cbn [map app length] in E. rewrite Nat.add_0_r, Lqs in E. rewrite <- Enq, map_length, Lnoise in E.
    unfold party_forward. cbn [rp_noise rp_input rp_shuffled rp_state rp_shuffler rp_tags rp_queries].
    replace (Z.to_nat (Z.of_nat (N + n) - Z.of_nat N)) with n by lia. rewrite recv_all by exact Lqs. cbn [bind].
    rewrite Nat2Z.id. unfold bt_initialize. fold p. rewrite E. cbn [bind]. eexists _, _. split; [reflexivity|].
    assert (Lhs : length hs = n) by (unfold hs; rewrite map_length; exact Lraw).
    assert (Lnq : length nqs = N) by (rewrite <- Enq, map_length; exact Lnoise).
    split.
    - split; [exact Lraw|]. split; [exact Braw|]. unfold bt_all. cbn [bt_data app] in *.
      rewrite (filled_all zero_query (N + n) ls (nqs ++ hs) data' O) by (try exact F''; rewrite app_length; lia).
      split; [rewrite pick_length, Lnq; apply O|].
      intros i t Ej. pose proof Ej as Ej'. apply get_Ok in Ej'. apply (proj1 (proj2 (proj2 (proj2 (proj2 O))) _ _)) in Ej'.
      assert (Hi : (i < N + n)%nat).
      { apply get_Ok in Ej. destruct O as (Lf & _). rewrite <- Lf. apply nth_error_Some. congruence. }
      destruct (get_lt (nqs ++ hs) i) as (x & _ & Nx); [rewrite app_length; lia|].
      rewrite (pick_nth zero_query _ _ t i x Ej' Nx). symmetry. exact Nx.
    - intros resps Lr Br.
      destruct (party_backward_gen N n ls
        {| rp_noise := Z.of_nat N; rp_input := Z.of_nat n; rp_shuffled := Z.of_nat (N + n); rp_state := p'; rp_shuffler := ls;
           rp_tags := {| bt_data := map q_tag qs; bt_right := n |}; rp_queries := bt_initialize zero_query 0 |}
        qs (repeat nothing_secret n) O Lqs eq_refl eq_refl eq_refl eq_refl eq_refl) with (resps := resps) as (back & Eb & Lb & Hback).
      { cbn [rp_state]. clear - Lqs S1 M1. rewrite <- Lqs. clear Lqs. induction qs as [|q qs IH]; cbn [length repeat]; constructor; [|exact IH].
        intros resp old B1 B2. apply sim_response; [rewrite S1; reflexivity|rewrite M1; reflexivity|exact B1|exact B2]. }
      { apply Forall_repeat. split; [reflexivity|]. apply Forall_repeat. unfold byte. lia. }
      { exact Lr. }
      { exact Br. }
      assert (Hb' : forall i t, (i < n)%nat -> ls_shuffle ls (N + i) = Ok t -> nth_error back i = nth_error resps t).
      { intros i t Hi Et. pose proof Et as Et'. apply get_Ok in Et'. apply nth_error_In in Et'.
        pose proof (ls_forward_lt (N + n) ls t O Et') as Hlt. destruct (get_lt resps t) as (r & _ & Nr); [lia|].
        rewrite (Hback i nothing_secret t r); [|rewrite nth_error_repeat by exact Hi; reflexivity|exact Et|exact Nr].
        rewrite Nr, xorl_nothing; [reflexivity|]. rewrite Forall_forall in Br. apply Br. eapply nth_error_In; exact Nr. }
      exists back. split; [exact Eb|]. split.
      + apply Forall_forall. intros x Hx. apply In_nth_error in Hx. destruct Hx as (i & Hi).
        assert (Hil : (i < n)%nat) by (rewrite <- Lb; apply nth_error_Some; congruence).
        destruct (get_lt (ls_forward ls) (N + i)) as (t & Et & _); [destruct O as (Lf & _); lia|].
        rewrite (Hb' i t Hil Et) in Hi. rewrite Forall_forall in Br. apply Br. eapply nth_error_In; exact Hi.
      + unfold responses_passed. rewrite Lnq. auto.
  Qed.
End Facts.

Section Party.
  Variables (b : sealbox) (rng : rng_t) (keys : list (list Z * list Z)) (rows j : nat) (cf : pconf) (n : nat).
  Hypothesis H : honest_party b rng keys rows j cf n.
  Notation N := (noise_total rows cf).
  Notation nqs := (sim_noise_queries rows cf).
  Variables (ls : lshuffler) (rp : ready) (online : bool) (mem : nat -> list Z).
  Hypothesis Hmem : forall i, length (mem i) = BUFFER_SIZE.
  Hypothesis El : ls_initialize rng (pf_seed cf) (N + n) = Ok ls.
  Hypothesis Lq : length nqs = N.
  Hypothesis Ep : party_simulate true rng cf (Z.of_nat n) = Ok (Z.of_nat (N + n), rp).
  Hypothesis On : forall raw, length raw = n -> Forall (bytes 12) raw -> exists rp' out',
      party_forward rp (map dec_query raw) = Ok (rp', out') /\ queries_passed ls n nqs raw out' /\
      forall resps, length resps = (N + n)%nat -> Forall (bytes 52) resps -> exists back,
        party_backward rp' resps = Ok back /\ sized 52 back /\ responses_passed ls n nqs resps back.

  Notation hist := (list (chan * Z)).
  Notation said := (sim_party_said ls n nqs online).
  Notation cin := (count_in n). Notation cout := (sim_count_out n nqs).

  Definition SSafe (I O : hist) : Prop :=
    counted j n I -> own j O /\ said (on (Fwd j) I) (on (Bwd (S j)) I) (on (Fwd (S j)) O) (on (Bwd j) O).
  Definition SU (I : hist) : Prop := ~ counted j n I.
  Notation at_ := (at_ j).

  Lemma ssafe_mono I O x : SSafe I O -> SSafe (I ++ x) O.
  Proof using.
    intros HS C. destruct (HS (counted_less _ _ _ _ C)) as [HO HS']. split; [exact HO|]. rewrite !on_app. clear -HS'.
    destruct HS'; eauto using sim_party_said, begins_more.
  Qed.
  Lemma su_mono I x : SU I -> SU (I ++ x).
  Proof using. intros HS C. exact (HS (counted_less _ _ _ _ C)). Qed.
  Lemma sat_safe prev next fwd back I O : at_ prev next fwd back I O -> said prev next fwd back -> SSafe I O.
  Proof using. intros [<- <- <- <- Ho] HS. split; auto. Qed.

  Notation dos := (does SSafe SU).
  Lemma ssend_fwd {X A} est (p : proc chan A) a bs prev next fwd back I O (Q : A -> hist -> hist -> Prop) :
    @follows_on chan X A est p (map (Snd (Fwd (S j))) bs) a -> at_ prev next fwd back I O ->
    (forall w, begins w bs -> said prev next (fwd ++ w) back) ->
    (forall O', at_ prev next (fwd ++ bs) back I O' -> Q a I O') -> dos p I O Q.
  Proof using.
    intros F A0 HS HQ. eapply (does_sends _ _ est p _ a F (Fwd (S j)) bs); [reflexivity| |].
    - intros w Hw. eapply sat_safe; [apply at_send_fwd; exact A0|]. apply HS. exact Hw.
    - apply HQ. apply at_send_fwd. exact A0.
  Qed.
  Lemma ssend_back {X A} est (p : proc chan A) a bs prev next fwd back I O (Q : A -> hist -> hist -> Prop) :
    @follows_on chan X A est p (map (Snd (Bwd j)) bs) a -> at_ prev next fwd back I O ->
    (forall w, begins w bs -> said prev next fwd (back ++ w)) ->
    (forall O', at_ prev next fwd (back ++ bs) I O' -> Q a I O') -> dos p I O Q.
  Proof using.
    intros F A0 HS HQ. eapply (does_sends _ _ est p _ a F (Bwd j) bs); [reflexivity| |].
    - intros w Hw. eapply sat_safe; [apply at_send_back; exact A0|]. apply HS. exact Hw.
    - apply HQ. apply at_send_back. exact A0.
  Qed.
  Lemma does_sother {A} (p : proc chan A) I O (Q : A -> hist -> hist -> Prop) : other j n I -> (forall a I' O', other j n I' -> Q a I' O') -> dos p I O Q.
  Proof using.
    intros Hot HQ. apply does_anything.
    - intros x O' C. destruct (other_counted j n (I ++ x)); [apply other_more; exact Hot|exact C].
    - intros x C. destruct (other_counted j n (I ++ x)); [apply other_more; exact Hot|exact C].
    - intros a x O'. apply HQ. apply other_more. exact Hot.
  Qed.

  Lemma scout_eq : cout = le 4 (Z.of_nat (N + n)).
  Proof using Lq. unfold sim_count_out. rewrite Lq. reflexivity. Qed.

  Lemma does_simulate I O (Q : ready -> hist -> hist -> Prop) : at_ [] [] [] [] I O ->
    (forall rp' I' O', other j n I' \/ (rp' = rp /\ at_ cin [1] cout [1] I' O') -> Q rp' I' O') ->
    dos (pparty_simulate true rng (S j) cf) I O Q.
  Proof using All.
    intros A0 HQ. pose proof H as [G GK Hb Hsz [H255 Hk] [Hr1 Hr] Ht].
    assert (Esh : shuffled_count (Z.of_nat n) (Z.of_nat N) = Z.of_nat (N + n)).
    { unfold shuffled_count. rewrite w32_id by (unfold u32; lia). lia. }
    pose proof (noise_samples_spec rng keys rows j cf G Hr1 ltac:(lia) ltac:(lia)) as Esm.
    pose proof Ep as Ep'. unfold party_simulate in Ep'. rewrite (party_check_spec rng keys rows j cf G Hk) in Ep'. cbn [bind] in Ep'.
    rewrite Esm in Ep'. cbn [bind] in Ep'. rewrite Esh, !Nat2Z.id, El in Ep'. cbn [bind] in Ep'.
    unfold pparty_simulate. replace (S j - 1)%nat with j by lia. rewrite Esm. cbn [lift pbind].
    apply does_bind. unfold pparty_counts. replace (S j - 1)%nat with j by lia. apply does_bind. apply does_count. intros n' U'.
    apply at_read_prev with (bs := le 4 n') in A0. cbn [app] in A0.
    destruct (Z.eq_dec n' (Z.of_nat n)) as [->|Ne].
    2:{ apply does_sother; [|intros; apply does_sother; [assumption|]; intros; apply HQ; left; assumption].
        exists n'. split; [|exact Ne]. split; [exact U'|]. rewrite (at_prev _ _ _ _ _ _ _ A0). apply begins_refl. }
    rewrite Esh. apply does_bind.
    eapply ssend_fwd; [apply (fo_count (X := unit) (est := established))|exact A0| |].
    { intros w Hw. apply ssaid_count; [apply begins_refl|]. rewrite scout_eq. exact Hw. }
    clear A0. intros O1 A1. cbn [app] in A1. cbn [does]. fold cin in A1. rewrite <- scout_eq in A1. rewrite !Esh, !Nat2Z.id, El. cbn [lift pbind].
    destruct (cs_initialize cs_new (remaining_parties cf) (Z.of_nat N) true true) as [ns| | |]; cbn [bind] in Ep'; try discriminate Ep'.
    cbn [lift pbind].
    match type of Ep' with bind ?x _ = _ => destruct x as [queries| | |] eqn:Eqs; cbn [bind] in Ep'; try discriminate Ep' end.
    cbn [lift pbind]. inversion Ep' as [Erp]. apply does_bind. apply does_wait.
    apply at_read_next with (bs := [1]) in A1. cbn [app map] in A1. apply does_bind.
    eapply ssend_back with (bs := [1]); [apply (fo_ready (X := unit) (est := established))|exact A1| |].
    { intros w Hw. apply ssaid_ready; [apply begins_refl|apply begins_refl|exact Hw]. }
    clear A1. intros O2 A2. cbn [does app] in *. apply HQ. right. split; [exact Erp|exact A2].
  Qed.

  Lemma does_sonline I O (Q : unit -> hist -> hist -> Prop) : online = true -> at_ cin [1] cout [1] I O ->
    (forall raw qs resps answers I' O', queries_passed ls n nqs raw qs -> responses_passed ls n nqs resps answers ->
       at_ (cin ++ concat raw) ([1] ++ concat resps) (cout ++ concat (map enc_query qs)) ([1] ++ concat answers) I' O' ->
       Q tt I' O') ->
    dos (do rp' <- pparty_forward mem (S j) rp; pparty_backward mem (S j) rp') I O Q.
  Proof using All.
    intros Eon A0 HQ. pose proof H as [G GK Hb Hsz [H255 Hk] [Hr1 Hr] Ht].
    destruct (party_simulate_counts _ _ _ _ _ _ Ep) as (Rs & Rn & Re).
    assert (Rn' : rp_noise rp = Z.of_nat N) by (apply (noise_back n N); assumption).
    assert (Rd : Z.to_nat (rp_shuffled rp - rp_noise rp) = n) by (rewrite Rs, Rn'; lia).
    set (h := fun (s : nat * qstate * batch Z * batch query) q =>
      let '(read, p, tags, qs) := s in
      let* tags' := bt_push tags (q_tag q) in
      let* target := ls_shuffle (rp_shuffler rp) read in
      let* h := handle_query p q in
      let* qs' := bt_set qs target (fst h) in
      Ok (S read, snd h, tags', qs')).
    set (s0 := (Z.to_nat (rp_noise rp), rp_state rp, rp_tags rp, rp_queries rp)).
    assert (Pf : forall qs, length qs = n -> party_forward rp qs =
      let* r := fold_res h qs s0 in let '(_, p, tags, qs) := r in
      Ok ({| rp_noise := rp_noise rp; rp_input := rp_input rp; rp_shuffled := rp_shuffled rp; rp_state := p;
         rp_shuffler := rp_shuffler rp; rp_tags := tags; rp_queries := bt_initialize zero_query 0 |}, bt_all qs)).
    { intros qs Lqs. unfold party_forward. rewrite Rd, recv_all by exact Lqs. reflexivity. }
    apply does_bind. unfold pparty_forward. replace (S j - 1)%nat with j by lia. apply does_bind. rewrite Rd.
    apply does_take_each; [exact su_mono|apply Hmem|apply message_sizes|lia| |].
    { intros msgs Bm Lm Eub. exfalso.
      change (fold_res (fun s m => h s (dec_query m)) msgs s0 = UB) in Eub. rewrite fold_map in Eub.
      assert (Bz : bytes 12 (repeat 0 12)) by (split; [apply repeat_length|apply Forall_repeat; unfold byte; lia]).
      set (raw := msgs ++ repeat (repeat 0 12) (n - length msgs)).
      assert (Lraw : length raw = n) by (unfold raw; rewrite app_length, repeat_length; lia).
      destruct (On raw Lraw) as (rp' & out' & E & _); [apply Forall_app; split; [exact Bm|apply Forall_repeat; exact Bz]|].
      rewrite Pf in E by (rewrite map_length; exact Lraw). unfold raw in E. rewrite map_app, fold_res_app, Eub in E. discriminate E. }
    intros raw [[[read p] tags] qb] Braw Lraw Efold.
    change (fold_res (fun s m => h s (dec_query m)) raw s0 = Ok (read, p, tags, qb)) in Efold. rewrite fold_map in Efold.
    apply at_read_prev with (bs := concat raw) in A0.
    assert (Lqr : length (map dec_query raw) = n) by (rewrite map_length; exact Lraw).
    pose proof (Pf _ Lqr) as Ef. rewrite Efold in Ef. cbn [bind] in Ef.
    destruct (On raw Lraw Braw) as (rp' & qs & Ef' & QS & HB). rewrite Ef in Ef'. inversion Ef'. subst qs.
    destruct (fo_send_messages (X := unit) (est := established) (Fwd (S j)) (mem 3%nat) query_size (fun _ q => Ok (enc_query q, tt)) (bt_all qb) tt _ _
        (Hmem 3%nat) (proj1 message_sizes) (pure_as_fold enc_query (bt_all qb) []) (queries_len _)) as (w1 & w2 & e1 & e2 & F1 & F2 & Qe).
    cbn [app] in Qe.
    assert (SQ : forall w, begins w (concat (map enc_query (bt_all qb))) -> said (cin ++ concat raw) [1] (cout ++ w) [1]).
    { intros w Hw. eapply ssaid_queries; [exact Eon|exact QS|apply begins_refl|apply begins_refl|apply begins_app; exact Hw]. }
    rewrite Qe in SQ. apply does_bind. eapply ssend_fwd; [exact F1|exact A0| |].
    { intros w Hw. apply SQ. apply begins_more. exact Hw. }
    clear A0. intros O1 A1. cbn [fst snd]. apply does_bind. eapply ssend_fwd; [exact F2|exact A1| |].
    { intros w Hw. rewrite <- app_assoc. apply SQ. apply begins_app. exact Hw. }
    clear A1. intros O2 A2. rewrite <- app_assoc, <- Qe in A2. cbn [does].
    rewrite H1. clear Ef'.
    set (hb := fun (s : nat * batch (list Z)) (resp : list Z) =>
      let '(read, out) := s in
      let* target := ls_deshuffle (rp_shuffler rp') read in
      if (Z.of_nat target <? rp_noise rp') then Ok (S read, out)
      else
        let target_index := (target - Z.to_nat (rp_noise rp'))%nat in
        let* old := bt_get out target_index in
        let* tag := bt_get (rp_tags rp') target_index in
        let* v := handle_response (rp_state rp') tag resp old in
        let* out' := bt_set out target_index v in
        Ok (S read, out')).
    set (t0 := (0%nat, bt_initialize zero_response (Z.to_nat (rp_input rp')))).
    assert (Rs' : Z.to_nat (rp_shuffled rp') = (N + n)%nat) by (rewrite <- H1; cbn [rp_shuffled]; rewrite Rs; lia).
    assert (Pb : forall rs, length rs = (N + n)%nat -> party_backward rp' rs = let* r := fold_res hb rs t0 in Ok (bt_all (snd r))).
    { intros rs Lrs. unfold party_backward. rewrite Rs', recv_all by exact Lrs. reflexivity. }
    unfold pparty_backward. replace (S j - 1)%nat with j by lia. rewrite Rs'. apply does_bind.
    apply does_take_each; [exact su_mono|apply Hmem|apply message_sizes|lia| |].
    { intros msgs Bm Lm Eub. exfalso. change (fold_res hb msgs t0 = UB) in Eub.
      assert (Bz : bytes 52 (repeat 0 52)) by (split; [apply repeat_length|apply Forall_repeat; unfold byte; lia]).
      set (rs := msgs ++ repeat (repeat 0 52) (N + n - length msgs)).
      assert (Lrs : length rs = (N + n)%nat) by (unfold rs; rewrite app_length, repeat_length; lia).
      assert (Brs : Forall (bytes 52) rs) by (apply Forall_app; split; [exact Bm|apply Forall_repeat; exact Bz]).
      destruct (HB rs Lrs Brs) as (back & E & _). rewrite (Pb rs Lrs) in E. unfold rs in E. rewrite fold_res_app, Eub in E. discriminate E. }
    intros resps r Br Lr Er. change (fold_res hb resps t0 = Ok r) in Er. apply at_read_next with (bs := concat resps) in A2.
    destruct (HB resps Lr Br) as (back & E & Sb & RS). rewrite (Pb resps Lr), Er in E. cbn [bind] in E. inversion E. subst back.
    pose proof (pure_as_fold (fun v => v) (bt_all (snd r)) []) as Epf. rewrite map_id in Epf. cbn [app] in Epf.
    destruct (fo_send_messages (X := unit) (est := established) (Bwd j) (mem 5%nat) response_size (fun _ v => Ok (v, tt)) (bt_all (snd r)) tt _ _
        (Hmem 5%nat) (proj2 message_sizes) Epf Sb) as (w3 & w4 & e3 & e4 & F3 & F4 & Qf).
    assert (SR : forall w, begins w (concat (bt_all (snd r))) ->
      said (cin ++ concat raw) ([1] ++ concat resps) (cout ++ concat (map enc_query (bt_all qb))) ([1] ++ w)).
    { intros w Hw. eapply ssaid_responses; [exact Eon|exact QS|exact RS|apply begins_refl|apply begins_refl|apply begins_app; exact Hw]. }
    rewrite Qf in SR. apply does_bind. eapply ssend_back; [exact F3|exact A2| |].
    { intros w Hw. apply SR. apply begins_more. exact Hw. }
    clear A2. intros O3 A3. cbn [fst snd]. apply does_bind. eapply ssend_back; [exact F4|exact A3| |].
    { intros w Hw. rewrite <- app_assoc. apply SR. apply begins_app. exact Hw. }
    clear A3. intros O4 A4. rewrite <- app_assoc, <- Qf in A4. cbn [does].
    exact (HQ raw (bt_all qb) resps (bt_all (snd r)) _ _ QS RS A4).
  Qed.

  Lemma does_sim_party : dos (pparty b true rng false online mem (S j) cf) [] []
    (fun a I O => counted j n I -> a = PartyEnd /\
       sim_party_finished ls n nqs online (on (Fwd j) I) (on (Bwd (S j)) I) (on (Fwd (S j)) O) (on (Bwd j) O)).
  Proof using All.
    pose proof H as [G GK Hb Hsz [H255 Hk] [Hr1 Hr] Ht].
    unfold pparty. rewrite (party_check_spec rng keys rows j cf G Hk). cbn [lift pbind]. replace (S j - 1)%nat with j by lia.
    apply does_bind. unfold plisten. apply does_bind. unfold psys_send. cbn [does]. intros n1 Hn1. cbn [length] in Hn1.
    assert (n1 = 1%nat) as -> by lia. cbn [firstn map app]. split.
    { intros _. split; [|apply ssaid_nothing]. intros c x [E|[]]. inversion E; subst. auto. }
    apply does_bind. unfold psys_read. cbn [does]. intros g1 _ _. cbn [does app].
    apply does_bind. unfold pconnect. apply does_bind. unfold psys_read. cbn [does]. intros g2 _ _. apply does_bind. unfold psys_send. cbn [does].
    intros n2 Hn2. cbn [length] in Hn2. assert (n2 = 1%nat) as -> by lia. cbn [firstn map app].
    assert (Ow : own j [(Lis j, 1); (Con (S j), 1)]).
    { intros c x [E|[E|[]]]; inversion E; subst; auto. }
    assert (A0 : at_ [] [] [] [] (map (pair (Con j)) g1 ++ map (pair (Lis (S j))) g2) [(Lis j, 1); (Con (S j), 1)]).
    { split; [| |reflexivity|reflexivity|exact Ow]; rewrite on_app, !on_other; reflexivity. }
    split; [eapply sat_safe; [exact A0|apply ssaid_nothing]|].
    apply does_bind. apply does_simulate; [exact A0|]. intros rp' I O [Hot|(-> & A1)].
    { apply does_sother; [exact Hot|]. intros a I' O' Hot' C. destruct (other_counted _ _ _ Hot' C). }
    apply does_bind. remember online as onl eqn:Eon. destruct onl.
    - eapply does_sonline; [symmetry; exact Eon|exact A1|].
      intros raw qs resps answers I' O' QS RS A2 C. split; [reflexivity|]. destruct A2 as [-> -> -> -> _].
      eapply sfinished_online; eassumption.
    - cbn [does]. intros C. split; [reflexivity|]. destruct A1 as [-> -> -> -> _]. apply sfinished_offline.
  Qed.
End Party.
