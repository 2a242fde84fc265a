(** What the parties before an honest one see (C71). *)
From Verif Require Import Base BaseProofs Incremental IncrementalProofs Wire WireProofs Additive AdditiveProofs Onion OnionProofs Shuffle State Database
  Handlers Batch Party Chain Spec ChainSpec SharingProofs ShuffleProofs StateProofs OnlineProofs OfflineProofs OfflineParty ChainProofs UpstreamSpec TagProofs.

(** ** The levels of a run, explicitly *)
Section Levels.
  Context (rng : rng_t) (m rows : nat) (order : lshuffler -> list nat).
  (** [k]: the number of parties passed. *)
  Definition below (k : nat) (cf : pconf) (ls : lshuffler) (items : list item) : list item :=
    pick no_item (noise_items rows (m - k - 1) cf (length items) ++ map advance items) (order ls).
  Fixpoint levels_by (k : nat) (parties : list pconf) (items : list item) : list (list item) :=
    items :: match parties with
             | [] => []
             | cf :: rest =>
                 match ls_initialize rng (pf_seed cf) (noise_total rows cf + length items) with
                 | Ok ls => levels_by (S k) rest (below k cf ls items)
                 | _ => []
                 end
             end.
  Lemma levels_cons k parties items : exists t, levels_by k parties items = items :: t.
  Proof. destruct parties; cbn [levels_by]; eauto. Qed.
End Levels.

Section Stage.
  Context (b : sealbox) (rng : rng_t) (keys : list (list Z * list Z)) (rows : nat) (bpk bsk : list Z).
  Context (Hbox : forall pk sk, In (pk, sk) keys -> box_ok b pk sk) (H255 : (length keys <= 255)%nat)
          (Hr1 : (1 <= rows)%nat) (Hr : Z.of_nat rows <= 2 ^ 31 - 1).
  Notation sent := (levels_by rng (length keys) rows ls_backward).
  Notation sealed := (levels_by rng (length keys) rows ls_forward).

  Lemma offline_levels : forall parties k items items_c cs,
    (S k + length parties = length keys)%nat ->
    nth_error keys (k + length parties) = Some (bpk, bsk) ->
    (forall j cf, nth_error parties j = Some cf -> good_party rng keys rows (k + j) cf /\ good_party_keys keys rows (k + j) cf) ->
    Z.of_nat (length items + list_sum (map (noise_total rows) parties)) < 2 ^ 32 ->
    Forall2 (opens b (skipn k keys)) cs items_c -> Permutation items_c items ->
    Forall (ok_item rows (length keys - k)) items ->
    Permutation (map it_tag items) (map Z.of_nat (seq 0 (length items))) ->
    exists links states bp,
      offline_chain b true rng parties bpk bsk (Z.of_nat (length items)) cs = Ok (links, states, bp) /\
      chain_ok rows bp states (sent k parties items) /\ length states = length parties /\
      map fst links = map (fun l => Z.of_nat (length l)) (sent k parties items) /\
      length (sent k parties items) = S (length parties) /\ length links = S (length parties) /\
      (forall j l, nth_error links j = Some l -> Forall2 (opens b (skipn (k + j) keys)) (snd l) (nth j (sealed k parties items_c) [])).
  Proof using All.
    induction parties as [|cf parties IH]; intros k items items_c cs Hk Hbk Gp Ht F2 Pc Oi Tg.
    - destruct (offline_chain_spec b rng keys rows bpk bsk Hbox H255 Hr1 Hr [] k items items_c cs Hk Hbk Gp Ht F2 Pc Oi Tg)
        as (links & states & bp & levels & E & C & _ & _ & Lf & _ & Ls & _).
      destruct states; [|discriminate]. inversion C; subst. exists links, [], bp. split; [exact E|].
      cbn [offline_chain] in E. apply bind_Ok in E as (p & _ & E). injection E as <- <-.
      cbn [levels_by]. split; [exact C|]. repeat (split; [reflexivity|]). intros [|j] l N; [|destruct j; discriminate].
      injection N as <-. rewrite Nat.add_0_r. exact F2.
    - cbn [length map list_sum fold_right] in *.
      destruct (Gp 0%nat cf eq_refl) as [G GK]. rewrite Nat.add_0_r in G, GK.
      destruct (party_offline_spec b rng keys rows k cf cs items_c items G GK Hbox H255 ltac:(lia) Hr1 Hr ltac:(unfold list_sum in *; lia) F2 Pc Oi Tg)
        as (rp & cs' & items_c' & E & Hh & F2' & Pc' & Ec' & El).
      rewrite noise_items_length in El.
      set (noise := noise_items rows (length keys - k - 1) cf (length items)) in *.
      assert (Ln : length noise = noise_total rows cf) by apply noise_items_length.
      assert (O : ls_ok (length noise + length items) (rp_shuffler rp)) by apply Hh.
      set (next := next_items (rp_shuffler rp) noise items) in *.
      assert (Lnext : length next = (length noise + length items)%nat) by apply (next_length rp noise items Hh).
      pose proof (next_perm _ _ noise items O eq_refl) as Pn. fold next in Pn.
      assert (Tn : map it_tag noise = map Z.of_nat (seq (length items) (noise_total rows cf))) by apply noise_items_tags.
      assert (Lc : length items_c = length items) by (apply Permutation_length; exact Pc).
      destruct (IH (S k) next items_c' cs') as (links & states & bp & E' & C & Lst & Lf & Ll & Lk & Ck).
      + lia.
      + rewrite Nat.add_succ_l, <- Nat.add_succ_r. exact Hbk.
      + intros j cf' N. rewrite Nat.add_succ_l, <- Nat.add_succ_r. apply (Gp (S j) cf' N).
      + unfold list_sum in *. lia.
      + exact F2'.
      + exact Pc'.
      + apply (Forall_ok_next rows _ _ _ noise items O eq_refl).
        * replace (length keys - S k)%nat with (length keys - k - 1)%nat by lia.
          apply noise_items_ok; [exact (gp_rand _ _ _ _ GK)|exact Hr|unfold list_sum in *; lia].
        * replace (S (length keys - S k)) with (length keys - k)%nat by lia. exact Oi.
      + apply (Permutation_map it_tag) in Pn. rewrite map_app, map_tag_advance, Tn in Pn.
        eapply Permutation_trans; [apply Permutation_sym; exact Pn|]. rewrite Lnext, Ln, Nat.add_comm, seq_app, map_app. cbn [Nat.add].
        eapply Permutation_trans; [apply Permutation_app_comm|]. apply Permutation_app_tail. exact Tg.
      + exists ((Z.of_nat (length items), cs) :: links), (rp :: states), bp.
        cbn [offline_chain levels_by]. rewrite Lc, El. change (below (length keys) rows ls_backward k cf (rp_shuffler rp) items) with next.
        rewrite E. cbn [bind]. rewrite <- Lnext, E'. cbn [bind]. split; [reflexivity|].
        destruct (levels_cons rng (length keys) rows ls_backward (S k) parties next) as (t & Et). rewrite Et in *.
        split; [|split; [|split; [|split; [|split]]]].
        * apply chain_party; [exact Hh| |exact C].
          replace (S (S (length states))) with (length keys - k)%nat by lia. exact Oi.
        * cbn. lia.
        * cbn [map fst] in *. f_equal. exact Lf.
        * cbn [length] in *. lia.
        * cbn. lia.
        * intros [|j] l N; cbn [nth_error nth] in N |- *.
          -- injection N as <-. rewrite Nat.add_0_r. exact F2.
          -- rewrite Nat.add_succ_r, <- Nat.add_succ_l. unfold below. rewrite Lc. fold noise. rewrite <- Ec'. exact (Ck j l N).
  Qed.
End Stage.

(** ** Two runs side by side *)
Definition sound (db : list response) (it : item) : Prop :=
  bytes 52 (enc_response (row db (it_key it))) /\ Forall (bytes 52) (map o_preshare (it_secrets it)).
(** The same for whoever holds the next [d] secrets. *)
Definition alike (db : list response) (d : nat) (it it' : item) : Prop :=
  it_tag it = it_tag it' /\ it_tally it = it_tally it' /\ answer db it = answer db it' /\
  firstn d (it_secrets it) = firstn d (it_secrets it') /\ length (it_secrets it) = length (it_secrets it') /\ sound db it /\ sound db it'.

Lemma sound_answer db it : sound db it -> bytes 52 (answer db it).
Proof. intros [H1 H2]. apply bytes_xorl; [exact H1|apply bytes_xor_all; exact H2]. Qed.
Lemma sound_advance db it : sound db it -> sound db (advance it).
Proof. intros [H1 H2]. split; [exact H1|]. unfold advance; cbn [it_secrets]. destruct (it_secrets it); [constructor|]. inversion H2; assumption. Qed.
Lemma ok_sound db m it : Forall wf_response db -> ok_item (length db) m it -> sound db it.
Proof.
  intros F (_ & W & _ & B). split; [apply bytes_enc_response, row_wf; assumption|].
  apply Forall_map. eapply Forall_impl; [|exact W]. intros s [Hw _]. apply Hw.
Qed.
Lemma alike_refl db d it : sound db it -> alike db d it it.
Proof. intros H. unfold alike. auto 10. Qed.
Lemma xorl_cancel a b c : bytes 52 a -> bytes 52 b -> bytes 52 c -> xorl a c = xorl b c -> a = b.
Proof.
  intros Ha Hb Hc E. apply (f_equal (fun z => xorl z c)) in E. rewrite !xorl_assoc, !xorl_nilp in E by apply Hc.
  rewrite !xorl_zero_r in E; [exact E|apply Hb|apply Ha].
Qed.
Lemma alike_advance db d it it' : alike db (S d) it it' -> alike db d (advance it) (advance it').
Proof.
  intros (Tg & Ty & An & Fi & Ln & S1 & S2).
  destruct (it_secrets it) as [|s ss] eqn:E, (it_secrets it') as [|s' ss'] eqn:E'; try discriminate.
  - unfold alike. pose proof (sound_advance _ _ S1). pose proof (sound_advance _ _ S2).
    unfold advance, answer in *. cbn [it_tag it_tally it_secrets it_key] in *. rewrite E, E' in *. cbn [tl map firstn] in *. auto 10.
  - cbn [firstn] in Fi. injection Fi as <- Fi. pose proof (sound_advance _ _ S1) as A1. pose proof (sound_advance _ _ S2) as A2.
    split; [exact Tg|]. split; [unfold advance; cbn [it_tally]; rewrite E, E', Ty; reflexivity|]. split.
    + apply (xorl_cancel _ _ (o_preshare s)); [apply sound_answer; exact A1|apply sound_answer; exact A2| |].
      * destruct S1 as [_ F]. rewrite E in F. inversion F; assumption.
      * rewrite (answer_advance db s ss it E), (answer_advance db s ss' it' E'). exact An.
    + assert (T : forall x, it_secrets (advance x) = tl (it_secrets x)) by reflexivity. rewrite !T, E, E'. cbn [tl].
      cbn in Ln. split; [exact Fi|]. split; [lia|]. split; assumption.
Qed.

Section Two.
  Context (rng : rng_t) (m : nat) (db : list response) (order : lshuffler -> list nat).
  Context (Hdb : Forall wf_response db) (Hr1 : (1 <= length db)%nat).

  Lemma no_item_sound : sound db no_item.
  Proof using Hdb Hr1. split; [|constructor]. apply bytes_enc_response, row_wf; [exact Hdb|]. cbn. lia. Qed.

  Lemma Forall2_pick_alike d : forall idx l l', Forall2 (alike db d) l l' -> Forall2 (alike db d) (pick no_item l idx) (pick no_item l' idx).
  Proof using Hdb Hr1.
    intros idx l l' F. unfold pick. induction idx as [|j idx IH]; cbn [map]; constructor; [|exact IH]. clear IH. revert j.
    induction F as [|x y l l' H F IHF]; intros j.
    - destruct j; apply alike_refl, no_item_sound.
    - destruct j as [|j]; cbn [nth]; [exact H|apply IHF].
  Qed.

  Lemma levels_alike : forall parties k items items' d,
    (forall j cf, nth_error parties j = Some cf -> forall input, Forall (sound db) (noise_items (length db) (m - (k + j) - 1) cf input)) ->
    Forall2 (alike db d) items items' -> forall j, (j <= d)%nat ->
    Forall2 (alike db (d - j)) (nth j (levels_by rng m (length db) order k parties items) []) (nth j (levels_by rng m (length db) order k parties items') []).
  Proof using All.
    induction parties as [|cf parties IH]; intros k items items' d Sn F j Hj.
    - destruct j as [|j]; cbn [levels_by nth]; [rewrite Nat.sub_0_r; exact F|]. destruct j; constructor.
    - destruct j as [|j]; cbn [levels_by nth]; [rewrite Nat.sub_0_r; exact F|].
      rewrite <- (Forall2_length' _ _ _ F). destruct (ls_initialize _ _ _) as [ls| | |] eqn:El; try (destruct j; constructor).
      replace (d - S j)%nat with ((d - 1) - j)%nat by lia. apply IH; [| |lia].
      + intros j' cf' N. specialize (Sn (S j') cf' N). rewrite Nat.add_succ_r in Sn. exact Sn.
      + unfold below. rewrite <- (Forall2_length' _ _ _ F). apply Forall2_pick_alike. apply Forall2_app.
        * specialize (Sn 0%nat cf eq_refl (length items)). rewrite !Nat.add_0_r in Sn.
          clear -Sn. induction Sn; constructor; auto using alike_refl.
        * clear -F Hj. induction F as [|x y l l' H F IHF]; cbn [map]; constructor; [|exact IHF].
          apply alike_advance. replace (S (d - 1)) with d by lia. exact H.
  Qed.
End Two.

(** Lengths depend on nothing but lengths. *)
Lemma levels_lengths rng m rows order : forall parties k items items', length items = length items' ->
  map (fun l => length l) (levels_by rng m rows order k parties items) = map (fun l => length l) (levels_by rng m rows order k parties items').
Proof.
  induction parties as [|cf parties IH]; intros k items items' L; cbn [levels_by map]; rewrite L; [reflexivity|]. f_equal.
  destruct (ls_initialize _ _ _); [|reflexivity..]. apply IH. unfold below, pick. rewrite !map_length. reflexivity.
Qed.

(** ** The client's choices *)
Lemma pre_shares_map rx ry : forall n i, pre_shares rx ry n i = map (fun j => {| sx := rx j; sy := w32 (ry j + 1) |}) (seq i n).
Proof. induction n as [|n IH]; intros i; cbn [pre_shares seq map]; [reflexivity|]. rewrite IH. reflexivity. Qed.
Lemma seq_split3 m h : (h < m)%nat -> seq 0 m = seq 0 h ++ h :: seq (S h) (m - h - 1).
Proof. intros H. replace m with (h + S (m - h - 1))%nat at 1 by lia. rewrite seq_app. reflexivity. Qed.
Lemma list_split {A} (l l' : list A) h : (h < length l)%nat -> length l' = length l -> (forall j, j <> h -> nth_error l' j = nth_error l j) ->
  exists a', nth_error l' h = Some a' /\ l' = firstn h l ++ a' :: skipn (S h) l.
Proof.
  revert l l'. induction h as [|h IH]; intros [|x l] [|x' l'] H L E; cbn in H, L; try lia.
  - exists x'. split; [reflexivity|]. cbn. f_equal. apply nth_error_ext. intros i. exact (E (S i) ltac:(lia)).
  - destruct (IH l l') as (a' & N & El); [lia|lia|intros j Hj; exact (E (S j) ltac:(lia))|].
    pose proof (E 0%nat ltac:(lia)) as E0. cbn in E0. injection E0 as ->.
    exists a'. split; [exact N|]. cbn [firstn skipn app]. f_equal. exact El.
Qed.
Lemma incs_nth r m i j : (j < m)%nat -> nth_error (rnd_incs r m i) j = Some {| sx := rn_x r i j; sy := w32 (rn_y r i j + 1) |}.
Proof.
  intros H. unfold rnd_incs, pre_incremental_secret_shares. rewrite pre_shares_map.
  exact (nth_error_map_seq (fun j => {| sx := rn_x r i j; sy := w32 (rn_y r i j + 1) |}) m j H).
Qed.
Lemma incs_length r m i : length (rnd_incs r m i) = m.
Proof. unfold rnd_incs, pre_incremental_secret_shares. rewrite pre_shares_map, map_length, seq_length. reflexivity. Qed.
Lemma incs_split r r' m h i : (h < m)%nat -> (forall j, j <> h -> rn_x r' i j = rn_x r i j) -> (forall j, rn_y r' i j = rn_y r i j) ->
  rnd_incs r' m i = firstn h (rnd_incs r m i) ++ {| sx := rn_x r' i h; sy := w32 (rn_y r i h + 1) |} :: skipn (S h) (rnd_incs r m i).
Proof.
  intros H X Y. destruct (list_split (rnd_incs r m i) (rnd_incs r' m i) h) as (a & N & E).
  - rewrite incs_length. exact H.
  - rewrite !incs_length. reflexivity.
  - intros j Hj. destruct (Nat.lt_ge_cases j m) as [Lt|Ge].
    + rewrite !incs_nth by exact Lt. rewrite X, Y by exact Hj. reflexivity.
    + rewrite !(proj2 (nth_error_None _ _)) by (rewrite incs_length; exact Ge). reflexivity.
  - rewrite E. rewrite incs_nth in N by exact H. injection N as <-. rewrite Y. reflexivity.
Qed.
Lemma nth_mid {A} (pre post : list A) a h : length pre = h -> nth_error (pre ++ a :: post) h = Some a.
Proof. intros <-. rewrite nth_error_app2, Nat.sub_diag by lia. reflexivity. Qed.
Lemma finite_choice {A} (d : A) (P : nat -> A -> Prop) n : (forall i, (i < n)%nat -> exists a, P i a) -> exists f, forall i, (i < n)%nat -> P i (f i).
Proof.
  induction n as [|n IH]; intros H; [exists (fun _ => d); intros; lia|].
  destruct IH as (f & Hf); [intros; apply H; lia|]. destruct (H n ltac:(lia)) as (a & Ha).
  exists (fun i => if (i =? n)%nat then a else f i). intros i Hi. destruct (Nat.eqb_spec i n) as [->|Ne]; [exact Ha|apply Hf; lia].
Qed.

Lemma firstn_combine_app {A B} h : forall (p : list A) (q : list B) t1 t2 t3 t4, length p = h -> length q = h ->
  firstn h (combine (p ++ t1) (q ++ t2)) = firstn h (combine (p ++ t3) (q ++ t4)).
Proof. induction h as [|k IH]; intros [|y p] [|x q] ? ? ? ? Lp Lq; cbn in *; try discriminate; [reflexivity|]. f_equal. apply IH; lia. Qed.

Lemma tally_of_iff key l t : 0 <= key < 2 ^ 31 - 1 -> Forall wf_share l -> (tally_of key l = t <-> generate_incremental_tally key l = Ok t).
Proof.
  intros Hk W. pose proof PRIME_val. destruct (roundtrip_list key l ltac:(lia) W) as (t0 & E & _). unfold tally_of. rewrite E. split; [intros ->; reflexivity|]. intros H0; injection H0; auto.
Qed.

Lemma xor_mid p a q : Forall (bytes 52) q -> bytes 52 a -> xor_all (p ++ a :: q) = xorl a (xor_all (p ++ q)).
Proof.
  intros Fq Fa. rewrite !xor_all_app by (try constructor; assumption). change (xor_all (a :: q)) with (xorl a (xor_all q)).
  rewrite <- !xorl_assoc. f_equal. apply xorl_comm.
Qed.

Section Client.
  Context (db : list response) (r : rand) (m n h : nat).
  Context (Hdb : Forall wf_response db) (Hr : Z.of_nat (length db) <= 2 ^ 31 - 1) (Hh : (h < m)%nat) (Hn : Z.of_nat n < 2 ^ 32).
  Notation enc k := (enc_response (row db k)).
  Notation good_key := (fun k => 0 <= k < Z.of_nat (length db)).

  (** The two values that matter. *)
  Definition meets (r' : rand) (keys keys' : list Z) (i : nat) : Prop :=
    it_tally (client_item r' m keys' i) = it_tally (client_item r m keys i) /\ answer db (client_item r' m keys' i) = answer db (client_item r m keys i).

  Lemma alike_client r' keys keys' : good_rand r n m -> good_rand r' n m -> same_but h n r r' -> length keys = n -> length keys' = n ->
    Forall good_key keys -> Forall good_key keys' -> (forall i, (i < n)%nat -> meets r' keys keys' i) ->
    Forall2 (alike db h) (client_items r m keys) (client_items r' m keys').
  Proof using All.
    intros G G' B L L' Fk Fk' M. unfold client_items. rewrite L, L'.
    assert (H : forall i, List.In i (seq 0 n) -> alike db h (client_item r m keys i) (client_item r' m keys' i)).
    { intros i Hi. apply in_seq in Hi. destruct (M i ltac:(lia)) as [M1 M2].
      rewrite <- L in G. rewrite <- L' in G'.
      destruct (client_item_ok (length db) r m keys i G Hr Fk ltac:(lia) ltac:(lia)) as [O1 _].
      destruct (client_item_ok (length db) r' m keys' i G' Hr Fk' ltac:(lia) ltac:(lia)) as [O2 _].
      split; [reflexivity|]. split; [symmetry; exact M1|]. split; [symmetry; exact M2|]. split; [|split; [|split; [apply (ok_sound db m); assumption|apply (ok_sound db m); assumption]]].
      - cbn [client_item mk_item it_secrets]. unfold mk_secrets. rewrite !firstn_map. f_equal.
        destruct (G i ltac:(lia)) as (_ & Gl & _). destruct (G' i ltac:(lia)) as (_ & Gl' & _).
        rewrite (incs_split r r' m h i Hh); [|intros j Hj; apply (sb_x _ _ _ _ B); intuition|apply (sb_y _ _ _ _ B)].
        destruct (list_split (rn_masks r i) (rn_masks r' i) h) as (a' & _ & ->); [lia|lia|intros j Hj; apply (sb_masks _ _ _ _ B); intuition|].
        rewrite <- (firstn_skipn h (rnd_incs r m i)) at 1. rewrite <- (firstn_skipn h (rn_masks r i)) at 1.
        assert (Lp : length (firstn h (rnd_incs r m i)) = h) by (rewrite firstn_length, incs_length; lia).
        assert (La : length (firstn h (rn_masks r i)) = h) by (rewrite firstn_length; lia).
        apply firstn_combine_app; assumption.
      - rewrite (proj1 O1), (proj1 O2). reflexivity. }
    revert H. generalize (seq 0 n) as l. induction l as [|i l IH]; intros H; cbn [map]; constructor; [apply H; left; reflexivity|].
    apply IH. intros j Hj. apply H. right. exact Hj.
  Qed.

  (** There is exactly one choice for the honest entity that meets them. *)
  Lemma choice keys keys' i : good_rand r n m -> length keys = n -> length keys' = n -> Forall good_key keys -> Forall good_key keys' -> (i < n)%nat ->
    exists x mask, 0 <= x < p31 /\ bytes 52 mask /\ forall r', same_but h n r r' -> good_rand r' n m ->
      (meets r' keys keys' i <-> rn_x r' i h = x /\ nth_error (rn_masks r' i) h = Some mask).
  Proof using All.
    intros G L L' Fk Fk' Hi. pose proof PRIME_val as PV.
    assert (Ki : good_key (nth i keys 0)) by (rewrite Forall_forall in Fk; apply Fk, nth_In; lia).
    assert (Ki' : good_key (nth i keys' 0)) by (rewrite Forall_forall in Fk'; apply Fk', nth_In; lia).
    cbv beta in Ki, Ki'. set (key := nth i keys 0) in *. set (key' := nth i keys' 0) in *.
    destruct (G i Hi) as (Gd & Gl & Gm). destruct (make_shares _ _ _ m 0 Gd Gl Gm) as (Li & Wi & _).
    destruct (roundtrip_list key (rnd_incs r m i) ltac:(lia) Wi) as (t & Et & Bt & _).
    pose proof (incs_split r r m h i Hh (fun _ _ => eq_refl) (fun _ => eq_refl)) as Ei.
    destruct (list_split (rn_masks r i) (rn_masks r i) h) as (a & _ & Em); [lia|reflexivity|reflexivity|].
    assert (Hh1 : forall r', same_but h n r r' -> rnd_incs r' m i = firstn h (rnd_incs r m i) ++ {| sx := rn_x r' i h; sy := w32 (rn_y r i h + 1) |} :: skipn (S h) (rnd_incs r m i)).
    { intros r' B. apply incs_split; [exact Hh|intros j Hj; apply (sb_x _ _ _ _ B); intuition|apply (sb_y _ _ _ _ B)]. }
    assert (Hh2 : forall r', same_but h n r r' -> good_rand r' n m -> exists a', nth_error (rn_masks r' i) h = Some a' /\ rn_masks r' i = firstn h (rn_masks r i) ++ a' :: skipn (S h) (rn_masks r i)).
    { intros r' B G'. destruct (G' i Hi) as (_ & Gl' & _). apply list_split; [lia|lia|intros j Hj; apply (sb_masks _ _ _ _ B); intuition]. }
    revert Ei Em Hh1 Hh2. generalize (firstn h (rnd_incs r m i)) as pre, (skipn (S h) (rnd_incs r m i)) as post, (firstn h (rn_masks r i)) as p, (skipn (S h) (rn_masks r i)) as q.
    intros pre post p q Ei Em Hh1 Hh2.
    assert (W2 : Forall wf_share pre /\ 0 <= rn_x r i h < PRIME /\ 1 <= w32 (rn_y r i h + 1) < PRIME /\ Forall wf_share post).
    { pose proof Wi as W. fold (rnd_incs r m i) in W. rewrite Ei in W. apply Forall_app in W as [W1 W]. inversion W as [|? ? [X Y] W3]; subst. cbn in X, Y. auto. }
    destruct W2 as (Wpre & _ & Hy & Wpost). set (y := w32 (rn_y r i h + 1)) in *.
    destruct (c05_hiding pre post y t key' Wpre Wpost Hy ltac:(lia) ltac:(lia)) as (x & [Hx Ex] & Ux).
    pose proof Gm as Gm'. rewrite Em in Gm'. apply Forall_app in Gm' as [Gp Gm']. apply Forall_cons_iff in Gm' as [Ga Gq].
    assert (B1 : bytes 52 (enc key)) by (apply bytes_enc_response, row_wf; assumption).
    assert (B2 : bytes 52 (enc key')) by (apply bytes_enc_response, row_wf; assumption).
    assert (Bx : bytes 52 (xor_all (p ++ q))) by (apply bytes_xor_all, Forall_app; split; assumption).
    exists x, (xorl a (xorl (enc key) (enc key'))). split; [unfold p31; lia|]. split; [repeat apply bytes_xorl; assumption|].
    intros r' B G'. specialize (Hh1 r' B). destruct (Hh2 r' B G') as (a' & Na' & Em').
    destruct (G' i Hi) as (Gd' & Gl' & Gmm). destruct (make_shares _ _ _ m 0 Gd' Gl' Gmm) as (Li' & Wi' & _).
    assert (Ga' : bytes 52 a') by (rewrite Em' in Gmm; apply Forall_app in Gmm as [_ Gmm]; inversion Gmm; assumption).
    assert (Tl : it_tally (client_item r m keys i) = t) by (cbn; fold key; apply tally_of_iff; [lia|exact Wi|exact Et]).
    unfold meets. rewrite Tl, Na'.
    assert (An : forall s ks mk, good_rand s n m -> rn_masks s i = p ++ mk :: q -> bytes 52 mk ->
      answer db (client_item s m ks i) = xorl (enc (nth i ks 0)) (xorl mk (xor_all (p ++ q)))).
    { intros s ks mk Gs Es Bs. destruct (Gs i Hi) as (_ & Gls & _). unfold answer. cbn [client_item mk_item it_secrets it_key].
      rewrite mk_pres by (rewrite incs_length; lia). rewrite Es, xor_mid by assumption. reflexivity. }
    rewrite (An r' keys' a' G' Em' Ga'), (An r keys a G Em Ga). fold key key'.
    assert (T : it_tally (client_item r' m keys' i) = t <-> rn_x r' i h = x).
    { cbn [client_item mk_item it_tally]. fold key'. rewrite tally_of_iff by (try lia; exact Wi'). rewrite Hh1. split.
      - intros E. symmetry. apply Ux. split; [|exact E]. destruct (Gd' h Hh) as [X _]. unfold p31 in X. lia.
      - intros ->. exact Ex. }
    rewrite T. clear T. assert (A : xorl (enc key') (xorl a' (xor_all (p ++ q))) = xorl (enc key) (xorl a (xor_all (p ++ q))) <-> a' = xorl a (xorl (enc key) (enc key'))).
    { rewrite <- !xorl_assoc. split.
      - intros E. apply xorl_cancel in E; [|apply bytes_xorl; assumption|apply bytes_xorl; assumption|exact Bx].
        apply (proj1 (xorl_solve _ _ _ B2 Ga' (bytes_xorl _ _ _ B1 Ga))) in E. rewrite E.
        rewrite (xorl_comm (enc key')), (xorl_comm (enc key) a), xorl_assoc. reflexivity.
      - intros ->. f_equal. rewrite <- xorl_assoc, (xorl_comm (enc key')), !xorl_assoc, xorl_nilp, xorl_zero_r by (try apply B1; apply B2). apply xorl_comm. }
    rewrite A. split; intros [H1 H2]; (split; [exact H1|]); [rewrite H2; reflexivity|injection H2 as ->; reflexivity].
  Qed.
End Client.

(** Exactly one choice for all queries of a client. *)
Lemma client_choice db r m n h keys keys' : Forall wf_response db -> Z.of_nat (length db) <= 2 ^ 31 - 1 -> (h < m)%nat -> Z.of_nat n < 2 ^ 32 ->
  good_rand r n m -> length keys = n -> length keys' = n ->
  Forall (fun k => 0 <= k < Z.of_nat (length db)) keys -> Forall (fun k => 0 <= k < Z.of_nat (length db)) keys' ->
  exists r', same_but h n r r' /\ good_rand r' n m /\ (forall i, (i < n)%nat -> meets db r m r' keys keys' i) /\
    forall r'', same_but h n r r'' -> good_rand r'' n m -> (forall i, (i < n)%nat -> meets db r m r'' keys keys' i) -> same_at h n r' r''.
Proof.
  intros Hdb Hr Hh Hn G L L' Fk Fk'.
  destruct (finite_choice (0, []) (fun i (p : Z * list Z) => 0 <= fst p < p31 /\ bytes 52 (snd p) /\ forall r', same_but h n r r' -> good_rand r' n m ->
      (meets db r m r' keys keys' i <-> rn_x r' i h = fst p /\ nth_error (rn_masks r' i) h = Some (snd p))) n) as (f & Hf).
  { intros i Hi. destruct (choice db r m n h Hdb Hr Hh Hn keys keys' i G L L' Fk Fk' Hi)
      as (x & mask & H1 & H2 & H3). exists (x, mask). cbn [fst snd]. auto. }
  set (r' := {| rn_x := fun i j => if (i <? n)%nat && (j =? h)%nat then fst (f i) else rn_x r i j; rn_y := rn_y r;
                rn_masks := fun i => if (i <? n)%nat then upd (rn_masks r i) h (snd (f i)) else rn_masks r i;
                rn_coins := rn_coins r; rn_junk1 := rn_junk1 r; rn_junk2 := rn_junk2 r |}).
  assert (B : same_but h n r r').
  { constructor; unfold r'; cbn [rn_x rn_y rn_masks rn_coins rn_junk1 rn_junk2]; try reflexivity.
    - intros i j H. destruct (Nat.ltb_spec i n), (Nat.eqb_spec j h); cbn [andb]; try reflexivity. exfalso; apply H; auto.
    - intros i j H. destruct (Nat.ltb_spec i n); [|reflexivity]. apply nth_error_upd_ne. intros ->. apply H; auto. }
  assert (G' : good_rand r' n m).
  { intros i Hi. destruct (G i Hi) as (Gd & Gl & Gm). destruct (Hf i Hi) as (F1 & F2 & _). unfold r'; cbn [rn_x rn_y rn_masks]. rewrite (proj2 (Nat.ltb_lt i n) Hi). cbn [andb].
    split; [|split].
    - intros j Hj. destruct (Gd j Hj) as [G1 G2]. cbv beta. destruct (Nat.eqb_spec j h); auto.
    - rewrite length_upd. exact Gl.
    - apply Forall_upd; assumption. }
  assert (M : forall i, (i < n)%nat -> meets db r m r' keys keys' i).
  { intros i Hi. destruct (Hf i Hi) as (_ & _ & H). apply (H r' B G'). unfold r'; cbn [rn_x rn_masks]. rewrite (proj2 (Nat.ltb_lt i n) Hi), Nat.eqb_refl. cbn [andb].
    split; [reflexivity|]. apply nth_error_upd_eq. rewrite (proj1 (proj2 (G i Hi))). lia. }
  exists r'. split; [exact B|]. split; [exact G'|]. split; [exact M|]. intros r'' B'' G'' M'' i Hi.
  destruct (Hf i Hi) as (_ & _ & H). destruct (proj1 (H r'' B'' G'') (M'' i Hi)) as [-> ->]. destruct (proj1 (H r' B G') (M i Hi)) as [-> ->]. auto.
Qed.

(** ** The run *)
Section Run.
  Context (b : sealbox) (rng : rng_t) (db : list response) (junk : list Z) (parties : list pconf) (keys : list (list Z * list Z)) (bpk bsk : list Z).
  Notation sent := (levels_by rng (length keys) (length db) ls_backward 0 parties).
  Notation sealed := (levels_by rng (length keys) (length db) ls_forward 0 parties).

  Lemma run_levels c : deployment rng db c parties keys -> keyed b db c parties keys bpk bsk -> bytes 52 junk ->
    exists o, run b true rng db junk c parties bpk bsk = Ok o /\
      let items := client_items (ct_rand c) (length keys) (ct_keys c) in
      oc_counts o = map (fun l => Z.of_nat (length l)) (sent items) /\ oc_queries o = map (map q_of) (sent items) /\
      oc_responses o = map (map (answer db)) (sent items) /\ length (sent items) = S (length parties) /\
      oc_keys o = map it_key (last (sent items) []) /\
      (forall j l, nth_error (sent items) j = Some l -> incl (map tagged items) (map tagged l)) /\
      length (oc_ciphers o) = S (length parties) /\ forall j cs, nth_error (oc_ciphers o) j = Some cs -> Forall2 (opens b (skipn j keys)) cs (nth j (sealed items) []).
  Proof using.
    intros D K J. pose proof (dp_rows _ _ _ _ _ D) as [Hr1 Hr]. pose proof (dp_total _ _ _ _ _ D) as Ht.
    pose proof (dp_max _ _ _ _ _ D) as H255. pose proof (dp_count _ _ _ _ _ D) as Hc.
    unfold run. rewrite Hc, (ky_client _ _ _ _ _ _ _ K).
    destruct (client_offline_spec b (length db) keys (ct_rand c) (ct_keys c) (ky_box _ _ _ _ _ _ _ K) H255
      (ky_rand _ _ _ _ _ _ _ K) Hr (dp_queries _ _ _ _ _ D) ltac:(lia)) as (cs & st & E & F2 & C).
    rewrite E. cbn [bind fst snd]. set (items := client_items (ct_rand c) (length keys) (ct_keys c)) in *.
    assert (Li : length items = length (ct_keys c)) by apply client_items_length.
    assert (Ki : map it_key items = ct_keys c) by apply client_items_keys.
    assert (Oi : Forall (ok_item (length db) (length keys)) items).
    { apply Forall_map. apply Forall_forall. intros i Hi. apply in_seq in Hi.
      apply client_item_ok; [exact (ky_rand _ _ _ _ _ _ _ K)|exact Hr|exact (dp_queries _ _ _ _ _ D)|lia|lia]. }
    destruct (offline_levels b rng keys (length db) bpk bsk (ky_box _ _ _ _ _ _ _ K) H255 Hr1 Hr parties 0 items items cs)
      as (links & states & bp & E1 & Ch & Ls & Lf & Lv & Lk & Ck).
    - cbn. exact Hc.
    - exact (ky_backend _ _ _ _ _ _ _ K).
    - intros j cf N. cbn [Nat.add]. split; [apply (dp_parties _ _ _ _ _ D j cf N)|apply (ky_parties _ _ _ _ _ _ _ K j cf N)].
    - rewrite Li. exact Ht.
    - exact F2.
    - apply Permutation_refl.
    - rewrite Nat.sub_0_r. exact Oi.
    - rewrite Li. unfold items. rewrite client_items_tags. apply Permutation_refl.
    - destruct (levels_cons rng (length keys) (length db) ls_backward 0 parties items) as (t & Et). 
      rewrite <- Li, E1. cbn [bind]. pose proof (client_queries_spec st items C) as Eq. rewrite Ki in Eq. rewrite Eq. cbn [bind fst snd].
      pose proof (online_spec db junk bp (dp_db _ _ _ _ _ D) J states _ Ch) as E2.
      assert (El : last (map fst links) 0 = Z.of_nat (length (last (sent items) []))).
      { rewrite Lf. apply (last_map (fun l => Z.of_nat (length l))). rewrite Et. discriminate. }
      rewrite El. rewrite Et in E2 |- *. cbn [hd] in E2. rewrite E2. cbn [bind fst snd map].
      pose proof (client_responses_spec db (length keys) st items C (dp_db _ _ _ _ _ D) Oi) as Er. rewrite Ki in Er. rewrite Er. cbn [bind].
      eexists. split; [reflexivity|]. cbn [oc_counts oc_queries oc_responses oc_ciphers oc_keys].
      rewrite Et in Lf, Lv. rewrite Hc in Lv, Lk. split; [exact Lf|]. cbn [map fst snd]. rewrite !map_map. split; [reflexivity|].
      split; [reflexivity|]. split; [exact Lv|]. split; [reflexivity|].
      split; [rewrite Et in Ch; exact (chain_carries _ _ _ _ Ch)|].
      split; [rewrite map_length; exact Lk|]. intros j x N. rewrite nth_error_map in N. destruct (nth_error links j) as [y|] eqn:Ey; [|discriminate].
      injection N as <-. exact (Ck j y Ey).
  Qed.

  Lemma opened_items j cs its : (j < length keys)%nat -> Forall2 (opens b (skipn j keys)) cs its ->
    map (opened b (length keys - j) (nth j keys ([], []))) cs = map (fun it => Some (first_secret it)) its.
  Proof using.
    intros Hj F. induction F as [|x it cs its H F IH]; cbn [map]; [reflexivity|]. f_equal; [|exact IH].
    assert (E : skipn j keys = nth j keys ([], []) :: skipn (S j) keys).
    { apply skipn_nth. apply nth_error_nth'. exact Hj. }
    pose proof (skipn_length j keys) as L. unfold opens in H. rewrite E in H, L. destruct (nth j keys ([], [])) as [pk sk].
    cbn [peels] in H. unfold opened, first_secret. cbn [fst snd]. destruct (it_secrets it) as [|s ss]; [contradiction|].
    destruct H as (_ & c' & Ed & _). rewrite <- L. rewrite Ed. reflexivity.
  Qed.

  Lemma firstn_nth {A} (d : A) n : forall l l', length l = length l' -> (forall j, (j < n)%nat -> nth j l d = nth j l' d) -> firstn n l = firstn n l'.
  Proof using.
    induction n as [|n IH]; intros [|x l] [|x' l'] L H; cbn in L; try discriminate; try reflexivity. cbn [firstn]. f_equal; [exact (H 0%nat ltac:(lia))|].
    apply IH; [lia|]. intros j Hj. exact (H (S j) ltac:(lia)).
  Qed.

  Lemma noise_sound m cf input : good_rand (pf_rand cf) (noise_total (length db) cf) m -> Forall wf_response db -> Forall (sound db) (noise_items (length db) m cf input).
  Proof using.
    intros G F. apply Forall_map, Forall_forall. intros i Hi. apply in_seq in Hi. destruct (G i ltac:(lia)) as (_ & Gl & Gm).
    unfold noise_item. split; cbn [mk_item it_key it_secrets].
    - apply bytes_enc_response, row_wf; [exact F|]. pose proof (noise_keys_bound (length db) cf) as B. rewrite Forall_forall in B. apply B, nth_In. rewrite noise_keys_length. lia.
    - rewrite mk_pres by (rewrite incs_length; lia). exact Gm.
  Qed.

  Lemma seen_alike h c c' o o' : deployment rng db c parties keys -> keyed b db c parties keys bpk bsk ->
    deployment rng db c' parties keys -> keyed b db c' parties keys bpk bsk -> bytes 52 junk -> (h <= length parties)%nat ->
    run b true rng db junk c parties bpk bsk = Ok o -> run b true rng db junk c' parties bpk bsk = Ok o' ->
    Forall2 (alike db h) (client_items (ct_rand c) (length keys) (ct_keys c)) (client_items (ct_rand c') (length keys) (ct_keys c')) ->
    seen b keys h o = seen b keys h o'.
  Proof using.
    intros D K D' K' J Hh Eo Eo' A. pose proof (dp_rows _ _ _ _ _ D) as [Hr1 Hr]. pose proof (dp_count _ _ _ _ _ D) as Hc.
    destruct (run_levels c D K J) as (o1 & E1 & C1 & Q1 & R1 & L1 & _ & _ & N1 & S1). rewrite Eo in E1. injection E1 as <-.
    destruct (run_levels c' D' K' J) as (o2 & E2 & C2 & Q2 & R2 & L2 & _ & _ & N2 & S2). rewrite Eo' in E2. injection E2 as <-.
    set (items := client_items (ct_rand c) (length keys) (ct_keys c)) in *. set (items' := client_items (ct_rand c') (length keys) (ct_keys c')) in *.
    pose proof (Forall2_length' _ _ _ A) as Len.
    assert (Sn : forall j cf, nth_error parties j = Some cf -> forall input, Forall (sound db) (noise_items (length db) (length keys - (0 + j) - 1) cf input)).
    { intros j cf N input. apply noise_sound; [|exact (dp_db _ _ _ _ _ D)]. exact (gp_rand _ _ _ _ (ky_parties _ _ _ _ _ _ _ K j cf N)). }
    pose proof (fun order => levels_alike rng (length keys) db order (dp_db _ _ _ _ _ D) Hr1 parties 0 items items' h Sn A) as LA.
    unfold seen. f_equal.
    - rewrite C1, C2. rewrite <- (map_map (fun l => length l) Z.of_nat (sent items)), <- (map_map (fun l => length l) Z.of_nat (sent items')).
      f_equal. apply levels_lengths. exact Len.
    - apply nth_error_ext. intros j. rewrite !nth_error_map.
      destruct (Nat.lt_ge_cases j (S (length parties))) as [Lt|Ge].
      2:{ rewrite !(proj2 (nth_error_None _ _)) by lia. reflexivity. }
      destruct (nth_error (oc_ciphers o) j) as [x|] eqn:Ex; [|apply nth_error_None in Ex; lia].
      destruct (nth_error (oc_ciphers o') j) as [x'|] eqn:Ex'; [|apply nth_error_None in Ex'; lia]. cbn [option_map]. f_equal.
      specialize (S1 j x Ex). specialize (S2 j x' Ex').
      assert (Sz : forall y its, Forall2 (opens b (skipn j keys)) y its -> map (fun z => length z) y = repeat (124 * (length keys - j))%nat (length its)).
      { intros y its F. induction F as [|z it y its H F IH]; cbn [map length repeat]; [reflexivity|]. f_equal; [|exact IH].
        apply peels_length in H. rewrite H, skipn_length. reflexivity. }
      rewrite (Sz _ _ S1), (Sz _ _ S2). f_equal.
      pose proof (levels_lengths rng (length keys) (length db) ls_forward parties 0 items items' Len) as LL.
      apply (f_equal (fun l => nth j l 0%nat)) in LL. change 0%nat with (length (@nil item)) in LL at 2 4. rewrite !map_nth in LL. exact LL.
    - apply map_ext_in. intros j Hj. apply in_seq in Hj.
      destruct (nth_error (oc_ciphers o) j) as [x|] eqn:Ex; [|apply nth_error_None in Ex; lia].
      destruct (nth_error (oc_ciphers o') j) as [x'|] eqn:Ex'; [|apply nth_error_None in Ex'; lia].
      rewrite (nth_error_nth _ _ [] Ex), (nth_error_nth _ _ [] Ex').
      rewrite (opened_items j x _ ltac:(lia) (S1 j x Ex)), (opened_items j x' _ ltac:(lia) (S2 j x' Ex')).
      specialize (LA ls_forward j ltac:(lia)). destruct (h - j)%nat as [|d] eqn:Hd; [lia|]. clear -LA.
      induction LA as [|it it' l l' (_ & _ & _ & F & Ln & _) LA IH]; cbn [map]; [reflexivity|]. f_equal; [|exact IH]. f_equal. unfold first_secret.
      destruct (it_secrets it), (it_secrets it'); cbn in F, Ln |- *; try discriminate; [reflexivity|]. injection F as -> _. reflexivity.
    - rewrite Q1, Q2. apply (firstn_nth (map q_of [])); [rewrite !map_length; lia|]. intros j Hj. rewrite !map_nth.
      specialize (LA ls_backward j ltac:(lia)). clear -LA. induction LA as [|it it' l l' (T & Y & _) LA IH]; cbn [map]; [reflexivity|].
      f_equal; [|exact IH]. unfold q_of. rewrite T, Y. reflexivity.
    - rewrite R1, R2. apply (firstn_nth (map (answer db) [])); [rewrite !map_length; lia|]. intros j Hj. rewrite !map_nth.
      specialize (LA ls_backward j ltac:(lia)). clear -LA. induction LA as [|it it' l l' (_ & _ & An & _) LA IH]; cbn [map]; [reflexivity|].
      f_equal; [exact An|exact IH].
  Qed.

  Lemma seen_meets h c c' o o' : deployment rng db c parties keys -> keyed b db c parties keys bpk bsk ->
    deployment rng db c' parties keys -> keyed b db c' parties keys bpk bsk -> bytes 52 junk ->
    run b true rng db junk c parties bpk bsk = Ok o -> run b true rng db junk c' parties bpk bsk = Ok o' -> length (ct_keys c') = length (ct_keys c) ->
    seen b keys h o = seen b keys h o' ->
    forall i, (i < length (ct_keys c))%nat -> meets db (ct_rand c) (length keys) (ct_rand c') (ct_keys c) (ct_keys c') i.
  Proof using.
    intros D K D' K' J Eo Eo' Lk E i Hi.
    destruct (run_levels c D K J) as (o1 & E1 & _ & Q1 & R1 & L1 & _). rewrite Eo in E1. injection E1 as <-.
    destruct (run_levels c' D' K' J) as (o2 & E2 & _ & Q2 & R2 & L2 & _). rewrite Eo' in E2. injection E2 as <-.
    pose proof (f_equal vw_queries E) as EQ. pose proof (f_equal vw_responses E) as ER. cbn [seen vw_queries vw_responses] in EQ, ER.
    rewrite Q1, Q2 in EQ. rewrite R1, R2 in ER.
    destruct (levels_cons rng (length keys) (length db) ls_backward 0 parties (client_items (ct_rand c) (length keys) (ct_keys c))) as (t & Et).
    destruct (levels_cons rng (length keys) (length db) ls_backward 0 parties (client_items (ct_rand c') (length keys) (ct_keys c'))) as (t' & Et').
    rewrite Et, Et' in EQ, ER. cbn [map firstn] in EQ, ER. injection EQ as EQ _. injection ER as ER _.
    unfold client_items in EQ, ER. rewrite Lk, !map_map in EQ, ER.
    apply (f_equal (fun l => nth_error l i)) in EQ. apply (f_equal (fun l => nth_error l i)) in ER. cbv beta in EQ, ER.
    rewrite !nth_error_map_seq in EQ by exact Hi. rewrite !nth_error_map_seq in ER by exact Hi.
    injection EQ as EQ. injection ER as ER. split; [symmetry; exact EQ|]. symmetry; exact ER.
  Qed.
End Run.

Lemma upstream b rng db junk c parties keys bpk bsk o h keys' :
  deployment rng db c parties keys -> keyed b db c parties keys bpk bsk -> bytes 52 junk -> run b true rng db junk c parties bpk bsk = Ok o ->
  (h <= length parties)%nat -> length keys' = length (ct_keys c) -> Forall (fun k => 0 <= k < Z.of_nat (length db)) keys' ->
  let n := length keys' in
  let c' := fun r => {| ct_pkeys := ct_pkeys c; ct_rand := r; ct_keys := keys' |} in
  exists r', same_but h n (ct_rand c) r' /\ good_rand r' n (length keys) /\
    (exists o', run b true rng db junk (c' r') parties bpk bsk = Ok o' /\ seen b keys h o' = seen b keys h o) /\
    (forall r'' o'', same_but h n (ct_rand c) r'' -> good_rand r'' n (length keys) -> run b true rng db junk (c' r'') parties bpk bsk = Ok o'' ->
       seen b keys h o'' = seen b keys h o -> same_at h n r' r'').
Proof.
  intros D K J Eo Hh Lk Fk n c'. pose proof (dp_rows _ _ _ _ _ D) as [Hr1 Hr]. pose proof (dp_count _ _ _ _ _ D) as Hc.
  pose proof (dp_total _ _ _ _ _ D) as Ht. set (r := ct_rand c) in *.
  assert (G : good_rand r n (length keys)) by (unfold n; rewrite Lk; exact (ky_rand _ _ _ _ _ _ _ K)).
  assert (D' : forall r', deployment rng db (c' r') parties keys).
  { intros r'. constructor; cbn [c' ct_keys].
    - exact Hc.
    - exact (dp_max _ _ _ _ _ D).
    - exact (dp_parties _ _ _ _ _ D).
    - exact (dp_rows _ _ _ _ _ D).
    - exact (dp_db _ _ _ _ _ D).
    - exact Fk.
    - rewrite Lk. exact Ht. }
  assert (K' : forall r', good_rand r' n (length keys) -> keyed b db (c' r') parties keys bpk bsk).
  { intros r' G'. constructor; cbn [c' ct_keys ct_pkeys ct_rand].
    - exact (ky_box _ _ _ _ _ _ _ K).
    - exact (ky_parties _ _ _ _ _ _ _ K).
    - exact (ky_backend _ _ _ _ _ _ _ K).
    - exact (ky_client _ _ _ _ _ _ _ K).
    - exact G'. }
  destruct (client_choice db r (length keys) n h (ct_keys c) keys' (dp_db _ _ _ _ _ D) Hr ltac:(lia) ltac:(lia) G (eq_sym Lk) eq_refl (dp_queries _ _ _ _ _ D) Fk)
    as (r' & B & G' & M & Un).
  exists r'. split; [exact B|]. split; [exact G'|]. split.
  - destruct (run_levels b rng db junk parties keys bpk bsk (c' r') (D' r') (K' r' G') J) as (o' & Eo' & _). exists o'. split; [exact Eo'|]. symmetry.
    apply (seen_alike b rng db junk parties keys bpk bsk h c (c' r') o o'); try assumption; [apply D'|apply K'; exact G'|].
    apply (alike_client db r (length keys) n h (dp_db _ _ _ _ _ D) Hr ltac:(lia) ltac:(lia)); try assumption; [symmetry; exact Lk|reflexivity|exact (dp_queries _ _ _ _ _ D)].
  - intros r'' o'' B'' G'' E'' Sn. apply (Un r'' B'' G''). intros i Hi.
    exact (seen_meets b rng db junk parties keys bpk bsk h c (c' r'') o o'' D K (D' r'') (K' r'' G'') J Eo E'' Lk (eq_sym Sn) i ltac:(lia)).
Qed.
