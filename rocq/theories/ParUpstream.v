(** What the parties before an honest one see, with several servers per entity. *)
From Verif Require Import Base BaseProofs Incremental Wire WireProofs Additive AdditiveProofs Onion OnionProofs Shuffle ParShuffle State Database
  Handlers Batch Party Chain Parallel ParChain Spec ChainSpec ParSpec ParChainSpec SharingProofs ShuffleProofs OnlineProofs OfflineProofs OfflineParty
  ChainProofs ParForwardProofs ParFacts ParTagProofs ParOnlineProofs ParPartyProofs ParStage ParParty ParChainProofs UpstreamSpec TagProofs UpstreamProofs ParUpstreamSpec.
Local Notation advance := OnlineProofs.advance.

(** ** Two runs side by side *)
Lemma Forall2_refl_in {A} (R : A -> A -> Prop) l : Forall (fun x => R x x) l -> Forall2 R l l.
Proof. induction 1; constructor; auto. Qed.
Lemma Forall2_nth_def {A B} (R : A -> B -> Prop) l l' d d' i : Forall2 R l l' -> R d d' -> R (nth i l d) (nth i l' d').
Proof. intros F. revert i. induction F as [|x y l l' H F IH]; intros [|i] Hd; cbn [nth]; auto. Qed.
Lemma Forall2_addressed {A} (R : A -> A -> Prop) t : forall tgts l l', Forall2 R l l' -> Forall2 R (addressed_to t tgts l) (addressed_to t tgts l').
Proof.
  unfold addressed_to. induction tgts as [|x tgts IH]; intros l l' F; [constructor|]. destruct F as [|a a' l l' H F]; [constructor|].
  cbn [combine filter fst]. destruct (x =? t)%nat; cbn [map snd]; [constructor; [exact H|]|]; apply IH; exact F.
Qed.
Lemma Forall2_flat_map {A B} (R : B -> B -> Prop) (f g : A -> list B) l : (forall x, In x l -> Forall2 R (f x) (g x)) -> Forall2 R (flat_map f l) (flat_map g l).
Proof.
  induction l as [|x l IH]; intros H; cbn [flat_map]; [constructor|]. apply Forall2_app; [apply H; left; reflexivity|].
  apply IH. intros y Hy. apply H. right. exact Hy.
Qed.
Lemma Forall2_lens {A B} (R : A -> B -> Prop) l l' : Forall2 (Forall2 R) l l' -> map (fun x => length x) l = map (fun x => length x) l'.
Proof. induction 1 as [|x y l l' H F IH]; cbn [map]; [reflexivity|]. rewrite (Forall2_len _ _ _ H), IH. reflexivity. Qed.

Section Two.
  Variables (keys : list (list Z * list Z)) (rows N : nat) (R : nat -> item -> item -> Prop).
  Hypothesis Hadv : forall d x y, R (S d) x y -> R d (advance x) (advance y).
  Hypothesis Hno : forall d, R d no_item no_item.

  Lemma nexts_related tb noise its its' d : (forall s, (s < N)%nat -> Forall (fun it => R d it it) (noise s)) ->
    Forall2 (Forall2 (R (S d))) its its' -> Forall2 (Forall2 (R d)) (nexts N tb noise its) (nexts N tb noise its').
  Proof using All.
    intros Hn F. unfold nexts. apply Forall2_map_seq. intros t Ht. unfold pick.
    assert (Hr : Forall2 (R d) (received (tb_M tb) (tb_counts tb) N t (batches N noise its)) (received (tb_M tb) (tb_counts tb) N t (batches N noise its'))).
    { unfold received. apply Forall2_flat_map. intros s Hs. apply in_seq in Hs. apply Forall2_addressed.
      rewrite !batches_nth by lia. apply Forall2_app; [apply Forall2_refl_in, Hn; lia|].
      assert (H : Forall2 (R (S d)) (nth s its []) (nth s its' [])) by (apply (Forall2_nth_def (Forall2 (R (S d)))); [exact F|constructor]).
      induction H as [|x y l l' Hxy H IH]; cbn [map]; constructor; [apply Hadv; exact Hxy|exact IH]. }
    induction (ls_backward (tb_ls tb t)) as [|i idx IH]; cbn [map]; constructor; [|exact IH]. apply Forall2_nth_def; [exact Hr|apply Hno].
  Qed.

  Lemma below_related : forall parties plan k its its' d,
    (forall j confs, nth_error parties j = Some confs -> forall its0 c s d, (s < N)%nat ->
       Forall (fun it => R d it it) (server_noise_items keys (k + j) rows N confs its0 c s)) ->
    Forall2 (Forall2 (R d)) its its' -> forall j, (j <= d)%nat ->
    Forall2 (Forall2 (R (d - j))) (nth j (its :: par_below keys rows N k plan parties its) []) (nth j (its' :: par_below keys rows N k plan parties its') []).
  Proof using All.
    induction parties as [|confs parties IH]; intros plan k its its' d Hn F j Hj.
    - destruct j as [|j]; cbn [nth]; [rewrite Nat.sub_0_r; exact F|]. destruct plan as [|[tb c] plan]; cbn [par_below]; destruct j; constructor.
    - destruct j as [|j]; cbn [nth]; [rewrite Nat.sub_0_r; exact F|]. destruct plan as [|[tb c] plan]; cbn [par_below]; [destruct j; constructor|].
      cbv zeta. replace (d - S j)%nat with ((d - 1) - j)%nat by lia.
      assert (En : server_noise_items keys k rows N confs its' c = server_noise_items keys k rows N confs its c).
      { unfold server_noise_items, first_tag_of. rewrite (Forall2_lens _ _ _ F). reflexivity. }
      rewrite En. apply IH; [| |lia].
      + intros j' confs' Nc its0 c0 s d0 Hs. specialize (Hn (S j') confs' Nc its0 c0 s d0 Hs). rewrite Nat.add_succ_r in Hn. exact Hn.
      + apply nexts_related.
        * intros s Hs. specialize (Hn 0%nat confs eq_refl its c s (d - 1)%nat Hs). rewrite Nat.add_0_r in Hn. exact Hn.
        * replace (S (d - 1)) with d by lia. exact F.
  Qed.
End Two.

Lemma below_lens keys rows N parties plan k its its' : map (fun l => length l) its = map (fun l => length l) its' ->
  forall j, map (fun l => length l) (nth j (its :: par_below keys rows N k plan parties its) []) =
            map (fun l => length l) (nth j (its' :: par_below keys rows N k plan parties its') []).
Proof.
  intros E j. apply (Forall2_lens (fun _ _ => True)).
  apply (below_related keys rows N (fun _ _ _ => True)) with (d := j) (j := j); auto.
  - intros. apply Forall_forall. auto.
  - revert its' E. induction its as [|l its IH]; intros [|l' its'] E; cbn [map] in E; try discriminate; constructor; [|apply IH; congruence].
    injection E as E _. clear IH. revert l' E. induction l as [|x l IHl]; intros [|x' l'] E; cbn in E; try discriminate; constructor; auto.
Qed.

(** ** Fake queries and clients *)
Lemma gen_sound db m r t0 ks : good_rand r (length ks) m -> Forall wf_response db -> Forall (fun k => 0 <= k < Z.of_nat (length db)) ks ->
  Forall (sound db) (gen_items m r t0 ks).
Proof.
  intros G F Fk. apply Forall_map, Forall_forall. intros i Hi. apply in_seq in Hi. destruct (G i ltac:(lia)) as (_ & Gl & Gm).
  unfold gen_item. split; cbn [mk_item it_key it_secrets].
  - apply bytes_enc_response, row_wf; [exact F|]. rewrite Forall_forall in Fk. apply Fk, nth_In. lia.
  - rewrite mk_pres by (rewrite incs_length; lia). exact Gm.
Qed.

(** The same item with another tag. *)
Definition retag (t : Z) (it : item) : item :=
  {| it_tag := t; it_secrets := map (fun s => {| o_tag := t; o_next := t; o_share := o_share s; o_preshare := o_preshare s |}) (it_secrets it);
     it_key := it_key it; it_tally := it_tally it |}.
Lemma gen_retag m r t0 ks i : gen_item m r t0 ks i = retag (Z.of_nat (t0 + i)) (client_item r m ks i).
Proof. unfold gen_item, client_item, retag, mk_item, mk_secrets. cbn [it_secrets it_key it_tally]. rewrite map_map. reflexivity. Qed.
Lemma retag_pres t it : map o_preshare (it_secrets (retag t it)) = map o_preshare (it_secrets it).
Proof. cbn [retag it_secrets]. rewrite map_map. reflexivity. Qed.
Lemma answer_retag db t it : answer db (retag t it) = answer db it.
Proof. unfold answer. rewrite retag_pres. reflexivity. Qed.
Lemma alike_retag db d t it it' : alike db d it it' -> alike db d (retag t it) (retag t it').
Proof.
  intros (_ & Ty & An & Fi & Ln & S1 & S2). split; [reflexivity|]. split; [exact Ty|]. split; [rewrite !answer_retag; exact An|].
  split; [cbn [retag it_secrets]; rewrite !firstn_map, Fi; reflexivity|]. split; [cbn [retag it_secrets]; rewrite !map_length; exact Ln|].
  unfold sound in *. rewrite !retag_pres. auto.
Qed.
Lemma gen_alike db h m r r' t0 ks ks' : Forall2 (alike db h) (client_items r m ks) (client_items r' m ks') ->
  Forall2 (alike db h) (gen_items m r t0 ks) (gen_items m r' t0 ks').
Proof.
  intros F. pose proof (Forall2_len _ _ _ F) as L. rewrite !client_items_length in L. unfold gen_items. rewrite <- L.
  apply Forall2_map_seq. intros i Hi. rewrite !gen_retag. apply alike_retag.
  eapply (Forall2_nth_err _ _ _ i); [exact F| |]; unfold client_items; rewrite nth_error_map_seq; auto; lia.
Qed.
Lemma batches_alike db h m clients clients' :
  Forall2 (fun c c' => Forall2 (alike db h) (client_items (ct_rand c) m (ct_keys c)) (client_items (ct_rand c') m (ct_keys c'))) clients clients' ->
  Forall2 (Forall2 (alike db h)) (client_batches m clients) (client_batches m clients').
Proof.
  intros F. unfold client_batches. rewrite <- (Forall2_len _ _ _ F). apply Forall2_map_seq. intros i Hi.
  destruct (nth_error clients i) as [c|] eqn:N1; [|apply nth_error_None in N1; lia].
  destruct (nth_error clients' i) as [c'|] eqn:N2; [|apply nth_error_None in N2; rewrite <- (Forall2_len _ _ _ F) in N2; lia].
  pose proof (Forall2_nth_err _ _ _ i _ _ F N1 N2) as H. cbv beta in H. pose proof (Forall2_len _ _ _ H) as L. rewrite !client_items_length in L.
  rewrite <- L. apply gen_alike. exact H.
Qed.

(** ** The run *)
Section Run.
  Variables (b : sealbox) (db : list response) (N : nat) (parties : list (list sconf)) (keys : list (list Z * list Z)) (bpk bsk : list Z)
    (plan : list (tables * nat)).
  Notation levels its := (cons its (par_below keys (length db) N 0 plan parties its)).
  (** What [par_run_levels] says of an outcome. *)
  Definition described (clients : list client) (o : par_outcome) : Prop :=
    let its := client_batches (length keys) clients in
    length (levels its) = S (length parties) /\
    po_counts o = map lens (levels its) /\ po_queries o = map (map (map q_of)) (levels its) /\ po_responses o = map (map (map (answer db))) (levels its) /\
    length (po_ciphers o) = S (length parties) /\
    forall j css, nth_error (po_ciphers o) j = Some css -> Forall2 (Forall2 (opens b (skipn j keys))) css (nth j (levels its) []).

  Lemma map_related {A B} (R : A -> A -> Prop) (f : A -> B) l l' : (forall x y, R x y -> f x = f y) -> Forall2 R l l' -> map f l = map f l'.
  Proof using. intros H. induction 1 as [|x y l l' Hxy F IH]; cbn [map]; [reflexivity|]. rewrite (H x y Hxy), IH. reflexivity. Qed.

  Lemma par_seen_alike rng h clients clients' o o' : par_deployment rng db N clients parties keys -> par_keyed b db N clients parties keys bpk bsk ->
    (h <= length parties)%nat -> described clients o -> described clients' o' ->
    Forall2 (Forall2 (alike db h)) (client_batches (length keys) clients) (client_batches (length keys) clients') ->
    par_seen b keys h o = par_seen b keys h o'.
  Proof using.
    intros D K Hh (L1 & C1 & Q1 & R1 & N1 & S1) (L2 & C2 & Q2 & R2 & N2 & S2) A.
    pose proof (pd_tiled _ _ _ _ _ _ D) as T. pose proof T as ((T1 & _) & T2 & Hr & _). pose proof (pd_count _ _ _ _ _ _ D) as Hc.
    set (its := client_batches (length keys) clients) in *. set (its' := client_batches (length keys) clients') in *.
    assert (Hr1 : (1 <= length db)%nat) by (destruct T as (? & ? & ? & ?); lia).
    pose proof (below_lens keys (length db) N parties plan 0 its its' (Forall2_lens _ _ _ A)) as LL.
    assert (LA : forall j, (j <= h)%nat -> Forall2 (Forall2 (alike db (h - j))) (nth j (levels its) []) (nth j (levels its') [])).
    { intros j Hj. apply (below_related keys (length db) N (alike db)).
      - apply alike_advance.
      - intros d. apply alike_refl, no_item_sound; [exact (pd_db _ _ _ _ _ _ D)|exact Hr1].
      - intros k confs Nc its0 c s d Hs. destruct (pd_parties _ _ _ _ _ _ D k confs Nc) as (Lc & _).
        unfold server_noise_items. destruct (nth_error confs s) as [sf|] eqn:Nf; [|constructor].
        destruct (pk_parties _ _ _ _ _ _ _ _ K k confs s sf Nc Nf) as (_ & _ & Gr).
        eapply Forall_impl; [intros it Hit; apply alike_refl; exact Hit|]. apply gen_sound.
        + rewrite server_keys_length. exact Gr.
        + exact (pd_db _ _ _ _ _ _ D).
        + apply server_keys_bound; assumption.
      - exact A.
      - exact Hj. }
    unfold par_seen. f_equal.
    - rewrite C1, C2. apply nth_error_ext. intros j. rewrite !nth_error_map.
      destruct (Nat.lt_ge_cases j (S (length parties))) as [Lt|Ge].
      2:{ rewrite !(proj2 (nth_error_None _ _)) by lia. reflexivity. }
      rewrite (nth_error_nth' (levels its) []), (nth_error_nth' (levels its') []) by lia. cbn [option_map]. f_equal.
      rewrite <- !lens_inputs, LL. reflexivity.
    - apply nth_error_ext. intros j. rewrite !nth_error_map.
      destruct (Nat.lt_ge_cases j (S (length parties))) as [Lt|Ge].
      2:{ rewrite !(proj2 (nth_error_None _ _)) by lia. reflexivity. }
      destruct (nth_error (po_ciphers o) j) as [x|] eqn:Ex; [|apply nth_error_None in Ex; lia].
      destruct (nth_error (po_ciphers o') j) as [x'|] eqn:Ex'; [|apply nth_error_None in Ex'; lia]. cbn [option_map]. f_equal.
      specialize (S1 j x Ex). specialize (S2 j x' Ex'). specialize (LL j).
      assert (Sz : forall y its, Forall2 (Forall2 (opens b (skipn j keys))) y its ->
        map (map (fun z => length z)) y = map (fun n => repeat (124 * (length keys - j))%nat n) (map (fun l : list item => length l) its)).
      { intros y l F. induction F as [|cs l0 y l H F IH]; cbn [map]; [reflexivity|]. f_equal; [|exact IH].
        clear F IH. induction H as [|z it cs l0 H F IH]; cbn [map length repeat]; [reflexivity|]. f_equal; [|exact IH].
        apply peels_length in H. rewrite H, skipn_length. reflexivity. }
      rewrite (Sz _ _ S1), (Sz _ _ S2), LL. reflexivity.
    - apply map_ext_in. intros j Hj. apply in_seq in Hj.
      destruct (nth_error (po_ciphers o) j) as [x|] eqn:Ex; [|apply nth_error_None in Ex; lia].
      destruct (nth_error (po_ciphers o') j) as [x'|] eqn:Ex'; [|apply nth_error_None in Ex'; lia].
      rewrite (nth_error_nth _ _ [] Ex), (nth_error_nth _ _ [] Ex'). specialize (S1 j x Ex). specialize (S2 j x' Ex').
      assert (Op : forall y its, Forall2 (Forall2 (opens b (skipn j keys))) y its ->
        map (map (opened b (length keys - j) (nth j keys ([], [])))) y = map (map (fun it => Some (first_secret it))) its).
      { intros y l F. induction F as [|cs l0 y l H F IH]; cbn [map]; [reflexivity|]. f_equal; [|exact IH]. apply opened_items; [lia|exact H]. }
      rewrite (Op _ _ S1), (Op _ _ S2). specialize (LA j ltac:(lia)). destruct (h - j)%nat as [|d] eqn:Hd; [lia|].
      apply (map_related (Forall2 (alike db (S d)))); [|exact LA]. intros u u' F.
      apply (map_related (alike db (S d))); [|exact F]. intros it it' (_ & _ & _ & Fi & Ln & _). f_equal. unfold first_secret.
      destruct (it_secrets it), (it_secrets it'); cbn in Fi, Ln |- *; try discriminate; [reflexivity|]. injection Fi as -> _. reflexivity.
    - rewrite Q1, Q2. apply (firstn_nth (map (map q_of) [])); [rewrite !map_length; lia|]. intros j Hj. rewrite !map_nth.
      apply (map_related (Forall2 (alike db (h - j)))); [|apply LA; lia]. intros u u' F.
      apply (map_related (alike db (h - j))); [|exact F]. intros it it' (Tg & Y & _). unfold q_of. rewrite Tg, Y. reflexivity.
    - rewrite R1, R2. apply (firstn_nth (map (map (answer db)) [])); [rewrite !map_length; lia|]. intros j Hj. rewrite !map_nth.
      apply (map_related (Forall2 (alike db (h - j)))); [|apply LA; lia]. intros u u' F.
      apply (map_related (alike db (h - j))); [|exact F]. intros it it' (_ & _ & An & _). exact An.
  Qed.

  (** From what the parties see one can tell the tallies and answers of all queries. *)
  Lemma par_seen_meets h clients clients' o o' : described clients o -> described clients' o' -> par_seen b keys h o = par_seen b keys h o' ->
    Forall2 (fun c c' => length (ct_keys c') = length (ct_keys c)) clients clients' ->
    forall s c c', nth_error clients s = Some c -> nth_error clients' s = Some c' ->
    forall i, (i < length (ct_keys c))%nat -> meets db (ct_rand c) (length keys) (ct_rand c') (ct_keys c) (ct_keys c') i.
  Proof using.
    intros (_ & _ & Q1 & R1 & _) (_ & _ & Q2 & R2 & _) E Lk s c c' Nc Nc' i Hi.
    pose proof (f_equal pv_queries E) as EQ. pose proof (f_equal pv_responses E) as ER. cbn [par_seen pv_queries pv_responses] in EQ, ER.
    rewrite Q1, Q2 in EQ. rewrite R1, R2 in ER. cbn [map firstn] in EQ, ER. injection EQ as EQ _. injection ER as ER _.
    pose proof (Forall2_nth_err _ _ _ s _ _ Lk Nc Nc') as Ln. cbv beta in Ln.
    assert (Hb : forall cl x, nth_error cl s = Some x ->
      nth_error (client_batches (length keys) cl) s = Some (gen_items (length keys) (ct_rand x) (s * length (ct_keys x)) (ct_keys x))).
    { intros cl x Nx. unfold client_batches. rewrite nth_error_map_seq by (apply nth_error_Some; congruence). rewrite Nx. reflexivity. }
    apply (f_equal (fun l => nth_error l s)) in EQ. apply (f_equal (fun l => nth_error l s)) in ER. cbv beta in EQ, ER.
    rewrite !nth_error_map, (Hb _ _ Nc), (Hb _ _ Nc') in EQ. rewrite !nth_error_map, (Hb _ _ Nc), (Hb _ _ Nc') in ER. cbn [option_map] in EQ, ER.
    assert (EQ' : forall A (x y : A), Some x = Some y -> x = y) by (intros A x y HH; injection HH; auto).
    apply EQ' in EQ. apply EQ' in ER.
    apply (f_equal (fun l => nth_error l i)) in EQ. apply (f_equal (fun l => nth_error l i)) in ER. cbv beta in EQ, ER.
    unfold gen_items in EQ, ER. rewrite Ln, !map_map in EQ, ER.
    rewrite !nth_error_map_seq in EQ by exact Hi. rewrite !nth_error_map_seq in ER by exact Hi.
    apply EQ' in EQ. apply EQ' in ER. rewrite !gen_retag in ER. rewrite !answer_retag in ER.
    apply (f_equal q_tally) in EQ. split; [symmetry; exact EQ|symmetry; exact ER].
  Qed.
End Run.

(** The clients' other choice. *)
Lemma clients_choice db m h clients queries : Forall wf_response db -> Z.of_nat (length db) <= 2 ^ 31 - 1 -> (h < m)%nat ->
  Forall (fun c => good_rand (ct_rand c) (length (ct_keys c)) m /\ Forall (fun k => 0 <= k < Z.of_nat (length db)) (ct_keys c) /\ Z.of_nat (length (ct_keys c)) < 2 ^ 32) clients ->
  Forall2 (fun c ks => length ks = length (ct_keys c) /\ Forall (fun k => 0 <= k < Z.of_nat (length db)) ks) clients queries ->
  exists clients', Forall2 (differs h m) clients clients' /\ map ct_keys clients' = queries /\
    Forall2 (fun c c' => ct_keys c' = ct_keys c -> same_at h (length (ct_keys c)) (ct_rand c) (ct_rand c')) clients clients' /\
    Forall2 (fun c c' => forall i, (i < length (ct_keys c))%nat -> meets db (ct_rand c) m (ct_rand c') (ct_keys c) (ct_keys c') i) clients clients' /\
    forall clients'', Forall2 (differs h m) clients clients'' -> map ct_keys clients'' = queries ->
      Forall2 (fun c c' => forall i, (i < length (ct_keys c))%nat -> meets db (ct_rand c) m (ct_rand c') (ct_keys c) (ct_keys c') i) clients clients'' ->
      Forall2 (fun c' c'' => same_at h (length (ct_keys c')) (ct_rand c') (ct_rand c'')) clients' clients''.
Proof.
  intros Hdb Hr Hh F Q. induction Q as [|c ks clients queries (L & B) Q IH].
  - exists []. split; [constructor|]. split; [reflexivity|]. split; [constructor|]. split; [constructor|]. intros cl'' F'' _ _. inversion F''. constructor.
  - inversion F as [|? ? (G & Bk & Hn) F']; subst. destruct (IH F') as (cl' & D' & K' & I' & M' & U').
    destruct (client_choice db (ct_rand c) m (length (ct_keys c)) h (ct_keys c) ks Hdb Hr Hh Hn G eq_refl L Bk B) as (r' & SB & G' & M & U).
    exists ({| ct_pkeys := ct_pkeys c; ct_rand := r'; ct_keys := ks |} :: cl'). split; [|split; [|split; [|split]]].
    + constructor; [|exact D']. split; [reflexivity|]. split; [exact L|]. split; assumption.
    + cbn [map ct_keys]. f_equal. exact K'.
    + constructor; [|exact I']. cbn [ct_keys ct_rand]. intros ->.
      assert (Sa : same_at h (length (ct_keys c)) r' (ct_rand c)) by (apply U; [split; reflexivity|exact G|split; reflexivity]).
      intros i Hi. destruct (Sa i Hi) as [E1 E2]. split; symmetry; assumption.
    + constructor; [exact M|exact M'].
    + intros cl'' F'' E'' M''. inversion F'' as [|? c'' ? cl2 (P1 & P2 & P3 & P4) F2]; subst. cbn [map] in E''. injection E'' as Ek Er.
      inversion M'' as [|? ? ? ? Mc M2]; subst. constructor; [|apply U'; assumption]. cbn [ct_keys ct_rand]. rewrite L. apply U; assumption.
Qed.

Lemma differs_deployed b rng db N clients clients' parties keys bpk bsk h : par_deployment rng db N clients parties keys -> par_keyed b db N clients parties keys bpk bsk ->
  Forall2 (differs h (length keys)) clients clients' -> Forall (Forall (fun k => 0 <= k < Z.of_nat (length db))) (map ct_keys clients') ->
  par_deployment rng db N clients' parties keys /\ par_keyed b db N clients' parties keys bpk bsk /\
  map (fun c => length (ct_keys c)) clients' = map (fun c => length (ct_keys c)) clients.
Proof.
  intros D K F B.
  assert (El : map (fun c => length (ct_keys c)) clients' = map (fun c => length (ct_keys c)) clients).
  { clear -F. induction F as [|c c' l l' (_ & L & _) F IH]; cbn [map]; [reflexivity|]. rewrite L, IH. reflexivity. }
  split; [|split; [|exact El]].
  - destruct D. constructor; auto.
    + rewrite <- (Forall2_len _ _ _ F). assumption.
    + unfold client_keys. apply Forall_flat_map. rewrite Forall_map in B. exact B.
    + unfold client_keys in *. rewrite flat_map_concat_map, length_concat_sum, map_map in *. rewrite El. assumption.
  - destruct K. constructor; auto.
    + clear -F pk_clients. induction F as [|c c' l l' (P & L & _ & G) F IH]; [constructor|]. inversion pk_clients as [|? ? (P1 & P2) F']; subst.
      constructor; [|auto]. rewrite P, L. auto.
    + destruct pk_equal as (n & Hn). exists n. clear -F Hn. induction F as [|c c' l l' (_ & L & _) F IH]; [constructor|]. inversion Hn; subst.
      constructor; [congruence|auto].
Qed.

Lemma par_upstream b rng iter db junk N clients parties keys bpk bsk h queries :
  par_deployment rng db N clients parties keys -> par_keyed b db N clients parties keys bpk bsk ->
  (forall i l, Permutation (iter i l) l) -> bytes 52 junk -> (h <= length parties)%nat ->
  Forall2 (fun c ks => length ks = length (ct_keys c) /\ Forall (fun k => 0 <= k < Z.of_nat (length db)) ks) clients queries ->
  exists trs btr clients', length trs = length parties /\
  Forall2 (differs h (length keys)) clients clients' /\ map ct_keys clients' = queries /\
  Forall2 (fun c c' => ct_keys c' = ct_keys c -> same_at h (length (ct_keys c)) (ct_rand c) (ct_rand c')) clients clients' /\
  forall scs border, Forall2 (fits N) trs scs -> complete N btr border ->
  let run_with cs := par_run b true rng iter db junk cs (combine parties scs) bpk bsk border in
  exists o, run_with clients = Ok o /\
    (exists o', run_with clients' = Ok o' /\ par_seen b keys h o' = par_seen b keys h o) /\
    forall clients'' o'', Forall2 (differs h (length keys)) clients clients'' -> map ct_keys clients'' = queries ->
      run_with clients'' = Ok o'' -> par_seen b keys h o'' = par_seen b keys h o ->
      Forall2 (fun c' c'' => same_at h (length (ct_keys c')) (ct_rand c') (ct_rand c'')) clients' clients''.
Proof.
  intros D K Hi J Hh Q. pose proof (pd_tiled _ _ _ _ _ _ D) as (_ & _ & Hr & _). pose proof (pd_count _ _ _ _ _ _ D) as Hc.
  destruct (par_run_levels b rng iter db junk N clients parties keys bpk bsk D K Hi J) as (trs & btr & plan & Lt & Lp & Hrun).
  assert (Gc : Forall (fun c => good_rand (ct_rand c) (length (ct_keys c)) (length keys) /\ Forall (fun k => 0 <= k < Z.of_nat (length db)) (ct_keys c) /\
    Z.of_nat (length (ct_keys c)) < 2 ^ 32) clients).
  { apply Forall_forall. intros c Hin. pose proof (pk_clients _ _ _ _ _ _ _ _ K) as Kc. rewrite Forall_forall in Kc. split; [apply (Kc c Hin)|].
    split; [apply (Forall_flat _ _ _ _ (pd_queries _ _ _ _ _ _ D) Hin)|]. pose proof (pd_total _ _ _ _ _ _ D) as Ht.
    assert (length (ct_keys c) <= length (client_keys clients))%nat; [|lia]. clear -Hin. unfold client_keys. induction clients as [|x l IH]; [destruct Hin|].
    cbn [flat_map]. rewrite app_length. destruct Hin as [->|Hin]; [lia|]. specialize (IH Hin). lia. }
  destruct (clients_choice db (length keys) h clients queries (pd_db _ _ _ _ _ _ D) Hr ltac:(lia) Gc Q) as (clients' & Df & Ek & Is & M & Un).
  assert (Bq : Forall (Forall (fun k => 0 <= k < Z.of_nat (length db))) queries).
  { clear -Q. induction Q as [|? ? ? ? (_ & B) Q IH]; constructor; assumption. }
  exists trs, btr, clients'. split; [exact Lt|]. split; [exact Df|]. split; [exact Ek|]. split; [exact Is|]. intros scs border Fs Hb run_with.
  assert (Hall : forall cs, Forall2 (differs h (length keys)) clients cs -> map ct_keys cs = queries ->
    exists o, run_with cs = Ok o /\ described b db N parties keys plan cs o).
  { intros cs F E. destruct (differs_deployed b rng db N clients cs parties keys bpk bsk h D K F) as (D' & K' & El); [rewrite E; exact Bq|].
    destruct (Hrun cs scs border D' K' El Fs Hb) as (o & Eo & (Fa & _ & Ec & _) & H). exists o. split; [exact Eo|].
    destruct H as (H1 & H2 & H3 & H4 & H5). split; [exact H1|]. split; [exact H2|]. split; [exact H3|]. split; [exact H4|]. split; [|exact H5].
    apply (f_equal (fun l => length l)) in Ec. rewrite map_length in Ec. rewrite Ec. apply Fa. }
  destruct (Hrun clients scs border D K eq_refl Fs Hb) as (o & Eo & (Fa & _ & Ec & _) & H). 
  assert (Do : described b db N parties keys plan clients o).
  { destruct H as (H1 & H2 & H3 & H4 & H5). split; [exact H1|]. split; [exact H2|]. split; [exact H3|]. split; [exact H4|]. split; [|exact H5].
    apply (f_equal (fun l => length l)) in Ec. rewrite map_length in Ec. rewrite Ec. apply Fa. }
  exists o. split; [exact Eo|]. split.
  - destruct (Hall clients' Df Ek) as (o' & Eo' & Do'). exists o'. split; [exact Eo'|]. symmetry.
    apply (par_seen_alike b db N parties keys bpk bsk plan rng h clients clients' o o' D K Hh Do Do'). apply batches_alike.
    clear -Df Gc M Ek Bq Hr Hh Hc D. pose proof (pd_db _ _ _ _ _ _ D) as Hdb. clear D. rewrite <- Ek, Forall_map in Bq. clear Ek.
    induction Df as [|c c' l l' (P1 & P2 & P3 & P4) F IH]; [constructor|].
    inversion Gc as [|? ? (G & Bk & Hn) G']; subst. inversion M; subst. inversion Bq; subst. constructor; [|apply IH; assumption].
    apply (alike_client db (ct_rand c) (length keys) (length (ct_keys c)) h Hdb Hr ltac:(lia) Hn); auto.
  - intros clients'' o'' F'' E'' R'' S''. destruct (Hall clients'' F'' E'') as (o2 & Eo2 & D2). rewrite R'' in Eo2. injection Eo2 as <-.
    apply Un; [exact F''|exact E''|].
    pose proof (par_seen_meets b db N parties keys plan h clients clients'' o o'' Do D2 (eq_sym S'')) as HM.
    assert (Ll : Forall2 (fun c c' => length (ct_keys c') = length (ct_keys c)) clients clients'').
    { clear -F''. induction F'' as [|c c' l l' (_ & L & _) F IH]; constructor; auto. }
    specialize (HM Ll). clear -HM Ll. 
    assert (G : forall s c c', nth_error clients s = Some c -> nth_error clients'' s = Some c' -> forall i, (i < length (ct_keys c))%nat -> meets db (ct_rand c) (length keys) (ct_rand c') (ct_keys c) (ct_keys c') i) by exact HM.
    clear HM. induction Ll as [|c c' l l' L F IH]; constructor; [exact (G 0%nat c c' eq_refl eq_refl)|]. apply IH. intros s x x' N1 N2. exact (G (S s) x x' N1 N2).
Qed.
