(** Integrity of answers with several servers per party. *)
From Verif Require Import Base BaseProofs Incremental IncrementalProofs Wire WireProofs Additive AdditiveProofs Onion OnionProofs
  Shuffle Sizes State Database CipherBatch CipherBatchProofs Range Handlers Batch Party Chain Spec SharingProofs ShuffleProofs
  StateProofs ChainSpec OnlineProofs OfflineProofs OfflineParty ChainProofs ParShuffle ParShuffleProofs ParShuffleFacts Parallel ParChain
  ParSpec ParChainSpec ParMergeProofs ParForwardProofs ParBackwardProofs ParOnlineProofs ParPartyProofs PermFacts ParFacts
  ParSecretsProofs ParTagProofs ParStage ParParty UpstreamSpec TagProofs ParChainProofs PeerSpec TamperSpec TamperProofs ParTamperSpec.

Local Notation advance := OnlineProofs.advance.
Local Notation rss_of db := (map (map (answer db))).

Lemma map_length_nth {A B} (l : list (list A)) (l' : list (list B)) : map (@length A) l = map (@length B) l' ->
  length l = length l' /\ forall t, length (nth t l []) = length (nth t l' []).
Proof.
  intros E. split; [rewrite <- (map_length (@length A)), E, map_length; reflexivity|].
  intros t. rewrite <- (map_nth (@length A) l []), <- (map_nth (@length B) l' []), E. reflexivity.
Qed.

Lemma Forall_nth_all {A} (P : list A -> Prop) l t : P [] -> Forall P l -> P (nth t l []).
Proof.
  intros H0 F. destruct (Nat.lt_ge_cases t (length l)) as [H|H]; [|rewrite nth_overflow by exact H; exact H0].
  rewrite Forall_forall in F. apply F, nth_In, H.
Qed.

Section Step.
Variables (db : list response) (N m : nat) (tb : tables) (rps : list pready) (noise : nat -> list item) (its : list (list item)).
Hypothesis Hdb : Forall wf_response db.
Hypothesis Hh : par_holds N tb rps noise its.
Hypothesis Oi : Forall (Forall (ok_item (length db) (S m))) its.
Hypothesis On : Forall (Forall (ok_item (length db) m)) (nexts N tb noise its).
Notation next := (nexts N tb noise its).
Notation pos := (pos (tb_M tb) (tb_counts tb) (tb_ls tb)).

(** Where the item at [a], [i] goes. *)
Definition goes (a i : nat) : nat * nat := pos a (tb_noise tb a + i).

Lemma goes_next a i it : (a < N)%nat -> nth_error (nth a its []) i = Some it ->
  (fst (goes a i) < N)%nat /\ nth_error (nth (fst (goes a i)) next []) (snd (goes a i)) = Some (advance it).
Proof using All.
  intros Hx Nit. pose proof Hh as (HT & Hok & Lits & Hl & Hk). destruct (Hl a Hx) as (L2 & L3).
  assert (Hi : (i < length (nth a its []))%nat) by (apply nth_error_Some; congruence).
  pose proof (hold_counts db N m tb rps noise its Hdb Hh Oi On a Hx) as Hc.
  pose proof (pos_server N tb HT a (tb_noise tb a + i) Hx ltac:(cbn beta; rewrite <- Hc; lia)) as (P1 & P2).
  pose proof (pos_nth N tb HT no_item (batches N noise its) a (tb_noise tb a + i) Hx ltac:(cbn beta; rewrite <- Hc; lia)
    (fun s Hs' => batches_length N tb noise its HT (hold_counts db N m tb rps noise its Hdb Hh Oi On) Lits s Hs')) as P3.
  rewrite <- nexts_nth in P3 by exact P1. rewrite batches_nth in P3 by exact Hx.
  rewrite nth_error_app2 in P3 by lia. replace (tb_noise tb a + i - length (noise a))%nat with i in P3 by lia.
  rewrite nth_error_map, Nit in P3. split; [exact P1|exact P3].
Qed.

Lemma goes_inj a i a' i' : (a < N)%nat -> (a' < N)%nat -> (i < length (nth a its []))%nat -> (i' < length (nth a' its []))%nat ->
  goes a i = goes a' i' -> a = a' /\ i = i'.
Proof using All.
  intros Ha Ha' Hi Hi' E. pose proof Hh as (HT & Hok & Lits & Hl & Hk). destruct (Hl a Ha) as (L2 & L3). destruct (Hl a' Ha') as (L2' & L3').
  pose proof (hold_counts db N m tb rps noise its Hdb Hh Oi On a Ha) as Hc.
  pose proof (hold_counts db N m tb rps noise its Hdb Hh Oi On a' Ha') as Hc'.
  destruct (pos_inj N tb HT a (tb_noise tb a + i) a' (tb_noise tb a' + i') Ha Ha') as (-> & E2); [cbn beta; lia|cbn beta; lia|exact E|].
  split; [reflexivity|lia].
Qed.

Lemma backward_any rps' order (replies : list (list (list Z))) :
  par_ok' N tb rps' (map (map q_of) its) -> same_state rps rps' -> complete N (back_traffic tb) order ->
  map (@length _) replies = map (@length _) next -> Forall (Forall (bytes 52)) replies ->
  exists out, par_backward rps' replies order = Ok out /\ map (@length _) out = map (@length _) its /\ Forall (Forall (bytes 52)) out /\
    forall a i it, (a < N)%nat -> nth_error (nth a its []) i = Some it ->
      nth_error (nth a out []) i = Some (xorl (at_place replies (goes a i)) (o_preshare (first_secret it))).
Proof using All.
  intros Hok' Hs Ho El Fr. pose proof Hh as (HT & Hok & Lits & Hl & Hk). apply map_length_nth in El. destruct El as (Ll & En).
  assert (Hn1 : forall a, nth a (map (map q_of) its) [] = map q_of (nth a its [])) by (intros a; apply (map_nth (map q_of) its [])).
  assert (Hoi : forall a, Forall (ok_item (length db) (S m)) (nth a its [])) by (intros a; apply Forall_nth_all; [constructor|exact Oi]).
  assert (Wm : forall it, ok_item (length db) (S m) it -> bytes 52 (o_preshare (first_secret it))).
  { intros it Hit. destruct (first_tag _ _ _ Hit) as (_ & _ & E3). destruct Hit as (_ & Fs & _). rewrite E3 in Fs.
    inversion Fs as [|? ? ((_ & _ & _ & _ & W) & _) _]; subst. exact W. }
  destruct (par_backward_spec N tb HT rps' (map (map q_of) its) (fun a => map it_tag (nth a its []))
    (fun a => map (fun it => o_preshare (first_secret it)) (nth a its [])) replies order Hok') as (result & E & Lr & Hr).
  - intros a Hx. rewrite Hn1, !map_map, map_length. split; [reflexivity|apply (Hl a Hx)].
  - intros a rp' Nrp'. destruct Hok' as (Lrps' & _). assert (Hx : (a < N)%nat) by (rewrite <- Lrps'; apply nth_error_Some; congruence).
    destruct (get_lt rps a) as (rp & _ & Nrp); [destruct Hok as (Lrps & _); lia|]. destruct (Hs a rp rp' Nrp Nrp') as (Em & Es).
    specialize (Hk a rp Nrp). specialize (Hoi a). clear - Hk Hoi Em Es. induction Hk as [|it l H _ IH]; cbn [map]; constructor.
    + inversion Hoi as [|? ? Ho _]; subst. destruct H as (s & ss & E & F). unfold first_secret. rewrite E. cbn [hd]. split.
      * unfold qs_preshare. rewrite Em, Es. rewrite F. reflexivity.
      * destruct Ho as (_ & Fs & _). rewrite E in Fs. inversion Fs as [|? ? ((_ & _ & _ & _ & W) & _) _]; subst. exact W.
    + apply IH. inversion Hoi; assumption.
  - rewrite Ll. apply nexts_length.
  - intros t Ht. rewrite En. split; [apply (nexts_size N tb noise its HT (hold_counts db N m tb rps noise its Hdb Hh Oi On) Lits t Ht)|].
    apply Forall_nth_all; [constructor|exact Fr].
  - exact Ho.
  - exists result. split; [exact E|].
    assert (V : forall a i it, (a < N)%nat -> nth_error (nth a its []) i = Some it ->
      nth_error (nth a result []) i = Some (xorl (at_place replies (goes a i)) (o_preshare (first_secret it)))).
    { intros a i it Hx Nit. destruct (Hr a Hx) as (L1 & H1). destruct (Hl a Hx) as (L2 & L3).
      assert (Hi : (i < length (nth a its []))%nat) by (apply nth_error_Some; congruence).
      rewrite H1 by lia. cbn zeta. f_equal. unfold at_place, goes. f_equal.
      erewrite nth_error_nth; [reflexivity|]. rewrite nth_error_map, Nit. reflexivity. }
    split; [|split; [|exact V]].
    + apply nth_error_ext. intros a. rewrite !nth_error_map. destruct (Nat.lt_ge_cases a N) as [Hx|Hx].
      * rewrite (nth_error_nth' result []), (nth_error_nth' its []) by lia. cbn [option_map]. f_equal.
        destruct (Hr a Hx) as (-> & _). symmetry. apply (Hl a Hx).
      * rewrite !(proj2 (nth_error_None _ _)) by lia. reflexivity.
    + apply Forall_forall. intros l Hin. apply In_nth_error in Hin. destruct Hin as (a & Na).
      assert (Hx : (a < N)%nat) by (rewrite <- Lr; apply nth_error_Some; congruence).
      apply Forall_forall. intros x Hin. apply In_nth_error in Hin. destruct Hin as (i & Ni).
      rewrite <- (nth_error_nth _ _ [] Na) in Ni. destruct (Hr a Hx) as (L1 & _). destruct (Hl a Hx) as (L2 & L3).
      assert (Hi : (i < length (nth a its []))%nat) by (rewrite L3, <- L1; apply nth_error_Some; congruence).
      destruct (get_lt (nth a its []) i Hi) as (it & _ & Nit). rewrite (V a i it Hx Nit) in Ni. injection Ni as <-.
      destruct (goes_next a i it Hx Nit) as (P1 & P2).
      apply bytes_xorl.
      * unfold at_place. pose proof (Forall_nth_all _ _ (fst (goes a i)) (Forall_nil (bytes 52)) Fr) as F1. rewrite Forall_forall in F1. apply F1. apply nth_In. rewrite En.
        apply nth_error_Some. congruence.
      * apply Wm. specialize (Hoi a). rewrite Forall_forall in Hoi. apply Hoi. eapply nth_error_In; exact Nit.
Qed.
End Step.

Lemma rss_bytes db m its : Forall wf_response db -> Forall (Forall (ok_item (length db) m)) its -> Forall (Forall (bytes 52)) (rss_of db its).
Proof.
  intros D F. apply Forall_map. eapply Forall_impl; [|exact F]. intros l Fl. apply Forall_map. eapply Forall_impl; [|exact Fl].
  intros it O. exact (answer_bytes db m it D O).
Qed.
Lemma rss_nth db its t : nth t (rss_of db its) [] = map (answer db) (nth t its []).
Proof. apply (map_nth (map (answer db)) its []). Qed.
Lemma at_rss db its p it : nth_error (nth (fst p) its []) (snd p) = Some it -> at_place (rss_of db its) p = answer db it.
Proof. intros H. unfold at_place. rewrite rss_nth. apply nth_error_nth. rewrite nth_error_map, H. reflexivity. Qed.
Lemma place_bytes rss p : Forall (Forall (bytes 52)) rss -> (snd p < length (nth (fst p) rss []))%nat -> bytes 52 (at_place rss p).
Proof.
  intros F H. unfold at_place. pose proof (Forall_nth_all _ _ (fst p) (Forall_nil (bytes 52)) F) as F1. rewrite Forall_forall in F1. apply F1, nth_In, H.
Qed.
Lemma rss_lengths db its : map (@length _) (rss_of db its) = map (@length _) its.
Proof. rewrite map_map. apply map_ext. intros l. apply map_length. Qed.

Lemma par_chain_level N rows bps parties levels : par_chain_ok N rows bps parties levels ->
  forall j, exists m, Forall (Forall (ok_item rows m)) (nth j levels []).
Proof.
  induction 1 as [its L Lb Oi K|rps sc rest tb noise its levels Hh Ho Hb Oi On C IH]; intros [|j]; cbn [nth].
  - exists 1%nat. exact Oi.
  - exists 1%nat. destruct j; constructor.
  - eexists. exact Oi.
  - apply IH.
Qed.
Lemma par_chain_hd N rows bps parties levels : par_chain_ok N rows bps parties levels -> length (hd [] levels) = N.
Proof. intros [its L Lb Oi K|rps sc rest tb noise its levels' (_ & _ & L & _) _ _ _ _ _]; exact L. Qed.

Lemma par_tampered_spec db N bps : Forall wf_response db -> forall parties levels, par_chain_ok N (length db) bps parties levels ->
  forall j, (j <= length parties)%nat -> exists place : nat -> nat -> nat * nat,
    let its := hd [] levels in
    let rss := rss_of db (nth j levels []) in
    (forall a i a' i', (i < length (nth a its []))%nat -> (i' < length (nth a' its []))%nat ->
       place a i = place a' i' -> a = a' /\ i = i') /\
    (forall a i, (i < length (nth a its []))%nat ->
       (fst (place a i) < length rss)%nat /\ (snd (place a i) < length (nth (fst (place a i)) rss []))%nat) /\
    forall rss', map (@length _) rss' = map (@length _) rss -> Forall (Forall (bytes 52)) rss' ->
      exists out, par_online_tampered j rss' parties (map (map q_of) its) = Ok out /\
        map (@length _) out = map (@length _) its /\ Forall (Forall (bytes 52)) out /\
        forall a i it, nth_error (nth a its []) i = Some it ->
          nth_error (nth a out []) i = Some (xorl (answer db it) (xorl (at_place rss (place a i)) (at_place rss' (place a i)))).
Proof.
  intros D parties levels C.
  assert (Z0 : forall m its parties, Forall (Forall (ok_item (length db) m)) its ->
    let rss := rss_of db its in
    (forall a i a' i', (i < length (nth a its []))%nat -> (i' < length (nth a' its []))%nat -> (a, i) = (a', i') -> a = a' /\ i = i') /\
    (forall a i, (i < length (nth a its []))%nat -> (a < length rss)%nat /\ (i < length (nth a rss []))%nat) /\
    forall rss', map (@length _) rss' = map (@length _) rss -> Forall (Forall (bytes 52)) rss' ->
      exists out, par_online_tampered 0 rss' parties (map (map q_of) its) = Ok out /\
        map (@length _) out = map (@length _) its /\ Forall (Forall (bytes 52)) out /\
        forall a i it, nth_error (nth a its []) i = Some it ->
          nth_error (nth a out []) i = Some (xorl (answer db it) (xorl (at_place rss (a, i)) (at_place rss' (a, i))))).
  { clear parties levels C. intros m its parties Oi rss. split; [intros a i a' i' _ _ E; inversion E; auto|]. split.
    - intros a i Hi. unfold rss. rewrite rss_nth, !map_length. split; [|exact Hi].
      destruct (Nat.lt_ge_cases a (length its)) as [H|H]; [exact H|]. rewrite nth_overflow in Hi by exact H. cbn in Hi. lia.
    - intros rss' L F. exists rss'. split; [destruct parties; reflexivity|]. split; [rewrite L; apply rss_lengths|]. split; [exact F|].
      intros a i it Ni. unfold rss in *. rewrite (at_rss db its (a, i) it Ni). rewrite rss_lengths in L. apply map_length_nth in L. destruct L as (_ & L).
      assert (Hi : (i < length (nth a its []))%nat) by (apply nth_error_Some; congruence).
      rewrite xorl_cancel.
      + unfold at_place. cbn [fst snd]. apply nth_error_nth'. rewrite L. exact Hi.
      + apply (answer_bytes db m); [exact D|]. pose proof (Forall_nth_all _ _ a (Forall_nil (ok_item (length db) m)) Oi) as F1.
        rewrite Forall_forall in F1. apply F1. eapply nth_error_In; exact Ni.
      + apply place_bytes; [exact F|]. cbn [fst snd]. rewrite L. exact Hi. }
  induction C as [its L Lb Oi K|rps sc rest tb noise its levels Hh Ho Hb Oi On C IH]; intros j Hj.
  - cbn [length] in Hj. assert (j = 0)%nat as -> by lia. exists (fun a i => (a, i)). exact (Z0 _ its [] Oi).
  - destruct j as [|j]; [exists (fun a i => (a, i)); exact (Z0 _ its ((rps, sc) :: rest) Oi)|].
    cbn [length] in Hj. destruct (IH j ltac:(lia)) as (place & Inj & Rg & T). clear IH Z0. cbn [hd] in *. cbv zeta in *.
    change (nth (S j) (its :: nexts N tb noise its :: levels) []) with (nth j (nexts N tb noise its :: levels) []) in *.
    set (nxt := nexts N tb noise its) in *. set (rss := rss_of db (nth j (nxt :: levels) [])) in *.
    pose proof Hh as (_ & _ & Lits & _).
    assert (HaN : forall a i, (i < length (nth a its []))%nat -> (a < N)%nat).
    { intros a i Hi. destruct (Nat.lt_ge_cases a N) as [H|H]; [exact H|]. rewrite nth_overflow in Hi by lia. cbn in Hi. lia. }
    assert (G : forall a i, (i < length (nth a its []))%nat -> (snd (goes tb a i) < length (nth (fst (goes tb a i)) nxt []))%nat).
    { intros a i Hi. destruct (get_lt (nth a its []) i Hi) as (it & _ & Nit).
      destruct (goes_next db N _ tb rps noise its D Hh Oi On a i it (HaN _ _ Hi) Nit) as (_ & P). apply nth_error_Some. unfold nxt. congruence. }
    exists (fun a i => place (fst (goes tb a i)) (snd (goes tb a i))). split; [|split].
    + intros a i a' i' Hi Hi' E. destruct (Inj _ _ _ _ (G a i Hi) (G a' i' Hi') E) as (E1 & E2).
      apply (goes_inj db N _ tb rps noise its D Hh Oi On a i a' i'); eauto.
      rewrite (surjective_pairing (goes tb a i)), (surjective_pairing (goes tb a' i')), E1, E2. reflexivity.
    + intros a i Hi. apply Rg. apply G. exact Hi.
    + intros rss' L F. destruct (T rss' L F) as (out' & Eo & Lo & Bo & Vo).
      destruct (forward_items db N _ tb rps noise its D Hh Oi On (sc_queries sc) Ho) as (rps' & E & Hok' & Hs).
      cbn [par_online_tampered]. rewrite E. cbn [bind fst snd]. fold nxt. rewrite Eo. cbn [bind].
      destruct (backward_any db N _ tb rps noise its D Hh Oi On rps' (sc_responses sc) out' Hok' Hs Hb Lo Bo) as (out & Eb & Lb & Bb & Vb).
      exists out. split; [exact Eb|]. split; [exact Lb|]. split; [exact Bb|].
      intros a i it Ni. assert (Hi : (i < length (nth a its []))%nat) by (apply nth_error_Some; congruence).
      assert (Hx : (a < N)%nat) by eauto. rewrite (Vb a i it Hx Ni). f_equal.
      destruct (goes_next db N _ tb rps noise its D Hh Oi On a i it Hx Ni) as (P1 & P2). fold nxt in P2.
      unfold at_place at 1. rewrite (nth_error_nth _ _ [] (Vo _ _ _ P2)).
      assert (Hit : ok_item (length db) (S (S (length rest))) it).
      { pose proof (Forall_nth_all _ _ a (Forall_nil (ok_item (length db) (S (S (length rest))))) Oi) as F1.
        rewrite Forall_forall in F1. apply F1. eapply nth_error_In; exact Ni. }
      destruct (first_tag _ _ _ Hit) as (_ & _ & E3).
      rewrite <- (answer_advance db (first_secret it) (tl (it_secrets it)) it E3). rewrite !xorl_assoc. f_equal.
      rewrite <- !xorl_assoc. rewrite (xorl_comm _ (o_preshare (first_secret it))). rewrite <- xorl_assoc. reflexivity.
Qed.

(** ** The clients *)
Section Clients.
Variables (db : list response) (m : nat) (clients : list client) (its : list (list item)) (sts : list cstate).
Hypothesis Hdb : Forall wf_response db.
Hypothesis Lits : length its = length clients.
Hypothesis Lsts : length sts = length clients.
Hypothesis Hkeys : forall i c, nth_error clients i = Some c -> map it_key (nth i its []) = ct_keys c.
Hypothesis Hready : forall i st, nth_error sts i = Some st -> client_ready st (nth i its []).
Hypothesis Hok : Forall (Forall (ok_item (length db) m)) its.

Lemma par_client_queries_states : exists cqs, par_client_queries sts clients = Ok cqs /\ map fst cqs = map (map q_of) its /\
  forall i st, nth_error sts i = Some st -> get (map snd cqs) i = Ok (cs_finish (load_times (length (nth i its [])) st)).
Proof using All.
  exists (map (fun i => (map q_of (nth i its []), cs_finish (load_times (length (nth i its [])) (nth i sts cs_new)))) (seq 0 (length clients))).
  split; [|split].
  - unfold par_client_queries. apply map_res_seq. intros i Hi. destruct (get_lt sts i ltac:(lia)) as (st & Gs & Ns).
    destruct (get_lt clients i Hi) as (c & Gc & Nc). rewrite Gs, Gc. cbn [bind]. rewrite <- (Hkeys i c Nc), (nth_error_nth _ _ _ Ns).
    apply client_queries_spec. apply Hready. exact Ns.
  - rewrite map_map. cbn [fst]. rewrite <- (map_map (fun i => nth i its []) (map q_of)), <- Lits, nth_seq_all. reflexivity.
  - intros i st Ns. assert (Hi : (i < length clients)%nat) by (rewrite <- Lsts; apply nth_error_Some; congruence).
    unfold get. rewrite map_map. cbn [snd]. rewrite nth_error_map_seq by exact Hi. rewrite (nth_error_nth _ _ _ Ns). reflexivity.
Qed.

Lemma par_tampering_levels N bps parties levels j tampered (cqs : list (list query * cstate)) :
  par_chain_ok N (length db) bps parties (its :: levels) -> (j <= length parties)%nat ->
  (forall i st, nth_error sts i = Some st -> get (map snd cqs) i = Ok (cs_finish (load_times (length (nth i its [])) st))) ->
  (forall checks rss' i, tampered checks rss' i =
     bind (par_online_tampered j rss' parties (map (map q_of) its)) (fun rss => tampered_client checks db (map snd cqs) clients rss i)) ->
  exists place, par_tampering tampered db (map ct_keys clients) (rss_of db (nth j (its :: levels) [])) place.
Proof using All.
  intros Ch Hj Hsts Et. destruct (par_tampered_spec db N bps Hdb parties (its :: levels) Ch j Hj) as (place & Inj & Rg & T).
  cbn [hd] in *. cbv zeta in *. exists place.
  assert (Brs : Forall (Forall (bytes 52)) (rss_of db (nth j (its :: levels) []))).
  { destruct (par_chain_level _ _ _ _ _ Ch j) as (m' & F). exact (rss_bytes db m' _ Hdb F). }
  set (rss := rss_of db (nth j (its :: levels) [])) in *.
  assert (Hc : forall i ks, nth_error (map ct_keys clients) i = Some ks -> exists c st, nth_error clients i = Some c /\ nth_error sts i = Some st /\
    ct_keys c = ks /\ map it_key (nth i its []) = ks /\ length (nth i its []) = length ks /\ nth_error its i = Some (nth i its []) /\
    Forall (ok_item (length db) m) (nth i its [])).
  { intros i ks Nk. rewrite nth_error_map in Nk. destruct (nth_error clients i) as [c|] eqn:Nc; [|discriminate]. injection Nk as <-.
    assert (Hi : (i < length clients)%nat) by (apply nth_error_Some; congruence). destruct (get_lt sts i ltac:(lia)) as (st & _ & Ns).
    exists c, st. split; [reflexivity|]. split; [exact Ns|]. split; [reflexivity|]. split; [exact (Hkeys i c Nc)|].
    split; [rewrite <- (Hkeys i c Nc), map_length; reflexivity|]. split; [apply nth_error_nth'; lia|].
    apply Forall_nth_all; [constructor|exact Hok]. }
  assert (Main : forall rss', map (@length _) rss' = map (@length _) rss -> Forall (Forall (bytes 52)) rss' ->
    forall i ks st, nth_error (map ct_keys clients) i = Some ks -> nth_error sts i = Some st ->
    let items := nth i its [] in
    let ds := map (fun k => xorl (at_place rss (place i k)) (at_place rss' (place i k))) (seq 0 (length items)) in
    length ds = length items /\ Forall (bytes 52) ds /\
    (forall k, (k < length items)%nat -> bytes 52 (at_place rss (place i k)) /\ bytes 52 (at_place rss' (place i k))) /\
    (forall checks, tampered checks rss' i = client_responses checks db (cs_finish (load_times (length items) st)) (map it_key items)
       (map (fun p => xorl (answer db (fst p)) (snd p)) (combine items ds)))).
  { intros rss' L F i ks st Nk Ns items ds. destruct (Hc i ks Nk) as (c & st' & Nc & Ns' & Ec & Ek & Lk & Ni & Fi).
    assert (Lds : length ds = length items) by (unfold ds; rewrite map_length, seq_length; reflexivity).
    assert (Hb : forall k, (k < length items)%nat -> bytes 52 (at_place rss (place i k)) /\ bytes 52 (at_place rss' (place i k))).
    { intros k Hk. destruct (Rg i k Hk) as (_ & R). split; apply place_bytes; auto.
      apply map_length_nth in L. destruct L as (_ & L). rewrite L. exact R. }
    split; [exact Lds|]. split; [|split; [exact Hb|]].
    - apply Forall_map. apply Forall_forall. intros k Hk. apply in_seq in Hk. destruct (Hb k ltac:(lia)). apply bytes_xorl; assumption.
    - intros checks. destruct (T rss' L F) as (out & Eo & Lo & Bo & Vo). rewrite Et, Eo. cbn [bind]. unfold tampered_client.
      rewrite (Hsts i st Ns). cbn [bind]. unfold get at 1. rewrite Nc. cbn [bind].
      apply map_length_nth in Lo. destruct Lo as (Lo & _).
      assert (Hi : (i < length its)%nat) by (apply nth_error_Some; congruence).
      unfold get. rewrite (nth_error_nth' out []) by lia. cbn [bind]. fold items. rewrite Ec. fold items in Ek. rewrite Ek. f_equal.
      apply nth_error_ext. intros k. destruct (Nat.lt_ge_cases k (length items)) as [H|H].
      + destruct (get_lt items k H) as (it & _ & Nit). rewrite (Vo i k it Nit). rewrite nth_error_map.
        rewrite (nth_error_combine items ds k it (xorl (at_place rss (place i k)) (at_place rss' (place i k)))); [reflexivity|exact Nit|].
        unfold ds. rewrite nth_error_map_seq by exact H. reflexivity.
      + destruct (T rss' L F) as (out2 & Eo2 & Lo2 & _ & _). rewrite Eo in Eo2. injection Eo2 as <-.
        apply map_length_nth in Lo2. destruct Lo2 as (_ & Lo2). specialize (Lo2 i). fold items in Lo2.
        rewrite !(proj2 (nth_error_None _ _)); [reflexivity| |]; rewrite ?map_length, ?combine_length; lia. }
  assert (Same : forall rss' i (items : list item),
    (forall k, (k < length items)%nat -> bytes 52 (at_place rss (place i k)) /\ bytes 52 (at_place rss' (place i k))) ->
    let ds := map (fun k => xorl (at_place rss (place i k)) (at_place rss' (place i k))) (seq 0 (length items)) in
    Forall (fun d => d = zero52) ds <-> forall k, (k < length items)%nat -> at_place rss' (place i k) = at_place rss (place i k)).
  { intros rss' i items Hb ds. unfold ds. rewrite Forall_map, Forall_forall. split.
    - intros H k Hk. destruct (Hb k Hk) as (B1 & B2). apply (proj1 (xorl_eq_zero _ _ B1 B2)). apply H. apply in_seq. lia.
    - intros H k Hk. apply in_seq in Hk. destruct (Hb k ltac:(lia)) as (B1 & B2). apply (proj2 (xorl_eq_zero _ _ B1 B2)). apply H. lia. }
  constructor.
  - intros i ks k i' ks' k' N1 H1 N2 H2 E. destruct (Hc i ks N1) as (_ & _ & _ & _ & _ & _ & L1 & _). destruct (Hc i' ks' N2) as (_ & _ & _ & _ & _ & _ & L2 & _).
    apply Inj; [lia|lia|exact E].
  - intros i ks k N1 H1. destruct (Hc i ks N1) as (_ & _ & _ & _ & _ & _ & L1 & _). destruct (Rg i k ltac:(lia)) as (R1 & R2).
    exists (nth (fst (place i k)) rss []). split; [apply nth_error_nth'; exact R1|exact R2].
  - intros rss' L F i ks Nk. destruct (Hc i ks Nk) as (c & st & Nc & Ns & Ec & Ek & Lk & Ni & Fi).
    destruct (Main rss' L F i ks st Nk Ns) as (Lds & Bds & Hb & Er). set (items := nth i its []) in *.
    set (ds := map (fun k => xorl (at_place rss (place i k)) (at_place rss' (place i k))) (seq 0 (length items))) in *.
    destruct (client_responses_any db m st items (Hready i st Ns) Hdb Fi ds Lds Bds) as (U & _). cbv zeta in U. rewrite Er, U.
    eexists. split; [reflexivity|]. split; [rewrite map_length, combine_length; lia|].
    intros k key r Nkey Nr. assert (Hk : (k < length items)%nat) by (rewrite Lk; apply nth_error_Some; congruence).
    destruct (get_lt items k Hk) as (it & _ & Nit). rewrite <- Ek in Nkey. rewrite nth_error_map, Nit in Nkey. injection Nkey as <-.
    eexists. split.
    + rewrite nth_error_map, (nth_error_combine items ds k it (xorl (at_place rss (place i k)) (at_place rss' (place i k)))); [reflexivity|exact Nit|].
      unfold ds. rewrite nth_error_map_seq by exact Hk. reflexivity.
    + cbn [fst snd]. unfold row. rewrite (nth_error_nth db _ _ Nr).
      assert (Wr : wf_response r) by (rewrite Forall_forall in Hdb; apply Hdb; eapply nth_error_In; eauto).
      rewrite dec_enc_response; [reflexivity|]. destruct (Hb k Hk). apply bytes_xorl; [apply bytes_enc_response; exact Wr|].
      apply bytes_xorl; assumption.
  - intros rss' L F i ks Nk. destruct (Hc i ks Nk) as (c & st & Nc & Ns & Ec & Ek & Lk & Ni & Fi).
    destruct (Main rss' L F i ks st Nk Ns) as (Lds & Bds & Hb & Er). set (items := nth i its []) in *.
    pose proof (Same rss' i items Hb) as Ez. cbv zeta in Ez.
    set (ds := map (fun k => xorl (at_place rss (place i k)) (at_place rss' (place i k))) (seq 0 (length items))) in *.
    destruct (client_responses_any db m st items (Hready i st Ns) Hdb Fi ds Lds Bds) as (_ & U1 & U2). cbv zeta in U1, U2. rewrite Er. split.
    + intros H. rewrite <- Lk in H. apply Ez in H. rewrite (U1 H). eexists. split; [reflexivity|]. rewrite <- Ek, !map_map.
      apply map_ext_in. intros it Hi. rewrite Forall_forall in Fi. destruct (Fi it Hi) as (_ & _ & _ & B).
      unfold row. symmetry. apply nth_error_nth'. lia.
    + intros (k & Hk & Hne). apply U2. intros Z0. apply Hne. apply (proj1 Ez Z0). lia.
Qed.
End Clients.

(** ** Whole runs *)
Lemma par_run_tampering b rng iter db junk N clients parties keys bpk bsk :
  par_deployment rng db N clients parties keys -> par_keyed b db N clients parties keys bpk bsk ->
  (forall i l, Permutation (iter i l) l) -> bytes 52 junk ->
  exists trs btr, length trs = length parties /\
  forall scs border, Forall2 (fits N) trs scs -> complete N btr border ->
  exists o, par_run b true rng iter db junk clients (combine parties scs) bpk bsk border = Ok o /\
    forall j, (j <= length parties)%nat -> exists place,
      par_tampering (fun checks rss' i => par_run_tampered b checks rng iter db clients (combine parties scs) bpk bsk border j rss' i) db
        (map ct_keys clients) (nth j (po_responses o) []) place.
Proof.
  intros D0 K0 Hiter J. pose proof (pd_tiled _ _ _ _ _ _ D0) as T.
  pose proof (pd_max _ _ _ _ _ _ D0) as H255. pose proof (pd_count _ _ _ _ _ _ D0) as Hc.
  destruct (par_offline_chain_spec b rng iter keys (length db) N bpk bsk (pk_box _ _ _ _ _ _ _ _ K0) H255 T Hiter parties 0 (map (fun c => length (ct_keys c)) clients))
    as (trs & btr & plan & Lt & Lp & Hall).
  { cbn. exact Hc. }
  { exact (pk_backend _ _ _ _ _ _ _ _ K0). }
  { intros j confs Nc. cbn [Nat.add]. destruct (pd_parties _ _ _ _ _ _ D0 j confs Nc) as (L1 & L2). split; [exact L1|]. split; [exact L2|].
    split; [intros s sf Nf; apply (pk_parties _ _ _ _ _ _ _ _ K0 j confs s sf Nc Nf)|apply (pk_constant _ _ _ _ _ _ _ _ K0 j confs Nc)]. }
  { pose proof (pd_total _ _ _ _ _ _ D0) as H0. unfold client_keys in H0 at 1. rewrite flat_map_concat_map, length_concat_sum, map_map in H0. exact H0. }
  { rewrite map_length. exact (pd_clients _ _ _ _ _ _ D0). }
  exists trs, btr. split; [exact Lt|]. clear H255 Hc T. intros scs border Fs Hb. rename D0 into D, K0 into K.
  pose proof (pd_tiled _ _ _ _ _ _ D) as T. pose proof T as ((T1 & _) & _ & Hr & _).
  pose proof (pd_max _ _ _ _ _ _ D) as H255. pose proof (pd_count _ _ _ _ _ _ D) as Hc. pose proof (pd_clients _ _ _ _ _ _ D) as Lc.
  destruct (pk_equal _ _ _ _ _ _ _ _ K) as (n & Hn).
  assert (Hcl : forall i c, nth_error clients i = Some c -> length (ct_keys c) = n /\ ct_pkeys c = map fst keys /\
    good_rand (ct_rand c) (length (ct_keys c)) (length keys) /\ Forall (fun k => 0 <= k < Z.of_nat (length db)) (ct_keys c)).
  { intros i c Nc. apply nth_error_In in Nc. rewrite Forall_forall in Hn. split; [auto|].
    pose proof (pk_clients _ _ _ _ _ _ _ _ K) as Kc. rewrite Forall_forall in Kc. destruct (Kc c Nc) as (K1 & K2).
    split; [exact K1|]. split; [exact K2|]. apply (Forall_flat _ _ _ _ (pd_queries _ _ _ _ _ _ D) Nc). }
  set (item_of := fun i => match nth_error clients i with Some c => gen_items (length keys) (ct_rand c) (i * n) (ct_keys c) | None => [] end).
  set (its := map item_of (seq 0 N)).
  assert (Lits : length its = N) by (unfold its; rewrite map_length, seq_length; reflexivity).
  assert (Hnth : forall i c, nth_error clients i = Some c -> nth i its [] = gen_items (length keys) (ct_rand c) (i * n) (ct_keys c)).
  { intros i c Nc. assert (Hi : (i < N)%nat) by (rewrite <- Lc; apply nth_error_Some; congruence).
    unfold its. erewrite nth_error_nth; [|rewrite nth_error_map_seq by exact Hi; reflexivity]. unfold item_of. rewrite Nc. reflexivity. }
  assert (Hmapk : map (map it_key) its = map ct_keys clients).
  { apply nth_error_ext. intros i. destruct (Nat.lt_ge_cases i N) as [Hi|Hi].
    - destruct (get_lt clients i ltac:(lia)) as (c & _ & Nc). rewrite !nth_error_map, Nc. cbn [option_map].
      unfold its. rewrite nth_error_map_seq by exact Hi. cbn [option_map]. unfold item_of. rewrite Nc, gen_keys. reflexivity.
    - rewrite !(proj2 (nth_error_None _ _)); [reflexivity| |]; rewrite map_length; lia. }
  assert (Hk : map it_key (concat its) = client_keys clients).
  { rewrite concat_map, Hmapk. unfold client_keys. rewrite flat_map_concat_map. reflexivity. }
  assert (Hl : lens its = map (fun c => Z.of_nat (length (ct_keys c))) clients).
  { transitivity (lens (map (map it_key) its)).
    - unfold lens. rewrite map_map. apply map_ext. intros l. rewrite map_length. reflexivity.
    - rewrite Hmapk. unfold lens. rewrite map_map. reflexivity. }
  assert (Htags : map it_tag (concat its) = map Z.of_nat (seq 0 (N * n))).
  { unfold its. rewrite <- flat_map_concat_map, map_flat_map. rewrite <- client_seq, map_flat_map. apply flat_map_ext_in.
    intros i Hi. apply in_seq in Hi. destruct (get_lt clients i ltac:(lia)) as (c & _ & Nc). unfold item_of. rewrite Nc, gen_tags.
    destruct (Hcl i c Nc) as (-> & _). reflexivity. }
  assert (Lconc : length (concat its) = (N * n)%nat).
  { apply (f_equal (fun l => length l)) in Htags. rewrite !map_length, seq_length in Htags. exact Htags. }
  assert (Lk : length (concat its) = length (client_keys clients)) by (rewrite <- Hk, map_length; reflexivity).
  pose proof (pd_total _ _ _ _ _ _ D) as Ht.
  assert (Hroom : forall i c, nth_error clients i = Some c -> Z.of_nat (i * length (ct_keys c) + length (ct_keys c)) < 2 ^ 32).
  { intros i c Nc. assert (Hi : (i < N)%nat) by (rewrite <- Lc; apply nth_error_Some; congruence). destruct (Hcl i c Nc) as (-> & _).
    assert (i * n + n <= N * n)%nat by nia. lia. }
  assert (Oi : Forall (Forall (ok_item (length db) (length keys))) its).
  { apply Forall_map. apply Forall_forall. intros i Hi. apply in_seq in Hi. destruct (get_lt clients i ltac:(lia)) as (c & _ & Nc).
    unfold item_of. rewrite Nc. destruct (Hcl i c Nc) as (En & _ & Gr & Fk). specialize (Hroom i c Nc). rewrite En in Hroom.
    apply gen_items_ok; auto. rewrite En. lia. }
  assert (U : unique_tags its) by (unfold unique_tags; rewrite Lconc, Htags; apply Permutation_refl).
  destruct (Hall its) as (LO & LU & Hrun).
  - unfold lens in Hl. rewrite <- (map_map (fun l : list item => length l) Z.of_nat), <- (map_map (fun c => length (ct_keys c)) Z.of_nat) in Hl.
    revert Hl. generalize (map (fun c => length (ct_keys c)) clients) as ys, (map (fun l : list item => length l) its) as xs.
    intros ys xs. revert ys. induction xs as [|x xs IHx]; intros [|y ys] E; cbn [map] in E; try discriminate; [reflexivity|]. injection E as E1 E2. f_equal; [lia|auto].
  - rewrite Nat.sub_0_r. exact Oi.
  - exact U.
  - cbv zeta in *. set (levels := par_below keys (length db) N 0 plan parties its) in *. pose proof (Forall2_len _ _ _ Fs) as Lsc.
    unfold par_run, par_run_tampered. rewrite combine_length, <- Lsc, Lt, Nat.min_id, Hc.
    destruct (choose_fun N (fun i (x : list (list Z) * cstate) => forall c, nth_error clients i = Some c ->
      client_offline b true (Z.of_nat i) (length keys) (ct_pkeys c) (ct_rand c) (length (ct_keys c)) = Ok x /\
      Forall2 (opens b keys) (fst x) (nth i its []) /\ client_ready (snd x) (nth i its []))) as (f & Hf).
    + lia.
    + intros i Hi. destruct (get_lt clients i ltac:(lia)) as (c & _ & Nc). destruct (Hcl i c Nc) as (En & Ep & Gr & Fk).
      destruct (client_offline_at b (length db) keys i (ct_rand c) (ct_keys c) (pk_box _ _ _ _ _ _ _ _ K) H255 Gr Hr Fk (Hroom i c Nc)) as (cs & st & E1 & E2 & E3).
      exists (cs, st). intros c' Nc'. rewrite Nc in Nc'. inversion Nc'; subst c'. rewrite Ep, (Hnth i c Nc), <- En. auto.
    + rewrite (map_res_seq _ f).
      2:{ intros i Hi. destruct (get_lt clients i Hi) as (c & Gc & Nc). rewrite Gc. cbn [bind]. apply (Hf i ltac:(lia) c Nc). }
      cbn [bind]. rewrite Lc. rewrite <- Hl.
      destruct (Hrun (map fst (map f (seq 0 N))) scs border) as (links & states & bps & E & C & Lf & Lcs & Lst & Lo).
      * cbn [skipn]. rewrite map_map. rewrite <- (nth_seq_all [] its), Lits. apply Forall2_map_seq. intros i Hi.
        destruct (get_lt clients i ltac:(lia)) as (c & _ & Nc). apply (Hf i Hi c Nc).
      * exact Fs.
      * exact Hb.
      * rewrite E. cbn [bind].
        assert (HR : forall i st, nth_error (map snd (map f (seq 0 N))) i = Some st -> client_ready st (nth i its [])).
        { intros i st Ns. assert (Hi : (i < N)%nat).
          { assert (H : (i < length (map snd (map f (seq 0 N))))%nat) by (apply nth_error_Some; congruence). rewrite !map_length, seq_length in H. exact H. }
          rewrite map_map, nth_error_map_seq in Ns by exact Hi. inversion Ns; subst st.
          destruct (get_lt clients i ltac:(lia)) as (c & _ & Nc). apply (Hf i Hi c Nc). }
        assert (HK : forall i c, nth_error clients i = Some c -> map it_key (nth i its []) = ct_keys c).
        { intros i c Nc. rewrite (Hnth i c Nc). apply gen_keys. }
        assert (LS : length (map snd (map f (seq 0 N))) = length clients) by (rewrite !map_length, seq_length; lia).
        destruct (par_client_queries_spec db (length keys) clients its (map snd (map f (seq 0 N))) (pd_db _ _ _ _ _ _ D) ltac:(lia) LS HK HR Oi) as (cqs & Eq & Ef & Er).
        destruct (par_client_queries_states db (length keys) clients its (map snd (map f (seq 0 N))) (pd_db _ _ _ _ _ _ D) ltac:(lia) LS HK HR Oi) as (cqs' & Eq' & _ & Hst).
        rewrite Eq in Eq'. injection Eq' as <-.
        rewrite Eq. cbn [bind]. rewrite combine_snd by lia. rewrite Ef, Lf.
        rewrite (last_map lens (its :: levels) [] []) by discriminate.
        pose proof (par_online_spec db junk N bps (pd_db _ _ _ _ _ _ D) J _ _ C) as E2. cbn [hd] in E2. rewrite E2. cbn [bind fst snd map].
        rewrite Er. cbn [bind]. eexists. split; [reflexivity|]. cbn [po_responses]. intros j Hj.
        destruct (par_tampering_levels db (length keys) clients its (map snd (map f (seq 0 N))) (pd_db _ _ _ _ _ _ D) ltac:(lia) LS HK HR Oi
          N bps (combine states scs) levels j
          (fun checks rss' i => bind (par_online_tampered j rss' (combine states scs) (map (map q_of) its)) (fun rss => tampered_client checks db (map snd cqs) clients rss i))
          cqs C ltac:(rewrite combine_length; lia) Hst (fun _ _ _ => eq_refl)) as (place & TP).
        exists place. rewrite map_map. cbn [snd].
        change (map (map (answer db)) its :: map (fun x => map (map (answer db)) x) levels) with (map (rss_of db) (its :: levels)).
        change (@nil (list (list Z))) with (rss_of db []) at 1. rewrite map_nth. exact TP.
Qed.

Lemma par_run_simulated_tampering rng db junk N clients parties keys :
  par_deployment rng db N clients parties keys -> bytes 52 junk ->
  exists trs, length trs = length parties /\
  forall scs, Forall2 (fits_online N) trs scs ->
  exists o, par_run_simulated true rng db junk clients (combine parties scs) = Ok o /\
    forall j, (j <= length parties)%nat -> exists place,
      par_tampering (fun checks rss' i => par_run_simulated_tampered checks rng db clients (combine parties scs) j rss' i) db
        (map ct_keys clients) (nth j (po_responses o) []) place.
Proof.
  intros D J. pose proof (pd_tiled _ _ _ _ _ _ D) as T. pose proof T as (_ & _ & Hr & _).
  pose proof (pd_max _ _ _ _ _ _ D) as H255. pose proof (pd_count _ _ _ _ _ _ D) as Hc. pose proof (pd_clients _ _ _ _ _ _ D) as Lc.
  set (its := map (fun c => map (sim_item (length keys)) (ct_keys c)) clients).
  assert (Hk : map it_key (concat its) = client_keys clients).
  { unfold its, client_keys. rewrite <- flat_map_concat_map, map_flat_map. apply flat_map_ext_in. intros c _. rewrite map_map. apply map_id. }
  assert (Hl : lens its = map (fun c => Z.of_nat (length (ct_keys c))) clients).
  { unfold lens, its. rewrite map_map. apply map_ext. intros c. rewrite map_length. reflexivity. }
  assert (Oi : Forall (Forall (ok_item (length db) (length keys))) its).
  { apply Forall_map. apply Forall_forall. intros c Hin. apply Forall_map.
    eapply Forall_impl; [|apply (Forall_flat _ _ _ _ (pd_queries _ _ _ _ _ _ D) Hin)]. intros key Hkey. apply sim_item_ok; assumption. }
  destruct (par_simulate_chain_spec rng keys (length db) N H255 T parties 0 its) as (trs & levels & states & bps & Lt & Lst & LO & Hrun).
  - cbn. exact Hc.
  - intros j confs Nc. apply (pd_parties _ _ _ _ _ _ D j confs Nc).
  - rewrite <- (map_length it_key (concat its)), Hk. apply (pd_total _ _ _ _ _ _ D).
  - unfold its. rewrite map_length. exact Lc.
  - rewrite Nat.sub_0_r. exact Oi.
  - rewrite Nat.sub_0_r. apply Forall_map. apply Forall_forall. intros c _. apply Forall_map. apply Forall_forall. intros; apply is_sim_item.
  - exists trs. split; [exact Lt|]. intros scs Fs. destruct (Hrun scs Fs) as (E & C).
    pose proof (Forall2_len _ _ _ Fs) as Lsc.
    unfold par_run_simulated, par_run_simulated_tampered. rewrite combine_length, <- Lsc, Lt, Nat.min_id, Hc.
    assert (Hst : exists sts, map_res (fun c => client_simulate (length keys) (length (ct_keys c))) clients = Ok sts /\
      length sts = length clients /\ forall i st, nth_error sts i = Some st -> client_ready st (nth i its [])).
    { unfold its. pose proof (pd_queries _ _ _ _ _ _ D) as Fq. clear - Fq Hr. unfold client_keys in Fq.
      induction clients as [|c cl IH]; [exists []; split; [reflexivity|]; split; [reflexivity|]; intros [|i] st; discriminate|].
      cbn [flat_map] in Fq. apply Forall_app in Fq. destruct Fq as (F1 & F2). destruct (IH F2) as (sts & E & L & H).
      destruct (client_simulate_spec (length db) (length keys) (ct_keys c) Hr F1) as (st & Es & Cr).
      exists (st :: sts). cbn [map_res]. rewrite Es. cbn [bind]. rewrite E. split; [reflexivity|]. split; [cbn; lia|].
      intros [|i] st' N; cbn [nth_error] in N; [inversion N; subst; exact Cr|]. cbn [map nth]. apply H. exact N. }
    destruct Hst as (sts & Est & Ls & Hready). rewrite Est. cbn [bind]. rewrite <- Hl, E. cbn [bind].
    assert (HK : forall i c, nth_error clients i = Some c -> map it_key (nth i its []) = ct_keys c).
    { intros i c Nc. unfold its. erewrite nth_error_nth; [|rewrite nth_error_map, Nc; reflexivity]. rewrite map_map. apply map_id. }
    assert (LI : length its = length clients) by (unfold its; apply map_length).
    destruct (par_client_queries_spec db (length keys) clients its sts (pd_db _ _ _ _ _ _ D) LI Ls HK Hready Oi) as (cqs & Eq & Ef & Er).
    destruct (par_client_queries_states db (length keys) clients its sts (pd_db _ _ _ _ _ _ D) LI Ls HK Hready Oi) as (cqs' & Eq' & _ & Hst).
    rewrite Eq in Eq'. injection Eq' as <-.
    rewrite Eq. cbn [bind]. rewrite combine_snd by lia. rewrite Ef.
    rewrite (last_map lens (its :: levels) [] []) by discriminate.
    pose proof (par_online_spec db junk N bps (pd_db _ _ _ _ _ _ D) J _ _ C) as E2. cbn [hd] in E2. rewrite E2. cbn [bind fst snd map].
    rewrite Er. cbn [bind]. eexists. split; [reflexivity|]. cbn [po_responses]. intros j Hj.
    destruct (par_tampering_levels db (length keys) clients its sts (pd_db _ _ _ _ _ _ D) LI Ls HK Hready Oi
      N bps (combine states scs) levels j
      (fun checks rss' i => bind (par_online_tampered j rss' (combine states scs) (map (map q_of) its)) (fun rss => tampered_client checks db (map snd cqs) clients rss i))
      cqs C ltac:(rewrite combine_length; lia) Hst (fun _ _ _ => eq_refl)) as (place & TP).
    exists place. rewrite map_map. cbn [snd].
    change (map (map (answer db)) its :: map (fun x => map (map (answer db)) x) levels) with (map (rss_of db) (its :: levels)).
    change (@nil (list (list Z))) with (rss_of db []) at 1. rewrite map_nth. exact TP.
Qed.
