(** What every server of a deployment does, as a script, along a whole chain. *)
From Verif Require Import Base BaseProofs Incremental IncrementalProofs Wire WireProofs Additive AdditiveProofs Onion OnionProofs
  Shuffle Sizes State Database CipherBatch CipherBatchProofs Range Handlers Batch Party Chain Spec SharingProofs ShuffleProofs
  StateProofs ChainSpec OnlineProofs OfflineProofs OfflineParty ChainProofs ParShuffle ParShuffleProofs ParShuffleFacts Parallel ParChain
  ParSpec ParChainSpec ParMergeProofs ParForwardProofs ParBackwardProofs ParOnlineProofs ParPartyProofs PermFacts ParFacts
  ParSecretsProofs ParTagProofs ParStage ParParty ParChainProofs Stream StreamProofs Net Procs ProcProofs ProcChain ProcNet ParProcs ParCrash ProcExchange
  ParRules ParLocal ParServer.

Local Notation advance := OnlineProofs.advance.

(** What a link carries: the queries with their keys, and the offline ciphers. *)
Record dlink := { dl_its : list (list item); dl_css : list (list (list Z)) }.

Section Scripts.
  Context (db : list response) (offline online : bool) (N : nat).
  Definition l_count (d : dlink) (i : nat) : nat := length (nth i (dl_its d) []).
  Definition l_ciphers (d : dlink) (i : nat) : list (list Z) := nth i (dl_css d) [].
  Definition l_queries (d : dlink) (i : nat) : list (list Z) := map enc_query (map q_of (nth i (dl_its d) [])).
  Definition l_responses (d : dlink) (i : nat) : list (list Z) := map (answer db) (nth i (dl_its d) []).

  Definition m_listen (i k : nat) : list mact := [Snd (Link i (Lis k)) 1; Rcv (Link i (Con k)) 1].
  Definition m_connect (i k : nat) : list mact := [Rcv (Link i (Lis k)) 1; Snd (Link i (Con k)) 1].

  (** Server i of the party between the links k and k+1. *)
  Definition party_stage (k i : nat) (pl : plan) (d d' : dlink) : list mact :=
    if offline then s_offline N k i pl (l_count d i) (l_count d' i) (l_ciphers d i) (l_ciphers d' i)
    else s_simulate k i pl (l_count d i) (l_count d' i).
  Definition party_online (k i : nat) (pl : plan) (d d' : dlink) : list mact :=
    if online then s_queries N k i pl (l_queries d i) (l_queries d' i) ++ s_responses N k i pl (l_responses d' i) (l_responses d i) else [].
  Definition party_script (k i : nat) (acc : list nat) (pl : plan) (d d' : dlink) : list mact :=
    m_listen i k ++ m_connect i (S k) ++ siblings_script N (S k) i acc ++ party_stage k i pl d d' ++ party_online k i pl d d'.

  (** Server i of the backend behind link k. *)
  Definition backend_stage (k i : nat) (pl : plan) (d : dlink) : list mact :=
    rcv_ i (Fwd k) (le 4 (Z.of_nat (l_count d i))) ++ snd_ i (Bwd k) [1] ++
    (if offline then rcv_ i (Fwd k) (concat (l_ciphers d i)) ++
       [Loc (x_entries (S k) pl); Loc (x_secrets N (S k) pl); Loc (ready_blk (S k) 8)] ++ snd_ i (Bwd k) [1]
     else []).
  Definition backend_online_script (k i : nat) (d : dlink) : list mact :=
    if online then rcv_ i (Fwd k) (concat (l_queries d i)) ++ snd_ i (Bwd k) (concat (l_responses d i)) else [].
  Definition backend_script (k i : nat) (acc : list nat) (pl : plan) (d : dlink) : list mact :=
    m_listen i k ++ siblings_script N (S k) i acc ++ backend_stage k i pl d ++ backend_online_script k i d.

  (** Client i. *)
  Definition client_script (i : nat) (d : dlink) : list mact :=
    m_connect i 0 ++
    (snd_ i (Fwd 0) (le 4 (Z.of_nat (l_count d i))) ++ rcv_ i (Bwd 0) [1] ++
     (if offline then snd_ i (Fwd 0) (concat (l_ciphers d i)) ++ rcv_ i (Bwd 0) [1] else [])) ++
    (if online then snd_ i (Fwd 0) (concat (l_queries d i)) ++ rcv_ i (Bwd 0) (concat (l_responses d i)) else []).
End Scripts.

(** ** From the stages to whole servers *)
Lemma fo_m_listen i k : follows_on (X := blk) mest (relabel (Link i) (plisten k)) (m_listen i k) tt.
Proof. apply (fo_link i (plisten k) (dlisten k) tt), fo_listen. Qed.
Lemma fo_m_connect i k : follows_on (X := blk) mest (relabel (Link i) (pconnect k)) (m_connect i k) tt.
Proof. apply (fo_link i (pconnect k) (dconnect k) tt), fo_connect. Qed.
Lemma sib_seq N i t d : List.In t (siblings_of N i) -> nth t (seq 0 N) d = t.
Proof. intros H. apply in_siblings in H. rewrite seq_nth; [reflexivity|apply H]. Qed.

Lemma obs_pserver db (offline online : bool) N b rng iter k i mem acc sf pl d d' (P : pready -> Prop) :
  (i < N)%nat -> (N <= 256)%nat -> Forall (fun t => (t < i)%nat) acc -> par_check true (sf_conf sf) = Ok tt ->
  (forall tx rx, (forall t, List.In t (siblings_of N i) -> tx t = Sib (S k) i t) -> (forall t, List.In t (siblings_of N i) -> rx t = Sib (S k) t i) ->
     obs N (S k * N + i) P (if offline then pserver_offline b true rng iter N (S k) i mem tx rx sf else pserver_simulate true rng N (S k) i tx rx sf)
       (party_stage offline N k i pl d d')) ->
  (forall tx rx rp, (forall t, List.In t (siblings_of N i) -> tx t = Sib (S k) i t) -> (forall t, List.In t (siblings_of N i) -> rx t = Sib (S k) t i) ->
     P rp -> online = true -> obs N (S k * N + i) (eq tt) (pserver_online true N (S k) i mem tx rx rp)
       (s_queries N k i pl (l_queries d i) (l_queries d' i) ++ s_responses N k i pl (l_responses db d' i) (l_responses db d i))) ->
  obs N (S k * N + i) (eq PartyEnd) (pserver b true rng iter offline online N (S k) i mem acc sf) (party_script db offline online N k i acc pl d d').
Proof.
  intros Hi HN Ha Hc Hs Ho. unfold pserver, party_script. rewrite Nat.sub_succ, Nat.sub_0_r.
  eapply obs_lift_bind; [exact Hc|]. eapply obs_follows_bind; [apply fo_m_listen|]. eapply obs_follows_bind; [apply fo_m_connect|].
  eapply obs_follows_bind; [apply fo_siblings; assumption|]. cbn zeta.
  assert (Etx : forall t, List.In t (siblings_of N i) -> Sib (S k) i (nth t (seq 0 N) i) = Sib (S k) i t) by (intros t Ht; rewrite (sib_seq N i) by exact Ht; reflexivity).
  assert (Erx : forall t, List.In t (siblings_of N i) -> Sib (S k) (nth t (seq 0 N) i) i = Sib (S k) t i) by (intros t Ht; rewrite (sib_seq N i) by exact Ht; reflexivity).
  eapply obs_bind; [apply (Hs (fun t => Sib (S k) i (nth t (seq 0 N) i)) (fun t => Sib (S k) (nth t (seq 0 N) i) i)); assumption|]. intros rp Hrp.
  eapply obs_ext; [eapply (obs_eq_bind _ _ _ _ [] tt)|apply app_nil_r].
  - unfold party_online. destruct online; [|apply obs_ret; reflexivity]. apply (Ho (fun t => Sib (S k) i (nth t (seq 0 N) i)) (fun t => Sib (S k) (nth t (seq 0 N) i) i)); auto.
  - apply obs_ret. reflexivity.
Qed.

Lemma obs_pbserver db (offline online : bool) N b iter k i mem acc junk pk sk pl d keys (P : Z * qstate -> Prop) :
  (i < N)%nat -> (1 < N)%nat -> (N <= 256)%nat -> Forall (fun t => (t < i)%nat) acc ->
  (forall tx rx, (forall t, List.In t (siblings_of N i) -> tx t = Sib (S k) i t) -> (forall t, List.In t (siblings_of N i) -> rx t = Sib (S k) t i) ->
     obs N (S k * N + i) P (if offline then pbserver_offline b true iter N (S k) i mem tx rx pk sk else relabel (Link i) (pbackend_simulate (S k)))
       (backend_stage offline N k i pl d)) ->
  (forall s, P s -> online = true -> follows_on (X := blk) mest (relabel (Link i) (pbackend_online (sm_link mem) (S k) db junk (fst s) (snd s)))
     (rcv_ i (Fwd k) (concat (l_queries d i)) ++ snd_ i (Bwd k) (concat (l_responses db d i))) keys) ->
  obs N (S k * N + i) (eq (BackendEnd (if online then keys else []))) (pbserver b true iter offline online N (S k) i mem acc db junk pk sk)
    (backend_script db offline online N k i acc pl d).
Proof.
  intros Hi H1 HN Ha Hs Ho. unfold pbserver, backend_script. rewrite Nat.sub_succ, Nat.sub_0_r, (proj2 (Nat.ltb_lt 1 N) H1).
  eapply obs_follows_bind; [apply fo_m_listen|]. eapply obs_follows_bind; [apply fo_siblings; assumption|]. cbn zeta.
  assert (Etx : forall t, List.In t (siblings_of N i) -> Sib (S k) i (nth t (seq 0 N) i) = Sib (S k) i t) by (intros t Ht; rewrite (sib_seq N i) by exact Ht; reflexivity).
  assert (Erx : forall t, List.In t (siblings_of N i) -> Sib (S k) (nth t (seq 0 N) i) i = Sib (S k) t i) by (intros t Ht; rewrite (sib_seq N i) by exact Ht; reflexivity).
  eapply obs_bind; [apply (Hs (fun t => Sib (S k) i (nth t (seq 0 N) i)) (fun t => Sib (S k) (nth t (seq 0 N) i) i)); assumption|]. intros s Hrp.
  eapply obs_ext; [eapply (obs_eq_bind _ _ _ _ [] (if online then keys else []))|apply app_nil_r].
  - unfold backend_online_script. destruct online; [|apply obs_ret; reflexivity]. eapply obs_follows. apply Ho; auto.
  - apply obs_ret. reflexivity.
Qed.

(** What the servers of the backend need to know when the queries arrive. *)
Section Backend.
Variables (db : list response) (junk : list Z) (N k i : nat) (mem : smem) (its : list (list item)).
Hypothesis Hdb : Forall wf_response db.
Hypothesis J : bytes 52 junk.
Hypothesis Hmem : smem_ok mem.
Hypothesis Hi : (i < N)%nat.
Hypothesis L : length its = N.
Hypothesis Oi : Forall (Forall (ok_item (length db) 1)) its.
Hypothesis Hl : Z.of_nat (length (concat its)) < 2 ^ 32.
Definition backend_knows (s : Z * qstate) : Prop := fst s = Z.of_nat (length (nth i its [])) /\ Forall (knows_last (snd s)) (nth i its []).

Lemma nth_count : Z.of_nat (length (nth i its [])) < 2 ^ 32.
Proof using Hl Hi L.
  eapply Z.le_lt_trans; [|exact Hl]. apply inj_le. destruct (nth_split its [] (n := i)) as (l1 & l2 & E & _); [lia|]. rewrite E at 2.
  rewrite concat_app, app_length. cbn [concat]. rewrite app_length. lia.
Qed.
Lemma nth_items : Forall (ok_item (length db) 1) (nth i its []).
Proof using Oi Hi L. rewrite Forall_forall in Oi. apply Oi, nth_In. lia. Qed.

Lemma fo_backend_queries css s : backend_knows s -> Forall (Forall small_tally) its ->
  follows_on (X := blk) mest (relabel (Link i) (pbackend_online (sm_link mem) (S k) db junk (fst s) (snd s)))
    (rcv_ i (Fwd k) (concat (l_queries {| dl_its := its; dl_css := css |} i)) ++ snd_ i (Bwd k) (concat (l_responses db {| dl_its := its; dl_css := css |} i)))
    (map it_key (nth i its [])).
Proof using Hdb J Hmem Hi L Oi Hl.
  intros (Ec & Kn) Sm. pose proof nth_count as Hc. pose proof nth_items as On.
  eapply fo_ext; [eapply fo_link; eapply (fo_backend_online (sm_link mem) (proj1 Hmem) (S k) db junk _ _ (map q_of (nth i its [])) _ (map (answer db) (nth i its [])))|].
  - rewrite Ec. apply backend_online_spec; auto.
  - rewrite Ec. unfold u32. lia.
  - rewrite Ec, Nat2Z.id. apply map_length.
  - apply Forall_map. rewrite Forall_forall in *. assert (Hin : List.In (nth i its []) its) by (apply nth_In; lia). specialize (Sm _ Hin). rewrite Forall_forall in Sm.
    intros it Hit. eapply ok_wf_query; auto.
  - apply Forall_map. eapply Forall_impl; [|exact On]. intros it H. apply (answer_bytes db 1 it Hdb H).
  - rewrite Nat.sub_succ, Nat.sub_0_r, flat_map_app, relabelled_snd, relabelled_rcv. reflexivity.
Qed.

Lemma obs_backend_simulate pl css : Forall (Forall (is_sim 1)) its ->
  obs N (S k * N + i) backend_knows (relabel (Link i) (pbackend_simulate (S k))) (backend_stage false N k i pl {| dl_its := its; dl_css := css |}).
Proof using Hi L Hl.
  intros Si. pose proof nth_count as Hc. unfold backend_stage, l_count. cbn [dl_its].
  eapply obs_ext; [eapply obs_mono; [eapply obs_follows; eapply fo_link; apply (fo_backend_simulate (S k) (Z.of_nat (length (nth i its [])))); unfold u32; lia|]|].
  - intros s <-. split; [reflexivity|]. cbn [snd]. rewrite Forall_forall in Si. eapply Forall_impl; [|apply Si, nth_In; lia].
    intros it H. apply knows_knows_last. apply (sim_knows 0 it H).
  - rewrite Nat.sub_succ, Nat.sub_0_r. cbn [app]. rewrite flat_map_app, relabelled_rcv. reflexivity.
Qed.

Section Secrets.
Variables (b : sealbox) (iter : iteration) (bpk bsk : list Z) (css : list (list (list Z))) (st : nat -> qstate).
Hypothesis Hiter : forall i l, Permutation (iter i l) l.
Hypothesis F2 : Forall2 (Forall2 (opens b [(bpk, bsk)])) css its.
Hypothesis Hst : forall i, (i < N)%nat -> length (nth i css []) = length (nth i its []) /\
  fold_res (backend_handle_cipher b true bpk bsk) (nth i css []) (qs_initialize_state qs_new false) = Ok (st i) /\
  qs_map (st i) = rev (map entry (map drop_next (map first_secret (nth i its [])))).
Hypothesis Hall : forall border, complete N (secret_traffic its) border ->
  exists bps, broadcast_secrets backend_pack (bs_store true) iter (map st (seq 0 N)) border = Ok bps /\ length bps = N /\
    forall i p, nth_error bps i = Some p -> Forall (knows_last p) (nth i its []).
Hypothesis H1 : (1 < N)%nat.
Variables (pl : plan) (tx rx : nat -> mchan).
Hypothesis Etx : forall t, List.In t (siblings_of N i) -> tx t = Sib (S k) i t.
Hypothesis Erx : forall t, List.In t (siblings_of N i) -> rx t = Sib (S k) t i.
Hypothesis Pentries : pl_entries pl = secret_count st.
Hypothesis Psecret : pl_secret pl = secret_sents N backend_pack iter st.

Lemma obs_backend_offline : obs N (S k * N + i) backend_knows (pbserver_offline b true iter N (S k) i mem tx rx bpk bsk)
  (backend_stage true N k i pl {| dl_its := its; dl_css := css |}).
Proof using All.
  pose proof nth_count as Hc. unfold backend_stage, l_count, l_ciphers. cbn [dl_its dl_css]. unfold pbserver_offline. rewrite Nat.sub_succ, Nat.sub_0_r.
  destruct (Hst i Hi) as (L1 & E1 & _).
  eapply obs_follows_bind; [apply (fo_read_count (est := mest)); unfold u32; lia|].
  eapply obs_follows_bind; [apply (fo_ready (est := mest))|].
  eapply obs_follows_bind; [apply (fo_take_ciphers (est := mest) _ _ _ _ _ (nth i css []))|].
  - apply Hmem.
  - unfold backend_in_size. rewrite Csz. unfold BUFFER_SIZE. lia.
  - lia.
  - lia.
  - unfold backend_in_size, sized. rewrite Csz. assert (Fc : Forall2 (opens b [(bpk, bsk)]) (nth i css []) (nth i its [])).
    { destruct (get_lt its i ltac:(lia)) as (l & _ & Nl). destruct (get_lt css i) as (cs & _ & Nc); [rewrite (Forall2_len _ _ _ F2); lia|].
      rewrite (nth_error_nth _ _ _ Nc), (nth_error_nth _ _ _ Nl). apply (Forall2_nth_err _ _ _ i _ _ F2 Nc Nl). }
    clear - Fc. induction Fc as [|c it cs l H F IH]; constructor; auto. apply peels_length in H. exact H.
  - exact E1.
  - rewrite (proj2 (Nat.ltb_lt 1 N) H1). apply obs_assoc.
    change ([Loc (x_entries (S k) pl); Loc (x_secrets N (S k) pl); Loc (ready_blk (S k) 8)] : list mact) with (([Loc (x_entries (S k) pl); Loc (x_secrets N (S k) pl)] : list mact) ++ [Loc (ready_blk (S k) 8)]).
    rewrite <- app_assoc. eapply obs_bind.
    + unfold x_entries, x_secrets. rewrite Pentries, Psecret.
      apply (obs_secrets N (S k) i tx rx mem 6 7 Hi Etx Erx Hmem backend_pack (bs_store true) iter st (secret_traffic its)
        (fun bps => length bps = N /\ forall i p, nth_error bps i = Some p -> Forall (knows_last p) (nth i its [])) Hiter).
      * intros t s Ht Hs. unfold secret_traffic. destruct (s =? t)%nat; [reflexivity|]. destruct (Hst s Hs) as (_ & _ & ->). rewrite rev_length, !map_length. reflexivity.
      * exact Hall.
      * intros s e Hs He. destruct (Hst s Hs) as (_ & _ & Em). rewrite Em in He. apply in_rev in He. rewrite !map_map in He. apply in_map_iff in He.
        destruct He as (it & <- & Hit). assert (Hok : ok_item (length db) 1 it).
        { rewrite Forall_forall in Oi. assert (HF : Forall (ok_item (length db) 1) (nth s its [])) by (apply Oi, nth_In; lia).
          rewrite Forall_forall in HF. apply HF. exact Hit. }
        destruct Hok as (Lx & F & _). unfold first_secret. destruct (it_secrets it) as [|o os]; [discriminate|]. inversion F as [|? ? [Ho _] _]; subst.
        cbn [hd]. destruct Ho as (W1 & W2 & W3). repeat split; cbn; try lia; try apply W1; apply W3.
    + intros p (bps & Np & Lb & Kb). apply obs_assoc. eapply obs_then; [apply (obs_barrier N (S k) i Hi (ready_blk (S k) 8) eq_refl eq_refl tx rx Etx Erx); reflexivity|].
      intros _. cbn [pbind]. eapply obs_ext; [eapply obs_follows_bind; [apply (fo_ready (est := mest))|apply obs_ret]|apply app_nil_r].
      split; [reflexivity|]. apply (Kb i p Np).
Qed.
End Secrets.
End Backend.

(** ** Clients *)
Section Client.
Variables (b : sealbox) (db : list response) (N i : nat) (mem : smem) (m : nat) (its : list (list item)) (css : list (list (list Z))) (c : client) (st : cstate).
Hypothesis Hdb : Forall wf_response db.
Hypothesis Hmem : smem_ok mem.
Hypothesis Hm : (0 < m <= 255)%nat.
Hypothesis Oi : Forall (ok_item (length db) m) (nth i its []).
Hypothesis Hkeys : map it_key (nth i its []) = ct_keys c.
Hypothesis Hready : client_ready st (nth i its []).
Hypothesis Hl : Z.of_nat (length (ct_keys c)) < 2 ^ 32.
Variables (offline online : bool).
Hypothesis Hst : if offline then client_offline b true (Z.of_nat i) m (ct_pkeys c) (ct_rand c) (length (ct_keys c)) = Ok (nth i css [], st) /\
  Forall (fun x => length x = (124 * m)%nat) (nth i css []) else client_simulate m (length (ct_keys c)) = Ok st.
Notation d := {| dl_its := its; dl_css := css |}.

Lemma obs_client : obs N i (eq (ClientEnd (if online then map (row db) (ct_keys c) else [])))
  (relabel (Link i) (pclient b true offline online (Z.of_nat i) (sm_link mem) m db c)) (client_script db offline online i d).
Proof using All.
  assert (Ln : length (nth i its []) = length (ct_keys c)) by (rewrite <- Hkeys, map_length; reflexivity).
  eapply obs_ext; [eapply obs_follows; eapply fo_link; unfold pclient; eapply fo_bind; [apply fo_connect|eapply fo_bind; [|eapply fo_bind]]|].
  - instantiate (2 := map (Snd (Fwd 0)) (le 4 (Z.of_nat (length (ct_keys c)))) ++ [Rcv (Bwd 0) 1] ++
      (if offline then map (Snd (Fwd 0)) (concat (nth i css [])) ++ [Rcv (Bwd 0) 1] else [])).
    destruct offline.
    + eapply fo_ext; [apply (fo_client_offline b true (sm_link mem) (proj1 Hmem) (Z.of_nat i) m c (nth i css []) st (proj1 Hst))|].
      * unfold client_out_size, sized. rewrite Csz. unfold as_party_id. unfold w8. rewrite Z.mod_small by lia. rewrite Nat2Z.id.
        eapply Forall_impl; [|exact (proj2 Hst)]. cbn beta. intros; lia.
      * unfold client_out_size. rewrite Csz. unfold as_party_id, w8. rewrite Z.mod_small by lia. rewrite Nat2Z.id. unfold BUFFER_SIZE. lia.
      * fnorm.
    + eapply fo_ext; [apply (fo_client_simulate true m c st Hst)|fnorm].
  - instantiate (2 := if online then map (Snd (Fwd 0)) (concat (map enc_query (map q_of (nth i its [])))) ++ map (Rcv (Bwd 0)) (concat (map (answer db) (nth i its []))) else []).
    instantiate (1 := if online then map (row db) (ct_keys c) else []).
    destruct online; [|constructor].
    eapply (fo_client_online true (sm_link mem) (proj1 Hmem) db c st (map q_of (nth i its []))).
    + rewrite <- Hkeys. apply client_queries_spec. exact Hready.
    + rewrite <- Hkeys. rewrite (client_responses_spec db m st (nth i its []) Hready Hdb Oi). f_equal. apply map_row_items. reflexivity.
    + exact Hl.
    + rewrite map_length. exact Ln.
    + apply Forall_map. eapply Forall_impl; [|exact Oi]. intros it H. apply (answer_bytes db m it Hdb H).
  - constructor.
  - unfold client_script, l_count, l_ciphers, l_queries, l_responses. cbn [dl_its dl_css]. rewrite Ln.
    rewrite !flat_map_app. rewrite relabelled_snd. unfold snd_, rcv_. f_equal. rewrite app_nil_r, <- !app_assoc. f_equal. cbn [flat_map relabelled app map]. f_equal.
    f_equal.
    + destruct offline; [|reflexivity]. rewrite flat_map_app, relabelled_snd. reflexivity.
    + destruct online; [|reflexivity]. rewrite flat_map_app, relabelled_snd, relabelled_rcv. reflexivity.
Qed.
End Client.
