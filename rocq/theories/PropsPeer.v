(** Property theorems C60-C62: an honest party or backend facing a peer that may
    send anything of the right size. *)
From Verif Require Import Base BaseProofs Incremental Wire Additive Onion Shuffle Sizes State Database Handlers Batch Party Chain Spec Toy ChainSpec
  PropsShuffle PropsChain PeerSpec PeerProofs.

(** C60 The offline stage of a party accepts a batch of ciphers exactly when all
    of them open with its key and show different tags; otherwise it aborts.  If
    it accepts, it sends on its own noise ciphers, which do not depend on what
    it received, and the inner ciphers, in the order given by its shuffler. *)
Theorem C60_party_ciphers : forall b rng keys rows k cf n ls, honest_party b rng keys rows k cf n ->
  ls_initialize rng (pf_seed cf) (noise_total rows cf + n) = Ok ls ->
  exists noise_ciphers, length noise_ciphers = noise_total rows cf /\
    Forall (fun c => length c = (124 * (length keys - k - 1))%nat) noise_ciphers /\
    forall cs, length cs = n -> Forall (bytes (124 * (length keys - k))) cs ->
      ((exists c, In c cs /\ shows b (pf_pkey cf) (pf_skey cf) c = None) ->
         party_offline b true rng cf (Z.of_nat n) cs = Abort) /\
      forall opens, map (shows b (pf_pkey cf) (pf_skey cf)) cs = map Some opens ->
        (~ NoDup (map (fun x => o_tag (fst x)) opens) -> party_offline b true rng cf (Z.of_nat n) cs = Abort) /\
        (NoDup (map (fun x => o_tag (fst x)) opens) -> exists cs' rp,
           party_offline b true rng cf (Z.of_nat n) cs = Ok (Z.of_nat (noise_total rows cf + n), cs', rp) /\
           length cs' = (noise_total rows cf + n)%nat /\
           forall i j, ls_shuffle ls i = Ok j -> nth_error cs' i = nth_error (noise_ciphers ++ map snd opens) j).
Proof. intros b rng keys rows k cf n ls H E. exact (c60_party b rng keys rows k cf n H ls E). Qed.
Print Assumptions C60_party_ciphers.

(** The backend, in both build modes: a cipher that does not open aborts it with
    assertions and is used uninitialised without them; a repeated tag aborts it
    with assertions. *)
Theorem C60_backend_ciphers : forall b a pk sk cs, box_sizes b pk sk -> Forall (bytes 124) cs ->
  ((exists c, In c cs /\ shows b pk sk c = None) ->
     backend_offline b a pk sk (Z.of_nat (length cs)) cs = if a then Abort else UB) /\
  forall opens, map (shows b pk sk) cs = map Some opens ->
    (~ NoDup (map (fun x => o_tag (fst x)) opens) -> backend_offline b true pk sk (Z.of_nat (length cs)) cs = Abort) /\
    (NoDup (map (fun x => o_tag (fst x)) opens) -> exists p, backend_offline b a pk sk (Z.of_nat (length cs)) cs = Ok p).
Proof.
  intros b a pk sk cs Hsz Bc. destruct (c60_backend b a pk sk cs Hsz Bc) as (H1 & H2). split; [exact H1|].
  intros opens Eo. destruct (H2 opens Eo) as (H3 & H4). split; [exact H4|]. intros Nd. rewrite H3.
  destruct (install_stores_last a (map fst opens)) as (p & E & _); [rewrite map_map; exact Nd|]. exists p. exact E.
Qed.
Print Assumptions C60_backend_ciphers.

(** Opening one cipher, in both build modes. *)
Theorem C60_open_one : forall b a cf m p c junk,
  as_party_id (Z.of_nat (pf_parties cf) - Z.of_nat (pf_party cf)) = S m ->
  box_sizes b (pf_pkey cf) (pf_skey cf) -> bytes (124 * S m) c ->
  install_one b a cf p (c ++ junk) =
  match shows b (pf_pkey cf) (pf_skey cf) c with
  | Some (s, inner) => let* p' := qs_store a p s in Ok (p', inner)
  | None => if a then Abort else UB
  end.
Proof. intros b a cf m p c junk E H B. exact (install_one_shows b cf m E H a p c junk B). Qed.
Print Assumptions C60_open_one.

(** C61 The queries a party sends on, whatever it received: its own noise
    queries, which do not depend on what it received, and for each query of the
    peer the next tag and the tally reconstructed with the share stored under
    the query's tag, at the places given by its shuffler.  A query under a tag
    for which no secret was stored reads through an invalid iterator. *)
Theorem C61_party_queries : forall b rng keys rows k cf n ls, honest_party b rng keys rows k cf n ->
  ls_initialize rng (pf_seed cf) (noise_total rows cf + n) = Ok ls ->
  exists noise_queries, length noise_queries = noise_total rows cf /\
    forall cs opens count cs' rp, length cs = n -> Forall (bytes (124 * (length keys - k))) cs ->
      party_offline b true rng cf (Z.of_nat n) cs = Ok (count, cs', rp) ->
      map (shows b (pf_pkey cf) (pf_skey cf)) cs = map Some opens ->
      forall qs, length qs = n ->
        ((exists q, In q qs /\ ~ In (q_tag q) (map (fun x => o_tag (fst x)) opens)) -> party_forward rp qs = UB) /\
        (forall secs, Forall2 (secret_of (map fst opens)) qs secs -> exists rp' out,
           party_forward rp qs = Ok (rp', out) /\ length out = (noise_total rows cf + n)%nat /\
           forall i j, ls_shuffle ls i = Ok j ->
             nth_error out j = nth_error (noise_queries ++ map (fun x => handled (fst x) (snd x)) (combine qs secs)) i).
Proof.
  intros b rng keys rows k cf n ls H E. destruct (c61_party b rng keys rows k cf n H ls E) as (nqs & L & K).
  exists nqs. split; [exact L|]. intros cs opens count cs' rp Lc Bc Er Eo qs Lq.
  destruct (K cs opens count cs' rp Lc Bc Er Eo qs Lq) as (K1 & K2). split; [exact K1|].
  intros secs Fs. destruct (K2 secs Fs) as (rp' & out & E1 & E2 & E3 & _). exists rp', out. auto.
Qed.
Print Assumptions C61_party_queries.

(** The backend answers each query with the row its reconstructed key names,
    masked with the stored mask; an unknown tag or a key outside the table is
    an invalid memory access. *)
Theorem C61_backend_queries : forall b a pk sk db junk cs opens p qs, box_sizes b pk sk -> Forall (bytes 124) cs ->
  Forall wf_response db -> bytes 52 junk ->
  map (shows b pk sk) cs = map Some opens -> NoDup (map (fun x => o_tag (fst x)) opens) ->
  backend_offline b a pk sk (Z.of_nat (length cs)) cs = Ok p -> length qs = length cs ->
  ((exists q, In q qs /\ ~ In (q_tag q) (map (fun x => o_tag (fst x)) opens)) ->
     backend_online db junk (Z.of_nat (length cs)) p qs = UB) /\
  (forall secs, Forall2 (secret_of (map fst opens)) qs secs ->
     let ks := map (fun x => incremental_reconstruct (q_tally (fst x)) (o_share (snd x))) (combine qs secs) in
     ((exists k, In k ks /\ nth_error db (Z.to_nat k) = None) -> backend_online db junk (Z.of_nat (length cs)) p qs = UB) /\
     (forall rows, map (fun k => nth_error db (Z.to_nat k)) ks = map Some rows ->
        backend_online db junk (Z.of_nat (length cs)) p qs =
        Ok (ks, map (fun x => masked (enc_response (fst x)) (o_preshare (snd x))) (combine rows secs)))).
Proof. exact c61_backend. Qed.
Print Assumptions C61_backend_queries.

(** C62 The responses a party sends back, whatever the next party answered: the
    i-th query of the peer gets the response that came back at the place where
    that query was sent, masked with the mask stored under that query's tag;
    the responses to noise are dropped. *)
Theorem C62_party_responses : forall b rng keys rows k cf n ls, honest_party b rng keys rows k cf n ->
  ls_initialize rng (pf_seed cf) (noise_total rows cf + n) = Ok ls ->
  forall cs opens count cs' rp qs secs rp' out resps, length cs = n -> Forall (bytes (124 * (length keys - k))) cs ->
    party_offline b true rng cf (Z.of_nat n) cs = Ok (count, cs', rp) ->
    map (shows b (pf_pkey cf) (pf_skey cf)) cs = map Some opens ->
    length qs = n -> Forall2 (secret_of (map fst opens)) qs secs -> party_forward rp qs = Ok (rp', out) ->
    length resps = (noise_total rows cf + n)%nat -> Forall (bytes 52) resps ->
    exists back, party_backward rp' resps = Ok back /\ length back = n /\
      forall i s j r, nth_error secs i = Some s -> ls_shuffle ls (noise_total rows cf + i) = Ok j -> nth_error resps j = Some r ->
        nth_error back i = Some (masked r (o_preshare s)).
Proof.
  intros b rng keys rows k cf n ls H E cs opens count cs' rp qs secs rp' out resps Lc Bc Er Eo Lq Fs Ef Lr Br.
  destruct (c61_party b rng keys rows k cf n H ls E) as (nqs & L & K).
  destruct (K cs opens count cs' rp Lc Bc Er Eo qs Lq) as (_ & K2).
  destruct (K2 secs Fs) as (rp2 & out2 & E1 & _ & _ & E3). rewrite Ef in E1. inversion E1; subst rp2 out2.
  exact (E3 resps Lr Br).
Qed.
Print Assumptions C62_party_responses.

(** The toy box and the first party of the example deployment meet the
    hypotheses; a tampered cipher, a repeated one and an unknown tag. *)
Lemma toy_box_sizes pk sk : box_sizes toy_box pk sk.
Proof.
  intros c plain Bc E. cbn [box_open toy_box] in E. destruct (eqb_list (firstn 48 c) (toy_header pk)) eqn:Eq; [|discriminate].
  assert (P : plain = skipn 48 c) by congruence. subst plain.
  assert (L : forall a b, eqb_list a b = true -> length a = length b).
  { induction a as [|x a IH]; intros [|y b] Hab; try discriminate Hab; [reflexivity|]. cbn in Hab. apply andb_true_iff in Hab.
    cbn. f_equal. apply IH. apply Hab. }
  apply L in Eq. unfold toy_header in Eq. rewrite repeat_length, firstn_length in Eq. rewrite skipn_length. split; [lia|].
  rewrite <- (firstn_skipn 48 c) in Bc. apply Forall_app in Bc. apply Bc.
Qed.
Lemma ex_honest : honest_party toy_box ex_rng ex_keys 3 0 (ex_conf 0) 2.
Proof.
  split; [exact (dp_parties _ _ _ _ _ ex_deployment 0%nat _ eq_refl)|exact (ky_parties _ _ _ _ _ _ _ ex_keyed 0%nat _ eq_refl)|
    intros; apply toy_box_ok|apply toy_box_sizes|cbn; lia|lia|vm_compute; reflexivity].
Qed.
Definition ex_secret (t : Z) : osecret :=
  {| o_tag := t; o_next := t + 100; o_share := {| sx := 3 * t; sy := 7 |}; o_preshare := repeat t 52 |}.
Definition ex_peer_cipher (t : Z) : list Z := repeat 1 48 ++ enc_osecret (ex_secret t) ++ repeat (t mod 256) 248.
Example C60_example :
  Forall (bytes 372) [ex_peer_cipher 70; ex_peer_cipher 80] /\
  map (shows toy_box [1] []) [ex_peer_cipher 70; ex_peer_cipher 80] =
    map Some [(ex_secret 70, repeat 70 248); (ex_secret 80, repeat 80 248)] /\
  (let* r := party_offline toy_box true ex_rng (ex_conf 0) 2 [ex_peer_cipher 70; ex_peer_cipher 80] in
   Ok (map (fun c => (length c, hd 0 c)) (snd (fst r)))) = Ok [(248%nat, 70); (248%nat, 80); (248%nat, 2)] /\
  party_offline toy_box true ex_rng (ex_conf 0) 2 [ex_peer_cipher 70; ex_peer_cipher 70] = Abort /\
  party_offline toy_box true ex_rng (ex_conf 0) 2 [ex_peer_cipher 70; repeat 2 372] = Abort.
Proof.
  split; [|split; [|split; [|split]]]; [|vm_compute; reflexivity..].
  repeat constructor; unfold byte; vm_compute; try reflexivity; discriminate.
Qed.
Example C61_example :
  (let* r := party_offline toy_box true ex_rng (ex_conf 0) 2 [ex_peer_cipher 70; ex_peer_cipher 80] in
   let* f := party_forward (snd r) [{| q_tag := 80; q_tally := 1 |}; {| q_tag := 70; q_tally := 2 |}] in
   let* k := party_backward (fst f) [repeat 1 52; repeat 2 52; repeat 4 52] in
   Ok (map q_tag (snd f), map (fun r => nth 0 r 0) k)) = Ok ([170; 2; 180], [84; 71]) /\
  (let* r := party_offline toy_box true ex_rng (ex_conf 0) 2 [ex_peer_cipher 70; ex_peer_cipher 80] in
   party_forward (snd r) [{| q_tag := 80; q_tally := 1 |}; {| q_tag := 71; q_tally := 2 |}]) = UB.
Proof. vm_compute. split; reflexivity. Qed.
