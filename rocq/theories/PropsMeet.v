(** C84: a party and the backend among arbitrary peers, byte by byte. *)
From Verif Require Import Base BaseProofs Incremental Wire Additive Onion Shuffle ShuffleProofs Sizes State Database Handlers Batch Party Chain Net Procs ChainSpec Spec Toy
  PropsShuffle PropsChain PeerSpec PropsPeer TalkSpec MeetSpec MeetProofs MeetParty MeetBackend MeetSimulated MeetSimBackend.

(** C84 Whatever bytes its peers send, in pieces of whatever sizes, and whether
    or not they hang up, a party to which [n] messages are announced sends on
    its own ciphers and queries, which are fixed before it receives anything,
    together with those of the peer, and nothing else; its behaviour is only
    undefined after a query under a tag for which no cipher was sent; and when
    it returns it has read and sent exactly what it should. *)
Theorem C84_party : forall b rng keys rows j cf n, honest_party b rng keys rows j cf n ->
  exists ls fresh noise, ls_initialize rng (pf_seed cf) (noise_total rows cf + n) = Ok ls /\
    length fresh = noise_total rows cf /\ length noise = noise_total rows cf /\
    forall online mem ins outs p, (forall i, length (mem i) = BUFFER_SIZE) ->
      dialog (pparty b true rng true online mem (S j) cf) ins outs p ->
      (forall n', announces (on (Fwd j) ins) n' -> n' = Z.of_nat n) ->
      let size := (124 * (length keys - j))%nat in
      party_said b (pf_pkey cf) (pf_skey cf) ls size n fresh noise online
        (on (Fwd j) ins) (on (Bwd (S j)) ins) (on (Fwd (S j)) outs) (on (Bwd j) outs) /\
      (forall c x, List.In (c, x) outs -> c = Fwd (S j) \/ c = Bwd j \/ ((c = Lis j \/ c = Con (S j)) /\ x = 1)) /\
      (p = Crash Undefined -> online = true /\ unknown_tag b (pf_pkey cf) (pf_skey cf) size n (on (Fwd j) ins)) /\
      (forall e, p = Ret e -> e = PartyEnd /\
         party_finished b (pf_pkey cf) (pf_skey cf) ls size n fresh noise online
           (on (Fwd j) ins) (on (Bwd (S j)) ins) (on (Fwd (S j)) outs) (on (Bwd j) outs)).
Proof.
  intros b rng keys rows j cf n H.
  destruct (ls_initialize_spec rng (pf_seed cf) (noise_total rows cf + n)) as (ls & El & _);
    [exact (gp_rng _ _ _ _ _ (hp_party _ _ _ _ _ _ _ H))|rewrite Nat.add_comm; exact (hp_total _ _ _ _ _ _ _ H)|].
  destruct (honest_facts b rng keys rows j cf n H ls El) as (ncs & nqs & L1 & L2 & _ & Off & On).
  exists ls, ncs, nqs. split; [exact El|]. split; [exact L1|]. split; [exact L2|].
  intros online mem ins outs p Hmem D C size.
  pose proof (does_party b rng keys rows j cf n H ls ncs nqs online mem Hmem El L1 L2 Off On) as W.
  destruct (does_dialog _ _ (psafe_mono b keys j cf n ls ncs nqs online) _ _ _ _ D [] [] _ W) as [Wp Sp].
  { intros _. split; [intros c x []|apply said_nothing]. }
  cbn [app] in Wp, Sp. destruct (Sp C) as [Ow Sd]. split; [exact Sd|]. split; [exact Ow|]. split.
  - intros ->. exact (Wp eq_refl C).
  - intros e ->. exact (Wp C).
Qed.
Print Assumptions C84_party.

(** How many bytes a party sends depends on the announced number only. *)
Theorem C84_amounts : forall b pk sk ls size n fresh noise online prev next fwd back, length fresh = length noise ->
  let total := (length fresh + n)%nat in
  (party_said b pk sk ls size n fresh noise online prev next fwd back ->
     (length fwd <= 4 + (size - 124) * total + (if online then 12 * total else 0))%nat /\
     (length back <= 2 + (if online then 52 * n else 0))%nat) /\
  (party_finished b pk sk ls size n fresh noise online prev next fwd back ->
     length fwd = (4 + (size - 124) * total + (if online then 12 * total else 0))%nat /\
     length back = (2 + (if online then 52 * n else 0))%nat).
Proof. exact party_amounts. Qed.
Print Assumptions C84_amounts.

(** The backend. *)
Theorem C84_backend : forall b pk sk db junk j n online mem ins outs p, box_sizes b pk sk -> Forall wf_response db -> bytes 52 junk ->
  Z.of_nat n < 2 ^ 32 -> (forall i, length (mem i) = BUFFER_SIZE) ->
  dialog (pbackend b true true online mem (S j) db junk pk sk) ins outs p ->
  (forall n', announces (on (Fwd j) ins) n' -> n' = Z.of_nat n) ->
  backend_said b pk sk db n online (on (Fwd j) ins) (on (Bwd j) outs) /\
  (forall c x, List.In (c, x) outs -> c = Bwd j \/ (c = Lis j /\ x = 1)) /\
  (p = Crash Undefined -> online = true /\ unanswerable b pk sk db n (on (Fwd j) ins)) /\
  (forall e, p = Ret e -> exists looked_up, e = BackendEnd looked_up /\
     backend_finished b pk sk db n online looked_up (on (Fwd j) ins) (on (Bwd j) outs)).
Proof.
  intros b pk sk db junk j n online mem ins outs p Hsz Hdb Hj Hn Hmem D C.
  pose proof (does_backend b pk sk db junk j n online mem Hsz Hdb Hj Hn Hmem) as W.
  destruct (does_dialog _ _ (bsafe_mono b pk sk db j n online) _ _ _ _ D [] [] _ W) as [Wp Sp].
  { intros _. split; [intros c x []|apply bsaid_nothing]. }
  cbn [app] in Wp, Sp. destruct (Sp C) as [Ow Sd]. split; [exact Sd|]. split; [exact Ow|]. split.
  - intros ->. exact (Wp eq_refl C).
  - intros e ->. exact (Wp C).
Qed.
Print Assumptions C84_backend.

(** With the offline stage simulated, no peer can make a party's behaviour
    undefined: it passes on every query, with its tally reduced, among its own,
    which are for its fake keys in the clear. *)
Theorem C84_party_simulated : forall b rng keys rows j cf n, honest_party b rng keys rows j cf n ->
  exists ls, ls_initialize rng (pf_seed cf) (noise_total rows cf + n) = Ok ls /\
    let noise := map (fun key => {| q_tag := 0; q_tally := key |}) (noise_keys rows cf) in
    forall online mem ins outs p, (forall i, length (mem i) = BUFFER_SIZE) ->
      dialog (pparty b true rng false online mem (S j) cf) ins outs p ->
      (forall n', announces (on (Fwd j) ins) n' -> n' = Z.of_nat n) ->
      sim_party_said ls n noise online (on (Fwd j) ins) (on (Bwd (S j)) ins) (on (Fwd (S j)) outs) (on (Bwd j) outs) /\
      (forall c x, List.In (c, x) outs -> c = Fwd (S j) \/ c = Bwd j \/ ((c = Lis j \/ c = Con (S j)) /\ x = 1)) /\
      p <> Crash Undefined /\
      (forall e, p = Ret e -> e = PartyEnd /\
         sim_party_finished ls n noise online (on (Fwd j) ins) (on (Bwd (S j)) ins) (on (Fwd (S j)) outs) (on (Bwd j) outs)).
Proof.
  intros b rng keys rows j cf n H.
  destruct (ls_initialize_spec rng (pf_seed cf) (noise_total rows cf + n)) as (ls & El & _);
    [exact (gp_rng _ _ _ _ _ (hp_party _ _ _ _ _ _ _ H))|rewrite Nat.add_comm; exact (hp_total _ _ _ _ _ _ _ H)|].
  destruct (sim_facts b rng keys rows j cf n H ls El) as (Lq & rp & Ep & On).
  exists ls. split; [exact El|]. intros noise online mem ins outs p Hmem D C.
  pose proof (does_sim_party b rng keys rows j cf n H ls rp online mem Hmem El Lq Ep On) as W.
  destruct (does_dialog _ _ (ssafe_mono rows j cf n ls online) _ _ _ _ D [] [] _ W) as [Wp Sp].
  { intros _. split; [intros c x []|apply ssaid_nothing]. }
  cbn [app] in Wp, Sp. destruct (Sp C) as [Ow Sd]. split; [exact Sd|]. split; [exact Ow|]. split.
  - intros ->. exact (Wp eq_refl C).
  - intros e ->. exact (Wp C).
Qed.
Print Assumptions C84_party_simulated.

Theorem C84_backend_simulated : forall b pk sk db junk j n online mem ins outs p, Forall wf_response db -> bytes 52 junk ->
  Z.of_nat n < 2 ^ 32 -> (forall i, length (mem i) = BUFFER_SIZE) ->
  dialog (pbackend b true false online mem (S j) db junk pk sk) ins outs p ->
  (forall n', announces (on (Fwd j) ins) n' -> n' = Z.of_nat n) ->
  sim_backend_said db n online (on (Fwd j) ins) (on (Bwd j) outs) /\
  (forall c x, List.In (c, x) outs -> c = Bwd j \/ (c = Lis j /\ x = 1)) /\
  (p = Crash Undefined -> online = true /\ missing_row db n (on (Fwd j) ins)) /\
  (forall e, p = Ret e -> exists looked_up, e = BackendEnd looked_up /\
     sim_backend_finished db n online looked_up (on (Fwd j) ins) (on (Bwd j) outs)).
Proof.
  intros b pk sk db junk j n online mem ins outs p Hdb Hj Hn Hmem D C.
  pose proof (does_sim_backend db junk j n online mem Hdb Hj Hn Hmem b pk sk) as W.
  destruct (does_dialog _ _ (tsafe_mono db j n online) _ _ _ _ D [] [] _ W) as [Wp Sp].
  { intros _. split; [intros c x []|apply sbsaid_nothing]. }
  cbn [app] in Wp, Sp. destruct (Sp C) as [Ow Sd]. split; [exact Sd|]. split; [exact Ow|]. split.
  - intros ->. exact (Wp eq_refl C).
  - intros e ->. exact (Wp C).
Qed.
Print Assumptions C84_backend_simulated.

(** A world that takes everything and answers reads with at most [piece] of the
    bytes [w]. *)
Fixpoint converse {C A} (p : proc C A) (piece : nat) (w : list Z) : list (C * Z) * list (C * Z) * proc C A :=
  match p with
  | Write c bs k => match bs with [] => ([], [], p) | _ =>
      let '(i, o, p') := converse (k (length bs)) piece w in (i, map (pair c) bs ++ o, p') end
  | Read c n k => match w with [] => ([], [], p) | _ =>
      let m := Nat.min n piece in
      let '(i, o, p') := converse (k (firstn m w)) piece (skipn m w) in (map (pair c) (firstn m w) ++ i, o, p') end
  | _ => ([], [], p)
  end.
Lemma converse_dialog {C A} (p : proc C A) piece : forall w i o p', Forall byte w -> converse p piece w = (i, o, p') -> dialog p i o p'.
Proof.
  induction p as [a|f|c bs k IH|c n k IH|block l k IH]; intros w i o p' F E; cbn [converse] in E.
  - inversion E; subst. constructor.
  - inversion E; subst. constructor.
  - destruct bs as [|x bs]; [inversion E; subst; constructor|].
    destruct (converse (k (length (x :: bs))) piece w) as [[i1 o1] p1] eqn:E1. inversion E; subst. apply IH in E1; [|exact F].
    pose proof (dialog_write c (x :: bs) k (length (x :: bs)) i o1 p' ltac:(cbn; lia) E1) as T. rewrite firstn_all in T. exact T.
  - destruct w as [|x w]; [inversion E; subst; constructor|].
    destruct (converse (k (firstn (Nat.min n piece) (x :: w))) piece (skipn (Nat.min n piece) (x :: w))) as [[i1 o1] p1] eqn:E1.
    inversion E; subst. apply IH in E1; [|apply AdditiveProofs.Forall_skipn; exact F]. constructor; [|apply AdditiveProofs.Forall_firstn; exact F|exact E1].
    rewrite firstn_length. lia.
  - inversion E; subst. constructor.
Qed.

(** The first party of the example deployment, among peers that send made-up
    ciphers in pieces of 100 bytes: it sends its own cipher and query among
    theirs.  A query under an unknown tag leaves it undefined, a cipher that
    does not open stops it before it has sent any cipher. *)
Definition ex_meeting (ciphers : list (list Z)) (queries : list query) : list (chan * Z) * list (chan * Z) * proc chan ending :=
  converse (pparty toy_box true ex_rng true true (fun _ => repeat 7 BUFFER_SIZE) 1 (ex_conf 0)) 100
    ([1; 1] ++ le 4 2 ++ [1] ++ concat ciphers ++ [1] ++ concat (map enc_query queries) ++ repeat 9 156).
Definition ex_view (r : list (chan * Z) * list (chan * Z) * proc chan ending) : nat * nat * nat * nat * option (option bool) :=
  let '(i, o, p) := r in
  (length (on (Fwd 0) i), length (on (Bwd 1) i), length (on (Fwd 1) o), length (on (Bwd 0) o),
   match p with Ret PartyEnd => Some None | Crash Undefined => Some (Some true) | Crash Aborted => Some (Some false) | _ => None end).
Example C84_example :
  honest_party toy_box ex_rng ex_keys 3 0 (ex_conf 0) 2 /\
  ex_view (ex_meeting [ex_peer_cipher 70; ex_peer_cipher 80] [{| q_tag := 80; q_tally := 1 |}; {| q_tag := 70; q_tally := 2 |}])
    = (772, 158, 784, 106, Some None)%nat /\
  ex_view (ex_meeting [ex_peer_cipher 70; ex_peer_cipher 80] [{| q_tag := 80; q_tally := 1 |}; {| q_tag := 71; q_tally := 2 |}])
    = (772, 2, 748, 2, Some (Some true))%nat /\
  ex_view (ex_meeting [ex_peer_cipher 70; repeat 2 372] []) = (748, 1, 4, 1, Some (Some false))%nat.
Proof. split; [exact ex_honest|]. vm_compute. repeat split. Qed.

(** The backend of the example deployment: a query for a row, one for a row that
    does not exist. *)
Definition ex_backend_cipher (t : Z) : list Z := repeat 3 48 ++ enc_osecret (ex_secret t).
Definition ex_backend_view (tally : Z) : nat * nat * option (list Z) * bool :=
  let '(i, o, p) := converse (pbackend toy_box true true true (fun _ => repeat 7 BUFFER_SIZE) 3 ex_db (repeat 9 52) [3] []) 100
    ([1] ++ le 4 1 ++ ex_backend_cipher 70 ++ enc_query {| q_tag := 70; q_tally := tally |}) in
  (length (on (Fwd 2) i), length (on (Bwd 2) o), match p with Ret (BackendEnd l) => Some l | _ => None end,
   match p with Crash Undefined => true | _ => false end).
Example C84_backend_example : Forall wf_response ex_db /\
  ex_backend_view 1533916861 = (140%nat, 54%nat, Some [2], false) /\ ex_backend_view 1 = (140%nat, 2%nat, None, true).
Proof. split; [exact (dp_db _ _ _ _ _ ex_deployment)|]. vm_compute. repeat split. Qed.

(** The same with the offline stage simulated: any tags will do; the backend
    stops being defined with the first row that does not exist. *)
Definition ex_sim_view (tallies : list Z) : nat * nat * nat * nat * option (option bool) :=
  ex_view (converse (pparty toy_box true ex_rng false true (fun _ => repeat 7 BUFFER_SIZE) 1 (ex_conf 0)) 100
    ([1; 1] ++ le 4 2 ++ [1] ++ concat (map (fun t => enc_query {| q_tag := 77 + t; q_tally := t |}) tallies) ++ repeat 9 156)).
Definition ex_sim_backend_view (tally : Z) : nat * list Z * option (list Z) * bool :=
  let '(i, o, p) := converse (pbackend toy_box true false true (fun _ => repeat 7 BUFFER_SIZE) 3 ex_db (repeat 9 52) [3] []) 100
    ([1] ++ le 4 1 ++ enc_query {| q_tag := 5; q_tally := tally |}) in
  (length (on (Fwd 2) i), on (Bwd 2) o, match p with Ret (BackendEnd l) => Some l | _ => None end,
   match p with Crash Undefined => true | _ => false end).
Example C84_simulated_example :
  ex_sim_view [4294967295; 2] = (28, 157, 40, 105, Some None)%nat /\
  (exists r, nth_error ex_db 2 = Some r /\ ex_sim_backend_view 2 = (16%nat, [1] ++ enc_response r, Some [2], false)) /\
  ex_sim_backend_view 3 = (16%nat, [1], None, true).
Proof. split; [vm_compute; reflexivity|]. split; [eexists; split; [reflexivity|]|]; vm_compute; reflexivity. Qed.
