(** Theorems about runs without an offline stage: nothing is hidden. *)
From Verif Require Import Base Sizes BaseProofs Incremental Wire Onion Shuffle State Database Range Handlers Batch Party Chain Spec
  Toy PropsShuffle ChainSpec ParShuffle Parallel ParChain ParSpec ParForwardProofs ParFacts ParTagProofs ParOnlineProofs ParChainSpec ParChainProofs PropsChain PropsParChain
  PlainSpec Plain Net Lts Procs TalkSpec TrafficSpec TrafficProofs PlainWire PropsProc PropsTraffic.
From Verif Require ConfigProofs.

(** C86.  Without an offline stage the first link carries the client's keys as
    they are, in the order in which it asked; every later link carries the same
    keys, and those of the fake queries added so far, as they are; the rows come
    back as they are on every link.  All tags are zero.  See PlainSpec. *)
Theorem C86_nothing_hidden : forall rng db junk c parties keys,
  deployment rng db c parties keys -> bytes 52 junk ->
  exists o, run_simulated true rng db junk c parties = Ok o /\
    length (oc_queries o) = S (length parties) /\ length (oc_responses o) = S (length parties) /\
    nth_error (oc_queries o) 0 = Some (map plain_query (ct_keys c)) /\
    forall j qs rs, nth_error (oc_queries o) j = Some qs -> nth_error (oc_responses o) j = Some rs ->
      plain_link db (ct_keys c ++ flat_map (noise_keys (length db)) (firstn j parties)) [qs] [rs].
Proof. exact run_simulated_plain. Qed.
Print Assumptions C86_nothing_hidden.

(** So it is on the connections between the processes: there are fixed lists of
    keys, the client's own in order on the first link and the same with fake ones
    on the others, whose bytes in the clear ([plain_forward], [plain_backward])
    cross the links in every execution, under every schedule; when processes are
    killed, the beginning of them. *)
Theorem C86_on_the_wire : forall b rng mem db junk c parties keys bpk bsk, (forall p i, length (mem p i) = BUFFER_SIZE) ->
  deployment rng db c parties keys -> bytes 52 junk ->
  exists links : list (list Z), length links = S (length parties) /\ nth_error links 0 = Some (ct_keys c) /\
    forall j ks, nth_error links j = Some ks ->
      Permutation ks (ct_keys c ++ flat_map (noise_keys (length db)) (firstn j parties)) /\
      (forall cap h s, (forall ch, (1 <= cap ch)%nat) ->
        carries (net_step chan_eqb cap) (net_start (entity b true rng false true mem db junk c parties bpk bsk)) h s ->
        begins (h (Fwd j)) (plain_forward ks) /\ begins (h (Bwd j)) (plain_backward db ks) /\
        (stuck (net_step chan_eqb cap) s -> h (Fwd j) = plain_forward ks /\ h (Bwd j) = plain_backward db ks)) /\
      forall cap h s, (forall ch, (1 <= cap ch)%nat) ->
        crash_carries cn_net (crash_step cap) (crash_start (entity b true rng false true mem db junk c parties bpk bsk)) h s ->
        begins (h (Fwd j)) (plain_forward ks) /\ begins (h (Bwd j)) (plain_backward db ks).
Proof.
  intros b rng mem db junk c parties keys bpk bsk Hm D J.
  destruct (simulated_links b rng mem db junk c parties keys bpk bsk Hm D J) as (d & links & L & N0 & B & H & Hx).
  exists links. split; [exact L|]. split; [exact N0|]. intros j ks Nk. destruct (B j ks Nk) as (P & Ef & Eb). rewrite <- Ef, <- Eb.
  split; [exact P|]. split.
  - intros cap h s Hc Hh. destruct (H cap h s Hc Hh) as (Hb & Hs). split; [apply Hb|]. split; [apply Hb|].
    intros St. split; apply Hs; exact St.
  - intros cap h s Hc Hh. split; apply (Hx cap h s Hc Hh).
Qed.
Print Assumptions C86_on_the_wire.

(** With several servers per party, in whatever order the messages of sibling
    servers are handled, the same holds of the links of all servers together, and
    each client's own link carries its keys in order. *)
Theorem C86_nothing_hidden_several : forall rng db junk N clients parties keys,
  par_deployment rng db N clients parties keys -> bytes 52 junk ->
  exists trs, length trs = length parties /\
  (exists scs, Forall2 (fits_online N) trs scs) /\
  forall scs, Forall2 (fits_online N) trs scs ->
  exists o, par_run_simulated true rng db junk clients (combine parties scs) = Ok o /\
    length (po_queries o) = S (length parties) /\ length (po_responses o) = S (length parties) /\
    nth_error (po_queries o) 0 = Some (map (fun c => map plain_query (ct_keys c)) clients) /\
    forall j qss rss, nth_error (po_queries o) j = Some qss -> nth_error (po_responses o) j = Some rss ->
      plain_link db (client_keys clients ++ flat_map (party_noise_keys N (length db)) (firstn j parties)) qss rss.
Proof.
  intros rng db junk N clients parties keys D J.
  destruct (par_run_simulated_plain rng db junk N clients parties keys D J) as (trs & L & H).
  exists trs. split; [exact L|]. split; [|exact H].
  destruct (fits_exist N trs) as (scs & Fs). exists scs. eapply ConfigProofs.Forall2_impl; [|exact Fs]. intros tr sc (_ & _ & H3 & H4). split; assumption.
Qed.
Print Assumptions C86_nothing_hidden_several.

(** The client asks for rows 2 and 0; two parties add a fake query each.  After
    a real offline stage the links carry other numbers. *)
Example C86_example :
  (let* o := run_simulated true ex_rng ex_db (repeat 9 52) ex_client [ex_conf 0; ex_conf 1] in
   Ok (ct_keys ex_client, map (map q_tally) (oc_queries o), map (map (@hd Z 0)) (oc_responses o))) =
  Ok ([2; 0], [[2; 0]; [0; 1; 2]; [1; 2; 0; 1]], [[4; 0]; [0; 2; 4]; [2; 4; 0; 2]]).
Proof. vm_compute. reflexivity. Qed.
Example C86_example_offline :
  (let* o := Chain.run toy_box true ex_rng ex_db (repeat 9 52) ex_client [ex_conf 0; ex_conf 1] [3] [] in
   Ok (map (map q_tally) (firstn 1 (oc_queries o)))) = Ok [[226891873; 881972865]].
Proof. vm_compute. reflexivity. Qed.
Example C86_example_several : forall flip,
  (let* o := par_run_simulated true ex_rng ex_db (repeat 9 52) px_clients (combine px_parties (px_schedules flip)) in
   Ok (map ct_keys px_clients, map (map (map q_tally)) (po_queries o))) =
  Ok ([[2; 0]; [1; 2]], [[[2; 0]; [1; 2]]; [[2; 1; 1]; [0; 2; 2; 0]]; [[2; 0; 2; 2; 0]; [0; 2; 1; 1; 1]]]).
Proof. intros []; vm_compute; reflexivity. Qed.
(** Both deployments meet the hypotheses. *)
Example C86_example_met : deployment ex_rng ex_db ex_client [ex_conf 0; ex_conf 1] ex_keys /\
  par_deployment ex_rng ex_db 2 px_clients px_parties ex_keys.
Proof. exact (conj ex_deployment px_deployment). Qed.
(** The bytes on the first link, forth and (without the signatures) back. *)
Example C86_example_bytes :
  plain_forward (ct_keys ex_client) = [2; 0; 0; 0; 0; 0; 0; 0; 0; 0; 0; 0; 2; 0; 0; 0; 0; 0; 0; 0; 0; 0; 0; 0; 0; 0; 0; 0] /\
  firstn 5 (plain_backward ex_db (ct_keys ex_client)) = [1; 4; 0; 0; 0].
Proof. vm_compute. split; reflexivity. Qed.
(** The example has an execution that gets to the end. *)
Example C86_example_end : exists cap h s, (forall ch : chan, (1 <= cap ch)%nat) /\
  carries (net_step chan_eqb cap)
    (net_start (entity toy_box true ex_rng false true (fun _ _ => repeat 7 BUFFER_SIZE) ex_db (repeat 9 52) ex_client [ex_conf 0; ex_conf 1] [3] [])) h s /\
  stuck (net_step chan_eqb cap) s.
Proof.
  destruct (C63_every_schedule_simulated toy_box ex_rng (fun _ _ => repeat 7 BUFFER_SIZE) ex_db (repeat 9 52) ex_client [ex_conf 0; ex_conf 1] ex_keys [3] []
    (fun _ _ => repeat_length 7 BUFFER_SIZE) ex_deployment) as (bound & result & looked & _ & _ & A).
  { split; [apply repeat_length|apply Forall_forall; intros x Hx; apply repeat_spec in Hx; subst; unfold byte; lia]. }
  destruct (finishes_reach _ _ _ _ _ (fun _ => 64%nat) A (fun _ => le_n_S _ _ (Nat.le_0_l _))) as ((n & s & H & Dn) & _).
  destruct (C76_history _ _ _ _ H) as (h & Hh). exists (fun _ => 64%nat), h, s. split; [intros _; apply le_n_S, Nat.le_0_l|]. split; [exact Hh|].
  destruct Dn as (D0 & D1 & D2 & _). intros s' [p St].
  assert (E : exists e, nt_proc s p = Ret e).
  { destruct p as [|[|[|[|p]]]]; [eauto|exists PartyEnd; apply D1; cbn; lia|exists PartyEnd; apply D1; cbn; lia|eauto|].
    exists PartyEnd. eapply ret_stays; [exact H|]. reflexivity. }
  destruct E as (e & E). destruct St; congruence.
Qed.
