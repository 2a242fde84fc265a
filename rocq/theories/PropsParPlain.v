(** C86 with several servers per party: what is on the connections without an
    offline stage. *)
From Verif Require Import Base Sizes Stream BaseProofs Incremental Wire Onion Shuffle State Database Range Handlers Batch Party Chain Parallel ParChain
  Spec ChainSpec ParSpec ParChainSpec OnlineProofs Net Lts Procs ParProcs ParCrash Toy PropsShuffle PropsChain PropsParChain ParRules ParServer ParEntity ReadProofs ParRead ParNet
  PropsParProc PropsParCrash TalkSpec TrafficSpec TrafficProofs ParTrafficSpec ParTraffic PropsParTraffic PlainSpec ParPlainWire.

(** There are fixed lists of keys, one for each server of each link - the clients'
    own in order on the first, the same with fake ones on the others, shared by the
    servers - whose bytes in the clear ([plain_forward], [plain_backward]) cross the
    links in every execution, under every schedule; when processes are killed, the
    beginning of them. *)
Theorem C86_on_the_wire_several : forall b rng iter mem acc db junk N clients parties keys bpk bsk,
  (forall p, smem_ok (mem p)) -> (forall p, Permutation (acc p) (seq 0 (p mod N))) ->
  par_deployment rng db N clients parties keys -> bytes 52 junk ->
  exists links : list (list (list Z)), length links = S (length parties) /\ nth_error links 0 = Some (map ct_keys clients) /\
    forall j kss, nth_error links j = Some kss -> length kss = N /\
      Permutation (concat kss) (client_keys clients ++ flat_map (party_noise_keys N (length db)) (firstn j parties)) /\
      forall i ks, nth_error kss i = Some ks ->
        (forall cap h s, (forall c, (1 <= cap c)%nat) -> (forall k s t, (BUFFER_SIZE <= cap (Sib k s t))%nat) ->
          carries (net_step mchan_eqb cap) (net_start (par_entity b true rng iter false true N mem acc db junk clients parties bpk bsk)) h s ->
          begins (h (Link i (Fwd j))) (plain_forward ks) /\ begins (h (Link i (Bwd j))) (plain_backward db ks) /\
          (stuck (net_step mchan_eqb cap) s -> h (Link i (Fwd j)) = plain_forward ks /\ h (Link i (Bwd j)) = plain_backward db ks)) /\
        forall cap h s,
          crash_carries pn_net (par_crash_step N cap) (par_crash_start (par_entity b true rng iter false true N mem acc db junk clients parties bpk bsk)) h s ->
          begins (h (Link i (Fwd j))) (plain_forward ks) /\ begins (h (Link i (Bwd j))) (plain_backward db ks).
Proof.
  intros b rng iter mem acc db junk N clients parties keys bpk bsk Hm Ha D J.
  destruct (par_simulated_links b rng iter mem acc db junk N clients parties keys bpk bsk Hm Ha D J) as (sent & links & L & N0 & B & H & Hx).
  exists links. split; [exact L|]. split; [exact N0|]. intros j kss Nk. destruct (B j kss Nk) as (Ln & P & Bi).
  split; [exact Ln|]. split; [exact P|]. intros i ks Ni. destruct (Bi i ks Ni) as (<- & <-). split.
  - intros cap h s Hc Hb Hh. destruct (H cap h s Hc Hb Hh) as (Hg & Hs). split; [apply Hg|]. split; [apply Hg|].
    intros St. split; apply Hs; exact St.
  - intros cap h s Hh. split; apply (Hx cap h s Hh).
Qed.
Print Assumptions C86_on_the_wire_several.

(** The example of C65 without an offline stage has an execution that gets to the
    end.  The second client asks for rows 1 and 2: these are the bytes on its
    connection. *)
Example C86_several_example_end : exists h s,
  carries (net_step mchan_eqb px_cap)
    (net_start (par_entity toy_box true ex_rng px_iter false true 2 (fun _ => px_mem) (fun p => seq 0 (p mod 2)) ex_db (repeat 9 52) px_clients px_parties [3] [])) h s /\
  stuck (net_step mchan_eqb px_cap) s /\
  h (Link 1 (Fwd 0)) = [2; 0; 0; 0; 0; 0; 0; 0; 0; 0; 0; 0; 1; 0; 0; 0; 0; 0; 0; 0; 0; 0; 0; 0; 2; 0; 0; 0].
Proof.
  assert (Hm : forall p : nat, smem_ok ((fun _ => px_mem) p)).
  { intros _. split; [|split]; intros; cbn [px_mem sm_link sm_w sm_r]; rewrite repeat_length; [reflexivity|apply le_n|apply le_n]. }
  assert (J : bytes 52 (repeat 9 52)).
  { split; [reflexivity|]. apply Forall_forall. intros x Hx. apply repeat_spec in Hx. subst. unfold byte. lia. }
  assert (Hc : forall c, (1 <= px_cap c)%nat) by (intros []; cbn [px_cap]; try apply le_n; unfold BUFFER_SIZE; lia).
  destruct (C65_every_schedule_simulated toy_box ex_rng px_iter (fun _ => px_mem) (fun p => seq 0 (p mod 2)) ex_db (repeat 9 52) 2 px_clients px_parties ex_keys [3] []
    Hm (fun p => Permutation_refl _) px_deployment J) as (bound & results & looked & _ & _ & _ & A).
  destruct (par_finishes_reach _ _ _ _ _ _ px_cap A Hc (fun e s t => le_n _)) as ((n & s & H & (D1 & D2 & D3 & _)) & _).
  change (length px_parties) with 2%nat in D2, D3.
  destruct (C76_history_several _ _ _ _ H) as (h & Hh). exists h, s. split; [exact Hh|].
  assert (St : stuck (net_step mchan_eqb px_cap) s).
  { assert (K : forall n s s' p e, steps (net_step mchan_eqb px_cap) n s s' -> nt_proc s p = Ret e -> nt_proc s' p = @Ret mchan ending e).
    { clear. intros n s s' p e H E. induction H as [|n s s1 s2 _ IH St]; [exact E|]. specialize (IH E). destruct St as [q St].
      destruct St; cbn [nt_proc]; unfold set_proc; destruct (Nat.eqb_spec p q) as [->|]; try assumption; congruence. }
    intros s' [p St]. assert (E : exists e, nt_proc s p = Ret e).
    { destruct (Nat.lt_ge_cases p 2) as [Hp|Hp]; [eexists; apply D1; exact Hp|]. destruct (Nat.lt_ge_cases p 8) as [Hq|Hq].
      - pose proof (Nat.div_mod p 2 ltac:(lia)) as Ep. pose proof (Nat.mod_upper_bound p 2 ltac:(lia)) as Hb. rewrite Nat.mul_comm in Ep. rewrite Ep.
        destruct (Nat.eq_dec (p / 2) 3) as [E3|E3]; [rewrite E3; eexists; apply (D3 (p mod 2)%nat Hb)|]. eexists. apply D2; [lia|exact Hb].
      - exists PartyEnd. eapply K; [exact H|]. cbn [net_start nt_proc]. unfold par_entity.
        assert (Hd : (4 <= p / 2)%nat) by (apply Nat.div_le_lower_bound; lia). destruct (p / 2)%nat as [|[|[|[|j]]]]; try lia.
        cbn [px_parties nth_error length Nat.eqb]. destruct j; reflexivity. }
    destruct E as (e & E). destruct St; congruence. }
  split; [exact St|].
  destruct (C86_on_the_wire_several toy_box ex_rng px_iter (fun _ => px_mem) (fun p => seq 0 (p mod 2)) ex_db (repeat 9 52) 2 px_clients px_parties ex_keys [3] []
    Hm (fun p => Permutation_refl _) px_deployment J) as (links & _ & N0 & B).
  destruct (B 0%nat _ N0) as (_ & _ & Bi). destruct (Bi 1%nat [1; 2] eq_refl) as (Hs & _).
  destruct (Hs px_cap h s Hc (fun _ _ _ => le_n _) Hh) as (_ & _ & Hend). rewrite (proj1 (Hend St)). vm_compute. reflexivity.
Qed.
