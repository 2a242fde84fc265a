(** C76 with several servers per party: what can be learnt from the amount of
    traffic. *)
From Verif Require Import Base Sizes Stream BaseProofs Incremental Wire Onion Shuffle State Database Range Handlers Batch Party Chain Parallel ParChain
  Spec ChainSpec ParSpec ParChainSpec OnlineProofs Net Lts Procs ParProcs ParCrash Toy PropsShuffle PropsChain PropsParChain ParRules ParServer ParEntity ReadProofs ParRead ParNet
  PropsParProc PropsParCrash TalkSpec TrafficSpec TrafficProofs ParTrafficSpec ParTraffic.

(** Real offline stage, with or without an online stage: in every execution, under
    every schedule, the bytes put on each connection - between parties and between
    servers of the same party - are the beginning of a fixed string, and all of it
    at the end; the lengths are those of [par_traffic], which knows only the number
    of queries of each client, the numbers of fake queries and the seeds.  When processes are
    killed, at any moments, the bytes are still the beginning of the same string. *)
Theorem C76_traffic_several : forall b rng iter online mem acc db junk N clients parties keys bpk bsk,
  (forall p, smem_ok (mem p)) -> (forall p, Permutation (acc p) (seq 0 (p mod N))) -> (forall i l, Permutation (iter i l) l) ->
  par_deployment rng db N clients parties keys -> par_keyed b db N clients parties keys bpk bsk -> bytes 52 junk ->
  exists sent : mchan -> list Z,
    (forall c, length (sent c) = par_traffic rng N (map (fun c => length (ct_keys c)) clients) (map (par_seeds N (length db)) parties) true online c) /\
    (forall cap h s, (forall c, (1 <= cap c)%nat) -> (forall k s t, (BUFFER_SIZE <= cap (Sib k s t))%nat) ->
      carries (net_step mchan_eqb cap) (net_start (par_entity b true rng iter true online N mem acc db junk clients parties bpk bsk)) h s ->
      (forall c, begins (h c) (sent c)) /\ (stuck (net_step mchan_eqb cap) s -> forall c, h c = sent c)) /\
    forall cap h s,
      crash_carries pn_net (par_crash_step N cap) (par_crash_start (par_entity b true rng iter true online N mem acc db junk clients parties bpk bsk)) h s ->
      forall c, begins (h c) (sent c).
Proof.
  intros b rng iter online mem acc db junk N clients parties keys bpk bsk Hm Ha Hi D K J.
  destruct (par_offline_set_up_sized b rng iter db junk online N clients parties keys bpk bsk mem D K Hi J Hm) as (links & plans & S & PN & H0).
  exact (par_run_traffic _ _ _ _ _ _ _ _ _ _ _ _ _ _ acc _ _ D S PN H0 Hm Ha).
Qed.
Print Assumptions C76_traffic_several.

(** ... and with the offline stage simulated. *)
Theorem C76_traffic_several_simulated : forall b rng iter online mem acc db junk N clients parties keys bpk bsk,
  (forall p, smem_ok (mem p)) -> (forall p, Permutation (acc p) (seq 0 (p mod N))) ->
  par_deployment rng db N clients parties keys -> bytes 52 junk ->
  exists sent : mchan -> list Z,
    (forall c, length (sent c) = par_traffic rng N (map (fun c => length (ct_keys c)) clients) (map (par_seeds N (length db)) parties) false online c) /\
    (forall cap h s, (forall c, (1 <= cap c)%nat) -> (forall k s t, (BUFFER_SIZE <= cap (Sib k s t))%nat) ->
      carries (net_step mchan_eqb cap) (net_start (par_entity b true rng iter false online N mem acc db junk clients parties bpk bsk)) h s ->
      (forall c, begins (h c) (sent c)) /\ (stuck (net_step mchan_eqb cap) s -> forall c, h c = sent c)) /\
    forall cap h s,
      crash_carries pn_net (par_crash_step N cap) (par_crash_start (par_entity b true rng iter false online N mem acc db junk clients parties bpk bsk)) h s ->
      forall c, begins (h c) (sent c).
Proof.
  intros b rng iter online mem acc db junk N clients parties keys bpk bsk Hm Ha D J.
  destruct (par_simulated_set_up_sized b rng iter db junk online N clients parties keys bpk bsk mem D J Hm) as (links & plans & S & PN & H0).
  exact (par_run_traffic _ _ _ _ _ _ _ _ _ _ _ _ _ _ acc _ _ D S PN H0 Hm Ha).
Qed.
Print Assumptions C76_traffic_several_simulated.

(** So two deployments with as many queries per client and servers with the same
    seeds and as many fake queries - with different queries, databases, keys,
    randomness, orders in which connections are accepted and hash maps iterated -
    cannot be told apart by the amount of traffic on any connection. *)
Theorem C76_same_several : forall b b' rng iter iter' online mem mem' acc acc' db db' junk junk' N clients clients' parties parties' keys keys' bpk bpk' bsk bsk',
  (forall p, smem_ok (mem p)) -> (forall p, Permutation (acc p) (seq 0 (p mod N))) -> (forall i l, Permutation (iter i l) l) ->
  (forall p, smem_ok (mem' p)) -> (forall p, Permutation (acc' p) (seq 0 (p mod N))) -> (forall i l, Permutation (iter' i l) l) ->
  par_deployment rng db N clients parties keys -> par_keyed b db N clients parties keys bpk bsk -> bytes 52 junk ->
  par_deployment rng db' N clients' parties' keys' -> par_keyed b' db' N clients' parties' keys' bpk' bsk' -> bytes 52 junk' ->
  map (fun c => length (ct_keys c)) clients = map (fun c => length (ct_keys c)) clients' ->
  map (par_seeds N (length db)) parties = map (par_seeds N (length db')) parties' ->
  forall cap cap' h h' s s', (forall c, (1 <= cap c)%nat) -> (forall k s t, (BUFFER_SIZE <= cap (Sib k s t))%nat) ->
    (forall c, (1 <= cap' c)%nat) -> (forall k s t, (BUFFER_SIZE <= cap' (Sib k s t))%nat) ->
    carries (net_step mchan_eqb cap) (net_start (par_entity b true rng iter true online N mem acc db junk clients parties bpk bsk)) h s ->
    carries (net_step mchan_eqb cap') (net_start (par_entity b' true rng iter' true online N mem' acc' db' junk' clients' parties' bpk' bsk')) h' s' ->
    stuck (net_step mchan_eqb cap) s -> stuck (net_step mchan_eqb cap') s' ->
    forall c, length (h c) = length (h' c).
Proof.
  intros b b' rng iter iter' online mem mem' acc acc' db db' junk junk' N clients clients' parties parties' keys keys' bpk bpk' bsk bsk'
    Hm Ha Hi Hm' Ha' Hi' D K J D' K' J' En Ep cap cap' h h' s s' Hc Hb Hc' Hb' H H' St St' c.
  destruct (C76_traffic_several b rng iter online mem acc db junk N clients parties keys bpk bsk Hm Ha Hi D K J) as (sent & L & T & _).
  destruct (C76_traffic_several b' rng iter' online mem' acc' db' junk' N clients' parties' keys' bpk' bsk' Hm' Ha' Hi' D' K' J') as (sent' & L' & T' & _).
  rewrite (proj2 (T cap h s Hc Hb H) St c), (proj2 (T' cap' h' s' Hc' Hb' H') St' c), L, L', En, Ep. reflexivity.
Qed.
Print Assumptions C76_same_several.

(** Every execution has such a history, so nothing is said of too few. *)
Theorem C76_history_several : forall (procs : nat -> proc mchan ending) cap n s, steps (net_step mchan_eqb cap) n (net_start procs) s ->
  exists h, carries (net_step mchan_eqb cap) (net_start procs) h s.
Proof. intros procs cap n s H. eapply (carries_exists mchan_eqb mchan_eqb_spec). exact H. Qed.
Print Assumptions C76_history_several.
Theorem C76_history_several_killed : forall (procs : nat -> proc mchan ending) N cap s, reach (par_crash_step N cap) (par_crash_start procs) s ->
  exists h, crash_carries pn_net (par_crash_step N cap) (par_crash_start procs) h s.
Proof.
  intros procs N cap s. apply crash_carries_exists. intros a b [p n _ St|p|c bs _ (lost & Ec)|p c n k _ _ _|p block l k fs _ _ _]; cbn [pn_net].
  - eapply (proc_step_puts mchan_eqb mchan_eqb_spec). exact St.
  - apply same_puts. reflexivity.
  - eapply (lost_puts mchan_eqb mchan_eqb_spec). exact Ec.
  - apply same_puts. reflexivity.
  - apply same_puts. reflexivity.
Qed.
Print Assumptions C76_history_several_killed.

(** The example of C65: two clients with two queries each, two parties of two
    servers that add two fake queries and one.  What the first servers' links carry
    forward and backward, and the servers of the first party, of the second and of
    the backend to each other. *)
Definition px_traffic : mchan -> nat :=
  par_traffic ex_rng 2 (map (fun c => length (ct_keys c)) px_clients) (map (par_seeds 2 (length ex_db)) px_parties) true true.
Example C76_several_example :
  map (fun j => px_traffic (Link 0 (Fwd j))) (seq 0 4) = [772; 784; 684; 0]%nat /\ map (fun j => px_traffic (Link 0 (Bwd j))) (seq 0 4) = [106; 158; 262; 0]%nat /\
  map (fun e => px_traffic (Sib e 0 1)) (seq 0 5) = [0; 1061; 765; 386; 0]%nat /\ map (fun e => px_traffic (Sib e 1 0)) (seq 0 5) = [0; 800; 840; 385; 0]%nat.
Proof. vm_compute. auto. Qed.
(** It has an execution that gets to the end, with this traffic. *)
Example C76_several_example_end : exists h s,
  carries (net_step mchan_eqb px_cap)
    (net_start (par_entity toy_box true ex_rng px_iter true true 2 (fun _ => px_mem) (fun p => seq 0 (p mod 2)) ex_db (repeat 9 52) px_clients px_parties [3] [])) h s /\
  stuck (net_step mchan_eqb px_cap) s /\ forall c, length (h c) = px_traffic c.
Proof.
  destruct C65_example as (n & s & H & results & looked & (D1 & D2 & D3 & _) & _). destruct (C76_history_several _ _ _ _ H) as (h & Hh). exists h, s. split; [exact Hh|].
  assert (St : stuck (net_step mchan_eqb px_cap) s).
  { assert (K : forall n s s' p e, steps (net_step mchan_eqb px_cap) n s s' -> nt_proc s p = Ret e -> nt_proc s' p = @Ret mchan ending e).
    { clear. intros n s s' p e H E. induction H as [|n s s1 s2 _ IH St]; [exact E|]. specialize (IH E). destruct St as [q St].
      destruct St; cbn [nt_proc]; unfold set_proc; destruct (Nat.eqb_spec p q) as [->|]; try assumption; congruence. }
    intros s' [p St]. assert (E : exists e, nt_proc s p = Ret e).
    { destruct (Nat.lt_ge_cases p 2) as [Hp|Hp]; [eexists; apply D1; exact Hp|]. destruct (Nat.lt_ge_cases p 8) as [Hq|Hq].
      - pose proof (Nat.div_mod p 2 ltac:(lia)) as Ep. pose proof (Nat.mod_upper_bound p 2 ltac:(lia)) as Hb. rewrite Nat.mul_comm in Ep. rewrite Ep.
        destruct (Nat.eq_dec (p / 2) 3) as [E3|E3]; [rewrite E3; eexists; apply (D3 (p mod 2)%nat Hb)|]. eexists. apply D2; [lia|exact Hb].
      - exists PartyEnd. eapply K; [exact H|]. cbn [net_start nt_proc]. unfold par_entity.
        assert (Hd : (4 <= p / 2)%nat) by (apply Nat.div_le_lower_bound; lia). destruct (p / 2)%nat as [|[|[|[|j]]]]; try lia.
        cbn [px_parties nth_error length Nat.eqb]. destruct j; reflexivity. }
    destruct E as (e & E). destruct St; congruence. }
  split; [exact St|].
  destruct (C76_traffic_several toy_box ex_rng px_iter true (fun _ => px_mem) (fun p => seq 0 (p mod 2)) ex_db (repeat 9 52) 2 px_clients px_parties ex_keys [3] [])
    as (sent & L & T & _).
  - intros _. split; [|split]; intros; cbn [px_mem sm_link sm_w sm_r]; rewrite repeat_length; [reflexivity|apply le_n|apply le_n].
  - intros p. apply Permutation_refl.
  - intros i l. unfold px_iter. destruct (i =? 0)%nat; [apply Permutation_sym, Permutation_rev|apply Permutation_refl].
  - exact px_deployment.
  - exact px_keyed.
  - split; [reflexivity|]. apply Forall_forall. intros x Hx. apply repeat_spec in Hx. subst. unfold byte. lia.
  - intros c. rewrite (proj2 (T px_cap h s ltac:(intros []; cbn [px_cap]; try apply le_n; unfold BUFFER_SIZE; lia) ltac:(intros; apply le_n) Hh) St c). apply L.
Qed.

(** And one in which a server of the second party is killed, as in C73. *)
Example C76_several_example_killed : exists h,
  crash_carries pn_net (par_crash_step 2 (px_caps BUFFER_SIZE)) (par_crash_start px_procs) h (px_crashed 90 4 200).
Proof. apply C76_history_several_killed, px_crashed_reach. Qed.
