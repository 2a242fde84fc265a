(** C76: what can be learnt from the amount of traffic. *)
From Verif Require Import Base Incremental Wire Onion Sizes State Database Handlers Party Net Lts Procs ProcProofs ChainSpec ChainProofs ProcChain
  Spec Toy PropsShuffle PropsChain PropsProc PropsCrash TalkSpec TrafficSpec TrafficProofs.
From Verif Require Import NetChain Chain.

(** In every execution of a deployment, under every schedule, the bytes put on
    each connection are the beginning of a fixed string, and all of it at the end;
    the lengths are those of [traffic], which knows only the number of queries
    and the numbers of fake queries.  When processes are
    killed, at any moments, the bytes are still the beginning of the same string. *)
Theorem C76_traffic : forall b rng online mem db junk c parties keys bpk bsk, (forall p i, length (mem p i) = BUFFER_SIZE) ->
  deployment rng db c parties keys -> keyed b db c parties keys bpk bsk -> bytes 52 junk ->
  exists sent : chan -> list Z,
    (forall ch, length (sent ch) = traffic (length (ct_keys c)) (map (noise_total (length db)) parties) true online ch) /\
    (forall cap h s, (forall ch, (1 <= cap ch)%nat) ->
      carries (net_step chan_eqb cap) (net_start (entity b true rng true online mem db junk c parties bpk bsk)) h s ->
      (forall ch, begins (h ch) (sent ch)) /\ (stuck (net_step chan_eqb cap) s -> forall ch, h ch = sent ch)) /\
    forall cap h s, (forall ch, (1 <= cap ch)%nat) ->
      crash_carries cn_net (crash_step cap) (crash_start (entity b true rng true online mem db junk c parties bpk bsk)) h s ->
      forall ch, begins (h ch) (sent ch).
Proof.
  intros b rng online mem db junk c parties keys bpk bsk Hm D K J.
  destruct (real_follows b rng online mem db junk c parties keys bpk bsk Hm D K J) as (o & E & RF & WF & F).
  destruct (run_full b rng db junk c parties keys bpk bsk D K J) as (o' & E' & _ & _ & LC & _ & CK).
  rewrite E in E'. inversion E'; subst o'.
  exists (link_bytes (data_of o) true online (length parties)). split; [|split].
  - intros ch. apply (traffic_length db); [exact RF|exact WF|]. intros _. split; [exact LC|]. rewrite (dp_count _ _ _ _ _ D). exact CK.
  - intros cap h s Hc H. exact (deployment_carries _ _ _ _ _ _ F cap h s Hc H).
  - intros cap h s Hc H. exact (deployment_crash_carries _ _ _ _ _ _ F cap h s Hc H).
Qed.
Print Assumptions C76_traffic.

(** ... and with the offline stage simulated. *)
Theorem C76_traffic_simulated : forall b rng mem db junk c parties keys bpk bsk, (forall p i, length (mem p i) = BUFFER_SIZE) ->
  deployment rng db c parties keys -> bytes 52 junk ->
  exists sent : chan -> list Z,
    (forall ch, length (sent ch) = traffic (length (ct_keys c)) (map (noise_total (length db)) parties) false true ch) /\
    (forall cap h s, (forall ch, (1 <= cap ch)%nat) ->
      carries (net_step chan_eqb cap) (net_start (entity b true rng false true mem db junk c parties bpk bsk)) h s ->
      (forall ch, begins (h ch) (sent ch)) /\ (stuck (net_step chan_eqb cap) s -> forall ch, h ch = sent ch)) /\
    forall cap h s, (forall ch, (1 <= cap ch)%nat) ->
      crash_carries cn_net (crash_step cap) (crash_start (entity b true rng false true mem db junk c parties bpk bsk)) h s ->
      forall ch, begins (h ch) (sent ch).
Proof.
  intros b rng mem db junk c parties keys bpk bsk Hm D J.
  destruct (simulated_follows b rng mem db junk c parties keys bpk bsk Hm D J) as (o & E & RF & WF & F).
  exists (link_bytes (data_of o) false true (length parties)). split; [|split].
  - intros ch. apply (traffic_length db); [exact RF|exact WF|discriminate].
  - intros cap h s Hc H. exact (deployment_carries _ _ _ _ _ _ F cap h s Hc H).
  - intros cap h s Hc H. exact (deployment_crash_carries _ _ _ _ _ _ F cap h s Hc H).
Qed.
Print Assumptions C76_traffic_simulated.

(** So two deployments with as many queries and fake queries - with different
    queries, databases, keys and randomness - cannot be told apart by the amount
    of traffic on any connection. *)
Theorem C76_same : forall b b' rng rng' online mem mem' db db' junk junk' c c' parties parties' keys keys' bpk bpk' bsk bsk',
  (forall p i, length (mem p i) = BUFFER_SIZE) -> (forall p i, length (mem' p i) = BUFFER_SIZE) ->
  deployment rng db c parties keys -> keyed b db c parties keys bpk bsk -> bytes 52 junk ->
  deployment rng' db' c' parties' keys' -> keyed b' db' c' parties' keys' bpk' bsk' -> bytes 52 junk' ->
  length (ct_keys c) = length (ct_keys c') ->
  map (noise_total (length db)) parties = map (noise_total (length db')) parties' ->
  forall cap cap' h h' s s', (forall ch, (1 <= cap ch)%nat) -> (forall ch, (1 <= cap' ch)%nat) ->
    carries (net_step chan_eqb cap) (net_start (entity b true rng true online mem db junk c parties bpk bsk)) h s ->
    carries (net_step chan_eqb cap') (net_start (entity b' true rng' true online mem' db' junk' c' parties' bpk' bsk')) h' s' ->
    stuck (net_step chan_eqb cap) s -> stuck (net_step chan_eqb cap') s' ->
    forall ch, length (h ch) = length (h' ch).
Proof.
  intros b b' rng rng' online mem mem' db db' junk junk' c c' parties parties' keys keys' bpk bpk' bsk bsk' Hm Hm' D K J D' K' J' En Ep
    cap cap' h h' s s' Hc Hc' H H' St St' ch.
  destruct (C76_traffic b rng online mem db junk c parties keys bpk bsk Hm D K J) as (sent & L & T & _).
  destruct (C76_traffic b' rng' online mem' db' junk' c' parties' keys' bpk' bsk' Hm' D' K' J') as (sent' & L' & T' & _).
  rewrite (proj2 (T cap h s Hc H) St ch), (proj2 (T' cap' h' s' Hc' H') St' ch), L, L', En, Ep. reflexivity.
Qed.
Print Assumptions C76_same.

(** Every execution has such a history, so nothing is said of too few. *)
Theorem C76_history : forall (procs : nat -> proc chan ending) cap n s, steps (net_step chan_eqb cap) n (net_start procs) s ->
  exists h, carries (net_step chan_eqb cap) (net_start procs) h s.
Proof. intros procs cap n s H. eapply (carries_exists chan_eqb NetChain.chan_eqb_spec). exact H. Qed.
Print Assumptions C76_history.
Theorem C76_history_killed : forall (procs : nat -> proc chan ending) cap s, reach (crash_step cap) (crash_start procs) s ->
  exists h, crash_carries cn_net (crash_step cap) (crash_start procs) h s.
Proof.
  intros procs cap s. apply crash_carries_exists. intros a b [p n _ St|p|c bs _ (lost & Ec)|p c n k _ _ _ _ _]; cbn [cn_net].
  - eapply (proc_step_puts chan_eqb NetChain.chan_eqb_spec). exact St.
  - apply same_puts. reflexivity.
  - eapply (lost_puts chan_eqb NetChain.chan_eqb_spec). exact Ec.
  - apply same_puts. reflexivity.
Qed.
Print Assumptions C76_history_killed.

(** The example deployment: two queries and parties that add one fake query each;
    what the links carry and what the formula says. *)
Example C76_example :
  (let* o := run toy_box true ex_rng ex_db (repeat 9 52) ex_client [ex_conf 0; ex_conf 1] [3] [] in
   Ok (map (fun j => length (link_bytes (data_of o) true true 2 (Fwd j))) (seq 0 4),
       map (fun j => length (link_bytes (data_of o) true true 2 (Bwd j))) (seq 0 4))) =
  Ok (map (fun j => traffic 2 (map (noise_total (length ex_db)) [ex_conf 0; ex_conf 1]) true true (Fwd j)) (seq 0 4),
      map (fun j => traffic 2 (map (noise_total (length ex_db)) [ex_conf 0; ex_conf 1]) true true (Bwd j)) (seq 0 4)) /\
  map (fun j => traffic 2 (map (noise_total (length ex_db)) [ex_conf 0; ex_conf 1]) true true (Fwd j)) (seq 0 4) = [772; 784; 548; 0]%nat /\
  map (fun j => traffic 2 (map (noise_total (length ex_db)) [ex_conf 0; ex_conf 1]) true true (Bwd j)) (seq 0 4) = [106; 158; 210; 0]%nat.
Proof. vm_compute. repeat split. Qed.

(** It has an execution that gets to the end. *)
Lemma ret_stays cap n (s s' : net chan ending) p e : steps (net_step chan_eqb cap) n s s' -> nt_proc s p = Ret e -> nt_proc s' p = Ret e.
Proof.
  intros H E. induction H as [|n s s1 s2 _ IH St]; [exact E|]. specialize (IH E). destruct St as [q St].
  destruct St; cbn [nt_proc]; unfold set_proc; destruct (Nat.eqb_spec p q) as [->|]; try assumption; congruence.
Qed.
Example C76_example_end : exists cap h s, (forall ch : chan, (1 <= cap ch)%nat) /\
  carries (net_step chan_eqb cap)
    (net_start (entity toy_box true ex_rng true true (fun _ _ => repeat 7 BUFFER_SIZE) ex_db (repeat 9 52) ex_client [ex_conf 0; ex_conf 1] [3] [])) h s /\
  stuck (net_step chan_eqb cap) s.
Proof.
  destruct (C63_every_schedule toy_box ex_rng (fun _ _ => repeat 7 BUFFER_SIZE) ex_db (repeat 9 52) ex_client [ex_conf 0; ex_conf 1] ex_keys [3] []
    (fun _ _ => repeat_length 7 BUFFER_SIZE) ex_deployment ex_keyed) as (bound & result & looked & _ & _ & A).
  { split; [apply repeat_length|apply Forall_forall; intros x Hx; apply repeat_spec in Hx; subst; unfold byte; lia]. }
  destruct (finishes_reach _ _ _ _ _ (fun _ => 64%nat) A (fun _ => le_n_S _ _ (Nat.le_0_l _))) as ((n & s & H & Dn) & _).
  destruct (C76_history _ _ _ _ H) as (h & Hh). exists (fun _ => 64%nat), h, s. split; [intros _; apply le_n_S, Nat.le_0_l|]. split; [exact Hh|].
  destruct Dn as (D0 & D1 & D2 & _). intros s' [p St].
  assert (E : exists e, nt_proc s p = Ret e).
  { destruct p as [|[|[|[|p]]]]; [eauto|exists PartyEnd; apply D1; cbn; lia|exists PartyEnd; apply D1; cbn; lia|eauto|].
    exists PartyEnd. eapply ret_stays; [exact H|]. reflexivity. }
  destruct E as (e & E). destruct St; congruence.
Qed.

(** And one in which the first party is killed, as in C64. *)
Example C76_example_killed : exists h, crash_carries cn_net (crash_step (fun _ => 64%nat)) (crash_start ex_procs) h (ex_crashed 6 1) /\
  forall ch, (length (h ch) <= traffic 2 (map (noise_total (length ex_db)) [ex_conf 0%nat; ex_conf 1%nat]) true true ch)%nat.
Proof.
  destruct (C76_history_killed _ _ _ (ex_crashed_reach 6 1)) as (h & H). exists h. split; [exact H|].
  destruct (C76_traffic toy_box ex_rng true (fun _ _ => repeat 7 BUFFER_SIZE) ex_db (repeat 9 52) ex_client [ex_conf 0; ex_conf 1] ex_keys [3] []
    (fun _ _ => repeat_length 7 BUFFER_SIZE) ex_deployment ex_keyed) as (sent & L & _ & T).
  { split; [apply repeat_length|apply Forall_forall; intros x Hx; apply repeat_spec in Hx; subst; unfold byte; lia]. }
  intros ch. destruct (T (fun _ => 64%nat) h _ (fun _ => le_n_S _ _ (Nat.le_0_l 63)) H ch) as (rest & E). specialize (L ch). rewrite E, app_length in L.
  cbn [ex_client ct_keys length] in L. rewrite <- L. apply Nat.le_add_r.
Qed.
