(** C87: the stages of a run do not overlap. *)
From Verif Require Import Base Incremental Wire Onion Sizes State Database Handlers Party Net Lts Procs ProcProofs ChainSpec ChainProofs ProcChain
  Spec Toy PropsShuffle PropsChain PropsProc PropsCrash TalkSpec TrafficSpec TrafficProofs PropsTraffic StageSpec StageProofs.
From Verif Require Import NetChain Chain.

(** In every execution of a deployment, under every schedule and with connections
    that buffer as little as one byte, the bytes put on the connections up to any
    moment are [staged] - and also when processes are killed at any moments. *)
Theorem C87_stages : forall b rng online mem db junk c parties keys bpk bsk, (forall p i, length (mem p i) = BUFFER_SIZE) ->
  deployment rng db c parties keys -> keyed b db c parties keys bpk bsk -> bytes 52 junk ->
  let procs := entity b true rng true online mem db junk c parties bpk bsk in
  forall cap h, (forall ch, (1 <= cap ch)%nat) ->
  ((exists s, carries (net_step chan_eqb cap) (net_start procs) h s) \/ (exists s, crash_carries cn_net (crash_step cap) (crash_start procs) h s)) ->
  staged (length (ct_keys c)) (map (noise_total (length db)) parties) true (fun j => length (h (Fwd j))) (fun j => length (h (Bwd j))).
Proof.
  intros b rng online mem db junk c parties keys bpk bsk Hm D K J procs cap h Hc H.
  destruct (real_follows b rng online mem db junk c parties keys bpk bsk Hm D K J) as (o & E & RF & WF & F).
  destruct (run_full b rng db junk c parties keys bpk bsk D K J) as (o' & E' & _ & _ & LC & _ & CK).
  rewrite E in E'. inversion E'; subst o'.
  apply (staged_of db c parties o true online cap h RF WF).
  - intros _. split; [exact LC|]. rewrite (dp_count _ _ _ _ _ D). exact CK.
  - destruct H as [[s H]|[s H]]; [exact (deployment_traced _ _ _ _ _ _ F cap h s Hc H)|exact (deployment_crash_traced _ _ _ _ _ _ F cap h s Hc H)].
  - destruct H as [[s H]|[s H]]; [exact (proj1 (deployment_carries _ _ _ _ _ _ F cap h s Hc H))|exact (deployment_crash_carries _ _ _ _ _ _ F cap h s Hc H)].
Qed.
Print Assumptions C87_stages.

(** ... and with the offline stage simulated. *)
Theorem C87_stages_simulated : forall b rng mem db junk c parties keys bpk bsk, (forall p i, length (mem p i) = BUFFER_SIZE) ->
  deployment rng db c parties keys -> bytes 52 junk ->
  let procs := entity b true rng false true mem db junk c parties bpk bsk in
  forall cap h, (forall ch, (1 <= cap ch)%nat) ->
  ((exists s, carries (net_step chan_eqb cap) (net_start procs) h s) \/ (exists s, crash_carries cn_net (crash_step cap) (crash_start procs) h s)) ->
  staged (length (ct_keys c)) (map (noise_total (length db)) parties) false (fun j => length (h (Fwd j))) (fun j => length (h (Bwd j))).
Proof.
  intros b rng mem db junk c parties keys bpk bsk Hm D J procs cap h Hc H.
  destruct (simulated_follows b rng mem db junk c parties keys bpk bsk Hm D J) as (o & E & RF & WF & F).
  apply (staged_of db c parties o false true cap h RF WF).
  - discriminate.
  - destruct H as [[s H]|[s H]]; [exact (deployment_traced _ _ _ _ _ _ F cap h s Hc H)|exact (deployment_crash_traced _ _ _ _ _ _ F cap h s Hc H)].
  - destruct H as [[s H]|[s H]]; [exact (proj1 (deployment_carries _ _ _ _ _ _ F cap h s Hc H))|exact (deployment_crash_carries _ _ _ _ _ _ F cap h s Hc H)].
Qed.
Print Assumptions C87_stages_simulated.

(** [staged] is not trivial: it excludes a client that sends its queries before
    the last ready byte, a party that passes ciphers on as they come, and a party
    that answers before the next one has. *)
Example C87_excludes :
  let n := 2%nat in let noise := [1; 1]%nat in
  ~ staged n noise true (fun j => nth j [749; 748; 500] 0)%nat (fun j => nth j [1; 2; 2] 0)%nat /\
  ~ staged n noise true (fun j => nth j [747; 5; 4] 0)%nat (fun j => nth j [1; 1; 1] 0)%nat /\
  ~ staged n noise true (fun j => nth j [772; 784; 548] 0)%nat (fun j => nth j [3; 157; 210] 0)%nat.
Proof.
  split; [|split]; intros S.
  - pose proof (proj2 (sg_first_query _ _ _ _ _ S ltac:(vm_compute; lia) 0%nat ltac:(vm_compute; lia))) as H. vm_compute in H. lia.
  - pose proof (sg_cipher _ _ _ _ _ S 0%nat eq_refl ltac:(vm_compute; lia) ltac:(vm_compute; lia)) as H. apply Nat.leb_le in H. vm_compute in H. discriminate.
  - pose proof (proj2 (sg_response _ _ _ _ _ S 0%nat ltac:(vm_compute; lia) 1%nat ltac:(vm_compute; lia)) ltac:(lia)) as H. apply Nat.leb_le in H. vm_compute in H. discriminate.
Qed.

(** The example of C76 has an execution in which the client has sent queries, the
    parties have sent ciphers and queries, and responses have been sent. *)
Example C87_example : exists cap h s, (forall ch : chan, (1 <= cap ch)%nat) /\
  carries (net_step chan_eqb cap)
    (net_start (entity toy_box true ex_rng true true (fun _ _ => repeat 7 BUFFER_SIZE) ex_db (repeat 9 52) ex_client [ex_conf 0; ex_conf 1] [3] [])) h s /\
  map (fun j => length (h (Fwd j))) (seq 0 3) = [772; 784; 548]%nat /\ map (fun j => length (h (Bwd j))) (seq 0 3) = [106; 158; 210]%nat /\
  map (link_ciphers 2 (map (noise_total (length ex_db)) [ex_conf 0; ex_conf 1]) true) (seq 0 3) = [744; 744; 496]%nat.
Proof.
  destruct C76_example_end as (cap & h & s & Hc & H & St). exists cap, h, s. split; [exact Hc|]. split; [exact H|].
  destruct (C76_traffic toy_box ex_rng true (fun _ _ => repeat 7 BUFFER_SIZE) ex_db (repeat 9 52) ex_client [ex_conf 0; ex_conf 1] ex_keys [3] []
    (fun _ _ => repeat_length 7 BUFFER_SIZE) ex_deployment ex_keyed) as (sent & L & T & _).
  { split; [apply repeat_length|apply Forall_forall; intros x Hx; apply repeat_spec in Hx; subst; unfold byte; lia]. }
  destruct (T cap h s Hc H) as [_ X]. specialize (X St). destruct C76_example as (_ & E1 & E2).
  split; [|split; [|vm_compute; reflexivity]].
  - cbn [seq map]. rewrite !X, !L. exact (f_equal (firstn 3) E1).
  - cbn [seq map]. rewrite !X, !L. exact (f_equal (firstn 3) E2).
Qed.
