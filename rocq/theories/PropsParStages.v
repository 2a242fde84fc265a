(** C87 with several servers per party: the stages of a run do not overlap. *)
From Verif Require Import Base Sizes Stream BaseProofs Incremental Wire Onion Shuffle State Database Range Handlers Batch Party Chain Parallel ParChain
  Spec ChainSpec ParSpec ParChainSpec OnlineProofs Net Lts Procs ParProcs ParCrash Toy PropsShuffle PropsChain PropsParChain ParRules ParServer ParEntity ReadProofs ParRead ParNet
  PropsParProc PropsParCrash TalkSpec TrafficSpec TrafficProofs ParTrafficSpec ParTraffic PropsParTraffic StageSpec ParStagesSpec ParStages.

(** In every execution, under every schedule, the bytes put on the connections
    up to any moment are [par_staged] - and also when processes are killed at any
    moments.  [on_link] tells how many queries pass a connection (C76). *)
Theorem C87_stages_several : forall b rng iter online mem acc db junk N clients parties keys bpk bsk,
  (forall p, smem_ok (mem p)) -> (forall p, Permutation (acc p) (seq 0 (p mod N))) -> (forall i l, Permutation (iter i l) l) ->
  par_deployment rng db N clients parties keys -> par_keyed b db N clients parties keys bpk bsk -> bytes 52 junk ->
  let procs := par_entity b true rng iter true online N mem acc db junk clients parties bpk bsk in
  forall cap h,
    ((forall c, (1 <= cap c)%nat) /\ (forall k s t, (BUFFER_SIZE <= cap (Sib k s t))%nat) /\ (exists s, carries (net_step mchan_eqb cap) (net_start procs) h s)) \/
    (exists s, crash_carries pn_net (par_crash_step N cap) (par_crash_start procs) h s) ->
    par_staged N (length parties) (on_link N (map (fun c => length (ct_keys c)) clients) (map (par_seeds N (length db)) parties)) true
      (fun j i => length (h (Link i (Fwd j)))) (fun j i => length (h (Link i (Bwd j)))).
Proof.
  intros b rng iter online mem acc db junk N clients parties keys bpk bsk Hm Ha Hi D K J procs cap h H.
  destruct (par_offline_set_up_sized b rng iter db junk online N clients parties keys bpk bsk mem D K Hi J Hm) as (links & plans & S & PN & H0).
  pose proof (pd_tiled _ _ _ _ _ _ D) as ((T1 & _) & _). pose proof (pd_clients _ _ _ _ _ _ D) as Lc.
  apply (positioned_staged b rng iter db junk true online N bpk bsk mem acc clients parties links plans ltac:(lia) Hm Ha Lc S keys h (eq_sym (pd_count _ _ _ _ _ _ D)) PN H0).
  destruct H as [(Hc1 & Hc & s & H)|(s & H)].
  - exact (run_positioned b rng iter db junk true online N bpk bsk mem acc clients parties links plans ltac:(lia) Hm Ha Lc S cap h s Hc1 Hc H).
  - exact (crash_positioned b rng iter db junk true online N bpk bsk mem acc clients parties links plans ltac:(lia) Hm Ha Lc S cap h s H).
Qed.
Print Assumptions C87_stages_several.

(** ... and with the offline stage simulated. *)
Theorem C87_stages_several_simulated : forall b rng iter online mem acc db junk N clients parties keys bpk bsk,
  (forall p, smem_ok (mem p)) -> (forall p, Permutation (acc p) (seq 0 (p mod N))) ->
  par_deployment rng db N clients parties keys -> bytes 52 junk ->
  let procs := par_entity b true rng iter false online N mem acc db junk clients parties bpk bsk in
  forall cap h,
    ((forall c, (1 <= cap c)%nat) /\ (forall k s t, (BUFFER_SIZE <= cap (Sib k s t))%nat) /\ (exists s, carries (net_step mchan_eqb cap) (net_start procs) h s)) \/
    (exists s, crash_carries pn_net (par_crash_step N cap) (par_crash_start procs) h s) ->
    par_staged N (length parties) (on_link N (map (fun c => length (ct_keys c)) clients) (map (par_seeds N (length db)) parties)) false
      (fun j i => length (h (Link i (Fwd j)))) (fun j i => length (h (Link i (Bwd j)))).
Proof.
  intros b rng iter online mem acc db junk N clients parties keys bpk bsk Hm Ha D J procs cap h H.
  destruct (par_simulated_set_up_sized b rng iter db junk online N clients parties keys bpk bsk mem D J Hm) as (links & plans & S & PN & H0).
  pose proof (pd_tiled _ _ _ _ _ _ D) as ((T1 & _) & _). pose proof (pd_clients _ _ _ _ _ _ D) as Lc.
  apply (positioned_staged b rng iter db junk false online N bpk bsk mem acc clients parties links plans ltac:(lia) Hm Ha Lc S keys h (eq_sym (pd_count _ _ _ _ _ _ D)) PN H0).
  destruct H as [(Hc1 & Hc & s & H)|(s & H)].
  - exact (run_positioned b rng iter db junk false online N bpk bsk mem acc clients parties links plans ltac:(lia) Hm Ha Lc S cap h s Hc1 Hc H).
  - exact (crash_positioned b rng iter db junk false online N bpk bsk mem acc clients parties links plans ltac:(lia) Hm Ha Lc S cap h s H).
Qed.
Print Assumptions C87_stages_several_simulated.

(** [par_staged] is not trivial: it excludes a server that passes ciphers on when
    it has all of its own but the other one has not. *)
Example C87_several_excludes :
  ~ par_staged 2 2 (fun _ _ => 2%nat) true (fun j i => nth i (nth j [[748; 747]; [5; 4]; [4; 4]] []) 0)%nat (fun j i => 1%nat) /\
  par_staged 2 2 (fun _ _ => 2%nat) true (fun j i => nth i (nth j [[748; 747]; [4; 4]; [4; 4]] []) 0)%nat (fun j i => 1%nat).
Proof.
  split.
  - intros S. pose proof (pg_cipher _ _ _ _ _ _ S 0%nat 0%nat 1%nat eq_refl ltac:(lia) ltac:(lia) ltac:(lia) ltac:(cbn; lia)) as H. apply Nat.leb_le in H. vm_compute in H. discriminate.
  - constructor.
    + intros [|[|j]] [|[|i]] [|[|t]] H1 H2 H3 _; try lia; apply Nat.leb_le; reflexivity.
    + intros _ [|[|i]] Hi _; try lia; (split; [lia|]; intros [|[|[|j]]] [|[|t]] Hj Ht _; try lia; split; try lia; apply Nat.leb_le; reflexivity).
    + intros [|[|j]] [|[|i]] t _ H1 H2 H3 H; try lia; apply Nat.ltb_lt in H; discriminate H.
    + intros [|[|i]] Hi H; try lia; apply Nat.ltb_lt in H; discriminate H.
    + intros [|[|j]] [|[|i]] t H1 H2 H3 H; try lia; apply Nat.ltb_lt in H; discriminate H.
    + intros j i l t H1 H2 H3 H4 H. cbn in H. lia.
    + intros i Hi H. cbn in H. lia.
Qed.

(** The example of C76 has an execution in which all have sent ciphers, queries
    and responses. *)
Example C87_several_example : exists h s,
  carries (net_step mchan_eqb px_cap)
    (net_start (par_entity toy_box true ex_rng px_iter true true 2 (fun _ => px_mem) (fun p => seq 0 (p mod 2)) ex_db (repeat 9 52) px_clients px_parties [3] [])) h s /\
  map (fun j => length (h (Link 0 (Fwd j)))) (seq 0 3) = [772; 784; 684]%nat /\ map (fun j => length (h (Link 0 (Bwd j)))) (seq 0 3) = [106; 158; 262]%nat.
Proof.
  destruct C76_several_example_end as (h & s & H & _ & L). exists h, s. split; [exact H|]. destruct C76_several_example as (E1 & E2 & _).
  split; cbn [seq map]; rewrite !L; [exact (f_equal (firstn 3) E1)|exact (f_equal (firstn 3) E2)].
Qed.
