(** Theorems about programs compiled without assertions, and about the addresses
    that processes connect to. *)
From Coq Require Import String.
From Verif Require Import Base Sizes BaseProofs Incremental Wire Onion Shuffle State Database NoiseFloat Config Address AddressSpec AddressProofs MainFlags Handlers
  Batch Party Chain Parallel ParChain Net Procs ParProcs Lts Spec ChainSpec ParSpec ParChainSpec ParServer Boot BootSpec BootProofs ReleaseProofs Toy PropsShuffle
  PropsNoise PropsConfig PropsChain PropsProc PropsCrash PropsParProc PropsBoot.
Local Open Scope Z_scope.
Local Open Scope list_scope.

Lemma release_finishes P Q bound parties result looked : (forall p, covers eq (P p) (Q p)) ->
  always_finishes P bound parties result looked -> always_finishes Q bound parties result looked.
Proof.
  intros HPQ A cap Hc n s' St. destruct (covered_steps chan_eqb cap P Q HPQ) with (n := n) (s' := s') as (s & Ss & Cs); [|exact St|].
  - intros s [m Sm] p. apply (A cap Hc m s Sm).
  - destruct (A cap Hc n s Ss) as (B & C & D). split; [exact B|]. split.
    + intros p f E. apply (C p f). apply (covered_crash s s' p f Cs (C p Aborted) E).
    + destruct D as [(t & p & St')|(D1 & D2 & D3 & D4)].
      * left. destruct (covered_forth chan_eqb cap s s' p t Cs St') as (t' & T & _). exists t', p. exact T.
      * right. split; [exact (covered_ret _ _ _ _ Cs D1)|]. split; [intros p Hp; exact (covered_ret _ _ _ _ Cs (D2 p Hp))|].
        split; [exact (covered_ret _ _ _ _ Cs D3)|]. intros c. rewrite <- (proj2 Cs). apply D4.
Qed.
Lemma par_release_finishes N P Q bound parties results looked : (forall p, covers eq (P p) (Q p)) ->
  par_always_finishes N P bound parties results looked -> par_always_finishes N Q bound parties results looked.
Proof.
  intros HPQ A cap Hc Hb n s' St. destruct (covered_steps mchan_eqb cap P Q HPQ) with (n := n) (s' := s') as (s & Ss & Cs); [|exact St|].
  - intros s [m Sm] p. apply (A cap Hc Hb m s Sm).
  - destruct (A cap Hc Hb n s Ss) as (B & C & D). split; [exact B|]. split.
    + intros p f E. apply (C p f). apply (covered_crash s s' p f Cs (C p Aborted) E).
    + destruct D as [(t & p & St')|(D1 & D2 & D3 & D4)].
      * left. destruct (covered_forth mchan_eqb cap s s' p t Cs St') as (t' & T & _). exists t', p. exact T.
      * right. split; [intros i Hi; exact (covered_ret _ _ _ _ Cs (D1 i Hi))|]. split; [intros e i He Hi; exact (covered_ret _ _ _ _ Cs (D2 e i He Hi))|].
        split; [intros i Hi; exact (covered_ret _ _ _ _ Cs (D3 i Hi))|]. intros c. rewrite <- (proj2 Cs). apply D4.
Qed.

(** C69 Compiled without assertions, with the offline stage simulated and the
    connections made as configured: everybody finishes under every schedule with
    the results of C63, ... *)
Theorem C69_every_schedule : forall b rng mem db junk c parties keys bpk bsk, (forall p i, List.length (mem p i) = BUFFER_SIZE) ->
  deployment rng db c parties keys -> bytes 52 junk ->
  exists bound result looked,
    map Some result = map (fun k => nth_error db (Z.to_nat k)) (ct_keys c) /\
    Permutation looked (ct_keys c ++ flat_map (noise_keys (List.length db)) parties) /\
    always_finishes (entity b false rng false true mem db junk c parties bpk bsk) bound (List.length parties) result looked.
Proof.
  intros b rng mem db junk c parties keys bpk bsk Hm D J.
  destruct (C63_every_schedule_simulated b rng mem db junk c parties keys bpk bsk Hm D J) as (bound & result & looked & R & Pm & A).
  exists bound, result, looked. split; [exact R|]. split; [exact Pm|]. revert A. apply release_finishes. intros p. apply cov_entity.
Qed.
Print Assumptions C69_every_schedule.

(** ... with the results of C65 when there are several servers per party, ... *)
Theorem C69_every_schedule_several : forall b rng iter mem acc db junk N clients parties keys bpk bsk,
  (forall p, smem_ok (mem p)) -> (forall p, Permutation (acc p) (seq 0 (p mod N))) ->
  par_deployment rng db N clients parties keys -> bytes 52 junk ->
  exists bound results looked,
    right_rows db clients results /\ List.length looked = N /\
    Permutation (concat looked) (client_keys clients ++ flat_map (party_noise_keys N (List.length db)) parties) /\
    par_always_finishes N (par_entity b false rng iter false true N mem acc db junk clients parties bpk bsk) bound (List.length parties) results looked.
Proof.
  intros b rng iter mem acc db junk N clients parties keys bpk bsk Hm Ha D J.
  destruct (C65_every_schedule_simulated b rng iter mem acc db junk N clients parties keys bpk bsk Hm Ha D J) as (bound & results & looked & R & L & Pm & A).
  exists bound, results, looked. split; [exact R|]. split; [exact L|]. split; [exact Pm|]. revert A. apply par_release_finishes. intros p. apply cov_par_entity.
Qed.
Print Assumptions C69_every_schedule_several.

(** ... and nobody gets wrong results when processes are killed. *)
Theorem C69_crash_safety : forall b rng mem db junk c parties keys bpk bsk, (forall p i, List.length (mem p i) = BUFFER_SIZE) ->
  deployment rng db c parties keys -> bytes 52 junk ->
  exists result looked, let procs := entity b false rng false true mem db junk c parties bpk bsk in
    map Some result = map (fun k => nth_error db (Z.to_nat k)) (ct_keys c) /\
    Permutation looked (ct_keys c ++ flat_map (noise_keys (List.length db)) parties) /\
    crash_safe procs (List.length parties) result looked /\
    (ct_keys c <> [] -> client_last procs (List.length parties) result looked).
Proof.
  intros b rng mem db junk c parties keys bpk bsk Hm D J.
  destruct (C64_crash_safety_simulated b rng mem db junk c parties keys bpk bsk Hm D J) as (result & looked & X). cbn zeta in X. destruct X as (R & Pm & Sf & _ & L).
  exists result, looked. intros procs. split; [exact R|]. split; [exact Pm|].
  assert (Sim : forall cap, (forall c, (1 <= cap c)%nat) -> forall s', reach (crash_step cap) (crash_start procs) s' ->
    exists s, reach (crash_step cap) (crash_start (entity b true rng false true mem db junk c parties bpk bsk)) s /\ ccovered (S (List.length parties)) s s').
  { intros cap Hc s' H. apply (ccovered_reach cap (S (List.length parties)) (entity b true rng false true mem db junk c parties bpk bsk) procs); [intros p; apply cov_entity| | |exact H].
    - intros p Lp. exists PartyEnd. unfold entity. destruct p as [|j]; [lia|]. rewrite (proj2 (nth_error_None parties j)) by lia.
      rewrite (proj2 (Nat.eqb_neq j (List.length parties))) by lia. reflexivity.
    - intros s Hs p Lp E. destruct (proj2 (Sf cap Hc s Hs p Lp) Aborted E) as [X _]. discriminate X. }
  split.
  - intros cap Hc s' H p Lp. destruct (Sim cap Hc s' H) as (s & Hs & Cs). destruct (Sf cap Hc s Hs p Lp) as [S1 S2].
    assert (Na : nt_proc (cn_net s) p <> Crash Aborted) by (intros E; destruct (S2 Aborted E) as [X _]; discriminate X).
    destruct Cs as (Cn & Ck & _). split.
    + intros e E. pose proof (S1 e (covered_back_ret _ _ _ _ Cn Na E)) as F. apply (covered_ret _ _ _ _ Cn F).
    + intros f E. destruct (S2 f (covered_crash _ _ _ _ Cn Na E)) as (-> & c0 & X1 & X2 & X3 & X4). split; [reflexivity|]. exists c0.
      split; [exact X1|]. split; [exact X2|]. split; [rewrite <- Ck; exact X3|]. rewrite <- (proj2 Cn). exact X4.
  - intros Hk cap Hc s' H F p Lp. destruct (Sim cap Hc s' H) as (s & Hs & Cs). destruct Cs as (Cn & _ & _).
    assert (Na : nt_proc (cn_net s) 0 <> Crash Aborted) by (intros E; destruct (proj2 (Sf cap Hc s Hs 0%nat ltac:(lia)) Aborted E) as [X _]; discriminate X).
    apply (covered_ret _ _ _ _ Cn). apply (L Hk cap Hc s Hs); [|exact Lp]. apply (covered_back_ret _ _ _ _ Cn Na F).
Qed.
Print Assumptions C69_crash_safety.

(** The same from the configuration file and the command lines on: every process
    starts and, once connected as configured, runs to its end, ... *)
Theorem C69_one_server : forall b rng flog sampling iter junk file cfg name queries most en sr,
  started b rng flog sampling file cfg name "online" false true queries most en -> cg_servers_n cfg = 1 ->
  bytes 52 junk -> (forall p, smem_ok (sr_mem (sr p))) ->
  let parties := (Z.to_nat (cg_parties_n cfg) - 1)%nat in
  exists procs bound looked,
    (forall p, (p < parties + 2)%nat -> exists r,
       main_program b false rng flog sampling iter junk (command name "online" queries 1 p) (Some file) (en p) (sr p) = Ok (Some r) /\
       ru_program r = Serial (procs p)) /\
    always_finishes procs bound parties (map row_of (asked cfg (en 0%nat) (queries 0%nat))) looked.
Proof.
  intros b rng flog sampling iter junk file cfg name queries most en sr [F U Nm St R Fa Q T _] HN J Hm parties.
  pose proof (eased_Ok _ _ _ (eased_file (Some file)) F) as F'.
  pose proof (single_deployment b true rng flog sampling iter junk file cfg name "online" false true queries most en sr F U Nm St R Fa Q T HN) as D.
  pose proof (line_length b true rng flog sampling iter junk file cfg name "online" false true queries most en sr F U Nm St R Fa Q T) as L.
  destruct (C69_every_schedule b rng (fun p => sm_link (sr_mem (sr p))) (the_db cfg) junk _ _ _ (pc_pkey (the_pc cfg parties)) (pc_skey (the_pc cfg parties))
    (fun p i => proj1 (Hm p) i) D J) as (bound & result & looked & E & _ & A).
  rewrite (rows_are b true rng flog sampling iter junk file cfg name "online" false true queries most en sr F U Nm St R Fa Q T 0 _ E) in A. rewrite L in A.
  eexists _, bound, looked. split; [|exact A]. intros p Lp.
  exact (single_programs b false rng flog sampling iter junk file cfg name "online" false true queries most en sr F' U Nm St R Fa Q T p HN Lp).
Qed.
Print Assumptions C69_one_server.

Theorem C69_several_servers : forall b rng flog sampling iter junk file cfg name queries most en sr,
  started b rng flog sampling file cfg name "online" false true queries most en -> 1 < cg_servers_n cfg -> bytes 52 junk ->
  let N := Z.to_nat (cg_servers_n cfg) in let parties := (Z.to_nat (cg_parties_n cfg) - 1)%nat in
  (forall p, smem_ok (sr_mem (sr p)) /\ Permutation (sr_acc (sr p)) (seq 0 (p mod N))) ->
  exists procs bound looked,
    (forall p, (p < (parties + 2) * N)%nat -> exists r,
       main_program b false rng flog sampling iter junk (command name "online" queries N p) (Some file) (en p) (sr p) = Ok (Some r) /\
       ru_program r = Siblings (procs p)) /\
    par_always_finishes N procs bound parties (map (fun i => map row_of (asked cfg (en i) (queries i))) (seq 0 N)) looked.
Proof.
  intros b rng flog sampling iter junk file cfg name queries most en sr [F U Nm St R Fa Q T _] HN J N parties Hs.
  pose proof (eased_Ok _ _ _ (eased_file (Some file)) F) as F'.
  pose proof (several_deployment b true rng flog sampling iter junk file cfg name "online" false true queries most en sr F U Nm St R Fa Q T HN) as D.
  pose proof (parties_length b true rng flog sampling iter junk file cfg name "online" false true queries most en sr F U Nm St R Fa Q T) as L.
  destruct (C69_every_schedule_several b rng iter (fun p => sr_mem (sr p)) (fun p => sr_acc (sr p)) (the_db cfg) junk N _ _ _ (pc_pkey (the_pc cfg parties)) (pc_skey (the_pc cfg parties))
    (fun p => proj1 (Hs p)) (fun p => proj2 (Hs p)) D J) as (bound & results & looked & E & _ & _ & A).
  assert (W : results = map (fun i => map row_of (asked cfg (en i) (queries i))) (seq 0 N)).
  { pose proof (rows_are b true rng flog sampling iter junk file cfg name "online" false true queries most en sr F U Nm St R Fa Q T) as W. clear A.
    revert E. unfold right_rows, the_clients. fold N. generalize (seq 0 N) as l. revert results. intros results l. revert results. induction l as [|i l IH]; intros results H; inversion H; subst; [reflexivity|].
    cbn [map]. f_equal; [apply W; assumption|apply IH; assumption]. }
  rewrite W, L in A. eexists _, bound, looked. split; [|exact A]. intros p Lp.
  exact (several_programs b false rng flog sampling iter junk file cfg name "online" false true queries most en sr F' U Nm St R Fa Q T p HN Lp).
Qed.
Print Assumptions C69_several_servers.

(** ... but whatever the stage, every address that a process connects to is what
    its stack happens to hold, not what the configuration says. *)
Theorem C69_not_connected : forall b rng flog sampling iter junk file cfg name stage offline online queries most en sr,
  started b rng flog sampling file cfg name stage offline online queries most en ->
  let N := Z.to_nat (cg_servers_n cfg) in let parties := (Z.to_nat (cg_parties_n cfg) - 1)%nat in
  forall p, (p < (parties + 2) * N)%nat -> exists r,
    main_program b false rng flog sampling iter junk (command name stage queries N p) (Some file) (en p) (sr p) = Ok (Some r) /\
    List.length (ru_dials r) = (match p / N with O => 1 | S k => (if k =? parties then 0 else 1) + (N - 1 - p mod N) end)%nat /\
    forall j a, nth_error (ru_dials r) j = Some a -> fst a = sr_stack (sr p) j.
Proof.
  intros b rng flog sampling iter junk file cfg name stage offline online queries most en sr [F U Nm St R Fa Q T _] N parties p Lp.
  pose proof (eased_Ok _ _ _ (eased_file (Some file)) F) as F'.
  destruct (starts b false rng flog sampling iter junk file cfg name stage offline online queries most en sr F' U Nm St R Fa Q T p Lp) as (r & Er).
  exists r. split; [exact Er|]. split.
  - exact (dials_length b false rng flog sampling iter junk file cfg name stage offline online queries most en sr F' U Nm St R Fa Q T p r Lp Er).
  - intros j a Ej. pose proof (no_wires b false rng flog sampling iter junk file cfg name stage offline online queries most en sr F' U Nm St R Fa Q T p r eq_refl Lp Er) as W.
    pose proof (map_nth_error fst _ _ Ej) as E1. rewrite W in E1. assert (Lj : (j < List.length (ru_dials r))%nat) by (apply nth_error_Some; rewrite Ej; discriminate).
    rewrite nth_error_map_seq in E1 by exact Lj. inversion E1. reflexivity.
Qed.
Print Assumptions C69_not_connected.

(** C70 With assertions, the address of a server written as four decimal numbers
    is the address connected to; ... *)
Theorem C70_numeric : forall stack a, ip4 a -> dialled true stack (dotted a) = a.
Proof. intros stack a H. unfold dialled. rewrite pton_dotted by exact H. reflexivity. Qed.
Print Assumptions C70_numeric.

(** ... two texts for one address do not exist; ... *)
Theorem C70_one_text : forall ip a, inet_pton ip = Some a <-> ip4 a /\ ip = dotted a.
Proof. intros ip a. split; [apply dotted_pton|]. intros [H ->]. apply pton_dotted. exact H. Qed.
Print Assumptions C70_one_text.

(** ... but a configuration with anything else for an address, such as a host name,
    is not refused: all processes start, and connect to what the stack holds. *)
Theorem C70_not_refused : forall b rng flog sampling iter junk file cfg name stage offline online queries most en sr,
  started b rng flog sampling file cfg name stage offline online queries most en ->
  let N := Z.to_nat (cg_servers_n cfg) in let parties := (Z.to_nat (cg_parties_n cfg) - 1)%nat in
  forall p, (p < (parties + 2) * N)%nat -> exists r,
    main_program b true rng flog sampling iter junk (command name stage queries N p) (Some file) (en p) (sr p) = Ok (Some r) /\
    forall j a, nth_error (ru_dials r) j = Some a -> exists ip, List.In (ip, snd a) (addresses cfg) /\
      (ip4 (fst a) /\ ip = dotted (fst a) \/ fst a = sr_stack (sr p) j /\ forall x, ip4 x -> ip <> dotted x).
Proof.
  intros b rng flog sampling iter junk file cfg name stage offline online queries most en sr [F U Nm St R Fa Q T _] N parties p Lp.
  destruct (starts b true rng flog sampling iter junk file cfg name stage offline online queries most en sr F U Nm St R Fa Q T p Lp) as (r & Er).
  exists r. split; [exact Er|]. intros j a Ej.
  exact (some_wires b true rng flog sampling iter junk file cfg name stage offline online queries most en sr F U Nm St R Fa Q T p r eq_refl Lp Er j a Ej).
Qed.
Print Assumptions C70_not_refused.

(** The deployments of C66_example in the online stage, and the deployments of C63
    and C65; an address and a host name. *)
Lemma bx_online servers N : servers = 1 \/ servers = 2 -> N = Z.to_nat servers ->
  started toy_box ex_rng ex_log false (bx_file servers) (bx_cfg servers) "config.txt" "online" false true (fun _ => 2) 14 (bx_entropy N).
Proof.
  intros Hs HN. destruct (bx_started servers N Hs HN) as [F U Nm St R Fa Q T _]. constructor; try assumption.
  - right. left. repeat split.
  - discriminate.
Qed.
Example C69_example :
  started toy_box ex_rng ex_log false (bx_file 2) (bx_cfg 2) "config.txt" "online" false true (fun _ => 2) 14 (bx_entropy 2) /\
  started toy_box ex_rng ex_log false (bx_file 1) (bx_cfg 1) "config.txt" "online" false true (fun _ => 2) 14 (bx_entropy 1) /\
  cg_servers_n (bx_cfg 2) = 2 /\ cg_servers_n (bx_cfg 1) = 1.
Proof.
  split; [apply bx_online; [right; reflexivity|reflexivity]|]. split; [apply bx_online; [left; reflexivity|reflexivity]|].
  split; vm_compute; reflexivity.
Qed.
Example C70_example :
  ip4 [10; 0; 200; 35] /\ dotted [10; 0; 200; 35] = [49; 48; 46; 48; 46; 50; 48; 48; 46; 51; 53] (* 10.0.200.35 *) /\
  inet_pton [49; 48; 46; 48; 46; 50; 48; 48; 46; 51; 53] = Some [10; 0; 200; 35] /\
  inet_pton [112; 105; 114] (* pir *) = None /\ inet_pton [49; 48; 46; 48; 46; 48; 48; 46; 49] (* 10.0.00.1 *) = None.
Proof. split; [split; [reflexivity|repeat constructor; discriminate]|]. vm_compute. auto. Qed.
