(** Theorems about deployments started from a configuration file and the
    documented command lines. *)
From Coq Require Import String.
From Verif Require Import Base Sizes BaseProofs Incremental Wire Onion Shuffle State Database NoiseFloat Config MainFlags Handlers Batch Party Chain Parallel ParChain
  Net Procs ParProcs Lts Spec ChainSpec ParSpec ParChainSpec ConfigSpec ConfigProofs ParServer AddressSpec Boot BootSpec BootProofs Toy PropsShuffle PropsNoise PropsConfig PropsChain PropsProc PropsParProc.
Local Open Scope Z_scope.
Local Open Scope list_scope.

(** C66 With one server per party: all processes start and run to their ends under
    every schedule, and the client has the rows it drew. *)
Theorem C66_one_server : forall b rng flog sampling iter junk file cfg name stage offline online queries most en sr,
  started b rng flog sampling file cfg name stage offline online queries most en -> cg_servers_n cfg = 1 ->
  bytes 52 junk -> (forall p, smem_ok (sr_mem (sr p))) ->
  let parties := (Z.to_nat (cg_parties_n cfg) - 1)%nat in
  exists procs bound looked,
    (forall p, (p < parties + 2)%nat -> exists r,
       main_program b true rng flog sampling iter junk (command name stage queries 1 p) (Some file) (en p) (sr p) = Ok (Some r) /\
       ru_program r = Serial (procs p)) /\
    always_finishes procs bound parties (if online then map row_of (asked cfg (en 0%nat) (queries 0%nat)) else []) looked.
Proof.
  intros b rng flog sampling iter junk file cfg name stage offline online queries most en sr [F U Nm St R Fa Q T _] HN J Hm parties.
  pose proof (single_deployment b true rng flog sampling iter junk file cfg name stage offline online queries most en sr F U Nm St R Fa Q T HN) as D.
  pose proof (single_keyed b true rng flog sampling iter junk file cfg name stage offline online queries most en sr F U Nm St R Fa Q T HN) as K.
  pose proof (line_length b true rng flog sampling iter junk file cfg name stage offline online queries most en sr F U Nm St R Fa Q T) as L.
  set (pk := pc_pkey (the_pc cfg parties)). set (sk := pc_skey (the_pc cfg parties)).
  exists (entity b true rng offline online (fun p => sm_link (sr_mem (sr p))) (the_db cfg) junk (the_client cfg queries en 0) (the_line rng flog sampling cfg en) pk sk).
  assert (X : exists bound looked, always_finishes
    (entity b true rng offline online (fun p => sm_link (sr_mem (sr p))) (the_db cfg) junk (the_client cfg queries en 0) (the_line rng flog sampling cfg en) pk sk) bound parties
    (if online then map row_of (asked cfg (en 0%nat) (queries 0%nat)) else []) looked).
  { assert (Hl : forall p i, List.length (sm_link (sr_mem (sr p)) i) = BUFFER_SIZE) by (intros p i; apply (proj1 (Hm p))).
    pose proof (rows_are b true rng flog sampling iter junk file cfg name stage offline online queries most en sr F U Nm St R Fa Q T 0) as W.
    destruct St as [(_ & -> & ->)|[(_ & -> & ->)|(_ & -> & ->)]].
    - destruct (C63_every_schedule_offline b rng _ (the_db cfg) junk _ _ _ _ _ Hl D K J) as (bound & A). unfold parties. rewrite <- L. exists bound, []. exact A.
    - destruct (C63_every_schedule_simulated b rng _ (the_db cfg) junk _ _ _ pk sk Hl D J) as (bound & result & looked & E & _ & A).
      rewrite (W _ E) in A. unfold parties. rewrite <- L. exists bound, looked. exact A.
    - destruct (C63_every_schedule b rng _ (the_db cfg) junk _ _ _ _ _ Hl D K J) as (bound & result & looked & E & _ & A).
      rewrite (W _ E) in A. unfold parties. rewrite <- L. exists bound, looked. exact A. }
  destruct X as (bound & looked & A). exists bound, looked. split; [|exact A].
  intros p Hp. apply (single_programs b true rng flog sampling iter junk file cfg name stage offline online queries most en sr F U Nm St R Fa Q T p HN Hp).
Qed.
Print Assumptions C66_one_server.

(** ... and with several servers per party; process [e * N + i] is client i for
    e = 0 and otherwise server i of party e - 1. *)
Theorem C66_several_servers : forall b rng flog sampling iter junk file cfg name stage offline online queries most en sr,
  started b rng flog sampling file cfg name stage offline online queries most en -> 1 < cg_servers_n cfg ->
  bytes 52 junk -> (forall i l, Permutation (iter i l) l) ->
  let N := Z.to_nat (cg_servers_n cfg) in let parties := (Z.to_nat (cg_parties_n cfg) - 1)%nat in
  (forall p, smem_ok (sr_mem (sr p)) /\ Permutation (sr_acc (sr p)) (seq 0 (p mod N))) ->
  exists procs bound looked,
    (forall p, (p < (parties + 2) * N)%nat -> exists r,
       main_program b true rng flog sampling iter junk (command name stage queries N p) (Some file) (en p) (sr p) = Ok (Some r) /\
       ru_program r = Siblings (procs p)) /\
    par_always_finishes N procs bound parties
      (map (fun i => if online then map row_of (asked cfg (en i) (queries i)) else []) (seq 0 N)) looked.
Proof.
  intros b rng flog sampling iter junk file cfg name stage offline online queries most en sr [F U Nm St R Fa Q T Tg] HN J Hi N parties Hs.
  pose proof (several_deployment b true rng flog sampling iter junk file cfg name stage offline online queries most en sr F U Nm St R Fa Q T HN) as D.
  pose proof (fun Hs => several_keyed b true rng flog sampling iter junk file cfg name stage offline online queries most en sr F U Nm St R Fa Q T HN (proj1 Hs) (proj2 Hs)) as K.
  pose proof (parties_length b true rng flog sampling iter junk file cfg name stage offline online queries most en sr F U Nm St R Fa Q T) as L.
  set (pk := pc_pkey (the_pc cfg parties)). set (sk := pc_skey (the_pc cfg parties)).
  set (procs := par_entity b true rng iter offline online N (fun p => sr_mem (sr p)) (fun p => sr_acc (sr p)) (the_db cfg) junk (the_clients cfg queries en) (the_parties rng flog sampling cfg en) pk sk).
  exists procs.
  assert (X : exists bound looked, par_always_finishes N procs bound parties
    (map (fun i => if online then map row_of (asked cfg (en i) (queries i)) else []) (seq 0 N)) looked).
  { assert (Hm : forall p, smem_ok (sr_mem (sr p))) by (intros p; apply (Hs p)).
    assert (Ha : forall p, Permutation (sr_acc (sr p)) (seq 0 (p mod N))) by (intros p; apply (Hs p)).
    assert (W : forall results, right_rows (the_db cfg) (the_clients cfg queries en) results -> results = map (fun i => map row_of (asked cfg (en i) (queries i))) (seq 0 N)).
    { pose proof (rows_are b true rng flog sampling iter junk file cfg name stage offline online queries most en sr F U Nm St R Fa Q T) as W.
      unfold right_rows, the_clients. fold N. generalize (seq 0 N) as l. induction l as [|i l IH]; intros results H; inversion H; subst; [reflexivity|].
      cbn [map]. f_equal; [apply W; assumption|apply IH; assumption]. }
    unfold procs. destruct St as [(_ & -> & ->)|[(_ & -> & ->)|(_ & -> & ->)]].
    - destruct (C65_every_schedule_offline b rng iter (fun p => sr_mem (sr p)) (fun p => sr_acc (sr p)) (the_db cfg) junk N _ _ _ _ _ Hm Ha Hi D (K (Tg eq_refl HN)) J) as (bound & A).
      unfold parties. rewrite <- L. exists bound, (repeat [] N). replace (map (fun _ : nat => @nil response) (seq 0 N)) with (repeat (@nil response) N); [exact A|].
      rewrite <- (seq_length N 0) at 1. generalize (seq 0 N) as l. induction l as [|x l IH]; [reflexivity|]. cbn. rewrite IH. reflexivity.
    - destruct (C65_every_schedule_simulated b rng iter (fun p => sr_mem (sr p)) (fun p => sr_acc (sr p)) (the_db cfg) junk N _ _ _ pk sk Hm Ha D J) as (bound & results & looked & E & _ & _ & A).
      rewrite (W _ E) in A. unfold parties. rewrite <- L. exists bound, looked. exact A.
    - destruct (C65_every_schedule b rng iter (fun p => sr_mem (sr p)) (fun p => sr_acc (sr p)) (the_db cfg) junk N _ _ _ _ _ Hm Ha Hi D (K (Tg eq_refl HN)) J) as (bound & results & looked & E & _ & _ & A).
      rewrite (W _ E) in A. unfold parties. rewrite <- L. exists bound, looked. exact A. }
  destruct X as (bound & looked & A). exists bound, looked. split; [|exact A].
  intros p Hp. apply (several_programs b true rng flog sampling iter junk file cfg name stage offline online queries most en sr F U Nm St R Fa Q T p HN Hp).
Qed.
Print Assumptions C66_several_servers.

(** ... and the sockets they open fit together: process p connects to process q
    exactly when q runs on the same server number of the next party, or is a later
    sibling of p; the former on the first port of q, the latter on the second. *)
Theorem C66_connections : forall b rng flog sampling iter junk file cfg name stage offline online queries most en sr proc,
  started b rng flog sampling file cfg name stage offline online queries most en -> NoDup (addresses cfg) -> numeric cfg ->
  let N := Z.to_nat (cg_servers_n cfg) in let all := ((Z.to_nat (cg_parties_n cfg) - 1 + 2) * N)%nat in
  (forall p, (p < all)%nat ->
     main_program b true rng flog sampling iter junk (command name stage queries N p) (Some file) (en p) (sr p) = Ok (Some (proc p))) ->
  forall p q n, (p < all)%nat -> (q < all)%nat ->
    (connects cfg N proc p q n <->
     n = 0%nat /\ q = (p + N)%nat \/ n = 1%nat /\ (1 <= p / N)%nat /\ (p / N = q / N)%nat /\ (p < q)%nat).
Proof.
  intros b rng flog sampling iter junk file cfg name stage offline online queries most en sr proc [F U Nm St R Fa Q T _] Hd Hv N all Hp.
  exact (wires b true rng flog sampling iter junk file cfg name stage offline online queries most en sr F U Nm St R Fa Q T proc eq_refl Hd Hv Hp).
Qed.
Print Assumptions C66_connections.

Lemma nodup_two (A : Type) (f g : A -> Z) : forall l m,
  NoDup (map f l) -> NoDup (map g m) -> (forall s t, List.In s l -> List.In t m -> f s <> g t) -> NoDup (map f l ++ map g m).
Proof.
  induction l as [|s l IH]; intros m Hf Hg Hd; [exact Hg|]. cbn [map app] in *. inversion Hf as [|? ? Hf1 Hf2]; subst. constructor.
  - intros I. apply in_app_or in I as [I|I]; [exact (Hf1 I)|]. apply in_map_iff in I as (t & E & It).
    apply (Hd s t); [left; reflexivity|exact It|congruence].
  - apply IH; auto. intros a t Ia It. apply Hd; [right; exact Ia|exact It].
Qed.
Lemma nodup_pairs (A : Type) (f g : A -> Z) (h : A -> list Z) : forall l,
  NoDup (map f l) -> NoDup (map g l) -> (forall s t, List.In s l -> List.In t l -> f s <> g t) ->
  NoDup (flat_map (fun s => [(h s, f s); (h s, g s)]) l).
Proof.
  intros l Hf Hg Hd. apply (NoDup_map_inv snd).
  assert (X : Permutation (map f l ++ map g l) (map snd (flat_map (fun s => [(h s, f s); (h s, g s)]) l))).
  { clear. induction l as [|s l IH]; [constructor|]. cbn [flat_map map app snd]. constructor.
    rewrite <- IH. apply Permutation_sym, Permutation_middle. }
  apply (Permutation_NoDup X). apply nodup_two; assumption.
Qed.
Lemma addresses_flat cfg : addresses cfg = flat_map (fun sv => [(sv_ip sv, sv_port sv); (sv_ip sv, sv_parallel sv)]) (all_servers cfg).
Proof.
  unfold addresses, all_servers. induction (cg_parties cfg) as [|pc l IH]; [reflexivity|]. cbn [flat_map map concat]. rewrite flat_map_app, IH. reflexivity.
Qed.
Lemma Forall2_in_r {A B} (R : A -> B -> Prop) : forall l m, Forall2 R l m -> forall y, List.In y m -> exists x, List.In x l /\ R x y.
Proof.
  intros l m F. induction F as [|x y l m E F IH]; intros z I; [destruct I|]. destruct I as [<-|I]; [exists x; split; [left; reflexivity|exact E]|].
  destruct (IH z I) as (x' & I' & E'). exists x'. split; [right; exact I'|exact E'].
Qed.
Lemma generated_numeric db eps del parties servers ips keys cfg :
  from_args true db eps del parties servers ips keys = Ok cfg -> Forall (fun ip => exists x, ip4 x /\ ip = dotted x) ips -> numeric cfg.
Proof.
  intros H Hi. unfold from_args in H. apply bind_Ok in H as (? & _ & H). apply bind_Ok in H as (ps & Hps & H). inversion H; subst. clear H.
  unfold numeric, addresses. cbn [cg_parties]. apply Forall_forall. intros a Ia. apply in_flat_map in Ia as (pc & Ip & Ia). apply in_flat_map in Ia as (sv & Is & Ia).
  assert (Ea : fst a = sv_ip sv) by (cbn in Ia; destruct Ia as [<-|[<-|[]]]; reflexivity). rewrite Ea. clear a Ia Ea.
  apply map_res_Forall2 in Hps. destruct (Forall2_in_r _ _ _ Hps pc Ip) as (i & _ & E). apply gen_party_spec in E as (_ & _ & _ & _ & F).
  destruct (Forall2_in_r _ _ _ F sv Is) as (j & _ & _ & _ & E). destruct (6 + Z.of_nat (List.length ips) =? 6).
  - inversion E. exists [127; 0; 0; 1]. split; [split; [reflexivity|repeat constructor; lia]|reflexivity].
  - unfold get in E. destruct (nth_error ips _) as [ip|] eqn:En; [|discriminate]. inversion E; subst. apply nth_error_In in En.
    rewrite Forall_forall in Hi. apply (Hi _ En).
Qed.

(** ... and the configuration generator supplies such a file: unless more than 1000
    servers are asked for, what it writes is read back and no two addresses in it
    coincide, not even when all servers share one machine. *)
Theorem C66_generated : forall db eps del parties servers ips keys cfg,
  from_args true db eps del parties servers ips keys = Ok cfg -> u64 eps -> u64 del ->
  (forall i, List.length (fst (keys i)) = 32%nat /\ List.length (snd (keys i)) = 32%nat) -> Forall (Forall (fun c => c <> 0)) ips ->
  exists file, serialize true cfg = Ok file /\ (ConfigSpec.fits file -> read_file true (Some file) = Ok cfg) /\
    (cg_parties_n cfg * cg_servers_n cfg <= 1000 -> NoDup (addresses cfg)) /\
    (Forall (fun ip => exists x, ip4 x /\ ip = dotted x) ips -> numeric cfg).
Proof.
  intros db eps del parties servers ips keys cfg E Ue Ud Hk Hi. pose proof (generated_val _ _ _ _ _ _ _ _ _ E Ue Ud Hk Hi) as V.
  destruct (C27_round_trip true cfg V) as (d & S & R). exists d. split; [exact S|].
  split; [intros Fd; apply (R Fd)|]. split; [|exact (generated_numeric _ _ _ _ _ _ _ _ E)]. intros L. destruct (C29_from_args _ _ _ _ _ _ _ _ _ E) as (A & B & _ & _ & C & _).
  rewrite addresses_flat. apply nodup_pairs; [exact A|exact B|apply C; exact L].
Qed.
Print Assumptions C66_generated.

(** A configuration of the generator for two parties with two servers each and
    five rows, epsilon 1 and delta 2^-10 (stand-in logarithm), started with two
    queries per client. *)
Definition bx_cfg (servers : Z) : config :=
  match from_args true 5 4607182418800017408 4562146422526312448 2 servers [] (fun i => (repeat (Z.of_nat i) 32, repeat 1 32)) with
  | Ok c => c | _ => {| cg_db := 0; cg_epsilon := 0; cg_delta := 0; cg_parties_n := 0; cg_servers_n := 0; cg_parties := [] |} end.
Definition bx_file (servers : Z) : list Z := match serialize true (bx_cfg servers) with Ok d => d | _ => [] end.
Definition bx_entropy (N p : nat) : entropy :=
  {| en_rand := ex_rand (Z.min 3 (Z.of_nat (p / N) + 1)); en_draw := fun j n => (Z.of_nat (3 * p + j)) mod n |}.
Lemma bx_started servers N : servers = 1 \/ servers = 2 -> N = Z.to_nat servers ->
  started toy_box ex_rng ex_log false (bx_file servers) (bx_cfg servers) "config.txt" "all" true true (fun _ => 2) 14 (bx_entropy N).
Proof.
  intros Hs HN. constructor.
  - destruct Hs as [->| ->]; vm_compute; reflexivity.
  - constructor.
    + destruct Hs as [->| ->]; vm_compute; discriminate.
    + destruct Hs as [->| ->]; vm_compute; split; discriminate.
    + destruct Hs as [->| ->]; vm_compute; discriminate.
    + destruct Hs as [->| ->]; vm_compute; discriminate.
    + apply Forall_forall. intros pc _. apply toy_box_ok.
    + assert (E : exists d, noise_new ex_log (double_of_bits (cg_epsilon (bx_cfg servers))) (double_of_bits (cg_delta (bx_cfg servers))) = Ok d /\ sample false ex_log d 0 0 = Ok 14).
      { assert (E : (let* d := noise_new ex_log (double_of_bits (cg_epsilon (bx_cfg servers))) (double_of_bits (cg_delta (bx_cfg servers))) in sample false ex_log d 0 0) = Ok 14)
          by (destruct Hs as [->| ->]; vm_compute; reflexivity).
        apply bind_Ok in E. exact E. }
      destruct E as (d & E1 & E2). exists d. split; [exact E1|]. intros r1 r2 v S. change (sample false ex_log d 0 0 = Ok v) in S. rewrite E2 in S. inversion S. lia.
  - discriminate.
  - right. right. repeat split.
  - apply ex_rng_range.
  - intros p. split.
    + intros j n Hn. cbn [en_draw bx_entropy]. apply Z.mod_pos_bound. lia.
    + intros count. cbn [en_rand bx_entropy]. apply ex_good_rand; [lia|].
      replace (cg_parties_n (bx_cfg servers)) with 2 by (destruct Hs as [->| ->]; vm_compute; reflexivity).
      replace (Z.to_nat (cg_servers_n (bx_cfg servers))) with N by (destruct Hs as [->| ->]; subst N; vm_compute; reflexivity).
      destruct (p / N)%nat as [|k]; lia.
  - intros _. lia.
  - destruct Hs as [->| ->]; vm_compute; reflexivity.
  - intros _ _. split; [reflexivity|intros; reflexivity].
Qed.

Example C66_example : let cfg := bx_cfg 2 in
  started toy_box ex_rng ex_log false (bx_file 2) cfg "config.txt" "all" true true (fun _ => 2) 14 (bx_entropy 2) /\
  started toy_box ex_rng ex_log false (bx_file 1) (bx_cfg 1) "config.txt" "all" true true (fun _ => 2) 14 (bx_entropy 1) /\
  cg_parties_n cfg = 2 /\ cg_servers_n cfg = 2 /\ cg_servers_n (bx_cfg 1) = 1 /\ NoDup (addresses cfg) /\ numeric cfg /\
  map (asked cfg (bx_entropy 2 0)) [2; 3] = [[0; 1]; [0; 1; 2]].
Proof.
  intros cfg. split; [apply bx_started; [right; reflexivity|reflexivity]|]. split; [apply bx_started; [left; reflexivity|reflexivity]|].
  split; [vm_compute; reflexivity|]. split; [vm_compute; reflexivity|]. split; [vm_compute; reflexivity|]. split; [|split; [|vm_compute; reflexivity]].
  - vm_compute. repeat constructor; cbn; intros H; repeat destruct H as [H|H]; try discriminate H; try exact H.
  - assert (E : exists c, from_args true 5 4607182418800017408 4562146422526312448 2 2 [] (fun i => (repeat (Z.of_nat i) 32, repeat 1 32)) = Ok c /\ c = cfg)
      by (vm_compute; eexists; split; reflexivity).
    destruct E as (c & E & <-). apply (generated_numeric _ _ _ _ _ _ _ _ E). constructor.
Qed.
