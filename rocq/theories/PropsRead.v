(** Theorems about what someone with the configuration learns from the keys the
    backend looks up. *)
From Coq Require Import String.
From Verif Require Import Base Sizes BaseProofs Incremental Wire Onion Shuffle State Database NoiseFloat Config MainFlags Handlers Batch Party Chain Parallel ParChain
  Net Procs ParProcs Lts Spec ChainSpec ParSpec ParChainSpec OfflineProofs ConfigSpec ConfigProofs ChainProofs ProcChain ParServer ReadProofs ParRead ParNet Boot BootSpec BootProofs Toy
  PropsShuffle PropsNoise PropsConfig PropsChain PropsProc PropsParProc PropsBoot.
Local Open Scope Z_scope.
Local Open Scope list_scope.

(** ** From the seeds of the parties *)

Lemma noise_length rows cf : noise_total rows cf = List.length (noise_keys rows cf).
Proof.
  unfold noise_total, noise_keys. generalize (seq 0 rows) as l. induction l as [|k l IH]; [reflexivity|].
  cbn [map flat_map]. change (list_sum (?a :: ?b)) with (a + list_sum b)%nat. rewrite app_length, repeat_length, IH. reflexivity.
Qed.
(** C67 With one server per party: the seeds of the parties and the numbers of
    their fake queries are enough to tell from the looked-up keys what the
    client asked for, in order. *)
Theorem C67_order_read_off : forall rng, exists read : list (Z * nat) -> nat -> list Z -> list Z,
  forall b mem db junk c parties keys bpk bsk offline, (forall p i, List.length (mem p i) = BUFFER_SIZE) ->
  deployment rng db c parties keys -> (offline = true -> keyed b db c parties keys bpk bsk) -> bytes 52 junk ->
  exists bound result looked,
    map Some result = map (fun k => nth_error db (Z.to_nat k)) (ct_keys c) /\
    always_finishes (entity b true rng offline true mem db junk c parties bpk bsk) bound (List.length parties) result looked /\
    Permutation looked (ct_keys c ++ flat_map (noise_keys (List.length db)) parties) /\
    read (map (fun cf => (pf_seed cf, List.length (noise_keys (List.length db) cf))) parties) (List.length (ct_keys c)) looked = ct_keys c.
Proof.
  intros rng. exists (read_off rng). intros b mem db junk c parties keys bpk bsk offline Hm D K J.
  assert (E : map (fun cf => (pf_seed cf, List.length (noise_keys (List.length db) cf))) parties = seeds (List.length db) parties).
  { apply map_ext. intros cf. rewrite noise_length. reflexivity. }
  rewrite E. destruct offline.
  - destruct (real_follows b rng true mem db junk c parties keys bpk bsk Hm D (K eq_refl) J) as (o & Er & (R & Pm & _) & _ & F).
    eexists _, (oc_result o), (oc_keys o). split; [rewrite R; apply rows_of; exact (dp_queries _ _ _ _ _ D)|].
    split; [apply follows_finishes with (1 := F)|]. split; [exact Pm|]. exact (run_read b rng db junk c parties keys bpk bsk o D (K eq_refl) J Er).
  - destruct (simulated_follows b rng mem db junk c parties keys bpk bsk Hm D J) as (o & Er & (R & Pm & _) & _ & F).
    eexists _, (oc_result o), (oc_keys o). split; [rewrite R; apply rows_of; exact (dp_queries _ _ _ _ _ D)|].
    split; [apply follows_finishes with (1 := F)|]. split; [exact Pm|]. exact (run_simulated_read rng db junk c parties keys o D J Er).
Qed.
Print Assumptions C67_order_read_off.

(** ... and with N servers per party: the seeds of all servers, the seeds they
    share, and the numbers of their fake queries tell what each of the N clients
    asked for, in order. *)
Definition server_seeds (N rows : nat) (confs : list Parallel.sconf) : list (Z * Z * nat) :=
  map (fun s => match nth_error confs s with
                | Some sf => (sf_shared sf, pf_seed (sf_conf sf), List.length (server_noise_keys N rows s (sf_conf sf)))
                | None => (0, 0, 0%nat)
                end) (seq 0 N).
Theorem C67_orders_read_off : forall rng, exists read : nat -> list (list (Z * Z * nat)) -> list nat -> list (list Z) -> list (list Z),
  forall b iter mem acc db junk N clients parties keys bpk bsk offline,
  (forall p, smem_ok (mem p)) -> (forall p, Permutation (acc p) (seq 0 (p mod N))) -> (forall i l, Permutation (iter i l) l) ->
  par_deployment rng db N clients parties keys -> (offline = true -> par_keyed b db N clients parties keys bpk bsk) -> bytes 52 junk ->
  exists bound results looked,
    right_rows db clients results /\
    par_always_finishes N (par_entity b true rng iter offline true N mem acc db junk clients parties bpk bsk) bound (List.length parties) results looked /\
    Permutation (concat looked) (client_keys clients ++ flat_map (party_noise_keys N (List.length db)) parties) /\
    read N (map (server_seeds N (List.length db)) parties) (map (fun c => List.length (ct_keys c)) clients) looked = map ct_keys clients.
Proof.
  intros rng. exists (par_read_off rng). intros b iter mem acc db junk N clients parties keys bpk bsk offline Hm Ha Hi D K J.
  pose proof (pd_tiled _ _ _ _ _ _ D) as ((T1 & _) & _). assert (HN : (0 < N)%nat) by lia.
  assert (E : map (server_seeds N (List.length db)) parties = map (par_seeds N (List.length db)) parties).
  { apply map_ext. intros confs. unfold server_seeds, par_seeds. apply map_ext. intros s. destruct (nth_error confs s); [|reflexivity].
    unfold server_noise_keys, server_noise. rewrite map_length, noise_length. reflexivity. }
  rewrite E.
  assert (X : exists links plans, par_set_up b rng iter db junk offline true N clients parties bpk bsk mem links plans).
  { destruct offline.
    - exact (par_offline_set_up b rng iter db junk true N clients parties keys bpk bsk mem D (K eq_refl) Hi J Hm).
    - exact (par_simulated_set_up b rng iter db junk true N clients parties keys bpk bsk mem D J Hm). }
  destruct X as (links & plans & S).
  destruct (set_up_finishes _ _ _ _ _ _ _ _ _ _ _ _ _ acc _ _ HN Hm Ha (pd_clients _ _ _ _ _ _ D) S) as (bound & looked & L & Pm & Rd & A).
  eexists bound, _, looked. split; [apply rows_right; exact (pd_queries _ _ _ _ _ _ D)|]. split; [exact A|]. split; [exact Pm|exact (Rd eq_refl)].
Qed.
Print Assumptions C67_orders_read_off.

(** ** From the configuration file *)

Definition nobody (p : nat) : entropy :=
  {| en_rand := {| rn_x := fun _ _ => 0; rn_y := fun _ _ => 0; rn_masks := fun _ => []; rn_coins := fun _ _ => 0%nat; rn_junk1 := fun _ _ => 0; rn_junk2 := fun _ _ => 0 |};
     en_draw := fun _ _ => 0 |}.

Lemma one_server_learned rng flog sampling : exists (read : config -> nat -> list Z -> list Z) (fakes : config -> list Z),
  forall b iter junk file cfg name stage offline queries most en sr,
  started b rng flog sampling file cfg name stage offline true queries most en -> cg_servers_n cfg = 1 ->
  bytes 52 junk -> (forall p, smem_ok (sr_mem (sr p))) ->
  let parties := (Z.to_nat (cg_parties_n cfg) - 1)%nat in
  exists procs bound looked,
    (forall p, (p < parties + 2)%nat -> exists r,
       main_program b true rng flog sampling iter junk (command name stage queries 1 p) (Some file) (en p) (sr p) = Ok (Some r) /\
       ru_program r = Serial (procs p)) /\
    always_finishes procs bound parties (map row_of (asked cfg (en 0%nat) (queries 0%nat))) looked /\
    Permutation looked (asked cfg (en 0%nat) (queries 0%nat) ++ fakes cfg) /\
    read cfg (Z.to_nat (queries 0%nat)) looked = asked cfg (en 0%nat) (queries 0%nat).
Proof.
  destruct (C67_order_read_off rng) as (read & Hr).
  exists (fun cfg => read (map (fun cf => (pf_seed cf, List.length (noise_keys (List.length (the_db cfg)) cf))) (the_line rng flog sampling cfg nobody))),
    (fun cfg => flat_map (noise_keys (List.length (the_db cfg))) (the_line rng flog sampling cfg nobody)).
  intros b iter junk file cfg name stage offline queries most en sr [F U Nm St R Fa Q T _] HN J Hm parties.
  pose proof (single_deployment b true rng flog sampling iter junk file cfg name stage offline true queries most en sr F U Nm St R Fa Q T HN) as D.
  pose proof (single_keyed b true rng flog sampling iter junk file cfg name stage offline true queries most en sr F U Nm St R Fa Q T HN) as K.
  pose proof (line_length b true rng flog sampling iter junk file cfg name stage offline true queries most en sr F U Nm St R Fa Q T) as L.
  pose proof (asked_length b true rng flog sampling iter junk file cfg name stage offline true queries most en sr F U Nm St R Fa Q T 0) as La.
  set (pk := pc_pkey (the_pc cfg parties)) in *. set (sk := pc_skey (the_pc cfg parties)) in *.
  assert (Hl : forall p i, List.length (sm_link (sr_mem (sr p)) i) = BUFFER_SIZE) by (intros p i; apply (proj1 (Hm p))).
  pose proof (rows_are b true rng flog sampling iter junk file cfg name stage offline true queries most en sr F U Nm St R Fa Q T 0) as W.
  destruct (Hr b (fun p => sm_link (sr_mem (sr p))) (the_db cfg) junk _ _ _ pk sk offline Hl D (fun _ => K) J) as (bound & result & looked & E & A & Pm & Rd).
  exists (entity b true rng offline true (fun p => sm_link (sr_mem (sr p))) (the_db cfg) junk (the_client cfg queries en 0) (the_line rng flog sampling cfg en) pk sk), bound, looked.
  rewrite (W _ E) in A. split; [|split; [|split]].
  - intros p Hp. apply (single_programs b true rng flog sampling iter junk file cfg name stage offline true queries most en sr F U Nm St R Fa Q T p HN Hp).
  - unfold parties. rewrite <- L. exact A.
  - unfold the_line in *. rewrite flat_map_concat_map, map_map in *. exact Pm.
  - rewrite La in Rd. unfold the_line in *. rewrite map_map in *. exact Rd.
Qed.

Lemma several_servers_learned rng flog sampling : exists (read : config -> list nat -> list (list Z) -> list (list Z)) (fakes : config -> list Z),
  forall b iter junk file cfg name stage offline queries most en sr,
  started b rng flog sampling file cfg name stage offline true queries most en -> 1 < cg_servers_n cfg ->
  bytes 52 junk -> (forall i l, Permutation (iter i l) l) ->
  let N := Z.to_nat (cg_servers_n cfg) in let parties := (Z.to_nat (cg_parties_n cfg) - 1)%nat in
  (forall p, smem_ok (sr_mem (sr p)) /\ Permutation (sr_acc (sr p)) (seq 0 (p mod N))) ->
  exists procs bound looked,
    (forall p, (p < (parties + 2) * N)%nat -> exists r,
       main_program b true rng flog sampling iter junk (command name stage queries N p) (Some file) (en p) (sr p) = Ok (Some r) /\
       ru_program r = Siblings (procs p)) /\
    par_always_finishes N procs bound parties (map (fun i => map row_of (asked cfg (en i) (queries i))) (seq 0 N)) looked /\
    Permutation (concat looked) (flat_map (fun i => asked cfg (en i) (queries i)) (seq 0 N) ++ fakes cfg) /\
    read cfg (map (fun i => Z.to_nat (queries i)) (seq 0 N)) looked = map (fun i => asked cfg (en i) (queries i)) (seq 0 N).
Proof.
  destruct (C67_orders_read_off rng) as (read & Hr).
  exists (fun cfg => let N := Z.to_nat (cg_servers_n cfg) in read N (map (server_seeds N (List.length (the_db cfg))) (the_parties rng flog sampling cfg nobody))),
    (fun cfg => let N := Z.to_nat (cg_servers_n cfg) in flat_map (party_noise_keys N (List.length (the_db cfg))) (the_parties rng flog sampling cfg nobody)).
  intros b iter junk file cfg name stage offline queries most en sr [F U Nm St R Fa Q T Tg] HN J Hi N parties Hs.
  pose proof (several_deployment b true rng flog sampling iter junk file cfg name stage offline true queries most en sr F U Nm St R Fa Q T HN) as D.
  pose proof (fun Hs => several_keyed b true rng flog sampling iter junk file cfg name stage offline true queries most en sr F U Nm St R Fa Q T HN (proj1 Hs) (proj2 Hs)) as K.
  pose proof (parties_length b true rng flog sampling iter junk file cfg name stage offline true queries most en sr F U Nm St R Fa Q T) as L.
  pose proof (asked_length b true rng flog sampling iter junk file cfg name stage offline true queries most en sr F U Nm St R Fa Q T) as La.
  set (pk := pc_pkey (the_pc cfg parties)) in *. set (sk := pc_skey (the_pc cfg parties)) in *.
  assert (Hm : forall p, smem_ok (sr_mem (sr p))) by (intros p; apply (Hs p)).
  assert (Ha : forall p, Permutation (sr_acc (sr p)) (seq 0 (p mod N))) by (intros p; apply (Hs p)).
  assert (W : forall results, right_rows (the_db cfg) (the_clients cfg queries en) results -> results = map (fun i => map row_of (asked cfg (en i) (queries i))) (seq 0 N)).
  { pose proof (rows_are b true rng flog sampling iter junk file cfg name stage offline true queries most en sr F U Nm St R Fa Q T) as W.
    unfold right_rows, the_clients. fold N. generalize (seq 0 N) as l. induction l as [|i l IH]; intros results H; inversion H; subst; [reflexivity|].
    cbn [map]. f_equal; [apply W; assumption|apply IH; assumption]. }
  destruct (Hr b iter (fun p => sr_mem (sr p)) (fun p => sr_acc (sr p)) (the_db cfg) junk N _ _ _ pk sk offline Hm Ha Hi D (fun Ho => K (Tg Ho HN)) J)
    as (bound & results & looked & E & A & Pm & Rd).
  exists (par_entity b true rng iter offline true N (fun p => sr_mem (sr p)) (fun p => sr_acc (sr p)) (the_db cfg) junk (the_clients cfg queries en) (the_parties rng flog sampling cfg en) pk sk), bound, looked.
  rewrite (W _ E) in A. split; [|split; [|split]].
  - intros p Hp. apply (several_programs b true rng flog sampling iter junk file cfg name stage offline true queries most en sr F U Nm St R Fa Q T p HN Hp).
  - unfold parties. rewrite <- L. exact A.
  - cbv zeta. fold N. replace (flat_map (party_noise_keys N (List.length (the_db cfg))) (the_parties rng flog sampling cfg nobody))
      with (flat_map (party_noise_keys N (List.length (the_db cfg))) (the_parties rng flog sampling cfg en)).
    { unfold client_keys, the_clients in Pm. fold N in Pm. rewrite (flat_map_concat_map ct_keys), map_map, <- flat_map_concat_map in Pm. exact Pm. }
    rewrite !flat_map_concat_map. f_equal. unfold the_parties. rewrite !map_map. apply map_ext. intros k. fold N.
    unfold party_noise_keys. rewrite !flat_map_concat_map. f_equal. apply map_ext. intros s. rewrite !nth_error_map. destruct (nth_error (seq 0 N) s); reflexivity.
  - cbv zeta. fold N. replace (map (server_seeds N (List.length (the_db cfg))) (the_parties rng flog sampling cfg nobody))
      with (map (server_seeds N (List.length (the_db cfg))) (the_parties rng flog sampling cfg en)).
    { unfold the_clients in Rd. fold N in Rd. rewrite !map_map in Rd. rewrite (map_ext _ (fun i => Z.to_nat (queries i)) La) in Rd. exact Rd. }
    unfold the_parties. rewrite !map_map. apply map_ext. intros k. fold N.
    unfold server_seeds. apply map_ext. intros s. rewrite !nth_error_map. destruct (nth_error (seq 0 N) s); reflexivity.
Qed.

(** C67 Whoever has the configuration can tell from the keys that the backend
    looks up what the client asked for, in order: neither the shuffling nor the
    fake queries hide it ... *)
Theorem C67_one_server : forall rng flog sampling, exists read : config -> nat -> list Z -> list Z,
  forall b iter junk file cfg name stage offline queries most en sr,
  started b rng flog sampling file cfg name stage offline true queries most en -> cg_servers_n cfg = 1 ->
  bytes 52 junk -> (forall p, smem_ok (sr_mem (sr p))) ->
  let parties := (Z.to_nat (cg_parties_n cfg) - 1)%nat in
  exists procs bound looked,
    (forall p, (p < parties + 2)%nat -> exists r,
       main_program b true rng flog sampling iter junk (command name stage queries 1 p) (Some file) (en p) (sr p) = Ok (Some r) /\
       ru_program r = Serial (procs p)) /\
    always_finishes procs bound parties (map row_of (asked cfg (en 0%nat) (queries 0%nat))) looked /\
    read cfg (Z.to_nat (queries 0%nat)) looked = asked cfg (en 0%nat) (queries 0%nat).
Proof.
  intros rng flog sampling. destruct (one_server_learned rng flog sampling) as (read & fakes & H). exists read.
  intros. edestruct H as (procs & bound & looked & X1 & X2 & X3 & X4); eauto. exists procs, bound, looked. auto.
Qed.
Print Assumptions C67_one_server.

(** ... and what each of several clients asked for. *)
Theorem C67_several_servers : forall rng flog sampling, exists read : config -> list nat -> list (list Z) -> list (list Z),
  forall b iter junk file cfg name stage offline queries most en sr,
  started b rng flog sampling file cfg name stage offline true queries most en -> 1 < cg_servers_n cfg ->
  bytes 52 junk -> (forall i l, Permutation (iter i l) l) ->
  let N := Z.to_nat (cg_servers_n cfg) in let parties := (Z.to_nat (cg_parties_n cfg) - 1)%nat in
  (forall p, smem_ok (sr_mem (sr p)) /\ Permutation (sr_acc (sr p)) (seq 0 (p mod N))) ->
  exists procs bound looked,
    (forall p, (p < (parties + 2) * N)%nat -> exists r,
       main_program b true rng flog sampling iter junk (command name stage queries N p) (Some file) (en p) (sr p) = Ok (Some r) /\
       ru_program r = Siblings (procs p)) /\
    par_always_finishes N procs bound parties (map (fun i => map row_of (asked cfg (en i) (queries i))) (seq 0 N)) looked /\
    read cfg (map (fun i => Z.to_nat (queries i)) (seq 0 N)) looked = map (fun i => asked cfg (en i) (queries i)) (seq 0 N).
Proof.
  intros rng flog sampling. destruct (several_servers_learned rng flog sampling) as (read & fakes & H). exists read.
  intros. edestruct H as (procs & bound & looked & X1 & X2 & X3 & X4); eauto. exists procs, bound, looked. auto.
Qed.
Print Assumptions C67_several_servers.

(** C68 The fake queries are the same in every run with the same configuration,
    in the sampling build too: how often the backend looks a row up, less a number
    that the configuration determines, is how often it was asked for. *)
Theorem C68_one_server : forall rng flog sampling, exists fakes : config -> Z -> nat,
  forall b iter junk file cfg name stage offline queries most en sr,
  started b rng flog sampling file cfg name stage offline true queries most en -> cg_servers_n cfg = 1 ->
  bytes 52 junk -> (forall p, smem_ok (sr_mem (sr p))) ->
  let parties := (Z.to_nat (cg_parties_n cfg) - 1)%nat in
  exists procs bound looked,
    (forall p, (p < parties + 2)%nat -> exists r,
       main_program b true rng flog sampling iter junk (command name stage queries 1 p) (Some file) (en p) (sr p) = Ok (Some r) /\
       ru_program r = Serial (procs p)) /\
    always_finishes procs bound parties (map row_of (asked cfg (en 0%nat) (queries 0%nat))) looked /\
    forall key, count_occ Z.eq_dec looked key = (count_occ Z.eq_dec (asked cfg (en 0%nat) (queries 0%nat)) key + fakes cfg key)%nat.
Proof.
  intros rng flog sampling. destruct (one_server_learned rng flog sampling) as (read & fakes & H). exists (fun cfg => count_occ Z.eq_dec (fakes cfg)).
  intros. edestruct H as (procs & bound & looked & X1 & X2 & X3 & _); eauto. exists procs, bound, looked. split; [exact X1|]. split; [exact X2|].
  intros key. rewrite (proj1 (Permutation_count_occ Z.eq_dec _ _) X3 key). apply count_occ_app.
Qed.
Print Assumptions C68_one_server.

Theorem C68_several_servers : forall rng flog sampling, exists fakes : config -> Z -> nat,
  forall b iter junk file cfg name stage offline queries most en sr,
  started b rng flog sampling file cfg name stage offline true queries most en -> 1 < cg_servers_n cfg ->
  bytes 52 junk -> (forall i l, Permutation (iter i l) l) ->
  let N := Z.to_nat (cg_servers_n cfg) in let parties := (Z.to_nat (cg_parties_n cfg) - 1)%nat in
  (forall p, smem_ok (sr_mem (sr p)) /\ Permutation (sr_acc (sr p)) (seq 0 (p mod N))) ->
  exists procs bound looked,
    (forall p, (p < (parties + 2) * N)%nat -> exists r,
       main_program b true rng flog sampling iter junk (command name stage queries N p) (Some file) (en p) (sr p) = Ok (Some r) /\
       ru_program r = Siblings (procs p)) /\
    par_always_finishes N procs bound parties (map (fun i => map row_of (asked cfg (en i) (queries i))) (seq 0 N)) looked /\
    forall key, count_occ Z.eq_dec (concat looked) key =
      (count_occ Z.eq_dec (flat_map (fun i => asked cfg (en i) (queries i)) (seq 0 N)) key + fakes cfg key)%nat.
Proof.
  intros rng flog sampling. destruct (several_servers_learned rng flog sampling) as (read & fakes & H). exists (fun cfg => count_occ Z.eq_dec (fakes cfg)).
  intros. edestruct H as (procs & bound & looked & X1 & X2 & X3 & _); eauto. exists procs, bound, looked. split; [exact X1|]. split; [exact X2|].
  intros key. rewrite (proj1 (Permutation_count_occ Z.eq_dec _ _) X3 key). apply count_occ_app.
Qed.
Print Assumptions C68_several_servers.

(** Deployments that meet the hypotheses; five queries through a party with seed 7
    that adds four, and three and two queries through two parties with two servers
    each, read off from what is looked up. *)
Example C67_example :
  started toy_box ex_rng ex_log false (bx_file 1) (bx_cfg 1) "config.txt" "all" true true (fun _ => 2) 14 (bx_entropy 1) /\ cg_servers_n (bx_cfg 1) = 1 /\
  started toy_box ex_rng ex_log false (bx_file 2) (bx_cfg 2) "config.txt" "all" true true (fun _ => 2) 14 (bx_entropy 2) /\ cg_servers_n (bx_cfg 2) = 2 /\
  let looked := [13; 12; 14; 3; 0; 2; 10; 11; 1] in
  read_off ex_rng [(7, 4%nat)] 5 looked = [10; 11; 12; 13; 14] /\
  par_read_off ex_rng 2 [[(5, 7, 2%nat); (5, 8, 1%nat)]; [(6, 9, 1%nat); (6, 10, 1%nat)]] [3; 2]%nat [[21; 0; 32; 1; 2]; [22; 23; 3; 4; 31]] = [[21; 22; 23]; [31; 32]].
Proof.
  split; [apply bx_started; [left; reflexivity|reflexivity]|]. split; [vm_compute; reflexivity|].
  split; [apply bx_started; [right; reflexivity|reflexivity]|]. split; [vm_compute; reflexivity|].
  split; vm_compute; reflexivity.
Qed.
