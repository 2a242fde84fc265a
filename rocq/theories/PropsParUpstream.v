(** What the parties before an honest one learn, with several servers per entity. *)
From Verif Require Import Base BaseProofs Incremental Wire Onion Shuffle ParShuffle State Database Handlers Batch Party Chain Parallel ParChain Spec
  ChainSpec ParSpec ParChainSpec Toy OnlineProofs ChainProofs PropsShuffle PropsChain ParForwardProofs ParFacts ParTagProofs ParOnlineProofs ParChainProofs PropsParChain
  UpstreamSpec ParUpstreamSpec ParUpstream.

(** C71 With several servers per entity: take an honest entity (party number [h], or
    the backend if [h] is the number of parties) and other queries [queries] of every
    client, as many as before.  With the same choices of everybody else, the clients
    together have exactly one choice of what they give to the honest entity for which
    the run with the other queries looks the same to all servers of all parties before
    it, however the servers' messages to each other are scheduled.  In it a client whose
    queries stay the same makes the choices it made; so other clients may side with those
    parties. *)
Theorem C71_upstream_servers_learn_nothing : forall b rng iter db junk N clients parties keys bpk bsk h queries,
  par_deployment rng db N clients parties keys -> par_keyed b db N clients parties keys bpk bsk ->
  (forall i l, Permutation (iter i l) l) -> bytes 52 junk -> (h <= length parties)%nat ->
  Forall2 (fun c ks => length ks = length (ct_keys c) /\ Forall (fun k => 0 <= k < Z.of_nat (length db)) ks) clients queries ->
  exists trs btr clients', (exists scs border, Forall2 (fits N) trs scs /\ complete N btr border) /\
  Forall2 (differs h (length keys)) clients clients' /\ map ct_keys clients' = queries /\
  Forall2 (fun c c' => ct_keys c' = ct_keys c -> same_at h (length (ct_keys c)) (ct_rand c) (ct_rand c')) clients clients' /\
  forall scs border, Forall2 (fits N) trs scs -> complete N btr border ->
  let run_with cs := par_run b true rng iter db junk cs (combine parties scs) bpk bsk border in
  exists o, run_with clients = Ok o /\
    (exists o', run_with clients' = Ok o' /\ par_seen b keys h o' = par_seen b keys h o) /\
    forall clients'' o'', Forall2 (differs h (length keys)) clients clients'' -> map ct_keys clients'' = queries ->
      run_with clients'' = Ok o'' -> par_seen b keys h o'' = par_seen b keys h o ->
      Forall2 (fun c' c'' => same_at h (length (ct_keys c')) (ct_rand c') (ct_rand c'')) clients' clients''.
Proof.
  intros b rng iter db junk N clients parties keys bpk bsk h queries D K Hi J Hh Q.
  destruct (par_upstream b rng iter db junk N clients parties keys bpk bsk h queries D K Hi J Hh Q) as (trs & btr & clients' & _ & H).
  exists trs, btr, clients'. split; [|exact H].
  destruct (fits_exist N trs) as (scs & Fs). destruct (complete_exists N btr) as (border & Hb). exists scs, border. split; assumption.
Qed.
Print Assumptions C71_upstream_servers_learn_nothing.

(** Two clients, two parties with two servers each; party 1 is honest.  With other keys
    and all the same choices the views do differ. *)
Definition px_other (queries : list (list Z)) : list client :=
  map (fun p => {| ct_pkeys := ct_pkeys (fst p); ct_rand := ct_rand (fst p); ct_keys := snd p |}) (combine px_clients queries).
Example C71_example_servers :
  let run_with scs border cs := par_run toy_box true ex_rng px_iter ex_db (repeat 9 52) cs (combine px_parties scs) [3] [] border in
  (exists scs border clients', Forall2 (differs 1 3) px_clients clients' /\ map ct_keys clients' = [[1; 1]; [0; 2]] /\
     exists o o', run_with scs border px_clients = Ok o /\ run_with scs border clients' = Ok o' /\ par_seen toy_box ex_keys 1 o' = par_seen toy_box ex_keys 1 o) /\
  (let go := run_with (px_schedules true) (px_order true 0 5 5 0) in
   let* o := go px_clients in let* o' := go (px_other [[1; 1]; [0; 2]]) in
   Ok (map (map (map q_tally)) (pv_queries (par_seen toy_box ex_keys 1 o)), map (map (map q_tally)) (pv_queries (par_seen toy_box ex_keys 1 o')))) =
  Ok ([[[226891873; 881972865]; [362174821; 4749930]];
       [[94998677; 933891918; 362174821]; [459588201; 1828629975; 226891873; 29023782]]],
      [[[362174821; 1517103221]; [497457769; 4749930]];
       [[94998677; 933891918; 497457769]; [277293439; 1828629975; 362174821; 29023782]]]).
Proof.
  cbv zeta. split.
  - destruct (C71_upstream_servers_learn_nothing toy_box ex_rng px_iter ex_db (repeat 9 52) 2 px_clients px_parties ex_keys [3] [] 1 [[1; 1]; [0; 2]]
      px_deployment px_keyed) as (trs & btr & clients' & (scs & border & Fs & Hb) & Df & Ek & _ & H).
    + intros i l. unfold px_iter. destruct (i =? 0)%nat; [apply Permutation_sym, Permutation_rev|apply Permutation_refl].
    + split; [reflexivity|]. apply Forall_repeat. unfold byte. lia.
    + cbn. lia.
    + repeat constructor; cbn; lia.
    + exists scs, border, clients'. split; [exact Df|]. split; [exact Ek|].
      destruct (H scs border Fs Hb) as (o & E & (o' & E' & V) & _). exists o, o'. auto.
  - vm_compute. reflexivity.
Qed.
