(** Theorems about whole runs with several servers per party. *)
From Verif Require Import Base BaseProofs Incremental Wire Onion Shuffle ParShuffle State Database Range Handlers Batch Party Chain Parallel ParChain
  Spec ChainSpec ParSpec ParChainSpec Toy ConfigProofs PropsShuffle ChainProofs PropsChain ParForwardProofs ParFacts ParTagProofs ParOnlineProofs ParChainProofs.

(** C47 With N servers per party, N clients and N servers of the backend, every
    client gets the rows it asked for, in order, whatever the random choices and
    in whatever order the messages of sibling servers are handled.  For every
    exchange between siblings there is an amount of traffic such that any order
    of handling it will do; such orders exist.  All of [par_facts] holds of the
    run.  Besides, the tags on every link are 0, ..., total - 1, each once, and
    as many ciphers as queries cross every link. *)
Theorem C47_run : forall b rng iter db junk N clients parties keys bpk bsk,
  par_deployment rng db N clients parties keys -> par_keyed b db N clients parties keys bpk bsk ->
  (forall i l, Permutation (iter i l) l) -> bytes 52 junk ->
  exists trs btr, length trs = length parties /\
  (exists scs border, Forall2 (fits N) trs scs /\ complete N btr border) /\
  forall scs border, Forall2 (fits N) trs scs -> complete N btr border ->
  exists o, par_run b true rng iter db junk clients (combine parties scs) bpk bsk border = Ok o /\
    par_facts db N clients parties o /\
    Forall (fun qss => Permutation (map q_tag (concat qss)) (map Z.of_nat (seq 0 (length (concat qss))))) (po_queries o) /\
    map (map (fun l => Z.of_nat (length l))) (po_ciphers o) = po_counts o.
Proof.
  intros b rng iter db junk N clients parties keys bpk bsk D K Hi J.
  destruct (par_run_spec b rng iter db junk N clients parties keys bpk bsk D K Hi J) as (trs & btr & L & H).
  exists trs, btr. split; [exact L|]. split.
  - destruct (fits_exist N trs) as (scs & Fs). destruct (complete_exists N btr) as (border & Hb). exists scs, border. split; assumption.
  - intros scs border Fs Hb. destruct (H scs border Fs Hb) as (o & E & F & T & C & _). exists o. auto.
Qed.
Print Assumptions C47_run.

(** The same without an offline stage: no keys, and any noise. *)
Theorem C47_run_simulated : forall rng db junk N clients parties keys,
  par_deployment rng db N clients parties keys -> bytes 52 junk ->
  exists trs, length trs = length parties /\
  (exists scs, Forall2 (fits_online N) trs scs) /\
  forall scs, Forall2 (fits_online N) trs scs ->
  exists o, par_run_simulated true rng db junk clients (combine parties scs) = Ok o /\ par_facts db N clients parties o.
Proof.
  intros rng db junk N clients parties keys D J.
  destruct (par_run_simulated_spec rng db junk N clients parties keys D J) as (trs & L & H).
  exists trs. split; [exact L|]. split; [|exact H].
  destruct (fits_exist N trs) as (scs & Fs). exists scs. eapply ConfigProofs.Forall2_impl; [|exact Fs]. intros tr sc (_ & _ & H3 & H4). split; assumption.
Qed.
Print Assumptions C47_run_simulated.

(** ** Example: two clients, two parties and a backend with two servers each *)
Definition px_conf (k s : nat) : sconf :=
  {| sf_conf := {| pf_party := k; pf_parties := 3; pf_server := Z.of_nat s; pf_servers := 2;
       pf_pkeys := map fst ex_keys; pf_pkey := nth k (map fst ex_keys) []; pf_skey := []; pf_seed := 5 + Z.of_nat (k + 2 * s); pf_db := 3;
       pf_rand := ex_rand (1 + Z.of_nat k); pf_samples := fun _ => 1 |}; sf_shared := 3 + Z.of_nat k |}.
Definition px_parties : list (list sconf) := [[px_conf 0 0; px_conf 0 1]; [px_conf 1 0; px_conf 1 1]].
Definition px_clients : list client :=
  [{| ct_pkeys := map fst ex_keys; ct_rand := ex_rand 0; ct_keys := [2; 0] |};
   {| ct_pkeys := map fst ex_keys; ct_rand := ex_rand 0; ct_keys := [1; 2] |}].
Definition px_iter : iteration := fun i m => if (i =? 0)%nat then rev m else m.

Lemma px_nth k confs : nth_error px_parties k = Some confs -> confs = [px_conf k 0; px_conf k 1] /\ (k < 2)%nat.
Proof. destruct k as [|[|[|k]]]; intros N; inversion N; split; auto; lia. Qed.
Lemma px_server k s sf : nth_error [px_conf k 0; px_conf k 1] s = Some sf -> sf = px_conf k s /\ (s < 2)%nat.
Proof. destruct s as [|[|[|s]]]; intros N; inversion N; split; auto; lia. Qed.
Lemma px_tiled : tiled 2 (length ex_db).
Proof. split; [lia|]. split; [cbn; lia|]. split; vm_compute; congruence. Qed.
Lemma px_deployment : par_deployment ex_rng ex_db 2 px_clients px_parties ex_keys.
Proof.
  split.
  - reflexivity.
  - cbn. lia.
  - reflexivity.
  - exact px_tiled.
  - intros k confs N. apply px_nth in N. destruct N as [-> Hk]. split; [reflexivity|]. exists (3 + Z.of_nat k).
    split; [intros i; apply ex_rng_range|]. intros s sf Nf. apply px_server in Nf. destruct Nf as [-> Hs].
    split; try reflexivity; cbn [px_conf sf_conf pf_seed pf_samples]; intros; [apply ex_rng_range|lia].
  - apply (dp_db _ _ _ _ _ ex_deployment).
  - cbn. repeat constructor; lia.
  - vm_compute. reflexivity.
Qed.
Lemma px_keyed : par_keyed toy_box ex_db 2 px_clients px_parties ex_keys [3] [].
Proof.
  split.
  - intros pk sk _. apply toy_box_ok.
  - reflexivity.
  - constructor; [|constructor; [|constructor]]; (split; [reflexivity|apply ex_good_rand; [lia|reflexivity]]).
  - exists 2%nat. repeat constructor.
  - intros k confs s sf N Nf. apply px_nth in N. destruct N as [-> Hk]. apply px_server in Nf. destruct Nf as [-> Hs].
    split; [reflexivity|]. split; [destruct k as [|[|k]]; [reflexivity|reflexivity|lia]|].
    cbn [pf_rand px_conf sf_conf]. apply ex_good_rand; [lia|]. change (length ex_keys) with 3%nat. lia.
  - intros k confs N. apply px_nth in N. destruct N as [-> Hk]. exists 1%nat. intros s sf i Nf _. apply px_server in Nf. destruct Nf as [-> _]. reflexivity.
Qed.

(** A run in two different orders of arrival. *)
Definition px_order (flip : bool) (a b c d : nat) : nat -> list nat := fun t =>
  let l := match t with O => repeat 0%nat a ++ repeat 1%nat b | _ => repeat 0%nat c ++ repeat 1%nat d end in
  if flip then rev l else l.
Definition px_schedules (flip : bool) : list schedule :=
  [{| sc_ciphers := px_order flip 1 2 3 1; sc_secrets := px_order flip 0 2 2 0;
      sc_queries := px_order (negb flip) 1 2 3 1; sc_responses := px_order flip 0 2 2 0 |};
   {| sc_ciphers := px_order flip 2 3 3 2; sc_secrets := px_order flip 0 4 3 0;
      sc_queries := px_order flip 2 3 3 2; sc_responses := px_order (negb flip) 1 2 2 2 |}].
Example C47_example : forall flip,
  (let* o := par_run toy_box true ex_rng px_iter ex_db (repeat 9 52) px_clients (combine px_parties (px_schedules flip)) [3] []
               (px_order flip 0 5 5 0) in
   Ok (po_counts o, map (map r_value) (po_results o), map (fun l => length (concat l)) (po_queries o), length (concat (po_keys o)))) =
  Ok ([[2; 2]; [3; 4]; [5; 5]], [[4; 0]; [2; 4]], [4; 7; 10]%nat, 10%nat).
Proof. intros []; vm_compute; reflexivity. Qed.
Example C47_example_simulated : forall flip,
  (let* o := par_run_simulated true ex_rng ex_db (repeat 9 52) px_clients (combine px_parties (px_schedules flip)) in
   Ok (po_counts o, map (map r_value) (po_results o))) =
  Ok ([[2; 2]; [3; 4]; [5; 5]], [[4; 0]; [2; 4]]).
Proof. intros []; vm_compute; reflexivity. Qed.
