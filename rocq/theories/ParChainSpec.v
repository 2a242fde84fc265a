(** Specification vocabulary for whole runs with several servers per entity. *)
From Verif Require Import Base Incremental Wire Onion Shuffle State Database Handlers Party Chain Parallel ParChain Spec ChainSpec ParSpec.

(** How many messages server t of a party handles from server s in its exchanges:
    ciphers and queries, secrets, responses. *)
Record traffic := { tr_forward : nat -> nat -> nat; tr_secrets : nat -> nat -> nat; tr_back : nat -> nat -> nat }.
(** Schedules in which exactly this traffic is handled, in any order. *)
Definition fits (N : nat) (tr : traffic) (sc : schedule) : Prop :=
  complete N (tr_forward tr) (sc_ciphers sc) /\ complete N (tr_secrets tr) (sc_secrets sc) /\
  complete N (tr_forward tr) (sc_queries sc) /\ complete N (tr_back tr) (sc_responses sc).
(** The same for runs without an offline stage. *)
Definition fits_online (N : nat) (tr : traffic) (sc : schedule) : Prop :=
  complete N (tr_forward tr) (sc_queries sc) /\ complete N (tr_back tr) (sc_responses sc).

(** All queries of the clients, and all fake queries of a party. *)
Definition client_keys (clients : list client) : list Z := flat_map ct_keys clients.
Definition party_noise_keys (N rows : nat) (confs : list sconf) : list Z :=
  flat_map (fun s => match nth_error confs s with Some sf => server_noise_keys N rows s (sf_conf sf) | None => [] end) (seq 0 N).

(** N clients, parties with N servers each, N servers of the backend. *)
Record par_deployment (rng : rng_t) (db : list response) (N : nat) (clients : list client)
    (parties : list (list sconf)) (keys : list (list Z * list Z)) : Prop := {
  pd_count : S (length parties) = length keys;
  pd_max : (length keys <= 255)%nat;
  pd_clients : length clients = N;
  pd_tiled : tiled N (length db);
  pd_parties : forall k confs, nth_error parties k = Some confs -> length confs = N /\
    exists shared, (forall i, 0 <= rng shared i <= 2 ^ 31 - 1) /\
      forall s sf, nth_error confs s = Some sf -> good_server rng (length keys) k (length db) N shared s sf;
  pd_db : Forall wf_response db;
  pd_queries : Forall (fun k => 0 <= k < Z.of_nat (length db)) (client_keys clients);
  pd_total : Z.of_nat (length (client_keys clients) +
    length (flat_map (party_noise_keys N (length db)) parties)) < 2 ^ 32
}.

(** What the offline stage needs besides: sealed boxes that open, the right keys
    and admissible randomness; and, for the tags to be unique, clients with
    equally many queries and the same number of fake queries for every key of a
    party (the default build; C40 and C41 show that tags collide otherwise). *)
Record par_keyed (b : sealbox) (db : list response) (N : nat) (clients : list client)
    (parties : list (list sconf)) (keys : list (list Z * list Z)) (bpk bsk : list Z) : Prop := {
  pk_box : forall pk sk, In (pk, sk) keys -> box_ok b pk sk;
  pk_backend : nth_error keys (length parties) = Some (bpk, bsk);
  pk_clients : Forall (fun c => ct_pkeys c = map fst keys /\
    good_rand (ct_rand c) (length (ct_keys c)) (length keys)) clients;
  pk_equal : exists n, Forall (fun c => length (ct_keys c) = n) clients;
  pk_parties : forall k confs s sf, nth_error parties k = Some confs -> nth_error confs s = Some sf ->
    pf_pkeys (sf_conf sf) = map fst keys /\
    nth_error keys k = Some (pf_pkey (sf_conf sf), pf_skey (sf_conf sf)) /\
    good_rand (pf_rand (sf_conf sf)) (server_noise N (length db) s (sf_conf sf)) (length keys - k - 1);
  pk_constant : forall k confs, nth_error parties k = Some confs ->
    exists c, forall s sf i, nth_error confs s = Some sf -> (i < key_count N (length db) s)%nat ->
      pf_samples (sf_conf sf) i = Z.of_nat c
}.

(** What holds of a run: every client gets the rows it asked for, in order; the
    backend's servers look up the clients' keys and the fake ones; every link
    carries as many queries and responses as announced, and link j all of the
    clients' and of the first j parties' queries, evenly shared by the servers. *)
Definition par_facts (db : list response) (N : nat) (clients : list client) (parties : list (list sconf))
    (o : par_outcome) : Prop :=
  po_results o = map (fun c => map (fun k => nth (Z.to_nat k) db db_zero) (ct_keys c)) clients /\
  Permutation (concat (po_keys o)) (client_keys clients ++ flat_map (party_noise_keys N (length db)) parties) /\
  length (po_counts o) = S (length parties) /\
  hd [] (po_counts o) = map (fun c => Z.of_nat (length (ct_keys c))) clients /\
  (forall j counts, nth_error (po_counts o) (S j) = Some counts ->
     let total := (length (client_keys clients) + length (flat_map (party_noise_keys N (length db)) (firstn (S j) parties)))%nat in
     counts = map (fun t => Z.of_nat (share_of total N t)) (seq 0 N)) /\
  map (map (fun l => Z.of_nat (length l))) (po_queries o) = po_counts o /\
  map (map (fun l => Z.of_nat (length l))) (po_responses o) = po_counts o.
