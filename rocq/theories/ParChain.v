(** The whole deployment with N servers per entity: N clients, party 0, ...,
    party n-2 with N servers each, and N servers of the backend.  Server i of an
    entity only talks to server i of the entities next to it and to its
    siblings.  As in Chain, the run is the composition of what the entities do;
    the schedules say in which order each server handles its siblings'
    messages. *)
From Verif Require Import Base Incremental Wire Onion Shuffle State Database Handlers Batch Party Chain Parallel.

(** The order in which the servers of one party handle the messages of their
    siblings, in each of the four exchanges (parallel_party_offline.cc:158, 170;
    parallel_party_online.cc:84, 98). *)
Record schedule := {
  sc_ciphers : nat -> list nat; sc_secrets : nat -> list nat;
  sc_queries : nat -> list nat; sc_responses : nat -> list nat
}.

Section ParChain.
  Context (b : sealbox) (asserts : bool) (rng : rng_t) (iter : iteration).

  (** Offline stage behind a link: [counts] announced and [ciphers] sent on it,
      per server.  Returns what crossed this and the later links, the states of
      the parties' servers and of the backend's. *)
  Fixpoint par_offline_chain (parties : list (list sconf * schedule)) (bpk bsk : list Z) (border : nat -> list nat)
      (counts : list Z) (ciphers : list (list (list Z)))
    : res (list (list Z * list (list (list Z))) * list (list pready) * list qstate) :=
    match parties with
    | [] =>
        let* ps := par_backend_offline b asserts bpk bsk iter counts ciphers border in
        Ok ([(counts, ciphers)], [], ps)
    | (confs, sc) :: rest =>
        let* o := par_offline b asserts rng iter confs counts ciphers (sc_ciphers sc) (sc_secrets sc) in
        let '(counts', ciphers', rps) := o in
        let* r := par_offline_chain rest bpk bsk border counts' ciphers' in
        let '(links, states, ps) := r in
        Ok ((counts, ciphers) :: links, rps :: states, ps)
    end.

  (** Simulated offline stage. *)
  Fixpoint par_simulate_chain (parties : list (list sconf * schedule)) (counts : list Z)
    : res (list (list Z) * list (list pready) * list qstate) :=
    match parties with
    | [] => Ok ([counts], [], map (fun _ => backend_simulate) counts)
    | (confs, _) :: rest =>
        let* o := par_simulate asserts rng confs counts in
        let* r := par_simulate_chain rest (fst o) in
        let '(links, states, ps) := r in
        Ok (counts :: links, snd o :: states, ps)
    end.
End ParChain.

(** backend/backend_online.cc:8-31 on all servers: per server the keys looked up
    and the responses. *)
Definition par_backend_online (db : list response) (junk : list Z) (bcounts : list Z) (ps : list qstate)
    (queries : list (list query)) : res (list (list Z) * list (list (list Z))) :=
  let* r := map_res (fun i =>
    let* n := get bcounts i in
    let* p := get ps i in
    let* q := get queries i in
    backend_online db junk n p q) (seq 0 (length bcounts)) in
  Ok (map fst r, map snd r).

(** Online stage behind a link on which [queries] are sent: per link the queries
    and the responses, the keys looked up by the backend's servers. *)
Fixpoint par_online_chain (parties : list (list pready * schedule)) (db : list response) (junk : list Z)
    (bcounts : list Z) (ps : list qstate) (queries : list (list query))
  : res (list (list (list query) * list (list (list Z))) * list (list Z)) :=
  match parties with
  | [] =>
      let* r := par_backend_online db junk bcounts ps queries in
      Ok ([(queries, snd r)], fst r)
  | (rps, sc) :: rest =>
      let* f := par_forward rps queries (sc_queries sc) in
      let* r := par_online_chain rest db junk bcounts ps (snd f) in
      let* resps := par_backward (fst f) (match fst r with (_, x) :: _ => x | [] => [] end) (sc_responses sc) in
      Ok ((queries, resps) :: fst r, snd r)
  end.

(** Everything observable in a run; inner lists are per server. *)
Record par_outcome := {
  po_counts : list (list Z);                    (* per link: announced counts *)
  po_ciphers : list (list (list (list Z)));     (* per link: ciphers sent *)
  po_queries : list (list (list query));        (* per link: queries sent *)
  po_responses : list (list (list (list Z)));   (* per link: responses sent back *)
  po_keys : list (list Z);                      (* keys looked up by the backend's servers *)
  po_results : list (list response)             (* what the clients end up with *)
}.

(** protocol/client/client_online.cc, on all clients. *)
Definition par_client_responses (asserts : bool) (db : list response) (sts : list cstate) (clients : list client)
    (sent : list (list (list Z))) : res (list (list response)) :=
  map_res (fun i =>
    let* st := get sts i in
    let* c := get clients i in
    let* s := get sent i in
    client_responses asserts db st (ct_keys c) s) (seq 0 (length clients)).
Definition par_client_queries (sts : list cstate) (clients : list client) : res (list (list query * cstate)) :=
  map_res (fun i => let* st := get sts i in let* c := get clients i in client_queries st (ct_keys c)) (seq 0 (length clients)).

(** Start(count, offline = true, online = true) at all entities; client i is
    connected to server i of party 0. *)
Definition par_run (b : sealbox) (asserts : bool) (rng : rng_t) (iter : iteration) (db : list response) (junk : list Z)
    (clients : list client) (parties : list (list sconf * schedule)) (bpk bsk : list Z) (border : nat -> list nat)
  : res par_outcome :=
  let* cos := map_res (fun i =>
    let* c := get clients i in
    client_offline b asserts (Z.of_nat i) (S (length parties)) (ct_pkeys c) (ct_rand c) (length (ct_keys c)))
    (seq 0 (length clients)) in
  let* off := par_offline_chain b asserts rng iter parties bpk bsk border
                (map (fun c => Z.of_nat (length (ct_keys c))) clients) (map fst cos) in
  let '(links, states, ps) := off in
  let* cqs := par_client_queries (map snd cos) clients in
  let* on := par_online_chain (combine states (map snd parties)) db junk (last (map fst links) []) ps (map fst cqs) in
  let* results := par_client_responses asserts db (map snd cqs) clients
                    (match fst on with (_, x) :: _ => x | [] => [] end) in
  Ok {| po_counts := map fst links; po_ciphers := map snd links;
        po_queries := map fst (fst on); po_responses := map snd (fst on);
        po_keys := snd on; po_results := results |}.

(** Start(count, offline = false, online = true) at all entities. *)
Definition par_run_simulated (asserts : bool) (rng : rng_t) (db : list response) (junk : list Z)
    (clients : list client) (parties : list (list sconf * schedule)) : res par_outcome :=
  let* cos := map_res (fun c => client_simulate (S (length parties)) (length (ct_keys c))) clients in
  let* off := par_simulate_chain asserts rng parties (map (fun c => Z.of_nat (length (ct_keys c))) clients) in
  let '(counts, states, ps) := off in
  let* cqs := par_client_queries cos clients in
  let* on := par_online_chain (combine states (map snd parties)) db junk (last counts []) ps (map fst cqs) in
  let* results := par_client_responses asserts db (map snd cqs) clients
                    (match fst on with (_, x) :: _ => x | [] => [] end) in
  Ok {| po_counts := counts; po_ciphers := [];
        po_queries := map fst (fst on); po_responses := map snd (fst on);
        po_keys := snd on; po_results := results |}.
