(** Vocabulary for the integrity of answers with several servers per party. *)
From Verif Require Import Base Incremental Wire Onion Shuffle State Database Handlers Party Chain ChainSpec PeerSpec Parallel ParChain.

(** The responses that reach the clients' side of this link, server by server,
    when those on the [j]-th link from here are [rss'].  Whoever is behind that
    link, and whatever they do, does not occur in this. *)
Fixpoint par_online_tampered (j : nat) (rss' : list (list (list Z))) (parties : list (list pready * schedule))
    (queries : list (list query)) : res (list (list (list Z))) :=
  match j, parties with
  | O, _ => Ok rss'
  | S _, [] => Abort (* no such link *)
  | S j', (rps, sc) :: rest =>
      let* f := par_forward rps queries (sc_queries sc) in
      let* rs := par_online_tampered j' rss' rest (snd f) in
      par_backward (fst f) rs (sc_responses sc)
  end.

(** What client [i] makes of it (client_online.cc:30-49). *)
Definition tampered_client (checks : bool) (db : list response) (sts : list cstate) (clients : list client)
    (rss : list (list (list Z))) (i : nat) : res (list response) :=
  let* st := get sts i in
  let* c := get clients i in
  let* rs := get rss i in
  client_responses checks db st (ct_keys c) rs.

(** What client [i] ends up with.  [checks]: whether the clients compare what
    they reconstruct with their own copy of the database, as they do when
    assertions are compiled in (client_online.cc:40-46). *)
Definition par_run_tampered (b : sealbox) (checks : bool) (rng : rng_t) (iter : iteration) (db : list response)
    (clients : list client) (parties : list (list sconf * schedule)) (bpk bsk : list Z) (border : nat -> list nat)
    (j : nat) (rss' : list (list (list Z))) (i : nat) : res (list response) :=
  let* cos := map_res (fun i =>
    let* c := get clients i in
    client_offline b true (Z.of_nat i) (S (length parties)) (ct_pkeys c) (ct_rand c) (length (ct_keys c)))
    (seq 0 (length clients)) in
  let* off := par_offline_chain b true rng iter parties bpk bsk border
                (map (fun c => Z.of_nat (length (ct_keys c))) clients) (map fst cos) in
  let '(_, states, _) := off in
  let* cqs := par_client_queries (map snd cos) clients in
  let* rss := par_online_tampered j rss' (combine states (map snd parties)) (map fst cqs) in
  tampered_client checks db (map snd cqs) clients rss i.

Definition par_run_simulated_tampered (checks : bool) (rng : rng_t) (db : list response)
    (clients : list client) (parties : list (list sconf * schedule))
    (j : nat) (rss' : list (list (list Z))) (i : nat) : res (list response) :=
  let* cos := map_res (fun c => client_simulate (S (length parties)) (length (ct_keys c))) clients in
  let* off := par_simulate_chain true rng parties (map (fun c => Z.of_nat (length (ct_keys c))) clients) in
  let '(_, states, _) := off in
  let* cqs := par_client_queries cos clients in
  let* rss := par_online_tampered j rss' (combine states (map snd parties)) (map fst cqs) in
  tampered_client checks db (map snd cqs) clients rss i.

(** The response at a place of a link: a server there and a position. *)
Definition at_place (rss : list (list (list Z))) (p : nat * nat) : list Z := nth (snd p) (nth (fst p) rss []) [].

(** [par_tampering tampered db queried rss place]: replacing the responses [rss]
    on a link changes the clients' answers in exactly this way.  [queried] has
    the keys of each client; [place i k] says where on that link the answer to
    client [i]'s [k]-th query travels. *)
Record par_tampering (tampered : bool -> list (list (list Z)) -> nat -> res (list response)) (db : list response)
    (queried : list (list Z)) (rss : list (list (list Z))) (place : nat -> nat -> nat * nat) : Prop := {
  pt_apart : forall i ks k i' ks' k', nth_error queried i = Some ks -> (k < length ks)%nat ->
    nth_error queried i' = Some ks' -> (k' < length ks')%nat -> place i k = place i' k' -> i = i' /\ k = k';
  pt_places : forall i ks k, nth_error queried i = Some ks -> (k < length ks)%nat ->
    exists rs, nth_error rss (fst (place i k)) = Some rs /\ (snd (place i k) < length rs)%nat;
  (* without the clients' check, every answer is off by exactly the difference
     at its place; all other places do not matter *)
  pt_unchecked : forall rss', map (@length _) rss' = map (@length _) rss -> Forall (Forall (bytes 52)) rss' ->
    forall i ks, nth_error queried i = Some ks ->
    exists result, tampered false rss' i = Ok result /\ length result = length ks /\
      forall k key row, nth_error ks k = Some key -> nth_error db (Z.to_nat key) = Some row ->
        exists r, nth_error result k = Some r /\
          enc_response r = masked (enc_response row) (masked (at_place rss (place i k)) (at_place rss' (place i k)));
  (* with it, a client has the right rows or aborts; what happens at the places
     of other clients does not matter to it *)
  pt_checked : forall rss', map (@length _) rss' = map (@length _) rss -> Forall (Forall (bytes 52)) rss' ->
    forall i ks, nth_error queried i = Some ks ->
    ((forall k, (k < length ks)%nat -> at_place rss' (place i k) = at_place rss (place i k)) ->
      exists result, tampered true rss' i = Ok result /\ map Some result = map (fun key => nth_error db (Z.to_nat key)) ks) /\
    ((exists k, (k < length ks)%nat /\ at_place rss' (place i k) <> at_place rss (place i k)) -> tampered true rss' i = Abort)
}.
