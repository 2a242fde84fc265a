(** Vocabulary for the integrity of answers: a run in which what comes back on
    one link is not what it should be. *)
From Verif Require Import Base Incremental Wire Onion Shuffle State Database Handlers Batch Party Chain ChainSpec PeerSpec.

(** The responses that reach the client's side of this link when those on the
    [j]-th link from here are [rs'].  Whoever is behind that link, and whatever
    they do, does not occur in this. *)
Fixpoint online_tampered (j : nat) (rs' : list (list Z)) (parties : list ready) (queries : list query) : res (list (list Z)) :=
  match j, parties with
  | O, _ => Ok rs'
  | S _, [] => Abort (* no such link *)
  | S j', rp :: rest =>
      let* f := party_forward rp queries in
      let* rs := online_tampered j' rs' rest (snd f) in
      party_backward (fst f) rs
  end.

(** What the client ends up with.  [checks]: whether it compares what it
    reconstructs with its own copy of the database, as it does when assertions
    are compiled in (client_online.cc:40-46). *)
Definition run_tampered (b : sealbox) (checks : bool) (rng : rng_t) (db : list response)
    (c : client) (parties : list pconf) (bpk bsk : list Z) (j : nat) (rs' : list (list Z)) : res (list response) :=
  let count := length (ct_keys c) in
  let* co := client_offline b true 0 (S (length parties)) (ct_pkeys c) (ct_rand c) count in
  let* off := offline_chain b true rng parties bpk bsk (Z.of_nat count) (fst co) in
  let '(_, states, _) := off in
  let* cq := client_queries (snd co) (ct_keys c) in
  let* rs := online_tampered j rs' states (fst cq) in
  client_responses checks db (snd cq) (ct_keys c) rs.

Definition run_simulated_tampered (checks : bool) (rng : rng_t) (db : list response)
    (c : client) (parties : list pconf) (j : nat) (rs' : list (list Z)) : res (list response) :=
  let count := length (ct_keys c) in
  let* co := client_simulate (S (length parties)) count in
  let* off := simulate_chain true rng parties (Z.of_nat count) in
  let '(_, states, _) := off in
  let* cq := client_queries co (ct_keys c) in
  let* rs := online_tampered j rs' states (fst cq) in
  client_responses checks db (snd cq) (ct_keys c) rs.

(** The [p]-th of some responses. *)
Definition at_ (rs : list (list Z)) (p : nat) : list Z := nth p rs [].

(** [tampering tampered db queried rs pos]: replacing the responses [rs] on a
    link changes the answers in exactly this way.  [pos] says where on that link
    the answer to each of the client's queries travels. *)
Record tampering (tampered : bool -> list (list Z) -> res (list response)) (db : list response)
    (queried : list Z) (rs : list (list Z)) (pos : list nat) : Prop := {
  tm_count : length pos = length queried;
  tm_apart : NoDup pos;
  tm_places : Forall (fun p => (p < length rs)%nat) pos;
  (* without the client's check, every answer is off by exactly the difference
     at its place; all other places do not matter *)
  tm_unchecked : forall rs', length rs' = length rs -> Forall (bytes 52) rs' ->
    exists result, tampered false rs' = Ok result /\ length result = length queried /\
      forall i k p row, nth_error queried i = Some k -> nth_error pos i = Some p -> nth_error db (Z.to_nat k) = Some row ->
        exists r, nth_error result i = Some r /\
          enc_response r = masked (enc_response row) (masked (at_ rs p) (at_ rs' p));
  (* with it, the client has the right rows or aborts *)
  tm_checked : forall rs', length rs' = length rs -> Forall (bytes 52) rs' ->
    (Forall (fun p => at_ rs' p = at_ rs p) pos ->
      exists result, tampered true rs' = Ok result /\ map Some result = map (fun k => nth_error db (Z.to_nat k)) queried) /\
    (~ Forall (fun p => at_ rs' p = at_ rs p) pos -> tampered true rs' = Abort)
}.
