(** The whole deployment with one server per party: client, party 0, ...,
    party n-2, backend.  Every entity is deterministic and exchanges complete
    batches, so the run is the composition below; that the blocking exchanges
    always get this far is the subject of C53/C54 (Net). *)
From Verif Require Import Base Incremental Wire Onion Shuffle State Database Handlers Batch Party.

Section Chain.
  Context (b : sealbox) (asserts : bool) (rng : rng_t).

  (** Offline stage behind a link: [count] announced and [ciphers] sent on it.
      Returns what crossed this and the later links, the parties' states and
      the backend's. *)
  Fixpoint offline_chain (parties : list pconf) (bpk bsk : list Z) (count : Z) (ciphers : list (list Z))
    : res (list (Z * list (list Z)) * list ready * qstate) :=
    match parties with
    | [] =>
        let* p := backend_offline b asserts bpk bsk count ciphers in
        Ok ([(count, ciphers)], [], p)
    | cf :: rest =>
        let* o := party_offline b asserts rng cf count ciphers in
        let '(count', ciphers', rp) := o in
        let* r := offline_chain rest bpk bsk count' ciphers' in
        let '(links, states, p) := r in
        Ok ((count, ciphers) :: links, rp :: states, p)
    end.

  (** Simulated offline stage. *)
  Fixpoint simulate_chain (parties : list pconf) (count : Z) : res (list Z * list ready * qstate) :=
    match parties with
    | [] => Ok ([count], [], backend_simulate)
    | cf :: rest =>
        let* o := party_simulate asserts rng cf count in
        let* r := simulate_chain rest (fst o) in
        let '(links, states, p) := r in
        Ok (count :: links, snd o :: states, p)
    end.
End Chain.

(** Online stage behind a link on which [queries] are sent: per link the queries
    and the responses, the keys looked up by the backend. *)
Fixpoint online_chain (parties : list ready) (db : list response) (junk : list Z) (bcount : Z) (p : qstate)
    (queries : list query) : res (list (list query * list (list Z)) * list Z) :=
  match parties with
  | [] =>
      let* r := backend_online db junk bcount p queries in
      Ok ([(queries, snd r)], fst r)
  | rp :: rest =>
      let* f := party_forward rp queries in
      let* r := online_chain rest db junk bcount p (snd f) in
      let* resps := party_backward (fst f) (match fst r with (_, x) :: _ => x | [] => [] end) in
      Ok ((queries, resps) :: fst r, snd r)
  end.

(** Everything observable in a run. *)
Record outcome := {
  oc_counts : list Z;                    (* per link: announced count *)
  oc_ciphers : list (list (list Z));     (* per link: ciphers sent *)
  oc_queries : list (list query);        (* per link: queries sent *)
  oc_responses : list (list (list Z));   (* per link: responses sent back *)
  oc_keys : list Z;                      (* keys looked up by the backend *)
  oc_result : list response              (* what the client ends up with *)
}.

(** The client's configuration and choices. *)
Record client := { ct_pkeys : list (list Z); ct_rand : rand; ct_keys : list Z }.

(** Start(count, offline = true, online = true) at all entities. *)
Definition run (b : sealbox) (asserts : bool) (rng : rng_t) (db : list response) (junk : list Z)
    (c : client) (parties : list pconf) (bpk bsk : list Z) : res outcome :=
  let count := length (ct_keys c) in
  let* co := client_offline b asserts 0 (S (length parties)) (ct_pkeys c) (ct_rand c) count in
  let* off := offline_chain b asserts rng parties bpk bsk (Z.of_nat count) (fst co) in
  let '(links, states, p) := off in
  let* cq := client_queries (snd co) (ct_keys c) in
  let* on := online_chain states db junk (last (map fst links) 0) p (fst cq) in
  let* result := client_responses asserts db (snd cq) (ct_keys c)
                   (match fst on with (_, x) :: _ => x | [] => [] end) in
  Ok {| oc_counts := map fst links; oc_ciphers := map snd links;
        oc_queries := map fst (fst on); oc_responses := map snd (fst on);
        oc_keys := snd on; oc_result := result |}.

(** Start(count, offline = false, online = true) at all entities. *)
Definition run_simulated (asserts : bool) (rng : rng_t) (db : list response) (junk : list Z)
    (c : client) (parties : list pconf) : res outcome :=
  let count := length (ct_keys c) in
  let* co := client_simulate (S (length parties)) count in
  let* off := simulate_chain asserts rng parties (Z.of_nat count) in
  let '(counts, states, p) := off in
  let* cq := client_queries co (ct_keys c) in
  let* on := online_chain states db junk (last counts 0) p (fst cq) in
  let* result := client_responses asserts db (snd cq) (ct_keys c)
                   (match fst on with (_, x) :: _ => x | [] => [] end) in
  Ok {| oc_counts := counts; oc_ciphers := [];
        oc_queries := map fst (fst on); oc_responses := map snd (fst on);
        oc_keys := snd on; oc_result := result |}.
