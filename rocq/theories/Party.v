(** Model of the client, the single-server party and the backend:
    DPPIR/protocol/{client,party,backend}.  Functions work on whole messages;
    that messages survive the sockets unchanged is the stream model (C32-C34). *)
From Verif Require Import Base Incremental Wire Additive Onion Shuffle Sizes State Database CipherBatch Range Handlers Batch.

(** Receiving [n] messages of those sent by the peer; with too few the read loop
    never ends (C35), surplus messages stay unread. *)
Definition recv {A} (n : nat) (sent : list A) : res (list A) :=
  if (length sent <? n)%nat then NoFuel else Ok (firstn n sent).

(** ** Client *)

(** client/client_offline.cc:10-37  StartOffline: the ciphers sent and the state. *)
Definition client_offline (b : sealbox) (asserts : bool) (server_id : Z) (party_count : nat)
    (pkeys : list (list Z)) (r : rand) (count : nat) : res (list (list Z) * cstate) :=
  let* st := cs_initialize cs_new party_count (Z.of_nat count) false false in
  for_ count 0 (fun i s =>
    let* m := client_make_secret server_id (Z.of_nat count) party_count r (snd s) i in
    let* c := onion_encrypt b asserts (rn_coins r i) (rn_junk1 r i) (rn_junk2 r i) (fst m) 0 party_count pkeys in
    Ok (fst s ++ [c], snd m)) ([], st).

(** client/client_offline.cc:39-46  SimulateOffline *)
Definition client_simulate (party_count count : nat) : res cstate :=
  cs_initialize cs_new party_count (Z.of_nat count) false true.

(** client/client_online.cc:20-28: the queries sent, for the keys drawn by
    RandomRow, and the state after FinishSharing. *)
Definition client_queries (st : cstate) (keys : list Z) : res (list query * cstate) :=
  let* r := fold_res (fun s key =>
    let* q := make_query (snd s) key in
    Ok (fst s ++ [fst q], snd q)) keys ([], st) in
  Ok (fst r, cs_finish (snd r)).

(** client/client_online.cc:32-49: reconstruct every response in place and
    compare it with the expected row. *)
Definition client_responses (asserts : bool) (db : list response) (st : cstate) (keys : list Z)
    (sent : list (list Z)) : res (list response) :=
  let* resps := recv (length keys) sent in
  let* r := fold_res (fun s kr =>
    let* m := client_reconstruct (snd s) (snd kr) in
    let response := dec_response (fst m) in
    let* expected := db_lookup db (fst kr) in
    let* eq := response_eqb response expected in
    let* _ := (if asserts then assert_ eq else Ok tt) in
    Ok (fst s ++ [response], snd m)) (combine keys resps) ([], st) in
  Ok (fst r).

(** ** Party with one server *)

(** party/party.h:41-76 and party_initialization.cc:12-60: what the constructor
    takes from the configuration, plus the process's random choices
    ([pf_samples i] is the i-th result of distribution_.Sample()). *)
Record pconf := {
  pf_party : nat; pf_parties : nat; pf_server : Z; pf_servers : Z;
  pf_pkeys : list (list Z); pf_pkey : list Z; pf_skey : list Z;
  pf_seed : Z; pf_db : Z; pf_rand : rand; pf_samples : nat -> Z
}.

(** party/party_initialization.cc:49-50 *)
Definition party_check (asserts : bool) (cf : pconf) : res unit :=
  if asserts then
    let* _ := assert_ ((2 <=? pf_parties cf)%nat && (pf_party cf <? pf_parties cf - 1)%nat) in
    assert_ (pf_servers cf =? 1)
  else Ok tt.

(** party/party_initialization.cc:62-77  InitializeNoiseSamples: start, end,
    noise_, noise_count_ (uint32_t sum). *)
Definition noise_samples (asserts : bool) (cf : pconf) : res (Z * Z * batch Z * Z) :=
  let* se := find_range asserts (pf_server cf) (pf_servers cf) (pf_db cf) in
  let size := Z.to_nat (w32 (snd se - fst se)) in
  let* r := for_ size 0 (fun i s =>
    let sample := pf_samples cf i in
    let* n := bt_push (fst s) sample in
    Ok (n, w32 (snd s + sample))) (bt_initialize 0 size, 0) in
  Ok (fst se, snd se, fst r, snd r).

(** party/party_initialization.cc:79-85  InitializeCounts: shuffled_count_, which
    is also the count announced to the next party. *)
Definition shuffled_count (input noise : Z) : Z := w32 (input + noise).

(** party/party_handlers.cc:11-14  SampleTag (uint32_t sum, widened) *)
Definition party_sample_tag (input id : Z) : Z := w32 (input + id).

(** party/party_handlers.cc:19 *)
Definition remaining_parties (cf : pconf) : nat :=
  as_party_id (Z.of_nat (pf_parties cf) - Z.of_nat (pf_party cf) - 1).

(** party/party_offline.cc:29-48  CreateNoiseCiphers *)
Definition create_noise_ciphers (b : sealbox) (asserts : bool) (cf : pconf) (input noise : Z) (ns : cstate)
  : res (cbatch * cstate) :=
  let r := pf_rand cf in
  let c0 := cb_initialize (party_out_size (pf_parties cf) (pf_party cf)) (party_in_size (pf_parties cf) (pf_party cf))
              (Z.to_nat noise) (Z.to_nat input) in
  for_ (Z.to_nat noise) 0 (fun i s =>
    let* m := make_noise_secret (party_sample_tag input (Z.of_nat i)) (remaining_parties cf) r (snd s) i in
    let* c := onion_encrypt b asserts (rn_coins r i) (rn_junk1 r i) (rn_junk2 r i)
                (fst m) (pf_party cf + 1) (pf_parties cf) (pf_pkeys cf) in
    let* cb := cb_push_short (fst s) c in
    Ok (cb, snd m)) (c0, ns).

(** party/party_offline.cc:13-27  CollectCiphers *)
Definition collect_ciphers (input : Z) (sent : list (list Z)) (cb : cbatch) : res cbatch :=
  let* cs := recv (Z.to_nat input) sent in
  fold_res cb_push_long cs cb.

(** party/party_offline.cc:55-82  InstallSecrets *)
Definition install_one (b : sealbox) (asserts : bool) (cf : pconf) (p : qstate) (mem : list Z)
  : res (qstate * list Z) :=
  let* layer := onion_decrypt b asserts mem (as_party_id (Z.of_nat (pf_parties cf) - Z.of_nat (pf_party cf)))
                  (pf_pkey cf) (pf_skey cf) in
  let* p' := qs_store asserts p (fst layer) in
  Ok (p', snd layer).
Definition install_secrets (b : sealbox) (asserts : bool) (cf : pconf) (input : Z) (cb : cbatch) (p : qstate)
  : res (cbatch * qstate) :=
  cb_process (install_one b asserts cf) (Z.to_nat input) cb p.

(** party/party_offline.cc:84-110  SendCiphers *)
Definition send_ciphers (ls : lshuffler) (shuffled : Z) (cb : cbatch) : res (list (list Z)) :=
  map_res (fun i => let* idx := ls_shuffle ls i in cb_get_short cb idx) (seq 0 (Z.to_nat shuffled)).

(** party/party_initialization.cc:97-111  InitializeNoiseQueries *)
Definition noise_queries (start_ end_ : Z) (noise : batch Z) (ls : lshuffler) (ns : cstate) (queries : batch query)
  : res (batch query) :=
  let* r := for_ (Z.to_nat (end_ - start_)) 0 (fun j s =>
    let '(idx, ns, qs) := s in
    let key := start_ + Z.of_nat j in
    let* sample := bt_get noise j in
    let stop := w32 (idx + sample) in
    let* t := for_ (Z.to_nat (stop - idx)) (Z.to_nat idx) (fun i s' =>
      let* target := ls_shuffle ls i in
      let* q := make_query (fst s') key in
      let* qs' := bt_set (snd s') target (fst q) in
      Ok (snd q, qs')) (ns, qs) in
    Ok (Z.max idx stop, fst t, snd t)) (0, ns, queries) in
  Ok (snd r).

Definition zero_query : query := {| q_tag := 0; q_tally := 0 |}.
Definition zero_response : list Z := repeat 0 52.

(** What a party holds between the stages. *)
Record ready := {
  rp_noise : Z; rp_input : Z; rp_shuffled : Z;
  rp_state : qstate; rp_shuffler : lshuffler; rp_tags : batch Z; rp_queries : batch query
}.

(** party/party_offline.cc:112-177  StartOffline, given the announced input count
    and the ciphers sent by the predecessor: the announced output count, the
    ciphers sent on, and the party's state. *)
Definition party_offline (b : sealbox) (asserts : bool) (rng : rng_t) (cf : pconf) (input : Z) (sent : list (list Z))
  : res (Z * list (list Z) * ready) :=
  let* _ := party_check asserts cf in
  let* smp := noise_samples asserts cf in
  let '(start_, end_, noise, noise_count) := smp in
  let shuffled := shuffled_count input noise_count in
  let qs := qs_initialize_state qs_new false in
  let* ns := cs_initialize cs_new (remaining_parties cf) noise_count true false in
  let* cn := create_noise_ciphers b asserts cf input noise_count ns in
  let* cb := collect_ciphers input sent (fst cn) in
  let* ls1 := ls_initialize rng (pf_seed cf) (Z.to_nat shuffled) in
  let* ins := install_secrets b asserts cf input cb qs in
  let* out := send_ciphers ls1 shuffled (fst ins) in
  let* ls := ls_initialize rng (pf_seed cf) (Z.to_nat shuffled) in
  let* queries := noise_queries start_ end_ noise ls (snd cn) (bt_initialize zero_query (Z.to_nat shuffled)) in
  Ok (shuffled, out,
      {| rp_noise := noise_count; rp_input := input; rp_shuffled := shuffled; rp_state := snd ins;
         rp_shuffler := ls; rp_tags := bt_initialize 0 (Z.to_nat input); rp_queries := queries |}).

(** party/party_offline.cc:179-211  SimulateOffline *)
Definition party_simulate (asserts : bool) (rng : rng_t) (cf : pconf) (input : Z) : res (Z * ready) :=
  let* _ := party_check asserts cf in
  let* smp := noise_samples asserts cf in
  let '(start_, end_, noise, noise_count) := smp in
  let shuffled := shuffled_count input noise_count in
  let* ls := ls_initialize rng (pf_seed cf) (Z.to_nat shuffled) in
  let qs := qs_initialize_state qs_new true in
  let* ns := cs_initialize cs_new (remaining_parties cf) noise_count true true in
  let* queries := noise_queries start_ end_ noise ls ns (bt_initialize zero_query (Z.to_nat shuffled)) in
  Ok (shuffled,
      {| rp_noise := noise_count; rp_input := input; rp_shuffled := shuffled; rp_state := qs;
         rp_shuffler := ls; rp_tags := bt_initialize 0 (Z.to_nat input); rp_queries := queries |}).

(** party/party_online.cc:14-31  CollectQueries and 34-45 SendQueries: the
    queries sent on. *)
Definition party_forward (rp : ready) (sent : list query) : res (ready * list query) :=
  let* ins := recv (Z.to_nat (rp_shuffled rp - rp_noise rp)) sent in
  let* r := fold_res (fun s q =>
    let '(read, p, tags, qs) := s in
    let* tags' := bt_push tags (q_tag q) in
    let* target := ls_shuffle (rp_shuffler rp) read in
    let* h := handle_query p q in
    let* qs' := bt_set qs target (fst h) in
    Ok (S read, snd h, tags', qs')) ins (Z.to_nat (rp_noise rp), rp_state rp, rp_tags rp, rp_queries rp) in
  let '(_, p, tags, qs) := r in
  Ok ({| rp_noise := rp_noise rp; rp_input := rp_input rp; rp_shuffled := rp_shuffled rp; rp_state := p;
         rp_shuffler := rp_shuffler rp; rp_tags := tags; rp_queries := bt_initialize zero_query 0 |}, bt_all qs).

(** party/party_online.cc:49-76  CollectResponses and 79-88 SendResponses: the
    responses sent back. *)
Definition party_backward (rp : ready) (sent : list (list Z)) : res (list (list Z)) :=
  let* ins := recv (Z.to_nat (rp_shuffled rp)) sent in
  let* r := fold_res (fun s resp =>
    let '(read, out) := s in
    let* target := ls_deshuffle (rp_shuffler rp) read in
    if (Z.of_nat target <? rp_noise rp) then Ok (S read, out)
    else
      let target_index := (target - Z.to_nat (rp_noise rp))%nat in
      let* old := bt_get out target_index in
      let* tag := bt_get (rp_tags rp) target_index in
      let* v := handle_response (rp_state rp) tag resp old in
      let* out' := bt_set out target_index v in
      Ok (S read, out')) ins (0%nat, bt_initialize zero_response (Z.to_nat (rp_input rp))) in
  Ok (bt_all (snd r)).

(** ** Backend with one server *)

(** backend/backend_offline.cc:62-78  StartOffline with server_count = 1 *)
Definition backend_offline (b : sealbox) (asserts : bool) (pk sk : list Z) (count : Z) (sent : list (list Z))
  : res qstate :=
  let* cs := recv (Z.to_nat count) sent in
  fold_res (backend_handle_cipher b asserts pk sk) cs (qs_initialize_state qs_new false).

(** backend/backend_offline.cc:80-89  SimulateOffline *)
Definition backend_simulate : qstate := qs_initialize_state qs_new true.

(** backend/backend_online.cc:8-31: the keys looked up and the responses sent. *)
Definition backend_online (db : list response) (junk : list Z) (count : Z) (p : qstate) (sent : list query)
  : res (list Z * list (list Z)) :=
  let* qs := recv (Z.to_nat count) sent in
  let* bt := fold_res bt_push qs (bt_initialize zero_query (Z.to_nat count)) in
  let* r := fold_res (fun s q =>
    let '(keys, resps, p) := s in
    let* h := backend_handle_query db junk p q in
    let '(key, resp, p') := h in
    Ok (keys ++ [key], resps ++ [resp], p')) (bt_all bt) ([], [], p) in
  let '(keys, resps, _) := r in
  Ok (keys, resps).
