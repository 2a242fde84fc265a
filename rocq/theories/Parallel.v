(** Model of the parties with several servers, DPPIR/protocol/parallel_party, and
    of the broadcast between the servers of the backend.

    A function below runs one phase on all servers of a party: element i of
    every list belongs to server i.  The servers run concurrently, but they only
    interact by the messages that are exchanged in each phase, so a phase is
    determined by what every server has sent and by the order in which each
    server happens to handle what it receives.  That order is the argument
    [order] (one list of sources per server), about which nothing is assumed but
    that it is complete; C49 shows that every execution of the sending and
    polling loop handles every message exactly once, in an order of this kind,
    and C50 that the loop ends. *)
From Verif Require Import Base Incremental Wire Additive Onion Shuffle ParShuffle Sizes State Database CipherBatch Range
  Handlers Batch Party.

(** ** Configuration and counts *)

(** parallel_party.h:47-121: what the constructor takes from the configuration;
    [pf_seed] is the local seed, [sf_shared] the seed shared by the siblings. *)
Record sconf := { sf_conf : pconf; sf_shared : Z }.

(** parallel_party_initialization.cc:62-63 *)
Definition par_check (asserts : bool) (cf : pconf) : res unit :=
  if asserts then
    let* _ := assert_ ((2 <=? pf_parties cf)%nat && (pf_party cf <? pf_parties cf - 1)%nat) in
    assert_ ((1 <? pf_servers cf) && (pf_server cf <? pf_servers cf))
  else Ok tt.

(** A sum of uint32_t. *)
Definition sum32 (l : list Z) : Z := fold_left (fun t c => w32 (t + c)) l 0.

(** parallel_party_initialization.cc:128-132: shuffled_count_ of a server. *)
Definition par_shuffled (total servers server : Z) : Z :=
  let per := total / servers in
  if server =? servers - 1 then w32 (total - w32 (per * server)) else per.

(** What a server knows after InitializeNoiseSamples and InitializeCounts. *)
Record counted := {
  co_start : Z; co_end : Z; co_samples : batch Z; co_noise : Z;   (* noise domain, noise_, noise_count_ *)
  co_input : Z;                                                   (* input_count_ *)
  co_at : list Z;                                                 (* at_sibling_counts_ *)
  co_total : Z; co_shuffled : Z                                   (* total_batch_size_, shuffled_count_ *)
}.

(** parallel_party_initialization.cc:84-138  InitializeNoiseSamples and
    InitializeCounts, with the counts exchanged between the siblings; also the
    constructor's checks. *)
Definition par_counts (asserts : bool) (confs : list sconf) (inputs : list Z) : res (list counted) :=
  let* smps := map_res (fun cf =>
    let* _ := par_check asserts (sf_conf cf) in noise_samples asserts (sf_conf cf)) confs in
  let* at_ := map_res (fun i =>
    let* s := get smps i in let* n := get inputs i in Ok (w32 (snd s + n))) (seq 0 (length confs)) in
  map_res (fun i =>
    let* cf := get confs i in
    let* s := get smps i in
    let* n := get inputs i in
    let '(start_, end_, samples, noise) := s in
    let total := sum32 at_ in
    Ok {| co_start := start_; co_end := end_; co_samples := samples; co_noise := noise; co_input := n;
          co_at := at_; co_total := total;
          co_shuffled := par_shuffled total (pf_servers (sf_conf cf)) (pf_server (sf_conf cf)) |})
    (seq 0 (length confs)).

(** ** Shufflers *)
Record shufs := {
  sh_ps : pshuffler; sh_ls : lshuffler;
  sh_noise : list nat;    (* noise_from_sibling_counts_ *)
  sh_noisep : list nat    (* noise_from_sibling_prefixsum_: including the server itself *)
}.

(** parallel_party_initialization.cc:150-168: the running sum. *)
Fixpoint running (t : nat) (l : list nat) : list nat :=
  match l with [] => [] | x :: r => (t + x)%nat :: running (t + x) r end.

(** parallel_party_initialization.cc:141-171  InitializeShufflers, on all servers. *)
Definition par_shufflers (asserts : bool) (rng : rng_t) (confs : list sconf) (cts : list counted) : res (list shufs) :=
  let* pss := map_res (fun i =>
    let* cf := get confs i in
    let* ct := get cts i in
    let* p := ps_initialize rng (Z.to_nat (pf_server (sf_conf cf))) (Z.to_nat (pf_servers (sf_conf cf))) (sf_shared cf)
                (map Z.to_nat (co_at ct)) (Z.to_nat (co_noise ct)) in
    let* _ := (if asserts then assert_ (co_shuffled ct =? Z.of_nat (ps_slice p)) else Ok tt) in
    Ok p) (seq 0 (length confs)) in
  map_res (fun i =>
    let* cf := get confs i in
    let* ct := get cts i in
    let* p := get pss i in
    let* from := map_res (fun q => ps_count_noise_to q i) pss in
    let* ls := ls_initialize rng (pf_seed (sf_conf cf)) (Z.to_nat (co_shuffled ct)) in
    Ok {| sh_ps := p; sh_ls := ls; sh_noise := from; sh_noisep := running 0 from |}) (seq 0 (length confs)).

(** ** Exchanging messages with the siblings *)

(** The messages that a server sends to [t], in order. *)
Definition outgoing {A} (t : nat) (sends : list (nat * A)) : list A :=
  map snd (filter (fun e => (fst e =? t)%nat) sends).

(** Handling messages from several queues in the given order of sources; gets
    stuck if the order asks for a message that does not come, or leaves one. *)
Fixpoint merge {A} (order : list nat) (boxes : list (list A)) : res (list (nat * A)) :=
  match order with
  | [] => if forallb (fun b => match b with [] => true | _ => false end) boxes then Ok [] else NoFuel
  | s :: rest =>
      match nth_error boxes s with
      | Some (x :: b) => let* r := merge rest (upd boxes s b) in Ok ((s, x) :: r)
      | _ => NoFuel
      end
  end.

(** parallel_party_util.inc:6-112  SendAndPoll at server [self], as one step:
    the messages handled, own ones included.  [wants] is servers_read_count,
    [total_read] read_count; the loop ends when read_count reaches 0, and
    reads at most [wants] messages from each sibling. *)
Definition send_and_poll {A} (self : nat) (wants : list nat) (total_read : Z) (sends : list (list (nat * A)))
    (order : list nat) : res (list (nat * A)) :=
  let* boxes := map_res (fun s =>
    let* snt := get sends s in
    let msgs := outgoing self snt in
    if (s =? self)%nat then Ok msgs else let* w := get wants s in recv w msgs) (seq 0 (length sends)) in
  let others := list_sum (map (fun s => if (s =? self)%nat then 0%nat else length (nth s boxes [])) (seq 0 (length boxes))) in
  if total_read =? Z.of_nat others then merge order boxes else NoFuel.

(** parallel_party_shuffle.cc:63-70, 117-124: the target of every message of the
    batch, own ones included. *)
Fixpoint route {A} (p : pshuffler) (items : list A) : res (list (nat * A)) :=
  match items with
  | [] => Ok []
  | x :: rest =>
      let* r := ps_shuffle_one p in
      let* l := route (snd r) rest in
      Ok ((fst r, x) :: l)
  end.

(** parallel_party_shuffle.cc:47-56, 101-110: from_counts and total_read. *)
Definition shuffle_counts (sh : shufs) (servers self : nat) (shuffled : Z) : res (list nat * Z) :=
  let* c := map_res (ps_count_from (sh_ps sh)) (seq 0 servers) in
  let* own := get c self in
  Ok (c, w32 (shuffled - Z.of_nat own)).

(** parallel_party_shuffle.cc:8-24  FromSibling for ciphers and queries: [store]
    writes the message at the shuffled position. *)
Definition from_sibling {A B} (store : B -> nat -> A -> res B) (sh : shufs) (s : list nat * B) (m : nat * A)
  : res (list nat * B) :=
  let* start := ps_prefix_from (sh_ps sh) (fst m) in
  let* n := get (fst s) (fst m) in
  let* received := set_ (fst s) (fst m) (S n) in
  let* target := ls_shuffle (sh_ls sh) (start + n) in
  let* out := store (snd s) target (snd m) in
  Ok (received, out).

(** parallel_party_shuffle.cc:40-92 and 94-146  ShuffleCiphers, ShuffleQueries:
    [ins i] is the batch of server i, [empty i] the allocated result. *)
Definition par_shuffle {A B} (store : B -> nat -> A -> res B) (shs : list shufs) (shuffled : list Z)
    (ins : list (list A)) (empty : list B) (order : nat -> list nat) : res (list B) :=
  let N := length shs in
  let* sends := map_res (fun i => let* sh := get shs i in let* l := get ins i in route (sh_ps sh) l) (seq 0 N) in
  map_res (fun i =>
    let* sh := get shs i in
    let* n := get shuffled i in
    let* e := get empty i in
    let* c := shuffle_counts sh N i n in
    let* log := send_and_poll i (fst c) (snd c) sends (order i) in
    let* r := fold_res (from_sibling store sh) log (repeat 0%nat N, e) in
    Ok (snd r)) (seq 0 N).

(** ** Online stage *)

(** What a server of the party holds between the stages. *)
Record pready := {
  pr_noise : Z; pr_input : Z; pr_shuffled : Z;
  pr_state : qstate; pr_sh : shufs; pr_tags : batch Z; pr_queries : batch query
}.

(** parallel_party_online.cc:16-31  CollectQueries *)
Definition collect_queries (rp : pready) (sent : list query) : res pready :=
  let* ins := recv (length (bt_data (pr_queries rp)) - Z.to_nat (pr_noise rp)) sent in
  let* r := fold_res (fun s q =>
    let '(read, p, tags, qs) := s in
    let* tags' := bt_push tags (q_tag q) in
    let* h := handle_query p q in
    let* qs' := bt_set qs read (fst h) in
    Ok (S read, snd h, tags', qs')) ins (Z.to_nat (pr_noise rp), pr_state rp, pr_tags rp, pr_queries rp) in
  let '(_, p, tags, qs) := r in
  Ok {| pr_noise := pr_noise rp; pr_input := pr_input rp; pr_shuffled := pr_shuffled rp; pr_state := p;
        pr_sh := pr_sh rp; pr_tags := tags; pr_queries := qs |}.

(** parallel_party_online.cc:79-107 (first half): CollectQueries, ShuffleQueries,
    SendQueries on all servers: the queries sent to the next party. *)
Definition par_forward (rps : list pready) (sent : list (list query)) (order : nat -> list nat)
  : res (list pready * list (list query)) :=
  let N := length rps in
  let* rps' := map_res (fun i => let* rp := get rps i in let* s := get sent i in collect_queries rp s) (seq 0 N) in
  let* out := par_shuffle bt_set (map pr_sh rps') (map pr_shuffled rps') (map (fun rp => bt_all (pr_queries rp)) rps')
                (map (fun rp => bt_initialize zero_query (Z.to_nat (pr_shuffled rp))) rps') order in
  Ok (rps', map bt_all out).

(** parallel_party_online.cc:42-67  CollectResponses: in_responses_. *)
Definition collect_responses (N : nat) (rp : pready) (sent : list (list Z)) : res (batch (list Z)) :=
  let sh := pr_sh rp in
  let* noise := get (sh_noisep sh) (N - 1) in
  let non_noise := w32 (pr_shuffled rp - Z.of_nat noise) in
  let* ins := recv (Z.to_nat (pr_shuffled rp)) sent in
  let* r := fold_res (fun s resp =>
    let '(read, out) := s in
    let* target := ls_deshuffle (sh_ls sh) read in
    let* source := ps_find_source (sh_ps sh) N target in
    let* start := ps_prefix_from (sh_ps sh) source in
    let* n := get (sh_noise sh) source in
    if (start + n <=? target)%nat then
      let* np := get (sh_noisep sh) source in
      let* out' := bt_set out (target - np) resp in
      Ok (S read, out')
    else Ok (S read, out)) ins (0%nat, bt_initialize zero_response (Z.to_nat non_noise)) in
  Ok (snd r).

(** parallel_party_shuffle.cc:172-173 and 182-183: target_end for a target. *)
Definition target_end (sh : shufs) (target : nat) : res Z :=
  let* p := ps_prefix_from (sh_ps sh) (target + 1) in
  let* n := get (sh_noisep sh) target in
  Ok (w32 (Z.of_nat p - Z.of_nat n)).

(** parallel_party_shuffle.cc:179-185: advance target until index < target_end or
    the last server is reached; [fuel] bounds the number of servers left. *)
Fixpoint seek (sh : shufs) (N fuel : nat) (index : Z) (target : nat) (end_ : Z) : res (nat * Z) :=
  if (end_ <=? index) && (target <? N - 1)%nat then
    match fuel with
    | O => NoFuel
    | S f =>
        let target := S target in
        let* e := (if (target <? N - 1)%nat then target_end sh target else Ok end_) in
        seek sh N f index target e
    end
  else Ok (target, end_).

(** parallel_party_shuffle.cc:178-192: the target of every response. *)
Fixpoint route_back (sh : shufs) (N : nat) (index : Z) (target : nat) (end_ : Z) (items : list (list Z))
  : res (list (nat * list Z)) :=
  match items with
  | [] => Ok []
  | x :: rest =>
      let* t := seek sh N N index target end_ in
      let* l := route_back sh N (w32 (index + 1)) (fst t) (snd t) rest in
      Ok ((fst t, x) :: l)
  end.

(** parallel_party_shuffle.cc:155-165: from_counts and total_read. *)
Definition deshuffle_counts (rp : pready) (N self : nat) : res (list nat * Z) :=
  let* c := map_res (fun id =>
    let* t := ps_count_to (sh_ps (pr_sh rp)) id in
    let* n := ps_count_noise_to (sh_ps (pr_sh rp)) id in
    Ok (Z.to_nat (w32 (Z.of_nat t - Z.of_nat n)))) (seq 0 N) in
  let* own := get c self in
  Ok (c, w32 (pr_input rp - Z.of_nat own)).

(** parallel_party_shuffle.cc:30-33: the first index of the backward map that is
    not noise; the map has an end, so [fuel] is its length. *)
Fixpoint skip_noise (fuel : nat) (p : pshuffler) (source : nat) (noise : Z) : res (nat * pshuffler) :=
  let* r := ps_deshuffle_one p source in
  if Z.of_nat (fst r) <? noise then
    match fuel with O => NoFuel | S f => skip_noise f (snd r) source noise end
  else Ok r.

(** parallel_party_shuffle.cc:26-38  FromSibling for responses. *)
Definition response_from (rp : pready) (s : pshuffler * batch (list Z)) (m : nat * list Z)
  : res (pshuffler * batch (list Z)) :=
  let* row := get (ps_backward (fst s)) (fst m) in
  let* r := skip_noise (length row) (fst s) (fst m) (pr_noise rp) in
  let idx := (fst r - Z.to_nat (pr_noise rp))%nat in
  let* tag := bt_get (pr_tags rp) idx in
  let* old := bt_get (snd s) idx in
  let* v := handle_response (pr_state rp) tag (snd m) old in
  let* out := bt_set (snd s) idx v in
  Ok (snd r, out).

(** parallel_party_online.cc:79-107 (second half): CollectResponses,
    DeshuffleResponses, SendResponses on all servers: the responses returned. *)
Definition par_backward (rps : list pready) (sent : list (list (list Z))) (order : nat -> list nat)
  : res (list (list (list Z))) :=
  let N := length rps in
  let* sends := map_res (fun i =>
    let* rp := get rps i in
    let* s := get sent i in
    let* ins := collect_responses N rp s in
    let* e := target_end (pr_sh rp) 0 in
    route_back (pr_sh rp) N 0 0 e (bt_all ins)) (seq 0 N) in
  map_res (fun i =>
    let* rp := get rps i in
    let* c := deshuffle_counts rp N i in
    let* log := send_and_poll i (fst c) (snd c) sends (order i) in
    let* r := fold_res (response_from rp) log
                (sh_ps (pr_sh rp), bt_initialize zero_response (Z.to_nat (pr_input rp))) in
    Ok (bt_all (snd r))) (seq 0 N).

(** ** Secrets *)

(** The order in which a server iterates over its unordered_map. *)
Definition iteration := nat -> list (Z * stored) -> list (Z * stored).

(** parallel_party_offline.cc:98-136 and backend/backend_offline.cc:23-60
    BroadcastSecrets on all servers: [pack] makes the message for an entry,
    [store] installs a received secret. *)
Definition broadcast_secrets (pack : Z * stored -> osecret) (store : qstate -> osecret -> res qstate)
    (iter : iteration) (states : list qstate) (order : nat -> list nat) : res (list qstate) :=
  let N := length states in
  let* sends := map_res (fun i =>
    let* p := get states i in
    Ok (flat_map (fun e => map (fun t => (t, pack e)) (filter (fun t => negb (t =? i)%nat) (seq 0 N)))
          (iter i (qs_map p)))) (seq 0 N) in
  let counts := map (fun p => Z.to_nat (w32 (Z.of_nat (length (qs_map p))))) states in
  map_res (fun i =>
    let* p := get states i in
    let total := sum32 (map (fun s => if (s =? i)%nat then 0 else Z.of_nat (nth s counts 0%nat)) (seq 0 N)) in
    let* log := send_and_poll i counts total sends (order i) in
    fold_res (fun p m => store p (snd m)) log p) (seq 0 N).

(** parallel_party_offline.cc:117-119 *)
Definition party_pack (e : Z * stored) : osecret :=
  {| o_tag := fst e; o_next := st_next (snd e); o_share := st_share (snd e); o_preshare := st_pre (snd e) |}.
(** backend/backend_offline.cc:45-46 *)
Definition backend_pack (e : Z * stored) : osecret :=
  {| o_tag := fst e; o_next := 0; o_share := st_share (snd e); o_preshare := st_pre (snd e) |}.

(** ** Offline stage *)

(** parallel_party_handlers.cc:13-24  SampleTag.  NOISE_OFFSET is computed from
    fields that no longer change; it is an int64_t, and so is the sum, which
    becomes a uint64_t. *)
Definition par_sample_tag (ct : counted) (db_size id : Z) : res Z :=
  let range := w32 (co_end ct - co_start ct) in
  if range =? 0 then UB else
  let per_row := co_noise ct / range in
  let total_noise := w32 (per_row * db_size) in
  let offset := w32 (total_noise - w32 (co_start ct * per_row)) in
  Ok (w64 (co_total ct - offset + id)).

(** parallel_party_offline.cc:29-53  CreateNoiseCiphers (and
    parallel_party_handlers.cc:28-55  MakeNoiseSecret). *)
Definition par_noise_ciphers (b : sealbox) (asserts : bool) (cf : pconf) (ct : counted) (ns : cstate)
  : res (cbatch * cstate) :=
  let r := pf_rand cf in
  let c0 := cb_initialize (party_out_size (pf_parties cf) (pf_party cf)) (party_in_size (pf_parties cf) (pf_party cf))
              (Z.to_nat (co_noise ct)) (Z.to_nat (co_input ct)) in
  for_ (Z.to_nat (co_noise ct)) 0 (fun i s =>
    let* tag := par_sample_tag ct (pf_db cf) (Z.of_nat i) in
    let* m := make_noise_secret tag (remaining_parties cf) r (snd s) i in
    let* c := onion_encrypt b asserts (rn_coins r i) (rn_junk1 r i) (rn_junk2 r i)
                (fst m) (pf_party cf + 1) (pf_parties cf) (pf_pkeys cf) in
    let* cb := cb_push_short (fst s) c in
    Ok (cb, snd m)) (c0, ns).

(** types/containers.h:327-330  SetShort *)
Definition cb_set_short (c : cbatch) (idx : nat) (v : list Z) : res cbatch :=
  let* b := rd v 0 (cb_short c) in
  let* m := wr (cb_mem c) (idx * cb_short c) b in
  Ok {| cb_mem := m; cb_last_short := cb_last_short c; cb_first_long := cb_first_long c;
        cb_last_long := cb_last_long c; cb_end := cb_end c; cb_short := cb_short c; cb_long := cb_long c |}.
(** types/containers.h:333-342  iterating over a batch: from the start up to
    last_short, or up to first_long if nothing was pushed.  An end that is not a
    multiple of the size would be missed. *)
Definition cb_all (c : cbatch) : res (list (list Z)) :=
  let e := if (cb_last_short c =? 0)%nat then cb_first_long c else cb_last_short c in
  if (cb_short c =? 0)%nat then UB else
  if (e mod cb_short c =? 0)%nat then map_res (cb_get_short c) (seq 0 (e / cb_short c)) else UB.

(** parallel_party_initialization.cc:174-186  InitializeNoiseQueries *)
Definition par_noise_queries (start_ end_ : Z) (noise : batch Z) (ns : cstate) (queries : batch query)
  : res (batch query) :=
  let* r := for_ (Z.to_nat (end_ - start_)) 0 (fun j s =>
    let '(idx, ns, qs) := s in
    let key := start_ + Z.of_nat j in
    let* sample := bt_get noise j in
    let stop := w32 (idx + sample) in
    let* t := for_ (Z.to_nat (stop - idx)) (Z.to_nat idx) (fun i s' =>
      let* q := make_query (fst s') key in
      let* qs' := bt_set (snd s') i (fst q) in
      Ok (snd q, qs')) (ns, qs) in
    Ok (Z.max idx stop, fst t, snd t)) (0, ns, queries) in
  Ok (snd r).

(** parallel_party_offline.cc:183-192, 233-241: storage and noise queries of the
    online stage. *)
Definition par_ready (confs : list sconf) (cts : list counted) (shs : list shufs) (nss : list cstate) (states : list qstate)
  : res (list pready) :=
  map_res (fun i =>
    let* ct := get cts i in
    let* sh := get shs i in
    let* ns := get nss i in
    let* st := get states i in
    let* qs := par_noise_queries (co_start ct) (co_end ct) (co_samples ct) ns
                 (bt_initialize zero_query (Z.to_nat (w32 (co_input ct + co_noise ct)))) in
    Ok {| pr_noise := co_noise ct; pr_input := co_input ct; pr_shuffled := co_shuffled ct; pr_state := st;
          pr_sh := sh; pr_tags := bt_initialize 0 (Z.to_nat (co_input ct)); pr_queries := qs |})
    (seq 0 (length confs)).

(** parallel_party_offline.cc:215-251  SimulateOffline on all servers: the counts
    announced to the next party and the servers' states. *)
Definition par_simulate (asserts : bool) (rng : rng_t) (confs : list sconf) (inputs : list Z)
  : res (list Z * list pready) :=
  let* cts := par_counts asserts confs inputs in
  let* shs := par_shufflers asserts rng confs cts in
  let* nss := map_res (fun i =>
    let* cf := get confs i in
    let* ct := get cts i in
    cs_initialize cs_new (remaining_parties (sf_conf cf)) (co_noise ct) true true) (seq 0 (length confs)) in
  let* rps := par_ready confs cts shs nss (map (fun _ => qs_initialize_state qs_new true) confs) in
  Ok (map co_shuffled cts, rps).

(** parallel_party_offline.cc:138-212  StartOffline on all servers, given the
    counts announced and the ciphers sent by the previous party's servers: the
    announced counts, the ciphers sent on, the servers' states. *)
Definition par_offline (b : sealbox) (asserts : bool) (rng : rng_t) (iter : iteration) (confs : list sconf)
    (inputs : list Z) (sent : list (list (list Z))) (order_c order_s : nat -> list nat)
  : res (list Z * list (list (list Z)) * list pready) :=
  let N := length confs in
  let* cts := par_counts asserts confs inputs in
  let* made := map_res (fun i =>
    let* cf := get confs i in
    let* ct := get cts i in
    let* ns := cs_initialize cs_new (remaining_parties (sf_conf cf)) (co_noise ct) true false in
    par_noise_ciphers b asserts (sf_conf cf) ct ns) (seq 0 N) in
  let* got := map_res (fun i =>
    let* ct := get cts i in
    let* m := get made i in
    let* s := get sent i in
    collect_ciphers (co_input ct) s (fst m)) (seq 0 N) in
  let* shs1 := par_shufflers asserts rng confs cts in
  let* ins := map_res (fun i =>
    let* cf := get confs i in
    let* ct := get cts i in
    let* cb := get got i in
    install_secrets b asserts (sf_conf cf) (co_input ct) cb (qs_initialize_state qs_new false)) (seq 0 N) in
  let* ciphers := map_res (fun x => cb_all (fst x)) ins in
  let* empty := map_res (fun i =>
    let* cf := get confs i in
    let* ct := get cts i in
    Ok (cb_initialize (party_out_size (pf_parties (sf_conf cf)) (pf_party (sf_conf cf)))
          (party_in_size (pf_parties (sf_conf cf)) (pf_party (sf_conf cf))) (Z.to_nat (co_shuffled ct)) 0)) (seq 0 N) in
  let* outb := par_shuffle cb_set_short shs1 (map co_shuffled cts) ciphers empty order_c in
  let* out := map_res cb_all outb in
  let* states := broadcast_secrets party_pack (qs_store asserts) iter (map snd ins) order_s in
  let* shs := par_shufflers asserts rng confs cts in
  let* rps := par_ready confs cts shs (map snd made) states in
  Ok (map co_shuffled cts, out, rps).

(** ** Backend *)

(** backend/backend_offline.cc:62-78  StartOffline on all servers. *)
Definition par_backend_offline (b : sealbox) (asserts : bool) (pk sk : list Z) (iter : iteration) (counts : list Z)
    (sent : list (list (list Z))) (order_s : nat -> list nat) : res (list qstate) :=
  let N := length counts in
  let* states := map_res (fun i =>
    let* n := get counts i in let* s := get sent i in backend_offline b asserts pk sk n s) (seq 0 N) in
  if (1 <? N)%nat then broadcast_secrets backend_pack (bs_store asserts) iter states order_s else Ok states.
