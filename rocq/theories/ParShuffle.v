(** Model of DPPIR/shuffle/parallel_shuffle.cc. *)
From Verif Require Import Base Shuffle.

(** shuffle/parallel_shuffle.h:39-54: fields of ParallelShuffler. *)
Record pshuffler := {
  ps_slice : nat;                  (* slice_size_ *)
  ps_forward : list nat;           (* forward_map_ *)
  ps_backward : list (list nat);   (* backward_map_ *)
  ps_forward_idx : nat;            (* forward_idx_ *)
  ps_backward_idx : list nat;      (* backward_idx_ *)
  ps_from : list nat;              (* from_count_ *)
  ps_prefix : list nat;            (* prefixsum_from_count_ *)
  ps_to : list nat;                (* to_count_ *)
  ps_to_noise : list nat           (* to_noise_count_ *)
}.

(** x[i]++ *)
Definition incr (l : list nat) (i : nat) : res (list nat) :=
  let* v := get l i in set_ l i (S v).

(** parallel_shuffle.cc:29-32: total_count += server_counts[id] (uint32_t). *)
Definition total_count (counts : list nat) (server_count : nat) : res Z :=
  for_ server_count 0 (fun id t => let* c := get counts id in Ok (w32 (t + Z.of_nat c))) 0.

(** parallel_shuffle.cc:35-39: slice size of a server. *)
Definition slice_size (total per server_id server_count : nat) : nat :=
  if (server_id =? server_count - 1)%nat then (total - (server_count - 1) * per)%nat else per.

(** parallel_shuffle.cc:63-73: assign each global position to a server. *)
Definition assign_map (total per server_count : nat) : res (list nat) :=
  for_ server_count 0 (fun sid m =>
    let start := (sid * per)%nat in
    let end_ := if (sid =? server_count - 1)%nat then total else (start + per)%nat in
    for_ (end_ - start) start (fun i m' => set_ m' i sid) m)
  (repeat O total).

(** parallel_shuffle.cc:84-87: while (idx - start_idx >= server_counts[source]).
    Running past the table is UB; the fuel is the size of the table. *)
Fixpoint advance (fuel : nat) (counts : list nat) (idx start source : nat) : res (nat * nat) :=
  let* c := get counts source in
  if (c <=? idx - start)%nat then
    match fuel with
    | O => NoFuel
    | S f => advance f counts idx (start + c) (S source)
    end
  else Ok (start, source).

(** State of the scan of parallel_shuffle.cc:81-101. *)
Record scan := {
  sc_start : nat; sc_source : nat;
  sc_from : list nat; sc_to : list nat; sc_to_noise : list nat; sc_forward : list nat
}.

(** parallel_shuffle.cc:83-101, one round of the scan. *)
Definition scan_step (server_id noise_count : nat) (counts map : list nat) (idx : nat) (s : scan) : res scan :=
  let* ss := advance (length counts) counts idx (sc_start s) (sc_source s) in
  let '(start, source) := ss in
  let* target := get map idx in
  let* from := (if (target =? server_id)%nat then incr (sc_from s) source else Ok (sc_from s)) in
  if (source =? server_id)%nat then
    let* tn := (if (idx - start <? noise_count)%nat then incr (sc_to_noise s) target else Ok (sc_to_noise s)) in
    let* t := incr (sc_to s) target in
    let* f := set_ (sc_forward s) (idx - start) target in
    Ok {| sc_start := start; sc_source := source; sc_from := from; sc_to := t;
          sc_to_noise := tn; sc_forward := f |}
  else
    Ok {| sc_start := start; sc_source := source; sc_from := from; sc_to := sc_to s;
          sc_to_noise := sc_to_noise s; sc_forward := sc_forward s |}.

(** parallel_shuffle.cc:103-114: allocate backward_map_ by to_count_, reset
    the counts, and fill the reverse mapping. *)
Definition fill_backward (server_count own : nat) (forward to : list nat) : res (list (list nat) * list nat) :=
  let* bw := map_res (fun sid => let* c := get to sid in Ok (repeat O c)) (seq 0 server_count) in
  for_ own 0 (fun i bt =>
    let '(b, t) := bt in
    let* target := get forward i in
    let* row := get b target in
    let* c := get t target in
    let* row' := set_ row c i in
    let* b' := set_ b target row' in
    let* t' := set_ t target (S c) in
    Ok (b', t')) (bw, repeat O server_count).

(** parallel_shuffle.cc:116-120: prefix sums of from_count_. *)
Definition prefix_sums (server_count : nat) (from : list nat) : res (list nat) :=
  for_ (server_count - 1) 0 (fun sid p =>
    let* a := get p sid in
    let* b := get from sid in
    set_ p (S sid) (a + b)%nat) (repeat O server_count).

(** parallel_shuffle.cc:24-121  ParallelShuffler::Initialize.  server_count = 0
    would divide by zero.  Only the total is wrapped; the other sums are bounded
    by it. *)
Definition ps_initialize (rng : rng_t) (server_id server_count : nat) (shared_seed : Z)
    (counts : list nat) (noise_count : nat) : res pshuffler :=
  let* tz := total_count counts server_count in
  let total := Z.to_nat tz in
  if (server_count =? 0)%nat then UB else
  let per := (total / server_count)%nat in
  let slice := slice_size total per server_id server_count in
  let* own := get counts server_id in
  let* ident := assign_map total per server_count in
  let* map := shuffle (rng shared_seed) ident total in
  let* s := for_ total 0 (scan_step server_id noise_count counts map)
      {| sc_start := 0; sc_source := 0; sc_from := repeat O server_count;
         sc_to := repeat O server_count; sc_to_noise := repeat O server_count;
         sc_forward := repeat O own |} in
  let* bt := fill_backward server_count own (sc_forward s) (sc_to s) in
  let* pre := prefix_sums server_count (sc_from s) in
  Ok {| ps_slice := slice; ps_forward := sc_forward s; ps_backward := fst bt;
        ps_forward_idx := 0; ps_backward_idx := repeat O server_count;
        ps_from := sc_from s; ps_prefix := pre; ps_to := snd bt; ps_to_noise := sc_to_noise s |}.

(** parallel_shuffle.cc:124-126  ShuffleOne *)
Definition ps_shuffle_one (s : pshuffler) : res (nat * pshuffler) :=
  let* t := get (ps_forward s) (ps_forward_idx s) in
  Ok (t, {| ps_slice := ps_slice s; ps_forward := ps_forward s; ps_backward := ps_backward s;
            ps_forward_idx := S (ps_forward_idx s); ps_backward_idx := ps_backward_idx s;
            ps_from := ps_from s; ps_prefix := ps_prefix s; ps_to := ps_to s;
            ps_to_noise := ps_to_noise s |}).
(** parallel_shuffle.cc:127-129  DeshuffleOne *)
Definition ps_deshuffle_one (s : pshuffler) (server : nat) : res (nat * pshuffler) :=
  let* row := get (ps_backward s) server in
  let* k := get (ps_backward_idx s) server in
  let* i := get row k in
  let* bi := set_ (ps_backward_idx s) server (S k) in
  Ok (i, {| ps_slice := ps_slice s; ps_forward := ps_forward s; ps_backward := ps_backward s;
            ps_forward_idx := ps_forward_idx s; ps_backward_idx := bi;
            ps_from := ps_from s; ps_prefix := ps_prefix s; ps_to := ps_to s;
            ps_to_noise := ps_to_noise s |}).

(** parallel_shuffle.cc:132-145: CountToServer, CountNoiseToServer,
    CountFromServer, PrefixSumCountFromServer *)
Definition ps_count_to (s : pshuffler) (server : nat) : res nat := get (ps_to s) server.
Definition ps_count_noise_to (s : pshuffler) (server : nat) : res nat := get (ps_to_noise s) server.
Definition ps_count_from (s : pshuffler) (server : nat) : res nat := get (ps_from s) server.
Definition ps_prefix_from (s : pshuffler) (server : nat) : res nat := get (ps_prefix s) server.

(** parallel_shuffle.cc:146-152  FindSourceOf: [n] rounds are left, id is next. *)
Fixpoint find_source (prefix : list nat) (server_count n id idx : nat) : res nat :=
  match n with
  | O => Ok (server_count - 1)%nat
  | S n' =>
      let* p := get prefix id in
      if (idx <? p)%nat then Ok (id - 1)%nat else find_source prefix server_count n' (S id) idx
  end.
Definition ps_find_source (s : pshuffler) (server_count idx : nat) : res nat :=
  find_source (ps_prefix s) server_count (server_count - 1) 1 idx.
