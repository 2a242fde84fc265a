(** Specification vocabulary for parties with several servers. *)
From Verif Require Import Base Wire Incremental Shuffle State Handlers Party Chain Spec ChainSpec Parallel.

(** The keys for which server s of N makes fake queries: from [first_key] up to
    [end_key], excluded. *)
Definition keys_per_server (N rows : nat) : Z := (Z.of_nat rows + Z.of_nat N - 1) / Z.of_nat N.
Definition first_key (N rows s : nat) : Z := Z.of_nat s * keys_per_server N rows.
Definition end_key (N rows s : nat) : Z :=
  if (s =? N - 1)%nat then Z.of_nat rows else Z.of_nat (S s) * keys_per_server N rows.
Definition key_count (N rows s : nat) : nat := Z.to_nat (end_key N rows s - first_key N rows s).

(** The ranges tile the database (C21 shows when they do). *)
Definition tiled (N rows : nat) : Prop :=
  (2 <= N <= 255)%nat /\ (N <= rows)%nat /\ Z.of_nat rows <= 2 ^ 31 - 1 /\
  Z.of_nat (N - 1) * keys_per_server N rows <= Z.of_nat rows.

(** The fake keys and their number, for server s. *)
Definition server_noise_keys (N rows s : nat) (cf : pconf) : list Z :=
  map (Z.add (first_key N rows s)) (noise_keys (key_count N rows s) cf).
Definition server_noise (N rows s : nat) (cf : pconf) : nat := noise_total (key_count N rows s) cf.

(** Server s of party k that agrees with the other servers. *)
Record good_server (rng : rng_t) (parties k rows N : nat) (shared : Z) (s : nat) (sf : sconf) : Prop := {
  gs_party : pf_party (sf_conf sf) = k;
  gs_parties : pf_parties (sf_conf sf) = parties;
  gs_server : pf_server (sf_conf sf) = Z.of_nat s;
  gs_servers : pf_servers (sf_conf sf) = Z.of_nat N;
  gs_db : pf_db (sf_conf sf) = Z.of_nat rows;
  gs_shared : sf_shared sf = shared;
  gs_rng : forall i, 0 <= rng (pf_seed (sf_conf sf)) i <= 2 ^ 31 - 1;
  gs_samples : forall i, (i < key_count N rows s)%nat -> 0 <= pf_samples (sf_conf sf) i < 2 ^ 32
}.
(** A party with N servers, receiving [inputs] queries. *)
Record good_siblings (rng : rng_t) (parties k rows N : nat) (confs : list sconf) (inputs : list nat) : Prop := {
  gb_parties : (k + 1 < parties <= 255)%nat;
  gb_length : length confs = N;
  gb_inputs : length inputs = N;
  gb_tiled : tiled N rows;
  gb_servers : exists shared, (forall i, 0 <= rng shared i <= 2 ^ 31 - 1) /\
    forall s sf, nth_error confs s = Some sf -> good_server rng parties k rows N shared s sf
}.
(** Fake queries of each server, and messages of each server and in total. *)
Definition noise_counts (N rows : nat) (confs : list sconf) : list nat :=
  map (fun s => match nth_error confs s with Some sf => server_noise N rows s (sf_conf sf) | None => 0%nat end) (seq 0 N).
Definition batch_counts (N rows : nat) (confs : list sconf) (inputs : list nat) : list nat :=
  map (fun s => nth s (noise_counts N rows confs) 0 + nth s inputs 0)%nat (seq 0 N).
(** The number of messages that server t passes on: an equal share, the last one
    takes the rest. *)
Definition share_of (total N t : nat) : nat :=
  if (t =? N - 1)%nat then (total - (N - 1) * (total / N))%nat else (total / N)%nat.

(** An order of handling messages in which every server t handles exactly
    [traffic t s] messages of each server s. *)
Definition complete (N : nat) (traffic : nat -> nat -> nat) (order : nat -> list nat) : Prop :=
  forall t, (t < N)%nat -> (forall s, In s (order t) -> (s < N)%nat) /\
    forall s, (s < N)%nat -> count_occ Nat.eq_dec (order t) s = traffic t s.

(** What a server does to a query and to a response, given the secrets it holds. *)
Definition handles (p : qstate) (q h : query) : Prop := exists p', handle_query p q = Ok (h, p').
Definition unmasks (p : qstate) (tag : Z) (mask : list Z) : Prop := qs_preshare p tag = Ok mask /\ bytes 52 mask.
Definition xored (a b : list Z) : list Z := map (fun p => Z.lxor (fst p) (snd p)) (combine a b).
