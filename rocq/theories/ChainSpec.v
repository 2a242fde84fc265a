(** Specification vocabulary for whole runs of the protocol. *)
From Verif Require Import Base Incremental Wire Onion Shuffle State Handlers Party Chain Spec.

(** What a process's random choices may be when it makes [count] secrets for
    [recipients] recipients each. *)
Definition good_rand (r : rand) (count recipients : nat) : Prop :=
  forall i, (i < count)%nat ->
    valid_draws (rn_x r i) (rn_y r i) recipients /\
    length (rn_masks r i) = recipients /\ Forall (bytes 52) (rn_masks r i).

(** The fake keys a party adds: every key of the database as often as its
    noise sample says. *)
Definition noise_keys (rows : nat) (cf : pconf) : list Z :=
  flat_map (fun k => repeat (Z.of_nat k) (Z.to_nat (pf_samples cf k))) (seq 0 rows).
(** The number of fake queries a party adds. *)
Definition noise_total (rows : nat) (cf : pconf) : nat :=
  list_sum (map (fun k => Z.to_nat (pf_samples cf k)) (seq 0 rows)).

(** A party of a single-server deployment that agrees with the others: its
    position, the public keys, the database size; rand() delivers 31 bits and
    samples are 32-bit. *)
Record good_party (rng : rng_t) (keys : list (list Z * list Z)) (rows k : nat) (cf : pconf) : Prop := {
  gp_party : pf_party cf = k;
  gp_parties : pf_parties cf = length keys;
  gp_server : pf_server cf = 0;
  gp_servers : pf_servers cf = 1;
  gp_db : pf_db cf = Z.of_nat rows;
  gp_rng : forall i, 0 <= rng (pf_seed cf) i <= 2 ^ 31 - 1;
  gp_samples : forall i, (i < rows)%nat -> 0 <= pf_samples cf i < 2 ^ 32
}.
Record good_party_keys (keys : list (list Z * list Z)) (rows k : nat) (cf : pconf) : Prop := {
  gp_pkeys : pf_pkeys cf = map fst keys;
  gp_keys : nth_error keys k = Some (pf_pkey cf, pf_skey cf);
  gp_rand : good_rand (pf_rand cf) (noise_total rows cf) (length keys - k - 1)
}.

(** A deployment: client, parties 0 .. n-2 and the backend, with key pairs
    [keys] (only their number matters for the simulated stage).  At most 255
    parties (uint8_t), keys and row numbers below the prime, totals below 2^32. *)
Record deployment (rng : rng_t) (db : list response) (c : client) (parties : list pconf)
    (keys : list (list Z * list Z)) : Prop := {
  dp_count : S (length parties) = length keys;
  dp_max : (length keys <= 255)%nat;
  dp_parties : forall k cf, nth_error parties k = Some cf -> good_party rng keys (length db) k cf;
  dp_rows : (1 <= length db)%nat /\ Z.of_nat (length db) <= 2 ^ 31 - 1;
  dp_db : Forall wf_response db;
  dp_queries : Forall (fun k => 0 <= k < Z.of_nat (length db)) (ct_keys c);
  dp_total : Z.of_nat (length (ct_keys c) + list_sum (map (noise_total (length db)) parties)) < 2 ^ 32
}.

(** ... which also runs the offline stage: sealed boxes open for every key
    pair, everyone has the right keys and admissible randomness. *)
Record keyed (b : sealbox) (db : list response) (c : client) (parties : list pconf)
    (keys : list (list Z * list Z)) (bpk bsk : list Z) : Prop := {
  ky_box : forall pk sk, In (pk, sk) keys -> box_ok b pk sk;
  ky_parties : forall k cf, nth_error parties k = Some cf -> good_party_keys keys (length db) k cf;
  ky_backend : nth_error keys (length parties) = Some (bpk, bsk);
  ky_client : ct_pkeys c = map fst keys;
  ky_rand : good_rand (ct_rand c) (length (ct_keys c)) (length keys)
}.
