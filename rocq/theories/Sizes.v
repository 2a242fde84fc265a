(** Cipher sizes used by the sockets and batches of every role. *)
From Verif Require Import Base Incremental Wire Onion.

(** sockets/consts.h:5 *)
Definition BUFFER_SIZE : nat := Z.to_nat 140000.

(** An int expression passed as party_id_t (uint8_t). *)
Definition as_party_id (z : Z) : nat := Z.to_nat (w8 z).

(** protocol/client/client_initialization.cc:15  next_(CipherSize(party_count_)) *)
Definition client_out_size (party_count : nat) : nat := cipher_size (as_party_id (Z.of_nat party_count)).
(** protocol/party/party_initialization.cc:19,36 and
    parallel_party/parallel_party_initialization.cc:19: incoming ciphers. *)
Definition party_in_size (party_count party_id : nat) : nat :=
  cipher_size (as_party_id (Z.of_nat party_count - Z.of_nat party_id)).
(** protocol/party/party_initialization.cc:20,35 and
    parallel_party/parallel_party_initialization.cc:20: outgoing ciphers. *)
Definition party_out_size (party_count party_id : nat) : nat :=
  cipher_size (as_party_id (Z.of_nat party_count - Z.of_nat party_id - 1)).
(** protocol/backend/backend_initialization.cc:17,19 *)
Definition backend_in_size : nat := cipher_size 1.

(** types/containers.h:203-207: a CipherLogicalBuffer over a physical buffer of
    BUFFER_SIZE bytes holds this many whole units. *)
Definition units_per_buffer (unit : nat) : nat := (BUFFER_SIZE / unit)%nat.
