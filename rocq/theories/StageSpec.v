(** The stages of a run, as seen on the connections. *)
From Verif Require Import Base.

(** In a deployment with n client queries and parties that add [noise] fake
    queries: how many queries pass link j, how many bytes their ciphers have there
    (a layer of 124 bytes per entity ahead), and how many bytes tell that everybody
    is ready. *)
Definition link_queries (n : nat) (noise : list nat) (j : nat) : nat := (n + list_sum (firstn j noise))%nat.
Definition link_ciphers (n : nat) (noise : list nat) (offline : bool) (j : nat) : nat :=
  if offline then (124 * (S (length noise) - j) * link_queries n noise j)%nat else 0%nat.
Definition ready_bytes (offline : bool) : nat := if offline then 2%nat else 1%nat.

(** So far [fwd j] bytes have been put on link j towards the backend and [bwd j]
    bytes on link j towards the client (link 0 is the client's, link j the j-th
    party's with the next entity).  Of the bytes towards the backend the
    first four are the count, then come the ciphers (if the offline stage is
    executed) and then the queries; of those towards the client one or two tell
    that everybody is ready and the others are responses. *)
Record staged (n : nat) (noise : list nat) (offline : bool) (fwd bwd : nat -> nat) : Prop := {
  (** A party passes a count on when it has the previous one. *)
  sg_counts : forall j, (j < length noise)%nat -> (0 < fwd (S j))%nat -> (4 <= fwd j)%nat;
  (** The client sends no cipher before every entity knows how many will come. *)
  sg_first_cipher : offline = true -> (4 < fwd 0%nat)%nat -> forall j, (j <= length noise)%nat -> (4 <= fwd j)%nat /\ (1 <= bwd j)%nat;
  (** A party sends no cipher before it could have received all of its own. *)
  sg_cipher : forall j, offline = true -> (j < length noise)%nat -> (4 < fwd (S j))%nat -> (4 + link_ciphers n noise offline j <= fwd j)%nat;
  (** The client sends no query before the offline stage is complete everywhere. *)
  sg_first_query : (4 + link_ciphers n noise offline 0%nat < fwd 0%nat)%nat ->
    forall j, (j <= length noise)%nat -> (4 + link_ciphers n noise offline j <= fwd j)%nat /\ (ready_bytes offline <= bwd j)%nat;
  (** A party sends no query before all queries have been sent to it. *)
  sg_query : forall j, (j < length noise)%nat -> (4 + link_ciphers n noise offline (S j) < fwd (S j))%nat -> (4 + link_ciphers n noise offline j + 12 * link_queries n noise j <= fwd j)%nat;
  (** No response is sent before all queries have been sent on all links from
      there on, and all responses on all later links. *)
  sg_response : forall j, (ready_bytes offline < bwd j)%nat -> forall i, (j <= i <= length noise)%nat ->
    (4 + link_ciphers n noise offline i + 12 * link_queries n noise i <= fwd i)%nat /\ ((j < i)%nat -> (ready_bytes offline + 52 * link_queries n noise i <= bwd i)%nat)
}.
