(** The stages of a run with several servers per entity, as seen on the connections. *)
From Verif Require Import Base StageSpec.

(** So far [fwd j i] bytes have been put on the i-th connection of link j towards
    the backend and [bwd j i] bytes on it towards the client (link 0 is between the
    clients and the first party, link P between the last party and the backend);
    [queries j i] queries pass there.  The bytes are as in [StageSpec]: a count,
    ciphers, queries; and ready bytes, responses.  What one server does waits for
    what has been sent on all N connections of a link, not only on its own. *)
Definition cipher_bytes (P : nat) (queries : nat -> nat -> nat) (offline : bool) (j i : nat) : nat :=
  if offline then (124 * (S P - j) * queries j i)%nat else 0%nat.
Record par_staged (N P : nat) (queries : nat -> nat -> nat) (offline : bool) (fwd bwd : nat -> nat -> nat) : Prop := {
  (** No server of a party passes a count on before all counts have come to the party. *)
  pg_counts : forall j i t, (j < P)%nat -> (i < N)%nat -> (t < N)%nat -> (0 < fwd (S j) i)%nat -> (4 <= fwd j t)%nat;
  (** No client sends a cipher before all entities know how many will come.  (Without
      parties the clients talk to the backend, each to its own server.) *)
  pg_first_cipher : offline = true -> forall i, (i < N)%nat -> (4 < fwd 0%nat i)%nat ->
    (1 <= bwd 0%nat i)%nat /\ forall j t, (j <= P)%nat -> (t < N)%nat -> (0 < P)%nat \/ t = i -> (4 <= fwd j t)%nat /\ ((0 < j)%nat -> (1 <= bwd j t)%nat);
  (** No server of a party sends a cipher before all ciphers have been sent to the party. *)
  pg_cipher : forall j i t, offline = true -> (j < P)%nat -> (i < N)%nat -> (t < N)%nat -> (4 < fwd (S j) i)%nat ->
    (4 + cipher_bytes P queries offline j t <= fwd j t)%nat;
  (** No client sends a query before the offline stage is complete everywhere. *)
  pg_first_query : forall i, (i < N)%nat -> (4 + cipher_bytes P queries offline 0 i < fwd 0%nat i)%nat ->
    (ready_bytes offline <= bwd 0%nat i)%nat /\
    forall j t, (j <= P)%nat -> (t < N)%nat -> (0 < P)%nat \/ t = i -> (4 + cipher_bytes P queries offline j t <= fwd j t)%nat /\ ((0 < j)%nat -> (ready_bytes offline <= bwd j t)%nat);
  (** No server of a party sends a query before all queries have been sent to the party. *)
  pg_query : forall j i t, (j < P)%nat -> (i < N)%nat -> (t < N)%nat -> (4 + cipher_bytes P queries offline (S j) i < fwd (S j) i)%nat ->
    (4 + cipher_bytes P queries offline j t + 12 * queries j t <= fwd j t)%nat;
  (** No server of a party sends a response before all queries have been sent on
      all links from there on and all responses on all later links; and no server
      of the backend before all queries have been sent to that server. *)
  pg_response : forall j i l t, (j < P)%nat -> (i < N)%nat -> (j <= l <= P)%nat -> (t < N)%nat -> (ready_bytes offline < bwd j i)%nat ->
    (4 + cipher_bytes P queries offline l t + 12 * queries l t <= fwd l t)%nat /\
    ((j < l)%nat -> (ready_bytes offline + 52 * queries l t <= bwd l t)%nat);
  pg_answer : forall i, (i < N)%nat -> (ready_bytes offline < bwd P i)%nat ->
    (4 + cipher_bytes P queries offline P i + 12 * queries P i <= fwd P i)%nat
}.
