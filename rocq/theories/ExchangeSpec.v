(** Specification vocabulary for the sibling exchange. *)
From Coq Require Import List Arith.
From Verif Require Import Lts Exchange.
Import ListNotations.

(** The messages that server i sends to server j, in order. *)
Definition messages {U} (items : list (list (nat * list U))) (j : nat) : list (list U) :=
  map snd (filter (fun e => fst e =? j) (concat items)).

(** A proper exchange: messages have the same positive size, an item sends at
    most one message to each server, everyone expects exactly the messages that
    are sent, and at most a buffer full of items is sent between two polls. *)
Record proper {U H} (x : exch U H) : Prop := {
  px_unit : 0 < x_unit x;
  px_rate : 0 < x_rate x <= x_buf x;
  px_items : forall i it, i < x_n x -> In it (x_items x i) ->
      NoDup (map fst it) /\ forall j m, In (j, m) it -> j < x_n x /\ length m = x_unit x;
  px_want : forall i j, i < x_n x -> j < x_n x -> i <> j -> x_want x i j = length (messages (x_items x j) i)
}.

(** Every channel holds what a server can send between two polls: one full
    write buffer. *)
Definition roomy {U H} (x : exch U H) : Prop :=
  forall i j, i < x_n x -> j < x_n x -> i <> j -> x_buf x * x_unit x <= x_cap x i j.

(** [log] interleaves the messages addressed to server i, keeping the order of
    each source. *)
Definition interleaves {U} (n : nat) (items : nat -> list (list (nat * list U))) (i : nat)
    (log : list (nat * list U)) : Prop :=
  (forall e, In e log -> fst e < n) /\
  forall j, j < n -> map snd (filter (fun e => fst e =? j) log) = messages (items j) i.

(** Handling a log of messages one after the other. *)
Definition handle_all {U H} (h : H -> nat -> list U -> H) (log : list (nat * list U)) (s : H) : H :=
  fold_left (fun s e => h s (fst e) (snd e)) log s.

(** The same messages, server by server. *)
Definition by_server {U} (n : nat) (items : nat -> list (list (nat * list U))) (i : nat) : list (nat * list U) :=
  flat_map (fun j => map (pair j) (messages (items j) i)) (seq 0 n).
