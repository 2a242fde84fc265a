(** What it means that a link carries keys and rows in the clear (C86). *)
From Verif Require Import Base Wire Database Batch.
From Coq Require Import Permutation.

(** The query and the response for [key] without any secret. *)
Definition plain_query (key : Z) : query := {| q_tag := 0; q_tally := key |}.
Definition plain_response (db : list response) (key : Z) : list Z := enc_response (nth (Z.to_nat key) db db_zero).

(** The queries and responses of a link (one batch for each server) are those for
    [keys] in the clear, in some order. *)
Definition plain_link (db : list response) (keys : list Z) (qss : list (list query)) (rss : list (list (list Z))) : Prop :=
  exists kss, Permutation (concat kss) keys /\ qss = map (map plain_query) kss /\ rss = map (map (plain_response db)) kss.

(** The bytes that cross a link with queries for [keys] in the clear: forth a count
    and a tag of zeros (8 bytes) and the key (4 bytes) for each query; back the
    byte that says that the next party is ready, and the rows. *)
Definition plain_forward (keys : list Z) : list Z := le 4 (Z.of_nat (length keys)) ++ flat_map (fun key => le 8 0 ++ le 4 key) keys.
Definition plain_backward (db : list response) (keys : list Z) : list Z := [1] ++ flat_map (plain_response db) keys.
