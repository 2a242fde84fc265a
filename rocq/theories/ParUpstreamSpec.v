(** What the parties before an honest one see of a run with several servers per
    entity (C71). *)
From Verif Require Import Base Incremental Wire Onion Shuffle State Database Handlers Batch Party Chain Parallel ParChain Spec ChainSpec UpstreamSpec.

(** Two clients with as many queries, which made the same choices but for what
    entity [h] of [m] (a party, or the backend) is given. *)
Definition differs (h m : nat) (c c' : client) : Prop :=
  let n := List.length (ct_keys c) in
  ct_pkeys c' = ct_pkeys c /\ List.length (ct_keys c') = n /\ same_but h n (ct_rand c) (ct_rand c') /\ good_rand (ct_rand c') n m.

(** What all servers of the parties before entity [h] see together: on every link
    the number of messages and the sizes of the ciphers each server is sent; the
    secrets they get by opening the ciphers they receive; the queries and responses
    on all links up to that to [h].  (What the servers of a party send each other
    they compute from this and from their own choices.) *)
Record par_view := {
  pv_counts : list (list Z); pv_sizes : list (list (list nat)); pv_secrets : list (list (list (option osecret)));
  pv_queries : list (list (list query)); pv_responses : list (list (list (list Z)))
}.
Definition par_seen (b : sealbox) (keys : list (list Z * list Z)) (h : nat) (o : par_outcome) : par_view :=
  {| pv_counts := po_counts o;
     pv_sizes := map (map (map (fun c => List.length c))) (po_ciphers o);
     pv_secrets := map (fun j => map (map (opened b (List.length keys - j) (nth j keys ([], [])))) (nth j (po_ciphers o) [])) (seq 0 h);
     pv_queries := firstn (S h) (po_queries o);
     pv_responses := firstn (S h) (po_responses o) |}.
