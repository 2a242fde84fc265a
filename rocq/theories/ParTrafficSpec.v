(** How much goes over the connections of a deployment with several servers per
    entity. *)
From Verif Require Import Base Shuffle ParShuffle Net ParSpec ParProcs.

Section Amounts.
  (** Public: the generator behind the shuffles, the number of servers per entity,
      the number of queries of each client and, of each party's servers, the seed
      they share, their own seed and how many fake queries they add. *)
  Context (rng : rng_t) (N : nat) (ns : list nat) (parties : list (list (Z * Z * nat))).

  Definition party_at (j : nat) : list (Z * Z * nat) := nth j parties [].
  Definition server_at (j s : nat) : Z * Z * nat := nth s (party_at j) (0, 0, 0%nat).
  Definition fakes (j s : nat) : nat := snd (server_at j s).
  (** The servers of a party share what has come in and their fake queries. *)
  Fixpoint arriving (j : nat) : list nat :=
    match j with
    | O => ns
    | S j' => let total := list_sum (map (fun s => (fakes j' s + nth s (arriving j') 0)%nat) (seq 0 N)) in map (share_of total N) (seq 0 N)
    end.
  (** Queries on the i-th connection of link j. *)
  Definition on_link (j i : nat) : nat := nth i (arriving j) 0%nat.
  (** Where the shuffle sends the queries in the batch of server s of party j, the
      fake ones first; how many go to server t, and how many of these are not fake. *)
  Definition targets (j s : nat) : list nat :=
    match ps_initialize rng s N (fst (fst (server_at j s))) (map (fun s => (fakes j s + on_link j s)%nat) (seq 0 N)) (fakes j s) with
    | Ok p => ps_forward p
    | _ => []
    end.
  Definition crossing (j s t : nat) : nat := count_occ Nat.eq_dec (targets j s) t.
  Definition returning (j s t : nat) : nat := count_occ Nat.eq_dec (skipn (fakes j s) (targets j s)) t.

  (** Between parties: as with single servers.  Between servers of the same entity:
      a byte each to connect (from the one with the smaller number also its number);
      of a party the size of the batch (4), the number of fake queries that go to
      the other (4, with a real offline stage twice) and a byte per barrier (one;
      four with a real offline stage; four more online); per query that goes from
      one to the other a cipher with a layer (124) per entity ahead, a query (12)
      and, unless it is fake, back a response (52); in a real offline stage, of parties and backend,
      the number of secrets (4) and a secret (76) per query that has come in, and at the
      backend one barrier. *)
  Definition par_traffic (offline online : bool) (c : mchan) : nat :=
    let P := length parties in
    match c with
    | Link i (Lis j) | Link i (Con j) => if ((i <? N) && (j <=? P))%nat then 1%nat else 0%nat
    | Link i (Fwd j) =>
        if ((i <? N) && (j <=? P))%nat
        then (4 + (if offline then 124 * (S P - j) * on_link j i else 0) + (if online then 12 * on_link j i else 0))%nat else 0%nat
    | Link i (Bwd j) =>
        if ((i <? N) && (j <=? P))%nat then ((if offline then 2 else 1) + (if online then 52 * on_link j i else 0))%nat else 0%nat
    | SLis e t s | SCon e s t => if ((1 <=? e) && (e <=? S P) && (s <? t) && (t <? N))%nat then 1%nat else 0%nat
    | Sib e s t =>
        if ((1 <=? e) && (e <=? S P) && (s <? N) && (t <? N) && negb (s =? t))%nat
        then let j := pred e in
             ((if s <? t then 1 else 0) +
              (if offline then 4 + 76 * on_link j s + 1 else 0) +
              (if e <=? P
               then 4 + 4 + (if offline then 4 + 3 + 124 * (S P - e) * crossing j s t else 1) +
                    (if online then 4 + 12 * crossing j s t + 52 * returning j t s else 0)
               else 0))%nat
        else 0%nat
    end.
End Amounts.
