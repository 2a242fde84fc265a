(** What the parties before an honest one see of a run (C71). *)
From Verif Require Import Base Incremental Wire Onion Shuffle State Database Handlers Batch Party Chain Spec.

(** Two choices of a client's randomness for [n] queries which differ at most in
    what entity [h] (a party, or the backend) is given: its share and its mask. *)
Record same_but (h n : nat) (r r' : rand) : Prop := {
  sb_x : forall i j, ~ ((i < n)%nat /\ j = h) -> rn_x r' i j = rn_x r i j;
  sb_y : forall i j, rn_y r' i j = rn_y r i j;
  sb_masks : forall i j, ~ ((i < n)%nat /\ j = h) -> nth_error (rn_masks r' i) j = nth_error (rn_masks r i) j;
  sb_coins : forall i j, rn_coins r' i j = rn_coins r i j;
  sb_junk1 : forall i j, rn_junk1 r' i j = rn_junk1 r i j;
  sb_junk2 : forall i j, rn_junk2 r' i j = rn_junk2 r i j
}.
(** They agree in it, too. *)
Definition same_at (h n : nat) (r r' : rand) : Prop :=
  forall i, (i < n)%nat -> rn_x r' i h = rn_x r i h /\ nth_error (rn_masks r' i) h = nth_error (rn_masks r i) h.

(** What opening the outer layer of a cipher reveals to the owner of the key pair,
    besides the cipher for the next entity. *)
Definition opened (b : sealbox) (layers : nat) (key : list Z * list Z) (c : list Z) : option osecret :=
  match onion_decrypt b true c layers (fst key) (snd key) with Ok (s, _) => Some s | _ => None end.

(** What the parties before entity [h] see together: the number of messages and the
    sizes of the ciphers on every link, the secrets they get by opening the ciphers
    they receive, and the queries and responses on all links up to that to [h]. *)
Record view := {
  vw_counts : list Z; vw_sizes : list (list nat); vw_secrets : list (list (option osecret));
  vw_queries : list (list query); vw_responses : list (list (list Z))
}.
Definition seen (b : sealbox) (keys : list (list Z * list Z)) (h : nat) (o : outcome) : view :=
  {| vw_counts := oc_counts o;
     vw_sizes := map (map (fun c => List.length c)) (oc_ciphers o);
     vw_secrets := map (fun j => map (opened b (List.length keys - j) (nth j keys ([], []))) (nth j (oc_ciphers o) [])) (seq 0 h);
     vw_queries := firstn (S h) (oc_queries o);
     vw_responses := firstn (S h) (oc_responses o) |}.

(** What the backend can read off the tags of the queries it receives and the keys
    it looks up for them: the key of the i-th query (C72). *)
Definition key_of_query (tags keys : list Z) (i : nat) : option Z :=
  match find (fun p => fst p =? Z.of_nat i) (combine tags keys) with Some p => Some (snd p) | None => None end.
(** The tags which belong to the clients' [n] queries. *)
Definition client_tags (n : nat) (tags : list Z) : list Z := filter (fun t => t <? Z.of_nat n) tags.
