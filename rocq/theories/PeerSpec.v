(** Vocabulary for the properties about arbitrary peers: what an offline cipher
    shows to the holder of a key pair. *)
From Verif Require Import Base Incremental Wire Onion Shuffle Party ChainSpec.

(** The secret and the inner cipher a cipher shows, if it opens: the plain text
    is the 76-byte image of the secret followed by the inner cipher. *)
Definition shows (b : sealbox) (pk sk : list Z) (c : list Z) : option (osecret * list Z) :=
  match box_open b pk sk c with
  | Some plain => Some (dec_osecret (firstn 76 plain), skipn 76 plain)
  | None => None
  end.

(** Opening removes exactly the 48 bytes of the seal. *)
Definition box_sizes (b : sealbox) (pk sk : list Z) : Prop :=
  forall c plain, Forall byte c -> box_open b pk sk c = Some plain ->
    length c = (48 + length plain)%nat /\ Forall byte plain.

(** [s] is the secret stored for the query [q]. *)
Definition secret_of (secrets : list osecret) (q : query) (s : osecret) : Prop :=
  In s secrets /\ o_tag s = q_tag q.

(** What becomes of a query under a secret. *)
Definition handled (q : query) (s : osecret) : query :=
  {| q_tag := o_next s; q_tally := incremental_reconstruct (q_tally q) (o_share s) |}.

(** An honest party [k] of a deployment with key pairs [keys] and a table of
    [rows] rows, about to receive [n] messages from a peer of which nothing is
    assumed. *)
Record honest_party (b : sealbox) (rng : rng_t) (keys : list (list Z * list Z)) (rows k : nat) (cf : pconf) (n : nat) : Prop := {
  hp_party : good_party rng keys rows k cf;
  hp_keys : good_party_keys keys rows k cf;
  hp_box : forall pk sk, In (pk, sk) keys -> box_ok b pk sk;
  hp_sizes : box_sizes b (pf_pkey cf) (pf_skey cf);
  hp_position : (length keys <= 255)%nat /\ (k + 1 < length keys)%nat;
  hp_rows : (1 <= rows)%nat /\ Z.of_nat rows <= 2 ^ 31 - 1;
  hp_total : Z.of_nat (n + noise_total rows cf) < 2 ^ 32
}.

(** A response with a mask applied: bytewise XOR. *)
Definition masked (resp mask : list Z) : list Z := map (fun p => Z.lxor (fst p) (snd p)) (combine resp mask).
