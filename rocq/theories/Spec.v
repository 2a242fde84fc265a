(** Specification vocabulary used by the property theorems.  It refers to the
    data types of the model only, never to the modelled functions (except in
    [opens_layer_by_layer], which says what each recipient must observe). *)
From Verif Require Import Base Incremental Wire Onion Shuffle ParShuffle State CipherBatch.

(** The prime of the incremental sharing scheme. *)
Definition p31 : Z := 2 ^ 31 - 1.

(** A preshare as documented: additive part below the prime, multiplier a
    non-zero residue. *)
Definition valid_share (s : ishare) : Prop := 0 <= sx s < p31 /\ 1 <= sy s < p31.

(** What the random generator may deliver for n preshares: the first draw is
    uniform below the prime, the second below the prime minus one. *)
Definition valid_draws (rx ry : nat -> Z) (n : nat) : Prop :=
  forall k, (k < n)%nat -> 0 <= rx k < p31 /\ 0 <= ry k < p31 - 1.

(** Incremental reconstruction as exact arithmetic modulo the prime. *)
Definition ideal_reconstruct (t : Z) (l : list ishare) : Z :=
  fold_left (fun a s => (a * sy s + sx s) mod p31) l t.

(** XOR of two byte strings, position by position. *)
Definition xor_bytes (a b : list Z) : list Z := map (fun xy => Z.lxor (fst xy) (snd xy)) (combine a b).

(** Removing position i. *)
Definition without {A} (i : nat) (l : list A) : list A := firstn i l ++ skipn (S i) l.

(** Opening a cipher with the key pairs in order shows the secrets in order;
    a cipher for k recipients has 124 k bytes. *)
Fixpoint opens_layer_by_layer (b : sealbox) (keys : list (list Z * list Z)) (secrets : list osecret)
    (c : list Z) : Prop :=
  match keys, secrets with
  | [], [] => c = []
  | (pk, sk) :: ks, s :: ss =>
      length c = (124 * length keys)%nat /\
      exists c', onion_decrypt b true c (length keys) pk sk = Ok (s, c') /\
                 length c' = (124 * length ks)%nat /\ opens_layer_by_layer b ks ss c'
  | _, _ => False
  end.

(** f is a bijection of [0, n) with inverse g. *)
Definition bijection_below (n : nat) (f g : nat -> res nat) : Prop :=
  forall i, (i < n)%nat ->
    (exists j, (j < n)%nat /\ f i = Ok j /\ g j = Ok i) /\
    (exists j, (j < n)%nat /\ g i = Ok j /\ f j = Ok i).

(** Calling ShuffleOne k times / DeshuffleOne(t) k times. *)
Fixpoint shuffle_many (k : nat) (p : pshuffler) : res (list nat * pshuffler) :=
  match k with
  | O => Ok ([], p)
  | S k' =>
      let* r := ps_shuffle_one p in
      let* rest := shuffle_many k' (snd r) in
      Ok (fst r :: fst rest, snd rest)
  end.
Fixpoint deshuffle_many (k t : nat) (p : pshuffler) : res (list nat * pshuffler) :=
  match k with
  | O => Ok ([], p)
  | S k' =>
      let* r := ps_deshuffle_one p t in
      let* rest := deshuffle_many k' t (snd r) in
      Ok (fst r :: fst rest, snd rest)
  end.

(** Positions (ascending) at which t occurs. *)
Definition indices_of (t : nat) (l : list nat) : list nat :=
  filter (fun i => match nth_error l i with Some x => (x =? t)%nat | None => false end) (seq 0 (length l)).

(** The messages addressed to t, in order. *)
Definition addressed_to {A} (t : nat) (targets : list nat) (msgs : list A) : list A :=
  map snd (filter (fun p => (fst p =? t)%nat) (combine targets msgs)).

(** dst is src with element k moved to position pos(k). *)
Definition placed {A} (pos : nat -> res nat) (src dst : list A) : Prop :=
  length dst = length src /\
  forall k x, nth_error src k = Some x -> exists p, pos k = Ok p /\ nth_error dst p = Some x.

(** Premises of the statements about parallel shuffling: rand() delivers 31
    bits, at least one and at most 255 servers, the total fits 32 bits. *)
Definition par_pre (rng : rng_t) (seed : Z) (counts : list nat) : Prop :=
  (forall k, 0 <= rng seed k <= 2 ^ 31 - 1) /\ (0 < length counts <= 255)%nat /\
  Z.of_nat (list_sum counts) < 2 ^ 32.


(** Adding ciphers to a batch in some interleaving: [inl] = already peeled,
    [inr] = still to be peeled. *)
Definition push_all (c : cbatch) (ops : list (list Z + list Z)) : res cbatch :=
  fold_res (fun c o => match o with inl v => cb_push_short c v | inr v => cb_push_long c v end) ops c.
Definition lefts {A B} (l : list (A + B)) : list A :=
  flat_map (fun o => match o with inl a => [a] | inr _ => [] end) l.
Definition rights {A B} (l : list (A + B)) : list B :=
  flat_map (fun o => match o with inl _ => [] | inr b => [b] end) l.
(** Handling every cipher once, in order, on separate copies. *)
Fixpoint peel_all {S} (handle : S -> list Z -> res (S * list Z)) (s : S) (inputs : list (list Z))
  : res (S * list (list Z)) :=
  match inputs with
  | [] => Ok (s, [])
  | c :: t =>
      let* r := handle s c in
      let* q := peel_all handle (fst r) t in
      Ok (fst q, snd r :: snd q)
  end.

(** The client's stored secrets, oldest first: tag, shares, mask. *)
Definition store_all (c : cstate) (l : list (Z * list ishare * list Z)) : res cstate :=
  fold_res (fun c x => cs_add c (fst (fst x)) (snd (fst x)) (snd x)) l c.
Definition load_times (n : nat) (c : cstate) : cstate := Nat.iter n cs_load_next c.

(** Installing secrets one after the other. *)
Definition install_all (asserts : bool) (p : qstate) (l : list osecret) : res qstate :=
  fold_res (qs_store asserts) l p.
Definition install_all_backend (asserts : bool) (p : qstate) (l : list osecret) : res qstate :=
  fold_res (bs_store asserts) l p.
Definition store_noise (c : cstate) (l : list (Z * list ishare)) : res cstate :=
  fold_res (fun c x => cs_add_noise c (fst x) (snd x)) l c.
