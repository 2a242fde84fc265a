(** Model of DPPIR/sharing/additive.cc. *)
From Verif Require Import Base Incremental Wire.

(** sharing/additive.cc:12-20  XOR: word-wise over one byte memory; [tp], [sp],
    [dp] are the offsets of tally, share and dst (they may coincide). *)
Definition xor_body (tp sp dp : nat) (i : nat) (m : list Z) : res (list Z) :=
  let* a := rd m (tp + 4 * i) 4 in
  let* b := rd m (sp + 4 * i) 4 in
  wr m (dp + 4 * i) (le 4 (Z.lxor (of_le a) (of_le b))).
Definition xor_mem (m : list Z) (tp sp dp sz : nat) : res (list Z) :=
  for_ (sz / 4) 0 (xor_body tp sp dp) m.

(** sharing/additive.cc:39-44  AdditiveReconstruct on a memory holding the
    response at [tp], the mask at [sp] and the target at [dp]. *)
Definition additive_reconstruct_mem (m : list Z) (tp sp dp : nat) : res (list Z) :=
  xor_mem m tp sp dp PRESHARE_SIZE.

(** In-place XOR of two separate objects: additive.cc:32 (acc, share, acc) and
    every call AdditiveReconstruct(r, share, &r) in the protocol.  The response
    is given and returned as its image ([Wire.enc_response]). *)
Definition xor_inplace (acc share : list Z) : res (list Z) :=
  let* m := xor_mem (acc ++ share) 0 (length acc) 0 (length share) in
  Ok (firstn (length acc) m).
Definition additive_reconstruct (r share : list Z) : res (list Z) := xor_inplace r share.

(** sharing/additive.cc:24-37  GenerateAdditiveSecretShares.  [draws] are the
    results of randombytes_buf.  n = 0 makes "n - 1" wrap to 2^64-1 rounds of
    growing a vector, which ends in an allocation failure: modelled as Abort. *)
Fixpoint additive_loop (draws : list (list Z)) (n i : nat) (shares : list (list Z)) (acc : list Z)
  : res (list (list Z) * list Z) :=
  match n with
  | O => Ok (shares, acc)
  | S n' =>
      let* share := get draws i in
      let* acc' := xor_inplace acc share in
      additive_loop draws n' (S i) (shares ++ [share]) acc'
  end.
Definition generate_additive_secret_shares (draws : list (list Z)) (n : nat) : res (list (list Z)) :=
  match n with
  | O => Abort
  | S n' =>
      let* sa := additive_loop draws n' 0 [] (repeat 0 PRESHARE_SIZE) in
      Ok (fst sa ++ [snd sa])
  end.
