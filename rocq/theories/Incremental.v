(** Model of DPPIR/sharing/incremental.cc. *)
From Verif Require Import Base.

(** types/types.h:16  #define INCREMENTAL_PRIME 2147483647u *)
Definition PRIME : Z := 2147483647.

(** types/types.h:42-45  struct incremental_share_t *)
Record ishare := { sx : Z; sy : Z }.

(** sharing/incremental.cc:12-21  GcdExtended.  The out-parameters are returned
    as the pair (x, y).  The recursive call swaps the two pointers, so its x is
    our y.  [b / a] is uint32_t and is promoted to int64_t.  The C++ recursion
    has no bound; 65 levels always suffice (theorem C04). *)
Fixpoint gcd_extended (fuel : nat) (a b : Z) : res (Z * Z) :=
  match fuel with
  | O => NoFuel
  | S f =>
      if a =? 0 then Ok (0, 1)
      else
        let* yx := gcd_extended f (b mod a) a in
        let* p := s64 ((b / a) * fst yx) in
        let* x := s64 (snd yx - p) in
        Ok (x, fst yx)
  end.

(** sharing/incremental.cc:24-28  ModInverse.  C++ % on int64_t truncates (Z.rem);
    the conversion to uint32_t wraps. *)
Definition mod_inverse (a m : Z) : res Z :=
  let* xy := gcd_extended 65 a m in
  let* v := s64 (if fst xy <? 0 then fst xy + m else fst xy) in
  Ok (w32 (Z.rem v m)).

(** sharing/incremental.cc:32-40  PreIncrementalSecretShares.  [rx i] and [ry i]
    are the results of the two randombytes_uniform calls of round i. *)
Fixpoint pre_shares (rx ry : nat -> Z) (n i : nat) : list ishare :=
  match n with
  | O => []
  | S n' => {| sx := rx i; sy := w32 (ry i + 1) |} :: pre_shares rx ry n' (S i)
  end.
Definition pre_incremental_secret_shares (rx ry : nat -> Z) (n : nat) : list ishare :=
  pre_shares rx ry n 0.

(** sharing/incremental.cc:48-49, one loop body; [t] is uint64_t. *)
Definition tally_step (t : Z) (s : ishare) : res Z :=
  let t1 := w64 (w64 (t + (if t <? sx s then PRIME else 0)) - sx s) in
  let* inv := mod_inverse (sy s) PRIME in
  Ok (w64 (t1 * inv) mod PRIME).

(** sharing/incremental.cc:46-50, the loop "for i = size; i > 0; i--". *)
Fixpoint tally_loop (shares : list ishare) (i : nat) (t : Z) : res Z :=
  match i with
  | O => Ok t
  | S i' =>
      let* s := get shares i' in
      let* t' := tally_step t s in
      tally_loop shares i' t'
  end.

(** sharing/incremental.cc:42-52  GenerateIncrementalTally. *)
Definition generate_incremental_tally (query : Z) (shares : list ishare) : res Z :=
  let* t := tally_loop shares (length shares) query in
  Ok (w32 t).

(** sharing/incremental.cc:54-57  IncrementalReconstruct. *)
Definition incremental_reconstruct (tally : Z) (s : ishare) : Z :=
  w32 (w64 (w64 (tally * sy s) + sx s) mod PRIME).

(** The parties apply IncrementalReconstruct one after the other with their own
    share (party/party_handlers.cc, backend/backend_handlers.cc). *)
Definition reconstruct_all (tally : Z) (shares : list ishare) : Z :=
  fold_left incremental_reconstruct shares tally.
