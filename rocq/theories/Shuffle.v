(** Model of DPPIR/shuffle/util.h, util.cc and local_shuffle.cc. *)
From Verif Require Import Base.

(** rand() after srand(seed): [rng seed k] is the k-th value returned.
    glibc's RAND_MAX is 2^31 - 1; that range is a premise of the theorems. *)
Definition rng_t := Z -> nat -> Z.
Definition RAND_MAX : Z := 2147483647.

(** shuffle/util.cc:10-15  random_bounded; [r] is the value returned by rand(). *)
Definition random_bounded (r range : Z) : Z :=
  w32 (Z.shiftr (w64 (w32 r * range)) 32).

(** std::swap(arr[a], arr[b]) *)
Definition swap {A} (arr : list A) (a b : nat) : res (list A) :=
  let* x := get arr a in
  let* y := get arr b in
  let* arr' := set_ arr a y in
  set_ arr' b x.

(** shuffle/util.h:18-23  shuffle, the loop "for i = n; i > 1; i--"; the k-th
    round uses the k-th value of rand().  i is passed as uint32_t. *)
Fixpoint shuffle_loop {A} (rnd : nat -> Z) (i k : nat) (arr : list A) : res (list A) :=
  match i with
  | O => Ok arr
  | S i' =>
      if (i' =? 0)%nat then Ok arr
      else
        let p := Z.to_nat (random_bounded (rnd k) (w32 (Z.of_nat i))) in
        let* arr' := swap arr i' p in
        shuffle_loop rnd i' (S k) arr'
  end.
Definition shuffle {A} (rnd : nat -> Z) (arr : list A) (n : nat) : res (list A) :=
  shuffle_loop rnd n 0 arr.

(** shuffle/local_shuffle.h:27-30: the two maps. *)
Record lshuffler := { ls_forward : list nat; ls_backward : list nat }.

(** shuffle/local_shuffle.cc:12-30  LocalShuffler::Initialize (seeds, identity,
    shuffle, reverse map). *)
Definition ls_initialize (rng : rng_t) (seed : Z) (n : nat) : res lshuffler :=
  let* fwd := shuffle (rng seed) (seq 0 n) n in
  let* bwd := for_ n 0 (fun i b => let* t := get fwd i in set_ b t i) (repeat O n) in
  Ok {| ls_forward := fwd; ls_backward := bwd |}.

(** shuffle/local_shuffle.cc:33-36  Shuffle, Deshuffle *)
Definition ls_shuffle (s : lshuffler) (idx : nat) : res nat := get (ls_forward s) idx.
Definition ls_deshuffle (s : lshuffler) (idx : nat) : res nat := get (ls_backward s) idx.
