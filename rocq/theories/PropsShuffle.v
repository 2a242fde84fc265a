(** Property theorems C13-C19: local and parallel shuffling. *)
From Verif Require Import Base Shuffle ParShuffle Spec ShuffleProofs ParShuffleFacts.
From Verif Require ShuffleCount.
From Coq Require Factorial.

(** A generator for the examples. *)
Definition ex_rng : rng_t := fun seed k => (seed * 7919 + 1103515245 * (Z.of_nat k + 1)) mod 2 ^ 31.
Lemma ex_rng_range : forall seed k, 0 <= ex_rng seed k <= 2 ^ 31 - 1.
Proof. intros. unfold ex_rng. pose proof (Z.mod_pos_bound (seed * 7919 + 1103515245 * (Z.of_nat k + 1)) (2 ^ 31)). lia. Qed.

(** C13 Local shuffle is a permutation and deshuffling undoes it. *)
Theorem C13_local_shuffle_bijective : forall rng seed n,
  (forall k, 0 <= rng seed k <= 2 ^ 31 - 1) -> Z.of_nat n < 2 ^ 32 ->
  exists s, ls_initialize rng seed n = Ok s /\ bijection_below n (ls_shuffle s) (ls_deshuffle s).
Proof. exact c13. Qed.
Print Assumptions C13_local_shuffle_bijective.
Example C13_example : ls_initialize ex_rng 5 6 =
  Ok {| ls_forward := [3; 2; 4; 5; 0; 1]%nat; ls_backward := [4; 5; 1; 0; 2; 3]%nat |}.
Proof. vm_compute. reflexivity. Qed.

(** C14 The last message always moves to the first half, so the identity (for
    instance) never occurs, and two messages are always swapped. *)
Theorem C14_last_moves_down : forall rng seed n,
  (forall k, 0 <= rng seed k <= 2 ^ 31 - 1) -> (2 <= n)%nat -> Z.of_nat n < 2 ^ 32 ->
  exists s j, ls_initialize rng seed n = Ok s /\ ls_shuffle s (n - 1) = Ok j /\ (2 * j < n)%nat.
Proof. exact c14. Qed.
Print Assumptions C14_last_moves_down.
Theorem C14_identity_unreachable : forall rng seed n s,
  (forall k, 0 <= rng seed k <= 2 ^ 31 - 1) -> (2 <= n)%nat -> Z.of_nat n < 2 ^ 32 ->
  ls_initialize rng seed n = Ok s -> exists i, (i < n)%nat /\ ls_shuffle s i <> Ok i.
Proof. exact c14_identity. Qed.
Print Assumptions C14_identity_unreachable.
Theorem C14_two_always_swapped : forall rng seed,
  (forall k, 0 <= rng seed k <= 2 ^ 31 - 1) ->
  ls_initialize rng seed 2 = Ok {| ls_forward := [1; 0]%nat; ls_backward := [1; 0]%nat |}.
Proof. exact c14_two. Qed.
Print Assumptions C14_two_always_swapped.
(** The orders into which n messages can be brought are exactly
    [shuffle_ways n] = 1 * 1 * 2 * 2 * 3 * 3 ... (n factors) many, and each of them
    occurs for some sequence of random numbers... *)
Theorem C14_number_of_orders : forall n, Z.of_nat n <= 2 ^ 31 -> exists orders,
  NoDup orders /\ length orders = ShuffleCount.shuffle_ways n /\
  forall order, In order orders <-> exists rng seed s, (forall k, 0 <= rng seed k <= 2 ^ 31 - 1) /\
    ls_initialize rng seed n = Ok s /\ map_res (ls_shuffle s) (seq 0 n) = Ok order.
Proof. exact ShuffleCount.c14_number. Qed.
Print Assumptions C14_number_of_orders.
(** ...whereas there are n! orders: all but a part of 2^-(n/2) never occur. *)
Theorem C14_few_orders : forall n, (ShuffleCount.shuffle_ways n * 2 ^ (n / 2) <= Factorial.fact n)%nat.
Proof. exact ShuffleCount.c14_few. Qed.
Print Assumptions C14_few_orders.
Example C14_ways_example : map ShuffleCount.shuffle_ways [2; 3; 4; 8]%nat = [1; 2; 4; 576]%nat.
Proof. reflexivity. Qed.
Example C14_example : forall k, 0 <= ex_rng 5 k <= 2 ^ 31 - 1.
Proof. exact (ex_rng_range 5). Qed.

(** Initialize always succeeds. *)
Theorem C15_initialize_succeeds : forall rng seed counts self noise,
  par_pre rng seed counts -> (self < length counts)%nat ->
  exists p, ps_initialize rng self (length counts) seed counts noise = Ok p.
Proof. exact c15_ok. Qed.
Print Assumptions C15_initialize_succeeds.

(** C15 Parallel shuffle balances the load exactly. *)
Theorem C15_balanced : forall rng seed counts (noise : nat -> nat) (ps : nat -> pshuffler),
  let N := length counts in
  let total := list_sum counts in
  par_pre rng seed counts ->
  (forall s, (s < N)%nat -> ps_initialize rng s N seed counts (noise s) = Ok (ps s)) ->
  (forall s, (s < N - 1)%nat -> ps_slice (ps s) = (total / N)%nat) /\
  ps_slice (ps (N - 1)%nat) = (total - (N - 1) * (total / N))%nat /\
  list_sum (map (fun s => ps_slice (ps s)) (seq 0 N)) = total /\
  (forall s, (s < N)%nat -> exists received,
     map_res (ps_count_from (ps s)) (seq 0 N) = Ok received /\ list_sum received = ps_slice (ps s)).
Proof. exact c15. Qed.
Print Assumptions C15_balanced.
Example C15_example : par_pre ex_rng 11 [3; 0; 5]%nat.
Proof. split; [exact (ex_rng_range 11)|]. cbn. lia. Qed.
Example C15_example_run :
  (let* p := ps_initialize ex_rng 2 3 11 [3; 0; 5]%nat 2 in
   Ok (ps_slice p, ps_forward p, ps_backward p, ps_from p, ps_prefix p, ps_to p, ps_to_noise p)) =
  Ok (4, [2; 2; 0; 0; 1], [[2; 3]; [4]; [0; 1]], [2; 0; 2], [0; 2; 2], [2; 1; 2], [0; 0; 2])%nat.
Proof. vm_compute. reflexivity. Qed.

(** C16 Sibling servers agree on who sends what to whom. *)
Theorem C16_siblings_agree : forall rng seed counts (noise : nat -> nat) (ps : nat -> pshuffler) a b,
  let N := length counts in
  par_pre rng seed counts ->
  (forall s, (s < N)%nat -> ps_initialize rng s N seed counts (noise s) = Ok (ps s)) ->
  (a < N)%nat -> (b < N)%nat ->
  exists n targets p',
    ps_count_to (ps a) b = Ok n /\ ps_count_from (ps b) a = Ok n /\
    shuffle_many (nth a counts O) (ps a) = Ok (targets, p') /\
    count_occ Nat.eq_dec targets b = n /\ Forall (fun t => (t < N)%nat) targets /\
    ps_shuffle_one p' = UB.
Proof. exact c16. Qed.
Print Assumptions C16_siblings_agree.

(** C17 Shuffling across servers then deshuffling is the identity (around any
    pointwise answer function f). *)
Theorem C17_exchange_identity : forall (A B : Type) (f : A -> B) rng seed (lseeds : nat -> Z)
    (inputs : list (list A)) (noise : nat -> nat) (ps : nat -> pshuffler) (ls : nat -> lshuffler),
  let N := length inputs in
  let counts := map (@length A) inputs in
  par_pre rng seed counts ->
  (forall s k, 0 <= rng (lseeds s) k <= 2 ^ 31 - 1) ->
  (forall s, (s < N)%nat -> ps_initialize rng s N seed counts (noise s) = Ok (ps s)) ->
  (forall s, (s < N)%nat -> ls_initialize rng (lseeds s) (ps_slice (ps s)) = Ok (ls s)) ->
  exists targets : nat -> list nat,
    (forall a, (a < N)%nat -> exists p', shuffle_many (nth a counts O) (ps a) = Ok (targets a, p')) /\
    let recv b := flat_map (fun a => addressed_to b (targets a) (nth a inputs [])) (seq 0 N) in
    forall (out : nat -> list A) (reply : nat -> list B),
    (forall b, (b < N)%nat -> length (recv b) = ps_slice (ps b) /\
       placed (ls_shuffle (ls b)) (recv b) (out b) /\
       placed (ls_deshuffle (ls b)) (map f (out b)) (reply b)) ->
    forall a final, (a < N)%nat ->
      (length final = nth a counts O /\
       forall t, (t < N)%nat -> exists idxs p' start n,
         deshuffle_many n t (ps a) = Ok (idxs, p') /\
         ps_count_to (ps a) t = Ok n /\ ps_count_from (ps t) a = Ok n /\ ps_prefix_from (ps t) a = Ok start /\
         let section := firstn n (skipn start (reply t)) in
         length section = n /\
         forall j i x, nth_error idxs j = Some i -> nth_error section j = Some x -> nth_error final i = Some x)
      <-> final = map f (nth a inputs []).
Proof. exact @c17. Qed.
Print Assumptions C17_exchange_identity.

(** C18 A received position is attributed to the right source. *)
Theorem C18_source_of_position : forall rng seed counts (noise : nat -> nat) (ps : nat -> pshuffler) self idx,
  let N := length counts in
  par_pre rng seed counts ->
  (forall s, (s < N)%nat -> ps_initialize rng s N seed counts (noise s) = Ok (ps s)) ->
  (self < N)%nat -> (idx < ps_slice (ps self))%nat ->
  exists s, ps_find_source (ps self) N idx = Ok s /\ (s < N)%nat /\
    forall s' p c, ps_prefix_from (ps self) s' = Ok p -> ps_count_from (ps self) s' = Ok c ->
      ((p <= idx < p + c)%nat <-> s' = s).
Proof. exact c18. Qed.
Print Assumptions C18_source_of_position.

(** C19 Noise messages come first from every source. *)
Theorem C19_noise_first : forall rng seed counts (noise : nat -> nat) (ps : nat -> pshuffler) a t,
  let N := length counts in
  par_pre rng seed counts ->
  (forall s, (s < N)%nat -> ps_initialize rng s N seed counts (noise s) = Ok (ps s)) ->
  (a < N)%nat -> (t < N)%nat ->
  exists n targets p',
    shuffle_many (nth a counts O) (ps a) = Ok (targets, p') /\
    ps_count_noise_to (ps a) t = Ok n /\
    forall j i, nth_error (indices_of t targets) j = Some i -> ((i < noise a)%nat <-> (j < n)%nat).
Proof. exact c19. Qed.
Print Assumptions C19_noise_first.
