(** Property theorems C32-C35: buffered message streams.
    [sz] is the size of the physical buffer, [unit] the size of one message;
    [kernel_ok k]: every call transfers between 1 and the possible number of
    bytes, otherwise k is arbitrary.  Accesses outside the physical buffer are
    UB in the model, so "= Ok" also says that none happens. *)
From Verif Require Import Base Stream StreamProofs.

(** A kernel that transfers one byte, then two, then three, ... *)
Definition ex_kernel : kernel := fun i n => Z.of_nat (Nat.min n (S (i mod 3))).
Lemma ex_kernel_ok : kernel_ok ex_kernel.
Proof. unfold kernel_ok, ex_kernel. intros. lia. Qed.
Definition ex_world (i : list Z) : world := {| w_in := i; w_out := []; w_calls := 0 |}.

(** C32 Buffered sending transmits exactly the messages, in order (queries and
    responses; then onion ciphers). *)
Theorem C32_send_messages : forall k w sz unit m msgs,
  kernel_ok k -> (0 < unit <= sz)%nat -> length m = sz -> Forall (fun v => length v = unit) msgs ->
  exists m' w', send_batch lb_ops k w (lb_make sz unit) m msgs = Ok (lb_make sz unit, m', w') /\
    length m' = sz /\ w_in w' = w_in w /\ w_out w' = w_out w ++ concat msgs.
Proof. exact lb_send. Qed.
Print Assumptions C32_send_messages.
Theorem C32_send_ciphers : forall k w sz unit m msgs,
  kernel_ok k -> (0 < unit <= sz)%nat -> length m = sz -> Forall (fun v => length v = unit) msgs ->
  exists m' w', send_batch cl_ops k w (cl_make sz unit) m msgs = Ok (cl_make sz unit, m', w') /\
    length m' = sz /\ w_in w' = w_in w /\ w_out w' = w_out w ++ concat msgs.
Proof. exact cl_send. Qed.
Print Assumptions C32_send_ciphers.
Theorem C32_control_messages : forall k w n, kernel_ok k ->
  (exists w', send_count k w n = Ok w' /\ w_in w' = w_in w /\ w_out w' = w_out w ++ le 4 n) /\
  (exists w', send_ready k w = Ok w' /\ w_in w' = w_in w /\ w_out w' = w_out w ++ [1]).
Proof. intros k w n H. split; [exact (send_count_spec k w n H)|exact (send_ready_spec k w H)]. Qed.
Print Assumptions C32_control_messages.
Example C32_example :
  (let* r := send_batch lb_ops ex_kernel (ex_world []) (lb_make 7 3) (repeat 0 7) [[1;2;3];[4;5;6];[7;8;9]] in
   Ok (w_out (snd r))) = Ok [1;2;3;4;5;6;7;8;9].
Proof. reflexivity. Qed.

(** C33 Buffered reading reassembles messages under every fragmentation. *)
Theorem C33_read_messages : forall k fuel w sz unit m msgs rest,
  kernel_ok k -> (0 < unit <= sz)%nat -> Z.of_nat unit < 2 ^ 32 -> length m = sz ->
  Forall (fun v => length v = unit) msgs -> Z.of_nat (length msgs) < 2 ^ 32 ->
  (length msgs * unit <= fuel)%nat -> w_in w = concat msgs ++ rest ->
  exists b' m' w', read_batch lb_ops k fuel w (length msgs) (lb_make sz unit) m = Ok (msgs, b', m', w').
Proof.
  intros k fuel w sz unit m msgs rest H1 H2 H3 H4 H5 H6 H7 H8.
  destruct (lb_read k fuel w sz unit m msgs rest H1 H2 H3 H4 H5 H6 H7 H8) as (m' & w' & E & _). eauto.
Qed.
Print Assumptions C33_read_messages.
Theorem C33_read_ciphers : forall k fuel w sz unit m msgs rest,
  kernel_ok k -> (0 < unit <= sz)%nat -> Z.of_nat unit < 2 ^ 32 -> length m = sz ->
  Forall (fun v => length v = unit) msgs -> Z.of_nat (length msgs) < 2 ^ 32 ->
  (length msgs * unit <= fuel)%nat -> w_in w = concat msgs ++ rest ->
  exists b' m' w', read_batch cl_ops k fuel w (length msgs) (cl_make sz unit) m = Ok (msgs, b', m', w').
Proof.
  intros k fuel w sz unit m msgs rest H1 H2 H3 H4 H5 H6 H7 H8.
  destruct (cl_read k fuel w sz unit m msgs rest H1 H2 H3 H4 H5 H6 H7 H8) as (m' & w' & E & _). eauto.
Qed.
Print Assumptions C33_read_ciphers.
Example C33_example :
  (let* (xs, _, _, w) := read_batch lb_ops ex_kernel 9 (ex_world [1;2;3;4;5;6;7;8;9;10]) 3 (lb_make 7 3) (repeat 0 7) in
   Ok (xs, w_in w)) = Ok ([[1;2;3];[4;5;6];[7;8;9]], [10]).
Proof. reflexivity. Qed.

(** C34 A completed batch leaves nothing behind and takes nothing extra. *)
Theorem C34_message_boundary : forall k fuel w sz unit m msgs rest,
  kernel_ok k -> (0 < unit <= sz)%nat -> Z.of_nat unit < 2 ^ 32 -> length m = sz ->
  Forall (fun v => length v = unit) msgs -> Z.of_nat (length msgs) < 2 ^ 32 ->
  (length msgs * unit <= fuel)%nat -> w_in w = concat msgs ++ rest ->
  (exists m' w', read_batch lb_ops k fuel w (length msgs) (lb_make sz unit) m = Ok (msgs, lb_make sz unit, m', w') /\
     length m' = sz /\ w_in w' = rest /\ w_out w' = w_out w) /\
  (exists m' w', read_batch cl_ops k fuel w (length msgs) (cl_make sz unit) m = Ok (msgs, cl_make sz unit, m', w') /\
     length m' = sz /\ w_in w' = rest /\ w_out w' = w_out w).
Proof.
  intros k fuel w sz unit m msgs rest H1 H2 H3 H4 H5 H6 H7 H8.
  exact (conj (lb_read k fuel w sz unit m msgs rest H1 H2 H3 H4 H5 H6 H7 H8)
              (cl_read k fuel w sz unit m msgs rest H1 H2 H3 H4 H5 H6 H7 H8)).
Qed.
Print Assumptions C34_message_boundary.
(** Ciphers, a ready byte, queries through another logical buffer over the same
    memory, a count: each phase gets exactly its bytes. *)
Theorem C34_phases : forall a k fuel w sz uc uq m ciphers queries n rest,
  kernel_ok k -> (0 < uc <= sz)%nat -> (0 < uq <= sz)%nat -> Z.of_nat sz < 2 ^ 32 -> length m = sz ->
  Forall (fun v => length v = uc) ciphers -> Forall (fun v => length v = uq) queries -> u32 n ->
  Z.of_nat (length ciphers) < 2 ^ 32 -> Z.of_nat (length queries) < 2 ^ 32 ->
  (length ciphers * uc <= fuel)%nat -> (length queries * uq <= fuel)%nat -> (4 <= fuel)%nat ->
  w_in w = concat ciphers ++ 1 :: concat queries ++ le 4 n ++ rest ->
  exists w', w_in w' = rest /\
   (let* (cs, _, m1, w1) := read_batch cl_ops k fuel w (length ciphers) (cl_make sz uc) m in
    let* w2 := wait_ready a k fuel w1 in
    let* (qs, _, m2, w3) := read_batch lb_ops k fuel w2 (length queries) (lb_make sz uq) m1 in
    let* (c, w4) := read_count_ k fuel w3 in
    Ok (cs, qs, c, w4)) = Ok (ciphers, queries, n, w').
Proof. exact c34_phases. Qed.
Print Assumptions C34_phases.
(** The ready byte: with assertions the waiting side goes on exactly when the
    byte is 1 and otherwise aborts; without them it goes on whatever the byte;
    it takes one byte from the stream, and waits for ever when there is none. *)
Theorem C34_ready_byte : forall a k fuel w, kernel_ok k -> (1 <= fuel)%nat ->
  match w_in w with
  | [] => wait_ready a k fuel w = NoFuel
  | x :: rest =>
      (a = true -> x <> 1 -> wait_ready a k fuel w = Abort) /\
      (a = false \/ x = 1 -> exists w', wait_ready a k fuel w = Ok w' /\ w_in w' = rest /\ w_out w' = w_out w)
  end.
Proof.
  intros a k fuel w Hk Hf. destruct (w_in w) as [|x rest] eqn:E; [apply wait_ready_short; assumption|].
  pose proof (wait_ready_byte a k fuel w x rest Hk Hf E) as H. destruct (Z.eqb_spec x 1) as [->|Hx], a; cbn in H;
    (split; [|intros [H1|H1]]); try discriminate; try contradiction; auto.
Qed.
Print Assumptions C34_ready_byte.
Example C34_ready_example : wait_ready true ex_kernel 1 (ex_world [0; 1]) = Abort /\
  (let* w := wait_ready false ex_kernel 1 (ex_world [0; 1]) in Ok (w_in w)) = Ok [1] /\
  (let* w := wait_ready true ex_kernel 1 (ex_world [1; 1]) in Ok (w_in w)) = Ok [1].
Proof. repeat split. Qed.
Example C34_example :
  w_in (ex_world ([9;8;7;6] ++ 1 :: [5;4;3] ++ le 4 258 ++ [77])) =
  concat [[9;8];[7;6]] ++ 1 :: concat [[5];[4];[3]] ++ le 4 258 ++ [77].
Proof. reflexivity. Qed.

(** C35 A closed connection is never noticed: with too few bytes in the stream
    the loops are still looping after any number of iterations. *)
Theorem C35_batch_read_loops : forall k sz unit m count w, kernel_ok k -> (0 < unit <= sz)%nat ->
  Z.of_nat unit < 2 ^ 32 -> length m = sz -> Z.of_nat count < 2 ^ 32 ->
  (length (w_in w) < count * unit)%nat -> forall fuel,
  read_batch lb_ops k fuel w count (lb_make sz unit) m = NoFuel /\
  read_batch cl_ops k fuel w count (cl_make sz unit) m = NoFuel.
Proof.
  intros k sz unit m count w H1 H2 H3 H4 H5 H6 fuel.
  exact (conj (lb_read_short k fuel w sz unit m count H1 H2 H3 H4 H5 H6) (cl_read_short k fuel w sz unit m count H1 H2 H3 H4 H5 H6)).
Qed.
Print Assumptions C35_batch_read_loops.
Theorem C35_exact_read_loops : forall k off size, kernel_ok k -> forall fuel m bytes w,
  (off + size <= length m)%nat -> (bytes + length (w_in w) < size)%nat ->
  read_exact k fuel w m off bytes size = NoFuel.
Proof. exact read_exact_short. Qed.
Print Assumptions C35_exact_read_loops.
Example C35_example : read_batch lb_ops ex_kernel 1000 (ex_world [1;2;3;4;5;6;7;8]) 3 (lb_make 7 3) (repeat 0 7) = NoFuel /\
  read_exact ex_kernel 1000 (ex_world [1;2;3]) (repeat 0 4) 0 0 4 = NoFuel.
Proof. split; reflexivity. Qed.
