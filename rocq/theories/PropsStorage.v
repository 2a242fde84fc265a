(** Property theorems C36-C38, C56: cipher batches, secret stores, database. *)
From Verif Require Import Base Incremental Wire Onion OnionProofs State Database CipherBatch Spec Toy CipherBatchProofs StateProofs.

(** C36 In-place onion processing never overwrites an unread cipher.  Pushing
    peeled and unpeeled ciphers in any interleaving and then running the
    processing loop behaves, in every outcome, like handling the input ciphers
    one by one on separate copies; afterwards the batch holds the peeled noise
    ciphers followed by the peeled inputs in arrival order. *)
Theorem C36_in_place_processing : forall (S : Type) (handle : S -> list Z -> res (S * list Z)) s l ops st fuel,
  (s <= l)%nat -> (0 < l)%nat -> (length (rights ops) <= fuel)%nat ->
  Forall (fun c => length c = s) (lefts ops) -> Forall (fun c => length c = l) (rights ops) ->
  (forall st c junk, In c (rights ops) -> handle st (c ++ junk) = handle st c) ->
  (forall st c st' o, In c (rights ops) -> handle st c = Ok (st', o) -> length o = s) ->
  exists b, push_all (cb_initialize s l (length (lefts ops)) (length (rights ops))) ops = Ok b /\
  match peel_all handle st (rights ops) with
  | Ok (st', outs) => exists b', cb_process handle fuel b st = Ok (b', st') /\ cb_has_long b' = false /\
      length outs = length (rights ops) /\
      forall i x, nth_error (lefts ops ++ outs) i = Some x -> cb_get_short b' i = Ok x
  | Abort => cb_process handle fuel b st = Abort
  | UB => cb_process handle fuel b st = UB
  | NoFuel => cb_process handle fuel b st = NoFuel
  end.
Proof. exact @c36. Qed.
Print Assumptions C36_in_place_processing.
Definition ex_handle (st : list (list Z)) (m : list Z) : res (list (list Z) * list Z) :=
  let* c := rd m 0 3 in Ok (st ++ [c], firstn 2 (rev c)).
Example C36_example :
  (let* b := push_all (cb_initialize 2 3 1 2) [inr [1;2;3]; inl [8;9]; inr [4;5;6]] in
   let* r := cb_process ex_handle 2 b [] in
   let* x := map_res (cb_get_short (fst r)) [0;1;2]%nat in Ok (snd r, x)) =
  Ok ([[1;2;3];[4;5;6]], [[8;9];[3;2];[6;5]]).
Proof. vm_compute. reflexivity. Qed.

(** C37 The client uses its stored secrets first-in first-out. *)
Theorem C37_client_fifo : forall c pc (l : list (Z * list ishare * list Z)), Z.of_nat (length l) < 2 ^ 32 ->
  exists c0 c1, cs_initialize c pc (Z.of_nat (length l)) false false = Ok c0 /\
    store_all c0 l = Ok c1 /\
    (forall i tag incs mask, nth_error l i = Some (tag, incs, mask) ->
       cs_get_tag (load_times (S i) c1) = Ok tag /\
       cs_get_incs (load_times (S i) c1) = Ok incs /\
       forall m, cs_get_pre (load_times (S i) (cs_finish (load_times m c1))) = Ok mask) /\
    (forall n, (n = 0)%nat \/ Z.of_nat (length l) < Z.of_nat n <= 2 ^ 32 ->
       cs_get_tag (load_times n c1) = UB /\ cs_get_incs (load_times n c1) = UB /\
       forall m, cs_get_pre (load_times n (cs_finish (load_times m c1))) = UB) /\
    (forall x, store_all c1 [x] = UB).
Proof. exact c37. Qed.
Print Assumptions C37_client_fifo.
Theorem C37_noise_fifo : forall c pc (l : list (Z * list ishare)), Z.of_nat (length l) < 2 ^ 32 ->
  exists c0 c1, cs_initialize c pc (Z.of_nat (length l)) true false = Ok c0 /\
    store_noise c0 l = Ok c1 /\
    (forall i tag incs, nth_error l i = Some (tag, incs) ->
       cs_get_tag (load_times (S i) c1) = Ok tag /\
       cs_get_incs (load_times (S i) c1) = Ok incs).
Proof. exact c37_noise. Qed.
Print Assumptions C37_noise_fifo.
(** With a simulated offline stage every read yields the identity secret. *)
Theorem C37_simulated : forall c pc count noise n,
  exists c0, cs_initialize c pc count noise true = Ok c0 /\
    cs_get_tag (load_times n c0) = Ok 0 /\
    cs_get_incs (load_times n c0) = Ok (repeat {| sx := 0; sy := 1 |} pc) /\
    (noise = false -> forall m, cs_get_pre (load_times n (cs_finish (load_times m c0))) = Ok (repeat 0 52)).
Proof. exact c37_simulated. Qed.
Print Assumptions C37_simulated.
Example C37_example :
  (let* c0 := cs_initialize cs_new 2 2 false false in
   let* c1 := store_all c0 [(7, [], [1]); (9, [], [2])] in
   let* t := cs_get_tag (load_times 2 c1) in
   let* p := cs_get_pre (load_times 1 (cs_finish (load_times 2 c1))) in Ok (t, p)) = Ok (9, [1]).
Proof. vm_compute. reflexivity. Qed.

(** C38 The tag-indexed secret store returns what was installed. *)
Theorem C38_party_store : forall asserts (l : list osecret), NoDup (map o_tag l) ->
  exists p, install_all asserts (qs_initialize_state qs_new false) l = Ok p /\
    length (qs_map p) = length l /\
    (forall o, In o l ->
       qs_next_tag (qs_load p (o_tag o)) = Ok (o_next o) /\
       qs_incremental (qs_load p (o_tag o)) = Ok (o_share o) /\
       qs_preshare p (o_tag o) = Ok (o_preshare o)) /\
    (forall t, ~ In t (map o_tag l) ->
       qs_next_tag (qs_load p t) = UB /\ qs_incremental (qs_load p t) = UB /\ qs_preshare p t = Abort).
Proof. exact c38. Qed.
Print Assumptions C38_party_store.
Theorem C38_backend_store : forall asserts (l : list osecret), NoDup (map o_tag l) ->
  exists p, install_all_backend asserts (qs_initialize_state qs_new false) l = Ok p /\
    length (qs_map p) = length l /\
    (forall o, In o l ->
       qs_incremental (qs_load p (o_tag o)) = Ok (o_share o) /\
       bs_preshare (qs_load p (o_tag o)) = Ok (o_preshare o)) /\
    (forall t, ~ In t (map o_tag l) ->
       qs_incremental (qs_load p t) = UB /\ bs_preshare (qs_load p t) = UB).
Proof. exact c38_backend. Qed.
Print Assumptions C38_backend_store.
Theorem C38_duplicate_aborts : forall l : list osecret, ~ NoDup (map o_tag l) ->
  install_all true (qs_initialize_state qs_new false) l = Abort /\
  install_all_backend true (qs_initialize_state qs_new false) l = Abort.
Proof. exact c38_dup. Qed.
Print Assumptions C38_duplicate_aborts.
(** Compiled without assertions, the first of several secrets with one tag is
    kept and the others are silently dropped. *)
Theorem C38_duplicate_ndebug : forall l1 (o : osecret) l2, ~ In (o_tag o) (map o_tag l1) ->
  exists p, install_all false (qs_initialize_state qs_new false) (l1 ++ o :: l2) = Ok p /\
    qs_next_tag (qs_load p (o_tag o)) = Ok (o_next o) /\
    qs_incremental (qs_load p (o_tag o)) = Ok (o_share o) /\
    qs_preshare p (o_tag o) = Ok (o_preshare o).
Proof. exact c38_ndebug. Qed.
Print Assumptions C38_duplicate_ndebug.
Example C38_example : NoDup (map o_tag [toy_secret 1; toy_secret 2]) /\ ~ NoDup (map o_tag [toy_secret 1; toy_secret 2; toy_secret 1]).
Proof.
  split.
  - repeat constructor; cbn; intuition lia.
  - intros H. inversion H as [|? ? H1 _]. apply H1. cbn. auto.
Qed.

(** C56 Database rows and bounds. *)
Theorem C56_database : forall n, Z.of_nat n < 2 ^ 32 ->
  exists db, db_create n = Ok db /\
    (forall k, 0 <= k < Z.of_nat n ->
       db_lookup db k = Ok {| r_value := (2 * k) mod 2 ^ 32; r_sig := repeat (k mod 128) 48 |} /\
       wf_response {| r_value := (2 * k) mod 2 ^ 32; r_sig := repeat (k mod 128) 48 |}) /\
    (forall k, Z.of_nat n <= k -> db_lookup db k = UB) /\
    (forall draw, (forall b, 2 <= b -> 0 <= draw b < b) -> (forall b, b < 2 -> draw b = 0) ->
       (0 < n)%nat -> 0 <= db_random_row db draw < Z.of_nat n).
Proof. exact c56. Qed.
Print Assumptions C56_database.
Example C56_example : (let* db := db_create 300 in let* r := db_lookup db 200 in Ok (r_value r, firstn 2 (r_sig r))) = Ok (400, [72; 72]).
Proof. vm_compute. reflexivity. Qed.
