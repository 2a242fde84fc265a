(** Message handlers shared by the roles: making secrets, making queries,
    handling queries and responses. *)
From Verif Require Import Base Incremental Wire Additive Onion State Database.

(** std::vector::at throws when out of range. *)
Definition at_ {A} (l : list A) (i : nat) : res A := match nth_error l i with Some a => Ok a | None => Abort end.

(** The random choices of one process while it makes its secrets; the first
    argument is the number of the secret.  [rn_x], [rn_y]: randombytes_uniform
    in sharing/incremental.cc:35-36; [rn_masks]: randombytes_buf in
    sharing/additive.cc:31; [rn_coins]: ephemeral keys of the sealed boxes;
    [rn_junk1], [rn_junk2]: uninitialised buffers of onion/onion.cc:36-37. *)
Record rand := {
  rn_x : nat -> nat -> Z; rn_y : nat -> nat -> Z;
  rn_masks : nat -> list (list Z);
  rn_coins : nat -> nat -> nat;
  rn_junk1 : nat -> nat -> Z; rn_junk2 : nat -> nat -> Z
}.

(** client/client_handlers.cc:33-40, party/party_handlers.cc:31-38,
    parallel_party/parallel_party_handlers.cc: the loop filling the secrets of
    all recipients; [next] is the value of SampleTag(id), which the loop calls
    again in every round.  Also returns the final value of [tag]. *)
Fixpoint secret_loop (incs : list ishare) (pres : list (list Z)) (next : Z) (n i : nat) (tag : Z)
  : res (list osecret * Z) :=
  match n with
  | O => Ok ([], tag)
  | S n' =>
      let* inc := at_ incs i in
      let* pre := at_ pres i in
      let* r := secret_loop incs pres next n' (S i) next in
      Ok ({| o_tag := tag; o_next := next; o_share := inc; o_preshare := pre |} :: fst r, snd r)
  end.

(** client/client_handlers.cc:13-18  Client::SampleTag: uint8_t * uint32_t +
    uint32_t, then widened to uint64_t. *)
Definition client_sample_tag (server_id queries_count id : Z) : Z := w32 (w32 (server_id * queries_count) + id).

(** client/client_handlers.cc:22-48  Client::MakeSecret *)
Definition client_make_secret (server_id queries_count : Z) (party_count : nat) (r : rand)
    (st : cstate) (id : nat) : res (list osecret * cstate) :=
  let tag := client_sample_tag server_id queries_count (Z.of_nat id) in
  let incs := pre_incremental_secret_shares (rn_x r id) (rn_y r id) party_count in
  let* pres := generate_additive_secret_shares (rn_masks r id) (party_count + 1) in
  let* s := secret_loop incs pres tag party_count 0 tag in
  let* mask := at_ pres party_count in
  let* st' := cs_add st (snd s) incs mask in
  Ok (fst s, st').

(** party/party_handlers.cc:18-45  Party::MakeNoiseSecret; [tag] is
    SampleTag(id), [remaining] the number of later parties. *)
Definition make_noise_secret (tag : Z) (remaining : nat) (r : rand)
    (st : cstate) (id : nat) : res (list osecret * cstate) :=
  let incs := pre_incremental_secret_shares (rn_x r id) (rn_y r id) remaining in
  let* pres := generate_additive_secret_shares (rn_masks r id) (remaining + 1) in
  let* s := secret_loop incs pres tag remaining 0 tag in
  let* st' := cs_add_noise st (snd s) incs in
  Ok (fst s, st').

(** client/client_handlers.cc:51-59  MakeQuery, party/party_handlers.cc:48-55
    MakeNoiseQuery *)
Definition make_query (st : cstate) (key : Z) : res (query * cstate) :=
  let st' := cs_load_next st in
  let* tag := cs_get_tag st' in
  let* incs := cs_get_incs st' in
  let* tally := generate_incremental_tally key incs in
  Ok ({| q_tag := tag; q_tally := tally |}, st').

(** client/client_handlers.cc:62-67  ReconstructResponse (in place); responses
    are given by their memory image. *)
Definition client_reconstruct (st : cstate) (resp : list Z) : res (list Z * cstate) :=
  let st' := cs_load_next st in
  let* pre := cs_get_pre st' in
  let* r := additive_reconstruct resp pre in
  Ok (r, st').

(** party/party_handlers.cc:58-66  HandleQuery *)
Definition handle_query (p : qstate) (q : query) : res (query * qstate) :=
  let p' := qs_load p (q_tag q) in
  let* next := qs_next_tag p' in
  let* inc := qs_incremental p' in
  Ok ({| q_tag := next; q_tally := incremental_reconstruct (q_tally q) inc |}, p').

(** AdditiveReconstruct(input, share, &target) with three separate objects:
    memory = input, share, target (whose old contents are [old]). *)
Definition additive_reconstruct_to (input share old : list Z) : res (list Z) :=
  let* m := additive_reconstruct_mem (input ++ share ++ old) 0 (length input) (length input + length share) in
  rd m (length input + length share) (length old).

(** party/party_handlers.cc:69-74  HandleResponse *)
Definition handle_response (p : qstate) (tag : Z) (input target : list Z) : res (list Z) :=
  let* pre := qs_preshare p tag in
  additive_reconstruct_to input pre target.

(** backend/backend_handlers.cc:19-35  BackendParty::HandleQuery; [junk] is the
    uninitialised local "response".  Also returns the key that was looked up. *)
Definition backend_handle_query (db : list response) (junk : list Z) (p : qstate) (q : query)
  : res (Z * list Z * qstate) :=
  let p' := qs_load p (q_tag q) in
  let* inc := qs_incremental p' in
  let key := incremental_reconstruct (q_tally q) inc in
  let* value := db_lookup db key in
  let* pre := bs_preshare p' in
  let* r := additive_reconstruct_to (enc_response value) pre junk in
  Ok (key, r, p').

(** backend/backend_handlers.cc:9-17  HandleOnionCipher *)
Definition backend_handle_cipher (b : sealbox) (asserts : bool) (pk sk : list Z) (p : qstate) (cipher : list Z)
  : res qstate :=
  let* layer := onion_decrypt b asserts cipher 1 pk sk in
  bs_store asserts p (fst layer).
