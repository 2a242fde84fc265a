(** Property theorems C01-C12, C31, C59: secret sharing, onion encryption, wire
    formats.  Proofs are elsewhere. *)
From Verif Require Import Base Incremental Wire Additive Onion Sizes Spec
  WireProofs AdditiveProofs OnionProofs SharingProofs Toy.

(** C01 Incremental sharing reconstructs the query. *)
Theorem C01_incremental_roundtrip : forall rx ry n q,
  valid_draws rx ry n -> 0 <= q < 2 ^ 31 - 1 ->
  let shares := pre_incremental_secret_shares rx ry n in
  length shares = n /\
  exists t, generate_incremental_tally q shares = Ok t /\
            fold_left incremental_reconstruct shares t = q.
Proof. exact c01. Qed.
Print Assumptions C01_incremental_roundtrip.
Example C01_example : valid_draws (fun k => Z.of_nat k + 5) (fun k => Z.of_nat k + 7) 3 /\ 0 <= 123456 < 2 ^ 31 - 1.
Proof. split; [intros k Hk; unfold p31|]; lia. Qed.

(** C02 Exact key domain of incremental sharing. *)
Theorem C02_key_domain : forall rx ry n q,
  valid_draws rx ry n -> (0 < n)%nat -> 0 <= q < 2 ^ 32 ->
  let shares := pre_incremental_secret_shares rx ry n in
  exists t, generate_incremental_tally q shares = Ok t /\
            fold_left incremental_reconstruct shares t = q mod (2 ^ 31 - 1) /\
            (fold_left incremental_reconstruct shares t = q <-> q < 2 ^ 31 - 1).
Proof. exact c02. Qed.
Print Assumptions C02_key_domain.
Example C02_example : valid_draws (fun _ => 9) (fun _ => 4) 2 /\ 0 <= 2 ^ 31 + 5 < 2 ^ 32.
Proof. split; [intros k Hk; unfold p31|]; lia. Qed.

(** C03 Share arithmetic never wraps: reconstruction for arbitrary words... *)
Theorem C03_reconstruct_exact : forall t s, u32 t -> u32 (sx s) -> u32 (sy s) ->
  0 <= t * sy s < 2 ^ 64 /\ 0 <= t * sy s + sx s < 2 ^ 64 /\
  incremental_reconstruct t s = (t * sy s + sx s) mod (2 ^ 31 - 1).
Proof. exact c03_reconstruct. Qed.
Print Assumptions C03_reconstruct_exact.
Example C03_reconstruct_example : u32 (2 ^ 32 - 1) /\
  incremental_reconstruct (2 ^ 32 - 1) {| sx := 2 ^ 32 - 1; sy := 2 ^ 32 - 1 |} =
  ((2 ^ 32 - 1) * (2 ^ 32 - 1) + (2 ^ 32 - 1)) mod (2 ^ 31 - 1).
Proof. split; [unfold u32; lia | vm_compute; reflexivity]. Qed.

(** ...one step of tally generation: every intermediate value fits... *)
Theorem C03_tally_step_exact : forall t s, u32 t -> valid_share s ->
  exists i, mod_inverse (sy s) (2 ^ 31 - 1) = Ok i /\ (sy s * i) mod (2 ^ 31 - 1) = 1 /\
    0 <= t + (if t <? sx s then 2 ^ 31 - 1 else 0) - sx s < 2 ^ 64 /\
    0 <= (t + (if t <? sx s then 2 ^ 31 - 1 else 0) - sx s) * i < 2 ^ 64 /\
    tally_step t s = Ok (((t - sx s) * i) mod (2 ^ 31 - 1)).
Proof. exact c03_step. Qed.
Print Assumptions C03_tally_step_exact.

(** ...and the whole of tally generation returns (no undefined behaviour) the
    tally that exact arithmetic maps back to the query. *)
Theorem C03_tally_exact : forall q l, u32 q -> Forall valid_share l ->
  exists t, generate_incremental_tally q l = Ok t /\
    (l = [] -> t = q) /\
    (l <> [] -> 0 <= t < 2 ^ 31 - 1 /\ ideal_reconstruct t l = q mod (2 ^ 31 - 1)).
Proof. exact c03_tally. Qed.
Print Assumptions C03_tally_exact.
Example C03_example : u32 4294967295 /\ Forall valid_share [{| sx := 2147483646; sy := 2147483646 |}; {| sx := 0; sy := 1 |}].
Proof. split; [unfold u32; lia | repeat (constructor; [unfold valid_share, p31; cbn; lia|]); constructor]. Qed.

(** C04 The modular inverse exists, is unique, and is what is computed. *)
Theorem C04_mod_inverse : forall y, 1 <= y < 2 ^ 31 - 1 ->
  exists z, mod_inverse y (2 ^ 31 - 1) = Ok z /\
    forall w, 1 <= w < 2 ^ 31 - 1 /\ (y * w) mod (2 ^ 31 - 1) = 1 <-> w = z.
Proof. exact c04. Qed.
Print Assumptions C04_mod_inverse.
Example C04_example : mod_inverse 1000 (2 ^ 31 - 1) = Ok 36507222 /\ (1000 * 36507222) mod (2 ^ 31 - 1) = 1.
Proof. split; vm_compute; reflexivity. Qed.

(** C05 Any all-but-one set of incremental shares hides the query. *)
Theorem C05_tally_hides_query : forall pre post y t q,
  Forall valid_share pre -> Forall valid_share post -> 1 <= y < 2 ^ 31 - 1 ->
  0 <= t < 2 ^ 31 - 1 -> 0 <= q < 2 ^ 31 - 1 ->
  exists! x, 0 <= x < 2 ^ 31 - 1 /\
    generate_incremental_tally q (pre ++ {| sx := x; sy := y |} :: post) = Ok t.
Proof. exact c05. Qed.
Print Assumptions C05_tally_hides_query.
Example C05_example : Forall valid_share [{| sx := 3; sy := 4 |}] /\
  generate_incremental_tally 7 ([{| sx := 3; sy := 4 |}] ++ [{| sx := 11; sy := 5 |}]) = Ok 1825361099.
Proof. split; [repeat (constructor; [unfold valid_share, p31; cbn; lia|]); constructor | vm_compute; reflexivity]. Qed.

(** C06 Tampering with a tally always changes the key (reconstruction is a
    bijection of the residues)... *)
Theorem C06_tamper_injective : forall l t t', Forall valid_share l ->
  0 <= t < 2 ^ 31 - 1 -> 0 <= t' < 2 ^ 31 - 1 -> t <> t' ->
  fold_left incremental_reconstruct l t <> fold_left incremental_reconstruct l t'.
Proof. exact c06a. Qed.
Print Assumptions C06_tamper_injective.
Theorem C06_reconstruct_bijective : forall l, Forall valid_share l -> forall k, 0 <= k < 2 ^ 31 - 1 ->
  exists! t, 0 <= t < 2 ^ 31 - 1 /\ fold_left incremental_reconstruct l t = k.
Proof. exact c06c. Qed.
Print Assumptions C06_reconstruct_bijective.
(** ...and each non-zero key offset is caused by exactly one honest multiplier. *)
Theorem C06_tamper_unpredictable : forall pre post x t t' d,
  Forall valid_share pre -> Forall valid_share post -> 0 <= x < 2 ^ 31 - 1 ->
  0 <= t < 2 ^ 31 - 1 -> 0 <= t' < 2 ^ 31 - 1 -> t <> t' -> 1 <= d < 2 ^ 31 - 1 ->
  exists! y, 1 <= y < 2 ^ 31 - 1 /\
    (fold_left incremental_reconstruct (pre ++ {| sx := x; sy := y |} :: post) t' -
     fold_left incremental_reconstruct (pre ++ {| sx := x; sy := y |} :: post) t) mod (2 ^ 31 - 1) = d.
Proof. exact c06b. Qed.
Print Assumptions C06_tamper_unpredictable.
Example C06_example : Forall valid_share [{| sx := 3; sy := 4 |}; {| sx := 2147483646; sy := 2 |}] /\
  fold_left incremental_reconstruct [{| sx := 3; sy := 4 |}; {| sx := 2147483646; sy := 2 |}] 10 = 85.
Proof. split; [repeat (constructor; [unfold valid_share, p31; cbn; lia|]); constructor | vm_compute; reflexivity]. Qed.

(** C07 Additive masks cancel, in any order. *)
Theorem C07_masks_cancel : forall draws n order r,
  (0 < n)%nat -> length draws = (n - 1)%nat -> Forall (bytes 52) draws -> bytes 52 r ->
  exists shares, generate_additive_secret_shares draws n = Ok shares /\ length shares = n /\
    (Permutation shares order -> fold_res additive_reconstruct order r = Ok r).
Proof. exact c07_cancel. Qed.
Print Assumptions C07_masks_cancel.
Example C07_example : Forall (bytes 52) [repeat 7 52; repeat 200 52] /\ bytes 52 (repeat 31 52) /\
  (let shares := [repeat 7 52; repeat 200 52; repeat (Z.lxor 7 200) 52] in
   generate_additive_secret_shares [repeat 7 52; repeat 200 52] 3 = Ok shares).
Proof.
  assert (H : forall z, 0 <= z < 256 -> bytes 52 (repeat z 52)).
  { intros z Hz; split; [reflexivity|]. apply Forall_forall; intros x Hx; apply repeat_spec in Hx; subst; exact Hz. }
  split; [repeat constructor; try apply H; unfold byte; lia|]. split; [apply H; lia|]. vm_compute; reflexivity.
Qed.

(** C08 Any all-but-one set of additive masks hides the response. *)
Theorem C08_masked_response_hides : forall pre post r c,
  Forall (bytes 52) pre -> Forall (bytes 52) post -> bytes 52 r -> bytes 52 c ->
  exists! m, bytes 52 m /\ fold_res additive_reconstruct (pre ++ m :: post) r = Ok c.
Proof. exact c08_masked. Qed.
Print Assumptions C08_masked_response_hides.
Theorem C08_all_but_one_arbitrary : forall n i others,
  (i < n)%nat -> length others = (n - 1)%nat -> Forall (bytes 52) others ->
  exists! draws, (length draws = (n - 1)%nat /\ Forall (bytes 52) draws) /\
    exists shares, generate_additive_secret_shares draws n = Ok shares /\ without i shares = others.
Proof. exact c08_any. Qed.
Print Assumptions C08_all_but_one_arbitrary.
Example C08_example : fold_res additive_reconstruct [repeat 1 52; repeat 2 52] (repeat 4 52) = Ok (repeat 7 52).
Proof. vm_compute; reflexivity. Qed.

(** C09 Masking acts on every byte, in place or not, and touches nothing else. *)
Theorem C09_mask_every_byte : forall m resp share target,
  Forall byte m ->
  (resp + 52 <= length m)%nat -> (share + 52 <= length m)%nat -> (target + 52 <= length m)%nat ->
  (target = resp \/ (target + 52 <= resp)%nat \/ (resp + 52 <= target)%nat) ->
  ((target + 52 <= share)%nat \/ (share + 52 <= target)%nat) ->
  exists m', additive_reconstruct_mem m resp share target = Ok m' /\
    length m' = length m /\
    firstn target m' = firstn target m /\
    skipn (target + 52) m' = skipn (target + 52) m /\
    firstn 52 (skipn target m') =
      xor_bytes (firstn 52 (skipn resp m)) (firstn 52 (skipn share m)).
Proof. exact c09. Qed.
Print Assumptions C09_mask_every_byte.
Example C09_example : additive_reconstruct_mem (repeat 3 52 ++ repeat 5 52 ++ [9]) 0 52 0 =
  Ok (repeat 6 52 ++ repeat 5 52 ++ [9]).
Proof. vm_compute; reflexivity. Qed.

(** C10 Onion encryption peels layer by layer. *)
Theorem C10_onion_peels : forall b coins j1 j2 secrets first count pkeys skeys,
  (first + length secrets)%nat = count -> (count <= 255)%nat ->
  length pkeys = count -> length skeys = count -> Forall wf_osecret secrets ->
  (forall k pk sk, nth_error pkeys k = Some pk -> nth_error skeys k = Some sk -> box_ok b pk sk) ->
  exists c, onion_encrypt b true coins j1 j2 secrets first count pkeys = Ok c /\
    length c = (124 * length secrets)%nat /\ Forall byte c /\
    opens_layer_by_layer b (skipn first (combine pkeys skeys)) secrets c.
Proof. exact onion_encrypt_spec. Qed.
Print Assumptions C10_onion_peels.
Example C10_example : (forall pk sk, box_ok toy_box pk sk) /\ Forall wf_osecret [toy_secret 1; toy_secret 2].
Proof. exact toy_ok. Qed.

(** C11 Cipher sizes agree everywhere. *)
Theorem C11_sizes_agree : forall pc pid, (1 <= pc <= 255)%nat -> (pid < pc)%nat ->
  client_out_size pc = party_in_size pc 0 /\
  party_in_size pc pid = (124 * (pc - pid))%nat /\
  party_in_size pc pid = (party_out_size pc pid + 124)%nat /\
  ((pid + 1 < pc)%nat -> party_out_size pc pid = party_in_size pc (pid + 1)) /\
  (pid = (pc - 1)%nat -> party_in_size pc pid = backend_in_size) /\
  (1 <= units_per_buffer (party_in_size pc pid))%nat /\
  ((pid + 1 < pc)%nat -> (1 <= units_per_buffer (party_out_size pc pid))%nat).
Proof. exact c11. Qed.
Print Assumptions C11_sizes_agree.
Theorem C11_encrypt_size : forall b coins j1 j2 secrets first count pkeys skeys c,
  (first + length secrets)%nat = count -> (count <= 255)%nat ->
  length pkeys = count -> length skeys = count -> Forall wf_osecret secrets ->
  (forall k pk sk, nth_error pkeys k = Some pk -> nth_error skeys k = Some sk -> box_ok b pk sk) ->
  onion_encrypt b true coins j1 j2 secrets first count pkeys = Ok c ->
  length c = (124 * (count - first))%nat.
Proof. exact c11_lengths. Qed.
Print Assumptions C11_encrypt_size.
Example C11_example : party_in_size 3 0 = 372%nat /\ party_out_size 3 0 = 248%nat /\ party_in_size 3 1 = 248%nat.
Proof. repeat split; vm_compute; reflexivity. Qed.

(** C12 Without assertions nothing is encrypted (sealing with assertions is C10). *)
Theorem C12_ndebug_not_encrypted : forall b b' coins coins' j1 j2 secrets first count pkeys pkeys',
  (first + length secrets)%nat = count -> (count <= 255)%nat -> Forall wf_osecret secrets ->
  exists c,
    onion_encrypt b false coins j1 j2 secrets first count pkeys = Ok c /\
    onion_encrypt b' false coins' j1 j2 secrets first count pkeys' = Ok c /\
    length c = (124 * length secrets)%nat /\
    (forall k s, Nat.odd k = true -> nth_error secrets k = Some s ->
      dec_osecret (firstn 76 (skipn (124 * k + 48) c)) = s).
Proof. exact c12_ndebug. Qed.
Print Assumptions C12_ndebug_not_encrypted.
Theorem C12_ndebug_first_secret_lost : forall b coins j1 j2 s s' rest first count pkeys,
  (first + S (length rest))%nat = count -> (count <= 255)%nat ->
  Forall wf_osecret (s :: rest) -> wf_osecret s' ->
  onion_encrypt b false coins j1 j2 (s :: rest) first count pkeys =
  onion_encrypt b false coins j1 j2 (s' :: rest) first count pkeys.
Proof. exact c12_first_lost. Qed.
Print Assumptions C12_ndebug_first_secret_lost.
Example C12_example : Forall wf_osecret [toy_secret 1; toy_secret 2; toy_secret 3] /\
  (let* c := onion_encrypt toy_box false (fun _ => O) (fun _ => 0) (fun _ => 0)
     [toy_secret 1; toy_secret 2; toy_secret 3] 0 3 [] in
   Ok (dec_osecret (firstn 76 (skipn (124 + 48) c)))) = Ok (toy_secret 2).
Proof. exact toy_ndebug. Qed.

(** C31 Wire formats round-trip. *)
Theorem C31_response_roundtrip : forall r, wf_response r ->
  length (enc_response r) = 52%nat /\ dec_response (enc_response r) = r.
Proof. exact response_roundtrip. Qed.
Theorem C31_query_roundtrip : forall q, wf_query q ->
  length (enc_query q) = 12%nat /\ dec_query (enc_query q) = q.
Proof. exact query_roundtrip. Qed.
Theorem C31_secret_roundtrip : forall s, wf_osecret s ->
  length (enc_osecret s) = 76%nat /\ dec_osecret (enc_osecret s) = s.
Proof. exact osecret_roundtrip. Qed.
Print Assumptions C31_response_roundtrip.
Print Assumptions C31_query_roundtrip.
Print Assumptions C31_secret_roundtrip.
Example C31_example : wf_query {| q_tag := 2 ^ 40 + 1; q_tally := 258 |} /\
  enc_query {| q_tag := 2 ^ 40 + 1; q_tally := 258 |} = [1;0;0;0;0;1;0;0;2;1;0;0].
Proof. split; [unfold wf_query, u64, u32; cbn; lia | vm_compute; reflexivity]. Qed.

(** C59 Response equality is exact. *)
Theorem C59_response_equal : forall l r, wf_response l -> wf_response r ->
  exists b, response_eqb l r = Ok b /\ (b = true <-> l = r).
Proof. exact response_eqb_spec. Qed.
Theorem C59_response_not_equal : forall l r, wf_response l -> wf_response r ->
  exists b, response_neqb l r = Ok b /\ (b = true <-> l <> r).
Proof. exact response_neqb_spec. Qed.
Print Assumptions C59_response_equal.
Print Assumptions C59_response_not_equal.
Example C59_example : wf_response {| r_value := 5; r_sig := repeat 0 48 |} /\
  response_eqb {| r_value := 5; r_sig := repeat 0 48 |} {| r_value := 5; r_sig := repeat 0 47 ++ [1] |} = Ok false.
Proof.
  split; [|vm_compute; reflexivity]. split; [unfold u32; cbn; lia|]. split; [reflexivity|].
  apply Forall_forall; intros x Hx; apply repeat_spec in Hx; subst; unfold byte; lia.
Qed.
