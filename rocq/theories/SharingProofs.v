(** Bridge lemmas between the lemmas about the sharing schemes and the wording
    of the property theorems. *)
From Verif Require Import Base BaseProofs Incremental IncrementalProofs Wire WireProofs
  Additive AdditiveProofs Onion OnionProofs Sizes Spec.

Lemma p31_val : p31 = PRIME.
Proof. rewrite PRIME_val. reflexivity. Qed.

Lemma valid_wf s : valid_share s <-> wf_share s.
Proof. unfold valid_share, wf_share. rewrite p31_val. reflexivity. Qed.
Lemma valid_wf_all l : Forall valid_share l <-> Forall wf_share l.
Proof.
  split; intros H; (eapply Forall_impl; [|exact H]); intros; apply valid_wf; assumption.
Qed.

Lemma c01 rx ry n q : valid_draws rx ry n -> 0 <= q < p31 ->
  let shares := pre_incremental_secret_shares rx ry n in
  length shares = n /\
  exists t, generate_incremental_tally q shares = Ok t /\
            fold_left incremental_reconstruct shares t = q.
Proof.
  intros Hd Hq shares. unfold valid_draws in Hd. rewrite p31_val in *. split.
  - apply (pre_shares_wf rx ry n 0). intros k Hk. apply Hd. lia.
  - apply c01_roundtrip; assumption.
Qed.

Lemma c02 rx ry n q : valid_draws rx ry n -> (0 < n)%nat -> 0 <= q < 2 ^ 32 ->
  let shares := pre_incremental_secret_shares rx ry n in
  exists t, generate_incremental_tally q shares = Ok t /\
            fold_left incremental_reconstruct shares t = q mod p31 /\
            (fold_left incremental_reconstruct shares t = q <-> q < p31).
Proof. intros Hd Hn Hq shares. unfold valid_draws in Hd. rewrite p31_val in *. apply c02_domain; assumption. Qed.

Lemma ideal_eq l : forall t, u32 t -> Forall (fun s => u32 (sx s) /\ u32 (sy s)) l ->
  fold_left incremental_reconstruct l t = ideal_reconstruct t l.
Proof.
  induction l as [|s l IH]; intros t Ht Hl; [reflexivity|].
  inversion Hl as [|? ? [Hx Hy] Hl']; subst. unfold ideal_reconstruct in *. cbn [fold_left].
  destruct (reconstruct_eq t s Ht Hx Hy) as (E & _ & B).
  rewrite p31_val. rewrite <- E. rewrite IH; [rewrite p31_val; reflexivity| |assumption].
  rewrite PRIME_val in B. unfold u32. lia.
Qed.

Lemma valid_u32 l : Forall valid_share l -> Forall (fun s => u32 (sx s) /\ u32 (sy s)) l.
Proof. intros H; eapply Forall_impl; [|exact H]. unfold valid_share, u32, p31. intros; lia. Qed.

Lemma c03_reconstruct t s : u32 t -> u32 (sx s) -> u32 (sy s) ->
  0 <= t * sy s < 2 ^ 64 /\ 0 <= t * sy s + sx s < 2 ^ 64 /\
  incremental_reconstruct t s = (t * sy s + sx s) mod p31.
Proof.
  intros Ht Hx Hy. destruct (reconstruct_eq t s Ht Hx Hy) as (E & B & _). rewrite p31_val.
  split; [unfold u32 in *; nia|]. split; assumption.
Qed.

Lemma c03_step t s : u32 t -> valid_share s ->
  exists i, mod_inverse (sy s) p31 = Ok i /\ (sy s * i) mod p31 = 1 /\
    0 <= t + (if t <? sx s then p31 else 0) - sx s < 2 ^ 64 /\
    0 <= (t + (if t <? sx s then p31 else 0) - sx s) * i < 2 ^ 64 /\
    tally_step t s = Ok (((t - sx s) * i) mod p31).
Proof.
  intros Ht Hs. apply valid_wf in Hs. rewrite p31_val.
  destruct (tally_step_spec t s Ht Hs) as (i & E & B1 & B2 & T & _).
  destruct (mod_inverse_spec (sy s) (proj2 Hs)) as (z & E' & _ & Hz).
  rewrite E in E'. inversion E'; subst z.
  exists i. repeat split; try assumption; try lia.
Qed.

Lemma c03_tally q l : u32 q -> Forall valid_share l ->
  exists t, generate_incremental_tally q l = Ok t /\
    (l = [] -> t = q) /\ (l <> [] -> 0 <= t < p31 /\ ideal_reconstruct t l = q mod p31).
Proof.
  intros Hq Hl.
  destruct (generate_spec q l Hq (proj1 (valid_wf_all l) Hl)) as (t & E & Ht & Hb & Hr).
  exists t. split; [exact E|]. split.
  - intros ->. exact Hr.
  - intros Hne. rewrite p31_val at 1. split; [apply Hb; exact Hne|].
    rewrite <- ideal_eq by (try assumption; apply valid_u32; assumption).
    unfold reconstruct_all in Hr. rewrite Hr. rewrite p31_val. destruct l; [congruence|reflexivity].
Qed.

Lemma c04 y : 1 <= y < p31 ->
  exists z, mod_inverse y p31 = Ok z /\
    forall w, 1 <= w < p31 /\ (y * w) mod p31 = 1 <-> w = z.
Proof. rewrite p31_val. apply c04_inverse. Qed.

Lemma c05 pre post y t q :
  Forall valid_share pre -> Forall valid_share post -> 1 <= y < p31 ->
  0 <= t < p31 -> 0 <= q < p31 ->
  exists! x, 0 <= x < p31 /\
    generate_incremental_tally q (pre ++ {| sx := x; sy := y |} :: post) = Ok t.
Proof. rewrite p31_val, !valid_wf_all. apply c05_hiding. Qed.

Lemma c06a l t t' : Forall valid_share l -> 0 <= t < p31 -> 0 <= t' < p31 -> t <> t' ->
  fold_left incremental_reconstruct l t <> fold_left incremental_reconstruct l t'.
Proof. rewrite p31_val, valid_wf_all. apply c06_injective. Qed.

Lemma c06b pre post x t t' d :
  Forall valid_share pre -> Forall valid_share post -> 0 <= x < p31 ->
  0 <= t < p31 -> 0 <= t' < p31 -> t <> t' -> 1 <= d < p31 ->
  exists! y, 1 <= y < p31 /\
    (fold_left incremental_reconstruct (pre ++ {| sx := x; sy := y |} :: post) t' -
     fold_left incremental_reconstruct (pre ++ {| sx := x; sy := y |} :: post) t) mod p31 = d.
Proof. rewrite p31_val, !valid_wf_all. apply c06_unpredictable. Qed.

Lemma c06c l : Forall valid_share l -> forall k, 0 <= k < p31 ->
  exists! t, 0 <= t < p31 /\ fold_left incremental_reconstruct l t = k.
Proof.
  intros Hl k Hk. pose proof Hl as Hw. rewrite valid_wf_all in Hw. rewrite p31_val in *.
  destruct l as [|s l].
  - exists k. split; [split; [exact Hk|reflexivity]|]. intros t' [_ <-]. reflexivity.
  - assert (Hku : u32 k). { rewrite PRIME_val in Hk. unfold u32; lia. }
    destruct (generate_spec k (s :: l) Hku Hw) as (t & _ & _ & Hb & Hr).
    exists t. split; [split; [apply Hb; discriminate|]|].
    + unfold reconstruct_all in Hr. rewrite Hr. apply Z.mod_small. exact Hk.
    + intros t' [Ht' E']. destruct (Z.eq_dec t t') as [->|N]; [reflexivity|].
      exfalso. refine (c06_injective (s :: l) t t' Hw _ Ht' N _); [apply Hb; discriminate|].
      unfold reconstruct_all in *. rewrite Hr, E'. apply Z.mod_small. exact Hk.
Qed.

Lemma xor_bytes_eq a b : xor_bytes a b = xorl a b.
Proof. reflexivity. Qed.

Lemma c09 m resp share target :
  Forall byte m ->
  (resp + 52 <= length m)%nat -> (share + 52 <= length m)%nat -> (target + 52 <= length m)%nat ->
  (target = resp \/ (target + 52 <= resp)%nat \/ (resp + 52 <= target)%nat) ->
  ((target + 52 <= share)%nat \/ (share + 52 <= target)%nat) ->
  exists m', additive_reconstruct_mem m resp share target = Ok m' /\
    length m' = length m /\
    firstn target m' = firstn target m /\
    skipn (target + 52) m' = skipn (target + 52) m /\
    firstn 52 (skipn target m') =
      xor_bytes (firstn 52 (skipn resp m)) (firstn 52 (skipn share m)).
Proof.
  intros Hm H1 H2 H3 H4 H5.
  destruct (xor_mem_spec m resp share target 13 Hm) as (m' & E & L & B & N); try lia.
  exists m'. change (4 * 13)%nat with 52%nat in *.
  unfold additive_reconstruct_mem, PRESHARE_SIZE. split; [exact E|]. split; [exact L|].
  split; [|split].
  - apply nth_error_ext. intros i. rewrite !nth_error_firstn.
    destruct (Nat.ltb_spec i target) as [L1|L1]; [|reflexivity].
    rewrite N. destruct (Nat.leb_spec target i); [lia|]. reflexivity.
  - apply nth_error_ext. intros i. rewrite !nth_error_skipn, N.
    destruct (Nat.leb_spec target (target + 52 + i)); destruct (Nat.ltb_spec (target + 52 + i) (target + 52));
      try lia; reflexivity.
  - apply nth_error_ext. intros i. rewrite nth_error_firstn. unfold xor_bytes.
    destruct (Nat.ltb_spec i 52) as [L1|L1].
    + rewrite nth_error_skipn, N.
      destruct (Nat.leb_spec target (target + i)); [|lia].
      destruct (Nat.ltb_spec (target + i) (target + 52)); [|lia]. cbn [andb].
      replace (target + i - target)%nat with i by lia.
      destruct (nth_error m (resp + i)) as [x|] eqn:Ex; [|apply nth_error_None in Ex; lia].
      destruct (nth_error m (share + i)) as [y|] eqn:Ey; [|apply nth_error_None in Ey; lia].
      rewrite nth_error_map.
      assert (nth_error (combine (firstn 52 (skipn resp m)) (firstn 52 (skipn share m))) i = Some (x, y)) as ->; [|reflexivity].
      assert (Hc : forall (a b : list Z) j u v, nth_error a j = Some u -> nth_error b j = Some v -> nth_error (combine a b) j = Some (u, v)).
      { induction a as [|a0 a IHa]; intros [|b0 b] [|j] u v Ha Hb; cbn in *; try discriminate.
        - inversion Ha; inversion Hb; reflexivity.
        - apply IHa; assumption. }
      apply Hc; rewrite nth_error_firstn, nth_error_skipn;
        destruct (Nat.ltb_spec i 52); try lia; assumption.
    + symmetry. apply nth_error_None. rewrite map_length, combine_length, !firstn_length. lia.
Qed.

Lemma c11 pc pid : (1 <= pc <= 255)%nat -> (pid < pc)%nat ->
  client_out_size pc = party_in_size pc 0 /\
  party_in_size pc pid = (124 * (pc - pid))%nat /\
  party_in_size pc pid = (party_out_size pc pid + 124)%nat /\
  ((pid + 1 < pc)%nat -> party_out_size pc pid = party_in_size pc (pid + 1)) /\
  (pid = (pc - 1)%nat -> party_in_size pc pid = backend_in_size) /\
  (1 <= units_per_buffer (party_in_size pc pid))%nat /\
  ((pid + 1 < pc)%nat -> (1 <= units_per_buffer (party_out_size pc pid))%nat).
Proof.
  intros Hpc Hpid. unfold client_out_size, party_in_size, party_out_size, backend_in_size, as_party_id.
  rewrite !w8_id by (unfold u8; lia). rewrite !Csz.
  repeat split; try lia.
  - unfold units_per_buffer, BUFFER_SIZE. apply Nat.div_le_lower_bound; lia.
  - intros. unfold units_per_buffer, BUFFER_SIZE. apply Nat.div_le_lower_bound; lia.
Qed.

Lemma c11_lengths b coins j1 j2 secrets first count pkeys skeys c :
  (first + length secrets)%nat = count -> (count <= 255)%nat ->
  length pkeys = count -> length skeys = count -> Forall wf_osecret secrets ->
  (forall k pk sk, nth_error pkeys k = Some pk -> nth_error skeys k = Some sk -> box_ok b pk sk) ->
  onion_encrypt b true coins j1 j2 secrets first count pkeys = Ok c ->
  length c = (124 * (count - first))%nat.
Proof.
  intros H1 H2 H3 H4 H5 H6 E.
  destruct (onion_encrypt_spec b coins j1 j2 secrets first count pkeys skeys H1 H2 H3 H4 H5 H6)
    as (c' & E' & L & _).
  rewrite E in E'. inversion E'; subst. rewrite L. lia.
Qed.

Lemma onion_same : forall b keys secrets c, opens_layer_by_layer b keys secrets c <-> peels b keys secrets c.
Proof. intros; reflexivity. Qed.
