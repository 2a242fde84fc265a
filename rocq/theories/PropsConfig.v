(** Theorems about configuration files and their generator. *)
From Verif Require Import Base BaseProofs Config ConfigSpec ConfigProofs.

(** C27: writing and reading back gives the same configuration. *)
Theorem C27_round_trip : forall asserts c, config_val c ->
  exists d, serialize asserts c = Ok d /\ (fits d -> deserialize asserts d = Ok c /\ read_file asserts (Some d) = Ok c).
Proof.
  intros a c H. destruct (serialize_parses a c H) as (d & E & P). exists d. split; [exact E|]. intros F.
  pose proof (deserialize_spec a d F) as D. specialize (P []). rewrite app_nil_r in P. rewrite P in D. split; exact D.
Qed.

(** C28: bytes after the end are detected (only) by the final assertion. *)
Theorem C28_trailing : forall c d x, config_val c -> serialize true c = Ok d -> x <> [] -> fits (d ++ x) ->
  deserialize true (d ++ x) = Abort /\ deserialize false (d ++ x) = Ok c.
Proof.
  intros c d x H E Hx F. destruct (serialize_parses true c H) as (d' & E' & P). rewrite E in E'. inversion E'; subst d'.
  pose proof (deserialize_spec true (d ++ x) F) as D1. pose proof (deserialize_spec false (d ++ x) F) as D2. rewrite P in D1, D2.
  destruct x; [contradiction|]. auto.
Qed.

(** C28: no truncation of a valid file is accepted: the reader aborts or reads
    out of bounds. *)
Theorem C28_truncated : forall c d p x, config_val c -> serialize true c = Ok d -> d = p ++ x -> x <> [] -> fits d ->
  deserialize true p = Abort \/ deserialize true p = UB.
Proof.
  intros c d p x H E Ed Hx F. destruct (serialize_parses true c H) as (d' & E' & P). rewrite E in E'. inversion E'; subst d'.
  assert (Fp : fits p) by (unfold fits in *; rewrite Ed, app_length in F; lia).
  pose proof (deserialize_spec true p Fp) as D. destruct (p_config p) as [[c' r]|] eqn:Ep; [|tauto].
  destruct r as [|z r]; [|auto]. exfalso. pose proof (local_config p c' [] x Ep) as L. rewrite <- Ed in L.
  specialize (P []). rewrite app_nil_r in P. rewrite P in L. inversion L. subst. contradiction.
Qed.

(** C28: files shorter than the header (in particular empty or missing ones)
    make the reader leave the buffer. *)
Theorem C28_out_of_bounds : forall asserts s, (length s <= 26)%nat -> deserialize asserts s = UB.
Proof.
  intros a s H. unfold deserialize, bin2int, bin2double, rd, advance_cursor. cbn [cu_off cu_n].
  assert (L : length (s ++ [0]) = S (length s)) by (rewrite app_length; cbn; lia). rewrite L.
  destruct (Nat.leb_spec (0 + 4) (S (length s))); cbn [bind cu_off cu_n]; [|reflexivity].
  destruct (Nat.leb_spec (0 + 4 + 8) (S (length s))); cbn [bind cu_off cu_n]; [|reflexivity].
  destruct (Nat.leb_spec (0 + 4 + 8 + 8) (S (length s))); cbn [bind cu_off cu_n]; [|reflexivity].
  destruct (Nat.leb_spec (0 + 4 + 8 + 8 + 4) (S (length s))); cbn [bind cu_off cu_n]; [|reflexivity].
  destruct (Nat.leb_spec (0 + 4 + 8 + 8 + 4 + 4) (S (length s))); cbn [bind cu_off cu_n]; [lia|reflexivity].
Qed.
Theorem C28_missing_file : forall asserts, read_file asserts None = UB.
Proof. intros a. apply C28_out_of_bounds. cbn. lia. Qed.

(** C28: different valid configurations have different files. *)
Theorem C28_injective : forall c1 c2, config_val c1 -> config_val c2 -> serialize true c1 = serialize true c2 -> c1 = c2.
Proof.
  intros c1 c2 H1 H2 E. destruct (serialize_parses true c1 H1) as (d1 & E1 & P1). destruct (serialize_parses true c2 H2) as (d2 & E2 & P2).
  rewrite E1, E2 in E. inversion E; subst d2. specialize (P1 []). specialize (P2 []). rewrite P1 in P2. inversion P2. reflexivity.
Qed.

(** C29: seeds and ports of the servers in a generated configuration. *)
Definition distinct_servers (c : config) : Prop :=
  NoDup (map sv_port (all_servers c)) /\ NoDup (map sv_parallel (all_servers c)) /\
  NoDup (map sv_seed (all_servers c)) /\ NoDup (map pc_seed (cg_parties c)) /\
  ((forall s t, In s (all_servers c) -> In t (all_servers c) -> sv_port s <> sv_parallel t) <->
     cg_parties_n c * cg_servers_n c <= 1000) /\
  ((forall s, In s (all_servers c) -> 0 < sv_port s < 2 ^ 16 /\ 0 < sv_parallel s < 2 ^ 16) <->
     cg_parties_n c * cg_servers_n c <= 61536).
Lemma generated_distinct c : 0 <= cg_parties_n c -> 0 <= cg_servers_n c ->
  generated (Z.to_nat (cg_parties_n c)) (Z.to_nat (cg_servers_n c)) (cg_parties c) -> distinct_servers c.
Proof.
  intros Hp Hs G. destruct (generated_ports _ _ _ G) as (A & B & C & D & E & F). fold (all_servers c) in *.
  assert (X : Z.of_nat (Z.to_nat (cg_parties_n c) * Z.to_nat (cg_servers_n c)) = cg_parties_n c * cg_servers_n c).
  { rewrite Nat2Z.inj_mul, !Z2Nat.id by assumption. reflexivity. }
  unfold distinct_servers. rewrite E, F, X, Nat2Z.inj_le, X. repeat split; auto.
Qed.
Theorem C29_from_args : forall asserts db eps del parties servers ips keys c,
  from_args asserts db eps del parties servers ips keys = Ok c -> distinct_servers c.
Proof.
  intros a db eps del P S ips keys c H. unfold from_args in H. apply bind_Ok in H as (? & _ & H). apply bind_Ok in H as (ps & Hps & H).
  inversion H; subst. pose proof (w8_u8 P) as U1. pose proof (w8_u8 S) as U2. unfold u8 in *.
  apply generated_distinct; cbn [cg_parties_n cg_servers_n cg_parties]; [lia|lia|]. eapply generated_spec; [lia|exact Hps].
Qed.
Lemma interactive_small db eps del P S line keys c : 0 <= P < 256 -> 0 <= S < 256 ->
  interactive db eps del P S line keys = Ok c ->
  cg_parties_n c = P /\ cg_servers_n c = S /\ generated (Z.to_nat P) (Z.to_nat S) (cg_parties c).
Proof.
  intros HP HS H. unfold interactive in H. destruct (_ || _); [discriminate|]. rewrite !w8_id in H by (unfold u8; lia).
  apply bind_Ok in H as (ps & Hps & H). inversion H; subst; cbn [cg_parties_n cg_servers_n cg_parties].
  split; [reflexivity|split; [reflexivity|]].
  rewrite Nat.sub_diag in *. cbn [repeat] in *. rewrite app_nil_r.
  apply generated_spec with (ip := fun i j => Ok (match line i j with [] => localhost | l => l end)) (keys := keys); [lia|].
  rewrite <- Hps. clear. induction (seq 0 (Z.to_nat P)) as [|i l IH]; [reflexivity|].
  cbn [map_res]. rewrite IH. destruct (gen_party S _ keys i) as [p| | |]; cbn [bind]; try reflexivity.
  rewrite app_nil_r. destruct p; reflexivity.
Qed.
Theorem C29_interactive : forall db eps del parties servers line keys c, 0 <= parties < 256 -> 0 <= servers < 256 ->
  interactive db eps del parties servers line keys = Ok c -> distinct_servers c.
Proof.
  intros db eps del P S line keys c HP HS H. destruct (interactive_small db eps del P S line keys c HP HS H) as (E1 & E2 & G).
  apply generated_distinct; rewrite ?E1, ?E2; auto; lia.
Qed.

(** C30: the generator reduces the counts modulo 256 ... *)
Definition shape (c : config) (parties servers : Z) : Prop :=
  cg_parties_n c = parties /\ cg_servers_n c = servers /\
  Z.of_nat (length (cg_parties c)) = parties /\
  Forall (fun p => Z.of_nat (length (pc_servers p)) = servers) (cg_parties c).
Lemma generated_shape c P S : generated (Z.to_nat P) (Z.to_nat S) (cg_parties c) -> 0 <= P -> 0 <= S ->
  cg_parties_n c = P -> cg_servers_n c = S -> shape c P S.
Proof.
  intros (L & _ & F & _) HP HS E1 E2. unfold shape. rewrite L. repeat split; auto; [lia|].
  eapply Forall_impl; [|exact F]. cbn beta. intros p ->. lia.
Qed.
Theorem C30_from_args : forall asserts db eps del parties servers ips keys c,
  from_args asserts db eps del parties servers ips keys = Ok c ->
  shape c (parties mod 256) (servers mod 256).
Proof.
  intros a db eps del P S ips keys c H. unfold from_args in H. apply bind_Ok in H as (? & _ & H). apply bind_Ok in H as (ps & Hps & H).
  inversion H; subst. pose proof (w8_u8 P) as U1. pose proof (w8_u8 S) as U2. unfold u8 in *. change (P mod 256) with (w8 P). change (S mod 256) with (w8 S).
  apply generated_shape; cbn [cg_parties_n cg_servers_n cg_parties]; try reflexivity; try lia. eapply generated_spec; [lia|exact Hps].
Qed.
(** ... so the requested shape is obtained exactly for counts below 256; *)
Theorem C30_requested_shape : forall asserts db eps del parties servers ips keys c,
  0 <= parties -> 0 <= servers -> from_args asserts db eps del parties servers ips keys = Ok c ->
  (cg_parties_n c = parties /\ cg_servers_n c = servers <-> parties < 256 /\ servers < 256).
Proof.
  intros a db eps del P S ips keys c HP HS H. apply C30_from_args in H as (E1 & E2 & _). rewrite E1, E2.
  split; intros [A B]; split.
  - pose proof (Z.mod_pos_bound P 256). lia.
  - pose proof (Z.mod_pos_bound S 256). lia.
  - apply Z.mod_small. lia.
  - apply Z.mod_small. lia.
Qed.
(** ... it always succeeds when no addresses or one per server are given; *)
Theorem C30_from_args_total : forall asserts db eps del parties servers ips keys,
  ips = [] \/ Z.of_nat (length ips) = (parties mod 256) * (servers mod 256) ->
  exists c, from_args asserts db eps del parties servers ips keys = Ok c.
Proof.
  intros a db eps del P S ips keys Hips. unfold from_args. change (P mod 256) with (w8 P) in Hips. change (S mod 256) with (w8 S) in Hips.
  pose proof (w8_u8 P) as U1. pose proof (w8_u8 S) as U2. unfold u8 in *.
  assert (Ha : (6 + Z.of_nat (length ips) =? 6 + w8 P * w8 S) || (6 + Z.of_nat (length ips) =? 6) = true).
  { apply orb_true_iff. rewrite !Z.eqb_eq. destruct Hips as [->|E]; [right; reflexivity|left; lia]. }
  rewrite Ha. assert (M : forall l, (forall i, In i l -> Z.of_nat i < w8 P) -> exists ps, map_res (gen_party (w8 S) (fun i j =>
      if 6 + Z.of_nat (length ips) =? 6 then Ok localhost else get ips (i * Z.to_nat (w8 S) + j)%nat) keys) l = Ok ps).
  { induction l as [|i l IH]; intros Hl; [exists []; reflexivity|]. destruct IH as (ps & Eps); [intros; apply Hl; right; assumption|].
    assert (G : forall l', (forall j, In j l' -> Z.of_nat j < w8 S) -> exists svs, map_res (fun j =>
       let k := Z.of_nat i * w8 S + Z.of_nat j in
       let* b := (if 6 + Z.of_nat (length ips) =? 6 then Ok localhost else get ips (i * Z.to_nat (w8 S) + j)%nat) in
       Ok {| sv_seed := k; sv_port := 3000 + k; sv_parallel := 4000 + k; sv_ip := b |}) l' = Ok svs).
    { induction l' as [|j l' IH']; intros Hl'; [exists []; reflexivity|]. destruct IH' as (svs & Es); [intros; apply Hl'; right; assumption|].
      assert (Hj : Z.of_nat j < w8 S) by (apply Hl'; left; reflexivity). assert (Hi : Z.of_nat i < w8 P) by (apply Hl; left; reflexivity).
      destruct (6 + Z.of_nat (length ips) =? 6) eqn:E6.
      - cbv zeta in Es. eexists. cbn [map_res]. rewrite Es. reflexivity.
      - destruct Hips as [->|E]; [discriminate|]. destruct (get_lt ips (i * Z.to_nat (w8 S) + j)) as (b & Eb & _).
        { apply Nat2Z.inj_lt. rewrite E, Nat2Z.inj_add, Nat2Z.inj_mul, Z2Nat.id by lia.
          pose proof (Z.mul_le_mono_nonneg_r (Z.of_nat i + 1) (w8 P) (w8 S) ltac:(lia) ltac:(lia)). lia. }
        cbv zeta in Es. eexists. cbn [map_res]. rewrite Es, Eb. reflexivity. }
    destruct (G (seq 0 (Z.to_nat (w8 S)))) as (svs & Es).
    { intros j Hj. apply in_seq in Hj. lia. }
    eexists. cbn [map_res]. rewrite Eps. unfold gen_party at 1. cbv beta zeta. cbv zeta in Es. rewrite Es. reflexivity. }
  destruct (M (seq 0 (Z.to_nat (w8 P)))) as (ps & Eps).
  { intros i Hi. apply in_seq in Hi. lia. }
  rewrite Eps. destruct a; cbn [bind assert_]; eauto.
Qed.
(** ... and the interactive path with a larger count aborts when writing. *)
Theorem C30_interactive_large : forall db eps del parties servers line keys c,
  interactive db eps del parties servers line keys = Ok c ->
  256 <= parties \/ (0 < parties /\ 256 <= servers) -> serialize true c = Abort.
Proof.
  intros db eps del P S line keys c H Hl. unfold interactive in H. destruct (_ || _) eqn:E0; [discriminate|].
  apply orb_false_iff in E0 as [E1 _]. apply Z.ltb_ge in E1.
  pose proof (w8_u8 P) as U1. pose proof (w8_u8 S) as U2. unfold u8 in *.
  apply bind_Ok in H as (ps & Hps & H). inversion H; subst. pose proof (map_res_length _ _ _ Hps) as L. rewrite seq_length in L.
  unfold serialize; cbn [cg_parties cg_parties_n cg_servers_n].
  rewrite app_length, repeat_length, L.
  destruct (Z.eqb_spec (Z.of_nat (Z.to_nat (w8 P) + (Z.to_nat P - Z.to_nat (w8 P)))) (w8 P)) as [Ep|Ep]; [|reflexivity]. cbn [bind assert_].
  assert (HP : P < 256) by lia. destruct Hl as [Hl|[H0 Hl]]; [lia|].
  assert (Ew : w8 P = P) by (apply w8_id; unfold u8; lia). rewrite Ew in *.
  destruct (Z.to_nat P) as [|n] eqn:En; [lia|]. cbn [seq map_res] in Hps.
  apply bind_Ok in Hps as (p & Hp & Hps). apply bind_Ok in Hps as (r & _ & Hps). inversion Hps; subst. cbn [app map_res].
  apply bind_Ok in Hp as (q & Hq & Hp). inversion Hp; subst. apply gen_party_spec in Hq as (_ & _ & _ & Lq & _).
  unfold ser_party at 1. cbn [pc_servers]. rewrite app_length, repeat_length, Lq.
  destruct (Z.eqb_spec (Z.of_nat (Z.to_nat (w8 S) + (Z.to_nat S - Z.to_nat (w8 S)))) (w8 S)) as [Es|Es]; [lia|]. reflexivity.
Qed.

(** ** Concrete instances *)
Definition ex_ips : list (list Z) := [[49]; [50; 46; 51]; []; [255]; [1]; [2]].
Definition ex_keypair (i : nat) : list Z * list Z := (repeat (Z.of_nat i) 32, repeat 7 32).
Example C30_example_conf : exists c, from_args true 5 1 2 3 2 ex_ips ex_keypair = Ok c /\ config_val c /\
  (exists d, serialize true c = Ok d /\ fits d /\ length d = 317%nat) /\ shape c 3 2.
Proof.
  eexists. split; [vm_compute; reflexivity|]. split; [|split].
  - unfold config_val, party_val, server_val, int_val, u8, u32, u64; cbn -[Z.pow].
    repeat match goal with |- _ /\ _ => split | |- Forall _ _ => constructor | |- _ = _ => reflexivity end; cbn -[Z.pow]; lia.
  - eexists. split; [vm_compute; reflexivity|]. split; [unfold fits; cbn; lia|reflexivity].
  - unfold shape; cbn. repeat split; repeat constructor.
Qed.
(** Parties*servers above 1000: the generated ports clash. *)
Example C29_clash : exists c, from_args true 5 1 2 30 50 [] ex_keypair = Ok c /\ 1000 < cg_parties_n c * cg_servers_n c.
Proof. destruct (C30_from_args_total true 5 1 2 30 50 [] ex_keypair (or_introl eq_refl)) as (c & E). exists c. split; [exact E|].
  apply C30_from_args in E as (-> & -> & _). reflexivity. Qed.
Example C30_example_wrap : exists c, from_args true 5 1 2 257 2 [] ex_keypair = Ok c /\ shape c 1 2.
Proof. destruct (C30_from_args_total true 5 1 2 257 2 [] ex_keypair (or_introl eq_refl)) as (c & E). exists c. split; [exact E|].
  exact (C30_from_args _ _ _ _ _ _ _ _ _ E). Qed.
Example C30_example_interactive : exists c, interactive 5 1 2 257 1 (fun _ _ => []) ex_keypair = Ok c.
Proof. eexists. vm_compute. reflexivity. Qed.
(** A truncated file on which the reader leaves the buffer after the header:
    one party and one server are announced, nothing follows. *)
Example C28_example_trunc : deserialize true (int2bin 5 ++ double2bin 1 ++ double2bin 2 ++ int2bin 1 ++ int2bin 1) = UB.
Proof. reflexivity. Qed.
Example C28_example_abort : deserialize true (int2bin 5 ++ double2bin 1 ++ double2bin 2 ++ int2bin 1 ++ int2bin 1 ++ int2bin 9 ++ repeat 0 20) = Abort.
Proof. reflexivity. Qed.

Print Assumptions C27_round_trip.
Print Assumptions C28_trailing.
Print Assumptions C28_truncated.
Print Assumptions C28_out_of_bounds.
Print Assumptions C28_missing_file.
Print Assumptions C28_injective.
Print Assumptions C29_from_args.
Print Assumptions C29_interactive.
Print Assumptions C30_from_args.
Print Assumptions C30_requested_shape.
Print Assumptions C30_from_args_total.
Print Assumptions C30_interactive_large.
