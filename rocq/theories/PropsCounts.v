(** C77: differential privacy of what the backend counts in a whole deployment. *)
From Coq Require Import Reals Psatz.
From Flocq Require Import Core.
From Verif Require Import Base Incremental Wire Additive Onion Sizes State Database Handlers Party Parallel ParChain Chain Spec ChainSpec ParSpec ParChainSpec
  Net Lts Procs ParProcs ParServer Toy PropsShuffle PropsChain PropsParChain PropsProc PropsParProc NoiseReal NoiseRealProofs PrivacySpec PrivacyProofs PropsPrivacy CountsSpec CountsProofs.
Local Open Scope Z_scope.

(** The law of the sampled noise. *)
Definition noise_law (epsilon delta : R) (p : nat -> R) : Prop :=
  forall k, unit_prob (fun u1 u2 => Z.eqb (sampleR epsilon delta u1 u2) (Z.of_nat k)) (p k).

Lemma law_private epsilon delta p : (0 < epsilon)%R -> (0 < delta < 1)%R -> noise_law epsilon delta p ->
  (forall k, (0 <= p k)%R) /\ private p (Z.to_nat (Zfloor (2 * cutoffR epsilon delta))) epsilon ((exp (epsilon / 2) + exp epsilon) * delta).
Proof.
  intros He Hd L. split; [|apply C24_private; assumption].
  intros k. replace (p k) with (pmf epsilon delta k); [apply p_nonneg; assumption|].
  eapply unit_prob_unique; [apply pmf_law; assumption|apply L].
Qed.
Lemma extra_nonneg epsilon delta : (0 < delta)%R -> (0 <= (exp (epsilon / 2) + exp epsilon) * delta)%R.
Proof. intros H. pose proof (exp_pos (epsilon / 2)). pose proof (exp_pos epsilon). nra. Qed.

(** Whoever returns keys has returned the right ones. *)
Lemma saw_looked procs bound P result looked keys : always_finishes procs bound P result looked -> backend_saw procs P keys -> keys = looked.
Proof.
  intros A (cap & n & s & Hc & H & E).
  destruct (finishes_from (net_step chan_eqb cap) bound (all_done P result looked) (net_start procs)
    ltac:(intros n' s' H'; destruct (A cap Hc n' s' H') as (B & _ & X); auto) n s H) as (k & s' & H' & (_ & _ & D & _) & _).
  pose proof (ret_stays_net chan_eqb cap k s s' _ _ H' E) as X. rewrite D in X. inversion X. reflexivity.
Qed.
Lemma list_nth_eq {A} (a b : list A) d : length a = length b -> (forall i, (i < length a)%nat -> nth i a d = nth i b d) -> a = b.
Proof. intros L H. apply (nth_ext a b d d L H). Qed.
Lemma servers_saw_looked N procs bound P results looked keys : length looked = N ->
  par_always_finishes N procs bound P results looked -> servers_saw N procs P keys -> keys = concat looked.
Proof.
  intros LN A (cap & n & s & l & Hc & Hs & H & E & L & ->). f_equal.
  destruct (finishes_from (net_step mchan_eqb cap) bound (par_done N P results looked) (net_start procs)
    ltac:(intros n' s' H'; destruct (A cap Hc Hs n' s' H') as (B & _ & X); auto) n s H) as (k & s' & H' & (_ & _ & D & _) & _).
  apply (list_nth_eq l looked []); [lia|]. intros i Hi. rewrite L in Hi.
  pose proof (ret_stays_net mchan_eqb cap k s s' _ _ H' (E i Hi)) as X. rewrite (D i Hi) in X. inversion X. reflexivity.
Qed.

(** Let one party [h] draw its numbers of fake queries independently with the
    law of the sampler, and let all other parties add any fixed numbers, known to
    whoever watches.  Take two lists of client queries that differ in [t] places,
    with any other randomness of client and parties, which may depend on the
    draws.  [seen zs]: what the backend has looked up in any execution in which
    the draws are [zs].  Then any test of the numbers of lookups of all rows
    behaves nearly alike in both cases. *)
Theorem C77_group : forall epsilon delta p, (0 < epsilon)%R -> (0 < delta < 1)%R -> noise_law epsilon delta p ->
  let m := Z.to_nat (Zfloor (2 * cutoffR epsilon delta)) in
  forall b rng mem db junk keys bpk bsk h others t c c' parties parties' seen seen',
  (forall q i, length (mem q i) = BUFFER_SIZE) -> bytes 52 junk -> differ t (ct_keys c) (ct_keys c') ->
  (forall zs, drawn m (length db) zs ->
     deployment rng db c (parties zs) keys /\ keyed b db c (parties zs) keys bpk bsk /\ adds h others (length db) (parties zs) zs /\
     backend_saw (entity b true rng true true mem db junk c (parties zs) bpk bsk) (length (parties zs)) (seen zs)) ->
  (forall zs, drawn m (length db) zs ->
     deployment rng db c' (parties' zs) keys /\ keyed b db c' (parties' zs) keys bpk bsk /\ adds h others (length db) (parties' zs) zs /\
     backend_saw (entity b true rng true true mem db junk c' (parties' zs) bpk bsk) (length (parties' zs)) (seen' zs)) ->
  forall f, (forall os, (0 <= f os <= 1)%R) ->
    (average p m (length db) (fun zs => f (counts (length db) (seen zs))) <=
     exp (INR t * epsilon) * average p m (length db) (fun zs => f (counts (length db) (seen' zs))) +
     rsum t (fun i => exp (INR i * epsilon)) * ((exp (epsilon / 2) + exp epsilon) * delta))%R.
Proof.
  intros epsilon delta p He Hd L m b rng mem db junk keys bpk bsk h others t c c' parties parties' seen seen' Hm J D H H' f Hf.
  destruct (law_private epsilon delta p He Hd L) as (Hp & P).
  assert (Hz : drawn m (length db) (repeat 0%nat (length db))).
  { split; [apply repeat_length|]. apply Forall_forall. intros z Hz. apply repeat_spec in Hz. lia. }
  apply (sees_private p m epsilon _ (length db) (rest h others (length keys - 1)) t (ct_keys c) (ct_keys c') seen seen' f); try assumption.
  - lra.
  - apply extra_nonneg. lra.
  - destruct (H _ Hz) as (Dp & _). exact (dp_queries _ _ _ _ _ Dp).
  - destruct (H' _ Hz) as (Dp & _). exact (dp_queries _ _ _ _ _ Dp).
  - intros zs Z. destruct (H zs Z) as (Dp & K & A & W).
    destruct (C63_every_schedule b rng mem db junk c (parties zs) keys bpk bsk Hm Dp K J) as (bound & result & looked & _ & Pm & F).
    rewrite (saw_looked _ _ _ _ _ _ F W). rewrite <- (dp_count _ _ _ _ _ Dp). replace (S (length (parties zs)) - 1)%nat with (length (parties zs)) by lia.
    eapply adds_sees; eassumption.
  - intros zs Z. destruct (H' zs Z) as (Dp & K & A & W).
    destruct (C63_every_schedule b rng mem db junk c' (parties' zs) keys bpk bsk Hm Dp K J) as (bound & result & looked & _ & Pm & F).
    rewrite (saw_looked _ _ _ _ _ _ F W). rewrite <- (dp_count _ _ _ _ _ Dp). replace (S (length (parties' zs)) - 1)%nat with (length (parties' zs)) by lia.
    eapply adds_sees; eassumption.
Qed.
Print Assumptions C77_group.

(** One query: (epsilon, (e^(epsilon/2) + e^epsilon) delta)-differential privacy. *)
Theorem C77_one_query : forall epsilon delta p, (0 < epsilon)%R -> (0 < delta < 1)%R -> noise_law epsilon delta p ->
  let m := Z.to_nat (Zfloor (2 * cutoffR epsilon delta)) in
  forall b rng mem db junk keys bpk bsk h others c c' parties parties' seen seen',
  (forall q i, length (mem q i) = BUFFER_SIZE) -> bytes 52 junk -> differ 1 (ct_keys c) (ct_keys c') ->
  (forall zs, drawn m (length db) zs ->
     deployment rng db c (parties zs) keys /\ keyed b db c (parties zs) keys bpk bsk /\ adds h others (length db) (parties zs) zs /\
     backend_saw (entity b true rng true true mem db junk c (parties zs) bpk bsk) (length (parties zs)) (seen zs)) ->
  (forall zs, drawn m (length db) zs ->
     deployment rng db c' (parties' zs) keys /\ keyed b db c' (parties' zs) keys bpk bsk /\ adds h others (length db) (parties' zs) zs /\
     backend_saw (entity b true rng true true mem db junk c' (parties' zs) bpk bsk) (length (parties' zs)) (seen' zs)) ->
  forall f, (forall os, (0 <= f os <= 1)%R) ->
    (average p m (length db) (fun zs => f (counts (length db) (seen zs))) <=
     exp epsilon * average p m (length db) (fun zs => f (counts (length db) (seen' zs))) + (exp (epsilon / 2) + exp epsilon) * delta)%R.
Proof.
  intros epsilon delta p He Hd L m b rng mem db junk keys bpk bsk h others c c' parties parties' seen seen' Hm J D H H' f Hf.
  pose proof (C77_group epsilon delta p He Hd L b rng mem db junk keys bpk bsk h others 1%nat c c' parties parties' seen seen' Hm J D H H' f Hf) as G.
  fold m in G. cbn [rsum] in G. change (INR 1) with 1%R in G. change (INR 0) with 0%R in G. rewrite Rmult_1_l, Rmult_0_l, exp_0, Rplus_0_l, Rmult_1_l in G. exact G.
Qed.
Print Assumptions C77_one_query.

(** Several servers per party, all servers of the backend together, with the
    offline stage simulated (with a real one, drawn noise makes tags collide, C40).
    The queries of all clients in a row differ in [t] places. *)
Theorem C77_servers : forall epsilon delta p, (0 < epsilon)%R -> (0 < delta < 1)%R -> noise_law epsilon delta p ->
  let m := Z.to_nat (Zfloor (2 * cutoffR epsilon delta)) in
  forall b rng iter mem acc db junk N keys bpk bsk h others t clients clients' parties parties' seen seen',
  (forall q, smem_ok (mem q)) -> (forall q, Permutation (acc q) (seq 0 (q mod N))) -> bytes 52 junk ->
  differ t (client_keys clients) (client_keys clients') ->
  (forall zs, drawn m (length db) zs ->
     par_deployment rng db N clients (parties zs) keys /\ par_adds h others N (length db) (parties zs) zs /\
     servers_saw N (par_entity b true rng iter false true N mem acc db junk clients (parties zs) bpk bsk) (length (parties zs)) (seen zs)) ->
  (forall zs, drawn m (length db) zs ->
     par_deployment rng db N clients' (parties' zs) keys /\ par_adds h others N (length db) (parties' zs) zs /\
     servers_saw N (par_entity b true rng iter false true N mem acc db junk clients' (parties' zs) bpk bsk) (length (parties' zs)) (seen' zs)) ->
  forall f, (forall os, (0 <= f os <= 1)%R) ->
    (average p m (length db) (fun zs => f (counts (length db) (seen zs))) <=
     exp (INR t * epsilon) * average p m (length db) (fun zs => f (counts (length db) (seen' zs))) +
     rsum t (fun i => exp (INR i * epsilon)) * ((exp (epsilon / 2) + exp epsilon) * delta))%R.
Proof.
  intros epsilon delta p He Hd L m b rng iter mem acc db junk N keys bpk bsk h others t clients clients' parties parties' seen seen' Hm Ha J D H H' f Hf.
  destruct (law_private epsilon delta p He Hd L) as (Hp & P).
  assert (Hz : drawn m (length db) (repeat 0%nat (length db))).
  { split; [apply repeat_length|]. apply Forall_forall. intros z Hz. apply repeat_spec in Hz. lia. }
  apply (sees_private p m epsilon _ (length db) (rest h others (length keys - 1)) t (client_keys clients) (client_keys clients') seen seen' f); try assumption.
  - lra.
  - apply extra_nonneg. lra.
  - destruct (H _ Hz) as (Dp & _). exact (pd_queries _ _ _ _ _ _ Dp).
  - destruct (H' _ Hz) as (Dp & _). exact (pd_queries _ _ _ _ _ _ Dp).
  - intros zs Z. destruct (H zs Z) as (Dp & A & W).
    destruct (C65_every_schedule_simulated b rng iter mem acc db junk N clients (parties zs) keys bpk bsk Hm Ha Dp J) as (bound & result & looked & _ & LN & Pm & F).
    rewrite (servers_saw_looked _ _ _ _ _ _ _ LN F W). rewrite <- (pd_count _ _ _ _ _ _ Dp). replace (S (length (parties zs)) - 1)%nat with (length (parties zs)) by lia.
    eapply par_adds_sees; eassumption.
  - intros zs Z. destruct (H' zs Z) as (Dp & A & W).
    destruct (C65_every_schedule_simulated b rng iter mem acc db junk N clients' (parties' zs) keys bpk bsk Hm Ha Dp J) as (bound & result & looked & _ & LN & Pm & F).
    rewrite (servers_saw_looked _ _ _ _ _ _ _ LN F W). rewrite <- (pd_count _ _ _ _ _ _ Dp). replace (S (length (parties' zs)) - 1)%nat with (length (parties' zs)) by lia.
    eapply par_adds_sees; eassumption.
Qed.
Print Assumptions C77_servers.

(** ** Examples: the hypotheses are met with epsilon = 1, delta = e^-2, with which
    up to 8 fake queries are drawn for each row. *)
Example C77_parameters : (0 < 1)%R /\ (0 < exp (-2) < 1)%R /\ (exists p, noise_law 1 (exp (-2)) p) /\
  Z.to_nat (Zfloor (2 * cutoffR 1 (exp (-2)))) = 8%nat.
Proof.
  assert (H : (0 < exp (-2) < 1)%R).
  { split; [apply exp_pos|]. rewrite <- exp_0. apply exp_increasing. lra. }
  split; [lra|]. split; [exact H|]. split.
  - exists (pmf 1 (exp (-2))). intros k. apply pmf_law; [lra|exact H].
  - destruct (cutoff_val 1 (exp (-2)) ltac:(lra) H) as (E & _). rewrite E, ln_exp. unfold spanR.
    replace (2 * - (2 / 1 * -2))%R with (IZR 8) by lra. rewrite Zfloor_IZR. reflexivity.
Qed.

(** The first party of the example deployment draws; two clients that differ in
    one query. *)
Definition drawing_conf (zs : list nat) : pconf :=
  {| pf_party := 0; pf_parties := 3; pf_server := 0; pf_servers := 1;
     pf_pkeys := map fst ex_keys; pf_pkey := nth 0 (map fst ex_keys) []; pf_skey := []; pf_seed := 5; pf_db := 3;
     pf_rand := ex_rand 1; pf_samples := fun k => Z.of_nat (nth k zs 0%nat) |}.
Definition asking (k : Z) : client := {| ct_pkeys := map fst ex_keys; ct_rand := ex_rand 0; ct_keys := [k; 0] |}.
Lemma three_drawn m zs : drawn m 3 zs -> exists a b c, zs = [a; b; c] /\ (a <= m)%nat /\ (b <= m)%nat /\ (c <= m)%nat.
Proof.
  intros (L & F). destruct zs as [|a [|b [|c [|d zs]]]]; try discriminate. inversion F as [|? ? Ha F1]; inversion F1 as [|? ? Hb F2]; inversion F2; subst. eauto 8.
Qed.
Example C77_example : differ 1 (ct_keys (asking 2)) (ct_keys (asking 1)) /\
  forall k zs, 0 <= k < 3 -> drawn 8 (length ex_db) zs -> let parties := [drawing_conf zs; ex_conf 1] in
    deployment ex_rng ex_db (asking k) parties ex_keys /\ keyed toy_box ex_db (asking k) parties ex_keys [3] [] /\
    adds 0 (fun _ k => k mod 2)%nat (length ex_db) parties zs /\
    exists keys, backend_saw (entity toy_box true ex_rng true true (fun _ _ => repeat 7 BUFFER_SIZE) ex_db (repeat 9 52) (asking k) parties [3] []) 2 keys.
Proof.
  split; [apply differ_other, differ_same, differ_nil|]. intros k zs Hk Hz parties. pose proof ex_deployment as D0. pose proof ex_keyed as K0.
  destruct (three_drawn _ _ Hz) as (x & y & z & -> & Hx & Hy & Hw).
  assert (D : deployment ex_rng ex_db (asking k) parties ex_keys).
  { split.
    - reflexivity.
    - cbn. lia.
    - intros [|j] cf N.
      + inversion N. subst cf. split; try reflexivity; [intros i; apply ex_rng_range|]. intros i Hi. cbn [pf_samples drawing_conf].
        change (length ex_db) with 3%nat in Hi. destruct i as [|[|[|i]]]; cbn [nth]; lia.
      + apply (dp_parties _ _ _ _ _ D0 (S j) cf). exact N.
    - exact (dp_rows _ _ _ _ _ D0).
    - exact (dp_db _ _ _ _ _ D0).
    - cbn [asking ct_keys]. change (length ex_db) with 3%nat. repeat constructor; lia.
    - cbn. rewrite !Nat2Z.id. lia. }
  assert (K : keyed toy_box ex_db (asking k) parties ex_keys [3] []).
  { split.
    - exact (ky_box _ _ _ _ _ _ _ K0).
    - intros [|j] cf N.
      + inversion N. subst cf. split; [reflexivity|reflexivity|]. apply ex_good_rand; [lia|reflexivity].
      + apply (ky_parties _ _ _ _ _ _ _ K0 (S j) cf). exact N.
    - reflexivity.
    - reflexivity.
    - apply ex_good_rand; [lia|reflexivity]. }
  split; [exact D|]. split; [exact K|]. split.
  - split; [cbn; lia|]. intros [|[|[|j]]] cf i N Hi; inversion N; cbn [Nat.eqb pf_samples drawing_conf ex_conf]; apply Nat2Z.id.
  - destruct (C63_every_schedule toy_box ex_rng (fun _ _ => repeat 7 BUFFER_SIZE) ex_db (repeat 9 52) (asking k) parties ex_keys [3] []
      (fun _ _ => repeat_length 7 BUFFER_SIZE) D K) as (bound & result & looked & _ & _ & A).
    { split; [apply repeat_length|apply Forall_forall; intros u Hu; apply repeat_spec in Hu; subst; unfold byte; lia]. }
    destruct (finishes_reach _ _ _ _ _ (fun _ => 64%nat) A (fun _ => le_n_S _ _ (Nat.le_0_l _))) as ((n & s & H & Dn) & _).
    exists looked, (fun _ => 64%nat), n, s. split; [intros _; apply le_n_S, Nat.le_0_l|]. split; [exact H|]. apply Dn.
Qed.

(** The same with two servers per party: the servers of the first party draw for
    the rows 0, 1 and 2. *)
Definition drawing_server (zs : list nat) (s : nat) : sconf :=
  {| sf_conf := {| pf_party := 0; pf_parties := 3; pf_server := Z.of_nat s; pf_servers := 2;
       pf_pkeys := map fst ex_keys; pf_pkey := nth 0 (map fst ex_keys) []; pf_skey := []; pf_seed := 5 + Z.of_nat (2 * s); pf_db := 3;
       pf_rand := ex_rand 1; pf_samples := fun k => Z.of_nat (nth (2 * s + k) zs 0%nat) |}; sf_shared := 3 |}.
Definition drawing_parties (zs : list nat) : list (list sconf) := [[drawing_server zs 0; drawing_server zs 1]; [px_conf 1 0; px_conf 1 1]].
Lemma count_repeat (x y : Z) n : count_occ Z.eq_dec (repeat x n) y = if Z.eq_dec x y then n else 0%nat.
Proof.
  induction n as [|n IH]; cbn [repeat count_occ]; [destruct (Z.eq_dec x y); reflexivity|]. rewrite IH. destruct (Z.eq_dec x y); reflexivity.
Qed.
Lemma map_repeats (f : Z -> Z) x n : map f (repeat x n) = repeat (f x) n.
Proof. induction n as [|n IH]; cbn [repeat map]; [|rewrite IH]; reflexivity. Qed.
Lemma drawing_keys x y z : party_noise_keys 2 3 [drawing_server [x; y; z] 0; drawing_server [x; y; z] 1] = repeat 0 x ++ repeat 1 y ++ repeat 2 z.
Proof.
  unfold party_noise_keys. cbn [seq flat_map nth_error]. rewrite app_nil_r. unfold server_noise_keys.
  change (key_count 2 3 0) with 2%nat. change (key_count 2 3 1) with 1%nat. change (first_key 2 3 0) with 0. change (first_key 2 3 1) with 2.
  unfold noise_keys. cbn [seq flat_map sf_conf drawing_server pf_samples Nat.mul Nat.add nth]. rewrite !Nat2Z.id, !app_nil_r, map_app.
  rewrite !map_repeats, <- app_assoc. reflexivity.
Qed.
Example C77_example_servers : forall zs, drawn 8 (length ex_db) zs ->
  par_deployment ex_rng ex_db 2 px_clients (drawing_parties zs) ex_keys /\
  par_adds 0 (fun _ _ => 1%nat) 2 (length ex_db) (drawing_parties zs) zs /\
  exists keys, servers_saw 2 (par_entity toy_box true ex_rng px_iter false true 2 (fun _ => px_mem) (fun p => seq 0 (p mod 2)) ex_db (repeat 9 52)
    px_clients (drawing_parties zs) [3] []) 2 keys.
Proof.
  intros zs Hz. pose proof px_deployment as D0. destruct (three_drawn _ _ Hz) as (x & y & z & -> & Hx & Hy & Hw).
  assert (D : par_deployment ex_rng ex_db 2 px_clients (drawing_parties [x; y; z]) ex_keys).
  { split; try apply D0.
    - intros [|j] confs N; [|apply (pd_parties _ _ _ _ _ _ D0 (S j) confs); exact N]. inversion N. subst confs. split; [reflexivity|]. exists 3.
      split; [intros i; apply ex_rng_range|]. intros s sf Nf. assert (E : sf = drawing_server [x; y; z] s /\ (s < 2)%nat).
      { destruct s as [|[|[|s]]]; inversion Nf; split; auto; lia. }
      destruct E as [-> Hs]. split; try reflexivity; cbn [drawing_server sf_conf pf_seed pf_samples]; intros i; [apply ex_rng_range|]. intros _.
      assert (nth (2 * s + i) [x; y; z] 0 <= 8)%nat by (destruct (2 * s + i)%nat as [|[|[|[|w]]]]; cbn [nth]; lia). lia.
    - change (length ex_db) with 3%nat. unfold drawing_parties. cbn [flat_map]. rewrite drawing_keys, !app_length, !repeat_length.
      match goal with |- context [(x + (y + z) + ?u)%nat] => let v := eval vm_compute in u in change u with v end. cbn. lia. }
  split; [exact D|]. split.
  - split; [cbn; lia|]. change (length ex_db) with 3%nat. intros [|[|[|j]]] confs k N Hk; inversion N; cbn [Nat.eqb].
    + rewrite drawing_keys, !count_occ_app, !count_repeat. destruct k as [|[|[|k]]]; cbn; lia.
    + destruct k as [|[|[|k]]]; [reflexivity|reflexivity|reflexivity|lia].
  - destruct (C65_every_schedule_simulated toy_box ex_rng px_iter (fun _ => px_mem) (fun p => seq 0 (p mod 2)) ex_db (repeat 9 52) 2 px_clients
      (drawing_parties [x; y; z]) ex_keys [3] []) as (bound & results & looked & _ & L & _ & A).
    + intros _. split; [|split]; intros; cbn [px_mem sm_link sm_w sm_r]; rewrite repeat_length; [reflexivity|apply le_n|apply le_n].
    + intros p. apply Permutation_refl.
    + exact D.
    + split; [reflexivity|]. apply Forall_forall. intros u Hu. apply repeat_spec in Hu. subst. unfold byte. lia.
    + assert (C1 : forall c, (1 <= px_cap c)%nat) by (intros []; cbn [px_cap]; try apply le_n; unfold BUFFER_SIZE; lia).
      destruct (par_finishes_reach _ _ _ _ _ _ px_cap A C1) as ((n & s & H & Dn) & _); [intros e s t; apply le_n|].
      exists (concat looked), px_cap, n, s, looked. split; [exact C1|]. split; [intros e s' t; apply le_n|]. split; [exact H|]. split; [apply Dn|]. auto.
Qed.
