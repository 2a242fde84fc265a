(** The bytes on the connections of a deployment without an offline stage. *)
From Verif Require Import Base Incremental Wire Onion Sizes State Database Handlers Batch Party Net Lts Procs ProcProofs ChainSpec ChainProofs ProcChain
  Spec OnlineProofs TalkSpec TrafficSpec TrafficProofs NetChain Chain PlainSpec Plain.
From Coq Require Import Permutation.

Lemma plain_link_single db keys qs rs : plain_link db keys [qs] [rs] ->
  Permutation (map q_tally qs) keys /\ qs = map plain_query (map q_tally qs) /\ rs = map (plain_response db) (map q_tally qs).
Proof.
  intros (kss & P & Eq & Er). destruct kss as [|ks [|]]; try discriminate. cbn [map concat] in *. rewrite app_nil_r in P.
  injection Eq as ->. injection Er as ->. rewrite (map_map plain_query q_tally). cbn [plain_query q_tally]. rewrite map_id. auto.
Qed.

Lemma simulated_links b rng mem db junk c parties keys bpk bsk : (forall p i, length (mem p i) = BUFFER_SIZE) ->
  deployment rng db c parties keys -> bytes 52 junk ->
  exists (d : ldata) (links : list (list Z)), length links = S (length parties) /\ nth_error links 0 = Some (ct_keys c) /\
    (forall j ks, nth_error links j = Some ks ->
      Permutation ks (ct_keys c ++ flat_map (noise_keys (length db)) (firstn j parties)) /\
      link_bytes d false true (length parties) (Fwd j) = plain_forward ks /\
      link_bytes d false true (length parties) (Bwd j) = plain_backward db ks) /\
    (forall cap h s, (forall ch, (1 <= cap ch)%nat) ->
      carries (net_step chan_eqb cap) (net_start (entity b true rng false true mem db junk c parties bpk bsk)) h s ->
      (forall ch, begins (h ch) (link_bytes d false true (length parties) ch)) /\
      (stuck (net_step chan_eqb cap) s -> forall ch, h ch = link_bytes d false true (length parties) ch)) /\
    forall cap h s, (forall ch, (1 <= cap ch)%nat) ->
      crash_carries cn_net (crash_step cap) (crash_start (entity b true rng false true mem db junk c parties bpk bsk)) h s ->
      forall ch, begins (h ch) (link_bytes d false true (length parties) ch).
Proof.
  intros Hm D J. destruct (simulated_follows b rng mem db junk c parties keys bpk bsk Hm D J) as (o & E & RF & WF & F).
  destruct (run_simulated_plain rng db junk c parties keys D J) as (o' & E' & Lq & Lr & N0 & H). rewrite E in E'. injection E' as <-.
  exists (data_of o), (map (map q_tally) (oc_queries o)). split; [rewrite map_length; exact Lq|].
  split; [rewrite nth_error_map, N0; cbn [option_map]; rewrite map_map; cbn [plain_query q_tally]; rewrite map_id; reflexivity|].
  split; [|split].
  - intros j ks Nk. rewrite nth_error_map in Nk. destruct (nth_error (oc_queries o) j) as [qs|] eqn:Nq; [|discriminate]. injection Nk as <-.
    assert (Hj : (j < S (length parties))%nat) by (rewrite <- Lq; apply nth_error_Some; congruence).
    destruct (nth_error (oc_responses o) j) as [rs|] eqn:Nr; [|apply nth_error_None in Nr; lia].
    destruct (plain_link_single _ _ _ _ (H j qs rs Nq Nr)) as (P & Eq & Er). split; [exact P|].
    destruct RF as (_ & _ & levels & _ & Ec & EQ & _).
    unfold link_bytes, data_of. cbn [ld_count ld_query ld_response]. replace (j <=? length parties)%nat with true by (symmetry; apply Nat.leb_le; lia).
    rewrite (nth_err _ _ _ [] Nq), (nth_err _ _ _ [] Nr). cbn [app].
    assert (En : nth j (oc_counts o) 0 = Z.of_nat (length qs)).
    { apply nth_err. rewrite Ec, nth_error_map. rewrite EQ, nth_error_map in Nq. destruct (nth_error levels j) as [l|]; [|discriminate].
      cbn [option_map] in *. injection Nq as <-. rewrite map_length. reflexivity. }
    rewrite En. unfold plain_forward, plain_backward. rewrite map_length. split.
    + f_equal. rewrite Eq at 1. rewrite map_map, <- flat_map_concat_map. apply flat_map_ext. intros k. reflexivity.
    + rewrite Er at 1. rewrite <- flat_map_concat_map. reflexivity.
  - intros cap h s Hc Hh. exact (deployment_carries _ _ _ _ _ _ F cap h s Hc Hh).
  - intros cap h s Hc Hh. exact (deployment_crash_carries _ _ _ _ _ _ F cap h s Hc Hh).
Qed.
