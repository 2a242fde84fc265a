(** Theorems about parties with several servers. *)
From Verif Require Import Base BaseProofs Incremental Wire Shuffle ParShuffle State StateProofs Database Range Handlers Batch Party Chain Parallel
  Spec ChainSpec ParSpec ConfigProofs PropsShuffle PropsChain ParPartyProofs ParFacts ParSecretsProofs ParTagProofs.

(** C46 Whatever the order in which the siblings' messages arrive, a party with
    N servers forwards the noise and its handled inputs, server t passing on the
    t-th share of the total, and when the next party answers every query q with
    f q, each server returns the unmasked answers to its own inputs, in order. *)
Theorem C46_answers : forall rng parties k rows N confs inputs,
  good_siblings rng parties k rows N confs inputs ->
  Z.of_nat (list_sum (batch_counts N rows confs inputs)) < 2 ^ 32 ->
  exists cts shs, par_counts true confs (map Z.of_nat inputs) = Ok cts /\ par_shufflers true rng confs cts = Ok shs /\
  exists traffic back : nat -> nat -> nat,
  forall nss states rps, par_ready confs cts shs nss states = Ok rps ->
  exists noiseq : nat -> list query, (forall s, (s < N)%nat -> length (noiseq s) = nth s (noise_counts N rows confs) 0%nat) /\
  forall sent handled masks, length sent = N -> length handled = N ->
    (forall s, (s < N)%nat -> length (nth s sent []) = nth s inputs 0%nat) ->
    (forall s st, (s < N)%nat -> nth_error states s = Some st ->
       Forall2 (handles st) (nth s sent []) (nth s handled []) /\ Forall2 (unmasks st) (map q_tag (nth s sent [])) (nth s masks [])) ->
  forall order order' (f : query -> list Z), complete N traffic order -> complete N back order' -> (forall q, bytes 52 (f q)) ->
  exists rps' outs result,
    par_forward rps sent order = Ok (rps', outs) /\
    Permutation (concat outs) (flat_map noiseq (seq 0 N) ++ concat handled) /\
    map (fun l => Z.of_nat (length l)) outs = map co_shuffled cts /\
    par_backward rps' (map (map f) outs) order' = Ok result /\
    result = map (fun s => map (fun hm => xored (f (fst hm)) (snd hm)) (combine (nth s handled []) (nth s masks []))) (seq 0 N).
Proof. exact c46. Qed.
Print Assumptions C46_answers.

(** C46, position by position: the j-th message of server s leaves from server
    [fst (pos s j)] at place [snd (pos s j)], a bijection that does not depend on
    the messages or on the schedule, and its answer comes back from there. *)
Theorem C46_positions : forall rng parties k rows N confs inputs,
  good_siblings rng parties k rows N confs inputs ->
  Z.of_nat (list_sum (batch_counts N rows confs inputs)) < 2 ^ 32 ->
  let total := list_sum (batch_counts N rows confs inputs) in
  let count s := nth s (batch_counts N rows confs inputs) 0%nat in
  let noise s := nth s (noise_counts N rows confs) 0%nat in
  exists cts shs, par_counts true confs (map Z.of_nat inputs) = Ok cts /\ par_shufflers true rng confs cts = Ok shs /\
  exists (pos : nat -> nat -> nat * nat) (traffic back : nat -> nat -> nat),
    (forall s j, (s < N)%nat -> (j < count s)%nat -> (fst (pos s j) < N)%nat /\ (snd (pos s j) < share_of total N (fst (pos s j)))%nat) /\
    (forall s j s' j', (s < N)%nat -> (s' < N)%nat -> (j < count s)%nat -> (j' < count s')%nat -> pos s j = pos s' j' -> s = s' /\ j = j') /\
    (forall t i, (t < N)%nat -> (i < share_of total N t)%nat -> exists s j, (s < N)%nat /\ (j < count s)%nat /\ pos s j = (t, i)) /\
  forall nss states rps, par_ready confs cts shs nss states = Ok rps ->
  exists noiseq : nat -> list query, (forall s, (s < N)%nat -> length (noiseq s) = noise s) /\
  forall sent handled masks, length sent = N -> length handled = N ->
    (forall s, (s < N)%nat -> length (nth s sent []) = nth s inputs 0%nat) ->
    (forall s st, (s < N)%nat -> nth_error states s = Some st ->
       Forall2 (handles st) (nth s sent []) (nth s handled []) /\ Forall2 (unmasks st) (map q_tag (nth s sent [])) (nth s masks [])) ->
  forall order, complete N traffic order ->
  exists rps' outs, par_forward rps sent order = Ok (rps', outs) /\ length outs = N /\
    (forall t, (t < N)%nat -> length (nth t outs []) = share_of total N t) /\
    (forall s j, (s < N)%nat -> (j < noise s)%nat ->
       nth_error (nth (fst (pos s j)) outs []) (snd (pos s j)) = nth_error (noiseq s) j) /\
    (forall s j, (s < N)%nat -> (j < nth s inputs 0)%nat ->
       nth_error (nth (fst (pos s (noise s + j)%nat)) outs []) (snd (pos s (noise s + j)%nat)) = nth_error (nth s handled []) j) /\
    Permutation (concat outs) (flat_map noiseq (seq 0 N) ++ concat handled) /\
  forall replies order', complete N back order' -> length replies = N ->
    (forall t, (t < N)%nat -> length (nth t replies []) = share_of total N t /\ Forall (bytes 52) (nth t replies [])) ->
  exists result, par_backward rps' replies order' = Ok result /\ length result = N /\
    forall s, (s < N)%nat -> length (nth s result []) = nth s inputs 0%nat /\
      forall j, (j < nth s inputs 0)%nat ->
        let p := pos s (noise s + j)%nat in
        nth_error (nth s result []) j =
        Some (xored (nth (snd p) (nth (fst p) replies []) []) (nth j (nth s masks []) [])).
Proof. exact c46_positions. Qed.
Print Assumptions C46_positions.

(** Orders of arrival as asked for above exist for every amount of traffic. *)
Theorem C46_orders_exist : forall N traffic, exists order, complete N traffic order.
Proof. exact complete_exists. Qed.
Print Assumptions C46_orders_exist.

(** C48 After the broadcast every server resolves every secret stored by any of
    the siblings, and no other tag; whatever the delivery schedule and the order
    in which the servers iterate over their secrets. *)
Theorem C48_party_broadcast : forall asserts iter secrets states order,
  (forall i m, Permutation (iter i m) m) ->
  Forall2 (fun l p => fold_res (qs_store asserts) l (qs_initialize_state qs_new false) = Ok p) secrets states ->
  NoDup (map o_tag (concat secrets)) -> Z.of_nat (length (concat secrets)) < 2 ^ 32 ->
  complete (length secrets) (fun t s => if (s =? t)%nat then 0%nat else length (nth s secrets [])) order ->
  exists states', broadcast_secrets party_pack (qs_store asserts) iter states order = Ok states' /\
    length states' = length secrets /\
    forall p, In p states' ->
      (forall o, In o (concat secrets) ->
         qs_next_tag (qs_load p (o_tag o)) = Ok (o_next o) /\
         qs_incremental (qs_load p (o_tag o)) = Ok (o_share o) /\
         qs_preshare p (o_tag o) = Ok (o_preshare o)) /\
      (forall t, ~ In t (map o_tag (concat secrets)) ->
         qs_next_tag (qs_load p t) = UB /\ qs_incremental (qs_load p t) = UB /\ qs_preshare p t = Abort).
Proof.
  intros a iter secrets states order Hi F ND Hb Ho.
  destruct (c48_party a iter secrets states order Hi F ND Hb Ho) as (st & E & L & H). exists st. split; [exact E|]. split; [exact L|].
  intros p Hp. rewrite Forall_forall in H. destruct (H p Hp) as (Hs & P). split.
  - intros o Hin. pose proof (find_in_perm _ _ _ ND P Hin) as Ef.
    unfold qs_next_tag, qs_incremental, qs_preshare, qs_load. cbn [qs_it]. rewrite Hs, Ef. auto.
  - intros t Ht. pose proof (find_not_in_perm _ _ _ P Ht) as Ef.
    unfold qs_next_tag, qs_incremental, qs_preshare, qs_load. cbn [qs_it]. rewrite Hs, Ef. auto.
Qed.
Print Assumptions C48_party_broadcast.

Theorem C48_backend_broadcast : forall asserts iter secrets states order,
  (forall i m, Permutation (iter i m) m) ->
  Forall2 (fun l p => fold_res (bs_store asserts) l (qs_initialize_state qs_new false) = Ok p) secrets states ->
  NoDup (map o_tag (concat secrets)) -> Z.of_nat (length (concat secrets)) < 2 ^ 32 ->
  complete (length secrets) (fun t s => if (s =? t)%nat then 0%nat else length (nth s secrets [])) order ->
  exists states', broadcast_secrets backend_pack (bs_store asserts) iter states order = Ok states' /\
    length states' = length secrets /\
    forall p, In p states' ->
      (forall o, In o (concat secrets) ->
         qs_incremental (qs_load p (o_tag o)) = Ok (o_share o) /\
         bs_preshare (qs_load p (o_tag o)) = Ok (o_preshare o)) /\
      (forall t, ~ In t (map o_tag (concat secrets)) ->
         qs_incremental (qs_load p t) = UB /\ bs_preshare (qs_load p t) = UB).
Proof.
  intros a iter secrets states order Hi F ND Hb Ho.
  destruct (c48_backend a iter secrets states order Hi F ND Hb Ho) as (st & E & L & H). exists st. split; [exact E|]. split; [exact L|].
  intros p Hp. rewrite Forall_forall in H. destruct (H p Hp) as (Hs & P).
  assert (Et : map o_tag (map drop_next (concat secrets)) = map o_tag (concat secrets)) by (rewrite map_map; reflexivity).
  split.
  - intros o Hin. pose proof (find_in_perm _ _ (drop_next o) ltac:(rewrite Et; exact ND) P (in_map _ _ _ Hin)) as Ef. cbn [o_tag drop_next] in Ef.
    unfold qs_incremental, bs_preshare, qs_load. cbn [qs_it]. rewrite Hs, Ef. auto.
  - intros t Ht. pose proof (find_not_in_perm _ _ t P ltac:(rewrite Et; exact Ht)) as Ef.
    unfold qs_incremental, bs_preshare, qs_load. cbn [qs_it]. rewrite Hs, Ef. auto.
Qed.
Print Assumptions C48_backend_broadcast.

(** When two siblings hold the same tag, the broadcast aborts (with assertions). *)
Theorem C48_collision_aborts : forall iter secrets states order,
  (forall i m, Permutation (iter i m) m) -> secrets <> [] ->
  Forall2 (fun l p => fold_res (qs_store true) l (qs_initialize_state qs_new false) = Ok p) secrets states ->
  Z.of_nat (length (concat secrets)) < 2 ^ 32 ->
  complete (length secrets) (fun t s => if (s =? t)%nat then 0%nat else length (nth s secrets [])) order ->
  ~ NoDup (map o_tag (concat secrets)) ->
  broadcast_secrets party_pack (qs_store true) iter states order = Abort.
Proof.
  intros iter secrets states order Hi Hne F Hb Ho ND.
  assert (FF : Forall2 (fun l p => NoDup (map fst (qs_map p)) /\ qs_map p = rev (map entry l)) secrets states).
  { eapply ConfigProofs.Forall2_impl; [|exact F]. cbn beta. intros l p E.
    destruct (ListDec.NoDup_dec Z.eq_dec (map o_tag l)) as [D|D].
    - destruct (install_spec true l (qs_initialize_state qs_new false) D) as (p' & E' & _ & Em); [reflexivity|].
      unfold install_all in E'. rewrite E in E'. inversion E'; subst p'. rewrite Em. cbn [qs_initialize_state qs_map qs_new].
      rewrite app_nil_r. split; [|reflexivity]. rewrite map_rev, map_fst_entry. apply NoDup_rev. exact D.
    - pose proof (install_dup l (qs_initialize_state qs_new false) (or_introl D)) as E'. unfold install_all in E'. rewrite E in E'. discriminate. }
  assert (P : Permutation (flat_map qs_map states) (map entry (concat secrets))).
  { clear - FF. induction FF as [|l p ls ps (_ & H) F IH]; cbn [flat_map concat map]; [constructor|]. rewrite H, map_app.
    apply Permutation_app; [apply Permutation_sym, Permutation_rev|exact IH]. }
  assert (L : map (fun p => length (qs_map p)) states = map (fun l => length l) secrets).
  { clear - FF. induction FF as [|l p ls ps (_ & H) F IH]; cbn [map]; [reflexivity|]. rewrite H, rev_length, map_length, IH. reflexivity. }
  pose proof (ParOnlineProofs.Forall2_len _ _ _ F) as Ln.
  apply (broadcast_dup party_pack (qs_store true) (fun o => o) true iter states order).
  - reflexivity.
  - intros p e _ _. destruct e as [t []]. reflexivity.
  - exact Hi.
  - rewrite (Permutation_length P), map_length. exact Hb.
  - rewrite <- Ln. eapply complete_ext; [|exact Ho]. intros t s _ _. cbn beta. destruct (s =? t)%nat; [reflexivity|]. symmetry. apply held_lengths. exact L.
  - reflexivity.
  - rewrite <- Ln. destruct secrets; [contradiction|cbn; lia].
  - clear - FF. induction FF as [|l p ls ps (H & _) F IH]; constructor; auto.
  - intros D. apply ND. rewrite <- map_fst_entry. eapply Permutation_NoDup; [apply Permutation_map; exact P|exact D].
Qed.
Print Assumptions C48_collision_aborts.

(** C40 With the same number c of fake queries for every key, the tags that the
    servers give to noise are, server after server, the numbers from the total
    input count on. *)
Theorem C40_noise_tags : forall rng parties k rows N confs inputs c,
  good_siblings rng parties k rows N confs inputs ->
  Z.of_nat (list_sum (batch_counts N rows confs inputs)) < 2 ^ 32 ->
  (forall s sf i, nth_error confs s = Some sf -> (i < key_count N rows s)%nat -> pf_samples (sf_conf sf) i = Z.of_nat c) ->
  exists cts, par_counts true confs (map Z.of_nat inputs) = Ok cts /\ length cts = N /\
  exists tags, map_res (fun ct => map_res (fun id => par_sample_tag ct (Z.of_nat rows) (Z.of_nat id)) (seq 0 (Z.to_nat (co_noise ct)))) cts = Ok tags /\
    concat tags = map Z.of_nat (seq (list_sum inputs) (list_sum (batch_counts N rows confs inputs) - list_sum inputs)) /\
    list_sum (batch_counts N rows confs inputs) = (list_sum inputs + rows * c)%nat.
Proof.
  intros rng parties k rows N confs inputs c G Htot HC.
  destruct (c40 rng parties k rows N confs inputs c G Htot HC) as (cts & E & L & tags & Et & Ec). exists cts. split; [exact E|]. split; [exact L|].
  exists tags. split; [exact Et|]. pose proof (total_split rng parties k rows N confs inputs c G Htot HC) as Es. rewrite Es, Ec. split; [|lia].
  do 2 f_equal. lia.
Qed.
Print Assumptions C40_noise_tags.

(** ** Examples *)
Definition ex_server (rows : nat) (samples : nat -> nat -> Z) (s : nat) : sconf :=
  {| sf_conf := {| pf_party := 0; pf_parties := 2; pf_server := Z.of_nat s; pf_servers := 2;
       pf_pkeys := []; pf_pkey := []; pf_skey := []; pf_seed := 5 + Z.of_nat s; pf_db := Z.of_nat rows;
       pf_rand := ex_rand 1; pf_samples := samples s |}; sf_shared := 3 |}.
Definition ex_servers (rows : nat) (samples : nat -> nat -> Z) : list sconf := [ex_server rows samples 0; ex_server rows samples 1].
Lemma ex_siblings rows samples inputs : (forall s i, 0 <= samples s i < 2 ^ 32) -> length inputs = 2%nat -> tiled 2 rows ->
  good_siblings ex_rng 2 0 rows 2 (ex_servers rows samples) inputs.
Proof.
  intros Hs L T. split; [lia|reflexivity|exact L|exact T|].
  exists 3. split; [intros i; apply ex_rng_range|]. intros s sf N.
  assert (E : sf = ex_server rows samples s /\ (s < 2)%nat) by (destruct s as [|[|[|s]]]; inversion N; split; auto; lia).
  destruct E as [-> Hlt]. split; try reflexivity; cbn [ex_server sf_conf pf_seed pf_samples].
  - intros i. apply ex_rng_range.
  - intros i _. apply Hs.
Qed.
Definition ex_noise (s i : nat) : Z := 1.
Example C40_example : good_siblings ex_rng 2 0 3 2 (ex_servers 3 ex_noise) [2; 1]%nat /\
  batch_counts 2 3 (ex_servers 3 ex_noise) [2; 1]%nat = [4; 2]%nat.
Proof.
  split; [|reflexivity]. apply ex_siblings; [intros; unfold ex_noise; lia|reflexivity|].
  split; [lia|]. split; [lia|]. split; vm_compute; congruence.
Qed.

(** C40 With key-dependent noise the tags of different servers can collide; the
    servers then abort in the next party (C48_collision_aborts). *)
Theorem C40_variable_noise_collides : exists rng rows N confs inputs cts tags,
  good_siblings rng 2 0 rows N confs inputs /\
  Z.of_nat (list_sum (batch_counts N rows confs inputs)) < 2 ^ 32 /\
  par_counts true confs (map Z.of_nat inputs) = Ok cts /\
  map_res (fun ct => map_res (fun id => par_sample_tag ct (Z.of_nat rows) (Z.of_nat id)) (seq 0 (Z.to_nat (co_noise ct)))) cts = Ok tags /\
  ~ NoDup (concat tags).
Proof.
  exists ex_rng, 2%nat, 2%nat, (ex_servers 2 (fun s _ => 1 + Z.of_nat (Nat.min s 1))), [1; 1]%nat. eexists. exists [[3]; [3; 4]].
  split.
  { apply ex_siblings; [intros; lia|reflexivity|]. split; [lia|]. split; [lia|]. split; vm_compute; congruence. }
  split; [vm_compute; reflexivity|]. split; [vm_compute; reflexivity|]. split; [vm_compute; reflexivity|].
  cbn. intros H. inversion H as [|? ? H1 _]. apply H1. cbn. auto.
Qed.
Print Assumptions C40_variable_noise_collides.

(** The party above after the simulated offline stage: six messages cross, each
    server gets its own answers back, in two different orders of arrival. *)
Definition ex_order (flip : bool) : nat -> list nat := fun t =>
  match t with O => if flip then [1; 0; 1]%nat else [0; 1; 1]%nat | _ => [0; 0; 0]%nat end.
Definition ex_order' : nat -> list nat := fun t => match t with O => [1; 1]%nat | _ => [0]%nat end.
Definition ex_sent : list (list query) :=
  [[{| q_tag := 0; q_tally := 11 |}; {| q_tag := 0; q_tally := 12 |}]; [{| q_tag := 0; q_tally := 13 |}]].
Definition ex_f (q : query) : list Z := repeat (100 + q_tally q) 52.
Definition ex_online (flip : bool) : res (list Z * list (list Z) * list (list Z)) :=
  let* p := par_simulate true ex_rng (ex_servers 3 ex_noise) [2; 1] in
  let* f := par_forward (snd p) ex_sent (ex_order flip) in
  let* r := par_backward (fst f) (map (map ex_f) (snd f)) ex_order' in
  Ok (fst p, map (map q_tally) (snd f), map (map (hd 0)) r).
Example C46_example : forall flip, ex_online flip = Ok ([3; 3], [[13; 1; 2]; [12; 0; 11]], [[111; 112]; [113]]).
Proof. intros []; vm_compute; reflexivity. Qed.

(** Three servers storing two, none and one secret. *)
Definition ex_secret (t : Z) : osecret := {| o_tag := t; o_next := t + 10; o_share := {| sx := t; sy := 1 |}; o_preshare := repeat t 52 |}.
Definition ex_secrets : list (list osecret) := [[ex_secret 4; ex_secret 7]; []; [ex_secret 9]].
Example C48_example :
  (let* st := map_res (fun l => fold_res (qs_store true) l (qs_initialize_state qs_new false)) ex_secrets in
   let* r := broadcast_secrets party_pack (qs_store true) (fun i m => if (i =? 0)%nat then rev m else m) st
     (fun t => match t with O => [2]%nat | 1%nat => [0; 2; 0]%nat | _ => [0; 0]%nat end) in
   map_res (fun p => map_res (fun t => let* n := qs_next_tag (qs_load p t) in let* i := qs_incremental (qs_load p t) in
     let* m := qs_preshare p t in Ok (n, sx i, hd 0 m)) [4; 7; 9]) r) =
  Ok (repeat [(14, 4, 4); (17, 7, 7); (19, 9, 9)] 3) /\ NoDup (map o_tag (concat ex_secrets)).
Proof. split; [vm_compute; reflexivity|]. cbn. repeat constructor; cbn; lia. Qed.
