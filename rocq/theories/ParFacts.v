(** Proofs of the properties of the online stage with several servers. *)
From Verif Require Import Base BaseProofs Wire Additive AdditiveProofs Shuffle ShuffleProofs ParShuffle ParShuffleProofs ParShuffleFacts
  State Handlers Batch Party Parallel Spec ChainSpec ParSpec OnlineProofs ParMergeProofs ParForwardProofs
  ParBackwardProofs ParOnlineProofs ParPartyProofs PermFacts.

Lemma Forall2_nth_default {A B} (R : A -> B -> Prop) l l' : Forall2 R l l' -> forall i d d', (i < length l)%nat -> R (nth i l d) (nth i l' d').
Proof. induction 1; intros [|i] d d' H'; cbn in *; try lia; auto. apply IHForall2. lia. Qed.

Section Perm.
Variables (N : nat) (tb : tables).
Hypothesis HT : tb_ok N tb.
Lemma received_all {A} (ins : list (list A)) :
  (forall s, (s < N)%nat -> length (nth s ins []) = nth s (tb_counts tb) 0%nat) ->
  Permutation (flat_map (fun t => received (tb_M tb) (tb_counts tb) N t ins) (seq 0 N)) (flat_map (fun s => nth s ins []) (seq 0 N)).
Proof using All.
  intros L. destruct HT as (HM & HN & Hsum & Hls & Hnoise). unfold received.
  rewrite flat_map_swap. apply Permutation_flat_map_ext. intros s Hs. apply in_seq in Hs.
  apply addressed_all.
  - intros t Ht. apply In_nth_error in Ht. destruct Ht as (j & Hj). eapply tgt_lt; eauto.
  - rewrite L by lia. symmetry. apply (tgt_len _ _ N (tb_noise tb) (tb_ls tb)); auto. lia.
Qed.
Lemma outs_perm {A} (d : A) (ins : list (list A)) :
  (forall s, (s < N)%nat -> length (nth s ins []) = nth s (tb_counts tb) 0%nat) ->
  Permutation (concat (map (fun t => pick d (received (tb_M tb) (tb_counts tb) N t ins) (ls_backward (tb_ls tb t))) (seq 0 N)))
    (flat_map (fun s => nth s ins []) (seq 0 N)).
Proof using All.
  intros L. rewrite concat_map_seq, <- received_all by exact L. symmetry. apply Permutation_flat_map_ext.
  intros t Ht. apply in_seq in Ht. apply pick_perm. destruct HT as (HM & HN & Hsum & Hls & Hnoise).
  rewrite (received_length _ _ N (tb_noise tb) (tb_ls tb)) by (auto; lia). apply (Hls t). lia.
Qed.
End Perm.

Theorem c46_positions : forall rng parties k rows N confs inputs,
  good_siblings rng parties k rows N confs inputs ->
  Z.of_nat (list_sum (batch_counts N rows confs inputs)) < 2 ^ 32 ->
  let total := list_sum (batch_counts N rows confs inputs) in
  let count s := nth s (batch_counts N rows confs inputs) 0%nat in
  let noise s := nth s (noise_counts N rows confs) 0%nat in
  exists cts shs, par_counts true confs (map Z.of_nat inputs) = Ok cts /\ par_shufflers true rng confs cts = Ok shs /\
  exists (pos : nat -> nat -> nat * nat) (traffic back : nat -> nat -> nat),
    (forall s j, (s < N)%nat -> (j < count s)%nat -> (fst (pos s j) < N)%nat /\ (snd (pos s j) < share_of total N (fst (pos s j)))%nat) /\
    (forall s j s' j', (s < N)%nat -> (s' < N)%nat -> (j < count s)%nat -> (j' < count s')%nat -> pos s j = pos s' j' -> s = s' /\ j = j') /\
    (forall t i, (t < N)%nat -> (i < share_of total N t)%nat -> exists s j, (s < N)%nat /\ (j < count s)%nat /\ pos s j = (t, i)) /\
  forall nss states rps, par_ready confs cts shs nss states = Ok rps ->
  exists noiseq : nat -> list query, (forall s, (s < N)%nat -> length (noiseq s) = noise s) /\
  forall sent handled masks, length sent = N -> length handled = N ->
    (forall s, (s < N)%nat -> length (nth s sent []) = nth s inputs 0%nat) ->
    (forall s st, (s < N)%nat -> nth_error states s = Some st ->
       Forall2 (handles st) (nth s sent []) (nth s handled []) /\ Forall2 (unmasks st) (map q_tag (nth s sent [])) (nth s masks [])) ->
  forall order, complete N traffic order ->
  exists rps' outs, par_forward rps sent order = Ok (rps', outs) /\ length outs = N /\
    (forall t, (t < N)%nat -> length (nth t outs []) = share_of total N t) /\
    (forall s j, (s < N)%nat -> (j < noise s)%nat ->
       nth_error (nth (fst (pos s j)) outs []) (snd (pos s j)) = nth_error (noiseq s) j) /\
    (forall s j, (s < N)%nat -> (j < nth s inputs 0)%nat ->
       nth_error (nth (fst (pos s (noise s + j)%nat)) outs []) (snd (pos s (noise s + j)%nat)) = nth_error (nth s handled []) j) /\
    Permutation (concat outs) (flat_map noiseq (seq 0 N) ++ concat handled) /\
  forall replies order', complete N back order' -> length replies = N ->
    (forall t, (t < N)%nat -> length (nth t replies []) = share_of total N t /\ Forall (bytes 52) (nth t replies [])) ->
  exists result, par_backward rps' replies order' = Ok result /\ length result = N /\
    forall s, (s < N)%nat -> length (nth s result []) = nth s inputs 0%nat /\
      forall j, (j < nth s inputs 0)%nat ->
        let p := pos s (noise s + j)%nat in
        nth_error (nth s result []) j =
        Some (xored (nth (snd p) (nth (fst p) replies []) []) (nth j (nth s masks []) [])).
Proof.
  intros rng parties k rows N confs inputs G Htot total count noise.
  destruct (par_counts_spec rng parties k rows N confs inputs G Htot) as (cts & Ects & Lc & Hc).
  destruct (par_shufflers_spec rng parties k rows N confs inputs G Htot cts Ects) as (tb & HT & Et & En & Eshs).
  exists cts. eexists. split; [exact Ects|]. split; [exact Eshs|].
  exists (pos (tb_M tb) (tb_counts tb) (tb_ls tb)), (from (tb_M tb) (tb_counts tb)), (back_traffic tb).
  assert (Etot : sum (tb_counts tb) = total) by (rewrite Et; reflexivity).
  assert (Ecnt : forall s, nth s (tb_counts tb) 0%nat = count s) by (intros; rewrite Et; reflexivity).
  assert (Esz : forall t, size (tb_counts tb) N t = share_of total N t) by (intros; unfold size; rewrite Etot; reflexivity).
  split; [|split; [|split]].
  { intros s j Hs Hj. rewrite <- Ecnt in Hj. pose proof (pos_server N tb HT s j Hs Hj) as Hp. rewrite Esz in Hp. exact Hp. }
  { intros s j s' j' Hs Hs' Hj Hj'. rewrite <- Ecnt in Hj, Hj'. apply (pos_inj N tb HT); assumption. }
  { intros t i Ht Hi. rewrite <- Esz in Hi. destruct (pos_surj N tb HT t i Ht Hi) as (s & j & Hs & Hj & E). exists s, j. rewrite <- Ecnt. auto. }
  intros nss states rps Er.
  destruct (par_ready_ok rng parties k rows N confs inputs G Htot cts tb nss states rps Ects HT Et En Er) as (Hok & Hinp & Hst).
  set (nq := noise_part rows N confs rps). exists nq.
  assert (Lrps : length rps = N) by apply Hok.
  assert (Hnq : forall s, (s < N)%nat -> length (nq s) = noise s).
  { intros s Hs. destruct (get_lt rps s) as (rp & _ & Nrp); [lia|]. destruct Hok as (_ & Hok).
    destruct (Hok s rp Nrp) as (_ & _ & _ & _ & _ & _ & E & _). unfold nq. rewrite E. apply En. exact Hs. }
  split; [exact Hnq|].
  intros sent handled masks Ls Lh Hs Hstates order Ho.
  destruct (par_forward_spec N tb HT rps nq sent handled order Hok Ls Lh) as (rps' & outs & Ef & Hok' & Hsame & Eouts).
  { intros a Ha. rewrite Hinp by exact Ha. apply Hs. exact Ha. }
  { intros a rp Nrp. apply (Hstates a (pr_state rp)); [rewrite <- Lrps; apply nth_error_Some; congruence|apply Hst; exact Nrp]. }
  { exact Ho. }
  set (ins := map (fun a => nq a ++ nth a handled []) (seq 0 N)) in *.
  assert (Hhl : forall s, (s < N)%nat -> length (nth s handled []) = nth s inputs 0%nat).
  { intros s Hsn. destruct (get_lt rps s) as (rp & _ & Nrp); [lia|]. destruct (Hstates s (pr_state rp) Hsn (Hst s rp Nrp)) as (F & _).
    apply Forall2_len in F. rewrite <- F. apply Hs. exact Hsn. }
  assert (Eins : forall s, (s < N)%nat -> nth s ins [] = nq s ++ nth s handled []).
  { intros s Hsn. apply nth_error_nth. unfold ins. rewrite nth_error_map_seq by exact Hsn. reflexivity. }
  assert (Hcount : forall s, (s < N)%nat -> count s = (noise s + nth s inputs 0)%nat).
  { intros s Hsn. apply (counts_nth rng parties k rows N confs inputs G Htot s Hsn). }
  assert (Lins : forall s, (s < N)%nat -> length (nth s ins []) = nth s (tb_counts tb) 0%nat).
  { intros s Hsn. rewrite Eins, app_length, Hnq, Hhl, Ecnt, Hcount by exact Hsn. reflexivity. }
  assert (Lo : length outs = N) by (rewrite Eouts, map_length, seq_length; reflexivity).
  assert (Hout : forall t, (t < N)%nat -> nth t outs [] =
    pick zero_query (received (tb_M tb) (tb_counts tb) N t ins) (ls_backward (tb_ls tb t))).
  { intros t Ht. apply nth_error_nth. rewrite Eouts, nth_error_map_seq by exact Ht. reflexivity. }
  assert (Hpos : forall s j, (s < N)%nat -> (j < count s)%nat ->
    nth_error (nth (fst (pos (tb_M tb) (tb_counts tb) (tb_ls tb) s j)) outs []) (snd (pos (tb_M tb) (tb_counts tb) (tb_ls tb) s j)) =
    nth_error (nq s ++ nth s handled []) j).
  { intros s j Hsn Hj. rewrite <- Ecnt in Hj. pose proof (pos_server N tb HT s j Hsn Hj) as (P1 & _).
    rewrite Hout by exact P1. rewrite <- Eins by exact Hsn. apply (pos_nth N tb HT zero_query ins s j Hsn Hj Lins). }
  exists rps', outs. split; [exact Ef|]. split; [exact Lo|]. split; [|split; [|split; [|split]]].
  { intros t Ht. rewrite Hout by exact Ht. unfold pick. rewrite map_length. rewrite <- Esz. destruct HT as (_ & _ & _ & Hls & _). apply (Hls t Ht). }
  { intros s j Hsn Hj. rewrite Hpos by (try exact Hsn; rewrite Hcount by exact Hsn; lia). apply nth_error_app1. rewrite Hnq by exact Hsn. exact Hj. }
  { intros s j Hsn Hj. rewrite Hpos by (try exact Hsn; rewrite Hcount by exact Hsn; lia). rewrite nth_error_app2 by (rewrite Hnq by exact Hsn; lia).
    rewrite Hnq by exact Hsn. f_equal. lia. }
  { rewrite Eouts, (outs_perm N tb HT zero_query ins Lins). rewrite (concat_nth_seq handled N Lh), <- flat_map_app_perm.
    apply Permutation_flat_map_ext. intros s Hin. apply in_seq in Hin. rewrite Eins by lia. reflexivity. }
  intros replies order' Ho' Lrep Hrep.
  destruct (par_backward_spec N tb HT rps' sent (fun a => map q_tag (nth a sent [])) (fun a => nth a masks []) replies order')
    as (result & Eb & Lres & Hres); auto.
  { intros a Ha. split; [reflexivity|]. rewrite map_length, Hinp by exact Ha. apply Hs. exact Ha. }
  { intros a rp' Nrp'. destruct Hok' as (Lrps' & _). assert (Ha : (a < N)%nat) by (rewrite <- Lrps'; apply nth_error_Some; congruence).
    destruct (get_lt rps a) as (rp & _ & Nrp); [lia|]. destruct (Hsame a rp rp' Nrp Nrp') as (Em & Es).
    destruct (Hstates a (pr_state rp) Ha (Hst a rp Nrp)) as (_ & F). clear - F Em Es.
    induction F as [|tag m l l' H F IH]; constructor; auto. destruct H as (H1 & H2). split; [|exact H2].
    unfold qs_preshare in *. rewrite Em, Es. exact H1. }
  { intros t Ht. rewrite Esz. apply Hrep. exact Ht. }
  exists result. split; [exact Eb|]. split; [exact Lres|]. intros s Hsn. destruct (Hres s Hsn) as (L1 & H1). split.
  { rewrite L1. apply Hinp. exact Hsn. }
  intros j Hj. cbn zeta. assert (noise s = tb_noise tb s) as -> by (symmetry; apply En; exact Hsn).
  rewrite H1 by (rewrite Hinp by exact Hsn; exact Hj). reflexivity.
Qed.

(** The order in which messages arrive can always be completed. *)
Lemma complete_exists N traffic : exists order, complete N traffic order.
Proof.
  exists (fun t => flat_map (fun s => repeat s (traffic t s)) (seq 0 N)). intros t Ht. split.
  - intros s Hs. apply in_flat_map in Hs. destruct Hs as (x & Hx & Hs). apply repeat_spec in Hs. apply in_seq in Hx. lia.
  - intros s Hs.
    assert (Hr : forall n x y, count_occ Nat.eq_dec (repeat x n) y = if Nat.eq_dec x y then n else 0%nat).
    { induction n as [|n IH]; intros x y; cbn; destruct (Nat.eq_dec x y) as [E|E]; auto; rewrite IH; destruct (Nat.eq_dec x y); congruence. }
    assert (Hg : forall n a, count_occ Nat.eq_dec (flat_map (fun x => repeat x (traffic t x)) (seq a n)) s =
      if (a <=? s)%nat && (s <? a + n)%nat then traffic t s else 0%nat).
    { induction n as [|n IH]; intros a; cbn [seq flat_map].
      - destruct (Nat.leb_spec a s), (Nat.ltb_spec s (a + 0)); cbn [andb]; try reflexivity; lia.
      - rewrite count_occ_app, Hr, IH. destruct (Nat.eq_dec a s) as [E|E], (Nat.leb_spec (S a) s), (Nat.ltb_spec s (S a + n)), (Nat.leb_spec a s), (Nat.ltb_spec s (a + S n)); cbn [andb]; try lia; rewrite ?E; lia. }
    rewrite Hg. destruct (Nat.leb_spec 0 s), (Nat.ltb_spec s (0 + N)); cbn [andb]; try lia.
Qed.

Theorem c46 : forall rng parties k rows N confs inputs,
  good_siblings rng parties k rows N confs inputs ->
  Z.of_nat (list_sum (batch_counts N rows confs inputs)) < 2 ^ 32 ->
  exists cts shs, par_counts true confs (map Z.of_nat inputs) = Ok cts /\ par_shufflers true rng confs cts = Ok shs /\
  exists traffic back : nat -> nat -> nat,
  forall nss states rps, par_ready confs cts shs nss states = Ok rps ->
  exists noiseq : nat -> list query, (forall s, (s < N)%nat -> length (noiseq s) = nth s (noise_counts N rows confs) 0%nat) /\
  forall sent handled masks, length sent = N -> length handled = N ->
    (forall s, (s < N)%nat -> length (nth s sent []) = nth s inputs 0%nat) ->
    (forall s st, (s < N)%nat -> nth_error states s = Some st ->
       Forall2 (handles st) (nth s sent []) (nth s handled []) /\ Forall2 (unmasks st) (map q_tag (nth s sent [])) (nth s masks [])) ->
  forall order order' (f : query -> list Z), complete N traffic order -> complete N back order' -> (forall q, bytes 52 (f q)) ->
  exists rps' outs result,
    par_forward rps sent order = Ok (rps', outs) /\
    Permutation (concat outs) (flat_map noiseq (seq 0 N) ++ concat handled) /\
    map (fun l => Z.of_nat (length l)) outs = map co_shuffled cts /\
    par_backward rps' (map (map f) outs) order' = Ok result /\
    result = map (fun s => map (fun hm => xored (f (fst hm)) (snd hm)) (combine (nth s handled []) (nth s masks []))) (seq 0 N).
Proof.
  intros rng parties k rows N confs inputs G Htot.
  destruct (c46_positions rng parties k rows N confs inputs G Htot) as (cts & shs & Ec & Es & pos & traffic & back & P1 & _ & _ & H).
  exists cts, shs. split; [exact Ec|]. split; [exact Es|]. exists traffic, back. intros nss states rps Er.
  destruct (H nss states rps Er) as (noiseq & Hn & H'). exists noiseq. split; [exact Hn|].
  intros sent handled masks Ls Lh Hs Hst order order' f Ho Ho' Hf.
  destruct (H' sent handled masks Ls Lh Hs Hst order Ho) as (rps' & outs & Ef & Lo & Lt & _ & Hp & Hperm & H'').
  destruct (H'' (map (map f) outs) order' Ho') as (result & Eb & Lr & Hr).
  { rewrite map_length. exact Lo. }
  { intros t Ht. change (@nil (list Z)) with (map f []). rewrite map_nth, map_length. split; [apply Lt; exact Ht|].
    apply Forall_map. apply Forall_forall. intros; apply Hf. }
  exists rps', outs, result. split; [exact Ef|]. split; [exact Hperm|]. split; [|split; [exact Eb|]].
  { pose proof (par_counts_spec rng parties k rows N confs inputs G Htot) as (cts' & Ec' & Lc & Hc). rewrite Ec in Ec'. inversion Ec'; subst cts'.
    apply nth_error_ext. intros t. destruct (Nat.lt_ge_cases t N) as [Ht|Ht].
    - destruct (get_lt confs t) as (sf & _ & Nf); [rewrite (gb_length _ _ _ _ _ _ _ G); exact Ht|].
      rewrite !nth_error_map, (Hc t sf Nf), (nth_len outs N Lo t Ht). cbn. f_equal. rewrite Lt by exact Ht. reflexivity.
    - rewrite !(proj2 (nth_error_None _ _)); [reflexivity| |]; rewrite map_length; lia. }
  apply nth_error_ext. intros s. destruct (Nat.lt_ge_cases s N) as [Hsn|Hsn].
  2:{ rewrite !(proj2 (nth_error_None _ _)); [reflexivity|rewrite map_length, seq_length; lia|lia]. }
  rewrite nth_error_map_seq, (nth_len result N Lr s Hsn) by exact Hsn. f_equal.
  destruct (Hr s Hsn) as (L1 & H1).
  destruct (get_lt states s) as (st & _ & Nst).
  { unfold par_ready in Er. rewrite (gb_length _ _ _ _ _ _ _ G) in Er.
    destruct (get_lt rps s) as (rp & _ & Nrp). { rewrite (map_res_length _ _ _ Er), seq_length. exact Hsn. }
    destruct (map_res_nth _ _ _ s s Er (nth_error_seq 0 N s Hsn)) as (rp' & E' & _).
    destruct (get cts s); try discriminate. cbn [bind] in E'. destruct (get shs s); try discriminate. cbn [bind] in E'.
    destruct (get nss s); try discriminate. cbn [bind] in E'. destruct (get states s) as [st| | |] eqn:Est; try discriminate.
    apply get_Ok in Est. apply nth_error_Some. congruence. }
  destruct (Hst s st Hsn Nst) as (F1 & F2).
  pose proof (Forall2_len _ _ _ F1) as L2. pose proof (Forall2_len _ _ _ F2) as L3. rewrite map_length in L3. rewrite (Hs s Hsn) in L2, L3.
  apply nth_error_ext. intros j. destruct (Nat.lt_ge_cases j (nth s inputs 0%nat)) as [Hj|Hj].
  2:{ rewrite !(proj2 (nth_error_None _ _)); [reflexivity|rewrite map_length, combine_length; lia|lia]. }
  rewrite (H1 j Hj). specialize (Hp s j Hsn Hj).
  rewrite nth_error_map. rewrite (nth_error_nth' (combine (nth s handled []) (nth s masks [])) ({| q_tag := 0; q_tally := 0 |}, [])) by (rewrite combine_length; lia).
  rewrite combine_nth by lia. cbn [option_map fst snd]. f_equal. f_equal.
  rewrite (nth_error_nth' (nth s handled []) zero_query) in Hp by lia.
  change (@nil (list Z)) with (map f []). rewrite map_nth. 
  apply nth_error_nth. rewrite nth_error_map, Hp. reflexivity.
Qed.
