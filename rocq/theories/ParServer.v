(** What one server with siblings does, as a script: the local steps of
    ParLocal combined with the rules of ParRules. *)
From Verif Require Import Base BaseProofs Incremental IncrementalProofs Wire WireProofs Additive AdditiveProofs Onion OnionProofs
  Shuffle Sizes State Database CipherBatch CipherBatchProofs Range Handlers Batch Party Chain Spec SharingProofs ShuffleProofs
  StateProofs ChainSpec OnlineProofs OfflineProofs OfflineParty ChainProofs ParShuffle ParShuffleProofs ParShuffleFacts Parallel ParChain
  ParSpec ParChainSpec ParMergeProofs ParForwardProofs ParBackwardProofs ParOnlineProofs ParPartyProofs PermFacts ParFacts
  ParSecretsProofs ParTagProofs ParStage ParParty ParChainProofs Stream StreamProofs Net Procs ProcProofs ProcChain ProcNet ParProcs ParCrash ProcExchange
  ParRules ParLocal.

Local Notation advance := OnlineProofs.advance.

(** ** Exchanges *)
Definition ready_blk (k tag : nat) : blk := {| bk_k := k; bk_tag := tag; bk_data := fun _ _ => [1]; bk_small := true; bk_items := 0 |}.
Definition count_blk (k tag : nat) (f : nat -> nat -> Z) : blk :=
  {| bk_k := k; bk_tag := tag; bk_data := fun s t => le 4 (f s t); bk_small := true; bk_items := 0 |}.
(** [sents s]: for each item of server s, the messages it leads to. *)
Definition sap_blk {M} (N k tag : nat) (enc : M -> list Z) (sents : nat -> list (list (nat * M))) : blk :=
  {| bk_k := k; bk_tag := tag; bk_data := fun s t => concat (map enc (outgoing t (concat (sents s)))); bk_small := false;
     bk_items := list_sum (map (fun s => length (sents s)) (seq 0 N)) |}.

(** What the servers of a party exchange. *)
Record plan := {
  pl_count : nat -> Z; pl_noise : nat -> nat -> Z; pl_cipher : nat -> list (nat * list Z);
  pl_entries : nat -> Z; pl_secret : nat -> list (list (nat * osecret));
  pl_query : nat -> list (nat * query); pl_response : nat -> list (nat * list Z)
}.
Definition each {A} (l : list A) : list (list A) := map (fun x => [x]) l.
Section Blocks.
  Context (N k : nat) (pl : plan).
  Definition x_counts : blk := count_blk k 0 (fun s _ => pl_count pl s).
  Definition x_ready1 : blk := ready_blk k 1.
  Definition x_ready2 : blk := ready_blk k 2.
  Definition x_noise1 : blk := count_blk k 3 (pl_noise pl).
  Definition x_ciphers : blk := sap_blk N k 4 (fun m => m) (fun s => each (pl_cipher pl s)).
  Definition x_ready3 : blk := ready_blk k 5.
  Definition x_entries : blk := count_blk k 6 (fun s _ => pl_entries pl s).
  Definition x_secrets : blk := sap_blk N k 7 enc_osecret (pl_secret pl).
  Definition x_noise2 : blk := count_blk k 8 (pl_noise pl).
  Definition x_ready4 : blk := ready_blk k 9.
  Definition x_ready5 : blk := ready_blk k 10.
  Definition x_queries : blk := sap_blk N k 11 enc_query (fun s => each (pl_query pl s)).
  Definition x_ready6 : blk := ready_blk k 12.
  Definition x_responses : blk := sap_blk N k 13 (fun m => m) (fun s => each (pl_response pl s)).
  Definition x_ready7 : blk := ready_blk k 14.
  Definition x_ready8 : blk := ready_blk k 15.
End Blocks.

Definition snd_ (i : nat) (c : chan) (bs : list Z) : list mact := map (Snd (Link i c)) bs.
Definition rcv_ (i : nat) (c : chan) (bs : list Z) : list mact := map (Rcv (Link i c)) bs.

(** The stages of server i of entity S k, which takes [cs] and passes on [cs']. *)
Section Stages.
  Context (N k i : nat) (pl : plan).
  Definition s_counts (n n' : nat) : list mact :=
    rcv_ i (Fwd k) (le 4 (Z.of_nat n)) ++ Loc (x_counts (S k) pl) :: snd_ i (Fwd (S k)) (le 4 (Z.of_nat n')).
  Definition s_ready (tag : nat) : list mact := rcv_ i (Bwd (S k)) [1] ++ Loc (ready_blk (S k) tag) :: snd_ i (Bwd k) [1].
  Definition s_ciphers (cs cs' : list (list Z)) : list mact :=
    rcv_ i (Fwd k) (concat cs) ++ [Loc (x_ready2 (S k)); Loc (x_noise1 (S k) pl); Loc (x_ciphers N (S k) pl); Loc (x_ready3 (S k))] ++
    snd_ i (Fwd (S k)) (concat cs').
  Definition s_secrets : list mact := [Loc (x_entries (S k) pl); Loc (x_secrets N (S k) pl); Loc (x_noise2 (S k) pl)].
  Definition s_offline (n n' : nat) (cs cs' : list (list Z)) : list mact :=
    s_counts n n' ++ s_ready 1 ++ s_ciphers cs cs' ++ s_secrets ++ s_ready 9.
  Definition s_simulate (n n' : nat) : list mact := s_counts n n' ++ [Loc (x_noise2 (S k) pl)] ++ s_ready 9.
  Definition s_queries (qs qs' : list (list Z)) : list mact :=
    rcv_ i (Fwd k) (concat qs) ++ [Loc (x_ready5 (S k)); Loc (x_queries N (S k) pl); Loc (x_ready6 (S k))] ++ snd_ i (Fwd (S k)) (concat qs').
  Definition s_responses (rs' rs : list (list Z)) : list mact :=
    rcv_ i (Bwd (S k)) (concat rs') ++ [Loc (x_responses N (S k) pl); Loc (x_ready7 (S k)); Loc (x_ready8 (S k))] ++ snd_ i (Bwd k) (concat rs).
End Stages.

Lemma feeds_length {P A M} (next : P -> A -> res (list (nat * M) * P)) p items sents : feeds next p items sents -> length items = length sents.
Proof. induction 1; cbn; congruence. Qed.
Lemma in_sum (f : nat -> nat) N i : (i < N)%nat -> (f i <= list_sum (map f (seq 0 N)))%nat.
Proof. intros H. apply sum_in. apply in_seq. lia. Qed.
Lemma obs_then {A A' N p} (Q : A' -> Prop) (pr : proc mchan A) f l l' :
  obs N p (fun _ => True) pr l -> (forall a, obs N p Q (f a) l') -> obs N p Q (pbind pr f) (l ++ l').
Proof. intros H1 H2. eapply obs_bind; [exact H1|]. intros a _. apply H2. Qed.
Lemma obs_eq_bind {A A' N p} (Q : A' -> Prop) (pr : proc mchan A) f l l' a :
  obs N p (eq a) pr l -> obs N p Q (f a) l' -> obs N p Q (pbind pr f) (l ++ l').
Proof. intros H1 H2. eapply obs_bind; [exact H1|]. intros a' <-. exact H2. Qed.

Lemma share_le total N t : (share_of total N t <= total)%nat.
Proof.
  unfold share_of. assert (total / N <= total)%nat by (destruct N as [|N]; [cbn; lia|apply Nat.div_le_upper_bound; nia]).
  destruct (t =? N - 1)%nat; [apply Nat.le_sub_l|assumption].
Qed.
Lemma sum_filtered (f : nat -> bool) (g : nat -> nat) l : (list_sum (map g (filter f l)) <= list_sum (map g l))%nat.
Proof. induction l as [|a l IH]; [apply le_n|]. cbn. destruct (f a); cbn; change (fold_right Nat.add 0%nat) with list_sum; lia. Qed.
Lemma sends_bound M counts N (noise : nat -> nat) ls {A} (ins : list (list A)) t : par_map_ok M counts N -> (2 <= N)%nat -> Z.of_nat (sum counts) < 2 ^ 32 ->
  (forall t, (t < N)%nat -> ls_ok (size counts N t) (ls t)) -> (t < N)%nat -> (forall s, (s < N)%nat -> length (nth s ins []) = nth s counts 0%nat) ->
  (list_sum (map (fun u => length (outgoing t (shuffle_sends M counts ins u))) (siblings_of N t)) <= sum counts)%nat.
Proof.
  intros HM HN Hsum Hls Ht L. etransitivity; [apply sum_filtered|].
  rewrite (map_ext_in _ (from M counts t)).
  - pose proof (from_sum M counts N noise ls HM HN Hsum Hls t Ht) as E. change (list_sum ?l) with (sum l). rewrite E. apply (share_le (sum counts)).
  - intros s Hs. apply in_seq in Hs. apply (stream_length M counts N noise ls HM HN Hsum Hls ins t s); [lia|]. apply L. lia.
Qed.

(** The memory of all buffers is as large as theirs. *)
Definition smem_ok (mem : smem) : Prop := (forall e, length (sm_link mem e) = BUFFER_SIZE) /\
  (forall e t, (BUFFER_SIZE <= length (sm_w mem e t))%nat) /\ (forall e t, (BUFFER_SIZE <= length (sm_r mem e t))%nat).

Lemma obs_ready N k i tx rx tag : (i < N)%nat -> (forall t, List.In t (siblings_of N i) -> tx t = Sib (S k) i t) ->
  (forall t, List.In t (siblings_of N i) -> rx t = Sib (S k) t i) ->
  obs N (S k * N + i) (eq tt) (pserver_ready true N (S k) i tx rx) (s_ready k i tag).
Proof.
  intros Hi Etx Erx. unfold s_ready. unfold pserver_ready. rewrite Nat.sub_succ, Nat.sub_0_r.
  eapply obs_follows_bind; [apply (fo_wait (est := mest))|].
  change (Loc (ready_blk (S k) tag) :: snd_ i (Bwd k) [1]) with ([Loc (ready_blk (S k) tag)] ++ snd_ i (Bwd k) [1]).
  eapply obs_then; [apply (obs_barrier N (S k) i Hi (ready_blk (S k) tag) eq_refl eq_refl tx rx Etx Erx); reflexivity|].
  intros _. eapply obs_follows. apply (fo_ready (est := mest)).
Qed.

(** ** Secrets *)
Lemma sum32_range l : 0 <= sum32 l < 2 ^ 32.
Proof.
  unfold sum32. assert (H : forall l t, 0 <= t < 2 ^ 32 -> 0 <= fold_left (fun t c => w32 (t + c)) l t < 2 ^ 32); [|apply H; lia].
  clear l. induction l as [|c l IH]; intros t Ht; cbn [fold_left]; [exact Ht|]. apply IH. apply Z.mod_pos_bound. reflexivity.
Qed.

Section Secrets.
Variables (N k i : nat) (tx rx : nat -> mchan) (mem : smem) (tag1 tag2 : nat).
Hypothesis Hi : (i < N)%nat.
Hypothesis Etx : forall t, List.In t (siblings_of N i) -> tx t = Sib k i t.
Hypothesis Erx : forall t, List.In t (siblings_of N i) -> rx t = Sib k t i.
Hypothesis Hmem : smem_ok mem.
Variables (pack : Z * stored -> osecret) (store : qstate -> osecret -> res qstate) (iter : iteration) (st : nat -> qstate).
Variables (traffic : nat -> nat -> nat) (P : list qstate -> Prop).
Hypothesis Hiter : forall i l, Permutation (iter i l) l.
Hypothesis Htr : forall t s, (t < N)%nat -> (s < N)%nat -> (if (s =? t)%nat then 0%nat else length (qs_map (st s))) = traffic t s.
Hypothesis Hall : forall order, complete N traffic order ->
  exists out, broadcast_secrets pack store iter (map st (seq 0 N)) order = Ok out /\ P out.
Hypothesis Hwf : forall s e, (s < N)%nat -> List.In e (qs_map (st s)) -> wf_osecret (pack e).

Lemma obs_secrets e : obs N (k * N + i) (fun h => exists out, nth_error out i = Some h /\ P out)
  (psecrets iter N i mem tx rx e pack store (st i))
  [Loc (count_blk k tag1 (fun s _ => secret_count st s)); Loc (sap_blk N k tag2 enc_osecret (secret_sents N pack iter st))].
Proof using All.
  assert (Htr' : forall t s, (t < N)%nat -> (s < N)%nat -> length (outgoing t (concat (secret_sents N pack iter st s))) = traffic t s).
  { intros t s Ht Hs. rewrite secret_stream by exact Ht. rewrite <- (Htr t s Ht Hs). destruct (s =? t)%nat; [reflexivity|].
    rewrite map_length. apply Permutation_length, Hiter. }
  destruct (secrets_local N pack store iter st traffic P Htr' Hall i Hi) as (W1 & W2 & Hlog).
  unfold psecrets. change (w32 (Z.of_nat (length (qs_map (st i))))) with (secret_count st i).
  set (x1 := count_blk k tag1 (fun s _ => secret_count st s)). set (x2 := sap_blk N k tag2 enc_osecret (secret_sents N pack iter st)).
  apply (obs_broadcast_counts N k i Hi x1 eq_refl eq_refl tx rx Etx Erx _ (secret_count st)).
  - reflexivity.
  - intros s t Hs Ht. split; [reflexivity|]. apply Z.mod_pos_bound. reflexivity.
  - apply (obs_sap N k i Hi x2 eq_refl tx rx Etx Erx lb_ops SECRET_SIZE (lb_rel (BUFFER_SIZE / SECRET_SIZE) SECRET_SIZE) (lb_laws _ _)
      ltac:(unfold SECRET_SIZE, BUFFER_SIZE; lia) enc_osecret dec_osecret _ _ _ (st i) (secret_sents N pack iter st)).
    + intros s t Hs Ht Hne. reflexivity.
    + apply secret_sents_to.
    + intros s Hs. unfold secret_sents. rewrite <- flat_map_concat_map. apply Forall_forall. intros m Hm. apply in_flat_map in Hm. destruct Hm as (e' & He & Hm).
      apply in_map_iff in Hm. destruct Hm as (t & <- & _). cbn [snd]. apply osecret_roundtrip. apply (Hwf s); [exact Hs|].
      apply (Permutation_in _ (Hiter s _)). exact He.
    + apply secret_sents_one.
    + exact W1.
    + rewrite <- W2. apply sum32_range.
    + exact Hlog.
    + apply secret_feeds.
    + cbn [x2 sap_blk bk_items]. etransitivity; [|apply (in_sum (fun s => length (secret_sents N pack iter st s)) N i Hi)].
      unfold secret_sents. rewrite map_length. apply le_n.
    + intros t. split; [apply lb_make_rel|apply Hmem].
    + intros t. split; [apply lb_make_rel|apply Hmem].
    + exact W2.
Qed.
End Secrets.

(** ** Counts and shufflers *)
Section PartyServer.
Variables (rng : rng_t) (keys : list (list Z * list Z)) (k rows N : nat) (confs : list sconf) (its : list (list item)).
Notation inputs := (map (fun l : list item => length l) its).
Hypothesis G : good_siblings rng (length keys) k rows N confs inputs.
Hypothesis Htot : Z.of_nat (list_sum (batch_counts N rows confs inputs)) < 2 ^ 32.
Notation m := (length keys - k - 1)%nat.
Notation cnt := (ct rows N confs inputs).
Notation counts := (batch_counts N rows confs inputs).
Notation total := (list_sum counts).
Variables (i : nat) (sf : sconf).
Hypothesis Nf : nth_error confs i = Some sf.
Variables (tx rx : nat -> mchan).
Hypothesis Etx : forall t, List.In t (siblings_of N i) -> tx t = Sib (S k) i t.
Hypothesis Erx : forall t, List.In t (siblings_of N i) -> rx t = Sib (S k) t i.
Notation p := (S k * N + i)%nat.

Lemma conf_lt : (i < N)%nat.
Proof using All. rewrite <- (gb_length _ _ _ _ _ _ _ G). apply nth_error_Some. congruence. Qed.

Lemma counts_all : map (fun s => Z.of_nat (nth s counts 0%nat)) (seq 0 N) = map Z.of_nat counts.
Proof using All.
  rewrite <- (map_map (fun s => nth s counts 0%nat)). f_equal. pose proof (nth_seq_all 0%nat counts) as Hn.
  rewrite (counts_length rng (length keys) k rows N confs inputs G Htot) in Hn. exact Hn.
Qed.

Lemma counts_local : par_check true (sf_conf sf) = Ok tt /\
  noise_samples true (sf_conf sf) = Ok (co_start (cnt i sf), co_end (cnt i sf), co_samples (cnt i sf), co_noise (cnt i sf)) /\
  w32 (co_noise (cnt i sf) + co_input (cnt i sf)) = Z.of_nat (nth i counts 0%nat) /\
  sum32 (map Z.of_nat counts) = co_total (cnt i sf) /\
  par_shuffled (co_total (cnt i sf)) (pf_servers (sf_conf sf)) (pf_server (sf_conf sf)) = co_shuffled (cnt i sf).
Proof using All.
  pose proof conf_lt as Hi. pose proof (gb_length _ _ _ _ _ _ _ G) as L.
  destruct (par_counts_spec rng (length keys) k rows N confs inputs G Htot) as (cts & E & Lc & Hc).
  specialize (Hc i sf Nf). unfold par_counts in E.
  destruct (map_res _ confs) as [smps| | |] eqn:Es; try discriminate. cbn [bind] in E. rewrite L in E.
  destruct (map_res _ (seq 0 N)) as [at_| | |] eqn:Ea; try discriminate. cbn [bind] in E.
  destruct (map_res_nth _ _ _ i sf Es Nf) as (smp & E1 & Ns).
  apply bind_Ok in E1 as ([] & Ech & Esm).
  destruct (map_res_nth _ _ _ i i E (nth_error_seq 0 N i Hi)) as (c & E2 & Nc). rewrite Hc in Nc. inversion Nc; subst c. clear Nc.
  unfold get in E2. rewrite Nf, Ns in E2. cbn [bind] in E2.
  rewrite nth_error_map, (nth_error_nth' inputs 0%nat) in E2 by (rewrite map_length; rewrite (gb_inputs _ _ _ _ _ _ _ G) || rewrite (its_length rng keys k rows N confs its G Htot); lia).
  cbn [option_map bind] in E2. destruct smp as [[[a1 a2] a3] a4]. injection E2 as F1 F2 F3 F4 F5 F6 F7.
  pose proof (count_le rng (length keys) k rows N confs inputs G Htot i Hi) as Hle. cbn beta in Hle.
  split; [exact Ech|]. split; [rewrite Esm; cbn [ParPartyProofs.ct co_start co_end co_samples co_noise]; subst a1 a2 a3 a4; reflexivity|].
  pose proof (counts_nth rng (length keys) k rows N confs inputs G Htot i Hi) as Hn. cbn beta in Hn.
  destruct (gb_servers _ _ _ _ _ _ _ G) as (shared & Hsh & GS). pose proof (GS i sf Nf) as g.
  pose proof (gb_tiled _ _ _ _ _ _ _ G) as (T1 & T2 & T3 & T4).
  split; [|split].
  - cbn [ParPartyProofs.ct co_noise co_input]. rewrite Hn. change (sum counts) with total in Hle. rewrite w32_id by (unfold u32; lia). lia.
  - rewrite sum32_spec by exact Htot. reflexivity.
  - rewrite (gs_server _ _ _ _ _ _ _ _ g), (gs_servers _ _ _ _ _ _ _ _ g). cbn [ParPartyProofs.ct co_total co_shuffled].
    rewrite par_shuffled_spec by (try lia; exact Htot). reflexivity.
Qed.

Lemma count_small s : 0 <= Z.of_nat (nth s counts 0%nat) < 2 ^ 32.
Proof using All.
  destruct (Nat.lt_ge_cases s N) as [Hs|Hs].
  - pose proof (count_le rng (length keys) k rows N confs inputs G Htot s Hs) as Hle. cbn beta in Hle. change (sum counts) with total in Hle.
    rewrite (counts_nth rng (length keys) k rows N confs inputs G Htot s Hs). cbn beta. lia.
  - rewrite nth_overflow by (rewrite (counts_length rng (length keys) k rows N confs inputs G Htot); exact Hs). lia.
Qed.

Variable (pl : plan).
Hypothesis Pcount : pl_count pl = fun s => Z.of_nat (nth s counts 0%nat).

Lemma obs_counts : obs N p (eq (cnt i sf))
  (pserver_counts N (S k) i tx rx sf (co_start (cnt i sf), co_end (cnt i sf), co_samples (cnt i sf), co_noise (cnt i sf)))
  (s_counts k i pl (length (nth i its [])) (share_of total N i)).
Proof using All.
  unfold s_counts.
  pose proof conf_lt as Hi. destruct counts_local as (_ & _ & H3 & H4 & H5).
  unfold pserver_counts. rewrite Nat.sub_succ, Nat.sub_0_r.
  eapply obs_follows_bind; [apply (fo_read_count (est := mest))|].
  { pose proof (count_small i) as Hc. rewrite (counts_nth rng (length keys) k rows N confs inputs G Htot i Hi) in Hc. cbn beta in Hc. rewrite input_nth in Hc. unfold u32. lia. }
  assert (Ei : Z.of_nat (length (nth i its [])) = co_input (cnt i sf)) by (cbn [ParPartyProofs.ct co_input]; rewrite input_nth; reflexivity).
  rewrite Ei, H3.
  apply (obs_broadcast_counts N (S k) i Hi (x_counts (S k) pl) eq_refl eq_refl tx rx Etx Erx (eq (cnt i sf)) (fun s => Z.of_nat (nth s counts 0%nat))).
  - reflexivity.
  - intros s t Hs Ht. cbn [x_counts count_blk bk_data]. rewrite Pcount. split; [reflexivity|apply count_small].
  - rewrite counts_all, H4, H5.
    match goal with |- obs _ _ _ _ ?l => rewrite <- (app_nil_r l) end. eapply obs_follows_bind; [apply (fo_count (est := mest))|].
    apply obs_ret. reflexivity.
Qed.

Section Tables.
Variable (tb : tables).
Hypothesis HT : tb_ok N tb.
Hypothesis Et : tb_counts tb = counts.
Hypothesis En : forall s, (s < N)%nat -> tb_noise tb s = nz rows N confs s.
Hypothesis Eshs : forall cts, par_counts true confs (map Z.of_nat inputs) = Ok cts ->
  par_shufflers true rng confs cts = Ok (map (shuf (tb_M tb) (tb_counts tb) N (tb_noise tb) (tb_ls tb)) (seq 0 N)).
Notation sh := (shuf (tb_M tb) (tb_counts tb) N (tb_noise tb) (tb_ls tb)).
Notation nfrom := (nfrom (tb_M tb) (tb_counts tb) (tb_noise tb)).
Hypothesis Pnoise : pl_noise pl = fun s t => Z.of_nat (nfrom t s).

Lemma shufflers_local :
  ps_initialize rng (Z.to_nat (pf_server (sf_conf sf))) (Z.to_nat (pf_servers (sf_conf sf))) (sf_shared sf)
    (map Z.to_nat (co_at (cnt i sf))) (Z.to_nat (co_noise (cnt i sf))) = Ok (sh_ps (sh i)) /\
  assert_ (co_shuffled (cnt i sf) =? Z.of_nat (ps_slice (sh_ps (sh i)))) = Ok tt /\
  (forall t, (t < N)%nat -> ps_count_noise_to (sh_ps (sh i)) t = Ok (nfrom t i)) /\
  ls_initialize rng (pf_seed (sf_conf sf)) (Z.to_nat (co_shuffled (cnt i sf))) = Ok (sh_ls (sh i)) /\
  sh_noisep (sh i) = running 0 (sh_noise (sh i)).
Proof using All.
  pose proof conf_lt as Hi. pose proof (gb_length _ _ _ _ _ _ _ G) as L.
  destruct (par_counts_spec rng (length keys) k rows N confs inputs G Htot) as (cts & Ects & Lc & Hc).
  specialize (Eshs cts Ects). unfold par_shufflers in Eshs. rewrite L in Eshs.
  destruct (map_res _ (seq 0 N)) as [pss| | |] eqn:Ep; try discriminate. cbn [bind] in Eshs.
  destruct (map_res_nth _ _ _ i i Eshs (nth_error_seq 0 N i Hi)) as (s & E2 & Ns).
  rewrite nth_error_map_seq in Ns by exact Hi. inversion Ns; subst s. clear Ns.
  unfold get in E2. rewrite Nf, (Hc i sf Nf) in E2. cbn [bind] in E2.
  destruct (map_res_nth _ _ _ i i Ep (nth_error_seq 0 N i Hi)) as (q & E1 & Nq).
  unfold get in E1. rewrite Nf, (Hc i sf Nf) in E1. cbn [bind] in E1. rewrite Nq in E2. cbn [bind] in E2.
  apply bind_Ok in E1 as (q' & E1 & E1'). apply bind_Ok in E1' as ([] & Ea & Eq). inversion Eq; subst q'. clear Eq.
  apply bind_Ok in E2 as (from_ & Ef & E2). apply bind_Ok in E2 as (ls & El & E2).
  assert (Eps : q = sh_ps (sh i)) by (injection E2 as F1 F2 F3 F4; exact F1).
  assert (Els : ls = sh_ls (sh i)) by (injection E2 as F1 F2 F3 F4; exact F2).
  subst q ls. split; [exact E1|]. split; [exact Ea|]. split; [|split; [exact El|]].
  - intros t Ht. unfold ps_count_noise_to. cbn [ParForwardProofs.shuf sh_ps ps_spec ps_to_noise]. rewrite get_map by exact Ht. reflexivity.
  - assert (from_ = sh_noise (sh i) /\ running 0 from_ = sh_noisep (sh i)) as [<- <-]; [|reflexivity].
    clear - E2. unfold ParForwardProofs.shuf in *. cbn [sh_noise sh_noisep sh_ps sh_ls] in *. injection E2 as F1 F2. split; assumption.
Qed.

Lemma nfrom_small s t : (s < N)%nat -> (t < N)%nat -> 0 <= Z.of_nat (nfrom t s) < 2 ^ 32.
Proof using All.
  intros Hs Ht. split; [lia|]. apply Z.le_lt_trans with (Z.of_nat total); [|exact Htot]. apply Nat2Z.inj_le.
  destruct HT as (HM & HN & Hsum & Hls & Hnoise).
  etransitivity; [apply nfrom_le|]. etransitivity; [apply count_occ_bound|]. rewrite (tgt_len _ _ N (tb_noise tb) (tb_ls tb) HM HN Hsum Hls) by exact Hs.
  rewrite Et. pose proof (count_le rng (length keys) k rows N confs inputs G Htot s Hs) as Hle. cbn beta in Hle.
  rewrite (counts_nth rng (length keys) k rows N confs inputs G Htot s Hs). exact Hle.
Qed.

Lemma obs_shufflers tag : obs N p (eq (sh i)) (pserver_shufflers true rng N i tx rx sf (cnt i sf)) [Loc (count_blk (S k) tag (pl_noise pl))].
Proof using All.
  pose proof conf_lt as Hi. destruct shufflers_local as (E1 & E2 & E3 & E4 & E5). unfold pserver_shufflers.
  eapply obs_lift_bind; [exact E1|]. eapply obs_lift_bind; [exact E2|].
  rewrite (E3 i Hi). change (lift (Ok (nfrom i i))) with (@Ret mchan nat (nfrom i i)).
  apply (obs_send_counts N (S k) i Hi (count_blk (S k) tag (pl_noise pl)) eq_refl eq_refl tx rx Etx Erx (eq (sh i)) _ (fun s t => Z.of_nat (nfrom t s)) (Z.of_nat (nfrom i i)) []
    (fun from => do ls <- lift (ls_initialize rng (pf_seed (sf_conf sf)) (Z.to_nat (co_shuffled (cnt i sf))));
      Ret {| sh_ps := sh_ps (sh i); sh_ls := ls; sh_noise := map Z.to_nat from; sh_noisep := running 0 (map Z.to_nat from) |})).
  - intros t Ht. apply in_siblings in Ht. rewrite (E3 t) by apply Ht. reflexivity.
  - reflexivity.
  - intros s t Hs Ht. cbn [count_blk bk_data]. rewrite Pnoise. split; [reflexivity|]. apply nfrom_small; assumption.
  - eapply obs_lift_bind; [exact E4|]. apply obs_ret.
    rewrite map_map, (map_ext _ (nfrom i)) by (intros; apply Nat2Z.id).
    change (map (nfrom i) (seq 0 N)) with (sh_noise (sh i)). rewrite <- E5. reflexivity.
Qed.

Notation sim_noise := (sim_server_noise keys k rows N confs).
Lemma obs_simulate : (length keys <= 255)%nat -> (forall l, List.In l its -> Forall (is_sim (S m)) l) ->
  obs N p (fun rp => exists rps, nth_error rps i = Some rp /\ par_holds N tb rps sim_noise its)
    (pserver_simulate true rng N (S k) i tx rx sf) (s_simulate k i pl (length (nth i its [])) (share_of total N i)).
Proof using All.
  intros H255 Hsim. pose proof conf_lt as Hi. pose proof (gb_parties _ _ _ _ _ _ _ G) as Hp. destruct counts_local as (_ & Esm & _ & _ & _).
  pose proof (gb_length _ _ _ _ _ _ _ G) as L.
  destruct (gb_servers _ _ _ _ _ _ _ G) as (shared & Hsh & GS). pose proof (GS i sf Nf) as g.
  destruct (par_counts_spec rng (length keys) k rows N confs inputs G Htot) as (cts & Ects & Lc & Hc).
  destruct (simulate_parts rng keys k rows N confs its G Htot cts tb H255 Hsim Ects HT Et En) as (ns & Hns & rps & Er & Hh).
  assert (Erp : exists rp, server_ready (cnt i sf) (sh i) (ns i) (qs_initialize_state qs_new true) = Ok rp /\ nth_error rps i = Some rp).
  { unfold par_ready in Er. rewrite L in Er.
    destruct (map_res_nth _ _ _ i i Er (nth_error_seq 0 N i Hi)) as (rp & E & Nrp).
    unfold get in E at 1. rewrite (Hc i sf Nf) in E. cbn [bind] in E. rewrite !get_map in E by exact Hi. cbn [bind] in E.
    unfold get in E. rewrite nth_error_map, Nf in E. cbn [option_map bind] in E. exists rp. auto. }
  destruct Erp as (rp & Es & Nrp).
  unfold pserver_simulate, s_simulate.
  eapply obs_lift_bind; [exact Esm|]. eapply obs_eq_bind; [apply obs_counts|].
  eapply obs_eq_bind; [apply obs_shufflers|].
  eapply obs_lift_bind; [|eapply obs_lift_bind; [exact Es|]].
  { cbn [ParPartyProofs.ct co_noise]. unfold remaining_parties. rewrite (gs_party _ _ _ _ _ _ _ _ g), (gs_parties _ _ _ _ _ _ _ _ g), as_party_id_sub1 by lia.
    apply Hns. exact Hi. }
  match goal with |- obs _ _ _ _ ?l => rewrite <- (app_nil_r l) end.
  eapply obs_eq_bind; [apply obs_ready; [exact Hi|exact Etx|exact Erx]|]. apply obs_ret. exists rps. auto.
Qed.

Section Keyed.
Variables (b : sealbox) (c : nat) (iter : iteration).
Hypothesis Hbox : forall pk sk, List.In (pk, sk) keys -> box_ok b pk sk.
Hypothesis H255 : (length keys <= 255)%nat.
Hypothesis Hconst : forall s sf i, nth_error confs s = Some sf -> (i < key_count N rows s)%nat -> pf_samples (sf_conf sf) i = Z.of_nat c.
Hypothesis Hiter : forall i l, Permutation (iter i l) l.
Hypothesis Hkeys : forall s sf, nth_error confs s = Some sf ->
  pf_pkeys (sf_conf sf) = map fst keys /\ nth_error keys k = Some (pf_pkey (sf_conf sf), pf_skey (sf_conf sf)) /\
  good_rand (pf_rand (sf_conf sf)) (server_noise N rows s (sf_conf sf)) m.
Hypothesis Oi : Forall (Forall (ok_item rows (S m))) its.
Hypothesis ND : NoDup (map it_tag (concat its)).
Variables (css : list (list (list Z))) (v : nat -> srv).
Hypothesis F2 : Forall2 (Forall2 (opens b (skipn k keys))) css its.
Hypothesis Hv : forall s, (s < N)%nat -> alone keys k rows N confs its b c css s (v s).
Hypothesis Pcipher : pl_cipher pl = shuffle_sends (tb_M tb) (tb_counts tb) (out_batches N v).
Variable (mem : smem).
Hypothesis Hmem : smem_ok mem.
Notation outs := (out_batches N v).

Lemma outs_length s : (s < N)%nat -> length (nth s outs []) = nth s (tb_counts tb) 0%nat.
Proof using All.
  intros Hs. rewrite (Forall2_len _ _ _ (out_batches_open rng keys k rows N confs its G Htot b c iter Hbox H255 Hconst Hiter Hkeys css v Hv s Hs)).
  apply (batches_length N tb _ its HT (fun s => noise_and_its rng keys k rows N confs its G Htot b c iter Hbox H255 Hconst Hiter Hkeys tb s Et)
    (its_length rng keys k rows N confs its G Htot) s Hs).
Qed.
Lemma outs_sized s : Forall (fun y => length y = (124 * m)%nat) (nth s outs []).
Proof using All.
  destruct (Nat.lt_ge_cases s N) as [Hs|Hs].
  - eapply (opens_out_length rng keys k rows N confs its G Htot b c iter Hbox H255 Hconst Hiter Hkeys).
    apply (out_batches_open rng keys k rows N confs its G Htot b c iter Hbox H255 Hconst Hiter Hkeys css v Hv s Hs).
  - unfold out_batches. rewrite nth_overflow by (rewrite map_length, seq_length; exact Hs). constructor.
Qed.

Lemma obs_ciphers : obs N p (fun outb => cb_all outb = Ok (nth i (passed_on N tb v) []))
  (pshuffle_ciphers N i mem tx rx 0 (124 * m) (sh i) (co_shuffled (cnt i sf)) (v_ncs (v i) ++ v_outs (v i))
    (cb_initialize (124 * m) (124 * S m) (Z.to_nat (co_shuffled (cnt i sf))) 0)) [Loc (x_ciphers N (S k) pl)].
Proof using All.
  pose proof conf_lt as Hi. pose proof (gb_parties _ _ _ _ _ _ _ G) as Hp. destruct HT as (HM & HN & Hsum & Hls & Hnoise).
  assert (Ei : nth i outs [] = v_ncs (v i) ++ v_outs (v i)) by (apply nth_error_nth; unfold out_batches; rewrite nth_error_map_seq by exact Hi; reflexivity).
  assert (Hu : (0 < 124 * m <= BUFFER_SIZE)%nat) by (unfold BUFFER_SIZE; lia).
  assert (Esz : co_shuffled (cnt i sf) = Z.of_nat (size (tb_counts tb) N i)) by (rewrite Et; reflexivity).
  unfold pshuffle_ciphers. rewrite Esz, Nat2Z.id.
  destruct (shuffle_local (tb_M tb) (tb_counts tb) N (tb_noise tb) (tb_ls tb) HM HN Hsum Hls (cb_flat (124 * m)) (fun x => length x = (124 * m)%nat)
     cb_set_short (fun bb l i x => cb_flat_set (124 * m) bb l i x) [] outs
     (fun s => cb_initialize (124 * m) (124 * S m) (size (tb_counts tb) N s) 0) i Hi) as (cc & Ec & W1 & W2 & Hlog).
  { unfold out_batches. rewrite map_length, seq_length. reflexivity. }
  { exact outs_length. }
  { intros s y Hy. pose proof (outs_sized s) as F. rewrite Forall_forall in F. apply F. exact Hy. }
  { intros s Hs. eexists. split; [apply cb_flat_init|]. apply repeat_length. }
  eapply obs_lift_bind; [exact Ec|].
  assert (Eeach : forall u, concat (each (pl_cipher pl u)) = shuffle_sends (tb_M tb) (tb_counts tb) outs u) by (intros u; unfold each; rewrite concat_single, Pcipher; reflexivity).
  match goal with |- obs _ _ _ _ ?l => rewrite <- (app_nil_r l) end. eapply obs_bind.
  { apply (obs_sap N (S k) i Hi (x_ciphers N (S k) pl) eq_refl tx rx Etx Erx cl_ops (124 * m) (cl_rel (BUFFER_SIZE / (124 * m)) (124 * m))
      (cl_laws _ _ (proj1 Hu)) Hu (fun m => m) (fun m => m) (fst cc) next_shuffled (from_sibling cb_set_short (sh i))
      (repeat 0%nat N, cb_initialize (124 * m) (124 * S m) (size (tb_counts tb) N i) 0) (fun s => each (pl_cipher pl s)))
      with (Post := fun r => cb_all (snd r) = Ok (nth i (passed_on N tb v) [])).
    - intros s t Hs Ht Hne. reflexivity.
    - rewrite Eeach. apply (sends_to _ _ N (tb_noise tb) (tb_ls tb) HM HN Hsum Hls).
    - intros s Hs. rewrite Eeach. eapply Forall_impl; [|apply (sends_items _ _ (fun y => length y = (124 * m)%nat)), outs_sized]. intros y Hy. split; [exact Hy|reflexivity].
    - apply nodup_single.
    - intros t Ht. rewrite Eeach. apply W1. exact Ht.
    - erewrite map_ext by (intros u; rewrite Eeach; reflexivity). eapply Z.le_lt_trans; [apply Nat2Z.inj_le, (sends_bound _ _ N (tb_noise tb) (tb_ls tb) outs i HM HN Hsum Hls Hi outs_length)|exact Hsum].
    - intros log L1 L2. destruct (Hlog log L1) as (h & Eh & Hb); [intros s Hs; rewrite L2, Eeach by exact Hs; reflexivity|].
      exists h. split; [exact Eh|]. rewrite (cb_flat_all _ _ _ Hb) by lia. f_equal. symmetry. apply nth_error_nth. unfold passed_on. apply (nth_error_map_seq (fun t => pick [] (received (tb_M tb) (tb_counts tb) N t outs) (ls_backward (tb_ls tb t)))). exact Hi.
    - rewrite Pcipher. rewrite <- Ei. apply feeds_route. apply (shuffle_routes _ _ N _ _ HM HN Hsum Hls); [exact Hi|apply outs_length; exact Hi].
    - cbn [x_ciphers sap_blk bk_items]. etransitivity; [|apply (in_sum (fun s => length (each (pl_cipher pl s))) N i Hi)].
      unfold each. rewrite map_length, Pcipher, <- Ei. unfold shuffle_sends. rewrite combine_length.
      rewrite (tgt_len _ _ N (tb_noise tb) (tb_ls tb) HM HN Hsum Hls) by exact Hi. rewrite outs_length by exact Hi. lia.
    - intros t. split; [apply cl_make_rel; lia|]. apply Hmem.
    - intros t. split; [apply cl_make_rel; lia|]. apply Hmem.
    - rewrite W2. do 2 f_equal. apply map_ext. intros u. rewrite Eeach. reflexivity. }
  intros r Hr. apply obs_ret. exact Hr.
Qed.

Lemma held_secrets s : (s < N)%nat -> qs_map (v_p (v s)) = rev (map entry (map first_secret (nth s its []))).
Proof using All.
  intros Hs. destruct (conf_at rng keys k rows N confs its G Htot s Hs) as (sf' & _ & Nf'). destruct (Hv s Hs sf' Nf') as (_ & _ & _ & _ & _ & E & _).
  assert (Os : Forall (ok_item rows (S m)) (nth s its [])).
  { rewrite Forall_forall in Oi. apply Oi, nth_In. rewrite (its_length rng keys k rows N confs its G Htot). exact Hs. }
  destruct (install_spec true (map first_secret (nth s its [])) (qs_initialize_state qs_new false)) as (p' & E' & _ & Em).
  - rewrite (map_first_tag rows m) by exact Os.
    assert (Hn : nth_error its s = Some (nth s its [])) by (apply nth_error_nth'; rewrite (its_length rng keys k rows N confs its G Htot); exact Hs).
    apply nth_error_split in Hn. destruct Hn as (l1 & l2 & El & _). pose proof ND as ND'. rewrite El in ND'. rewrite concat_app, map_app in ND'.
    cbn [concat] in ND'. apply NoDup_app_r in ND'. rewrite map_app in ND'. apply NoDup_app_l in ND'. exact ND'.
  - intros o _. reflexivity.
  - rewrite E in E'. injection E' as ->. rewrite Em. apply app_nil_r.
Qed.
Hypothesis Pentries : pl_entries pl = secret_count (fun s => v_p (v s)).
Hypothesis Psecret : pl_secret pl = secret_sents N party_pack iter (fun s => v_p (v s)).
Notation noise := (server_noise_items keys k rows N confs its c).
(** The server is ready for the online stage, as are all siblings. *)
Definition party_ready (st : qstate) : Prop := exists rps rp, server_ready (cnt i sf) (sh i) (v_ns (v i)) st = Ok rp /\
  nth_error rps i = Some rp /\ par_holds N tb rps noise its.

Lemma obs_party_secrets : obs N p party_ready (psecrets iter N i mem tx rx 1 party_pack (qs_store true) (v_p (v i)))
  [Loc (x_entries (S k) pl); Loc (x_secrets N (S k) pl)].
Proof using All.
  pose proof conf_lt as Hi. unfold x_entries, x_secrets. rewrite Pentries, Psecret.
  destruct (par_counts_spec rng (length keys) k rows N confs inputs G Htot) as (cts & Ects & Lc & Hc).
  eapply obs_mono; [apply (obs_secrets N (S k) i tx rx mem 6 7 Hi Etx Erx Hmem party_pack (qs_store true) iter (fun s => v_p (v s)) (secret_traffic its)
    (fun states => exists rps, par_ready confs cts (map sh (seq 0 N)) (map (fun s => v_ns (v s)) (seq 0 N)) states = Ok rps /\ par_holds N tb rps noise its) Hiter)|].
  - intros t s Ht Hs. cbn beta. unfold secret_traffic. destruct (s =? t)%nat; [reflexivity|]. rewrite held_secrets by exact Hs.
    rewrite rev_length, !map_length. reflexivity.
  - intros order Ho. destruct (secrets_parts rng keys k rows N confs its G Htot b c iter Hbox H255 Hconst Hiter Hkeys cts tb css v order Ects HT Et En Oi ND Hv Ho)
      as (states & rps & E1 & E2 & E3). exists states. split; [exact E1|]. exists rps. auto.
  - intros s e Hs He. cbn beta in He. rewrite held_secrets in He by exact Hs. apply in_rev in He. rewrite map_map in He. apply in_map_iff in He.
    destruct He as (it & <- & Hit). assert (Hok : ok_item rows (S m) it).
    { rewrite Forall_forall in Oi. assert (HF : Forall (ok_item rows (S m)) (nth s its [])) by (apply Oi, nth_In; rewrite (its_length rng keys k rows N confs its G Htot); exact Hs).
      rewrite Forall_forall in HF. apply HF. exact Hit. }
    destruct Hok as (L & F & _). unfold first_secret. destruct (it_secrets it) as [|o os]; [discriminate|]. inversion F as [|? ? [Ho _] _]; subst.
    cbn [hd]. unfold entry, party_pack. cbn [fst snd st_next st_share st_pre]. destruct o; exact Ho.
  - intros h (states & Nh & rps & Er & Hh). unfold par_ready in Er. rewrite (gb_length _ _ _ _ _ _ _ G) in Er.
    destruct (map_res_nth _ _ _ i i Er (nth_error_seq 0 N i Hi)) as (rp & E & Nrp).
    unfold get in E at 1. rewrite (Hc i sf Nf) in E. cbn [bind] in E. rewrite !get_map in E by exact Hi. cbn [bind] in E.
    unfold get in E. rewrite Nh in E. cbn [bind] in E. exists rps, rp. auto.
Qed.

Lemma obs_offline : obs N p (fun rp => exists rps, nth_error rps i = Some rp /\ par_holds N tb rps noise its)
  (pserver_offline b true rng iter N (S k) i mem tx rx sf)
  (s_offline N k i pl (length (nth i its [])) (share_of total N i) (nth i css []) (nth i (passed_on N tb v) [])).
Proof using All.
  pose proof conf_lt as Hi. pose proof (gb_parties _ _ _ _ _ _ _ G) as Hp. destruct counts_local as (_ & Esm & _ & _ & _).
  destruct (Hv i Hi sf Nf) as (A1 & A2 & A3 & A4 & A5 & _).
  pose proof (its_length rng keys k rows N confs its G Htot) as Lits.
  destruct (gb_servers _ _ _ _ _ _ _ G) as (shared & Hsh & GS). pose proof (GS i sf Nf) as g.
  assert (Ein : party_in_size (pf_parties (sf_conf sf)) (pf_party (sf_conf sf)) = (124 * S m)%nat).
  { rewrite (gs_party _ _ _ _ _ _ _ _ g), (gs_parties _ _ _ _ _ _ _ _ g). unfold party_in_size. rewrite as_party_id_sub by lia. rewrite Csz. lia. }
  assert (Eout : party_out_size (pf_parties (sf_conf sf)) (pf_party (sf_conf sf)) = (124 * m)%nat).
  { rewrite (gs_party _ _ _ _ _ _ _ _ g), (gs_parties _ _ _ _ _ _ _ _ g). unfold party_out_size. rewrite as_party_id_sub1 by lia. rewrite Csz. lia. }
  assert (Fi : Forall2 (opens b (skipn k keys)) (nth i css []) (nth i its [])).
  { apply (Forall2_nth_default _ css its F2). rewrite (Forall2_len _ _ _ F2). lia. }
  assert (Ci : co_input (cnt i sf) = Z.of_nat (length (nth i its []))) by (cbn [ParPartyProofs.ct co_input]; rewrite input_nth; reflexivity).
  pose proof (count_small i) as Hcs. rewrite (counts_nth rng (length keys) k rows N confs inputs G Htot i Hi) in Hcs. cbn beta in Hcs. rewrite input_nth in Hcs.
  unfold pserver_offline, s_offline. rewrite Nat.sub_succ, Nat.sub_0_r. rewrite Ein, Eout.
  eapply obs_lift_bind; [exact Esm|]. eapply obs_eq_bind; [apply obs_counts|].
  eapply obs_lift_bind; [exact A1|]. eapply obs_lift_bind; [exact A2|]. cbn [fst snd].
  eapply obs_eq_bind; [apply obs_ready; [exact Hi|exact Etx|exact Erx]|].
  unfold s_ciphers. rewrite <- app_assoc.
  eapply obs_follows_bind; [apply (fo_take_ciphers (est := mest) _ _ _ _ cb_push_long (nth i css [])) with (s' := v_cb2 (v i))|].
  { apply Hmem. } { unfold BUFFER_SIZE. lia. } { rewrite Ci. lia. } { rewrite (Forall2_len _ _ _ Fi), Ci, Nat2Z.id. reflexivity. }
  { assert (Hskip : length (skipn k keys) = S m) by (rewrite skipn_length; lia).
    clear - Fi Hskip. unfold sized. induction Fi as [|x it cs l H _ IH]; constructor; [|exact IH]. apply peels_length in H. rewrite Hskip in H. exact H. }
  { unfold collect_ciphers in A3. apply bind_Ok in A3 as (cs' & Er & A3). apply recv_inv in Er; [|rewrite (Forall2_len _ _ _ Fi), Ci, Nat2Z.id; reflexivity]. subst cs'. exact A3. }
  cbn [app]. match goal with |- obs _ _ _ _ (Loc ?x :: ?l) => change (Loc x :: l) with ([Loc x] ++ l) end.
  eapply obs_then; [apply (obs_barrier N (S k) i Hi (x_ready2 (S k)) eq_refl eq_refl tx rx Etx Erx); reflexivity|]. intros _.
  match goal with |- obs _ _ _ _ (Loc ?x :: ?l) => change (Loc x :: l) with ([Loc x] ++ l) end.
  eapply obs_eq_bind; [apply obs_shufflers|]. eapply obs_lift_bind; [exact A4|]. cbn [fst snd]. eapply obs_lift_bind; [exact A5|].
  match goal with |- obs _ _ _ _ (Loc ?x :: ?l) => change (Loc x :: l) with ([Loc x] ++ l) end.
  eapply obs_bind; [apply obs_ciphers|]. intros outb Eo.
  match goal with |- obs _ _ _ _ (Loc ?x :: ?l) => change (Loc x :: l) with ([Loc x] ++ l) end.
  eapply obs_then; [apply (obs_barrier N (S k) i Hi (x_ready3 (S k)) eq_refl eq_refl tx rx Etx Erx); reflexivity|]. intros _.
  eapply obs_lift_bind; [exact Eo|].
  eapply obs_send_ciphers; [apply Hmem|unfold BUFFER_SIZE; lia| | |].
  { rewrite <- (map_id (nth i (passed_on N tb v) [])) at 2. apply (pure_as_fold (fun m => m) _ []). }
  { pose proof (passed_on_open rng keys k rows N confs its G Htot b c iter Hbox H255 Hconst Hiter Hkeys tb css v HT Et Hv) as Fo.
    eapply (opens_out_length rng keys k rows N confs its G Htot b c iter Hbox H255 Hconst Hiter Hkeys).
    apply (Forall2_nth_default _ _ _ Fo). unfold passed_on. rewrite map_length, seq_length. exact Hi. }
  unfold s_secrets. cbn [app].
  match goal with |- obs _ _ _ _ (Loc ?x :: Loc ?y :: ?l) => change (Loc x :: Loc y :: l) with ([Loc x; Loc y] ++ l) end.
  eapply obs_bind; [apply obs_party_secrets|]. intros st (rps & rp & Es & Nrp & Hh).
  match goal with |- obs _ _ _ _ (Loc ?x :: ?l) => change (Loc x :: l) with ([Loc x] ++ l) end.
  eapply obs_eq_bind; [apply obs_shufflers|]. eapply obs_lift_bind; [exact Es|].
  match goal with |- obs _ _ _ _ ?l => rewrite <- (app_nil_r l) end.
  eapply obs_eq_bind; [apply obs_ready; [exact Hi|exact Etx|exact Erx]|]. apply obs_ret. exists rps. auto. Unshelve. exact [].

Qed.
End Keyed.
End Tables.
End PartyServer.

(** ** Online stage *)
Section Online.
Variables (db : list response) (N m : nat) (tb : tables) (rps : list pready) (noise : nat -> list item) (its : list (list item)).
Hypothesis Hdb : Forall wf_response db.
Hypothesis Hh : par_holds N tb rps noise its.
Hypothesis Oi : Forall (Forall (ok_item (length db) (S m))) its.
Hypothesis On : Forall (Forall (ok_item (length db) m)) (nexts N tb noise its).
Notation next := (nexts N tb noise its).
Variables (k i : nat) (rp : pready).
Hypothesis Nrp : nth_error rps i = Some rp.
Variables (tx rx : nat -> mchan).
Hypothesis Etx : forall t, List.In t (siblings_of N i) -> tx t = Sib (S k) i t.
Hypothesis Erx : forall t, List.In t (siblings_of N i) -> rx t = Sib (S k) t i.
Notation p := (S k * N + i)%nat.
Variables (pl : plan) (mem : smem).
Hypothesis Hmem : smem_ok mem.
Hypothesis Pquery : pl_query pl = query_sends N tb noise its.
Hypothesis Presponse : pl_response pl = response_sends db N tb noise its.

Hypothesis Hm : (0 < m)%nat.
Hypothesis Si : Forall (Forall small_tally) its.
Hypothesis Sn : Forall (Forall small_tally) next.

Lemma wf_in_next it : List.In it (concat next) -> wf_query (q_of it).
Proof using All.
  intros H. apply in_concat in H. destruct H as (l & Hl & H). rewrite Forall_forall in On, Sn. specialize (On l Hl). specialize (Sn l Hl). rewrite Forall_forall in On, Sn.
  specialize (On it H). destruct m as [|m']; [lia|]. apply (ok_wf_query _ _ _ On), Sn, H.
Qed.
Lemma nth_wf j : Forall wf_query (map q_of (nth j its [])).
Proof using All.
  destruct (Nat.lt_ge_cases j (length its)) as [Hj|Hj]; [|rewrite nth_overflow by exact Hj; constructor].
  pose proof (nth_In its [] Hj) as HIn. rewrite Forall_forall in Oi, Si. specialize (Oi _ HIn). specialize (Si _ HIn). apply Forall_map. rewrite Forall_forall in *.
  intros it H. apply (ok_wf_query _ _ _ (Oi it H) (Si it H)).
Qed.
Lemma batch_wf s : (s < N)%nat -> Forall wf_query (nth s (query_batches N noise its) []).
Proof using All.
  intros Hs. rewrite (query_batch db N m tb rps noise its Hdb Hh Oi On i rp Nrp) by exact Hs. apply Forall_map, Forall_forall. intros it H. apply wf_in_next.
  assert (Hhc := Hh). destruct Hhc as (HT & _ & Lits & _).
  eapply Permutation_in; [apply Permutation_sym, (nexts_perm N tb noise its HT (hold_counts db N m tb rps noise its Hdb Hh Oi On) Lits)|].
  rewrite batches_nth in H by exact Hs. apply in_app_iff in H. apply in_app_iff. destruct H as [H|H]; [left|right].
  - apply in_flat_map. exists s. split; [apply in_seq; lia|exact H].
  - apply in_map_iff in H. destruct H as (it' & <- & H). apply in_map. apply in_concat. exists (nth s its []). split; [|exact H]. apply nth_In. lia.
Qed.
Lemma next_answers t : sized response_size (map (answer db) (nth t next [])).
Proof using All.
  destruct (Nat.lt_ge_cases t (length next)) as [Hj|Hj]; [|rewrite nth_overflow by exact Hj; constructor].
  pose proof (nth_In next [] Hj) as HIn. rewrite Forall_forall in On. specialize (On _ HIn). apply Forall_map. eapply Forall_impl; [|exact On].
  intros it H. apply (answer_bytes db _ it Hdb H).
Qed.
Lemma its_answers : sized response_size (map (answer db) (nth i its [])).
Proof using All.
  destruct (Nat.lt_ge_cases i (length its)) as [Hj|Hj]; [|rewrite nth_overflow by exact Hj; constructor].
  pose proof (nth_In its [] Hj) as HIn. rewrite Forall_forall in Oi. specialize (Oi _ HIn). apply Forall_map. eapply Forall_impl; [|exact Oi].
  intros it H. apply (answer_bytes db _ it Hdb H).
Qed.
Lemma size_small t : Z.of_nat (size (tb_counts tb) N t) < 2 ^ 32.
Proof using All.
  assert (Hhc := Hh). destruct Hhc as ((_ & _ & Hsum & _) & _). eapply Z.le_lt_trans; [apply Nat2Z.inj_le, (share_le (sum (tb_counts tb)))|exact Hsum].
Qed.
Lemma response_sends_facts t : (t < N)%nat ->
  Forall (fun x => (fst x < N)%nat /\ length (snd x) = response_size) (response_sends db N tb noise its t).
Proof using All.
  intros Ht. assert (Hhc := Hh). destruct Hhc as (HT & _ & Lits & _). pose proof HT as (HM & HN & Hsum & Hls & Hnoise).
  apply Forall_forall. intros [s x] H. unfold response_sends in H. split; cbn [fst snd].
  - apply in_combine_l in H. unfold owners in H. apply in_flat_map in H. destruct H as (s' & Hs' & H). apply repeat_spec in H. apply in_seq in Hs'. lia.
  - apply in_combine_r in H. apply in_flat_map in H. destruct H as (s' & Hs' & H). unfold sec in H.
    assert (HP : List.In x (pick [] (map (answer db) (nth t next [])) (ls_forward (tb_ls tb t)))).
    { clear - H. revert H. generalize (pick [] (map (answer db) (nth t next [])) (ls_forward (tb_ls tb t))). intros l H.
      repeat match type of H with
             | List.In _ (skipn ?n ?l) => assert (List.In x l) by (rewrite <- (firstn_skipn n l); apply in_or_app; right; exact H); clear H; rename H0 into H
             | List.In _ (firstn ?n ?l) => assert (List.In x l) by (rewrite <- (firstn_skipn n l); apply in_or_app; left; exact H); clear H; rename H0 into H
             end. exact H. }
    unfold pick in HP. apply in_map_iff in HP. destruct HP as (j & <- & Hj).
    pose proof (next_answers t) as F. unfold sized in F. rewrite Forall_forall in F. apply F. apply nth_In. rewrite map_length.
    rewrite (nexts_size N tb noise its HT (hold_counts db N m tb rps noise its Hdb Hh Oi On) Lits t Ht).
    destruct (Hls t Ht) as (_ & _ & Pf & _). apply (Permutation_in _ (Permutation_sym Pf)), in_seq in Hj. lia.
Qed.

Lemma obs_online : obs N p (eq tt) (pserver_online true N (S k) i mem tx rx rp)
  (s_queries N k i pl (map enc_query (map q_of (nth i its []))) (map enc_query (map q_of (nth i next []))) ++
   s_responses N k i pl (map (answer db) (nth i next [])) (map (answer db) (nth i its []))).
Proof using All.
  pose proof (server_lt db N m tb rps noise its Hdb Hh Oi On i rp Nrp) as Hi.
  destruct (collected db N m tb rps noise its Hdb Hh Oi On i rp Nrp) as (rps' & rp' & Ec & Nrp' & Hok & Hsame & Eq).
  destruct (query_exchange db N m tb rps noise its Hdb Hh Oi On i rp Nrp rps' rp' Nrp' Hok Hsame) as (Esh & Eshf & Er & c & Esc & W1 & W2 & Hlog).
  destruct (response_exchange db N m tb rps noise its Hdb Hh Oi On i rp Nrp rps' rp' Nrp' Hok Hsame) as (bb & e & Ecr & Ete & Erb & c' & Edc & V1 & V2 & Hlog').
  assert (Hhc := Hh). destruct Hhc as (HT & (_ & Hok0) & Lits & Hl & _). pose proof HT as (HM & HN & Hsum & Hls & Hnoise).
  destruct (Hok0 i rp Nrp) as (Q1 & _ & _ & _ & _ & Q6 & _). destruct (Hl i Hi) as (L1 & L2).
  assert (EqQ : forall u, concat (each (pl_query pl u)) = query_sends N tb noise its u) by (intros u; unfold each; rewrite concat_single, Pquery; reflexivity).
  assert (EqR : forall u, concat (each (pl_response pl u)) = response_sends db N tb noise its u) by (intros u; unfold each; rewrite concat_single, Presponse; reflexivity).
  unfold pserver_online, s_queries, s_responses. rewrite <- !app_assoc.
  (* CollectQueries *)
  assert (Lq : length (map q_of (nth i its [])) = (length (bt_data (pr_queries rp)) - Z.to_nat (pr_noise rp))%nat).
  { rewrite map_length, Q6, Q1, Nat2Z.id, L2. reflexivity. }
  unfold collect_queries in Ec. apply bind_Ok in Ec as (ins & Ei & Ec). apply recv_inv in Ei; [|exact Lq]. subst ins.
  apply bind_Ok in Ec as ([[[rd_ st] tags] qs] & Ef & Ec). injection Ec as Erp.
  eapply obs_bind with (Q := eq rp').
  { unfold pcollect_queries. rewrite Nat.sub_succ, Nat.sub_0_r. match goal with |- obs _ _ _ _ ?l => rewrite <- (app_nil_r l) end.
    eapply obs_follows_bind; [apply (fo_take_queries (est := mest)) with (h := fun s q =>
        let '(read, p, tags, qs) := s in
        let* tags' := bt_push tags (q_tag q) in
        let* h := handle_query p q in
        let* qs' := bt_set qs read (fst h) in
        Ok (S read, snd h, tags', qs')); [apply Hmem| |exact Lq|apply nth_wf|exact Ef]|].
    - rewrite <- Lq, map_length, L2. pose proof (size_small i). unfold inp.
      assert (nth i (tb_counts tb) 0 <= sum (tb_counts tb))%nat; [|lia].
      rewrite <- (nth_seq_all 0%nat (tb_counts tb)) at 2. change sum with list_sum. 
      assert (Lc : length (tb_counts tb) = N) by apply HM. rewrite Lc. apply (in_sum (fun j => nth j (tb_counts tb) 0%nat)). exact Hi.
    - apply obs_ret. symmetry. exact Erp. }
  intros ? <-.
  cbn [app].
  match goal with |- obs _ _ _ _ (Loc ?x :: ?l) => change (Loc x :: l) with ([Loc x] ++ l) end.
  eapply obs_then; [apply (obs_barrier N (S k) i Hi (x_ready5 (S k)) eq_refl eq_refl tx rx Etx Erx); reflexivity|]. intros _.
  (* ShuffleQueries *)
  match goal with |- obs _ _ _ _ (Loc ?x :: ?l) => change (Loc x :: l) with ([Loc x] ++ l) end.
  eapply obs_bind with (Q := fun out => bt_all out = map q_of (nth i next [])).
  { unfold pshuffle_queries. rewrite Esh. eapply obs_lift_bind; [exact Esc|].
    match goal with |- obs _ _ _ _ ?l => rewrite <- (app_nil_r l) end. eapply obs_bind.
    - apply (obs_sap N (S k) i Hi (x_queries N (S k) pl) eq_refl tx rx Etx Erx lb_ops query_size (lb_rel (BUFFER_SIZE / query_size) query_size)
        (lb_laws _ _) (proj1 message_sizes) enc_query dec_query (fst c) next_shuffled _ _ (fun s => each (pl_query pl s)))
        with (Post := fun r => bt_all (snd r) = map q_of (nth i next [])).
      + intros s t Hs Ht Hne. reflexivity.
      + rewrite EqQ. apply (sends_to _ _ N (tb_noise tb) (tb_ls tb) HM HN Hsum Hls).
      + intros s Hs. rewrite EqQ. eapply Forall_impl; [|apply (sends_items _ _ wf_query), batch_wf; exact Hs]. intros y Hy. apply query_roundtrip. exact Hy.
      + apply nodup_single.
      + intros t Ht. rewrite EqQ. apply W1. exact Ht.
      + erewrite map_ext by (intros u; rewrite EqQ; reflexivity). rewrite <- W2.
        unfold shuffle_counts in Esc. apply bind_Ok in Esc as (cc & _ & Esc). apply bind_Ok in Esc as (own & _ & Esc). injection Esc as <-. apply Z.mod_pos_bound. reflexivity.
      + intros log K1 K2. apply Hlog; [exact K1|]. intros s Hs. rewrite K2, EqQ by exact Hs. reflexivity.
      + unfold bt_all at 1. rewrite Eq, Pquery. apply feeds_route. exact Er.
      + cbn [x_queries sap_blk bk_items]. etransitivity; [|apply (in_sum (fun s => length (each (pl_query pl s))) N i Hi)].
        unfold bt_all. rewrite Eq, Pquery. erewrite feeds_length; [|apply feeds_route; exact Er]. apply le_n.
      + intros t. split; [apply lb_make_rel|apply Hmem].
      + intros t. split; [apply lb_make_rel|apply Hmem].
      + rewrite W2. do 2 f_equal. apply map_ext. intros u. rewrite EqQ. reflexivity.
    - intros r Hr. apply obs_ret. exact Hr. }
  intros out Eo.
  match goal with |- obs _ _ _ _ (Loc ?x :: ?l) => change (Loc x :: l) with ([Loc x] ++ l) end.
  eapply obs_then; [apply (obs_barrier N (S k) i Hi (x_ready6 (S k)) eq_refl eq_refl tx rx Etx Erx); reflexivity|]. intros _.
  eapply obs_send_messages; [apply Hmem|apply message_sizes| |apply queries_len|].
  { rewrite Eo. apply (pure_as_fold enc_query _ []). }
  (* CollectResponses *)
  assert (Lr : length (map (answer db) (nth i next [])) = Z.to_nat (pr_shuffled rp')).
  { rewrite map_length, Eshf, Nat2Z.id. apply (nexts_size N tb noise its HT (hold_counts db N m tb rps noise its Hdb Hh Oi On) Lits i Hi). }
  unfold collect_responses in Ecr. apply bind_Ok in Ecr as (nz_ & En & Ecr). apply bind_Ok in Ecr as (ins & Ei & Ecr). apply recv_inv in Ei; [|exact Lr]. subst ins.
  apply bind_Ok in Ecr as (r & Efr & Ecr). injection Ecr as Ebb.
  eapply obs_bind with (Q := eq bb).
  { unfold pcollect_responses. eapply obs_lift_bind; [exact En|]. match goal with |- obs _ _ _ _ ?l => rewrite <- (app_nil_r l) end.
    eapply obs_follows_bind; [apply (fo_take_each (est := mest) _ _ _ _ _ (map (answer db) (nth i next [])));
      [apply Hmem|apply message_sizes| |exact Lr|apply next_answers|exact Efr]|].
    - rewrite Eshf, Nat2Z.id. apply size_small.
    - apply obs_ret. symmetry. exact Ebb. }
  intros ? <-. cbn [app].
  (* DeshuffleResponses *)
  match goal with |- obs _ _ _ _ (Loc ?x :: ?l) => change (Loc x :: l) with ([Loc x] ++ l) end.
  eapply obs_bind with (Q := fun out => bt_all out = map (answer db) (nth i its [])).
  { unfold pdeshuffle. eapply obs_lift_bind; [exact Edc|]. eapply obs_lift_bind; [exact Ete|].
    match goal with |- obs _ _ _ _ ?l => rewrite <- (app_nil_r l) end. eapply obs_bind.
    - apply (obs_sap N (S k) i Hi (x_responses N (S k) pl) eq_refl tx rx Etx Erx lb_ops response_size (lb_rel (BUFFER_SIZE / response_size) response_size)
        (lb_laws _ _) (proj2 message_sizes) (fun m => m) (fun m => m) (fst c') (next_deshuffled N (pr_sh rp')) _ _ (fun s => each (pl_response pl s)))
        with (Post := fun r => bt_all (snd r) = map (answer db) (nth i its [])).
      + intros s t Hs Ht Hne. reflexivity.
      + rewrite EqR. eapply Forall_impl; [|apply response_sends_facts; exact Hi]. intros y Hy. apply Hy.
      + intros s Hs. rewrite EqR. eapply Forall_impl; [|apply response_sends_facts; exact Hs]. intros y Hy. split; [apply Hy|reflexivity].
      + apply nodup_single.
      + intros t Ht. rewrite EqR. apply V1. exact Ht.
      + erewrite map_ext by (intros u; rewrite EqR; reflexivity). rewrite <- V2.
        unfold deshuffle_counts in Edc. apply bind_Ok in Edc as (cc & _ & Edc). apply bind_Ok in Edc as (own & _ & Edc). injection Edc as <-. apply Z.mod_pos_bound. reflexivity.
      + intros log K1 K2. apply Hlog'; [exact K1|]. intros s Hs. rewrite K2, EqR by exact Hs. reflexivity.
      + rewrite Presponse. apply feeds_route_back. exact Erb.
      + cbn [x_responses sap_blk bk_items]. etransitivity; [|apply (in_sum (fun s => length (each (pl_response pl s))) N i Hi)].
        rewrite Presponse. erewrite feeds_length; [|apply feeds_route_back; exact Erb]. apply le_n.
      + intros t. split; [apply lb_make_rel|apply Hmem].
      + intros t. split; [apply lb_make_rel|apply Hmem].
      + rewrite V2. do 2 f_equal. apply map_ext. intros u. rewrite EqR. reflexivity.
    - intros r' Hr. apply obs_ret. exact Hr. }
  intros resps Ers.
  match goal with |- obs _ _ _ _ (Loc ?x :: ?l) => change (Loc x :: l) with ([Loc x] ++ l) end.
  eapply obs_then; [apply (obs_barrier N (S k) i Hi (x_ready7 (S k)) eq_refl eq_refl tx rx Etx Erx); reflexivity|]. intros _.
  match goal with |- obs _ _ _ _ (Loc ?x :: ?l) => change (Loc x :: l) with ([Loc x] ++ l) end.
  eapply obs_then; [apply (obs_barrier N (S k) i Hi (x_ready8 (S k)) eq_refl eq_refl tx rx Etx Erx); reflexivity|]. intros _.
  rewrite Nat.sub_succ, Nat.sub_0_r. match goal with |- obs _ _ _ _ ?l => rewrite <- (app_nil_r l) end.
  eapply obs_send_messages; [apply Hmem|apply message_sizes| |apply its_answers|apply obs_ret; reflexivity].
  rewrite Ers. pose proof (pure_as_fold (fun v => v) (map (answer db) (nth i its [])) []) as Ep. rewrite map_id in Ep. exact Ep.
Qed.
End Online.
