(** How much the servers of an entity exchange. *)
From Verif Require Import Base BaseProofs Incremental IncrementalProofs Wire WireProofs Additive AdditiveProofs Onion OnionProofs
  Shuffle Sizes State Database CipherBatch CipherBatchProofs Range Handlers Batch Party Chain Spec SharingProofs ShuffleProofs
  StateProofs ChainSpec OnlineProofs OfflineProofs OfflineParty ChainProofs ParShuffle ParShuffleProofs ParShuffleFacts Parallel ParChain
  ParSpec ParChainSpec ParMergeProofs ParForwardProofs ParBackwardProofs ParOnlineProofs ParPartyProofs PermFacts ParFacts
  ParSecretsProofs ParTagProofs ParStage ParParty ParChainProofs Stream StreamProofs Net Procs ProcProofs ProcChain ProcNet ParProcs ParCrash ProcExchange
  ParRules ParLocal ParServer ParEntity ReadProofs ParRead.

Lemma sized_concat {A} n (l : list (list A)) : Forall (fun x => length x = n) l -> length (concat l) = (n * length l)%nat.
Proof. induction 1 as [|x l Hx _ IH]; cbn [concat length]; [lia|]. rewrite app_length, IH. lia. Qed.
Lemma outgoing_in {A} t (l : list (nat * A)) x : List.In x (outgoing t l) -> List.In (t, x) l.
Proof.
  unfold outgoing. intros H. apply in_map_iff in H as ([u y] & <- & H). apply filter_In in H as [H E]. apply Nat.eqb_eq in E. cbn in E. subst u. exact H.
Qed.
Lemma outgoing_combine {A} t tg (l : list A) : length tg = length l -> length (outgoing t (combine tg l)) = cnt tg t.
Proof. intros H. rewrite <- cnt_log. f_equal. revert l H. induction tg as [|u tg IH]; intros [|x l] H; try discriminate; cbn; [reflexivity|]. f_equal. apply IH. cbn in H. lia. Qed.
Lemma cnt_skipn n (l : list nat) t : cnt (skipn n l) t = (cnt l t - cnt (firstn n l) t)%nat.
Proof. rewrite <- (firstn_skipn n l) at 2. rewrite count_occ_app. lia. Qed.

Section Sized.
Variables (db : list response) (N m : nat) (tb : tables) (noise : nat -> list item) (its : list (list item)).
Hypothesis Hdb : Forall wf_response db.
Hypothesis HT : tb_ok N tb.
Hypothesis Lits : length its = N.
Hypothesis HL : forall s, (s < N)%nat -> (length (noise s) + length (nth s its []) = nth s (tb_counts tb) 0)%nat.
Hypothesis En : forall s, (s < N)%nat -> tb_noise tb s = length (noise s).
Hypothesis On : Forall (Forall (ok_item (length db) m)) (nexts N tb noise its).
Notation tg := (tgt (tb_M tb) (tb_counts tb)).

Lemma shuffled_amount {A} (ins : list (list A)) s t : (s < N)%nat -> length (nth s ins []) = nth s (tb_counts tb) 0%nat ->
  length (outgoing t (shuffle_sends (tb_M tb) (tb_counts tb) ins s)) = cnt (tg s) t.
Proof using All.
  intros Hs L. destruct HT as (HM & HN & Hsum & Hls & Hn). apply outgoing_combine. rewrite L.
  apply (tgt_len _ _ N (tb_noise tb) (tb_ls tb) HM HN Hsum Hls). exact Hs.
Qed.
Lemma queries_amount s t : (s < N)%nat -> length (concat (map enc_query (outgoing t (query_sends N tb noise its s)))) = (12 * cnt (tg s) t)%nat.
Proof using All.
  intros Hs. rewrite (sized_concat 12), map_length; [|apply queries_len]. f_equal. apply shuffled_amount; [exact Hs|].
  unfold query_batches. rewrite (map_nth (map q_of) (batches N noise its) []), map_length. apply (batches_length N tb noise its HT HL Lits). exact Hs.
Qed.
Lemma responses_amount s t : (s < N)%nat -> (t < N)%nat ->
  length (concat (outgoing t (response_sends db N tb noise its s))) = (52 * cnt (skipn (length (noise t)) (tg t)) s)%nat.
Proof using All.
  intros Hs Ht. pose proof HT as (HM & HN & Hsum & Hls & Hn). rewrite (sized_concat 52).
  - f_equal. unfold response_sends. rewrite outgoing_combine.
    + unfold owners. rewrite cnt_skipn, <- (En t Ht).
      pose proof (cnt_canon N (g (tb_M tb) (tb_counts tb) (tb_noise tb) s) t Ht) as X. unfold canon in X. rewrite X. reflexivity.
    + unfold owners. rewrite owners_length.
      assert (Lp : length (pick [] (map (answer db) (nth s (nexts N tb noise its) [])) (ls_forward (tb_ls tb s))) = size (tb_counts tb) N s).
      { unfold pick. rewrite map_length. apply (Hls s Hs). }
      revert Lp. generalize (pick [] (map (answer db) (nth s (nexts N tb noise its) [])) (ls_forward (tb_ls tb s))) as u. intros u Lp.
      assert (G : forall l, (forall x, List.In x l -> (x < N)%nat) -> sum (map (g (tb_M tb) (tb_counts tb) (tb_noise tb) s) l) =
        length (flat_map (fun s0 => sec (tb_M tb) (tb_counts tb) (tb_noise tb) s s0 u) l)).
      { induction l as [|x l IH]; intros Hl; [reflexivity|]. cbn [map flat_map sum fold_right list_sum]. rewrite app_length.
        rewrite (sec_length _ _ N (tb_noise tb) (tb_ls tb) HM HN Hsum Hls Hn) by (try assumption; apply Hl; left; reflexivity).
        f_equal. apply IH. intros y Hy. apply Hl. right. exact Hy. }
      apply G. intros x Hx. apply in_seq in Hx. lia.
  - apply Forall_forall. intros x Hx. apply outgoing_in in Hx. unfold response_sends in Hx. apply in_combine_r in Hx. apply in_flat_map in Hx as (s' & Hs' & H).
    unfold sec in H.
    assert (HP : List.In x (pick [] (map (answer db) (nth s (nexts N tb noise its) [])) (ls_forward (tb_ls tb s)))).
    { clear - H. revert H. generalize (pick [] (map (answer db) (nth s (nexts N tb noise its) [])) (ls_forward (tb_ls tb s))). intros l H.
      repeat match type of H with
             | List.In _ (skipn ?n ?l) => assert (List.In x l) by (rewrite <- (firstn_skipn n l); apply in_or_app; right; exact H); clear H; rename H0 into H
             | List.In _ (firstn ?n ?l) => assert (List.In x l) by (rewrite <- (firstn_skipn n l); apply in_or_app; left; exact H); clear H; rename H0 into H
             end. exact H. }
    unfold pick in HP. apply in_map_iff in HP. destruct HP as (j & <- & Hj).
    assert (Lj : (j < length (nth s (nexts N tb noise its) []))%nat).
    { rewrite (nexts_size N tb noise its HT HL Lits s Hs). destruct (Hls s Hs) as (_ & _ & Pf & _). apply (Permutation_in _ (Permutation_sym Pf)), in_seq in Hj. lia. }
    rewrite (nth_indep _ [] (answer db no_item)) by (rewrite map_length; exact Lj). rewrite map_nth.
    assert (Hn' : Forall (ok_item (length db) m) (nth s (nexts N tb noise its) [])).
    { rewrite Forall_forall in On. apply On, nth_In. destruct (Nat.lt_ge_cases s (length (nexts N tb noise its))) as [|Hge]; [assumption|].
      rewrite nth_overflow in Lj by exact Hge. cbn in Lj. lia. }
    rewrite Forall_forall in Hn'. apply (answer_bytes db m _ Hdb). apply Hn'. apply nth_In. exact Lj.
Qed.
End Sized.

(** What the connections of the entities from S k on carry, in amounts; L entities
    hold keys. *)
Section Planned.
Variables (rng : rng_t) (N rows L : nat) (db : list response) (offline : bool).
Definition link_sized (k : nat) (d : dlink) : Prop :=
  length (dl_its d) = N /\
  (forall i, (i < N)%nat -> length (concat (l_responses db d i)) = (52 * l_count d i)%nat) /\
  (offline = true -> forall i, (i < N)%nat -> length (concat (l_ciphers d i)) = (124 * (L - k) * l_count d i)%nat).
Definition secrets_sized (d : dlink) (pl : plan) : Prop :=
  offline = true -> forall s t, (s < N)%nat -> (t < N)%nat -> s <> t ->
    length (concat (map enc_osecret (outgoing t (concat (pl_secret pl s))))) = (76 * l_count d s)%nat.
Definition shuffles_sized (k : nat) (tb : tables) (noise : nat -> list item) (pl : plan) : Prop :=
  forall s t, (s < N)%nat -> (t < N)%nat ->
    length (concat (map enc_query (outgoing t (pl_query pl s)))) = (12 * cnt (tgt (tb_M tb) (tb_counts tb) s) t)%nat /\
    length (concat (outgoing t (pl_response pl s))) = (52 * cnt (skipn (length (noise t)) (tgt (tb_M tb) (tb_counts tb) t)) s)%nat /\
    (offline = true -> length (concat (outgoing t (pl_cipher pl s))) = (124 * (L - S k) * cnt (tgt (tb_M tb) (tb_counts tb) s) t)%nat).
Inductive planned : nat -> list (list sconf) -> list dlink -> list plan -> Prop :=
| planned_end k d pl : link_sized k d -> secrets_sized d pl -> planned k [] [d] [pl]
| planned_party k confs parties tb noise d d' pl links plans :
    drawn rng N rows confs (dl_its d) tb noise -> dl_its d' = nexts N tb noise (dl_its d) ->
    link_sized k d -> secrets_sized d pl -> shuffles_sized k tb noise pl ->
    planned (S k) parties (d' :: links) plans -> planned k (confs :: parties) (d :: d' :: links) (pl :: plans).
End Planned.
