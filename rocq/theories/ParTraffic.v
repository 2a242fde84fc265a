(** How much goes over the connections of a deployment with several servers per
    entity. *)
From Verif Require Import Base BaseProofs Incremental IncrementalProofs Wire WireProofs Additive AdditiveProofs Onion OnionProofs
  Shuffle Sizes State Database CipherBatch CipherBatchProofs Range Handlers Batch Party Chain Spec SharingProofs ShuffleProofs
  StateProofs ChainSpec OnlineProofs OfflineProofs OfflineParty ChainProofs ParShuffle ParShuffleProofs ParShuffleFacts Parallel ParChain
  ParSpec ParChainSpec ParMergeProofs ParForwardProofs ParBackwardProofs ParOnlineProofs ParPartyProofs PermFacts ParFacts
  ParSecretsProofs ParTagProofs ParStage ParParty ParChainProofs Stream StreamProofs Net Lts Procs ProcProofs ProcChain ProcNet ParProcs ParCrash ProcExchange
  ParRules ParLocal ParServer ParEntity ReadProofs ParRead ParSized ParRuns ParGraph ParNet TalkSpec TrafficSpec ParTrafficSpec ProcNetCrash ParCrashProofs ParCrashNet.

(** ** The plans, entity by entity *)
Lemma planned_nth rng N rows L db offline d0 p0 : forall k parties links plans, planned rng N rows L db offline k parties links plans ->
  (forall j, (j <= length parties)%nat -> link_sized N L db offline (k + j) (nth j links d0) /\ secrets_sized N offline (nth j links d0) (nth j plans p0)) /\
  (forall j confs, nth_error parties j = Some confs -> exists tb noise, drawn rng N rows confs (dl_its (nth j links d0)) tb noise /\
     dl_its (nth (S j) links d0) = nexts N tb noise (dl_its (nth j links d0)) /\ shuffles_sized N L offline (k + j) tb noise (nth j plans p0)).
Proof.
  intros k parties links plans H. induction H as [k d pl Hl Hs|k confs parties tb noise d d' pl links plans D E Hl Hs Hq H [IH1 IH2]].
  - split; [|intros [|j] c; discriminate]. intros j Hj. cbn [length] in Hj. assert (j = 0)%nat as -> by lia. cbn [nth]. rewrite Nat.add_0_r. auto.
  - split.
    + intros [|j] Hj; [cbn [nth]; rewrite Nat.add_0_r; auto|]. rewrite Nat.add_succ_r. cbn [length] in Hj. apply (IH1 j). lia.
    + intros [|j] c Nc; [|rewrite Nat.add_succ_r; apply (IH2 j c Nc)]. cbn [nth_error] in Nc. injection Nc as <-. cbn [nth]. rewrite Nat.add_0_r. exists tb, noise. auto.
Qed.

Section Numbers.
Variables (rng : rng_t) (N rows L : nat) (db : list response) (offline : bool) (ns : list nat) (parties : list (list sconf)) (links : list dlink) (plans : list plan).
Hypothesis HP : planned rng N rows L db offline 0 parties links plans.
Hypothesis H0 : map (fun l : list item => length l) (dl_its (nth 0 links d_none)) = ns.
Notation pts := (map (par_seeds N rows) parties).
Notation lk j := (nth j links d_none).

Lemma fakes_at j confs s sf : nth_error parties j = Some confs -> nth_error confs s = Some sf -> (s < N)%nat ->
  server_at pts j s = (sf_shared sf, pf_seed (sf_conf sf), server_noise N rows s (sf_conf sf)).
Proof using.
  intros Nc Nf Hs. unfold server_at, party_at. erewrite (nth_error_nth (map (par_seeds N rows) parties)); [|rewrite nth_error_map, Nc; reflexivity].
  unfold par_seeds. erewrite nth_error_nth; [|rewrite nth_error_map_seq by exact Hs; reflexivity]. rewrite Nf. reflexivity.
Qed.
Lemma counts_at j confs tb noise : nth_error parties j = Some confs -> drawn rng N rows confs (dl_its (lk j)) tb noise ->
  map (fun s => (fakes pts j s + l_count (lk j) s)%nat) (seq 0 N) = tb_counts tb.
Proof using.
  intros Nc (_ & Lt & _ & HL & Hs). rewrite <- (nth_seq_all 0%nat (tb_counts tb)), Lt. apply map_ext_in. intros s Hi. apply in_seq in Hi.
  rewrite <- HL by lia. destruct (Hs s) as (sf & Nf & E & _); [lia|]. unfold fakes. rewrite (fakes_at j confs s sf Nc Nf) by lia. cbn [snd]. rewrite <- E. reflexivity.
Qed.
Lemma arriving_at : forall j, (j <= length parties)%nat -> arriving N ns pts j = map (fun l : list item => length l) (dl_its (lk j)).
Proof using HP H0.
  induction j as [|j IH]; intros Hj; [symmetry; exact H0|]. cbn [arriving].
  destruct (nth_error parties j) as [confs|] eqn:Nc; [|apply nth_error_None in Nc; lia].
  destruct (proj2 (planned_nth _ _ _ _ _ _ d_none p_none _ _ _ _ HP) j confs Nc) as (tb & noise & D & E & _).
  rewrite E, IH by lia. pose proof (counts_at j confs tb noise Nc D) as Ec.
  assert (Es : map (fun s => (fakes pts j s + nth s (map (fun l : list item => length l) (dl_its (lk j))) 0)%nat) (seq 0 N) = tb_counts tb).
  { rewrite <- Ec. apply map_ext. intros s. f_equal. apply (map_nth (fun l : list item => length l) (dl_its (lk j)) [] s). }
  rewrite Es.
  pose proof D as (HT & _ & Lits & HL & _).
  rewrite <- (nth_seq_all [] (nexts N tb noise (dl_its (lk j)))), nexts_length, map_map. apply map_ext_in. intros t Ht. apply in_seq in Ht.
  rewrite (nexts_size N tb noise _ HT HL Lits t) by lia. reflexivity.
Qed.
Lemma on_link_at j i : (j <= length parties)%nat -> on_link N ns pts j i = l_count (lk j) i.
Proof using HP H0. intros Hj. unfold on_link, l_count. rewrite arriving_at by exact Hj. rewrite (map_nth (fun l : list item => length l) (dl_its (lk j)) [] i : nth i (map _ _) 0%nat = _). reflexivity. Qed.
Lemma targets_at j confs tb noise s : nth_error parties j = Some confs -> drawn rng N rows confs (dl_its (lk j)) tb noise -> (s < N)%nat ->
  fakes pts j s = length (noise s) /\ targets rng N ns pts j s = tgt (tb_M tb) (tb_counts tb) s.
Proof using HP H0.
  intros Nc D Hs. pose proof (counts_at j confs tb noise Nc D) as Ec. pose proof D as (_ & _ & _ & _ & Hd).
  destruct (Hd s Hs) as (sf & Nf & E & (p & Ep & Ef) & _). pose proof (fakes_at j confs s sf Nc Nf Hs) as Es.
  assert (Ek : fakes pts j s = length (noise s)) by (unfold fakes; rewrite Es; symmetry; exact E). split; [exact Ek|].
  unfold targets. rewrite (map_ext (fun s => (fakes pts j s + on_link N ns pts j s)%nat) (fun s => (fakes pts j s + l_count (lk j) s)%nat)).
  2: { intros x. rewrite on_link_at; [reflexivity|]. apply Nat.lt_le_incl, nth_error_Some. congruence. }
  rewrite Ec, Ek, Es. cbn [fst]. rewrite Ep. exact Ef.
Qed.
Lemma shuffled_at j s t : (j < length parties)%nat -> (s < N)%nat -> (t < N)%nat ->
  length (concat (map enc_query (outgoing t (pl_query (nth j plans p_none) s)))) = (12 * crossing rng N ns pts j s t)%nat /\
  length (concat (outgoing t (pl_response (nth j plans p_none) s))) = (52 * returning rng N ns pts j t s)%nat /\
  (offline = true -> length (concat (outgoing t (pl_cipher (nth j plans p_none) s))) = (124 * (L - S j) * crossing rng N ns pts j s t)%nat).
Proof using HP H0.
  intros Hj Hs Ht. destruct (nth_error parties j) as [confs|] eqn:Nc; [|apply nth_error_None in Nc; lia].
  destruct (proj2 (planned_nth _ _ _ _ _ _ d_none p_none _ _ _ _ HP) j confs Nc) as (tb & noise & D & _ & Q).
  destruct (targets_at j confs tb noise s Nc D Hs) as [_ E1]. destruct (targets_at j confs tb noise t Nc D Ht) as [E2 E3].
  unfold crossing, returning. rewrite E1, E2, E3. exact (Q s t Hs Ht).
Qed.
End Numbers.

(** ** What all put on a connection *)
Section Totals.
Variable N : nat.
Definition amount (c : mchan) (l : list gev) : nat := length (total mchan_eqb (bdata N) c l).
Lemma amount_nil c : amount c [] = 0%nat. Proof. reflexivity. Qed.
Lemma amount_app c a b : amount c (a ++ b) = (amount c a + amount c b)%nat.
Proof. unfold amount, total. rewrite flat_map_app. apply app_length. Qed.
Lemma amount_flat {A} c (f : A -> list gev) l : amount c (flat_map f l) = list_sum (map (fun a => amount c (f a)) l).
Proof. induction l as [|a l IH]; [reflexivity|]. cbn [flat_map map]. rewrite amount_app, IH. reflexivity. Qed.
Lemma sum_cons a l : list_sum (a :: l) = (a + list_sum l)%nat. Proof. reflexivity. Qed.
Lemma sum_none {A} (f : A -> nat) l : (forall a, List.In a l -> f a = 0%nat) -> list_sum (map f l) = 0%nat.
Proof. induction l as [|a l IH]; intros H; [reflexivity|]. cbn [map list_sum fold_right]. rewrite (H a (or_introl eq_refl)). apply IH. intros; apply H; right; assumption. Qed.
Lemma sum_at (f : nat -> nat) n k : (forall j, (j < n)%nat -> j <> k -> f j = 0%nat) -> list_sum (map f (seq 0 n)) = if (k <? n)%nat then f k else 0%nat.
Proof.
  intros H. destruct (Nat.ltb_spec k n) as [Hk|Hk]; [|apply sum_none; intros a Ha; apply in_seq in Ha; apply H; lia].
  assert (E : seq 0 n = seq 0 k ++ k :: seq (S k) (n - S k)).
  { replace n with (k + S (n - S k))%nat at 1 by lia. rewrite seq_app. reflexivity. }
  rewrite E, map_app, list_sum_app. cbn [map]. change (list_sum (f k :: map f (seq (S k) (n - S k)))) with (f k + list_sum (map f (seq (S k) (n - S k))))%nat.
  rewrite (sum_none f (seq 0 k)), (sum_none f (seq (S k) (n - S k))); [lia| |]; intros a Ha; apply in_seq in Ha; apply H; lia.
Qed.
Lemma sum_rev {A} (f : A -> nat) l : list_sum (map f (rev l)) = list_sum (map f l).
Proof. induction l as [|a l IH]; [reflexivity|]. cbn [rev]. rewrite map_app, list_sum_app, IH. change (list_sum (map f [a])) with (f a + 0)%nat. change (list_sum (map f (a :: l))) with (f a + list_sum (map f l))%nat. lia. Qed.

Lemma amount_bytes c d l : amount c (map (Byte d) l) = if mchan_eqb c d then length l else 0%nat.
Proof.
  induction l as [|v l IH]; [destruct (mchan_eqb c d); reflexivity|]. cbn [map]. change (Byte d v :: map (Byte d) l) with ([Byte d v : gev] ++ map (Byte d) l).
  rewrite amount_app, IH. unfold amount, total. cbn [flat_map]. rewrite app_nil_r. destruct (mchan_eqb c d); reflexivity.
Qed.
(** Bytes to a family of connections, of which one is c. *)
Lemma amount_each c (f : nat -> gev) d v k l : NoDup l -> (forall u, f u = Byte (d u) (v u)) ->
  (forall u, mchan_eqb c (d u) = (u =? k)%nat) -> amount c (map f l) = if in_dec Nat.eq_dec k l then 1%nat else 0%nat.
Proof.
  intros ND Hf He. induction ND as [|u l Hn ND IH]; [reflexivity|]. cbn [map]. rewrite Hf. change (Byte (d u) (v u) :: map f l) with (map (Byte (d u)) [v u] ++ map f l).
  rewrite amount_app, amount_bytes, He, IH. destruct (Nat.eqb_spec u k) as [->|Hne].
  - destruct (in_dec Nat.eq_dec k l); [contradiction|]. destruct (in_dec Nat.eq_dec k (k :: l)) as [|Hx]; [reflexivity|]. exfalso. apply Hx. left. reflexivity.
  - destruct (in_dec Nat.eq_dec k l) as [Hl|Hl], (in_dec Nat.eq_dec k (u :: l)) as [Hx|Hx]; try reflexivity.
    + exfalso. apply Hx. right. exact Hl.
    + destruct Hx; [congruence|contradiction].
Qed.
Lemma amount_other c (f : nat -> gev) d v l : (forall u, f u = Byte (d u) (v u)) -> (forall u, List.In u l -> mchan_eqb c (d u) = false) -> amount c (map f l) = 0%nat.
Proof.
  intros Hf He. induction l as [|u l IH]; [reflexivity|]. cbn [map]. rewrite Hf. change (Byte (d u) (v u) :: map f l) with (map (Byte (d u)) [v u] ++ map f l).
  rewrite amount_app, amount_bytes, He by (left; reflexivity). rewrite IH; [reflexivity|]. intros; apply He; right; assumption.
Qed.
Lemma amount_on c d bs : amount c (on N d bs) = match c with Link i c' => if (chan_eqb c' d && (i <? N))%nat then length (bs i) else 0%nat | _ => 0%nat end.
Proof.
  unfold on. rewrite amount_flat. rewrite (map_ext _ (fun i => if mchan_eqb c (Link i d) then length (bs i) else 0%nat)) by (intros; apply amount_bytes).
  destruct c as [i c'| | |]; try (apply sum_none; reflexivity).
  rewrite (sum_at _ N i). 2: { intros j _ Hj. cbn [mchan_eqb]. rewrite (proj2 (Nat.eqb_neq i j)) by congruence. reflexivity. }
  cbn [mchan_eqb]. rewrite Nat.eqb_refl. cbn [andb]. destruct (i <? N)%nat, (chan_eqb c' d); reflexivity.
Qed.
Lemma amount_blks_link i c l : amount (Link i c) (blks l) = 0%nat.
Proof. unfold blks. induction l as [|x l IH]; [reflexivity|]. exact IH. Qed.
Lemma amount_blks c l : amount c (blks l) = list_sum (map (fun x => length (bdata N x c)) l).
Proof.
  unfold blks. induction l as [|x l IH]; [reflexivity|].
  change (amount c (map (fun x => Block x) (x :: l)) = length (bdata N x c) + list_sum (map (fun x => length (bdata N x c)) l))%nat.
  rewrite <- IH. unfold amount, total. cbn [map flat_map]. apply app_length.
Qed.
Lemma amount_blks_other c e l : Forall (fun x => bk_k x = e) l -> match c with Sib k _ _ => k <> e | _ => True end -> amount c (blks l) = 0%nat.
Proof.
  intros F H. rewrite amount_blks. apply sum_none. intros x Hx. rewrite Forall_forall in F. destruct c as [| k s t| |]; try reflexivity.
  cbn [bdata]. rewrite (F x Hx), (proj2 (Nat.eqb_neq k e) H). reflexivity.
Qed.

(** *** Passes *)
Section Passes.
Variables (P : nat) (lnk ent : nat -> list gev).
Lemma amount_fwd c : amount c (fwd P lnk ent) = (list_sum (map (fun j => amount c (lnk j)) (seq 0 (S P))) + list_sum (map (fun j => amount c (ent (S j))) (seq 0 (S P))))%nat.
Proof.
  unfold fwd. rewrite amount_flat. induction (seq 0 (S P)) as [|j l IH]; [reflexivity|]. cbn [map]. rewrite !sum_cons, amount_app. lia.
Qed.
Lemma amount_bwd c : amount c (bwd P lnk ent) = amount c (fwd P lnk ent).
Proof.
  rewrite amount_fwd. unfold bwd. rewrite amount_flat, sum_rev. induction (seq 0 (S P)) as [|j l IH]; [reflexivity|]. cbn [map]. rewrite !sum_cons, amount_app. lia.
Qed.
(** A connection of the j-th link, of an entity. *)
Lemma amount_link c k : (forall e, amount c (ent e) = 0%nat) -> (forall j, j <> k -> amount c (lnk j) = 0%nat) ->
  amount c (fwd P lnk ent) = if (k <=? P)%nat then amount c (lnk k) else 0%nat.
Proof.
  intros He Hl. rewrite amount_fwd, (sum_at _ (S P) k) by (intros; apply Hl; assumption). rewrite (sum_none (fun j => amount c (ent (S j)))) by (intros; apply He).
  rewrite Nat.add_0_r. reflexivity.
Qed.
Lemma amount_ent c e : (forall j, amount c (lnk j) = 0%nat) -> (forall e', e' <> e -> amount c (ent e') = 0%nat) ->
  amount c (fwd P lnk ent) = if ((1 <=? e) && (e <=? S P))%nat then amount c (ent e) else 0%nat.
Proof.
  intros Hl He. rewrite amount_fwd, (sum_none (fun j => amount c (lnk j))) by (intros; apply Hl).
  rewrite (sum_at _ (S P) (pred e)) by (intros; apply He; lia). destruct e as [|e]; [cbn [Nat.leb andb pred]; destruct (0 <? S P)%nat; [apply He; lia|reflexivity]|].
  cbn [pred]. reflexivity.
Qed.
End Passes.
End Totals.

(** ** A whole run *)
Section Whole.
Variables (N : nat) (db : list response) (offline online : bool) (P : nat) (acc : nat -> nat -> list nat) (lk : nat -> dlink) (pl : nat -> plan).
Hypothesis Hacc : forall e t, (t < N)%nat -> Permutation (acc e t) (seq 0 t).
Notation amt := (amount N).

Lemma ents_link i ch f g e : amt (Link i ch) (ents P f g e) = 0%nat.
Proof using All. apply amount_blks_link. Qed.
Lemma setup_link i ch e : amt (Link i ch) (setup N acc e) = 0%nat.
Proof using All.
  unfold setup. rewrite amount_flat. apply sum_none. intros t _. unfold setup_of. rewrite !amount_app.
  rewrite (amount_other N _ _ (fun u => SLis e t u) (fun _ => 1)), (amount_other N _ _ (fun u => SCon e u t) (fun _ => 1)), (amount_other N _ _ (fun u => Sib e u t) Z.of_nat); reflexivity.
Qed.
Lemma up_link i ch bs f : amt (Link i ch) (g_up N P bs f) = match ch with Fwd j => if ((i <? N) && (j <=? P))%nat then length (bs j i) else 0%nat | _ => 0%nat end.
Proof using All.
  unfold g_up. destruct ch as [j|j|j|j]; rewrite (amount_link N P _ _ _ j); try apply ents_link; rewrite ?amount_on; cbn [chan_eqb]; rewrite ?Nat.eqb_refl; cbn [andb];
    try (destruct (j <=? P)%nat, (i <? N)%nat; reflexivity); intros j' Hj; rewrite amount_on; cbn [chan_eqb]; try reflexivity.
  rewrite (proj2 (Nat.eqb_neq j j')) by congruence. reflexivity.
Qed.
Lemma down_link i ch bs f : amt (Link i ch) (g_down N P bs f) = match ch with Bwd j => if ((i <? N) && (j <=? P))%nat then length (bs j i) else 0%nat | _ => 0%nat end.
Proof using All.
  unfold g_down. rewrite amount_bwd. destruct ch as [j|j|j|j]; rewrite (amount_link N P _ _ _ j); try apply ents_link; rewrite ?amount_on; cbn [chan_eqb]; rewrite ?Nat.eqb_refl; cbn [andb];
    try (destruct (j <=? P)%nat, (i <? N)%nat; reflexivity); intros j' Hj; rewrite amount_on; cbn [chan_eqb]; try reflexivity.
  rewrite (proj2 (Nat.eqb_neq j j')) by congruence. reflexivity.
Qed.
Lemma stay_link i ch f g : amt (Link i ch) (g_stay P f g) = 0%nat.
Proof using All. unfold g_stay. rewrite (amount_link N P _ _ _ 0%nat); [reflexivity|apply ents_link|reflexivity]. Qed.
Lemma gsetup_link i ch : amt (Link i ch) (g_setup N P acc) = 0%nat.
Proof using All. unfold g_setup. rewrite (amount_link N P _ _ _ 0%nat); [reflexivity|apply setup_link|reflexivity]. Qed.
Lemma connect_link i ch : amt (Link i ch) (g_connect N P) = match ch with Lis j | Con j => if ((i <? N) && (j <=? P))%nat then 1%nat else 0%nat | _ => 0%nat end.
Proof using All.
  unfold g_connect. destruct ch as [j|j|j|j]; rewrite (amount_link N P _ _ _ j); try apply ents_link; rewrite ?amount_app, ?amount_on; cbn [chan_eqb]; rewrite ?Nat.eqb_refl; cbn [andb];
    try (destruct (j <=? P)%nat, (i <? N)%nat; reflexivity); intros j' Hj; rewrite amount_app, !amount_on; cbn [chan_eqb]; try reflexivity;
    rewrite (proj2 (Nat.eqb_neq j j')) by congruence; reflexivity.
Qed.

(** Between servers of an entity. *)
Definition entity_of (c : mchan) : nat := match c with Link _ _ => 0%nat | Sib e _ _ | SLis e _ _ | SCon e _ _ => e end.
Definition inner (c : mchan) : Prop := match c with Link _ _ => False | _ => True end.
Lemma on_inner c d bs : inner c -> amt c (on N d bs) = 0%nat.
Proof using All. intros H. rewrite amount_on. destruct c; [contradiction| | |]; reflexivity. Qed.
Lemma ents_inner c f g e : local f -> local g -> e <> entity_of c -> amt c (ents P f g e) = 0%nat.
Proof using All.
  intros Hf Hg He. unfold ents. apply amount_blks_other with (e := e); [destruct (e <=? P)%nat; [apply Hf|apply Hg]|]. destruct c; try exact I. cbn in He. congruence.
Qed.
Lemma nob_none c e : amt c (blks (nob e)) = 0%nat. Proof using All. reflexivity. Qed.
Lemma up_inner c bs f : inner c -> local f -> amt c (g_up N P bs f) = if ((1 <=? entity_of c) && (entity_of c <=? P))%nat then amt c (blks (f (entity_of c))) else 0%nat.
Proof using All.
  intros Hi Hf. unfold g_up. rewrite (amount_ent N P _ _ _ (entity_of c)); [|intros; apply on_inner; exact Hi|intros; apply ents_inner; [exact Hf|apply local_nob|assumption]].
  unfold ents. destruct (Nat.leb_spec 1 (entity_of c)), (Nat.leb_spec (entity_of c) (S P)), (Nat.leb_spec (entity_of c) P); cbn [andb]; try reflexivity; lia.
Qed.
Lemma down_inner c bs f : inner c -> local f -> amt c (g_down N P bs f) = if ((1 <=? entity_of c) && (entity_of c <=? P))%nat then amt c (blks (f (entity_of c))) else 0%nat.
Proof using All.
  intros Hi Hf. unfold g_down. rewrite amount_bwd. rewrite (amount_ent N P _ _ _ (entity_of c)); [|intros; apply on_inner; exact Hi|intros; apply ents_inner; [exact Hf|apply local_nob|assumption]].
  unfold ents. destruct (Nat.leb_spec 1 (entity_of c)), (Nat.leb_spec (entity_of c) (S P)), (Nat.leb_spec (entity_of c) P); cbn [andb]; try reflexivity; lia.
Qed.
Lemma stay_inner c f g : local f -> local g -> amt c (g_stay P f g) = if ((1 <=? entity_of c) && (entity_of c <=? S P))%nat
  then (if (entity_of c <=? P)%nat then amt c (blks (f (entity_of c))) else amt c (blks (g (entity_of c)))) else 0%nat.
Proof using All.
  intros Hf Hg. unfold g_stay. rewrite (amount_ent N P _ _ _ (entity_of c)); [|reflexivity|intros; apply ents_inner; assumption].
  unfold ents. destruct (entity_of c <=? P)%nat; reflexivity.
Qed.
Lemma connect_inner c : inner c -> amt c (g_connect N P) = 0%nat.
Proof using All.
  intros Hi. unfold g_connect. rewrite (amount_ent N P _ _ _ (entity_of c)); [|intros; rewrite amount_app, !on_inner by exact Hi; reflexivity|intros; apply ents_inner; try apply local_nob; assumption].
  unfold ents. destruct ((1 <=? entity_of c) && (entity_of c <=? S P))%nat; [|reflexivity]. destruct (entity_of c <=? P)%nat; reflexivity.
Qed.
Lemma in_acc e t k : (t < N)%nat -> (if in_dec Nat.eq_dec k (acc e t) then 1%nat else 0%nat) = if (k <? t)%nat then 1%nat else 0%nat.
Proof using All.
  intros Ht. destruct (in_dec Nat.eq_dec k (acc e t)) as [Hi|Hi], (Nat.ltb_spec k t) as [Hk|Hk]; try reflexivity; exfalso.
  - apply (acc_lt N acc Hacc e t k Ht) in Hi. lia.
  - apply Hi. apply (acc_in N acc Hacc); assumption.
Qed.
(** The pair of servers that a connection joins: the one that listens has the larger number. *)
Definition pair_of (c : mchan) : nat * nat := match c with Link _ _ => (0%nat, 0%nat) | Sib _ s t => (s, t) | SLis _ t s => (s, t) | SCon _ s t => (s, t) end.
Lemma setup_of_inner c e t : inner c -> (t < N)%nat -> amt c (setup_of acc e t) =
  if ((e =? entity_of c) && (t =? snd (pair_of c)) && (fst (pair_of c) <? t))%nat then 1%nat else 0%nat.
Proof using All.
  intros Hi Ht. unfold setup_of. rewrite !amount_app.
  destruct c as [| e' s t'|e' t' s|e' s t']; [contradiction| | |]; cbn [entity_of pair_of fst snd].
  - rewrite (amount_other N _ (fun u => Byte (SLis e t u) 1) (fun u => SLis e t u) (fun _ => 1)), (amount_other N _ (fun u => Byte (SCon e u t) 1) (fun u => SCon e u t) (fun _ => 1)) by reflexivity.
    destruct (Nat.eqb_spec e e') as [->|Hne]; [destruct (Nat.eqb_spec t t') as [->|Hnt]|]; cbn [andb].
    + rewrite (amount_each N _ (fun u => Byte (Sib e' u t') (Z.of_nat u)) (fun u => Sib e' u t') Z.of_nat s).
      * rewrite in_acc by exact Ht. reflexivity.
      * apply (acc_nodup N acc Hacc). exact Ht.
      * reflexivity.
      * intros u. cbn [mchan_eqb]. rewrite !Nat.eqb_refl, andb_true_r. apply Nat.eqb_sym.
    + rewrite (amount_other N _ (fun u => Byte (Sib e' u t) (Z.of_nat u)) (fun u => Sib e' u t) Z.of_nat); [reflexivity|reflexivity|]. intros u _. cbn [mchan_eqb]. rewrite (proj2 (Nat.eqb_neq t' t)) by congruence. apply andb_false_r.
    + rewrite (amount_other N _ (fun u => Byte (Sib e u t) (Z.of_nat u)) (fun u => Sib e u t) Z.of_nat); [reflexivity|reflexivity|]. intros u _. cbn [mchan_eqb]. rewrite (proj2 (Nat.eqb_neq e' e)) by congruence. reflexivity.
  - rewrite (amount_other N _ (fun u => Byte (SCon e u t) 1) (fun u => SCon e u t) (fun _ => 1)), (amount_other N _ (fun u => Byte (Sib e u t) (Z.of_nat u)) (fun u => Sib e u t) Z.of_nat) by reflexivity.
    destruct (Nat.eqb_spec e e') as [->|Hne]; [destruct (Nat.eqb_spec t t') as [->|Hnt]|]; cbn [andb].
    + rewrite (amount_each N _ (fun u => Byte (SLis e' t' u) 1) (fun u => SLis e' t' u) (fun _ => 1) s).
      * destruct (in_dec Nat.eq_dec s (seq 0 t')) as [Hs|Hs]; rewrite in_seq in Hs; destruct (Nat.ltb_spec s t'); try reflexivity; lia.
      * apply seq_NoDup.
      * reflexivity.
      * intros u. cbn [mchan_eqb]. rewrite !Nat.eqb_refl. apply Nat.eqb_sym.
    + rewrite (amount_other N _ (fun u => Byte (SLis e' t u) 1) (fun u => SLis e' t u) (fun _ => 1)); [reflexivity|reflexivity|]. intros u _. cbn [mchan_eqb]. rewrite (proj2 (Nat.eqb_neq t' t)) by congruence. rewrite andb_false_r. reflexivity.
    + rewrite (amount_other N _ (fun u => Byte (SLis e t u) 1) (fun u => SLis e t u) (fun _ => 1)); [reflexivity|reflexivity|]. intros u _. cbn [mchan_eqb]. rewrite (proj2 (Nat.eqb_neq e' e)) by congruence. reflexivity.
  - rewrite (amount_other N _ (fun u => Byte (SLis e t u) 1) (fun u => SLis e t u) (fun _ => 1)), (amount_other N _ (fun u => Byte (Sib e u t) (Z.of_nat u)) (fun u => Sib e u t) Z.of_nat) by reflexivity.
    destruct (Nat.eqb_spec e e') as [->|Hne]; [destruct (Nat.eqb_spec t t') as [->|Hnt]|]; cbn [andb].
    + rewrite (amount_each N _ (fun u => Byte (SCon e' u t') 1) (fun u => SCon e' u t') (fun _ => 1) s).
      * rewrite in_acc by exact Ht. cbn [Nat.add]. rewrite Nat.add_0_r. reflexivity.
      * apply (acc_nodup N acc Hacc). exact Ht.
      * reflexivity.
      * intros u. cbn [mchan_eqb]. rewrite !Nat.eqb_refl, andb_true_r. apply Nat.eqb_sym.
    + rewrite (amount_other N _ (fun u => Byte (SCon e' u t) 1) (fun u => SCon e' u t) (fun _ => 1)); [reflexivity|reflexivity|]. intros u _. cbn [mchan_eqb]. rewrite (proj2 (Nat.eqb_neq t' t)) by congruence. apply andb_false_r.
    + rewrite (amount_other N _ (fun u => Byte (SCon e u t) 1) (fun u => SCon e u t) (fun _ => 1)); [reflexivity|reflexivity|]. intros u _. cbn [mchan_eqb]. rewrite (proj2 (Nat.eqb_neq e' e)) by congruence. reflexivity.
Qed.
Lemma gsetup_inner c : inner c -> amt c (g_setup N P acc) =
  if ((1 <=? entity_of c) && (entity_of c <=? S P) && (fst (pair_of c) <? snd (pair_of c)) && (snd (pair_of c) <? N))%nat then 1%nat else 0%nat.
Proof using All.
  intros Hi.
  assert (H : forall e, amt c (setup N acc e) = if (e =? entity_of c)%nat then (if (snd (pair_of c) <? N)%nat then (if (fst (pair_of c) <? snd (pair_of c))%nat then 1 else 0) else 0)%nat else 0%nat).
  { intros e. unfold setup. rewrite amount_flat.
    rewrite (sum_at _ N (snd (pair_of c))).
    - destruct (Nat.ltb_spec (snd (pair_of c)) N) as [Hl|Hl]; [|destruct (e =? entity_of c)%nat; reflexivity].
      rewrite setup_of_inner by assumption. rewrite Nat.eqb_refl, andb_true_r. destruct (e =? entity_of c)%nat; reflexivity.
    - intros t Ht Hne. rewrite setup_of_inner by assumption. rewrite (proj2 (Nat.eqb_neq _ _) Hne), andb_false_r. reflexivity. }
  unfold g_setup. rewrite (amount_ent N P _ _ _ (entity_of c)); [|reflexivity|intros e Hne; rewrite H, (proj2 (Nat.eqb_neq _ _) Hne); reflexivity].
  rewrite H, Nat.eqb_refl. destruct (1 <=? entity_of c)%nat, (entity_of c <=? S P)%nat, (fst (pair_of c) <? snd (pair_of c))%nat, (snd (pair_of c) <? N)%nat; reflexivity.
Qed.
Lemma blks_sib e s t l : Forall (fun x => bk_k x = e) l ->
  amt (Sib e s t) (blks l) = if ((s <? N) && (t <? N) && negb (s =? t))%nat then list_sum (map (fun x => length (bk_data x s t)) l) else 0%nat.
Proof using All.
  intros F. rewrite amount_blks. destruct ((s <? N) && (t <? N) && negb (s =? t))%nat eqn:E.
  - f_equal. apply map_ext_in. intros x Hx. rewrite Forall_forall in F. cbn [bdata]. rewrite (F x Hx), Nat.eqb_refl. cbn [andb]. rewrite E. reflexivity.
  - apply sum_none. intros x _. cbn [bdata]. rewrite <- !andb_assoc in *. rewrite E. rewrite andb_false_r. reflexivity.
Qed.

(** The stages. *)
Notation g_all := (g_all N db offline online P acc lk pl).
Lemma all_link i ch : amt (Link i ch) g_all =
  match ch with
  | Lis j | Con j => if ((i <? N) && (j <=? P))%nat then 1%nat else 0%nat
  | Fwd j => if ((i <? N) && (j <=? P))%nat
      then (4 + (if offline then length (concat (l_ciphers (lk j) i)) else 0) + (if online then length (concat (l_queries (lk j) i)) else 0))%nat else 0%nat
  | Bwd j => if ((i <? N) && (j <=? P))%nat then ((if offline then 2 else 1) + (if online then length (concat (l_responses db (lk j) i)) else 0))%nat else 0%nat
  end.
Proof using All.
  unfold ParGraph.g_all. rewrite !amount_app, connect_link, gsetup_link. unfold g_stage, g_online.
  destruct offline, online; rewrite ?amount_app, ?up_link, ?down_link, ?stay_link, ?amount_nil;
    (destruct ch as [j|j|j|j]; destruct ((i <? N) && (j <=? P))%nat; try reflexivity; unfold b_counts, b_ready, b_ciphers, b_queries, b_responses; rewrite ?length_le; cbn [length]; lia).
Qed.
Lemma all_greet c : inner c -> match c with Sib _ _ _ => False | _ => True end -> amt c g_all =
  if ((1 <=? entity_of c) && (entity_of c <=? S P) && (fst (pair_of c) <? snd (pair_of c)) && (snd (pair_of c) <? N))%nat then 1%nat else 0%nat.
Proof using All.
  intros Hi Hc. unfold ParGraph.g_all. rewrite !amount_app, (connect_inner c Hi), (gsetup_inner c Hi).
  assert (B : forall e f, local f -> amt c (blks (f e)) = 0%nat).
  { intros e f Hf. apply amount_blks_other with (e := e); [apply Hf|]. destruct c; [exact I|contradiction|exact I|exact I]. }
  assert (U : forall bs f, local f -> amt c (g_up N P bs f) = 0%nat).
  { intros bs f Hf. rewrite (up_inner c bs f Hi Hf), (B _ f Hf). destruct (_ && _); reflexivity. }
  assert (D : forall bs f, local f -> amt c (g_down N P bs f) = 0%nat).
  { intros bs f Hf. rewrite (down_inner c bs f Hi Hf), (B _ f Hf). destruct (_ && _); reflexivity. }
  assert (Y : forall f g, local f -> local g -> amt c (g_stay P f g) = 0%nat).
  { intros f g Hf Hg. rewrite (stay_inner c f g Hf Hg), (B _ f Hf), (B _ g Hg). destruct (entity_of c <=? P)%nat, (_ && _); reflexivity. }
  unfold g_stage, g_online.
  destruct offline, online; rewrite ?amount_app, ?U, ?D, ?Y, ?amount_nil, ?Nat.add_0_r; try reflexivity;
    first [apply local_counts|apply local_ready|apply local_ciphers|apply local_secrets|apply local_bsecrets|apply local_noise|apply local_nob|apply local_queries|apply local_responses].
Qed.
Lemma concat_each {A} (l : list A) : concat (each l) = l.
Proof using. apply concat_single. Qed.
Lemma all_sib e s t : amt (Sib e s t) g_all =
  if ((1 <=? e) && (e <=? S P) && (s <? N) && (t <? N) && negb (s =? t))%nat
  then ((if s <? t then 1 else 0) +
        (if offline then 4 + length (concat (map enc_osecret (outgoing t (concat (pl_secret (pl e) s))))) + 1 else 0) +
        (if e <=? P
         then 4 + 4 + (if offline then 4 + 3 + length (concat (outgoing t (pl_cipher (pl e) s))) else 1) +
              (if online then 4 + length (concat (map enc_query (outgoing t (pl_query (pl e) s)))) + length (concat (outgoing t (pl_response (pl e) s))) else 0)
         else 0))%nat
  else 0%nat.
Proof using All.
  unfold ParGraph.g_all. rewrite !amount_app, (connect_inner (Sib e s t) I), (gsetup_inner (Sib e s t) I). cbn [entity_of pair_of fst snd].
  assert (U : forall bs f, local f -> amt (Sib e s t) (g_up N P bs f) = if ((1 <=? e) && (e <=? P) && ((s <? N) && (t <? N) && negb (s =? t)))%nat then list_sum (map (fun x => length (bk_data x s t)) (f e)) else 0%nat).
  { intros bs f Hf. rewrite (up_inner (Sib e s t) bs f I Hf). cbn [entity_of]. rewrite blks_sib by apply Hf. destruct ((1 <=? e) && (e <=? P))%nat; reflexivity. }
  assert (D : forall bs f, local f -> amt (Sib e s t) (g_down N P bs f) = if ((1 <=? e) && (e <=? P) && ((s <? N) && (t <? N) && negb (s =? t)))%nat then list_sum (map (fun x => length (bk_data x s t)) (f e)) else 0%nat).
  { intros bs f Hf. rewrite (down_inner (Sib e s t) bs f I Hf). cbn [entity_of]. rewrite blks_sib by apply Hf. destruct ((1 <=? e) && (e <=? P))%nat; reflexivity. }
  assert (Y : forall f g, local f -> local g -> amt (Sib e s t) (g_stay P f g) = if ((1 <=? e) && (e <=? S P) && ((s <? N) && (t <? N) && negb (s =? t)))%nat
    then list_sum (map (fun x => length (bk_data x s t)) (if (e <=? P)%nat then f e else g e)) else 0%nat).
  { intros f g Hf Hg. rewrite (stay_inner (Sib e s t) f g Hf Hg). cbn [entity_of]. rewrite !blks_sib by (apply Hf || apply Hg).
    destruct ((1 <=? e) && (e <=? S P))%nat, (e <=? P)%nat, ((s <? N) && (t <? N) && negb (s =? t))%nat; reflexivity. }
  unfold g_stage, g_online.
  assert (Es : ((1 <=? e) && (e <=? S P) && (s <? t) && (t <? N) = (1 <=? e) && (e <=? S P) && ((s <? t) && ((s <? N) && (t <? N) && negb (s =? t))))%nat).
  { destruct (Nat.leb_spec 1 e), (Nat.leb_spec e (S P)), (Nat.ltb_spec s t), (Nat.ltb_spec t N), (Nat.ltb_spec s N), (Nat.eqb_spec s t); cbn; try reflexivity; lia. }
  rewrite Es, <- !andb_assoc. clear Es.
  destruct (((s <? N) && ((t <? N) && negb (s =? t)))%nat) eqn:Ev.
  2: { destruct offline, online; rewrite ?amount_app, ?U, ?D, ?Y, ?amount_nil; rewrite <- ?andb_assoc, ?Ev, ?andb_false_r;
    try (destruct (1 <=? e)%nat, (e <=? S P)%nat; reflexivity);
    first [apply local_counts|apply local_ready|apply local_ciphers|apply local_secrets|apply local_bsecrets|apply local_noise|apply local_nob|apply local_queries|apply local_responses]. }
  destruct offline, online; rewrite ?amount_app, ?U, ?D, ?Y, ?amount_nil;
    try first [apply local_counts|apply local_ready|apply local_ciphers|apply local_secrets|apply local_bsecrets|apply local_noise|apply local_nob|apply local_queries|apply local_responses];
    rewrite <- ?andb_assoc, ?Ev, ?andb_true_r.
  all: destruct (Nat.leb_spec 1 e) as [H1|H1], (Nat.leb_spec e (S P)) as [H2|H2], (Nat.leb_spec e P) as [H3|H3]; cbn [andb]; try reflexivity; try lia.
  all: destruct (s <? t)%nat; cbn [andb map f_counts f_ready f_ciphers f_secrets f_bsecrets f_noise f_queries f_responses nob x_counts x_ready2 x_noise1 x_ciphers x_ready3 x_entries x_secrets x_noise2
      x_ready5 x_queries x_ready6 x_responses x_ready7 x_ready8 ready_blk count_blk sap_blk bk_data]; rewrite ?sum_cons, ?length_le, ?concat_each, ?map_id; cbn [length list_sum fold_right]; lia.
Qed.
End Whole.

Section Amounts.
Variables (rng : rng_t) (N : nat) (db : list response) (offline online : bool) (ns : list nat) (acc : nat -> list nat) (parties : list (list sconf)) (links : list dlink) (plans : list plan).
Hypothesis HN : (0 < N)%nat.
Hypothesis Hacc : forall p, Permutation (acc p) (seq 0 (p mod N)).
Hypothesis HP : planned rng N (length db) (S (length parties)) db offline 0 parties links plans.
Hypothesis H0 : map (fun l : list item => length l) (dl_its (nth 0 links d_none)) = ns.
Notation pts := (map (par_seeds N (length db)) parties).

Lemma graph_amount c : length (total mchan_eqb (bdata N) c (par_graph db offline online N acc parties links plans)) = par_traffic rng N ns pts offline online c.
Proof using All.
  change (length (total mchan_eqb (bdata N) c (par_graph db offline online N acc parties links plans))) with (amount N c (par_graph db offline online N acc parties links plans)).
  unfold par_graph, par_traffic. rewrite map_length.
  assert (HA : forall e t, (t < N)%nat -> Permutation (acc (e * N + t)%nat) (seq 0 t)) by (intros e t Ht; apply (acc_at N acc Hacc); exact Ht).
  destruct (planned_nth _ _ _ _ _ _ d_none p_none _ _ _ _ HP) as [PL _]. cbn [Nat.add] in PL.
  pose proof (fun j i => on_link_at rng N (length db) (S (length parties)) db offline ns parties links plans HP H0 j i) as OL.
  pose proof (fun j s t => shuffled_at rng N (length db) (S (length parties)) db offline ns parties links plans HP H0 j s t) as SH.
  destruct c as [i ch|e s t|e t s|e s t].
  - rewrite all_link by exact HA. destruct ch as [j|j|j|j]; try reflexivity; destruct (Nat.ltb_spec i N) as [Hi|Hi], (Nat.leb_spec j (length parties)) as [Hj|Hj]; cbn [andb]; try reflexivity.
    + destruct (PL j Hj) as [(_ & Hr & Hc) _]. rewrite OL by exact Hj. f_equal; [f_equal|].
      * destruct offline; [apply (Hc eq_refl i Hi)|reflexivity].
      * destruct online; [|reflexivity]. unfold l_queries, l_count. rewrite (sized_concat 12), !map_length; [reflexivity|]. apply queries_len.
    + destruct (PL j Hj) as [(_ & Hr & _) _]. rewrite OL by exact Hj. destruct online; [|reflexivity]. rewrite (Hr i Hi). reflexivity.
  - rewrite all_sib by exact HA.
    destruct (Nat.leb_spec 1 e) as [H1|H1], (Nat.leb_spec e (S (length parties))) as [H2|H2], (Nat.ltb_spec s N) as [Hs|Hs], (Nat.ltb_spec t N) as [Ht|Ht], (Nat.eqb_spec s t) as [Hst|Hst];
      cbn [andb negb]; try reflexivity.
    assert (Hj : (pred e <= length parties)%nat) by lia. destruct (PL _ Hj) as [_ Hx]. rewrite OL by exact Hj.
    f_equal; [f_equal|].
    + destruct offline; [|reflexivity]. rewrite (Hx eq_refl s t Hs Ht Hst). reflexivity.
    + destruct (Nat.leb_spec e (length parties)) as [He|He]; [|reflexivity]. destruct (SH (pred e) s t) as (E1 & E2 & E3); [lia|exact Hs|exact Ht|]. rewrite E1, E2.
      replace (S (pred e)) with e in E3 by lia. f_equal. f_equal. destruct offline; [|reflexivity]. rewrite (E3 eq_refl). reflexivity.
  - rewrite all_greet by (try exact HA; exact I). cbn [entity_of pair_of fst snd]. reflexivity.
  - rewrite all_greet by (try exact HA; exact I). cbn [entity_of pair_of fst snd]. reflexivity.
Qed.
End Amounts.

(** ** Deployments *)
Lemma par_run_traffic b rng iter db junk offline online N clients parties keys bpk bsk mem acc links plans :
  par_deployment rng db N clients parties keys ->
  par_set_up b rng iter db junk offline online N clients parties bpk bsk mem links plans ->
  planned rng N (length db) (length keys) db offline 0 parties links plans ->
  map (fun l : list item => length l) (dl_its (nth 0 links d_none)) = map (fun c => length (ct_keys c)) clients ->
  (forall p, smem_ok (mem p)) -> (forall p, Permutation (acc p) (seq 0 (p mod N))) ->
  exists sent : mchan -> list Z,
    (forall c, length (sent c) = par_traffic rng N (map (fun c => length (ct_keys c)) clients) (map (par_seeds N (length db)) parties) offline online c) /\
    (forall cap h s, (forall c, (1 <= cap c)%nat) -> (forall k s t, (BUFFER_SIZE <= cap (Sib k s t))%nat) ->
      carries (net_step mchan_eqb cap) (net_start (par_entity b true rng iter offline online N mem acc db junk clients parties bpk bsk)) h s ->
      (forall c, begins (h c) (sent c)) /\ (stuck (net_step mchan_eqb cap) s -> forall c, h c = sent c)) /\
    forall cap h s,
      crash_carries pn_net (par_crash_step N cap) (par_crash_start (par_entity b true rng iter offline online N mem acc db junk clients parties bpk bsk)) h s ->
      forall c, begins (h c) (sent c).
Proof.
  intros D SU PN H0 Hm Ha. pose proof SU as (R & Hcl & _). pose proof (pd_tiled _ _ _ _ _ _ D) as ((T1 & _) & _).
  rewrite <- (pd_count _ _ _ _ _ _ D) in PN.
  exists (fun c => total mchan_eqb (bdata N) c (par_graph db offline online N acc parties links plans)). split; [|split].
  - intros c. apply (graph_amount rng N db offline online _ acc parties links plans ltac:(lia) Ha PN H0 c).
  - intros cap h s Hc1 Hc Hh.
    exact (par_sends b rng iter db junk offline online N bpk bsk mem acc clients parties links plans cap ltac:(lia) Hm Ha (pd_clients _ _ _ _ _ _ D) R Hcl Hc1 Hc h s Hh).
  - intros cap h s Hh.
    exact (run_carries b rng iter db junk offline online N bpk bsk mem acc clients parties links plans ltac:(lia) Hm Ha (pd_clients _ _ _ _ _ _ D) SU cap h s Hh).
Qed.
