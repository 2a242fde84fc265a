(** Deployments with several servers per entity, run from their start, some of
    whose processes are killed. *)
From Verif Require Import Base BaseProofs Incremental IncrementalProofs Wire WireProofs Additive AdditiveProofs Onion OnionProofs
  Shuffle Sizes State Database CipherBatch CipherBatchProofs Range Handlers Batch Party Chain Spec SharingProofs ShuffleProofs
  StateProofs ChainSpec OnlineProofs OfflineProofs OfflineParty ChainProofs ParShuffle ParShuffleProofs ParShuffleFacts Parallel ParChain
  ParSpec ParChainSpec ParMergeProofs ParForwardProofs ParBackwardProofs ParOnlineProofs ParPartyProofs PermFacts ParFacts
  ParSecretsProofs ParTagProofs ParStage ParParty ParChainProofs Stream StreamProofs Net Lts Procs ProcProofs ProcChain ProcNet ParProcs ParCrash ProcExchange
  ParRules ParLocal ParServer ParEntity ReadProofs ParRead ParRuns ParGraph ParNet ProcNetCrash TalkSpec TrafficSpec ParCrashProofs.

Section Run.
Variables (b : sealbox) (rng : rng_t) (iter : iteration) (db : list response) (junk : list Z) (offline online : bool) (N : nat) (bpk bsk : list Z).
Variables (mem : nat -> smem) (acc : nat -> list nat) (clients : list client) (parties : list (list sconf)).
Variables (links : list dlink) (plans : list plan).
Hypothesis HN : (0 < N)%nat.
Hypothesis Hmem : forall p, smem_ok (mem p).
Hypothesis Hacc : forall p, Permutation (acc p) (seq 0 (p mod N)).
Hypothesis Lc : length clients = N.
Hypothesis S0 : par_set_up b rng iter db junk offline online N clients parties bpk bsk mem links plans.

Local Notation procs := (par_entity b true rng iter offline online N mem acc db junk clients parties bpk bsk).
Local Notation goal := (par_goal db online N clients parties links).
Local Notation graph := (par_graph db offline online N acc parties links plans).
Local Notation NP := (S (S (length parties)) * N)%nat.
Local Notation scripts := (scripts (mfrom N) (mto N) (bmember N)).
Local Notation final := (final (mfrom N) (mto N) (bdata N) (bgas N) goal).
Local Notation obeys eof := (obeys mchan_eqb (mfrom N) (mto N) (bdata N) (bgas N) BUFFER_SIZE bk_small eof).

Lemma split_proc p : exists e i, p = (e * N + i)%nat /\ (i < N)%nat /\ (p / N)%nat = e /\ (p mod N)%nat = i.
Proof using All.
  exists (p / N)%nat, (p mod N)%nat. split; [rewrite (Nat.div_mod p N) at 1 by lia; lia|]. split; [apply Nat.mod_upper_bound; lia|auto].
Qed.
Lemma beyond p : (NP <= p)%nat -> scripts p graph = [] /\ procs p = Ret (goal p).
Proof using All.
  intros Hp. destruct (split_proc p) as (e & i & Ep & Hi & Ee & Ei). assert (He : (S (length parties) < e)%nat) by (subst e; apply Nat.div_le_lower_bound; lia).
  unfold par_goal, par_entity. rewrite Ee, Ei. unfold par_graph. subst p. split; [apply g_beyond; try assumption; apply acc_at; exact Hacc|].
  destruct e as [|j]; [lia|]. rewrite (proj2 (nth_error_None parties j)) by lia. rewrite (proj2 (Nat.eqb_neq _ _)) by lia. reflexivity.
Qed.
Lemma room : forall c : mchan, (1 <= BUFFER_SIZE)%nat. Proof. intros _. unfold BUFFER_SIZE. lia. Qed.
Lemma run_obeys eof p : mode eof -> obeys eof p (final p) (procs p) (Out (scripts p graph)).
Proof using All.
  intros M. destruct (Nat.lt_ge_cases p NP) as [Hp|Hp].
  - destruct S0 as (R & Hc & _).
    pose proof (par_obeys b rng iter db junk offline online N bpk bsk mem acc clients parties links plans (fun _ => BUFFER_SIZE) HN Hmem Hacc Lc R Hc room (fun _ _ _ => le_n _) p Hp eof M []) as H.
    rewrite app_nil_r in H. eapply ob_mono; [exact H|]. intros a st [Ha Hs]. split; [symmetry; exact Ha|exact Hs].
  - destruct (beyond p Hp) as [E1 E2]. rewrite E1, E2. constructor. split; [reflexivity|apply see_refl].
Qed.
Lemma run_beyond p : (NP <= p)%nat -> scripts p graph = [].
Proof using All. intros Hp. apply beyond. exact Hp. Qed.

(** ** Safety *)
Variable cap : mchan -> nat.
Local Notation start := (par_crash_start procs).
Local Notation step := (par_crash_step N cap).

Lemma run_results s p : reach step start s ->
  match nt_proc (pn_net s) p with
  | Ret e => e = goal p
  | Crash f => f = Spinning /\ exists q, (q < NP)%nat /\ pn_killed s q = true
  | Write _ _ _ => True | Read _ _ _ => True | Poll _ _ _ => True
  end.
Proof using All.
  intros H. pose proof (psurvives_all N HN graph procs goal cap mest NP (fun p => run_obeys mest p (or_intror eq_refl)) run_beyond s (fun c Hc => Hc) H) as Su.
  pose proof (psurvives_results N HN graph procs goal cap mest NP (fun p => run_obeys mest p (or_intror eq_refl)) run_beyond s p Su) as Q.
  destruct (nt_proc (pn_net s) p) as [e|f| | | ] eqn:E; auto. split; [exact Q|]. destruct (killed_dec NP s) as [K|K]; [exact K|exfalso].
  pose proof (fun p => run_obeys (fun _ => false) p (or_introl eq_refl)) as O.
  pose proof (quiet_survives N HN graph procs goal cap _ NP O run_beyond s H K) as Su'.
  exact (quiet_fine N HN graph procs goal cap _ NP O run_beyond s p f (fun _ => eq_refl) Su' K E).
Qed.
Lemma run_unkilled s : reach step start s -> (forall p, pn_killed s p = false) -> reach (net_step mchan_eqb cap) (net_start procs) (pn_net s).
Proof using All. exact (par_unkilled N HN graph procs goal cap _ NP (fun p => run_obeys mest p (or_intror eq_refl)) run_beyond s). Qed.

Lemma run_carries h s : crash_carries pn_net step start h s -> forall c, begins (h c) (total mchan_eqb (bdata N) c graph).
Proof using All.
  intros H c. exact (psurvives_carries N HN graph procs goal cap mest NP (fun p => run_obeys mest p (or_intror eq_refl)) run_beyond h s (fun c Hc => Hc) H c).
Qed.

(** ** Clients are last *)
Hypothesis On : online = true.
Hypothesis Busy : Forall (fun c => ct_keys c <> []) clients.

Lemma ends_snd (l0 : list mact) i c bs : bs <> [] -> exists l v, l0 ++ snd_ i c bs = l ++ [Snd (Link i c) v].
Proof.
  intros Hb. destruct bs as [|v bs _] using rev_ind; [congruence|]. exists (l0 ++ snd_ i c bs), v. unfold snd_. rewrite map_app, app_assoc. reflexivity.
Qed.
Lemma busy j t : (j <= length parties)%nat -> (t < N)%nat -> concat (l_responses db (nth j links d_none) t) <> [].
Proof using All. intros Hj Ht. destruct S0 as (_ & _ & _ & _ & _ & B). apply B; assumption. Qed.

(** A server's script ends with the responses that it passes back. *)
Lemma server_last e t : (1 <= e <= S (length parties))%nat -> (t < N)%nat -> exists l v, scripts (e * N + t)%nat graph = l ++ [Snd (Link t (Bwd (pred e))) v].
Proof using All.
  intros He Ht. destruct e as [|k]; [lia|]. cbn [pred]. unfold par_graph.
  destruct (Nat.eq_dec k (length parties)) as [->|Hk].
  - rewrite g_backend by (try exact Ht; apply acc_at; exact Hacc). unfold backend_script, backend_online_script. rewrite On, !app_assoc.
    apply ends_snd. apply busy; [lia|exact Ht].
  - rewrite g_party by (try exact Ht; try (apply acc_at; exact Hacc); lia). unfold party_script, party_online. rewrite On. unfold s_responses. rewrite !app_assoc.
    apply ends_snd. apply busy; [lia|exact Ht].
Qed.

(** The servers of the first party get through the last exchange together. *)
Lemma last_barrier t : (1 <= length parties)%nat -> (t < N)%nat ->
  exists l1 bs, scripts (1 * N + t)%nat graph = l1 ++ Loc (x_ready8 1) :: snd_ t (Bwd 0) bs.
Proof using All.
  intros Hp Ht. unfold par_graph. rewrite (g_party N db offline online (length parties)) by (try exact Ht; try (apply acc_at; exact Hacc); lia).
  unfold party_script, party_online. rewrite On. unfold s_responses.
  match goal with |- exists l1 bs, ?a ++ ?b ++ ?c ++ ?d ++ ?e ++ ?f ++ [?x; ?y; ?z] ++ snd_ _ _ ?r = _ => exists (a ++ b ++ c ++ d ++ e ++ f ++ [x; y]), r end.
  rewrite <- !app_assoc. reflexivity.
Qed.
Lemma reads_snd d i c bs : reads mchan_eqb (bdata N) d (snd_ i c bs) = [].
Proof. unfold snd_, reads. induction bs as [|v bs IH]; [reflexivity|exact IH]. Qed.

Lemma run_last s i : reach step start s -> (i < N)%nat -> (exists e, nt_proc (pn_net s) i = Ret e) ->
  nt_proc (pn_net s) (1 * N + i)%nat = Ret (goal (1 * N + i)%nat) /\
  forall e t, (2 <= e <= S (length parties))%nat -> (t < N)%nat -> nt_proc (pn_net s) (e * N + t)%nat = Ret (goal (e * N + t)%nat).
Proof using All.
  intros H Hi Ri.
  destruct (psurvives_all N HN graph procs goal cap mest NP (fun p => run_obeys mest p (or_intror eq_refl)) run_beyond s (fun c Hc => Hc) H) as (gs & lost & Su).
  pose proof (returned_reads N graph goal mest s gs lost i Su Ri) as R0.
  assert (Last : forall e t, (1 <= e <= S (length parties))%nat -> (t < N)%nat -> reads_st mchan_eqb (bdata N) (Link t (Bwd (pred e))) (gs (pred e * N + t)%nat) = [] ->
    gs (e * N + t)%nat = Out [] /\ nt_proc (pn_net s) (e * N + t)%nat = Ret (goal (e * N + t)%nat)).
  { intros e t He Ht Hr. destruct (server_last e t He Ht) as (l & v & E).
    pose proof (last_returned N HN graph procs goal cap mest NP (fun p => run_obeys mest p (or_intror eq_refl)) run_beyond s gs lost (Link t (Bwd (pred e))) v l) as L. cbn [mfrom mto sender receiver] in L.
    replace (S (pred e)) with e in L by lia. apply L; assumption. }
  destruct (Last 1%nat i ltac:(lia) Hi (R0 (Link i (Bwd 0)) eq_refl)) as [G1 P1]. split; [exact P1|].
  assert (All : forall e, (2 <= e <= S (length parties))%nat -> forall t, (t < N)%nat -> gs (e * N + t)%nat = Out [] /\ nt_proc (pn_net s) (e * N + t)%nat = Ret (goal (e * N + t)%nat)).
  { induction e as [|e IH]; intros He t Ht; [lia|]. apply Last; [lia|exact Ht|]. cbn [pred]. destruct (Nat.eq_dec e 1) as [->|He1].
    - destruct (Nat.eq_dec t i) as [->|Hti]; [rewrite G1; reflexivity|]. pose proof Su as (I & _ & _).
      pose proof (v_bal _ _ _ _ _ _ _ _ I (Sib 1 t i)) as B. replace (mto N (Sib 1 t i)) with (1 * N + i)%nat in B by (cbn [mto]; rewrite (proj2 (Nat.eqb_neq t i) Hti); reflexivity). change (mfrom N (Sib 1 t i)) with (1 * N + t)%nat in B. rewrite G1 in B. symmetry in B. apply app_eq_nil in B as [_ B].
      destruct (last_barrier t ltac:(lia) Ht) as (l1 & bs & E).
      eapply (past_block mchan_eqb (mfrom N) (mto N) (bdata N) (bmember N) (bgas N) mchan_eqb_spec (fun c => mfrom_to N c HN) (bdata_member N)); [exact E| | | |exact B|reflexivity|apply reads_snd].
      + cbn [bdata x_ready8 ready_blk bk_k bk_data]. rewrite Nat.eqb_refl, (proj2 (Nat.ltb_lt t N) Ht), (proj2 (Nat.ltb_lt i N) Hi), (proj2 (Nat.eqb_neq t i) Hti). discriminate.
      + exact (v_pos _ _ _ _ _ _ _ _ I _).
      + exact (v_fine _ _ _ _ _ _ _ _ I _).
    - destruct (IH ltac:(lia) t Ht) as [G2 _]. rewrite G2. reflexivity. }
  intros e t He Ht. apply All; assumption.
Qed.

End Run.

(** Who has been killed does nothing any more. *)
Lemma par_killed_stays N cap s s' p : reach (par_crash_step N cap) s s' -> pn_killed s p = true ->
  pn_killed s' p = true /\ nt_proc (pn_net s') p = nt_proc (pn_net s) p.
Proof.
  intros H K. revert H. apply (reach_inv (par_crash_step N cap) (fun a => pn_killed a p = true /\ nt_proc (pn_net a) p = nt_proc (pn_net s) p)); [|auto].
  intros a b [K1 E] Step. destruct Step as [q n Kq Ps|q|c bs Kc Ec|q c m k Kq Ep En|q bl l k fs Kq Ep F]; cbn [pn_killed pn_net nt_proc].
  - split; [exact K1|]. rewrite <- E. assert (Hne : p <> q) by congruence. destruct Ps; cbn [nt_proc]; unfold set_proc;
      rewrite (proj2 (Nat.eqb_neq p q) Hne); reflexivity.
  - split; [unfold set_killed; destruct (p =? q)%nat; auto|exact E].
  - auto.
  - split; [exact K1|]. rewrite <- E. unfold set_proc. rewrite (proj2 (Nat.eqb_neq p q)) by congruence. reflexivity.
  - split; [exact K1|]. rewrite <- E. unfold set_proc. rewrite (proj2 (Nat.eqb_neq p q)) by congruence. reflexivity.
Qed.
