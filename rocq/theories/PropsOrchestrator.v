(** C78, C79: the orchestrator of experiments. *)
From Coq Require Import Permutation.
From Verif Require Import Base BaseProofs Config ConfigSpec ConfigProofs PropsConfig Orchestrator OrchestratorSpec OrchestratorProofs OrchestratorConfigs OrchestratorQueue.

Lemma happens_cons a s ev r h : happens a s ((ev, r) :: h) -> exists s0, happens a s0 h /\ handle a s0 ev = (s, r).
Proof. intros H. inversion H; subst. eauto. Qed.
Lemma happens_sub a l h : forall s, happens a s (l ++ h) -> exists s0, happens a s0 h.
Proof. induction l as [|[ev r] l IH]; intros s H; [eauto|]. cbn in H. destruct (happens_cons _ _ _ _ _ H) as (s0 & H0 & _). eauto. Qed.
(** A job is given to a registered worker of its kind. *)
Lemma given_registered a v j : forall s h, happens a s h -> List.In (v, j) (given h) -> exists ip, nth_error (registered h) v = Some (job_kind j, ip).
Proof.
  intros s h H. induction H as [|s1 h1 ev s2 r H1 IH H2]; [contradiction|]. intros Hin.
  assert (Old : List.In (v, j) (given h1) -> exists ip0, nth_error (registered ((ev, r) :: h1)) v = Some (job_kind j, ip0)).
  { intros X. destruct (IH X) as (ip0 & Y). exists ip0. destruct ev; try exact Y. cbn [registered]. rewrite nth_error_app1; [exact Y|]. apply nth_error_Some. congruence. }
  destruct ev; try (apply Old; exact Hin). destruct r; try (apply Old; exact Hin). cbn [given] in Hin. apply in_app_or in Hin as [Hin|[Hin|[]]]; [apply Old; exact Hin|].
  inversion Hin; subst. pose proof (happens_inv _ _ _ (happens_next _ _ _ _ _ _ H1 H2)) as I2.
  assert (D2 : doing v ((Ping v, RJob j) :: h1) = Some j) by (cbn; now rewrite Nat.eqb_refl).
  destruct (i_job _ _ I2 _ _ D2) as (x & y & Hx & Hy & Hk & _). exists (wk_ip x). rewrite <- Hk, <- (i_workers _ _ I2).
  exact (map_nth_error (fun w0 => (wk_kind w0, wk_ip w0)) _ _ Hx).
Qed.

(** ** C78 *)

(** The jobs of a DP-PIR experiment: the i-th server is machine i mod parallelism
    of party i / parallelism, the i-th client is client i, and there are never
    more than the experiment is for. *)
Theorem C78_roles : forall a s h e d, happens a s h -> nth_error (described h) e = Some d -> ds_kind d = Dppir ->
  (taken Server e h <= ds_servers d)%nat /\ (taken Client e h <= ds_clients d)%nat /\
  map snd (filter (is_for Server e) (given h)) = map (fun i => JParty e (i / ds_parallel d) (i mod ds_parallel d) (ds_mode d)) (seq 0 (taken Server e h)) /\
  map snd (filter (is_for Client e) (given h)) = map (fun i => JClient e i (ds_queries d) (ds_mode d)) (seq 0 (taken Client e h)).
Proof.
  intros a s h e d H Hd K. pose proof (happens_inv _ _ _ H) as I. destruct (described_heap _ _ _ _ I Hd) as (y & Hy & <-).
  pose proof (i_exp _ _ I _ _ Hy) as E. destruct (e_roles _ _ _ E K) as (R1 & R2 & _).
  pose proof (e_room _ _ _ E Server) as S1. pose proof (e_room _ _ _ E Client) as S2. rewrite (members_taken _ _ _ _ Server I Hy) in S1. rewrite (members_taken _ _ _ _ Client I Hy) in S2.
  pose proof (members_taken _ _ _ _ Server I Hy) as T1. pose proof (members_taken _ _ _ _ Client I Hy) as T2. cbn in T1, T2. rewrite T1 in R1. rewrite T2 in R2. auto.
Qed.

(** Every job goes to a registered worker of the right kind and carries the
    parameters of its experiment; a checklist client is sent to the two workers
    that were given the server jobs of the same experiment. *)
Theorem C78_jobs : forall a s h w j, happens a s ((Ping w, RJob j) :: h) ->
  exists d ip, nth_error (described h) (job_exp j) = Some d /\ nth_error (registered h) w = Some (job_kind j, ip) /\
  match j with
  | JParty _ _ _ mode => ds_kind d = Dppir /\ mode = ds_mode d
  | JClient _ _ q mode => ds_kind d = Dppir /\ q = ds_queries d /\ mode = ds_mode d
  | JCheckServer _ v t port pt => ds_kind d = Checklist /\ v = w /\ t = ds_table d /\ port = 10000 + Z.of_nat w /\ pt = ds_mode d
  | JCheckClient e a1 p1 a2 p2 q pt => ds_kind d = Checklist /\ q = ds_queries d /\ pt = ds_mode d /\
      exists s1 s2, map fst (filter (is_for Server e) (given h)) = [s1; s2] /\
        nth_error (registered h) s1 = Some (Server, a1) /\ nth_error (registered h) s2 = Some (Server, a2) /\
        p1 = 10000 + Z.of_nat s1 /\ p2 = 10000 + Z.of_nat s2
  | JSealpir _ t q => ds_kind d = Sealpir /\ t = ds_table d /\ q = ds_queries d
  end.
Proof.
  intros a s h w j H. pose proof (happens_inv _ _ _ H) as I. assert (D : doing w ((Ping w, RJob j) :: h) = Some j) by (cbn; now rewrite Nat.eqb_refl).
  destruct (i_job _ _ I _ _ D) as (x & y & Hx & Hy & Hk & Hj). exists (ex_desc y), (wk_ip x).
  assert (R : forall v u, nth_error (or_workers s) v = Some u -> nth_error (registered h) v = Some (wk_kind u, wk_ip u)).
  { intros v u Hu. pose proof (i_workers _ _ I) as W. cbn [registered] in W. rewrite <- W. exact (map_nth_error (fun w0 => (wk_kind w0, wk_ip w0)) _ _ Hu). }
  split; [exact (heap_described _ _ _ _ I Hy)|]. split; [rewrite (R _ _ Hx), Hk; reflexivity|].
  destruct j; cbn [job_ok registered] in Hj; try tauto. destruct Hj as (K & Q & P & s1 & s2 & E1 & E2 & E3 & E4 & E5). repeat split; auto. exists s1, s2.
  pose proof (e_members _ _ _ (i_exp _ _ I _ _ Hy) Server) as M. cbn [ex_members job_exp] in M. rewrite E1 in M. unfold of_exp in M. cbn [given] in M.
  rewrite filter_app' in M. cbn [filter is_for snd job_kind kind_eqb] in M. unfold is_for in M at 2. cbn [snd job_kind kind_eqb] in M. rewrite andb_false_r, app_nil_r in M.
  split; [symmetry; exact M|].
  assert (S2 : forall v ip, List.In v [s1; s2] -> nth_error (map snd (registered h)) v = Some ip -> nth_error (registered h) v = Some (Server, ip)).
  { intros v ip Hv Hip. rewrite nth_error_map in Hip. destruct (nth_error (registered h) v) as [[k i]|] eqn:Er; [|discriminate]. cbn in Hip. inversion Hip; subst i. do 2 f_equal.
    (* the worker was given a server job *)
    rewrite M in Hv. apply in_map_iff in Hv as ([v' j'] & <- & Hv). apply filter_In in Hv as [Hv1 Hv2]. cbn [fst] in *.
    apply is_for_true in Hv2 as [_ Hv2].
    destruct (happens_cons _ _ _ _ _ H) as (s0 & Hh0 & _). destruct (given_registered _ _ _ _ _ Hh0 Hv1) as (ip0 & Y). rewrite Hv2 in Y. congruence. }
  split; [apply S2; [left; reflexivity|assumption]|]. split; [apply S2; [right; left; reflexivity|assumption]|]. auto.
Qed.

(** First come, first served: a job is of the oldest listed experiment that still
    wants workers of that kind; a worker is told to wait when there is none, or
    (a client) when that experiment is a checklist experiment without its servers. *)
Theorem C78_order : forall a s h w s' r k ip, happens a s h -> nth_error (registered h) w = Some (k, ip) -> handle a s (Ping w) = (s', r) ->
  (exists j, r = RJob j /\ job_kind j = k /\ List.In (job_exp j) (listed h) /\ has_room k h (job_exp j) = true /\ (k = Client -> takes_clients h (job_exp j) = true) /\
     forall e, List.In e (listed h) -> (e < job_exp j)%nat -> has_room k h e = false) \/
  (r = RWait /\
   ((forall e, List.In e (listed h) -> has_room k h e = false) \/
    k = Client /\ exists e, List.In e (listed h) /\ has_room Client h e = true /\ takes_clients h e = false /\
      forall e', List.In e' (listed h) -> (e' < e)%nat -> has_room Client h e' = false)).
Proof.
  intros a s h w s' r k ip H Hw Hs. pose proof (happens_inv _ _ _ H) as I. pose proof (happens_q _ _ _ H) as [Q1 Q2 Q3 Q4].
  rewrite <- (i_workers _ _ I), nth_error_map in Hw. destruct (nth_error (or_workers s) w) as [x|] eqn:Hx; [|discriminate]. cbn in Hw. inversion Hw; subst k ip. clear Hw.
  destruct (ping_cases _ _ _ _ _ _ _ I Hs Hx) as [(-> & _ & [E|(K & e & rest & y & E & Hy & Hr)])|(e & rest & y & j & E & Hy & Hc & -> & [Hj1 Hj2] & _)].
  - right. split; [reflexivity|]. left. intros e He. rewrite Q2 in E. destruct (has_room (wk_kind x) h e) eqn:R; [|reflexivity]. exfalso.
    assert (X : List.In e (filter (has_room (wk_kind x) h) (listed h))) by (apply filter_In; auto). rewrite E in X. contradiction.
  - right. split; [reflexivity|]. right. split; [assumption|]. rewrite K, Q2 in E. destruct (head_least _ _ _ _ Q4 E) as (A & B & C). exists e.
    rewrite <- (ready_takes _ _ _ _ I Hy). auto.
  - left. exists j. rewrite Q2 in E. destruct (head_least _ _ _ _ Q4 E) as (A & B & C). rewrite Hj1. split; [reflexivity|]. split; [assumption|]. split; [assumption|]. split; [assumption|].
    split; [|assumption]. intros K. rewrite <- (ready_takes _ _ _ _ I Hy). auto.
Qed.

(** What "new dppir" makes is [well_made] but for the sizes gen_config can take,
    and there are enough workers for it. *)
Theorem C78_new : forall s naming mode tables parties parallelisms batches epsilons deltas ev,
  List.In ev (new_dppir s naming mode tables parties parallelisms batches epsilons deltas) ->
  exists d, ev = NewExperiment d true /\ ds_kind d = Dppir /\ ds_servers d = (ds_parties d * ds_parallel d)%nat /\ ds_clients d = ds_parallel d /\
    (ds_servers d <= count_kind Server (or_workers s))%nat /\ (ds_clients d <= count_kind Client (or_workers s))%nat /\
    List.In (ds_parties d) parties /\ List.In (ds_parallel d) parallelisms /\ List.In (ds_table d) tables /\ List.In (ds_epsilon d) epsilons /\ List.In (ds_delta d) deltas /\
    exists b, List.In b batches /\ ds_queries d = b / Z.of_nat (ds_parallel d).
Proof.
  intros s naming mode tables parties parallelisms batches epsilons deltas ev. unfold new_dppir. set (l := flat_map _ tables).
  assert (L : forall x, List.In x l -> match x with (name, md, t, ps, pr, b, e, d) => List.In ps parties /\ List.In pr parallelisms /\ List.In t tables /\ List.In b batches /\
    List.In e epsilons /\ List.In d deltas end).
  { intros x Hx. unfold l in Hx. apply in_flat_map in Hx as (t & Ht & Hx). apply in_flat_map in Hx as (ps & Hps & Hx). apply in_flat_map in Hx as (pr & Hpr & Hx).
    apply in_flat_map in Hx as (b & Hb & Hx). apply in_flat_map in Hx as (e & He & Hx). apply in_map_iff in Hx as (d & <- & Hd). auto 10. }
  induction l as [|[[[[[[[name md] t] ps] pr] b] e] d] l IH]; [contradiction|]. cbn [new_dppirs].
  destruct (Nat.ltb_spec (count_kind Server (or_workers s)) (ps * pr)); [contradiction|]. destruct (Nat.ltb_spec (count_kind Client (or_workers s)) pr); [contradiction|].
  intros [<-|Hin]; [|apply IH; [intros x Hx; apply L; right; exact Hx|exact Hin]].
  specialize (L _ (or_introl eq_refl)). cbn in L. exists (dppir_desc name md t ps pr b e d). cbn. repeat split; try tauto. exists b. tauto.
Qed.

(** A worker with a DP-PIR job gets a configuration once, and only once, all the
    servers have been assigned; *)
Theorem C78_config_when : forall a s h w keys s' r j d, happens a s h -> handle a s (AskConfig w keys) = (s', r) -> doing w h = Some j ->
  nth_error (described h) (job_exp j) = Some d -> well_made d ->
  (forall i, length (fst (keys i)) = 32%nat /\ length (snd (keys i)) = 32%nat) -> (forall k ip, List.In (k, ip) (registered h) -> Forall (fun c => c <> 0) ip) ->
  if (taken Server (job_exp j) h =? ds_servers d)%nat then exists bs, r = RConfig bs else r = RWait /\ s' = s.
Proof.
  intros a s h w keys s' r j d H Hs D Hd (K & W1 & W2 & W3 & W4 & W5 & W6) Hk Hi. pose proof (happens_inv _ _ _ H) as I.
  destruct (ask_config _ _ _ _ _ _ _ _ I Hs D) as (y & Hy & C). rewrite (heap_described _ _ _ _ I Hy) in Hd. inversion Hd as [Hd']. subst d. clear Hd.
  pose proof (members_taken _ _ _ _ Server I Hy) as T. cbn [ex_members] in T. rewrite T in C. rewrite Nat.eqb_sym.
  destruct (ds_servers (ex_desc y) =? taken Server (job_exp j) h)%nat eqn:Ef; [|exact C]. apply Nat.eqb_eq in Ef.
  destruct r; try contradiction; [eauto| |destruct C as [_ C]; congruence]. exfalso. destruct C as (_ & _ & _ & C). unfold generate in C.
  set (ips := map (fun i => match nth_error (or_workers s) i with Some w0 => wk_ip w0 | None => [] end) (ex_servers y)) in *.
  destruct (C30_from_args_total a (ds_table (ex_desc y)) (ds_epsilon (ex_desc y)) (ds_delta (ex_desc y)) (Z.of_nat (ds_parties (ex_desc y))) (Z.of_nat (ds_parallel (ex_desc y))) ips keys) as (c & Ec).
  { right. unfold ips. rewrite map_length, T, <- Ef, W1. rewrite !Z.mod_small by lia. lia. }
  rewrite Ec in C. cbn [bind] in C.
  assert (V : config_val c).
  { apply (generated_val _ _ _ _ _ _ _ _ _ Ec); auto. apply Forall_forall. intros ip Hip. unfold ips in Hip. apply in_map_iff in Hip as (v & <- & Hv).
    destruct (nth_error (or_workers s) v) as [u|] eqn:Eu; [|constructor]. apply (Hi (wk_kind u)). rewrite <- (i_workers _ _ I).
    apply in_map_iff. exists u. split; [reflexivity|]. eapply nth_error_In, Eu. }
  destruct (C27_round_trip a c V) as (b & Eb & _). rewrite Eb in C. discriminate.
Qed.

(** ... it is the same configuration for everybody in the experiment, at all times; *)
Theorem C78_same_config : forall a s h1 h2 h3 w keys bs w' keys' bs' j j',
  happens a s (h3 ++ (AskConfig w' keys', RConfig bs') :: h2 ++ (AskConfig w keys, RConfig bs) :: h1) ->
  doing w h1 = Some j -> doing w' (h2 ++ (AskConfig w keys, RConfig bs) :: h1) = Some j' -> job_exp j' = job_exp j -> bs' = bs.
Proof.
  intros a s h1 h2 h3 w keys bs w' keys' bs' j j' H D D' E.
  destruct (happens_sub _ _ _ _ H) as (s5 & H5). destruct (happens_cons _ _ _ _ _ H5) as (s4 & H4 & Hs4).
  destruct (happens_sub _ _ _ _ H4) as (s3 & H3). destruct (happens_cons _ _ _ _ _ H3) as (s2 & H2 & Hs2).
  destruct (ask_config _ _ _ _ _ _ _ _ (happens_inv _ _ _ H2) Hs2 D) as (y & Hy & C). destruct (_ =? _)%nat; [|destruct C; discriminate].
  destruct C as (y' & Hy' & Hc). destruct (config_stays a _ _ _ _ H3 h2 eq_refl H4 _ _ _ Hy' Hc) as (y4 & Hy4 & Hc4).
  destruct (ask_config _ _ _ _ _ _ _ _ (happens_inv _ _ _ H4) Hs4 D') as (z & Hz & C). destruct (_ =? _)%nat; [|destruct C; discriminate].
  destruct C as (z' & Hz' & Hcz). rewrite E in Hz'. rewrite <- E in Hy4.
  destruct (step_exp _ _ _ _ _ _ _ _ (happens_inv _ _ _ H4) Hs4 Hy4) as (y5 & E1 & _ & _ & [E4|(E4 & _)]); [|congruence]. rewrite E in E1. congruence.
Qed.

(** ... and at the place (p, m) it has the address of the worker that was told to
    be machine m of party p. *)
Theorem C78_config : forall a s h w keys bs j d, happens a s ((AskConfig w keys, RConfig bs) :: h) -> doing w h = Some j ->
  nth_error (described h) (job_exp j) = Some d -> well_made d ->
  (forall w' keys' r, List.In (AskConfig w' keys', r) ((AskConfig w keys, RConfig bs) :: h) -> forall i, length (fst (keys' i)) = 32%nat /\ length (snd (keys' i)) = 32%nat) ->
  (forall k ip, List.In (k, ip) (registered h) -> Forall (fun c => c <> 0) ip) -> fits bs ->
  taken Server (job_exp j) h = ds_servers d /\
  exists c, read_file a (Some bs) = Ok c /\
    cg_parties_n c = Z.of_nat (ds_parties d) /\ cg_servers_n c = Z.of_nat (ds_parallel d) /\ cg_db c = ds_table d mod 2 ^ 32 /\ cg_epsilon c = ds_epsilon d /\ cg_delta c = ds_delta d /\
    forall v p m mode, List.In (v, JParty (job_exp j) p m mode) (given h) ->
      exists pc sv, nth_error (cg_parties c) p = Some pc /\ nth_error (pc_servers pc) m = Some sv /\ nth_error (registered h) v = Some (Server, sv_ip sv).
Proof.
  intros a s h w keys bs j d H D Hd (K & W1 & W2 & W3 & W4 & W5 & W6) Hk Hi Fb.
  destruct (happens_cons _ _ _ _ _ H) as (s0 & Hh & Hst). pose proof (happens_inv _ _ _ Hh) as I.
  destruct (ask_config _ _ _ _ _ _ _ _ I Hst D) as (y & Hy & C). destruct (ds_servers (ex_desc y) =? length (ex_servers y))%nat eqn:Ef; [|destruct C; discriminate].
  apply Nat.eqb_eq in Ef. destruct C as (y' & Hy' & Hc). pose proof (happens_inv _ _ _ H) as I'. destruct (happens_cfg _ _ _ H _ _ _ Hy' Hc) as (_ & Fu & keys' & (w' & r' & Ask) & G).
  rewrite (heap_described _ _ _ _ I Hy) in Hd. inversion Hd as [Hd']. subst d. clear Hd.
  assert (Ed : ex_desc y' = ex_desc y) by (pose proof (heap_described _ _ _ _ I' Hy') as X; cbn [described] in X; rewrite (heap_described _ _ _ _ I Hy) in X; congruence).
  assert (Es : ex_servers y' = ex_servers y).
  { pose proof (e_members _ _ _ (i_exp _ _ I' _ _ Hy') Server) as X. cbn [given ex_members] in X. rewrite X. symmetry. exact (e_members _ _ _ (i_exp _ _ I _ _ Hy) Server). }
  pose proof (members_taken _ _ _ _ Server I Hy) as T. cbn [ex_members] in T.
  split; [congruence|]. specialize (Hk _ _ _ Ask). unfold generate in G. rewrite Ed, Es in G.
  set (ips := map (fun i => match nth_error (or_workers s) i with Some w0 => wk_ip w0 | None => [] end) (ex_servers y)) in *.
  destruct (from_args a (ds_table (ex_desc y)) (ds_epsilon (ex_desc y)) (ds_delta (ex_desc y)) (Z.of_nat (ds_parties (ex_desc y))) (Z.of_nat (ds_parallel (ex_desc y))) ips keys') as [c| | |] eqn:Ec;
    try discriminate. cbn [bind] in G. destruct (serialize a c) as [bs'| | |] eqn:Eb; try discriminate. inversion G; subst bs'. clear G.
  pose proof (i_workers _ _ I') as Wk. cbn [registered] in Wk.
  assert (V : config_val c).
  { apply (generated_val _ _ _ _ _ _ _ _ _ Ec); auto. apply Forall_forall. intros ip Hip. unfold ips in Hip. apply in_map_iff in Hip as (v & <- & Hv).
    destruct (nth_error (or_workers s) v) as [u|] eqn:Eu; [|constructor]. apply (Hi (wk_kind u)). rewrite <- Wk.
    apply in_map_iff. exists u. split; [reflexivity|]. eapply nth_error_In, Eu. }
  destruct (C27_round_trip a c V) as (b & Eb' & R). assert (b = bs) as -> by congruence. destruct (R Fb) as [_ R'].
  exists c. split; [exact R'|].
  assert (Fx : cg_parties_n c = Z.of_nat (ds_parties (ex_desc y)) /\ cg_servers_n c = Z.of_nat (ds_parallel (ex_desc y)) /\ cg_db c = ds_table (ex_desc y) mod 2 ^ 32 /\
    cg_epsilon c = ds_epsilon (ex_desc y) /\ cg_delta c = ds_delta (ex_desc y)).
  { unfold from_args in Ec. apply bind_Ok in Ec as (? & _ & Ec). apply bind_Ok in Ec as (ps & _ & Ec). inversion Ec; subst. cbn.
    unfold w8. rewrite !Z.mod_small by lia. auto. }
  destruct Fx as (F1 & F2 & F3 & F4 & F5). do 5 (split; [assumption|]).
  intros v p m mode Hin.
  assert (HF : List.In (v, JParty (job_exp j) p m mode) (filter (is_for Server (job_exp j)) (given h))).
  { apply filter_In. split; [assumption|]. apply is_for_true. split; reflexivity. }
  apply In_nth_error in HF as (i & Hn). destruct (C78_roles a s0 h _ _ Hh (heap_described _ _ _ _ I Hy) K) as (_ & _ & R1 & _).
  pose proof (map_nth_error snd _ _ Hn) as N1. rewrite R1 in N1. cbn [snd] in N1.
  assert (Li : (i < taken Server (job_exp j) h)%nat) by (unfold taken; apply nth_error_Some; congruence).
  rewrite nth_error_map in N1. rewrite (nth_error_nth' _ 0%nat) in N1 by (rewrite seq_length; exact Li). rewrite seq_nth in N1 by exact Li. cbn in N1. inversion N1 as [[P1 P2 P3]]. clear N1.
  set (q := ds_parallel (ex_desc y)) in *. assert (Hq : q <> 0%nat) by lia.
  assert (Lp : (i / q < ds_parties (ex_desc y))%nat) by (apply Nat.div_lt_upper_bound; [exact Hq|]; rewrite Nat.mul_comm; lia).
  assert (Lm : (i mod q < q)%nat) by (apply Nat.mod_upper_bound; exact Hq).
  assert (Ni : ips <> []) by (unfold ips; destruct (ex_servers y); [cbn in T; lia|discriminate]).
  destruct (generated_ip _ _ _ _ _ _ _ _ _ (i / q) (i mod q) Ec ltac:(lia) ltac:(lia) Ni) as (pc & sv & G1 & G2 & G3); [lia|lia|].
  exists pc, sv. split; [exact G1|]. split; [exact G2|].
  assert (Ei : (i / q * Z.to_nat (Z.of_nat q) + i mod q)%nat = i) by (rewrite Nat2Z.id; pose proof (Nat.div_mod i q Hq); lia). rewrite Ei in G3.
  unfold ips in G3. rewrite nth_error_map in G3. pose proof (e_members _ _ _ (i_exp _ _ I _ _ Hy) Server) as M. cbn [ex_members] in M. rewrite M in G3. unfold of_exp in G3.
  rewrite (map_nth_error fst _ _ Hn) in G3. cbn in G3.
  destruct (nth_error (or_workers s) v) as [u|] eqn:Eu; inversion G3 as [G4].
  - assert (Ku : wk_kind u = Server).
    { destruct (given_registered _ _ _ _ _ Hh Hin) as (ip0 & Y). rewrite <- Wk, nth_error_map, Eu in Y. cbn in Y. congruence. }
    rewrite <- Wk. rewrite nth_error_map, Eu. cbn. congruence.
  - exfalso. apply nth_error_None in Eu. assert (Lv : (v < length (or_workers s0))%nat) by (apply (i_given _ _ I (v, JParty (job_exp j) p m mode)); assumption).
    pose proof (inv_registered _ _ I) as X1. pose proof (inv_registered _ _ I') as X2. cbn [registered] in X2. lia.
Qed.

(** ** C79 *)

(** An experiment is shown as done exactly when all its clients and servers have reported. *)
Theorem C79_done : forall a s h e d, happens a s h -> nth_error (described h) e = Some d ->
  (status s e = Some EDone <->
   length (filter (is_for Client e) (reported h)) = ds_clients d /\ length (filter (is_for Server e) (reported h)) = ds_servers d /\ (0 < ds_clients d + ds_servers d)%nat).
Proof.
  intros a s h e d H Hd. pose proof (happens_inv _ _ _ H) as I. destruct (described_heap _ _ _ _ I Hd) as (y & Hy & <-). pose proof (i_exp _ _ I _ _ Hy) as E.
  unfold status. rewrite Hy. cbn [option_map]. rewrite (e_status _ _ _ E). pose proof (e_fin _ _ _ E Client) as F1. pose proof (e_fin _ _ _ E Server) as F2. unfold of_exp in F1, F2.
  cbn [ex_fin] in F1, F2. rewrite <- F1, <- F2. pose proof (fin_le _ _ _ _ Client I Hy) as L1. pose proof (fin_le _ _ _ _ Server I Hy) as L2. cbn [ex_fin ex_members] in L1, L2.
  unfold status_of.
  destruct (Nat.ltb_spec (length (ex_clients y)) (ds_clients (ex_desc y))); cbn [orb]; [split; [discriminate|lia]|].
  destruct (Nat.ltb_spec (length (ex_servers y)) (ds_servers (ex_desc y))); cbn [orb]; [split; [discriminate|lia]|].
  destruct (Nat.eqb_spec (ds_clients (ex_desc y) + ds_servers (ex_desc y)) 0); [split; [discriminate|lia]|].
  destruct (Nat.eqb_spec (ex_fin_clients y) (ds_clients (ex_desc y))); cbn [andb].
  - destruct (Nat.eqb_spec (ex_fin_servers y) (ds_servers (ex_desc y))); [split; auto; intros _; repeat split; auto; lia|].
    split; [destruct (ds_kind (ex_desc y)); discriminate|lia].
  - split; [destruct (ds_kind (ex_desc y)); discriminate|lia].
Qed.

(** Every job given is reported, dropped or still being done, once. *)
Theorem C79_account : forall a s h, happens a s h -> Permutation (given h) (reported h ++ dropped h ++ current h).
Proof. intros a s h H. exact (i_account _ _ (happens_inv _ _ _ H)). Qed.

Lemma done_clean a s h e d : happens a s h -> nth_error (described h) e = Some d -> status s e = Some EDone ->
  forall k, taken k e h = needs k d /\ of_exp k e (dropped h) = [] /\ of_exp k e (current h) = [].
Proof.
  intros H Hd Hs k. pose proof (happens_inv _ _ _ H) as I. destruct (proj1 (C79_done _ _ _ _ _ H Hd) Hs) as (D1 & D2 & _).
  destruct (described_heap _ _ _ _ I Hd) as (y & Hy & Ey). pose proof (e_room _ _ _ (i_exp _ _ I _ _ Hy) k) as R. rewrite (members_taken _ _ _ _ k I Hy), Ey in R.
  pose proof (account_counts _ _ k e I) as A. unfold taken in *. change (filter (is_for k e) (given h)) with (of_exp k e (given h)) in *.
  assert (F : length (of_exp k e (reported h)) = needs k d) by (destruct k; assumption).
  split; [lia|]. split; [destruct (of_exp k e (dropped h))|destruct (of_exp k e (current h))]; auto; cbn in A; lia.
Qed.

(** A worker that asks for another job without having reported the last one has
    spoiled that job's experiment: it will never be shown as done. *)
Theorem C79_dropped : forall a s h l w j, happens a s (l ++ h) -> List.In (w, j) (dropped h) -> status s (job_exp j) <> Some EDone.
Proof.
  intros a s h l w j H Hin Hs. pose proof (happens_inv _ _ _ H) as I.
  assert (Hin' : List.In (w, j) (dropped (l ++ h))).
  { clear -Hin. induction l as [|[ev r] l IH]; [exact Hin|]. cbn [app]. destruct ev; cbn [dropped]; try exact IH. destruct r; try exact IH; apply in_or_app; right; exact IH. }
  unfold status in Hs. destruct (nth_error (or_heap s) (job_exp j)) as [y|] eqn:Hy; [|discriminate].
  destruct (done_clean _ _ _ _ _ H (heap_described _ _ _ _ I Hy)) with (k := job_kind j) as (_ & X & _); [unfold status; rewrite Hy; exact Hs|].
  assert (Y : List.In (w, j) (of_exp (job_kind j) (job_exp j) (dropped (l ++ h)))) by (apply filter_In; split; [assumption|apply is_for_true; split; reflexivity]).
  rewrite X in Y. contradiction.
Qed.

(** A worker that disappears with a job does the same. *)
Theorem C79_lost : forall a s h l w j, happens a s (l ++ h) -> doing w h = Some j -> (forall text r, ~ List.In (ReportDone w text, r) l) -> status s (job_exp j) <> Some EDone.
Proof.
  intros a s h l w j H D N Hs. pose proof (happens_inv _ _ _ H) as I.
  assert (X : doing w (l ++ h) = Some j \/ List.In (w, j) (dropped (l ++ h))).
  { clear -D N. induction l as [|[ev r] l IH]; [left; exact D|]. cbn [app]. destruct IH as [IH|IH]; [intros t r' X; apply (N t r'); right; exact X| |].
    - destruct (acts ev r) as [v|] eqn:A.
      + destruct (Nat.eq_dec v w) as [->|Hv]; [|left; rewrite doing_other by congruence; exact IH].
        destruct ev; try discriminate; destruct r; try discriminate; inversion A; subst.
        * right. cbn [dropped]. apply in_or_app. left. unfold with_job. rewrite IH. left. reflexivity.
        * right. cbn [dropped]. apply in_or_app. left. unfold with_job. rewrite IH. left. reflexivity.
        * exfalso. apply (N result (RStored name f result0)). left. reflexivity.
      + left. rewrite doing_other by congruence. exact IH.
    - right. destruct ev; cbn [dropped]; try exact IH. destruct r; try exact IH; apply in_or_app; right; exact IH. }
  unfold status in Hs. destruct (nth_error (or_heap s) (job_exp j)) as [y|] eqn:Hy; [|discriminate].
  destruct (done_clean _ _ _ _ _ H (heap_described _ _ _ _ I Hy)) with (k := job_kind j) as (_ & X1 & X2); [unfold status; rewrite Hy; exact Hs|].
  assert (F : is_for (job_kind j) (job_exp j) (w, j) = true) by (apply is_for_true; split; reflexivity). destruct X as [X|X].
  - assert (Y : List.In (w, j) (of_exp (job_kind j) (job_exp j) (current (l ++ h)))) by (apply filter_In; split; [exact (in_current _ _ _ _ I X)|exact F]).
    rewrite X2 in Y. contradiction.
  - assert (Y : List.In (w, j) (of_exp (job_kind j) (job_exp j) (dropped (l ++ h)))) by (apply filter_In; split; assumption). rewrite X1 in Y. contradiction.
Qed.

(** A report is stored under the experiment's name, in the file of the job the
    worker was given; without a job it is refused and changes nothing. *)
Theorem C79_stored : forall a s h w text s' r, happens a s h -> handle a s (ReportDone w text) = (s', r) ->
  match doing w h with
  | Some j => exists d, nth_error (described h) (job_exp j) = Some d /\ r = RStored (ds_name d) (job_file w j) text
  | None => r = RError /\ s' = s
  end.
Proof.
  intros a s h w text s' r H Hs. destruct (inv_report _ _ _ _ _ _ _ (happens_inv _ _ _ H) Hs) as (_ & A & B). destruct (doing w h) as [j|]; [apply A; reflexivity|].
  destruct (B eq_refl). auto.
Qed.

(** When a DP-PIR experiment is done, there is exactly one result for every client and every machine of every party. *)
Theorem C79_results : forall a s h e d, happens a s h -> nth_error (described h) e = Some d -> ds_kind d = Dppir -> status s e = Some EDone ->
  Permutation (map (fun x => snd (fst (snd x))) (filter (fun x => (job_exp (fst x) =? e)%nat) (stored h)))
    (map FClient (seq 0 (ds_clients d)) ++ map (fun i => FParty (i / ds_parallel d) (i mod ds_parallel d)) (seq 0 (ds_servers d))).
Proof.
  intros a s h e d H Hd K Hs. pose proof (happens_inv _ _ _ H) as I.
  assert (St : map (fun x => (fst x, snd (fst (snd x)))) (stored h) = map (fun x => (snd x, job_file (fst x) (snd x))) (reported h)).
  { clear -H. induction H as [|s h ev s' r Hh IH Hs]; [reflexivity|]. destruct ev; try exact IH. destruct r; try exact IH. cbn [stored reported]. rewrite !map_app, IH. f_equal.
    pose proof (C79_stored _ _ _ _ _ _ _ Hh Hs) as X. unfold with_job. destruct (doing w h) as [j|]; [|reflexivity]. destruct X as (d & _ & X). inversion X. reflexivity. }
  assert (E1 : map (fun x => snd (fst (snd x))) (filter (fun x => (job_exp (fst x) =? e)%nat) (stored h)) =
    map (fun x => job_file (fst x) (snd x)) (filter (fun x => (job_exp (snd x) =? e)%nat) (reported h))).
  { revert St. generalize (reported h) as l'. induction (stored h) as [|x l IH]; intros [|x' l'] E; try discriminate; [reflexivity|]. cbn in E. inversion E as [[E1 E2 E3]].
    cbn [filter]. rewrite E1. specialize (IH _ E3). destruct (job_exp (snd x') =? e)%nat; cbn [map]; rewrite ?E2, ?E1, IH; reflexivity. }
  rewrite E1.
  assert (P : forall l : list (nat * job), Permutation (filter (fun x => (job_exp (snd x) =? e)%nat) l) (of_exp Client e l ++ of_exp Server e l)).
  { unfold of_exp. induction l as [|x l IH]; [constructor|]. cbn [filter].
    replace (is_for Client e x) with ((job_exp (snd x) =? e)%nat && kind_eqb (job_kind (snd x)) Client) by reflexivity.
    replace (is_for Server e x) with ((job_exp (snd x) =? e)%nat && kind_eqb (job_kind (snd x)) Server) by reflexivity.
    destruct (job_exp (snd x) =? e)%nat; cbn [andb]; [|exact IH].
    destruct (job_kind (snd x)); cbn [kind_eqb]; [apply Permutation_cons_app; exact IH|cbn [app]; apply perm_skip; exact IH]. }
  rewrite (Permutation_map _ (P (reported h))).
  assert (G : forall k, Permutation (of_exp k e (reported h)) (of_exp k e (given h))).
  { intros k. destruct (done_clean _ _ _ _ _ H Hd Hs k) as (_ & X1 & X2). pose proof (perm_filter (is_for k e) _ _ (i_account _ _ I)) as Y. rewrite !filter_app' in Y.
    unfold of_exp in *. rewrite X1, X2, !app_nil_r in Y. symmetry. exact Y. }
  rewrite map_app. destruct (C78_roles _ _ _ _ _ H Hd K) as (_ & _ & R1 & R2).
  destruct (done_clean _ _ _ _ _ H Hd Hs Server) as (T1 & _). destruct (done_clean _ _ _ _ _ H Hd Hs Client) as (T2 & _). rewrite T1 in R1. rewrite T2 in R2. cbn [needs] in R1, R2.
  assert (JF : forall (l : list (nat * job)) g, map snd l = g -> (forall w j w', List.In (w, j) l -> job_file w j = job_file w' j) -> map (fun x => job_file (fst x) (snd x)) l = map (job_file 0) g).
  { intros l g <- Hf. rewrite map_map. apply map_ext_in. intros [w j] Hin. cbn. exact (Hf w j 0%nat Hin). }
  apply Permutation_app.
  - rewrite (Permutation_map _ (G Client)). unfold of_exp. rewrite (JF _ _ R2), map_map; [reflexivity|]. intros w j w' Hin. apply (in_map snd) in Hin. rewrite R2 in Hin. cbn [snd] in Hin.
    apply in_map_iff in Hin as (i & <- & _). reflexivity.
  - rewrite (Permutation_map _ (G Server)). unfold of_exp. rewrite (JF _ _ R1), map_map; [reflexivity|]. intros w j w' Hin. apply (in_map snd) in Hin. rewrite R1 in Hin. cbn [snd] in Hin.
    apply in_map_iff in Hin as (i & <- & _). reflexivity.
Qed.

(** ** Examples: an experiment with two parties and one client, after a worker has
    come too early; then a checklist experiment. *)
Lemma serve_happens a : forall evs s h, happens a s h -> happens a (fst (serve a s evs)) (rev (snd (serve a s evs)) ++ h).
Proof.
  induction evs as [|ev evs IH]; intros s h H; [exact H|]. cbn [serve]. destruct (handle a s ev) as [s1 r] eqn:E. specialize (IH _ _ (happens_next _ _ _ _ _ _ H E)).
  destruct (serve a s1 evs) as [s2 h2]. cbn [fst snd rev] in *. rewrite <- app_assoc. exact IH.
Qed.
Definition ex_keys : nat -> list Z * list Z := fun i => (repeat (Z.of_nat i) 32, repeat 7 32).
Definition ex_reg : list event := [Register Server [49]; Register Client [50]; Register Server [51]; Ping 0].
Definition ex_new : list event := new_dppir (fst (serve false or_start ex_reg)) (fun _ _ _ _ _ _ => [120]) 1 [100] [2%nat] [1%nat] [40] [5] [6].
Definition ex_check : list event := [NewExperiment {| ds_kind := Checklist; ds_name := [121]; ds_mode := 3; ds_clients := 0; ds_servers := 0; ds_table := 9; ds_parties := 0; ds_parallel := 0;
  ds_epsilon := 0; ds_delta := 0; ds_queries := 4 |} true].
Definition ex_evs : list event :=
  ex_reg ++ ex_new ++ ex_check ++ [Ping 2; Ping 1; AskConfig 1 ex_keys; Ping 0; AskConfig 0 ex_keys; AskConfig 2 ex_keys].
Definition ex_end : list event := [ReportDone 0 [1]; ReportDone 2 [2]; ReportDone 1 [3]; Ping 0; Ping 1; Ping 2; Ping 1].
Definition ex_hist : hist := rev (snd (serve false or_start ex_evs)).
Definition ex_hist2 : hist := rev (snd (serve false or_start (ex_evs ++ ex_end))).
Example C78_example_happens : happens false (fst (serve false or_start ex_evs)) ex_hist.
Proof. unfold ex_hist. rewrite <- (app_nil_r (rev _)). apply serve_happens. constructor. Qed.
Example C78_example_jobs : given ex_hist = [(2%nat, JParty 0 0 0 1); (1%nat, JClient 0 0 40 1); (0%nat, JParty 0 1 0 1)].
Proof. vm_compute. reflexivity. Qed.
Example C78_example_described : exists d, nth_error (described ex_hist) 0 = Some d /\ well_made d /\ taken Server 0 ex_hist = ds_servers d.
Proof. eexists. split; [vm_compute; reflexivity|]. vm_compute. repeat split; auto; lia || discriminate. Qed.
(** both servers get the same configuration, the early client waits *)
Example C78_example_config : exists bs, map snd (firstn 2 ex_hist) = [RConfig bs; RConfig bs] /\ map snd (skipn 3 (firstn 4 ex_hist)) = [RWait] /\ doing 2 ex_hist = Some (JParty 0 0 0 1) /\ fits bs.
Proof. eexists. split; [vm_compute; reflexivity|]. vm_compute. repeat split; auto. Qed.
Example C78_example_keys : forall i, length (fst (ex_keys i)) = 32%nat /\ length (snd (ex_keys i)) = 32%nat.
Proof. intros i. unfold ex_keys. cbn [fst snd]. rewrite !repeat_length. auto. Qed.
Example C78_example_ips : forall k ip, List.In (k, ip) (registered ex_hist) -> Forall (fun c => c <> 0) ip.
Proof. intros k ip H. vm_compute in H. repeat destruct H as [H|H]; inversion H; subst; repeat constructor; discriminate. Qed.
(** the checklist client waits for the two servers and is then sent to them *)
Example C78_example_check : map snd (firstn 4 ex_hist2) =
  [RJob (JCheckClient 1 [49] 10000 [51] 10002 4 3); RJob (JCheckServer 1 2 9 10002 3); RWait; RJob (JCheckServer 1 0 9 10000 3)].
Proof. vm_compute. reflexivity. Qed.
Example C79_example_happens : happens false (fst (serve false or_start (ex_evs ++ ex_end))) ex_hist2.
Proof. unfold ex_hist2. rewrite <- (app_nil_r (rev _)). apply serve_happens. constructor. Qed.
Example C79_example_done : status (fst (serve false or_start (ex_evs ++ ex_end))) 0 = Some EDone /\
  map snd (stored ex_hist2) = [([120], FClient 0, [3]); ([120], FParty 0 0, [2]); ([120], FParty 1 0, [1])].
Proof. vm_compute. auto. Qed.
(** a worker that pings again without having reported *)
Example C79_example_dropped : dropped (rev (snd (serve false or_start (ex_evs ++ [Ping 2])))) = [(2%nat, JParty 0 0 0 1)].
Proof. vm_compute. reflexivity. Qed.
Example C79_example_lost : doing 1 ex_hist = Some (JClient 0 0 40 1).
Proof. vm_compute. reflexivity. Qed.

Print Assumptions C78_roles.
Print Assumptions C78_jobs.
Print Assumptions C78_order.
Print Assumptions C78_new.
Print Assumptions C78_config_when.
Print Assumptions C78_same_config.
Print Assumptions C78_config.
Print Assumptions C79_done.
Print Assumptions C79_account.
Print Assumptions C79_dropped.
Print Assumptions C79_lost.
Print Assumptions C79_stored.
Print Assumptions C79_results.
