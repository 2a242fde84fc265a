(** C80, C81: the daemons on the workers; killing and clearing experiments. *)
From Coq Require Import Permutation.
From Verif Require Import Base Config Orchestrator OrchestratorSpec OrchestratorProofs OrchestratorConfigs OrchestratorQueue OrchestratorKill PropsOrchestrator Daemon DaemonSpec DaemonProofs DaemonLive.

(** ** C80 *)

(** Every listed experiment is eventually done, and stays so. *)
Theorem C80_finishes : forall a run lab, fair_run a run lab -> reach a calm (run 0%nat) ->
  forall n e, List.In e (listed (sy_hist (run n))) ->
  (forall e' d, List.In e' (listed (sy_hist (run n))) -> (e' <= e)%nat -> nth_error (described (sy_hist (run n))) e' = Some d ->
     (0 < ds_clients d + ds_servers d)%nat /\ forall k, (needs k d <= machines k (sy_hist (run n)))%nat) ->
  exists m, (n <= m)%nat /\ forall m', (m <= m')%nat -> status (sy_orch (run m')) e = Some EDone.
Proof.
  intros a run lab F R n e He En. destruct (run_finishes a run lab F R e n He En) as (m & Lm & D). exists m. split; [exact Lm|]. intros m' L. exact (run_done a run lab F R e m m' L D).
Qed.

(** Without losses a daemon and the orchestrator agree about the daemon's job, and no job is dropped. *)
Definition daemon_job (d : dstate) : option job :=
  match d with DIdle => None | DConfig j => Some j | DRun oj => oj | DUpload oj _ => oj end.
Theorem C80_agree : forall a sy, reach a lossless sy ->
  length (sy_daemons sy) = length (registered (sy_hist sy)) /\ dropped (sy_hist sy) = [] /\
  forall w d, nth_error (sy_daemons sy) w = Some d -> d <> DRun None /\ doing w (sy_hist sy) = daemon_job d.
Proof.
  intros a sy R. destruct (reach_dinv _ _ _ (fun l H => H) R) as [D1 D2 D3 _ _ _ _]. split; [exact D1|]. split; [exact D3|]. intros w d Hd. specialize (D2 _ _ Hd).
  destruct d as [|j|[j|]|[j|] log]; cbn in D2; try contradiction; split; try discriminate; cbn; tauto.
Qed.
(** On every machine the processes started are those of the jobs given to it, once
    each and in order, except that the last may still wait for its configuration;
    and those that have ended are those started except the one that runs. *)
Theorem C80_once : forall a sy w, reach a lossless sy ->
  jobs_of w (given (sy_hist sy)) = jobs_of w (map fst (sy_starts sy)) ++ waiting (nth_error (sy_daemons sy) w) /\
  jobs_of w (map fst (sy_starts sy)) = jobs_of w (map fst (sy_ends sy)) ++ running (nth_error (sy_daemons sy) w).
Proof. intros a sy w R. pose proof (reach_dinv _ _ _ (fun l H => H) R) as D. split; [apply (d_given _ D)|apply (d_run _ D)]. Qed.
(** The configuration file of a DP-PIR process is a reply to a request for that very job; *)
Theorem C80_config : forall a sy w j conf, reach a lossless sy -> List.In (w, j, conf) (sy_starts sy) -> proper (sy_hist sy) w j conf.
Proof. intros a sy w j conf R Hin. exact (d_proper _ (reach_dinv _ _ _ (fun l H => H) R) _ _ _ Hin). Qed.
(** ... and it is never empty if the experiments are described as they should be. *)
Theorem C80_config_good : forall a sy w j bs, reach a lossless sy -> List.In (w, j, Some bs) (sy_starts sy) ->
  (forall d, List.In d (described (sy_hist sy)) -> ds_kind d = Dppir -> well_made d) ->
  (forall w' keys r, List.In (AskConfig w' keys, r) (sy_hist sy) -> forall i, length (fst (keys i)) = 32%nat /\ length (snd (keys i)) = 32%nat) ->
  (forall k ip, List.In (k, ip) (registered (sy_hist sy)) -> Forall (fun c => c <> 0) ip) ->
  exists keys h1 h2, sy_hist sy = h2 ++ (AskConfig w keys, RConfig bs) :: h1 /\ doing w h1 = Some j.
Proof.
  intros a sy w j bs R Hin Hd Hk Hi. destruct (C80_config _ _ _ _ _ R Hin) as (Ij & keys & r & h1 & h2 & E & D & Er). exists keys, h1, h2. destruct r; try contradiction; [subst bs; auto|exfalso].
  pose proof (reach_happens _ _ _ R) as H. rewrite E in H. destruct (happens_sub _ _ _ _ H) as (s1 & H1). destruct (happens_cons _ _ _ _ _ H1) as (s0 & H0 & Hs).
  destruct (i_job _ _ (happens_inv _ _ _ H0) _ _ D) as (x & y & _ & Hy & _ & Hok). pose proof (heap_described _ _ _ _ (happens_inv _ _ _ H0) Hy) as Hdy.
  assert (MD : forall l h d, List.In d (described h) -> List.In d (described (l ++ h))).
  { induction l as [|[ev r'] l IH]; intros h d X; [exact X|]. specialize (IH _ _ X). cbn [app]. destruct ev; cbn [described]; auto. apply in_or_app. auto. }
  assert (MR : forall l h d, List.In d (registered h) -> List.In d (registered (l ++ h))).
  { induction l as [|[ev r'] l IH]; intros h d X; [exact X|]. specialize (IH _ _ X). cbn [app]. destruct ev; cbn [registered]; auto. apply in_or_app. auto. }
  assert (Kd : ds_kind (ex_desc y) = Dppir) by (destruct j; try discriminate; apply Hok).
  assert (Wm : well_made (ex_desc y)). { apply Hd; [|exact Kd]. rewrite E. apply MD. apply (MD [(AskConfig w keys, REmpty)]). eapply nth_error_In, Hdy. }
  assert (Ks : forall i, length (fst (keys i)) = 32%nat /\ length (snd (keys i)) = 32%nat). { apply (Hk w keys REmpty). rewrite E. apply in_or_app. right. left. reflexivity. }
  assert (Is : forall k ip, List.In (k, ip) (registered h1) -> Forall (fun c => c <> 0) ip). { intros k ip X. apply (Hi k). rewrite E. apply MR. apply (MR [(AskConfig w keys, REmpty)]). exact X. }
  pose proof (C78_config_when _ _ _ _ _ _ _ _ _ H0 Hs D Hdy Wm Ks Is) as C. destruct (_ =? _)%nat; [destruct C as (b & C); discriminate|destruct C; discriminate].
Qed.
(** Every result stored is what the process of that job had written when it ended,
    with "Killed by Orchastrator!" appended if the orchestrator had it killed. *)
Theorem C80_truthful : forall a sy j name f log, reach a lossless sy -> List.In (j, (name, f, log)) (stored (sy_hist sy)) ->
  exists w text killed, List.In (w, j, (text, killed)) (sy_ends sy) /\ log = text ++ (if killed then killed_log else []).
Proof. intros a sy j name f log R Hin. exact (d_stored _ (reach_dinv _ _ _ (fun l H => H) R) _ _ _ _ Hin). Qed.

(** There are such executions: from every state, let the machines take turns. *)
Definition rr_label (sy : sys) (i : nat) : label :=
  let w := (i mod length (sy_daemons sy))%nat in
  match nth_error (sy_daemons sy) w with
  | Some (DRun _) => LExit w []
  | _ => LAsk w Fine (fun _ => (repeat 1 32, repeat 2 32)) []
  end.
Fixpoint rr (a : bool) (sy : sys) (i : nat) : sys :=
  match i with
  | O => sy
  | S i => let s := rr a sy i in match sy_step a s (rr_label s i) with Some sy' => sy' | None => s end
  end.
Lemma rr_step a sy : (0 < length (sy_daemons sy))%nat -> forall i, length (sy_daemons (rr a sy i)) = length (sy_daemons sy) /\ sy_step a (rr a sy i) (rr_label (rr a sy i) i) = Some (rr a sy (S i)).
Proof.
  intros P. assert (G : forall i, length (sy_daemons (rr a sy i)) = length (sy_daemons sy) -> exists sy', sy_step a (rr a sy i) (rr_label (rr a sy i) i) = Some sy' /\ length (sy_daemons sy') = length (sy_daemons sy)).
  { intros i L. unfold rr_label. set (w := (i mod length (sy_daemons (rr a sy i)))%nat). assert (Lw : (w < length (sy_daemons (rr a sy i)))%nat) by (apply Nat.mod_upper_bound; lia).
    destruct (nth_error (sy_daemons (rr a sy i)) w) as [d|] eqn:E; [|apply nth_error_None in E; lia].
    assert (A : exists sy', sy_step a (rr a sy i) (LAsk w Fine (fun _ => (repeat 1 32, repeat 2 32)) []) = Some sy' /\ length (sy_daemons sy') = length (sy_daemons sy)).
    { cbn [sy_step request]. rewrite E. destruct (handle _ _ _) as [s' r]. eexists. split; [reflexivity|]. cbn. rewrite update_length. exact L. }
    destruct d; try exact A. cbn [sy_step]. rewrite E. eexists. split; [reflexivity|]. cbn. rewrite update_length. exact L. }
  assert (N : forall i, length (sy_daemons (rr a sy i)) = length (sy_daemons sy)).
  { induction i as [|i IH]; [reflexivity|]. cbn [rr]. destruct (G i IH) as (sy' & E & L). rewrite E. exact L. }
  intros i. split; [apply N|]. destruct (G i (N i)) as (sy' & E & L). cbn [rr]. rewrite E. reflexivity.
Qed.
Theorem C80_fair_exists : forall a sy, (0 < length (sy_daemons sy))%nat -> exists run lab, run 0%nat = sy /\ fair_run a run lab.
Proof.
  intros a sy P. exists (rr a sy), (fun i => rr_label (rr a sy i) i). split; [reflexivity|].
  assert (W : forall i, who (rr_label (rr a sy i) i) = Some (i mod length (sy_daemons sy))%nat).
  { intros i. unfold rr_label. rewrite (proj1 (rr_step a sy P i)). destruct (nth_error _ _) as [[]|]; reflexivity. }
  assert (T : forall n w, (w < length (sy_daemons sy))%nat -> (n <= n * length (sy_daemons sy) + w)%nat /\ ((n * length (sy_daemons sy) + w) mod length (sy_daemons sy) = w)%nat).
  { intros n w L. split; [nia|]. rewrite Nat.add_comm, Nat.mod_add by lia. apply Nat.mod_small, L. }
  constructor.
  - intros i. apply rr_step, P.
  - intros i. unfold rr_label. destruct (nth_error _ _) as [[]|]; reflexivity.
  - intros n w L. rewrite (proj1 (rr_step a sy P n)) in L. destruct (T n w L) as [T1 T2]. eexists. split; [exact T1|]. rewrite W, T2. reflexivity.
  - intros n w j Hw _. assert (L : (w < length (sy_daemons sy))%nat) by (rewrite <- (proj1 (rr_step a sy P n)); apply nth_error_Some; congruence). destruct (T n w L) as [T1 T2].
    set (m := (n * length (sy_daemons sy) + w)%nat) in *.
    destruct (nth_error (sy_daemons (rr a sy m)) w) as [d|] eqn:E; [|exists m; split; [exact T1|rewrite E; discriminate]].
    destruct d as [|j'|oj|oj log]; try (exists m; split; [exact T1|rewrite E; discriminate]).
    exists (S m). split; [lia|]. destruct (rr_step a sy P m) as [Lm S1]. unfold rr_label in S1. rewrite Lm, T2, E in S1. cbn [sy_step] in S1. rewrite E in S1. assert (S2 := f_equal (fun o => match o with Some x => x | None => sy end) S1). cbv beta iota in S2.
    rewrite <- S2. cbn [move sy_daemons]. rewrite update_same, E. discriminate.
Qed.

(** ** C81 *)

(** The answer to "should I kill my process". *)
Theorem C81_told : forall a s h w x, happens a s h -> nth_error (registered h) w = Some x -> handle a s (ShouldKill w) = (s, RKill (told w h)).
Proof.
  intros a s h w x H Hx. pose proof (happens_inv _ _ _ H) as I. rewrite <- (i_workers _ _ I), nth_error_map in Hx. destruct (nth_error (or_workers s) w) as [y|] eqn:Hy; [|discriminate].
  cbn. rewrite Hy. pose proof (happens_flag _ _ _ H _ _ Hy) as F. rewrite F. unfold flag. destruct (doing w h) as [j|] eqn:D; [destruct (told w h); reflexivity|].
  assert (T : told w h = false) by (destruct h as [|[ev r] h']; [reflexivity|]; cbn [told]; rewrite D; reflexivity). rewrite T. reflexivity.
Qed.
(** "kill e" makes exactly those workers stop that have a job and have ever been given one of e. *)
Theorem C81_kill : forall a s h e s', happens a s h -> List.In e (listed h) -> handle a s (KillExperiment e) = (s', RNone) -> forall w,
  told w ((KillExperiment e, RNone) :: h) = true <->
  told w h = true \/ (doing w h <> None /\ exists j, List.In (w, j) (given h) /\ job_exp j = e).
Proof.
  intros a s h e s' H He Hs w. cbn [told doing marks]. destruct (doing w h) as [j|] eqn:D.
  - cbn [andb]. rewrite orb_true_iff. split.
    + intros [X|X]; [auto|]. right. split; [discriminate|]. apply existsb_exists in X as ([v j'] & Hin & X). apply andb_prop in X as [X1 X2]. cbn in X1, X2. apply Nat.eqb_eq in X1, X2. subst. eauto.
    + intros [X|(_ & j' & Hin & X)]; [auto|]. right. apply existsb_exists. exists (w, j'). split; [exact Hin|]. cbn. rewrite Nat.eqb_refl. now apply Nat.eqb_eq.
  - split; [discriminate|]. intros [X|(X & _)]; [|congruence]. destruct h as [|[ev r] h']; [discriminate|]. cbn [told] in X. rewrite D in X. discriminate.
Qed.

(** After "clear", an experiment that has not all its workers never gets them: it
    is never done, and who asks for its configuration waits for ever if servers are missing. *)
Theorem C81_clear : forall a s l r h e d k, happens a s (l ++ (ClearExperiments, r) :: h) -> nth_error (described h) e = Some d -> (taken k e h < needs k d)%nat ->
  taken k e (l ++ (ClearExperiments, r) :: h) = taken k e h /\ status s e <> Some EDone /\
  (k = Server -> forall w keys s' r' j, doing w (l ++ (ClearExperiments, r) :: h) = Some j -> job_exp j = e -> handle a s (AskConfig w keys) = (s', r') -> r' = RWait).
Proof.
  intros a s l r h e d k H Hd L.
  assert (G : forall l s, happens a s (l ++ (ClearExperiments, r) :: h) ->
    (forall e', List.In e' (listed (l ++ (ClearExperiments, r) :: h)) -> (length (described h) <= e')%nat) /\ taken k e (l ++ (ClearExperiments, r) :: h) = taken k e h /\
    nth_error (described (l ++ (ClearExperiments, r) :: h)) e = Some d /\ (length (described h) <= length (described (l ++ (ClearExperiments, r) :: h)))%nat).
  { clear H s l. induction l as [|[ev r0] l IH]; intros s H; [cbn; split; [contradiction|auto]|]. cbn [app] in *. destruct (happens_cons _ _ _ _ _ H) as (s0 & H0 & E). destruct (IH _ H0) as (I1 & I2 & I3 & I4).
    split; [|split; [|split; [exact (described_mono _ _ _ _ _ I3)|]]].
    - intros e' Hin. destruct ev as [| | | | |d0 []| |]; try (apply I1; exact Hin); [|contradiction]. cbn [listed] in Hin. apply in_app_or in Hin as [Hin|[<-|[]]]; auto.
    - destruct ev; try exact I2. destruct r0; try exact I2. unfold taken. cbn [given]. rewrite filter_app', app_length. fold (taken k e (l ++ (ClearExperiments, r) :: h)). rewrite I2. fold (taken k e h). cbn [filter].
      destruct (is_for k e (w, j)) eqn:F; [|cbn; unfold taken; lia]. exfalso. apply is_for_true in F as [F _]. pose proof (happens_inv _ _ _ H0) as I.
      destruct (nth_error (registered (l ++ (ClearExperiments, r) :: h)) w) as [[k' ip]|] eqn:Hr.
      + destruct (C78_order _ _ _ _ _ _ _ _ H0 Hr E) as [(j' & X & _ & Lj & _)|(X & _)]; [|discriminate]. inversion X; subst j'. specialize (I1 _ Lj).
        assert (e < length (described h))%nat by (apply nth_error_Some; congruence). lia.
      + rewrite <- (i_workers _ _ I), nth_error_map in Hr. cbn in E. destruct (nth_error (or_workers s0) w); [discriminate|]. discriminate.
    - destruct ev; cbn [described]; try exact I4. rewrite app_length. lia. }
  destruct (G l s H) as (_ & T & Hd' & _). split; [exact T|]. split.
  - intros D. pose proof (done_full _ _ _ _ _ k H Hd' D). lia.
  - intros -> w keys s' r' j Dj Ej E. destruct (ask_config _ _ _ _ _ _ _ _ (happens_inv _ _ _ H) E Dj) as (y & Hy & C). rewrite Ej in Hy.
    pose proof (heap_described _ _ _ _ (happens_inv _ _ _ H) Hy) as X. rewrite Hd' in X. inversion X; subst d. pose proof (members_taken _ _ _ _ Server (happens_inv _ _ _ H) Hy) as M. cbn [ex_members] in M.
    rewrite M, T in C. cbn [needs] in L. destruct (Nat.eqb_spec (ds_servers (ex_desc y)) (taken Server e h)); [lia|]. destruct C. assumption.
Qed.

(** "kill e" can stop a process of another experiment: the worker did e before. *)
Theorem C81_kill_other : exists s h w e j, happens false s h /\ doing w h = Some j /\ status s e = Some EDone /\ job_exp j <> e /\ told w h = false /\
  forall s' r, handle false s (KillExperiment e) = (s', r) -> snd (handle false s' (ShouldKill w)) = RKill true.
Proof.
  set (sp := fun t => {| ds_kind := Sealpir; ds_name := [t]; ds_mode := 0; ds_clients := 0; ds_servers := 0; ds_table := t; ds_parties := 0; ds_parallel := 0; ds_epsilon := 0; ds_delta := 0; ds_queries := 1 |}).
  set (evs := [Register Client [49]; NewExperiment (sp 1) true; NewExperiment (sp 2) true; Ping 0; ReportDone 0 [7]; Ping 0]).
  exists (fst (serve false or_start evs)), (rev (snd (serve false or_start evs))), 0%nat, 0%nat, (JSealpir 1 2 1). split.
  { rewrite <- (app_nil_r (rev _)). apply serve_happens. constructor. }
  vm_compute. repeat split; try reflexivity; try discriminate. intros s' r E. inversion E; subst. reflexivity.
Qed.

(** One lost reply is enough for an experiment to be shown as done although none of its processes was ever started. *)
Theorem C81_lost_reply : exists ls sy, sy_run false sy_start ls = Some sy /\ status (sy_orch sy) 0 = Some EDone /\ sy_starts sy = [] /\
  map snd (stored (sy_hist sy)) = [([1], FSealpir, invalid_log)] /\ length (filter (fun l => negb (lossless l)) ls) = 1%nat.
Proof.
  exists [LStart Client [49]; LNew {| ds_kind := Sealpir; ds_name := [1]; ds_mode := 0; ds_clients := 0; ds_servers := 0; ds_table := 5; ds_parties := 0; ds_parallel := 0; ds_epsilon := 0; ds_delta := 0; ds_queries := 1 |} true;
    LAsk 0 NoReply (fun _ => ([], [])) []; LExit 0 []; LAsk 0 Fine (fun _ => ([], [])) []]. eexists. split; [vm_compute; reflexivity|]. vm_compute. auto.
Qed.

(** ** Examples *)
Lemma sy_run_reach a ok : forall ls sy sy', reach a ok sy -> forallb ok ls = true -> sy_run a sy ls = Some sy' -> reach a ok sy'.
Proof.
  induction ls as [|l ls IH]; intros sy sy' R Ho E; cbn in *; [inversion E; subst; exact R|]. apply andb_prop in Ho as [O1 O2]. destruct (sy_step a sy l) as [s1|] eqn:E1; [|discriminate].
  eapply IH; [|exact O2|exact E]. exact (reach_step _ _ _ _ _ R O1 E1).
Qed.
Definition dp_desc : desc := dppir_desc [120] 1 100 2 1 40 5 6.
Definition ck_desc : desc := {| ds_kind := Checklist; ds_name := [121]; ds_mode := 3; ds_clients := 0; ds_servers := 0; ds_table := 9; ds_parties := 0; ds_parallel := 0; ds_epsilon := 0; ds_delta := 0; ds_queries := 4 |}.
Definition sy_ex : option sys := sy_run false sy_start [LStart Server [49]; LStart Client [50]; LNew ck_desc true; LStart Server [51]; LNew dp_desc true].
Example C80_example_reach : exists sy, sy_ex = Some sy /\ reach false calm sy /\ listed (sy_hist sy) = [0; 1]%nat /\ length (sy_daemons sy) = 3%nat /\
  (forall e d, nth_error (described (sy_hist sy)) e = Some d -> (0 < ds_clients d + ds_servers d)%nat /\ forall k, (needs k d <= machines k (sy_hist sy))%nat).
Proof.
  eexists. split; [vm_compute; reflexivity|]. split; [|split; [reflexivity|split; [reflexivity|]]].
  - refine (sy_run_reach false calm [LStart Server [49]; LStart Client [50]; LNew ck_desc true; LStart Server [51]; LNew dp_desc true] _ _ (reach_start _ _) eq_refl _). vm_compute; reflexivity.
  - intros [|[|e]] d H; cbn in H; inversion H; subst; [| |destruct e; discriminate]; (split; [cbn; lia|]); intros []; cbn; lia.
Qed.
(** the three machines take turns: after 60 steps everything is done *)
Example C80_example_run : match sy_ex with Some sy => status (sy_orch (rr false sy 60)) 0 = Some EDone /\ status (sy_orch (rr false sy 60)) 1 = Some EDone /\ length (stored (sy_hist (rr false sy 60))) = 6%nat /\
  length (sy_starts (rr false sy 60)) = 6%nat /\ length (filter (fun x => snd (snd x)) (sy_ends (rr false sy 60))) = 0%nat /\
  forallb (fun x => match snd x with Some bs => negb (length bs =? 0)%nat | None => negb (is_dppir (snd (fst x))) end) (sy_starts (rr false sy 60)) = true | None => False end.
Proof. vm_compute. repeat split. Qed.
Example C80_example_good : match sy_ex with Some sy => (forall d, List.In d (described (sy_hist sy)) -> ds_kind d = Dppir -> well_made d) /\ (forall k ip, List.In (k, ip) (registered (sy_hist sy)) -> Forall (fun c => c <> 0) ip) | None => False end.
Proof.
  cbn. split.
  - intros d [<-|[<-|[]]] K; [discriminate|]. unfold well_made. cbn. repeat split; lia.
  - intros k ip [X|[X|[X|[]]]]; inversion X; subst; repeat constructor; discriminate.
Qed.
Example C81_example_clear : exists d, nth_error (described (rev (snd (serve false or_start (ex_reg ++ ex_new ++ [Ping 0]))))) 0 = Some d /\
  (taken Server 0 (rev (snd (serve false or_start (ex_reg ++ ex_new ++ [Ping 0])))) < needs Server d)%nat.
Proof. eexists. split; [vm_compute; reflexivity|]. vm_compute. lia. Qed.

Print Assumptions C80_finishes.
Print Assumptions C80_agree.
Print Assumptions C80_once.
Print Assumptions C80_config.
Print Assumptions C80_config_good.
Print Assumptions C80_truthful.
Print Assumptions C80_fair_exists.
Print Assumptions C81_told.
Print Assumptions C81_kill.
Print Assumptions C81_clear.
Print Assumptions C81_kill_other.
Print Assumptions C81_lost_reply.
