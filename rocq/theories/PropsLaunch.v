(** C82: an experiment run by the orchestrator and the daemons is a deployment. *)
From Coq Require Import String Permutation.
From Verif Require Import Base Sizes BaseProofs Incremental Wire Onion Shuffle State Database NoiseFloat Config MainFlags Handlers Batch Party Chain Parallel ParChain
  Net Procs ParProcs Lts Spec ChainSpec ParSpec ParChainSpec ConfigSpec ConfigProofs ParServer AddressSpec Boot BootSpec BootProofs Toy PropsShuffle PropsNoise PropsConfig PropsChain PropsProc PropsParProc PropsBoot
  Orchestrator OrchestratorSpec OrchestratorProofs OrchestratorConfigs OrchestratorQueue PropsOrchestrator Daemon DaemonSpec DaemonProofs PropsDaemon Launch LaunchSpec LaunchProofs.
Local Open Scope Z_scope.
Local Open Scope list_scope.

(** Every process is started with the documented command line of its role. *)
Theorem C82_command : forall a sy e d modes stage offline online v j conf, reach a lossless sy ->
  nth_error (described (sy_hist sy)) e = Some d -> well_made d -> modes (ds_mode d) = stage -> stage_runs stage offline online -> 0 <= ds_queries d < 2 ^ 63 ->
  List.In (v, j, conf) (sy_starts sy) -> job_exp j = e ->
  exists k ip name, nth_error (registered (sy_hist sy)) v = Some (k, ip) /\ name <> ""%string /\
    (role_number (ds_parallel d) j < (ds_parties d + 1) * ds_parallel d)%nat /\
    launch k (job_text modes j) = Some (command name stage (fun _ => ds_queries d) (ds_parallel d) (role_number (ds_parallel d) j)).
Proof.
  intros a sy e d modes stage offline online v j conf R Hd W Hm Hs Hq Hin He. pose proof (reach_happens _ _ _ R) as H. pose proof (starts_given _ _ _ _ _ R Hin) as G.
  destruct (given_kind _ _ _ H _ _ G) as (ip & Er). exists (job_kind j), ip.
  assert (Sm : solid stage = true /\ stage <> ""%string) by (destruct Hs as [(-> & _)|[(-> & _)|(-> & _)]]; split; try reflexivity; discriminate).
  pose proof W as (_ & _ & _ & P1 & P2 & _). set (N := ds_parallel d) in *.
  assert (B32 : forall n, (n < 256)%nat -> int_flag 32 (number (Z.of_nat n)) = Some (Z.of_nat n)) by (intros n Ln; apply int_flag_number; cbn; lia).
  destruct (role_of _ _ _ _ _ _ _ H Hd W G He) as [(i & Hi & ->)|(i & Hi & ->)]; fold N in Hi; fold N in Er |- *.
  - exists ("config/client-" ++ number (Z.of_nat i) ++ ".txt")%string. split; [exact Er|]. split; [discriminate|]. split; [cbn [role_number]; nia|].
    cbn [job_kind]. unfold launch, job_text. rewrite words_concat by (repeat constructor; try apply number_solid; try (rewrite Hm; apply Sm); discriminate).
    cbn [nth String.eqb Ascii.eqb Bool.eqb]. rewrite B32 by lia. rewrite int_flag_number by (cbn; lia). unfold command. cbn [role_number]. rewrite Nat.div_small, Nat.mod_small by lia. rewrite Hm. reflexivity.
  - exists ("config/party-" ++ number (Z.of_nat (i / N)) ++ "-" ++ number (Z.of_nat (i mod N)) ++ ".txt")%string. split; [exact Er|]. split; [discriminate|].
    assert (L1 : (i / N < ds_parties d)%nat) by (apply Nat.div_lt_upper_bound; [lia|]; rewrite Nat.mul_comm; exact Hi). pose proof (Nat.mod_upper_bound i N ltac:(lia)) as L2.
    split; [cbn [role_number]; nia|].
    cbn [job_kind]. unfold launch, job_text. rewrite words_concat by (repeat constructor; try apply number_solid; try (rewrite Hm; apply Sm); discriminate).
    cbn [nth String.eqb Ascii.eqb Bool.eqb]. rewrite !B32 by lia. rewrite Hm. f_equal. symmetry. exact (role_number_command _ _ _ N e i ltac:(lia)).
Qed.

(** When all processes of an experiment have been started there is exactly one
    process for every role of the deployment. *)
Theorem C82_roles : forall a sy e d, reach a lossless sy -> nth_error (described (sy_hist sy)) e = Some d -> well_made d -> all_started e d sy ->
  Permutation (map (fun x => role_number (ds_parallel d) (snd x)) (processes e sy)) (seq 0 ((ds_parties d + 1) * ds_parallel d)).
Proof.
  intros a sy e d R Hd W (T & Nc). pose proof (reach_happens _ _ _ R) as H. pose proof W as (K & W1 & W2 & P1 & P2 & _).
  rewrite <- (Permutation_map (fun x => role_number (ds_parallel d) (snd x)) (processes_given _ _ _ R Nc)).
  rewrite (Permutation_map (fun x => role_number (ds_parallel d) (snd x)) (filter_kinds e (given (sy_hist sy)))).
  destruct (C78_roles _ _ _ _ _ H Hd K) as (_ & _ & R1 & R2). rewrite (T Server) in R1. rewrite (T Client) in R2. cbn [needs] in R1, R2. rewrite W1 in R1. rewrite W2 in R2.
  rewrite <- (map_map snd (role_number (ds_parallel d))), map_app, R1, R2, roles_seq by lia. reflexivity.
Qed.

(** All of them have the same configuration file, with the parameters of the
    experiment and, for each role, the address of the machine that runs it. *)
Theorem C82_file : forall a sy e d, reach a lossless sy -> nth_error (described (sy_hist sy)) e = Some d ->
  (forall d', List.In d' (described (sy_hist sy)) -> ds_kind d' = Dppir -> well_made d') -> sane (sy_hist sy) -> ds_kind d = Dppir -> all_started e d sy ->
  exists file, (forall v j conf, List.In (v, j, conf) (sy_starts sy) -> job_exp j = e -> conf = Some file) /\
  (ConfigSpec.fits file -> exists cfg, read_file a (Some file) = Ok cfg /\
     cg_parties_n cfg = Z.of_nat (ds_parties d) /\ cg_servers_n cfg = Z.of_nat (ds_parallel d) /\ cg_db cfg = ds_table d mod 2 ^ 32 /\
     cg_epsilon cfg = ds_epsilon d /\ cg_delta cfg = ds_delta d /\
     forall v p m mode conf, List.In (v, JParty e p m mode, conf) (sy_starts sy) ->
       exists ip, nth_error (registered (sy_hist sy)) v = Some (Server, ip) /\ host cfg (ds_parallel d) (role_number (ds_parallel d) (JParty e p m mode)) = Some ip).
Proof.
  intros a sy e d R Hd Wall (Hk & Hi) K As. pose proof (reach_happens _ _ _ R) as H. pose proof (Wall _ (nth_error_In _ _ Hd) K) as W. pose proof W as (_ & W1 & W2 & P1 & P2 & _).
  assert (Ask : forall v j conf, List.In (v, j, conf) (sy_starts sy) -> job_exp j = e ->
    exists bs keys h1 h2, conf = Some bs /\ sy_hist sy = h2 ++ (AskConfig v keys, RConfig bs) :: h1 /\ doing v h1 = Some j).
  { intros v j conf Hin He. pose proof (C80_config _ _ _ _ _ R Hin) as Pr. destruct conf as [bs|].
    - destruct (C80_config_good _ _ _ _ _ R Hin Wall Hk Hi) as (keys & h1 & h2 & E1 & E2). exists bs, keys, h1, h2. auto.
    - exfalso. cbn in Pr. destruct (role_of _ _ _ _ _ _ _ H Hd W (starts_given _ _ _ _ _ R Hin) He) as [(i & _ & ->)|(i & _ & ->)]; discriminate. }
  assert (Ex : exists v j conf, List.In (v, j, conf) (sy_starts sy) /\ job_exp j = e).
  { pose proof (C82_roles _ _ _ _ R Hd W As) as P. destruct (processes e sy) as [|[v j] l] eqn:E.
    - apply Permutation_length in P. rewrite seq_length in P. cbn in P. nia.
    - assert (X : List.In (v, j) (processes e sy)) by (rewrite E; left; reflexivity). unfold processes in X. apply filter_In in X as [X1 X2]. cbn in X2. apply Nat.eqb_eq in X2.
      apply in_map_iff in X1 as ([[v' j'] conf] & X1 & X3). cbn in X1. inversion X1; subst v' j'. eauto. }
  destruct Ex as (v0 & j0 & conf0 & Hin0 & He0). destruct (Ask _ _ _ Hin0 He0) as (bs & keys & h1 & h2 & -> & Eh & D0). exists bs.
  split.
  - intros v j conf Hin He. destruct (Ask _ _ _ Hin He) as (bs' & keys' & g1 & g2 & -> & Eg & D). f_equal.
    rewrite Eh in Eg. destruct (split_two _ _ _ _ _ _ Eg) as [(_ & X & _)|[(m & -> & ->)|(m & -> & ->)]].
    + inversion X. reflexivity.
    + rewrite Eh in H. rewrite <- app_assoc in H. cbn [app] in H. symmetry. exact (eq_sym (C78_same_config a _ _ _ _ _ _ _ _ _ _ _ _ H D0 D ltac:(congruence))).
    + rewrite Eh in H. pose proof H as H'. rewrite Eg in H'. rewrite <- app_assoc in H'. cbn [app] in H'. symmetry. exact (C78_same_config a _ _ _ _ _ _ _ _ _ _ _ _ H' D D0 ltac:(congruence)).
  - intros Fb. rewrite Eh in H. destruct (happens_sub _ _ _ _ H) as (s1 & H1). destruct (happens_cons _ _ _ _ _ H1) as (s0 & H0 & _).
    assert (Hd1 : nth_error (described h1) (job_exp j0) = Some d).
    { pose proof (happens_inv _ _ _ H0) as I0. destruct (i_job _ _ I0 _ _ D0) as (x & y & _ & Hy & _). pose proof (heap_described _ _ _ _ I0 Hy) as X.
      pose proof (described_app (h2 ++ [(AskConfig v0 keys, RConfig bs)]) _ _ _ X) as Y. rewrite <- app_assoc in Y. cbn [app] in Y. rewrite <- Eh, He0, Hd in Y. congruence. }
    destruct (C78_config a _ _ _ _ _ _ _ H1 D0 Hd1 W) as (T1 & c & Rc & F1 & F2 & F3 & F4 & F5 & F6).
    { intros w' keys' r X. apply (Hk w' keys' r). rewrite Eh. apply in_or_app. right. exact X. }
    { intros k ip X. apply In_nth_error in X as (n & X). apply (Hi k ip). rewrite Eh. apply (nth_error_In _ n). apply (registered_app h2 _). apply registered_mono. exact X. }
    { exact Fb. }
    exists c. do 6 (split; [assumption|]). intros v p m mode conf Hin. pose proof (starts_given _ _ _ _ _ R Hin) as G. rewrite He0 in *.
    assert (G1 : List.In (v, JParty e p m mode) (given h1)).
    { destruct As as (T & _). specialize (T Server). cbn [needs] in T. rewrite Eh in T, G. replace (h2 ++ (AskConfig v0 keys, RConfig bs) :: h1) with ((h2 ++ [(AskConfig v0 keys, RConfig bs)]) ++ h1) in * by (rewrite <- app_assoc; reflexivity).
      apply (given_all _ _ Server e _ (eq_trans T (eq_sym T1)) G). apply is_for_true. split; reflexivity. }
    destruct (F6 _ _ _ _ G1) as (pc & sv & N1 & N2 & N3). exists (sv_ip sv). split; [rewrite Eh; apply registered_app, registered_mono, N3|].
    destruct (role_of _ _ _ _ _ _ _ (reach_happens _ _ _ R) Hd W G eq_refl) as [(i & _ & X)|(i & Li & X)]; [discriminate|]. inversion X; subst p m mode. clear X.
    set (N := ds_parallel d) in *. pose proof (Nat.mod_upper_bound i N ltac:(lia)) as L. unfold host. cbn [role_number].
    replace ((S (i / N) * N + i mod N) / N)%nat with (S (i / N)) by (apply (Nat.div_unique _ N _ (i mod N)); nia).
    replace ((S (i / N) * N + i mod N) mod N)%nat with (i mod N)%nat by (apply (Nat.mod_unique _ N (S (i / N))); nia). rewrite N1, N2. reflexivity.
Qed.

(** So the processes of the experiment finish in every execution of the network,
    with the clients' answers: for one server per party ... *)
Theorem C82_one_server : forall sy e d modes b rng flog sampling iter junk stage offline online most en sr, reach true lossless sy ->
  nth_error (described (sy_hist sy)) e = Some d -> (forall d', List.In d' (described (sy_hist sy)) -> ds_kind d' = Dppir -> well_made d') -> sane (sy_hist sy) ->
  ds_kind d = Dppir -> all_started e d sy -> modes (ds_mode d) = stage -> ds_queries d < 2 ^ 63 -> ds_parallel d = 1%nat ->
  bytes 52 junk -> (forall p, smem_ok (sr_mem (sr p))) ->
  exists file, (forall v j conf, List.In (v, j, conf) (sy_starts sy) -> job_exp j = e -> conf = Some file) /\
  forall cfg name, ConfigSpec.fits file -> BootSpec.started b rng flog sampling file cfg name stage offline online (fun _ => ds_queries d) most en ->
  exists procs bound looked,
    (forall v j conf, List.In (v, j, conf) (sy_starts sy) -> job_exp j = e ->
       let p := role_number 1 j in
       exists k ip f r, nth_error (registered (sy_hist sy)) v = Some (k, ip) /\ launch k (job_text modes j) = Some f /\
         main_program b true rng flog sampling iter junk f conf (en p) (sr p) = Ok (Some r) /\ ru_program r = Serial (procs p)) /\
    Permutation (map (fun x => role_number 1 (snd x)) (processes e sy)) (seq 0 (ds_parties d + 1)) /\
    always_finishes procs bound (ds_parties d - 1) (if online then map row_of (BootSpec.asked cfg (en 0%nat) (ds_queries d)) else []) looked.
Proof.
  intros sy e d modes b rng flog sampling iter junk stage offline online most en sr R Hd Wall Sn K As Hm Hq HN J Hs.
  pose proof (Wall _ (nth_error_In _ _ Hd) K) as W. destruct (C82_file _ _ _ _ R Hd Wall Sn K As) as (file & F1 & F2). exists file. split; [exact F1|]. intros cfg name Fb St.
  destruct (F2 Fb) as (c & Rc & E1 & E2 & _). rewrite (st_file _ _ _ _ _ _ _ _ _ _ _ _ _ St) in Rc. inversion Rc; subst c. clear Rc. rewrite HN in E2.
  destruct (C66_one_server b rng flog sampling iter junk file cfg name stage offline online (fun _ => ds_queries d) most en sr St E2 J Hs) as (procs & bound & looked & G & A).
  rewrite E1, Nat2Z.id in G, A. exists procs, bound, looked. pose proof W as (_ & _ & _ & P1 & _). split; [|split; [|exact A]].
  - intros v j conf Hin He p. rewrite (F1 _ _ _ Hin He).
    destruct (C82_command _ _ _ _ modes stage offline online _ _ _ R Hd W Hm (st_stage _ _ _ _ _ _ _ _ _ _ _ _ _ St) (conj (st_queries _ _ _ _ _ _ _ _ _ _ _ _ _ St 0%nat) Hq) Hin He) as (k & ip & nm & X1 & X2 & X3 & X4).
    rewrite HN in *. fold p in X3, X4. destruct (G p ltac:(lia)) as (r & G1 & G2). eexists k, ip, _, r. split; [exact X1|]. split; [exact X4|]. split; [|exact G2].
    rewrite <- G1. apply main_name; [exact X2|exact (st_name _ _ _ _ _ _ _ _ _ _ _ _ _ St)].
  - pose proof (C82_roles _ _ _ _ R Hd W As) as P. rewrite HN, Nat.mul_1_r in P. exact P.
Qed.
(** ... and for several. *)
Theorem C82_several_servers : forall sy e d modes b rng flog sampling iter junk stage offline online most en sr, reach true lossless sy ->
  nth_error (described (sy_hist sy)) e = Some d -> (forall d', List.In d' (described (sy_hist sy)) -> ds_kind d' = Dppir -> well_made d') -> sane (sy_hist sy) ->
  ds_kind d = Dppir -> all_started e d sy -> modes (ds_mode d) = stage -> ds_queries d < 2 ^ 63 -> (1 < ds_parallel d)%nat ->
  bytes 52 junk -> (forall i l, Permutation (iter i l) l) -> (forall p, smem_ok (sr_mem (sr p)) /\ Permutation (sr_acc (sr p)) (seq 0 (p mod ds_parallel d))) ->
  exists file, (forall v j conf, List.In (v, j, conf) (sy_starts sy) -> job_exp j = e -> conf = Some file) /\
  forall cfg name, ConfigSpec.fits file -> BootSpec.started b rng flog sampling file cfg name stage offline online (fun _ => ds_queries d) most en ->
  exists procs bound looked,
    (forall v j conf, List.In (v, j, conf) (sy_starts sy) -> job_exp j = e ->
       let p := role_number (ds_parallel d) j in
       exists k ip f r, nth_error (registered (sy_hist sy)) v = Some (k, ip) /\ launch k (job_text modes j) = Some f /\
         main_program b true rng flog sampling iter junk f conf (en p) (sr p) = Ok (Some r) /\ ru_program r = Siblings (procs p)) /\
    Permutation (map (fun x => role_number (ds_parallel d) (snd x)) (processes e sy)) (seq 0 ((ds_parties d + 1) * ds_parallel d)) /\
    par_always_finishes (ds_parallel d) procs bound (ds_parties d - 1)
      (map (fun i => if online then map row_of (BootSpec.asked cfg (en i) (ds_queries d)) else []) (seq 0 (ds_parallel d))) looked.
Proof.
  intros sy e d modes b rng flog sampling iter junk stage offline online most en sr R Hd Wall Sn K As Hm Hq HN J Hit Hs.
  pose proof (Wall _ (nth_error_In _ _ Hd) K) as W. destruct (C82_file _ _ _ _ R Hd Wall Sn K As) as (file & F1 & F2). exists file. split; [exact F1|]. intros cfg name Fb St.
  destruct (F2 Fb) as (c & Rc & E1 & E2 & _). rewrite (st_file _ _ _ _ _ _ _ _ _ _ _ _ _ St) in Rc. inversion Rc; subst c. clear Rc.
  pose proof (C66_several_servers b rng flog sampling iter junk file cfg name stage offline online (fun _ => ds_queries d) most en sr St ltac:(lia) J Hit) as X.
  rewrite E1, E2, !Nat2Z.id in X. destruct (X Hs) as (procs & bound & looked & G & A). clear X.
  exists procs, bound, looked. pose proof W as (_ & _ & _ & P1 & _). split; [|split; [|exact A]].
  - intros v j conf Hin He p. rewrite (F1 _ _ _ Hin He).
    destruct (C82_command _ _ _ _ modes stage offline online _ _ _ R Hd W Hm (st_stage _ _ _ _ _ _ _ _ _ _ _ _ _ St) (conj (st_queries _ _ _ _ _ _ _ _ _ _ _ _ _ St 0%nat) Hq) Hin He) as (k & ip & nm & X1 & X2 & X3 & X4).
    fold p in X3, X4. destruct (G p ltac:(replace (ds_parties d - 1 + 2)%nat with (ds_parties d + 1)%nat by lia; exact X3)) as (r & G1 & G2). eexists k, ip, _, r. split; [exact X1|]. split; [exact X4|]. split; [|exact G2].
    rewrite <- G1. apply main_name; [exact X2|exact (st_name _ _ _ _ _ _ _ _ _ _ _ _ _ St)].
  - exact (C82_roles _ _ _ _ R Hd W As).
Qed.

(** An experiment with two parties, each with N = 1 or 2 servers, on 3 N machines
    (all of them this one), five rows and two queries per client. *)
Definition lx_keys (i : nat) : list Z * list Z := (repeat (Z.of_nat i) 32, repeat 1 32).
Definition lx_desc (N : nat) : desc := dppir_desc [120] 1 5 2 N (2 * Z.of_nat N) 4607182418800017408 4562146422526312448.
Definition lx_labels (N : nat) : list label :=
  map (fun i => LStart (if (i <? 2 * N)%nat then Server else Client) localhost) (seq 0 (3 * N)) ++ [LNew (lx_desc N) true] ++
  map (fun w => LAsk w Fine lx_keys []) (rev (seq 0 (3 * N))) ++ map (fun w => LAsk w Fine lx_keys []) (seq 0 (3 * N)).
Definition lx (N : nat) : sys := match sy_run true sy_start (lx_labels N) with Some sy => sy | None => sy_start end.
Definition lx_modes (m : Z) : string := if m =? 1 then "all" else "online".
Lemma run_keys a : forall ls sy sy', sy_run a sy ls = Some sy' -> Forall (fun l => match l with LAsk _ _ k _ => k = lx_keys | _ => True end) ls ->
  (forall w k r, List.In (AskConfig w k, r) (sy_hist sy) -> k = lx_keys) -> forall w k r, List.In (AskConfig w k, r) (sy_hist sy') -> k = lx_keys.
Proof.
  induction ls as [|l ls IH]; intros sy sy' E F H; cbn [sy_run] in E; [inversion E; subst; exact H|]. destruct (sy_step a sy l) as [sy1|] eqn:E1; [|discriminate].
  inversion F as [|? ? F1 F2]; subst. apply (IH _ _ E F2). clear IH E F2. intros w k r Hin.
  destruct l as [k0 ip|d add|e0| |w0 n keys text|w0 text]; cbn [sy_step] in E1.
  1-4: inversion E1; subst sy1; clear E1; unfold operator in Hin; match type of Hin with context[handle ?a ?s ?ev] => destruct (handle a s ev) end; destruct Hin as [Hin|Hin]; [discriminate|exact (H _ _ _ Hin)].
  - destruct (nth_error (sy_daemons sy) w0) as [d|]; [|discriminate]. destruct (request a n (sy_orch sy) (sy_hist sy) (next_request w0 keys d)) as [[s' h'] r'] eqn:Er. inversion E1; subst sy1. cbn [sy_hist move] in Hin.
    unfold request in Er. destruct n; try (destruct (handle a (sy_orch sy) (next_request w0 keys d)) eqn:Eh); inversion Er; subst; try exact (H _ _ _ Hin);
      (destruct Hin as [Hin|Hin]; [|exact (H _ _ _ Hin)]); destruct d; inversion Hin; subst; reflexivity.
  - destruct (nth_error (sy_daemons sy) w0) as [[]|]; inversion E1; subst sy1; exact (H _ _ _ Hin).
Qed.
Lemma lx_premises N : N = 1%nat \/ N = 2%nat ->
  reach true lossless (lx N) /\ described (sy_hist (lx N)) = [lx_desc N] /\ well_made (lx_desc N) /\ sane (sy_hist (lx N)) /\ all_started 0 (lx_desc N) (lx N) /\
  length (processes 0 (lx N)) = (3 * N)%nat /\ map snd (sy_starts (lx N)) = repeat (Some (bx_file (Z.of_nat N))) (3 * N) /\ stage_runs (lx_modes (ds_mode (lx_desc N))) true true /\
  ds_queries (lx_desc N) = 2.
Proof.
  intros HN.
  assert (E : sy_run true sy_start (lx_labels N) = Some (lx N)) by (destruct HN as [->| ->]; vm_compute; reflexivity).
  split; [apply (sy_run_reach true lossless (lx_labels N) sy_start); [constructor|destruct HN as [->| ->]; vm_compute; reflexivity|exact E]|].
  split; [destruct HN as [->| ->]; vm_compute; reflexivity|].
  split; [unfold well_made, u64, lx_desc, dppir_desc; cbn [ds_kind ds_servers ds_clients ds_parties ds_parallel ds_epsilon ds_delta]; repeat split; try reflexivity; lia|].
  split.
  { split.
    - intros w keys r Hin. assert (K : keys = lx_keys).
      { apply (run_keys true (lx_labels N) sy_start (lx N) E) with (w := w) (r := r); [|intros ? ? ? []|exact Hin].
        unfold lx_labels. repeat (apply Forall_app; split); try (apply Forall_forall; intros l Hl; apply in_map_iff in Hl as (? & <- & _); exact Logic.I || reflexivity). repeat constructor. }
      subst keys. intros i. split; apply repeat_length.
    - intros k ip Hin. assert (X : registered (sy_hist (lx N)) = map (fun i => (if (i <? 2 * N)%nat then Server else Client, localhost)) (seq 0 (3 * N))) by (destruct HN as [->| ->]; vm_compute; reflexivity).
      rewrite X in Hin. apply in_map_iff in Hin as (i & Y & _). inversion Y. repeat constructor; discriminate. }
  split.
  { split; [intros k; destruct k, HN as [->| ->]; vm_compute; reflexivity|]. intros v j Hv. exfalso.
    assert (X : forallb (fun d => match d with DConfig _ => false | _ => true end) (sy_daemons (lx N)) = true) by (destruct HN as [->| ->]; vm_compute; reflexivity).
    rewrite forallb_forall in X. specialize (X _ (nth_error_In _ _ Hv)). discriminate. }
  split; [destruct HN as [->| ->]; vm_compute; reflexivity|].
  split; [destruct HN as [->| ->]; vm_compute; reflexivity|].
  split; [right; right; repeat split|destruct HN as [->| ->]; vm_compute; reflexivity].
Qed.
Definition lx_sr (N p : nat) : surroundings := {| sr_mem := px_mem; sr_acc := seq 0 (p mod N); sr_stack := fun _ => [] |}.
Lemma px_mem_ok : smem_ok px_mem.
Proof. unfold smem_ok, px_mem. cbn [sm_link sm_w sm_r]. repeat split; intros; rewrite repeat_length; reflexivity. Qed.
Lemma lx_all N : N = 1%nat \/ N = 2%nat -> forall d', List.In d' (described (sy_hist (lx N))) -> ds_kind d' = Dppir -> well_made d'.
Proof. intros HN d' Hin _. destruct (lx_premises N HN) as (_ & E & W & _). rewrite E in Hin. destruct Hin as [<-|[]]. exact W. Qed.
Lemma lx_file N file : N = 1%nat \/ N = 2%nat -> (forall v j conf, List.In (v, j, conf) (sy_starts (lx N)) -> job_exp j = 0%nat -> conf = Some file) -> file = bx_file (Z.of_nat N).
Proof.
  intros HN H. destruct (lx_premises N HN) as (_ & _ & _ & _ & _ & L & E & _). unfold processes in L.
  destruct (sy_starts (lx N)) as [|[[v j] conf] l] eqn:Es; [cbn in L; lia|]. destruct (3 * N)%nat as [|n]; [cbn in L; discriminate|]. cbn [map snd repeat] in E. inversion E. subst conf.
  assert (X : job_exp j = 0%nat).
  { assert (Y : forallb (fun x => (job_exp (snd (fst x)) =? 0)%nat) (sy_starts (lx N)) = true) by (clear -HN; destruct HN as [->| ->]; vm_compute; reflexivity).
    rewrite Es in Y. cbn [forallb fst snd] in Y. apply andb_prop in Y as [Y _]. apply Nat.eqb_eq, Y. }
  specialize (H v j _ (or_introl eq_refl) X). congruence.
Qed.
Lemma lx_fits N : N = 1%nat \/ N = 2%nat -> ConfigSpec.fits (bx_file (Z.of_nat N)).
Proof. intros [->| ->]; vm_compute; reflexivity. Qed.
Example C82_example_one : exists procs bound looked,
  (forall v j conf, List.In (v, j, conf) (sy_starts (lx 1)) -> job_exp j = 0%nat ->
     exists k ip f r, nth_error (registered (sy_hist (lx 1))) v = Some (k, ip) /\ launch k (job_text lx_modes j) = Some f /\
       main_program toy_box true ex_rng ex_log false (fun _ l => l) (repeat 0 52) f conf (bx_entropy 1 (role_number 1 j)) (lx_sr 1 (role_number 1 j)) = Ok (Some r) /\
       ru_program r = Serial (procs (role_number 1 j))) /\
  always_finishes procs bound 1 (map row_of (BootSpec.asked (bx_cfg 1) (bx_entropy 1 0) 2)) looked.
Proof.
  pose proof (or_introl eq_refl : 1%nat = 1%nat \/ 1%nat = 2%nat) as HN. destruct (lx_premises 1 HN) as (R & Ed & W & Sn & As & _ & _ & _ & Q).
  destruct (C82_one_server (lx 1) 0 (lx_desc 1) lx_modes toy_box ex_rng ex_log false (fun _ l => l) (repeat 0 52) "all" true true 14 (bx_entropy 1) (lx_sr 1) R) as (file & F & G).
  - rewrite Ed. reflexivity.
  - exact (lx_all 1 HN).
  - exact Sn.
  - reflexivity.
  - exact As.
  - reflexivity.
  - rewrite Q. lia.
  - reflexivity.
  - split; [reflexivity|]. apply Forall_forall. intros x Hx. apply repeat_spec in Hx. subst x. split; [discriminate|reflexivity].
  - intros p. exact px_mem_ok.
  - rewrite (lx_file 1 file HN F) in *. destruct (G (bx_cfg 1) "config.txt"%string (lx_fits 1 HN)) as (procs & bound & looked & G1 & _ & G3).
    + rewrite Q. apply (bx_started 1 1); [left; reflexivity|reflexivity].
    + rewrite Q in G3. exists procs, bound, looked. split; [exact G1|exact G3].
Qed.
Example C82_example_several : exists procs bound looked,
  (forall v j conf, List.In (v, j, conf) (sy_starts (lx 2)) -> job_exp j = 0%nat ->
     exists k ip f r, nth_error (registered (sy_hist (lx 2))) v = Some (k, ip) /\ launch k (job_text lx_modes j) = Some f /\
       main_program toy_box true ex_rng ex_log false (fun _ l => l) (repeat 0 52) f conf (bx_entropy 2 (role_number 2 j)) (lx_sr 2 (role_number 2 j)) = Ok (Some r) /\
       ru_program r = Siblings (procs (role_number 2 j))) /\
  par_always_finishes 2 procs bound 1 (map (fun i => map row_of (BootSpec.asked (bx_cfg 2) (bx_entropy 2 i) 2)) (seq 0 2)) looked.
Proof.
  pose proof (or_intror eq_refl : 2%nat = 1%nat \/ 2%nat = 2%nat) as HN. destruct (lx_premises 2 HN) as (R & Ed & W & Sn & As & _ & _ & _ & Q).
  destruct (C82_several_servers (lx 2) 0 (lx_desc 2) lx_modes toy_box ex_rng ex_log false (fun _ l => l) (repeat 0 52) "all" true true 14 (bx_entropy 2) (lx_sr 2) R) as (file & F & G).
  - rewrite Ed. reflexivity.
  - exact (lx_all 2 HN).
  - exact Sn.
  - reflexivity.
  - exact As.
  - reflexivity.
  - rewrite Q. lia.
  - cbn. lia.
  - split; [reflexivity|]. apply Forall_forall. intros x Hx. apply repeat_spec in Hx. subst x. split; [discriminate|reflexivity].
  - intros i l. reflexivity.
  - intros p. split; [exact px_mem_ok|reflexivity].
  - rewrite (lx_file 2 file HN F) in *. destruct (G (bx_cfg 2) "config.txt"%string (lx_fits 2 HN)) as (procs & bound & looked & G1 & _ & G3).
    + rewrite Q. apply (bx_started 2 2); [right; reflexivity|reflexivity].
    + rewrite Q in G3. exists procs, bound, looked. split; [exact G1|exact G3].
Qed.

Print Assumptions C82_command.
Print Assumptions C82_roles.
Print Assumptions C82_file.
Print Assumptions C82_one_server.
Print Assumptions C82_several_servers.
