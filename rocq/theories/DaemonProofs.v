(** Proofs about the daemons. *)
From Coq Require Import Permutation.
From Verif Require Import Base Config Orchestrator OrchestratorSpec OrchestratorProofs OrchestratorConfigs OrchestratorQueue OrchestratorKill PropsOrchestrator Daemon DaemonSpec.

(** ** Histories *)
Lemma described_mono e d ev r h : nth_error (described h) e = Some d -> nth_error (described ((ev, r) :: h)) e = Some d.
Proof. intros H. destruct ev; try exact H. cbn [described]. rewrite nth_error_app1; [exact H|]. apply nth_error_Some. congruence. Qed.
Lemma registered_mono w x ev r h : nth_error (registered h) w = Some x -> nth_error (registered ((ev, r) :: h)) w = Some x.
Proof. intros H. destruct ev; try exact H. cbn [registered]. rewrite nth_error_app1; [exact H|]. apply nth_error_Some. congruence. Qed.
Lemma machines_mono k ev r h : (machines k h <= machines k ((ev, r) :: h))%nat.
Proof. destruct ev; try reflexivity. unfold machines. cbn [registered]. rewrite filter_app', app_length. lia. Qed.
Lemma taken_mono k e ev r h : (taken k e h <= taken k e ((ev, r) :: h))%nat.
Proof. destruct ev; try reflexivity. destruct r; try reflexivity. unfold taken. cbn [given]. rewrite filter_app', app_length. lia. Qed.
Lemma given_mono x ev r h : List.In x (given h) -> List.In x (given ((ev, r) :: h)).
Proof. destruct ev; try tauto. destruct r; try tauto. cbn [given]. intros. apply in_or_app. auto. Qed.
Lemma listed_mono e ev r h : ev <> ClearExperiments -> List.In e (listed h) -> List.In e (listed ((ev, r) :: h)).
Proof. intros N. destruct ev as [| | | | |? []| |]; try tauto; try (cbn [listed]; intros; apply in_or_app; auto; fail); congruence. Qed.
Lemma reported_mono k e ev r h : (length (of_exp k e (reported h)) <= length (of_exp k e (reported ((ev, r) :: h))))%nat.
Proof. destruct ev; try reflexivity. destruct r; try reflexivity. cbn [reported]. unfold of_exp. rewrite filter_app', app_length. lia. Qed.
Lemma doing_given a s h w j : happens a s h -> doing w h = Some j -> List.In (w, j) (given h).
Proof.
  intros H D. pose proof (happens_inv _ _ _ H) as I. pose proof (in_current _ _ _ _ I D) as C. eapply Permutation_in; [symmetry; exact (i_account _ _ I)|].
  apply in_or_app. right. apply in_or_app. right. exact C.
Qed.
Lemma reported_le a s h e d k : happens a s h -> nth_error (described h) e = Some d ->
  (length (of_exp k e (reported h)) <= taken k e h)%nat /\ (taken k e h <= needs k d)%nat.
Proof.
  intros H Hd. pose proof (happens_inv _ _ _ H) as I. pose proof (account_counts _ _ k e I) as A. unfold taken. change (filter (is_for k e) (given h)) with (of_exp k e (given h)).
  split; [lia|]. destruct (described_heap _ _ _ _ I Hd) as (y & Hy & <-). pose proof (e_room _ _ _ (i_exp _ _ I _ _ Hy) k) as R. rewrite (members_taken _ _ _ _ k I Hy) in R. exact R.
Qed.
Lemma done_stays a s h ev s' r e : happens a s h -> handle a s ev = (s', r) -> status s e = Some EDone -> status s' e = Some EDone.
Proof.
  intros H Hs D. pose proof (happens_inv _ _ _ H) as I.
  assert (exists d, nth_error (described h) e = Some d) as (d & Hd).
  { unfold status in D. destruct (nth_error (or_heap s) e) as [y|] eqn:Hy; [|discriminate]. eexists. exact (heap_described _ _ _ _ I Hy). }
  destruct (proj1 (C79_done _ _ _ _ _ H Hd) D) as (D1 & D2 & D3). pose proof (happens_next _ _ _ _ _ _ H Hs) as H'. pose proof (described_mono _ _ ev r _ Hd) as Hd'.
  apply (C79_done _ _ _ _ _ H' Hd'). destruct (reported_le _ _ _ _ _ Client H' Hd') as [A1 A2]. destruct (reported_le _ _ _ _ _ Server H' Hd') as [B1 B2]. cbn [needs] in *.
  pose proof (reported_mono Client e ev r h) as M1. pose proof (reported_mono Server e ev r h) as M2. unfold of_exp in *. lia.
Qed.
Lemma done_full a s h e d k : happens a s h -> nth_error (described h) e = Some d -> status s e = Some EDone -> taken k e h = needs k d.
Proof. intros H Hd D. apply (done_clean _ _ _ _ _ H Hd D). Qed.
Lemma full_room k h e d : nth_error (described h) e = Some d -> taken k e h = needs k d -> has_room k h e = false.
Proof. intros H E. unfold has_room. rewrite H, E. apply Nat.ltb_irrefl. Qed.
Lemma room_full a s h k e d : happens a s h -> nth_error (described h) e = Some d -> has_room k h e = false -> taken k e h = needs k d.
Proof. intros H Hd R. unfold has_room in R. rewrite Hd in R. apply Nat.ltb_ge in R. destruct (reported_le _ _ _ _ _ k H Hd). lia. Qed.
Lemma room_some k h e : has_room k h e = true -> exists d, nth_error (described h) e = Some d /\ (taken k e h < needs k d)%nat.
Proof. unfold has_room. destruct (nth_error (described h) e) as [d|]; [|discriminate]. intros H. apply Nat.ltb_lt in H. eauto. Qed.

(** Without "clear", experiments are given workers of a kind one after the other. *)
Definition unclear (h : hist) : Prop := forall r, ~ List.In (ClearExperiments, r) h.
Lemma order_inv a s h : happens a s h -> unclear h ->
  (forall w j, List.In (w, j) (given h) -> List.In (job_exp j) (listed h)) /\
  (forall k e e', List.In e (listed h) -> has_room k h e = true -> (e < e')%nat -> taken k e' h = 0%nat).
Proof.
  induction 1 as [|s h ev s' r Hh IH H]; intros U; [split; [contradiction|contradiction]|].
  destruct IH as [IH1 IH2]; [intros r' X; apply (U r'); right; exact X|]. assert (NC : ev <> ClearExperiments) by (intros ->; apply (U r); left; reflexivity).
  pose proof (happens_q _ _ _ Hh) as [_ _ QB _].
  assert (Q : (exists w j, ev = Ping w /\ r = RJob j) \/ (given ((ev, r) :: h) = given h)).
  { destruct ev; auto. destruct r; auto. left. eauto. }
  destruct Q as [(w & j & -> & ->)|G].
  - destruct (nth_error (or_workers s) w) as [x|] eqn:Hx; [|cbn in H; rewrite Hx in H; discriminate].
    assert (Hr : nth_error (registered h) w = Some (wk_kind x, wk_ip x)) by (rewrite <- (i_workers _ _ (happens_inv _ _ _ Hh)); exact (map_nth_error (fun w0 => (wk_kind w0, wk_ip w0)) _ _ Hx)).
    destruct (C78_order _ _ _ _ _ _ _ _ Hh Hr H) as [(j' & E & Hk & Hl & Hrm & _ & Hlt)|(E & _)]; [|discriminate]. inversion E; subst j'. clear E. split.
    + intros v j1 Hin. cbn [given] in Hin. apply in_app_or in Hin as [Hin|[Hin|[]]]; [exact (IH1 _ _ Hin)|]. inversion Hin; subst. exact Hl.
    + intros k e e' He Rm L. cbn [listed] in He.
      assert (Rm0 : has_room k h e = true).
      { destruct (room_some _ _ _ Rm) as (d & Hd & Lt). unfold has_room. cbn [described] in Hd. rewrite Hd. apply Nat.ltb_lt. pose proof (taken_mono k e (Ping w) (RJob j) h). lia. }
      unfold taken. cbn [given]. rewrite filter_app', app_length. fold (taken k e' h). rewrite (IH2 k e e' He Rm0 L). cbn [filter].
      destruct (is_for k e' (w, j)) eqn:F; [|reflexivity]. apply is_for_true in F as [F1 F2]. exfalso. rewrite <- Hk in Hlt. rewrite F2 in Hlt. rewrite (Hlt e He) in Rm0; [discriminate|lia].
  - assert (T : forall k e, taken k e ((ev, r) :: h) = taken k e h) by (intros k e; unfold taken; rewrite G; reflexivity).
    split; [rewrite G; intros w j Hin; exact (listed_mono _ _ _ _ NC (IH1 _ _ Hin))|].
    intros k e e' He Rm L. rewrite T. 
    assert (E : List.In e (listed h) \/ e = length (described h)).
    { destruct ev as [| | | | |d0 []| |]; auto; [|congruence]. cbn [listed] in He. apply in_app_or in He as [He|[He|[]]]; auto. }
    destruct E as [E| ->].
    + apply (IH2 k e e' E); [|exact L]. destruct (room_some _ _ _ Rm) as (d & Hd & Lt). rewrite T in Lt. specialize (QB e E). destruct (nth_error (described h) e) as [d'|] eqn:Hd'.
      * rewrite (described_mono _ _ ev r _ Hd') in Hd. inversion Hd; subst d'. unfold has_room. rewrite Hd'. now apply Nat.ltb_lt.
      * apply nth_error_None in Hd'. lia.
    + unfold taken. change (filter (is_for k e') (given h)) with (of_exp k e' (given h)). rewrite (no_given _ _ _ k (happens_inv _ _ _ Hh)); [reflexivity|].
      rewrite <- (described_length _ _ (happens_inv _ _ _ Hh)). lia.
Qed.

(** The servers of a checklist experiment are told when the client is done. *)
Lemma told_stays w ev r h : acts ev r <> Some w -> told w h = true -> doing w h <> None -> told w ((ev, r) :: h) = true.
Proof.
  intros A T D. pose proof (flag_other w ev r h A) as F. unfold flag in F. rewrite doing_other, T in F by assumption. destruct (doing w h) as [j|]; [|congruence].
  destruct (told w ((ev, r) :: h)); [reflexivity|]. destruct (marks _ _ _ _); discriminate.
Qed.
Lemma check_told a s h : happens a s h -> forall v j, doing v h = Some j -> (match j with JCheckServer _ _ _ _ _ => True | _ => False end) ->
  (0 < length (of_exp Client (job_exp j) (reported h)))%nat -> told v h = true.
Proof.
  induction 1 as [|s h ev s' r Hh IH H]; intros v j D K L; [discriminate|].
  pose proof (happens_next _ _ _ _ _ _ Hh H) as Hn. pose proof (happens_inv _ _ _ Hh) as I.
  assert (AD : acts ev r = Some v \/ acts ev r <> Some v) by (destruct (acts ev r) as [u|]; [destruct (Nat.eq_dec u v); [left|right]; congruence|right; discriminate]).
  destruct AD as [A|A].
  - exfalso. destruct ev as [| u | | | u res | | |]; try discriminate; destruct r; try discriminate; inversion A; subst u; cbn [doing] in D; rewrite Nat.eqb_refl in D; try discriminate. inversion D; subst j0.
    cbn [reported] in L. pose proof (happens_inv _ _ _ Hn) as I'.
    assert (D' : doing v ((Ping v, RJob j) :: h) = Some j) by (cbn; now rewrite Nat.eqb_refl). destruct (i_job _ _ I' _ _ D') as (x & y & Hx & Hy & Hk & Hok).
    destruct j; try contradiction. cbn [job_exp job_kind] in *. destruct Hok as (Kd & _).
    destruct (nth_error (or_heap s) e) as [y0|] eqn:Hy0.
    + assert (Ed : ex_desc y0 = ex_desc y) by (pose proof (heap_described _ _ _ _ I Hy0) as X; pose proof (heap_described _ _ _ _ I' Hy) as Y; cbn [described] in Y; congruence).
      pose proof (i_exp _ _ I _ _ Hy0) as E. pose proof (e_fin _ _ _ E Client) as F. pose proof (fin_le _ _ _ _ Client I Hy0) as F2. cbn [ex_fin ex_members] in F, F2.
      pose proof (e_check _ _ _ E ltac:(congruence) ltac:(lia)) as Fu.
      pose proof (e_room _ _ _ (i_exp _ _ I' _ _ Hy) Server) as R. rewrite (members_taken _ _ _ _ Server I' Hy) in R. unfold taken in R. cbn [given needs] in R. rewrite filter_app', app_length in R.
      cbn [filter] in R. assert (is_for Server e (v, JCheckServer e w table port pirtype) = true) as X by (apply is_for_true; split; reflexivity). rewrite X in R. cbn [length] in R.
      fold (taken Server e h) in R. rewrite <- (members_taken _ _ _ _ Server I Hy0) in R. cbn [ex_members] in R. rewrite Fu, Ed in R. lia.
    + apply nth_error_None in Hy0. rewrite (no_reported _ _ _ Client I Hy0) in L. cbn in L. lia.
  - rewrite doing_other in D by assumption. destruct (Nat.eq_dec (length (of_exp Client (job_exp j) (reported h))) 0) as [Z|Z].
    2:{ apply told_stays; [assumption|apply (IH _ _ D K); lia|congruence]. }
    destruct ev as [| u | | | u res | | |]; try (cbn [reported] in L; lia). destruct r; try (cbn [reported] in L; lia). cbn [reported] in L. unfold of_exp in L, Z. rewrite filter_app', app_length, Z in L.
    unfold with_job in L. destruct (doing u h) as [jc|] eqn:Dc; [|cbn in L; lia]. cbn [filter] in L. destruct (is_for Client (job_exp j) (u, jc)) eqn:F; [|cbn in L; lia].
    apply is_for_true in F as [F1 F2]. destruct (i_job _ _ I _ _ D) as (x & y & Hx & Hy & Hk & Hok). destruct (i_job _ _ I _ _ Dc) as (x' & y' & Hx' & Hy' & Hk' & Hok').
    rewrite F1, Hy in Hy'. inversion Hy'; subst y'. destruct j; try contradiction. cbn [job_exp job_kind] in *. destruct Hok as (Kd & _).
    destruct jc; try discriminate; try (destruct Hok' as (Kd' & _); congruence). cbn [job_exp] in *. subst e0.
    pose proof (flag_other v (ReportDone u res) (RStored name f result) h A) as Fl. unfold flag in Fl. rewrite doing_other, D in Fl by assumption.
    assert (M : marks (ReportDone u res) (RStored name f result) h v = true).
    { cbn [marks]. rewrite Dc. apply existsb_exists. exists (v, JCheckServer e w table port pirtype). split; [exact (doing_given _ _ _ _ _ Hh D)|]. cbn [fst]. rewrite Nat.eqb_refl. cbn [andb].
      apply is_for_true. split; reflexivity. }
    rewrite M in Fl. destruct (told v ((ReportDone u res, RStored name f result) :: h)); [reflexivity|]. destruct (told v h); discriminate.
Qed.

(** ** Daemons *)
Lemma operator_happens a sy ev : happens a (sy_orch sy) (sy_hist sy) -> happens a (sy_orch (operator a sy ev)) (sy_hist (operator a sy ev)).
Proof. intros H. unfold operator. destruct (handle a (sy_orch sy) ev) eqn:E. cbn. econstructor; eauto. Qed.
Lemma step_happens a sy l sy' : happens a (sy_orch sy) (sy_hist sy) -> sy_step a sy l = Some sy' -> happens a (sy_orch sy') (sy_hist sy').
Proof.
  intros H S1. destruct l; cbn [sy_step] in S1; try (inversion S1; subst; apply operator_happens; exact H).
  - destruct (nth_error (sy_daemons sy) w) as [d|]; [|discriminate]. destruct (request _ _ _ _ _) as [[s' h'] r] eqn:R. inversion S1; subst. cbn.
    unfold request in R. destruct n; [destruct (handle _ _ _) eqn:E| |destruct (handle _ _ _) eqn:E]; inversion R; subst; auto; econstructor; eauto.
  - destruct (nth_error (sy_daemons sy) w) as [[]|]; try discriminate. inversion S1; subst. exact H.
Qed.
Theorem reach_happens a ok sy : reach a ok sy -> happens a (sy_orch sy) (sy_hist sy).
Proof. induction 1; [constructor|]. eapply step_happens; eauto. Qed.

(** What a daemon knows. *)
Definition knows (w : nat) (h : hist) (ends : list (nat * job * (list Z * bool))) (d : dstate) : Prop :=
  match d with
  | DIdle => doing w h = None
  | DConfig j => doing w h = Some j /\ is_dppir j = true
  | DRun (Some j) => doing w h = Some j
  | DUpload (Some j) log => doing w h = Some j /\ exists text b, List.In (w, j, (text, b)) ends /\ log = text ++ (if b then killed_log else [])
  | _ => False
  end.
Record dinv (sy : sys) : Prop := {
  d_length : length (sy_daemons sy) = length (registered (sy_hist sy));
  d_knows : forall w d, nth_error (sy_daemons sy) w = Some d -> knows w (sy_hist sy) (sy_ends sy) d;
  d_dropped : dropped (sy_hist sy) = [];
  d_stored : forall j name f log, List.In (j, (name, f, log)) (stored (sy_hist sy)) ->
    exists w text b, List.In (w, j, (text, b)) (sy_ends sy) /\ log = text ++ (if b then killed_log else []);
  d_given : forall w, jobs_of w (given (sy_hist sy)) = jobs_of w (map fst (sy_starts sy)) ++ waiting (nth_error (sy_daemons sy) w);
  d_run : forall w, jobs_of w (map fst (sy_starts sy)) = jobs_of w (map fst (sy_ends sy)) ++ running (nth_error (sy_daemons sy) w);
  d_proper : forall w j conf, List.In (w, j, conf) (sy_starts sy) -> proper (sy_hist sy) w j conf
}.
Lemma knows_ends w h ends ends' d : (forall x, List.In x ends -> List.In x ends') -> knows w h ends d -> knows w h ends' d.
Proof. intros H. destruct d as [| |[]|[]]; cbn; auto. intros (D & text & b & Hin & E). split; [exact D|]. exists text, b. auto. Qed.
Lemma knows_other w ev r h ends d : acts ev r <> Some w -> knows w h ends d -> knows w ((ev, r) :: h) ends d.
Proof. intros A. unfold knows. rewrite doing_other by assumption. auto. Qed.
Lemma operator_quiet a s ev s' r : handle a s ev = (s', r) -> (match ev with Register _ _ | NewExperiment _ _ | KillExperiment _ | ClearExperiments => True | _ => False end) -> acts ev r = None.
Proof. intros H K. destruct ev; try contradiction; destruct r; reflexivity. Qed.
Lemma proper_more x h w j conf : proper h w j conf -> proper (x :: h) w j conf.
Proof. destruct conf as [bs|]; cbn; auto. intros (K & keys & r & h1 & h2 & -> & D). split; [exact K|]. exists keys, r, h1, (x :: h2). auto. Qed.
Lemma jobs_of_app w l l' : jobs_of w (l ++ l') = jobs_of w l ++ jobs_of w l'.
Proof. unfold jobs_of. rewrite filter_app', map_app. reflexivity. Qed.
Lemma nobody_given a s h w : happens a s h -> (length (registered h) <= w)%nat -> jobs_of w (given h) = [].
Proof.
  intros H L. unfold jobs_of. replace (filter (fun x => (fst x =? w)%nat) (given h)) with (@nil (nat * job)); [reflexivity|]. symmetry.
  assert (G : forall x, List.In x (given h) -> (fst x =? w)%nat = false). { intros [v j] Hin. cbn. apply Nat.eqb_neq. intros ->. destruct (given_registered _ _ _ _ _ H Hin) as (y & Hy). assert (w < length (registered h))%nat by (apply nth_error_Some; congruence). lia. }
  induction (given h) as [|x l IH]; [reflexivity|]. cbn. rewrite (G x) by (left; reflexivity). apply IH. intros y Hy. apply G. right. exact Hy.
Qed.
Lemma dinv_operator a sy ev : happens a (sy_orch sy) (sy_hist sy) -> dinv sy -> (match ev with Register _ _ | NewExperiment _ _ | KillExperiment _ | ClearExperiments => True | _ => False end) -> dinv (operator a sy ev).
Proof.
  intros H [D1 D2 D3 D4 D5 D6 D7] K. unfold operator. destruct (handle a (sy_orch sy) ev) as [s' r] eqn:E. pose proof (operator_quiet _ _ _ _ _ E K) as A.
  assert (G : given ((ev, r) :: sy_hist sy) = given (sy_hist sy)) by (destruct ev; try contradiction; reflexivity).
  assert (SS : stored ((ev, r) :: sy_hist sy) = stored (sy_hist sy)) by (destruct ev; try contradiction; reflexivity).
  assert (DD : dropped ((ev, r) :: sy_hist sy) = dropped (sy_hist sy)) by (destruct ev; try contradiction; reflexivity).
  assert (NW : forall w, waiting (nth_error (match ev with Register _ _ => sy_daemons sy ++ [DIdle] | _ => sy_daemons sy end) w) = waiting (nth_error (sy_daemons sy) w) /\
    running (nth_error (match ev with Register _ _ => sy_daemons sy ++ [DIdle] | _ => sy_daemons sy end) w) = running (nth_error (sy_daemons sy) w)).
  { intros w. destruct ev; auto. destruct (Nat.lt_ge_cases w (length (sy_daemons sy))) as [L|L]; [rewrite nth_error_app1 by assumption; auto|].
    rewrite nth_error_app2 by assumption. replace (nth_error (sy_daemons sy) w) with (@None dstate) by (symmetry; apply nth_error_None; exact L).
    destruct (w - length (sy_daemons sy))%nat as [|[|]]; cbn; auto. }
  constructor; cbn [sy_orch sy_hist sy_daemons sy_ends sy_starts].
  - destruct ev; try contradiction; cbn [registered]; auto. rewrite !app_length. cbn. lia.
  - intros w d Hd. apply knows_other; [congruence|]. destruct ev; try contradiction; auto. destruct (Nat.lt_ge_cases w (length (sy_daemons sy))) as [L|L].
    + rewrite nth_error_app1 in Hd by assumption. auto.
    + rewrite nth_error_app2 in Hd by assumption. pose proof (happens_inv _ _ _ H) as I. destruct (w - length (sy_daemons sy))%nat as [|[|]]; cbn in Hd; inversion Hd; subst.
      cbn. apply (inv_nobody _ _ _ I). rewrite <- (inv_registered _ _ I), <- D1. exact L.
  - congruence.
  - rewrite SS. exact D4.
  - intros w. rewrite G, (proj1 (NW w)). apply D5.
  - intros w. rewrite (proj2 (NW w)). apply D6.
  - intros w j conf Hin. apply proper_more, D7, Hin.
Qed.
Lemma knows_update w d' h h' ends ends' l : (forall v d, nth_error l v = Some d -> knows v h ends d) -> (forall x, List.In x ends -> List.In x ends') ->
  (forall v, v <> w -> doing v h' = doing v h) -> (nth_error l w <> None -> knows w h' ends' d') ->
  forall v d, nth_error (update w (fun _ => d') l) v = Some d -> knows v h' ends' d.
Proof.
  intros K E O N v d Hv. rewrite update_nth in Hv. destruct (Nat.eqb_spec w v) as [<-|Nv].
  - destruct (nth_error l w); [|discriminate]. inversion Hv; subst. apply N. discriminate.
  - apply (knows_ends _ _ ends); [assumption|]. specialize (K _ _ Hv). unfold knows. rewrite (O v) by congruence. exact K.
Qed.
(** The jobs of the machines after a step of machine w. *)
Definition same_given (h h' : hist) (w : nat) (l : list job) : Prop := forall v, jobs_of v (given h') = jobs_of v (given h) ++ (if (v =? w)%nat then l else []).
Lemma jobs_move w d d' r text b s h sy : nth_error (sy_daemons sy) w = Some d -> forall l, same_given (sy_hist sy) h w l ->
  jobs_of w (map fst (started w d d' r)) ++ waiting (Some d') = waiting (Some d) ++ l ->
  jobs_of w (map fst (ended w d d' text b)) ++ running (Some d') = running (Some d) ++ jobs_of w (map fst (started w d d' r)) ->
  (forall v, jobs_of v (given (sy_hist sy)) = jobs_of v (map fst (sy_starts sy)) ++ waiting (nth_error (sy_daemons sy) v)) ->
  (forall v, jobs_of v (map fst (sy_starts sy)) = jobs_of v (map fst (sy_ends sy)) ++ running (nth_error (sy_daemons sy) v)) ->
  (forall v, jobs_of v (given h) = jobs_of v (map fst (sy_starts (move w d d' r text b s h sy))) ++ waiting (nth_error (sy_daemons (move w d d' r text b s h sy)) v)) /\
  (forall v, jobs_of v (map fst (sy_starts (move w d d' r text b s h sy))) = jobs_of v (map fst (sy_ends (move w d d' r text b s h sy))) ++ running (nth_error (sy_daemons (move w d d' r text b s h sy)) v)).
Proof.
  intros Hd l SG E1 E2 D5 D6. unfold move. cbn [sy_starts sy_ends sy_daemons].
  assert (NS : forall v, v <> w -> jobs_of v (map fst (started w d d' r)) = []).
  { intros v Nv. apply Nat.eqb_neq in Nv. unfold started. destruct d as [| | |], d' as [| |[]|]; try reflexivity; cbn; rewrite (Nat.eqb_sym w v), Nv; reflexivity. }
  assert (NE : forall v, v <> w -> jobs_of v (map fst (ended w d d' text b)) = []).
  { intros v Nv. apply Nat.eqb_neq in Nv. unfold ended. destruct d as [| |[]|], d' as [| | |]; try reflexivity; cbn; rewrite (Nat.eqb_sym w v), Nv; reflexivity. }
  split; intros v; rewrite update_nth, !map_app, !jobs_of_app; destruct (Nat.eqb_spec w v) as [<-|Nv].
  - rewrite SG, Nat.eqb_refl, D5, Hd. cbn [option_map]. rewrite <- !app_assoc. f_equal. exact (eq_sym E1).
  - rewrite SG, (NS v), (proj2 (Nat.eqb_neq v w)) by congruence. rewrite !app_nil_r. apply D5.
  - rewrite D6, Hd. cbn [option_map]. rewrite <- !app_assoc. f_equal. exact (eq_sym E2).
  - rewrite (NS v), (NE v), !app_nil_r by congruence. apply D6.
Qed.
Lemma dinv_step a sy l sy' : happens a (sy_orch sy) (sy_hist sy) -> dinv sy -> lossless l = true -> sy_step a sy l = Some sy' -> dinv sy'.
Proof.
  intros H D Lo S1. pose proof (happens_inv _ _ _ H) as I. destruct l; cbn [sy_step] in S1; try (inversion S1; subst; apply dinv_operator; auto; exact Logic.I).
  - destruct n; try discriminate. destruct (nth_error (sy_daemons sy) w) as [d|] eqn:Hd; [|discriminate]. cbn [request] in S1.
    destruct (handle a (sy_orch sy) (next_request w keys d)) as [s' r] eqn:E. inversion S1; subst. clear S1.
    pose proof (happens_next _ _ _ _ _ _ H E) as H'. destruct D as [D1 D2 D3 D4 D5 D6 D7]. pose proof (D2 _ _ Hd) as Kw.
    assert (Rg : registered ((next_request w keys d, r) :: sy_hist sy) = registered (sy_hist sy)) by (destruct d; reflexivity).
    assert (Ot : forall v, v <> w -> doing v ((next_request w keys d, r) :: sy_hist sy) = doing v (sy_hist sy)).
    { intros v Nv. apply doing_other. destruct d; cbn; destruct r; congruence. }
    assert (Lw : (w < length (registered (sy_hist sy)))%nat) by (rewrite <- D1; apply nth_error_Some; congruence).
    destruct (nth_error (registered (sy_hist sy)) w) as [[k ip]|] eqn:Hr; [|apply nth_error_None in Hr; lia].
    assert (Hx : exists x, nth_error (or_workers (sy_orch sy)) w = Some x).
    { rewrite <- (i_workers _ _ I), nth_error_map in Hr. destruct (nth_error (or_workers (sy_orch sy)) w); [eauto|discriminate]. }
    destruct Hx as (x & Hx).
    assert (Len : length (update w (fun _ => react d (Some r) text) (sy_daemons sy)) = length (registered (sy_hist sy))) by (rewrite update_length; exact D1).
    (* the reply to a request for a configuration *)
    assert (CF : forall j, d = DConfig j -> r = RWait \/ match r with RConfig _ | REmpty => True | _ => False end).
    { intros j ->. cbn [next_request] in E. destruct Kw as [Kw Ij]. destruct (ask_config _ _ _ _ _ _ _ _ I E Kw) as (y & Hy & C). destruct (_ =? _)%nat; [|left; apply C].
      right. destruct r; try contradiction; auto. destruct C as [_ C]. destruct (i_job _ _ I _ _ Kw) as (x' & y' & _ & Hy' & _ & Hok). rewrite Hy in Hy'. inversion Hy'; subst y'.
      destruct j; try discriminate; destruct Hok as (Kd & _); congruence. }
    destruct (jobs_move w d (react d (Some r) text) (Some r) text true s' ((next_request w keys d, r) :: sy_hist sy) sy Hd (match r with RJob j => match d with DIdle => [j] | _ => [] end | _ => [] end)) as [M1 M2]; auto.
    { intros v. destruct d; cbn [next_request given]; try (destruct r; destruct (v =? w)%nat; rewrite app_nil_r; reflexivity).
      destruct r; try (destruct (v =? w)%nat; rewrite app_nil_r; reflexivity). rewrite jobs_of_app. f_equal. unfold jobs_of. cbn [filter fst]. rewrite (Nat.eqb_sym w v). destruct (v =? w)%nat; reflexivity. }
    { destruct d as [|j|[j|]|[j|] log]; cbn [next_request react] in *; try contradiction.
      - destruct (C78_order _ _ _ _ _ _ _ _ H Hr E) as [(j & -> & _)|(-> & _)]; [|reflexivity]. destruct (is_dppir j); cbn; unfold jobs_of; cbn; rewrite ?Nat.eqb_refl; reflexivity.
      - destruct (CF _ eq_refl) as [->|C]; [reflexivity|]. destruct r; try contradiction; cbn; unfold jobs_of; cbn; rewrite Nat.eqb_refl; reflexivity.
      - destruct r as [| | | | |[]| | |]; reflexivity.
      - destruct r; reflexivity. }
    { destruct d as [|j|[j|]|[j|] log]; cbn [next_request react] in *; try contradiction.
      - destruct (C78_order _ _ _ _ _ _ _ _ H Hr E) as [(j & -> & _)|(-> & _)]; [|reflexivity]. destruct (is_dppir j); cbn; unfold jobs_of; cbn; rewrite ?Nat.eqb_refl; reflexivity.
      - destruct (CF _ eq_refl) as [->|C]; [reflexivity|]. destruct r; try contradiction; cbn; unfold jobs_of; cbn; rewrite Nat.eqb_refl; reflexivity.
      - destruct r as [| | | | |[]| | |]; cbn; unfold jobs_of; cbn; rewrite ?Nat.eqb_refl; reflexivity.
      - reflexivity. }
    constructor; [| | | |exact M1|exact M2|]; unfold move; cbn [sy_orch sy_hist sy_daemons sy_ends sy_starts]; rewrite ?Rg.
    + exact Len.
    + apply (knows_update _ _ (sy_hist sy) _ (sy_ends sy)); auto; [intros y Hy; apply in_or_app; auto|]. intros _. destruct d as [|j|[j|]|[j|] log]; cbn [next_request react] in *; try contradiction.
      * destruct (C78_order _ _ _ _ _ _ _ _ H Hr E) as [(j & -> & _)|(-> & _)].
        -- destruct (is_dppir j) eqn:Ij; cbn [knows doing]; rewrite Nat.eqb_refl; auto.
        -- cbn [knows doing]. now rewrite Nat.eqb_refl.
      * destruct Kw as [Kw Ij]. assert (doing w ((AskConfig w keys, r) :: sy_hist sy) = Some j) by (rewrite doing_other by (cbn; destruct r; discriminate); exact Kw). destruct r; cbn; auto.
      * assert (doing w ((ShouldKill w, r) :: sy_hist sy) = Some j) by (rewrite doing_other by (cbn; destruct r; discriminate); exact Kw).
        destruct r as [| | | | |[]| | |]; cbn [knows ended]; auto. split; [assumption|]. exists text, true. split; [|reflexivity]. apply in_or_app. right. left. reflexivity.
      * destruct Kw as [Kw _]. pose proof (C79_stored _ _ _ _ _ _ _ H E) as St. rewrite Kw in St. destruct St as (d & _ & ->). cbn [knows doing]. now rewrite Nat.eqb_refl.
    + destruct d as [|j|[j|]|[j|] log]; cbn [next_request react] in *; try contradiction; try exact D3; try (destruct r; exact D3).
      cbn in Kw. cbn [dropped]. destruct r; try exact D3; unfold with_job; rewrite Kw; exact D3.
    + assert (Old : forall j name f log, List.In (j, (name, f, log)) (stored (sy_hist sy)) -> exists v text' b, List.In (v, j, (text', b)) (sy_ends sy ++ ended w d (react d (Some r) text) text true) /\ log = text' ++ (if b then killed_log else [])).
      { intros j name f log Hin. destruct (D4 _ _ _ _ Hin) as (v & t & b & G1 & G2). exists v, t, b. split; [apply in_or_app; left; exact G1|exact G2]. }
      intros j name f log. destruct d as [|j'|[j'|]|[j'|] log']; cbn [next_request] in *; try contradiction; try exact (Old j name f log).
      destruct Kw as [Kw Ke]. pose proof (C79_stored _ _ _ _ _ _ _ H E) as St. rewrite Kw in St. destruct St as (d & _ & ->). cbn [stored]. unfold with_job. rewrite Kw. cbn [map app].
      intros [Hin|Hin]; [|exact (Old _ _ _ _ Hin)]. inversion Hin; subst. destruct Ke as (t & b & K1 & K2). exists w, t, b. split; [apply in_or_app; left; exact K1|exact K2].
    + intros v j conf Hin. apply in_app_or in Hin as [Hin|Hin]; [apply proper_more, D7, Hin|]. destruct d as [|j'|[j'|]|[j'|] log']; cbn [next_request react started] in *; try contradiction.
      * destruct (C78_order _ _ _ _ _ _ _ _ H Hr E) as [(j' & -> & _)|(-> & _)]; [|contradiction]. destruct (is_dppir j') eqn:Ij; cbn in Hin; [contradiction|]. destruct Hin as [Hin|[]]. inversion Hin; subst. exact Ij.
      * destruct Kw as [Kw Ij]. destruct (CF _ eq_refl) as [->|C]; [contradiction|].
        assert (X : (w, j', Some (config_file (Some r))) = (v, j, conf)) by (destruct r; try contradiction; destruct Hin as [Hin|[]]; exact Hin). inversion X; subst. split; [exact Ij|].
        exists keys, r, (sy_hist sy), []. split; [reflexivity|]. split; [exact Kw|]. destruct r; try contradiction; reflexivity.
  - destruct (nth_error (sy_daemons sy) w) as [[| |oj|]|] eqn:Hd; try discriminate. inversion S1; subst. destruct D as [D1 D2 D3 D4 D5 D6 D7]. pose proof (D2 _ _ Hd) as Kw. destruct oj as [j|]; [|contradiction].
    destruct (jobs_move w (DRun (Some j)) (DUpload (Some j) text) None text false (sy_orch sy) (sy_hist sy) sy Hd []) as [M1 M2]; auto.
    { intros v. destruct (v =? w)%nat; now rewrite app_nil_r. }
    { cbn. unfold jobs_of. cbn. rewrite Nat.eqb_refl. reflexivity. }
    constructor; [| | | |exact M1|exact M2|]; unfold move; cbn [sy_orch sy_hist sy_daemons sy_ends sy_starts].
    + rewrite update_length. exact D1.
    + apply (knows_update _ _ (sy_hist sy) _ (sy_ends sy)); auto; [intros y Hy; apply in_or_app; auto|]. intros _. cbn. split; [exact Kw|]. exists text, false. split; [|now rewrite app_nil_r]. apply in_or_app. right. left. reflexivity.
    + exact D3.
    + intros j' name f log Hin. destruct (D4 _ _ _ _ Hin) as (v & t & b & G1 & G2). exists v, t, b. split; [apply in_or_app; left; exact G1|exact G2].
    + intros v j' conf Hin. cbn [started] in Hin. rewrite app_nil_r in Hin. exact (D7 _ _ _ Hin).
Qed.
Theorem reach_dinv a ok sy : (forall l, ok l = true -> lossless l = true) -> reach a ok sy -> dinv sy.
Proof.
  intros O H. induction H as [|sy l sy' H IH Hl S1].
  - constructor; cbn; auto; try contradiction; [intros [|w] d X; discriminate|intros []; reflexivity|intros []; reflexivity].
  - eapply dinv_step; eauto. eapply reach_happens; eauto.
Qed.
