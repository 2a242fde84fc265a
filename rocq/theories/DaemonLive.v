(** Proof that every experiment finishes. *)
From Coq Require Import Permutation.
From Verif Require Import Base Config Orchestrator OrchestratorSpec OrchestratorProofs OrchestratorConfigs OrchestratorQueue OrchestratorKill PropsOrchestrator Daemon DaemonSpec DaemonProofs.

Lemma reach_unclear a sy : reach a calm sy -> unclear (sy_hist sy).
Proof.
  induction 1 as [|sy l sy' H IH Hl S1]; intros r Hin; [contradiction|]. destruct l; try discriminate; cbn [sy_step] in S1.
  1-3: inversion S1; subst; unfold operator in Hin; destruct (handle _ _ _); cbn in Hin; destruct Hin as [Hin|Hin]; [discriminate|exact (IH _ Hin)].
  - destruct (nth_error (sy_daemons sy) w) as [d|]; [|discriminate]. destruct n; try discriminate. cbn [request] in S1. destruct (handle _ _ _). inversion S1; subst. cbn in Hin.
    destruct Hin as [Hin|Hin]; [destruct d; discriminate|exact (IH _ Hin)].
  - destruct (nth_error (sy_daemons sy) w) as [[]|]; try discriminate. inversion S1; subst. exact (IH _ Hin).
Qed.

(** ** What is still to be done for experiment e *)
Definition rank (e : nat) (d : dstate) : nat :=
  match d with
  | DConfig j => if (job_exp j =? e)%nat then 3 else 0
  | DRun (Some j) => if (job_exp j =? e)%nat then 2 else 0
  | DUpload (Some j) _ => if (job_exp j =? e)%nat then 1 else 0
  | _ => 0
  end.
Fixpoint sum (l : list nat) : nat := match l with [] => 0%nat | x :: l => (x + sum l)%nat end.
Definition todo (e : nat) (d : desc) (sy : sys) : nat :=
  (4 * (needs Client d - taken Client e (sy_hist sy)) + 4 * (needs Server d - taken Server e (sy_hist sy)) + sum (map (rank e) (sy_daemons sy)))%nat.
Lemma sum_app l m : sum (l ++ m) = (sum l + sum m)%nat.
Proof. induction l; cbn; lia. Qed.
Lemma sum_update e w d d' l : nth_error l w = Some d -> (sum (map (rank e) (update w (fun _ => d') l)) + rank e d = sum (map (rank e) l) + rank e d')%nat.
Proof. revert w. induction l as [|x l IH]; intros [|w] H; try discriminate; cbn in *; [inversion H; subst; lia|]. specialize (IH _ H). lia. Qed.

Lemma operator_todo a sy ev e d : (match ev with Register _ _ | NewExperiment _ _ | KillExperiment _ | ClearExperiments => True | _ => False end) ->
  (forall k, taken k e (sy_hist (operator a sy ev)) = taken k e (sy_hist sy)) /\ todo e d (operator a sy ev) = todo e d sy.
Proof.
  intros K. unfold operator. destruct (handle _ _ _) as [s' r]. cbn [sy_hist sy_daemons].
  assert (T : forall k, taken k e ((ev, r) :: sy_hist sy) = taken k e (sy_hist sy)) by (intros k; destruct ev; try contradiction; reflexivity).
  split; [exact T|]. unfold todo. cbn [sy_hist sy_daemons]. rewrite !T. destruct ev; try contradiction; try reflexivity. rewrite map_app, sum_app. cbn. lia.
Qed.

(** A step does something for e, or leaves it as it is. *)
Lemma step_todo a sy l sy' e d : reach a calm sy -> calm l = true -> sy_step a sy l = Some sy' -> nth_error (described (sy_hist sy)) e = Some d ->
  (todo e d sy' < todo e d sy)%nat \/ (todo e d sy' = todo e d sy /\ forall k, taken k e (sy_hist sy') = taken k e (sy_hist sy)).
Proof.
  intros R C S1 Hd. pose proof (reach_happens _ _ _ R) as H. assert (DI : dinv sy) by (eapply reach_dinv; [|exact R]; intros []; auto; discriminate).
  assert (Lo : lossless l = true) by (destruct l; auto). destruct l; cbn [sy_step] in S1; try (inversion S1; subst; right; match goal with |- context [operator _ _ ?ev] => destruct (operator_todo a sy ev e d Logic.I) end; auto).
  - destruct n; try discriminate. destruct (nth_error (sy_daemons sy) w) as [ds|] eqn:Hw; [|discriminate]. cbn [request] in S1.
    destruct (handle a (sy_orch sy) (next_request w keys ds)) as [s' r] eqn:E. inversion S1; subst. clear S1. pose proof (happens_next _ _ _ _ _ _ H E) as H'.
    pose proof (sum_update e w ds (react ds (Some r) text) _ Hw) as SU. unfold todo, move. cbn [sy_hist sy_daemons].
    destruct ds as [|j|oj|oj log].
    + cbn [next_request react rank] in *. destruct r; cbn [rank] in SU; try (right; unfold taken; cbn [given]; split; [lia|reflexivity]).
      assert (RK : rank e (if is_dppir j then DConfig j else DRun (Some j)) = if (job_exp j =? e)%nat then (if is_dppir j then 3 else 2)%nat else 0%nat)
        by (destruct (is_dppir j); cbn; destruct (job_exp j =? e)%nat; reflexivity).
      assert (T : forall k, taken k e ((Ping w, RJob j) :: sy_hist sy) = (taken k e (sy_hist sy) + if is_for k e (w, j) then 1 else 0)%nat).
      { intros k. unfold taken. cbn [given]. rewrite filter_app', app_length. cbn [filter]. destruct (is_for k e (w, j)); reflexivity. }
      pose proof (reported_le _ _ _ e d Client H' (described_mono _ _ _ _ _ Hd)) as [_ N1]. pose proof (reported_le _ _ _ e d Server H' (described_mono _ _ _ _ _ Hd)) as [_ N2].
      rewrite RK in SU. rewrite !T. rewrite T in N1, N2. unfold is_for in *. cbn [snd] in *. destruct (job_exp j =? e)%nat.
      * left. cbn [andb needs] in *. destruct (is_dppir j), (job_kind j); cbn [kind_eqb andb needs] in *; lia.
      * right. cbn [andb] in *. split; [lia|]. intros k. rewrite T, Nat.add_0_r. reflexivity.
    + cbn [next_request] in *. assert (T : forall k, taken k e ((AskConfig w keys, r) :: sy_hist sy) = taken k e (sy_hist sy)) by reflexivity. rewrite !T.
      destruct r; cbn [react rank] in SU |- *; destruct (job_exp j =? e)%nat eqn:Ej; (left; lia) || (right; split; [lia|reflexivity]).
    + cbn [next_request] in *. assert (T : forall k, taken k e ((ShouldKill w, r) :: sy_hist sy) = taken k e (sy_hist sy)) by reflexivity. rewrite !T.
      destruct r as [| | | | |[]| | |]; cbn [react rank] in SU |- *; destruct oj as [j0|]; try destruct (job_exp j0 =? e)%nat eqn:Ej; (left; lia) || (right; split; [lia|reflexivity]).
    + cbn [next_request] in *. assert (T : forall k, taken k e ((ReportDone w log, r) :: sy_hist sy) = taken k e (sy_hist sy)) by reflexivity. rewrite !T.
      cbn [react rank] in SU |- *; destruct oj as [j0|]; try destruct (job_exp j0 =? e)%nat eqn:Ej; (left; lia) || (right; split; [lia|reflexivity]).
  - destruct (nth_error (sy_daemons sy) w) as [[| |oj|]|] eqn:Hw; try discriminate. inversion S1; subst.
    pose proof (sum_update e w (DRun oj) (DUpload oj (match oj with Some _ => text | None => invalid_log end)) _ Hw) as SU. unfold todo, move. cbn [sy_hist sy_daemons].
    destruct oj as [j|]; cbn [rank] in SU; try destruct (job_exp j =? e)%nat eqn:Ej; (left; lia) || (right; split; [lia|reflexivity]).
Qed.

(** ** Something can be done for the first experiment that is not done *)
Definition helpful (e : nat) (sy : sys) (w : nat) : Prop :=
  exists ds, nth_error (sy_daemons sy) w = Some ds /\
  match ds with
  | DUpload (Some j) _ => job_exp j = e
  | DConfig j => job_exp j = e /\ has_room Server (sy_hist sy) e = false
  | DRun (Some j) => job_exp j = e /\ (told w (sy_hist sy) = true \/ bound sy j)
  | DIdle => exists k ip, nth_error (registered (sy_hist sy)) w = Some (k, ip) /\ has_room k (sy_hist sy) e = true /\ (k = Client -> takes_clients (sy_hist sy) e = true)
  | _ => False
  end.

Lemma somebody_idle a s h k e d : happens a s h -> nth_error (described h) e = Some d -> (taken k e h < needs k d)%nat -> (needs k d <= machines k h)%nat ->
  (forall w j, doing w h = Some j -> job_kind j = k -> job_exp j = e) ->
  exists w ip, nth_error (registered h) w = Some (k, ip) /\ doing w h = None.
Proof.
  intros H Hd L N O. pose proof (happens_inv _ _ _ H) as I.
  set (isk := fun w => match nth_error (registered h) w with Some (k', _) => kind_eqb k' k | None => false end).
  assert (M : machines k h = length (filter isk (seq 0 (length (registered h))))).
  { unfold machines. assert (G : forall l n, (forall i, nth_error (registered h) (n + i) = nth_error l i) -> length (filter (fun x => kind_eqb (fst x) k) l) = length (filter isk (seq n (length l)))).
    { induction l as [|x l IH]; intros n E; [reflexivity|]. cbn [length seq filter]. unfold isk at 1. specialize (E 0%nat) as E0. rewrite Nat.add_0_r in E0. rewrite E0. cbn [nth_error]. destruct x as [k' ip']. cbn [fst].
      assert (IH' := IH (S n) ltac:(intros i; specialize (E (S i)); cbn [nth_error] in E; rewrite <- E; f_equal; lia)). destruct (kind_eqb k' k); cbn [length]; rewrite IH'; reflexivity. }
    apply (G (registered h) 0%nat). intros i. reflexivity. }
  destruct (existsb (fun w => isk w && match doing w h with None => true | _ => false end) (seq 0 (length (registered h)))) eqn:Ex.
  - apply existsb_exists in Ex as (w & _ & Ex). apply andb_prop in Ex as [E1 E2]. unfold isk in E1. destruct (nth_error (registered h) w) as [[k' ip]|] eqn:Hr; [|discriminate].
    apply kind_eqb_eq in E1. subst k'. exists w, ip. split; [exact Hr|]. destruct (doing w h); [discriminate|reflexivity].
  - exfalso.
    assert (B : forall l, (forall w, List.In w l -> isk w = true -> exists j, doing w h = Some j) -> (length (filter isk l) <= length (of_exp k e (flat_map (fun w => with_job w h) l)))%nat).
    { induction l as [|w l IH]; intros B; [reflexivity|]. cbn [filter flat_map]. unfold of_exp. rewrite filter_app', app_length. assert (IH' := IH (fun v Hv => B v (or_intror Hv))). unfold of_exp in IH'.
      destruct (isk w) eqn:Iw; [|lia]. destruct (B w (or_introl eq_refl) Iw) as (j & Dj). assert (with_job w h = [(w, j)]) as -> by (unfold with_job; now rewrite Dj). cbn [filter length].
      assert (is_for k e (w, j) = true) as ->.
      { apply is_for_true. destruct (i_job _ _ I _ _ Dj) as (x & y & Hx & _ & Hk & _). unfold isk in Iw. rewrite <- (i_workers _ _ I), nth_error_map, Hx in Iw. cbn in Iw. apply kind_eqb_eq in Iw.
        split; [apply (O _ _ Dj); congruence|congruence]. }
      cbn [length]. lia. }
    assert (B' := B (seq 0 (length (registered h)))). rewrite <- M in B'. fold (current h) in B'. pose proof (account_counts _ _ k e I) as A. unfold taken in L. change (filter (is_for k e) (given h)) with (of_exp k e (given h)) in L.
    enough (machines k h <= length (of_exp k e (current h)))%nat by lia. apply B'. intros w Hw Iw. destruct (doing w h) as [j|] eqn:Dj; [eauto|]. exfalso.
    assert (X : existsb (fun w => isk w && match doing w h with None => true | _ => false end) (seq 0 (length (registered h))) = true) by (apply existsb_exists; exists w; rewrite Iw, Dj; auto). congruence.
Qed.

Lemma current_doing h w j : List.In (w, j) (current h) -> doing w h = Some j.
Proof. unfold current. intros H. apply in_flat_map in H as (v & _ & H). unfold with_job in H. destruct (doing v h) eqn:E; [|contradiction]. destruct H as [H|[]]. inversion H; subst. exact E. Qed.

Lemma progress a sy e d : reach a calm sy -> List.In e (listed (sy_hist sy)) -> nth_error (described (sy_hist sy)) e = Some d -> (0 < ds_clients d + ds_servers d)%nat ->
  (forall k, (needs k d <= machines k (sy_hist sy))%nat) -> (forall e', List.In e' (listed (sy_hist sy)) -> (e' < e)%nat -> status (sy_orch sy) e' = Some EDone) ->
  status (sy_orch sy) e <> Some EDone -> exists w, helpful e sy w.
Proof.
  intros R He Hd Pos En Sm Nd. pose proof (reach_happens _ _ _ R) as H. assert (DI : dinv sy) by (eapply reach_dinv; [|exact R]; intros []; auto; discriminate).
  destruct DI as [D1 D2 D3 _]. set (h := sy_hist sy) in *. pose proof (happens_inv _ _ _ H) as I. destruct (order_inv _ _ _ H (reach_unclear _ _ R)) as [O1 O2]. fold h in O1, O2.
  assert (Dm : forall w x, nth_error (registered h) w = Some x -> exists ds, nth_error (sy_daemons sy) w = Some ds).
  { intros w x Hw. destruct (nth_error (sy_daemons sy) w) eqn:E; [eauto|]. apply nth_error_None in E. assert (w < length (registered h))%nat by (apply nth_error_Some; congruence). lia. }
  assert (Dd : forall w j, doing w h = Some j -> exists ds, nth_error (sy_daemons sy) w = Some ds).
  { intros w j Dj. destruct (i_job _ _ I _ _ Dj) as (x & _ & Hx & _). apply (Dm w (wk_kind x, wk_ip x)). rewrite <- (i_workers _ _ I). exact (map_nth_error (fun w0 => (wk_kind w0, wk_ip w0)) _ _ Hx). }
  assert (Room : forall k, has_room k h e = true -> (k = Client -> takes_clients h e = true) -> exists w, helpful e sy w).
  { intros k Rm Tk. destruct (room_some _ _ _ Rm) as (d' & Hd' & Lt). rewrite Hd in Hd'. inversion Hd'; subst d'.
    destruct (somebody_idle _ _ _ k e d H Hd Lt (En k)) as (w & ip & Hr & Dn).
    { intros w j Dj Kj. pose proof (doing_given _ _ _ _ _ H Dj) as Gj. pose proof (O1 _ _ Gj) as Lj. fold h in Gj. destruct (Nat.lt_trichotomy (job_exp j) e) as [Lj'|[Lj'|Lj']]; [|assumption|].
      - exfalso. specialize (Sm _ Lj Lj').
        assert (exists dj, nth_error (described h) (job_exp j) = Some dj) as (dj & Hdj) by (destruct (i_job _ _ I _ _ Dj) as (_ & y & _ & Hy & _); eexists; exact (heap_described _ _ _ _ I Hy)).
        destruct (done_clean _ _ _ _ _ H Hdj Sm (job_kind j)) as (_ & _ & X). assert (Y : List.In (w, j) (of_exp (job_kind j) (job_exp j) (current h)))
          by (apply filter_In; split; [exact (in_current _ _ _ _ I Dj)|apply is_for_true; split; reflexivity]). rewrite X in Y. contradiction.
      - exfalso. pose proof (O2 k e (job_exp j) He Rm Lj') as Z. assert (Y : List.In (w, j) (filter (is_for k (job_exp j)) (given h))) by (apply filter_In; split; [assumption|apply is_for_true; split; auto]).
        unfold taken in Z. destruct (filter (is_for k (job_exp j)) (given h)); [contradiction|discriminate]. }
    destruct (Dm _ _ Hr) as (ds & Hds). exists w, ds. split; [exact Hds|]. specialize (D2 _ _ Hds). fold h in D2. destruct ds as [|j|[j|]|[j|] log]; cbn in D2; try contradiction; try (destruct D2; congruence); try congruence.
    exists k, ip. auto. }
  destruct (has_room Server h e) eqn:RS; [apply (Room Server RS); discriminate|].
  assert (TS : taken Server e h = ds_servers d) by exact (room_full _ _ _ Server _ _ H Hd RS).
  destruct (has_room Client h e) eqn:RC.
  { apply (Room Client RC). intros _. unfold takes_clients. rewrite Hd, TS. destruct (ds_kind d); auto. apply Nat.eqb_refl. }
  assert (TC : taken Client e h = ds_clients d) by exact (room_full _ _ _ Client _ _ H Hd RC).
  (* somebody has a job of e *)
  assert (Cur : forall k, (length (of_exp k e (reported h)) < taken k e h)%nat -> exists w j, doing w h = Some j /\ job_exp j = e /\ job_kind j = k).
  { intros k Lt. pose proof (account_counts _ _ k e I) as A. rewrite D3 in A. unfold taken in Lt. change (filter (is_for k e) (given h)) with (of_exp k e (given h)) in Lt. cbn [of_exp filter length] in A.
    destruct (of_exp k e (current h)) as [|[w j] l] eqn:Ec; [cbn in A; lia|].
    assert (Hin : List.In (w, j) (of_exp k e (current h))) by (rewrite Ec; left; reflexivity). apply filter_In in Hin as [Hin F]. apply is_for_true in F as [F1 F2].
    exists w, j. split; [exact (current_doing _ _ _ Hin)|auto]. }
  (* the processes that end by themselves *)
  assert (Fin : forall w j, doing w h = Some j -> job_exp j = e -> (match j with JCheckServer _ _ _ _ _ => False | _ => True end) -> exists w', helpful e sy w').
  { intros w j Dj Ej Kj. destruct (Dd _ _ Dj) as (ds & Hds). specialize (D2 _ _ Hds) as Kn. fold h in Kn.
    destruct (existsb (fun ds => match ds with DConfig j' => (job_exp j' =? e)%nat | _ => false end) (sy_daemons sy)) eqn:Ec.
    { apply existsb_exists in Ec as (ds' & Hin & Ec). destruct ds' as [|j'| |]; try discriminate. apply Nat.eqb_eq in Ec. apply In_nth_error in Hin as (v & Hv).
      exists v, (DConfig j'). split; [exact Hv|]. split; [exact Ec|exact RS]. }
    exists w, ds. split; [exact Hds|]. destruct ds as [|j'|[j'|]|[j'|] log]; cbn in Kn; try contradiction; try congruence.
    - exfalso. destruct Kn as [Kn _]. assert (j' = j) as -> by congruence.
      assert (X : existsb (fun ds => match ds with DConfig j' => (job_exp j' =? e)%nat | _ => false end) (sy_daemons sy) = true) by (apply existsb_exists; exists (DConfig j); split; [eapply nth_error_In, Hds|now apply Nat.eqb_eq]).
      congruence.
    - assert (j' = j) as -> by congruence. split; [exact Ej|]. right. unfold bound. destruct j; try contradiction; auto; cbn [job_exp] in *; subst e0; (split; [intros d' k Hd'; fold h in Hd'; rewrite Hd in Hd'; inversion Hd'; subst d'; destruct k; assumption|]);
        intros v j' Hv Ev; assert (X : existsb (fun ds => match ds with DConfig j' => (job_exp j' =? e)%nat | _ => false end) (sy_daemons sy) = true) by (apply existsb_exists; exists (DConfig j'); split; [eapply nth_error_In, Hv|now apply Nat.eqb_eq]); congruence.
    - destruct Kn as [Kn _]. congruence. }
  assert (Cl : (length (of_exp Client e (reported h)) < taken Client e h)%nat -> exists w, helpful e sy w).
  { intros Lt. destruct (Cur Client Lt) as (w & j & Dj & Ej & Kj). apply (Fin w j Dj Ej). destruct j; auto; discriminate. }
  destruct (Nat.lt_ge_cases (length (of_exp Client e (reported h))) (taken Client e h)) as [Lc|Lc]; [exact (Cl Lc)|].
  destruct (Nat.lt_ge_cases (length (of_exp Server e (reported h))) (taken Server e h)) as [Ls|Ls].
  - destruct (Cur Server Ls) as (w & j & Dj & Ej & Kj). destruct j; try discriminate; [exact (Fin w _ Dj Ej Logic.I)|]. destruct (Dd _ _ Dj) as (ds & Hds). specialize (D2 _ _ Hds) as Kn. fold h in Kn.
    exists w, ds. split; [exact Hds|]. destruct ds as [|j'|[j'|]|[j'|] log]; cbn in Kn; try contradiction; try congruence.
    + destruct Kn as [Kn Ip]. rewrite Dj in Kn. inversion Kn; subst. discriminate.
    + rewrite Dj in Kn. inversion Kn; subst. split; [reflexivity|]. left. apply (check_told _ _ _ H _ _ Dj); [exact Logic.I|]. cbn [job_exp] in *. fold h.
      destruct (i_job _ _ I _ _ Dj) as (_ & y & _ & Hy & _ & (Kd & _)). cbn [job_exp] in *. pose proof (e_sized _ _ _ (i_exp _ _ I _ _ Hy)) as Z. unfold sized_ok in Z. rewrite Kd in Z.
      pose proof (heap_described _ _ _ _ I Hy) as Hd'. fold h in Hd'. rewrite Hd in Hd'. inversion Hd'; subst. lia.
    + destruct Kn as [Kn _]. congruence.
  - exfalso. apply Nd. apply (C79_done _ _ _ _ _ H Hd). fold h. destruct (reported_le _ _ _ _ _ Client H Hd) as [A1 A2]. destruct (reported_le _ _ _ _ _ Server H Hd) as [B1 B2].
    fold h in A1, B1. unfold of_exp in *. lia.
Qed.

(** ** Turns *)
Definition handy (e : nat) (sy : sys) (w : nat) : Prop :=
  exists ds, nth_error (sy_daemons sy) w = Some ds /\
  match ds with
  | DUpload (Some j) _ => job_exp j = e
  | DConfig j => job_exp j = e /\ has_room Server (sy_hist sy) e = false
  | DRun (Some j) => job_exp j = e /\ told w (sy_hist sy) = true
  | DIdle => exists k ip, nth_error (registered (sy_hist sy)) w = Some (k, ip) /\ has_room k (sy_hist sy) e = true /\ (k = Client -> takes_clients (sy_hist sy) e = true)
  | _ => False
  end.

Lemma other_daemon a sy l sy' w d : sy_step a sy l = Some sy' -> who l <> Some w -> nth_error (sy_daemons sy) w = Some d -> nth_error (sy_daemons sy') w = Some d.
Proof.
  intros S1 N Hd. destruct l; cbn [sy_step] in S1.
  1-4: inversion S1; subst; unfold operator; destruct (handle _ _ _); cbn [sy_daemons]; auto.
  - rewrite nth_error_app1; [exact Hd|]. apply nth_error_Some. congruence.
  - destruct (nth_error (sy_daemons sy) w0); [|discriminate]. destruct (request _ _ _ _ _) as [[]]. inversion S1; subst. cbn. rewrite update_other; [exact Hd|]. intros ->. apply N. reflexivity.
  - destruct (nth_error (sy_daemons sy) w0) as [[]|]; try discriminate. inversion S1; subst. cbn. rewrite update_other; [exact Hd|]. intros ->. apply N. reflexivity.
Qed.
(** A step adds at most one request to the history. *)
Lemma step_hist a sy l sy' : sy_step a sy l = Some sy' ->
  (sy_hist sy' = sy_hist sy /\ sy_orch sy' = sy_orch sy) \/
  (exists ev r, sy_hist sy' = (ev, r) :: sy_hist sy /\ handle a (sy_orch sy) ev = (sy_orch sy', r) /\ (calm l = true -> ev <> ClearExperiments) /\
     forall w, acts ev r = Some w -> who l = Some w).
Proof.
  intros S1. destruct l; cbn [sy_step] in S1.
  1-4: inversion S1; subst; unfold operator; destruct (handle _ _ _) as [s' r] eqn:E; right; eexists _, r; cbn [sy_hist sy_orch]; split; [reflexivity|]; split; [exact E|]; split; [discriminate || (intros; discriminate)|intros w; destruct r; discriminate].
  - destruct (nth_error (sy_daemons sy) w) as [d|]; [|discriminate]. unfold request in S1. destruct n.
    + destruct (handle _ _ _) as [s' r] eqn:E. inversion S1; subst. right. eexists _, r. cbn. split; [reflexivity|]. split; [exact E|]. split; [destruct d; discriminate|]. intros v. destruct d; cbn; destruct r; intros X; inversion X; reflexivity.
    + inversion S1; subst. left. auto.
    + destruct (handle _ _ _) as [s' r] eqn:E. inversion S1; subst. right. eexists _, r. cbn. split; [reflexivity|]. split; [exact E|]. split; [destruct d; discriminate|]. intros v. destruct d; cbn; destruct r; intros X; inversion X; reflexivity.
  - destruct (nth_error (sy_daemons sy) w) as [[]|]; try discriminate. inversion S1; subst. left. auto.
Qed.

Lemma handy_stays a sy l sy' e d w : reach a calm sy -> sy_step a sy l = Some sy' -> who l <> Some w -> nth_error (described (sy_hist sy)) e = Some d ->
  (forall k, taken k e (sy_hist sy') = taken k e (sy_hist sy)) -> handy e sy w -> handy e sy' w.
Proof.
  intros R S1 N Hd T (ds & Hds & K). assert (DI : dinv sy) by (eapply reach_dinv; [|exact R]; intros []; auto; discriminate).
  exists ds. split; [exact (other_daemon _ _ _ _ _ _ S1 N Hds)|].
  assert (Hd' : nth_error (described (sy_hist sy')) e = Some d /\ (forall x, nth_error (registered (sy_hist sy)) w = Some x -> nth_error (registered (sy_hist sy')) w = Some x) /\
     (told w (sy_hist sy) = true -> doing w (sy_hist sy) <> None -> told w (sy_hist sy') = true)).
  { destruct (step_hist _ _ _ _ S1) as [[-> _]|(ev & r & -> & _ & _ & A)]; [auto|]. split; [now apply described_mono|]. split; [intros x; apply registered_mono|].
    intros Tw Dw. apply told_stays; auto. }
  destruct Hd' as (Hd' & Rg & Tw).
  assert (Rm : forall k, has_room k (sy_hist sy') e = has_room k (sy_hist sy) e) by (intros k; unfold has_room; rewrite Hd, Hd', T; reflexivity).
  assert (Tk : takes_clients (sy_hist sy') e = takes_clients (sy_hist sy) e) by (unfold takes_clients; rewrite Hd, Hd', T; reflexivity).
  destruct ds as [|j|[j|]|[j|] log]; try contradiction.
  - destruct K as (k & ip & K1 & K2 & K3). exists k, ip. rewrite Rm, Tk. auto.
  - rewrite Rm. exact K.
  - destruct K as [K1 K2]. split; [exact K1|]. apply Tw; [exact K2|]. pose proof (d_knows _ DI _ _ Hds) as X. cbn in X. congruence.
  - exact K.
Qed.

Lemma handy_turn a sy l sy' e d w : reach a calm sy -> calm l = true -> sy_step a sy l = Some sy' -> who l = Some w -> nth_error (described (sy_hist sy)) e = Some d ->
  List.In e (listed (sy_hist sy)) -> (forall e', List.In e' (listed (sy_hist sy)) -> (e' < e)%nat -> status (sy_orch sy) e' = Some EDone) ->
  handy e sy w -> (todo e d sy' < todo e d sy)%nat.
Proof.
  intros R C S1 W Hd He Sm (ds & Hds & K). pose proof (reach_happens _ _ _ R) as H. assert (DI : dinv sy) by (eapply reach_dinv; [|exact R]; intros []; auto; discriminate).
  pose proof (d_knows _ DI _ _ Hds) as Kn. pose proof (happens_inv _ _ _ H) as I.
  assert (Old : forall k e', List.In e' (listed (sy_hist sy)) -> (e' < e)%nat -> has_room k (sy_hist sy) e' = false).
  { intros k e' He' L. pose proof (q_below _ _ (happens_q _ _ _ H) _ He') as B. destruct (nth_error (described (sy_hist sy)) e') as [d'|] eqn:Hd'; [|apply nth_error_None in Hd'; lia].
    apply (full_room _ _ _ d' Hd'). exact (done_full _ _ _ _ _ _ H Hd' (Sm _ He' L)). }
  destruct l as [| | | |v n keys text|v text]; try discriminate; inversion W; subst v; cbn [sy_step] in S1; rewrite Hds in S1.
  - destruct n; try discriminate. cbn [request] in S1. destruct (handle a (sy_orch sy) (next_request w keys ds)) as [s' r] eqn:E. inversion S1; subst. clear S1.
    pose proof (sum_update e w ds (react ds (Some r) text) _ Hds) as SU. unfold todo, move. cbn [sy_hist sy_daemons]. pose proof (happens_next _ _ _ _ _ _ H E) as H'.
    destruct ds as [|j|[j|]|[j|] log]; try contradiction; cbn [next_request] in *.
    + destruct K as (k & ip & Hr & Rm & Tk).
      assert (J : exists j, r = RJob j /\ job_exp j = e).
      { destruct (C78_order _ _ _ _ _ _ _ _ H Hr E) as [(j & -> & Kj & Lj & Rj & _ & Fj)|(-> & [X|(-> & e1 & X1 & X2 & X3 & X4)])].
        - exists j. split; [reflexivity|]. destruct (Nat.lt_trichotomy (job_exp j) e) as [L|[L|L]]; [|exact L|].
          + rewrite (Old k _ Lj L) in Rj. discriminate.
          + rewrite (Fj _ He L) in Rm. discriminate.
        - rewrite (X _ He) in Rm. discriminate.
        - destruct (Nat.lt_trichotomy e1 e) as [L|[->|L]].
          + rewrite (Old Client _ X1 L) in X2. discriminate.
          + rewrite (Tk eq_refl) in X3. discriminate.
          + rewrite (X4 _ He L) in Rm. discriminate. }
      destruct J as (j & -> & Ej). cbn [react] in *.
      assert (RK : rank e (if is_dppir j then DConfig j else DRun (Some j)) = (if is_dppir j then 3 else 2)%nat) by (destruct (is_dppir j); cbn; rewrite Ej, Nat.eqb_refl; reflexivity).
      assert (T : forall k, taken k e ((Ping w, RJob j) :: sy_hist sy) = (taken k e (sy_hist sy) + if is_for k e (w, j) then 1 else 0)%nat).
      { intros k0. unfold taken. cbn [given]. rewrite filter_app', app_length. cbn [filter]. destruct (is_for k0 e (w, j)); reflexivity. }
      pose proof (reported_le _ _ _ e d Client H' (described_mono _ _ _ _ _ Hd)) as [_ N1]. pose proof (reported_le _ _ _ e d Server H' (described_mono _ _ _ _ _ Hd)) as [_ N2].
      rewrite RK in SU. cbn [rank] in SU. rewrite !T. rewrite T in N1, N2. unfold is_for in *. cbn [snd] in *. rewrite Ej, Nat.eqb_refl in *. cbn [andb needs] in *.
      destruct (is_dppir j), (job_kind j); cbn [kind_eqb] in *; lia.
    + destruct K as [Ej Rm]. destruct Kn as [Kn Ij]. destruct (ask_config _ _ _ _ _ _ _ _ I E Kn) as (y & Hy & Cf).
      rewrite Ej in Hy. pose proof (heap_described _ _ _ _ I Hy) as Hd'. rewrite Hd in Hd'. inversion Hd'; subst d. 
      pose proof (members_taken _ _ _ _ Server I Hy) as M. cbn [ex_members] in M. rewrite M, (room_full _ _ _ _ _ _ H Hd Rm) in Cf. cbn [needs] in Cf. rewrite Nat.eqb_refl in Cf.
      assert (Rw : react (DConfig j) (Some r) text = DRun (Some j)) by (destruct r; try reflexivity; contradiction). rewrite Rw in *. cbn [rank] in SU. rewrite Ej, Nat.eqb_refl in SU.
      assert (T : forall k, taken k e ((AskConfig w keys, r) :: sy_hist sy) = taken k e (sy_hist sy)) by reflexivity. rewrite !T. lia.
    + destruct K as [Ej Tw]. cbn in Kn. cbn in E. destruct (i_job _ _ I _ _ Kn) as (x & _ & Hx & _). rewrite Hx in E. pose proof (happens_flag _ _ _ H _ _ Hx) as F. unfold flag in F. rewrite Kn, Tw in F. rewrite F in E.
      inversion E; subst. cbn [react rank] in *. rewrite Nat.eqb_refl in SU. assert (T : forall k, taken k (job_exp j) ((ShouldKill w, RKill true) :: sy_hist sy) = taken k (job_exp j) (sy_hist sy)) by reflexivity. rewrite !T. lia.
    + cbn [react rank] in *. rewrite K, Nat.eqb_refl in SU. assert (T : forall k, taken k e ((ReportDone w log, r) :: sy_hist sy) = taken k e (sy_hist sy)) by reflexivity. rewrite !T. lia.
  - destruct ds as [|j|[j|]|[j|] log]; try discriminate; try contradiction. inversion S1; subst.
    pose proof (sum_update e w (DRun (Some j)) (DUpload (Some j) text) _ Hds) as SU. unfold todo, move. cbn [sy_hist sy_daemons rank] in *. destruct K as [Ej _]. rewrite Ej, Nat.eqb_refl in SU. lia.
Qed.

Lemma run_ends a sy l sy' e d w j : reach a calm sy -> calm l = true -> sy_step a sy l = Some sy' -> job_exp j = e ->
  nth_error (sy_daemons sy) w = Some (DRun (Some j)) -> nth_error (sy_daemons sy') w <> Some (DRun (Some j)) -> (todo e d sy' < todo e d sy)%nat.
Proof.
  intros R C S1 Ej Hw Hw'.
  assert (W : who l = Some w) by (destruct (who l) as [v|] eqn:E; [destruct (Nat.eq_dec v w); [congruence|]|]; exfalso; apply Hw'; apply (other_daemon _ _ _ _ _ _ S1); congruence).
  destruct l as [| | | |v n keys text|v text]; try discriminate; inversion W; subst v; cbn [sy_step] in S1; rewrite Hw in S1.
  - destruct n; try discriminate. cbn [request next_request] in S1. destruct (handle a (sy_orch sy) (ShouldKill w)) as [s' r] eqn:E. inversion S1; subst. clear S1.
    pose proof (sum_update (job_exp j) w _ (react (DRun (Some j)) (Some r) text) _ Hw) as SU. unfold todo, move in *. cbn [sy_hist sy_daemons] in *.
    assert (T : forall k, taken k (job_exp j) ((ShouldKill w, r) :: sy_hist sy) = taken k (job_exp j) (sy_hist sy)) by reflexivity. rewrite !T. rewrite update_same, Hw in Hw'. cbn [option_map] in Hw'.
    destruct r as [| | | | |[]| | |]; cbn [react rank] in *; try congruence. rewrite Nat.eqb_refl in SU. lia.
  - inversion S1; subst. pose proof (sum_update (job_exp j) w _ (DUpload (Some j) text) _ Hw) as SU. unfold todo, move in *. cbn [sy_hist sy_daemons rank] in *. rewrite Nat.eqb_refl in SU. lia.
Qed.

(** ** Runs *)
Section Run.
Variables (a : bool) (run : nat -> sys) (lab : nat -> label).
Hypothesis F : fair_run a run lab.
Hypothesis R0 : reach a calm (run 0%nat).

Lemma run_reach i : reach a calm (run i).
Proof using All. induction i; [exact R0|]. exact (reach_step _ _ _ _ _ IHi (fr_calm _ _ _ F i) (fr_step _ _ _ F i)). Qed.
Lemma run_mono (P : sys -> Prop) : (forall i, P (run i) -> P (run (S i))) -> forall n m, (n <= m)%nat -> P (run n) -> P (run m).
Proof. intros H n m L. induction L; auto. Qed.
Lemma run_done e n m : (n <= m)%nat -> status (sy_orch (run n)) e = Some EDone -> status (sy_orch (run m)) e = Some EDone.
Proof using All.
  intros L. apply (run_mono (fun sy => status (sy_orch sy) e = Some EDone)); [|exact L]. intros i D. destruct (step_hist _ _ _ _ (fr_step _ _ _ F i)) as [[_ ->]|(ev & r & _ & E & _)]; [exact D|].
  exact (done_stays _ _ _ _ _ _ _ (reach_happens _ _ _ (run_reach i)) E D).
Qed.
Lemma run_described e d n m : (n <= m)%nat -> nth_error (described (sy_hist (run n))) e = Some d -> nth_error (described (sy_hist (run m))) e = Some d.
Proof using F.
  intros L. apply (run_mono (fun sy => nth_error (described (sy_hist sy)) e = Some d)); [|exact L]. intros i D. destruct (step_hist _ _ _ _ (fr_step _ _ _ F i)) as [[-> _]|(ev & r & -> & _)]; [exact D|]. now apply described_mono.
Qed.
Lemma run_listed e n m : (n <= m)%nat -> List.In e (listed (sy_hist (run n))) -> List.In e (listed (sy_hist (run m))).
Proof using F.
  intros L. apply (run_mono (fun sy => List.In e (listed (sy_hist sy)))); [|exact L]. intros i D. destruct (step_hist _ _ _ _ (fr_step _ _ _ F i)) as [[-> _]|(ev & r & -> & _ & C & _)]; [exact D|].
  apply listed_mono; [exact (C (fr_calm _ _ _ F i))|exact D].
Qed.
Lemma run_machines k n m : (n <= m)%nat -> (machines k (sy_hist (run n)) <= machines k (sy_hist (run m)))%nat.
Proof using F.
  intros L. apply (run_mono (fun sy => (machines k (sy_hist (run n)) <= machines k (sy_hist sy))%nat)) with (n := n); [|exact L|lia]. intros i D.
  destruct (step_hist _ _ _ _ (fr_step _ _ _ F i)) as [[-> _]|(ev & r & -> & _)]; [exact D|]. pose proof (machines_mono k ev r (sy_hist (run i))). lia.
Qed.
(** New experiments come later. *)
Lemma run_older e e' d n m : (n <= m)%nat -> nth_error (described (sy_hist (run n))) e = Some d -> (e' < e)%nat -> List.In e' (listed (sy_hist (run m))) -> List.In e' (listed (sy_hist (run n))).
Proof using All.
  intros L Hd Le. induction L as [|m L IH]; [auto|]. intros Hin. apply IH. destruct (step_hist _ _ _ _ (fr_step _ _ _ F m)) as [[E _]|(ev & r & E & _ & C & _)]; rewrite E in Hin; [exact Hin|].
  destruct ev as [| | | | |d0 []| |]; try exact Hin; [|contradiction]. cbn [listed] in Hin. apply in_app_or in Hin as [Hin|[Hin|[]]]; [exact Hin|]. exfalso. subst e'.
  assert (e < length (described (sy_hist (run m))))%nat by (apply nth_error_Some; rewrite (run_described _ _ _ _ L Hd); discriminate). lia.
Qed.
Lemma run_todo e d n m : (n <= m)%nat -> nth_error (described (sy_hist (run n))) e = Some d ->
  (todo e d (run m) < todo e d (run n))%nat \/ (todo e d (run m) = todo e d (run n) /\ forall k, taken k e (sy_hist (run m)) = taken k e (sy_hist (run n))).
Proof using All.
  intros L Hd. induction L as [|m L IH]; [auto|]. pose proof (step_todo _ _ _ _ e d (run_reach m) (fr_calm _ _ _ F m) (fr_step _ _ _ F m) (run_described _ _ _ _ L Hd)) as S1.
  destruct IH as [IH|[IH1 IH2]], S1 as [S1|[S1 S2]]; [left; lia|left; lia|left; lia|]. right. split; [lia|]. intros k. rewrite S2. apply IH2.
Qed.
Lemma handy_helps e d n w : nth_error (described (sy_hist (run n))) e = Some d -> List.In e (listed (sy_hist (run n))) ->
  (forall e', List.In e' (listed (sy_hist (run n))) -> (e' < e)%nat -> status (sy_orch (run n)) e' = Some EDone) ->
  handy e (run n) w -> exists m, (n <= m)%nat /\ (todo e d (run m) < todo e d (run n))%nat.
Proof using All.
  intros Hd He Sm Hw. assert (Lw : (w < length (sy_daemons (run n)))%nat) by (destruct Hw as (ds & Hds & _); apply nth_error_Some; congruence).
  destruct (fr_turn _ _ _ F n w Lw) as (m & Lm & Wm).
  (* no turn of w before i, or something has been done *)
  assert (G : forall i, (n <= i <= m)%nat -> (exists m', (n <= m')%nat /\ (todo e d (run m') < todo e d (run n))%nat) \/ (handy e (run i) w)).
  { intros i [Li Lj]. induction Li as [|i Li IH]; [right; exact Hw|]. destruct IH as [IH|IH]; [lia|left; exact IH|].
    destruct (run_todo e d n i Li Hd) as [T|[T1 T2]]; [left; exists i; auto|]. destruct (run_todo e d n (S i) ltac:(lia) Hd) as [T|[T3 T4]]; [left; exists (S i); split; [lia|exact T]|].
    destruct (who (lab i)) as [v|] eqn:Wi; [destruct (Nat.eq_dec v w) as [->|Nv]|].
    - left. exists (S i). split; [lia|]. rewrite <- T1. apply (handy_turn a _ (lab i) _ e d w); auto using run_reach; [apply (fr_calm _ _ _ F)|apply (fr_step _ _ _ F)|now apply (run_described _ _ n)|now apply (run_listed _ n)|].
      intros e' He' L'. apply (run_done _ n); [exact Li|]. apply Sm; [|exact L']. exact (run_older _ _ _ _ _ Li Hd L' He').
    - right. apply (handy_stays a _ (lab i) _ e d w (run_reach i)); [apply (fr_step _ _ _ F)|congruence|now apply (run_described _ _ n)|intros k; rewrite T4, T2; reflexivity|exact IH].
    - right. apply (handy_stays a _ (lab i) _ e d w (run_reach i)); [apply (fr_step _ _ _ F)|congruence|now apply (run_described _ _ n)|intros k; rewrite T4, T2; reflexivity|exact IH]. }
  destruct (G m) as [X|X]; [lia|exact X|]. destruct (run_todo e d n m Lm Hd) as [T|[T1 _]]; [exists m; auto|]. exists (S m). split; [lia|]. rewrite <- T1.
  apply (handy_turn a _ (lab m) _ e d w); auto using run_reach; [apply (fr_calm _ _ _ F)|apply (fr_step _ _ _ F)|now apply (run_described _ _ n)|now apply (run_listed _ n)|].
  intros e' He' L'. apply (run_done _ n); [exact Lm|]. apply Sm; [|exact L']. exact (run_older _ _ _ _ _ Lm Hd L' He').
Qed.
Lemma bound_helps e d n w j : nth_error (described (sy_hist (run n))) e = Some d -> job_exp j = e -> nth_error (sy_daemons (run n)) w = Some (DRun (Some j)) -> bound (run n) j ->
  exists m, (n <= m)%nat /\ (todo e d (run m) < todo e d (run n))%nat.
Proof using All.
  intros Hd Ej Hw B. destruct (fr_end _ _ _ F n w j Hw B) as (m & Lm & Nm).
  assert (dec : forall x : option dstate, x = Some (DRun (Some j)) \/ x <> Some (DRun (Some j))).
  { intros [[| |[j'|]|]|]; try (right; discriminate). assert (JD : forall x y : job, {x = y} + {x <> y}) by (repeat decide equality). destruct (JD j' j) as [->|N]; [auto|right; congruence]. }
  assert (G : forall i, (n <= i)%nat -> (nth_error (sy_daemons (run i)) w = Some (DRun (Some j))) \/ (exists m', (n <= m')%nat /\ (todo e d (run m') < todo e d (run n))%nat)).
  { intros i Li. induction Li as [|i Li IH]; [auto|]. destruct IH as [IH|IH]; [|auto]. destruct (dec (nth_error (sy_daemons (run (S i))) w)) as [X|X]; [auto|]. right. exists (S i). split; [lia|].
    pose proof (run_ends a _ (lab i) _ e d w j (run_reach i) (fr_calm _ _ _ F i) (fr_step _ _ _ F i) Ej IH X). destruct (run_todo e d n i Li Hd) as [T|[T _]]; lia. }
  destruct (G m Lm) as [X|X]; [contradiction|exact X].
Qed.

Lemma run_finishes : forall e n, List.In e (listed (sy_hist (run n))) ->
  (forall e' d, List.In e' (listed (sy_hist (run n))) -> (e' <= e)%nat -> nth_error (described (sy_hist (run n))) e' = Some d ->
     (0 < ds_clients d + ds_servers d)%nat /\ forall k, (needs k d <= machines k (sy_hist (run n)))%nat) ->
  exists m, (n <= m)%nat /\ status (sy_orch (run m)) e = Some EDone.
Proof using All.
  induction e as [e IHe] using (well_founded_induction lt_wf). intros n He En.
  (* first the older ones *)
  assert (Old : forall l, (forall e', List.In e' l -> List.In e' (listed (sy_hist (run n))) /\ (e' < e)%nat) -> exists m, (n <= m)%nat /\ forall e', List.In e' l -> status (sy_orch (run m)) e' = Some EDone).
  { induction l as [|e' l IH]; intros Hl; [exists n; split; [lia|contradiction]|]. destruct IH as (m1 & L1 & D1); [intros; apply Hl; right; assumption|].
    destruct (Hl e' (or_introl eq_refl)) as [H1 H2]. destruct (IHe e' H2 n H1) as (m2 & L2 & D2); [intros e0 d0 X1 X2 X3; apply (En e0 d0); auto; lia|].
    exists (Nat.max m1 m2). split; [lia|]. intros e'' [<-|Hin]; [apply (run_done _ m2); [lia|exact D2]|apply (run_done _ m1); [lia|auto]]. }
  destruct (Old (filter (fun e' => (e' <? e)%nat) (listed (sy_hist (run n))))) as (n1 & L1 & D1).
  { intros e' Hin. apply filter_In in Hin as [X Y]. apply Nat.ltb_lt in Y. auto. }
  pose proof (q_below _ _ (happens_q _ _ _ (reach_happens _ _ _ (run_reach n))) _ He) as B. destruct (nth_error (described (sy_hist (run n))) e) as [d|] eqn:Hd; [|apply nth_error_None in Hd; lia].
  destruct (En e d He (le_n _) Hd) as [Pos Enk].
  (* then e itself *)
  assert (G : forall t n2, (n1 <= n2)%nat -> (todo e d (run n2) <= t)%nat -> exists m, (n2 <= m)%nat /\ status (sy_orch (run m)) e = Some EDone).
  { induction t as [t IHt] using (well_founded_induction lt_wf). intros n2 L2 Lt.
    assert (Dec : status (sy_orch (run n2)) e = Some EDone \/ status (sy_orch (run n2)) e <> Some EDone) by (destruct (status _ _) as [[]|]; auto; right; discriminate).
    destruct Dec as [Dn|Dn]; [exists n2; auto|].
    assert (Hd2 := run_described e d n n2 ltac:(lia) Hd). assert (He2 := run_listed e n n2 ltac:(lia) He).
    assert (Sm : forall e', List.In e' (listed (sy_hist (run n2))) -> (e' < e)%nat -> status (sy_orch (run n2)) e' = Some EDone).
    { intros e' He' L'. apply (run_done _ n1); [exact L2|]. apply D1. apply filter_In. split; [|now apply Nat.ltb_lt]. exact (run_older _ _ _ n n2 ltac:(lia) Hd L' He'). }
    destruct (progress a (run n2) e d (run_reach n2) He2 Hd2 Pos) as (w & Hw); auto.
    { intros k. specialize (Enk k). pose proof (run_machines k n n2 ltac:(lia)). lia. }
    assert (X : exists m, (n2 <= m)%nat /\ (todo e d (run m) < todo e d (run n2))%nat).
    { destruct Hw as (ds & Hds & K). destruct ds as [|j|[j|]|[j|] log]; try contradiction.
      - apply (handy_helps e d n2 w); auto. eexists; split; [exact Hds|exact K].
      - apply (handy_helps e d n2 w); auto. eexists; split; [exact Hds|exact K].
      - destruct K as [K1 [K2|K2]]; [apply (handy_helps e d n2 w); auto; eexists; split; [exact Hds|split; assumption]|]. exact (bound_helps e d n2 w j Hd2 K1 Hds K2).
      - apply (handy_helps e d n2 w); auto. eexists; split; [exact Hds|exact K]. }
    destruct X as (m & Lm & Tm). destruct (IHt (todo e d (run m)) ltac:(lia) m ltac:(lia) ltac:(lia)) as (m' & Lm' & Dm'). exists m'. split; [lia|exact Dm']. }
  destruct (G _ n1 (le_n _) (le_n _)) as (m & Lm & Dm). exists m. split; [lia|exact Dm].
Qed.
End Run.
