(** Words, numbers and roles: proofs for PropsLaunch. *)
From Coq Require Import String Ascii DecimalString DecimalZ Decimal Permutation.
From Verif Require Import Base Config ConfigSpec MainFlags Orchestrator OrchestratorSpec OrchestratorProofs PropsOrchestrator Daemon DaemonSpec DaemonProofs PropsDaemon Boot BootSpec Launch LaunchSpec.
Local Open Scope string_scope.
Local Open Scope Z_scope.
Local Open Scope list_scope.

(** ** Words *)
Fixpoint solid (s : string) : bool := match s with EmptyString => true | String c t => negb (blank c) && solid t end.
Lemma words_solid w : forall cur s, solid w = true -> words cur (w ++ s)%string = words (cur ++ w)%string s.
Proof.
  induction w as [|c w IH]; intros cur s H; cbn [String.append words].
  - f_equal. induction cur; cbn; congruence.
  - cbn [solid] in H. apply andb_prop in H as [H1 H2]. apply negb_true_iff in H1. rewrite H1, IH by assumption. f_equal. clear. induction cur; cbn; congruence.
Qed.
Lemma append_nil_r s : (s ++ "")%string = s.
Proof. induction s; cbn; congruence. Qed.
Lemma words_concat : forall l, Forall (fun w => solid w = true /\ w <> "") l -> words "" (String.concat " " l) = l.
Proof.
  assert (W : forall w, w <> "" -> word w = [w]) by (intros w H; unfold word; destruct (String.eqb_spec w ""); congruence).
  induction l as [|w l IH]; intros F; [reflexivity|]. inversion F as [|? ? [S1 N1] F']; subst. destruct l as [|w' l].
  - cbn [String.concat]. rewrite <- (append_nil_r w) at 1. rewrite words_solid by assumption. cbn [String.append words]. apply W, N1.
  - change (String.concat " " (w :: w' :: l)) with (w ++ " " ++ String.concat " " (w' :: l))%string. rewrite words_solid by assumption. cbn [String.append words].
    change (blank " ") with true. cbv iota. rewrite W by assumption. cbn [app]. f_equal. apply IH, F'.
Qed.

(** ** Numbers *)
Lemma string_of_uint_solid d : solid (NilEmpty.string_of_uint d) = true.
Proof. induction d; cbn in *; auto. Qed.
Lemma to_uint_nonil p : Pos.to_uint p <> Nil.
Proof. intros H. pose proof (f_equal Pos.of_uint H) as E. rewrite DecimalPos.Unsigned.of_to in E. discriminate. Qed.
Lemma to_int_nonil z : Z.to_int z <> Pos Nil /\ Z.to_int z <> Neg Nil.
Proof. destruct z; cbn; split; intros H; try discriminate; inversion H as [E]; exact (to_uint_nonil _ E). Qed.
Lemma zero_string_of_uint d : d <> Nil -> NilZero.string_of_uint d = NilEmpty.string_of_uint d.
Proof. destruct d; intros H; [congruence|reflexivity..]. Qed.
Lemma number_solid z : solid (number z) = true /\ number z <> "".
Proof.
  unfold number. destruct z as [|p|p]; cbn [Z.to_int NilZero.string_of_int]; [split; [reflexivity|discriminate]| |].
  - rewrite zero_string_of_uint by apply to_uint_nonil. split; [apply string_of_uint_solid|]. pose proof (to_uint_nonil p). destruct (Pos.to_uint p); try congruence; discriminate.
  - rewrite zero_string_of_uint by apply to_uint_nonil. split; [apply string_of_uint_solid|discriminate].
Qed.
Lemma int_flag_number bits z : - 2 ^ (bits - 1) <= z < 2 ^ (bits - 1) -> int_flag bits (number z) = Some z.
Proof.
  intros H. unfold int_flag, number. destruct (to_int_nonil z) as [N1 N2]. rewrite NilZero.isi by assumption. rewrite DecimalZ.of_to.
  rewrite (proj2 (Z.leb_le _ _)), (proj2 (Z.ltb_lt _ _)) by lia. reflexivity.
Qed.

(** ** Lists of jobs *)
Lemma jobs_of_split w : forall l j m, jobs_of w l = j :: m -> exists a b, l = a ++ (w, j) :: b /\ jobs_of w a = [] /\ jobs_of w b = m.
Proof.
  induction l as [|[v k] l IH]; intros j m H; [discriminate|]. unfold jobs_of in H. cbn [filter fst] in H. destruct (Nat.eqb_spec v w) as [->|N].
  - cbn in H. inversion H; subst. exists [], l. auto.
  - destruct (IH j m H) as (a & b & -> & E1 & E2). exists ((v, k) :: a), b. split; [reflexivity|]. split; [|exact E2]. unfold jobs_of. cbn [filter fst]. rewrite (proj2 (Nat.eqb_neq _ _) N). exact E1.
Qed.
Lemma jobs_of_cons w v j l : jobs_of w ((v, j) :: l) = (if (v =? w)%nat then [j] else []) ++ jobs_of w l.
Proof. unfold jobs_of. cbn [filter fst]. destruct (v =? w)%nat; reflexivity. Qed.
Lemma jobs_of_perm : forall l l', (forall w, jobs_of w l = jobs_of w l') -> Permutation l l'.
Proof.
  induction l as [|[w j] l IH]; intros l' H.
  - destruct l' as [|[w j] l']; [constructor|]. specialize (H w). rewrite jobs_of_cons, Nat.eqb_refl in H. discriminate.
  - pose proof (H w) as Hw. rewrite jobs_of_cons, Nat.eqb_refl in Hw. cbn [app] in Hw. destruct (jobs_of_split _ _ _ _ (eq_sym Hw)) as (a & b & -> & E1 & E2).
    apply Permutation_cons_app. apply IH. intros v. pose proof (H v) as Hv. rewrite jobs_of_cons, jobs_of_app, jobs_of_cons in Hv. rewrite jobs_of_app. destruct (Nat.eqb_spec w v) as [Ev|N].
    + subst v. rewrite E1 in *. cbn [app] in *. inversion Hv. reflexivity.
    + exact Hv.
Qed.
Lemma jobs_of_filter w (f : job -> bool) l : jobs_of w (filter (fun x => f (snd x)) l) = filter f (jobs_of w l).
Proof.
  induction l as [|[v j] l IH]; [reflexivity|]. cbn [filter snd]. rewrite jobs_of_cons, filter_app'. destruct (f j) eqn:E.
  - rewrite jobs_of_cons, IH. f_equal. destruct (v =? w)%nat; cbn; rewrite ?E; reflexivity.
  - rewrite IH. destruct (v =? w)%nat; cbn; rewrite ?E; reflexivity.
Qed.
Lemma processes_given a sy e : reach a lossless sy -> (forall v j, nth_error (sy_daemons sy) v = Some (DConfig j) -> job_exp j <> e) ->
  Permutation (filter (fun x => (job_exp (snd x) =? e)%nat) (given (sy_hist sy))) (processes e sy).
Proof.
  intros R N. apply jobs_of_perm. intros w. unfold processes. rewrite !(jobs_of_filter w (fun j => (job_exp j =? e)%nat)).
  destruct (C80_once _ _ w R) as [G _]. rewrite G, filter_app'. replace (filter (fun j => (job_exp j =? e)%nat) (waiting (nth_error (sy_daemons sy) w))) with (@nil job); [apply app_nil_r|].
  destruct (nth_error (sy_daemons sy) w) as [[|j| |]|] eqn:E; try reflexivity. cbn. specialize (N _ _ E). apply Nat.eqb_neq in N. rewrite N. reflexivity.
Qed.
Lemma filter_kinds e l : Permutation (filter (fun x => (job_exp (snd x) =? e)%nat) l) (filter (is_for Client e) l ++ filter (is_for Server e) l).
Proof.
  induction l as [|[w j] l IH]; [constructor|]. cbn [filter snd].
  change (is_for Client e (w, j)) with ((job_exp j =? e)%nat && kind_eqb (job_kind j) Client). change (is_for Server e (w, j)) with ((job_exp j =? e)%nat && kind_eqb (job_kind j) Server).
  destruct (job_exp j =? e)%nat; [|exact IH]. destruct (job_kind j); cbn [kind_eqb andb].
  - apply Permutation_cons_app. exact IH.
  - cbn [app]. constructor. exact IH.
Qed.

(** ** Roles *)
Lemma roles_seq e N q mode p : N <> 0%nat ->
  map (role_number N) (map (fun i => JClient e i q mode) (seq 0 N) ++ map (fun i => JParty e (i / N) (i mod N) mode) (seq 0 (p * N))) = seq 0 ((p + 1) * N).
Proof.
  intros HN. rewrite map_app, !map_map. cbn [role_number]. rewrite map_id.
  replace ((p + 1) * N)%nat with (N + p * N)%nat by lia. rewrite seq_app. f_equal. cbn [plus].
  replace (seq N (p * N)) with (map (fun i => N + i)%nat (seq 0 (p * N))).
  - apply map_ext. intros i. pose proof (Nat.div_mod i N HN). nia.
  - generalize (p * N)%nat as k. intros k. replace (seq N k) with (seq (N + 0) k) by (f_equal; lia). generalize 0%nat as o. induction k as [|k IH]; intros o; [reflexivity|]. cbn [seq map]. f_equal. rewrite IH. f_equal. lia.
Qed.
Lemma split_two {A} (a b a' b' : list A) x x' : a ++ x :: b = a' ++ x' :: b' ->
  (a = a' /\ x = x' /\ b = b') \/ (exists m, a = a' ++ x' :: m /\ b' = m ++ x :: b) \/ (exists m, a' = a ++ x :: m /\ b = m ++ x' :: b').
Proof.
  revert a'. induction a as [|y a IH]; intros [|y' a'] H; cbn in *; inversion H; subst; auto.
  - right. right. exists a'. auto.
  - right. left. exists a. auto.
  - destruct (IH _ H2) as [(-> & -> & ->)|[(m & -> & ->)|(m & -> & ->)]]; [auto|right; left; exists m; auto|right; right; exists m; auto].
Qed.

(** ** Machines and processes *)
Lemma given_kind a s h : happens a s h -> forall w j, List.In (w, j) (given h) -> exists ip, nth_error (registered h) w = Some (job_kind j, ip).
Proof.
  intros H. induction H as [|s h ev s' r H IH Hs]; intros w j Hin; [contradiction|].
  assert (C : List.In (w, j) (given h) \/ ev = Ping w /\ r = RJob j).
  { destruct ev; cbn [given] in Hin; auto. destruct r; auto. apply in_app_or in Hin as [Hin|[E|[]]]; [auto|]. inversion E. auto. }
  destruct C as [C|[-> ->]].
  - destruct (IH _ _ C) as (ip & E). exists ip. apply registered_mono, E.
  - destruct (C78_jobs _ _ _ _ _ (happens_next _ _ _ _ _ _ H Hs)) as (d & ip & _ & E & _). exists ip. apply registered_mono, E.
Qed.
Lemma starts_given a sy v j conf : reach a lossless sy -> List.In (v, j, conf) (sy_starts sy) -> List.In (v, j) (given (sy_hist sy)).
Proof.
  intros R Hin. destruct (C80_once _ _ v R) as [G _].
  assert (X : List.In j (jobs_of v (given (sy_hist sy)))).
  { rewrite G. apply in_or_app. left. unfold jobs_of. apply in_map_iff. exists (v, j). split; [reflexivity|]. apply filter_In. split; [|cbn; apply Nat.eqb_refl].
    apply in_map_iff. exists (v, j, conf). auto. }
  unfold jobs_of in X. apply in_map_iff in X as ([v' j'] & E & X). apply filter_In in X as [X1 X2]. cbn in E, X2. apply Nat.eqb_eq in X2. subst. exact X1.
Qed.
Lemma role_of a s h e d v j : happens a s h -> nth_error (described h) e = Some d -> well_made d -> List.In (v, j) (given h) -> job_exp j = e ->
  (exists i, (i < ds_parallel d)%nat /\ j = JClient e i (ds_queries d) (ds_mode d)) \/
  (exists i, (i < ds_parties d * ds_parallel d)%nat /\ j = JParty e (i / ds_parallel d) (i mod ds_parallel d) (ds_mode d)).
Proof.
  intros H Hd (K & W1 & W2 & _) Hin E. destruct (C78_roles _ _ _ _ _ H Hd K) as (T1 & T2 & R1 & R2).
  destruct (job_kind j) eqn:Ek.
  - right. assert (X : List.In j (map snd (filter (is_for Server e) (given h)))).
    { apply in_map_iff. exists (v, j). split; [reflexivity|]. apply filter_In. split; [exact Hin|]. apply is_for_true. split; assumption. }
    rewrite R1 in X. apply in_map_iff in X as (i & <- & Hi). apply in_seq in Hi. exists i. split; [lia|reflexivity].
  - left. assert (X : List.In j (map snd (filter (is_for Client e) (given h)))).
    { apply in_map_iff. exists (v, j). split; [reflexivity|]. apply filter_In. split; [exact Hin|]. apply is_for_true. split; assumption. }
    rewrite R2 in X. apply in_map_iff in X as (i & <- & Hi). apply in_seq in Hi. exists i. split; [lia|reflexivity].
Qed.
Lemma given_app h2 h1 : exists m, given (h2 ++ h1) = given h1 ++ m.
Proof.
  induction h2 as [|[ev r] h2 (m & IH)]; [exists []; symmetry; apply app_nil_r|]. cbn [app]. destruct ev; cbn [given]; eauto. destruct r; eauto.
  rewrite IH. eexists. symmetry. apply app_assoc.
Qed.
Lemma given_all h2 h1 k e x : taken k e (h2 ++ h1) = taken k e h1 -> List.In x (given (h2 ++ h1)) -> is_for k e x = true -> List.In x (given h1).
Proof.
  intros T Hin F. destruct (given_app h2 h1) as (m & E). unfold taken in T. rewrite E in *. rewrite filter_app', app_length in T. apply in_app_or in Hin as [Hin|Hin]; [exact Hin|].
  exfalso. assert (X : List.In x (filter (is_for k e) m)) by (apply filter_In; auto). destruct (filter (is_for k e) m); [contradiction|]. cbn in T. lia.
Qed.
Lemma registered_app h2 h1 w x : nth_error (registered h1) w = Some x -> nth_error (registered (h2 ++ h1)) w = Some x.
Proof. intros H. induction h2 as [|[ev r] h2 IH]; [exact H|]. cbn [app]. apply registered_mono, IH. Qed.
Lemma described_app h2 h1 e d : nth_error (described h1) e = Some d -> nth_error (described (h2 ++ h1)) e = Some d.
Proof.
  intros H. induction h2 as [|[ev r] h2 IH]; [exact H|]. cbn [app]. destruct ev; cbn [described]; try exact IH.
  rewrite nth_error_app1 by (apply nth_error_Some; congruence). exact IH.
Qed.

Lemma role_number_command name stage q N e i : N <> 0%nat ->
  command name stage q N (role_number N (JParty e (i / N) (i mod N) 0)) =
    {| fl_role := "party"; fl_stage := stage; fl_config := name; fl_server := Z.of_nat (i mod N); fl_party := Z.of_nat (i / N); fl_queries := -1 |}.
Proof.
  intros HN. unfold command. cbn [role_number]. pose proof (Nat.mod_upper_bound i N HN) as L.
  replace ((S (i / N) * N + i mod N) / N)%nat with (S (i / N)) by (apply (Nat.div_unique _ N _ (i mod N)); nia).
  replace ((S (i / N) * N + i mod N) mod N)%nat with (i mod N)%nat by (apply (Nat.mod_unique _ N (S (i / N))); nia). reflexivity.
Qed.
Lemma main_name b a rng flog sampling iter junk stage q N p name name' file en sr : name <> ""%string -> name' <> ""%string ->
  main_program b a rng flog sampling iter junk (command name stage q N p) file en sr = main_program b a rng flog sampling iter junk (command name' stage q N p) file en sr.
Proof.
  intros H H'. apply String.eqb_neq in H, H'. unfold main_program, main_, flags_rejected, command.
  destruct (p / N)%nat; cbn [fl_role fl_stage fl_config fl_server fl_party fl_queries]; rewrite H, H'; reflexivity.
Qed.
