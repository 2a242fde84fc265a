(** Proofs about the orchestrator. *)
From Coq Require Import Permutation.
From Verif Require Import Base Config Orchestrator OrchestratorSpec.

Arguments port_of : simpl never.

(** ** Lists *)
Lemma update_length {A} i (f : A -> A) l : length (update i f l) = length l.
Proof. revert i. induction l; intros [|i]; cbn; auto. Qed.
Lemma update_same {A} i (f : A -> A) l : nth_error (update i f l) i = option_map f (nth_error l i).
Proof. revert i. induction l; intros [|i]; cbn; auto. Qed.
Lemma update_other {A} i j (f : A -> A) l : i <> j -> nth_error (update i f l) j = nth_error l j.
Proof. revert i j. induction l; intros [|i] [|j] H; cbn; auto; try congruence. Qed.
Lemma update_nth {A} i j (f : A -> A) l : nth_error (update i f l) j = if (i =? j)%nat then option_map f (nth_error l j) else nth_error l j.
Proof. destruct (Nat.eqb_spec i j) as [->|]; [apply update_same|apply update_other; auto]. Qed.
Lemma update_map {A B} i (f : A -> A) (g : A -> B) l : (forall a, g (f a) = g a) -> map g (update i f l) = map g l.
Proof. intros H. revert i. induction l; intros [|i]; cbn; f_equal; auto. Qed.
Lemma kill_map {B} (g : worker -> B) ids ws : (forall w, g (worker_kill w) = g w) -> map g (kill_all ids ws) = map g ws.
Proof. intros H. revert ws. unfold kill_all. induction ids as [|i ids IH]; intros ws; cbn; [reflexivity|]. rewrite IH. apply update_map, H. Qed.
Lemma kill_length ids ws : length (kill_all ids ws) = length ws.
Proof. revert ws. unfold kill_all. induction ids; intros ws; cbn; [reflexivity|]. rewrite IHids. apply update_length. Qed.
Lemma worker_kill_same w : wk_ip (worker_kill w) = wk_ip w /\ wk_kind (worker_kill w) = wk_kind w /\ wk_exp (worker_kill w) = wk_exp w.
Proof. unfold worker_kill. destruct (wk_status w); auto. Qed.
Lemma worker_kill_twice w : worker_kill (worker_kill w) = worker_kill w.
Proof. unfold worker_kill. destruct (wk_status w) eqn:E; cbn; rewrite ?E; reflexivity. Qed.
Lemma kill_nth ids ws v : nth_error (kill_all ids ws) v =
  if existsb (Nat.eqb v) ids then option_map worker_kill (nth_error ws v) else nth_error ws v.
Proof.
  revert ws. unfold kill_all. induction ids as [|i ids IH]; intros ws; cbn; [reflexivity|]. rewrite IH, update_nth, (Nat.eqb_sym v i).
  destruct (Nat.eqb_spec i v) as [->|]; cbn; [|reflexivity]. destruct (existsb _ ids); [|reflexivity].
  destruct (nth_error ws v); cbn; [|reflexivity]. now rewrite worker_kill_twice.
Qed.

Lemma filter_app' {A} (f : A -> bool) l m : filter f (l ++ m) = filter f l ++ filter f m.
Proof. induction l; cbn; [reflexivity|]. destruct (f a); cbn; now rewrite IHl. Qed.
Lemma perm_filter {A} (f : A -> bool) l m : Permutation l m -> Permutation (filter f l) (filter f m).
Proof.
  induction 1; cbn; auto.
  - destruct (f x); auto.
  - destruct (f x), (f y); auto. apply perm_swap.
  - eapply perm_trans; eauto.
Qed.

(** ** The account of jobs *)
Lemma seq_cut n w : (w < n)%nat -> seq 0 n = seq 0 w ++ w :: seq (S w) (n - S w).
Proof. intros H. replace n with (w + S (n - S w))%nat at 1 by lia. rewrite seq_app. reflexivity. Qed.
Lemma change_one {B} (f g : nat -> list B) n w : (w < n)%nat -> (forall v, v <> w -> f v = g v) ->
  exists rest, Permutation (flat_map f (seq 0 n)) (f w ++ rest) /\ Permutation (flat_map g (seq 0 n)) (g w ++ rest).
Proof.
  intros H E. exists (flat_map f (seq 0 w) ++ flat_map f (seq (S w) (n - S w))).
  assert (E1 : flat_map g (seq 0 w) = flat_map f (seq 0 w)).
  { rewrite !flat_map_concat_map. f_equal. apply map_ext_in. intros v Hv. apply in_seq in Hv. symmetry. apply E. lia. }
  assert (E2 : flat_map g (seq (S w) (n - S w)) = flat_map f (seq (S w) (n - S w))).
  { rewrite !flat_map_concat_map. f_equal. apply map_ext_in. intros v Hv. apply in_seq in Hv. symmetry. apply E. lia. }
  rewrite (seq_cut n w H), !flat_map_app. cbn [flat_map]. rewrite E1, E2.
  split; rewrite (app_assoc (flat_map f (seq 0 w))), (Permutation_app_comm (flat_map f (seq 0 w))), <- app_assoc; reflexivity.
Qed.

(** Requests that change what a worker does come from registered workers. *)
Definition acts (ev : event) (r : reply) : option nat :=
  match ev, r with
  | Ping w, RJob _ => Some w | Ping w, RWait => Some w | ReportDone w _, RStored _ _ _ => Some w | _, _ => None
  end.
Lemma handle_acts a s ev s' r w : handle a s ev = (s', r) -> acts ev r = Some w -> (w < length (or_workers s))%nat.
Proof.
  intros H A. destruct ev as [k ip|v|v keys|v|v res|d add|e|]; cbn in H, A.
  - destruct r; discriminate.
  - destruct (nth_error (or_workers s) v) eqn:E; [|inversion H; subst; discriminate].
    apply nth_error_Some. assert (v = w) as <- by (destruct r; inversion A; reflexivity). congruence.
  - destruct r; discriminate.
  - destruct r; discriminate.
  - destruct (nth_error (or_workers s) v) eqn:E; [|inversion H; subst; discriminate].
    apply nth_error_Some. assert (v = w) as <- by (destruct r; inversion A; reflexivity). congruence.
  - destruct r; discriminate.
  - destruct r; discriminate.
  - destruct r; discriminate.
Qed.

Lemma doing_other w ev r h : acts ev r <> Some w -> doing w ((ev, r) :: h) = doing w h.
Proof.
  intros H. destruct ev; cbn in *; auto; destruct r; auto; cbn in H.
  - destruct (Nat.eqb_spec w0 w); congruence.
  - destruct (Nat.eqb_spec w0 w); congruence.
  - destruct (Nat.eqb_spec w0 w); congruence.
Qed.

(** ** The invariant *)
Definition job_ok (ips : list (list Z)) (w : nat) (j : job) (y : experiment) : Prop :=
  let d := ex_desc y in
  match j with
  | JParty _ p m mode => ds_kind d = Dppir /\ lookup w (ex_server_map y) = Some (p, m) /\ mode = ds_mode d
  | JClient _ n q mode => ds_kind d = Dppir /\ lookup w (ex_client_map y) = Some n /\ q = ds_queries d /\ mode = ds_mode d
  | JCheckServer _ v t port pt => ds_kind d = Checklist /\ v = w /\ t = ds_table d /\ port = port_of w /\ pt = ds_mode d
  | JCheckClient _ a1 p1 a2 p2 q pt => ds_kind d = Checklist /\ q = ds_queries d /\ pt = ds_mode d /\
      exists s1 s2, ex_servers y = [s1; s2] /\ nth_error ips s1 = Some a1 /\ nth_error ips s2 = Some a2 /\
        p1 = port_of s1 /\ p2 = port_of s2
  | JSealpir _ t q => ds_kind d = Sealpir /\ t = ds_table d /\ q = ds_queries d
  end.

Definition of_exp (k : wkind) (e : nat) (l : list (nat * job)) : list (nat * job) := filter (is_for k e) l.
Definition ex_members (k : wkind) (y : experiment) : list nat := match k with Client => ex_clients y | Server => ex_servers y end.
Definition ex_fin (k : wkind) (y : experiment) : nat := match k with Client => ex_fin_clients y | Server => ex_fin_servers y end.
Definition queue (k : wkind) (s : orch) : list nat := match k with Client => or_clients s | Server => or_servers s end.

(** The status in terms of the numbers of jobs given and reported. *)
Definition status_of (d : desc) (gc gs fc fs : nat) : estatus :=
  if (gc <? ds_clients d)%nat || (gs <? ds_servers d)%nat || (ds_clients d + ds_servers d =? 0)%nat then EWaiting
  else if (fc =? ds_clients d)%nat && (fs =? ds_servers d)%nat then EDone
  else match ds_kind d with
       | Checklist => if (fc =? ds_clients d)%nat then ECleanup else EWorking
       | _ => EWorking
       end.

Definition sized_ok (d : desc) : Prop :=
  match ds_kind d with
  | Dppir => True
  | Checklist => ds_clients d = 1%nat /\ ds_servers d = 2%nat
  | Sealpir => ds_clients d = 1%nat /\ ds_servers d = 0%nat
  end.
Record exp_inv (e : nat) (y : experiment) (h : hist) : Prop := {
  e_members : forall k, ex_members k y = map fst (of_exp k e (given h));
  e_room : forall k, (length (ex_members k y) <= needs k (ex_desc y))%nat;
  e_fin : forall k, ex_fin k y = length (of_exp k e (reported h));
  e_roles : ds_kind (ex_desc y) = Dppir ->
    map snd (of_exp Server e (given h)) =
      map (fun i => JParty e (i / ds_parallel (ex_desc y)) (i mod ds_parallel (ex_desc y)) (ds_mode (ex_desc y))) (seq 0 (length (ex_servers y))) /\
    map snd (of_exp Client e (given h)) =
      map (fun i => JClient e i (ds_queries (ex_desc y)) (ds_mode (ex_desc y))) (seq 0 (length (ex_clients y))) /\
    ex_party y = (length (ex_servers y) / ds_parallel (ex_desc y))%nat /\ ex_machine y = (length (ex_servers y) mod ds_parallel (ex_desc y))%nat /\
    ex_client y = length (ex_clients y);
  e_check : ds_kind (ex_desc y) = Checklist -> (0 < length (ex_clients y))%nat -> length (ex_servers y) = ds_servers (ex_desc y);
  e_status : ex_status y = status_of (ex_desc y) (length (ex_clients y)) (length (ex_servers y)) (ex_fin_clients y) (ex_fin_servers y);
  e_sized : sized_ok (ex_desc y)
}.
Record inv (s : orch) (h : hist) : Prop := {
  i_workers : map (fun w => (wk_kind w, wk_ip w)) (or_workers s) = registered h;
  i_desc : map ex_desc (or_heap s) = described h;
  i_doing : forall w x, nth_error (or_workers s) w = Some x -> wk_exp x = option_map job_exp (doing w h);
  i_job : forall w j, doing w h = Some j -> exists x y, nth_error (or_workers s) w = Some x /\ nth_error (or_heap s) (job_exp j) = Some y /\
            wk_kind x = job_kind j /\ job_ok (map snd (registered h)) w j y;
  i_exp : forall e y, nth_error (or_heap s) e = Some y -> exp_inv e y h;
  i_queue : forall k e, List.In e (queue k s) -> exists y, nth_error (or_heap s) e = Some y /\ (length (ex_members k y) < needs k (ex_desc y))%nat;
  i_nodup : forall k, NoDup (queue k s);
  i_given : forall x, List.In x (given h) -> (job_exp (snd x) < length (or_heap s))%nat /\ (fst x < length (or_workers s))%nat;
  i_account : Permutation (given h) (reported h ++ dropped h ++ current h)
}.

Lemma inv_registered s h : inv s h -> length (registered h) = length (or_workers s).
Proof. intros I. rewrite <- (i_workers _ _ I). apply map_length. Qed.
Lemma inv_nobody s h w : inv s h -> (length (or_workers s) <= w)%nat -> doing w h = None.
Proof.
  intros I H. destruct (doing w h) eqn:E; [|reflexivity]. destruct (i_job _ _ I _ _ E) as (x & y & Hx & _).
  assert (w < length (or_workers s))%nat by (apply nth_error_Some; congruence). lia.
Qed.

Lemma perm1 {A} (r d w x : list A) : Permutation (r ++ d ++ w ++ x) (r ++ (w ++ d) ++ [] ++ x).
Proof. apply Permutation_app_head. rewrite app_assoc. apply Permutation_app_tail, Permutation_app_comm. Qed.
Lemma perm2 {A} (r d w x : list A) j : Permutation ((r ++ d ++ w ++ x) ++ [j]) (r ++ (w ++ d) ++ [j] ++ x).
Proof. rewrite (perm1 r d w x). rewrite <- !app_assoc. do 3 apply Permutation_app_head. change ([] ++ x ++ [j]) with (x ++ [j]). apply (Permutation_app_comm x [j]). Qed.
Lemma perm3 {A} (r d w x : list A) : Permutation (r ++ d ++ w ++ x) ((w ++ r) ++ d ++ [] ++ x).
Proof.
  cbn [app]. rewrite <- app_assoc, (Permutation_app_comm w (r ++ d ++ x)), <- !app_assoc.
  do 2 apply Permutation_app_head. apply Permutation_app_comm.
Qed.

(** Events that touch neither jobs nor registrations. *)
Lemma account_step s h ev r : inv s h -> (match acts ev r with Some w => (w < length (or_workers s))%nat | None => True end) ->
  Permutation (given ((ev, r) :: h)) (reported ((ev, r) :: h) ++ dropped ((ev, r) :: h) ++ current ((ev, r) :: h)).
Proof.
  intros I W. pose proof (i_account _ _ I) as A. pose proof (inv_registered _ _ I) as N.
  assert (C : forall n, flat_map (fun w => with_job w h) (seq 0 n) = flat_map (fun w => with_job w h) (seq 0 n)) by reflexivity.
  assert (Q : acts ev r = None -> registered ((ev, r) :: h) = registered h ->
    current ((ev, r) :: h) = current h).
  { intros E E'. unfold current. rewrite E'. rewrite !flat_map_concat_map. f_equal. apply map_ext. intros w. unfold with_job.
    rewrite doing_other by (rewrite E; discriminate). reflexivity. }
  assert (P : forall w, acts ev r = Some w -> registered ((ev, r) :: h) = registered h ->
    exists rest, Permutation (current h) (with_job w h ++ rest) /\ Permutation (current ((ev, r) :: h)) (with_job w ((ev, r) :: h) ++ rest)).
  { intros w E E'. unfold current. rewrite E'. rewrite E in W. apply (change_one (fun v => with_job v h) (fun v => with_job v ((ev, r) :: h)) (length (registered h)) w);
      [lia|]. intros v Hv. unfold with_job. rewrite doing_other by (rewrite E; congruence). reflexivity. }
  destruct ev as [k ip|v|v keys|v|v res|d add|e|];
    try (rewrite (Q (match r with RStored _ _ _ => eq_refl | _ => eq_refl end) eq_refl); exact A).
  - cbn [given reported dropped]. assert (E : current ((Register k ip, r) :: h) = current h); [|now rewrite E].
    unfold current. cbn [registered]. rewrite app_length. cbn [length]. rewrite Nat.add_1_r, seq_S, flat_map_app. cbn [flat_map].
    assert (E : with_job (0 + length (registered h)) ((Register k ip, r) :: h) = []).
    { unfold with_job. rewrite doing_other by discriminate. rewrite (inv_nobody _ _ _ I) by (cbn; lia). reflexivity. }
    rewrite E, !app_nil_r. reflexivity.
  - destruct r; try (rewrite (Q eq_refl eq_refl); exact A).
    + destruct (P v eq_refl eq_refl) as (rest & P1 & P2). cbn [given reported dropped]. rewrite P2, A, P1. unfold with_job at 3. cbn [doing].
      rewrite Nat.eqb_refl. apply perm1.
    + destruct (P v eq_refl eq_refl) as (rest & P1 & P2). cbn [given reported dropped]. rewrite P2, A, P1. unfold with_job at 3. cbn [doing].
      rewrite Nat.eqb_refl. apply perm2.
  - destruct r; try (rewrite (Q eq_refl eq_refl); exact A).
    destruct (P v eq_refl eq_refl) as (rest & P1 & P2). cbn [given reported dropped]. rewrite P2, A, P1. unfold with_job at 3. cbn [doing].
    rewrite Nat.eqb_refl. apply perm3.
Qed.

(** ** Counting *)
Lemma account_counts s h k e : inv s h ->
  length (of_exp k e (given h)) = (length (of_exp k e (reported h)) + length (of_exp k e (dropped h)) + length (of_exp k e (current h)))%nat.
Proof.
  intros I. pose proof (perm_filter (is_for k e) _ _ (i_account _ _ I)) as P. apply Permutation_length in P. unfold of_exp. rewrite P, !filter_app', !app_length. lia.
Qed.
Lemma in_current s h w j : inv s h -> doing w h = Some j -> List.In (w, j) (current h).
Proof.
  intros I D. destruct (i_job _ _ I _ _ D) as (x & y & Hx & _). unfold current. apply in_flat_map. exists w. split.
  - apply in_seq. rewrite (inv_registered _ _ I). assert (w < length (or_workers s))%nat by (apply nth_error_Some; congruence). lia.
  - unfold with_job. rewrite D. left. reflexivity.
Qed.
Lemma kind_eqb_refl k : kind_eqb k k = true.
Proof. destruct k; reflexivity. Qed.
Lemma kind_eqb_eq a b : kind_eqb a b = true <-> a = b.
Proof. destruct a, b; cbn; split; congruence. Qed.
Lemma fin_le s h e y k : inv s h -> nth_error (or_heap s) e = Some y -> (ex_fin k y <= length (ex_members k y))%nat.
Proof.
  intros I H. pose proof (i_exp _ _ I _ _ H) as E. rewrite (e_fin _ _ _ E), (e_members _ _ _ E), map_length, (account_counts _ _ k e I). lia.
Qed.
Lemma fin_lt s h y w j : inv s h -> doing w h = Some j -> nth_error (or_heap s) (job_exp j) = Some y ->
  (ex_fin (job_kind j) y < length (ex_members (job_kind j) y))%nat.
Proof.
  intros I D H. pose proof (i_exp _ _ I _ _ H) as E. rewrite (e_fin _ _ _ E), (e_members _ _ _ E), map_length, (account_counts _ _ _ _ I).
  assert (C : List.In (w, j) (of_exp (job_kind j) (job_exp j) (current h))).
  { apply filter_In. split; [exact (in_current _ _ _ _ I D)|]. unfold is_for. cbn. now rewrite Nat.eqb_refl, kind_eqb_refl. }
  destruct (of_exp (job_kind j) (job_exp j) (current h)); [contradiction|]. cbn. lia.
Qed.

(** ** Quiet requests *)
Definition quiet (ev : event) (r : reply) : bool :=
  match ev, r with
  | Register _ _, _ => false | NewExperiment _ _, _ => false
  | Ping _, RJob _ => false | Ping _, RWait => false | ReportDone _ _, RStored _ _ _ => false
  | _, _ => true
  end.
Lemma quiet_history ev r h : quiet ev r = true ->
  registered ((ev, r) :: h) = registered h /\ described ((ev, r) :: h) = described h /\ given ((ev, r) :: h) = given h /\
  reported ((ev, r) :: h) = reported h /\ dropped ((ev, r) :: h) = dropped h /\ (forall w, doing w ((ev, r) :: h) = doing w h).
Proof. destruct ev; try discriminate; destruct r; try discriminate; cbn; auto 10. Qed.
Definition wshape (w : worker) := (wk_kind w, wk_ip w, wk_exp w).
Lemma nth_map_eq {A B} (g : A -> B) l l' i a : map g l' = map g l -> nth_error l' i = Some a -> exists b, nth_error l i = Some b /\ g b = g a.
Proof.
  intros E H. apply (map_nth_error g) in H. rewrite E in H. rewrite nth_error_map in H. destruct (nth_error l i); [|discriminate].
  cbn in H. inversion H. eauto.
Qed.
Lemma exp_inv_ext e y y' h h' : set_config None y' = set_config None y -> given h' = given h -> reported h' = reported h ->
  exp_inv e y h -> exp_inv e y' h'.
Proof.
  intros E G R [M1 M2 M3 M4 M5 M6 M7].
  assert (F : forall {B} (f : experiment -> B), (forall z, f (set_config None z) = f z) -> f y' = f y).
  { intros B f Hf. rewrite <- (Hf y'), <- (Hf y). now rewrite E. }
  assert (D : ex_desc y' = ex_desc y) by (apply F; reflexivity). assert (C : ex_clients y' = ex_clients y) by (apply F; reflexivity).
  assert (S1 : ex_servers y' = ex_servers y) by (apply F; reflexivity).
  assert (M : forall k, ex_members k y' = ex_members k y) by (intros []; assumption).
  assert (N : forall k, ex_fin k y' = ex_fin k y) by (intros []; apply F; reflexivity).
  constructor; rewrite ?D; intros; rewrite ?M, ?N, ?G, ?R; auto.
  - rewrite C, S1. rewrite (F _ ex_party), (F _ ex_machine), (F _ ex_client) by reflexivity. auto.
  - rewrite S1. apply M5; [assumption|]. now rewrite <- C.
  - rewrite C, S1, (F _ ex_status), (F _ ex_fin_clients), (F _ ex_fin_servers) by reflexivity. exact M6.
Qed.
Lemma job_ok_ext ips w j y y' : set_config None y' = set_config None y -> job_ok ips w j y -> job_ok ips w j y'.
Proof.
  intros E H.
  assert (F : forall {B} (f : experiment -> B), (forall z, f (set_config None z) = f z) -> f y' = f y).
  { intros B f Hf. rewrite <- (Hf y'), <- (Hf y). now rewrite E. }
  destruct j; cbn in *; rewrite ?(F _ ex_desc), ?(F _ ex_server_map), ?(F _ ex_client_map), ?(F _ ex_servers) by reflexivity; exact H.
Qed.

Lemma inv_quiet s h s' ev r : inv s h -> quiet ev r = true ->
  map wshape (or_workers s') = map wshape (or_workers s) -> map (set_config None) (or_heap s') = map (set_config None) (or_heap s) ->
  (forall k e, List.In e (queue k s') -> List.In e (queue k s)) -> (forall k, NoDup (queue k s')) -> inv s' ((ev, r) :: h).
Proof.
  intros I Q W H Qi Qn. destruct (quiet_history _ _ h Q) as (E1 & E2 & E3 & E4 & E5 & E6).
  assert (LH : length (or_heap s') = length (or_heap s)) by (rewrite <- (map_length (set_config None)), H; apply map_length).
  constructor.
  - rewrite E1, <- (i_workers _ _ I). replace (fun w : worker => (wk_kind w, wk_ip w)) with (fun w : worker => fst (wshape w)) by reflexivity.
    rewrite <- !(map_map wshape fst), W. reflexivity.
  - rewrite E2, <- (i_desc _ _ I). assert (M : forall l, map ex_desc l = map ex_desc (map (set_config None) l)) by (intros l; rewrite map_map; apply map_ext; reflexivity).
    rewrite (M (or_heap s')), (M (or_heap s)), H. reflexivity.
  - intros w x Hx. rewrite E6. destruct (nth_map_eq _ _ _ _ _ W Hx) as (x0 & Hx0 & Es). rewrite <- (i_doing _ _ I _ _ Hx0). inversion Es. reflexivity.
  - intros w j. rewrite E6, E1. intros Hd. destruct (i_job _ _ I _ _ Hd) as (x & y & Hx & Hy & Hk & Hj).
    destruct (nth_map_eq _ _ _ _ _ (eq_sym W) Hx) as (x' & Hx' & Es). destruct (nth_map_eq _ _ _ _ _ (eq_sym H) Hy) as (y' & Hy' & Ey).
    exists x', y'. repeat split; [assumption|assumption| |exact (job_ok_ext _ _ _ _ _ Ey Hj)]. rewrite <- Hk. inversion Es. reflexivity.
  - intros e y Hy. destruct (nth_map_eq _ _ _ _ _ H Hy) as (y0 & Hy0 & Ey). exact (exp_inv_ext _ _ _ _ _ (eq_sym Ey) E3 E4 (i_exp _ _ I _ _ Hy0)).
  - intros k e Hq. destruct (i_queue _ _ I _ _ (Qi _ _ Hq)) as (y & Hy & Hl). destruct (nth_map_eq _ _ _ _ _ (eq_sym H) Hy) as (y' & Hy' & Ey).
    exists y'. split; [assumption|]. assert (ex_members k y' = ex_members k y) as -> by (destruct k; [exact (f_equal ex_servers Ey)|exact (f_equal ex_clients Ey)]).
    assert (ex_desc y' = ex_desc y) as -> by (exact (f_equal ex_desc Ey)). assumption.
  - assumption.
  - intros x. rewrite E3, LH. assert (length (or_workers s') = length (or_workers s)) as -> by (rewrite <- (map_length wshape), W; apply map_length).
    apply (i_given _ _ I).
  - apply (account_step s); [assumption|]. destruct ev; try discriminate; destruct r; try discriminate; exact Logic.I.
Qed.

Lemma inv_register s h k ip r : inv s h -> inv (add_worker k ip s) ((Register k ip, r) :: h).
Proof.
  intros I. constructor; cbn [registered described given reported or_workers add_worker set_workers or_heap].
  - rewrite map_app. cbn. now rewrite (i_workers _ _ I).
  - exact (i_desc _ _ I).
  - intros w x Hx. rewrite doing_other by discriminate. destruct (Nat.lt_ge_cases w (length (or_workers s))) as [L|L].
    + rewrite nth_error_app1 in Hx by assumption. exact (i_doing _ _ I _ _ Hx).
    + rewrite nth_error_app2 in Hx by assumption. rewrite (inv_nobody _ _ _ I L). destruct (w - length (or_workers s))%nat as [|[|n]]; cbn in Hx; inversion Hx. reflexivity.
  - intros w j. rewrite doing_other by discriminate. intros D. destruct (i_job _ _ I _ _ D) as (x & y & Hx & Hy & Hk & Hj). exists x, y.
    repeat split; [|assumption|assumption|].
    + rewrite nth_error_app1; [assumption|]. apply nth_error_Some. congruence.
    + rewrite map_app. destruct j; cbn in *; try exact Hj. destruct Hj as (A & B & C & s1 & s2 & D1 & D2 & D3 & D4). repeat split; auto.
      exists s1, s2. split; [assumption|]. repeat split; try apply D4; (rewrite nth_error_app1; [assumption|apply nth_error_Some; congruence]).
  - intros e y Hy. exact (exp_inv_ext _ _ _ h ((Register k ip, r) :: h) eq_refl eq_refl eq_refl (i_exp _ _ I _ _ Hy)).
  - intros k0 e Hq. apply (i_queue _ _ I k0 e). destruct k0; exact Hq.
  - intros k0. destruct k0; [exact (i_nodup _ _ I Server)|exact (i_nodup _ _ I Client)].
  - intros x Hx. rewrite app_length. pose proof (i_given _ _ I _ Hx). lia.
  - exact (account_step s h (Register k ip) r I Logic.I).
Qed.

Lemma sized_sized d : sized_ok (sized d).
Proof. unfold sized_ok, sized. cbn. destruct (ds_kind d); cbn; auto. Qed.
Lemma no_given s h e k : inv s h -> (length (or_heap s) <= e)%nat -> of_exp k e (given h) = [].
Proof.
  intros I L. unfold of_exp. destruct (filter (is_for k e) (given h)) as [|x l] eqn:E; [reflexivity|].
  assert (H : List.In x (filter (is_for k e) (given h))) by (rewrite E; left; reflexivity). apply filter_In in H as [H1 H2].
  pose proof (i_given _ _ I _ H1). unfold is_for in H2. apply andb_prop in H2 as [H2 _]. apply Nat.eqb_eq in H2. lia.
Qed.
Lemma no_reported s h e k : inv s h -> (length (or_heap s) <= e)%nat -> of_exp k e (reported h) = [].
Proof.
  intros I L. pose proof (account_counts _ _ k e I) as A. rewrite (no_given _ _ _ k I L) in A. cbn in A.
  destruct (of_exp k e (reported h)); [reflexivity|cbn in A; lia].
Qed.
Lemma inv_new s h d add r : inv s h -> inv (add_experiment d add s) ((NewExperiment d add, r) :: h).
Proof.
  intros I. assert (Q : forall k, queue k (add_experiment d add s) = if add && (0 <? needs k (sized d))%nat then queue k s ++ [length (or_heap s)] else queue k s)
    by (intros []; reflexivity).
  constructor; cbn [registered described given reported or_workers add_experiment or_heap].
  - exact (i_workers _ _ I).
  - rewrite map_app. cbn. now rewrite (i_desc _ _ I).
  - intros w x Hx. rewrite doing_other by discriminate. exact (i_doing _ _ I _ _ Hx).
  - intros w j. rewrite doing_other by discriminate. intros D. destruct (i_job _ _ I _ _ D) as (x & y & Hx & Hy & Hk & Hj). exists x, y.
    repeat split; try assumption. rewrite nth_error_app1; [assumption|]. apply nth_error_Some. congruence.
  - intros e y Hy. destruct (Nat.lt_ge_cases e (length (or_heap s))) as [L|L].
    + rewrite nth_error_app1 in Hy by assumption. exact (exp_inv_ext _ _ _ h ((NewExperiment d add, r) :: h) eq_refl eq_refl eq_refl (i_exp _ _ I _ _ Hy)).
    + assert (y = new_experiment d) as -> by (rewrite nth_error_app2 in Hy by assumption;
        destruct (e - length (or_heap s))%nat as [|[|n]]; cbn in Hy; inversion Hy; reflexivity).
      assert (G : forall k, of_exp k e (given ((NewExperiment d add, r) :: h)) = []) by (intros k; exact (no_given _ _ _ k I L)).
      assert (R : forall k, of_exp k e (reported ((NewExperiment d add, r) :: h)) = []) by (intros k; exact (no_reported _ _ _ k I L)).
      constructor.
      * intros k. rewrite G. destruct k; reflexivity.
      * intros []; cbn; lia.
      * intros k. rewrite R. destruct k; reflexivity.
      * intros _. rewrite !G. cbn [ex_servers ex_clients new_experiment length seq map ex_party ex_machine ex_client]. repeat split.
        -- destruct (ds_parallel (ex_desc (new_experiment d))) eqn:Ep; [reflexivity|]. symmetry. apply Nat.div_0_l. lia.
        -- destruct (ds_parallel (ex_desc (new_experiment d))) eqn:Ep; [reflexivity|]. symmetry. apply Nat.mod_0_l. lia.
      * cbn. lia.
      * cbn [ex_status new_experiment ex_clients ex_servers ex_desc length ex_fin_clients ex_fin_servers]. unfold status_of.
        destruct (Nat.ltb_spec 0 (ds_clients (sized d))); [reflexivity|]. destruct (Nat.ltb_spec 0 (ds_servers (sized d))); [reflexivity|].
        destruct (Nat.eqb_spec (ds_clients (sized d) + ds_servers (sized d)) 0); [reflexivity|lia].
      * apply sized_sized.
  - intros k e Hq. rewrite Q in Hq. assert (Hq' : List.In e (queue k s) \/ e = length (or_heap s) /\ (0 < needs k (sized d))%nat).
    { destruct (add && (0 <? needs k (sized d))%nat) eqn:Ea; [|left; assumption]. apply in_app_or in Hq as [Hq|[Hq|[]]]; [left; assumption|right].
      apply andb_prop in Ea as [_ Ea]. apply Nat.ltb_lt in Ea. auto. }
    destruct Hq' as [Hq'|[-> Hn]].
    + destruct (i_queue _ _ I _ _ Hq') as (y & Hy & Hl). exists y. split; [|assumption]. rewrite nth_error_app1; [assumption|]. apply nth_error_Some. congruence.
    + exists (new_experiment d). rewrite nth_error_app2, Nat.sub_diag by lia. split; [reflexivity|]. destruct k; exact Hn.
  - intros k. rewrite Q. destruct (add && (0 <? needs k (sized d))%nat); [|apply (i_nodup _ _ I)].
    apply (Permutation_NoDup (l := length (or_heap s) :: queue k s)); [apply Permutation_cons_append|]. constructor; [|apply (i_nodup _ _ I)].
    intros Hin. destruct (i_queue _ _ I _ _ Hin) as (y & Hy & _). assert (length (or_heap s) < length (or_heap s))%nat by (apply nth_error_Some; congruence). lia.
  - intros x Hx. rewrite app_length. pose proof (i_given _ _ I _ Hx). lia.
  - exact (account_step s h (NewExperiment d add) r I Logic.I).
Qed.

(** ** Reports *)
Definition exp_of (j : job) (e : nat) (k : wkind) : Prop := job_exp j = e /\ job_kind j = k.
Lemma is_for_true k e w j : is_for k e (w, j) = true <-> exp_of j e k.
Proof. unfold is_for, exp_of. cbn. rewrite andb_true_iff, Nat.eqb_eq, kind_eqb_eq. reflexivity. Qed.
Lemma is_for_false k e w j : is_for k e (w, j) = false <-> ~ exp_of j e k.
Proof. rewrite <- is_for_true. destruct (is_for k e (w, j)) eqn:E; rewrite E; split; congruence. Qed.

Lemma exp_finished_inv s h w j y res name f text : inv s h -> doing w h = Some j -> nth_error (or_heap s) (job_exp j) = Some y ->
  exp_inv (job_exp j) (exp_finished (job_kind j) y) ((ReportDone w res, RStored name f text) :: h).
Proof.
  intros I D Hy. pose proof (i_exp _ _ I _ _ Hy) as E. pose proof (fin_lt _ _ _ _ _ I D Hy) as L.
  pose proof (fin_le _ _ _ _ Client I Hy) as LC. pose proof (fin_le _ _ _ _ Server I Hy) as LS.
  pose proof (e_room _ _ _ E Client) as RC. pose proof (e_room _ _ _ E Server) as RS. pose proof (e_check _ _ _ E) as CK. pose proof (e_status _ _ _ E) as ST.
  pose proof (e_sized _ _ _ E) as SZ.
  cbn [ex_fin ex_members needs] in LC, LS, RC, RS.
  constructor.
  - intros k. cbn [given]. rewrite <- (e_members _ _ _ E k). destruct k; reflexivity.
  - intros k. pose proof (e_room _ _ _ E k) as R. destruct k; exact R.
  - intros k. cbn [reported]. unfold with_job. rewrite D. cbn [app]. unfold of_exp. cbn [filter].
    destruct (is_for k (job_exp j) (w, j)) eqn:Ef.
    + apply is_for_true in Ef as [_ Ef]. subst k. cbn [length]. pose proof (e_fin _ _ _ E (job_kind j)) as F. unfold of_exp in F.
      destruct (job_kind j); cbn [ex_fin exp_finished ex_fin_clients ex_fin_servers] in *; congruence.
    + apply is_for_false in Ef. pose proof (e_fin _ _ _ E k) as F. unfold of_exp in F. rewrite <- F. assert (job_kind j <> k) by (intros <-; apply Ef; split; reflexivity).
      destruct (job_kind j), k; try congruence; reflexivity.
  - cbn [given]. exact (e_roles _ _ _ E).
  - exact CK.
  - cbn [ex_desc exp_finished ex_clients ex_servers ex_fin_clients ex_fin_servers ex_status]. rewrite ST. unfold status_of, sized_ok in *. clear ST.
    set (d := ex_desc y) in *. set (gc := length (ex_clients y)) in *. set (gs := length (ex_servers y)) in *.
    set (fc := ex_fin_clients y) in *. set (fs := ex_fin_servers y) in *. set (dc := ds_clients d) in *. set (dn := ds_servers d) in *.
    destruct (job_kind j) eqn:Ek; cbn [ex_fin ex_members] in L; fold gc gs fc fs in L.
    + destruct (Nat.eqb_spec (S fs) dn) as [E1|E1]; destruct (Nat.eqb_spec fc dc) as [E2|E2]; cbn [andb].
      * destruct (Nat.ltb_spec gc dc); [lia|]. destruct (Nat.ltb_spec gs dn); [lia|]. destruct (Nat.eqb_spec (dc + dn) 0); [lia|]. reflexivity.
      * reflexivity.
      * destruct (Nat.eqb_spec fs dn); [lia|]. reflexivity.
      * reflexivity.
    + destruct (Nat.eqb_spec (S fc) dc) as [E1|E1]; cbn [andb].
      * destruct (Nat.eqb_spec dn 0) as [E3|E3]; cbn [orb].
        -- destruct (Nat.ltb_spec gc dc); [lia|]. destruct (Nat.ltb_spec gs dn); [lia|]. destruct (Nat.eqb_spec (dc + dn) 0); [lia|]. cbn [orb].
           destruct (Nat.eqb_spec fs dn); [reflexivity|lia].
        -- destruct (Nat.eqb_spec fs dn) as [E4|E4].
           ++ destruct (Nat.ltb_spec gc dc); [lia|]. destruct (Nat.ltb_spec gs dn); [lia|]. destruct (Nat.eqb_spec (dc + dn) 0); [lia|]. reflexivity.
           ++ destruct (ds_kind d) eqn:Kd.
              ** destruct (Nat.eqb_spec fc dc); [lia|]. reflexivity.
              ** assert (gs = dn) by (apply CK; [reflexivity|lia]). destruct (Nat.ltb_spec gc dc); [lia|]. destruct (Nat.ltb_spec gs dn); [lia|].
                 destruct (Nat.eqb_spec (dc + dn) 0); [lia|]. reflexivity.
              ** destruct (Nat.eqb_spec fc dc); [lia|]. reflexivity.
      * destruct (Nat.eqb_spec fc dc); [lia|]. reflexivity.
  - exact SZ.
Qed.

Lemma exp_inv_other e y h ev r : (match ev, r with Ping _, RJob j => job_exp j <> e | ReportDone w _, RStored _ _ _ => forall j, doing w h = Some j -> job_exp j <> e | _, _ => True end) ->
  exp_inv e y h -> exp_inv e y ((ev, r) :: h).
Proof.
  intros H E. assert (G : forall k, of_exp k e (given ((ev, r) :: h)) = of_exp k e (given h)).
  { intros k. destruct ev; try reflexivity. destruct r; try reflexivity. cbn [given]. unfold of_exp. rewrite filter_app'. cbn [filter].
    assert (is_for k e (w, j) = false) as -> by (apply is_for_false; intros [X _]; congruence). apply app_nil_r. }
  assert (R : forall k, of_exp k e (reported ((ev, r) :: h)) = of_exp k e (reported h)).
  { intros k. destruct ev; try reflexivity. destruct r; try reflexivity. cbn [reported]. unfold of_exp, with_job. rewrite filter_app'.
    destruct (doing w h) as [j|] eqn:D; [|reflexivity]. cbn [filter].
    assert (is_for k e (w, j) = false) as -> by (apply is_for_false; intros [X _]; exact (H j eq_refl X)). reflexivity. }
  destruct E as [M1 M2 M3 M4 M5 M6 M7]. constructor; intros; rewrite ?G, ?R; auto.
Qed.

Lemma lookup_job_file ips w j y : job_ok ips w j y -> result_file w (job_kind j) y = Some (job_file w j).
Proof.
  unfold result_file. destruct j; cbn; intros H.
  - destruct H as (-> & -> & _). reflexivity.
  - destruct H as (-> & -> & _). reflexivity.
  - destruct H as (-> & _). reflexivity.
  - destruct H as (-> & _). reflexivity.
  - destruct H as (-> & _). reflexivity.
Qed.

Lemma inv_report a s h s' w res r : inv s h -> handle a s (ReportDone w res) = (s', r) -> inv s' ((ReportDone w res, r) :: h) /\
  (forall j, doing w h = Some j -> exists d, nth_error (described h) (job_exp j) = Some d /\ r = RStored (ds_name d) (job_file w j) res) /\
  (doing w h = None -> s' = s /\ r = RError).
Proof.
  intros I H. cbn in H.
  destruct (nth_error (or_workers s) w) as [x|] eqn:Hx.
  2:{ assert (Dn : doing w h = None) by (apply (inv_nobody _ _ _ I), nth_error_None, Hx).
      inversion H; subst. split; [apply (inv_quiet s' h); auto; apply (i_nodup _ _ I)|]. split; [congruence|auto]. }
  pose proof (i_doing _ _ I _ _ Hx) as Hd. destruct (doing w h) as [j|] eqn:D; cbn in Hd; rewrite Hd in H.
  2:{ inversion H; subst. split; [apply (inv_quiet s' h); auto; apply (i_nodup _ _ I)|]. split; [congruence|auto]. }
  destruct (i_job _ _ I _ _ D) as (x' & y & Hx' & Hy & Hk & Hj). assert (x' = x) as -> by congruence. rewrite Hy, Hk in H.
  rewrite (lookup_job_file _ _ _ _ Hj) in H. inversion H; subst s' r. clear H.
  set (ev := (ReportDone w res, RStored (ds_name (ex_desc y)) (job_file w j) res)).
  assert (Dw : doing w (ev :: h) = None) by (cbn; now rewrite Nat.eqb_refl).
  assert (Do : forall v, v <> w -> doing v (ev :: h) = doing v h) by (intros v Hv; apply doing_other; cbn; congruence).
  split.
  2:{ split; [|congruence]. intros j' Ej. inversion Ej; subst j'. exists (ex_desc y). split; [|reflexivity]. rewrite <- (i_desc _ _ I). now apply map_nth_error. }
  assert (KW : forall v x0, nth_error (kill_all (finish_kills (job_kind j) y) (update w worker_ready (or_workers s))) v = Some x0 ->
    exists x1, nth_error (or_workers s) v = Some x1 /\ wk_kind x0 = wk_kind x1 /\ wk_ip x0 = wk_ip x1 /\ wk_exp x0 = if (w =? v)%nat then None else wk_exp x1).
  { intros v x0. rewrite kill_nth, update_nth. destruct (nth_error (or_workers s) v) as [x1|]; [|destruct (existsb _ _), (w =? v)%nat; discriminate].
    intros H. exists x1. split; [reflexivity|]. destruct (existsb (Nat.eqb v) (finish_kills (job_kind j) y)), (w =? v)%nat; cbn in H; inversion H;
      try (destruct (worker_kill_same (worker_ready x1)) as (-> & -> & ->)); try (destruct (worker_kill_same x1) as (-> & -> & ->)); auto. }
  constructor; cbn [or_workers or_heap].
  - unfold ev. cbn [registered]. rewrite kill_map, update_map by (intros x0; try (destruct (worker_kill_same x0) as (-> & -> & _)); reflexivity). exact (i_workers _ _ I).
  - unfold ev. cbn [described]. rewrite update_map by reflexivity. exact (i_desc _ _ I).
  - intros v x0 Hv. destruct (KW _ _ Hv) as (x1 & H1 & _ & _ & ->). destruct (Nat.eqb_spec w v) as [<-|Hn]; [now rewrite Dw|].
    rewrite Do by congruence. exact (i_doing _ _ I _ _ H1).
  - intros v j'. destruct (Nat.eq_dec v w) as [->|Hn]; [rewrite Dw; discriminate|]. rewrite Do by assumption. intros D'.
    destruct (i_job _ _ I _ _ D') as (x1 & y1 & H1 & H2 & H3 & H4).
    assert (exists x0, nth_error (kill_all (finish_kills (job_kind j) y) (update w worker_ready (or_workers s))) v = Some x0) as (x0 & H0).
    { destruct (nth_error (kill_all _ _) v) eqn:En; [eauto|]. apply nth_error_None in En. rewrite kill_length, update_length in En.
      assert (v < length (or_workers s))%nat by (apply nth_error_Some; congruence). lia. }
    destruct (KW _ _ H0) as (x1' & H1' & K1 & _ & _). assert (x1' = x1) as -> by congruence.
    exists x0, (if (job_exp j =? job_exp j')%nat then exp_finished (job_kind j) y1 else y1). repeat split; [assumption| |congruence|].
    + rewrite update_nth, H2. destruct (_ =? _)%nat; reflexivity.
    + unfold ev. cbn [registered]. destruct (_ =? _)%nat; [|assumption]. destruct j'; exact H4.
  - intros e y1. rewrite update_nth. destruct (Nat.eqb_spec (job_exp j) e) as [<-|Hn].
    + rewrite Hy. cbn. intros Hy1. inversion Hy1; subst y1. now apply (exp_finished_inv s).
    + intros Hy1. apply exp_inv_other; [|exact (i_exp _ _ I _ _ Hy1)]. cbn. rewrite D. intros j' Ej. inversion Ej; subst. assumption.
  - intros k e Hq. destruct (i_queue _ _ I k e) as (y1 & Hy1 & Hl); [destruct k; exact Hq|].
    exists (if (job_exp j =? e)%nat then exp_finished (job_kind j) y1 else y1). rewrite update_nth, Hy1. split; [destruct (_ =? _)%nat; reflexivity|].
    destruct (_ =? _)%nat; [|assumption]. destruct k; exact Hl.
  - intros k. destruct k; [exact (i_nodup _ _ I Server)|exact (i_nodup _ _ I Client)].
  - intros x0 Hx0. rewrite kill_length, !update_length. exact (i_given _ _ I _ Hx0).
  - apply (account_step s); [assumption|]. cbn. apply nth_error_Some. congruence.
Qed.

(** ** Pings *)
Lemma update_twice {A} i (f g : A -> A) l : update i f (update i g l) = update i (fun x => f (g x)) l.
Proof. revert i. induction l; intros [|i]; cbn; f_equal; auto. Qed.
Definition new_job (w : nat) (k : wkind) (e : nat) (y : experiment) : option job :=
  match ds_kind (ex_desc y), k with
  | Dppir, Server => Some (JParty e (ex_party y) (ex_machine y) (ds_mode (ex_desc y)))
  | Dppir, Client => Some (JClient e (ex_client y) (ds_queries (ex_desc y)) (ds_mode (ex_desc y)))
  | Checklist, Server => Some (JCheckServer e w (ds_table (ex_desc y)) (port_of w) (ds_mode (ex_desc y)))
  | Sealpir, Client => Some (JSealpir e (ds_table (ex_desc y)) (ds_queries (ex_desc y)))
  | _, _ => None
  end.

Lemma given_worker s h e y k v : inv s h -> nth_error (or_heap s) e = Some y -> List.In v (ex_members k y) -> (v < length (or_workers s))%nat.
Proof.
  intros I Hy H. rewrite (e_members _ _ _ (i_exp _ _ I _ _ Hy)) in H. apply in_map_iff in H as (x & <- & H). apply filter_In in H as [H _].
  apply (i_given _ _ I _ H).
Qed.

Lemma job_given s h w x k e y s' : inv s h -> nth_error (or_workers s) w = Some x -> nth_error (or_heap s) e = Some y ->
  (length (ex_members k y) < needs k (ex_desc y))%nat -> (k = Client -> ready_for_clients y = true) ->
  map wk_ip (or_workers s') = map wk_ip (or_workers s) -> or_heap s' = update e (exp_assign w k) (or_heap s) ->
  exists j, serialize_job w k e s' = Some j /\ exp_of j e k /\ job_ok (map snd (registered h)) w j (exp_assign w k y) /\
    (ds_kind (ex_desc y) = Dppir -> new_job w k e y = Some j).
Proof.
  intros I Hw Hy Hr Hc Hip Hh. pose proof (i_exp _ _ I _ _ Hy) as E. pose proof (e_sized _ _ _ E) as SZ. unfold sized_ok in SZ. unfold serialize_job, new_job.
  rewrite Hh, update_same, Hy. cbn [option_map ex_desc exp_assign].
  destruct (ds_kind (ex_desc y)) eqn:K, k; cbn [ex_server_map ex_client_map exp_assign]; rewrite ?K.
  - cbn [lookup]. rewrite Nat.eqb_refl. eexists. split; [reflexivity|]. split; [split; reflexivity|]. split; [|auto]. cbn. rewrite K. cbn. rewrite Nat.eqb_refl. auto.
  - cbn [lookup]. rewrite Nat.eqb_refl. eexists. split; [reflexivity|]. split; [split; reflexivity|]. split; [|auto]. cbn. rewrite K. cbn. rewrite Nat.eqb_refl. auto.
  - eexists. split; [reflexivity|]. split; [split; reflexivity|]. split; [|discriminate]. cbn. auto.
  - specialize (Hc eq_refl). unfold ready_for_clients in Hc. rewrite K in Hc. apply Nat.eqb_eq in Hc. destruct SZ as [_ SZ]. rewrite SZ in Hc.
    cbn [ex_servers exp_assign]. destruct (ex_servers y) as [|s1 [|s2 [|]]] eqn:Es; try discriminate.
    assert (Hs : forall v, List.In v [s1; s2] -> exists u, nth_error (or_workers s') v = Some u /\ nth_error (map snd (registered h)) v = Some (wk_ip u)).
    { intros v Hv. assert (Hl : (v < length (or_workers s))%nat) by (apply (given_worker _ _ e y Server v I Hy); cbn; rewrite Es; exact Hv).
      assert (Hl' : (v < length (or_workers s'))%nat) by (rewrite <- (map_length wk_ip), Hip, map_length; exact Hl).
      destruct (nth_error (or_workers s') v) as [u|] eqn:Eu; [|apply nth_error_None in Eu; lia]. exists u. split; [reflexivity|].
      rewrite <- (i_workers _ _ I), map_map. cbn. change (fun x0 : worker => wk_ip x0) with wk_ip. rewrite <- Hip. now apply map_nth_error. }
    destruct (Hs s1) as (u1 & E1 & F1); [left; reflexivity|]. destruct (Hs s2) as (u2 & E2 & F2); [right; left; reflexivity|].
    rewrite E1, E2. eexists. split; [reflexivity|]. split; [split; reflexivity|]. split; [|discriminate].
    unfold job_ok. cbn [ex_desc exp_assign ex_servers]. repeat split; [assumption|]. exists s1, s2. auto.
  - cbn [needs] in Hr. destruct SZ as [_ SZ]. rewrite SZ in Hr. lia.
  - eexists. split; [reflexivity|]. split; [split; reflexivity|]. split; [|discriminate]. cbn. auto.
Qed.

Lemma div_mod_step n q : ((if (S (n mod q) =? q)%nat then S (n / q) else n / q) = S n / q /\ (if (S (n mod q) =? q)%nat then 0 else S (n mod q)) = S n mod q)%nat.
Proof.
  destruct q as [|q]; [auto|]. pose proof (Nat.div_mod n (S q) ltac:(lia)) as D. pose proof (Nat.mod_upper_bound n (S q) ltac:(lia)) as U.
  destruct (Nat.eqb_spec (S (n mod S q)) (S q)) as [E|E].
  - split; [apply (Nat.div_unique _ _ _ 0)|apply (Nat.mod_unique _ _ (S (n / S q)))]; lia.
  - split; [apply (Nat.div_unique _ _ _ (S (n mod S q)))|apply (Nat.mod_unique _ _ (n / S q))]; lia.
Qed.

Lemma members_assign w k y k' : ex_members k' (exp_assign w k y) = if kind_eqb k k' then ex_members k' y ++ [w] else ex_members k' y.
Proof. destruct k, k'; reflexivity. Qed.

Lemma exp_assign_inv s h w k e y j : inv s h -> nth_error (or_heap s) e = Some y ->
  (length (ex_members k y) < needs k (ex_desc y))%nat -> (k = Client -> ready_for_clients y = true) ->
  exp_of j e k -> (ds_kind (ex_desc y) = Dppir -> new_job w k e y = Some j) ->
  exp_inv e (exp_assign w k y) ((Ping w, RJob j) :: h).
Proof.
  intros I Hy Hr Hc Hj Hn. pose proof (i_exp _ _ I _ _ Hy) as E.
  pose proof (fin_le _ _ _ _ Client I Hy) as LC. pose proof (fin_le _ _ _ _ Server I Hy) as LS.
  pose proof (e_room _ _ _ E Client) as RC. pose proof (e_room _ _ _ E Server) as RS. pose proof (e_check _ _ _ E) as CK. pose proof (e_status _ _ _ E) as ST.
  cbn [ex_fin ex_members needs] in LC, LS, RC, RS.
  assert (G : forall k', of_exp k' e (given ((Ping w, RJob j) :: h)) = if kind_eqb k k' then of_exp k' e (given h) ++ [(w, j)] else of_exp k' e (given h)).
  { intros k'. cbn [given]. unfold of_exp. rewrite filter_app'. cbn [filter]. destruct (kind_eqb k k') eqn:Ek.
    - apply kind_eqb_eq in Ek as <-. now rewrite (proj2 (is_for_true k e w j) Hj).
    - assert (is_for k' e (w, j) = false) as ->; [|apply app_nil_r]. apply is_for_false. intros [_ X]. destruct Hj as [_ Hj]. rewrite Hj in X. subst.
      rewrite kind_eqb_refl in Ek. discriminate. }
  constructor.
  - intros k'. rewrite members_assign, G, (e_members _ _ _ E). destruct (kind_eqb k k'); [|reflexivity]. rewrite map_app. reflexivity.
  - intros k'. rewrite members_assign. change (ex_desc (exp_assign w k y)) with (ex_desc y). destruct (kind_eqb k k') eqn:Ek.
    + apply kind_eqb_eq in Ek as <-. rewrite app_length. cbn. lia.
    + apply (e_room _ _ _ E).
  - intros k'. cbn [reported]. rewrite <- (e_fin _ _ _ E). destruct k'; reflexivity.
  - change (ex_desc (exp_assign w k y)) with (ex_desc y). intros K. specialize (Hn K). destruct (e_roles _ _ _ E K) as (R1 & R2 & R3 & R4 & R5).
    unfold new_job in Hn. rewrite K in Hn. rewrite !G.
    destruct k; inversion Hn; subst j; cbn [kind_eqb ex_servers ex_clients exp_assign ex_party ex_machine ex_client]; rewrite K; cbn [andb].
    + rewrite app_length, Nat.add_1_r, seq_S, !map_app, R1, R2. cbn [map]. rewrite Nat.add_0_l, R3, R4.
      destruct (div_mod_step (length (ex_servers y)) (ds_parallel (ex_desc y))) as [D1 D2]. repeat split; auto.
    + rewrite app_length, Nat.add_1_r, seq_S, !map_app, R1, R2. cbn [map]. rewrite Nat.add_0_l, R5. repeat split; auto.
  - change (ex_desc (exp_assign w k y)) with (ex_desc y). intros K Hp. destruct k; cbn [ex_servers ex_clients exp_assign] in *.
    + specialize (CK K Hp). cbn [ex_members needs] in Hr. lia.
    + specialize (Hc eq_refl). unfold ready_for_clients in Hc. rewrite K in Hc. apply Nat.eqb_eq, Hc.
  - unfold status_of in *. destruct k; cbn [ex_desc exp_assign ex_clients ex_servers ex_fin_clients ex_fin_servers ex_status ex_members needs] in *;
      rewrite ST, app_length, Nat.add_1_r; cbn [length] in *.
    + destruct (Nat.eqb_spec (length (ex_clients y)) (ds_clients (ex_desc y))) as [E1|E1]; destruct (Nat.eqb_spec (S (length (ex_servers y))) (ds_servers (ex_desc y))) as [E2|E2]; cbn [andb].
      * destruct (Nat.ltb_spec (length (ex_clients y)) (ds_clients (ex_desc y))); [lia|]. destruct (Nat.ltb_spec (S (length (ex_servers y))) (ds_servers (ex_desc y))); [lia|].
        destruct (Nat.eqb_spec (ds_clients (ex_desc y) + ds_servers (ex_desc y)) 0); [lia|]. cbn [orb].
        destruct (Nat.eqb_spec (ex_fin_servers y) (ds_servers (ex_desc y))); [lia|]. rewrite andb_false_r.
        destruct (ds_kind (ex_desc y)) eqn:K; auto. destruct (Nat.eqb_spec (ex_fin_clients y) (ds_clients (ex_desc y))) as [E3|E3]; [|reflexivity].
        exfalso. pose proof (e_sized _ _ _ E) as SZ. unfold sized_ok in SZ. rewrite K in SZ. assert (length (ex_servers y) = ds_servers (ex_desc y)) by (apply CK; [reflexivity|lia]). lia.
      * destruct (Nat.ltb_spec (length (ex_servers y)) (ds_servers (ex_desc y))); [|lia]. destruct (Nat.ltb_spec (S (length (ex_servers y))) (ds_servers (ex_desc y))); [|lia].
        now rewrite !orb_true_r.
      * destruct (Nat.ltb_spec (length (ex_clients y)) (ds_clients (ex_desc y))); [|lia]. reflexivity.
      * destruct (Nat.ltb_spec (length (ex_clients y)) (ds_clients (ex_desc y))); [|lia]. reflexivity.
    + destruct (Nat.eqb_spec (S (length (ex_clients y))) (ds_clients (ex_desc y))) as [E1|E1]; destruct (Nat.eqb_spec (length (ex_servers y)) (ds_servers (ex_desc y))) as [E2|E2]; cbn [andb].
      * destruct (Nat.ltb_spec (S (length (ex_clients y))) (ds_clients (ex_desc y))); [lia|]. destruct (Nat.ltb_spec (length (ex_servers y)) (ds_servers (ex_desc y))); [lia|].
        destruct (Nat.eqb_spec (ds_clients (ex_desc y) + ds_servers (ex_desc y)) 0); [lia|]. cbn [orb].
        destruct (Nat.eqb_spec (ex_fin_clients y) (ds_clients (ex_desc y))); [lia|]. cbn [andb]. destruct (ds_kind (ex_desc y)); reflexivity.
      * destruct (Nat.ltb_spec (length (ex_clients y)) (ds_clients (ex_desc y))); [|lia]. destruct (Nat.ltb_spec (length (ex_servers y)) (ds_servers (ex_desc y))); [|lia].
        rewrite !orb_true_r. reflexivity.
      * destruct (Nat.ltb_spec (length (ex_clients y)) (ds_clients (ex_desc y))); [|lia]. destruct (Nat.ltb_spec (S (length (ex_clients y))) (ds_clients (ex_desc y))); [|lia]. reflexivity.
      * destruct (Nat.ltb_spec (length (ex_clients y)) (ds_clients (ex_desc y))); [|lia]. destruct (Nat.ltb_spec (S (length (ex_clients y))) (ds_clients (ex_desc y))); [|lia]. reflexivity.
  - exact (e_sized _ _ _ E).
Qed.

Lemma ping_cases a s h s' w r x : inv s h -> handle a s (Ping w) = (s', r) -> nth_error (or_workers s) w = Some x ->
  let k := wk_kind x in
  (r = RWait /\ s' = set_workers s (update w worker_ready (or_workers s)) /\
     (queue k s = [] \/ k = Client /\ exists e rest y, queue k s = e :: rest /\ nth_error (or_heap s) e = Some y /\ ready_for_clients y = false)) \/
  (exists e rest y j, queue k s = e :: rest /\ nth_error (or_heap s) e = Some y /\ (k = Client -> ready_for_clients y = true) /\ r = RJob j /\ exp_of j e k /\
     job_ok (map snd (registered h)) w j (exp_assign w k y) /\ (ds_kind (ex_desc y) = Dppir -> new_job w k e y = Some j) /\
     or_workers s' = update w (worker_assign e) (or_workers s) /\ or_heap s' = update e (exp_assign w k) (or_heap s) /\ or_list s' = or_list s /\
     (forall k', queue k' s' = if kind_eqb k k' then (if (needs k (ex_desc y) =? S (length (ex_members k y)))%nat then rest else queue k s) else queue k' s)).
Proof.
  intros I H Hx k. cbn in H. rewrite Hx in H. fold k in H.
  assert (JG : forall e y, List.In e (queue k s) -> nth_error (or_heap s) e = Some y -> (k = Client -> ready_for_clients y = true) ->
    exists j, (forall s2, map wk_ip (or_workers s2) = map wk_ip (or_workers s) -> or_heap s2 = update e (exp_assign w k) (or_heap s) -> serialize_job w k e s2 = Some j) /\
      exp_of j e k /\ job_ok (map snd (registered h)) w j (exp_assign w k y) /\ (ds_kind (ex_desc y) = Dppir -> new_job w k e y = Some j)).
  { intros e y Hq Hy Hrd. destruct (i_queue _ _ I _ _ Hq) as (y' & Hy' & Hl). assert (y' = y) as -> by congruence.
    destruct (job_given s h w x k e y {| or_workers := or_workers s; or_heap := update e (exp_assign w k) (or_heap s); or_list := []; or_clients := []; or_servers := [] |}
      I Hx Hy Hl Hrd eq_refl eq_refl) as (j & Hj & R).
    exists j. split; [|exact R]. intros s2 Hip Hh.
    destruct (job_given s h w x k e y s2 I Hx Hy Hl Hrd Hip Hh) as (j2 & Hj2 & _). rewrite Hj2. f_equal.
    revert Hj Hj2. unfold serialize_job. cbn [or_heap or_workers]. rewrite Hh. destruct (nth_error (update e (exp_assign w k) (or_heap s)) e) as [z|]; [|discriminate].
    destruct (ds_kind (ex_desc z)), k; try congruence. destruct (ex_servers z) as [|s1 [|s2' ?]]; try discriminate.
    assert (Hv : forall v, option_map wk_ip (nth_error (or_workers s2) v) = option_map wk_ip (nth_error (or_workers s) v)) by (intros v; rewrite <- !nth_error_map, Hip; reflexivity).
    pose proof (Hv s1) as V1. pose proof (Hv s2') as V2.
    destruct (nth_error (or_workers s) s1), (nth_error (or_workers s) s2'), (nth_error (or_workers s2) s1), (nth_error (or_workers s2) s2'); cbn in V1, V2; try discriminate; congruence. }
  unfold assign_experiment in H. cbn [or_clients or_servers set_workers or_heap] in H.
  destruct k eqn:Ek.
  - destruct (or_servers s) as [|e rest] eqn:Eq.
    + inversion H; subst. left. cbn [queue]. auto.
    + destruct (i_queue _ _ I Server e) as (y & Hy & Hl); [cbn; rewrite Eq; left; reflexivity|]. rewrite Hy in H.
      destruct (JG e y) as (j & Hj & R1 & R2 & R3); [cbn; rewrite Eq; left; reflexivity|assumption|discriminate|].
      rewrite Hj in H by (cbn [or_workers or_heap assign_worker set_workers]; rewrite ?update_map by reflexivity; reflexivity).
      inversion H; subst s' r. right. exists e, rest, y, j. cbn [queue]. cbn [or_workers or_heap or_list or_clients or_servers assign_worker set_workers]. rewrite Eq.
      split; [reflexivity|]. split; [assumption|]. split; [discriminate|]. split; [reflexivity|]. split; [assumption|]. split; [assumption|]. split; [assumption|].
      split; [rewrite update_twice; reflexivity|]. split; [reflexivity|]. split; [reflexivity|]. intros []; cbn [kind_eqb needs ex_members queue or_servers or_clients]; reflexivity.
  - destruct (or_clients s) as [|e rest] eqn:Eq.
    + inversion H; subst. left. cbn [queue]. auto.
    + destruct (i_queue _ _ I Client e) as (y & Hy & Hl); [cbn; rewrite Eq; left; reflexivity|]. rewrite Hy in H.
      destruct (ready_for_clients y) eqn:Er.
      * destruct (JG e y) as (j & Hj & R1 & R2 & R3); [cbn; rewrite Eq; left; reflexivity|assumption|auto|].
        rewrite Hj in H by (cbn [or_workers or_heap assign_worker set_workers]; rewrite ?update_map by reflexivity; reflexivity).
        inversion H; subst s' r. right. exists e, rest, y, j. cbn [queue]. cbn [or_workers or_heap or_list or_clients or_servers assign_worker set_workers]. rewrite Eq.
        split; [reflexivity|]. split; [assumption|]. split; [auto|]. split; [reflexivity|]. split; [assumption|]. split; [assumption|]. split; [assumption|].
        split; [rewrite update_twice; reflexivity|]. split; [reflexivity|]. split; [reflexivity|]. intros []; cbn [kind_eqb needs ex_members queue or_servers or_clients]; reflexivity.
      * inversion H; subst. left. cbn [queue]. split; [reflexivity|]. split; [reflexivity|]. right. split; [reflexivity|]. exists e, rest, y. auto.
Qed.

Lemma inv_ping a s h s' w r : inv s h -> handle a s (Ping w) = (s', r) -> inv s' ((Ping w, r) :: h).
Proof.
  intros I H. destruct (nth_error (or_workers s) w) as [x|] eqn:Hx.
  2:{ cbn in H. rewrite Hx in H. inversion H; subst. apply (inv_quiet s' h); auto. apply (i_nodup _ _ I). }
  assert (Lw : (w < length (or_workers s))%nat) by (apply nth_error_Some; congruence).
  destruct (ping_cases _ _ _ _ _ _ _ I H Hx) as [(-> & -> & _)|(e & rest & y & j & Hq & Hy & Hc & -> & Hj & Hok & Hn & Ew & Eh & El & Eq)].
  - clear H. set (ev := (Ping w, RWait)).
    assert (Dw : doing w (ev :: h) = None) by (cbn; now rewrite Nat.eqb_refl).
    assert (Do : forall v, v <> w -> doing v (ev :: h) = doing v h) by (intros v Hv; apply doing_other; cbn; congruence).
    constructor; cbn [or_workers or_heap set_workers].
    + unfold ev. cbn [registered]. rewrite update_map by reflexivity. exact (i_workers _ _ I).
    + exact (i_desc _ _ I).
    + intros v x0. rewrite update_nth. destruct (Nat.eqb_spec w v) as [<-|Hv].
      * rewrite Hx. cbn [option_map]. intros E. inversion E; subst. now rewrite Dw.
      * rewrite Do by congruence. apply (i_doing _ _ I).
    + intros v j. destruct (Nat.eq_dec v w) as [->|Hv]; [rewrite Dw; discriminate|]. rewrite Do by assumption. intros D.
      destruct (i_job _ _ I _ _ D) as (x1 & y1 & H1 & H2). exists x1, y1. rewrite update_other by congruence. split; [assumption|]. exact H2.
    + intros e y Hy. apply exp_inv_other; [exact Logic.I|]. exact (i_exp _ _ I _ _ Hy).
    + intros k e Hq. apply (i_queue _ _ I k e). destruct k; exact Hq.
    + intros k. destruct k; [exact (i_nodup _ _ I Server)|exact (i_nodup _ _ I Client)].
    + intros x0 Hx0. rewrite update_length. exact (i_given _ _ I _ Hx0).
    + apply (account_step s); [assumption|exact Lw].
  - clear H. set (k := wk_kind x) in *. set (ev := (Ping w, RJob j)).
    assert (Hl : (length (ex_members k y) < needs k (ex_desc y))%nat).
    { destruct (i_queue _ _ I k e) as (y' & Hy' & Hl); [rewrite Hq; left; reflexivity|]. assert (y' = y) as -> by congruence. exact Hl. }
    assert (Dw : doing w (ev :: h) = Some j) by (cbn; now rewrite Nat.eqb_refl).
    assert (Do : forall v, v <> w -> doing v (ev :: h) = doing v h) by (intros v Hv; apply doing_other; cbn; congruence).
    constructor; rewrite ?Ew, ?Eh.
    + unfold ev. cbn [registered]. rewrite update_map by reflexivity. exact (i_workers _ _ I).
    + unfold ev. cbn [described]. rewrite update_map by reflexivity. exact (i_desc _ _ I).
    + intros v x0. rewrite update_nth. destruct (Nat.eqb_spec w v) as [<-|Hv].
      * rewrite Hx. cbn [option_map]. intros E. inversion E; subst. rewrite Dw. cbn. destruct Hj as [-> _]. reflexivity.
      * rewrite Do by congruence. apply (i_doing _ _ I).
    + intros v j'. destruct (Nat.eq_dec v w) as [->|Hv].
      * rewrite Dw. intros E. inversion E; subst j'. exists (worker_assign e x), (exp_assign w k y). rewrite update_same, Hx. destruct Hj as [-> Hj].
        rewrite update_same, Hy. split; [reflexivity|]. split; [reflexivity|]. split; [symmetry; exact Hj|]. exact Hok.
      * rewrite Do by assumption. intros D. destruct (i_job _ _ I _ _ D) as (x1 & y1 & H1 & H2 & H3 & H4).
        exists x1, (if (e =? job_exp j')%nat then exp_assign w k y1 else y1). rewrite update_other by congruence. rewrite update_nth, H2.
        split; [assumption|]. split; [destruct (e =? job_exp j')%nat; reflexivity|]. split; [assumption|]. unfold ev. cbn [registered].
        destruct (Nat.eqb_spec e (job_exp j')) as [Ee|]; [|assumption]. assert (y1 = y) as -> by congruence.
        assert (Hv' : (w =? v)%nat = false) by (apply Nat.eqb_neq; congruence).
        destruct j'; cbn in H4 |- *; try exact H4.
        -- destruct H4 as (K & L & M). rewrite K. repeat split; auto. destruct k; cbn; rewrite ?Hv'; exact L.
        -- destruct H4 as (K & L & M). rewrite K. repeat split; try apply M; auto. destruct k; cbn; rewrite ?Hv'; exact L.
        -- destruct H4 as (K & M1 & M2 & s1 & s2 & M3 & M4). repeat split; auto. exists s1, s2. destruct k; [|split; [exact M3|exact M4]].
           exfalso. pose proof (e_sized _ _ _ (i_exp _ _ I _ _ Hy)) as SZ. unfold sized_ok in SZ. rewrite K in SZ. cbn [ex_members needs] in Hl. rewrite M3 in Hl. cbn in Hl. lia.
    + intros e' y'. rewrite update_nth. destruct (Nat.eqb_spec e e') as [<-|He].
      * rewrite Hy. cbn [option_map]. intros E. inversion E; subst y'. exact (exp_assign_inv s h w k e y j I Hy Hl Hc Hj Hn).
      * intros Hy'. apply exp_inv_other; [|exact (i_exp _ _ I _ _ Hy')]. destruct Hj as [-> _]. exact He.
    + intros k' e'. rewrite Eq. intros Hin.
      assert (Hin' : List.In e' (queue k' s) /\ (k = k' -> e = e' -> (needs k (ex_desc y) =? S (length (ex_members k y)))%nat = false)).
      { destruct (kind_eqb k k') eqn:Ek.
        - apply kind_eqb_eq in Ek as <-. destruct (_ =? _)%nat eqn:Ef.
          + rewrite Hq. split; [right; assumption|]. intros _ <-. exfalso. pose proof (i_nodup _ _ I k) as N. rewrite Hq in N. inversion N; subst. contradiction.
          + split; [assumption|auto].
        - split; [assumption|]. intros ->. rewrite kind_eqb_refl in Ek. discriminate. }
      destruct Hin' as [Hin' Hf]. destruct (i_queue _ _ I k' e' Hin') as (y' & Hy' & Hl').
      exists (if (e =? e')%nat then exp_assign w k y' else y'). rewrite update_nth, Hy'. split; [destruct (e =? e')%nat; reflexivity|].
      destruct (Nat.eqb_spec e e') as [<-|]; [|assumption]. assert (y' = y) as -> by congruence. rewrite members_assign. change (ex_desc (exp_assign w k y)) with (ex_desc y).
      destruct (kind_eqb k k') eqn:Ek; [|assumption]. apply kind_eqb_eq in Ek as <-. specialize (Hf eq_refl eq_refl). apply Nat.eqb_neq in Hf. rewrite app_length. cbn [length]. lia.
    + intros k'. rewrite Eq. destruct (kind_eqb k k'); [|apply (i_nodup _ _ I)]. pose proof (i_nodup _ _ I k) as N.
      destruct (_ =? _)%nat; [|assumption]. rewrite Hq in N. inversion N; assumption.
    + intros x0. unfold ev. cbn [given]. rewrite !update_length. intros Hin. apply in_app_or in Hin as [Hin|[<-|[]]]; [exact (i_given _ _ I _ Hin)|]. cbn [fst snd].
      destruct Hj as [-> _]. split; [|assumption]. apply nth_error_Some. congruence.
    + apply (account_step s); [assumption|exact Lw].
Qed.

Lemma inv_start : inv or_start [].
Proof.
  constructor; cbn; auto; try discriminate.
  - intros [|w] x H; discriminate.
  - intros [|e] y H; discriminate.
  - intros [] e [].
  - intros []; constructor.
  - contradiction.
Qed.

Lemma inv_step a s h ev s' r : inv s h -> handle a s ev = (s', r) -> inv s' ((ev, r) :: h).
Proof.
  intros I H. assert (SQ : forall s1 r1, map wshape (or_workers s1) = map wshape (or_workers s) -> map (set_config None) (or_heap s1) = map (set_config None) (or_heap s) ->
    (forall k, queue k s1 = queue k s) -> quiet ev r1 = true -> inv s1 ((ev, r1) :: h)).
  { intros s1 r1 H1 H2 H3 H4. apply (inv_quiet s h); auto. - intros k e. now rewrite H3. - intros k. rewrite H3. apply (i_nodup _ _ I). }
  destruct ev as [k ip|w|w keys|w|w res|d add|e|].
  - inversion H; subst. apply inv_register, I.
  - exact (inv_ping _ _ _ _ _ _ I H).
  - cbn in H. destruct (nth_error (or_workers s) w) as [x|]; [|inversion H; subst; apply SQ; reflexivity].
    destruct (wk_exp x) as [e|]; [|inversion H; subst; apply SQ; reflexivity]. destruct (nth_error (or_heap s) e) as [y|]; [|inversion H; subst; apply SQ; reflexivity].
    destruct (negb _); [inversion H; subst; apply SQ; reflexivity|]. destruct (ex_config y); [inversion H; subst; apply SQ; reflexivity|].
    destruct (ds_kind (ex_desc y)); [|inversion H; subst; apply SQ; reflexivity|inversion H; subst; apply SQ; reflexivity].
    destruct (generate a keys (or_workers s) y); inversion H; subst; apply SQ; try reflexivity.
    cbn [or_heap set_heap]. apply update_map. reflexivity.
  - cbn in H. destruct (nth_error (or_workers s) w); inversion H; subst; apply SQ; reflexivity.
  - exact (proj1 (inv_report _ _ _ _ _ _ _ I H)).
  - inversion H; subst. apply inv_new, I.
  - cbn in H. destruct (existsb _ _); [|inversion H; subst; apply SQ; reflexivity]. destruct (nth_error (or_heap s) e) as [y|]; inversion H; subst; apply SQ; try reflexivity.
    cbn [or_workers set_workers]. apply kill_map. intros w0. unfold wshape. destruct (worker_kill_same w0) as (-> & -> & ->). reflexivity.
  - inversion H; subst. apply (inv_quiet s h); auto; [intros [] e []|intros []; constructor].
Qed.
Theorem happens_inv a s h : happens a s h -> inv s h.
Proof. induction 1; [exact inv_start|]. exact (inv_step _ _ _ _ _ _ IHhappens H0). Qed.
