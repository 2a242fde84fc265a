(** Programs compiled without assertions against the same programs with them. *)
From Verif Require Import Base BaseProofs Incremental Wire Additive Onion Shuffle ParShuffle Sizes State Database CipherBatch Range Handlers Batch
  Party Chain Parallel Net Stream Procs ParProcs Lts Config.

(** ** Local computations *)

(** r' is r, unless r aborts. *)
Inductive eased {A B} (R : A -> B -> Prop) : res A -> res B -> Prop :=
| eased_abort : forall r, eased R Abort r
| eased_ok : forall a a', R a a' -> eased R (Ok a) (Ok a')
| eased_ub : eased R UB UB
| eased_fuel : eased R NoFuel NoFuel.
Lemma eased_refl {A} (r : res A) : eased eq r r.
Proof. destruct r; constructor. reflexivity. Qed.
Lemma eased_Ok {A} (r r' : res A) a : eased eq r r' -> r = Ok a -> r' = Ok a.
Proof. intros H E. destruct H; try discriminate. subst. assumption. Qed.
Lemma eased_bind {A A' B B'} (Q : A -> A' -> Prop) (R : B -> B' -> Prop) r r' k k' :
  eased Q r r' -> (forall a a', Q a a' -> eased R (k a) (k' a')) -> eased R (bind r k) (bind r' k').
Proof. intros H K. destruct H; cbn; try constructor. apply K; assumption. Qed.
Lemma eased_bind_eq {A B B'} (R : B -> B' -> Prop) (r r' : res A) k k' :
  eased eq r r' -> (forall a, eased R (k a) (k' a)) -> eased R (bind r k) (bind r' k').
Proof. intros H K. apply (eased_bind eq); [exact H|]. intros a a' <-. apply K. Qed.
Lemma eased_assert (x : bool) : eased eq (if true then assert_ x else Ok tt) (if false then assert_ x else Ok tt).
Proof. destruct x; constructor. reflexivity. Qed.
Lemma eased_fold {A S} (f f' : S -> A -> res S) : (forall s a, eased eq (f s a) (f' s a)) ->
  forall l s, eased eq (fold_res f l s) (fold_res f' l s).
Proof. intros H. induction l as [|a l IH]; intros s; [apply eased_refl|]. cbn. apply eased_bind_eq; [apply H|exact IH]. Qed.

(** ** Programs *)
Inductive covers {C A B} (R : A -> B -> Prop) : proc C A -> proc C B -> Prop :=
| cov_abort : forall q, covers R (Crash Aborted) q
| cov_ret : forall a a', R a a' -> covers R (Ret a) (Ret a')
| cov_crash : forall f, covers R (Crash f) (Crash f)
| cov_write : forall c bs k k', (forall n, covers R (k n) (k' n)) -> covers R (Write c bs k) (Write c bs k')
| cov_read : forall c n k k', (forall bs, covers R (k bs) (k' bs)) -> covers R (Read c n k) (Read c n k')
| cov_poll : forall block l k k', (forall r, covers R (k r) (k' r)) -> covers R (Poll block l k) (Poll block l k').
Notation "p <~ q" := (covers eq p q) (at level 70).
Lemma cov_refl {C A} (p : proc C A) : p <~ p.
Proof. induction p; constructor; auto. Qed.
Lemma cov_bind {C A B} (p p' : proc C A) (k k' : A -> proc C B) : p <~ p' -> (forall a, k a <~ k' a) -> pbind p k <~ pbind p' k'.
Proof. intros H K. induction H; cbn; try (constructor; auto; fail). subst. apply K. Qed.
Lemma cov_bind_same {C A B} (p : proc C A) (k k' : A -> proc C B) : (forall a, k a <~ k' a) -> pbind p k <~ pbind p k'.
Proof. apply cov_bind, cov_refl. Qed.
Lemma cov_lift {C A} (r r' : res A) : eased eq r r' -> @lift C A r <~ lift r'.
Proof. intros H. destruct H; constructor. assumption. Qed.
Lemma cov_fold {C A S} (f f' : S -> A -> proc C S) : (forall s a, f s a <~ f' s a) -> forall l s, pfold f l s <~ pfold f' l s.
Proof. intros H. induction l as [|a l IH]; intros s; [apply cov_refl|]. cbn. apply cov_bind; [apply H|exact IH]. Qed.
Lemma cov_relabel {C C' A} (f : C -> C') (p q : proc C A) : p <~ q -> relabel f p <~ relabel f q.
Proof. intros H. induction H; cbn; constructor; auto. Qed.
Lemma cov_read_each {C B S} (ops : bufops B) (c : C) (h h' : S -> list Z -> res S) : (forall s m, eased eq (h s m) (h' s m)) ->
  forall fuel count b m s, pread_each ops fuel c h count b m s <~ pread_each ops fuel c h' count b m s.
Proof.
  intros H. induction fuel as [|fuel IH]; intros count b m s; cbn [pread_each]; [apply cov_refl|].
  destruct (0 <? count)%nat; [|apply cov_refl]. apply cov_bind_same. intros r. apply cov_bind_same. intros offs. apply cov_bind_same. intros xs.
  apply cov_bind; [apply cov_lift, eased_fold, H|]. intros s'. apply cov_bind_same. intros cl. apply IH.
Qed.
Lemma cov_wait {C} (c : C) : pwait_ready true c <~ pwait_ready false c.
Proof. apply cov_bind_same. intros bs. apply cov_lift, eased_assert. Qed.

(** ** One server per party, offline stage simulated *)
Lemma eased_samples cf : eased eq (noise_samples true cf) (noise_samples false cf).
Proof.
  unfold noise_samples. apply eased_bind_eq; [|intros a; apply eased_refl].
  unfold find_range. apply eased_bind_eq; [apply eased_assert|]. intros a. apply eased_refl.
Qed.
Section One.
  Context (b : sealbox) (rng : rng_t) (online : bool).
  Lemma cov_client id mem parties db c : pclient b true false online id mem parties db c <~ pclient b false false online id mem parties db c.
  Proof using All.
    unfold pclient. apply cov_bind_same. intros _. apply cov_bind.
    - unfold pclient_simulate. apply cov_bind_same. intros st. apply cov_bind_same. intros _. apply cov_bind; [apply cov_wait|]. intros _. apply cov_refl.
    - intros st. apply cov_bind; [|intros l; apply cov_refl]. destruct online; [|apply cov_refl].
      unfold pclient_online. apply cov_bind_same. intros r. apply cov_bind_same. intros _. apply cov_bind; [|intros s; apply cov_refl].
      apply cov_read_each. intros [[keys l] st'] m. apply eased_bind_eq; [apply eased_refl|]. intros x. apply eased_bind_eq; [apply eased_refl|].
      intros key. apply eased_bind_eq; [apply eased_refl|]. intros e. apply eased_bind_eq; [apply eased_refl|]. intros q.
      apply eased_bind_eq; [apply eased_assert|]. intros _. apply eased_refl.
  Qed.
  Lemma cov_party mem k cf : pparty b true rng false online mem k cf <~ pparty b false rng false online mem k cf.
  Proof using All.
    unfold pparty. apply cov_bind; [apply cov_lift|].
    { unfold party_check. destruct (assert_ _) as [[]| | |] eqn:E; cbn; [|constructor|unfold assert_ in E; destruct (_ && _); discriminate..].
      destruct (pf_servers cf =? 1); constructor. reflexivity. }
    intros _. apply cov_bind_same. intros _. apply cov_bind_same. intros _. apply cov_bind; [|intros rp; apply cov_refl].
    unfold pparty_simulate. apply cov_bind; [apply cov_lift, eased_samples|]. intros [[[st e] ns] n].
    apply cov_bind_same. intros input. cbv zeta. apply cov_bind_same. intros ls. apply cov_bind_same. intros cs. apply cov_bind_same. intros qs.
    apply cov_bind; [apply cov_wait|]. intros _. apply cov_refl.
  Qed.
  Lemma cov_entity mem db junk c parties bpk bsk p :
    entity b true rng false online mem db junk c parties bpk bsk p <~ entity b false rng false online mem db junk c parties bpk bsk p.
  Proof using All.
    unfold entity. destruct p as [|j]; [apply cov_client|]. destruct (nth_error parties j); [apply cov_party|].
    destruct (j =? length parties)%nat; apply cov_refl.
  Qed.
End One.

(** ** Several servers per party, offline stage simulated *)
Section Several.
  Context (b : sealbox) (rng : rng_t) (iter : iteration) (online : bool) (N : nat).
  Lemma cov_barrier i tx rx : @pbarrier mchan true N i tx rx <~ pbarrier false N i tx rx.
  Proof. apply cov_bind_same. intros _. apply cov_fold. intros s t. apply cov_wait. Qed.
  Lemma cov_siblings k i acc : psiblings true N k i acc <~ psiblings false N k i acc.
  Proof.
    unfold psiblings. do 2 (apply cov_bind_same; intros _). apply cov_bind; [|intros fds; apply cov_refl].
    apply cov_fold. intros fds t. apply cov_bind_same. intros bs. cbv zeta. apply cov_bind; [apply cov_lift, eased_assert|]. intros _. apply cov_refl.
  Qed.
  Lemma cov_shufflers i tx rx cf ct : pserver_shufflers true rng N i tx rx cf ct <~ pserver_shufflers false rng N i tx rx cf ct.
  Proof.
    unfold pserver_shufflers. apply cov_bind_same. intros p. apply cov_bind; [apply cov_lift, eased_assert|]. intros _. apply cov_refl.
  Qed.
  Lemma cov_ready k i tx rx : pserver_ready true N k i tx rx <~ pserver_ready false N k i tx rx.
  Proof. unfold pserver_ready. apply cov_bind; [apply cov_wait|]. intros _. apply cov_bind; [apply cov_barrier|]. intros _. apply cov_refl. Qed.
  Lemma cov_server k i mem acc cf : pserver b true rng iter false online N k i mem acc cf <~ pserver b false rng iter false online N k i mem acc cf.
  Proof using All.
    unfold pserver. apply cov_bind; [apply cov_lift|].
    { unfold par_check. destruct (assert_ _) as [[]| | |] eqn:E; cbn; [|constructor|unfold assert_ in E; destruct (_ && _); discriminate..].
      clear E. destruct (_ && _); constructor. reflexivity. }
    intros _. do 2 (apply cov_bind_same; intros _). apply cov_bind; [apply cov_siblings|]. intros fds. cbv zeta. apply cov_bind.
    - unfold pserver_simulate. apply cov_bind; [apply cov_lift, eased_samples|]. intros smp. apply cov_bind_same. intros ct.
      apply cov_bind; [apply cov_shufflers|]. intros sh. do 2 (apply cov_bind_same; intros ?). apply cov_bind; [apply cov_ready|]. intros _. apply cov_refl.
    - intros rp. apply cov_bind; [|intros _; apply cov_refl]. destruct online; [|apply cov_refl].
      unfold pserver_online. apply cov_bind_same. intros rp'. apply cov_bind; [apply cov_barrier|]. intros _. apply cov_bind_same. intros out.
      apply cov_bind; [apply cov_barrier|]. intros _. do 4 (apply cov_bind_same; intros ?). do 2 (apply cov_bind; [apply cov_barrier|]; intros _). apply cov_refl.
  Qed.
  Lemma cov_bserver k i mem acc db junk pk sk :
    pbserver b true iter false online N k i mem acc db junk pk sk <~ pbserver b false iter false online N k i mem acc db junk pk sk.
  Proof using All.
    unfold pbserver. apply cov_bind_same. intros _. apply cov_bind; [|intros fds; apply cov_refl].
    destruct (1 <? N)%nat; [apply cov_siblings|apply cov_refl].
  Qed.
  Lemma cov_par_entity mem acc db junk clients parties bpk bsk p :
    par_entity b true rng iter false online N mem acc db junk clients parties bpk bsk p <~
    par_entity b false rng iter false online N mem acc db junk clients parties bpk bsk p.
  Proof using All.
    unfold par_entity. cbv zeta. destruct (p / N)%nat as [|j].
    - destruct (nth_error clients (p mod N)); [apply cov_relabel, (cov_client b rng)|apply cov_refl].
    - destruct (nth_error parties j) as [confs|]; [destruct (nth_error confs (p mod N)); [apply cov_server|apply cov_refl]|].
      destruct (j =? length parties)%nat; [apply cov_bserver; exact rng|apply cov_refl].
  Qed.
End Several.

(** ** Networks *)
Section Networks.
  Context {C E : Type} (eqb : C -> C -> bool) (cap : C -> nat).
  (** The same bytes are under way and every process of s covers that of s'. *)
  Definition covered (s s' : net C E) : Prop := (forall p, nt_proc s p <~ nt_proc s' p) /\ nt_chan s = nt_chan s'.
  Lemma cov_set (f g : nat -> proc C E) p x y : (forall q, f q <~ g q) -> x <~ y -> forall q, set_proc f p x q <~ set_proc g p y q.
  Proof. intros H Hx q. unfold set_proc. destruct (q =? p)%nat; auto. Qed.
  (** A step of the covered network is a step of the covering one ... *)
  Lemma covered_back s s' p t' : covered s s' -> nt_proc s p <> Crash Aborted -> proc_step eqb cap s' p t' ->
    exists t, proc_step eqb cap s p t /\ covered t t'.
  Proof using All.
    intros [H Hc] Hp St. pose proof (H p) as Hpp. destruct St as [c bs k n E1 E2 E3|c n k got rest E1 E2 E3|block l k E1 E2]; rewrite E1 in Hpp; inversion Hpp as [X1 X2|X1 X2 X3 X4 X5|X1 X2 X3|c1 bs1 k1 k1' K X1 X2|c1 n1 k1 k1' K X1 X2|block1 l1 k1 k1' K X1 X2]; subst; try congruence.
    - eexists. split; [eapply step_write; [symmetry; exact X1|exact E2|rewrite Hc; exact E3]|]. split; cbn; [apply cov_set; auto|rewrite Hc; reflexivity].
    - eexists. split; [eapply step_read; [symmetry; exact X1|rewrite Hc; exact E2|exact E3]|]. split; cbn; [apply cov_set; auto|rewrite Hc; reflexivity].
    - eexists. split; [eapply step_poll; [symmetry; exact X1|rewrite Hc; exact E2]|]. split; cbn; [apply cov_set; [auto|rewrite Hc; apply K]|exact Hc].
  Qed.
  (** ... and the other way round. *)
  Lemma covered_forth s s' p t : covered s s' -> proc_step eqb cap s p t -> exists t', proc_step eqb cap s' p t' /\ covered t t'.
  Proof using All.
    intros [H Hc] St. pose proof (H p) as Hpp. destruct St as [c bs k n E1 E2 E3|c n k got rest E1 E2 E3|block l k E1 E2]; rewrite E1 in Hpp; inversion Hpp as [X1 X2|X1 X2 X3 X4 X5|X1 X2 X3|c1 bs1 k1 k1' K X1 X2|c1 n1 k1 k1' K X1 X2|block1 l1 k1 k1' K X1 X2]; subst; try congruence.
    - eexists. split; [eapply step_write; [symmetry; exact X2|exact E2|rewrite <- Hc; exact E3]|]. split; cbn; [apply cov_set; auto|rewrite Hc; reflexivity].
    - eexists. split; [eapply step_read; [symmetry; exact X2|rewrite <- Hc; exact E2|exact E3]|]. split; cbn; [apply cov_set; auto|rewrite Hc; reflexivity].
    - eexists. split; [eapply step_poll; [symmetry; exact X2|rewrite <- Hc; exact E2]|]. split; cbn; [apply cov_set; [auto|rewrite Hc; apply K]|exact Hc].
  Qed.
  (** Executions of the covered network mirror those of the covering one as long
      as nobody aborts there. *)
  Lemma covered_steps (P Q : nat -> proc C E) : (forall p, P p <~ Q p) ->
    (forall s, reach (net_step eqb cap) (net_start P) s -> forall p, nt_proc s p <> Crash Aborted) ->
    forall n s', steps (net_step eqb cap) n (net_start Q) s' -> exists s, steps (net_step eqb cap) n (net_start P) s /\ covered s s'.
  Proof using All.
    intros HPQ Hn n s' St. remember (net_start Q) as s0 eqn:E0. induction St as [s0|n s0 s2 s3 St IH [p Sp]]; subst.
    - exists (net_start P). split; [constructor|]. split; [exact HPQ|reflexivity].
    - destruct (IH eq_refl) as (s & Ss & Cs). destruct (covered_back s s2 p s3 Cs) as (t & T1 & T2); [apply Hn; exists n; exact Ss|exact Sp|].
      exists t. split; [|exact T2]. econstructor; [exact Ss|]. exists p. exact T1.
  Qed.
  Lemma covered_ret s s' p (e : E) : covered s s' -> nt_proc s p = Ret e -> nt_proc s' p = Ret e.
  Proof. intros [H _] X. pose proof (H p) as Y. rewrite X in Y. inversion Y; subst. reflexivity. Qed.
  Lemma covered_crash s s' p f : covered s s' -> nt_proc s p <> Crash Aborted -> nt_proc s' p = Crash f -> nt_proc s p = Crash f.
  Proof. intros [H _] A X. pose proof (H p) as Y. rewrite X in Y. inversion Y; subst; congruence. Qed.
  Lemma covered_back_ret s s' p (e : E) : covered s s' -> nt_proc s p <> Crash Aborted -> nt_proc s' p = Ret e -> nt_proc s p = Ret e.
  Proof. intros [H _] A X. pose proof (H p) as Y. rewrite X in Y. inversion Y; subst; congruence. Qed.
End Networks.

(** ... also when processes are killed. *)
Section Killed.
  Context (cap : chan -> nat) (last : nat).
  Definition ccovered (s s' : cnet) : Prop :=
    covered (cn_net s) (cn_net s') /\ cn_killed s = cn_killed s' /\ forall p, (last < p)%nat -> exists e, nt_proc (cn_net s) p = Ret e.
  Lemma ccovered_no_abort s s' : ccovered s s' -> (forall p, (p <= last)%nat -> nt_proc (cn_net s) p <> Crash Aborted) ->
    forall p, nt_proc (cn_net s) p <> Crash Aborted.
  Proof using All.
    intros (_ & _ & Ho) Hp p. destruct (Nat.leb_spec p last) as [L|L]; [auto|]. destruct (Ho p L) as (e & E). rewrite E. discriminate.
  Qed.
  Lemma ccovered_back s s' t' : ccovered s s' -> (forall p, (p <= last)%nat -> nt_proc (cn_net s) p <> Crash Aborted) -> crash_step cap s' t' ->
    exists t, crash_step cap s t /\ ccovered t t'.
  Proof using All.
    intros C0 Hp St. pose proof (ccovered_no_abort _ _ C0 Hp) as A. destruct C0 as (H & Hk & Ho).
    assert (Keep : forall p x, (forall e, nt_proc (cn_net s) p <> Ret e) -> forall q, (last < q)%nat -> exists e, set_proc (nt_proc (cn_net s)) p x q = Ret e).
    { intros p x Np q Lq. destruct (Ho q Lq) as (e & Eq). unfold set_proc. destruct (Nat.eqb_spec q p) as [->|]; [destruct (Np _ Eq)|exists e; exact Eq]. }
    destruct St as [p s2 K Sp|p|c bs K L|p c n k K E1 E2 E3 E4].
    - destruct (covered_back chan_eqb cap _ _ p s2 H (A p) Sp) as (t & T1 & T2).
      exists {| cn_net := t; cn_killed := cn_killed s |}. split; [constructor 1 with (p := p); [rewrite Hk; exact K|exact T1]|].
      split; [exact T2|]. split; [exact Hk|]. cbn. destruct T1; cbn; apply Keep; congruence.
    - exists {| cn_net := cn_net s; cn_killed := set_killed (cn_killed s) p |}. split; [constructor|]. split; [exact H|]. split; [cbn; rewrite Hk; reflexivity|exact Ho].
    - exists {| cn_net := {| nt_proc := nt_proc (cn_net s); nt_chan := set_chan chan_eqb (nt_chan (cn_net s)) c bs |}; cn_killed := cn_killed s |}.
      destruct H as [H1 H2]. split; [constructor; [rewrite Hk; exact K|rewrite H2; exact L]|]. split; [split; cbn; [exact H1|rewrite H2; reflexivity]|]. split; [exact Hk|exact Ho].
    - destruct H as [H1 H2]. pose proof (H1 p) as Hpp. rewrite E1 in Hpp.
      inversion Hpp as [X1 X2| | | |c1 n1 k1 k1' Kk X1 X2|]; subst; [destruct (A p); congruence|].
      exists {| cn_net := {| nt_proc := set_proc (nt_proc (cn_net s)) p (k1 []); nt_chan := nt_chan (cn_net s) |}; cn_killed := cn_killed s |}. split.
      + apply (crash_eof cap s p c n k1); [rewrite Hk; exact K|symmetry; exact X1|exact E2| |rewrite H2; exact E4].
        destruct E3 as [E3|(e & E3)]; [left; rewrite Hk; exact E3|]. right. exists e. apply (covered_back_ret _ _ _ _ (conj H1 H2) (A _) E3).
      + split; [split; cbn; [apply cov_set; [exact H1|apply Kk]|exact H2]|]. split; [exact Hk|]. cbn. apply Keep. congruence.
  Qed.
  Lemma ccovered_reach P Q : (forall p, P p <~ Q p) -> (forall p, (last < p)%nat -> exists e, P p = Ret e) ->
    (forall s, reach (crash_step cap) (crash_start P) s -> forall p, (p <= last)%nat -> nt_proc (cn_net s) p <> Crash Aborted) ->
    forall s', reach (crash_step cap) (crash_start Q) s' -> exists s, reach (crash_step cap) (crash_start P) s /\ ccovered s s'.
  Proof using All.
    intros HPQ Hl Hn s' [n St]. remember (crash_start Q) as s0 eqn:E0. induction St as [s0|n s0 s2 s3 St IH Sp]; subst.
    - exists (crash_start P). split; [apply reach_refl|]. split; [split; [exact HPQ|reflexivity]|]. split; [reflexivity|exact Hl].
    - destruct (IH eq_refl) as (s & Ss & Cs). destruct (ccovered_back s s2 s3 Cs (Hn s Ss) Sp) as (t & T1 & T2).
      exists t. split; [|exact T2]. eapply reach_trans; [exact Ss|]. apply reach_one. exact T1.
  Qed.
End Killed.

(** ** The configuration file *)
Lemma eased_scan n : forall m i, eased eq (str_scan true m n i) (str_scan false m n i).
Proof.
  induction m as [|c m IH]; intros i; cbn [str_scan]; destruct (Z.of_nat i <? n); try constructor. destruct (c =? 0); [apply eased_refl|apply IH].
Qed.
Lemma eased_buffer sz mem u : eased eq (read_into_buffer true sz mem u) (read_into_buffer false sz mem u).
Proof. unfold read_into_buffer. apply eased_bind_eq; [apply eased_assert|]. intros _. apply eased_refl. Qed.
Lemma eased_servers mem n : forall u, eased eq (des_servers true mem n u) (des_servers false mem n u).
Proof.
  induction n as [|n IH]; intros u; [apply eased_refl|]. cbn [des_servers]. do 3 (apply eased_bind_eq; [apply eased_refl|]; intros [? ?]).
  apply eased_bind_eq; [unfold bin2str; apply eased_bind_eq; [apply eased_scan|intros i; apply eased_refl]|]. intros [? ?].
  apply eased_bind_eq; [apply IH|]. intros [? ?]. apply eased_refl.
Qed.
Lemma eased_parties mem servers n : forall u, eased eq (des_parties true mem servers n u) (des_parties false mem servers n u).
Proof.
  induction n as [|n IH]; intros u; [apply eased_refl|]. cbn [des_parties]. apply eased_bind_eq; [apply eased_refl|]. intros [? ?].
  do 2 (apply eased_bind_eq; [apply eased_buffer|]; intros [? ?]). apply eased_bind_eq; [apply eased_servers|]. intros [? ?].
  apply eased_bind_eq; [apply IH|]. intros [? ?]. apply eased_refl.
Qed.
Lemma eased_file f : eased eq (read_file true f) (read_file false f).
Proof.
  unfold read_file, deserialize. cbv zeta. do 5 (apply eased_bind_eq; [apply eased_refl|]; intros [? ?]). apply eased_bind_eq; [apply eased_parties|].
  intros [? ?]. apply eased_bind_eq; [apply eased_assert|]. intros _. apply eased_refl.
Qed.
