(** Proofs about killing and clearing experiments. *)
From Coq Require Import Permutation.
From Verif Require Import Base Config Orchestrator OrchestratorSpec OrchestratorProofs OrchestratorConfigs OrchestratorQueue.

Definition flag (w : nat) (h : hist) : wstatus := match doing w h with None => WReady | Some _ => if told w h then WCleanup else WWorking end.
Definition wkilled (x : wstatus) : wstatus := match x with WWorking => WCleanup | x => x end.

Lemma flag_acts w ev r h : acts ev r = Some w -> flag w ((ev, r) :: h) = match r with RJob _ => WWorking | _ => WReady end.
Proof.
  intros A. unfold flag. destruct ev; try discriminate; destruct r; try discriminate; inversion A; subst; cbn [told doing]; rewrite Nat.eqb_refl; reflexivity.
Qed.
Lemma flag_other w ev r h : acts ev r <> Some w -> flag w ((ev, r) :: h) = if marks ev r h w then wkilled (flag w h) else flag w h.
Proof.
  intros A. unfold flag at 1. rewrite doing_other by assumption. cbn [told]. rewrite doing_other by assumption. unfold flag. destruct (doing w h) as [j|]; [|destruct (marks _ _ _ _); reflexivity].
  assert (X : match ev, r with Ping v, RJob _ => negb (v =? w)%nat | _, _ => true end = true).
  { destruct ev; try reflexivity. destruct r; try reflexivity. destruct (Nat.eqb_spec w0 w) as [->|]; [|reflexivity]. exfalso. apply A. reflexivity. }
  rewrite X. cbn [andb]. destruct (told w h), (marks ev r h w); reflexivity.
Qed.

Lemma in_members s h e y k w : inv s h -> nth_error (or_heap s) e = Some y -> existsb (Nat.eqb w) (ex_members k y) = existsb (fun x => (fst x =? w)%nat && is_for k e x) (given h).
Proof.
  intros I Hy. rewrite (e_members _ _ _ (i_exp _ _ I _ _ Hy)). unfold of_exp. induction (given h) as [|[v j] l IH]; [reflexivity|]. cbn [filter existsb fst].
  destruct (is_for k e (v, j)); cbn [map existsb fst]; rewrite IH; [rewrite (Nat.eqb_sym w v), andb_true_r|rewrite andb_false_r]; reflexivity.
Qed.
Lemma kill_status ids ws w : option_map wk_status (nth_error (kill_all ids ws) w) =
  if existsb (Nat.eqb w) ids then option_map (fun x => wkilled (wk_status x)) (nth_error ws w) else option_map wk_status (nth_error ws w).
Proof.
  rewrite kill_nth. destruct (existsb _ ids); [|reflexivity]. destruct (nth_error ws w) as [x|]; [|reflexivity]. cbn. unfold worker_kill. destruct (wk_status x) eqn:E; cbn; rewrite ?E; reflexivity.
Qed.

Definition flag_inv (s : orch) (h : hist) : Prop := forall w x, nth_error (or_workers s) w = Some x -> wk_status x = flag w h.
Lemma flag_quiet s h s' ev r : flag_inv s h -> acts ev r = None -> (forall w, marks ev r h w = false) -> or_workers s' = or_workers s -> flag_inv s' ((ev, r) :: h).
Proof. intros F A M E w x Hx. rewrite E in Hx. rewrite flag_other by congruence. rewrite M. exact (F _ _ Hx). Qed.
Theorem happens_flag a s h : happens a s h -> flag_inv s h.
Proof.
  induction 1 as [|s h ev s' r Hh F H].
  - intros [|w] x Hx; discriminate.
  - pose proof (happens_inv _ _ _ Hh) as I. pose proof (flag_quiet s h s' ev r F) as FQ. destruct ev as [k ip|w|w keys|w|w res|d add|e|].
    + inversion H; subst. intros w x Hx. rewrite flag_other by discriminate. cbn [marks]. cbn [add_worker set_workers or_workers] in Hx.
      destruct (Nat.lt_ge_cases w (length (or_workers s))) as [L|L].
      * rewrite nth_error_app1 in Hx by assumption. exact (F _ _ Hx).
      * rewrite nth_error_app2 in Hx by assumption. unfold flag. rewrite (inv_nobody _ _ _ I L). destruct (w - length (or_workers s))%nat as [|[|]]; cbn in Hx; inversion Hx; reflexivity.
    + destruct (nth_error (or_workers s) w) as [x0|] eqn:Hx0; [|cbn in H; rewrite Hx0 in H; inversion H; subst; apply FQ; auto].
      destruct (ping_cases _ _ _ _ _ _ _ I H Hx0) as [(-> & -> & _)|(e & rest & y & j & Hq & Hy & Hc & -> & Hj & Hok & Hn & Ew & Eh & El & Eq)]; intros v x Hx.
      * cbn [or_workers set_workers] in Hx. rewrite update_nth in Hx. destruct (Nat.eqb_spec w v) as [<-|N].
        -- rewrite flag_acts by reflexivity. rewrite Hx0 in Hx. inversion Hx. reflexivity.
        -- rewrite flag_other by (cbn; congruence). exact (F _ _ Hx).
      * rewrite Ew in Hx. rewrite ?update_twice, update_nth in Hx. destruct (Nat.eqb_spec w v) as [<-|N].
        -- rewrite flag_acts by reflexivity. rewrite Hx0 in Hx. inversion Hx. reflexivity.
        -- rewrite flag_other by (cbn; congruence). exact (F _ _ Hx).
    + apply FQ; auto. cbn in H. repeat match type of H with context [match ?x with _ => _ end] => destruct x end; inversion H; reflexivity.
    + apply FQ; auto. cbn in H. destruct (nth_error (or_workers s) w); inversion H; reflexivity.
    + destruct (inv_report _ _ _ _ _ _ _ I H) as (_ & A & B). destruct (doing w h) as [j|] eqn:D.
      2:{ destruct (B eq_refl) as [-> ->]. apply FQ; auto. }
      destruct (A _ eq_refl) as (d & Hd & ->). destruct (i_job _ _ I _ _ D) as (x0 & y & Hx0 & Hy & Hk & Hok).
      assert (Ew : or_workers s' = kill_all (finish_kills (wk_kind x0) y) (update w worker_ready (or_workers s))).
      { cbn in H. rewrite Hx0 in H. pose proof (i_doing _ _ I _ _ Hx0) as Ex. rewrite D in Ex. cbn in Ex. rewrite Ex, Hy in H. destruct (result_file _ _ _); inversion H; reflexivity. }
      assert (M : forall v, marks (ReportDone w res) (RStored (ds_name d) (job_file w j) res) h v = existsb (Nat.eqb v) (finish_kills (wk_kind x0) y)).
      { intros v. cbn [marks]. rewrite D, Hk. unfold finish_kills. destruct j; cbn [job_kind] in *; try reflexivity.
        - cbn in Hok. destruct Hok as (K & _). rewrite K. reflexivity.
        - cbn in Hok. destruct Hok as (K & _). rewrite K. cbn [job_exp] in *. pose proof (fin_lt _ _ _ _ _ I D Hy) as L. cbn [job_kind ex_fin ex_members] in L.
          pose proof (e_sized _ _ _ (i_exp _ _ I _ _ Hy)) as Z. unfold sized_ok in Z. rewrite K in Z. destruct Z as [Z1 Z2].
          pose proof (e_room _ _ _ (i_exp _ _ I _ _ Hy) Client) as R. cbn [ex_members needs] in R.
          assert (S (ex_fin_clients y) =? ds_clients (ex_desc y) = true)%nat as -> by (apply Nat.eqb_eq; lia).
          symmetry. exact (in_members _ _ _ _ Server v I Hy).
        - cbn in Hok. destruct Hok as (K & _). rewrite K. reflexivity. }
      intros v x Hx. assert (O : option_map wk_status (nth_error (or_workers s') v) = Some (wk_status x)) by (rewrite Hx; reflexivity).
      rewrite Ew, kill_status, <- M, update_nth in O. destruct (Nat.eqb_spec w v) as [<-|N].
      * rewrite flag_acts by reflexivity. rewrite Hx0 in O. destruct (marks _ _ _ _); inversion O; reflexivity.
      * rewrite flag_other by (cbn; congruence). destruct (nth_error (or_workers s) v) as [x1|] eqn:Hx1; [|destruct (marks _ _ _ _); discriminate].
        rewrite <- (F _ _ Hx1). destruct (marks _ _ _ _); inversion O; reflexivity.
    + inversion H; subst. apply FQ; auto.
    + cbn in H. destruct (existsb (Nat.eqb e) (or_list s)); [|inversion H; subst; apply FQ; auto].
      destruct (nth_error (or_heap s) e) as [y|] eqn:Hy; [|inversion H; subst; apply FQ; auto]. inversion H; subst. clear H.
      assert (M : forall v, marks (KillExperiment e) RNone h v = existsb (Nat.eqb v) (ex_clients y ++ ex_servers y)).
      { intros v. rewrite existsb_app, (in_members _ _ _ _ Client v I Hy : existsb _ (ex_clients y) = _), (in_members _ _ _ _ Server v I Hy : existsb _ (ex_servers y) = _). cbn [marks].
        induction (given h) as [|[u j] l IH]; [reflexivity|]. cbn [existsb fst snd]. rewrite IH. unfold is_for. cbn [snd].
        destruct (u =? v)%nat, (job_exp j =? e)%nat, (job_kind j); cbn [andb orb kind_eqb]; rewrite ?orb_true_r; reflexivity. }
      intros v x Hx. assert (O : option_map wk_status (nth_error (kill_all (ex_clients y ++ ex_servers y) (or_workers s)) v) = Some (wk_status x)) by (cbn in Hx; rewrite Hx; reflexivity).
      rewrite kill_status, <- M in O. rewrite flag_other by (cbn; congruence). destruct (nth_error (or_workers s) v) as [x1|] eqn:Hx1; [|destruct (marks _ _ _ _); discriminate].
      rewrite <- (F _ _ Hx1). destruct (marks _ _ _ _); inversion O; reflexivity.
    + inversion H; subst. apply FQ; auto.
Qed.
