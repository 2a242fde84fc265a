(** Proofs about the configurations that the orchestrator hands out. *)
From Coq Require Import Permutation.
From Verif Require Import Base BaseProofs Config ConfigSpec ConfigProofs PropsConfig Orchestrator OrchestratorSpec OrchestratorProofs.

Lemma generate_ext a keys ws ws' y y' : ex_desc y' = ex_desc y -> ex_servers y' = ex_servers y ->
  (forall v, List.In v (ex_servers y) -> option_map wk_ip (nth_error ws' v) = option_map wk_ip (nth_error ws v)) ->
  generate a keys ws' y' = generate a keys ws y.
Proof.
  intros D S0 W. unfold generate. rewrite D, S0.
  assert (E : map (fun i => match nth_error ws' i with Some w => wk_ip w | None => [] end) (ex_servers y) =
              map (fun i => match nth_error ws i with Some w => wk_ip w | None => [] end) (ex_servers y)); [|now rewrite E].
  apply map_ext_in. intros v Hv. specialize (W v Hv). destruct (nth_error ws' v), (nth_error ws v); cbn in W; congruence.
Qed.

(** What one request does to an experiment. *)
Lemma step_exp a s h ev s' r e y : inv s h -> handle a s ev = (s', r) -> nth_error (or_heap s) e = Some y ->
  exists y', nth_error (or_heap s') e = Some y' /\ ex_desc y' = ex_desc y /\
    (ex_servers y' = ex_servers y \/ (length (ex_servers y) < ds_servers (ex_desc y))%nat) /\
    (ex_config y' = ex_config y \/
     ex_config y = None /\ ds_kind (ex_desc y) = Dppir /\ length (ex_servers y) = ds_servers (ex_desc y) /\ ex_servers y' = ex_servers y /\
     exists w keys bs, ev = AskConfig w keys /\ r = RConfig bs /\ ex_config y' = Some bs /\ generate a keys (or_workers s) y = Some bs).
Proof.
  intros I H Hy.
  assert (Same : s' = s -> exists y', nth_error (or_heap s') e = Some y' /\ ex_desc y' = ex_desc y /\
    (ex_servers y' = ex_servers y \/ (length (ex_servers y) < ds_servers (ex_desc y))%nat) /\ (ex_config y' = ex_config y \/
     ex_config y = None /\ ds_kind (ex_desc y) = Dppir /\ length (ex_servers y) = ds_servers (ex_desc y) /\ ex_servers y' = ex_servers y /\
     exists w keys bs, ev = AskConfig w keys /\ r = RConfig bs /\ ex_config y' = Some bs /\ generate a keys (or_workers s) y = Some bs)).
  { intros ->. exists y. auto. }
  destruct ev as [k ip|w|w keys|w|w res|d add|e'|].
  - inversion H; subst. exists y. auto.
  - destruct (nth_error (or_workers s) w) as [x|] eqn:Hx; [|cbn in H; rewrite Hx in H; inversion H; subst; apply Same; reflexivity].
    destruct (ping_cases _ _ _ _ _ _ _ I H Hx) as [(-> & -> & _)|(e0 & rest & y0 & j & Hq & Hy0 & Hc & -> & Hj & Hok & Hn & Ew & Eh & El & Eq)].
    + exists y. auto.
    + rewrite Eh, update_nth, Hy. destruct (Nat.eqb_spec e0 e) as [->|]; [|exists y; auto]. assert (y0 = y) as -> by congruence.
      exists (exp_assign w (wk_kind x) y). split; [reflexivity|]. split; [reflexivity|]. split; [|left; reflexivity].
      destruct (wk_kind x) eqn:K; [right|left; reflexivity]. destruct (i_queue _ _ I Server e) as (y1 & H1 & H2); [rewrite Hq; left; reflexivity|].
      assert (y1 = y) as -> by congruence. exact H2.
  - cbn in H. destruct (nth_error (or_workers s) w) as [x|]; [|inversion H; subst; apply Same; reflexivity].
    destruct (wk_exp x) as [e0|]; [|inversion H; subst; apply Same; reflexivity]. destruct (nth_error (or_heap s) e0) as [y0|] eqn:Hy0; [|inversion H; subst; apply Same; reflexivity].
    destruct (Nat.eqb_spec (ds_servers (ex_desc y0)) (length (ex_servers y0))) as [Ef|]; [|inversion H; subst; apply Same; reflexivity]. cbn [negb] in H.
    destruct (ex_config y0) eqn:Ec; [inversion H; subst; apply Same; reflexivity|].
    destruct (ds_kind (ex_desc y0)) eqn:Ek; [|inversion H; subst; apply Same; reflexivity|inversion H; subst; apply Same; reflexivity].
    destruct (generate a keys (or_workers s) y0) as [bs|] eqn:Eg; [|inversion H; subst; apply Same; reflexivity]. inversion H; subst. cbn [or_heap set_heap].
    rewrite update_nth, Hy. destruct (Nat.eqb_spec e0 e) as [->|]; [|exists y; auto]. assert (y0 = y) as -> by congruence.
    exists (set_config (Some bs) y). split; [reflexivity|]. split; [reflexivity|]. split; [left; reflexivity|]. right. repeat split; auto. exists w, keys, bs. auto.
  - cbn in H. destruct (nth_error (or_workers s) w); inversion H; subst; apply Same; reflexivity.
  - destruct (doing w h) as [j|] eqn:D.
    + destruct (proj1 (proj2 (inv_report _ _ _ _ _ _ _ I H)) j D) as (d & Hd & ->). cbn in H.
      destruct (i_job _ _ I _ _ D) as (x & y0 & Hx & Hy0 & Hk & Hj). rewrite Hx in H. rewrite (i_doing _ _ I _ _ Hx), D in H. cbn in H.
      rewrite Hy0, Hk, (lookup_job_file _ _ _ _ Hj) in H. inversion H; subst. cbn [or_heap]. rewrite update_nth, Hy.
      destruct (_ =? e)%nat; [|exists y; auto]. exists (exp_finished (job_kind j) y). auto.
    + destruct (proj2 (proj2 (inv_report _ _ _ _ _ _ _ I H)) D) as [-> _]. apply Same. reflexivity.
  - inversion H; subst. exists y. cbn [or_heap add_experiment]. rewrite nth_error_app1 by (apply nth_error_Some; congruence). auto.
  - cbn in H. destruct (existsb _ _); [|inversion H; subst; apply Same; reflexivity]. destruct (nth_error (or_heap s) e'); inversion H; subst; [|apply Same; reflexivity].
    exists y. auto.
  - inversion H; subst. exists y. auto.
Qed.

Lemma step_workers a s h ev s' r v x : inv s h -> handle a s ev = (s', r) -> nth_error (or_workers s) v = Some x ->
  exists x', nth_error (or_workers s') v = Some x' /\ wk_ip x' = wk_ip x /\ wk_kind x' = wk_kind x.
Proof.
  intros I H Hx. pose proof (inv_step _ _ _ _ _ _ I H) as I'. pose proof (i_workers _ _ I) as W. pose proof (i_workers _ _ I') as W'.
  assert (P : exists l, registered ((ev, r) :: h) = registered h ++ l) by (destruct ev; cbn; try (exists []; symmetry; apply app_nil_r); eauto).
  destruct P as (l & P). rewrite P, <- W in W'. pose proof (map_nth_error (fun w => (wk_kind w, wk_ip w)) _ _ Hx) as M.
  assert (M' : nth_error (map (fun w => (wk_kind w, wk_ip w)) (or_workers s')) v = Some (wk_kind x, wk_ip x)).
  { rewrite W', nth_error_app1; [exact M|]. apply nth_error_Some. congruence. }
  rewrite nth_error_map in M'. destruct (nth_error (or_workers s') v) as [x'|]; [|discriminate]. exists x'. cbn in M'. inversion M'. auto.
Qed.

Definition asked (keys : nat -> list Z * list Z) (h : hist) : Prop := exists w r, List.In (AskConfig w keys, r) h.
Definition cfg_inv (a : bool) (s : orch) (h : hist) : Prop :=
  forall e y bs, nth_error (or_heap s) e = Some y -> ex_config y = Some bs ->
    ds_kind (ex_desc y) = Dppir /\ length (ex_servers y) = ds_servers (ex_desc y) /\ exists keys, asked keys h /\ generate a keys (or_workers s) y = Some bs.

Lemma asked_more keys ev h : asked keys h -> asked keys (ev :: h).
Proof. intros (w & r & H). exists w, r. right. exact H. Qed.
Theorem happens_cfg a s h : happens a s h -> cfg_inv a s h.
Proof.
  induction 1 as [|s h ev s' r Hh IH H]; [intros [|e] y bs X; discriminate|]. pose proof (happens_inv _ _ _ Hh) as I.
  intros e y' bs Hy' Hc. destruct (nth_error (or_heap s) e) as [y|] eqn:Hy.
  - destruct (step_exp _ _ _ _ _ _ _ _ I H Hy) as (y'' & H1 & H2 & H3 & H4). assert (y'' = y') as -> by congruence.
    assert (Gx : forall keys, ex_servers y' = ex_servers y -> generate a keys (or_workers s') y' = generate a keys (or_workers s) y).
    { intros keys Es. apply generate_ext; auto. intros v Hv. pose proof (given_worker _ _ _ _ Server _ I Hy Hv) as Lv.
      destruct (nth_error (or_workers s) v) as [x|] eqn:Hx; [|apply nth_error_None in Hx; lia].
      destruct (step_workers _ _ _ _ _ _ _ _ I H Hx) as (x' & -> & E & _). cbn. now rewrite E. }
    destruct H4 as [H4|(H4 & H5 & H6 & H7 & w & keys & bs' & -> & -> & H8 & H9)].
    + rewrite H4 in Hc. destruct (IH _ _ _ Hy Hc) as (K & F & keys & A & G). destruct H3 as [H3|H3]; [|lia].
      rewrite H2, H3. split; [assumption|]. split; [assumption|]. exists keys. split; [now apply asked_more|]. rewrite <- G. now apply Gx.
    + assert (bs' = bs) as -> by congruence. rewrite H2, H7. split; [assumption|]. split; [assumption|]. exists keys. split; [exists w, (RConfig bs); left; reflexivity|].
      rewrite <- H9. now apply Gx.
  - (* a new experiment *)
    assert (y' = new_experiment (ex_desc y') \/ ex_config y' = None) as [E|E].
    { assert (Lh : length (or_heap s') = length (or_heap s) -> False).
      { intros L. apply nth_error_None in Hy. assert (e < length (or_heap s'))%nat by (apply nth_error_Some; congruence). lia. }
      destruct ev as [k ip|w|w keys|w|w res|d add|e'|].
      1: exfalso; inversion H; subst; apply Lh; reflexivity.
      1:{ exfalso. destruct (nth_error (or_workers s) w) as [x|] eqn:Hx; [|cbn in H; rewrite Hx in H; inversion H; subst; apply Lh; reflexivity].
          destruct (ping_cases _ _ _ _ _ _ _ I H Hx) as [(-> & -> & _)|(e0 & rest & y0 & j & _ & _ & _ & _ & _ & _ & _ & _ & Eh & _)]; apply Lh; [reflexivity|].
          rewrite Eh. apply update_length. }
      1:{ exfalso. apply Lh. cbn in H. destruct (nth_error (or_workers s) w) as [x|]; [|inversion H; reflexivity]. destruct (wk_exp x); [|inversion H; reflexivity].
          destruct (nth_error (or_heap s) _) as [y0|]; [|inversion H; reflexivity]. destruct (negb _); [inversion H; reflexivity|]. destruct (ex_config y0); [inversion H; reflexivity|].
          destruct (ds_kind _); [|inversion H; reflexivity|inversion H; reflexivity]. destruct (generate _ _ _ _); inversion H; [apply update_length|reflexivity]. }
      1:{ exfalso. apply Lh. cbn in H. destruct (nth_error (or_workers s) w); inversion H; reflexivity. }
      1:{ exfalso. apply Lh. cbn in H. destruct (nth_error (or_workers s) w) as [x|]; [|inversion H; reflexivity]. destruct (wk_exp x); [|inversion H; reflexivity].
          destruct (nth_error (or_heap s) _) as [y0|]; [|inversion H; reflexivity]. destruct (result_file _ _ _); inversion H; [apply update_length|reflexivity]. }
      1:{ inversion H; subst. cbn [or_heap add_experiment] in Hy'. apply nth_error_None in Hy. rewrite nth_error_app2 in Hy' by assumption.
          destruct (e - length (or_heap s))%nat as [|[|n]]; cbn in Hy'; inversion Hy'. right. reflexivity. }
      1:{ exfalso. apply Lh. cbn in H. destruct (existsb _ _); [|inversion H; reflexivity]. destruct (nth_error (or_heap s) e'); inversion H; reflexivity. }
      1:{ exfalso. apply Lh. inversion H; reflexivity. } }
    + rewrite E in Hc. discriminate.
    + congruence.
Qed.

(** Once handed out, it stays. *)
Lemma config_stays a s h s' h' : happens a s h -> forall l, h' = l ++ h -> happens a s' h' -> 
  forall e y bs, nth_error (or_heap s) e = Some y -> ex_config y = Some bs -> exists y', nth_error (or_heap s') e = Some y' /\ ex_config y' = Some bs.
Proof.
  intros H0 l. revert s' h'. induction l as [|ev l IH]; intros s' h' -> H e y bs Hy Hc.
  - assert (s' = s) as ->; [|eauto]. clear -H0 H. cbn in H. revert s' H. induction H0 as [|s h ev s1 r Hh IH H1]; intros s' H; inversion H; subst; [reflexivity|].
    apply IH in H4. subst. congruence.
  - cbn in H. inversion H as [|s1 h1 ev1 s2 r H1 H2]; subst. destruct (IH _ _ eq_refl H1 _ _ _ Hy Hc) as (y1 & Hy1 & Hc1).
    destruct (step_exp _ _ _ _ _ _ _ _ (happens_inv _ _ _ H1) H2 Hy1) as (y2 & E1 & E2 & E3 & [E4|(E4 & _)]); [|congruence]. exists y2. split; congruence.
Qed.

(** The answer to a request for a configuration. *)
Lemma ask_config a s h w keys s' r j : inv s h -> handle a s (AskConfig w keys) = (s', r) -> doing w h = Some j ->
  exists y, nth_error (or_heap s) (job_exp j) = Some y /\
   if (ds_servers (ex_desc y) =? length (ex_servers y))%nat then
     match r with
     | RConfig bs => exists y', nth_error (or_heap s') (job_exp j) = Some y' /\ ex_config y' = Some bs
     | REmpty => s' = s /\ ex_config y = None /\ ds_kind (ex_desc y) = Dppir /\ generate a keys (or_workers s) y = None
     | RError => s' = s /\ ds_kind (ex_desc y) <> Dppir
     | _ => False
     end
   else r = RWait /\ s' = s.
Proof.
  intros I H D. destruct (i_job _ _ I _ _ D) as (x & y & Hx & Hy & Hk & Hj). exists y. split; [assumption|]. cbn in H. rewrite Hx in H.
  rewrite (i_doing _ _ I _ _ Hx), D in H. cbn [option_map] in H. rewrite Hy in H. destruct (_ =? _)%nat; cbn [negb] in H; [|inversion H; auto].
  destruct (ex_config y) eqn:Ec.
  - inversion H; subst. exists y. auto.
  - destruct (ds_kind (ex_desc y)) eqn:Ek; [|inversion H; subst; split; [reflexivity|discriminate]|inversion H; subst; split; [reflexivity|discriminate]].
    destruct (generate a keys (or_workers s) y) eqn:Eg; inversion H; subst; [|auto]. cbn [or_heap set_heap]. rewrite update_same, Hy. eexists. split; reflexivity.
Qed.

(** What a generated configuration contains. *)
Lemma generated_ip a db eps del pn sn ips keys c p m : from_args a db eps del pn sn ips keys = Ok c -> 0 <= pn < 256 -> 0 <= sn < 256 -> ips <> [] ->
  (p < Z.to_nat pn)%nat -> (m < Z.to_nat sn)%nat ->
  exists pc sv, nth_error (cg_parties c) p = Some pc /\ nth_error (pc_servers pc) m = Some sv /\ nth_error ips (p * Z.to_nat sn + m) = Some (sv_ip sv).
Proof.
  intros H Hp Hs Hi Lp Lm. unfold from_args in H. apply bind_Ok in H as (? & _ & H). apply bind_Ok in H as (ps & Hps & H). inversion H; subst. clear H. cbn [cg_parties].
  assert (w8 pn = pn) as E1 by (unfold w8; apply Z.mod_small; lia). assert (w8 sn = sn) as E2 by (unfold w8; apply Z.mod_small; lia). rewrite E1, E2 in Hps.
  apply map_res_Forall2 in Hps.
  assert (N : forall {A B} (R : A -> B -> Prop) l r i x, Forall2 R l r -> nth_error l i = Some x -> exists z, nth_error r i = Some z /\ R x z).
  { intros A B R l r i x0 F. revert i. induction F; intros [|i] E; cbn in *; try discriminate; [inversion E; subst; eauto|eauto]. }
  assert (Sq : forall n i, (i < n)%nat -> nth_error (seq 0 n) i = Some i).
  { intros n i L. rewrite (nth_error_nth' _ 0%nat) by (rewrite seq_length; exact L). rewrite seq_nth by exact L. reflexivity. }
  destruct (N _ _ _ _ _ _ _ Hps (Sq _ _ Lp)) as (pc & Hpc & G). exists pc. apply gen_party_spec in G as (_ & _ & _ & _ & F).
  destruct (N _ _ _ _ _ _ _ F (Sq _ _ Lm)) as (sv & Hsv & _ & _ & G). exists sv. split; [assumption|]. split; [assumption|].
  destruct (Z.eqb_spec (6 + Z.of_nat (length ips)) 6) as [E|E]; [destruct ips; [contradiction|cbn [length] in E; lia]|].
  unfold get in G. destruct (nth_error ips _); inversion G. reflexivity.
Qed.
