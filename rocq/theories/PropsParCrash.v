(** Theorems about deployments with several servers per entity in which servers
    or clients are killed. *)
From Verif Require Import Base Sizes Stream BaseProofs Incremental Wire Onion Shuffle State Database Range Handlers Batch Party Chain Parallel ParChain
  Spec ChainSpec ParSpec ParChainSpec OnlineProofs Net Lts Procs ParProcs ParCrash Toy PropsShuffle PropsChain PropsParChain ParRules ParServer ParEntity ReadProofs ParRead ParNet
  PropsParProc ParCrashNet.

(** Server i of entity e has returned what it should.  Entity 0 are the clients,
    entity P+1 is the backend. *)
Definition par_finished (N P : nat) (results : list (list response)) (looked : list (list Z)) (s : net mchan ending) (e i : nat) : Prop :=
  nt_proc s (e * N + i) =
  Ret (if (e =? 0)%nat then ClientEnd (nth i results []) else if (e <=? P)%nat then PartyEnd else BackendEnd (nth i looked [])).

(** In every execution, whoever is killed and whenever, whatever of the bytes sent
    before is lost: a process that returns, returns what it returns in an
    execution without kills; no process aborts or has undefined behavior; if one
    reads in vain for ever, some process of the deployment has been killed. *)
Definition par_crash_safe (N : nat) (procs : nat -> proc mchan ending) (P : nat) (results : list (list response)) (looked : list (list Z)) : Prop :=
  forall cap s, reach (par_crash_step N cap) (par_crash_start procs) s -> forall e i, (e <= S P)%nat -> (i < N)%nat ->
    (forall r, nt_proc (pn_net s) (e * N + i) = Ret r -> par_finished N P results looked (pn_net s) e i) /\
    (forall f, nt_proc (pn_net s) (e * N + i) = Crash f -> f = Spinning /\
       exists e' i', (e' <= S P)%nat /\ (i' < N)%nat /\ pn_killed s (e' * N + i') = true).

(** Once any client has returned, so have the server of the first party that it
    talks to and all servers behind the first party. *)
Definition par_client_last (N : nat) (procs : nat -> proc mchan ending) (P : nat) (results : list (list response)) (looked : list (list Z)) : Prop :=
  forall cap s, reach (par_crash_step N cap) (par_crash_start procs) s ->
    forall i r, (i < N)%nat -> nt_proc (pn_net s) i = Ret r ->
      par_finished N P results looked (pn_net s) 1 i /\
      forall e t, (2 <= e <= S P)%nat -> (t < N)%nat -> par_finished N P results looked (pn_net s) e t.

(** Without kills, the executions are those of [net_step]. *)
Definition par_undisturbed (N : nat) (procs : nat -> proc mchan ending) : Prop :=
  forall cap s, reach (par_crash_step N cap) (par_crash_start procs) s ->
    (forall p, pn_killed s p = false) -> reach (net_step mchan_eqb cap) (net_start procs) (pn_net s).

Lemma set_up_crash b rng iter db junk (offline online : bool) N clients parties bpk bsk mem acc links plans : (0 < N)%nat ->
  (forall p, smem_ok (mem p)) -> (forall p, Permutation (acc p) (seq 0 (p mod N))) -> length clients = N ->
  par_set_up b rng iter db junk offline online N clients parties bpk bsk mem links plans ->
  exists looked, let procs := par_entity b true rng iter offline online N mem acc db junk clients parties bpk bsk in
    let results := map (fun c => if online then map (row db) (ct_keys c) else []) clients in
    length looked = N /\
    Permutation (concat looked) (if online then client_keys clients ++ flat_map (party_noise_keys N (length db)) parties else []) /\
    par_crash_safe N procs (length parties) results looked /\ par_undisturbed N procs /\
    (online = true -> Forall (fun c => ct_keys c <> []) clients -> par_client_last N procs (length parties) results looked).
Proof.
  intros HN Hm Ha Lc S0. pose proof S0 as (_ & _ & Ll & Pm & _). set (its := dl_its (nth (length parties) links d_none)) in *.
  exists (map (fun l => if online then map it_key l else []) its). cbn zeta.
  split; [rewrite map_length; exact Ll|]. split.
  { destruct online; [rewrite <- concat_map; exact Pm|]. clear. induction its as [|x l IH]; [constructor|exact IH]. }
  assert (Goal : forall s e i, (e <= S (length parties))%nat -> (i < N)%nat -> nt_proc s (e * N + i) = Ret (par_goal db online N clients parties links (e * N + i)) ->
    par_finished N (length parties) (map (fun c => if online then map (row db) (ct_keys c) else []) clients) (map (fun l => if online then map it_key l else []) its) s e i).
  { intros s e i He Hi E. unfold par_finished. rewrite E. f_equal. unfold par_goal. rewrite server_div, server_mod by exact Hi. destruct e as [|j]; cbn [Nat.eqb].
    - destruct (nth_error clients i) as [c|] eqn:Nc; [|apply nth_error_None in Nc; lia].
      erewrite (nth_error_nth (map _ clients)) by (rewrite nth_error_map, Nc; reflexivity). reflexivity.
    - destruct (Nat.eqb_spec j (length parties)) as [->|Hj].
      + rewrite (proj2 (Nat.leb_gt (S (length parties)) (length parties))) by lia. fold its.
        destruct (nth_error its i) as [l|] eqn:Nl; [|apply nth_error_None in Nl; lia].
        rewrite (nth_error_nth its i [] Nl). erewrite (nth_error_nth (map _ its)) by (rewrite nth_error_map, Nl; reflexivity). reflexivity.
      + rewrite (proj2 (Nat.leb_le (S j) (length parties))) by lia. reflexivity. }
  split; [|split].
  - intros cap s H e i He Hi. pose proof (run_results b rng iter db junk offline online N bpk bsk mem acc clients parties links plans HN Hm Ha Lc S0 cap s (e * N + i)%nat H) as R.
    split; intros x Ex; rewrite Ex in R.
    + apply Goal; [exact He|exact Hi|]. rewrite Ex, R. reflexivity.
    + destruct R as (R & q & Hq & K). split; [exact R|]. exists (q / N)%nat, (q mod N)%nat.
      split; [assert (q / N < S (S (length parties)))%nat by (apply Nat.div_lt_upper_bound; lia); lia|]. split; [apply Nat.mod_upper_bound; lia|].
      replace (q / N * N + q mod N)%nat with q; [exact K|]. rewrite (Nat.div_mod q N) at 1 by lia. lia.
  - intros cap s H K. exact (run_unkilled b rng iter db junk offline online N bpk bsk mem acc clients parties links plans HN Hm Ha Lc S0 cap s H K).
  - intros On Busy cap s H i r Hi Er.
    destruct (run_last b rng iter db junk offline online N bpk bsk mem acc clients parties links plans HN Hm Ha Lc S0 cap On Busy s i H Hi (ex_intro _ r Er)) as [F1 F2].
    split; [apply Goal; [lia|exact Hi|exact F1]|]. intros e t He Ht. apply Goal; [lia|exact Ht|]. apply F2; assumption.
Qed.

(** C73 The offline and then the online stage, as in C65. *)
Theorem C73_crash_safety : forall b rng iter mem acc db junk N clients parties keys bpk bsk,
  (forall p, smem_ok (mem p)) -> (forall p, Permutation (acc p) (seq 0 (p mod N))) -> (forall i l, Permutation (iter i l) l) ->
  par_deployment rng db N clients parties keys -> par_keyed b db N clients parties keys bpk bsk -> bytes 52 junk ->
  exists results looked, let procs := par_entity b true rng iter true true N mem acc db junk clients parties bpk bsk in
    right_rows db clients results /\ length looked = N /\
    Permutation (concat looked) (client_keys clients ++ flat_map (party_noise_keys N (length db)) parties) /\
    par_crash_safe N procs (length parties) results looked /\ par_undisturbed N procs /\
    (Forall (fun c => ct_keys c <> []) clients -> par_client_last N procs (length parties) results looked).
Proof.
  intros b rng iter mem acc db junk N clients parties keys bpk bsk Hm Ha Hi D K J. pose proof (pd_tiled _ _ _ _ _ _ D) as ((T1 & _) & _). assert (HN : (0 < N)%nat) by lia.
  destruct (par_offline_set_up b rng iter db junk true N clients parties keys bpk bsk mem D K Hi J Hm) as (links & plans & S).
  destruct (set_up_crash _ _ _ _ _ _ _ _ _ _ _ _ _ acc _ _ HN Hm Ha (pd_clients _ _ _ _ _ _ D) S) as (looked & L & Pm & Sf & U & Last).
  eexists _, looked. cbn zeta. split; [apply rows_right; exact (pd_queries _ _ _ _ _ _ D)|]. split; [exact L|]. split; [exact Pm|]. split; [exact Sf|]. split; [exact U|exact (Last eq_refl)].
Qed.
Print Assumptions C73_crash_safety.

(** ... with the offline stage simulated ... *)
Theorem C73_crash_safety_simulated : forall b rng iter mem acc db junk N clients parties keys bpk bsk,
  (forall p, smem_ok (mem p)) -> (forall p, Permutation (acc p) (seq 0 (p mod N))) ->
  par_deployment rng db N clients parties keys -> bytes 52 junk ->
  exists results looked, let procs := par_entity b true rng iter false true N mem acc db junk clients parties bpk bsk in
    right_rows db clients results /\ length looked = N /\
    Permutation (concat looked) (client_keys clients ++ flat_map (party_noise_keys N (length db)) parties) /\
    par_crash_safe N procs (length parties) results looked /\ par_undisturbed N procs /\
    (Forall (fun c => ct_keys c <> []) clients -> par_client_last N procs (length parties) results looked).
Proof.
  intros b rng iter mem acc db junk N clients parties keys bpk bsk Hm Ha D J. pose proof (pd_tiled _ _ _ _ _ _ D) as ((T1 & _) & _). assert (HN : (0 < N)%nat) by lia.
  destruct (par_simulated_set_up b rng iter db junk true N clients parties keys bpk bsk mem D J Hm) as (links & plans & S).
  destruct (set_up_crash _ _ _ _ _ _ _ _ _ _ _ _ _ acc _ _ HN Hm Ha (pd_clients _ _ _ _ _ _ D) S) as (looked & L & Pm & Sf & U & Last).
  eexists _, looked. cbn zeta. split; [apply rows_right; exact (pd_queries _ _ _ _ _ _ D)|]. split; [exact L|]. split; [exact Pm|]. split; [exact Sf|]. split; [exact U|exact (Last eq_refl)].
Qed.
Print Assumptions C73_crash_safety_simulated.

(** ... and the offline stage alone. *)
Theorem C73_crash_safety_offline : forall b rng iter mem acc db junk N clients parties keys bpk bsk,
  (forall p, smem_ok (mem p)) -> (forall p, Permutation (acc p) (seq 0 (p mod N))) -> (forall i l, Permutation (iter i l) l) ->
  par_deployment rng db N clients parties keys -> par_keyed b db N clients parties keys bpk bsk -> bytes 52 junk ->
  let procs := par_entity b true rng iter true false N mem acc db junk clients parties bpk bsk in
  par_crash_safe N procs (length parties) [] [] /\ par_undisturbed N procs.
Proof.
  intros b rng iter mem acc db junk N clients parties keys bpk bsk Hm Ha Hi D K J. pose proof (pd_tiled _ _ _ _ _ _ D) as ((T1 & _) & _). assert (HN : (0 < N)%nat) by lia.
  destruct (par_offline_set_up b rng iter db junk false N clients parties keys bpk bsk mem D K Hi J Hm) as (links & plans & S).
  destruct (set_up_crash _ _ _ _ _ _ _ _ _ _ _ _ _ acc _ _ HN Hm Ha (pd_clients _ _ _ _ _ _ D) S) as (looked & L & Pm & Sf & U & _).
  cbn zeta. split; [|exact U]. intros cap s H e i He Hi'. destruct (Sf cap s H e i He Hi') as [A B]. split; [|exact B].
  intros r Er. specialize (A r Er). unfold par_finished in *. rewrite A. f_equal.
  assert (E1 : nth i (map (fun _ : client => @nil response) clients) [] = []) by (clear; revert i; induction clients as [|c l IH]; intros [|i]; try reflexivity; apply IH).
  assert (E2 : nth i looked [] = []).
  { apply Permutation_sym, Permutation_nil in Pm. clear - Pm. revert i. induction looked as [|l k IH]; intros [|i]; try reflexivity; cbn [concat] in Pm; apply app_eq_nil in Pm as [P1 P2]; [exact P1|apply IH; exact P2]. }
  rewrite E1, E2. destruct i; reflexivity.
Qed.
Print Assumptions C73_crash_safety_offline.

(** C73 If a server behind the first party is killed before it has finished, no
    client ever returns; if a server of the first party is, its client does not. *)
Theorem C73_clients_wait : forall b rng iter mem acc db junk N clients parties keys bpk bsk,
  (forall p, smem_ok (mem p)) -> (forall p, Permutation (acc p) (seq 0 (p mod N))) -> (forall i l, Permutation (iter i l) l) ->
  par_deployment rng db N clients parties keys -> par_keyed b db N clients parties keys bpk bsk -> bytes 52 junk ->
  Forall (fun c => ct_keys c <> []) clients ->
  forall cap s, reach (par_crash_step N cap) (par_crash_start (par_entity b true rng iter true true N mem acc db junk clients parties bpk bsk)) s ->
  forall e t i, (1 <= e <= S (length parties))%nat -> (t < N)%nat -> (i < N)%nat -> (e = 1%nat -> i = t) ->
  pn_killed s (e * N + t) = true -> (forall r, nt_proc (pn_net s) (e * N + t) <> Ret r) ->
  forall s', reach (par_crash_step N cap) s s' ->
    match nt_proc (pn_net s') i with Ret _ => False | Crash f => f = Spinning | Write _ _ _ => True | Read _ _ _ => True | Poll _ _ _ => True end.
Proof.
  intros b rng iter mem acc db junk N clients parties keys bpk bsk Hm Ha Hi D K J Busy cap s H e t i He Ht Hi' Heq Kp Hn s' H'.
  destruct (C73_crash_safety b rng iter mem acc db junk N clients parties keys bpk bsk Hm Ha Hi D K J) as (results & looked & _ & _ & _ & Sf & _ & Last).
  pose proof (reach_trans _ _ _ _ H H') as H2. destruct (Sf cap s' H2 0%nat i ltac:(lia) Hi') as [_ C0]. cbn [Nat.mul Nat.add] in C0.
  destruct (nt_proc (pn_net s') i) as [r|f|c0 bs k|c0 n k|b0 l0 k] eqn:E0; try exact I.
  - destruct (Last Busy cap s' H2 i r Hi' E0) as [F1 F2]. destruct (par_killed_stays N cap s s' _ H' Kp) as [_ Es].
    destruct (Nat.eq_dec e 1) as [->|He1].
    + rewrite (Heq eq_refl) in F1. unfold par_finished in F1. rewrite Es in F1. apply (Hn _ F1).
    + specialize (F2 e t ltac:(lia) Ht). unfold par_finished in F2. rewrite Es in F2. apply (Hn _ F2).
  - apply (C0 f eq_refl).
Qed.
Print Assumptions C73_clients_wait.

(** Execution of process p as far as its next system call allows. *)
Definition px_ended (N : nat) (s : pcnet) (c : mchan) : bool := mest c && pn_killed s (mfrom N c) && (length (nt_chan (pn_net s) c) =? 0)%nat.
Definition px_flag (N : nat) (s : pcnet) (c : mchan) : bool := readable (nt_chan (pn_net s) c) || px_ended N s c.
Definition par_greedy (N : nat) (cap : mchan -> nat) (s : pcnet) (p : nat) : pcnet :=
  if pn_killed s p then s else
  match nt_proc (pn_net s) p with
  | Write c bs k =>
      let m := Nat.min (length bs) (cap c - length (nt_chan (pn_net s) c)) in
      if (1 <=? m)%nat then
        {| pn_net := {| nt_proc := set_proc (nt_proc (pn_net s)) p (k m);
                        nt_chan := set_chan mchan_eqb (nt_chan (pn_net s)) c (nt_chan (pn_net s) c ++ firstn m bs) |};
           pn_killed := pn_killed s |}
      else s
  | Read c n k =>
      let got := firstn n (nt_chan (pn_net s) c) in
      if (1 <=? length got)%nat then
        {| pn_net := {| nt_proc := set_proc (nt_proc (pn_net s)) p (k got);
                        nt_chan := set_chan mchan_eqb (nt_chan (pn_net s)) c (skipn n (nt_chan (pn_net s) c)) |};
           pn_killed := pn_killed s |}
      else if px_ended N s c then
        {| pn_net := {| nt_proc := set_proc (nt_proc (pn_net s)) p (k []); nt_chan := nt_chan (pn_net s) |}; pn_killed := pn_killed s |}
      else s
  | Poll block l k =>
      let fs := map (px_flag N s) l in
      if negb block || existsb (fun f => f) fs then
        {| pn_net := {| nt_proc := set_proc (nt_proc (pn_net s)) p (k fs); nt_chan := nt_chan (pn_net s) |}; pn_killed := pn_killed s |}
      else s
  | _ => s
  end.
Lemma px_ended_so N s c : px_ended N s c = true -> pc_ended N s c.
Proof.
  unfold px_ended. intros B. apply andb_prop in B as [B B3]. apply andb_prop in B as [B1 B2]. apply Nat.eqb_eq in B3.
  split; [exact B1|]. split; [left; exact B2|]. destruct (nt_chan (pn_net s) c); [reflexivity|discriminate].
Qed.
Lemma par_greedy_reach N cap s p : reach (par_crash_step N cap) s (par_greedy N cap s p).
Proof.
  unfold par_greedy. destruct (pn_killed s p) eqn:K; [apply reach_refl|].
  destruct (nt_proc (pn_net s) p) as [e|f|c bs k|c n k|block l k] eqn:E; try apply reach_refl.
  - destruct (Nat.leb_spec 1 (Nat.min (length bs) (cap c - length (nt_chan (pn_net s) c)))) as [L|L]; [|apply reach_refl].
    apply reach_one. apply (pc_run _ _ _ p); [exact K|]. apply step_write; [exact E|lia|lia].
  - destruct (Nat.leb_spec 1 (length (firstn n (nt_chan (pn_net s) c)))) as [L|L].
    + apply reach_one. apply (pc_run _ _ _ p); [exact K|]. eapply step_read; [exact E|symmetry; apply firstn_skipn|].
      pose proof (firstn_le_length n (nt_chan (pn_net s) c)). lia.
    + destruct (px_ended N s c) eqn:B; [|apply reach_refl]. apply reach_one. apply (pc_eof _ _ _ p c n k); auto. apply px_ended_so. exact B.
  - destruct (negb block || existsb (fun f => f) (map (px_flag N s) l)) eqn:B; [|apply reach_refl].
    apply reach_one. apply (pc_poll _ _ _ p block l k); auto. split.
    + clear. induction l as [|c l IH]; cbn [map]; constructor; [|exact IH]. unfold px_flag. split; [intros ->; reflexivity|].
      intros F. apply orb_prop in F as [F|F]; [left; exact F|right; apply px_ended_so; exact F].
    + intros ->. cbn [negb orb] in B. apply existsb_exists in B as (f & Hf & ->). exact Hf.
Qed.
Lemma par_greedies_reach N cap : forall ps s, reach (par_crash_step N cap) s (fold_left (par_greedy N cap) ps s).
Proof. induction ps as [|p ps IH]; intros s; [apply reach_refl|]. cbn [fold_left]. eapply reach_trans; [apply par_greedy_reach|apply IH]. Qed.

Definition px_procs : nat -> proc mchan ending :=
  par_entity toy_box true ex_rng px_iter true true 2 (fun _ => px_mem) (fun p => seq 0 (p mod 2)) ex_db (repeat 9 52) px_clients px_parties [3] [].
Definition pkill (s : pcnet) (p : nat) : pcnet := {| pn_net := pn_net s; pn_killed := set_killed (pn_killed s) p |}.
Fixpoint prounds (n : nat) : list nat := match n with O => [] | S n => rev (seq 0 8) ++ prounds n end.
Definition pshape (s : pcnet) : list nat :=
  map (fun p => match nt_proc (pn_net s) p with Ret _ => 0 | Crash Spinning => 1 | Crash _ => 2 | Write _ _ _ => 3 | Read _ _ _ => 4 | Poll _ _ _ => 5 end)%nat (seq 0 8).
(** Links that hold 64 bytes, and connections between siblings that hold [n]. *)
Definition px_caps (n : nat) (c : mchan) : nat := match c with Sib _ _ _ => n | _ => 64%nat end.
Definition px_after (sib n : nat) : pcnet := fold_left (par_greedy 2 (px_caps sib)) (prounds n) (par_crash_start px_procs).
Definition px_crashed (n p m : nat) : pcnet := fold_left (par_greedy 2 (px_caps BUFFER_SIZE)) (prounds m) (pkill (px_after BUFFER_SIZE n) p).
Lemma px_after_reach sib n : reach (par_crash_step 2 (px_caps sib)) (par_crash_start px_procs) (px_after sib n).
Proof. apply par_greedies_reach. Qed.
Lemma px_crashed_reach n p m : reach (par_crash_step 2 (px_caps BUFFER_SIZE)) (par_crash_start px_procs) (px_crashed n p m).
Proof.
  unfold px_crashed. eapply reach_trans; [apply px_after_reach|]. eapply reach_trans; [apply reach_one, pc_kill|apply par_greedies_reach].
Qed.

(** Run to the end, everybody returns. *)
Example C73_example_finishes : reach (par_crash_step 2 (px_caps BUFFER_SIZE)) (par_crash_start px_procs) (px_after BUFFER_SIZE 200) /\
  pshape (px_after BUFFER_SIZE 200) = repeat 0%nat 8.
Proof. split; [apply px_after_reach|vm_compute; reflexivity]. Qed.

(** With server 0 of the second party killed after 90 rounds, its sibling, the
    server before it and the server behind it read in vain for ever; the others
    wait. *)
Example C73_example_spins : reach (par_crash_step 2 (px_caps BUFFER_SIZE)) (par_crash_start px_procs) (px_crashed 90 4 200) /\
  pshape (px_crashed 90 4 200) = [4; 4; 1; 4; 3; 1; 1; 4]%nat.
Proof. split; [apply px_crashed_reach|vm_compute; reflexivity]. Qed.

(** The hypotheses of [C73_clients_wait] can be met: neither client returns. *)
Lemma px_mems : forall p : nat, smem_ok px_mem.
Proof. intros _. split; [|split]; intros; cbn [px_mem sm_link sm_w sm_r]; rewrite repeat_length; [reflexivity|apply le_n|apply le_n]. Qed.
Lemma px_iters i l : Permutation (px_iter i l) l.
Proof. unfold px_iter. destruct (i =? 0)%nat; [apply Permutation_sym, Permutation_rev|apply Permutation_refl]. Qed.
Example C73_example_waits : forall s', reach (par_crash_step 2 (px_caps BUFFER_SIZE)) (px_crashed 90 4 200) s' ->
  forall i e, (i < 2)%nat -> nt_proc (pn_net s') i <> Ret e.
Proof.
  intros s' H i e Hi E.
  pose proof (C73_clients_wait toy_box ex_rng px_iter (fun _ => px_mem) (fun p => seq 0 (p mod 2)) ex_db (repeat 9 52) 2 px_clients px_parties ex_keys [3] []
    px_mems (fun _ => Permutation_refl _) px_iters px_deployment px_keyed) as W.
  assert (J : bytes 52 (repeat 9 52)) by (split; [reflexivity|]; apply Forall_forall; intros x Hx; apply repeat_spec in Hx; subst; unfold byte; lia).
  assert (B : Forall (fun c => ct_keys c <> []) px_clients) by (repeat constructor; discriminate).
  specialize (W J B (px_caps BUFFER_SIZE) (px_crashed 90 4 200) (px_crashed_reach 90 4 200) 2%nat 0%nat i ltac:(cbn; lia) ltac:(lia) Hi ltac:(lia)).
  assert (K : pn_killed (px_crashed 90 4 200) 4 = true) by (vm_compute; reflexivity).
  assert (Nr : match nt_proc (pn_net (px_crashed 90 4 200)) 4 with Ret _ => False | _ => True end) by (vm_compute; exact I).
  specialize (W K (fun r Er => ltac:(change (2 * 2 + 0)%nat with 4%nat in Er; rewrite Er in Nr; exact Nr)) s' H). rewrite E in W. exact W.
Qed.

(** C65 needs what it says about the connections between siblings: if they hold
    64 bytes each, both servers of the first party come to write to the other, and
    nobody ever goes on. *)
Definition waits (cap : mchan -> nat) (s : net mchan ending) (p : nat) : bool :=
  match nt_proc s p with
  | Ret _ => true | Crash _ => true
  | Write c _ _ => (cap c <=? length (nt_chan s c))%nat
  | Read c _ _ => (length (nt_chan s c) =? 0)%nat
  | Poll block l _ => block && forallb (fun c => negb (readable (nt_chan s c))) l
  end.
Lemma waits_so cap s p s' : waits cap s p = true -> ~ proc_step mchan_eqb cap s p s'.
Proof.
  intros W St. unfold waits in W. destruct St as [c bs k m Ep Hm Hc|c m k got rest Ep Ec Hm|block l k Ep Hr]; rewrite Ep in W.
  - apply Nat.leb_le in W. lia.
  - apply Nat.eqb_eq in W. rewrite Ec, app_length in W. lia.
  - apply andb_prop in W as [-> W]. rewrite forallb_forall in W. destruct (Hr eq_refl) as (c & Hc & Rc). specialize (W c Hc). rewrite Rc in W. discriminate.
Qed.
Lemma par_greedy_other N cap s p q : p <> q -> nt_proc (pn_net (par_greedy N cap s q)) p = nt_proc (pn_net s) p.
Proof.
  intros Hne. unfold par_greedy. destruct (pn_killed s q); [reflexivity|].
  destruct (nt_proc (pn_net s) q); cbn zeta; repeat match goal with |- context [if ?b then _ else _] => destruct b end; cbn [pn_net nt_proc]; try reflexivity;
    unfold set_proc; rewrite (proj2 (Nat.eqb_neq p q) Hne); reflexivity.
Qed.
Lemma px_after_other sib n p : (8 <= p)%nat -> nt_proc (pn_net (px_after sib n)) p = px_procs p.
Proof.
  intros Hp. unfold px_after. change (px_procs p) with (nt_proc (pn_net (par_crash_start px_procs)) p). generalize (par_crash_start px_procs).
  assert (F : Forall (fun q => (q < 8)%nat) (prounds n)).
  { induction n as [|n IH]; cbn [prounds]; [constructor|]. apply Forall_app. split; [|exact IH]. repeat constructor. }
  induction F as [|q l Hq _ IH]; intros s; [reflexivity|]. cbn [fold_left]. rewrite IH. apply par_greedy_other. lia.
Qed.
Example C65_example_small_buffers :
  reach (par_crash_step 2 (px_caps 64)) (par_crash_start px_procs) (px_after 64 100) /\
  pshape (px_after 64 100) = [4; 4; 3; 3; 4; 4; 4; 4]%nat /\
  ~ exists s', net_step mchan_eqb (px_caps 64) (pn_net (px_after 64 100)) s'.
Proof.
  split; [apply px_after_reach|]. split; [vm_compute; reflexivity|].
  assert (W : forallb (waits (px_caps 64) (pn_net (px_after 64 100))) (seq 0 8) = true) by (vm_compute; reflexivity). rewrite forallb_forall in W.
  intros (s' & p & St). revert St. apply waits_so. destruct (Nat.lt_ge_cases p 8) as [Hp|Hp]; [apply W, in_seq; lia|].
  unfold waits. rewrite px_after_other by exact Hp. unfold px_procs, par_entity.
  assert (He : (4 <= p / 2)%nat) by (apply Nat.div_le_lower_bound; lia). destruct (p / 2)%nat as [|[|[|[|e]]]]; try lia. cbn [length px_parties nth_error Nat.eqb].
  destruct e; reflexivity.
Qed.
