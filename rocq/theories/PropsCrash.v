(** Theorems about deployments in which processes are killed. *)
From Verif Require Import Base Sizes Stream BaseProofs Incremental Wire Onion Shuffle State Database Range Handlers Batch Party Chain Net NetChain Lts Procs Spec
  Toy PropsShuffle ChainSpec OnlineProofs ChainProofs PropsChain ProcProofs ProcChain ProcCrash PropsProc.

(** Entity p of the deployment has returned what it should. *)
Definition finished (parties : nat) (result : list response) (keys : list Z) (s : net chan ending) (p : nat) : Prop :=
  nt_proc s p = Ret (if (p =? 0)%nat then ClientEnd result else if (p <=? parties)%nat then PartyEnd else BackendEnd keys).

(** In every execution, whoever is killed and whenever, whatever of the bytes
    sent before is lost: an entity that returns, returns what it returns in an
    execution without kills; no entity aborts or has undefined behavior; an entity
    that ends up reading in vain for ever reads from a killed neighbour. *)
Definition crash_safe (procs : nat -> proc chan ending) (parties : nat) (result : list response) (keys : list Z) : Prop :=
  forall cap, (forall c, (1 <= cap c)%nat) -> forall s, reach (crash_step cap) (crash_start procs) s ->
    forall p, (p <= S parties)%nat ->
      (forall e, nt_proc (cn_net s) p = Ret e -> finished parties result keys (cn_net s) p) /\
      (forall f, nt_proc (cn_net s) p = Crash f -> f = Spinning /\
         exists c, receiver c = p /\ established c = true /\ cn_killed s (sender c) = true /\ nt_chan (cn_net s) c = []).

(** Once the client has returned, everybody has. *)
Definition client_last (procs : nat -> proc chan ending) (parties : nat) (result : list response) (keys : list Z) : Prop :=
  forall cap, (forall c, (1 <= cap c)%nat) -> forall s, reach (crash_step cap) (crash_start procs) s ->
    finished parties result keys (cn_net s) 0 -> forall p, (p <= S parties)%nat -> finished parties result keys (cn_net s) p.

(** Without kills, the executions are those of [net_step]: a connection is never
    found closed too early. *)
Definition unkilled (procs : nat -> proc chan ending) : Prop :=
  forall cap, (forall c, (1 <= cap c)%nat) -> forall s, reach (crash_step cap) (crash_start procs) s ->
    (forall p, cn_killed s p = false) -> reach (net_step chan_eqb cap) (net_start procs) (cn_net s).

Lemma goal_finished P result keys s p : (p <= S P)%nat -> finished P result keys s p <-> nt_proc s p = Ret (goal P result keys p).
Proof.
  intros Hp. unfold finished, goal. destruct p as [|p]; [reflexivity|]. cbn [Nat.eqb].
  destruct (Nat.leb_spec (S p) P) as [L|L].
  - rewrite (proj2 (Nat.eqb_neq p P)) by lia. reflexivity.
  - replace p with P by lia. rewrite Nat.eqb_refl. reflexivity.
Qed.

Lemma follows_safe P d offline online procs result keys :
  (forall p, follows (procs p) (dprog P d offline online p) (goal P result keys p)) ->
  crash_safe procs P result keys /\ unkilled procs.
Proof.
  intros F. split.
  - intros cap Hc s H p Hp. pose proof (deployment_results cap P d offline online procs _ Hc F s p H) as R. split.
    + intros e E. rewrite E in R. apply goal_finished; [exact Hp|]. rewrite E, R. reflexivity.
    + intros f E. rewrite E in R. destruct R as (R & c & Rc & D1 & D2 & D3). split; [exact R|]. exists c. auto.
  - intros cap Hc s H K. exact (deployment_no_kill cap P d offline online procs _ Hc F s H K).
Qed.

Lemma response_bytes db c parties o : run_facts db c parties o -> wire_facts o -> ct_keys c <> [] ->
  forall j, (j <= length parties)%nat -> ld_response (data_of o) j <> [].
Proof.
  intros (_ & _ & levels & [L K] & _ & _ & E3) (_ & _ & W) Hk j Hj. cbn [data_of ld_response].
  destruct (nth_error levels j) as [l|] eqn:El; [|apply nth_error_None in El; lia].
  assert (N : nth_error (oc_responses o) j = Some (map (answer db) l)) by (rewrite E3, nth_error_map, El; reflexivity).
  rewrite (nth_error_nth _ _ _ N). rewrite Forall_forall in W. pose proof (W _ (nth_error_In _ _ N)) as Wl.
  apply K in El. destruct l as [|it l].
  - apply Permutation_length in El. rewrite app_length in El. destruct (ct_keys c); [contradiction|discriminate].
  - cbn [map] in *. inversion Wl as [|x y [Hl _] _]; subst. cbn [concat]. destruct (answer db it); [discriminate|discriminate].
Qed.

(** C64 The offline and then the online stage, as in C63. *)
Theorem C64_crash_safety : forall b rng mem db junk c parties keys bpk bsk, (forall p i, length (mem p i) = BUFFER_SIZE) ->
  deployment rng db c parties keys -> keyed b db c parties keys bpk bsk -> bytes 52 junk ->
  exists result looked, let procs := entity b true rng true true mem db junk c parties bpk bsk in
    map Some result = map (fun k => nth_error db (Z.to_nat k)) (ct_keys c) /\
    Permutation looked (ct_keys c ++ flat_map (noise_keys (length db)) parties) /\
    crash_safe procs (length parties) result looked /\ unkilled procs /\
    (ct_keys c <> [] -> client_last procs (length parties) result looked).
Proof.
  intros b rng mem db junk c parties keys bpk bsk Hm D K J.
  destruct (real_follows b rng true mem db junk c parties keys bpk bsk Hm D K J) as (o & _ & RF & WF & F).
  exists (oc_result o), (oc_keys o). cbn zeta. pose proof RF as (R & Pm & _).
  split; [rewrite R; apply rows_of; exact (dp_queries _ _ _ _ _ D)|]. split; [exact Pm|].
  destruct (follows_safe _ _ _ _ _ _ _ F) as [S U]. split; [exact S|]. split; [exact U|].
  intros Hk cap Hc s H E p Hp. apply goal_finished; [exact Hp|]. apply goal_finished in E; [|lia].
  exact (deployment_client_last cap _ _ true true _ _ Hc F s eq_refl (response_bytes _ _ _ _ RF WF Hk) H E p Hp).
Qed.
Print Assumptions C64_crash_safety.

(** ... with the offline stage simulated ... *)
Theorem C64_crash_safety_simulated : forall b rng mem db junk c parties keys bpk bsk, (forall p i, length (mem p i) = BUFFER_SIZE) ->
  deployment rng db c parties keys -> bytes 52 junk ->
  exists result looked, let procs := entity b true rng false true mem db junk c parties bpk bsk in
    map Some result = map (fun k => nth_error db (Z.to_nat k)) (ct_keys c) /\
    Permutation looked (ct_keys c ++ flat_map (noise_keys (length db)) parties) /\
    crash_safe procs (length parties) result looked /\ unkilled procs /\
    (ct_keys c <> [] -> client_last procs (length parties) result looked).
Proof.
  intros b rng mem db junk c parties keys bpk bsk Hm D J.
  destruct (simulated_follows b rng mem db junk c parties keys bpk bsk Hm D J) as (o & _ & RF & WF & F).
  exists (oc_result o), (oc_keys o). cbn zeta. pose proof RF as (R & Pm & _).
  split; [rewrite R; apply rows_of; exact (dp_queries _ _ _ _ _ D)|]. split; [exact Pm|].
  destruct (follows_safe _ _ _ _ _ _ _ F) as [S U]. split; [exact S|]. split; [exact U|].
  intros Hk cap Hc s H E p Hp. apply goal_finished; [exact Hp|]. apply goal_finished in E; [|lia].
  exact (deployment_client_last cap _ _ false true _ _ Hc F s eq_refl (response_bytes _ _ _ _ RF WF Hk) H E p Hp).
Qed.
Print Assumptions C64_crash_safety_simulated.

(** ... and the offline stage alone. *)
Theorem C64_crash_safety_offline : forall b rng mem db junk c parties keys bpk bsk, (forall p i, length (mem p i) = BUFFER_SIZE) ->
  deployment rng db c parties keys -> keyed b db c parties keys bpk bsk -> bytes 52 junk ->
  let procs := entity b true rng true false mem db junk c parties bpk bsk in
  crash_safe procs (length parties) [] [] /\ unkilled procs.
Proof.
  intros b rng mem db junk c parties keys bpk bsk Hm D K J.
  destruct (real_follows b rng false mem db junk c parties keys bpk bsk Hm D K J) as (o & _ & _ & _ & F).
  exact (follows_safe _ _ _ _ _ _ _ F).
Qed.
Print Assumptions C64_crash_safety_offline.

(** A killed process stays where it is. *)
Lemma killed_stays cap s s' p : reach (crash_step cap) s s' -> cn_killed s p = true ->
  cn_killed s' p = true /\ nt_proc (cn_net s') p = nt_proc (cn_net s) p.
Proof.
  intros H K. revert H. apply (reach_inv (crash_step cap) (fun a => cn_killed a p = true /\ nt_proc (cn_net a) p = nt_proc (cn_net s) p)); [|auto].
  intros a b [K1 E] Step. destruct Step as [q n Kq Ps|q|c bs Kc Ec|q c m k Kq Ep He Ex Ec]; cbn [cn_killed cn_net nt_proc].
  - split; [exact K1|]. rewrite <- E. assert (Hne : p <> q) by congruence. destruct Ps; cbn [nt_proc]; unfold set_proc;
      rewrite (proj2 (Nat.eqb_neq p q) Hne); reflexivity.
  - split; [unfold set_killed; destruct (p =? q)%nat; auto|exact E].
  - auto.
  - split; [exact K1|]. rewrite <- E. unfold set_proc. rewrite (proj2 (Nat.eqb_neq p q)) by congruence. reflexivity.
Qed.

(** C64 If a party or the backend is killed before it has finished, the client
    never returns, and never fails: it waits, or reads in vain, for ever. *)
Theorem C64_client_waits : forall b rng mem db junk c parties keys bpk bsk, (forall p i, length (mem p i) = BUFFER_SIZE) ->
  deployment rng db c parties keys -> keyed b db c parties keys bpk bsk -> bytes 52 junk -> ct_keys c <> [] ->
  forall cap, (forall c, (1 <= cap c)%nat) ->
  forall s, reach (crash_step cap) (crash_start (entity b true rng true true mem db junk c parties bpk bsk)) s ->
  forall p, (1 <= p <= S (length parties))%nat -> cn_killed s p = true -> (forall e, nt_proc (cn_net s) p <> Ret e) ->
  forall s', reach (crash_step cap) s s' ->
    match nt_proc (cn_net s') 0 with Ret _ => False | Crash f => f = Spinning | Write _ _ _ => True | Read _ _ _ => True | Poll _ _ _ => True end.
Proof.
  intros b rng mem db junk c parties keys bpk bsk Hm D K J Hk cap Hc s H p Hp Kp Hn s' H'.
  destruct (C64_crash_safety b rng mem db junk c parties keys bpk bsk Hm D K J) as (result & looked & _ & _ & Safe & _ & Last).
  pose proof (reach_trans _ _ _ _ H H') as H2. destruct (Safe cap Hc s' H2 0%nat ltac:(lia)) as [R0 C0].
  destruct (nt_proc (cn_net s') 0) as [e|f|c0 bs k|c0 n k|b0 l0 k] eqn:E0; try exact I.
  - specialize (Last Hk cap Hc s' H2). pose proof (R0 e eq_refl) as F0. specialize (Last F0 p ltac:(lia)).
    destruct (killed_stays cap s s' p H' Kp) as [_ Es]. unfold finished in Last. rewrite Es in Last. apply (Hn _ Last).
  - apply (C0 f eq_refl).
Qed.
Print Assumptions C64_client_waits.

(** Execution of process p as far as its next system call allows, through
    connections that hold 64 bytes. *)
Definition greedy (s : cnet) (p : nat) : cnet :=
  if cn_killed s p then s else
  match nt_proc (cn_net s) p with
  | Write c bs k =>
      let m := Nat.min (length bs) (64 - length (nt_chan (cn_net s) c)) in
      if (1 <=? m)%nat then
        {| cn_net := {| nt_proc := set_proc (nt_proc (cn_net s)) p (k m);
                        nt_chan := set_chan chan_eqb (nt_chan (cn_net s)) c (nt_chan (cn_net s) c ++ firstn m bs) |};
           cn_killed := cn_killed s |}
      else s
  | Read c n k =>
      let got := firstn n (nt_chan (cn_net s) c) in
      if (1 <=? length got)%nat then
        {| cn_net := {| nt_proc := set_proc (nt_proc (cn_net s)) p (k got);
                        nt_chan := set_chan chan_eqb (nt_chan (cn_net s)) c (skipn n (nt_chan (cn_net s) c)) |};
           cn_killed := cn_killed s |}
      else if established c && cn_killed s (sender c) && (length (nt_chan (cn_net s) c) =? 0)%nat then
        {| cn_net := {| nt_proc := set_proc (nt_proc (cn_net s)) p (k []); nt_chan := nt_chan (cn_net s) |}; cn_killed := cn_killed s |}
      else s
  | _ => s
  end.
Lemma greedy_reach s p : reach (crash_step (fun _ => 64%nat)) s (greedy s p).
Proof.
  unfold greedy. destruct (cn_killed s p) eqn:K; [apply reach_refl|].
  destruct (nt_proc (cn_net s) p) as [e|f|c bs k|c n k|b0 l0 k] eqn:E; try apply reach_refl.
  - destruct (Nat.leb_spec 1 (Nat.min (length bs) (64 - length (nt_chan (cn_net s) c)))) as [L|L]; [|apply reach_refl].
    apply reach_one. apply (crash_run _ _ p); [exact K|]. apply step_write; [exact E|lia|lia].
  - destruct (Nat.leb_spec 1 (length (firstn n (nt_chan (cn_net s) c)))) as [L|L].
    + apply reach_one. apply (crash_run _ _ p); [exact K|]. eapply step_read; [exact E|symmetry; apply firstn_skipn|].
      pose proof (firstn_le_length n (nt_chan (cn_net s) c)). lia.
    + destruct (established c && cn_killed s (sender c) && (length (nt_chan (cn_net s) c) =? 0)%nat) eqn:B; [|apply reach_refl].
      apply andb_prop in B as [B B3]. apply andb_prop in B as [B1 B2]. apply Nat.eqb_eq in B3.
      apply reach_one. apply (crash_eof _ _ p c n k); auto; [left; exact B2|]. destruct (nt_chan (cn_net s) c); [reflexivity|discriminate].
Qed.
Lemma greedies_reach : forall ps s, reach (crash_step (fun _ => 64%nat)) s (fold_left greedy ps s).
Proof. induction ps as [|p ps IH]; intros s; [apply reach_refl|]. cbn [fold_left]. eapply reach_trans; [apply greedy_reach|apply IH]. Qed.

Definition ex_procs : nat -> proc chan ending :=
  entity toy_box true ex_rng true true (fun _ _ => repeat 7 BUFFER_SIZE) ex_db (repeat 9 52) ex_client [ex_conf 0; ex_conf 1] [3] [].
Definition kill (s : cnet) (p : nat) : cnet := {| cn_net := cn_net s; cn_killed := set_killed (cn_killed s) p |}.
Fixpoint rounds (n : nat) : list nat := match n with O => [] | S n => [3; 2; 1; 0]%nat ++ rounds n end.
Definition ex_crashed (n : nat) (p : nat) : cnet := fold_left greedy (rounds 40) (kill (fold_left greedy (rounds n) (crash_start ex_procs)) p).
Lemma ex_crashed_reach n p : reach (crash_step (fun _ => 64%nat)) (crash_start ex_procs) (ex_crashed n p).
Proof.
  unfold ex_crashed. eapply reach_trans; [apply greedies_reach|]. eapply reach_trans; [|apply greedies_reach].
  apply reach_one. apply crash_kill.
Qed.
Definition shape (s : cnet) : list nat :=
  map (fun p => match nt_proc (cn_net s) p with Ret _ => 0 | Crash Spinning => 1 | Crash _ => 2 | Write _ _ _ => 3 | Read _ _ _ => 4 | Poll _ _ _ => 5 end)%nat [0; 1; 2; 3]%nat.

(** Run to the end, everybody returns. *)
Example C64_example_finishes :
  let s := fold_left greedy (rounds 200) (crash_start ex_procs) in
  reach (crash_step (fun _ => 64%nat)) (crash_start ex_procs) s /\ shape s = [0; 0; 0; 0]%nat.
Proof. split; [apply greedies_reach|vm_compute; reflexivity]. Qed.

(** With the first party killed after six rounds, the client and the second
    party read in vain for ever and the backend waits. *)
Example C64_example_spins : reach (crash_step (fun _ => 64%nat)) (crash_start ex_procs) (ex_crashed 6 1) /\
  shape (ex_crashed 6 1) = [1; 3; 1; 4]%nat.
Proof. split; [apply ex_crashed_reach|vm_compute; reflexivity]. Qed.

(** The hypotheses of [C64_client_waits] can be met. *)
Example C64_example_waits : forall s', reach (crash_step (fun _ => 64%nat)) (ex_crashed 6 1) s' -> forall e, nt_proc (cn_net s') 0 <> Ret e.
Proof.
  intros s' H e E.
  pose proof (C64_client_waits toy_box ex_rng (fun _ _ => repeat 7 BUFFER_SIZE) ex_db (repeat 9 52) ex_client [ex_conf 0; ex_conf 1] ex_keys [3] []
    (fun _ _ => repeat_length 7 BUFFER_SIZE) ex_deployment ex_keyed) as W.
  assert (J : bytes 52 (repeat 9 52)) by (split; [reflexivity|]; apply Forall_forall; intros x Hx; apply repeat_spec in Hx; subst; unfold byte; lia).
  specialize (W J ltac:(discriminate) (fun _ => 64%nat) (fun _ => le_n_S _ _ (Nat.le_0_l 63)) (ex_crashed 6 1) (ex_crashed_reach 6 1) 1%nat ltac:(cbn; lia)).
  assert (K : cn_killed (ex_crashed 6 1) 1 = true) by (vm_compute; reflexivity).
  assert (N : match nt_proc (cn_net (ex_crashed 6 1)) 1 with Ret _ => False | _ => True end) by (vm_compute; exact I).
  specialize (W K). assert (N' : forall e, nt_proc (cn_net (ex_crashed 6 1)) 1 <> Ret e) by (intros e' E'; rewrite E' in N; exact N).
  specialize (W N' s' H). rewrite E in W. exact W.
Qed.
