(** Theorems about whole deployments run one system call at a time under every
    schedule. *)
From Verif Require Import Base Sizes Stream BaseProofs Incremental Wire Onion Shuffle State Database Range Handlers Batch Party Chain Net Lts Procs Spec
  Toy PropsShuffle ChainSpec OnlineProofs ChainProofs PropsChain ProcProofs ProcChain.

(** All entities have returned: the client with [result], the parties, and the
    backend after looking up [keys]; nothing is left in any connection. *)
Definition all_done (parties : nat) (result : list response) (keys : list Z) (s : net chan ending) : Prop :=
  nt_proc s 0 = Ret (ClientEnd result) /\
  (forall p, (1 <= p <= parties)%nat -> nt_proc s p = Ret PartyEnd) /\
  nt_proc s (S parties) = Ret (BackendEnd keys) /\
  forall c, nt_chan s c = [].

(** Every execution of the processes [procs], however their system calls are
    scheduled, however little of what it asked for each call transfers and
    however little the connections can buffer, stays within [bound] calls,
    crashes nobody and can always go on until all is done. *)
Definition always_finishes (procs : nat -> proc chan ending) (bound : nat) (parties : nat) (result : list response) (keys : list Z) : Prop :=
  forall cap, (forall c, (1 <= cap c)%nat) -> forall n s, steps (net_step chan_eqb cap) n (net_start procs) s ->
    (n <= bound)%nat /\ (forall p f, nt_proc s p <> Crash f) /\
    ((exists s', net_step chan_eqb cap s s') \/ all_done parties result keys s).

Lemma follows_finishes P d offline online procs result keys :
  (forall p, follows (procs p) (dprog P d offline online p) (goal P result keys p)) ->
  always_finishes procs (length (gd_chain P d offline online)) P result keys.
Proof.
  intros F cap Hc n s S. destruct (deployment_runs cap P d offline online procs _ Hc F n s S) as (B & C & D).
  split; [exact B|]. split; [exact C|]. destruct D as [D|[D1 D2]]; [left; exact D|right].
  split; [exact (D1 0%nat)|]. split; [|split; [|exact D2]].
  - intros [|p] Hp; [lia|]. rewrite D1. unfold goal. rewrite (proj2 (Nat.eqb_neq p P)) by lia. reflexivity.
  - rewrite D1. unfold goal. rewrite Nat.eqb_refl. reflexivity.
Qed.

(** C63 The offline and then the online stage; [mem p i] is whatever the
    memory behind the [i]-th buffer of entity [p] holds at the start. *)
Theorem C63_every_schedule : forall b rng mem db junk c parties keys bpk bsk, (forall p i, length (mem p i) = BUFFER_SIZE) ->
  deployment rng db c parties keys -> keyed b db c parties keys bpk bsk -> bytes 52 junk ->
  exists bound result looked,
    map Some result = map (fun k => nth_error db (Z.to_nat k)) (ct_keys c) /\
    Permutation looked (ct_keys c ++ flat_map (noise_keys (length db)) parties) /\
    always_finishes (entity b true rng true true mem db junk c parties bpk bsk) bound (length parties) result looked.
Proof.
  intros b rng mem db junk c parties keys bpk bsk Hm D K J.
  destruct (real_follows b rng true mem db junk c parties keys bpk bsk Hm D K J) as (o & _ & (R & Pm & _) & _ & F).
  eexists _, (oc_result o), (oc_keys o). split; [rewrite R; apply rows_of; exact (dp_queries _ _ _ _ _ D)|]. split; [exact Pm|].
  apply follows_finishes with (1 := F).
Qed.
Print Assumptions C63_every_schedule.

(** ... with the offline stage simulated ... *)
Theorem C63_every_schedule_simulated : forall b rng mem db junk c parties keys bpk bsk, (forall p i, length (mem p i) = BUFFER_SIZE) ->
  deployment rng db c parties keys -> bytes 52 junk ->
  exists bound result looked,
    map Some result = map (fun k => nth_error db (Z.to_nat k)) (ct_keys c) /\
    Permutation looked (ct_keys c ++ flat_map (noise_keys (length db)) parties) /\
    always_finishes (entity b true rng false true mem db junk c parties bpk bsk) bound (length parties) result looked.
Proof.
  intros b rng mem db junk c parties keys bpk bsk Hm D J.
  destruct (simulated_follows b rng mem db junk c parties keys bpk bsk Hm D J) as (o & _ & (R & Pm & _) & _ & F).
  eexists _, (oc_result o), (oc_keys o). split; [rewrite R; apply rows_of; exact (dp_queries _ _ _ _ _ D)|]. split; [exact Pm|].
  apply follows_finishes with (1 := F).
Qed.
Print Assumptions C63_every_schedule_simulated.

(** ... and the offline stage alone. *)
Theorem C63_every_schedule_offline : forall b rng mem db junk c parties keys bpk bsk, (forall p i, length (mem p i) = BUFFER_SIZE) ->
  deployment rng db c parties keys -> keyed b db c parties keys bpk bsk -> bytes 52 junk ->
  exists bound, always_finishes (entity b true rng true false mem db junk c parties bpk bsk) bound (length parties) [] [].
Proof.
  intros b rng mem db junk c parties keys bpk bsk Hm D K J.
  destruct (real_follows b rng false mem db junk c parties keys bpk bsk Hm D K J) as (o & _ & _ & _ & F).
  eexists. apply follows_finishes with (1 := F).
Qed.
Print Assumptions C63_every_schedule_offline.

(** [always_finishes] says what it should: some execution gets to the end, and
    every execution that cannot go on is at the end. *)
Lemma finishes_reach procs bound P result keys cap : always_finishes procs bound P result keys -> (forall c, (1 <= cap c)%nat) ->
  (exists n s, steps (net_step chan_eqb cap) n (net_start procs) s /\ all_done P result keys s) /\
  (forall n s, steps (net_step chan_eqb cap) n (net_start procs) s -> ~ (exists s', net_step chan_eqb cap s s') -> all_done P result keys s).
Proof.
  intros A Hc. split.
  - assert (G : forall k n s, steps (net_step chan_eqb cap) n (net_start procs) s -> (bound < n + k)%nat ->
      exists n s, steps (net_step chan_eqb cap) n (net_start procs) s /\ all_done P result keys s).
    { induction k as [|k IH]; intros n s S Hb; destruct (A cap Hc n s S) as (B & _ & [(s' & St)|Dn]); try lia.
      - apply (IH (Datatypes.S n) s'); [econstructor; eassumption|lia].
      - exists n, s. auto. }
    apply (G (S bound) 0%nat _ (steps_0 _ _)). lia.
  - intros n s S No. destruct (A cap Hc n s S) as (_ & _ & [E|Dn]); [contradiction|exact Dn].
Qed.

(** A client with two queries, two parties with noise, a backend, connections
    that hold one byte. *)
Example C63_example : exists n s,
  steps (net_step chan_eqb (fun _ => 1%nat)) n
    (net_start (entity toy_box true ex_rng true true (fun _ _ => repeat 7 BUFFER_SIZE) ex_db (repeat 9 52) ex_client [ex_conf 0; ex_conf 1] [3] [])) s /\
  exists result looked, all_done 2 result looked s /\
    map Some result = map (fun k => nth_error ex_db (Z.to_nat k)) (ct_keys ex_client) /\ (length looked > 2)%nat.
Proof.
  destruct (C63_every_schedule toy_box ex_rng (fun _ _ => repeat 7 BUFFER_SIZE) ex_db (repeat 9 52) ex_client [ex_conf 0; ex_conf 1] ex_keys [3] [] (fun _ _ => repeat_length 7 BUFFER_SIZE) ex_deployment ex_keyed)
    as (bound & result & looked & R & Pm & A); [split; [reflexivity|]; apply Forall_forall; intros x Hx; apply repeat_spec in Hx; subst; unfold byte; lia|].
  destruct (finishes_reach _ _ _ _ _ (fun _ => 1%nat) A (fun _ => le_n 1)) as ((n & s & S & Dn) & _).
  exists n, s. split; [exact S|]. exists result, looked. split; [exact Dn|]. split; [exact R|].
  apply Permutation_length in Pm. rewrite Pm. vm_compute. lia.
Qed.
