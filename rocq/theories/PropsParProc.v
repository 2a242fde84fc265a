(** Theorems about whole deployments with several servers per party, run one
    system call at a time under every schedule. *)
From Verif Require Import Base Sizes Stream BaseProofs Incremental Wire Onion Shuffle State Database Range Handlers Batch Party Chain Parallel ParChain
  Spec ChainSpec ParSpec ParChainSpec OnlineProofs Net Lts Procs ParProcs ParCrash Toy PropsShuffle PropsChain PropsParChain ParRules ParServer ParEntity ReadProofs ParRead ParNet.

(** All processes have returned: client i with [results] at i, every server of
    every party, and server i of the backend after looking up the keys in
    [looked] at i; nothing is left in any connection.  Process [e * N + i] is
    server i of entity e; entity 0 are the clients, entity P+1 is the backend. *)
Definition par_done (N P : nat) (results : list (list response)) (looked : list (list Z)) (s : net mchan ending) : Prop :=
  (forall i, (i < N)%nat -> nt_proc s i = Ret (ClientEnd (nth i results []))) /\
  (forall e i, (1 <= e <= P)%nat -> (i < N)%nat -> nt_proc s (e * N + i) = Ret PartyEnd) /\
  (forall i, (i < N)%nat -> nt_proc s (S P * N + i) = Ret (BackendEnd (nth i looked []))) /\
  forall c, nt_chan s c = [].

(** Every execution of the processes, however their system calls are scheduled
    and however little of what it asked for each call transfers, stays within
    [bound] calls, crashes nobody and can always go on until all is done,
    provided the connections between servers of one party can buffer
    BUFFER_SIZE bytes.  The other connections may buffer as little as a byte. *)
Definition par_always_finishes (N : nat) (procs : nat -> proc mchan ending) (bound P : nat) (results : list (list response)) (looked : list (list Z)) : Prop :=
  forall cap, (forall c, (1 <= cap c)%nat) -> (forall e s t, (BUFFER_SIZE <= cap (Sib e s t))%nat) ->
  forall n s, steps (net_step mchan_eqb cap) n (net_start procs) s ->
    (n <= bound)%nat /\ (forall p f, nt_proc s p <> Crash f) /\
    ((exists s', net_step mchan_eqb cap s s') \/ par_done N P results looked s).

Lemma set_up_finishes b rng iter db junk (offline online : bool) N clients parties bpk bsk mem acc links plans : (0 < N)%nat ->
  (forall p, smem_ok (mem p)) -> (forall p, Permutation (acc p) (seq 0 (p mod N))) -> length clients = N ->
  par_set_up b rng iter db junk offline online N clients parties bpk bsk mem links plans ->
  exists bound looked, length looked = N /\
    Permutation (concat looked) (if online then client_keys clients ++ flat_map (party_noise_keys N (length db)) parties else []) /\
    (online = true -> par_read_off rng N (map (par_seeds N (length db)) parties) (map (fun c => length (ct_keys c)) clients) looked = map ct_keys clients) /\
    par_always_finishes N (par_entity b true rng iter offline online N mem acc db junk clients parties bpk bsk) bound (length parties)
      (map (fun c => if online then map (row db) (ct_keys c) else []) clients) looked.
Proof.
  intros HN Hm Ha Lc (R & Hc & Ll & Pm & Rd & _). set (its := dl_its (nth (length parties) links d_none)) in *.
  exists (par_bound db offline online N acc parties links plans), (map (fun l => if online then map it_key l else []) its).
  split; [rewrite map_length; exact Ll|]. split.
  { destruct online; [rewrite <- concat_map; exact Pm|]. clear. induction its as [|x l IH]; [constructor|exact IH]. }
  split; [intros ->; exact Rd|].
  intros cap Hc1 Hcap n s S.
  destruct (par_runs b rng iter db junk offline online N bpk bsk mem acc clients parties links plans cap HN Hm Ha Lc R Hc Hc1 Hcap n s S) as (B & C & E).
  split; [exact B|]. split; [exact C|]. destruct E as [E|[E1 E2]]; [left; exact E|right]. split; [|split; [|split; [|exact E2]]].
  - intros i Hi. rewrite E1. unfold par_goal. rewrite Nat.div_small, Nat.mod_small by exact Hi.
    destruct (nth_error clients i) as [c|] eqn:Nc; [|apply nth_error_None in Nc; lia].
    erewrite nth_error_nth by (rewrite nth_error_map, Nc; reflexivity). reflexivity.
  - intros e i He Hi. rewrite E1. unfold par_goal. rewrite server_div, server_mod by exact Hi. destruct e as [|j]; [lia|].
    rewrite (proj2 (Nat.eqb_neq j (length parties))) by lia. reflexivity.
  - intros i Hi. rewrite E1. unfold par_goal. rewrite server_div, server_mod by exact Hi. rewrite Nat.eqb_refl. fold its.
    destruct (nth_error its i) as [l|] eqn:Nl; [|apply nth_error_None in Nl; lia].
    erewrite !nth_error_nth by (rewrite ?nth_error_map, ?Nl; reflexivity). reflexivity.
Qed.

(** What the clients asked for. *)
Definition right_rows (db : list response) (clients : list client) (results : list (list response)) : Prop :=
  Forall2 (fun c r => map Some r = map (fun k => nth_error db (Z.to_nat k)) (ct_keys c)) clients results.
Lemma rows_right db clients : Forall (fun k => 0 <= k < Z.of_nat (length db)) (client_keys clients) ->
  right_rows db clients (map (fun c => map (row db) (ct_keys c)) clients).
Proof.
  unfold client_keys, right_rows. induction clients as [|c cl IH]; cbn [flat_map map]; intros F; [constructor|]. apply Forall_app in F. destruct F as [F1 F2].
  constructor; [apply rows_of; exact F1|apply IH; exact F2].
Qed.

(** C65 With N servers in every entity, the offline and then the online stage:
    every client ends with the rows it asked for.  [mem p] is whatever the
    memory behind the buffers of process p holds at the start, [acc p] the order
    in which it happens to accept the connections of the siblings before it,
    [iter] the order in which hash maps are iterated. *)
Theorem C65_every_schedule : forall b rng iter mem acc db junk N clients parties keys bpk bsk,
  (forall p, smem_ok (mem p)) -> (forall p, Permutation (acc p) (seq 0 (p mod N))) -> (forall i l, Permutation (iter i l) l) ->
  par_deployment rng db N clients parties keys -> par_keyed b db N clients parties keys bpk bsk -> bytes 52 junk ->
  exists bound results looked,
    right_rows db clients results /\ length looked = N /\
    Permutation (concat looked) (client_keys clients ++ flat_map (party_noise_keys N (length db)) parties) /\
    par_always_finishes N (par_entity b true rng iter true true N mem acc db junk clients parties bpk bsk) bound (length parties) results looked.
Proof.
  intros b rng iter mem acc db junk N clients parties keys bpk bsk Hm Ha Hi D K J. pose proof (pd_tiled _ _ _ _ _ _ D) as ((T1 & _) & _). assert (HN : (0 < N)%nat) by lia.
  destruct (par_offline_set_up b rng iter db junk true N clients parties keys bpk bsk mem D K Hi J Hm) as (links & plans & S).
  destruct (set_up_finishes _ _ _ _ _ _ _ _ _ _ _ _ _ acc _ _ HN Hm Ha (pd_clients _ _ _ _ _ _ D) S) as (bound & looked & L & Pm & _ & A).
  eexists bound, _, looked. split; [apply rows_right; exact (pd_queries _ _ _ _ _ _ D)|]. split; [exact L|]. split; [exact Pm|exact A].
Qed.
Print Assumptions C65_every_schedule.

(** ... with the offline stage simulated ... *)
Theorem C65_every_schedule_simulated : forall b rng iter mem acc db junk N clients parties keys bpk bsk,
  (forall p, smem_ok (mem p)) -> (forall p, Permutation (acc p) (seq 0 (p mod N))) ->
  par_deployment rng db N clients parties keys -> bytes 52 junk ->
  exists bound results looked,
    right_rows db clients results /\ length looked = N /\
    Permutation (concat looked) (client_keys clients ++ flat_map (party_noise_keys N (length db)) parties) /\
    par_always_finishes N (par_entity b true rng iter false true N mem acc db junk clients parties bpk bsk) bound (length parties) results looked.
Proof.
  intros b rng iter mem acc db junk N clients parties keys bpk bsk Hm Ha D J. pose proof (pd_tiled _ _ _ _ _ _ D) as ((T1 & _) & _). assert (HN : (0 < N)%nat) by lia.
  destruct (par_simulated_set_up b rng iter db junk true N clients parties keys bpk bsk mem D J Hm) as (links & plans & S).
  destruct (set_up_finishes _ _ _ _ _ _ _ _ _ _ _ _ _ acc _ _ HN Hm Ha (pd_clients _ _ _ _ _ _ D) S) as (bound & looked & L & Pm & _ & A).
  eexists bound, _, looked. split; [apply rows_right; exact (pd_queries _ _ _ _ _ _ D)|]. split; [exact L|]. split; [exact Pm|exact A].
Qed.
Print Assumptions C65_every_schedule_simulated.

(** ... and the offline stage alone. *)
Theorem C65_every_schedule_offline : forall b rng iter mem acc db junk N clients parties keys bpk bsk,
  (forall p, smem_ok (mem p)) -> (forall p, Permutation (acc p) (seq 0 (p mod N))) -> (forall i l, Permutation (iter i l) l) ->
  par_deployment rng db N clients parties keys -> par_keyed b db N clients parties keys bpk bsk -> bytes 52 junk ->
  exists bound,
    par_always_finishes N (par_entity b true rng iter true false N mem acc db junk clients parties bpk bsk) bound (length parties) (repeat [] N) (repeat [] N).
Proof.
  intros b rng iter mem acc db junk N clients parties keys bpk bsk Hm Ha Hi D K J. pose proof (pd_tiled _ _ _ _ _ _ D) as ((T1 & _) & _). assert (HN : (0 < N)%nat) by lia.
  destruct (par_offline_set_up b rng iter db junk false N clients parties keys bpk bsk mem D K Hi J Hm) as (links & plans & S).
  destruct (set_up_finishes _ _ _ _ _ _ _ _ _ _ _ _ _ acc _ _ HN Hm Ha (pd_clients _ _ _ _ _ _ D) S) as (bound & looked & L & Pm & _ & A).
  exists bound. assert (E1 : map (fun _ : client => @nil response) clients = repeat [] N).
  { rewrite <- (pd_clients _ _ _ _ _ _ D). clear. induction clients as [|c l IH]; [reflexivity|]. cbn. rewrite IH. reflexivity. }
  assert (E2 : looked = repeat [] N).
  { apply Permutation_sym, Permutation_nil in Pm. rewrite <- L. clear - Pm. induction looked as [|l k IH]; [reflexivity|]. cbn in *. apply app_eq_nil in Pm.
    destruct Pm as [-> Pm]. rewrite IH at 1 by exact Pm. reflexivity. }
  cbn beta iota in A. rewrite E1, E2 in A. exact A.
Qed.
Print Assumptions C65_every_schedule_offline.

(** [par_always_finishes] says what it should: some execution gets to the end,
    and every execution that cannot go on is at the end. *)
Lemma par_finishes_reach N procs bound P results looked cap : par_always_finishes N procs bound P results looked ->
  (forall c, (1 <= cap c)%nat) -> (forall e s t, (BUFFER_SIZE <= cap (Sib e s t))%nat) ->
  (exists n s, steps (net_step mchan_eqb cap) n (net_start procs) s /\ par_done N P results looked s) /\
  (forall n s, steps (net_step mchan_eqb cap) n (net_start procs) s -> ~ (exists s', net_step mchan_eqb cap s s') -> par_done N P results looked s).
Proof.
  intros A Hc Hcap. split.
  - assert (G : forall k n s, steps (net_step mchan_eqb cap) n (net_start procs) s -> (bound < n + k)%nat ->
      exists n s, steps (net_step mchan_eqb cap) n (net_start procs) s /\ par_done N P results looked s).
    { induction k as [|k IH]; intros n s S Hb; destruct (A cap Hc Hcap n s S) as (B & _ & [(s' & St)|Dn]); try lia.
      - apply (IH (Datatypes.S n) s'); [econstructor; eassumption|lia].
      - exists n, s. auto. }
    apply (G (S bound) 0%nat _ (steps_0 _ _)). lia.
  - intros n s S No. destruct (A cap Hc Hcap n s S) as (_ & _ & [E|Dn]); [contradiction|exact Dn].
Qed.

(** Two clients with two queries each, two parties with noise and a backend with
    two servers each; links that hold one byte. *)
Definition px_mem : smem := {| sm_link := fun _ => repeat 7 BUFFER_SIZE; sm_w := fun _ _ => repeat 8 BUFFER_SIZE; sm_r := fun _ _ => repeat 9 BUFFER_SIZE; sm_patience := fun _ => 0%nat |}.
Definition px_cap (c : mchan) : nat := match c with Sib _ _ _ => BUFFER_SIZE | _ => 1%nat end.
Example C65_example : exists n s,
  steps (net_step mchan_eqb px_cap) n
    (net_start (par_entity toy_box true ex_rng px_iter true true 2 (fun _ => px_mem) (fun p => seq 0 (p mod 2)) ex_db (repeat 9 52) px_clients px_parties [3] [])) s /\
  exists results looked, par_done 2 2 results looked s /\ right_rows ex_db px_clients results /\ length (concat looked) = 10%nat.
Proof.
  destruct (C65_every_schedule toy_box ex_rng px_iter (fun _ => px_mem) (fun p => seq 0 (p mod 2)) ex_db (repeat 9 52) 2 px_clients px_parties ex_keys [3] [])
    as (bound & results & looked & R & L & Pm & A).
  - intros _. split; [|split]; intros; cbn [px_mem sm_link sm_w sm_r]; rewrite repeat_length; [reflexivity|apply le_n|apply le_n].
  - intros p. apply Permutation_refl.
  - intros i l. unfold px_iter. destruct (i =? 0)%nat; [apply Permutation_sym, Permutation_rev|apply Permutation_refl].
  - exact px_deployment.
  - exact px_keyed.
  - split; [reflexivity|]. apply Forall_forall. intros x Hx. apply repeat_spec in Hx. subst. unfold byte. lia.
  - destruct (par_finishes_reach _ _ _ _ _ _ px_cap A) as ((n & s & S & Dn) & _).
    + intros []; cbn [px_cap]; try apply le_n. unfold BUFFER_SIZE. lia.
    + intros e s t. apply le_n.
    + exists n, s. split; [exact S|]. exists results, looked. split; [exact Dn|]. split; [exact R|].
      apply Permutation_length in Pm. rewrite Pm. vm_compute. reflexivity.
Qed.
