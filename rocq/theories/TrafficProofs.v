(** What the connections of a deployment carry. *)
From Verif Require Import Base BaseProofs Wire WireProofs Onion Sizes State Database Handlers Party Net NetProofs NetChain Lts Stream Procs ProcProofs
  ChainSpec OnlineProofs OfflineProofs OfflineParty ChainProofs ProcChain TalkSpec TrafficSpec ProcCrash.
From Verif Require Import Chain.

Lemma put_fun {C E} (s s' : net C E) c w w' : put s s' c w -> put s s' c w' -> w = w'.
Proof.
  intros [H|(-> & g & H)] [H'|(-> & g' & H')].
  - rewrite H in H'. apply app_inv_head in H'. exact H'.
  - rewrite H in H'. apply (f_equal (@length Z)) in H'. rewrite !app_length in H'. destruct w; [reflexivity|cbn in H'; lia].
  - rewrite H' in H. apply (f_equal (@length Z)) in H. rewrite !app_length in H. destruct w'; [reflexivity|cbn in H; lia].
  - reflexivity.
Qed.

Section Carried.
  Context (cap : chan -> nat) (G : list dev) (N : nat) (procs : nat -> proc chan ending) (goal : nat -> ending).
  Context (Hcap : forall c, (1 <= cap c)%nat) (Own : owned G) (Bal : balanced chan_eqb G).
  Context (Bound : Forall (fun e : dev => (fst e < N)%nat) G).
  Context (Fol : forall p, follows (procs p) (proj p G) (goal p)).
  Local Notation ghost := (ghost cap G).

  Lemma snds_trace p c l : forall xs tr F ch, ghost tr F ch -> F p = map (Snd c) xs ++ l -> (length (ch c) + length xs <= cap c)%nat ->
    ghost (tr ++ map (fun x => (p, Snd c x)) xs) (set_todo F p l) (set_chan chan_eqb ch c (ch c ++ xs)).
  Proof using All.
    induction xs as [|x xs IH]; intros tr F ch Gh E Hl.
    - cbn [map]. rewrite app_nil_r. eapply ghost_ext; [exact Gh| |].
      + intros q. unfold set_todo. destruct (Nat.eqb_spec q p) as [->|]; [exact E|reflexivity].
      + intros d. unfold set_chan. destruct (chan_eqb d c) eqn:Ed; [|reflexivity]. apply chan_eqb_spec in Ed. subst d. symmetry. apply app_nil_r.
    - cbn [length map app] in *. pose proof (ghost_snd cap G procs goal Hcap Fol _ _ _ _ _ _ _ Gh E ltac:(lia)) as G1.
      assert (G2 : ghost ((tr ++ [(p, Snd c x)]) ++ map (fun x => (p, Snd c x)) xs) (set_todo (set_todo F p (map (Snd c) xs ++ l)) p l)
        (set_chan chan_eqb (set_chan chan_eqb ch c (ch c ++ [x])) c (set_chan chan_eqb ch c (ch c ++ [x]) c ++ xs))).
      { apply IH.
        - exact G1.
        - unfold set_todo. rewrite Nat.eqb_refl. reflexivity.
        - unfold set_chan. rewrite chan_eqb_refl, app_length. cbn [length]. lia. }
      rewrite <- app_assoc in G2. eapply ghost_ext; [exact G2| |].
      + intros q. unfold set_todo. destruct (q =? p)%nat; reflexivity.
      + intros d. unfold set_chan. rewrite chan_eqb_refl. destruct (chan_eqb d c); [|reflexivity]. rewrite <- app_assoc. reflexivity.
  Qed.
  Lemma rcvs_trace p c l : forall got ys tr F ch rest, ghost tr F ch -> F p = map (Rcv c) ys ++ l -> (length got <= length ys)%nat ->
    ch c = got ++ rest -> got = firstn (length got) ys /\
    ghost (tr ++ map (fun x => (p, Rcv c x)) got) (set_todo F p (map (Rcv c) (skipn (length got) ys) ++ l)) (set_chan chan_eqb ch c rest).
  Proof using All.
    induction got as [|x got IH]; intros ys tr F ch rest Gh E Hl Ec.
    - cbn [length firstn skipn map]. rewrite app_nil_r. split; [reflexivity|]. eapply ghost_ext; [exact Gh| |].
      + intros q. unfold set_todo. destruct (Nat.eqb_spec q p) as [->|]; [exact E|reflexivity].
      + intros d. unfold set_chan. destruct (chan_eqb d c) eqn:Ed; [|reflexivity]. apply chan_eqb_spec in Ed. subst d. exact Ec.
    - destruct ys as [|y ys]; [cbn in Hl; lia|]. cbn [length map app] in *.
      destruct (ghost_rcv cap G N procs goal Hcap Own Bal Bound Fol _ _ _ _ _ _ _ _ _ Gh E Ec) as [-> G1].
      destruct (IH ys _ _ _ rest G1) as (Eg & G2).
      + unfold set_todo. rewrite Nat.eqb_refl. reflexivity.
      + lia.
      + unfold set_chan. rewrite chan_eqb_refl. reflexivity.
      + cbn [firstn skipn]. split; [f_equal; exact Eg|]. rewrite <- app_assoc in G2. eapply ghost_ext; [exact G2| |].
        * intros q. unfold set_todo. destruct (q =? p)%nat; reflexivity.
        * intros d. unfold set_chan. destruct (chan_eqb d c); reflexivity.
  Qed.

  Definition history (h : chan -> list Z) (s : net chan ending) : Prop :=
    exists tr F, ghost tr F (nt_chan s) /\ (forall p, follows (nt_proc s p) (F p) (goal p)) /\ forall c, h c = sends chan_eqb c tr.

  Lemma sends_snds p c d xs : sends chan_eqb d (map (fun x => (p, @Snd chan Z unit c x)) xs) = if chan_eqb d c then xs else [].
  Proof. induction xs as [|x xs IH]; cbn [map]; [destruct (chan_eqb d c); reflexivity|]. unfold sends in *. cbn [flat_map snd]. rewrite IH. destruct (chan_eqb d c); reflexivity. Qed.
  Lemma sends_rcvs p c d xs : sends chan_eqb d (map (fun x => (p, @Rcv chan Z unit c x)) xs) = [].
  Proof. induction xs as [|x xs IH]; [reflexivity|]. exact IH. Qed.

  Lemma history_step h s s' w : history h s -> net_step chan_eqb cap s s' -> (forall c, put s s' c (w c)) -> history (fun c => h c ++ w c) s'.
  Proof using All.
    intros (tr & F & Gh & Hf & Hh) St. destruct St as [p [c bs k m Ep Hm Hl|c m k got rest Ep Ec Hm|block l k Ep _]]; intros Hw; [| |pose proof (Hf p) as Fp; rewrite Ep in Fp; inversion Fp].
    - pose proof (Hf p) as Fp. rewrite Ep in Fp. inversion Fp as [|c0 bs0 k0 l a0 Hb Hk E1 E2|]; subst.
      assert (Es : F p = map (Snd c) (firstn m bs) ++ (map (Snd c) (skipn m bs) ++ l))
        by (rewrite app_assoc, <- map_app, firstn_skipn; congruence).
      pose proof (snds_trace p c _ (firstn m bs) tr F (nt_chan s) Gh Es ltac:(rewrite firstn_length; lia)) as G2.
      eexists _, _. split; [exact G2|]. split.
      + intros q. cbn [nt_proc]. unfold set_proc, set_todo. destruct (Nat.eqb_spec q p) as [->|Hne]; [apply Hk; exact Hm|apply Hf].
      + intros d. rewrite sends_app, sends_snds, <- Hh. f_equal. eapply put_fun; [apply Hw|]. left. cbn [nt_chan]. unfold set_chan.
        destruct (chan_eqb d c) eqn:Ed; [apply chan_eqb_spec in Ed; subst; reflexivity|symmetry; apply app_nil_r].
    - pose proof (Hf p) as Fp. rewrite Ep in Fp. inversion Fp as [| |c0 m0 bs k0 l a0 Hb Hsv Hk E1 E2]; subst.
      destruct (rcvs_trace p c l got bs tr F (nt_chan s) rest Gh) as (Eg & G2); [congruence|lia|exact Ec|].
      eexists _, _. split; [exact G2|]. split.
      + intros q. cbn [nt_proc]. unfold set_proc, set_todo. destruct (Nat.eqb_spec q p) as [->|Hne]; [|apply Hf].
        rewrite Eg at 1. apply Hk. exact Hm.
      + intros d. rewrite sends_app, sends_rcvs, <- Hh. f_equal. eapply put_fun; [apply Hw|]. right. split; [reflexivity|]. cbn [nt_chan]. unfold set_chan.
        destruct (chan_eqb d c) eqn:Ed; [apply chan_eqb_spec in Ed; subst; exists got; exact Ec|exists []; reflexivity].
  Qed.

  Lemma history_all h s : carries (net_step chan_eqb cap) (net_start procs) h s -> history h s.
  Proof using All.
    intros H. induction H as [|h s1 w s2 H IH St Hw].
    - exists [], (fun p => proj p G). split; [|split; [exact Fol|reflexivity]]. split; [constructor|]. split; intros; reflexivity.
    - eapply history_step; eassumption.
  Qed.

  Lemma carried_begins h s c : carries (net_step chan_eqb cap) (net_start procs) h s -> begins (h c) (sends chan_eqb c G).
  Proof using All.
    intros H. destruct (history_all h s H) as (tr & F & (R & _) & _ & Hh). rewrite Hh.
    destruct (Own c) as (sd & rc & Os & Or). destruct (owner_run chan_eqb cap _ _ R c _ _ Os Or) as [Ts Tr].
    rewrite (sends_owner chan_eqb chan_eqb_spec _ _ _ Ts), (sends_owner chan_eqb chan_eqb_spec _ _ _ Os).
    rewrite (run_prefix chan_eqb cap _ _ R sd). set (n := length (proj sd tr)).
    exists (psends chan_eqb c (skipn n (proj sd G))). rewrite <- (firstn_skipn n (proj sd G)) at 1.
    unfold psends. rewrite flat_map_app. reflexivity.
  Qed.
  Lemma carried_end h s c : carries (net_step chan_eqb cap) (net_start procs) h s -> (forall s', ~ net_step chan_eqb cap s s') ->
    h c = sends chan_eqb c G.
  Proof using All.
    intros H St. assert (E : exists n, steps (net_step chan_eqb cap) n (net_start procs) s).
    { clear St. induction H as [|h s1 w s2 H IH St Hw]; [exists 0%nat; constructor|]. destruct IH as [n IH]. exists (S n). econstructor; eassumption. }
    destruct E as [n E]. destruct (network_runs cap G N procs goal Hcap Own Bal Bound Fol n s E) as (_ & _ & [[s' X]|[Ret_ _]]); [exfalso; exact (St s' X)|].
    destruct (history_all h s H) as (tr & F & (R & Pf & _) & Hf & Hh). rewrite Hh.
    assert (Fin : forall p, proj p tr = proj p G).
    { intros p. specialize (Hf p). rewrite Ret_ in Hf. inversion Hf as [a Ea El| |]; subst. rewrite <- Pf in El.
      pose proof (run_prefix chan_eqb cap _ _ R p) as Pp. rewrite Pp.
      apply (f_equal (@length _)) in El. cbn [length] in El. rewrite skipn_length in El. apply firstn_all2. lia. }
    destruct (Own c) as (sd & rc & Os & Or). destruct (owner_run chan_eqb cap _ _ R c _ _ Os Or) as [Ts Tr].
    rewrite (sends_owner chan_eqb chan_eqb_spec _ _ _ Ts), (sends_owner chan_eqb chan_eqb_spec _ _ _ Os), Fin. reflexivity.
  Qed.
End Carried.

(** ** The connections of a deployment *)
Definition link_bytes (d : ldata) (offline online : bool) (P : nat) (c : chan) : list Z :=
  let link j bs := if (j <=? P)%nat then bs else [] in
  match c with
  | Lis j => link j [1]
  | Con j => link j [1]
  | Fwd j => link j (le 4 (ld_count d j) ++ (if offline then ld_cipher d j else []) ++ (if online then ld_query d j else []))
  | Bwd j => link j ((if offline then [1] else []) ++ [1] ++ (if online then ld_response d j else []))
  end.

Definition dsends := @sends chan Z unit chan_eqb.
Lemma dsends_app c a l : dsends c (a ++ l) = dsends c a ++ dsends c l.
Proof. apply sends_app. Qed.
Lemma dsends_links c (f : nat -> list dev) (on : chan -> option nat) :
  (forall j, on c <> Some j -> dsends c (f j) = []) ->
  forall l, NoDup l -> dsends c (flat_map f l) = match on c with Some j => if existsb (Nat.eqb j) l then dsends c (f j) else [] | None => [] end.
Proof.
  intros H. induction l as [|i l IH]; intros Nd; cbn [flat_map existsb]; [destruct (on c); reflexivity|].
  rewrite dsends_app. inversion Nd as [|? ? Ni Nd']; subst. rewrite (IH Nd'). destruct (on c) as [j|] eqn:Eo.
  - destruct (Nat.eqb_spec j i) as [->|Hne]; cbn [orb].
    + assert (existsb (Nat.eqb i) l = false) as ->.
      { apply Bool.not_true_is_false. intros E. apply existsb_exists in E as (x & Hx & E). apply Nat.eqb_eq in E. subst. contradiction. }
      apply app_nil_r.
    + rewrite (H i) by congruence. reflexivity.
  - rewrite (H i) by discriminate. reflexivity.
Qed.
Lemma existsb_seq j P : existsb (Nat.eqb j) (seq 0 (S P)) = (j <=? P)%nat.
Proof.
  destruct (Nat.leb_spec j P) as [H|H].
  - apply existsb_exists. exists j. split; [apply in_seq; lia|apply Nat.eqb_refl].
  - apply Bool.not_true_is_false. intros E. apply existsb_exists in E as (x & Hx & E). apply in_seq in Hx. apply Nat.eqb_eq in E. lia.
Qed.
Lemma existsb_rev j (l : list nat) : existsb (Nat.eqb j) (rev l) = existsb (Nat.eqb j) l.
Proof.
  destruct (existsb (Nat.eqb j) l) eqn:E.
  - apply existsb_exists in E as (x & Hx & E). apply existsb_exists. exists x. split; [apply in_rev in Hx; rewrite <- in_rev; apply in_rev; exact Hx|exact E].
  - apply Bool.not_true_is_false. intros E'. apply existsb_exists in E' as (x & Hx & E'). apply in_rev in Hx.
    assert (existsb (Nat.eqb j) l = true) by (apply existsb_exists; eauto). congruence.
Qed.

Definition chan_link (c : chan) : nat := match c with Lis j | Con j | Fwd j | Bwd j => j end.
Lemma dsends_fwd c bs j : dsends c (gd_fwd bs j) = if chan_eqb c (Fwd j) then bs else [].
Proof.
  unfold gd_fwd. induction bs as [|x bs IH]; cbn [flat_map]; [destruct (chan_eqb c (Fwd j)); reflexivity|].
  rewrite dsends_app, IH. unfold dsends, sends. cbn [flat_map snd]. destruct (chan_eqb c (Fwd j)); reflexivity.
Qed.
Lemma dsends_bwd c bs j : dsends c (gd_bwd bs j) = if chan_eqb c (Bwd j) then bs else [].
Proof.
  unfold gd_bwd. induction bs as [|x bs IH]; cbn [flat_map]; [destruct (chan_eqb c (Bwd j)); reflexivity|].
  rewrite dsends_app, IH. unfold dsends, sends. cbn [flat_map snd]. destruct (chan_eqb c (Bwd j)); reflexivity.
Qed.
Lemma chan_eqb_other c c' : c <> c' -> chan_eqb c c' = false.
Proof. intros H. destruct (chan_eqb c c') eqn:E; [apply chan_eqb_spec in E; contradiction|reflexivity]. Qed.

Lemma dsends_fwds c P (bs : nat -> list Z) : dsends c (flat_map (fun j => gd_fwd (bs j) j) (seq 0 (S P))) =
  match c with Fwd j => if (j <=? P)%nat then bs j else [] | _ => [] end.
Proof.
  rewrite (dsends_links c _ (fun c => match c with Fwd j => Some j | _ => None end)).
  - destruct c as [j|j|j|j]; try reflexivity. rewrite existsb_seq, dsends_fwd, chan_eqb_refl. reflexivity.
  - intros j H. rewrite dsends_fwd, chan_eqb_other; [reflexivity|]. intros ->. apply H. reflexivity.
  - apply seq_NoDup.
Qed.
Lemma dsends_bwds c P (bs : nat -> list Z) : dsends c (flat_map (fun j => gd_bwd (bs j) j) (rev (seq 0 (S P)))) =
  match c with Bwd j => if (j <=? P)%nat then bs j else [] | _ => [] end.
Proof.
  rewrite (dsends_links c _ (fun c => match c with Bwd j => Some j | _ => None end)).
  - destruct c as [j|j|j|j]; try reflexivity. rewrite existsb_rev, existsb_seq, dsends_bwd, chan_eqb_refl. reflexivity.
  - intros j H. rewrite dsends_bwd, chan_eqb_other; [reflexivity|]. intros ->. apply H. reflexivity.
  - apply NoDup_rev, seq_NoDup.
Qed.
Lemma dsends_conns c P : dsends c (flat_map gd_conn (seq 0 (S P))) =
  match c with Lis j | Con j => if (j <=? P)%nat then [1] else [] | _ => [] end.
Proof.
  assert (E : forall j, dsends c (gd_conn j) = (if chan_eqb c (Lis j) then [1] else []) ++ (if chan_eqb c (Con j) then [1] else [])).
  { intros j. unfold gd_conn, dsends, sends. cbn [flat_map snd app]. destruct (chan_eqb c (Lis j)), (chan_eqb c (Con j)); reflexivity. }
  rewrite (dsends_links c _ (fun c => match c with Lis j | Con j => Some j | _ => None end)).
  - destruct c as [j|j|j|j]; try reflexivity; rewrite existsb_seq, E, chan_eqb_refl, (chan_eqb_other _ _) by discriminate; reflexivity.
  - intros j H. rewrite E, !chan_eqb_other; [reflexivity| |]; intros ->; apply H; reflexivity.
  - apply seq_NoDup.
Qed.

Lemma chain_sends P d offline online c : dsends c (gd_chain P d offline online) = link_bytes d offline online P c.
Proof.
  unfold gd_chain. rewrite !dsends_app, dsends_conns, (dsends_fwds c P (fun j => le 4 (ld_count d j))), (dsends_bwds c P (fun _ => [1])).
  replace (dsends c (if offline then _ else [])) with
    (if offline then match c with Bwd j => if (j <=? P)%nat then [1] else [] | _ => [] end ++ match c with Fwd j => if (j <=? P)%nat then ld_cipher d j else [] | _ => [] end else [])
    by (destruct offline; [rewrite dsends_app, (dsends_bwds c P (fun _ => [1])), (dsends_fwds c P (ld_cipher d)); reflexivity|reflexivity]).
  replace (dsends c (if online then _ else [])) with
    (if online then match c with Fwd j => if (j <=? P)%nat then ld_query d j else [] | _ => [] end ++ match c with Bwd j => if (j <=? P)%nat then ld_response d j else [] | _ => [] end else [])
    by (destruct online; [rewrite dsends_app, (dsends_bwds c P (ld_response d)), (dsends_fwds c P (ld_query d)); reflexivity|reflexivity]).
  destruct c as [j|j|j|j]; cbn [link_bytes]; destruct (j <=? P)%nat, offline, online; cbn [app]; rewrite ?app_nil_r; reflexivity.
Qed.

(** Everything a deployment's connections carry. *)
Lemma deployment_carries P d offline online (procs : nat -> proc chan ending) goal :
  (forall p, follows (procs p) (dprog P d offline online p) (goal p)) ->
  forall cap h (s : net chan ending), (forall c, (1 <= cap c)%nat) -> carries (net_step chan_eqb cap) (net_start procs) h s ->
    (forall c, begins (h c) (link_bytes d offline online P c)) /\
    ((forall s', ~ net_step chan_eqb cap s s') -> forall c, h c = link_bytes d offline online P c).
Proof.
  intros F cap h s Hc H.
  assert (F' : forall p, follows (procs p) (proj p (gd_chain P d offline online)) (goal p)) by (intros p; rewrite dchain_proj; apply F).
  destruct (dchain_events P d offline online) as [_ Bd].
  split; [|intros St]; intros c; rewrite <- chain_sends.
  - eapply carried_begins; [exact Hc|apply dchain_owned|apply dchain_balanced|exact Bd|exact F'|exact H].
  - eapply carried_end; [exact Hc|apply dchain_owned|apply dchain_balanced|exact Bd|exact F'|exact H|exact St].
Qed.

Lemma deployment_crash_carries P d offline online (procs : nat -> proc chan ending) goal :
  (forall p, follows (procs p) (dprog P d offline online p) (goal p)) ->
  forall cap h s, (forall c, (1 <= cap c)%nat) -> crash_carries cn_net (crash_step cap) (crash_start procs) h s ->
    forall c, begins (h c) (link_bytes d offline online P c).
Proof.
  intros F cap h s Hc H c. rewrite <- chain_sends.
  exact (survives_carries cap (gd_chain P d offline online) (S (S P)) procs goal Hc (dchain_owner P d offline online) (dchain_balanced _ _ _ _)
    (proj2 (dchain_events _ _ _ _)) (Fol' P d offline online procs goal F) h s H c).
Qed.

Lemma queries_on db c parties o j : run_facts db c parties o -> (j <= length parties)%nat ->
  let n := (length (ct_keys c) + list_sum (firstn j (map (noise_total (length db)) parties)))%nat in
  length (nth j (oc_queries o) []) = n /\ length (nth j (oc_responses o) []) = n.
Proof.
  intros (_ & _ & levels & (L & K) & _ & Eq & Er) Hj n.
  destruct (nth_error levels j) as [l|] eqn:E; [|apply nth_error_None in E; lia].
  assert (Ln : length l = n).
  { pose proof (Permutation_length (K j l E)) as X. rewrite map_length, app_length in X. rewrite X. unfold n. f_equal.
    rewrite firstn_map. generalize (firstn j parties) as ps. induction ps as [|cf ps IH]; [reflexivity|].
    cbn [flat_map map list_sum fold_right]. rewrite app_length, IH, noise_keys_length. reflexivity. }
  assert (nth_error (oc_queries o) j = Some (map q_of l)) as E1 by (rewrite Eq, nth_error_map, E; reflexivity).
  assert (nth_error (oc_responses o) j = Some (map (answer db) l)) as E2 by (rewrite Er, nth_error_map, E; reflexivity).
  rewrite (nth_err _ _ _ [] E1), (nth_err _ _ _ [] E2), !map_length. auto.
Qed.

Lemma concat_sized {A} n (l : list (list A)) : Forall (fun x => length x = n) l -> length (concat l) = (n * length l)%nat.
Proof. induction 1 as [|x l Hx _ IH]; cbn [concat length]; [lia|]. rewrite app_length, IH. lia. Qed.

Lemma traffic_length db c parties o offline online ch : run_facts db c parties o -> wire_facts o ->
  (offline = true -> map (fun l => length l) (oc_ciphers o) = map (fun l => length l) (oc_queries o) /\
     forall j l, nth_error (oc_ciphers o) j = Some l -> Forall (fun x => length x = (124 * (S (length parties) - j))%nat) l) ->
  length (link_bytes (data_of o) offline online (length parties) ch) =
    traffic (length (ct_keys c)) (map (noise_total (length db)) parties) offline online ch.
Proof.
  intros RF (_ & _ & WR) Hc. unfold traffic. rewrite map_length.
  destruct (run_lengths _ _ _ _ RF) as (LQ & _ & LRs & _).
  destruct ch as [j|j|j|j]; cbn [link_bytes data_of ld_count ld_cipher ld_query ld_response]; destruct (Nat.leb_spec j (length parties)) as [Hj|Hj]; try reflexivity.
  - destruct (queries_on db c parties o j RF Hj) as (L1 & _).
    rewrite !app_length, length_le, <- Nat.add_assoc. f_equal. f_equal.
    + destruct offline; [|reflexivity]. destruct (Hc eq_refl) as (Lc & Fc). rewrite <- L1.
      destruct (nth_error (oc_ciphers o) j) as [l|] eqn:E.
      * rewrite (nth_err _ _ _ [] E). rewrite (concat_sized _ _ (Fc j l E)). f_equal.
        pose proof (f_equal (fun x => nth_error x j) Lc) as X. cbn beta in X. rewrite !nth_error_map, E in X.
        destruct (nth_error (oc_queries o) j) as [q|] eqn:Eq; [|discriminate X]. rewrite (nth_err _ _ _ [] Eq). inversion X. reflexivity.
      * exfalso. apply nth_error_None in E. pose proof (f_equal (fun x => length x) Lc) as X. cbn beta in X. rewrite !map_length in X. lia.
    + destruct online; [|reflexivity]. rewrite (concat_sized 12).
      * rewrite map_length, L1. reflexivity.
      * apply queries_len.
  - destruct (queries_on db c parties o j RF Hj) as (_ & L2).
    rewrite !app_length, Nat.add_assoc. f_equal; [destruct offline; reflexivity|]. destruct online; [|reflexivity].
    rewrite (concat_sized 52), L2; [reflexivity|].
    assert (Hr : (j < length (oc_responses o))%nat) by (apply (f_equal (fun x => length x)) in LRs; rewrite !map_length in LRs; lia).
    rewrite Forall_forall in WR. specialize (WR _ (nth_In _ [] Hr)). eapply Forall_impl; [|exact WR]. intros x [Lx _]. exact Lx.
Qed.

(** Every execution has a history. *)
Section History.
Context {C E : Type} (eqb : C -> C -> bool) (Heq : forall a b, eqb a b = true <-> a = b).
Lemma put_exists cap (s s' : net C E) : net_step eqb cap s s' -> exists w, forall c, put s s' c (w c).
Proof using Heq.
  intros [p [c bs k m Ep Hm Hl|c m k got rest Ep Ec Hm|block l k Ep _]].
  - exists (fun d => if eqb d c then firstn m bs else []). intros d. left. cbn [nt_chan]. unfold set_chan.
    destruct (eqb d c) eqn:Ed; [apply Heq in Ed; subst; reflexivity|symmetry; apply app_nil_r].
  - exists (fun _ => []). intros d. right. split; [reflexivity|]. cbn [nt_chan]. unfold set_chan.
    destruct (eqb d c) eqn:Ed; [apply Heq in Ed; subst; exists got; exact Ec|exists []; reflexivity].
  - exists (fun _ => []). intros d. left. symmetry. apply app_nil_r.
Qed.
Lemma carries_exists cap s0 n (s : net C E) : steps (net_step eqb cap) n s0 s -> exists h, carries (net_step eqb cap) s0 h s.
Proof using Heq.
  intros H. induction H as [s|n s s1 s2 _ (h & H) St]; [eexists; constructor|].
  destruct (put_exists cap s1 s2 St) as (w & Hw). eexists. econstructor; eassumption.
Qed.
End History.

(** Every execution carries something, also when processes are killed. *)
Lemma crash_carries_exists {S C E} (net_of : S -> net C E) (step : S -> S -> Prop) s s' :
  (forall a b, step a b -> exists w, forall c, crash_put (net_of a) (net_of b) c (w c)) ->
  reach step s s' -> exists h, crash_carries net_of step s h s'.
Proof.
  intros Hw [n H]. induction H as [|n a b c H IH St]; [eexists; constructor|].
  destruct IH as [h IH]. destruct (Hw _ _ St) as [w W]. eexists. econstructor; eassumption.
Qed.
Lemma proc_step_puts {C E} (eqb : C -> C -> bool) (spec : forall a b, eqb a b = true <-> a = b) cap (s s' : net C E) p :
  proc_step eqb cap s p s' -> exists w, forall c, crash_put s s' c (w c).
Proof.
  intros [c bs k n _ _ _|c n k got rest _ Ec _|block l k _ _].
  - exists (fun d => if eqb d c then firstn n bs else []). intros d. left. cbn [nt_chan]. unfold set_chan.
    destruct (eqb d c) eqn:Ed; [apply spec in Ed; subst; reflexivity|symmetry; apply app_nil_r].
  - exists (fun _ => []). intros d. right. split; [reflexivity|]. cbn [nt_chan]. unfold set_chan. destruct (eqb d c) eqn:Ed.
    + apply spec in Ed. subst d. exists got, []. rewrite app_nil_r. exact Ec.
    + exists [], []. rewrite app_nil_r. reflexivity.
  - exists (fun _ => []). intros d. left. symmetry. apply app_nil_r.
Qed.
Lemma lost_puts {C E} (eqb : C -> C -> bool) (spec : forall a b, eqb a b = true <-> a = b) (s : net C E) f c bs lost :
  nt_chan s c = bs ++ lost -> exists w : C -> list Z, forall d, crash_put s {| nt_proc := f; nt_chan := set_chan eqb (nt_chan s) c bs |} d (w d).
Proof.
  intros Ec. exists (fun _ => []). intros d. right. split; [reflexivity|]. cbn [nt_chan]. unfold set_chan. destruct (eqb d c) eqn:Ed.
  - apply spec in Ed. subst d. exists [], lost. exact Ec.
  - exists [], []. rewrite app_nil_r. reflexivity.
Qed.
Lemma same_puts {C E} (s s' : net C E) : nt_chan s' = nt_chan s -> exists w : C -> list Z, forall d, crash_put s s' d (w d).
Proof. intros Es. exists (fun _ => []). intros d. left. rewrite Es. symmetry. apply app_nil_r. Qed.
