(** Deployments with several servers per entity, some of which are killed. *)
From Verif Require Import Base BaseProofs Sizes CipherBatchProofs Net Lts Procs ProcProofs ProcNet ParProcs ParCrash ParRules ProcNetCrash TalkSpec TrafficSpec ProcCrash.

Section Crash.
  Context (N : nat) (HN : (0 < N)%nat) (G : list (gact mchan blk)) (procs : nat -> proc mchan ending) (goal : nat -> ending) (cap : mchan -> nat).
  Notation gst := (@gst mchan blk).
  Notation sees := (sees (mfrom N) (mto N) (bdata N) (bgas N)).
  (** The rules that the processes follow allow for ends of all connections, or of
      none. *)
  Context (eof : mchan -> bool) (NP : nat).
  Notation obeys := (obeys mchan_eqb (mfrom N) (mto N) (bdata N) (bgas N) BUFFER_SIZE bk_small eof).
  Notation scripts := (scripts (mfrom N) (mto N) (bmember N)).
  Notation sinv := (sinv mchan_eqb (mfrom N) (mto N) (bdata N) (bmember N) G).
  Notation reads_st := (reads_st mchan_eqb (bdata N)). Notation writes_st := (writes_st mchan_eqb (bdata N)).
  Notation final := (final (mfrom N) (mto N) (bdata N) (bgas N) goal).
  Notation from := (mfrom N). Notation to := (mto N).
  Context (Hob : forall p, obeys p (final p) (procs p) (Out (scripts p G))).
  Context (Hnp : forall p, (NP <= p)%nat -> scripts p G = []).
  Let Hft : forall c, from c <> to c := fun c => mfrom_to N c HN.

  (** The sender of c has been killed and nothing more will arrive. *)
  Definition pdried (s : pcnet) (c : mchan) : Prop :=
    mest c = true /\ pn_killed s (from c) = true /\ nt_chan (pn_net s) c = [].

  (** [gs p] is what p has still to do. *)
  Definition pstands (s : pcnet) (gs : nat -> gst) (p : nat) : Prop :=
    obeys p (final p) (nt_proc (pn_net s) p) (gs p) \/
    exists c, to c = p /\ pdried s c /\ starved c (nt_proc (pn_net s) p) /\ reads_st c (gs p) <> [].

  Definition psurvives_with (s : pcnet) (gs : nat -> gst) (lost : mchan -> list Z) : Prop :=
    sinv (fun c => nt_chan (pn_net s) c ++ lost c) gs /\
    (forall c, lost c <> [] -> pn_killed s (from c) = true) /\
    forall p, pstands s gs p.
  Definition psurvives (s : pcnet) : Prop := exists gs lost, psurvives_with s gs lost.
  (** The same after a step from s, in which bytes that remained to be written have
      been put on the connections. *)
  Definition psucc (s : pcnet) (gs : nat -> gst) (s' : pcnet) : Prop := exists gs' lost, psurvives_with s' gs' lost /\
    forall c, exists w, crash_put (pn_net s) (pn_net s') c w /\ writes_st c (gs (from c)) = w ++ writes_st c (gs' (from c)).

  Lemma balanced_graph G0 c : reads mchan_eqb (bdata N) c (scripts (to c) G0) = writes mchan_eqb (bdata N) c (scripts (from c) G0).
  Proof using HN.
    revert c. induction G0 as [|g G0 IH]; intros c; [reflexivity|].
    change (scripts (to c) (g :: G0)) with (script from to (bmember N) (to c) g ++ scripts (to c) G0).
    change (scripts (from c) (g :: G0)) with (script from to (bmember N) (from c) g ++ scripts (from c) G0).
    rewrite reads_app, writes_app, IH. f_equal. destruct g as [d v|x]; cbn [script].
    * destruct (mchan_eqb c d) eqn:Ed.
      -- apply mchan_eqb_spec in Ed. subst d. rewrite Nat.eqb_refl, (proj2 (Nat.eqb_neq _ _) (Hft c)), Nat.eqb_refl. reflexivity.
      -- assert (E1 : reads mchan_eqb (bdata N) c (if (from d =? to c)%nat then [Snd d v] else if (to d =? to c)%nat then [Rcv d v] else []) = [])
           by (destruct (from d =? to c)%nat; [reflexivity|]; destruct (to d =? to c)%nat; cbn; rewrite ?Ed; reflexivity).
         rewrite E1. destruct (from d =? from c)%nat; [cbn; rewrite Ed; reflexivity|]. destruct (to d =? from c)%nat; reflexivity.
    * destruct (bdata N x c) as [|z zs] eqn:Ex.
      -- destruct (bmember N x (to c)), (bmember N x (from c)); cbn; rewrite ?Ex; reflexivity.
      -- destruct (bdata_member N x c) as [M1 M2]; [rewrite Ex; discriminate|]. rewrite M1, M2. reflexivity.
  Qed.

  Lemma psurvives_start_with : psurvives_with (par_crash_start procs) (fun p => Out (scripts p G)) (fun _ => []).
  Proof using All.
    split; [|split].
    - constructor.
      + intros c. cbn [ProcNet.reads_st ProcNet.writes_st par_crash_start pn_net net_start nt_chan app]. apply balanced_graph.
      + intros p. exists 0%nat. reflexivity.
      + intros p. exact Logic.I.
    - intros c H. contradiction.
    - intros p. left. apply Hob.
  Qed.
  Lemma psurvives_start : psurvives (par_crash_start procs).
  Proof using All. eexists _, _. exact psurvives_start_with. Qed.

  (** A connection is only found closed early when its sender has been killed. *)
  Lemma sender_killed s gs lost c : psurvives_with s gs lost -> pc_ended N s c -> reads_st c (gs (to c)) <> [] -> pn_killed s (from c) = true.
  Proof using All.
    intros (I & Hl & St) (_ & Ex & Ec) Hr. destruct Ex as [K|(e & Ee)]; [exact K|]. destruct (pn_killed s (from c)) eqn:K; [reflexivity|]. exfalso.
    assert (L0 : lost c = []). { destruct (lost c) eqn:E; [reflexivity|]. rewrite Hl in K; [discriminate|rewrite E; discriminate]. }
    apply Hr. rewrite (v_bal _ _ _ _ _ _ _ _ I c), Ec, L0. cbn [app].
    destruct (St (from c)) as [O|(d & _ & _ & Sv & _)]; rewrite Ee in *; [|inversion Sv].
    inversion O as [a st Q| | | | | | |]; subst. destruct Q as [_ Q]. eapply done_writes; [exact Q|reflexivity].
  Qed.

  Lemma pstands_other s s' gs gs' p q : pstands s gs q -> q <> p ->
    nt_proc (pn_net s') q = nt_proc (pn_net s) q -> gs' q = gs q -> (forall c, pdried s c -> pdried s' c) -> pstands s' gs' q.
  Proof.
    intros [H|(c & H1 & H2 & H3 & H4)] _ Ep EF Hd; [left; rewrite Ep, EF; exact H|right]. exists c. rewrite Ep, EF. auto.
  Qed.
  Lemma sinv_at ch gs p n nw : sinv ch (ups (ups gs p n) p nw) -> sinv ch (ups gs p nw).
  Proof. intros I. eapply sinv_ext; [exact I|reflexivity|apply ups_ups]. Qed.

  (** What a step of p does to the others. *)
  Lemma step_survives s gs lost s' p nw pr : psurvives_with s gs lost -> pn_killed s' = pn_killed s ->
    nt_proc (pn_net s') = set_proc (nt_proc (pn_net s)) p pr ->
    sinv (fun c => nt_chan (pn_net s') c ++ lost c) (ups gs p nw) ->
    (forall c, (from c = p /\ lost c = [] /\ exists w, nt_chan (pn_net s') c = nt_chan (pn_net s) c ++ w) \/
               (from c <> p /\ exists got, nt_chan (pn_net s) c = got ++ nt_chan (pn_net s') c) \/ nt_chan (pn_net s') c = nt_chan (pn_net s) c) ->
    (forall c, pdried s c -> nt_chan (pn_net s') c = []) ->
    pstands s' (ups gs p nw) p -> psucc s gs s'.
  Proof using HN.
    intros (I & Hl & St) Ek Ep I' Hw Hd Sp. exists (ups gs p nw), lost. split; [split; [exact I'|split; [rewrite Ek; exact Hl|]]|].
    2:{ intros c. pose proof (v_bal _ _ _ _ _ _ _ _ I c) as B. pose proof (v_bal _ _ _ _ _ _ _ _ I' c) as B'. cbv beta in B, B'.
        destruct (Nat.eq_dec (from c) p) as [Ef|Ef].
        - rewrite (ups_other gs p nw (to c)) in B' by (pose proof (Hft c); congruence). rewrite B in B'. rewrite Ef in *. rewrite ups_same in *.
          destruct (Hw c) as [(_ & L0 & w & E)|[(Hne & _)|E]]; [|contradiction|].
          + exists w. split; [left; exact E|]. rewrite L0, E, !app_nil_r, <- app_assoc in B'. apply app_inv_head in B'. exact B'.
          + exists []. split; [left; rewrite app_nil_r; exact E|]. rewrite E in B'. apply app_inv_head in B'. exact B'.
        - rewrite (ups_other gs p nw (from c)) by exact Ef. exists []. split; [|reflexivity]. destruct (Hw c) as [(E & _)|[(_ & got & E)|E]]; [contradiction| |].
          + right. split; [reflexivity|]. exists got, []. rewrite app_nil_r. exact E.
          + left. rewrite app_nil_r. exact E. }
    intros q. destruct (Nat.eq_dec q p) as [->|Hne]; [exact Sp|]. eapply (pstands_other s s' gs _ p q); [apply St|exact Hne| | |].
    - rewrite Ep. unfold set_proc. rewrite (proj2 (Nat.eqb_neq q p) Hne). reflexivity.
    - apply ups_other. exact Hne.
    - intros c Dc. split; [apply Dc|]. split; [rewrite Ek; apply Dc|apply Hd; exact Dc].
  Qed.

  Lemma set_lost (ch lost : mchan -> list Z) c v w : v ++ lost c = w ->
    forall d, set_chan mchan_eqb (fun c => ch c ++ lost c) c w d = set_chan mchan_eqb ch c v d ++ lost d.
  Proof. intros E d. unfold set_chan. destruct (mchan_eqb d c) eqn:Ed; [|reflexivity]. apply mchan_eqb_spec in Ed. subst d. symmetry. exact E. Qed.
  Lemma live_lost s gs lost c : psurvives_with s gs lost -> pn_killed s (from c) = false -> lost c = [].
  Proof. intros (_ & Hl & _) K. destruct (lost c) eqn:E; [reflexivity|]. rewrite Hl in K; [discriminate|rewrite E; discriminate]. Qed.

  Lemma write_survives s gs lost p c bs k n : psurvives_with s gs lost -> pn_killed s p = false -> nt_proc (pn_net s) p = Write c bs k ->
    (1 <= n <= length bs)%nat ->
    psucc s gs {| pn_net := {| nt_proc := set_proc (nt_proc (pn_net s)) p (k n); nt_chan := set_chan mchan_eqb (nt_chan (pn_net s)) c (nt_chan (pn_net s) c ++ firstn n bs) |};
                 pn_killed := pn_killed s |}.
  Proof using All.
    intros Su K Ep Hn. pose proof Su as (I & Hl & St).
    destruct (St p) as [O|(c0 & _ & _ & Sv & _)]; rewrite Ep in *; [|inversion Sv].
    assert (Fin : forall nw, from c = p -> sinv (set_chan mchan_eqb (fun c => nt_chan (pn_net s) c ++ lost c) c ((nt_chan (pn_net s) c ++ lost c) ++ firstn n bs)) (ups gs p nw) ->
      obeys p (final p) (k n) nw ->
      psucc s gs {| pn_net := {| nt_proc := set_proc (nt_proc (pn_net s)) p (k n); nt_chan := set_chan mchan_eqb (nt_chan (pn_net s)) c (nt_chan (pn_net s) c ++ firstn n bs) |};
                 pn_killed := pn_killed s |}).
    { intros nw Hf I' O'. assert (L0 : lost c = []) by (eapply live_lost; [exact Su|rewrite Hf; exact K]).
      eapply (step_survives s gs lost _ p nw (k n) Su); [reflexivity|reflexivity| | | |].
      - eapply sinv_ext; [exact I'| |reflexivity]. apply set_lost. rewrite L0, !app_nil_r. reflexivity.
      - intros d. cbn [pn_net nt_chan]. unfold set_chan. destruct (mchan_eqb d c) eqn:Ed; [|right; right; reflexivity].
        apply mchan_eqb_spec in Ed. subst d. left. split; [exact Hf|]. split; [exact L0|]. eexists. reflexivity.
      - intros d (D1 & D2 & D3). cbn [pn_net nt_chan]. unfold set_chan. destruct (mchan_eqb d c) eqn:Ed; [|exact D3].
        apply mchan_eqb_spec in Ed. subst d. rewrite Hf in D2. congruence.
      - left. cbn [pn_net nt_proc]. unfold set_proc. rewrite Nat.eqb_refl, ups_same. exact O'. }
    inversion O as [ | |c0 bs0 k0 s0 l Hs Hb Hk| |c0 bs0 w k0 s0 x R W u hot g l Hs Hb HW _ Hk| | | ]; subst.
    - pose proof (sinv_sees _ _ _ _ _ _ _ _ _ _ _ I Hs) as I1.
      destruct (sinv_write mchan_eqb from to (bdata N) (bmember N) (bgas N) mchan_eqb_spec Hft (bdata_member N) G _ _ p c bs l n I1 (ups_same _ _ _) Hb) as [Hf I2].
      apply sinv_at in I2. apply (Fin _ Hf I2). apply Hk. exact Hn.
    - pose proof (sinv_sees _ _ _ _ _ _ _ _ _ _ _ I Hs) as I1.
      destruct (sinv_bwrite mchan_eqb from to (bdata N) (bmember N) (bgas N) mchan_eqb_spec Hft (bdata_member N) G _ _ p x R W u hot (S g) l c bs w n
        (upf mchan_eqb u c (u c + n)%nat) hot g I1 (ups_same _ _ _) Hb HW) as [Hf I2].
      apply sinv_at in I2. apply (Fin _ Hf I2). apply Hk. exact Hn.
  Qed.

  Lemma read_survives s gs lost p c n k got rest : psurvives_with s gs lost -> pn_killed s p = false -> nt_proc (pn_net s) p = Read c n k ->
    nt_chan (pn_net s) c = got ++ rest -> (1 <= length got <= n)%nat ->
    psucc s gs {| pn_net := {| nt_proc := set_proc (nt_proc (pn_net s)) p (k got); nt_chan := set_chan mchan_eqb (nt_chan (pn_net s)) c rest |};
                 pn_killed := pn_killed s |}.
  Proof using All.
    intros Su K Ep Ec Hn. pose proof Su as (I & Hl & St).
    destruct (St p) as [O|(c0 & _ & Dr & Sv & _)]; rewrite Ep in *.
    2:{ inversion Sv; subst. destruct Dr as (_ & _ & Dr). rewrite Dr in Ec. destruct got; [cbn in Hn; lia|discriminate]. }
    assert (Ec' : nt_chan (pn_net s) c ++ lost c = got ++ (rest ++ lost c)) by (rewrite Ec; symmetry; apply app_assoc).
    assert (Fin : forall nw, to c = p -> sinv (set_chan mchan_eqb (fun c => nt_chan (pn_net s) c ++ lost c) c (rest ++ lost c)) (ups gs p nw) ->
      obeys p (final p) (k got) nw ->
      psucc s gs {| pn_net := {| nt_proc := set_proc (nt_proc (pn_net s)) p (k got); nt_chan := set_chan mchan_eqb (nt_chan (pn_net s)) c rest |};
                 pn_killed := pn_killed s |}).
    { intros nw Ht I' O'. eapply (step_survives s gs lost _ p nw (k got) Su); [reflexivity|reflexivity| | | |].
      - eapply sinv_ext; [exact I'| |reflexivity]. apply set_lost. reflexivity.
      - intros d. cbn [pn_net nt_chan]. unfold set_chan. destruct (mchan_eqb d c) eqn:Ed; [|right; right; reflexivity].
        apply mchan_eqb_spec in Ed. subst d. right. left. split; [pose proof (Hft c); congruence|]. exists got. exact Ec.
      - intros d (D1 & D2 & D3). cbn [pn_net nt_chan]. unfold set_chan. destruct (mchan_eqb d c) eqn:Ed; [|exact D3].
        apply mchan_eqb_spec in Ed. subst d. rewrite D3 in Ec. destruct got; [cbn in Hn; lia|discriminate].
      - left. cbn [pn_net nt_proc]. unfold set_proc. rewrite Nat.eqb_refl, ups_same. exact O'. }
    inversion O as [ | | |c0 n0 bs k0 s0 l Hs Hb _ Hk| |c0 n0 k0 s0 x R W u hot g l Hs _ HW Hb _ Hk|c0 n0 k0 s0 x R W u hot g g0 l Hs Hh Hb Hk| ]; subst.
    - pose proof (sinv_sees _ _ _ _ _ _ _ _ _ _ _ I Hs) as I1.
      destruct (sinv_read mchan_eqb from to (bdata N) (bmember N) (bgas N) mchan_eqb_spec Hft (bdata_member N) G _ _ p c bs l got (rest ++ lost c) I1 (ups_same _ _ _)) as [Hg I2];
        [destruct bs; [cbn in Hb; lia|discriminate]|exact Ec'|lia|].
      assert (Ht : to c = p). { pose proof (v_pos _ _ _ _ _ _ _ _ I1 p) as Hp. rewrite ups_same in Hp. cbn [script_of] in Hp. destruct bs; [cbn in Hb; lia|]. eapply behind_rcv. exact Hp. }
      apply sinv_at in I2. apply (Fin _ Ht I2). rewrite Hg at 1. apply Hk. exact Hn.
    - pose proof (sinv_sees _ _ _ _ _ _ _ _ _ _ _ I Hs) as I1.
      destruct (sinv_bread mchan_eqb from to (bdata N) (bmember N) (bgas N) mchan_eqb_spec Hft (bdata_member N) G _ _ p x R W u hot (S g) l c got (rest ++ lost c)
        u (filter (fun d => negb (mchan_eqb d c)) hot) g I1 (ups_same _ _ _)) as (Ht & Hg & I2);
        [destruct (R c); [cbn in Hb; lia|discriminate]|exact Ec'|lia|].
      apply sinv_at in I2. apply (Fin _ Ht I2). rewrite Hg at 1. apply Hk. exact Hn.
    - pose proof (sinv_sees _ _ _ _ _ _ _ _ _ _ _ I Hs) as I1.
      destruct (sinv_bread mchan_eqb from to (bdata N) (bmember N) (bgas N) mchan_eqb_spec Hft (bdata_member N) G _ _ p x R W u hot (S g) l c got (rest ++ lost c)
        u (filter (fun d => negb (mchan_eqb d c)) hot) (if (length got =? 0)%nat then g0 else g) I1 (ups_same _ _ _)) as (Ht & Hg & I2);
        [destruct (R c); [cbn in Hb; lia|discriminate]|exact Ec'|lia|].
      apply sinv_at in I2. apply (Fin _ Ht I2). rewrite Hg at 1. apply Hk; lia.
  Qed.

  Lemma poll_survives s gs lost p block l k fs : psurvives_with s gs lost -> nt_proc (pn_net s) p = Poll block l k ->
    length fs = length l -> (block = true -> List.In true fs) ->
    psucc s gs {| pn_net := {| nt_proc := set_proc (nt_proc (pn_net s)) p (k fs); nt_chan := nt_chan (pn_net s) |}; pn_killed := pn_killed s |}.
  Proof using All.
    intros Su Ep Hf Hb. pose proof Su as (I & Hl & St).
    destruct (St p) as [O|(c0 & _ & _ & Sv & _)]; rewrite Ep in *; [|inversion Sv].
    inversion O as [ | | | | | | |b0 cs k0 s0 x R W u hot g l0 Hs Hc Hw Hk]; subst.
    pose proof (sinv_sees _ _ _ _ _ _ _ _ _ _ _ I Hs) as I1.
    pose proof (sinv_poll mchan_eqb from to (bdata N) (bmember N) G _ _ p x R W u hot (S g) l0
      (if existsb (fun f => f) fs then u else fun _ => 0%nat) (flagged l fs) g I1 (ups_same _ _ _)) as I2. apply sinv_at in I2.
    eapply (step_survives s gs lost _ p _ (k fs) Su); [reflexivity|reflexivity|exact I2|intros d; right; right; reflexivity|intros d Dd; apply Dd|].
    left. cbn [pn_net nt_proc]. unfold set_proc. rewrite Nat.eqb_refl, ups_same. apply Hk; assumption.
  Qed.

  Lemma eof_survives s gs lost p c n k : (mest c = true -> eof c = true) -> psurvives_with s gs lost -> nt_proc (pn_net s) p = Read c n k -> pc_ended N s c ->
    psucc s gs {| pn_net := {| nt_proc := set_proc (nt_proc (pn_net s)) p (k []); nt_chan := nt_chan (pn_net s) |}; pn_killed := pn_killed s |}.
  Proof using All.
    intros Hme Su Ep En. pose proof Su as (I & Hl & St). pose proof En as (Hm & Ex & Ec). pose proof (Hme Hm) as He.
    assert (Starve : forall nw, sinv (fun c => nt_chan (pn_net s) c ++ lost c) (ups gs p nw) -> to c = p -> pn_killed s (from c) = true ->
      starved c (k []) -> reads_st c nw <> [] ->
      psucc s gs {| pn_net := {| nt_proc := set_proc (nt_proc (pn_net s)) p (k []); nt_chan := nt_chan (pn_net s) |}; pn_killed := pn_killed s |}).
    { intros nw I' Ht Kc Sv Hr. eapply (step_survives s gs lost _ p nw (k []) Su); [reflexivity|reflexivity|exact I'|intros d; right; right; reflexivity|intros d Dd; apply Dd|].
      right. exists c. split; [exact Ht|]. split; [split; [exact Hm|split; [exact Kc|exact Ec]]|]. cbn [pn_net nt_proc]. unfold set_proc.
      rewrite Nat.eqb_refl, ups_same. auto. }
    destruct (St p) as [O|(c0 & H1 & (D1 & D2 & D3) & Sv & H4)]; rewrite Ep in *.
    2:{ inversion Sv; subst. apply (Starve (gs (to c))); auto. eapply sinv_ext; [exact I|reflexivity|]. intros q. symmetry. apply ups_id. }
    inversion O as [ | | |c0 n0 bs k0 s0 l Hs Hb Hsv Hk| |c0 n0 k0 s0 x R W u hot g l Hs _ HW Hb Hsv Hk|c0 n0 k0 s0 x R W u hot g g0 l Hs Hh Hb Hk| ]; subst;
      pose proof (sinv_sees _ _ _ _ _ _ _ _ _ _ _ I Hs) as I1.
    - assert (Hb0 : bs <> []) by (destruct bs; [cbn in Hb; lia|discriminate]).
      assert (Ht : to c = p). { pose proof (v_pos _ _ _ _ _ _ _ _ I1 p) as Hp. rewrite ups_same in Hp. cbn [script_of] in Hp. destruct bs; [contradiction|]. eapply behind_rcv. exact Hp. }
      assert (Hr : reads_st c (Out (map (Rcv c) bs ++ l)) <> []).
      { cbn [ProcNet.reads_st]. rewrite reads_app, (reads_rcv _ _ mchan_eqb_spec). destruct bs; [contradiction|discriminate]. }
      apply (Starve _ I1 Ht); [|exact (Hsv He)|exact Hr].
      eapply sender_killed; [exact Su|exact En|]. rewrite Ht, <- (sees_reads _ _ _ _ _ _ _ _ Hs c Ht). exact Hr.
    - assert (Hb0 : R c <> []) by (destruct (R c); [cbn in Hb; lia|discriminate]).
      assert (Ht : to c = p). { pose proof (v_fine _ _ _ _ _ _ _ _ I1 p) as Hp. rewrite ups_same in Hp. eapply fine_to; eassumption. }
      assert (Hr : reads_st c (In x R W u hot (S g) l) <> []).
      { cbn [ProcNet.reads_st]. destruct (R c); [contradiction|discriminate]. }
      apply (Starve _ I1 Ht); [|exact (Hsv He)|exact Hr].
      eapply sender_killed; [exact Su|exact En|]. rewrite Ht, <- (sees_reads _ _ _ _ _ _ _ _ Hs c Ht). exact Hr.
    - specialize (Hk 0%nat (Nat.le_0_l _) (fun _ => He)). cbn [firstn skipn Nat.eqb] in Hk.
      eapply (step_survives s gs lost _ p _ (k []) Su); [reflexivity|reflexivity| |intros d; right; right; reflexivity|intros d Dd; apply Dd|].
      2:{ left. cbn [pn_net nt_proc]. unfold set_proc. rewrite Nat.eqb_refl, ups_same. exact Hk. }
      assert (HR : forall d, upf mchan_eqb R c (R c) d = R d).
      { intros d. unfold upf. destruct (mchan_eqb d c) eqn:Ed; [|reflexivity]. apply mchan_eqb_spec in Ed. subst d. reflexivity. }
      assert (I2 := I1). apply (sinv_same _ _ _ _ _ _ _ _ p (In x (upf mchan_eqb R c (R c)) W u (filter (fun d => negb (mchan_eqb d c)) hot) g0 l)) in I2.
      + apply sinv_at in I2. exact I2.
      + intros d _. rewrite ups_same. cbn [ProcNet.reads_st]. rewrite HR. reflexivity.
      + intros d _. rewrite ups_same. reflexivity.
      + pose proof (v_pos _ _ _ _ _ _ _ _ I1 p) as Hp. rewrite ups_same in Hp. exact Hp.
      + pose proof (v_fine _ _ _ _ _ _ _ _ I1 p) as Hp. rewrite ups_same in Hp. destruct Hp as [F1 F2]. split; [|exact F2].
        intros d. rewrite HR. apply F1.
  Qed.

  (** No process of the deployment has been killed. *)
  Definition quiet (s : pcnet) : Prop := forall p, (p < NP)%nat -> pn_killed s p = false.

  (** There is nothing on a channel of a process that does not exist. *)
  Lemma no_sender ch gs c : sinv ch gs -> (NP <= from c)%nat -> reads_st c (gs (to c)) = [].
  Proof using All.
    intros I Hp. pose proof (v_pos _ _ _ _ _ _ _ _ I (to c)) as (k & Hk). pose proof (v_fine _ _ _ _ _ _ _ _ I (to c)) as F.
    assert (Z : reads mchan_eqb (bdata N) c (scripts (to c) (skipn k G)) = []).
    { rewrite balanced_graph. assert (E : scripts (from c) (skipn k G) = []); [|rewrite E; reflexivity].
      pose proof (Hnp _ Hp) as E. rewrite <- (firstn_skipn k G) in E. unfold ProcNet.scripts in *. rewrite flat_map_app in E. apply app_eq_nil in E. apply E. }
    rewrite <- Hk in Z. destruct (gs (to c)) as [l|x R W u hot g l]; cbn [script_of ProcNet.reads_st] in *; [exact Z|].
    cbn [reads flat_map] in Z. apply app_eq_nil in Z as [Z1 Z2]. destruct F as [F _]. destruct (F c) as [j ->]. unfold ProcNet.R0. rewrite Nat.eqb_refl, Z1, skipn_nil.
    exact Z2.
  Qed.
  Lemma quiet_sender s gs lost c : psurvives_with s gs lost -> quiet s -> pc_ended N s c -> reads_st c (gs (to c)) = [].
  Proof using All.
    intros Su Q En. destruct (reads_st c (gs (to c))) eqn:E; [reflexivity|]. assert (Hn : reads_st c (gs (to c)) <> []) by (rewrite E; discriminate).
    pose proof (sender_killed s gs lost c Su En Hn) as K. destruct (Nat.lt_ge_cases (from c) NP) as [L|L]; [rewrite (Q _ L) in K; discriminate|].
    rewrite (no_sender _ gs c (proj1 Su) L) in E. discriminate.
  Qed.
  Lemma quiet_stands s gs lost p : psurvives_with s gs lost -> quiet s -> obeys p (final p) (nt_proc (pn_net s) p) (gs p).
  Proof using All.
    intros Su Q. pose proof Su as (I & Hl & St). destruct (St p) as [O|(c & Ht & (_ & D2 & _) & _ & Hr)]; [exact O|]. exfalso.
    destruct (Nat.lt_ge_cases (from c) NP) as [L|L]; [rewrite (Q _ L) in D2; discriminate|]. subst p. apply Hr. eapply no_sender; [exact I|exact L].
  Qed.
  Lemma quiet_read s gs lost p c n k : psurvives_with s gs lost -> quiet s -> nt_proc (pn_net s) p = Read c n k -> ~ pc_ended N s c.
  Proof using All.
    intros Su K Ep En. pose proof (quiet_sender s gs lost c Su K En) as Z. pose proof (quiet_stands s gs lost p Su K) as O. pose proof Su as (I & _ & _). rewrite Ep in O.
    inversion O as [ | | |c0 n0 bs k0 s0 l Hs Hb Hsv Hk| |c0 n0 k0 s0 x R W u hot g l Hs _ HW Hb Hsv Hk|c0 n0 k0 s0 x R W u hot g g0 l Hs Hh Hb Hk| ]; subst;
      pose proof (sinv_sees _ _ _ _ _ _ _ _ _ _ _ I Hs) as I1.
    - assert (Ht : to c = p). { pose proof (v_pos _ _ _ _ _ _ _ _ I1 p) as Hp. rewrite ups_same in Hp. cbn [script_of] in Hp. destruct bs; [cbn in Hb; lia|]. eapply behind_rcv. exact Hp. }
      rewrite Ht, <- (sees_reads _ _ _ _ _ _ _ _ Hs c Ht) in Z. cbn [ProcNet.reads_st] in Z. rewrite reads_app, (reads_rcv _ _ mchan_eqb_spec) in Z.
      destruct bs; [cbn in Hb; lia|discriminate].
    - assert (Hb0 : R c <> []) by (destruct (R c); [cbn in Hb; lia|discriminate]).
      assert (Ht : to c = p). { pose proof (v_fine _ _ _ _ _ _ _ _ I1 p) as Hp. rewrite ups_same in Hp. eapply fine_to; eassumption. }
      rewrite Ht, <- (sees_reads _ _ _ _ _ _ _ _ Hs c Ht) in Z. cbn [ProcNet.reads_st] in Z. apply app_eq_nil in Z as [Z _]. contradiction.
    - assert (Hb0 : R c <> []) by (destruct (R c); [cbn in Hb; lia|discriminate]).
      assert (Ht : to c = p). { pose proof (v_fine _ _ _ _ _ _ _ _ I1 p) as Hp. rewrite ups_same in Hp. eapply fine_to; eassumption. }
      rewrite Ht, <- (sees_reads _ _ _ _ _ _ _ _ Hs c Ht) in Z. cbn [ProcNet.reads_st] in Z. apply app_eq_nil in Z as [Z _]. contradiction.
  Qed.
  Lemma quiet_poll s gs lost p block l k fs : psurvives_with s gs lost -> quiet s -> nt_proc (pn_net s) p = Poll block l k -> pc_flags N s block l fs ->
    fs = map (fun c => readable (nt_chan (pn_net s) c)) l.
  Proof using All.
    intros Su K Ep (F1 & _). pose proof (quiet_stands s gs lost p Su K) as O. pose proof Su as (I & _ & _). rewrite Ep in O.
    inversion O as [ | | | | | | |b0 cs k0 s0 x R W u hot g l0 Hs Hc Hw Hk]; subst.
    pose proof (sinv_sees _ _ _ _ _ _ _ _ _ _ _ I Hs) as I1.
    assert (Hend : forall c, List.In c l -> ~ pc_ended N s c).
    { intros c Hin En. apply Hc in Hin.
      assert (Ht : to c = p). { pose proof (v_fine _ _ _ _ _ _ _ _ I1 p) as Hp. rewrite ups_same in Hp. eapply fine_to; eassumption. }
      pose proof (quiet_sender s gs lost c Su K En) as Z. rewrite Ht, <- (sees_reads _ _ _ _ _ _ _ _ Hs c Ht) in Z. cbn [ProcNet.reads_st] in Z.
      apply app_eq_nil in Z as [Z _]. contradiction. }
    clear - F1 Hend. induction F1 as [|c f l fs [H1 H2] F IH]; [reflexivity|]. cbn [map]. f_equal.
    - destruct f; [destruct (H2 eq_refl) as [H|H]; [symmetry; exact H|exfalso; apply (Hend c); [left; reflexivity|exact H]]|].
      destruct (readable (nt_chan (pn_net s) c)); [exact (H1 eq_refl)|reflexivity].
    - apply IH. intros d Hd. apply Hend. right. exact Hd.
  Qed.

  Lemma psucc_step s gs lost s' : (quiet s \/ forall c, mest c = true -> eof c = true) -> psurvives_with s gs lost -> par_crash_step N cap s s' -> psucc s gs s'.
  Proof using All.
    intros Hq Su Step. destruct Step as [p n K Ps|p|c bs Kc (more & Ec)|p c n k K Ep En|p block l k fs K Ep (F1 & F2)].
    - destruct Ps as [c bs k m Ep Hm Hc|c m k got rest Ep Ec Hm|block l k Ep Hr].
      + eapply write_survives; eassumption.
      + eapply read_survives; eassumption.
      + eapply poll_survives; [exact Su|exact Ep|apply map_length|]. intros Hb. destruct (Hr Hb) as (c & Hc & E).
        apply in_map_iff. exists c. auto.
    - pose proof Su as (I & Hl & St).
      assert (M : forall q, pn_killed s q = true -> set_killed (pn_killed s) p q = true)
        by (intros q H; unfold set_killed; destruct (q =? p)%nat; [reflexivity|exact H]).
      exists gs, lost. split; [|intros c; exists []; split; [left; symmetry; apply app_nil_r|reflexivity]]. split; [exact I|]. split; [intros c H; apply M, Hl, H|].
      intros q. destruct (St q) as [H|(c & H1 & (D1 & D2 & D3) & H3 & H4)]; [left; exact H|right].
      exists c. split; [exact H1|]. split; [split; [exact D1|split; [apply M; exact D2|exact D3]]|auto].
    - pose proof Su as (I & Hl & St). exists gs, (fun d => if mchan_eqb d c then more ++ lost d else lost d). split; [split; [|split]|].
      + eapply sinv_ext; [exact I| |reflexivity]. intros d. cbn [pn_net nt_chan]. unfold set_chan.
        destruct (mchan_eqb d c) eqn:Ed; [|reflexivity]. apply mchan_eqb_spec in Ed. subst d. rewrite Ec, <- app_assoc. reflexivity.
      + intros d. destruct (mchan_eqb d c) eqn:Ed; [|apply Hl]. apply mchan_eqb_spec in Ed. subst d. intros _. exact Kc.
      + intros q. destruct (St q) as [H|(d & H1 & (D1 & D2 & D3) & H3 & H4)]; [left; exact H|right].
        exists d. split; [exact H1|]. split; [split; [exact D1|split; [exact D2|]]|auto]. cbn [pn_net nt_chan]. unfold set_chan.
        destruct (mchan_eqb d c) eqn:Ed; [|exact D3]. apply mchan_eqb_spec in Ed. subst d. rewrite D3 in Ec. symmetry in Ec. apply app_eq_nil in Ec. apply Ec.
      + intros d. exists []. split; [|reflexivity]. right. split; [reflexivity|]. cbn [pn_net nt_chan]. unfold set_chan. destruct (mchan_eqb d c) eqn:Ed.
        * apply mchan_eqb_spec in Ed. subst d. exists [], more. exact Ec.
        * exists [], []. rewrite app_nil_r. reflexivity.
    - destruct Hq as [Q|He]; [exfalso; exact (quiet_read s gs lost p c n k Su Q Ep En)|]. eapply eof_survives; [apply He|exact Su|exact Ep|exact En].
    - eapply poll_survives; [exact Su|exact Ep|clear - F1; induction F1; cbn; congruence|exact F2].
  Qed.
  Lemma psurvives_step s s' : (quiet s \/ forall c, mest c = true -> eof c = true) -> psurvives s -> par_crash_step N cap s s' -> psurvives s'.
  Proof using All. intros Hq (gs & lost & Su) Step. destruct (psucc_step s gs lost s' Hq Su Step) as (gs' & lost' & Su' & _). exists gs', lost'. exact Su'. Qed.

  Lemma written c G0 : writes mchan_eqb (bdata N) c (scripts (from c) G0) = total mchan_eqb (bdata N) c G0.
  Proof using HN.
    induction G0 as [|g G0 IH]; [reflexivity|]. change (scripts (from c) (g :: G0)) with (script from to (bmember N) (from c) g ++ scripts (from c) G0).
    rewrite writes_app, IH. unfold total at 2. cbn [flat_map]. f_equal. destruct g as [d v|x]; cbn [script].
    - destruct (mchan_eqb c d) eqn:Ed.
      + apply mchan_eqb_spec in Ed. subst d. rewrite Nat.eqb_refl. cbn. rewrite (proj2 (mchan_eqb_spec c c) eq_refl). reflexivity.
      + destruct (from d =? from c)%nat; [cbn; rewrite Ed; reflexivity|]. destruct (to d =? from c)%nat; reflexivity.
    - destruct (bmember N x (from c)) eqn:Em; [cbn; apply app_nil_r|]. destruct (bdata N x c) as [|z zs] eqn:Ex; [reflexivity|].
      destruct (bdata_member N x c) as [M _]; [rewrite Ex; discriminate|congruence].
  Qed.
  (** What is put on a connection is a beginning of what is meant to be. *)
  Lemma psurvives_carries h s : (forall c, mest c = true -> eof c = true) ->
    crash_carries pn_net (par_crash_step N cap) (par_crash_start procs) h s ->
    forall c, begins (h c) (total mchan_eqb (bdata N) c G).
  Proof using All.
    intros He H. assert (X : exists gs lost, psurvives_with s gs lost /\ forall c, h c ++ writes_st c (gs (from c)) = writes mchan_eqb (bdata N) c (scripts (from c) G)).
    { induction H as [|h s1 w s2 H (gs & lost & Su & Hh) St Hw].
      - exists (fun p => Out (scripts p G)), (fun _ => []). split; [apply psurvives_start_with|reflexivity].
      - destruct (psucc_step s1 gs lost s2 (or_intror He) Su St) as (gs' & lost' & Su' & Hw'). exists gs', lost'. split; [exact Su'|].
        intros c. destruct (Hw' c) as (w' & Pw & E). rewrite (crash_put_fun _ _ _ _ _ (Hw c) Pw), <- app_assoc, <- E. apply Hh. }
    destruct X as (gs & lost & _ & Hh). intros c. rewrite <- written, <- (Hh c). eexists. reflexivity.
  Qed.
  Lemma psurvives_all s : (forall c, mest c = true -> eof c = true) -> reach (par_crash_step N cap) (par_crash_start procs) s -> psurvives s.
  Proof using All. intros He H. eapply (reach_inv (par_crash_step N cap) psurvives); [|exact psurvives_start|exact H]. intros a b. apply psurvives_step. right. exact He. Qed.

  (** Nobody returns anything wrong, and nobody fails but by looping for ever. *)
  Lemma psurvives_results s p : psurvives s ->
    match nt_proc (pn_net s) p with Ret e => e = goal p | Crash f => f = Spinning | Write _ _ _ => True | Read _ _ _ => True | Poll _ _ _ => True end.
  Proof using All.
    intros (gs & lost & _ & _ & St).
    destruct (nt_proc (pn_net s) p) as [e|f|c bs k|c n k|b0 l0 k] eqn:E; try exact Logic.I; destruct (St p) as [O|(c0 & _ & _ & Sv & _)]; rewrite E in *.
    - inversion O as [a st Q| | | | | | | ]; subst. apply Q.
    - inversion Sv.
    - inversion O; subst; reflexivity.
    - inversion Sv; reflexivity.
  Qed.

  Lemma kill_mono s s' p : par_crash_step N cap s s' -> pn_killed s p = true -> pn_killed s' p = true.
  Proof. intros Step K. destruct Step; cbn [pn_killed]; try exact K. unfold set_killed. destruct (p =? p0)%nat; [reflexivity|exact K]. Qed.
  Lemma quiet_back s s' : par_crash_step N cap s s' -> quiet s' -> quiet s.
  Proof. intros Step Q p Hp. destruct (pn_killed s p) eqn:E; [|reflexivity]. pose proof (kill_mono s s' p Step E) as X. rewrite (Q p Hp) in X. discriminate. Qed.
  Lemma quiet_survives s : reach (par_crash_step N cap) (par_crash_start procs) s -> quiet s -> psurvives s.
  Proof using All.
    apply (reach_inv (par_crash_step N cap) (fun s => quiet s -> psurvives s)); [|intros _; exact psurvives_start].
    intros a b IH Step Q. pose proof (quiet_back a b Step Q) as Qa. exact (psurvives_step a b (or_introl Qa) (IH Qa) Step).
  Qed.
  (** If connections never end early, nobody fails. *)
  Lemma quiet_fine s p f : (forall c, eof c = false) -> psurvives s -> quiet s -> nt_proc (pn_net s) p <> Crash f.
  Proof using All.
    intros He (gs & lost & Su) Q E. pose proof (quiet_stands s gs lost p Su Q) as O. rewrite E in O. inversion O as [|s0 c x R W u hot g l He0 _ _| | | | | | ]; subst. rewrite He in He0. discriminate.
  Qed.

  (** Without kills, the steps are those of the network. *)
  Lemma unkilled_step s s' : psurvives s -> (forall p, pn_killed s p = false) -> (forall p, pn_killed s' p = false) ->
    par_crash_step N cap s s' -> net_step mchan_eqb cap (pn_net s) (pn_net s').
  Proof using All.
    intros (gs & lost & Su) K K' Step. destruct Step as [p n Kp Ps|p|c bs Kc (more & Ec)|p c n k Kp Ep En|p block l k fs Kp Ep F].
    - exists p. exact Ps.
    - specialize (K' p). cbn [pn_killed] in K'. unfold set_killed in K'. rewrite Nat.eqb_refl in K'. discriminate.
    - rewrite K in Kc. discriminate.
    - exfalso. exact (quiet_read s gs lost p c n k Su (fun q _ => K q) Ep En).
    - pose proof (quiet_poll s gs lost p block l k fs Su (fun q _ => K q) Ep F) as E. destruct F as (_ & F2).
      subst fs. exists p. apply (step_poll mchan_eqb cap (pn_net s) p block l k Ep). intros Hb. apply F2 in Hb. apply in_map_iff in Hb as (c & E & Hc'). exists c. auto.
  Qed.
  Lemma par_unkilled s : reach (par_crash_step N cap) (par_crash_start procs) s -> (forall p, pn_killed s p = false) ->
    reach (net_step mchan_eqb cap) (net_start procs) (pn_net s).
  Proof using All.
    intros H K. assert (X : psurvives s /\ reach (net_step mchan_eqb cap) (net_start procs) (pn_net s)); [|apply X]. revert H K.
    apply (reach_inv (par_crash_step N cap) (fun s => (forall p, pn_killed s p = false) -> psurvives s /\ reach (net_step mchan_eqb cap) (net_start procs) (pn_net s))).
    - intros a b IH Step K.
      assert (Ka : forall p, pn_killed a p = false). { intros p. destruct (pn_killed a p) eqn:E; [|reflexivity]. pose proof (kill_mono a b p Step E) as X. rewrite K in X. discriminate. }
      destruct (IH Ka) as (Sa & Ra). split; [exact (psurvives_step a b (or_introl (fun q _ => Ka q)) Sa Step)|].
      eapply reach_trans; [exact Ra|]. apply reach_one. exact (unkilled_step a b Sa Ka K Step).
    - intros _. split; [exact psurvives_start|apply reach_refl].
  Qed.
  (** Somebody has been killed or nobody. *)
  Lemma killed_dec s : (exists p, (p < NP)%nat /\ pn_killed s p = true) \/ quiet s.
  Proof.
    unfold quiet. clear. induction NP as [|n IH]; [right; intros p Hp; inversion Hp|]. destruct IH as [(p & Hp & K)|IH]; [left; exists p; split; [apply Nat.lt_lt_succ_r; exact Hp|exact K]|].
    destruct (pn_killed s n) eqn:K; [left; exists n; split; [apply Nat.lt_succ_diag_r|exact K]|right]. intros p Hp. apply Nat.lt_succ_r, Nat.le_lteq in Hp as [Hp| ->]; auto.
  Qed.

  (** When the receiver has read all there is on a channel on which the sender
      sends last, the sender has returned. *)
  Lemma last_returned s gs lost c v l0 : psurvives_with s gs lost -> scripts (from c) G = l0 ++ [Snd c v] -> reads_st c (gs (to c)) = [] ->
    gs (from c) = Out [] /\ nt_proc (pn_net s) (from c) = Ret (goal (from c)).
  Proof using All.
    intros (I & Hl & St) Es Hr. rewrite (v_bal _ _ _ _ _ _ _ _ I c) in Hr. apply app_eq_nil in Hr as [_ Hw].
    assert (E : gs (from c) = Out []).
    { eapply (last_sent mchan_eqb from to (bdata N) (bmember N) (bgas N) mchan_eqb_spec Hft (bdata_member N) G); [exact Es|apply (v_pos _ _ _ _ _ _ _ _ I)|exact Hw]. }
    split; [exact E|]. destruct (St (from c)) as [O|(d & _ & _ & _ & Hn)]; [|rewrite E in Hn; contradiction Hn; reflexivity]. rewrite E in O.
    inversion O as [a st Q|st d x R W u hot g l He Hs Hn|d bs k st l Hs Hb Hk|d n bs k st l Hs Hb Hsv Hk|d bs w k st x R W u hot g l Hs Hb HW _ Hk
      |d n k st x R W u hot g l Hs _ HW Hb Hsv Hk|d n k st x R W u hot g g0 l Hs Hh Hb Hk|b0 cs k0 st x R W u hot g l Hs Hc Hw' Hk]; subst;
      try (inversion Hs; fail).
    - destruct Q as [-> _]. reflexivity.
    - inversion Hs. destruct bs; [contradiction|discriminate].
    - inversion Hs. destruct bs; [cbn in Hb; lia|discriminate].
  Qed.
  Lemma returned_reads s gs lost p : psurvives_with s gs lost -> (exists e, nt_proc (pn_net s) p = Ret e) -> forall c, to c = p -> reads_st c (gs p) = [].
  Proof.
    intros (_ & _ & St) (e & Ee) c Hc. destruct (St p) as [O|(d & _ & _ & Sv & _)]; rewrite Ee in *; [|inversion Sv].
    inversion O as [a st Q| | | | | | | ]; subst. destruct Q as [_ Q]. eapply done_reads; [exact Q|reflexivity].
  Qed.
End Crash.
