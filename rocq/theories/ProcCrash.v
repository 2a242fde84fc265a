(** Processes that follow a choreography, some of which are killed. *)
From Verif Require Import Base BaseProofs CipherBatchProofs Net NetProofs NetChain Lts Stream StreamProofs Procs ProcProofs TalkSpec TrafficSpec.

Lemma crash_put_fun {C E} (s s' : net C E) c w w' : crash_put s s' c w -> crash_put s s' c w' -> w = w'.
Proof.
  intros [H|(-> & g & l & H)] [H'|(-> & g' & l' & H')].
  - rewrite H in H'. apply app_inv_head in H'. exact H'.
  - rewrite H in H'. apply (f_equal (@length Z)) in H'. rewrite !app_length in H'. destruct w; [reflexivity|cbn in H'; lia].
  - rewrite H' in H. apply (f_equal (@length Z)) in H. rewrite !app_length in H. destruct w'; [reflexivity|cbn in H; lia].
  - reflexivity.
Qed.

Section Crash.
  Context (cap : chan -> nat) (G : list dev) (N : nat) (procs : nat -> proc chan ending) (goal : nat -> ending).
  Context (Hcap : forall c, (1 <= cap c)%nat) (Own : forall c, owner_s G c (sender c) /\ owner_r G c (receiver c)) (Bal : balanced chan_eqb G).
  Context (Bound : Forall (fun e : dev => (fst e < N)%nat) G).
  Context (Fol : forall p, follows (procs p) (proj p G) (goal p)).

  Lemma Own' : owned G.
  Proof using Own. intros c. exists (sender c), (receiver c). apply Own. Qed.

  (** The sender of c has been killed and nothing more will arrive. *)
  Definition dried (s : cnet) (c : chan) : Prop :=
    established c = true /\ cn_killed s (sender c) = true /\ nt_chan (cn_net s) c = [].

  (** [F p] is what p has still to do. *)
  Definition stands (s : cnet) (F : nat -> list dact) (p : nat) : Prop :=
    follows (nt_proc (cn_net s) p) (F p) (goal p) \/
    exists c, receiver c = p /\ dried s c /\ starved c (nt_proc (cn_net s) p) /\ F p <> [].

  Definition survives (s : cnet) : Prop := exists tr F lost,
    ghost cap G tr F (fun c => nt_chan (cn_net s) c ++ lost c) /\
    (forall c, lost c <> [] -> cn_killed s (sender c) = true) /\
    forall p, stands s F p.
  (** The bytes [h c] have been put on each connection c. *)
  Definition survives_by (h : chan -> list Z) (s : cnet) : Prop := exists tr F lost,
    ghost cap G tr F (fun c => nt_chan (cn_net s) c ++ lost c) /\
    (forall c, lost c <> [] -> cn_killed s (sender c) = true) /\
    (forall p, stands s F p) /\
    forall c, h c ++ psends chan_eqb c (F (sender c)) = psends chan_eqb c (proj (sender c) G).

  Lemma survives_start : survives_by (fun _ => []) (crash_start procs).
  Proof using All.
    exists [], (fun p => proj p G), (fun _ => []). split; [|split; [|split; [|reflexivity]]].
    - split; [constructor|]. split; intros; reflexivity.
    - intros c H. contradiction.
    - intros p. left. apply Fol.
  Qed.

  Lemma todo_event tr F ch p a : ghost cap G tr F ch -> In a (F p) -> In (p, a) G.
  Proof. intros (_ & Hf & _) H. rewrite <- Hf in H. apply in_proj. rewrite <- (firstn_skipn (length (proj p tr))). apply in_or_app. right. exact H. Qed.

  Lemma head_in (c : chan) bs l (f : Z -> dact) : bs <> [] -> exists x, In (f x) (map f bs ++ l).
  Proof. destruct bs as [|x bs]; [contradiction|]. intros _. exists x. left. reflexivity. Qed.

  Lemma stands_other s s' F F' p q : stands s F q -> q <> p ->
    nt_proc (cn_net s') q = nt_proc (cn_net s) q -> F' q = F q -> (forall c, dried s c -> dried s' c) -> stands s' F' q.
  Proof.
    intros [H|(c & H1 & H2 & H3 & H4)] _ Ep EF Hd; [left; rewrite Ep, EF; exact H|right]. exists c. rewrite Ep, EF. auto.
  Qed.

  (** When the sender has done all it had to do, a reader never finds the stream
      at its end. *)
  Lemma sender_done s tr F lost c bs l : ghost cap G tr F (fun c => nt_chan (cn_net s) c ++ lost c) ->
    F (sender c) = [] -> F (receiver c) = map (Rcv c) bs ++ l -> bs <> [] -> lost c = [] -> nt_chan (cn_net s) c <> [].
  Proof using All.
    intros (R & Hf & Q) Es Er Hb Hl E. specialize (Q c). rewrite E, Hl, app_nil_r in Q. cbn [app] in Q.
    destruct (Own c) as [Os Or]. destruct (owner_run chan_eqb cap _ _ R c _ _ Os Or) as [Ts Tr].
    assert (Ps : proj (sender c) G = proj (sender c) tr).
    { pose proof (run_prefix chan_eqb _ _ _ R (sender c)) as Pf. rewrite <- (firstn_skipn (length (proj (sender c) tr)) (proj (sender c) G)), Hf, Es, app_nil_r.
      symmetry. exact Pf. }
    assert (Pr : proj (receiver c) G = proj (receiver c) tr ++ map (Rcv c) bs ++ l).
    { pose proof (run_prefix chan_eqb _ _ _ R (receiver c)) as Pf. rewrite <- (firstn_skipn (length (proj (receiver c) tr)) (proj (receiver c) G)), Hf, Er.
      f_equal. symmetry. exact Pf. }
    pose proof (proj2 Bal c) as B.
    rewrite (sends_owner chan_eqb chan_eqb_spec _ _ _ Os), (recvs_owner chan_eqb chan_eqb_spec _ _ _ Or), Ps, Pr in B.
    rewrite (sends_owner chan_eqb chan_eqb_spec _ _ _ Ts), (recvs_owner chan_eqb chan_eqb_spec _ _ _ Tr) in Q. rewrite Q in B.
    unfold precvs in B at 2. rewrite flat_map_app in B. fold (precvs chan_eqb c (proj (receiver c) tr)) in B.
    rewrite <- (app_nil_r (precvs chan_eqb c (proj (receiver c) tr))) in B at 1. apply app_inv_head in B.
    destruct bs as [|x bs]; [contradiction|]. cbn [map app flat_map] in B. rewrite chan_eqb_refl in B. discriminate.
  Qed.

  Lemma psends_snds c d xs (l : list dact) : psends chan_eqb d (map (Snd c) xs ++ l) = (if chan_eqb d c then xs else []) ++ psends chan_eqb d l.
  Proof.
    induction xs as [|x xs IH]; cbn [map app]; [destruct (chan_eqb d c); reflexivity|]. unfold psends in *. cbn [flat_map]. rewrite IH.
    destruct (chan_eqb d c); reflexivity.
  Qed.
  Lemma psends_rcvs c d xs (l : list dact) : psends chan_eqb d (map (Rcv c) xs ++ l) = psends chan_eqb d l.
  Proof. induction xs as [|x xs IH]; [reflexivity|exact IH]. Qed.

  Lemma survives_step h s s' : survives_by h s -> crash_step cap s s' ->
    exists w, (forall c, crash_put (cn_net s) (cn_net s') c (w c)) /\ survives_by (fun c => h c ++ w c) s'.
  Proof using All.
    intros (tr & F & lost & Gh & Hl & St & Hh) Step. destruct Step as [p n Kp Ps|p|c bs Kc (more & Ec)|p c n k Kp Ep He Ex Ec].
    - destruct Ps as [c bs k m Ep Hm Hc|c m k got rest Ep Ec Hm|block l k Ep Hr].
      + destruct (St p) as [Fp|(c0 & _ & _ & Sv & _)]; [|rewrite Ep in Sv; inversion Sv].
        rewrite Ep in Fp. inversion Fp as [|c0 bs0 k0 l a0 Hb Hk E1 E2|]; subst.
        assert (Es : F p = map (Snd c) (firstn m bs) ++ (map (Snd c) (skipn m bs) ++ l))
          by (rewrite app_assoc, <- map_app, firstn_skipn; congruence).
        assert (Sp : p = sender c).
        { destruct (head_in c bs l (Snd c) Hb) as (x & Hx). apply (proj1 (Own c) p x). eapply todo_event; [exact Gh|]. rewrite <- E2. exact Hx. }
        assert (L0 : lost c = []).
        { destruct (lost c) as [|y t] eqn:E; [reflexivity|]. exfalso. assert (X : lost c <> []) by (rewrite E; discriminate).
          specialize (Hl c X). rewrite <- Sp in Hl. congruence. }
        destruct (ghost_snds cap G procs goal Hcap Fol p c _ (firstn m bs) tr F _ Gh Es) as (tr' & Lt & G2); [rewrite L0, app_nil_r, firstn_length; lia|].
        exists (fun d => if chan_eqb d c then firstn m bs else []). split.
        { intros d. left. cbn [cn_net nt_chan]. unfold set_chan. destruct (chan_eqb d c) eqn:Ed; [apply chan_eqb_spec in Ed; subst; reflexivity|symmetry; apply app_nil_r]. }
        exists tr', (set_todo F p (map (Snd c) (skipn m bs) ++ l)), lost. split; [|split; [exact Hl|split]].
        * eapply ghost_ext; [exact G2|reflexivity|]. intros d. cbn [cn_net nt_chan]. unfold set_chan.
          destruct (chan_eqb d c) eqn:Ed; [|reflexivity]. apply chan_eqb_spec in Ed. subst d. rewrite L0, !app_nil_r. reflexivity.
        * intros q. destruct (Nat.eq_dec q p) as [->|Hne].
          -- left. cbn [cn_net nt_proc]. unfold set_proc, set_todo. rewrite Nat.eqb_refl. apply Hk. exact Hm.
          -- eapply stands_other; [apply St|exact Hne| | |]; cbn [cn_net nt_proc]; unfold set_proc, set_todo;
               rewrite ?(proj2 (Nat.eqb_neq q p) Hne); try reflexivity.
             intros d (D1 & D2 & D3). split; [exact D1|]. split; [exact D2|]. cbn [cn_net nt_chan cn_killed] in *. unfold set_chan.
             destruct (chan_eqb d c) eqn:Ed; [|exact D3]. apply chan_eqb_spec in Ed. subst d. rewrite <- Sp in D2. congruence.
        * intros d. rewrite <- (Hh d), <- app_assoc. f_equal. unfold set_todo. destruct (Nat.eqb_spec (sender d) p) as [Ed|Hne].
          -- rewrite Ed, Es, !psends_snds. destruct (chan_eqb d c); reflexivity.
          -- destruct (chan_eqb d c) eqn:Ed; [|reflexivity]. apply chan_eqb_spec in Ed. subst d. congruence.
      + destruct (St p) as [Fp|(c0 & _ & Dr & Sv & _)].
        2:{ rewrite Ep in Sv. inversion Sv; subst. destruct Dr as (_ & _ & Dr). rewrite Dr in Ec. destruct got; [cbn in Hm; lia|discriminate]. }
        rewrite Ep in Fp. inversion Fp as [| |c0 m0 bs k0 l a0 Hb Hsv Hk E1 E2]; subst.
        destruct (ghost_rcvs cap G N procs goal Hcap Own' Bal Bound Fol p c l got bs tr F _ (rest ++ lost c) Gh) as (Eg & tr' & Lt & G2);
          [congruence|lia|rewrite Ec; symmetry; apply app_assoc|].
        exists (fun _ => []). split.
        { intros d. right. split; [reflexivity|]. cbn [cn_net nt_chan]. unfold set_chan. destruct (chan_eqb d c) eqn:Ed.
          - apply chan_eqb_spec in Ed. subst d. exists got, []. rewrite app_nil_r. exact Ec.
          - exists [], []. rewrite app_nil_r. reflexivity. }
        exists tr', (set_todo F p (map (Rcv c) (skipn (length got) bs) ++ l)), lost. split; [|split; [exact Hl|split]].
        * eapply ghost_ext; [exact G2|reflexivity|]. intros d. cbn [cn_net nt_chan]. unfold set_chan.
          destruct (chan_eqb d c) eqn:Ed; [|reflexivity]. apply chan_eqb_spec in Ed. subst d. reflexivity.
        * intros q. destruct (Nat.eq_dec q p) as [->|Hne].
          -- left. cbn [cn_net nt_proc]. unfold set_proc, set_todo. rewrite Nat.eqb_refl. rewrite Eg at 1. apply Hk. exact Hm.
          -- eapply stands_other; [apply St|exact Hne| | |]; cbn [cn_net nt_proc]; unfold set_proc, set_todo;
               rewrite ?(proj2 (Nat.eqb_neq q p) Hne); try reflexivity.
             intros d (D1 & D2 & D3). split; [exact D1|]. split; [exact D2|]. cbn [cn_net nt_chan] in *. unfold set_chan.
             destruct (chan_eqb d c) eqn:Ed; [|exact D3]. apply chan_eqb_spec in Ed. subst d. rewrite D3 in Ec. destruct got; [cbn in Hm; lia|discriminate].
        * intros d. rewrite <- (Hh d), app_nil_r. f_equal. unfold set_todo. destruct (Nat.eqb_spec (sender d) p) as [Ed|Hne]; [|reflexivity].
          rewrite Ed, <- E2, !psends_rcvs. reflexivity.
      + exfalso. destruct (St p) as [Fp|(c0 & _ & _ & Sv & _)]; [rewrite Ep in Fp; inversion Fp|rewrite Ep in Sv; inversion Sv].
    - assert (M : forall q, cn_killed s q = true -> set_killed (cn_killed s) p q = true)
        by (intros q H; unfold set_killed; destruct (q =? p)%nat; [reflexivity|exact H]).
      exists (fun _ => []). split; [intros c; left; symmetry; apply app_nil_r|].
      exists tr, F, lost. split; [exact Gh|]. split; [intros c H; apply M, Hl, H|]. split; [|intros c; rewrite app_nil_r; apply Hh].
      intros q. destruct (St q) as [H|(c & H1 & (D1 & D2 & D3) & H3 & H4)]; [left; exact H|right].
      exists c. split; [exact H1|]. split; [split; [exact D1|split; [apply M; exact D2|exact D3]]|auto].
    - exists (fun _ => []). split.
      { intros d. right. split; [reflexivity|]. cbn [cn_net nt_chan]. unfold set_chan. destruct (chan_eqb d c) eqn:Ed.
        - apply chan_eqb_spec in Ed. subst d. exists [], more. exact Ec.
        - exists [], []. rewrite app_nil_r. reflexivity. }
      exists tr, F, (fun d => if chan_eqb d c then more ++ lost d else lost d). split; [|split; [|split; [|intros d; rewrite app_nil_r; apply Hh]]].
      + eapply ghost_ext; [exact Gh|reflexivity|]. intros d. cbn [cn_net nt_chan]. unfold set_chan.
        destruct (chan_eqb d c) eqn:Ed; [|reflexivity]. apply chan_eqb_spec in Ed. subst d. rewrite Ec, <- app_assoc. reflexivity.
      + intros d. destruct (chan_eqb d c) eqn:Ed; [|apply Hl]. apply chan_eqb_spec in Ed. subst d. intros _. exact Kc.
      + intros q. destruct (St q) as [H|(d & H1 & (D1 & D2 & D3) & H3 & H4)]; [left; exact H|right].
        exists d. split; [exact H1|]. split; [split; [exact D1|split; [exact D2|]]|auto]. cbn [cn_net nt_chan]. unfold set_chan.
        destruct (chan_eqb d c) eqn:Ed; [|exact D3]. apply chan_eqb_spec in Ed. subst d. rewrite D3 in Ec. symmetry in Ec. apply app_eq_nil in Ec. apply Ec.
    - assert (Sv : starved c (k []) /\ cn_killed s (sender c) = true /\ receiver c = p /\ F p <> []).
      { destruct (St p) as [Fp|(c0 & H1 & (D1 & D2 & D3) & Sv & H4)].
        - rewrite Ep in Fp. inversion Fp as [| |c0 m0 bs k0 l a0 Hb Hsv Hk E1 E2]; subst. split; [exact (Hsv He)|].
          assert (Hb0 : bs <> []) by (destruct bs; [cbn in Hb; lia|discriminate]).
          assert (Rp : p = receiver c).
          { destruct (head_in c bs l (Rcv c) Hb0) as (x & Hx). apply (proj2 (Own c) p x). eapply todo_event; [exact Gh|]. rewrite <- E2. exact Hx. }
          split; [|split; [symmetry; exact Rp| destruct bs; [contradiction|discriminate]]].
          destruct Ex as [Kx|(e & Ee)]; [exact Kx|]. destruct (cn_killed s (sender c)) eqn:Ks; [reflexivity|]. exfalso.
          assert (Fs : F (sender c) = []).
          { destruct (St (sender c)) as [Fs|(d & _ & _ & Sv & _)]; rewrite Ee in *; [|inversion Sv].
            inversion Fs; reflexivity. }
          assert (L0 : lost c = []).
          { destruct (lost c) as [|y t] eqn:E; [reflexivity|]. exfalso. assert (X : lost c <> []) by (rewrite E; discriminate).
            specialize (Hl c X). congruence. }
          apply (sender_done s tr F lost c bs l Gh Fs); [rewrite <- Rp; congruence|exact Hb0|exact L0|exact Ec].
        - rewrite Ep in Sv. inversion Sv; subst. auto. }
      destruct Sv as (Sv & Kc & Rc & Hn). exists (fun _ => []). split; [intros d; left; symmetry; apply app_nil_r|].
      exists tr, F, lost. split; [exact Gh|]. split; [exact Hl|]. split; [|intros d; rewrite app_nil_r; apply Hh].
      intros q. destruct (Nat.eq_dec q p) as [->|Hne].
      + right. exists c. split; [exact Rc|]. split; [split; [exact He|split; [exact Kc|exact Ec]]|]. split; [|exact Hn].
        cbn [cn_net nt_proc]. unfold set_proc. rewrite Nat.eqb_refl. exact Sv.
      + eapply stands_other; [apply St|exact Hne| | |]; cbn [cn_net nt_proc]; unfold set_proc;
          rewrite ?(proj2 (Nat.eqb_neq q p) Hne); try reflexivity. intros d H. exact H.
  Qed.

  Lemma survives_all s : reach (crash_step cap) (crash_start procs) s -> survives s.
  Proof using All.
    intros H. enough (X : exists h, survives_by h s) by (destruct X as (h & tr & F & lost & H1 & H2 & H3 & _); exists tr, F, lost; auto).
    revert H. apply (reach_inv (crash_step cap) (fun s => exists h, survives_by h s)); [|eexists; exact survives_start].
    intros a a' [h H] Step. destruct (survives_step h a a' H Step) as (w & _ & H'). eexists. exact H'.
  Qed.

  (** What is put on a connection is a beginning of what is meant to be. *)
  Lemma survives_carries h s : crash_carries cn_net (crash_step cap) (crash_start procs) h s -> forall c, begins (h c) (sends chan_eqb c G).
  Proof using All.
    intros H. assert (X : survives_by h s).
    { induction H as [|h s1 w s2 H IH St Hw]; [exact survives_start|]. destruct (survives_step h s1 s2 IH St) as (w' & Hw' & (tr & F & lost & H1 & H2 & H3 & H4)).
      exists tr, F, lost. split; [exact H1|]. split; [exact H2|]. split; [exact H3|]. intros c. rewrite (crash_put_fun _ _ _ _ _ (Hw c) (Hw' c)). apply H4. }
    destruct X as (tr & F & lost & _ & _ & _ & Hh). intros c. rewrite (sends_owner chan_eqb chan_eqb_spec _ _ _ (proj1 (Own c))), <- (Hh c).
    eexists. reflexivity.
  Qed.

  (** Nobody returns anything wrong and nobody fails; who loops for ever reads
      from a killed neighbour. *)
  Lemma crash_results s p : reach (crash_step cap) (crash_start procs) s ->
    match nt_proc (cn_net s) p with
    | Ret e => e = goal p
    | Crash f => f = Spinning /\ exists c, receiver c = p /\ dried s c
    | _ => True
    end.
  Proof using All.
    intros H. destruct (survives_all s H) as (tr & F & lost & _ & _ & St). destruct (St p) as [Fp|(c & H1 & H2 & Sv & _)].
    - destruct Fp; try exact I. reflexivity.
    - inversion Sv; [|exact I]. split; [reflexivity|]. exists c. auto.
  Qed.

  (** Without kills nothing else happens than before. *)
  Lemma no_kill s : reach (crash_step cap) (crash_start procs) s -> (forall p, cn_killed s p = false) ->
    reach (net_step chan_eqb cap) (net_start procs) (cn_net s).
  Proof using All.
    intros [n H]. remember (crash_start procs) as s0 eqn:E0. induction H as [s|n s1 s2 s3 H IH Step]; intros K; [subst; apply reach_refl|].
    pose proof (survives_all s2 ltac:(subst s1; exists n; exact H)) as (tr & F & lost & Gh & Hl & St).
    destruct Step as [p s' Kp Ps|p|c bs Kc Ec|p c m k Kp Ep He Ex Ec]; cbn [cn_net cn_killed] in *.
    - eapply reach_trans; [apply IH; [exact E0|exact K]|]. apply reach_one. exists p. exact Ps.
    - specialize (K p). unfold set_killed in K. rewrite Nat.eqb_refl in K. discriminate.
    - rewrite K in Kc. discriminate.
    - exfalso. destruct Ex as [Kx|(e & Ee)]; [rewrite K in Kx; discriminate|].
      destruct (St p) as [Fp|(d & _ & (_ & D2 & _) & _)]; [|rewrite K in D2; discriminate].
      rewrite Ep in Fp. inversion Fp as [| |c0 m0 bs k0 l a0 Hb Hsv Hk E1 E2]; subst.
      assert (Hb0 : bs <> []) by (destruct bs; [cbn in Hb; lia|discriminate]).
      assert (Rp : p = receiver c).
      { destruct (head_in c bs l (Rcv c) Hb0) as (x & Hx). apply (proj2 (Own c) p x). eapply todo_event; [exact Gh|]. rewrite <- E2. exact Hx. }
      assert (Fs : F (sender c) = []).
      { destruct (St (sender c)) as [Fs|(d & _ & _ & Sv & _)]; rewrite Ee in *; [|inversion Sv]. inversion Fs; reflexivity. }
      assert (L0 : lost c = []).
      { destruct (lost c) as [|y t] eqn:E; [reflexivity|]. exfalso. assert (X : lost c <> []) by (rewrite E; discriminate).
        specialize (Hl c X). rewrite K in Hl. discriminate. }
      apply (sender_done s2 tr F lost c bs l Gh Fs); [rewrite <- Rp; congruence|exact Hb0|exact L0|exact Ec].
  Qed.

  (** If the reader of c has finished, and the last thing that its sender does is
      to send on c, the sender has finished too. *)
  Lemma last_sender tr F ch c l x : ghost cap G tr F ch -> F (receiver c) = [] -> proj (sender c) G = l ++ [Snd c x] -> F (sender c) = [].
  Proof using All.
    intros (R & Hf & Q) Er Es. destruct (Own c) as [Os Or]. destruct (owner_run chan_eqb cap _ _ R c _ _ Os Or) as [Ts Tr].
    pose proof (run_prefix chan_eqb _ _ _ R (sender c)) as Pf.
    destruct (Nat.le_gt_cases (length (proj (sender c) G)) (length (proj (sender c) tr))) as [Hle|Hgt].
    { rewrite <- Hf. apply skipn_all2. exact Hle. }
    exfalso.
    assert (Pr : proj (receiver c) G = proj (receiver c) tr).
    { pose proof (run_prefix chan_eqb _ _ _ R (receiver c)) as Pr. rewrite <- (firstn_skipn (length (proj (receiver c) tr)) (proj (receiver c) G)), Hf, Er, app_nil_r.
      symmetry. exact Pr. }
    pose proof (proj2 Bal c) as B.
    rewrite (sends_owner chan_eqb chan_eqb_spec _ _ _ Os), (recvs_owner chan_eqb chan_eqb_spec _ _ _ Or), Pr, Es in B.
    specialize (Q c).
    rewrite (sends_owner chan_eqb chan_eqb_spec _ _ _ Ts), (recvs_owner chan_eqb chan_eqb_spec _ _ _ Tr), <- B in Q.
    cbv beta in Pf. rewrite Es in Pf, Hgt. rewrite app_length in Hgt. cbn [length] in Hgt.
    rewrite firstn_app in Pf. replace (length (proj (sender c) tr) - length l)%nat with 0%nat in Pf by lia. cbn [firstn] in Pf. rewrite app_nil_r in Pf.
    apply (f_equal (@length Z)) in Q. rewrite Pf in Q. unfold psends in Q. rewrite !app_length, flat_map_app, app_length in Q.
    cbn [flat_map] in Q. rewrite chan_eqb_refl in Q. cbn [app length] in Q.
    assert (Mono : forall n, (length (flat_map (fun a : dact => match a with Snd c' m => if chan_eqb c c' then [m] else [] | _ => [] end) (firstn n l)) <=
      length (flat_map (fun a : dact => match a with Snd c' m => if chan_eqb c c' then [m] else [] | _ => [] end) l))%nat).
    { intros n. rewrite <- (firstn_skipn n l) at 2. rewrite flat_map_app, app_length. lia. }
    specialize (Mono (length (proj (sender c) tr))). lia.
  Qed.
  Lemma done_chain s c l x : reach (crash_step cap) (crash_start procs) s -> nt_proc (cn_net s) (receiver c) = Ret (goal (receiver c)) ->
    proj (sender c) G = l ++ [Snd c x] -> nt_proc (cn_net s) (sender c) = Ret (goal (sender c)).
  Proof using All.
    intros H E Es. destruct (survives_all s H) as (tr & F & lost & Gh & _ & St).
    assert (Fr : F (receiver c) = []).
    { destruct (St (receiver c)) as [Fs|(d & _ & _ & Sv & _)]; rewrite E in *; [|inversion Sv]. inversion Fs; reflexivity. }
    pose proof (last_sender tr F _ c l x Gh Fr Es) as Fs.
    destruct (St (sender c)) as [Fo|(d & _ & _ & _ & Hn)]; [|contradiction]. rewrite Fs in Fo. eapply follows_nil; eauto.
  Qed.
End Crash.

(** If every entity follows its part. *)
Section Deployment.
  Context (cap : chan -> nat) (P : nat) (d : ldata) (offline online : bool) (procs : nat -> proc chan ending) (goal : nat -> ending).
  Context (Hcap : forall c, (1 <= cap c)%nat) (Fol : forall p, follows (procs p) (dprog P d offline online p) (goal p)).

  Lemma dchain_owner c : owner_s (gd_chain P d offline online) c (sender c) /\ owner_r (gd_chain P d offline online) c (receiver c).
  Proof. destruct (dchain_events P d offline online) as [F _]. rewrite Forall_forall in F. split; intros q m Hin; exact (F _ Hin). Qed.
  Lemma Fol' p : follows (procs p) (proj p (gd_chain P d offline online)) (goal p).
  Proof using Fol. rewrite dchain_proj. apply Fol. Qed.

  Lemma deployment_results s p : reach (crash_step cap) (crash_start procs) s ->
    match nt_proc (cn_net s) p with
    | Ret e => e = goal p
    | Crash f => f = Spinning /\ exists c, receiver c = p /\ dried s c
    | _ => True
    end.
  Proof using All.
    apply (crash_results cap (gd_chain P d offline online) (S (S P)) procs goal Hcap dchain_owner (dchain_balanced _ _ _ _) (proj2 (dchain_events _ _ _ _)) Fol').
  Qed.
  Lemma deployment_no_kill s : reach (crash_step cap) (crash_start procs) s -> (forall p, cn_killed s p = false) ->
    reach (net_step chan_eqb cap) (net_start procs) (cn_net s).
  Proof using All.
    apply (no_kill cap (gd_chain P d offline online) (S (S P)) procs goal Hcap dchain_owner (dchain_balanced _ _ _ _) (proj2 (dchain_events _ _ _ _)) Fol').
  Qed.
  Lemma deployment_client_last s : online = true -> (forall j, (j <= P)%nat -> ld_response d j <> []) ->
    reach (crash_step cap) (crash_start procs) s -> nt_proc (cn_net s) 0 = Ret (goal 0) ->
    forall p, (p <= S P)%nat -> nt_proc (cn_net s) p = Ret (goal p).
  Proof using All.
    intros On Hr H E. induction p as [|p IH]; intros Hp; [exact E|].
    assert (X : exists l x, dprog P d offline online (S p) = l ++ [Snd (Bwd p) x]).
    { assert (Y : exists l, dprog P d offline online (S p) = l ++ map (Snd (Bwd p)) (ld_response d p)).
      { unfold dprog. cbn [Nat.eqb]. rewrite On. destruct (Nat.leb_spec (S p) P) as [L|L].
        - unfold dparty. replace (S p - 1)%nat with p by lia. rewrite !app_assoc. eexists. reflexivity.
        - rewrite (proj2 (Nat.eqb_eq p P)) by lia. unfold dbackend. replace (S p - 1)%nat with p by lia. rewrite !app_assoc. eexists. reflexivity. }
      destruct Y as (l & ->). destruct (exists_last (Hr p ltac:(lia))) as (t & x & ->). rewrite map_app. cbn [map]. rewrite app_assoc. eauto. }
    destruct X as (l & x & X). rewrite <- dchain_proj in X.
    apply (done_chain cap (gd_chain P d offline online) (S (S P)) procs goal Hcap dchain_owner (dchain_balanced _ _ _ _) (proj2 (dchain_events _ _ _ _)) Fol'
      s (Bwd p) l x H (IH ltac:(lia)) X).
  Qed.
End Deployment.
