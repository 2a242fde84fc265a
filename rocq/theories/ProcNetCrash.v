(** What remains of the invariant of a network of processes when some of them
    are killed: the bytes under way, those that were lost included, are those
    between the positions of the sender and of the receiver. *)
From Verif Require Import Base BaseProofs CipherBatchProofs Net Lts Procs ProcProofs ProcNet.

Lemma fine_to {C X} (from to : C -> nat) (D : X -> C -> list Z) p x R W u hot g l c :
  fine from to D p (In x R W u hot g l) -> R c <> [] -> to c = p.
Proof. intros [H _] Hn. destruct (H c) as [k E]. unfold R0 in E. destruct (Nat.eqb_spec (to c) p) as [->|]; [reflexivity|]. rewrite skipn_nil in E. contradiction. Qed.
Lemma fine_from {C X} (from to : C -> nat) (D : X -> C -> list Z) p x R W u hot g l c :
  fine from to D p (In x R W u hot g l) -> W c <> [] -> from c = p.
Proof. intros [_ H] Hn. destruct (H c) as [k E]. unfold W0 in E. destruct (Nat.eqb_spec (from c) p) as [->|]; [reflexivity|]. rewrite skipn_nil in E. contradiction. Qed.

Section Safe.
  Context {C X : Type} (eqb : C -> C -> bool) (from to : C -> nat).
  Context (D : X -> C -> list Z) (member : X -> nat -> bool) (gas : X -> nat -> nat).
  Context (eqb_spec : forall a b, eqb a b = true <-> a = b) (Hft : forall c, from c <> to c).
  Context (Hmem : forall x c, D x c <> [] -> member x (from c) = true /\ member x (to c) = true).
  Context (G : list (gact C X)).

  Notation scripts := (scripts from to member).
  Notation gst := (@gst C X).
  Notation sees := (sees from to D gas).
  Notation R0 := (R0 to D). Notation W0 := (W0 from D).
  Notation reads_st := (reads_st eqb D). Notation writes_st := (writes_st eqb D).
  Notation behind := (behind from to member G). Notation fine := (fine from to D).
  Notation sc := (set_chan eqb). Notation upf := (upf eqb).

  Record sinv (ch : C -> list Z) (s : nat -> gst) : Prop := {
    v_bal : forall c, reads_st c (s (to c)) = ch c ++ writes_st c (s (from c));
    v_pos : forall p, behind p (script_of (s p));
    v_fine : forall p, fine p (s p)
  }.

  Lemma sinv_ext ch ch' s s' : sinv ch s -> (forall c, ch c = ch' c) -> (forall p, s p = s' p) -> sinv ch' s'.
  Proof.
    intros I Ec Es. constructor.
    - intros c. rewrite <- Ec, <- !Es. apply (v_bal _ _ I).
    - intros p. rewrite <- Es. apply (v_pos _ _ I).
    - intros p. rewrite <- Es. apply (v_fine _ _ I).
  Qed.
  (** What the process still reads and writes, and where it is, is the same. *)
  Lemma sinv_same ch s p n : sinv ch s -> (forall c, to c = p -> reads_st c n = reads_st c (s p)) ->
    (forall c, from c = p -> writes_st c n = writes_st c (s p)) -> behind p (script_of n) -> fine p n -> sinv ch (ups s p n).
  Proof.
    intros I HR HW Hp Hf. constructor.
    - intros c. pose proof (v_bal _ _ I c) as Hb.
      assert (E1 : reads_st c (ups s p n (to c)) = reads_st c (s (to c))).
      { unfold ups. destruct (Nat.eqb_spec (to c) p) as [Et|]; [|reflexivity]. rewrite Et. apply HR. exact Et. }
      assert (E2 : writes_st c (ups s p n (from c)) = writes_st c (s (from c))).
      { unfold ups. destruct (Nat.eqb_spec (from c) p) as [Et|]; [|reflexivity]. rewrite Et. apply HW. exact Et. }
      rewrite E1, E2. exact Hb.
    - intros q. unfold ups. destruct (Nat.eqb_spec q p) as [->|]; [exact Hp|apply (v_pos _ _ I)].
    - intros q. unfold ups. destruct (Nat.eqb_spec q p) as [->|]; [exact Hf|apply (v_fine _ _ I)].
  Qed.

  Lemma sees_reads p a b : sees p a b -> forall c, to c = p -> reads_st c b = reads_st c a.
  Proof.
    induction 1 as [s|x l s Hs IH|x R W u hot g l s HR HW Hs IH]; intros c Hc; [reflexivity| |]; rewrite (IH c Hc); cbn.
    - unfold ProcNet.R0. rewrite Hc, Nat.eqb_refl. reflexivity.
    - rewrite HR. reflexivity.
  Qed.
  Lemma sees_writes p a b : sees p a b -> forall c, from c = p -> writes_st c b = writes_st c a.
  Proof.
    induction 1 as [s|x l s Hs IH|x R W u hot g l s HR HW Hs IH]; intros c Hc; [reflexivity| |]; rewrite (IH c Hc); cbn.
    - unfold ProcNet.W0. rewrite Hc, Nat.eqb_refl. reflexivity.
    - rewrite HW. reflexivity.
  Qed.
  Lemma sees_behind p a b : sees p a b -> behind p (script_of a) -> behind p (script_of b).
  Proof.
    induction 1 as [s|x l s Hs IH|x R W u hot g l s HR HW Hs IH]; intros H; [exact H| |]; apply IH; cbn [script_of] in *; [exact H|].
    eapply behind_tail; exact H.
  Qed.
  Lemma sees_fine p a b : sees p a b -> fine p a -> fine p b.
  Proof.
    induction 1 as [s|x l s Hs IH|x R W u hot g l s HR HW Hs IH]; intros H; [exact H| |]; apply IH; cbn.
    - split; intros c; exists 0%nat; reflexivity.
    - exact I.
  Qed.
  Lemma sinv_sees ch s p n : sinv ch s -> sees p (s p) n -> sinv ch (ups s p n).
  Proof.
    intros I H. apply sinv_same; [exact I|apply (sees_reads _ _ _ H)|apply (sees_writes _ _ _ H)| |].
    - apply (sees_behind _ _ _ H), (v_pos _ _ I).
    - apply (sees_fine _ _ _ H), (v_fine _ _ I).
  Qed.

  (** A write of n of the bytes. *)
  Lemma sinv_snd ch s p c n got nw : sinv ch s -> from c = p ->
    (forall d, to d = p -> reads_st d nw = reads_st d (s p)) ->
    (forall d, from d = p -> d <> c -> writes_st d nw = writes_st d (s p)) ->
    writes_st c (s p) = got ++ writes_st c nw -> n = ch c ++ got ->
    behind p (script_of nw) -> fine p nw -> sinv (sc ch c n) (ups s p nw).
  Proof using All.
    intros I Hc HR HW Hwc -> Hp Hf. constructor.
    - intros d. pose proof (v_bal _ _ I d) as Hb.
      assert (E1 : reads_st d (ups s p nw (to d)) = reads_st d (s (to d))).
      { unfold ups. destruct (Nat.eqb_spec (to d) p) as [Et|]; [|reflexivity]. rewrite Et. apply HR. exact Et. }
      rewrite E1, Hb. unfold set_chan. destruct (eqb d c) eqn:Ed.
      + apply eqb_spec in Ed. subst d. rewrite Hc, ups_same, Hwc, app_assoc. reflexivity.
      + f_equal. unfold ups. destruct (Nat.eqb_spec (from d) p) as [Et|]; [|reflexivity]. rewrite Et. symmetry. apply HW; [exact Et|].
        intros ->. rewrite (proj2 (eqb_spec c c) eq_refl) in Ed. discriminate.
    - intros q. unfold ups. destruct (Nat.eqb_spec q p) as [->|]; [exact Hp|apply (v_pos _ _ I)].
    - intros q. unfold ups. destruct (Nat.eqb_spec q p) as [->|]; [exact Hf|apply (v_fine _ _ I)].
  Qed.
  (** A read. *)
  Lemma sinv_rcv ch s p c got rest nw : sinv ch s -> to c = p ->
    (forall d, from d = p -> writes_st d nw = writes_st d (s p)) ->
    (forall d, to d = p -> d <> c -> reads_st d nw = reads_st d (s p)) ->
    reads_st c (s p) = got ++ reads_st c nw -> ch c = got ++ rest ->
    behind p (script_of nw) -> fine p nw -> sinv (sc ch c rest) (ups s p nw).
  Proof using All.
    intros I Hc HW HR Hrc Ech Hp Hf. constructor.
    - intros d. pose proof (v_bal _ _ I d) as Hb.
      assert (E1 : writes_st d (ups s p nw (from d)) = writes_st d (s (from d))).
      { unfold ups. destruct (Nat.eqb_spec (from d) p) as [Et|]; [|reflexivity]. rewrite Et. apply HW. exact Et. }
      rewrite E1. unfold set_chan. destruct (eqb d c) eqn:Ed.
      + apply eqb_spec in Ed. subst d. rewrite Hc, ups_same. rewrite Hc, Hrc, Ech, <- app_assoc in Hb. apply app_inv_head in Hb. exact Hb.
      + rewrite <- Hb. unfold ups. destruct (Nat.eqb_spec (to d) p) as [Et|]; [|reflexivity]. rewrite Et. apply HR; [exact Et|].
        intros ->. rewrite (proj2 (eqb_spec c c) eq_refl) in Ed. discriminate.
    - intros q. unfold ups. destruct (Nat.eqb_spec q p) as [->|]; [exact Hp|apply (v_pos _ _ I)].
    - intros q. unfold ups. destruct (Nat.eqb_spec q p) as [->|]; [exact Hf|apply (v_fine _ _ I)].
  Qed.
  Lemma got_prefix ch s p c bs l got rest : sinv ch s -> to c = p -> reads_st c (s p) = bs ++ l ->
    ch c = got ++ rest -> (length got <= length bs)%nat -> got = firstn (length got) bs.
  Proof.
    intros I Ht Hr Hc Hl. pose proof (v_bal _ _ I c) as Hb. rewrite Ht, Hr, Hc, <- app_assoc in Hb.
    apply (f_equal (firstn (length got))) in Hb. rewrite firstn_app, firstn_app in Hb.
    rewrite firstn_all, Nat.sub_diag in Hb. replace (length got - length bs)%nat with 0%nat in Hb by lia. cbn in Hb.
    rewrite !app_nil_r in Hb. symmetry. exact Hb.
  Qed.

  Lemma sinv_write ch s p c bs l n : sinv ch s -> s p = Out (map (Snd c) bs ++ l) -> bs <> [] ->
    from c = p /\ sinv (sc ch c (ch c ++ firstn n bs)) (ups s p (Out (map (Snd c) (skipn n bs) ++ l))).
  Proof using All.
    intros I Es Hb. pose proof (v_pos _ _ I p) as Hp. rewrite Es in Hp. cbn [script_of] in Hp.
    assert (Hf : from c = p). { destruct bs as [|b0 bs]; [contradiction|]. eapply behind_snd. exact Hp. }
    split; [exact Hf|]. eapply (sinv_snd ch s p c _ (firstn n bs)); [exact I|exact Hf| | | |reflexivity| |exact Logic.I].
    - intros d _. rewrite Es. cbn [ProcNet.reads_st]. rewrite !reads_app, !reads_snd. reflexivity.
    - intros d _ Hd. rewrite Es. cbn [ProcNet.writes_st]. rewrite !writes_app, !(writes_snd_other eqb D eqb_spec) by exact Hd. reflexivity.
    - rewrite Es. cbn [ProcNet.writes_st]. rewrite !writes_app, !(writes_snd eqb D eqb_spec), app_assoc, firstn_skipn. reflexivity.
    - cbn [script_of]. rewrite <- skipn_map. apply behind_skip. exact Hp.
  Qed.
  Lemma sinv_read ch s p c bs l got rest : sinv ch s -> s p = Out (map (Rcv c) bs ++ l) -> bs <> [] ->
    ch c = got ++ rest -> (length got <= length bs)%nat ->
    got = firstn (length got) bs /\ sinv (sc ch c rest) (ups s p (Out (map (Rcv c) (skipn (length got) bs) ++ l))).
  Proof using All.
    intros I Es Hb Hc Hl. pose proof (v_pos _ _ I p) as Hp. rewrite Es in Hp. cbn [script_of] in Hp.
    assert (Hf : to c = p). { destruct bs as [|b0 bs]; [contradiction|]. eapply behind_rcv. exact Hp. }
    assert (Hg : got = firstn (length got) bs).
    { eapply (got_prefix ch s p c bs (reads eqb D c l)); eauto. rewrite Es. cbn [ProcNet.reads_st]. rewrite reads_app, (reads_rcv eqb D eqb_spec). reflexivity. }
    split; [exact Hg|]. eapply (sinv_rcv ch s p c got rest); [exact I|exact Hf| | | |exact Hc| |exact Logic.I].
    - intros d _. rewrite Es. cbn [ProcNet.writes_st]. rewrite !writes_app, !writes_rcv. reflexivity.
    - intros d _ Hd. rewrite Es. cbn [ProcNet.reads_st]. rewrite !reads_app, !(reads_rcv_other eqb D eqb_spec) by exact Hd. reflexivity.
    - rewrite Es. cbn [ProcNet.reads_st]. rewrite !reads_app, !(reads_rcv eqb D eqb_spec), app_assoc. f_equal.
      rewrite Hg at 1. symmetry. apply firstn_skipn.
    - cbn [script_of]. rewrite <- skipn_map. apply behind_skip. exact Hp.
  Qed.
  Lemma upf_eq {A} (f : C -> A) c a : upf f c a c = a.
  Proof using All. unfold ProcNet.upf. rewrite (proj2 (eqb_spec c c) eq_refl). reflexivity. Qed.
  Lemma upf_ne {A} (f : C -> A) c a d : d <> c -> upf f c a d = f d.
  Proof using All. intros H. unfold ProcNet.upf. destruct (eqb d c) eqn:E; [apply eqb_spec in E; contradiction|reflexivity]. Qed.
  Lemma eq_dec_chan (c d : C) : c = d \/ c <> d.
  Proof using All. destruct (eqb c d) eqn:Ed; [left; apply eqb_spec; exact Ed|right; intros ->; rewrite (proj2 (eqb_spec d d) eq_refl) in Ed; discriminate]. Qed.

  Lemma sinv_bwrite ch s p x R W u hot g0 l c bs w n u' hot' g : sinv ch s -> s p = In x R W u hot g0 l -> bs <> [] -> W c = bs ++ w ->
    from c = p /\ sinv (sc ch c (ch c ++ firstn n bs)) (ups s p (In x R (upf W c (skipn n bs ++ w)) u' hot' g l)).
  Proof using All.
    intros I Es Hb HW. pose proof (v_fine _ _ I p) as F. rewrite Es in F.
    assert (Hf : from c = p). { apply (fine_from _ _ _ _ _ _ _ _ _ _ _ c F). rewrite HW. destruct bs; [contradiction|discriminate]. }
    split; [exact Hf|]. eapply (sinv_snd ch s p c _ (firstn n bs)); [exact I|exact Hf| | | |reflexivity| |].
    - intros d _. rewrite Es. reflexivity.
    - intros d _ Hd. rewrite Es. cbn [ProcNet.writes_st]. rewrite upf_ne by exact Hd. reflexivity.
    - rewrite Es. cbn [ProcNet.writes_st]. rewrite upf_eq, HW, !app_assoc, firstn_skipn. reflexivity.
    - pose proof (v_pos _ _ I p) as H. rewrite Es in H. exact H.
    - destruct F as [F1 F2]. split; [exact F1|]. intros d. destruct (eq_dec_chan d c) as [->|Hdc]; [|rewrite upf_ne by assumption; apply F2].
      rewrite upf_eq. destruct (F2 c) as [k Hk]. rewrite HW in Hk. eapply skipn_suffix. exact Hk.
  Qed.
  Lemma sinv_bread ch s p x R W u hot g0 l c got rest u' hot' g : sinv ch s -> s p = In x R W u hot g0 l -> R c <> [] ->
    ch c = got ++ rest -> (length got <= length (R c))%nat ->
    to c = p /\ got = firstn (length got) (R c) /\ sinv (sc ch c rest) (ups s p (In x (upf R c (skipn (length got) (R c))) W u' hot' g l)).
  Proof using All.
    intros I Es Hb Hc Hl. pose proof (v_fine _ _ I p) as F. rewrite Es in F.
    assert (Hf : to c = p). { apply (fine_to _ _ _ _ _ _ _ _ _ _ _ c F). exact Hb. }
    assert (Hg : got = firstn (length got) (R c)).
    { eapply (got_prefix ch s p c (R c) (reads eqb D c l)); eauto. rewrite Es. reflexivity. }
    split; [exact Hf|]. split; [exact Hg|]. eapply (sinv_rcv ch s p c got rest); [exact I|exact Hf| | | |exact Hc| |].
    - intros d _. rewrite Es. reflexivity.
    - intros d _ Hd. rewrite Es. cbn [ProcNet.reads_st]. rewrite upf_ne by exact Hd. reflexivity.
    - rewrite Es. cbn [ProcNet.reads_st]. rewrite upf_eq, app_assoc. f_equal. rewrite Hg at 1. symmetry. apply firstn_skipn.
    - pose proof (v_pos _ _ I p) as H. rewrite Es in H. exact H.
    - destruct F as [F1 F2]. split; [|exact F2]. intros d. destruct (eq_dec_chan d c) as [->|Hdc]; [|rewrite upf_ne by assumption; apply F1].
      rewrite upf_eq. destruct (F1 c) as [k Hk]. exists (length got + k)%nat. rewrite Hk, skipn_skipn'. reflexivity.
  Qed.
  (** The rest of an exchange's state does not matter. *)
  Lemma sinv_poll ch s p x R W u hot g l u' hot' g' : sinv ch s -> s p = In x R W u hot g l -> sinv ch (ups s p (In x R W u' hot' g' l)).
  Proof.
    intros I Es. apply sinv_same; [exact I| | | |]; try (intros; rewrite Es; reflexivity).
    - pose proof (v_pos _ _ I p) as H. rewrite Es in H. exact H.
    - pose proof (v_fine _ _ I p) as H. rewrite Es in H. exact H.
  Qed.

  (** A process at the end of its script reads and writes nothing more. *)
  Lemma done_reads p s : sees p s (Out []) -> forall c, to c = p -> reads_st c s = [].
  Proof. intros H c Hc. rewrite <- (sees_reads _ _ _ H c Hc). reflexivity. Qed.
  Lemma done_writes p s : sees p s (Out []) -> forall c, from c = p -> writes_st c s = [].
  Proof. intros H c Hc. rewrite <- (sees_writes _ _ _ H c Hc). reflexivity. Qed.

  (** Who has sent the last byte of its script has done all of it. *)
  Lemma last_sent p c v l0 st : scripts p G = l0 ++ [Snd c v] -> behind p (script_of st) -> writes_st c st = [] -> st = Out [].
  Proof using All.
    intros E (k & Hk) Hw.
    assert (Suf : exists l1, scripts p G = l1 ++ script_of st).
    { exists (scripts p (firstn k G)). rewrite Hk. unfold ProcNet.scripts. rewrite <- flat_map_app, firstn_skipn. reflexivity. }
    destruct Suf as (l1 & Suf). rewrite E in Suf.
    assert (L : script_of st = [] \/ exists l2, script_of st = l2 ++ [Snd c v]).
    { destruct (script_of st) as [|a l2] using rev_ind; [left; reflexivity|right]. rewrite app_assoc in Suf. apply app_inj_tail in Suf as [_ ->].
      exists l2. reflexivity. }
    assert (Hs : writes eqb D c [Snd c v] = [v]) by (cbn; rewrite (proj2 (eqb_spec c c) eq_refl); reflexivity).
    destruct st as [l|x R W u hot g l]; cbn [script_of ProcNet.writes_st] in *.
    - destruct L as [->|(l2 & ->)]; [reflexivity|]. rewrite writes_app, Hs in Hw. apply app_eq_nil in Hw as [_ Hw]. discriminate.
    - destruct L as [L|(l2 & L)]; [discriminate|]. exfalso. apply app_eq_nil in Hw as [_ Hw]. destruct l2 as [|a l2]; [discriminate|].
      inversion L; subst. rewrite writes_app, Hs in Hw. apply app_eq_nil in Hw as [_ Hw]. discriminate.
  Qed.

  Lemma no_block_reads p x R W u hot g l d : fine p (In x R W u hot g l) -> D x d = [] -> R d = [].
  Proof using All. intros [F _] E. destruct (F d) as [k ->]. unfold ProcNet.R0. rewrite E. destruct (to d =? p)%nat; apply skipn_nil. Qed.
  (** Who has written all of an exchange has read all that comes before it. *)
  Lemma past_block p c x l1 l2 st d : scripts p G = l1 ++ Loc x :: l2 -> D x c <> [] -> behind p (script_of st) -> fine p st ->
    writes_st c st = [] -> D x d = [] -> reads eqb D d l2 = [] -> reads_st d st = [].
  Proof using All.
    intros E Hx (k & Hk) F Hw Hd Hr.
    assert (Suf : exists l3, scripts p G = l3 ++ script_of st).
    { exists (scripts p (firstn k G)). rewrite Hk. unfold ProcNet.scripts. rewrite <- flat_map_app, firstn_skipn. reflexivity. }
    destruct Suf as (l3 & Suf). rewrite E in Suf.
    assert (C1 : forall l, script_of st = l ++ Loc x :: l2 -> reads_st d st = []).
    { intros l El. destruct st as [l'|y R W u hot g l']; cbn [script_of ProcNet.writes_st ProcNet.reads_st] in *.
      - exfalso. rewrite El in Hw. rewrite writes_app in Hw. apply app_eq_nil in Hw as [_ Hw]. cbn in Hw. apply app_eq_nil in Hw as [Hw _]. contradiction.
      - destruct l as [|a l]; cbn [app] in El; inversion El; subst.
        + rewrite (no_block_reads _ _ _ _ _ _ _ _ d F Hd). exact Hr.
        + exfalso. apply app_eq_nil in Hw as [_ Hw]. rewrite writes_app in Hw. apply app_eq_nil in Hw as [_ Hw]. cbn in Hw. apply app_eq_nil in Hw as [Hw _]. contradiction. }
    apply app_eq_app in Suf as (l & [[_ E2]|[_ E2]]); [exact (C1 l E2)|]. destruct l as [|a l]; [apply (C1 []); symmetry; exact E2|].
    cbn [app] in E2. inversion E2; subst. rewrite reads_app in Hr. apply app_eq_nil in Hr as [_ Hr].
    destruct st as [l'|y R W u hot g l']; cbn [script_of ProcNet.writes_st ProcNet.reads_st] in *; [exact Hr|].
    cbn in Hr. apply app_eq_nil in Hr as [H1 H2]. unfold reads. rewrite H2, app_nil_r. apply (no_block_reads _ _ _ _ _ _ _ _ d F H1).
  Qed.
End Safe.
