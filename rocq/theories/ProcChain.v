(** What the entities of a successful run send and receive, byte by byte. *)
From Verif Require Import Base BaseProofs Incremental Wire WireProofs Additive Onion OnionProofs Shuffle Sizes State Database CipherBatch CipherBatchProofs
  Range Handlers Batch Party Chain Net Procs ProcProofs ChainSpec OnlineProofs OfflineProofs OfflineParty ChainProofs Stream StreamProofs.

(** ** Loops that receive or send messages *)
Section Loops.
  Context {B : Type} (ops : bufops B) (C unit : nat) (R : B -> nat -> nat -> Prop).
  Context (L : buf_laws ops C unit R) (HC : (0 < C)%nat) (Hu : (0 < unit)%nat).
  Context {Ch L0 : Type} {est : Ch -> bool} (c : Ch).
  Local Notation follows := (@follows_on Ch L0 _ est).

  (** The write buffer holds the messages [pend]. *)
  Definition holds (w : B * list Z) (pend : list (list Z)) : Prop :=
    R (fst w) (length pend) 0%nat /\ (length pend < C)%nat /\ sized unit pend /\
    (exists tail, snd w = concat pend ++ tail) /\ (C * unit <= length (snd w))%nat.

  Lemma fo_flush b m pend tail : R b (length pend) 0%nat -> sized unit pend -> m = concat pend ++ tail ->
    exists b', follows (pflush ops c (b, m)) (map (Snd c) (concat pend)) (b', m) /\ R b' 0%nat 0%nat.
  Proof using All.
    intros HR Hs Em. unfold pflush. cbn [fst snd].
    rewrite (bl_bytes _ _ _ _ L _ _ _ HR), (bl_tobuffer _ _ _ _ L _ _ _ HR).
    pose proof (sized_concat _ _ Hs) as Lc.
    destruct (bl_clear _ _ _ _ L _ _ _ m HR) as (b2 & HR2 & Ec).
    assert (Ec' : bo_clear ops b m = Ok (m, b2)) by (rewrite Ec; destruct (0 <? length pend)%nat; reflexivity).
    exists b2. split; [|exact HR2]. eapply fo_ext; [eapply fo_bind; [apply fo_send; [rewrite Em, app_length; lia|lia|lia]|]|].
    - eapply fo_lift_bind; [exact Ec'|]. constructor.
    - rewrite app_nil_r, Nat.sub_0_r. cbn [Nat.add skipn]. rewrite Em, <- Lc, firstn_exact. reflexivity.
  Qed.

  Lemma fo_send_msg w pend v : holds w pend -> length v = unit ->
    exists w' ev pend', follows (psend_msg ops c w v) (map (Snd c) ev) w' /\ holds w' pend' /\ concat pend ++ v = ev ++ concat pend'.
  Proof using All.
    destruct w as [b m]. intros (HR & Hp & Hps & (tail & Em) & Hm) Hv. cbn [fst snd] in *. unfold psend_msg. cbn [fst snd].
    destruct (bl_push _ _ _ _ L _ _ _ m v HR) as (b1 & HR1 & Ep).
    pose proof (sized_concat _ _ Hps) as Lc.
    assert (Lt : (unit <= length tail)%nat) by (rewrite Em, app_length in Hm; nia).
    set (m1 := concat pend ++ v ++ skipn unit tail).
    assert (Ep1 : bo_push ops b m v = Ok (m1, b1)).
    { rewrite Ep, rd_Ok by lia. cbn [bind skipn]. rewrite firstn_all2 by lia.
      assert (Et : m = concat pend ++ firstn unit tail ++ skipn unit tail) by (rewrite firstn_skipn; exact Em).
      rewrite Et, <- Lc, wr_mid by (rewrite firstn_length; lia). reflexivity. }
    assert (Em1 : m1 = concat (pend ++ [v]) ++ skipn unit tail) by (unfold m1; rewrite concat_app; cbn [concat]; rewrite app_nil_r, app_assoc; reflexivity).
    assert (Lm1 : length m1 = length m) by (unfold m1; rewrite Em, !app_length, skipn_length; lia).
    assert (Hps1 : sized unit (pend ++ [v])) by (apply Forall_app; split; [exact Hps|constructor; [exact Hv|constructor]]).
    assert (HR1' : R b1 (length (pend ++ [v])) 0%nat) by (rewrite app_length; cbn [length]; rewrite Nat.add_1_r; exact HR1).
    assert (Fl : bo_full ops b1 = (S (length pend) =? C)%nat) by exact (bl_full _ _ _ _ L _ _ _ HR1).
    destruct (Nat.eqb_spec (S (length pend)) C) as [Ef|Ef].
    - destruct (fo_flush b1 m1 (pend ++ [v]) (skipn unit tail) HR1' Hps1 Em1) as (b2 & F & HR2).
      exists (b2, m1), (concat (pend ++ [v])), []. split; [|split].
      + eapply fo_lift_bind; [exact Ep1|]. cbn [fst snd]. rewrite Fl. exact F.
      + split; [exact HR2|]. split; [exact HC|]. split; [constructor|]. split; [exists m1; reflexivity|cbn [snd]; lia].
      + rewrite concat_app. cbn [concat]. rewrite !app_nil_r. reflexivity.
    - exists (b1, m1), [], (pend ++ [v]). split; [|split].
      + eapply fo_lift_bind; [exact Ep1|]. cbn [fst snd]. rewrite Fl. constructor.
      + split; [exact HR1'|]. split; [rewrite app_length; cbn [length]; lia|]. split; [exact Hps1|].
        split; [exists (skipn unit tail); exact Em1|cbn [snd]; lia].
      + rewrite concat_app. cbn [concat app]. rewrite !app_nil_r. reflexivity.
  Qed.

  (** A loop of sends: what has been sent and what is still in the buffer. *)
  Lemma fo_send_each {A S} (f : S -> A -> res (list Z * S)) : forall l acc s out s' w pend,
    fold_res (fun s a => let* x := f (snd s) a in Ok (fst s ++ [fst x], snd x)) l (acc, s) = Ok (acc ++ out, s') ->
    sized unit out -> holds w pend ->
    exists w' ev pend', follows (psend_each ops c f l s w) (map (Snd c) ev) (s', w') /\ holds w' pend' /\
      concat pend ++ concat out = ev ++ concat pend'.
  Proof using All.
    unfold psend_each. induction l as [|a l IH]; intros acc s out s' w pend E Hs H.
    - cbn [fold_res] in E. assert (out = [] /\ s' = s) as [-> ->].
      { injection E as E0 E1. rewrite <- (app_nil_r acc) in E0 at 1. apply app_inv_head in E0. auto. }
      exists w, [], pend. split; [constructor|]. split; [exact H|]. cbn. apply app_nil_r.
    - cbn [fold_res] in E. apply bind_Ok in E as (s1 & E1 & E). cbn [fst snd] in E1. apply bind_Ok in E1 as (x & Ex & E1). injection E1 as <-.
      assert (exists out', out = fst x :: out') as [out' ->].
      { assert (P : forall l (acc0 : list (list Z)) s0 r, fold_res (fun s a => let* x := f (snd s) a in Ok (fst s ++ [fst x], snd x)) l (acc0, s0) = Ok r ->
          exists t, fst r = acc0 ++ t).
        { clear. induction l as [|a l IH]; intros acc0 s0 r E; cbn [fold_res] in E.
          - injection E as <-. exists []. symmetry. apply app_nil_r.
          - apply bind_Ok in E as (s1 & E1 & E). apply bind_Ok in E1 as (x & _ & E1). injection E1 as <-.
            apply IH in E as (t & ->). cbn [fst]. exists (fst x :: t). rewrite <- app_assoc. reflexivity. }
        destruct (P _ _ _ _ E) as (t & Et). cbn [fst] in Et. rewrite <- app_assoc in Et. apply app_inv_head in Et. exists t. exact Et. }
      inversion Hs as [|? ? Hx Hs']; subst.
      destruct (fo_send_msg w pend (fst x) H Hx) as (w1 & ev1 & pend1 & F1 & H1 & Q1).
      replace (acc ++ fst x :: out') with ((acc ++ [fst x]) ++ out') in E by (rewrite <- app_assoc; reflexivity).
      destruct (IH (acc ++ [fst x]) (snd x) out' s' w1 pend1 E Hs' H1) as (w2 & ev2 & pend2 & F2 & H2 & Q2).
      exists w2, (ev1 ++ ev2), pend2. split; [|split; [exact H2|]].
      + cbn [pfold]. rewrite map_app. eapply fo_bind; [|exact F2]. cbn [fst snd].
        eapply fo_lift_bind; [exact Ex|]. apply (fo_end _ (fun w' => (snd x, w'))). exact F1.
      + cbn [concat]. rewrite app_assoc, Q1, <- !app_assoc, Q2. reflexivity.
  Qed.

  (** ... followed by a flush: all the messages have been sent. *)
  Lemma fo_send_flush {A S} (f : S -> A -> res (list Z * S)) l s out s' b m :
    fold_res (fun s a => let* x := f (snd s) a in Ok (fst s ++ [fst x], snd x)) l ([], s) = Ok (out, s') ->
    sized unit out -> R b 0%nat 0%nat -> (C * unit <= length m)%nat ->
    exists w1 w2 e1 e2, follows (psend_each ops c f l s (b, m)) (map (Snd c) e1) (s', w1) /\
      follows (pflush ops c w1) (map (Snd c) e2) w2 /\ concat out = e1 ++ e2.
  Proof using All.
    intros E Hs HR Hm. destruct (fo_send_each f l [] s out s' (b, m) [] E Hs) as (w1 & ev & pend & F1 & H1 & Q).
    { split; [exact HR|]. split; [exact HC|]. split; [constructor|]. split; [exists m; reflexivity|exact Hm]. }
    destruct w1 as [b1 m1]. destruct H1 as (HR1 & _ & Hs1 & (tail & Em) & _). cbn [fst snd] in *.
    destruct (fo_flush b1 m1 pend tail HR1 Hs1 Em) as (b2 & F2 & _).
    exists (b1, m1), (b2, m1), ev, (concat pend). auto.
  Qed.

  (** A loop of reads at the end of the stream. *)
  Lemma sv_round {S} (handle : S -> list Z -> res S) f b m count s l :
    R b 0%nat l -> (l < unit)%nat -> (forall b', R b' 0%nat l -> starved c (pread_each ops f c handle count b' m s)) ->
    starved c (do offs <- lift (bo_elems ops (bo_update ops b 0));
               do xs <- lift (map_res (fun o => rd m o (bo_unit ops (bo_update ops b 0))) offs);
               do s' <- lift (fold_res handle xs s);
               do cl <- lift (bo_clear ops (bo_update ops b 0) m);
               pread_each ops f c handle (count - length xs) (snd cl) (fst cl) s').
  Proof using All.
    intros HR Hl H. pose proof (bl_update _ _ _ _ L _ _ _ 0%nat HR) as HR1. cbn [Nat.add] in HR1.
    rewrite Nat.div_small, Nat.mod_small in HR1 by exact Hl.
    rewrite (bl_elems _ _ _ _ L _ _ _ HR1). cbn [seq map lift pbind map_res fold_res].
    destruct (bl_clear _ _ _ _ L _ _ _ m HR1) as (b2 & HR2 & Ec). rewrite Ec. cbn [Nat.ltb Nat.leb bind lift pbind fst snd length].
    rewrite Nat.sub_0_r. apply H. exact HR2.
  Qed.
  Lemma sv_read_each {S} (handle : S -> list Z -> res S) : forall fuel b m count s l,
    R b 0%nat l -> (l < unit)%nat -> (0 < count)%nat -> Z.of_nat count < 2 ^ 32 -> Z.of_nat unit < 2 ^ 32 -> (C * unit <= length m)%nat ->
    starved c (pread_each ops fuel c handle count b m s).
  Proof using All.
    induction fuel as [|f IH]; intros b m count s l HR Hl Hc Hc2 Hu2 Hm; cbn [pread_each]; rewrite (proj2 (Nat.ltb_lt 0 count) Hc); [constructor|].
    unfold pread_buf. rewrite (bl_capacity _ _ _ _ L _ _ _ HR), (bl_unit _ _ _ _ L _ _ _ HR), (bl_leftover _ _ _ _ L _ _ _ HR),
      (bl_tobuffer _ _ _ _ L _ _ _ HR).
    assert (Hcu : Z.of_nat (count * unit) < 2 ^ 64) by (rewrite Nat2Z.inj_mul; nia).
    assert (Hlc : (l < count * unit)%nat) by nia. assert (HlC : (l < C * unit)%nat) by nia.
    assert (w64 (Z.of_nat (count * unit) - Z.of_nat l) = Z.of_nat (count * unit - l)) as ->
      by (rewrite w64_id by (unfold u64; lia); lia).
    apply sv_assoc. apply sv_sys_read; [destruct (Z.ltb_spec (Z.of_nat (C * unit - l)) (Z.of_nat (count * unit - l))); lia|].
    rewrite wr_nil by lia. cbn [lift pbind fst snd length]. apply (sv_round handle f b m count s l HR Hl).
    intros b' HR'. eapply IH; eassumption.
  Qed.

  (** A loop of reads: [left] is what the buffer holds of a message that has not
      arrived completely. *)
  Lemma fo_read_each {S} (handle : S -> list Z -> res S) : forall fuel b m left msgs bs s s',
    R b 0%nat (length left) -> (length left < unit)%nat ->
    Z.of_nat (length msgs) < 2 ^ 32 -> Z.of_nat unit < 2 ^ 32 ->
    (exists tail, m = left ++ tail) -> (C * unit <= length m)%nat ->
    sized unit msgs -> left ++ bs = concat msgs -> (length msgs * unit <= fuel + length left)%nat ->
    fold_res handle msgs s = Ok s' ->
    follows (pread_each ops fuel c handle (length msgs) b m s) (map (Rcv c) bs) s'.
  Proof using All.
    induction fuel as [|f IH]; intros b m left msgs bs s s' HR Hl Hc Hu2 (tail & Em) Hm Hs Hd Hf Ef; cbn [pread_each].
    - destruct msgs as [|x msgs]; [|cbn in Hf; lia]. cbn in Hd. apply app_eq_nil in Hd as [_ ->]. injection Ef as <-. constructor.
    - destruct msgs as [|x msgs0] eqn:Emsgs.
      { cbn in Hd. apply app_eq_nil in Hd as [_ ->]. injection Ef as <-. constructor. }
      rewrite <- Emsgs in *. set (count := length msgs) in *.
      assert (Hc0 : (0 < count)%nat) by (unfold count; rewrite Emsgs; cbn; lia).
      rewrite (proj2 (Nat.ltb_lt 0 count) Hc0). clear x msgs0 Emsgs.
      assert (Hlen : length (concat msgs) = (count * unit)%nat) by (apply sized_concat; exact Hs).
      assert (Lbs : length bs = (count * unit - length left)%nat) by (apply (f_equal (@length Z)) in Hd; rewrite app_length, Hlen in Hd; lia).
      unfold pread_buf.
      rewrite (bl_capacity _ _ _ _ L _ _ _ HR), (bl_unit _ _ _ _ L _ _ _ HR), (bl_leftover _ _ _ _ L _ _ _ HR),
        (bl_tobuffer _ _ _ _ L _ _ _ HR).
      set (l := length left) in *.
      assert (Hcu : Z.of_nat (count * unit) < 2 ^ 64) by (rewrite Nat2Z.inj_mul; nia).
      assert (Hlc : (l < count * unit)%nat) by nia. assert (HlC : (l < C * unit)%nat) by nia.
      assert (w64 (Z.of_nat (count * unit) - Z.of_nat l) = Z.of_nat (count * unit - l)) as ->
        by (rewrite w64_id by (unfold u64; lia); lia).
      set (n := Z.to_nat _).
      assert (Hn : (0 < n /\ n <= C * unit - l /\ n <= count * unit - l)%nat).
      { unfold n. destruct (Z.ltb_spec (Z.of_nat (C * unit - l)) (Z.of_nat (count * unit - l))); lia. }
      clearbody n. rewrite <- (app_nil_r (map _ _)).
      assert (Assoc : forall V Y W (p : proc Ch V) (g : V -> proc Ch Y) (h : Y -> proc Ch W) lst y,
        follows (pbind p (fun x => pbind (g x) h)) lst y -> follows (pbind (pbind p g) h) lst y).
      { clear. intros V Y W p g h lst y. revert lst. induction p as [a|w|c0 b0 k IHk|c0 n0 k IHk|b0 l0 k IHk]; intros lst H; cbn [pbind] in *; try exact H.
        - inversion H as [|c1 b1 k1 l1 a1 Hb Hk E1 E2|]; subst. constructor; [exact Hb|]. intros n Hn. apply IHk. apply Hk. exact Hn.
        - inversion H as [| |c1 n1 b1 k1 l1 a1 Hb Hsv Hk E1 E2]; subst. constructor; [exact Hb|intros He; apply (sv_assoc c0 (k [])); exact (Hsv He)|]. intros n Hn. apply IHk. apply Hk. exact Hn.
        - inversion H. }
      apply Assoc. apply fo_sys_read; [lia| |].
      { intros _. apply sv_assoc. rewrite wr_nil by lia. cbn [lift pbind fst snd].
        apply (sv_round handle f b m count s l HR Hl). intros b' HR'. eapply sv_read_each; eassumption. }
      intros j Hj. rewrite app_nil_r.
      set (got := firstn j bs). assert (Lg : length got = j) by (unfold got; rewrite firstn_length; lia).
      assert (Lt : (length got <= length tail)%nat) by (rewrite Em, app_length in Hm; fold l in Hm; lia).
      apply Assoc. eapply fo_lift_bind.
      { rewrite Em. replace (left ++ tail) with (left ++ firstn (length got) tail ++ skipn (length got) tail) by (rewrite firstn_skipn; reflexivity).
        apply wr_mid. rewrite firstn_length. lia. }
      cbn [pbind fst snd].
      set (m1 := left ++ got ++ skipn (length got) tail). set (data := left ++ got).
      assert (Em1 : m1 = data ++ skipn (length got) tail) by (unfold m1, data; apply app_assoc).
      assert (Lm1 : length m1 = length m) by (unfold m1; rewrite Em, !app_length, skipn_length; lia).
      assert (Ld : length data = (length got + l)%nat) by (unfold data; rewrite app_length; lia).
      pose proof (bl_update _ _ _ _ L _ _ _ (length got) HR) as HR1. fold l in HR1. rewrite <- Ld in HR1.
      destruct (deliver_spec ops C unit R L HC Hu _ m1 data _ Em1 ltac:(lia) HR1) as (offs & b2 & m2 & Eo & Ex & Ec & HR2 & Lm2 & (tail2 & Em2)).
      set (e := (length data / unit)%nat) in *. set (l2 := (length data mod unit)%nat) in *.
      assert (Hel : length data = (e * unit + l2)%nat) by (apply div_split; exact Hu).
      assert (Hlu : (l2 < unit)%nat) by (apply Nat.mod_upper_bound; lia).
      assert (Hec : (e <= count)%nat) by nia.
      assert (Hda : data ++ skipn j bs = concat msgs) by (unfold data, got; rewrite <- app_assoc, firstn_skipn; exact Hd).
      assert (Hdata : data = concat (firstn e msgs) ++ skipn (e * unit) data).
      { rewrite <- (firstn_skipn (e * unit) data) at 1. f_equal.
        assert (firstn (e * unit) (data ++ skipn j bs) = firstn (e * unit) (concat msgs)) as X by (rewrite Hda; reflexivity).
        rewrite firstn_app in X. replace (e * unit - length data)%nat with 0%nat in X by lia. cbn in X. rewrite app_nil_r in X. rewrite X.
        rewrite <- (firstn_skipn e msgs) at 1. rewrite concat_app.
        assert (length (concat (firstn e msgs)) = (e * unit)%nat) as Lc.
        { rewrite (sized_concat unit) by (apply sized_firstn; exact Hs). rewrite firstn_length. unfold count in *. nia. }
        rewrite <- Lc. apply firstn_exact. }
      assert (Hchunks : map (fun i => firstn unit (skipn (i * unit) data)) (seq 0 e) = firstn e msgs).
      { pose proof (chunks_concat C unit HC Hu (firstn e msgs) (skipn (e * unit) data) (sized_firstn unit msgs e Hs)) as X.
        rewrite firstn_length in X. replace (Nat.min e (length msgs)) with e in X by (unfold count in *; lia).
        rewrite <- Hdata in X. exact X. }
      rewrite Hchunks in Ex.
      eapply fo_lift_bind; [exact Eo|]. eapply fo_lift_bind; [exact Ex|].
      rewrite <- (firstn_skipn e msgs) in Ef. rewrite fold_res_app in Ef. apply bind_Ok in Ef as (s1 & Ef1 & Ef2).
      eapply fo_lift_bind; [exact Ef1|]. eapply fo_lift_bind; [exact Ec|]. cbn [fst snd].
      assert (Hrem : (count - length (firstn e msgs))%nat = length (skipn e msgs)) by (rewrite firstn_length, skipn_length; unfold count; lia).
      rewrite Hrem.
      assert (Ll : length (skipn (e * unit) data) = l2) by (rewrite skipn_length; lia).
      apply (IH b2 m2 (skipn (e * unit) data) (skipn e msgs) (skipn j bs)).
      + rewrite Ll. exact HR2.
      + lia.
      + rewrite skipn_length. unfold count in *. lia.
      + exact Hu2.
      + exists tail2. exact Em2.
      + lia.
      + apply sized_skipn. exact Hs.
      + assert (Hcm : concat msgs = concat (firstn e msgs) ++ concat (skipn e msgs))
          by (rewrite <- concat_app, firstn_skipn; reflexivity).
        rewrite Hdata, Hcm, <- app_assoc in Hda. apply app_inv_head in Hda. exact Hda.
      + rewrite Ll, skipn_length. fold count. nia.
      + exact Ef2.
  Qed.
End Loops.

Section Streams.
  Context {Ch X : Type} {est : Ch -> bool}.
  Local Notation follows := (@follows_on Ch X _ est).
  Implicit Types (c : Ch).

Lemma fo_take_each {S} c mem size n (handle : S -> list Z -> res S) msgs s s' :
  length mem = BUFFER_SIZE -> (0 < size <= BUFFER_SIZE)%nat -> Z.of_nat n < 2 ^ 32 ->
  length msgs = n -> sized size msgs -> fold_res handle msgs s = Ok s' ->
  follows (take_each c mem size n handle s) (map (Rcv c) (concat msgs)) s'.
Proof.
  intros Hm Hs Hn <- F E. assert (Hs2 : Z.of_nat size < 2 ^ 32) by (unfold BUFFER_SIZE in Hs; lia).
  assert (Hs0 : (0 < size)%nat) by lia. destruct (cap_facts BUFFER_SIZE size Hs) as [HC Hcu].
  apply (fo_read_each lb_ops _ _ _ (lb_laws (BUFFER_SIZE / size) size) HC Hs0 c handle) with (left := []);
    try assumption; try reflexivity; cbn [fst snd messages length].
  - exists mem. reflexivity.
  - rewrite Hm. exact Hcu.
  - rewrite Nat.add_0_r. apply le_n.
Qed.
Lemma fo_take_ciphers {S} c mem size n (handle : S -> list Z -> res S) msgs s s' :
  length mem = BUFFER_SIZE -> (0 < size <= BUFFER_SIZE)%nat -> Z.of_nat n < 2 ^ 32 ->
  length msgs = n -> sized size msgs -> fold_res handle msgs s = Ok s' ->
  follows (take_ciphers c mem size n handle s) (map (Rcv c) (concat msgs)) s'.
Proof.
  intros Hm Hs Hn <- F E. assert (Hs2 : Z.of_nat size < 2 ^ 32) by (unfold BUFFER_SIZE in Hs; lia).
  assert (Hs0 : (0 < size)%nat) by lia. destruct (cap_facts BUFFER_SIZE size Hs) as [HC Hcu].
  apply (fo_read_each cl_ops _ _ _ (cl_laws (BUFFER_SIZE / size) size Hs0) HC Hs0 c handle) with (left := []);
    try assumption; try reflexivity; cbn [fst snd ciphers length].
  - apply cl_make_rel. exact Hs0.
  - exists mem. reflexivity.
  - rewrite Hm. exact Hcu.
  - rewrite Nat.add_0_r. apply le_n.
Qed.
Lemma fo_send_messages {A S} c mem size (f : S -> A -> res (list Z * S)) l s out s' :
  length mem = BUFFER_SIZE -> (0 < size <= BUFFER_SIZE)%nat ->
  fold_res (fun s a => let* x := f (snd s) a in Ok (fst s ++ [fst x], snd x)) l ([], s) = Ok (out, s') -> sized size out ->
  exists w1 w2 e1 e2, follows (psend_each lb_ops c f l s (messages size mem)) (map (Snd c) e1) (s', w1) /\
    follows (pflush lb_ops c w1) (map (Snd c) e2) w2 /\ concat out = e1 ++ e2.
Proof.
  intros Hm Hs E F. destruct (cap_facts BUFFER_SIZE size Hs) as [HC Hcu].
  apply (fo_send_flush lb_ops _ _ _ (lb_laws (BUFFER_SIZE / size) size) HC ltac:(lia) c f); try assumption; [reflexivity|rewrite Hm; exact Hcu].
Qed.
Lemma fo_send_ciphers {A S} c mem size (f : S -> A -> res (list Z * S)) l s out s' :
  length mem = BUFFER_SIZE -> (0 < size <= BUFFER_SIZE)%nat ->
  fold_res (fun s a => let* x := f (snd s) a in Ok (fst s ++ [fst x], snd x)) l ([], s) = Ok (out, s') -> sized size out ->
  exists w1 w2 e1 e2, follows (psend_each cl_ops c f l s (ciphers size mem)) (map (Snd c) e1) (s', w1) /\
    follows (pflush cl_ops c w1) (map (Snd c) e2) w2 /\ concat out = e1 ++ e2.
Proof.
  intros Hm Hs E F. destruct (cap_facts BUFFER_SIZE size Hs) as [HC Hcu].
  apply (fo_send_flush cl_ops _ _ _ (cl_laws (BUFFER_SIZE / size) size ltac:(lia)) HC ltac:(lia) c f); try assumption; [apply cl_make_rel; lia|rewrite Hm; exact Hcu].
Qed.

Lemma query_len q : length (enc_query q) = query_size.
Proof. unfold enc_query, query_size. rewrite app_length, !length_le. reflexivity. Qed.
Lemma queries_len qs : sized query_size (map enc_query qs).
Proof. apply Forall_map. apply Forall_forall. intros; apply query_len. Qed.
Lemma fold_dec {S} (h : S -> query -> res S) : forall qs s, Forall wf_query qs ->
  fold_res (fun s m => h s (dec_query m)) (map enc_query qs) s = fold_res h qs s.
Proof.
  induction qs as [|q qs IH]; intros s F; cbn [map fold_res]; [reflexivity|]. inversion F; subst.
  destruct (query_roundtrip q) as [_ ->]; [assumption|]. destruct (h s q); cbn [bind]; auto.
Qed.
Lemma message_sizes : (0 < query_size <= BUFFER_SIZE)%nat /\ (0 < response_size <= BUFFER_SIZE)%nat.
Proof. unfold query_size, response_size, BUFFER_SIZE. lia. Qed.
Lemma fo_take_queries {S} c mem n (h : S -> query -> res S) qs s s' :
  length mem = BUFFER_SIZE -> Z.of_nat n < 2 ^ 32 -> length qs = n -> Forall wf_query qs -> fold_res h qs s = Ok s' ->
  follows (take_each c mem query_size n (fun s m => h s (dec_query m)) s) (map (Rcv c) (concat (map enc_query qs))) s'.
Proof.
  intros Hm Hn L F E. apply fo_take_each; [exact Hm|apply message_sizes|exact Hn|rewrite map_length; exact L|apply queries_len|].
  rewrite fold_dec by exact F. exact E.
Qed.

Lemma fo_wait asserts c : follows (pwait_ready asserts c) [Rcv c 1] tt.
Proof.
  unfold pwait_ready. eapply fo_ext; [eapply fo_bind; [apply (fo_pread_all c [1] [0] 1); reflexivity|]|reflexivity].
  destruct asserts; constructor.
Qed.
Lemma fo_ready c : follows (psend_ready c) [Snd c 1] tt.
Proof. apply (fo_send_all c [1] 1). reflexivity. Qed.
Lemma fo_count c n : follows (psend_count c n) (map (Snd c) (le 4 n)) tt.
Proof. apply fo_send_all. apply length_le. Qed.
Lemma fo_read_count c n : u32 n -> follows (pread_count c) (map (Rcv c) (le 4 n)) n.
Proof.
  intros H. unfold pread_count. rewrite <- (of_le_le_small 4 n) at 2 by exact H. apply (fo_end _ of_le).
  apply fo_pread_all; [apply length_le|reflexivity].
Qed.
End Streams.

(** What the sending loops compute. *)
Lemma for_as_fold {X S} (A : nat -> S -> res (X * S)) (B : nat -> X -> res (list Z)) : forall n i acc st,
  for_ n i (fun i s => let* m := A i (snd s) in let* c := B i (fst m) in Ok (fst s ++ [c], snd m)) (acc, st) =
  fold_res (fun s a => let* x := (let* m := A a (snd s) in let* c := B a (fst m) in Ok (c, snd m)) in Ok (fst s ++ [fst x], snd x)) (seq i n) (acc, st).
Proof.
  induction n as [|n IH]; intros i acc st; cbn [for_ seq fold_res]; [reflexivity|]. cbn [fst snd].
  destruct (A i st) as [m| | |]; cbn [bind]; try reflexivity. destruct (B i (fst m)); cbn [bind fst snd]; try reflexivity. apply IH.
Qed.
Lemma map_as_fold {A} (g : A -> res (list Z)) : forall l acc out, map_res g l = Ok out ->
  fold_res (fun s a => let* x := (let* m := g a in Ok (m, tt)) in Ok (fst s ++ [fst x], snd x)) l (acc, tt) = Ok (acc ++ out, tt).
Proof.
  induction l as [|x l IH]; intros acc out E; cbn [map_res] in E; cbn [fold_res].
  - injection E as <-. rewrite app_nil_r. reflexivity.
  - apply bind_Ok in E as (m & E1 & E). apply bind_Ok in E as (ms & E2 & E). injection E as <-.
    rewrite E1. cbn [bind fst snd]. rewrite (IH _ _ E2), <- app_assoc. reflexivity.
Qed.
Lemma pure_as_fold {A} (g : A -> list Z) : forall l acc,
  fold_res (fun s a => let* x := Ok (g a, tt) in Ok (fst s ++ [fst x], snd x)) l (acc, tt) = Ok (acc ++ map g l, tt).
Proof.
  induction l as [|x l IH]; intros acc; cbn [fold_res map bind fst snd]; [rewrite app_nil_r; reflexivity|].
  rewrite IH, <- app_assoc. reflexivity.
Qed.
Lemma queries_as_fold : forall keys (acc : list query) st qs st',
  fold_res (fun s key => let* q := make_query (snd s) key in Ok (fst s ++ [fst q], snd q)) keys (acc, st) = Ok (qs, st') ->
  fold_res (fun s key => let* x := (let* q := make_query (snd s) key in Ok (enc_query (fst q), snd q)) in Ok (fst s ++ [fst x], snd x)) keys
    (map enc_query acc, st) = Ok (map enc_query qs, st').
Proof.
  induction keys as [|key keys IH]; intros acc st qs st' E; cbn [fold_res] in *.
  - injection E as <- <-. reflexivity.
  - apply bind_Ok in E as (s1 & E1 & E). cbn [snd fst] in *. apply bind_Ok in E1 as (q & Eq & E1). injection E1 as <-.
    rewrite Eq. cbn [bind fst snd]. apply IH in E. rewrite map_app in E. exact E.
Qed.
Lemma backend_as_fold db junk : forall l keys resps p keys' resps' p',
  fold_res (fun s q =>
    let '(keys, resps, p) := s in
    let* h := backend_handle_query db junk p q in
    let '(key, resp, p') := h in
    Ok (keys ++ [key], resps ++ [resp], p')) l (keys, resps, p) = Ok (keys', resps', p') ->
  fold_res (fun s q => let* x := (let* h := backend_handle_query db junk (snd (snd s)) q in
      let '(key, resp, p') := h in
      Ok (resp, (fst (snd s) ++ [key], p'))) in Ok (fst s ++ [fst x], snd x)) l (resps, (keys, p)) = Ok (resps', (keys', p')).
Proof.
  induction l as [|q l IH]; intros keys resps p keys' resps' p' E; cbn [fold_res] in *.
  - injection E as <- <- <-. reflexivity.
  - apply bind_Ok in E as ([[k1 r1] p1] & E1 & E). cbn [fst snd]. apply bind_Ok in E1 as ([[key resp] p2] & Eh & E1). injection E1 as <- <- <-.
    rewrite Eh. cbn [bind fst snd]. apply IH. exact E.
Qed.
(** The client's responses, with the keys still expected in the state. *)
Lemma responses_as_fold {S} (h : S -> Z -> list Z -> res S) : forall keys resps s s',
  length keys = length resps -> fold_res (fun s kr => h s (fst kr) (snd kr)) (combine keys resps) s = Ok s' ->
  fold_res (fun (s : list Z * S) m => let* key := get (fst s) 0 in let* s' := h (snd s) key m in Ok (tl (fst s), s')) resps (keys, s) = Ok ([], s').
Proof.
  induction keys as [|key keys IH]; intros [|r resps] s s' Ln E; try discriminate; cbn [combine fold_res] in *.
  - injection E as <-. reflexivity.
  - apply bind_Ok in E as (s1 & E1 & E2). cbn [fst snd] in *. unfold get at 1. cbn [nth_error bind]. rewrite E1. cbn [bind tl].
    apply IH; [cbn in Ln; lia|exact E2].
Qed.

Lemma recv_inv {A} n (l l' : list A) : recv n l = Ok l' -> length l = n -> l' = l.
Proof. unfold recv. destruct (length l <? n)%nat; [discriminate|]. intros E L. inversion E. subst. apply firstn_all. Qed.

Lemma fo_listen j : follows (plisten j) (dlisten j) tt.
Proof.
  unfold plisten, dlisten. apply (fo_sys_send (Lis j) [1] _ [Rcv (Con j) 1]); [discriminate|]. intros n Hn. cbn [length] in Hn.
  assert (n = 1%nat) as -> by lia. apply (fo_sys_read (Con j) 1 [1] _ []); [cbn; lia|discriminate|]. intros m Hm. assert (m = 1%nat) as -> by lia. constructor.
Qed.
Lemma fo_connect j : follows (pconnect j) (dconnect j) tt.
Proof.
  unfold pconnect, dconnect. apply (fo_sys_read (Lis j) 1 [1] _ [Snd (Con j) 1]); [cbn; lia|discriminate|]. intros m Hm. assert (m = 1%nat) as -> by lia.
  apply (fo_sys_send (Con j) [1] _ []); [discriminate|]. intros n Hn. cbn [length] in Hn. assert (n = 1%nat) as -> by lia. constructor.
Qed.

Ltac fnorm := cbn [app]; rewrite <- ?app_assoc; cbn [app]; rewrite ?app_nil_r; reflexivity.

(** ** Entities *)
Section Entities.
  Context (b : sealbox) (asserts : bool) (rng : rng_t) (mem : nat -> list Z) (Hmem : forall i, length (mem i) = BUFFER_SIZE).

  Lemma fo_client_offline id parties c cs st :
    client_offline b asserts id parties (ct_pkeys c) (ct_rand c) (length (ct_keys c)) = Ok (cs, st) ->
    sized (client_out_size parties) cs -> (0 < client_out_size parties <= BUFFER_SIZE)%nat ->
    follows (pclient_offline b asserts id mem parties c)
      (map (Snd (Fwd 0)) (le 4 (Z.of_nat (length (ct_keys c)))) ++ ([Rcv (Bwd 0) 1] ++ map (Snd (Fwd 0)) (concat cs)) ++ [Rcv (Bwd 0) 1]) st.
  Proof using Hmem.
    unfold client_offline. intros E L Hs. apply bind_Ok in E as (st0 & E0 & E).
    rewrite (for_as_fold (fun i st => client_make_secret id (Z.of_nat (length (ct_keys c))) parties (ct_rand c) st i)
      (fun i m => onion_encrypt b asserts (rn_coins (ct_rand c) i) (rn_junk1 (ct_rand c) i) (rn_junk2 (ct_rand c) i) m 0 parties (ct_pkeys c))) in E.
    destruct (fo_send_ciphers (X := unit) (est := established) (Fwd 0) (mem 0%nat) (client_out_size parties) (fun st i =>
      let* m := client_make_secret id (Z.of_nat (length (ct_keys c))) parties (ct_rand c) st i in
      let* x := onion_encrypt b asserts (rn_coins (ct_rand c) i) (rn_junk1 (ct_rand c) i) (rn_junk2 (ct_rand c) i)
                  (fst m) 0 parties (ct_pkeys c) in
      Ok (x, snd m)) _ _ _ _ (Hmem 0%nat) Hs E L) as (w1 & w2 & e1 & e2 & F1 & F2 & Q).
    unfold pclient_offline. eapply fo_ext.
    - eapply fo_bind; [apply fo_count|]. eapply fo_bind; [apply fo_wait|]. apply (fo_lift_bind _ st0); [exact E0|].
      eapply fo_bind; [exact F1|]. eapply fo_bind; [exact F2|]. cbn [fst]. eapply (fo_end _ (fun _ => st)). apply fo_wait.
    - rewrite Q, map_app. fnorm.
  Qed.

  Lemma fo_client_simulate parties c st : client_simulate parties (length (ct_keys c)) = Ok st ->
    follows (pclient_simulate asserts parties c) (map (Snd (Fwd 0)) (le 4 (Z.of_nat (length (ct_keys c)))) ++ [] ++ [Rcv (Bwd 0) 1]) st.
  Proof.
    intros E. unfold pclient_simulate. apply (fo_lift_bind _ st); [exact E|]. eapply fo_bind; [apply fo_count|].
    eapply (fo_end _ (fun _ => st)). apply fo_wait.
  Qed.

  Lemma fo_client_online db c st qs st' resps result :
    client_queries st (ct_keys c) = Ok (qs, st') -> client_responses asserts db st' (ct_keys c) resps = Ok result ->
    Z.of_nat (length (ct_keys c)) < 2 ^ 32 -> length resps = length (ct_keys c) -> sized response_size resps ->
    follows (pclient_online asserts mem db c st)
      (map (Snd (Fwd 0)) (concat (map enc_query qs)) ++ map (Rcv (Bwd 0)) (concat resps)) result.
  Proof using Hmem.
    intros Eq Er Hn Lr Fr. unfold client_queries in Eq. apply bind_Ok in Eq as ([q0 s0] & Eq & E). inversion E; subst. clear E.
    apply queries_as_fold in Eq.
    destruct (fo_send_messages (X := unit) (est := established) (Fwd 0) (mem 1%nat) query_size (fun st key => let* q := make_query st key in Ok (enc_query (fst q), snd q))
      _ _ _ _ (Hmem 1%nat) (proj1 message_sizes) Eq (queries_len _)) as (w1 & w2 & e1 & e2 & F1 & F2 & Q). cbn [fst snd] in *.
    unfold client_responses in Er. apply bind_Ok in Er as (rs & Ers & Er). apply recv_inv in Ers; [|exact Lr]. subst rs.
    apply bind_Ok in Er as (s & Es & E). inversion E; subst. clear E.
    unfold pclient_online. eapply fo_ext.
    - eapply fo_bind; [exact F1|]. eapply fo_bind; [exact F2|]. cbn [fst].
      apply (fo_end _ (fun s => snd (fst s))) with (a := ([], fst s, snd s)).
      apply fo_take_each with (msgs := resps); [apply Hmem|apply message_sizes|exact Hn|exact Lr|exact Fr|].
      apply (responses_as_fold (fun s key m =>
        let* m := client_reconstruct (snd s) m in
        let response := dec_response (fst m) in
        let* expected := db_lookup db key in
        let* eq := response_eqb response expected in
        let* _ := (if asserts then assert_ eq else Ok tt) in
        Ok (fst s ++ [response], snd m))) in Es; [|lia].
      revert Es. generalize (ct_keys c) (cs_finish s0). remember (@nil response) as l0 eqn:El0 in |- * at 2 4. clear El0. clear. revert l0. induction resps as [|r resps IH]; intros l keys st Es; cbn [fold_res] in *.
      + inversion Es; subst. reflexivity.
      + apply bind_Ok in Es as ([keys1 [l1 st1]] & E1 & E2). cbn [fst snd] in E1. apply bind_Ok in E1 as (key & Ek & E1). apply bind_Ok in E1 as ([l2 st2] & Eh & E1).
        inversion E1; subst. apply bind_Ok in Eh as (m & Em & Eh). rewrite Em, Ek. cbn [bind].
        apply bind_Ok in Eh as (x & Ex & Eh). rewrite Ex. cbn [bind]. apply bind_Ok in Eh as (y & Ey & Eh). rewrite Ey. cbn [bind].
        apply bind_Ok in Eh as (u & Eu & Eh). rewrite Eu. cbn [bind]. inversion Eh; subst. apply IH. exact E2.
    - rewrite Q, map_app. fnorm.
  Qed.

  Lemma fo_party_offline k cf input cs shuffled out rp :
    party_offline b asserts rng cf input cs = Ok (shuffled, out, rp) ->
    u32 input -> length cs = Z.to_nat input -> sized (party_in_size (pf_parties cf) (pf_party cf)) cs ->
    sized (party_out_size (pf_parties cf) (pf_party cf)) out ->
    (0 < party_in_size (pf_parties cf) (pf_party cf) <= BUFFER_SIZE)%nat -> (0 < party_out_size (pf_parties cf) (pf_party cf) <= BUFFER_SIZE)%nat ->
    party_check asserts cf = Ok tt /\
    follows (pparty_offline b asserts rng mem k cf)
      ((map (Rcv (Fwd (k - 1))) (le 4 input) ++ map (Snd (Fwd k)) (le 4 shuffled)) ++
       ([Rcv (Bwd k) 1] ++ [Snd (Bwd (k - 1)) 1] ++ map (Rcv (Fwd (k - 1))) (concat cs) ++ map (Snd (Fwd k)) (concat out)) ++
       [Rcv (Bwd k) 1] ++ [Snd (Bwd (k - 1)) 1]) rp.
  Proof using Hmem.
    unfold party_offline. intros E Hi Lc Fc Fo Si So. apply bind_Ok in E as ([] & Ech & E). split; [exact Ech|].
    apply bind_Ok in E as ([[[start_ end_] noise] noise_count] & Esm & E).
    apply bind_Ok in E as (ns & Ens & E). apply bind_Ok in E as (cn & Ecn & E). apply bind_Ok in E as (cb & Ecb & E).
    apply bind_Ok in E as (ls1 & El1 & E). apply bind_Ok in E as (ins & Eins & E). apply bind_Ok in E as (o & Eo & E).
    apply bind_Ok in E as (ls & Els & E). apply bind_Ok in E as (queries & Eqs & E). inversion E; subst. clear E.
    unfold collect_ciphers in Ecb. apply bind_Ok in Ecb as (cs' & Er & Ecb). apply recv_inv in Er; [|exact Lc]. subst cs'.
    unfold send_ciphers in Eo. apply (map_as_fold _ _ []) in Eo. cbn [app] in Eo.
    destruct (fo_send_ciphers (X := unit) (est := established) (Fwd k) (mem 1%nat) (party_out_size (pf_parties cf) (pf_party cf)) (fun _ i =>
      let* m := (let* idx := ls_shuffle ls1 i in cb_get_short (fst ins) idx) in
      Ok (m, tt)) _ _ _ _ (Hmem 1%nat) So Eo Fo) as (w1 & w2 & e1 & e2 & F1 & F2 & Q).
    unfold pparty_offline. eapply fo_ext.
    - eapply fo_lift_bind; [exact Esm|]. cbn iota beta. unfold pparty_counts.
      eapply fo_bind.
      { eapply fo_bind; [apply fo_read_count; exact Hi|]. eapply (fo_end _ (fun _ => input)). apply fo_count. }
      eapply fo_lift_bind; [exact Ens|]. eapply fo_lift_bind; [exact Ecn|].
      eapply fo_bind; [apply fo_wait|]. eapply fo_bind; [apply fo_ready|].
      eapply fo_bind; [apply (fo_take_ciphers _ _ _ _ _ cs); [apply Hmem|exact Si|unfold u32 in Hi; lia|exact Lc|exact Fc|exact Ecb]|].
      eapply fo_lift_bind; [exact El1|]. eapply fo_lift_bind; [exact Eins|].
      eapply fo_bind; [exact F1|]. eapply fo_bind; [exact F2|].
      eapply fo_lift_bind; [exact Els|]. eapply fo_lift_bind; [exact Eqs|].
      eapply fo_bind; [apply fo_wait|]. eapply (fo_end _ (fun _ => _)). apply fo_ready.
    - rewrite Q, map_app. fnorm.
  Qed.

  Lemma fo_party_simulate k cf input shuffled rp :
    party_simulate asserts rng cf input = Ok (shuffled, rp) -> u32 input ->
    party_check asserts cf = Ok tt /\
    follows (pparty_simulate asserts rng k cf)
      ((map (Rcv (Fwd (k - 1))) (le 4 input) ++ map (Snd (Fwd k)) (le 4 shuffled)) ++ [] ++
       [Rcv (Bwd k) 1] ++ [Snd (Bwd (k - 1)) 1]) rp.
  Proof.
    unfold party_simulate. intros E Hi. apply bind_Ok in E as ([] & Ech & E). split; [exact Ech|].
    apply bind_Ok in E as ([[[start_ end_] noise] noise_count] & Esm & E).
    apply bind_Ok in E as (ls & Els & E). apply bind_Ok in E as (ns & Ens & E).
    apply bind_Ok in E as (queries & Eqs & E). inversion E; subst. clear E.
    unfold pparty_simulate. eapply fo_ext.
    - eapply fo_lift_bind; [exact Esm|]. cbn iota beta. unfold pparty_counts.
      eapply fo_bind.
      { eapply fo_bind; [apply fo_read_count; exact Hi|]. eapply (fo_end _ (fun _ => input)). apply fo_count. }
      eapply fo_lift_bind; [exact Els|]. eapply fo_lift_bind; [exact Ens|]. eapply fo_lift_bind; [exact Eqs|].
      eapply fo_bind; [apply fo_wait|]. eapply (fo_end _ (fun _ => _)). apply fo_ready.
    - cbn [map]. fnorm.
  Qed.

  Lemma fo_party_online k rp rp' qs qs' resps resps' :
    party_forward rp qs = Ok (rp', qs') -> party_backward rp' resps' = Ok resps ->
    u32 (rp_shuffled rp - rp_noise rp) -> u32 (rp_shuffled rp) ->
    length qs = Z.to_nat (rp_shuffled rp - rp_noise rp) -> Forall wf_query qs ->
    length resps' = Z.to_nat (rp_shuffled rp) -> sized response_size resps' -> sized response_size resps ->
    follows (do rp' <- pparty_forward mem k rp; pparty_backward mem k rp')
      ((map (Rcv (Fwd (k - 1))) (concat (map enc_query qs)) ++ map (Snd (Fwd k)) (concat (map enc_query qs'))) ++
       map (Rcv (Bwd k)) (concat resps') ++ map (Snd (Bwd (k - 1))) (concat resps)) tt.
  Proof using Hmem.
    intros Ef Eb U1 U2 Lq Wq Lr Wr Wr'.
    unfold party_forward in Ef. apply bind_Ok in Ef as (ins & Ei & Ef). apply recv_inv in Ei; [|exact Lq]. subst ins.
    apply bind_Ok in Ef as ([[[read p] tags] qb] & Es & Ef). inversion Ef; subst. clear Ef.
    unfold party_backward in Eb. cbn [rp_shuffled rp_shuffler rp_noise rp_input rp_state rp_tags] in Eb.
    apply bind_Ok in Eb as (ins & Ei & Eb). apply recv_inv in Ei; [|exact Lr]. subst ins.
    apply bind_Ok in Eb as (r & Er & Eb). inversion Eb; subst. clear Eb.
    eapply fo_bind.
    - destruct (fo_send_messages (X := unit) (est := established) (Fwd k) (mem 3%nat) query_size (fun _ q => Ok (enc_query q, tt)) (bt_all qb) tt _ _
        (Hmem 3%nat) (proj1 message_sizes) (pure_as_fold enc_query (bt_all qb) []) (queries_len _)) as (w1 & w2 & e1 & e2 & F1 & F2 & Q).
      cbn [app] in Q. unfold pparty_forward. eapply fo_bind.
      + apply (fo_take_queries _ _ _ (fun s q =>
          let '(read, p, tags, qs) := s in
          let* tags' := bt_push tags (q_tag q) in
          let* target := ls_shuffle (rp_shuffler rp) read in
          let* h := handle_query p q in
          let* qs' := bt_set qs target (fst h) in
          Ok (S read, snd h, tags', qs')) qs); [apply Hmem|unfold u32 in U1; lia|exact Lq|exact Wq|exact Es].
      + cbn iota beta. rewrite Q, map_app. eapply fo_bind; [exact F1|]. eapply (fo_end _ (fun _ => _)). exact F2.
    - unfold pparty_backward. cbn [rp_shuffled rp_shuffler rp_noise rp_input rp_state rp_tags].
      pose proof (pure_as_fold (fun v => v) (bt_all (snd r)) []) as Ep. rewrite map_id in Ep. cbn [app] in Ep.
      destruct (fo_send_messages (X := unit) (est := established) (Bwd (k - 1)) (mem 5%nat) response_size (fun _ v => Ok (v, tt)) (bt_all (snd r)) tt _ _
        (Hmem 5%nat) (proj2 message_sizes) Ep Wr') as (w1 & w2 & e1 & e2 & F1 & F2 & Q).
      eapply fo_bind; [apply (fo_take_each _ _ _ _ _ resps'); [apply Hmem|apply message_sizes|unfold u32 in U2; lia|exact Lr|exact Wr|exact Er]|].
      rewrite Q, map_app. eapply fo_bind; [exact F1|]. eapply (fo_end _ (fun _ => _)). exact F2.
  Qed.

  Lemma fo_backend_offline k pk sk count cs p : backend_offline b asserts pk sk count cs = Ok p ->
    u32 count -> length cs = Z.to_nat count -> sized backend_in_size cs ->
    follows (pbackend_offline b asserts mem k pk sk)
      (map (Rcv (Fwd (k - 1))) (le 4 count) ++ ([Snd (Bwd (k - 1)) 1] ++ map (Rcv (Fwd (k - 1))) (concat cs)) ++ [Snd (Bwd (k - 1)) 1]) (count, p).
  Proof using Hmem.
    unfold backend_offline. intros E Hc Lc Fc. apply bind_Ok in E as (l & Er & E). apply recv_inv in Er; [|exact Lc]. subst l.
    assert (Sb : (0 < backend_in_size <= BUFFER_SIZE)%nat) by (unfold BUFFER_SIZE; change backend_in_size with 124%nat; lia).
    unfold pbackend_offline. eapply fo_ext.
    - eapply fo_bind; [apply fo_read_count; exact Hc|]. eapply fo_bind; [apply fo_ready|].
      eapply fo_bind; [apply (fo_take_ciphers _ _ _ _ _ cs); [apply Hmem|exact Sb|unfold u32 in Hc; lia|exact Lc|exact Fc|exact E]|].
      eapply (fo_end _ (fun _ => (count, p))). apply fo_ready.
    - fnorm.
  Qed.

  Lemma fo_backend_simulate k count : u32 count ->
    follows (pbackend_simulate k) (map (Rcv (Fwd (k - 1))) (le 4 count) ++ [] ++ [Snd (Bwd (k - 1)) 1]) (count, backend_simulate).
  Proof.
    intros Hc. unfold pbackend_simulate. eapply fo_bind; [apply fo_read_count; exact Hc|].
    eapply (fo_end _ (fun _ => (count, backend_simulate))). apply fo_ready.
  Qed.

  Lemma fo_backend_online k db junk count p qs keys resps :
    backend_online db junk count p qs = Ok (keys, resps) -> u32 count -> length qs = Z.to_nat count -> Forall wf_query qs ->
    sized response_size resps ->
    follows (pbackend_online mem k db junk count p)
      (map (Rcv (Fwd (k - 1))) (concat (map enc_query qs)) ++ map (Snd (Bwd (k - 1))) (concat resps)) keys.
  Proof using Hmem.
    unfold backend_online. intros E Hc Lq Wq Wr. apply bind_Ok in E as (l & Er & E). apply recv_inv in Er; [|exact Lq]. subst l.
    apply bind_Ok in E as (bt & Ebt & E). apply bind_Ok in E as ([[keys' resps'] p'] & Ef & E). inversion E; subst. clear E.
    apply backend_as_fold in Ef.
    destruct (fo_send_messages (X := unit) (est := established) (Bwd (k - 1)) (mem 2%nat) response_size (fun s q =>
      let* h := backend_handle_query db junk (snd s) q in
      let '(key, resp, p') := h in
      Ok (resp, (fst s ++ [key], p'))) _ _ _ _ (Hmem 2%nat) (proj2 message_sizes) Ef Wr) as (w1 & w2 & e1 & e2 & F1 & F2 & Q).
    unfold pbackend_online. eapply fo_bind.
    - apply (fo_take_queries _ _ _ bt_push qs); [apply Hmem|unfold u32 in Hc; lia|exact Lq|exact Wq|exact Ebt].
    - rewrite Q, map_app. eapply fo_bind; [exact F1|]. eapply (fo_end _ (fun _ => keys)). exact F2.
  Qed.
End Entities.

(** ** Whole deployments *)
Definition goal (parties : nat) (result : list response) (keys : list Z) (p : nat) : ending :=
  match p with O => ClientEnd result | S j => if (j =? parties)%nat then BackendEnd keys else PartyEnd end.

Section Assemble.
  Context (b : sealbox) (asserts : bool) (rng : rng_t) (offline online : bool) (mem : nat -> nat -> list Z) (db : list response) (junk : list Z)
    (c : client) (parties : list pconf) (bpk bsk : list Z) (d : ldata).
  Let P := length parties.
  Context (st : cstate) (rps : nat -> ready) (count : Z) (bp : qstate) (result : list response) (keys : list Z).
  Hypothesis Hc : follows (if offline then pclient_offline b asserts 0 (mem 0%nat) (S P) c else pclient_simulate asserts (S P) c)
    (map (Snd (Fwd 0)) (le 4 (ld_count d 0)) ++
     (if offline then [Rcv (Bwd 0) 1] ++ map (Snd (Fwd 0)) (ld_cipher d 0) else []) ++ [Rcv (Bwd 0) 1]) st.
  Hypothesis Hp : forall j cf, nth_error parties j = Some cf ->
    party_check asserts cf = Ok tt /\
    follows (if offline then pparty_offline b asserts rng (mem (S j)) (S j) cf else pparty_simulate asserts rng (S j) cf)
    ((map (Rcv (Fwd j)) (le 4 (ld_count d j)) ++ map (Snd (Fwd (S j))) (le 4 (ld_count d (S j)))) ++
     (if offline then [Rcv (Bwd (S j)) 1] ++ [Snd (Bwd j) 1] ++ map (Rcv (Fwd j)) (ld_cipher d j) ++ map (Snd (Fwd (S j))) (ld_cipher d (S j))
      else []) ++ [Rcv (Bwd (S j)) 1] ++ [Snd (Bwd j) 1]) (rps j).
  Hypothesis Hb : follows (if offline then pbackend_offline b asserts (mem (S P)) (S P) bpk bsk else pbackend_simulate (S P))
    (map (Rcv (Fwd P)) (le 4 (ld_count d P)) ++
     (if offline then [Snd (Bwd P) 1] ++ map (Rcv (Fwd P)) (ld_cipher d P) else []) ++ [Snd (Bwd P) 1]) (count, bp).
  Hypothesis Honc : online = true -> follows (pclient_online asserts (mem 0%nat) db c st)
    (map (Snd (Fwd 0)) (ld_query d 0) ++ map (Rcv (Bwd 0)) (ld_response d 0)) result.
  Hypothesis Honp : online = true -> forall j, (j < P)%nat ->
    follows (do rp' <- pparty_forward (mem (S j)) (S j) (rps j); pparty_backward (mem (S j)) (S j) rp')
      ((map (Rcv (Fwd j)) (ld_query d j) ++ map (Snd (Fwd (S j))) (ld_query d (S j))) ++
       map (Rcv (Bwd (S j))) (ld_response d (S j)) ++ map (Snd (Bwd j)) (ld_response d j)) tt.
  Hypothesis Honb : online = true -> follows (pbackend_online (mem (S P)) (S P) db junk count bp)
    (map (Rcv (Fwd P)) (ld_query d P) ++ map (Snd (Bwd P)) (ld_response d P)) keys.
  Hypothesis Hoff : online = false -> result = [] /\ keys = [].

  Lemma assemble p : follows (entity b asserts rng offline online mem db junk c parties bpk bsk p)
    (dprog P d offline online p) (goal P result keys p).
  Proof using All.
    unfold entity, dprog, goal. fold P. destruct p as [|j].
    - cbn [Nat.eqb]. unfold pclient, dclient. eapply fo_bind; [apply fo_connect|]. eapply fo_bind; [exact Hc|].
      apply (fo_end _ ClientEnd). destruct online; [apply Honc; reflexivity|]. destruct (Hoff eq_refl) as [-> _]. constructor.
    - cbn [Nat.eqb]. destruct (nth_error parties j) as [cf|] eqn:Ej.
      + assert (Hj : (j < P)%nat) by (apply nth_error_Some; congruence).
        rewrite (proj2 (Nat.leb_le (S j) P)) by lia. rewrite (proj2 (Nat.eqb_neq j P)) by lia.
        destruct (Hp j cf Ej) as [Ec Fo]. unfold pparty, dparty. replace (S j - 1)%nat with j by lia.
        eapply fo_lift_bind; [exact Ec|]. eapply fo_bind; [apply fo_listen|]. eapply fo_bind; [apply fo_connect|].
        eapply fo_bind; [exact Fo|]. apply (fo_end _ (fun _ => PartyEnd)) with (a := tt).
        destruct online; [apply Honp; [reflexivity|exact Hj]|constructor].
      + assert (Hj : (P <= j)%nat) by (apply nth_error_None; exact Ej).
        replace (S j <=? P)%nat with false by (symmetry; apply Nat.leb_gt; lia).
        change (S j =? S P)%nat with (j =? P)%nat. destruct (Nat.eqb_spec j P) as [->|Hne]; [|constructor].
        unfold pbackend, dbackend. replace (S P - 1)%nat with P by lia.
        eapply fo_bind; [apply fo_listen|]. eapply fo_bind; [exact Hb|]. cbn [fst snd].
        apply (fo_end _ BackendEnd). destruct online; [apply Honb; reflexivity|]. destruct (Hoff eq_refl) as [_ ->]. constructor.
  Qed.
End Assemble.

(** ** Inverting runs *)
Lemma offline_chain_inv b asserts rng bpk bsk : forall parties count cs links states p,
  offline_chain b asserts rng parties bpk bsk count cs = Ok (links, states, p) ->
  length links = S (length parties) /\ length states = length parties /\ nth_error links 0 = Some (count, cs) /\
  (forall j cf, nth_error parties j = Some cf -> exists n x n' x' rp,
     nth_error links j = Some (n, x) /\ nth_error links (S j) = Some (n', x') /\ nth_error states j = Some rp /\
     party_offline b asserts rng cf n x = Ok (n', x', rp)) /\
  exists n x, nth_error links (length parties) = Some (n, x) /\ backend_offline b asserts bpk bsk n x = Ok p.
Proof.
  induction parties as [|cf parties IH]; intros count cs links states p E; cbn [offline_chain] in E.
  - apply bind_Ok in E as (p0 & Ep & E). inversion E; subst. cbn. repeat split; auto.
    + intros [|j] cf N; discriminate.
    + exists count, cs. auto.
  - apply bind_Ok in E as ([[n' x'] rp] & Ep & E). apply bind_Ok in E as ([[links' states'] p'] & Er & E). inversion E; subst. clear E.
    apply IH in Er as (L1 & L2 & N0 & H & n & x & Nl & Eb). cbn [length]. split; [lia|]. split; [lia|]. split; [reflexivity|]. split.
    + intros [|j] cf' N; cbn [nth_error] in *.
      * inversion N; subst. exists count, cs, n', x', rp. auto.
      * exact (H j cf' N).
    + exists n, x. auto.
Qed.

Lemma simulate_chain_inv asserts rng : forall parties count counts states p,
  simulate_chain asserts rng parties count = Ok (counts, states, p) ->
  length counts = S (length parties) /\ length states = length parties /\ nth_error counts 0 = Some count /\ p = backend_simulate /\
  (forall j cf, nth_error parties j = Some cf -> exists n n' rp,
     nth_error counts j = Some n /\ nth_error counts (S j) = Some n' /\ nth_error states j = Some rp /\
     party_simulate asserts rng cf n = Ok (n', rp)).
Proof.
  induction parties as [|cf parties IH]; intros count counts states p E; cbn [simulate_chain] in E.
  - inversion E; subst. cbn. repeat split; auto. intros [|j] cf N; discriminate.
  - apply bind_Ok in E as ([n' rp] & Ep & E). apply bind_Ok in E as ([[counts' states'] p'] & Er & E). inversion E; subst. clear E.
    cbn [fst snd] in *.
    apply IH in Er as (L1 & L2 & N0 & -> & H). cbn [length]. split; [lia|]. split; [lia|]. split; [reflexivity|]. split; [reflexivity|].
    intros [|j] cf' N; cbn [nth_error] in *.
    + inversion N; subst. exists count, n', rp. auto.
    + exact (H j cf' N).
Qed.

Lemma online_chain_inv db junk bcount p : forall states qs links keys,
  online_chain states db junk bcount p qs = Ok (links, keys) ->
  length links = S (length states) /\ (exists r, nth_error links 0 = Some (qs, r)) /\
  (forall j rp, nth_error states j = Some rp -> exists q r q' r' rp',
     nth_error links j = Some (q, r) /\ nth_error links (S j) = Some (q', r') /\
     party_forward rp q = Ok (rp', q') /\ party_backward rp' r' = Ok r) /\
  exists q r, nth_error links (length states) = Some (q, r) /\ backend_online db junk bcount p q = Ok (keys, r).
Proof.
  induction states as [|rp states IH]; intros qs links keys E; cbn [online_chain] in E.
  - apply bind_Ok in E as ([k r] & Ep & E). inversion E; subst. cbn. repeat split.
    + exists r. reflexivity.
    + intros [|j] rp N; discriminate.
    + exists qs, r. auto.
  - apply bind_Ok in E as ([rp' q'] & Ef & E). apply bind_Ok in E as ([links' keys'] & Er & E). cbn [fst snd] in *.
    apply bind_Ok in E as (resps & Eb & E). inversion E; subst. clear E.
    apply IH in Er as (L & (r0 & N0) & H & B). cbn [length]. split; [lia|]. split; [exists resps; reflexivity|]. split.
    + intros [|j] rp0 N; cbn [nth_error] in *.
      * inversion N; subst. destruct links' as [|[q1 r1] links']; [discriminate|]. inversion N0; subst.
        exists qs, resps, q', r0, rp'. auto.
      * exact (H j rp0 N).
    + exact B.
Qed.

(** The counts a party derives. *)
Lemma noise_loop_u32 cf : forall m i b0 s0 (r : batch Z * Z),
  for_ m i (fun i s => let sample := pf_samples cf i in let* n := bt_push (fst s) sample in Ok (n, w32 (snd s + sample))) (b0, s0) = Ok r ->
  u32 s0 -> u32 (snd r).
Proof.
  induction m as [|m IH]; intros i b0 s0 r E H0; cbn [for_] in E.
  - inversion E; subst. exact H0.
  - apply bind_Ok in E as ([b1 s1] & E1 & E). cbn [fst snd] in E1. apply bind_Ok in E1 as (b2 & _ & E1). inversion E1; subst.
    apply IH in E; [exact E|]. unfold u32, w32. dlia.
Qed.
Lemma noise_count_u32 asserts cf st e ns n : noise_samples asserts cf = Ok (st, e, ns, n) -> u32 n.
Proof.
  unfold noise_samples. intros E. apply bind_Ok in E as (se & _ & E). apply bind_Ok in E as ([bt x] & Ef & E). inversion E; subst. clear E.
  cbn [snd]. apply (noise_loop_u32 cf _ _ _ _ _ Ef). unfold u32. lia.
Qed.
Lemma party_offline_counts b asserts rng cf input cs n' out rp : party_offline b asserts rng cf input cs = Ok (n', out, rp) ->
  rp_shuffled rp = n' /\ u32 (rp_noise rp) /\ n' = w32 (input + rp_noise rp).
Proof.
  unfold party_offline. intros E. apply bind_Ok in E as ([] & Ech & E).
  apply bind_Ok in E as ([[[start_ end_] noise] noise_count] & Esm & E).
  apply bind_Ok in E as (ns & Ens & E). apply bind_Ok in E as (cn & Ecn & E). apply bind_Ok in E as (cb & Ecb & E).
  apply bind_Ok in E as (ls1 & El1 & E). apply bind_Ok in E as (ins & Eins & E). apply bind_Ok in E as (o & Eo & E).
  apply bind_Ok in E as (ls & Els & E). apply bind_Ok in E as (queries & Eqs & E). inversion E; subst. cbn.
  split; [reflexivity|]. split; [exact (noise_count_u32 _ _ _ _ _ _ Esm)|reflexivity].
Qed.
Lemma party_simulate_counts asserts rng cf input n' rp : party_simulate asserts rng cf input = Ok (n', rp) ->
  rp_shuffled rp = n' /\ u32 (rp_noise rp) /\ n' = w32 (input + rp_noise rp).
Proof.
  unfold party_simulate. intros E. apply bind_Ok in E as ([] & Ech & E).
  apply bind_Ok in E as ([[[start_ end_] noise] noise_count] & Esm & E).
  apply bind_Ok in E as (ls & Els & E). apply bind_Ok in E as (ns & Ens & E).
  apply bind_Ok in E as (queries & Eqs & E). inversion E; subst. cbn.
  split; [reflexivity|]. split; [exact (noise_count_u32 _ _ _ _ _ _ Esm)|reflexivity].
Qed.

(** The bytes that cross the links in a run. *)
Definition data_of (o : outcome) : ldata :=
  {| ld_count := fun j => nth j (oc_counts o) 0; ld_cipher := fun j => concat (nth j (oc_ciphers o) []);
     ld_query := fun j => concat (map enc_query (nth j (oc_queries o) []));
     ld_response := fun j => concat (nth j (oc_responses o) []) |}.

Lemma nth_err {A} (l : list A) j x d : nth_error l j = Some x -> nth j l d = x.
Proof. intros H. apply nth_error_nth. exact H. Qed.

Lemma flat_firstn {A B} (f : A -> list B) : forall j l, (length (flat_map f (firstn j l)) <= length (flat_map f (firstn (S j) l)))%nat.
Proof.
  induction j as [|j IH]; intros [|x l]; try (cbn; lia).
  change (firstn (S (S j)) (x :: l)) with (x :: firstn (S j) l). change (firstn (S j) (x :: l)) with (x :: firstn j l).
  cbn [flat_map]. rewrite !app_length. specialize (IH l). lia.
Qed.

(** Counts and lengths along the chain of a run. *)
Lemma run_lengths db c parties o : run_facts db c parties o ->
  length (oc_queries o) = S (length parties) /\
  oc_counts o = map (fun l => Z.of_nat (length l)) (oc_queries o) /\
  map (fun l => length l) (oc_responses o) = map (fun l => length l) (oc_queries o) /\
  (forall j q q', nth_error (oc_queries o) j = Some q -> nth_error (oc_queries o) (S j) = Some q' -> (length q <= length q')%nat).
Proof.
  intros (_ & _ & levels & [L K] & E1 & E2 & E3). rewrite E1, E2, E3, map_length, !map_map.
  split; [exact L|]. split; [|split].
  - apply map_ext. intros l. rewrite map_length. reflexivity.
  - apply map_ext. intros l. rewrite !map_length. reflexivity.
  - intros j q q' N N'. rewrite nth_error_map in N, N'.
    destruct (nth_error levels j) as [l|] eqn:El; [|discriminate]. destruct (nth_error levels (S j)) as [l'|] eqn:El'; [|discriminate].
    inversion N; inversion N'; subst. rewrite !map_length.
    pose proof (K _ _ El) as P1. pose proof (K _ _ El') as P2. apply Permutation_length in P1, P2.
    rewrite map_length, app_length in P1, P2. rewrite P1, P2. apply Nat.add_le_mono_l.
    apply flat_firstn.
Qed.

(** The steps of the online stage. *)
Lemma online_follows asserts mem db junk c parties states st cq st' bcount bp onl keys result o :
  (forall p i, length (mem p i) = BUFFER_SIZE) ->
  run_facts db c parties o -> wire_facts o -> length states = length parties ->
  client_queries st (ct_keys c) = Ok (cq, st') ->
  online_chain states db junk bcount bp cq = Ok (onl, keys) ->
  client_responses asserts db st' (ct_keys c) (match onl with (_, x) :: _ => x | [] => [] end) = Ok result ->
  oc_queries o = map fst onl -> oc_responses o = map snd onl -> bcount = last (oc_counts o) 0 ->
  hd 0 (oc_counts o) = Z.of_nat (length (ct_keys c)) ->
  (forall j rp n n', nth_error states j = Some rp -> nth_error (oc_counts o) j = Some n -> nth_error (oc_counts o) (S j) = Some n' ->
     rp_shuffled rp = n' /\ u32 (rp_noise rp) /\ n' = w32 (n + rp_noise rp)) ->
  let d := data_of o in
  follows (pclient_online asserts (mem 0%nat) db c st) (map (Snd (Fwd 0)) (ld_query d 0) ++ map (Rcv (Bwd 0)) (ld_response d 0)) result /\
  (forall j rp, nth_error states j = Some rp ->
    follows (do rp' <- pparty_forward (mem (S j)) (S j) rp; pparty_backward (mem (S j)) (S j) rp')
      ((map (Rcv (Fwd j)) (ld_query d j) ++ map (Snd (Fwd (S j))) (ld_query d (S j))) ++
       map (Rcv (Bwd (S j))) (ld_response d (S j)) ++ map (Snd (Bwd j)) (ld_response d j)) tt) /\
  follows (pbackend_online (mem (S (length parties))) (S (length parties)) db junk bcount bp)
    (map (Rcv (Fwd (length parties))) (ld_query d (length parties)) ++ map (Snd (Bwd (length parties))) (ld_response d (length parties))) keys.
Proof.
  intros Hmem RF (WC & WQ & WR) Ls Eq Eo Er OQ OR BC HC Rc d.
  destruct (run_lengths _ _ _ _ RF) as (LQ & LCn & LRs & Mono).
  apply online_chain_inv in Eo as (Lo & (r0 & N0) & Hp & (qb & rb & Nb & Eb)).
  assert (NQ : forall j q r, nth_error onl j = Some (q, r) -> nth_error (oc_queries o) j = Some q)
    by (intros j q r N; rewrite OQ, nth_error_map, N; reflexivity).
  assert (NR : forall j q r, nth_error onl j = Some (q, r) -> nth_error (oc_responses o) j = Some r)
    by (intros j q r N; rewrite OR, nth_error_map, N; reflexivity).
  assert (NC : forall j q r, nth_error onl j = Some (q, r) -> nth_error (oc_counts o) j = Some (Z.of_nat (length q)))
    by (intros j q r N; rewrite LCn, nth_error_map, (NQ _ _ _ N); reflexivity).
  assert (LR : forall j q r, nth_error onl j = Some (q, r) -> length r = length q).
  { intros j q r N. pose proof (f_equal (fun l => nth_error l j) LRs) as E. cbn beta in E.
    rewrite !nth_error_map, (NQ _ _ _ N), (NR _ _ _ N) in E. cbn [option_map] in E. congruence. }
  assert (DQ : forall j q r, nth_error onl j = Some (q, r) -> ld_query d j = concat (map enc_query q)).
  { intros j q r N. cbn [d data_of ld_query]. rewrite (nth_err _ _ _ [] (NQ _ _ _ N)). reflexivity. }
  assert (DR : forall j q r, nth_error onl j = Some (q, r) -> ld_response d j = concat r).
  { intros j q r N. cbn [d data_of ld_response]. rewrite (nth_err _ _ _ [] (NR _ _ _ N)). reflexivity. }
  assert (WFQ : forall j q r, nth_error onl j = Some (q, r) -> Forall wf_query q).
  { intros j q r N. rewrite Forall_forall in WQ. apply WQ. eapply nth_error_In. exact (NQ _ _ _ N). }
  assert (WFR : forall j q r, nth_error onl j = Some (q, r) -> Forall (fun m => length m = response_size) r).
  { intros j q r N. rewrite Forall_forall in WR. specialize (WR r (nth_error_In _ _ (NR _ _ _ N))).
    eapply Forall_impl; [|exact WR]. intros m [Hm _]. exact Hm. }
  assert (CU : forall j q r, nth_error onl j = Some (q, r) -> u32 (Z.of_nat (length q))).
  { intros j q r N. rewrite Forall_forall in WC. apply WC. eapply nth_error_In. exact (NC _ _ _ N). }
  split; [|split].
  - rewrite (DQ _ _ _ N0), (DR _ _ _ N0). eapply fo_client_online; [apply Hmem|exact Eq| | | |exact (WFR _ _ _ N0)].
    + destruct onl as [|[q1 r1] onl]; [discriminate|]. inversion N0; subst. exact Er.
    + pose proof (NC _ _ _ N0) as E. pose proof (CU _ _ _ N0) as U. destruct (oc_counts o) as [|n l]; [discriminate|].
      inversion E; subst. cbn [hd] in HC. unfold u32 in U. lia.
    + rewrite (LR _ _ _ N0). pose proof (NC _ _ _ N0) as E. destruct (oc_counts o) as [|n l]; [discriminate|].
      inversion E; subst. cbn [hd] in HC. lia.
  - intros j rp N. destruct (Hp j rp N) as (q & r & q' & r' & rp' & N1 & N2 & Ef & Ebk).
    destruct (Rc j rp _ _ N (NC _ _ _ N1) (NC _ _ _ N2)) as (Sh & Hn & Hw).
    pose proof (Mono j q q' (NQ _ _ _ N1) (NQ _ _ _ N2)) as Hm. pose proof (CU _ _ _ N1) as U1. pose proof (CU _ _ _ N2) as U2.
    assert (En : Z.of_nat (length q') = Z.of_nat (length q) + rp_noise rp).
    { clear - Sh Hn Hw Hm U1 U2. unfold u32, w32 in *. dlia. }
    rewrite (DQ _ _ _ N1), (DQ _ _ _ N2), (DR _ _ _ N1), (DR _ _ _ N2).
    pose proof (fo_party_online (mem (S j)) (Hmem (S j)) (S j) rp rp' q q' r r' Ef Ebk) as F. replace (S j - 1)%nat with j in F by lia. apply F.
    + rewrite Sh, En. replace (Z.of_nat (length q) + rp_noise rp - rp_noise rp) with (Z.of_nat (length q)) by lia. exact U1.
    + rewrite Sh. exact U2.
    + rewrite Sh. lia.
    + exact (WFQ _ _ _ N1).
    + rewrite Sh, Nat2Z.id. exact (LR _ _ _ N2).
    + exact (WFR _ _ _ N2).
    + exact (WFR _ _ _ N1).
  - rewrite <- Ls in *. rewrite (DQ _ _ _ Nb), (DR _ _ _ Nb).
    pose proof (fo_backend_online (mem (S (length states))) (Hmem _) (S (length states)) db junk bcount bp qb keys rb Eb) as F.
    replace (S (length states) - 1)%nat with (length states) in F by lia.
    assert (El : last (oc_counts o) 0 = Z.of_nat (length qb)); [|rewrite BC, El in F; rewrite BC, El; apply F].
    + assert (E : last (oc_counts o) 0 = Z.of_nat (length qb)).
      { assert (Hne : oc_counts o <> []) by (intros E0; rewrite LCn in E0; destruct (oc_queries o); [discriminate LQ|discriminate E0]).
        pose proof (last_nth_error (oc_counts o) 0 Hne) as E. rewrite LCn in E at 2. rewrite map_length, LQ in E.
        replace (S (length states) - 1)%nat with (length states) in E by lia. rewrite (NC _ _ _ Nb) in E. inversion E. reflexivity. }
      exact E.
    + exact (CU _ _ _ Nb).
    + rewrite Nat2Z.id. reflexivity.
    + exact (WFQ _ _ _ Nb).
    + exact (WFR _ _ _ Nb).
Qed.

Definition party_at (states : list ready) (j : nat) : ready :=
  nth j states {| rp_noise := 0; rp_input := 0; rp_shuffled := 0; rp_state := qs_new; rp_shuffler := {| ls_forward := []; ls_backward := [] |};
                  rp_tags := bt_initialize 0 0; rp_queries := bt_initialize zero_query 0 |}.

Lemma real_follows b rng online mem db junk c parties keys bpk bsk :
  (forall p i, length (mem p i) = BUFFER_SIZE) ->
  deployment rng db c parties keys -> keyed b db c parties keys bpk bsk -> bytes 52 junk ->
  exists o, Chain.run b true rng db junk c parties bpk bsk = Ok o /\ run_facts db c parties o /\ wire_facts o /\
    forall p, follows (entity b true rng true online mem db junk c parties bpk bsk p) (dprog (length parties) (data_of o) true online p)
      (goal (length parties) (if online then oc_result o else []) (if online then oc_keys o else []) p).
Proof.
  intros Hmem D K J. destruct (run_full b rng db junk c parties keys bpk bsk D K J) as (o & E & RF & _ & LC & WF & CK).
  exists o. split; [exact E|]. split; [exact RF|]. split; [exact WF|].
  pose proof (dp_count _ _ _ _ _ D) as Hc. pose proof (dp_max _ _ _ _ _ D) as H255.
  destruct (run_lengths _ _ _ _ RF) as (LQ & LCn & LRs & Mono).
  unfold Chain.run in E. apply bind_Ok in E as ([cs st] & Eoff & E). apply bind_Ok in E as ([[links states] bp] & Ech & E). cbn [fst snd] in *.
  apply bind_Ok in E as ([cq st'] & Eq & E). apply bind_Ok in E as ([onl ks] & Eo & E). cbn [fst snd] in *.
  apply bind_Ok in E as (result & Er & E). inversion E as [Eout]. clear E. subst o.
  cbn [oc_counts oc_ciphers oc_queries oc_responses oc_keys oc_result] in *.
  destruct (offline_chain_inv _ _ _ _ _ _ _ _ _ _ _ Ech) as (Ll & Ls & N0 & Hp & n & x & Nb & Eb).
  set (o := {| oc_counts := map fst links; oc_ciphers := map snd links; oc_queries := map fst onl; oc_responses := map snd onl;
               oc_keys := ks; oc_result := result |}) in *.
  set (d := data_of o).
  assert (DC : forall j n x, nth_error links j = Some (n, x) -> ld_count d j = n).
  { intros j n0 x0 N. cbn [d data_of ld_count o oc_counts]. apply nth_err. rewrite nth_error_map, N. reflexivity. }
  assert (DX : forall j n x, nth_error links j = Some (n, x) -> ld_cipher d j = concat x).
  { intros j n0 x0 N. cbn [d data_of ld_cipher o oc_ciphers]. f_equal. apply nth_err. rewrite nth_error_map, N. reflexivity. }
  assert (CU : forall j n x, nth_error links j = Some (n, x) -> u32 n).
  { intros j n0 x0 N. destruct WF as (WC & _). rewrite Forall_forall in WC. apply WC. cbn [o oc_counts].
    change n0 with (fst (n0, x0)). apply in_map. eapply nth_error_In. exact N. }
  assert (CL : forall j n x, nth_error links j = Some (n, x) -> length x = Z.to_nat n).
  { intros j n0 x0 N. pose proof (f_equal (fun l => nth_error l j) LC) as E1. pose proof (f_equal (fun l => nth_error l j) LCn) as E2.
    cbn beta in E1, E2. repeat rewrite nth_error_map in E1. repeat rewrite nth_error_map in E2. rewrite N in E1, E2.
    destruct (nth_error onl j) as [y|]; [|discriminate]. cbn [option_map fst snd] in E1, E2. inversion E1 as [F1]. inversion E2 as [F2]. lia. }
  assert (CS : forall j n x, nth_error links j = Some (n, x) -> Forall (fun m => length m = (124 * (length keys - j))%nat) x).
  { intros j n0 x0 N. apply (CK j). rewrite nth_error_map, N. reflexivity. }
  pose proof (online_follows true mem db junk c parties states st cq st' _ bp onl ks result o Hmem RF WF Ls Eq Eo Er eq_refl eq_refl eq_refl) as ON.
  destruct ON as (O1 & O2 & O3).
  { cbn [o oc_counts]. destruct links as [|l links]; [discriminate|]. inversion N0; subst. reflexivity. }
  { intros j rp n1 n2 Nrp N1 N2. cbn [o oc_counts] in N1, N2.
    assert (Hj : (j < length parties)%nat) by (rewrite <- Ls; apply nth_error_Some; congruence).
    destruct (nth_error parties j) as [cf|] eqn:Ecf; [|apply nth_error_None in Ecf; lia].
    destruct (Hp j cf Ecf) as (a1 & x1 & a2 & x2 & rp' & M1 & M2 & M3 & Ep). rewrite nth_error_map, M1 in N1. rewrite nth_error_map, M2 in N2.
    inversion N1; inversion N2; subst. rewrite M3 in Nrp. inversion Nrp; subst. exact (party_offline_counts _ _ _ _ _ _ _ _ _ Ep). }
  intros p.
  apply (assemble b true rng true online mem db junk c parties bpk bsk d st (party_at states) (last (map fst links) 0) bp).
  - rewrite (DC _ _ _ N0), (DX _ _ _ N0). 
    destruct (SharingProofs.c11 (length keys) 0) as (A1 & A2 & _); [lia|lia|]. rewrite A2, <- Hc in A1.
    apply fo_client_offline; [apply Hmem|exact Eoff| |rewrite A1; unfold BUFFER_SIZE; lia].
    eapply Forall_impl; [|exact (CS _ _ _ N0)]. intros m Hm. cbn beta in Hm. rewrite Hm, A1, Hc. reflexivity.
  - intros j cf N. destruct (Hp j cf N) as (a1 & x1 & a2 & x2 & rp & M1 & M2 & M3 & Ep).
    assert (Hj : (j < length parties)%nat) by (apply nth_error_Some; congruence).
    pose proof (dp_parties _ _ _ _ _ D j cf N) as G. rewrite (DC _ _ _ M1), (DC _ _ _ M2), (DX _ _ _ M1), (DX _ _ _ M2).
    unfold party_at. rewrite (nth_err _ _ _ _ M3).
    destruct (SharingProofs.c11 (length keys) j) as (_ & A2 & A3 & _); [lia|lia|].
    destruct (fo_party_offline b true rng (mem (S j)) (Hmem (S j)) (S j) cf a1 x1 a2 x2 rp Ep (CU _ _ _ M1) (CL _ _ _ M1)) as [F1 F2].
    + rewrite (gp_party _ _ _ _ _ G), (gp_parties _ _ _ _ _ G), A2. exact (CS _ _ _ M1).
    + rewrite (gp_party _ _ _ _ _ G), (gp_parties _ _ _ _ _ G). eapply Forall_impl; [|exact (CS _ _ _ M2)]. intros m Hm. cbn beta in Hm. lia.
    + rewrite (gp_party _ _ _ _ _ G), (gp_parties _ _ _ _ _ G), A2. unfold BUFFER_SIZE. lia.
    + rewrite (gp_party _ _ _ _ _ G), (gp_parties _ _ _ _ _ G). unfold BUFFER_SIZE. lia.
    + replace (S j - 1)%nat with j in F2 by lia. split; [exact F1|exact F2].
  - rewrite (DC _ _ _ Nb), (DX _ _ _ Nb).
    assert (El : last (map fst links) 0 = n).
    { assert (Hne : map fst links <> []) by (destruct links; [discriminate|discriminate]).
      pose proof (last_nth_error (map fst links) 0 Hne) as E. rewrite map_length, Ll in E.
      replace (S (length parties) - 1)%nat with (length parties) in E by lia. rewrite nth_error_map, Nb in E. inversion E. reflexivity. }
    rewrite El. pose proof (fo_backend_offline b true (mem (S (length parties))) (Hmem _) (S (length parties)) bpk bsk n x bp Eb (CU _ _ _ Nb) (CL _ _ _ Nb)) as F.
    replace (S (length parties) - 1)%nat with (length parties) in F by lia. apply F.
    eapply Forall_impl; [|exact (CS _ _ _ Nb)]. intros m Hm. cbn beta in Hm. rewrite Hm. replace (length keys - length parties)%nat with 1%nat by lia. reflexivity.
  - intros ->. exact O1.
  - intros -> j Hj. apply O2. unfold party_at. apply nth_error_nth'. lia.
  - intros ->. exact O3.
  - intros ->. split; reflexivity.
Qed.

Lemma simulated_follows b rng mem db junk c parties keys bpk bsk :
  (forall p i, length (mem p i) = BUFFER_SIZE) ->
  deployment rng db c parties keys -> bytes 52 junk ->
  exists o, run_simulated true rng db junk c parties = Ok o /\ run_facts db c parties o /\ wire_facts o /\
    forall p, follows (entity b true rng false true mem db junk c parties bpk bsk p) (dprog (length parties) (data_of o) false true p)
      (goal (length parties) (oc_result o) (oc_keys o) p).
Proof.
  intros Hmem D J. destruct (run_simulated_full rng db junk c parties keys D J) as (o & E & RF & WF).
  exists o. split; [exact E|]. split; [exact RF|]. split; [exact WF|].
  pose proof (dp_count _ _ _ _ _ D) as Hc.
  unfold run_simulated in E. apply bind_Ok in E as (st & Eoff & E). apply bind_Ok in E as ([[counts states] bp] & Ech & E). cbn [fst snd] in *.
  apply bind_Ok in E as ([cq st'] & Eq & E). apply bind_Ok in E as ([onl ks] & Eo & E). cbn [fst snd] in *.
  apply bind_Ok in E as (result & Er & E). inversion E as [Eout]. clear E. subst o.
  cbn [oc_counts oc_ciphers oc_queries oc_responses oc_keys oc_result] in *.
  destruct (simulate_chain_inv _ _ _ _ _ _ _ Ech) as (Ll & Ls & N0 & -> & Hp).
  set (o := {| oc_counts := counts; oc_ciphers := []; oc_queries := map fst onl; oc_responses := map snd onl;
               oc_keys := ks; oc_result := result |}) in *.
  set (d := data_of o).
  assert (DC : forall j n, nth_error counts j = Some n -> ld_count d j = n).
  { intros j n0 N. cbn [d data_of ld_count o oc_counts]. apply nth_err. exact N. }
  assert (CU : forall j n, nth_error counts j = Some n -> u32 n).
  { intros j n0 N. destruct WF as (WC & _). rewrite Forall_forall in WC. apply WC. eapply nth_error_In. exact N. }
  pose proof (online_follows true mem db junk c parties states st cq st' _ backend_simulate onl ks result o Hmem RF WF Ls Eq Eo Er eq_refl eq_refl eq_refl) as ON.
  destruct ON as (O1 & O2 & O3).
  { cbn [o oc_counts]. destruct counts as [|l counts]; [discriminate|]. inversion N0; subst. reflexivity. }
  { intros j rp n1 n2 Nrp N1 N2. cbn [o oc_counts] in N1, N2.
    assert (Hj : (j < length parties)%nat) by (rewrite <- Ls; apply nth_error_Some; congruence).
    destruct (nth_error parties j) as [cf|] eqn:Ecf; [|apply nth_error_None in Ecf; lia].
    destruct (Hp j cf Ecf) as (a1 & a2 & rp' & M1 & M2 & M3 & Ep). rewrite M1 in N1. rewrite M2 in N2.
    inversion N1; inversion N2; subst. rewrite M3 in Nrp. inversion Nrp; subst. exact (party_simulate_counts _ _ _ _ _ _ Ep). }
  intros p.
  apply (assemble b true rng false true mem db junk c parties bpk bsk d st (party_at states) (last counts 0) backend_simulate).
  - rewrite (DC _ _ N0). apply fo_client_simulate. exact Eoff.
  - intros j cf N. destruct (Hp j cf N) as (a1 & a2 & rp & M1 & M2 & M3 & Ep).
    rewrite (DC _ _ M1), (DC _ _ M2). unfold party_at. rewrite (nth_err _ _ _ _ M3).
    destruct (fo_party_simulate true rng (S j) cf a1 a2 rp Ep (CU _ _ M1)) as [F1 F2].
    replace (S j - 1)%nat with j in F2 by lia. split; [exact F1|exact F2].
  - assert (Hne : counts <> []) by (destruct counts; discriminate).
    pose proof (last_nth_error counts 0 Hne) as E. rewrite Ll in E.
    replace (S (length parties) - 1)%nat with (length parties) in E by lia. rewrite (DC _ _ E).
    pose proof (fo_backend_simulate (S (length parties)) (last counts 0) (CU _ _ E)) as F.
    replace (S (length parties) - 1)%nat with (length parties) in F by lia. exact F.
  - intros _. exact O1.
  - intros _ j Hj. apply O2. unfold party_at. apply nth_error_nth'. lia.
  - intros _. exact O3.
  - discriminate.
Qed.
