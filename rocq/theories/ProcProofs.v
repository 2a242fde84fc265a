(** Processes that follow a choreography: every schedule leads to the same end. *)
From Verif Require Import Base BaseProofs CipherBatchProofs Net NetProofs NetChain Lts Stream StreamProofs Procs.

Notation dact := (act chan Z unit).
Notation dev := (@ev chan Z unit).

(** The process reads from c again and again without getting a byte, and never
    does anything else. *)
Inductive starved {C A} (c : C) : proc C A -> Prop :=
| sv_spin : starved c (Crash Spinning)
| sv_read : forall n k, starved c (k []) -> starved c (Read c n k).
Lemma sv_bind {C A B} (c : C) (p : proc C A) (f : A -> proc C B) : starved c p -> starved c (pbind p f).
Proof. induction 1; cbn [pbind]; constructor. assumption. Qed.

Lemma sv_assoc {C X Y W} (c : C) (p : proc C X) (g : X -> proc C Y) (h : Y -> proc C W) :
  starved c (pbind p (fun x => pbind (g x) h)) -> starved c (pbind (pbind p g) h).
Proof.
  induction p as [a|w|c0 b0 k IH|c0 n0 k IH|b0 l0 k IH]; cbn [pbind]; intros H; try exact H.
  - inversion H.
  - inversion H; subst. constructor. apply IH. assumption.
  - inversion H.
Qed.

Lemma sv_sys_read {C A} (c : C) n (f : list Z -> proc C A) : (0 < n)%nat -> starved c (f []) -> starved c (pbind (psys_read c n) f).
Proof. intros Hn H. unfold psys_read. destruct n as [|n]; [lia|]. cbn [pbind]. constructor. exact H. Qed.
Lemma wr_nil m off : (off <= length m)%nat -> wr m off [] = Ok m.
Proof. intros H. unfold wr. cbn [length app]. rewrite Nat.add_0_r, firstn_skipn, (proj2 (Nat.leb_le _ _)) by lia. reflexivity. Qed.
Lemma sv_pread {C} (c : C) off size : forall fuel m bytes, (off + size <= length m)%nat -> (bytes < size)%nat ->
  starved c (pread fuel c m off bytes size).
Proof.
  induction fuel as [|f IH]; intros m bytes Hm Hb; cbn [pread]; rewrite (proj2 (Nat.ltb_lt bytes size)) by lia; [constructor|].
  apply sv_sys_read; [lia|]. rewrite wr_nil by lia. cbn [lift pbind length]. rewrite Nat.add_0_r. apply IH; assumption.
Qed.

(** [follows p l a]: however the kernel splits the transfers, p sends and
    receives exactly the bytes l, in this order, and returns a; if the stream it
    reads ends it keeps reading. *)
Inductive follows_on {C X A} (est : C -> bool) : proc C A -> list (act C Z X) -> A -> Prop :=
| fo_ret : forall a, follows_on est (Ret a) [] a
| fo_write : forall c bs k l a, bs <> [] ->
    (forall n, (1 <= n <= length bs)%nat -> follows_on est (k n) (map (Snd c) (skipn n bs) ++ l) a) ->
    follows_on est (Write c bs k) (map (Snd c) bs ++ l) a
| fo_read : forall c n bs k l a, (1 <= n <= length bs)%nat -> (est c = true -> starved c (k [])) ->
    (forall m, (1 <= m <= n)%nat -> follows_on est (k (firstn m bs)) (map (Rcv c) (skipn m bs) ++ l) a) ->
    follows_on est (Read c n k) (map (Rcv c) bs ++ l) a.

Section Rules.
  Context {C X : Type} {est : C -> bool}.
  Implicit Types (c : C) (l : list (act C Z X)).
  Local Notation fol := (@follows_on C X _ est).


Lemma fo_ext {A} (p : proc C A) l l' a : fol p l a -> l = l' -> fol p l' a.
Proof. intros H <-. exact H. Qed.
Lemma fo_bind {A B} (p : proc C A) (f : A -> proc C B) l1 a l2 y :
  fol p l1 a -> fol (f a) l2 y -> fol (pbind p f) (l1 ++ l2) y.
Proof.
  intros F1 Hf. induction F1 as [a|c bs k l a Hb Hk IH|c n bs k l a Hb Hs Hk IH]; cbn [pbind app]; [exact Hf| |]; rewrite <- app_assoc.
  - constructor; [exact Hb|]. intros n Hn. rewrite app_assoc. apply IH; assumption.
  - constructor; [exact Hb|intros He; apply sv_bind; auto|]. intros m Hm. rewrite app_assoc. apply IH; assumption.
Qed.
Lemma fo_lift {A} (r : res A) a : r = Ok a -> fol (lift r) [] a.
Proof. intros ->. constructor. Qed.
Lemma fo_lift_bind {A B} (r : res A) a (f : A -> proc C B) l y : r = Ok a -> fol (f a) l y -> fol (pbind (lift r) f) l y.
Proof. intros -> H. exact H. Qed.
Lemma fo_end {A B} (p : proc C A) (f : A -> B) l a : fol p l a -> fol (do x <- p; Ret (f x)) l (f a).
Proof. intros F. eapply fo_ext; [eapply fo_bind; [exact F|constructor]|apply app_nil_r]. Qed.

(** A send or read call followed by what depends on its result. *)
Lemma fo_sys_send {A} c bs (f : nat -> proc C A) l a : bs <> [] ->
  (forall n, (1 <= n <= length bs)%nat -> fol (f n) (map (Snd c) (skipn n bs) ++ l) a) ->
  fol (pbind (psys_send c bs) f) (map (Snd c) bs ++ l) a.
Proof. intros Hb H. unfold psys_send. destruct bs as [|x bs]; [contradiction|]. cbn [pbind]. constructor; [exact Hb|exact H]. Qed.
Lemma fo_sys_read {A} c n bs (f : list Z -> proc C A) l a : (1 <= n <= length bs)%nat -> (est c = true -> starved c (f [])) ->
  (forall m, (1 <= m <= n)%nat -> fol (f (firstn m bs)) (map (Rcv c) (skipn m bs) ++ l) a) ->
  fol (pbind (psys_read c n) f) (map (Rcv c) bs ++ l) a.
Proof. intros Hb Hs H. unfold psys_read. destruct n as [|n]; [lia|]. cbn [pbind]. constructor; [exact Hb|exact Hs|exact H]. Qed.

Lemma fo_send c m off size : (off + size <= length m)%nat -> forall fuel sent, (sent <= size)%nat -> (size - sent <= fuel)%nat ->
  fol (psend fuel c m off sent size) (map (Snd c) (firstn (size - sent) (skipn (off + sent) m))) tt.
Proof.
  intros Hm. induction fuel as [|f IH]; intros sent Hs Hf; cbn [psend].
  - rewrite (proj2 (Nat.ltb_ge sent size)) by lia. replace (size - sent)%nat with 0%nat by lia. constructor.
  - destruct (Nat.ltb_spec sent size) as [L|L]; [|replace (size - sent)%nat with 0%nat by lia; constructor].
    apply (fo_lift_bind _ (firstn (size - sent) (skipn (off + sent) m))).
    { unfold rd. rewrite (proj2 (Nat.leb_le _ _)) by lia. reflexivity. }
    set (bs := firstn (size - sent) (skipn (off + sent) m)).
    assert (Lb : length bs = (size - sent)%nat) by (unfold bs; rewrite firstn_length, skipn_length; lia).
    rewrite <- (app_nil_r (map _ _)). apply fo_sys_send; [intros E; rewrite E in Lb; cbn in Lb; lia|]. intros n Hn. rewrite app_nil_r.
    eapply fo_ext; [apply IH; lia|]. f_equal. unfold bs.
    replace (size - sent)%nat with (n + (size - (sent + n)))%nat by lia. rewrite <- firstn_skipn_comm, skipn_skipn'. do 2 f_equal. lia.
Qed.
Lemma fo_send_all c bs n : length bs = n -> fol (psend n c bs 0 0 n) (map (Snd c) bs) tt.
Proof.
  intros <-. eapply fo_ext; [apply fo_send; lia|]. rewrite Nat.sub_0_r. cbn [Nat.add skipn]. rewrite firstn_all. reflexivity.
Qed.

Lemma fo_pread c off : forall fuel pre done post data, length pre = off -> (length data <= length post)%nat -> (length data <= fuel)%nat ->
  fol (pread fuel c (pre ++ done ++ post) off (length done) (length done + length data)) (map (Rcv c) data)
    (pre ++ done ++ data ++ skipn (length data) post).
Proof.
  induction fuel as [|f IH]; intros pre done post data Hp Hl Hf; cbn [pread].
  - destruct data; [|cbn in Hf; lia]. rewrite Nat.add_0_r, Nat.ltb_irrefl. constructor.
  - destruct (Nat.ltb_spec (length done) (length done + length data)) as [L|L]; [|destruct data; [constructor|cbn in L; lia]].
    rewrite <- (app_nil_r (map _ _)). apply fo_sys_read; [lia| |].
    { intros _. rewrite wr_nil by (rewrite !app_length; lia). cbn [lift pbind length]. rewrite Nat.add_0_r.
      apply sv_pread; [rewrite !app_length; lia|exact L]. }
    intros m Hm. rewrite app_nil_r.
    set (got := firstn m data). assert (Lg : length got = m) by (unfold got; rewrite firstn_length; lia).
    assert (Ed : data = got ++ skipn m data) by (symmetry; apply firstn_skipn).
    eapply fo_lift_bind.
    { replace (pre ++ done ++ post) with ((pre ++ done) ++ firstn (length got) post ++ skipn (length got) post)
        by (rewrite firstn_skipn, app_assoc; reflexivity).
      rewrite <- Hp, <- app_length. apply wr_mid. rewrite firstn_length. lia. }
    assert (Ld : length data = (length got + length (skipn m data))%nat) by (rewrite Ed at 1; apply app_length).
    pose proof (IH pre (done ++ got) (skipn (length got) post) (skipn m data) Hp) as G.
    rewrite app_length, <- app_assoc, <- Nat.add_assoc, <- Ld in G. rewrite <- app_assoc.
    rewrite skipn_skipn', (Nat.add_comm (length (skipn m data))), <- Ld in G. rewrite Ed at 3. rewrite <- !app_assoc in *.
    replace (got ++ skipn m data ++ skipn (length data) post) with (got ++ (skipn m data ++ skipn (length data) post)) by reflexivity.
    rewrite !skipn_length in *. apply G; lia.
Qed.
Lemma fo_pread_all c bs m n : length bs = n -> length m = n -> fol (pread n c m 0 0 n) (map (Rcv c) bs) bs.
Proof.
  intros Lb Lm. pose proof (fo_pread c 0 n [] [] m bs eq_refl) as F. cbn [app length Nat.add] in F. rewrite Lb in F.
  rewrite skipn_all2, app_nil_r in F by lia. apply F; lia.
Qed.
End Rules.
Arguments fo_ret {C X A est}. Arguments fo_write {C X A est}. Arguments fo_read {C X A est}.
Notation follows := (@follows_on chan unit _ established).

(** ** Networks *)
Section Follow.
  Context (cap : chan -> nat) (G : list dev) (N : nat) (procs : nat -> proc chan ending) (goal : nat -> ending).
  Context (Hcap : forall c, (1 <= cap c)%nat) (Own : owned G) (Bal : balanced chan_eqb G).
  Context (Bound : Forall (fun e : dev => (fst e < N)%nat) G).
  Context (Fol : forall p, follows (procs p) (proj p G) (goal p)).

  (** [tr] explains that process p has still to do [F p] and that the bytes
      [ch c] are under way. *)
  Definition ghost (tr : list dev) (F : nat -> list dact) (ch : chan -> list Z) : Prop :=
    run chan_eqb cap (fun p => proj p G) tr /\
    (forall p, skipn (length (proj p tr)) (proj p G) = F p) /\
    (forall c, sends chan_eqb c tr = recvs chan_eqb c tr ++ ch c).

  Definition related (n : nat) (s : net chan ending) : Prop :=
    exists tr F, (n <= length tr)%nat /\ ghost tr F (nt_chan s) /\ forall p, follows (nt_proc s p) (F p) (goal p).

  Lemma skipn_cons_nth {X} (l : list X) n x t : skipn n l = x :: t -> nth_error l n = Some x /\ skipn (S n) l = t.
  Proof.
    revert l. induction n as [|n IH]; intros [|y l] E; cbn in *; try discriminate.
    - injection E as -> ->. auto.
    - apply IH. exact E.
  Qed.

  Lemma chan_eqb_refl c : chan_eqb c c = true.
  Proof. apply chan_eqb_spec. reflexivity. Qed.

  Definition set_todo (F : nat -> list dact) (p : nat) (l : list dact) : nat -> list dact := fun q => if (q =? p)%nat then l else F q.

  Lemma ghost_ext tr F F' ch ch' : ghost tr F ch -> (forall p, F p = F' p) -> (forall c, ch c = ch' c) -> ghost tr F' ch'.
  Proof. intros (R & Hf & Q) EF EC. split; [exact R|]. split; intros; rewrite <- ?EF, <- ?EC; auto. Qed.

  Lemma ghost_advance tr F p a l : (forall q, skipn (length (proj q tr)) (proj q G) = F q) -> F p = a :: l ->
    forall q, skipn (length (proj q (tr ++ [(p, a)]))) (proj q G) = set_todo F p l q.
  Proof.
    intros Hf E q. unfold set_todo. rewrite proj_app, proj_one, Nat.eqb_sym. rewrite <- Hf in E. apply skipn_cons_nth in E as [_ Sx].
    destruct (Nat.eqb_spec q p) as [->|Hne]; [rewrite app_length, Nat.add_1_r; exact Sx|rewrite app_nil_r; apply Hf].
  Qed.

  Lemma ghost_snd tr F ch p c x l : ghost tr F ch -> F p = Snd c x :: l -> (length (ch c) < cap c)%nat ->
    ghost (tr ++ [(p, Snd c x)]) (set_todo F p l) (set_chan chan_eqb ch c (ch c ++ [x])).
  Proof.
    intros (R & Hf & Q) E Hl. pose proof E as E2. rewrite <- Hf in E2. apply skipn_cons_nth in E2 as [Nx _]. split; [|split].
    - constructor; [exact R|exact Nx|]. cbn. rewrite (Q c), app_length. lia.
    - eapply ghost_advance; eauto.
    - intros d. unfold set_chan. rewrite sends_app, recvs_app, sends1, recvs1, app_nil_r, (Q d).
      destruct (chan_eqb d c) eqn:Ed; [|apply app_nil_r]. apply chan_eqb_spec in Ed. subst d. symmetry. apply app_assoc.
  Qed.
  Lemma ghost_rcv tr F ch p c x y l rest : ghost tr F ch -> F p = Rcv c y :: l -> ch c = x :: rest ->
    y = x /\ ghost (tr ++ [(p, Rcv c x)]) (set_todo F p l) (set_chan chan_eqb ch c rest).
  Proof using All.
    intros (R & Hf & Q) E Ec. pose proof E as E2. rewrite <- Hf in E2. apply skipn_cons_nth in E2 as [Nx _].
    assert (R' : run chan_eqb cap (fun p => proj p G) (tr ++ [(p, Rcv c y)])).
    { constructor; [exact R|exact Nx|]. cbn. rewrite (Q c), app_length, Ec. cbn [length]. lia. }
    pose proof (choreography_aligned chan_eqb chan_eqb_spec cap G tr p c y Own (proj2 Bal) R') as Al.
    rewrite (Q c), Ec, nth_error_app2, Nat.sub_diag in Al by lia. injection Al as <-. split; [reflexivity|]. split; [exact R'|split].
    - eapply ghost_advance; eauto.
    - intros d. unfold set_chan. rewrite sends_app, recvs_app, sends1, recvs1, app_nil_r, (Q d).
      destruct (chan_eqb d c) eqn:Ed; [|rewrite app_nil_r; reflexivity]. apply chan_eqb_spec in Ed. subst d.
      rewrite Ec, <- app_assoc. reflexivity.
  Qed.

  Lemma ghost_snds p c l : forall xs tr F ch, ghost tr F ch -> F p = map (Snd c) xs ++ l -> (length (ch c) + length xs <= cap c)%nat ->
    exists tr', length tr' = (length tr + length xs)%nat /\ ghost tr' (set_todo F p l) (set_chan chan_eqb ch c (ch c ++ xs)).
  Proof.
    induction xs as [|x xs IH]; intros tr F ch Gh E Hl.
    - exists tr. split; [cbn; lia|]. eapply ghost_ext; [exact Gh| |].
      + intros q. unfold set_todo. destruct (Nat.eqb_spec q p) as [->|]; [exact E|reflexivity].
      + intros d. unfold set_chan. destruct (chan_eqb d c) eqn:Ed; [|reflexivity]. apply chan_eqb_spec in Ed. subst d. symmetry. apply app_nil_r.
    - cbn [length map app] in *. pose proof (ghost_snd _ _ _ _ _ _ _ Gh E ltac:(lia)) as G1.
      destruct (IH _ _ _ G1) as (tr' & Lt & G2).
      + unfold set_todo. rewrite Nat.eqb_refl. reflexivity.
      + unfold set_chan. rewrite chan_eqb_refl, app_length. cbn [length]. lia.
      + exists tr'. split; [rewrite Lt, app_length; cbn; lia|]. eapply ghost_ext; [exact G2| |].
        * intros q. unfold set_todo. destruct (q =? p)%nat; reflexivity.
        * intros d. unfold set_chan. rewrite chan_eqb_refl. destruct (chan_eqb d c); [|reflexivity]. rewrite <- app_assoc. reflexivity.
  Qed.
  Lemma ghost_rcvs p c l : forall got ys tr F ch rest, ghost tr F ch -> F p = map (Rcv c) ys ++ l -> (length got <= length ys)%nat ->
    ch c = got ++ rest -> got = firstn (length got) ys /\
    exists tr', length tr' = (length tr + length got)%nat /\
      ghost tr' (set_todo F p (map (Rcv c) (skipn (length got) ys) ++ l)) (set_chan chan_eqb ch c rest).
  Proof using All.
    induction got as [|x got IH]; intros ys tr F ch rest Gh E Hl Ec.
    - cbn [length firstn skipn]. split; [reflexivity|]. exists tr. split; [lia|]. eapply ghost_ext; [exact Gh| |].
      + intros q. unfold set_todo. destruct (Nat.eqb_spec q p) as [->|]; [exact E|reflexivity].
      + intros d. unfold set_chan. destruct (chan_eqb d c) eqn:Ed; [|reflexivity]. apply chan_eqb_spec in Ed. subst d. exact Ec.
    - destruct ys as [|y ys]; [cbn in Hl; lia|]. cbn [length map app] in *.
      destruct (ghost_rcv _ _ _ _ _ _ _ _ _ Gh E Ec) as [-> G1].
      destruct (IH ys _ _ _ rest G1) as (Eg & tr' & Lt & G2).
      + unfold set_todo. rewrite Nat.eqb_refl. reflexivity.
      + lia.
      + unfold set_chan. rewrite chan_eqb_refl. reflexivity.
      + cbn [firstn skipn]. split; [f_equal; exact Eg|]. exists tr'. split; [rewrite Lt, app_length; cbn; lia|]. eapply ghost_ext; [exact G2| |].
        * intros q. unfold set_todo. destruct (q =? p)%nat; reflexivity.
        * intros d. unfold set_chan. destruct (chan_eqb d c); reflexivity.
  Qed.

  Lemma related_step n s s' : related n s -> net_step chan_eqb cap s s' -> related (S n) s'.
  Proof using All.
    intros (tr & F & L & Gh & Hf) St. destruct St as [p [c bs k m Ep Hm Hl|c m k got rest Ep Ec Hm|block l k Ep _]]; [| |pose proof (Hf p) as Fp; rewrite Ep in Fp; inversion Fp].
    - pose proof (Hf p) as Fp. rewrite Ep in Fp. inversion Fp as [|c0 bs0 k0 l a0 Hb Hk E1 E2|]; subst.
      assert (Es : F p = map (Snd c) (firstn m bs) ++ (map (Snd c) (skipn m bs) ++ l))
        by (rewrite app_assoc, <- map_app, firstn_skipn; congruence).
      destruct (ghost_snds p c _ (firstn m bs) tr F (nt_chan s) Gh Es) as (tr' & Lt & G2); [rewrite firstn_length; lia|].
      rewrite firstn_length in Lt. exists tr', (set_todo F p (map (Snd c) (skipn m bs) ++ l)). split; [lia|]. split; [exact G2|].
      intros q. cbn [nt_proc]. unfold set_proc, set_todo. destruct (Nat.eqb_spec q p) as [->|Hne]; [apply Hk; exact Hm|apply Hf].
    - pose proof (Hf p) as Fp. rewrite Ep in Fp. inversion Fp as [| |c0 m0 bs k0 l a0 Hb Hsv Hk E1 E2]; subst.
      destruct (ghost_rcvs p c l got bs tr F (nt_chan s) rest Gh) as (Eg & tr' & Lt & G2); [congruence|lia|exact Ec|].
      exists tr', (set_todo F p (map (Rcv c) (skipn (length got) bs) ++ l)). split; [lia|]. split; [exact G2|].
      intros q. cbn [nt_proc]. unfold set_proc, set_todo. destruct (Nat.eqb_spec q p) as [->|Hne]; [|apply Hf].
      rewrite Eg at 1. apply Hk. exact Hm.
  Qed.

  Lemma related_start : related 0 (net_start procs).
  Proof using All.
    exists [], (fun p => proj p G). split; [cbn; lia|]. split; [|exact Fol]. split; [constructor|]. split; intros; reflexivity.
  Qed.

  Lemma related_all n s : steps (net_step chan_eqb cap) n (net_start procs) s -> related n s.
  Proof using All.
    intros H. remember (net_start procs) as s0 eqn:E. induction H; subst; [apply related_start|].
    eapply related_step; eauto.
  Qed.

  Lemma follows_nil {A} (p : proc chan A) a : follows p [] a -> p = Ret a.
  Proof.
    inversion 1 as [|c bs k l a0 Hb Hk E1 E2|c n bs k l a0 Hb Hsv Hk E1 E2]; [reflexivity| |]; destruct bs; try contradiction; try discriminate.
    cbn in Hb. lia.
  Qed.
  Lemma follows_no_crash {A} (p : proc chan A) l a f : follows p l a -> p <> Crash f.
  Proof. intros H ->. inversion H. Qed.

  Theorem network_runs n s : steps (net_step chan_eqb cap) n (net_start procs) s ->
    (n <= length G)%nat /\ (forall p f, nt_proc s p <> Crash f) /\
    ((exists s', net_step chan_eqb cap s s') \/ (forall p, nt_proc s p = Ret (goal p)) /\ (forall c, nt_chan s c = [])).
  Proof using All.
    intros H. destruct (related_all n s H) as (tr & F & L & (R & Pf & Q) & Hf). split; [|split].
    - eapply Nat.le_trans; [exact L|]. eapply run_bounded; eauto.
    - intros p f. eapply follows_no_crash. apply Hf.
    - destruct (choreography_progress chan_eqb chan_eqb_spec cap G tr Hcap Own (proj1 Bal) R) as [Fin|[[p a] R']].
      + right. split.
        * intros p. apply follows_nil. specialize (Hf p). rewrite <- Pf, (Fin p), skipn_all in Hf. exact Hf.
        * intros c. specialize (Q c). destruct (Own c) as (sd & rc & Os & Or).
          destruct (owner_run chan_eqb cap _ _ R c _ _ Os Or) as [Ts Tr].
          rewrite (sends_owner chan_eqb chan_eqb_spec _ _ _ Ts), (recvs_owner chan_eqb chan_eqb_spec _ _ _ Tr), !Fin in Q.
          rewrite <- (sends_owner chan_eqb chan_eqb_spec _ _ _ Os), <- (recvs_owner chan_eqb chan_eqb_spec _ _ _ Or), (proj2 Bal c) in Q.
          apply (f_equal (@length Z)) in Q. rewrite app_length in Q. destruct (nt_chan s c); [reflexivity|cbn in Q; lia].
      + left. inversion R' as [|tr0 p0 a0 R0 Na En Eq]; [destruct tr; discriminate|].
        apply app_inj_tail in Eq as [-> Eq]. injection Eq as -> ->.
        specialize (Hf p). assert (Sk : exists l, F p = a :: l).
        { rewrite <- Pf. apply nth_error_split in Na as (l1 & l2 & E & El). rewrite E, <- El. exists l2. rewrite skipn_app, skipn_all, Nat.sub_diag. reflexivity. }
        destruct Sk as [l El]. rewrite El in Hf.
        inversion Hf as [|c bs k l0 a0 Hb Hk E1 E2|c m bs k l0 a0 Hb Hsv Hk E1 E2]; subst.
        * destruct bs as [|x bs]; [contradiction|]. cbn [map app] in E2. injection E2 as <- _.
          cbn in En. rewrite (Q c), app_length in En. eexists; exists p. eapply (step_write chan_eqb cap s p c (x :: bs) k 1); [symmetry; exact E1|cbn; lia|lia].
        * destruct bs as [|x bs]; [cbn in Hb; lia|]. cbn [map app] in E2. injection E2 as <- _.
          cbn in En. rewrite (Q c), app_length in En. destruct (nt_chan s c) as [|y rest] eqn:Ec; [cbn in En; lia|].
          eexists; exists p. eapply (step_read chan_eqb cap s p c m k [y] rest); [symmetry; exact E1|exact Ec|cbn; lia].
  Qed.
End Follow.

(** ** Choreographies that carry data *)
Definition gd_conn (j : nat) : list dev :=
  [(S j, Snd (Lis j) 1); (j, Rcv (Lis j) 1); (j, Snd (Con j) 1); (S j, Rcv (Con j) 1)].
Definition gd_fwd (bs : list Z) (j : nat) : list dev := flat_map (fun x => [(j, Snd (Fwd j) x); (S j, Rcv (Fwd j) x)]) bs.
Definition gd_bwd (bs : list Z) (j : nat) : list dev := flat_map (fun x => [(S j, Snd (Bwd j) x); (j, Rcv (Bwd j) x)]) bs.

(** Bytes sent over link j. *)
Record ldata := { ld_count : nat -> Z; ld_cipher : nat -> list Z; ld_query : nat -> list Z; ld_response : nat -> list Z }.

Definition gd_chain (P : nat) (d : ldata) (offline online : bool) : list dev :=
  flat_map gd_conn (seq 0 (S P)) ++
  flat_map (fun j => gd_fwd (le 4 (ld_count d j)) j) (seq 0 (S P)) ++
  (if offline then flat_map (fun j => gd_bwd [1] j) (rev (seq 0 (S P))) ++ flat_map (fun j => gd_fwd (ld_cipher d j) j) (seq 0 (S P)) else []) ++
  flat_map (fun j => gd_bwd [1] j) (rev (seq 0 (S P))) ++
  (if online then flat_map (fun j => gd_fwd (ld_query d j) j) (seq 0 (S P)) ++
     flat_map (fun j => gd_bwd (ld_response d j) j) (rev (seq 0 (S P))) else []).

Definition don_link (f : nat -> list dev) : Prop := forall j p a, In (p, a) (f j) -> p = j \/ p = S j.
Lemma dproj_off p (l : list dev) : (forall a, ~ In (p, a) l) -> proj p l = [].
Proof.
  intros H. destruct (proj p l) as [|a t] eqn:E; [reflexivity|]. exfalso. apply (H a). apply in_proj. rewrite E. left. reflexivity.
Qed.
Definition dback (f : nat -> list dev) (n p : nat) : list dact :=
  if ((1 <=? p) && (p - 1 <? n))%nat then proj p (f (p - 1)%nat) else [].
Definition dfront (f : nat -> list dev) (n p : nat) : list dact := if (p <? n)%nat then proj p (f p) else [].

Lemma dproj_links f n p : don_link f -> proj p (flat_map f (seq 0 n)) = dback f n p ++ dfront f n p.
Proof.
  intros H. unfold dback, dfront. induction n.
  - cbn [seq flat_map]. replace ((1 <=? p) && (p - 1 <? 0))%nat with false by lia. reflexivity.
  - rewrite seq_S, flat_map_app, proj_app, IHn. cbn [flat_map Nat.add]. rewrite app_nil_r.
    destruct (Nat.eq_dec p n) as [->|N1]; [|destruct (Nat.eq_dec p (S n)) as [->|N2]].
    + replace (n - 1 <? n)%nat with (1 <=? n)%nat by lia. replace (n - 1 <? S n)%nat with true by lia.
      replace (n <? n)%nat with false by lia. replace (n <? S n)%nat with true by lia.
      rewrite andb_diag, andb_true_r, app_nil_r. reflexivity.
    + replace ((1 <=? S n) && (S n - 1 <? n))%nat with false by lia. replace (S n <? n)%nat with false by lia.
      replace ((1 <=? S n) && (S n - 1 <? S n))%nat with true by lia. replace (S n <? S n)%nat with false by lia.
      replace (S n - 1)%nat with n by lia. rewrite ?app_nil_r. reflexivity.
    + rewrite (dproj_off p (f n)) by (intros a Ha; apply H in Ha; lia). rewrite app_nil_r.
      replace (p - 1 <? S n)%nat with (p - 1 <? n)%nat by lia. replace (p <? S n)%nat with (p <? n)%nat by lia. reflexivity.
Qed.
Lemma dproj_links_rev f n p : don_link f -> proj p (flat_map f (rev (seq 0 n))) = dfront f n p ++ dback f n p.
Proof.
  intros H. unfold dback, dfront. induction n.
  - cbn [seq flat_map rev]. replace ((1 <=? p) && (p - 1 <? 0))%nat with false by lia. reflexivity.
  - rewrite seq_S, rev_app_distr. cbn [rev app flat_map Nat.add]. rewrite proj_app, IHn.
    destruct (Nat.eq_dec p n) as [->|N1]; [|destruct (Nat.eq_dec p (S n)) as [->|N2]].
    + replace (n - 1 <? n)%nat with (1 <=? n)%nat by lia. replace (n - 1 <? S n)%nat with true by lia.
      replace (n <? n)%nat with false by lia. replace (n <? S n)%nat with true by lia.
      rewrite andb_diag, andb_true_r. reflexivity.
    + replace ((1 <=? S n) && (S n - 1 <? n))%nat with false by lia. replace (S n <? n)%nat with false by lia.
      replace ((1 <=? S n) && (S n - 1 <? S n))%nat with true by lia. replace (S n <? S n)%nat with false by lia.
      replace (S n - 1)%nat with n by lia. rewrite !app_nil_r. reflexivity.
    + rewrite (dproj_off p (f n)) by (intros a Ha; apply H in Ha; lia). cbn [app].
      replace (p - 1 <? S n)%nat with (p - 1 <? n)%nat by lia. replace (p <? S n)%nat with (p <? n)%nat by lia. reflexivity.
Qed.

Lemma don_conn : don_link gd_conn.
Proof. intros j p a H. cbn in H. intuition congruence. Qed.
Lemma don_fwd bs : don_link (fun j => gd_fwd (bs j) j).
Proof. intros j p a H. apply in_flat_map in H as (x & _ & H). cbn in H. intuition congruence. Qed.
Lemma don_bwd bs : don_link (fun j => gd_bwd (bs j) j).
Proof. intros j p a H. apply in_flat_map in H as (x & _ & H). cbn in H. intuition congruence. Qed.

Lemma dproj_fwd bs j p : proj p (gd_fwd bs j) =
  if (p =? j)%nat then map (Snd (Fwd j)) bs else if (p =? S j)%nat then map (Rcv (Fwd j)) bs else [].
Proof.
  unfold gd_fwd. induction bs as [|x bs IH]; [cbn; destruct (p =? j)%nat, (p =? S j)%nat; reflexivity|].
  cbn [flat_map app]. rewrite !proj_cons, IH. cbn [map].
  destruct (Nat.eqb_spec j p), (Nat.eqb_spec (S j) p), (Nat.eqb_spec p j), (Nat.eqb_spec p (S j)); try lia; reflexivity.
Qed.
Lemma dproj_bwd bs j p : proj p (gd_bwd bs j) =
  if (p =? S j)%nat then map (Snd (Bwd j)) bs else if (p =? j)%nat then map (Rcv (Bwd j)) bs else [].
Proof.
  unfold gd_bwd. induction bs as [|x bs IH]; [cbn; destruct (p =? j)%nat, (p =? S j)%nat; reflexivity|].
  cbn [flat_map app]. rewrite !proj_cons, IH. cbn [map].
  destruct (Nat.eqb_spec j p), (Nat.eqb_spec (S j) p), (Nat.eqb_spec p j), (Nat.eqb_spec p (S j)); try lia; reflexivity.
Qed.
Definition dconnect (j : nat) : list dact := [Rcv (Lis j) 1; Snd (Con j) 1].
Definition dlisten (j : nat) : list dact := [Snd (Lis j) 1; Rcv (Con j) 1].
Lemma dproj_conn j p : proj p (gd_conn j) = if (p =? j)%nat then dconnect j else if (p =? S j)%nat then dlisten j else [].
Proof.
  unfold proj, gd_conn, dconnect, dlisten. cbn [filter fst].
  destruct (Nat.eqb_spec j p), (Nat.eqb_spec (S j) p), (Nat.eqb_spec p j), (Nat.eqb_spec p (S j)); try lia; reflexivity.
Qed.

(** What each entity does. *)
Definition dclient (d : ldata) (offline online : bool) : list dact :=
  dconnect 0 ++
  (map (Snd (Fwd 0)) (le 4 (ld_count d 0)) ++
   (if offline then [Rcv (Bwd 0) 1] ++ map (Snd (Fwd 0)) (ld_cipher d 0) else []) ++ [Rcv (Bwd 0) 1]) ++
  (if online then map (Snd (Fwd 0)) (ld_query d 0) ++ map (Rcv (Bwd 0)) (ld_response d 0) else []).
Definition dparty (d : ldata) (offline online : bool) (k : nat) : list dact :=
  let j := (k - 1)%nat in
  dlisten j ++ dconnect k ++
  ((map (Rcv (Fwd j)) (le 4 (ld_count d j)) ++ map (Snd (Fwd k)) (le 4 (ld_count d k))) ++
   (if offline then [Rcv (Bwd k) 1] ++ [Snd (Bwd j) 1] ++ map (Rcv (Fwd j)) (ld_cipher d j) ++ map (Snd (Fwd k)) (ld_cipher d k) else []) ++
   [Rcv (Bwd k) 1] ++ [Snd (Bwd j) 1]) ++
  (if online then (map (Rcv (Fwd j)) (ld_query d j) ++ map (Snd (Fwd k)) (ld_query d k)) ++
     map (Rcv (Bwd k)) (ld_response d k) ++ map (Snd (Bwd j)) (ld_response d j) else []).
Definition dbackend (d : ldata) (offline online : bool) (k : nat) : list dact :=
  let j := (k - 1)%nat in
  dlisten j ++
  (map (Rcv (Fwd j)) (le 4 (ld_count d j)) ++
   (if offline then [Snd (Bwd j) 1] ++ map (Rcv (Fwd j)) (ld_cipher d j) else []) ++ [Snd (Bwd j) 1]) ++
  (if online then map (Rcv (Fwd j)) (ld_query d j) ++ map (Snd (Bwd j)) (ld_response d j) else []).
Definition dprog (P : nat) (d : ldata) (offline online : bool) (p : nat) : list dact :=
  if (p =? 0)%nat then dclient d offline online
  else if (p <=? P)%nat then dparty d offline online p
  else if (p =? S P)%nat then dbackend d offline online p
  else [].

Lemma dchain_proj P d offline online p : proj p (gd_chain P d offline online) = dprog P d offline online p.
Proof.
  unfold gd_chain. rewrite !proj_app.
  rewrite (dproj_links gd_conn) by apply don_conn.
  rewrite (dproj_links (fun j => gd_fwd (le 4 (ld_count d j)) j)) by apply (don_fwd (fun j => le 4 (ld_count d j))).
  rewrite (dproj_links_rev (fun j => gd_bwd [1] j)) by apply (don_bwd (fun _ => [1])).
  match goal with |- context [proj p (if offline then ?a ++ ?b else [])] =>
    replace (proj p (if offline then a ++ b else [])) with (if offline then proj p a ++ proj p b else []) by (destruct offline; rewrite ?proj_app; reflexivity) end.
  match goal with |- context [proj p (if online then ?a ++ ?b else [])] =>
    replace (proj p (if online then a ++ b else [])) with (if online then proj p a ++ proj p b else []) by (destruct online; rewrite ?proj_app; reflexivity) end.
  rewrite (dproj_links_rev (fun j => gd_bwd [1] j)) by apply (don_bwd (fun _ => [1])).
  rewrite (dproj_links (fun j => gd_fwd (ld_cipher d j) j)) by apply don_fwd.
  rewrite (dproj_links (fun j => gd_fwd (ld_query d j) j)) by apply don_fwd.
  rewrite (dproj_links_rev (fun j => gd_bwd (ld_response d j) j)) by apply don_bwd.
  unfold dback, dfront. rewrite !dproj_conn, !dproj_fwd, !dproj_bwd.
  unfold dprog.
  assert (p = 0 \/ (1 <= p <= P) \/ p = S P \/ S P < p)%nat as [->|[Hp|[->|Hp]]] by lia.
  - cbn [Nat.eqb Nat.leb andb Nat.ltb Nat.sub]. unfold dclient.
    destruct offline, online; rewrite <- ?app_assoc, ?app_nil_r; cbn [app map]; rewrite <- ?app_assoc, ?app_nil_r; cbn [app]; reflexivity.
  - replace (p =? 0)%nat with false by lia. replace (p <=? P)%nat with true by lia.
    replace ((1 <=? p) && (p - 1 <? S P))%nat with true by lia. replace (p <? S P)%nat with true by lia. rewrite !Nat.eqb_refl.
    replace (p =? p - 1)%nat with false by lia. replace (p =? S (p - 1))%nat with true by lia.
    replace (p =? S p)%nat with false by lia.
    unfold dparty. destruct offline, online; rewrite <- ?app_assoc, ?app_nil_r; reflexivity.
  - replace (S P =? 0)%nat with false by lia. replace (S P <=? P)%nat with false by lia. rewrite !Nat.eqb_refl.
    replace ((1 <=? S P) && (S P - 1 <? S P))%nat with true by lia. replace (S P <? S P)%nat with false by lia.
    replace (S P =? S P - 1)%nat with false by lia. replace (S P =? S (S P - 1))%nat with true by lia.
    unfold dbackend. destruct offline, online; rewrite <- ?app_assoc, ?app_nil_r; cbn [app map]; rewrite <- ?app_assoc, ?app_nil_r; cbn [app]; reflexivity.
  - replace (p =? 0)%nat with false by lia. replace (p <=? P)%nat with false by lia. replace (p =? S P)%nat with false by lia.
    replace ((1 <=? p) && (p - 1 <? S P))%nat with false by lia. replace (p <? S P)%nat with false by lia.
    destruct offline, online; reflexivity.
Qed.

Lemma dchain_balanced P d offline online : balanced chan_eqb (gd_chain P d offline online).
Proof.
  unfold gd_chain.
  pose proof (fun A B => balanced_app (M := Z) (L := unit) chan_eqb chan_eqb_spec A B) as BA.
  pose proof (fun f l => balanced_flat_map (M := Z) (L := unit) chan_eqb chan_eqb_spec (X := nat) f l) as BF.
  pose proof (fun f l => balanced_flat_map (M := Z) (L := unit) chan_eqb chan_eqb_spec (X := Z) f l) as BZ.
  assert (Bc : forall j, balanced chan_eqb (gd_conn j)).
  { intros j. apply (BA [_; _] [_; _]); apply balanced_msg; apply chan_eqb_spec. }
  assert (Bf : forall bs j, balanced chan_eqb (gd_fwd bs j)) by (intros; apply BZ; intros; apply balanced_msg, chan_eqb_spec).
  assert (Bb : forall bs j, balanced chan_eqb (gd_bwd bs j)) by (intros; apply BZ; intros; apply balanced_msg, chan_eqb_spec).
  apply BA; [apply BF, Bc|]. apply BA; [apply BF; intros; apply Bf|].
  apply BA; [destruct offline; [|apply balanced_nil]; apply BA; apply BF; intros; [apply Bb|apply Bf]|].
  apply BA; [apply BF; intros; apply Bb|].
  destruct online; [|apply balanced_nil]. apply BA; apply BF; intros; [apply Bf|apply Bb].
Qed.

Definition dwell (e : dev) : Prop :=
  match snd e with Snd c _ => fst e = sender c | Rcv c _ => fst e = receiver c | Loc _ => True end.

Lemma dchain_events P d offline online : Forall dwell (gd_chain P d offline online) /\
  Forall (fun e : dev => (fst e < S (S P))%nat) (gd_chain P d offline online).
Proof.
  assert (FM : forall X (Q : dev -> Prop) f (l : list X), (forall j, In j l -> Forall Q (f j)) -> Forall Q (flat_map f l)).
  { intros X Q f l H. rewrite Forall_forall. intros e He. apply in_flat_map in He as (x & Hx & He).
    specialize (H x Hx). rewrite Forall_forall in H. auto. }
  assert (A : forall (Q : dev -> Prop), (forall j, (j < S P)%nat -> Forall Q (gd_conn j)) ->
    (forall bs j, (j < S P)%nat -> Forall Q (gd_fwd bs j)) -> (forall bs j, (j < S P)%nat -> Forall Q (gd_bwd bs j)) ->
    Forall Q (gd_chain P d offline online)).
  { intros Q H1 H2 H3. unfold gd_chain.
    assert (In1 : forall j, In j (seq 0 (S P)) -> (j < S P)%nat) by (intros j Hj; apply in_seq in Hj; lia).
    assert (In2 : forall j, In j (rev (seq 0 (S P))) -> (j < S P)%nat) by (intros j Hj; apply in_rev in Hj; auto).
    apply Forall_app; split; [apply FM; intros; apply H1; auto|].
    apply Forall_app; split; [apply FM; intros; apply H2; auto|].
    apply Forall_app; split.
    { destruct offline; [|constructor]. apply Forall_app; split; apply FM; intros; [apply H3|apply H2]; auto. }
    apply Forall_app; split; [apply FM; intros; apply H3; auto|].
    destruct online; [|constructor]. apply Forall_app; split; apply FM; intros; [apply H2|apply H3]; auto. }
  split; apply A.
  - intros j _. repeat constructor.
  - intros bs j _. apply FM. intros i _. repeat constructor.
  - intros bs j _. apply FM. intros i _. repeat constructor.
  - intros j Hj. repeat (apply Forall_cons; [cbn; lia|]); apply Forall_nil.
  - intros bs j Hj. apply FM. intros i _. repeat (apply Forall_cons; [cbn; lia|]); apply Forall_nil.
  - intros bs j Hj. apply FM. intros i _. repeat (apply Forall_cons; [cbn; lia|]); apply Forall_nil.
Qed.
Lemma dchain_owned P d offline online : owned (gd_chain P d offline online).
Proof.
  intros c. exists (sender c), (receiver c). destruct (dchain_events P d offline online) as [F _]. rewrite Forall_forall in F.
  split; intros q m Hin; exact (F _ Hin).
Qed.

(** If every entity follows its part, every schedule works. *)
Lemma deployment_runs cap P d offline online procs goal : (forall c, (1 <= cap c)%nat) ->
  (forall p, follows (procs p) (dprog P d offline online p) (goal p)) ->
  forall n (s : net chan ending), steps (net_step chan_eqb cap) n (net_start procs) s ->
    (n <= length (gd_chain P d offline online))%nat /\ (forall p f, nt_proc s p <> Crash f) /\
    ((exists s', net_step chan_eqb cap s s') \/ (forall p, nt_proc s p = Ret (goal p)) /\ (forall c, nt_chan s c = [])).
Proof.
  intros Hc F. eapply (network_runs cap (gd_chain P d offline online) (S (S P)) procs goal Hc).
  - apply dchain_owned.
  - apply dchain_balanced.
  - apply dchain_events.
  - intros p. rewrite dchain_proj. apply F.
Qed.
