(** Networks of processes that follow a choreography in which some groups of
    processes exchange data in any order, polling: every schedule leads to the
    end. *)
From Verif Require Import Base BaseProofs CipherBatchProofs Net Lts Procs ProcProofs TalkSpec TrafficSpec.

(** A step of a choreography: a byte sent over a channel, or an exchange. *)
Inductive gact (C X : Type) : Type := Byte (c : C) (v : Z) | Block (x : X).
Arguments Byte {C X}. Arguments Block {C X}.

Section Choreography.
  Context {C X : Type} (eqb : C -> C -> bool) (from to : C -> nat).
  (** The data of an exchange per channel, its members, the number of system
      calls each of them may make, the number of bytes a member may write to a
      sibling between two polls that find nothing, and the exchanges whose data
      fits into the channels, so that nobody needs to poll: all is written, then
      all is read. *)
  Context (D : X -> C -> list Z) (member : X -> nat -> bool) (gas : X -> nat -> nat) (B : nat) (small : X -> bool).

  Definition script (p : nat) (g : gact C X) : list (act C Z X) :=
    match g with
    | Byte c v => if (from c =? p)%nat then [Snd c v] else if (to c =? p)%nat then [Rcv c v] else []
    | Block x => if member x p then [Loc x] else []
    end.
  Definition scripts (p : nat) (G : list (gact C X)) : list (act C Z X) := flat_map (script p) G.

  (** The bytes that a script writes to / reads from a channel. *)
  Definition writes (c : C) (l : list (act C Z X)) : list Z :=
    flat_map (fun a => match a with Snd d v => if eqb c d then [v] else [] | Rcv _ _ => [] | Loc x => D x c end) l.
  Definition reads (c : C) (l : list (act C Z X)) : list Z :=
    flat_map (fun a => match a with Rcv d v => if eqb c d then [v] else [] | Snd _ _ => [] | Loc x => D x c end) l.

  (** What a process has still to do: outside of exchanges, or inside, where [R]
      and [W] are the bytes still to be read and written, [u] what has been
      written since the last poll that found nothing, [hot] the channels that
      the last poll found readable and [g] bounds the number of system calls. *)
  Inductive gst : Type :=
  | Out (l : list (act C Z X))
  | In (x : X) (R W : C -> list Z) (u : C -> nat) (hot : list C) (g : nat) (l : list (act C Z X)).

  Definition R0 (x : X) (p : nat) (c : C) : list Z := if (to c =? p)%nat then D x c else [].
  Definition W0 (x : X) (p : nat) (c : C) : list Z := if (from c =? p)%nat then D x c else [].

  Definition upf {A} (f : C -> A) (c : C) (a : A) : C -> A := fun d => if eqb d c then a else f d.

  (** Entering and leaving exchanges. *)
  Inductive sees (p : nat) : gst -> gst -> Prop :=
  | see_refl : forall s, sees p s s
  | see_enter : forall x l s, sees p (In x (R0 x p) (W0 x p) (fun _ => 0%nat) [] (gas x p) l) s -> sees p (Out (Loc x :: l)) s
  | see_leave : forall x R W u hot g l s, (forall c, R c = []) -> (forall c, W c = []) -> sees p (Out l) s -> sees p (In x R W u hot g l) s.

  Lemma sees_trans p a b c : sees p a b -> sees p b c -> sees p a c.
  Proof. induction 1; intros H2; [exact H2| |]; constructor; auto. Qed.

  (** The flags of a poll as a list of channels. *)
  Definition flagged (l : list C) (fs : list bool) : list C := map fst (filter snd (combine l fs)).

  (** [eof]: the connections that may end before all has been read.  Without any
      ([fun _ => false]), processes have to get to their ends; with some, they may
      be left without the bytes they wait for, and follow the rules otherwise. *)
  Context (eof : C -> bool).

  (** [obeys p Q pr s]: process p, running pr, does what [s] allows until it
      returns a value in a state as described by [Q].  A process that finds a
      connection at its end reads from it again and again, or goes on in the
      exchange, in which it may loop for ever. *)
  Inductive obeys {A} (p : nat) (Q : A -> gst -> Prop) : proc C A -> gst -> Prop :=
  | ob_ret : forall a s, Q a s -> obeys p Q (Ret a) s
  | ob_spin : forall s c x R W u hot g l, eof c = true -> sees p s (In x R W u hot g l) -> R c <> [] -> obeys p Q (Crash Spinning) s
  | ob_write : forall c bs k s l, sees p s (Out (map (Snd c) bs ++ l)) -> bs <> [] ->
      (forall n, (1 <= n <= length bs)%nat -> obeys p Q (k n) (Out (map (Snd c) (skipn n bs) ++ l))) ->
      obeys p Q (Write c bs k) s
  | ob_read : forall c n bs k s l, sees p s (Out (map (Rcv c) bs ++ l)) -> (1 <= n <= length bs)%nat ->
      (eof c = true -> starved c (k [])) ->
      (forall m, (1 <= m <= n)%nat -> obeys p Q (k (firstn m bs)) (Out (map (Rcv c) (skipn m bs) ++ l))) ->
      obeys p Q (Read c n k) s
  | ob_bwrite : forall c bs w k s x R W u hot g l, sees p s (In x R W u hot (S g) l) -> bs <> [] -> W c = bs ++ w ->
      (small x = true \/ (u c + length bs <= B)%nat \/ forall d, R d = []) ->
      (forall n, (1 <= n <= length bs)%nat ->
        obeys p Q (k n) (In x R (upf W c (skipn n bs ++ w)) (upf u c (u c + n)%nat) hot g l)) ->
      obeys p Q (Write c bs k) s
  | ob_bread : forall c n k s x R W u hot g l, sees p s (In x R W u hot (S g) l) ->
      small x = true -> (forall d, W d = []) -> (1 <= n <= length (R c))%nat ->
      (eof c = true -> starved c (k [])) ->
      (forall m, (1 <= m <= n)%nat ->
        obeys p Q (k (firstn m (R c))) (In x (upf R c (skipn m (R c))) W u (filter (fun d => negb (eqb d c)) hot) g l)) ->
      obeys p Q (Read c n k) s
  | ob_tread : forall c n k s x R W u hot g g0 l, sees p s (In x R W u hot (S g) l) ->
      List.In c hot -> (1 <= n <= length (R c))%nat ->
      (forall m, (m <= n)%nat -> (m = 0%nat -> eof c = true) ->
        obeys p Q (k (firstn m (R c))) (In x (upf R c (skipn m (R c))) W u (filter (fun d => negb (eqb d c)) hot) (if (m =? 0)%nat then g0 else g) l)) ->
      obeys p Q (Read c n k) s
  | ob_poll : forall block cs k s x R W u hot g l, sees p s (In x R W u hot (S g) l) ->
      (forall c, List.In c cs <-> R c <> []) -> (block = true -> (forall c, W c = []) /\ cs <> []) ->
      (forall fs, length fs = length cs -> (block = true -> List.In true fs) ->
        obeys p Q (k fs) (In x R W (if existsb (fun f => f) fs then u else fun _ => 0%nat) (flagged cs fs) g l)) ->
      obeys p Q (Poll block cs k) s.

  Lemma ob_sees {A} p (Q : A -> gst -> Prop) pr s s' : (forall a s1, Q a s1 -> forall s0, sees p s0 s1 -> Q a s0) ->
    sees p s s' -> obeys p Q pr s' -> obeys p Q pr s.
  Proof.
    intros HQ H O. destruct O; try (econstructor; eauto using sees_trans; fail).
  Qed.

  Lemma ob_mono {A} p (Q Q' : A -> gst -> Prop) pr s : obeys p Q pr s -> (forall a s, Q a s -> Q' a s) -> obeys p Q' pr s.
  Proof. intros O H. induction O; try (econstructor; eauto; fail). Qed.

  Lemma ob_bind {A A'} p (Q : A -> gst -> Prop) (Q' : A' -> gst -> Prop) pr f s :
    obeys p Q pr s -> (forall a s', Q a s' -> obeys p Q' (f a) s') -> obeys p Q' (pbind pr f) s.
  Proof.
    intros O H. induction O; cbn [pbind]; try (econstructor; eauto using sv_bind; fail). auto.
  Qed.

  (** A process that follows a script obeys it. *)
  Lemma ob_follows {A} est p (Q : A -> gst -> Prop) (pr : proc C A) l a : (forall c, eof c = true -> est c = true) -> follows_on est pr l a ->
    forall l', Q a (Out l') -> obeys p Q pr (Out (l ++ l')).
  Proof.
    intros Hest. induction 1 as [a|c bs k l a Hb Hk IH|c n bs k l a Hb Hs Hk IH]; intros l' HQ.
    - constructor. exact HQ.
    - rewrite <- app_assoc. eapply ob_write; [apply see_refl|exact Hb|]. intros n Hn. rewrite app_assoc. apply IH; assumption.
    - rewrite <- app_assoc. eapply ob_read; [apply see_refl|exact Hb|auto|]. intros m Hm. rewrite app_assoc. apply IH; assumption.
  Qed.
End Choreography.
Arguments Out {C X}. Arguments In {C X}.

(** The exchanges of a choreography. *)
Definition blocks {C X : Type} (G : list (gact C X)) : list X := flat_map (fun g => match g with Block x => [x] | _ => [] end) G.

Section Network.
  Context {C X E : Type} (eqb : C -> C -> bool) (from to : C -> nat).
  Context (D : X -> C -> list Z) (member : X -> nat -> bool) (gas : X -> nat -> nat) (B : nat) (small : X -> bool).
  Context (eqb_spec : forall a b, eqb a b = true <-> a = b) (Hft : forall c, from c <> to c).
  Context (Hmem : forall x c, D x c <> [] -> member x (from c) = true /\ member x (to c) = true).
  Context (cap : C -> nat) (Hcap1 : forall c, (1 <= cap c)%nat) (Hcap : forall x c, D x c <> [] -> (B <= cap c)%nat).
  Context (G : list (gact C X)) (Hsmall : forall x c, List.In x (blocks G) -> small x = true -> (length (D x c) <= cap c)%nat).
  Context (NP : nat) (procs : nat -> proc C E) (goal : nat -> E).

  Notation script := (script from to member).
  Notation scripts := (scripts from to member).
  Notation writes := (writes eqb D).
  Notation reads := (reads eqb D).
  Notation gst := (@gst C X).
  Notation sees := (sees from to D gas).
  Notation obeys := (obeys eqb from to D gas B small (fun _ => false)).
  Notation R0 := (R0 to D). Notation W0 := (W0 from D).

  Context (Hnd : NoDup (blocks G)) (Hnp : forall p, (NP <= p)%nat -> scripts p G = [] /\ procs p = Ret (goal p)).
  Definition final (p : nat) (a : E) (s : gst) : Prop := a = goal p /\ sees p s (Out []).
  Context (Hob : forall p, (p < NP)%nat -> obeys p (final p) (procs p) (Out (scripts p G))).

  Lemma eqb_refl c : eqb c c = true.
  Proof using eqb_spec. apply eqb_spec. reflexivity. Qed.
  Lemma eqb_neq c d : c <> d -> eqb c d = false.
  Proof using eqb_spec. intros H. destruct (eqb c d) eqn:Ed; [|reflexivity]. apply eqb_spec in Ed. contradiction. Qed.

  (** The bytes of a choreography on a channel. *)
  Definition total (c : C) (G : list (gact C X)) : list Z :=
    flat_map (fun g => match g with Byte d v => if eqb c d then [v] else [] | Block x => D x c end) G.

  Lemma writes_app c a b : writes c (a ++ b) = writes c a ++ writes c b.
  Proof. apply flat_map_app. Qed.
  Lemma reads_app c a b : reads c (a ++ b) = reads c a ++ reads c b.
  Proof. apply flat_map_app. Qed.
  Lemma no_data x c p : member x p = false -> p = from c \/ p = to c -> D x c = [].
  Proof using Hmem. intros H Hp. destruct (D x c) eqn:Ed; [reflexivity|]. destruct (Hmem x c) as [H1 H2]; [congruence|]. destruct Hp; subst p; congruence. Qed.
  Lemma writes_total c G0 : writes c (scripts (from c) G0) = total c G0.
  Proof using All.
    induction G0 as [|g G0 IH]; [reflexivity|]. change (scripts (from c) (g :: G0)) with (script (from c) g ++ scripts (from c) G0).
    rewrite writes_app, IH. change (total c (g :: G0)) with ((match g with Byte d v => if eqb c d then [v] else [] | Block x => D x c end) ++ total c G0). f_equal.
    destruct g as [d v|x]; cbn [ProcNet.script].
    - destruct (eqb c d) eqn:Ed.
      + apply eqb_spec in Ed. subst d. rewrite Nat.eqb_refl. cbn. rewrite eqb_refl. reflexivity.
      + destruct (from d =? from c)%nat; [cbn; rewrite Ed; reflexivity|]. destruct (to d =? from c)%nat; reflexivity.
    - destruct (member x (from c)) eqn:Em; [cbn; apply app_nil_r|]. rewrite (no_data x c (from c) Em); auto.
  Qed.
  Lemma reads_total c G0 : reads c (scripts (to c) G0) = total c G0.
  Proof using All.
    induction G0 as [|g G0 IH]; [reflexivity|]. change (scripts (to c) (g :: G0)) with (script (to c) g ++ scripts (to c) G0).
    rewrite reads_app, IH. change (total c (g :: G0)) with ((match g with Byte d v => if eqb c d then [v] else [] | Block x => D x c end) ++ total c G0). f_equal.
    destruct g as [d v|x]; cbn [ProcNet.script].
    - destruct (eqb c d) eqn:Ed.
      + apply eqb_spec in Ed. subst d. rewrite (proj2 (Nat.eqb_neq _ _) (Hft c)), Nat.eqb_refl. cbn. rewrite eqb_refl. reflexivity.
      + destruct (from d =? to c)%nat; [reflexivity|]. destruct (to d =? to c)%nat; [cbn; rewrite Ed; reflexivity|reflexivity].
    - destruct (member x (to c)) eqn:Em; [cbn; apply app_nil_r|]. rewrite (no_data x c (to c) Em); auto.
  Qed.

  (** ** The invariant *)
  Definition reads_st (c : C) (s : gst) : list Z := match s with Out l => reads c l | In x R W u hot g l => R c ++ reads c l end.
  Definition writes_st (c : C) (s : gst) : list Z := match s with Out l => writes c l | In x R W u hot g l => W c ++ writes c l end.
  Definition script_of (s : gst) : list (act C Z X) := match s with Out l => l | In x R W u hot g l => Loc x :: l end.
  Definition cost (p : nat) (l : list (act C Z X)) : nat := list_sum (map (fun a => match a with Loc x => gas x p | _ => 1%nat end) l).
  Definition cost_st (p : nat) (s : gst) : nat := match s with Out l => cost p l | In x R W u hot g l => (g + cost p l)%nat end.

  (** The script of p has been followed up to some point of the choreography. *)
  Definition behind (G : list (gact C X)) (p : nat) (l : list (act C Z X)) : Prop := exists k, l = scripts p (skipn k G).

  Definition fine (p : nat) (s : gst) : Prop :=
    match s with
    | Out _ => True
    | In x R W u hot g l => (forall c, exists k, R c = skipn k (R0 x p c)) /\ (forall c, exists k, W c = skipn k (W0 x p c))
    end.

  Record inv (ch : C -> list Z) (r : nat -> nat) (s : nat -> gst) : Prop := {
    i_bal : forall c, reads_st c (s (to c)) = ch c ++ writes_st c (s (from c));
    i_pos : forall p, behind G p (script_of (s p));
    i_fine : forall p, fine p (s p);
    i_hot : forall p x R W u hot g l, s p = In x R W u hot g l -> forall c, List.In c hot -> to c = p /\ ch c <> [];
    i_zero : forall p x R W u hot g l, s p = In x R W u hot g l -> r p = 0%nat ->
      forall c, from c = p -> (length (D x c) <= length (W c) + u c)%nat;
    i_rank : forall c x R W u hot g l R' W' u' hot' g' l',
      s (from c) = In x R W u hot g l -> s (to c) = In x R' W' u' hot' g' l' ->
      (r (from c) <= r (to c))%nat -> (length (R' c) <= length (W c) + u c)%nat
  }.

  Definition ups {A} (f : nat -> A) (p : nat) (a : A) : nat -> A := fun q => if (q =? p)%nat then a else f q.
  Lemma ups_same {A} (f : nat -> A) p a : ups f p a p = a.
  Proof. unfold ups. rewrite Nat.eqb_refl. reflexivity. Qed.
  Lemma ups_other {A} (f : nat -> A) p a q : q <> p -> ups f p a q = f q.
  Proof. intros H. unfold ups. rewrite (proj2 (Nat.eqb_neq q p) H). reflexivity. Qed.

  Lemma fine_R p x R W u hot g l c : fine p (In x R W u hot g l) -> (length (R c) <= length (D x c))%nat /\ (R c <> [] -> to c = p).
  Proof.
    intros [H _]. destruct (H c) as [k ->]. unfold ProcNet.R0. rewrite skipn_length.
    destruct (Nat.eqb_spec (to c) p); [split; [lia|auto]|]. cbn [length]. split; [lia|]. destruct k; intros E0; contradiction.
  Qed.
  Lemma fine_W p x R W u hot g l c : fine p (In x R W u hot g l) -> (length (W c) <= length (D x c))%nat /\ (W c <> [] -> from c = p).
  Proof.
    intros [_ H]. destruct (H c) as [k ->]. unfold ProcNet.W0. rewrite skipn_length.
    destruct (Nat.eqb_spec (from c) p); [split; [lia|auto]|]. cbn [length]. split; [lia|]. destruct k; intros E0; contradiction.
  Qed.

  (** ** Entering and leaving *)
  Lemma inv_enter ch r s p x l : inv ch r s -> s p = Out (Loc x :: l) ->
    inv ch (ups r p 0%nat) (ups s p (In x (R0 x p) (W0 x p) (fun _ => 0%nat) [] (gas x p) l)).
  Proof using All.
    intros I Es. set (n := In x _ _ _ _ _ _).
    assert (RS : forall q c, to c = q -> reads_st c (ups s p n q) = reads_st c (s q)).
    { intros q c Hq. unfold ups. destruct (Nat.eqb_spec q p) as [->|]; [|reflexivity]. rewrite Es. cbn. unfold ProcNet.R0. rewrite Hq, Nat.eqb_refl. reflexivity. }
    assert (WS : forall q c, from c = q -> writes_st c (ups s p n q) = writes_st c (s q)).
    { intros q c Hq. unfold ups. destruct (Nat.eqb_spec q p) as [->|]; [|reflexivity]. rewrite Es. cbn. unfold ProcNet.W0. rewrite Hq, Nat.eqb_refl. reflexivity. }
    constructor.
    - intros c. rewrite RS, WS by reflexivity. apply (i_bal _ _ _ I).
    - intros q. unfold ups. destruct (Nat.eqb_spec q p) as [->|]; [|apply (i_pos _ _ _ I)]. pose proof (i_pos _ _ _ I p) as H. rewrite Es in H. exact H.
    - intros q. unfold ups. destruct (Nat.eqb_spec q p) as [->|]; [|apply (i_fine _ _ _ I)]. cbn. split; intros c; exists 0%nat; reflexivity.
    - intros q x0 R W u hot g l0 Eq. unfold ups in Eq. destruct (Nat.eqb_spec q p) as [->|]; [|exact (i_hot _ _ _ I _ _ _ _ _ _ _ _ Eq)].
      inversion Eq; subst. intros c [].
    - intros q x0 R W u hot g l0 Eq Hr c Hc. unfold ups in Eq, Hr. destruct (Nat.eqb_spec q p) as [->|]; [|exact (i_zero _ _ _ I _ _ _ _ _ _ _ _ Eq Hr c Hc)].
      inversion Eq; subst. unfold ProcNet.W0. rewrite Nat.eqb_refl. lia.
    - intros c x0 R W u hot g l0 R' W' u' hot' g' l' E1 E2 Hr. unfold ups in E1, E2, Hr. pose proof (Hft c) as Hn.
      destruct (Nat.eqb_spec (from c) p) as [Ef|Ef], (Nat.eqb_spec (to c) p) as [Et|Et]; try congruence.
      + inversion E1; subst. pose proof (i_fine _ _ _ I (to c)) as F. rewrite E2 in F. apply (fine_R _ _ _ _ _ _ _ _ c) in F as [F _].
        unfold ProcNet.W0. rewrite Nat.eqb_refl. lia.
      + inversion E2; subst. assert (H0 : r (from c) = 0%nat) by lia.
        pose proof (i_zero _ _ _ I _ _ _ _ _ _ _ _ E1 H0 c eq_refl). unfold ProcNet.R0. rewrite Nat.eqb_refl. lia.
      + exact (i_rank _ _ _ I _ _ _ _ _ _ _ _ _ _ _ _ _ _ E1 E2 Hr).
  Qed.
  Lemma behind_tail G0 p a l : behind G0 p (a :: l) -> behind G0 p l.
  Proof.
    intros [k Ek]. revert k Ek. assert (Hs : forall G1, a :: l = scripts p G1 -> exists j, l = scripts p (skipn j G1)).
    { induction G1 as [|g G1 IH]; intros E1; [discriminate|]. change (scripts p (g :: G1)) with (script p g ++ scripts p G1) in E1.
      destruct (script p g) as [|a0 l0] eqn:Eg; [destruct (IH E1) as [j Hj]; exists (S j); exact Hj|].
      assert (l0 = []) as ->. { destruct g as [c v|y]; cbn in Eg; [destruct (from c =? p)%nat; [|destruct (to c =? p)%nat]|destruct (member y p)]; congruence. }
      injection E1 as _ ->. exists 1%nat. reflexivity. }
    intros k Ek. destruct (Hs _ Ek) as [j Hj]. exists (j + k)%nat. rewrite Hj. rewrite skipn_skipn'. reflexivity.
  Qed.
  Lemma behind_skip G0 p a l : behind G0 p (a ++ l) -> forall n, behind G0 p (skipn n a ++ l).
  Proof.
    revert a. intros a H n. revert a H. induction n as [|n IH]; intros a H; [exact H|]. destruct a as [|x a]; [exact H|]. apply IH. eapply behind_tail. exact H.
  Qed.
  Lemma behind_head G0 p a l : behind G0 p (a :: l) -> List.In a (scripts p G0).
  Proof.
    intros [k Ek]. revert G0 Ek. induction k as [|k IH]; intros G0 Ek; [cbn [skipn] in Ek; rewrite <- Ek; left; reflexivity|].
    destruct G0 as [|g G0]; [discriminate|]. apply in_or_app. right. apply IH. exact Ek.
  Qed.
  Lemma behind_snd G0 p c v l : behind G0 p (Snd c v :: l) -> from c = p.
  Proof.
    intros H. apply behind_head in H. apply in_flat_map in H as (g & _ & H). destruct g as [d w|x]; cbn in H.
    - destruct (Nat.eqb_spec (from d) p) as [e|]; [destruct H as [H|[]]; congruence|]. destruct (to d =? p)%nat; [destruct H as [H|[]]; congruence|destruct H].
    - destruct (member x p); [destruct H as [H|[]]; congruence|destruct H].
  Qed.
  Lemma behind_rcv G0 p c v l : behind G0 p (Rcv c v :: l) -> to c = p.
  Proof.
    intros H. apply behind_head in H. apply in_flat_map in H as (g & _ & H). destruct g as [d w|x]; cbn in H.
    - destruct (Nat.eqb_spec (from d) p) as [e|]; [destruct H as [H|[]]; congruence|]. destruct (Nat.eqb_spec (to d) p); [destruct H as [H|[]]; congruence|destruct H].
    - destruct (member x p); [destruct H as [H|[]]; congruence|destruct H].
  Qed.
  Lemma inv_leave ch r s p x R W u hot g l : inv ch r s -> s p = In x R W u hot g l -> (forall c, R c = []) -> (forall c, W c = []) ->
    inv ch r (ups s p (Out l)).
  Proof using All.
    intros I Es HR HW.
    assert (RS : forall q c, reads_st c (ups s p (Out l) q) = reads_st c (s q)).
    { intros q c. unfold ups. destruct (Nat.eqb_spec q p) as [->|]; [|reflexivity]. rewrite Es. cbn. rewrite HR. reflexivity. }
    assert (WS : forall q c, writes_st c (ups s p (Out l) q) = writes_st c (s q)).
    { intros q c. unfold ups. destruct (Nat.eqb_spec q p) as [->|]; [|reflexivity]. rewrite Es. cbn. rewrite HW. reflexivity. }
    constructor.
    - intros c. rewrite RS, WS. apply (i_bal _ _ _ I).
    - intros q. unfold ups. destruct (Nat.eqb_spec q p) as [->|]; [|apply (i_pos _ _ _ I)]. pose proof (i_pos _ _ _ I p) as H. rewrite Es in H. cbn in *.
      eapply behind_tail; eauto.
    - intros q. unfold ups. destruct (Nat.eqb_spec q p) as [->|]; [exact Logic.I|apply (i_fine _ _ _ I)].
    - intros q x0 R1 W1 u1 h1 g1 l0 Eq. unfold ups in Eq. destruct (q =? p)%nat; [discriminate|exact (i_hot _ _ _ I _ _ _ _ _ _ _ _ Eq)].
    - intros q x0 R1 W1 u1 h1 g1 l0 Eq. unfold ups in Eq. destruct (q =? p)%nat; [discriminate|exact (i_zero _ _ _ I _ _ _ _ _ _ _ _ Eq)].
    - intros c x0 R1 W1 u1 h1 g1 l0 R' W' u' hot' g' l' E1 E2. unfold ups in E1, E2.
      destruct (from c =? p)%nat; [discriminate|]. destruct (to c =? p)%nat; [discriminate|]. exact (i_rank _ _ _ I _ _ _ _ _ _ _ _ _ _ _ _ _ _ E1 E2).
  Qed.
  Lemma inv_ext ch ch' r s s' : inv ch r s -> (forall c, ch c = ch' c) -> (forall p, s p = s' p) -> inv ch' r s'.
  Proof.
    intros I Ec Es. constructor.
    - intros c. rewrite <- Ec, <- !Es. apply (i_bal _ _ _ I).
    - intros p. rewrite <- Es. apply (i_pos _ _ _ I).
    - intros p. rewrite <- Es. apply (i_fine _ _ _ I).
    - intros p x R W u hot g l E1 c. rewrite <- Es in E1. rewrite <- Ec. apply (i_hot _ _ _ I _ _ _ _ _ _ _ _ E1).
    - intros p x R W u hot g l E1. rewrite <- Es in E1. apply (i_zero _ _ _ I _ _ _ _ _ _ _ _ E1).
    - intros c x0 R1 W1 u1 h1 g1 l0 R' W' u' hot' g' l' E1 E2. rewrite <- Es in E1, E2. apply (i_rank _ _ _ I _ _ _ _ _ _ _ _ _ _ _ _ _ _ E1 E2).
  Qed.
  Lemma ups_ups {A} (f : nat -> A) p a b q : ups (ups f p a) p b q = ups f p b q.
  Proof. unfold ups. destruct (q =? p)%nat; reflexivity. Qed.
  Lemma ups_id {A} (f : nat -> A) p q : ups f p (f p) q = f q.
  Proof. unfold ups. destruct (Nat.eqb_spec q p) as [->|]; reflexivity. Qed.

  Lemma inv_sees ch s p a b : sees p a b -> forall r, inv ch r (ups s p a) -> exists r', inv ch r' (ups s p b) /\ (cost_st p b <= cost_st p a)%nat.
  Proof using All.
    induction 1 as [a|x l a Hs IH|x R W u hot g l a HR HW Hs IH]; intros r I.
    - exists r. auto.
    - apply (inv_enter _ _ _ p x l) in I; [|apply ups_same].
      apply inv_ext with (ch' := ch) (s' := ups s p (In x (R0 x p) (W0 x p) (fun _ => 0%nat) [] (gas x p) l)) in I; [|reflexivity|apply ups_ups].
      destruct (IH _ I) as (r' & I' & Hc). exists r'. split; [exact I'|]. exact Hc.
    - apply (inv_leave _ _ _ p x R W u hot g l) in I; [|apply ups_same|exact HR|exact HW].
      apply inv_ext with (ch' := ch) (s' := ups s p (Out l)) in I; [|reflexivity|apply ups_ups].
      destruct (IH _ I) as (r' & I' & Hc). exists r'. split; [exact I'|]. cbn in *. lia.
  Qed.

  (** ** Positions *)
  Lemma in_blocks G0 p x : List.In (Loc x) (scripts p G0) -> List.In x (blocks G0).
  Proof.
    intros H. apply in_flat_map in H as (g & Hg & H). apply in_flat_map. exists g. split; [exact Hg|]. destruct g as [d w|y]; cbn in H.
    - destruct (from d =? p)%nat; [destruct H as [H|[]]; congruence|]. destruct (to d =? p)%nat; [destruct H as [H|[]]; congruence|destruct H].
    - destruct (member y p); [destruct H as [H|[]]; left; congruence|destruct H].
  Qed.
  Lemma behind_cons g G0 p l : behind (g :: G0) p l -> (script p g <> [] /\ l = script p g ++ scripts p G0) \/ behind G0 p l.
  Proof.
    intros [[|k] Ek]; [|right; exists k; exact Ek]. cbn in Ek. destruct (script p g) eqn:Eg; [right; exists 0%nat; cbn in *; exact Ek|].
    left. split; [discriminate|exact Ek].
  Qed.
  Lemma aligned G0 p q x l1 l2 : NoDup (blocks G0) -> behind G0 p (Loc x :: l1) -> behind G0 q (Loc x :: l2) ->
    exists G1, l1 = scripts p G1 /\ l2 = scripts q G1.
  Proof.
    induction G0 as [|g G0 IH]; intros Hn Hp Hq; [destruct Hp as [k Ek]; destruct k; discriminate|].
    assert (Hn' : NoDup (blocks G0)). { destruct g; [exact Hn|]. inversion Hn; assumption. }
    destruct (behind_cons _ _ _ _ Hp) as [[_ E1]|Hp']; destruct (behind_cons _ _ _ _ Hq) as [[_ E2]|Hq'].
    - destruct g as [c v|y]; cbn in E1, E2.
      + destruct (from c =? p)%nat; [discriminate|]. destruct (to c =? p)%nat; [discriminate|]. cbn in E1.
        destruct (from c =? q)%nat; [discriminate|]. destruct (to c =? q)%nat; [discriminate|]. cbn in E2.
        apply IH; [exact Hn'| |]; exists 0%nat; assumption.
      + destruct (member y p), (member y q); cbn in E1, E2.
        * injection E1 as -> ->. injection E2 as ->. exists G0. auto.
        * injection E1 as <- ->. exfalso. inversion Hn; subst. apply H1. apply (in_blocks _ q). rewrite <- E2. left. reflexivity.
        * injection E2 as <- ->. exfalso. inversion Hn; subst. apply H1. apply (in_blocks _ p). rewrite <- E1. left. reflexivity.
        * apply IH; [exact Hn'| |]; exists 0%nat; assumption.
    - destruct g as [c v|y]; cbn in E1.
      + destruct (from c =? p)%nat; [discriminate|]. destruct (to c =? p)%nat; [discriminate|]. apply IH; [exact Hn'|exists 0%nat; exact E1|exact Hq'].
      + destruct (member y p); [|apply IH; [exact Hn'|exists 0%nat; exact E1|exact Hq']]. injection E1 as <- ->.
        exfalso. inversion Hn; subst. apply H1. apply (in_blocks _ q). apply behind_head in Hq'. exact Hq'.
    - destruct g as [c v|y]; cbn in E2.
      + destruct (from c =? q)%nat; [discriminate|]. destruct (to c =? q)%nat; [discriminate|]. apply IH; [exact Hn'|exact Hp'|exists 0%nat; exact E2].
      + destruct (member y q); [|apply IH; [exact Hn'|exact Hp'|exists 0%nat; exact E2]]. injection E2 as <- ->.
        exfalso. inversion Hn; subst. apply H1. apply (in_blocks _ p). apply behind_head in Hp'. exact Hp'.
    - apply IH; assumption.
  Qed.
  (** Two processes in the same exchange agree on what is under way. *)
  Lemma inv_both ch r s c x R W u hot g l R' W' u' hot' g' l' : inv ch r s ->
    s (from c) = In x R W u hot g l -> s (to c) = In x R' W' u' hot' g' l' -> R' c = ch c ++ W c.
  Proof using All.
    intros I E1 E2. pose proof (i_bal _ _ _ I c) as Hb. rewrite E1, E2 in Hb. cbn in Hb.
    pose proof (i_pos _ _ _ I (from c)) as P1. pose proof (i_pos _ _ _ I (to c)) as P2. rewrite E1 in P1. rewrite E2 in P2. cbn in P1, P2.
    destruct (aligned _ _ _ _ _ _ Hnd P1 P2) as (G1 & -> & ->). rewrite writes_total, reads_total in Hb.
    rewrite app_assoc in Hb. apply app_inv_tail in Hb. exact Hb.
  Qed.

  (** ** Steps *)
  Notation sc := (set_chan eqb).
  Lemma sc_same (f : C -> list Z) c a : sc f c a c = a.
  Proof using eqb_spec. unfold set_chan. rewrite eqb_refl. reflexivity. Qed.
  Lemma sc_other (f : C -> list Z) c a d : d <> c -> sc f c a d = f d.
  Proof using eqb_spec. intros H. unfold set_chan. rewrite (eqb_neq d c H). reflexivity. Qed.
  Lemma eq_dec_c (c d : C) : c = d \/ c <> d.
  Proof using eqb_spec. destruct (eqb c d) eqn:Ed; [left; apply eqb_spec; exact Ed|right; intros ->; rewrite eqb_refl in Ed; discriminate]. Qed.
  Lemma writes_snd c bs : writes c (map (Snd c) bs) = bs.
  Proof using eqb_spec. induction bs as [|v bs IH]; [reflexivity|]. cbn. rewrite eqb_refl. cbn. f_equal. exact IH. Qed.
  Lemma writes_snd_other c d bs : d <> c -> writes d (map (Snd c) bs) = [].
  Proof using eqb_spec. intros H. induction bs as [|v bs IH]; [reflexivity|]. cbn. rewrite (eqb_neq d c H). exact IH. Qed.
  Lemma reads_rcv c bs : reads c (map (Rcv c) bs) = bs.
  Proof using eqb_spec. induction bs as [|v bs IH]; [reflexivity|]. cbn. rewrite eqb_refl. cbn. f_equal. exact IH. Qed.
  Lemma reads_rcv_other c d bs : d <> c -> reads d (map (Rcv c) bs) = [].
  Proof using eqb_spec. intros H. induction bs as [|v bs IH]; [reflexivity|]. cbn. rewrite (eqb_neq d c H). exact IH. Qed.
  Lemma writes_rcv c d bs : writes d (map (Rcv c) bs) = [].
  Proof. induction bs as [|v bs IH]; [reflexivity|]. exact IH. Qed.
  Lemma reads_snd c d bs : reads d (map (Snd c) bs) = [].
  Proof. induction bs as [|v bs IH]; [reflexivity|]. exact IH. Qed.

  Lemma inv_write ch r s p c bs l n : inv ch r s -> s p = Out (map (Snd c) bs ++ l) -> bs <> [] ->
    inv (sc ch c (ch c ++ firstn n bs)) r (ups s p (Out (map (Snd c) (skipn n bs) ++ l))).
  Proof using All.
    intros I Es Hb. pose proof (i_pos _ _ _ I p) as Hp. rewrite Es in Hp. cbn [script_of] in Hp.
    assert (Hf : from c = p). { destruct bs as [|b0 bs]; [contradiction|]. exact (behind_snd _ _ _ _ _ Hp). }
    constructor.
    - intros d. pose proof (i_bal _ _ _ I d) as Hd.
      assert (Hr : reads_st d (ups s p (Out (map (Snd c) (skipn n bs) ++ l)) (to d)) = reads_st d (s (to d))).
      { unfold ups. destruct (Nat.eqb_spec (to d) p) as [Et|]; [|reflexivity]. rewrite Et, Es. cbn [reads_st]. rewrite !reads_app, !reads_snd. reflexivity. }
      rewrite Hr, Hd. destruct (eq_dec_c d c) as [->|Hn].
      + rewrite sc_same, Hf, ups_same, Es. cbn [writes_st]. rewrite !writes_app, !writes_snd, <- !app_assoc. f_equal.
        rewrite app_assoc, firstn_skipn. reflexivity.
      + rewrite sc_other by assumption. f_equal. unfold ups. destruct (Nat.eqb_spec (from d) p) as [Et|]; [|reflexivity]. rewrite Et, Es.
        cbn [writes_st]. rewrite !writes_app, !writes_snd_other by assumption. reflexivity.
    - intros q. unfold ups. destruct (Nat.eqb_spec q p) as [->|]; [|apply (i_pos _ _ _ I)]. cbn [script_of]. rewrite <- skipn_map.
      apply behind_skip. exact Hp.
    - intros q. unfold ups. destruct (Nat.eqb_spec q p) as [->|]; [exact Logic.I|apply (i_fine _ _ _ I)].
    - intros q x0 R1 W1 u1 h1 g1 l0 Eq d Hd. unfold ups in Eq. destruct (q =? p)%nat; [discriminate|].
      destruct (i_hot _ _ _ I _ _ _ _ _ _ _ _ Eq d Hd) as [H1 H2]. split; [exact H1|].
      destruct (eq_dec_c d c) as [->|Hn]; [rewrite sc_same; intros E0; apply app_eq_nil in E0 as [E0 _]; contradiction|rewrite sc_other; assumption].
    - intros q x0 R1 W1 u1 h1 g1 l0 Eq. unfold ups in Eq. destruct (q =? p)%nat; [discriminate|exact (i_zero _ _ _ I _ _ _ _ _ _ _ _ Eq)].
    - intros d x0 R1 W1 u1 h1 g1 l0 R' W' u' hot' g' l' E1 E2. unfold ups in E1, E2.
      destruct (from d =? p)%nat; [discriminate|]. destruct (to d =? p)%nat; [discriminate|]. exact (i_rank _ _ _ I _ _ _ _ _ _ _ _ _ _ _ _ _ _ E1 E2).
  Qed.

  Lemma read_same ch r s p c l bs got rest : inv ch r s -> to c = p -> reads_st c (s p) = bs ++ l ->
    ch c = got ++ rest -> (length got <= length bs)%nat -> got = firstn (length got) bs.
  Proof.
    intros I Ht Hr Hc Hl. pose proof (i_bal _ _ _ I c) as Hb. rewrite Ht, Hr, Hc, <- app_assoc in Hb.
    apply (f_equal (firstn (length got))) in Hb. rewrite firstn_app, firstn_app in Hb.
    rewrite firstn_all, Nat.sub_diag in Hb. replace (length got - length bs)%nat with 0%nat in Hb by lia. cbn in Hb.
    rewrite !app_nil_r in Hb. symmetry. exact Hb.
  Qed.

  Lemma inv_read ch r s p c bs l got rest : inv ch r s -> s p = Out (map (Rcv c) bs ++ l) -> bs <> [] ->
    ch c = got ++ rest -> (length got <= length bs)%nat ->
    got = firstn (length got) bs /\ inv (sc ch c rest) r (ups s p (Out (map (Rcv c) (skipn (length got) bs) ++ l))).
  Proof using All.
    intros I Es Hb Hc Hl. pose proof (i_pos _ _ _ I p) as Hp. rewrite Es in Hp. cbn [script_of] in Hp.
    assert (Hf : to c = p). { destruct bs as [|b0 bs]; [contradiction|]. exact (behind_rcv _ _ _ _ _ Hp). }
    assert (Hg : got = firstn (length got) bs).
    { eapply (read_same ch r s p c (reads c l)); eauto. rewrite Es. cbn [reads_st]. rewrite reads_app, reads_rcv. reflexivity. }
    split; [exact Hg|]. constructor.
    - intros d. pose proof (i_bal _ _ _ I d) as Hd.
      assert (Hr : writes_st d (ups s p (Out (map (Rcv c) (skipn (length got) bs) ++ l)) (from d)) = writes_st d (s (from d))).
      { unfold ups. destruct (Nat.eqb_spec (from d) p) as [Et|]; [|reflexivity]. rewrite Et, Es. cbn [writes_st]. rewrite !writes_app, !writes_rcv. reflexivity. }
      rewrite Hr. destruct (eq_dec_c d c) as [->|Hn].
      + rewrite sc_same. rewrite Hf, ups_same. rewrite Hf, Es in Hd. cbn [reads_st] in *. rewrite reads_app, reads_rcv in *.
        rewrite Hc, <- app_assoc in Hd. rewrite <- (firstn_skipn (length got) bs), <- Hg, <- app_assoc in Hd at 1. apply app_inv_head in Hd. exact Hd.
      + rewrite sc_other by assumption. rewrite <- Hd. unfold ups. destruct (Nat.eqb_spec (to d) p) as [Et|]; [|reflexivity]. rewrite Et, Es.
        cbn [reads_st]. rewrite !reads_app, !reads_rcv_other by assumption. reflexivity.
    - intros q. unfold ups. destruct (Nat.eqb_spec q p) as [->|]; [|apply (i_pos _ _ _ I)]. cbn [script_of]. rewrite <- skipn_map.
      apply behind_skip. exact Hp.
    - intros q. unfold ups. destruct (Nat.eqb_spec q p) as [->|]; [exact Logic.I|apply (i_fine _ _ _ I)].
    - intros q x0 R1 W1 u1 h1 g1 l0 Eq d Hd. unfold ups in Eq. destruct (Nat.eqb_spec q p) as [->|Hq]; [discriminate|].
      destruct (i_hot _ _ _ I _ _ _ _ _ _ _ _ Eq d Hd) as [H1 H2]. split; [exact H1|]. rewrite sc_other; [exact H2|]. congruence.
    - intros q x0 R1 W1 u1 h1 g1 l0 Eq. unfold ups in Eq. destruct (q =? p)%nat; [discriminate|exact (i_zero _ _ _ I _ _ _ _ _ _ _ _ Eq)].
    - intros d x0 R1 W1 u1 h1 g1 l0 R' W' u' hot' g' l' E1 E2. unfold ups in E1, E2.
      destruct (from d =? p)%nat; [discriminate|]. destruct (to d =? p)%nat; [discriminate|]. exact (i_rank _ _ _ I _ _ _ _ _ _ _ _ _ _ _ _ _ _ E1 E2).
  Qed.

  Notation upf := (upf eqb).
  Lemma upf_same {A} (f : C -> A) c a : upf f c a c = a.
  Proof using eqb_spec. unfold ProcNet.upf. rewrite eqb_refl. reflexivity. Qed.
  Lemma upf_other {A} (f : C -> A) c a d : d <> c -> upf f c a d = f d.
  Proof using eqb_spec. intros H. unfold ProcNet.upf. rewrite (eqb_neq d c H). reflexivity. Qed.
  Lemma skipn_suffix {A} (a w : list A) (m : list A) n k : a ++ w = skipn k m -> exists j, skipn n a ++ w = skipn j m.
  Proof.
    revert a k. induction n as [|n IH]; intros a k H; [exists k; exact H|]. destruct a as [|x a]; [exists k; exact H|]. cbn [skipn].
    apply (IH a (1 + k)%nat). rewrite <- skipn_skipn', <- H. reflexivity.
  Qed.

  Lemma inv_bwrite ch r s p x R W u hot g0 g l c bs w n : inv ch r s -> s p = In x R W u hot g0 l -> bs <> [] -> W c = bs ++ w -> (n <= length bs)%nat ->
    inv (sc ch c (ch c ++ firstn n bs)) r (ups s p (In x R (upf W c (skipn n bs ++ w)) (upf u c (u c + n)%nat) hot g l)).
  Proof using All.
    intros I Es Hb HW Hn. pose proof (i_fine _ _ _ I p) as F. rewrite Es in F.
    assert (Hf : from c = p). { apply (fine_W _ _ _ _ _ _ _ _ c) in F as [_ F]. apply F. rewrite HW. destruct bs; [contradiction|discriminate]. }
    assert (Hlen : length (skipn n bs ++ w) = (length (W c) - n)%nat). { rewrite HW, !app_length, skipn_length. lia. }
    assert (HWl : (n <= length (W c))%nat) by (rewrite HW, app_length; lia).
    assert (Hsum : forall d, (length (upf W c (skipn n bs ++ w) d) + upf u c (u c + n)%nat d = length (W d) + u d)%nat).
    { intros d. destruct (eq_dec_c d c) as [->|Hd]; [rewrite !upf_same; lia|rewrite !upf_other by assumption; reflexivity]. }
    constructor.
    - intros d. pose proof (i_bal _ _ _ I d) as Hd.
      set (nw := In x R _ _ hot g l).
      assert (Hr : reads_st d (ups s p nw (to d)) = reads_st d (s (to d))).
      { unfold ups. destruct (Nat.eqb_spec (to d) p) as [Et|]; [|reflexivity]. rewrite Et, Es. reflexivity. }
      rewrite Hr, Hd. destruct (eq_dec_c d c) as [->|Hdc].
      + rewrite sc_same, Hf, ups_same, Es. cbn [writes_st nw]. rewrite upf_same, HW, <- !app_assoc. f_equal.
        rewrite (app_assoc (firstn n bs)), firstn_skipn. reflexivity.
      + rewrite sc_other by assumption. f_equal. unfold ups. destruct (Nat.eqb_spec (from d) p) as [Et|]; [|reflexivity]. rewrite Et, Es.
        cbn [writes_st nw]. rewrite upf_other by assumption. reflexivity.
    - intros q. unfold ups. destruct (Nat.eqb_spec q p) as [->|]; [|apply (i_pos _ _ _ I)]. pose proof (i_pos _ _ _ I p) as H. rewrite Es in H. exact H.
    - intros q. unfold ups. destruct (Nat.eqb_spec q p) as [->|]; [|apply (i_fine _ _ _ I)]. destruct F as [F1 F2]. split; [exact F1|].
      intros d. destruct (eq_dec_c d c) as [->|Hdc]; [|rewrite upf_other by assumption; apply F2]. rewrite upf_same. destruct (F2 c) as [k Hk].
      rewrite HW in Hk. eapply skipn_suffix. exact Hk.
    - intros q x0 R1 W1 u1 h1 g1 l0 Eq d Hd.
      assert (HH : to d = q /\ ch d <> []).
      { unfold ups in Eq. destruct (Nat.eqb_spec q p) as [->|]; [|exact (i_hot _ _ _ I _ _ _ _ _ _ _ _ Eq d Hd)].
        inversion Eq; subst. exact (i_hot _ _ _ I _ _ _ _ _ _ _ _ Es d Hd). }
      destruct HH as [H1 H2]. split; [exact H1|].
      destruct (eq_dec_c d c) as [->|Hdc]; [rewrite sc_same; intros E0; apply app_eq_nil in E0 as [E0 _]; contradiction|rewrite sc_other; assumption].
    - intros q x0 R1 W1 u1 h1 g1 l0 Eq Hr d Hd. unfold ups in Eq. destruct (Nat.eqb_spec q p) as [->|]; [|exact (i_zero _ _ _ I _ _ _ _ _ _ _ _ Eq Hr d Hd)].
      injection Eq as <- <- <- <- <- <- <-. rewrite Hsum. exact (i_zero _ _ _ I _ _ _ _ _ _ _ _ Es Hr d Hd).
    - intros d x0 R1 W1 u1 h1 g1 l0 R' W' u' hot' g' l' E1 E2 Hr. unfold ups in E1, E2. pose proof (Hft d) as Hd.
      destruct (Nat.eqb_spec (from d) p) as [Ef|Ef], (Nat.eqb_spec (to d) p) as [Et|Et]; try congruence.
      + injection E1 as <- <- <- <- <- <- <-. rewrite Hsum. rewrite <- Ef in Es. exact (i_rank _ _ _ I _ _ _ _ _ _ _ _ _ _ _ _ _ _ Es E2 Hr).
      + injection E2 as <- <- <- <- <- <- <-. rewrite <- Et in Es. exact (i_rank _ _ _ I _ _ _ _ _ _ _ _ _ _ _ _ _ _ E1 Es Hr).
      + exact (i_rank _ _ _ I _ _ _ _ _ _ _ _ _ _ _ _ _ _ E1 E2 Hr).
  Qed.

  Lemma inv_bread ch r s p x R W u hot g0 g l c got rest : inv ch r s -> s p = In x R W u hot g0 l -> R c <> [] ->
    ch c = got ++ rest -> (length got <= length (R c))%nat ->
    got = firstn (length got) (R c) /\
    inv (sc ch c rest) r (ups s p (In x (upf R c (skipn (length got) (R c))) W u (filter (fun d => negb (eqb d c)) hot) g l)).
  Proof using All.
    intros I Es Hh Hc Hl. assert (Hf : to c = p). { pose proof (i_fine _ _ _ I p) as F0. rewrite Es in F0. exact (proj2 (fine_R _ _ _ _ _ _ _ _ c F0) Hh). }
    assert (Hg : got = firstn (length got) (R c)). { eapply (read_same ch r s p c (reads c l)); eauto. rewrite Es. reflexivity. }
    pose proof (i_fine _ _ _ I p) as F. rewrite Es in F.
    split; [exact Hg|]. set (R2 := upf R c _).
    assert (HR : forall d, (length (R2 d) <= length (R d))%nat).
    { intros d. unfold R2. destruct (eq_dec_c d c) as [->|Hd]; [rewrite upf_same, skipn_length; lia|rewrite upf_other by assumption; lia]. }
    constructor.
    - intros d. pose proof (i_bal _ _ _ I d) as Hd. set (nw := In x R2 _ _ _ g l).
      assert (Hr : writes_st d (ups s p nw (from d)) = writes_st d (s (from d))).
      { unfold ups. destruct (Nat.eqb_spec (from d) p) as [Et|]; [|reflexivity]. rewrite Et, Es. reflexivity. }
      rewrite Hr. destruct (eq_dec_c d c) as [->|Hn].
      + rewrite sc_same. rewrite Hf, ups_same. rewrite Hf, Es in Hd. cbn [reads_st nw] in *. unfold R2. rewrite upf_same.
        rewrite Hc, <- app_assoc in Hd. rewrite <- (firstn_skipn (length got) (R c)), <- Hg, <- app_assoc in Hd at 1. apply app_inv_head in Hd. exact Hd.
      + rewrite sc_other by assumption. rewrite <- Hd. unfold ups. destruct (Nat.eqb_spec (to d) p) as [Et|]; [|reflexivity]. rewrite Et, Es.
        cbn [reads_st nw]. unfold R2. rewrite upf_other by assumption. reflexivity.
    - intros q. unfold ups. destruct (Nat.eqb_spec q p) as [->|]; [|apply (i_pos _ _ _ I)]. pose proof (i_pos _ _ _ I p) as H. rewrite Es in H. exact H.
    - intros q. unfold ups. destruct (Nat.eqb_spec q p) as [->|]; [|apply (i_fine _ _ _ I)]. destruct F as [F1 F2]. split; [|exact F2].
      intros d. unfold R2. destruct (eq_dec_c d c) as [->|Hdc]; [|rewrite upf_other by assumption; apply F1]. rewrite upf_same. destruct (F1 c) as [k Hk].
      exists (length got + k)%nat. rewrite <- skipn_skipn', <- Hk. reflexivity.
    - intros q x0 R1 W1 u1 h1 g1 l0 Eq d Hd. unfold ups in Eq. destruct (Nat.eqb_spec q p) as [->|Hq].
      + injection Eq as <- <- <- <- <- <- <-. apply filter_In in Hd as [Hd Hne]. destruct (i_hot _ _ _ I _ _ _ _ _ _ _ _ Es d Hd) as [H1 H2].
        split; [exact H1|]. rewrite sc_other; [exact H2|]. intros ->. rewrite eqb_refl in Hne. discriminate.
      + destruct (i_hot _ _ _ I _ _ _ _ _ _ _ _ Eq d Hd) as [H1 H2]. split; [exact H1|]. rewrite sc_other; [exact H2|]. congruence.
    - intros q x0 R1 W1 u1 h1 g1 l0 Eq Hr d Hd. unfold ups in Eq. destruct (Nat.eqb_spec q p) as [->|]; [|exact (i_zero _ _ _ I _ _ _ _ _ _ _ _ Eq Hr d Hd)].
      injection Eq as <- <- <- <- <- <- <-. exact (i_zero _ _ _ I _ _ _ _ _ _ _ _ Es Hr d Hd).
    - intros d x0 R1 W1 u1 h1 g1 l0 R' W' u' hot' g' l' E1 E2 Hr. unfold ups in E1, E2. pose proof (Hft d) as Hd.
      destruct (Nat.eqb_spec (from d) p) as [Ef|Ef], (Nat.eqb_spec (to d) p) as [Et|Et]; try congruence.
      + injection E1 as <- <- <- <- <- <- <-. rewrite <- Ef in Es. exact (i_rank _ _ _ I _ _ _ _ _ _ _ _ _ _ _ _ _ _ Es E2 Hr).
      + injection E2 as <- <- <- <- <- <- <-. rewrite <- Et in Es. pose proof (i_rank _ _ _ I _ _ _ _ _ _ _ _ _ _ _ _ _ _ E1 Es Hr). specialize (HR d). lia.
      + exact (i_rank _ _ _ I _ _ _ _ _ _ _ _ _ _ _ _ _ _ E1 E2 Hr).
  Qed.

  Lemma in_flagged (ch : C -> list Z) cs c : List.In c (flagged cs (map (fun d => readable (ch d)) cs)) -> List.In c cs /\ ch c <> [].
  Proof.
    unfold flagged. intros H. apply in_map_iff in H as ([d f] & <- & H). apply filter_In in H as [H Hf]. cbn in Hf. subst f. cbn.
    induction cs as [|e cs IH]; [destruct H|]. cbn in H. destruct H as [H|H].
    - injection H as -> H. split; [left; reflexivity|]. destruct (ch d); [discriminate|discriminate].
    - apply IH in H as [H1 H2]. split; [right; exact H1|exact H2].
  Qed.

  Lemma inv_poll ch r s p x R W u hot g0 g l cs : inv ch r s -> s p = In x R W u hot g0 l -> (forall c, List.In c cs <-> R c <> []) ->
    (forall q, (NP <= q)%nat -> s q = Out []) ->
    let fs := map (fun c => readable (ch c)) cs in
    exists r', inv ch r' (ups s p (In x R W (if existsb (fun f => f) fs then u else fun _ => 0%nat) (flagged cs fs) g l)).
  Proof using All.
    intros I Es Hcs Hq0 fs. pose proof (i_fine _ _ _ I p) as F. rewrite Es in F.
    set (nw := In x R W _ _ g l).
    assert (RS : forall q c, reads_st c (ups s p nw q) = reads_st c (s q)).
    { intros q c. unfold ups. destruct (Nat.eqb_spec q p) as [->|]; [|reflexivity]. rewrite Es. reflexivity. }
    assert (WS : forall q c, writes_st c (ups s p nw q) = writes_st c (s q)).
    { intros q c. unfold ups. destruct (Nat.eqb_spec q p) as [->|]; [|reflexivity]. rewrite Es. reflexivity. }
    assert (Hhot : forall q x R W u hot g l, ups s p nw q = In x R W u hot g l -> forall c, List.In c hot -> to c = q /\ ch c <> []).
    { intros q x0 R1 W1 u1 h1 g1 l0 Eq d Hd. unfold ups in Eq. destruct (Nat.eqb_spec q p) as [->|Hq]; [|exact (i_hot _ _ _ I _ _ _ _ _ _ _ _ Eq d Hd)].
      injection Eq as <- <- <- <- <- <- <-. apply in_flagged in Hd as [H1 H2]. split; [|exact H2]. apply Hcs in H1.
      apply (fine_R _ _ _ _ _ _ _ _ d) in F as [_ F]. exact (F H1). }
    assert (Hpos : forall q, behind G q (script_of (ups s p nw q))).
    { intros q. unfold ups. destruct (Nat.eqb_spec q p) as [->|]; [|apply (i_pos _ _ _ I)]. pose proof (i_pos _ _ _ I p) as H. rewrite Es in H. exact H. }
    assert (Hfi : forall q, fine q (ups s p nw q)).
    { intros q. unfold ups. destruct (Nat.eqb_spec q p) as [->|]; [exact F|apply (i_fine _ _ _ I)]. }
    destruct (existsb (fun f => f) fs) eqn:Ex.
    - exists r. constructor; auto.
      + intros c. rewrite RS, WS. apply (i_bal _ _ _ I).
      + intros q x0 R1 W1 u1 h1 g1 l0 Eq Hr d Hd. unfold ups in Eq. destruct (Nat.eqb_spec q p) as [->|]; [|exact (i_zero _ _ _ I _ _ _ _ _ _ _ _ Eq Hr d Hd)].
        injection Eq as <- <- <- <- <- <- <-. exact (i_zero _ _ _ I _ _ _ _ _ _ _ _ Es Hr d Hd).
      + intros d x0 R1 W1 u1 h1 g1 l0 R' W' u' hot' g' l' E1 E2 Hr. unfold ups in E1, E2. pose proof (Hft d) as Hd.
        destruct (Nat.eqb_spec (from d) p) as [Ef|Ef], (Nat.eqb_spec (to d) p) as [Et|Et]; try congruence.
        * injection E1 as <- <- <- <- <- <- <-. rewrite <- Ef in Es. exact (i_rank _ _ _ I _ _ _ _ _ _ _ _ _ _ _ _ _ _ Es E2 Hr).
        * injection E2 as <- <- <- <- <- <- <-. rewrite <- Et in Es. exact (i_rank _ _ _ I _ _ _ _ _ _ _ _ _ _ _ _ _ _ E1 Es Hr).
        * exact (i_rank _ _ _ I _ _ _ _ _ _ _ _ _ _ _ _ _ _ E1 E2 Hr).
    - assert (Hno : forall d, R d <> [] -> ch d = []).
      { intros d Hd. apply Hcs in Hd. destruct (ch d) eqn:Ed; [reflexivity|]. exfalso.
        assert (Ht : existsb (fun f => f) fs = true); [|congruence]. apply existsb_exists. exists true. split; [|reflexivity].
        apply in_map_iff. exists d. split; [rewrite Ed; reflexivity|exact Hd]. }
      exists (ups r p (S (list_max (map r (seq 0 NP))))).
      assert (Hmax : forall q, (q < NP)%nat -> (r q <= list_max (map r (seq 0 NP)))%nat).
      { intros q Hq. pose proof (proj1 (list_max_le (map r (seq 0 NP)) _) (Nat.le_refl _)) as Hm. rewrite Forall_forall in Hm.
        apply Hm. apply in_map. apply in_seq. lia. }
      constructor; auto.
      + intros c. rewrite RS, WS. apply (i_bal _ _ _ I).
      + intros q x0 R1 W1 u1 h1 g1 l0 Eq Hr d Hd. unfold ups in Eq, Hr. destruct (Nat.eqb_spec q p) as [->|]; [discriminate|exact (i_zero _ _ _ I _ _ _ _ _ _ _ _ Eq Hr d Hd)].
      + intros d x0 R1 W1 u1 h1 g1 l0 R' W' u' hot' g' l' E1 E2 Hr. unfold ups in E1, E2, Hr. pose proof (Hft d) as Hd.
        destruct (Nat.eqb_spec (from d) p) as [Ef|Ef], (Nat.eqb_spec (to d) p) as [Et|Et]; try congruence.
        * exfalso. destruct (Nat.lt_ge_cases (to d) NP) as [Hlt|Hge]; [specialize (Hmax _ Hlt); lia|]. rewrite (Hq0 _ Hge) in E2. discriminate.
        * injection E2 as <- <- <- <- <- <- <-. rewrite <- Et in Es. pose proof (inv_both _ _ _ _ _ _ _ _ _ _ _ _ _ _ _ _ _ I E1 Es) as Hb.
          destruct (R d) eqn:Ed; [cbn; lia|]. rewrite (Hno d) in Hb by congruence. cbn in Hb. rewrite Hb. lia.
        * exact (i_rank _ _ _ I _ _ _ _ _ _ _ _ _ _ _ _ _ _ E1 E2 Hr).
  Qed.

  (** ** The head of a process *)
  Inductive head (p : nat) : proc C E -> gst -> Prop :=
  | hd_ret : head p (Ret (goal p)) (Out [])
  | hd_write : forall c bs k l, bs <> [] ->
      (forall n, (1 <= n <= length bs)%nat -> obeys p (final p) (k n) (Out (map (Snd c) (skipn n bs) ++ l))) ->
      head p (Write c bs k) (Out (map (Snd c) bs ++ l))
  | hd_read : forall c n bs k l, (1 <= n <= length bs)%nat ->
      (forall m, (1 <= m <= n)%nat -> obeys p (final p) (k (firstn m bs)) (Out (map (Rcv c) (skipn m bs) ++ l))) ->
      head p (Read c n k) (Out (map (Rcv c) bs ++ l))
  | hd_bwrite : forall c bs w k x R W u hot g l, bs <> [] -> W c = bs ++ w ->
      (small x = true \/ (u c + length bs <= B)%nat \/ forall d, R d = []) ->
      (forall n, (1 <= n <= length bs)%nat ->
        obeys p (final p) (k n) (In x R (upf W c (skipn n bs ++ w)) (upf u c (u c + n)%nat) hot g l)) ->
      head p (Write c bs k) (In x R W u hot (S g) l)
  | hd_bread : forall c n k x R W u hot g l, (List.In c hot \/ small x = true /\ forall d, W d = []) -> (1 <= n <= length (R c))%nat ->
      (forall m, (1 <= m <= n)%nat ->
        obeys p (final p) (k (firstn m (R c))) (In x (upf R c (skipn m (R c))) W u (filter (fun d => negb (eqb d c)) hot) g l)) ->
      head p (Read c n k) (In x R W u hot (S g) l)
  | hd_poll : forall block cs k x R W u hot g l,
      (forall c, List.In c cs <-> R c <> []) -> (block = true -> (forall c, W c = []) /\ cs <> []) ->
      (forall fs, length fs = length cs -> (block = true -> List.In true fs) ->
        obeys p (final p) (k fs) (In x R W (if existsb (fun f => f) fs then u else fun _ => 0%nat) (flagged cs fs) g l)) ->
      head p (Poll block cs k) (In x R W u hot (S g) l).
  Lemma headed p pr s : obeys p (final p) pr s -> exists s1, sees p s s1 /\ head p pr s1.
  Proof.
    intros O. destruct O as [a s [-> H]|s c x R W u hot g l H|c bs k s l H|c n bs k s l H|c bs w k s x R W u hot g l H|c n k s x R W u hot g l H|c n k s x R W u hot g g0 l H Hc Hn Hk|bl cs k s x R W u hot g l H];
      [| discriminate H | | | | | | ]; eexists; (split; [exact H|]); try (econstructor; eauto; fail).
    apply hd_bread; [left; exact Hc|exact Hn|]. intros m Hm. specialize (Hk m). destruct m as [|m]; [lia|]. apply Hk; [lia|discriminate].
  Qed.

  (** ** Networks *)
  Definition totalcost (gs : nat -> gst) : nat := list_sum (map (fun p => cost_st p (gs p)) (seq 0 NP)).
  Record good (s : net C E) (r : nat -> nat) (gs : nat -> gst) : Prop := {
    g_inv : inv (nt_chan s) r gs;
    g_ob : forall p, (p < NP)%nat -> obeys p (final p) (nt_proc s p) (gs p);
    g_out : forall p, (NP <= p)%nat -> nt_proc s p = Ret (goal p) /\ gs p = Out []
  }.
  Lemma sum_ups (gs : nat -> gst) p a : (p < NP)%nat ->
    (totalcost (ups gs p a) + cost_st p (gs p) = totalcost gs + cost_st p a)%nat.
  Proof.
    unfold totalcost. intros H. assert (Hg : forall n m, (m <= p < m + n)%nat ->
      (list_sum (map (fun q => cost_st q (ups gs p a q)) (seq m n)) + cost_st p (gs p) = list_sum (map (fun q => cost_st q (gs q)) (seq m n)) + cost_st p a)%nat).
    { assert (Ho : forall n m, (p < m)%nat -> map (fun q => cost_st q (ups gs p a q)) (seq m n) = map (fun q => cost_st q (gs q)) (seq m n)).
      { intros n m Hm. apply map_ext_in. intros q Hq. apply in_seq in Hq. rewrite ups_other by lia. reflexivity. }
      induction n as [|n IH]; intros m Hm; [lia|]. cbn [seq map list_sum fold_right].
      change (fold_right Init.Nat.add 0%nat) with list_sum. destruct (Nat.eq_dec m p) as [->|Hne].
      - rewrite Ho by lia. rewrite ups_same. lia.
      - rewrite ups_other by lia. specialize (IH (S m)). lia. }
    apply Hg. lia.
  Qed.

  Lemma sees_writes p a b : sees p a b -> forall c, from c = p -> writes_st c b = writes_st c a.
  Proof using All.
    induction 1 as [a|x l a Hs IH|x R W u hot g l a HR HW Hs IH]; intros c Hc; [reflexivity| |]; rewrite (IH c Hc); cbn [writes_st].
    - unfold ProcNet.W0. rewrite Hc, Nat.eqb_refl. reflexivity.
    - rewrite HW. reflexivity.
  Qed.

  (** One process has been brought to its head. *)
  Lemma settle_one s r gs p : good s r gs -> (p < NP)%nat ->
    exists r' gs', good s r' gs' /\ head p (nt_proc s p) (gs' p) /\ (totalcost gs' <= totalcost gs)%nat /\ (forall q, q <> p -> gs' q = gs q) /\
      forall c, writes_st c (gs' (from c)) = writes_st c (gs (from c)).
  Proof using All.
    intros Gd Hp. destruct (headed _ _ _ (g_ob _ _ _ Gd p Hp)) as (s1 & Hs & Hh).
    assert (I0 : inv (nt_chan s) r (ups gs p (gs p))). { eapply inv_ext; [apply (g_inv _ _ _ Gd)|reflexivity|]. intros q. symmetry. apply ups_id. }
    destruct (inv_sees _ _ _ _ _ Hs _ I0) as (r' & I' & Hc).
    exists r', (ups gs p s1). rewrite ups_same. split; [|split; [exact Hh|split; [pose proof (sum_ups gs p s1 Hp); lia|split; [intros q Hq; apply ups_other; exact Hq|]]]].
    2: { intros c. unfold ups. destruct (Nat.eqb_spec (from c) p) as [Ef|]; [|reflexivity]. rewrite Ef. apply (sees_writes _ _ _ Hs). exact Ef. }
    constructor; [exact I'| |].
    - intros q Hq. unfold ups. destruct (Nat.eqb_spec q p) as [->|]; [|apply (g_ob _ _ _ Gd _ Hq)].
      clear - Hh. destruct Hh; [constructor; split; [reflexivity|apply see_refl]|eapply ob_write|eapply ob_read|eapply ob_bwrite| |eapply ob_poll]; eauto using see_refl; try discriminate.
      destruct H as [Hc|[Hs Hw]]; [eapply (ob_tread _ _ _ _ _ _ _ _ _ _ _ _ _ _ _ _ _ _ _ _ 0%nat)|eapply ob_bread]; eauto using see_refl; try discriminate.
      intros m Hm Hz. destruct m as [|m]; [discriminate (Hz eq_refl)|]. apply H1. lia.
    - intros q Hq. rewrite ups_other by lia. apply (g_out _ _ _ Gd _ Hq).
  Qed.
  Lemma settle s r gs : good s r gs -> exists r' gs', good s r' gs' /\ forall p, head p (nt_proc s p) (gs' p).
  Proof using All.
    intros Gd. assert (H : forall n, (n <= NP)%nat -> exists r' gs', good s r' gs' /\ forall p, (p < n)%nat -> head p (nt_proc s p) (gs' p)).
    { induction n as [|n IH]; intros Hn; [exists r, gs; split; [exact Gd|intros p Hp; lia]|].
      destruct (IH ltac:(lia)) as (r1 & gs1 & Gd1 & H1). destruct (settle_one s r1 gs1 n Gd1 ltac:(lia)) as (r2 & gs2 & Gd2 & H2 & _ & H3 & _).
      exists r2, gs2. split; [exact Gd2|]. intros p Hp. destruct (Nat.eq_dec p n) as [->|]; [exact H2|]. rewrite H3 by assumption. apply H1. lia. }
    destruct (H NP (Nat.le_refl _)) as (r' & gs' & Gd' & Hh). exists r', gs'. split; [exact Gd'|]. intros p.
    destruct (Nat.lt_ge_cases p NP) as [Hlt|Hge]; [apply Hh; exact Hlt|]. destruct (g_out _ _ _ Gd' p Hge) as [-> ->]. constructor.
  Qed.

  (** A step from s to s' puts on channel d the first of the bytes still to be written. *)
  Definition moved (s s' : net C E) (gs gs' : nat -> gst) (d : C) : Prop :=
    exists w, (nt_chan s' d = nt_chan s d ++ w \/ w = [] /\ exists got, nt_chan s d = got ++ nt_chan s' d) /\
      writes_st d (gs (from d)) = w ++ writes_st d (gs' (from d)).
  Lemma good_step s r gs s' : good s r gs -> net_step eqb cap s s' ->
    exists r' gs', good s' r' gs' /\ (S (totalcost gs') <= totalcost gs)%nat /\ forall d, moved s s' gs gs' d.
  Proof using All.
    intros Gd [p St]. assert (Hp : (p < NP)%nat).
    { destruct (Nat.lt_ge_cases p NP) as [|Hge]; [assumption|]. destruct (g_out _ _ _ Gd p Hge) as [Hr _]. destruct St; congruence. }
    destruct (settle_one s r gs p Gd Hp) as (r1 & gs1 & Gd1 & Hh & Hc & _ & Hwr). clear Gd.
    enough (exists r' gs', good s' r' gs' /\ (S (totalcost gs') <= totalcost gs1)%nat /\ forall d, moved s s' gs1 gs' d) as (r' & gs' & Hg & Hg' & Hm).
    { exists r', gs'. split; [exact Hg|]. split; [lia|]. intros d. destruct (Hm d) as (w & H1 & H2). exists w. split; [exact H1|]. rewrite <- Hwr. exact H2. }
    clear Hc Hwr r gs. destruct Gd1 as [I Ho Hout].
    assert (Fin : forall ch pr nw r', inv ch r' (ups gs1 p nw) -> obeys p (final p) pr nw -> (S (cost_st p nw) <= cost_st p (gs1 p))%nat ->
      (forall d, moved s {| nt_proc := set_proc (nt_proc s) p pr; nt_chan := ch |} gs1 (ups gs1 p nw) d) ->
      exists r' gs', good {| nt_proc := set_proc (nt_proc s) p pr; nt_chan := ch |} r' gs' /\ (S (totalcost gs') <= totalcost gs1)%nat /\
        forall d, moved s {| nt_proc := set_proc (nt_proc s) p pr; nt_chan := ch |} gs1 gs' d).
    { intros ch pr nw r' I' O' Hc Hmv. exists r', (ups gs1 p nw). split; [|split; [|exact Hmv]].
      - constructor; cbn [nt_proc nt_chan]; [exact I'| |].
        + intros q Hq. unfold set_proc, ups. destruct (Nat.eqb_spec q p) as [->|]; [exact O'|apply Ho; exact Hq].
        + intros q Hq. unfold set_proc, ups. destruct (Nat.eqb_spec q p) as [->|]; [lia|apply Hout; exact Hq].
      - pose proof (sum_ups gs1 p nw Hp). lia. }
    assert (Cs : forall c bs n l, (1 <= n <= length bs)%nat -> (S (cost p (map (Snd c) (skipn n bs) ++ l)) <= cost p (map (Snd c) bs ++ l))%nat).
    { intros c bs n l Hn. unfold cost. rewrite !map_app, !list_sum_app, !map_map.
      assert (Hk : forall m : list Z, list_sum (map (fun _ => 1%nat) m) = length m). { induction m as [|a m IH]; [reflexivity|]. cbn. f_equal. exact IH. }
      rewrite !Hk, skipn_length. lia. }
    assert (Cr : forall c bs n l, (1 <= n <= length bs)%nat -> (S (cost p (map (Rcv c) (skipn n bs) ++ l)) <= cost p (map (Rcv c) bs ++ l))%nat).
    { intros c bs n l Hn. unfold cost. rewrite !map_app, !list_sum_app, !map_map.
      assert (Hk : forall m : list Z, list_sum (map (fun _ => 1%nat) m) = length m). { induction m as [|a m IH]; [reflexivity|]. cbn. f_equal. exact IH. }
      rewrite !Hk, skipn_length. lia. }
    assert (Idle : forall ch pr nw, (forall d, from d = p -> writes_st d nw = writes_st d (gs1 p)) ->
      (forall d, exists got, nt_chan s d = got ++ ch d) -> forall d, moved s {| nt_proc := set_proc (nt_proc s) p pr; nt_chan := ch |} gs1 (ups gs1 p nw) d).
    { intros ch pr nw H1 H2 d. exists []. split; [right; split; [reflexivity|apply H2]|]. cbn [app]. unfold ups.
      destruct (Nat.eqb_spec (from d) p) as [Ef|]; [|reflexivity]. rewrite Ef. symmetry. apply H1. exact Ef. }
    assert (Wrote : forall pr nw c w, (forall d, writes_st d (gs1 p) = (if eqb d c then w else []) ++ writes_st d nw) -> from c = p ->
      forall d, moved s {| nt_proc := set_proc (nt_proc s) p pr; nt_chan := set_chan eqb (nt_chan s) c (nt_chan s c ++ w) |} gs1 (ups gs1 p nw) d).
    { intros pr nw c w H1 H2 d. exists (if eqb d c then w else []). cbn [nt_chan]. split.
      - left. unfold set_chan. destruct (eqb d c) eqn:Ed; [apply eqb_spec in Ed; subst d; reflexivity|symmetry; apply app_nil_r].
      - unfold ups. destruct (Nat.eqb_spec (from d) p) as [Ef|Ef]; [rewrite Ef; apply H1|].
        destruct (eqb d c) eqn:Ed; [apply eqb_spec in Ed; subst d; contradiction|reflexivity]. }
    assert (Took : forall c got rest, nt_chan s c = got ++ rest -> forall d, exists g, nt_chan s d = g ++ set_chan eqb (nt_chan s) c rest d).
    { intros c got rest Hc d. unfold set_chan. destruct (eqb d c) eqn:Ed; [apply eqb_spec in Ed; subst d; exists got; exact Hc|exists []; reflexivity]. }
    remember (gs1 p) as sp eqn:Esp. remember (nt_proc s p) as pr eqn:Epr. symmetry in Esp.
    destruct St as [c bs k n Ew Hn Hroom|c n k got rest Er Hc Hg|bl cs k Ep Hb].
    - rewrite Ew in Epr. destruct Hh as [|c0 bs0 k0 l0 Hb Hk| |c0 bs0 w k0 x R W u hot g l Hb HW Hu Hk| |]; try discriminate; injection Epr as -> -> ->.
      + eapply Fin; [eapply inv_write; eauto|apply Hk; exact Hn|apply Cs; exact Hn|]. apply Wrote.
        * intros d. cbn [writes_st]. rewrite !writes_app. destruct (eqb d c) eqn:Ed.
          -- apply eqb_spec in Ed. subst d. rewrite !writes_snd, app_assoc, firstn_skipn. reflexivity.
          -- rewrite !writes_snd_other by (intros ->; rewrite eqb_refl in Ed; discriminate). reflexivity.
        * pose proof (i_pos _ _ _ I p) as Hpos. rewrite Esp in Hpos. cbn [script_of] in Hpos. destruct bs as [|v bs]; [contradiction|]. exact (behind_snd _ _ _ _ _ Hpos).
      + eapply Fin; [eapply inv_bwrite; eauto; lia|apply Hk; exact Hn|cbn; lia|]. apply Wrote.
        * intros d. cbn [writes_st]. destruct (eqb d c) eqn:Ed.
          -- apply eqb_spec in Ed. subst d. rewrite upf_same, HW, !app_assoc, firstn_skipn. reflexivity.
          -- rewrite upf_other by (intros ->; rewrite eqb_refl in Ed; discriminate). reflexivity.
        * pose proof (i_fine _ _ _ I p) as F. rewrite Esp in F. apply (fine_W _ _ _ _ _ _ _ _ c) in F as [_ F]. apply F. rewrite HW. destruct bs; [contradiction|discriminate].
    - rewrite Er in Epr. destruct Hh as [| |c0 n0 bs0 k0 l0 Hb Hk| |c0 n0 k0 x R W u hot g l Hb HW Hk|]; try discriminate; injection Epr as -> -> ->.
      + destruct (inv_read _ _ _ _ _ _ _ got rest I Esp) as [Hgot I']; [destruct bs0; [cbn in Hb; lia|discriminate]|exact Hc|lia|].
        eapply Fin; [exact I'|rewrite Hgot at 1; apply Hk; lia|apply Cr; lia|]. apply Idle; [|exact (Took c got rest Hc)].
        intros d _. cbn [writes_st]. rewrite !writes_app, !writes_rcv. reflexivity.
      + destruct (inv_bread _ _ _ _ _ _ _ _ _ _ g _ c got rest I Esp) with (2 := Hc) as [Hgot I']; [intros E0; rewrite E0 in HW; cbn in HW; lia|lia|].
        eapply Fin; [exact I'|rewrite Hgot at 1; apply Hk; lia|cbn; lia|]. apply Idle; [reflexivity|exact (Took c got rest Hc)].
    - rewrite Ep in Epr. destruct Hh as [| | | | |bl0 cs0 k0 x R W u hot g l Hcs Hbl Hk]; try discriminate; injection Epr as -> -> ->.
      destruct (inv_poll _ _ _ _ _ _ _ _ _ _ g _ cs I Esp Hcs) as [r' I']; [intros q Hq; apply Hout; exact Hq|].
      eapply Fin; [exact I'|apply Hk| |].
      + apply map_length.
      + intros Ht. destruct (Hb Ht) as (c & Hin & Hr). apply in_map_iff. exists c. auto.
      + cbn. lia.
      + apply Idle; [reflexivity|]. intros d. exists []. reflexivity.
  Qed.

  (** ** Progress *)
  Section Progress.
    Context (s : net C E) (r : nat -> nat) (gs : nat -> gst) (Gd : good s r gs) (Hh : forall p, head p (nt_proc s p) (gs p)).
    Notation ch := (nt_chan s).
    Definition can_step : Prop := exists s', net_step eqb cap s s'.
    Let I : inv ch r gs := g_inv _ _ _ Gd.

    Lemma can_write p c bs k : nt_proc s p = Write c bs k -> bs <> [] -> (length (ch c) < cap c)%nat -> can_step.
    Proof. intros Hp Hb Hc. eexists. exists p. eapply step_write with (n := 1%nat); [exact Hp|destruct bs; [contradiction|cbn; lia]|lia]. Qed.
    Lemma can_read p c n k : nt_proc s p = Read c n k -> (1 <= n)%nat -> ch c <> [] -> can_step.
    Proof.
      intros Hp Hn Hc. destruct (ch c) as [|v t] eqn:Ec; [contradiction|]. eexists. exists p. eapply step_read with (got := [v]) (rest := t); [exact Hp|exact Ec|cbn; lia].
    Qed.
    Lemma can_poll p bl cs k : nt_proc s p = Poll bl cs k -> (bl = true -> exists c, List.In c cs /\ ch c <> []) -> can_step.
    Proof.
      intros Hp H. eexists. exists p. eapply step_poll; [exact Hp|]. intros Hb. destruct (H Hb) as (c & H1 & H2). exists c. split; [exact H1|].
      destruct (ch c); [contradiction|reflexivity].
    Qed.

    Lemma writes_le p c : from c = p -> (length (writes_st c (gs p)) <= length (writes c (script_of (gs p))))%nat.
    Proof using All.
      intros Hf. pose proof (i_fine _ _ _ I p) as F. destruct (gs p) as [l|x R W u hot g l]; [reflexivity|]. cbn [writes_st script_of].
      change (writes c (Loc x :: l)) with (D x c ++ writes c l). apply (fine_W _ _ _ _ _ _ _ _ c) in F as [F _]. rewrite !app_length. lia.
    Qed.
    Lemma reads_le p c : to c = p -> (length (reads_st c (gs p)) <= length (reads c (script_of (gs p))))%nat.
    Proof using All.
      intros Hf. pose proof (i_fine _ _ _ I p) as F. destruct (gs p) as [l|x R W u hot g l]; [reflexivity|]. cbn [reads_st script_of].
      change (reads c (Loc x :: l)) with (D x c ++ reads c l). apply (fine_R _ _ _ _ _ _ _ _ c) in F as [F _]. rewrite !app_length. lia.
    Qed.
    Lemma total_skip c k G0 : (length (total c (skipn k G0)) <= length (total c G0))%nat.
    Proof. revert k. induction G0 as [|g G0 IH]; intros [|k]; try reflexivity. cbn [skipn]. unfold total at 2. cbn [flat_map]. rewrite app_length. specialize (IH k). unfold total in *. lia. Qed.
    Lemma past_writes p c G1 : from c = p -> behind G1 p (script_of (gs p)) -> (length (writes_st c (gs p)) <= length (total c G1))%nat.
    Proof using All. intros Hf [k Ek]. pose proof (writes_le p c Hf) as H. rewrite Ek in H. subst p. rewrite writes_total in H. pose proof (total_skip c k G1). lia. Qed.
    Lemma past_reads p c G1 : to c = p -> behind G1 p (script_of (gs p)) -> (length (reads_st c (gs p)) <= length (total c G1))%nat.
    Proof using All. intros Hf [k Ek]. pose proof (reads_le p c Hf) as H. rewrite Ek in H. subst p. rewrite reads_total in H. pose proof (total_skip c k G1). lia. Qed.

    (** Everybody has reached the exchange x at the head of the choreography. *)
    Section At.
      Context (x : X) (G1 : list (gact C X)) (Hx : ~ List.In x (blocks G1)) (HxG : List.In x (blocks G)) (Hall : forall p, behind (Block x :: G1) p (script_of (gs p))).
      Definition inside (p : nat) R W u hot g : Prop := gs p = In x R W u hot g (scripts p G1).

      Lemma where_ p : behind G1 p (script_of (gs p)) \/ exists R W u hot g, inside p R W u hot g.
      Proof using All.
        destruct (behind_cons _ _ _ _ (Hall p)) as [[Hne E1]|Hb]; [right|left; exact Hb]. cbn [ProcNet.script] in *. destruct (member x p); [|contradiction].
        cbn [app] in E1. specialize (Hh p). destruct (gs p) as [l|y R W u hot g l] eqn:Eg.
        - exfalso. cbn in E1. subst l. inversion Hh as [|c bs k l0 Hb Hk|c n bs k l0 Hb Hk| | |]; destruct bs; try discriminate; [contradiction|cbn in Hb; lia].
        - cbn in E1. injection E1 as -> ->. exists R, W, u, hot, g. exact Eg.
      Qed.
      Lemma inside_Rb c R W u hot g R' W' u' hot' g' : inside (from c) R W u hot g -> inside (to c) R' W' u' hot' g' -> R' c = ch c ++ W c.
      Proof using All. intros H1 H2. exact (inv_both _ _ _ _ _ _ _ _ _ _ _ _ _ _ _ _ _ I H1 H2). Qed.
      Lemma inside_Wn c R W u hot g : inside (from c) R W u hot g -> behind G1 (to c) (script_of (gs (to c))) -> W c = [].
      Proof using All.
        intros H1 H2. apply (past_reads _ c _ eq_refl) in H2. pose proof (i_bal _ _ _ I c) as Hb. rewrite H1 in Hb. cbn in Hb.
        rewrite Hb, !app_length, writes_total in H2. destruct (W c); [reflexivity|cbn in H2; lia].
      Qed.
      Lemma inside_Rn c R W u hot g : inside (to c) R W u hot g -> behind G1 (from c) (script_of (gs (from c))) -> (length (R c) <= length (ch c))%nat.
      Proof using All.
        intros H1 H2. apply (past_writes _ c _ eq_refl) in H2. pose proof (i_bal _ _ _ I c) as Hb. rewrite H1 in Hb. cbn in Hb.
        apply (f_equal (@length Z)) in Hb. rewrite !app_length, reads_total in Hb. lia.
      Qed.
      Lemma R_to p R W u hot g c : inside p R W u hot g -> R c <> [] -> to c = p /\ D x c <> [].
      Proof using All.
        intros H1 H2. pose proof (i_fine _ _ _ I p) as F. rewrite H1 in F. apply (fine_R _ _ _ _ _ _ _ _ c) in F as [F1 F2]. split; [exact (F2 H2)|].
        destruct (R c); [contradiction|]. destruct (D x c); [cbn in F1; lia|discriminate].
      Qed.
      Lemma W_from p R W u hot g c : inside p R W u hot g -> W c <> [] -> from c = p /\ D x c <> [].
      Proof using All.
        intros H1 H2. pose proof (i_fine _ _ _ I p) as F. rewrite H1 in F. apply (fine_W _ _ _ _ _ _ _ _ c) in F as [F1 F2]. split; [exact (F2 H2)|].
        destruct (W c); [contradiction|]. destruct (D x c); [cbn in F1; lia|discriminate].
      Qed.

      (** A full channel leads to a process that has polled before its sender. *)
      Lemma descend : small x = false -> forall n j R W u hot g c, (r j < n)%nat -> inside j R W u hot g -> R c <> [] -> ch c <> [] -> can_step.
      Proof using All.
        intros Hbig. induction n as [|n IH]; intros j R W u hot g c Hr Hj HR Hc; [lia|].
        specialize (Hh j) as Hd. rewrite Hj in Hd. inversion Hd as [| | |d bs w k x0 R0' W0' u0 hot0 g0 l0 Hb HW Hu Hk E1|d m k x0 R0' W0' u0 hot0 g0 l0 Hin Hm Hk E1|bl cs k x0 R0' W0' u0 hot0 g0 l0 Hcs Hbl Hk E1]; subst; symmetry in E1.
        - destruct (Nat.lt_ge_cases (length (ch d)) (cap d)) as [Hlt|Hge]; [eapply can_write; eauto|].
          destruct Hu as [Hu|[Hu|Hu]]; [congruence| |rewrite Hu in HR; contradiction].
          destruct (W_from _ _ _ _ _ _ d Hj) as [Hf HD]; [rewrite HW; destruct bs; [contradiction|discriminate]|].
          pose proof (Hcap _ _ HD) as HB. destruct (where_ (to d)) as [Hp|(R2 & W2 & u2 & h2 & g2 & H2)].
          + subst j. rewrite (inside_Wn _ _ _ _ _ _ Hj Hp) in HW. destruct bs; [contradiction|discriminate].
          + subst j. pose proof (inside_Rb _ _ _ _ _ _ _ _ _ _ _ Hj H2) as Hbb. assert (Hl : (0 < length bs)%nat) by (destruct bs; [contradiction|cbn; lia]).
            apply (IH (to d) R2 W2 u2 h2 g2 d); [|exact H2| |].
            * destruct (Nat.le_gt_cases (r (from d)) (r (to d))) as [Hle|]; [|lia]. exfalso.
              pose proof (i_rank _ _ _ I _ _ _ _ _ _ _ _ _ _ _ _ _ _ Hj H2 Hle) as Hk2. rewrite Hbb, app_length in Hk2. lia.
            * rewrite Hbb. intros E0. apply app_eq_nil in E0 as [E0 _]. rewrite E0 in Hge. cbn in Hge. lia.
            * intros E0. rewrite E0 in Hge. cbn in Hge. lia.
        - destruct Hin as [Hin|[Hsm _]]; [|congruence]. eapply can_read; [exact E1|lia|]. exact (proj2 (i_hot _ _ _ I _ _ _ _ _ _ _ _ Hj d Hin)).
        - eapply can_poll; [exact E1|]. intros _. exists c. split; [apply Hcs; exact HR|exact Hc].
      Qed.

      Lemma writer_goes p R W u hot g c bs k : inside p R W u hot g -> nt_proc s p = Write c bs k -> can_step.
      Proof using All.
        intros Hj Hp. specialize (Hh p) as Hd. rewrite Hj, Hp in Hd. inversion Hd as [| | |d0 bs0 w k0 x0 R0' W0' u0 hot0 g0 l0 Hb HW Hu Hk E1| |]; subst.
        destruct (Nat.lt_ge_cases (length (ch c)) (cap c)) as [Hlt|Hge]; [eapply can_write; eauto|].
        destruct (W_from _ _ _ _ _ _ c Hj) as [Hf HD]; [rewrite HW; destruct bs; [contradiction|discriminate]|].
        assert (Hcn : ch c <> []). { intros E0. rewrite E0 in Hge. cbn in Hge. specialize (Hcap1 c). lia. }
        destruct (where_ (to c)) as [Hp2|(R2 & W2 & u2 & h2 & g2 & H2)].
        + subst p. rewrite (inside_Wn _ _ _ _ _ _ Hj Hp2) in HW. destruct bs; [contradiction|discriminate].
        + subst p. pose proof (inside_Rb _ _ _ _ _ _ _ _ _ _ _ Hj H2) as Hbb.
          destruct (small x) eqn:Hsm.
          { eapply can_write; [exact Hp|exact Hb|]. pose proof (i_fine _ _ _ I (to c)) as F. rewrite H2 in F. apply (fine_R _ _ _ _ _ _ _ _ c) in F as [F _].
            pose proof (Hsmall x c HxG Hsm) as Hs. assert (Hl : (length (R2 c) = length (ch c) + length (W c))%nat) by (rewrite Hbb, app_length; reflexivity).
            rewrite HW, app_length in Hl. destruct bs; [contradiction|cbn in Hl; lia]. }
          apply (descend Hsm (S (r (to c))) (to c) R2 W2 u2 h2 g2 c); [lia|exact H2| |exact Hcn].
          rewrite Hbb. intros E0. apply app_eq_nil in E0 as [E0 _]. contradiction.
      Qed.

      (** Who waits for a byte on c waits for a process that goes on. *)
      Lemma feeder_goes c R W u hot g : inside (to c) R W u hot g -> R c <> [] -> ch c = [] -> can_step.
      Proof using All.
        intros Hj HR Ec. destruct (where_ (from c)) as [Hp2|(R2 & W2 & u2 & h2 & g2 & H2)].
        { pose proof (inside_Rn _ _ _ _ _ _ Hj Hp2) as Hl. rewrite Ec in Hl. destruct (R c); [contradiction|cbn in Hl; lia]. }
        pose proof (inside_Rb _ _ _ _ _ _ _ _ _ _ _ H2 Hj) as Hbb. rewrite Ec in Hbb. cbn in Hbb.
        specialize (Hh (from c)) as Hd2. rewrite H2 in Hd2. inversion Hd2 as [| | |d bs w k2 x1 R1' W1' u1 hot1 g1 l1 Hb HW2 Hu Hk2 E2|d m k2 x1 R1' W1' u1 hot1 g1 l1 Hin Hm Hk2 E2|bl cs2 k2 x1 R1' W1' u1 hot1 g1 l1 Hcs2 Hbl2 Hk2 E2]; subst; symmetry in E2.
        - eapply writer_goes; eauto.
        - destruct Hin as [Hin|[_ HWn]]; [|rewrite HWn in Hbb; contradiction].
          eapply can_read; [exact E2|lia|]. exact (proj2 (i_hot _ _ _ I _ _ _ _ _ _ _ _ H2 d Hin)).
        - destruct bl; [|eapply can_poll; [exact E2|discriminate]]. destruct (Hbl2 eq_refl) as [HWn _]. rewrite HWn in Hbb. contradiction.
      Qed.

      Lemma inside_goes p R W u hot g : inside p R W u hot g -> can_step.
      Proof using All.
        intros Hj. specialize (Hh p) as Hd. rewrite Hj in Hd. inversion Hd as [| | |d bs w k x0 R0' W0' u0 hot0 g0 l0 Hb HW Hu Hk E1|d m k x0 R0' W0' u0 hot0 g0 l0 Hin Hm Hk E1|bl cs k x0 R0' W0' u0 hot0 g0 l0 Hcs Hbl Hk E1]; subst; symmetry in E1.
        - eapply writer_goes; eauto.
        - destruct Hin as [Hin|_]; [eapply can_read; [exact E1|lia|]; exact (proj2 (i_hot _ _ _ I _ _ _ _ _ _ _ _ Hj d Hin))|].
          destruct (ch d) as [|v t] eqn:Ec; [|eapply can_read; [exact E1|lia|congruence]].
          assert (HR : R d <> []). { intros E0. rewrite E0 in Hm. cbn in Hm. lia. }
          destruct (R_to _ _ _ _ _ _ d Hj HR) as [Ht HD]. subst p. eapply feeder_goes; eauto.
        - destruct bl; [|eapply can_poll; [exact E1|discriminate]]. destruct (Hbl eq_refl) as [HW Hne]. destruct cs as [|c cs]; [contradiction|].
          assert (HR : R c <> []) by (apply Hcs; left; reflexivity).
          destruct (ch c) as [|v t] eqn:Ec.
          2:{ eapply can_poll; [exact E1|]. intros _. exists c. split; [left; reflexivity|congruence]. }
          destruct (R_to _ _ _ _ _ _ c Hj HR) as [Ht HD]. subst p. eapply feeder_goes; eauto.
      Qed.
    End At.

    Lemma script_snd p c v l : gs p = Out (Snd c v :: l) -> exists bs k, nt_proc s p = Write c bs k /\ bs <> [].
    Proof using All.
      intros Hp. specialize (Hh p). rewrite Hp in Hh. inversion Hh as [|d bs k l0 Hb Hk E1 E2|d n bs k l0 Hb Hk E1 E2| | |].
      - destruct bs as [|b0 bs]; [contradiction|]. cbn in E2. injection E2 as -> -> _. exists (v :: bs), k. split; [congruence|discriminate].
      - destruct bs as [|b0 bs]; [cbn in Hb; lia|discriminate].
    Qed.
    Lemma script_rcv p c v l : gs p = Out (Rcv c v :: l) -> exists n k, nt_proc s p = Read c n k /\ (1 <= n)%nat.
    Proof using All.
      intros Hp. specialize (Hh p). rewrite Hp in Hh. inversion Hh as [|d bs k l0 Hb Hk E1 E2|d n bs k l0 Hb Hk E1 E2| | |].
      - destruct bs as [|b0 bs]; [contradiction|discriminate].
      - destruct bs as [|b0 bs]; [cbn in Hb; lia|]. cbn in E2. injection E2 as -> _ _. exists n, k. split; [congruence|lia].
    Qed.

    Lemma some_or_all (g : gact C X) G1 : (forall p, behind (g :: G1) p (script_of (gs p))) ->
      (forall p, behind G1 p (script_of (gs p))) \/ exists p, script p g <> [] /\ script_of (gs p) = script p g ++ scripts p G1.
    Proof using All.
      intros Hall. assert (H : forall n, (forall p, (p < n)%nat -> behind G1 p (script_of (gs p))) \/ exists p, script p g <> [] /\ script_of (gs p) = script p g ++ scripts p G1).
      { induction n as [|n [IH|IH]]; [left; intros p Hp; lia| |right; exact IH].
        destruct (behind_cons _ _ _ _ (Hall n)) as [H|H]; [right; exists n; exact H|]. left. intros p Hp. destruct (Nat.eq_dec p n) as [->|]; [exact H|apply IH; lia]. }
      destruct (H NP) as [Hb|He]; [left|right; exact He]. intros p. destruct (Nat.lt_ge_cases p NP) as [Hlt|Hge]; [apply Hb; exact Hlt|].
      destruct (g_out _ _ _ Gd p Hge) as [_ Eg]. rewrite Eg. cbn. exists (length G1). rewrite skipn_all. reflexivity.
    Qed.

    Lemma progress G0 : NoDup (blocks G0) -> incl (blocks G0) (blocks G) -> (forall p, behind G0 p (script_of (gs p))) ->
      can_step \/ (forall p, nt_proc s p = Ret (goal p)) /\ (forall c, ch c = []).
    Proof using All.
      induction G0 as [|g G1 IH]; intros Hn Hincl Hall.
      - right. assert (Ho : forall p, gs p = Out []).
        { intros p. destruct (Hall p) as [k Ek]. assert (E0 : script_of (gs p) = []) by (rewrite Ek; destruct k; reflexivity).
          destruct (gs p); [cbn in E0; subst; reflexivity|discriminate]. }
        split.
        + intros p. specialize (Hh p). rewrite Ho in Hh. inversion Hh as [|c bs k l0 Hb Hk E1 E2|c n bs k l0 Hb Hk E1 E2| | |]; [reflexivity| |]; destruct bs; try discriminate; [contradiction|cbn in Hb; lia].
        + intros c. pose proof (i_bal _ _ _ I c) as Hb. rewrite !Ho in Hb. cbn in Hb. symmetry in Hb. apply app_eq_nil in Hb. apply Hb.
      - assert (Hn' : NoDup (blocks G1)). { destruct g; [exact Hn|]. inversion Hn; assumption. }
        assert (Hi' : incl (blocks G1) (blocks G)). { destruct g; [exact Hincl|]. intros y Hy. apply Hincl. right. exact Hy. }
        destruct (some_or_all g G1 Hall) as [Hb|(p & Hne & Hp)]; [apply IH; assumption|]. left. destruct g as [c v|x].
        + assert (Hs : forall q, script_of (gs q) = script q (Byte c v) ++ scripts q G1 -> from c = q -> gs q = Out (Snd c v :: scripts q G1)).
          { intros q Hq Hf. cbn in Hq. rewrite (proj2 (Nat.eqb_eq _ _) Hf) in Hq. destruct (gs q); cbn in Hq; [congruence|discriminate]. }
          assert (Hr : forall q, script_of (gs q) = script q (Byte c v) ++ scripts q G1 -> to c = q -> gs q = Out (Rcv c v :: scripts q G1)).
          { intros q Hq Hf. cbn in Hq. subst q. rewrite (proj2 (Nat.eqb_neq _ _) (Hft c)), Nat.eqb_refl in Hq. destruct (gs (to c)); cbn in Hq; [congruence|discriminate]. }
          assert (Hsend : gs (from c) = Out (Snd c v :: scripts (from c) G1) -> can_step).
          { intros Es. pose proof (i_bal _ _ _ I c) as Hb. rewrite Es in Hb. cbn [writes_st] in Hb.
            change (Snd c v :: scripts (from c) G1) with ([Snd c v] ++ scripts (from c) G1) in Hb. rewrite writes_app, writes_total in Hb.
            change [Snd c v] with (map (@Snd C Z X c) [v]) in Hb. rewrite writes_snd in Hb. apply (f_equal (@length Z)) in Hb. rewrite !app_length in Hb. cbn in Hb.
            destruct (behind_cons _ _ _ _ (Hall (to c))) as [[_ Hq]|Hq].
            - specialize (Hr _ Hq eq_refl). rewrite Hr in Hb. cbn [reads_st] in Hb.
              change (Rcv c v :: scripts (to c) G1) with ([Rcv c v] ++ scripts (to c) G1) in Hb. rewrite reads_app, reads_total in Hb.
              change [Rcv c v] with (map (@Rcv C Z X c) [v]) in Hb. rewrite reads_rcv, app_length in Hb. cbn in Hb.
              destruct (script_snd _ _ _ _ Es) as (bs & k & Hw & Hbs). eapply can_write; [exact Hw|exact Hbs|]. specialize (Hcap1 c). lia.
            - pose proof (past_reads _ c _ eq_refl Hq). lia. }
          cbn in Hne. destruct (Nat.eqb_spec (from c) p) as [Ef|Ef].
          * subst p. apply Hsend. apply Hs; [exact Hp|reflexivity].
          * destruct (Nat.eqb_spec (to c) p) as [Et|Et]; [|contradiction]. subst p. specialize (Hr _ Hp eq_refl).
            destruct (behind_cons _ _ _ _ (Hall (from c))) as [[_ Hq]|Hq]; [apply Hsend; apply Hs; [exact Hq|reflexivity]|].
            pose proof (past_writes _ c _ eq_refl Hq) as Hl. pose proof (i_bal _ _ _ I c) as Hb. rewrite Hr in Hb. cbn [reads_st] in Hb.
            change (Rcv c v :: scripts (to c) G1) with ([Rcv c v] ++ scripts (to c) G1) in Hb. rewrite reads_app, reads_total in Hb.
            change [Rcv c v] with (map (@Rcv C Z X c) [v]) in Hb. rewrite reads_rcv in Hb. apply (f_equal (@length Z)) in Hb. rewrite !app_length in Hb. cbn in Hb.
            destruct (script_rcv _ _ _ _ Hr) as (n & k & Hw & Hn1). eapply can_read; [exact Hw|exact Hn1|]. intros E0. rewrite E0 in Hb. cbn in Hb. lia.
        + assert (Hx : ~ List.In x (blocks G1)) by (inversion Hn; assumption). assert (HxG : List.In x (blocks G)) by (apply Hincl; left; reflexivity).
          destruct (where_ x G1 Hx HxG Hall p) as [Hq|(R & W & u & hot & g & Hin)].
          * exfalso. cbn in Hne, Hp. destruct (member x p); [|contradiction]. apply Hx. apply (in_blocks _ p). rewrite Hp in Hq. exact (behind_head _ _ _ _ Hq).
          * eapply inside_goes; eauto.
    Qed.
  End Progress.

  (** Whatever the schedule, the network ends within a bound, with everybody's
      result, and never gets stuck before. *)
  Lemma inv_start : inv (fun _ => []) (fun _ => 0%nat) (fun p => Out (scripts p G)).
  Proof using All.
    constructor; try discriminate.
    - intros c. cbn. rewrite reads_total, writes_total. reflexivity.
    - intros p. exists 0%nat. reflexivity.
    - intros p. exact Logic.I.
  Qed.
  Lemma good_start : good (net_start procs) (fun _ => 0%nat) (fun p => Out (scripts p G)).
  Proof using All.
    constructor; [exact inv_start|exact Hob|]. intros p Hp. destruct (Hnp p Hp) as [H1 H2]. cbn. rewrite H1. auto.
  Qed.
  Theorem network_ends n s : steps (net_step eqb cap) n (net_start procs) s ->
    (n <= list_sum (map (fun p => cost p (scripts p G)) (seq 0 NP)))%nat /\
    (forall p f, nt_proc s p <> Crash f) /\
    ((exists s', net_step eqb cap s s') \/ (forall p, nt_proc s p = Ret (goal p)) /\ (forall c, nt_chan s c = [])).
  Proof using All.
    intros St. assert (H : exists r gs, good s r gs /\ (n + totalcost gs <= totalcost (fun p => Out (scripts p G)))%nat).
    { remember (net_start procs) as s0 eqn:E0. induction St as [s0|n s0 s1 s2 St IH H]; subst s0.
      - eexists _, _. split; [exact good_start|]. lia.
      - destruct (IH eq_refl) as (r & gs & Gd & Hc). destruct (good_step _ _ _ _ Gd H) as (r' & gs' & Gd' & Hc' & _). exists r', gs'. split; [exact Gd'|lia]. }
    destruct H as (r & gs & Gd & Hc). split; [unfold totalcost at 2 in Hc; cbn [cost_st] in Hc; lia|].
    destruct (settle _ _ _ Gd) as (r' & gs' & Gd' & Hh). split.
    - intros p f Hp. specialize (Hh p). rewrite Hp in Hh. inversion Hh.
    - apply (progress s r' gs' Gd' Hh G Hnd (fun y H => H)). intros p. apply (i_pos _ _ _ (g_inv _ _ _ Gd')).
  Qed.

  (** What has been put on a channel is the beginning of what the choreography
      puts on it, and all of it at the end. *)
  Lemma network_carries h s : carries (net_step eqb cap) (net_start procs) h s ->
    (exists n, steps (net_step eqb cap) n (net_start procs) s) /\
    exists r gs, good s r gs /\ forall c, total c G = h c ++ writes_st c (gs (from c)).
  Proof using All.
    intros H. induction H as [|h s1 w s2 H IH St Hw].
    - split; [exists 0%nat; constructor|]. eexists _, _. split; [exact good_start|]. intros c. cbn [writes_st app]. symmetry. apply writes_total.
    - destruct IH as ((n & Hn) & r & gs & Gd & Ht). split; [exists (S n); econstructor; eassumption|].
      destruct (good_step _ _ _ _ Gd St) as (r' & gs' & Gd' & _ & Hm). exists r', gs'. split; [exact Gd'|]. intros c.
      destruct (Hm c) as (w' & P & E1). rewrite Ht, E1, app_assoc. f_equal. f_equal.
      destruct (Hw c) as [P1|(-> & g1 & P1)], P as [P2|(-> & g2 & P2)].
      + rewrite P1 in P2. apply app_inv_head in P2. symmetry. exact P2.
      + rewrite P1 in P2. apply (f_equal (@length Z)) in P2. rewrite !app_length in P2. destruct (w c); [reflexivity|cbn in P2; lia].
      + rewrite P2 in P1. apply (f_equal (@length Z)) in P1. rewrite !app_length in P1. destruct w'; [reflexivity|cbn in P1; lia].
      + reflexivity.
  Qed.
  Theorem network_sends h s : carries (net_step eqb cap) (net_start procs) h s ->
    (forall c, begins (h c) (total c G)) /\ ((forall s', ~ net_step eqb cap s s') -> forall c, h c = total c G).
  Proof using All.
    intros H. destruct (network_carries h s H) as ((n & Hn) & r & gs & Gd & Ht). split.
    - intros c. eexists. apply Ht.
    - intros St c. destruct (network_ends n s Hn) as (_ & _ & [[s' Hx]|[Hr _]]); [exfalso; exact (St s' Hx)|].
      assert (E0 : writes_st c (gs (from c)) = []); [|rewrite Ht, E0, app_nil_r; reflexivity].
      destruct (Nat.lt_ge_cases (from c) NP) as [Hlt|Hge].
      + pose proof (g_ob _ _ _ Gd _ Hlt) as O. rewrite Hr in O. inversion O as [a st [_ Hs]| | | | | | |]; subst.
        rewrite <- (sees_writes _ _ _ Hs c eq_refl). reflexivity.
      + rewrite (proj2 (g_out _ _ _ Gd _ Hge)). reflexivity.
  Qed.
End Network.
