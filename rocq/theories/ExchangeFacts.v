(** Progress, termination and outcome of the sibling exchange. *)
From Coq Require Import List Arith Bool Lia.
From Verif Require Import Lts Exchange ExchangeSpec ExchangeProofs.
Import ListNotations.

Lemma list_sum_upd (f g : nat -> nat) l i : NoDup l -> In i l -> (forall k, k <> i -> g k = f k) ->
  list_sum (map g l) + f i = list_sum (map f l) + g i.
Proof.
  induction l as [|a r IH]; intros Hn Hi Hg; [destruct Hi|]. inversion Hn as [|? ? Ha Hr]; subst. simpl.
  destruct (Nat.eq_dec a i) as [->|Hne].
  - assert (map g r = map f r) as ->; [|lia]. apply map_ext_in. intros k Hk. apply Hg. intros ->. contradiction.
  - destruct Hi as [Hi|Hi]; [congruence|]. specialize (IH Hr Hi Hg). rewrite (Hg a Hne). lia.
Qed.

Section Facts.
Context {U H : Type}.
Variable x : exch U H.
Hypothesis X : proper x.
Notation n := (x_n x).
Notation z := (x_unit x).
Notation B := (x_buf x).
Notation msgs i j := (messages (x_items x i) j).

Lemma all_read_dec i (p : proc U H) : {all_read x i p} + {exists j, In j (siblings x i) /\ p_got p j < x_want x i j}.
Proof.
  unfold all_read. induction (siblings x i) as [|j r IH].
  - left. intros j [].
  - destruct (le_lt_dec (x_want x i j) (p_got p j)) as [Hle|Hlt].
    + destruct IH as [Hall|Hex].
      * left. intros k [<-|Hk]; auto.
      * right. destruct Hex as (k & Hk & Hlt). exists k. split; [right; exact Hk|exact Hlt].
    + right. exists j. split; [left; reflexivity|exact Hlt].
Qed.

Lemma avail_dec (s : st U H) i (p : proc U H) : {exists j, In j (siblings x i) /\ p_got p j < x_want x i j /\ chan s j i <> []} +
  {forall j, In j (siblings x i) -> p_got p j < x_want x i j -> chan s j i = []}.
Proof.
  induction (siblings x i) as [|j r IH].
  - right. intros j [].
  - destruct IH as [Hex|Hall].
    + left. destruct Hex as (k & Hk & Hl). exists k. split; [right; exact Hk|exact Hl].
    + destruct (lt_dec (p_got p j) (x_want x i j)) as [Hlt|Hge].
      * destruct (chan s j i) eqn:E.
        -- right. intros k [<-|Hk]; auto.
        -- left. exists j. split; [left; reflexivity|]. split; [exact Hlt|]. rewrite E. discriminate.
      * right. intros k [<-|Hk]; auto. intros. contradiction.
Qed.

Definition can_step (s : st U H) : Prop := exists s', step x s s'.

(** A server that cannot take a step is finished, blocked in a send, or waits
    for siblings whose channels are empty. *)
Definition blocked (s : st U H) (i j : nat) : Prop :=
  exists u us rest, p_pend (procs s i) = (j, u :: us) :: rest /\ x_cap x i j <= length (chan s i j).
Definition waiting (s : st U H) (i : nat) : Prop :=
  p_phase (procs s i) = Final /\ p_pend (procs s i) = [] /\
  (exists j, In j (siblings x i) /\ p_got (procs s i) j < x_want x i j) /\
  (forall j, In j (siblings x i) -> p_got (procs s i) j < x_want x i j -> chan s j i = []).

Lemma classify s i : pinv x i (procs s i) -> i < n ->
  can_step s \/ p_phase (procs s i) = Done \/ (exists j, blocked s i j) \/ waiting s i.
Proof.
  intros V Hi. destruct (p_pend (procs s i)) as [|[j [|u us]] rest] eqn:Hp.
  2:{ left. eexists. eapply s_sent; eauto. }
  2:{ destruct (lt_dec (length (chan s i j)) (x_cap x i j)) as [Hlt|Hge].
      - left. eexists. eapply s_send; eauto.
      - right. right. left. exists j, u, us, rest. split; [exact Hp|lia]. }
  destruct (p_cur (procs s i)) as [|[j m] rest] eqn:Hc.
  2:{ left. destruct (Nat.eq_dec j i) as [->|Hji].
      - eexists. eapply s_own; eauto.
      - eexists. eapply s_push; eauto. }
  destruct (p_phase (procs s i)) eqn:Hph.
  - left. destruct (all_read_dec i (procs s i)) as [Ha|Hn].
    + destruct (p_todo (procs s i)) as [|it r] eqn:Ht.
      * eexists. eapply s_skip; eauto.
      * eexists. eapply s_item; eauto.
    + assert (~ all_read x i (procs s i)) as Hn'.
      { intros Ha. destruct Hn as (j & Hj & Hlt). specialize (Ha j Hj). lia. }
      destruct (p_todo (procs s i)) as [|it r] eqn:Ht.
      * eexists. eapply s_poll; eauto.
      * destruct (p_left (procs s i)) as [|k] eqn:Hl.
        -- eexists. eapply s_poll; eauto.
        -- eexists. eapply s_item; eauto. left. lia.
  - left. destruct (avail_dec s i (procs s i)) as [(j & Hj & Hlt & Hne)|Hno].
    + destruct (chan s j i) as [|u us] eqn:E; [congruence|]. eexists. eapply s_recv; eauto. left. exact Hph.
    + eexists. eapply s_drained; eauto.
  - destruct (all_read_dec i (procs s i)) as [Ha|Hn].
    + left. eexists. eapply s_finish; eauto.
    + destruct (avail_dec s i (procs s i)) as [(j & Hj & Hlt & Hne)|Hno].
      * left. destruct (chan s j i) as [|u us] eqn:E; [congruence|]. eexists. eapply s_recv; eauto. right. auto.
      * right. right. right. split; [exact Hph|]. split; [exact Hp|]. auto.
  - right. left. reflexivity.
Qed.

(** Someone who has sent everything: the receiver has it or it is on the wire. *)
Lemma sent_all D snt s i j : inv x D snt s -> i < n -> j < n -> i <> j ->
  p_cur (procs s i) = [] -> p_todo (procs s i) = [] -> p_buf (procs s i) j = [] -> p_pend (procs s i) = [] ->
  chan s i j = [] -> length (msgs i j) <= p_got (procs s j) i.
Proof.
  intros I Hi Hj Hij Hc Ht Hb Hp Hch.
  pose proof (v_flow _ _ _ _ I i j Hi Hj Hij) as F. unfold flow, outu in F. rewrite Hc, Ht, Hb, Hp, Hch in F.
  pose proof (v_part _ _ _ (v_procs _ _ _ _ I j Hj) i Hi Hij) as Hpart.
  pose proof (v_got _ _ _ (v_procs _ _ _ _ I j Hj) i Hi Hij) as Hgot.
  apply (f_equal (@length U)) in F. simpl in F. rewrite !app_length in F. simpl in F.
  rewrite (concat_len z) in F; [|intros m Hm; apply (msg_len x X i j); auto].
  rewrite (concat_len z) in F.
  2:{ intros m Hm. apply (msg_len x X i j); auto. rewrite <- (firstn_skipn (p_got (procs s j) i)). apply in_or_app. left. exact Hm. }
  rewrite firstn_length_le in F by exact Hgot.
  destruct (le_lt_dec (length (msgs i j)) (p_got (procs s j) i)) as [Hle|Hlt]; [exact Hle|].
  assert (S (p_got (procs s j) i) * z <= length (msgs i j) * z) by (apply Nat.mul_le_mono_r; lia). simpl in *. lia.
Qed.

Hypothesis R : roomy x.

Lemma blocked_next D snt s : inv x D snt s -> ~ can_step s -> forall i j, i < n -> blocked s i j ->
  j < n /\ j <> i /\ ~ all_read x j (procs s j) /\ exists k, blocked s j k.
Proof.
  intros I Hst i j Hi (u & us & rest & Hp & Hcap).
  destruct (v_pend _ _ _ (v_procs _ _ _ _ I i Hi) (j, u :: us)) as [Hj Hji]; [rewrite Hp; left; reflexivity|].
  simpl in Hj, Hji. split; [exact Hj|]. split; [exact Hji|].
  assert (p_got (procs s j) i < length (msgs i j)) as Hlt.
  { destruct (le_lt_dec (length (msgs i j)) (p_got (procs s j) i)) as [Hle|Hlt]; [|exact Hlt]. exfalso.
    pose proof (v_flow _ _ _ _ I i j Hi Hj ltac:(auto)) as F.
    destruct (all_got_empty x i j _ _ _ Hi F Hle) as (_ & Ho & _). unfold outu in Ho. rewrite Hp, to_self in Ho.
    simpl in Ho. discriminate Ho. }
  assert (x_want x j i = length (msgs i j)) as Hw by (apply (px_want x X); auto).
  assert (In i (siblings x j)) as Hs by (apply (in_siblings x); auto).
  assert (~ all_read x j (procs s j)) as Hn by (intros Ha; specialize (Ha i Hs); lia).
  split; [exact Hn|].
  destruct (classify s j (v_procs _ _ _ _ I j Hj) Hj) as [Hc|[Hd|[Hb|Hw']]]; [contradiction| |exact Hb|].
  - exfalso. pose proof (v_phase _ _ _ (v_procs _ _ _ _ I j Hj)) as Q. rewrite Hd in Q. apply Hn, Q.
  - exfalso. destruct Hw' as (_ & _ & _ & He). rewrite (He i Hs ltac:(lia)) in Hcap. simpl in Hcap.
    pose proof (R i j Hi Hj ltac:(auto)). pose proof (B_pos x X). pose proof (z_pos x X).
    assert (1 * 1 <= B * z) by (apply Nat.mul_le_mono; lia). lia.
Qed.

Lemma no_blocked D snt s : inv x D snt s -> ~ can_step s ->
  forall d i j, i < n -> D i < d -> ~ all_read x i (procs s i) -> ~ blocked s i j.
Proof.
  intros I Hst. induction d as [|d IH]; intros i j Hi Hd Hn Hb; [lia|].
  destruct (blocked_next D snt s I Hst i j Hi Hb) as (Hj & Hji & Hnj & k & Hk).
  apply (IH j k Hj); auto.
  destruct (le_lt_dec (D i) (D j)) as [Hle|Hlt]; [|lia]. exfalso.
  pose proof (v_order _ _ _ _ I i j Hi Hj ltac:(auto) Hle) as Ho.
  destruct (v_burst _ _ _ _ I i Hi Hn j Hj Hji) as [Hbu _].
  destruct Hb as (u & us & rest & Hp & Hcap). rewrite Hp, to_self in Hbu. simpl in Hbu. rewrite app_length in Hbu.
  pose proof (R i j Hi Hj ltac:(auto)). lia.
Qed.

Lemma progress s : invariant x s -> all_done x s \/ can_step s.
Proof.
  intros (D & snt & I).
  assert (can_step s \/ ~ can_step s) as [Hc|Hst].
  { (* decidable through the classification *)
    assert (forall m, m <= n -> can_step s \/ forall i, i < m -> p_phase (procs s i) = Done \/ (exists j, blocked s i j) \/ waiting s i) as HA.
    { induction m as [|m IH]; intros Hm; [right; intros; lia|].
      destruct (IH ltac:(lia)) as [Hc|Hr]; [auto|].
      destruct (classify s m (v_procs _ _ _ _ I m ltac:(lia)) ltac:(lia)) as [Hc|Hm']; [auto|].
      right. intros i Hi. destruct (Nat.eq_dec i m) as [->|Hne]; [exact Hm'|apply Hr; lia]. }
    destruct (HA n (le_n _)) as [Hc|Hr]; [auto|]. right. intros (s' & Hs').
    destruct Hs' as [i it rest Hi Hph Hp Hc Ht _|i m rest Hi Hp Hc|i j m rest Hi Hji Hp Hc|i j u us rest Hi Hp Hlt
      |i j rest Hi Hp|i Hi Hph Hp Hc _ _|i Hi Hph Hp Hc _ _|i j u us Hi Hj Hrd Hlt Hch|i Hi Hph _|i Hi Hph Hp Ha];
      pose proof (v_phase _ _ _ (v_procs _ _ _ _ I i Hi)) as Q;
      destruct (Hr i Hi) as [Hd|[(j' & u' & us' & rest' & Hp' & Hcap)|(Hf & Hpp & (j' & Hj' & Hlt') & He)]];
      try congruence; try (rewrite Hd in Q); try (rewrite Hf in Q); try (rewrite Hph in Q);
      try (destruct Q as (Q1 & Q2); congruence).
    all: try (rewrite Hp in Hp'; injection Hp' as <- <- <- <-; lia).
    all: try (destruct Hrd as [Hrd|[Hrd Hpe]]; try congruence).
    all: try (rewrite Hrd in Q; destruct Q; congruence).
    all: try (rewrite (He j Hj Hlt) in Hch; discriminate Hch).
    all: try (specialize (Ha j' Hj'); lia).
    all: try (destruct Q as (Q1 & Q2 & Q3 & Q4 & Q5); congruence).
    all: idtac. }
  { right; exact Hc. }
  left. intros i Hi.
  assert (forall k, k < n -> p_phase (procs s k) = Done \/ waiting s k) as Hall.
  { intros k Hk. destruct (classify s k (v_procs _ _ _ _ I k Hk) Hk) as [Hc|[Hd|[(j & Hb)|Hw]]]; auto; [contradiction|].
    exfalso. destruct (blocked_next D snt s I Hst k j Hk Hb) as (Hj & Hji & Hnj & l & Hl).
    apply (no_blocked D snt s I Hst (S (D j)) j l Hj); auto. }
  destruct (Hall i Hi) as [Hd|Hw]; [exact Hd|]. exfalso.
  destruct Hw as (Hph & Hp & (j & Hj & Hlt) & He). specialize (He j Hj Hlt).
  pose proof Hj as Hj'. apply (in_siblings x) in Hj'. destruct Hj' as [Hjn Hji].
  assert (length (msgs j i) <= p_got (procs s i) j) as Hle.
  { pose proof (v_phase _ _ _ (v_procs _ _ _ _ I j Hjn)) as Q.
    destruct (Hall j Hjn) as [Hd|(Hf & Hpj & _)].
    - rewrite Hd in Q. destruct Q as (Q1 & Q2 & Q3 & Q4 & _). apply (sent_all D snt s j i I); auto.
    - rewrite Hf in Q. destruct Q as (Q1 & Q2 & Q3). apply (sent_all D snt s j i I); auto. }
  rewrite (px_want x X i j) in Hlt by auto. lia.
Qed.

(** *** Termination *)
Definition went (l : list (nat * list U)) : nat := list_sum (map (fun e => 2 * length (snd e) + 2) l).
Definition wpend (l : list (nat * list U)) : nat := list_sum (map (fun e => 2 * length (snd e) + 1) l).
Definition wtodo (l : list (list (nat * list U))) : nat := list_sum (map (fun it => went it + 3) l).
Definition wbuf (i : nat) (b : nat -> list U) : nat := list_sum (map (fun j => 2 * length (b j)) (siblings x i)).
Definition wphase (p : proc U H) : nat :=
  match p_phase p with
  | Fill => n + 3 + match p_todo p, p_left p with [], _ => 2 | _, 0 => 2 | _, _ => 0 end
  | Drain => n + 4
  | Final => 1
  | Done => 0
  end.
Definition pm (i : nat) (p : proc U H) : nat :=
  wtodo (p_todo p) + went (p_cur p) + wbuf i (p_buf p) + wpend (p_pend p) + wphase p.
Definition chans (s : st U H) : nat := list_sum (map (fun i => list_sum (map (fun j => length (chan s i j)) (seq 0 n))) (seq 0 n)).
Definition pms (f : nat -> proc U H) : nat := list_sum (map (fun i => pm i (f i)) (seq 0 n)).
Definition measure (s : st U H) : nat := pms (procs s) + chans s.

Lemma pms_upd f i p : i < n -> pms (upd f i p) + pm i (f i) = pms f + pm i p.
Proof.
  intros Hi. unfold pms.
  pose proof (list_sum_upd (fun k => pm k (f k)) (fun k => pm k (upd f i p k)) (seq 0 n) i
                (seq_NoDup _ _) ltac:(apply in_seq; lia)) as Hs.
  cbv beta in Hs. rewrite upd_same in Hs. apply Hs. intros k Hk. rewrite upd_other by exact Hk. reflexivity.
Qed.
Lemma chans_upd (s : st U H) i j c f : i < n -> j < n ->
  chans {| procs := f; chan := upd2 (chan s) i j c |} + length (chan s i j) = chans s + length c.
Proof.
  intros Hi Hj. unfold chans. simpl.
  pose proof (list_sum_upd (fun a => list_sum (map (fun b => length (chan s a b)) (seq 0 n)))
                (fun a => list_sum (map (fun b => length (upd2 (chan s) i j c a b)) (seq 0 n))) (seq 0 n) i
                (seq_NoDup _ _) ltac:(apply in_seq; lia)) as Hs.
  cbv beta in Hs. specialize (Hs ltac:(intros k Hk; f_equal; apply map_ext; intros b; rewrite upd2_other by auto; reflexivity)).
  pose proof (list_sum_upd (fun b => length (chan s i b)) (fun b => length (upd2 (chan s) i j c i b)) (seq 0 n) j
                (seq_NoDup _ _) ltac:(apply in_seq; lia)) as Hs2.
  cbv beta in Hs2. rewrite upd2_same in Hs2.
  specialize (Hs2 ltac:(intros b Hb; rewrite upd2_other by auto; reflexivity)). lia.
Qed.

Lemma put_less s i p : i < n -> pm i p < pm i (procs s i) -> measure (put s i p) < measure s.
Proof. intros Hi Hlt. unfold measure. simpl. pose proof (pms_upd (procs s) i p Hi). unfold chans in *. simpl. lia. Qed.

Lemma filter_length {A} (f : A -> bool) l : length (filter f l) <= length l.
Proof. induction l as [|a r IH]; simpl; [lia|]. destruct (f a); simpl; lia. Qed.

Lemma flush_weight i b : wpend (map (fun j => (j, b j)) (siblings x i)) <= wbuf i b + n.
Proof.
  assert (length (siblings x i) <= n) as Hl.
  { unfold siblings. rewrite <- (seq_length n 0) at 2. apply filter_length. }
  unfold wpend, wbuf. rewrite map_map. simpl.
  enough (forall l, list_sum (map (fun j => length (b j) + (length (b j) + 0) + 1) l) <=
                    list_sum (map (fun j => length (b j) + (length (b j) + 0)) l) + length l) as HH.
  { specialize (HH (siblings x i)). lia. }
  induction l as [|a r IH]; simpl; lia.
Qed.

Lemma next_burst_less i p : p_pend p = [] -> p_cur p = [] ->
  (p_phase p = Drain \/ (p_phase p = Fill /\ p_todo p = [])) -> pm i (next_burst x i p) < pm i p.
Proof.
  intros Hp Hc Hph. destruct (px_rate x X) as [Hr _].
  unfold pm, next_burst, wphase. destruct (p_todo p) as [|it r] eqn:E.
  - cbn [p_todo p_cur p_buf p_pend p_phase]. pose proof (flush_weight i (p_buf p)).
    assert (wbuf i (fun _ => []) = 0) as ->.
    { unfold wbuf. simpl. clear. induction (siblings x i); simpl; auto. }
    assert (went [] = 0 /\ wtodo [] = 0) as [-> ->] by (split; reflexivity).
    destruct Hph as [->|[-> _]]; lia.
  - cbn [p_todo p_cur p_buf p_pend p_phase p_left]. rewrite Hp, Hc.
    destruct (x_rate x); [lia|]. destruct Hph as [->|[_ Hx]]; [lia|discriminate Hx].
Qed.

Lemma step_less s s' : invariant x s -> step x s s' -> measure s' < measure s.
Proof.
  intros (D & snt & I) Hs.
  destruct Hs as [i it rest Hi Hph Hp Hc Ht _|i m rest Hi Hp Hc|i j m rest Hi Hji Hp Hc|i j u us rest Hi Hp Hlt
      |i j rest Hi Hp|i Hi Hph Hp Hc Ht _|i Hi Hph Hp Hc Ht _|i j u us Hi Hj Hrd Hlt Hch|i Hi Hph _|i Hi Hph Hp Ha].
  - apply put_less; [exact Hi|]. unfold pm, take_item, wphase. cbn [p_todo p_cur p_buf p_pend p_phase p_left].
    rewrite Hph, Hc, Ht. change (wtodo (it :: rest)) with (went it + 3 + wtodo rest). change (went []) with 0.
    destruct rest; destruct (p_left (procs s i)) as [|[|k]]; simpl; lia.
  - apply put_less; [exact Hi|]. unfold pm, handle_own, wphase. cbn [p_todo p_cur p_buf p_pend p_phase p_left].
    rewrite Hc. unfold went. simpl. lia.
  - destruct (v_cur _ _ _ (v_procs _ _ _ _ I i Hi)) as [_ G2]. rewrite Hc in G2.
    destruct (G2 j m (or_introl eq_refl)) as [Hj _].
    apply put_less; [exact Hi|]. unfold pm, push_msg, wphase. cbn [p_todo p_cur p_buf p_pend p_phase p_left].
    set (b := p_buf (procs s i) j ++ m). set (full := _ <=? _).
    assert (wbuf i (upd (p_buf (procs s i)) j (if full then [] else b)) + 2 * length (p_buf (procs s i) j)
            = wbuf i (p_buf (procs s i)) + 2 * length (if full then [] else b)) as Hb.
    { unfold wbuf.
      pose proof (list_sum_upd (fun k => 2 * length (p_buf (procs s i) k))
        (fun k => 2 * length (upd (p_buf (procs s i)) j (if full then [] else b) k)) (siblings x i) j
        (nodup_siblings x i) ltac:(apply in_siblings; auto)) as Hs. cbv beta in Hs. rewrite upd_same in Hs. apply Hs.
      intros k Hk. rewrite upd_other by exact Hk. reflexivity. }
    assert (length b = length (p_buf (procs s i) j) + length m) as Hlb by (unfold b; apply app_length).
    rewrite Hc, Hp. unfold went, wpend. destruct full; simpl in *; lia.
  - destruct (v_pend _ _ _ (v_procs _ _ _ _ I i Hi) (j, u :: us)) as [Hj _]; [rewrite Hp; left; reflexivity|].
    simpl in Hj. unfold measure. simpl procs.
    pose proof (pms_upd (procs s) i (set_pend (procs s i) ((j, us) :: rest)) Hi) as E1.
    pose proof (chans_upd s i j (chan s i j ++ [u]) (upd (procs s) i (set_pend (procs s i) ((j, us) :: rest))) Hi Hj) as E2.
    rewrite app_length in E2. simpl length in E2.
    assert (pm i (set_pend (procs s i) ((j, us) :: rest)) + 2 = pm i (procs s i)) as E3.
    { unfold pm, set_pend, wphase. cbn [p_todo p_cur p_buf p_pend p_phase p_left]. rewrite Hp. unfold wpend. simpl. lia. }
    lia.
  - apply put_less; [exact Hi|]. unfold pm, set_pend, wphase. cbn [p_todo p_cur p_buf p_pend p_phase p_left].
    rewrite Hp. unfold wpend. simpl. lia.
  - apply put_less; [exact Hi|]. unfold pm, set_phase, wphase. cbn [p_todo p_cur p_buf p_pend p_phase p_left].
    rewrite Hph. destruct Ht as [Ht|Ht]; rewrite Ht; [lia|destruct (p_todo (procs s i)); lia].
  - apply put_less; [exact Hi|]. apply next_burst_less; auto.
  - apply in_siblings in Hj. destruct Hj as [Hj Hji]. unfold measure. simpl procs.
    pose proof (pms_upd (procs s) i (receive x i (procs s i) j u) Hi) as E1.
    pose proof (chans_upd s j i us (upd (procs s) i (receive x i (procs s i) j u)) Hj Hi) as E2.
    rewrite Hch in E2. simpl length in E2.
    assert (pm i (receive x i (procs s i) j u) = pm i (procs s i)) as E3.
    { unfold receive. destruct (_ =? _); reflexivity. }
    lia.
  - pose proof (v_phase _ _ _ (v_procs _ _ _ _ I i Hi)) as Q. rewrite Hph in Q. destruct Q as [Hp Hc].
    apply put_less; [exact Hi|]. apply next_burst_less; auto.
  - apply put_less; [exact Hi|]. unfold pm, set_phase, wphase. cbn [p_todo p_cur p_buf p_pend p_phase p_left].
    rewrite Hph. lia.
Qed.

Lemma steps_bounded k s : steps (step x) k (init x) s -> k <= measure (init x).
Proof.
  intros Hs. pose proof (steps_measure (step x) (invariant x) measure (step_invariant x X) step_less k _ _
    (reach_invariant x X _ (reach_refl _ _)) Hs). lia.
Qed.

(** *** Outcome *)
Lemma done_log s : reach (step x) (init x) s -> all_done x s -> forall i, i < n ->
  exists L, interleaves n (x_items x) i L /\ p_h (procs s i) = handle_all (x_h x i) L (x_h0 x i).
Proof.
  intros Hr Hd i Hi. destruct (reach_invariant x X s Hr) as (D & snt & I).
  pose proof (v_procs _ _ _ _ I i Hi) as V. pose proof (v_phase _ _ _ V) as Q. rewrite (Hd i Hi) in Q.
  destruct Q as (Q1 & Q2 & Q3 & Q4 & Q5).
  destruct (v_log _ _ _ V) as (L & A1 & A2 & A3 & A4). exists L. split; [|exact A1]. split; [exact A2|].
  intros j Hj. destruct (Nat.eq_dec j i) as [->|Hji].
  - rewrite A4, Q1, Q2. simpl. change (to i []) with (@nil (list U)). rewrite !app_nil_r. reflexivity.
  - change (to j L = msgs j i). rewrite (A3 j Hj Hji). apply firstn_all2.
    rewrite <- (px_want x X i j) by auto. apply Q5. apply in_siblings. auto.
Qed.

Lemma done_empty s : reach (step x) (init x) s -> all_done x s -> forall i j, i < n -> j < n -> i <> j -> chan s i j = [].
Proof.
  intros Hr Hd i j Hi Hj Hij. destruct (reach_invariant x X s Hr) as (D & snt & I).
  pose proof (v_procs _ _ _ _ I j Hj) as V. pose proof (v_phase _ _ _ V) as Q. rewrite (Hd j Hj) in Q.
  destruct Q as (_ & _ & _ & _ & Q5).
  apply (all_got_empty x i j _ _ _ Hi (v_flow _ _ _ _ I i j Hi Hj Hij)).
  rewrite <- (px_want x X j i) by auto. apply Q5. apply in_siblings. auto.
Qed.
End Facts.

(** *** Schedule independence for handlers that commute across sources *)
Section Commute.
Context {U H : Type}.
Variable h : H -> nat -> list U -> H.
Variable s0 : H.

Lemma run_app (a b : list (nat * list U)) s : handle_all h (a ++ b) s = handle_all h b (handle_all h a s).
Proof. unfold handle_all. apply fold_left_app. Qed.

(** Logs in which every source has its given stream of messages. *)
Definition streams (n : nat) (ms : nat -> list (list U)) (L : list (nat * list U)) : Prop :=
  (forall e, In e L -> fst e < n) /\ forall j, j < n -> to j L = ms j.

Definition canon (n : nat) (ms : nat -> list (list U)) : list (nat * list U) :=
  flat_map (fun j => map (pair j) (ms j)) (seq 0 n).

Definition swappable (n : nat) (ms : nat -> list (list U)) : Prop :=
  forall L e1 e2 T, streams n ms (L ++ e1 :: e2 :: T) -> fst e1 <> fst e2 ->
    handle_all h (L ++ [e1; e2]) s0 = handle_all h (L ++ [e2; e1]) s0.

Lemma to_swap (e1 e2 : nat * list U) j : fst e1 <> fst e2 -> to j [e1; e2] = to j [e2; e1].
Proof.
  destruct e1 as [a m1], e2 as [b m2]. simpl. intros Hab. rewrite !to_cons.
  destruct (a =? j) eqn:E1; destruct (b =? j) eqn:E2; try reflexivity.
  apply Nat.eqb_eq in E1, E2. congruence.
Qed.
Lemma streams_swap n ms L e1 e2 T : fst e1 <> fst e2 -> streams n ms (L ++ e1 :: e2 :: T) -> streams n ms (L ++ e2 :: e1 :: T).
Proof.
  intros Hne [S1 S2]. split.
  - intros e He. apply S1. apply in_app_or in He. apply in_or_app. destruct He as [He|[He|[He|He]]]; auto; right; simpl; auto.
  - intros j Hj. rewrite <- (S2 j Hj). change (e2 :: e1 :: T) with ([e2; e1] ++ T). change (e1 :: e2 :: T) with ([e1; e2] ++ T).
    rewrite !to_app, (to_swap e1 e2) by exact Hne. reflexivity.
Qed.

(** A message can move to the front past messages of other sources. *)
Lemma bubble n ms : swappable n ms -> forall A P e B, streams n ms (P ++ A ++ e :: B) -> (forall a, In a A -> fst a <> fst e) ->
  streams n ms (P ++ e :: A ++ B) /\ handle_all h (P ++ A ++ e :: B) s0 = handle_all h (P ++ e :: A ++ B) s0.
Proof.
  intros Hsw A. induction A as [|a A IH] using rev_ind; intros P e B HS HA; [simpl; auto|].
  rewrite <- app_assoc in HS. simpl in HS. rewrite app_assoc in HS.
  assert (fst a <> fst e) as Hae by (apply HA; apply in_or_app; right; left; reflexivity).
  pose proof (Hsw _ _ _ _ HS Hae) as E1.
  pose proof (streams_swap _ _ _ _ _ _ Hae HS) as HS'. rewrite <- app_assoc in HS'.
  destruct (IH P e (a :: B) HS') as [HS'' E2].
  { intros a' Ha'. apply HA. apply in_or_app. left; exact Ha'. }
  rewrite <- app_assoc. simpl. split; [exact HS''|].
  rewrite <- E2.
  replace (P ++ (A ++ [a]) ++ e :: B) with (((P ++ A) ++ [a; e]) ++ B) by (rewrite <- !app_assoc; reflexivity).
  replace (P ++ A ++ e :: a :: B) with (((P ++ A) ++ [e; a]) ++ B) by (rewrite <- !app_assoc; reflexivity).
  rewrite (run_app ((P ++ A) ++ [a; e])), (run_app ((P ++ A) ++ [e; a])), E1. reflexivity.
Qed.

Lemma first_to j (L : list (nat * list U)) m r : to j L = m :: r ->
  exists A T, L = A ++ (j, m) :: T /\ (forall a, In a A -> fst a <> j) /\ to j T = r.
Proof.
  induction L as [|[k m'] L IH]; intros E; [discriminate E|].
  destruct (Nat.eq_dec k j) as [->|Hk].
  - rewrite to_self in E. injection E as -> <-. exists [], L. split; [reflexivity|]. split; [intros ? []|reflexivity].
  - rewrite to_other in E by exact Hk. destruct (IH E) as (A & T & -> & HA & HT).
    exists ((k, m') :: A), T. split; [reflexivity|]. split; [|exact HT]. intros a [<-|Ha]; auto.
Qed.

Lemma canon_step n ms c m r : c < n -> (forall j, j < c -> ms j = []) -> ms c = m :: r ->
  canon n ms = (c, m) :: canon n (fun j => if j =? c then r else ms j).
Proof.
  intros Hc Hz Hm. unfold canon.
  assert (seq 0 n = seq 0 c ++ c :: seq (S c) (n - S c)) as Hs.
  { replace n with (c + S (n - S c)) at 1 by lia. rewrite seq_app. reflexivity. }
  rewrite Hs, !flat_map_app. simpl. rewrite Nat.eqb_refl, Hm.
  assert (forall l (f g : nat -> list (nat * list U)), (forall j, In j l -> f j = g j) -> flat_map f l = flat_map g l) as Hext.
  { induction l as [|a l IH]; intros f g Hfg; [reflexivity|]. simpl. rewrite (Hfg a (or_introl eq_refl)), (IH f g); auto.
    intros j Hj. apply Hfg. right; exact Hj. }
  assert (forall g : nat -> list (nat * list U), (forall j, j < c -> g j = []) -> flat_map g (seq 0 c) = []) as Hnil.
  { intros g Hg. rewrite (Hext _ g (fun _ => [])).
    - clear. induction (seq 0 c); auto.
    - intros j Hj. apply in_seq in Hj. apply Hg. lia. }
  rewrite !Hnil; [|intros j Hj; destruct (j =? c) eqn:E; [apply Nat.eqb_eq in E; lia|rewrite Hz by exact Hj; reflexivity]
    |intros j Hj; rewrite Hz by exact Hj; reflexivity].
  simpl. f_equal. f_equal. apply Hext. intros j Hj. apply in_seq in Hj.
  destruct (j =? c) eqn:E; [apply Nat.eqb_eq in E; lia|reflexivity].
Qed.

Lemma least_source n (ms : nat -> list (list U)) :
  (forall j, j < n -> ms j = []) \/ exists c m r, c < n /\ (forall j, j < c -> ms j = []) /\ ms c = m :: r.
Proof.
  induction n as [|k IH]; [left; intros; lia|]. destruct IH as [Hz|(c & m & r & Hc & Hz & Hm)].
  - destruct (ms k) as [|m r] eqn:E.
    + left. intros j Hj. destruct (Nat.eq_dec j k) as [->|]; [exact E|apply Hz; lia].
    + right. exists k, m, r. auto.
  - right. exists c, m, r. split; [lia|auto].
Qed.

Lemma sorted_run n : forall k P ms0 ms L, length L = k -> swappable n ms0 -> streams n ms0 (P ++ L) -> streams n ms L ->
  handle_all h (P ++ L) s0 = handle_all h (P ++ canon n ms) s0.
Proof.
  induction k as [|k IH]; intros P ms0 ms L Hk Hsw HS HL.
  - destruct L; [|discriminate Hk]. f_equal. f_equal. unfold canon. destruct HL as [_ HL].
    assert (forall l, (forall j, In j l -> j < n) -> flat_map (fun j => map (pair j) (ms j)) l = []) as Hnil.
    { induction l as [|a l IHl]; intros Hl; [reflexivity|]. simpl. rewrite <- HL by (apply Hl; left; reflexivity). simpl.
      apply IHl. intros j Hj. apply Hl. right; exact Hj. }
    symmetry. apply Hnil. intros j Hj. apply in_seq in Hj. lia.
  - destruct (least_source n ms) as [Hz|(c & m & r & Hc & Hz & Hm)].
    + exfalso. destruct L as [|[j m] L]; [discriminate Hk|]. destruct HL as [HL1 HL2].
      assert (j < n) as Hj by (apply (HL1 (j, m)); left; reflexivity).
      specialize (HL2 j Hj). rewrite Hz, to_self in HL2 by exact Hj. discriminate HL2.
    + destruct HL as [HL1 HL2]. pose proof (HL2 c Hc) as Ec. rewrite Hm in Ec.
      destruct (first_to c L m r Ec) as (A & T & -> & HA & HT).
      destruct (bubble n ms0 Hsw A P (c, m) T HS ltac:(simpl; exact HA)) as [HS' E].
      rewrite E. rewrite (canon_step n ms c m r Hc Hz Hm).
      replace (P ++ (c, m) :: A ++ T) with ((P ++ [(c, m)]) ++ (A ++ T)) by (rewrite <- app_assoc; reflexivity).
      replace (P ++ (c, m) :: canon n (fun j => if j =? c then r else ms j))
        with ((P ++ [(c, m)]) ++ canon n (fun j => if j =? c then r else ms j)) by (rewrite <- app_assoc; reflexivity).
      apply (IH _ ms0); auto.
      * rewrite app_length in *. simpl in Hk. lia.
      * rewrite <- app_assoc. exact HS'.
      * split.
        -- intros e He. apply HL1. apply in_app_or in He. apply in_or_app. destruct He; [left|right; right]; assumption.
        -- intros j Hj. specialize (HL2 j Hj). rewrite to_app in *.
           destruct (Nat.eq_dec j c) as [->|Hjc].
           ++ rewrite Nat.eqb_refl. rewrite to_nil; [exact HT|]. intros m' Hm'. apply (HA _ Hm'). reflexivity.
           ++ pose proof Hjc as Hjc'. apply Nat.eqb_neq in Hjc'. rewrite Hjc'. rewrite to_other in HL2 by auto. exact HL2.
Qed.

Lemma canonical n ms L : swappable n ms -> streams n ms L -> handle_all h L s0 = handle_all h (canon n ms) s0.
Proof. intros Hsw HL. apply (sorted_run n (length L) [] ms ms L eq_refl Hsw HL HL). Qed.
End Commute.
