(** C49, C50: the exchange between the servers of a party. *)
From Coq Require Import List Arith ZArith Bool Lia.
From Verif Require Import Lts Exchange ExchangeSpec ExchangeProofs ExchangeFacts.
Import ListNotations.

(** C49.  Whatever the interleaving, the poll results and the read sizes: once
    all servers have returned, each of them has handled exactly the messages
    addressed to it, those of each source in the order they were sent. *)
Theorem C49_exactly_once {U H} (x : exch U H) : proper x -> forall s,
  reach (step x) (init x) s -> all_done x s -> forall i, i < x_n x ->
  exists log, interleaves (x_n x) (x_items x) i log /\
    p_h (procs s i) = handle_all (x_h x i) log (x_h0 x i).
Proof. exact (done_log x). Qed.

(** C49.  Nothing is left on the wire for whatever the servers do next. *)
Theorem C49_nothing_left {U H} (x : exch U H) : proper x -> forall s,
  reach (step x) (init x) s -> all_done x s ->
  forall i j, i < x_n x -> j < x_n x -> i <> j -> chan s i j = [].
Proof. exact (done_empty x). Qed.

(** C49.  If messages of different sources can be handled in either order, the
    final state does not depend on the schedule: it is the one obtained by
    handling all messages of server 0, then all of server 1, and so on. *)
Theorem C49_schedule_independent {U H} (x : exch U H) : proper x -> forall i, i < x_n x ->
  (forall log e1 e2 rest, interleaves (x_n x) (x_items x) i (log ++ e1 :: e2 :: rest) -> fst e1 <> fst e2 ->
     handle_all (x_h x i) (log ++ [e1; e2]) (x_h0 x i) = handle_all (x_h x i) (log ++ [e2; e1]) (x_h0 x i)) ->
  forall s, reach (step x) (init x) s -> all_done x s ->
  p_h (procs s i) = handle_all (x_h x i) (by_server (x_n x) (x_items x) i) (x_h0 x i).
Proof.
  intros X i Hi Hsw s Hr Hd. destruct (done_log x X s Hr Hd i Hi) as (L & HL & ->).
  exact (canonical (x_h x i) (x_h0 x i) (x_n x) (fun j => messages (x_items x j) i) L Hsw HL).
Qed.

(** C50.  With room for one write buffer in every channel the exchange never
    gets stuck, ... *)
Theorem C50_no_deadlock {U H} (x : exch U H) : proper x -> roomy x -> forall s,
  reach (step x) (init x) s -> all_done x s \/ exists s', step x s s'.
Proof. intros X R s Hr. exact (progress x X R s (reach_invariant x X s Hr)). Qed.

(** ... every execution is finite, ... *)
Theorem C50_terminates {U H} (x : exch U H) : proper x ->
  exists bound, forall k s, steps (step x) k (init x) s -> k <= bound.
Proof. intros X. exists (measure x (init x)). exact (steps_bounded x X). Qed.

(** ... and so every execution, continued in any way, ends with all servers done. *)
Theorem C50_completes {U H} (x : exch U H) : proper x -> roomy x -> forall s,
  reach (step x) (init x) s -> exists s', reach (step x) s s' /\ all_done x s'.
Proof.
  intros X R. enough (forall m s, measure x s <= m -> invariant x s -> exists s', reach (step x) s s' /\ all_done x s') as HH.
  { intros s Hr. exact (HH _ s (le_n _) (reach_invariant x X s Hr)). }
  induction m as [|m IH]; intros s Hm I; destruct (progress x X R s I) as [Hd|(s1 & H1)];
    try (exists s; split; [apply reach_refl|exact Hd]).
  - pose proof (step_less x X s s1 I H1). lia.
  - pose proof (step_less x X s s1 I H1).
    destruct (IH s1 ltac:(lia) (step_invariant x X s s1 I H1)) as (s2 & H2 & Hd).
    exists s2. split; [|exact Hd]. apply (reach_trans _ _ s1); [apply reach_one; exact H1|exact H2].
Qed.

(** C50 for the constants of the code: BUFFER_SIZE = POLL_RATE = 140000 bytes
    (sockets/consts.h, types/containers.h), so poll_rate and the capacity of a
    write buffer are both 140000 / size; any TCP channel that holds 140000 bytes
    is enough. *)
Theorem C50_constants {U H} (x : exch U H) :
  (0 < Z.of_nat (x_unit x) <= 140000)%Z ->
  x_buf x = Z.to_nat (140000 / Z.of_nat (x_unit x)) -> x_rate x = x_buf x ->
  (forall i j, 140000 <= Z.of_nat (x_cap x i j))%Z ->
  roomy x /\ 0 < x_rate x <= x_buf x.
Proof.
  intros Hz Hb Hr Hc.
  assert (0 < 140000 / Z.of_nat (x_unit x))%Z as Hq by (apply Z.div_str_pos; lia).
  split; [|rewrite Hr, Hb; lia].
  intros i j _ _ _. specialize (Hc i j). rewrite Hb.
  pose proof (Z.mul_div_le 140000 (Z.of_nat (x_unit x)) ltac:(lia)).
  apply Nat2Z.inj_le. rewrite Nat2Z.inj_mul, Z2Nat.id by lia. lia.
Qed.

(** ** The bound is tight: with less room in the channels two servers that send
    each other one buffer of messages can block each other forever. *)
Section Tight.
Variables b z c : nat.
Hypothesis Hb : 0 < b.
Hypothesis Hz : 0 < z.
Hypothesis Hc : c < b * z.

Definition other (i : nat) : nat := match i with 0 => 1 | _ => 0 end.
Definition two : exch unit unit :=
  {| x_n := 2; x_cap := fun _ _ => c; x_unit := z; x_buf := b; x_rate := b;
     x_items := fun i => repeat [(other i, repeat tt z)] b;
     x_want := fun _ _ => b;
     x_h := fun _ _ _ _ => tt; x_h0 := fun _ => tt |}.

Lemma two_messages i : messages (x_items two i) (other i) = repeat (repeat tt z) b.
Proof using Hb Hz Hc.
  simpl. unfold messages. clear Hb Hc Hz. induction b as [|k IH]; [reflexivity|]. simpl. rewrite Nat.eqb_refl. simpl.
  f_equal. exact IH.
Qed.

Lemma two_proper : proper two.
Proof using Hb Hz Hc.
  split; simpl; [exact Hz|lia| |].
  - intros i it Hi Hit. apply repeat_spec in Hit. subst it. split; [repeat constructor; intros []|].
    intros j m [E|[]]. injection E as <- <-. rewrite repeat_length. destruct i as [|[|i]]; simpl; lia.
  - intros i j Hi Hj Hij. assert (i = other j) as ->. { destruct i as [|[|i]], j as [|[|j]]; simpl; lia. }
    pose proof (two_messages j) as E. simpl in E. rewrite E, repeat_length. reflexivity.
Qed.

Definition filling (k : nat) (i : nat) (p : proc unit unit) : Prop :=
  p_phase p = Fill /\ p_todo p = repeat [(other i, repeat tt z)] (b - k) /\ p_left p = b - k /\ p_cur p = [] /\
  p_pend p = [] /\ length (p_buf p (other i)) = k * z.
Definition sending (k : nat) (i : nat) (p : proc unit unit) : Prop :=
  p_phase p = Fill /\ exists us, p_pend p = [(other i, us)] /\ length us = b * z - k.

Lemma other_neq i : i < 2 -> other i <> i /\ other i < 2.
Proof using Hb Hz Hc. destruct i as [|[|i]]; simpl; lia. Qed.

Lemma two_fill i k s : i < 2 -> k < b -> filling k i (procs s i) ->
  exists s', reach (step two) s s' /\ chan s' = chan s /\ (forall l, l <> i -> procs s' l = procs s l) /\
    (if S k =? b then sending 0 i (procs s' i) else filling (S k) i (procs s' i)).
Proof using Hb Hz Hc.
  intros Hi Hk (F1 & F2 & F3 & F4 & F5 & F6). destruct (other_neq i Hi) as [Ho1 Ho2].
  destruct (b - k) as [|r] eqn:Er; [lia|]. simpl in F2.
  set (p1 := take_item (procs s i) [(other i, repeat tt z)] (repeat [(other i, repeat tt z)] r)).
  assert (step two s (put s i p1)) as S1.
  { apply s_item; auto. left. lia. }
  set (s1 := put s i p1) in *.
  assert (procs s1 i = p1) as E1 by (unfold s1; simpl; apply upd_same).
  set (p2 := push_msg two p1 (other i) (repeat tt z) []).
  assert (step two s1 (put s1 i p2)) as S2.
  { unfold p2. rewrite <- E1. apply s_push; auto; rewrite E1; auto. }
  exists (put s1 i p2). split.
  { apply (reach_trans _ _ s1); apply reach_one; assumption. }
  split; [reflexivity|]. split.
  { intros l Hl. simpl. rewrite upd_other by exact Hl. unfold s1. simpl. rewrite upd_other by exact Hl. reflexivity. }
  simpl procs. rewrite upd_same.
  assert (length (p_buf p1 (other i) ++ repeat tt z) = S k * z) as Hl.
  { rewrite app_length, repeat_length. unfold p1. simpl p_buf. rewrite F6. simpl. lia. }
  destruct (S k =? b) eqn:E.
  - apply Nat.eqb_eq in E. split; [exact F1|]. exists (p_buf p1 (other i) ++ repeat tt z).
    unfold p2, push_msg. cbn [p_pend]. cbn [two x_buf x_unit]. rewrite Hl, E, Nat.leb_refl. split; [reflexivity|]. lia.
  - apply Nat.eqb_neq in E.
    assert ((b * z <=? S k * z) = false) as Hfull by (apply Nat.leb_gt; apply Nat.mul_lt_mono_pos_r; lia).
    unfold p2, push_msg, filling. cbn [p_phase p_todo p_left p_cur p_pend p_buf]. cbn [two x_buf x_unit]. rewrite Hl, Hfull.
    unfold p1. cbn [take_item p_phase p_todo p_left p_cur p_pend p_buf].
    replace (b - S k) with r by lia. split; [exact F1|]. split; [reflexivity|]. split; [lia|]. split; [reflexivity|].
    split; [reflexivity|]. rewrite upd_same. exact Hl.
Qed.

Lemma two_filled i : i < 2 -> forall d k s, k + d = b -> 0 < d -> filling k i (procs s i) ->
  exists s', reach (step two) s s' /\ chan s' = chan s /\ (forall l, l <> i -> procs s' l = procs s l) /\ sending 0 i (procs s' i).
Proof using Hb Hz Hc.
  intros Hi d. induction d as [|d IH]; intros k s Hd Hp HF; [lia|].
  destruct (two_fill i k s Hi ltac:(lia) HF) as (s1 & R1 & C1 & O1 & H1).
  destruct (S k =? b) eqn:E.
  - exists s1. auto.
  - apply Nat.eqb_neq in E. destruct (IH (S k) s1 ltac:(lia) ltac:(lia) H1) as (s2 & R2 & C2 & O2 & H2).
    exists s2. split; [apply (reach_trans _ _ s1); assumption|]. split; [congruence|]. split; [|exact H2].
    intros l Hl. rewrite O2 by exact Hl. apply O1; exact Hl.
Qed.

Lemma two_sent i : i < 2 -> forall d k s, k + d = c -> length (chan s i (other i)) = k -> sending k i (procs s i) ->
  exists s', reach (step two) s s' /\ length (chan s' i (other i)) = c /\ (forall l m, l <> i -> chan s' l m = chan s l m) /\
    (forall l, l <> i -> procs s' l = procs s l) /\ sending c i (procs s' i).
Proof using Hb Hz Hc.
  intros Hi d. induction d as [|d IH]; intros k s Hd Hl HS.
  - exists s. assert (k = c) as -> by lia. split; [apply reach_refl|]. auto.
  - destruct HS as (F1 & us & F2 & F3). destruct us as [|u us]; [simpl in F3; lia|].
    set (s1 := {| procs := upd (procs s) i (set_pend (procs s i) [(other i, us)]);
                  chan := upd2 (chan s) i (other i) (chan s i (other i) ++ [u]) |}).
    assert (step two s s1) as S1 by (apply s_send; auto; simpl; lia).
    destruct (IH (S k) s1) as (s2 & R2 & C2 & O2 & P2 & H2); [lia| | |].
    + unfold s1. simpl. rewrite upd2_same, app_length, Hl. simpl. lia.
    + unfold s1. simpl. rewrite upd_same. split; [exact F1|]. exists us. split; [reflexivity|]. simpl in F3. lia.
    + exists s2. split; [apply (reach_trans _ _ s1); [apply reach_one; exact S1|exact R2]|]. split; [exact C2|]. split; [|split].
      * intros l m Hlm. rewrite O2 by exact Hlm. unfold s1. simpl. rewrite upd2_other by auto. reflexivity.
      * intros l Hli. rewrite P2 by exact Hli. unfold s1. simpl. rewrite upd_other by exact Hli. reflexivity.
      * exact H2.
Qed.

Lemma two_stuck s : (forall i, i < 2 -> sending c i (procs s i) /\ length (chan s i (other i)) = c) ->
  stuck (step two) s /\ ~ all_done two s.
Proof using Hb Hz Hc.
  intros HS. split.
  - intros s' Hs.
    assert (forall i, i < 2 -> exists u us, p_pend (procs s i) = [(other i, u :: us)] /\ p_phase (procs s i) = Fill /\
              length (chan s i (other i)) = c) as HP.
    { intros i Hi. destruct (HS i Hi) as [(F1 & us & F2 & F3) Hl]. destruct us as [|u us]; [simpl in F3; lia|].
      exists u, us. auto. }
    destruct Hs as [i it rest Hi Hph Hp Hc' Ht _|i m rest Hi Hp Hc'|i j m rest Hi Hji Hp Hc'|i j u us rest Hi Hp Hlt
      |i j rest Hi Hp|i Hi Hph Hp Hc' Ht _|i Hi Hph Hp Hc' Ht _|i j u us Hi Hj Hrd Hlt Hch|i Hi Hph _|i Hi Hph Hp Ha];
      destruct (HP i Hi) as (u' & us' & P1 & P2 & P3); try congruence.
    + rewrite P1 in Hp. injection Hp as <- <- <- <-. simpl in Hlt. lia.
    + destruct Hrd as [Hrd|[Hrd _]]; congruence.
  - intros Hd. specialize (Hd 0 ltac:(simpl; lia)). destruct (HS 0 ltac:(lia)) as [(F1 & _) _]. congruence.
Qed.

Lemma two_start i : filling 0 i (procs (init two) i).
Proof using Hb Hz Hc.
  unfold filling, init, init_proc, next_burst, two. cbn [procs x_items x_rate p_todo].
  destruct b as [|k]; [lia|]. simpl. repeat split.
Qed.
End Tight.

Theorem C50_tight : forall b z c, 0 < b -> 0 < z -> c < b * z ->
  exists x : exch unit unit, proper x /\ x_buf x = b /\ x_rate x = b /\ x_unit x = z /\ (forall i j, x_cap x i j = c) /\
  exists s, reach (step x) (init x) s /\ stuck (step x) s /\ ~ all_done x s.
Proof.
  intros b z c Hb Hz Hc. exists (two b z c).
  split; [exact (two_proper b z c Hb Hz Hc)|]. do 4 (split; [reflexivity|]).
  destruct (two_filled b z c Hb Hz Hc 0 ltac:(lia) b 0 (init (two b z c)) eq_refl Hb (two_start b z c Hb Hz Hc 0)) as (s1 & R1 & C1 & P1 & F1).
  destruct (two_filled b z c Hb Hz Hc 1 ltac:(lia) b 0 s1 eq_refl Hb) as (s2 & R2 & C2 & P2 & F2).
  { rewrite P1 by lia. exact (two_start b z c Hb Hz Hc 1). }
  destruct (two_sent b z c Hb Hz Hc 0 ltac:(lia) c 0 s2 eq_refl) as (s3 & R3 & C3 & O3 & P3 & F3).
  { rewrite C2, C1. reflexivity. }
  { rewrite P2 by lia. exact F1. }
  destruct (two_sent b z c Hb Hz Hc 1 ltac:(lia) c 0 s3 eq_refl) as (s4 & R4 & C4 & O4 & P4 & F4).
  { rewrite O3 by lia. rewrite C2, C1. reflexivity. }
  { rewrite P3 by lia. exact F2. }
  exists s4. split.
  - apply (reach_trans _ _ s1 _ R1). apply (reach_trans _ _ s2 _ R2). apply (reach_trans _ _ s3 _ R3 R4).
  - apply (two_stuck b z c Hb Hz Hc). intros i Hi. destruct i as [|[|i]]; [| |lia].
    + rewrite P4, O4 by lia. auto.
    + auto.
Qed.

(** ** A concrete exchange: three servers, messages of two units, buffers of two
    messages; server 0 routes five messages, server 1 broadcasts two, server 2
    sends nothing. *)
Definition ex_exchange : exch nat (list (nat * list nat)) :=
  {| x_n := 3; x_cap := fun _ _ => 4; x_unit := 2; x_buf := 2; x_rate := 2;
     x_items := fun i => match i with
                         | 0 => [[(1, [1; 2])]; [(0, [3; 4])]; [(2, [5; 6])]; [(1, [7; 8])]; [(1, [9; 10])]]
                         | 1 => [[(0, [11; 12]); (2, [11; 12])]; [(0, [13; 14]); (2, [13; 14])]]
                         | _ => []
                         end;
     x_want := fun i j => match i, j with 0, 1 => 2 | 1, 0 => 3 | 2, 0 => 1 | 2, 1 => 2 | _, _ => 0 end;
     x_h := fun _ l j m => l ++ [(j, m)]; x_h0 := fun _ => [] |}.

Example C50_example : proper ex_exchange /\ roomy ex_exchange.
Proof.
  split.
  - split; simpl; [lia|lia| |].
    + intros i it Hi Hit. destruct i as [|[|[|i]]]; simpl in Hit; [| |destruct Hit|lia].
      all: repeat (destruct Hit as [<-|Hit]; [split; [repeat constructor; simpl; intuition lia|];
             intros j m Hm; simpl in Hm; intuition (match goal with E : (_, _) = (_, _) |- _ => injection E as <- <- end; simpl; lia)|]).
      all: destruct Hit.
    + intros i j Hi Hj Hij. destruct i as [|[|[|i]]], j as [|[|[|j]]]; simpl; lia.
  - intros i j _ _ _. simpl. lia.
Qed.

Example C49_example : exists s, reach (step ex_exchange) (init ex_exchange) s /\ all_done ex_exchange s /\
  map snd (filter (fun e => fst e =? 0) (p_h (procs s 1))) = [[1; 2]; [7; 8]; [9; 10]].
Proof.
  destruct C50_example as [X R]. destruct (C50_completes ex_exchange X R _ (reach_refl _ _)) as (s & Hs & Hd).
  exists s. split; [exact Hs|]. split; [exact Hd|].
  destruct (C49_exactly_once ex_exchange X s Hs Hd 1 ltac:(simpl; lia)) as (L & [_ HL] & ->).
  assert (forall l a, handle_all (x_h ex_exchange 1) l a = a ++ l) as E.
  { induction l as [|[j m] l IH]; intros a; [symmetry; apply app_nil_r|]. unfold handle_all in *. simpl in *. rewrite IH, <- app_assoc. reflexivity. }
  rewrite E. simpl app. apply (HL 0). simpl. lia.
Qed.

Print Assumptions C49_exactly_once.
Print Assumptions C49_nothing_left.
Print Assumptions C49_schedule_independent.
Print Assumptions C50_no_deadlock.
Print Assumptions C50_terminates.
Print Assumptions C50_completes.
Print Assumptions C50_constants.
Print Assumptions C50_tight.
