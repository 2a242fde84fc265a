(** Invariants of the sibling exchange. *)
From Coq Require Import List Arith Bool Lia.
From Verif Require Import Lts Exchange ExchangeSpec.
Import ListNotations.

Lemma upd_same {A} (f : nat -> A) i a : upd f i a i = a.
Proof. unfold upd. rewrite Nat.eqb_refl. reflexivity. Qed.
Lemma upd_other {A} (f : nat -> A) i a k : k <> i -> upd f i a k = f k.
Proof. intros Hk. unfold upd. apply Nat.eqb_neq in Hk. rewrite Hk. reflexivity. Qed.
Lemma upd2_same {A} (f : nat -> nat -> A) i j a : upd2 f i j a i j = a.
Proof. unfold upd2. rewrite !Nat.eqb_refl. reflexivity. Qed.
Lemma upd2_other {A} (f : nat -> nat -> A) i j a k l : (k <> i \/ l <> j) -> upd2 f i j a k l = f k l.
Proof.
  intros Hk. unfold upd2.
  destruct (k =? i) eqn:E1; [|reflexivity]. destruct (l =? j) eqn:E2; [|reflexivity].
  apply Nat.eqb_eq in E1, E2. lia.
Qed.

(** Messages of a list of pairs that go to j. *)
Definition to {U} (j : nat) (l : list (nat * list U)) : list (list U) := map snd (filter (fun e => fst e =? j) l).
Lemma to_app {U} j (a b : list (nat * list U)) : to j (a ++ b) = to j a ++ to j b.
Proof. unfold to. rewrite filter_app, map_app. reflexivity. Qed.
Lemma to_cons {U} j k (m : list U) l : to j ((k, m) :: l) = if k =? j then m :: to j l else to j l.
Proof. unfold to. simpl. destruct (k =? j); reflexivity. Qed.
Lemma to_self {U} j (m : list U) l : to j ((j, m) :: l) = m :: to j l.
Proof. rewrite to_cons, Nat.eqb_refl. reflexivity. Qed.
Lemma to_other {U} j k (m : list U) l : k <> j -> to j ((k, m) :: l) = to j l.
Proof. intros Hk. rewrite to_cons. apply Nat.eqb_neq in Hk. rewrite Hk. reflexivity. Qed.

Lemma to_nil {U} j (l : list (nat * list U)) : (forall m, ~ In (j, m) l) -> to j l = [].
Proof.
  induction l as [|[k m] r IH]; intros Hn; [reflexivity|].
  rewrite to_other; [|intros ->; apply (Hn m); left; reflexivity].
  apply IH. intros m' Hm. apply (Hn m'). right; exact Hm.
Qed.
Lemma to_in {U} j (m : list U) l : In m (to j l) -> In (j, m) l.
Proof.
  unfold to. rewrite in_map_iff. intros ([k m'] & <- & Hf). apply filter_In in Hf. destruct Hf as [Hi He].
  simpl in He. apply Nat.eqb_eq in He. subst k. exact Hi.
Qed.
Lemma to_nodup {U} j (l : list (nat * list U)) : NoDup (map fst l) -> length (to j l) <= 1.
Proof.
  induction l as [|[k m] r IH]; intros Hn; [simpl; lia|]. simpl in Hn. inversion Hn as [|? ? Hi Hr]; subst.
  destruct (Nat.eq_dec k j) as [->|Hk].
  - rewrite to_self. rewrite to_nil; [simpl; lia|]. intros m' Hm. apply Hi. apply in_map_iff. exists (j, m'). auto.
  - rewrite to_other by exact Hk. apply IH; exact Hr.
Qed.

Lemma to_flush {U} (b : nat -> list U) j l : NoDup l -> concat (to j (map (fun k => (k, b k)) l)) = if in_dec Nat.eq_dec j l then b j else [].
Proof.
  induction l as [|k r IH]; intros Hn; [reflexivity|]. inversion Hn as [|? ? Hi Hr]; subst.
  simpl map. destruct (Nat.eq_dec k j) as [->|Hk].
  - rewrite to_self. simpl concat. rewrite IH by exact Hr.
    destruct (in_dec Nat.eq_dec j r); [contradiction|]. rewrite app_nil_r.
    destruct (in_dec Nat.eq_dec j (j :: r)) as [_|Hc]; [reflexivity|]. exfalso; apply Hc; left; reflexivity.
  - rewrite to_other by exact Hk. rewrite IH by exact Hr.
    destruct (in_dec Nat.eq_dec j r) as [Hj|Hj]; destruct (in_dec Nat.eq_dec j (k :: r)) as [Hj'|Hj']; auto.
    + exfalso; apply Hj'; right; exact Hj.
    + destruct Hj' as [Hj'|Hj']; [congruence|contradiction].
Qed.

Lemma concat_len {U} z (l : list (list U)) : (forall m, In m l -> length m = z) -> length (concat l) = length l * z.
Proof.
  induction l as [|m r IH]; intros Hl; [reflexivity|]. simpl. rewrite app_length, IH; [|intros; apply Hl; right; assumption].
  rewrite (Hl m (or_introl eq_refl)). reflexivity.
Qed.

Lemma app_inv_len {A} (a b c d : list A) : length a = length c -> a ++ b = c ++ d -> a = c /\ b = d.
Proof.
  revert c. induction a as [|x a IH]; intros [|y c] Hl He; simpl in *; try discriminate; [auto|].
  injection He as -> He. injection Hl as Hl. destruct (IH _ Hl He) as [-> ->]. auto.
Qed.

Lemma firstn_S_nth {A} k (l : list A) d : k < length l -> firstn (S k) l = firstn k l ++ [nth k l d].
Proof.
  revert l. induction k as [|k IH]; intros [|y l] Hl; simpl in *; try lia; [reflexivity|].
  f_equal. apply IH. lia.
Qed.

Lemma next_message {U} z (L : list (list U)) k m R :
  (forall m, In m L -> length m = z) -> k < length L -> length m = z ->
  concat L = concat (firstn k L) ++ m ++ R -> firstn (S k) L = firstn k L ++ [m].
Proof.
  intros HL Hk Hm He. rewrite (firstn_S_nth k L []) by exact Hk. f_equal. f_equal.
  rewrite <- (firstn_skipn k L) in He at 1. rewrite concat_app in He. apply app_inv_head in He.
  destruct (skipn k L) as [|m' T] eqn:E.
  - assert (length (skipn k L) = 0) as Hz by (rewrite E; reflexivity). rewrite skipn_length in Hz. lia.
  - assert (nth k L [] = m') as Hn.
    { clear -E. revert L E. induction k as [|k IH]; intros [|a l] E; simpl in *; try discriminate; [congruence|].
      apply IH. exact E. }
    rewrite Hn. simpl in He.
    assert (length m' = z) as Hm'.
    { apply HL. rewrite <- (firstn_skipn k L), E. apply in_or_app. right. left. reflexivity. }
    destruct (app_inv_len m' (concat T) m R ltac:(lia) He) as [Ha _]. exact Ha.
Qed.

Section Inv.
Context {U H : Type}.
Variable x : exch U H.
Hypothesis X : proper x.

Notation n := (x_n x).
Notation z := (x_unit x).
Notation B := (x_buf x).
Notation msgs i j := (messages (x_items x i) j).

Lemma in_siblings i j : In j (siblings x i) <-> j < n /\ j <> i.
Proof.
  unfold siblings. rewrite filter_In, in_seq, negb_true_iff, Nat.eqb_neq. lia.
Qed.
Lemma nodup_siblings i : NoDup (siblings x i).
Proof. apply NoDup_filter, seq_NoDup. Qed.

Definition good_item (it : list (nat * list U)) : Prop :=
  NoDup (map fst it) /\ forall j m, In (j, m) it -> j < n /\ length m = z.

Lemma msg_len i j m : i < n -> In m (msgs i j) -> length m = z.
Proof.
  intros Hi Hm. apply (to_in j m) in Hm. apply in_concat in Hm. destruct Hm as (it & Hit & Hm).
  destruct (px_items x X i it Hi Hit) as [_ Hg]. apply (Hg j m Hm).
Qed.

(** Everything server p has not put on the wire to j yet. *)
Definition outu (p : proc U H) (j : nat) : list U :=
  concat (to j (p_pend p)) ++ p_buf p j ++ concat (to j (p_cur p)) ++ concat (to j (concat (p_todo p))).

Definition flow (i j : nat) (p q : proc U H) (c : list U) : Prop :=
  concat (msgs i j) = concat (firstn (p_got q i) (msgs i j)) ++ p_part q i ++ c ++ outu p j.

Definition log_ok (i : nat) (p : proc U H) : Prop :=
  exists L, p_h p = handle_all (x_h x i) L (x_h0 x i) /\ (forall e, In e L -> fst e < n) /\
    (forall j, j < n -> j <> i -> to j L = firstn (p_got p j) (msgs j i)) /\
    msgs i i = to i L ++ to i (p_cur p) ++ to i (concat (p_todo p)).

Record pinv (i : nat) (p : proc U H) : Prop := {
  v_part : forall j, j < n -> j <> i -> length (p_part p j) < z;
  v_got : forall j, j < n -> j <> i -> p_got p j <= length (msgs j i);
  v_log : log_ok i p;
  v_todo : forall it, In it (p_todo p) -> good_item it;
  v_cur : good_item (p_cur p);
  v_pend : forall e, In e (p_pend p) -> fst e < n /\ fst e <> i;
  v_buf : forall j, exists k, k < B /\ length (p_buf p j) = k * z;
  v_left : p_left p + (match p_cur p with [] => 0 | _ => 1 end) <= x_rate x;
  v_phase : match p_phase p with
            | Fill => True
            | Drain => p_pend p = [] /\ p_cur p = []
            | Final => p_cur p = [] /\ p_todo p = [] /\ (forall j, p_buf p j = [])
            | Done => p_cur p = [] /\ p_todo p = [] /\ (forall j, p_buf p j = []) /\ p_pend p = [] /\ all_read x i p
            end
}.

(** Since its last poll that found nothing, server i sent [snt j] units to j. *)
Definition binv (i : nat) (p : proc U H) (snt : nat -> nat) : Prop :=
  ~ all_read x i p -> forall j, j < n -> j <> i ->
    snt j + length (concat (to j (p_pend p))) <= B * z /\
    (p_phase p = Fill -> snt j + length (concat (to j (p_pend p))) = 0 \/
       length (p_buf p j) + z * (p_left p + length (to j (p_cur p))) < B * z).

Record inv (D : nat -> nat) (snt : nat -> nat -> nat) (s : st U H) : Prop := {
  v_procs : forall i, i < n -> pinv i (procs s i);
  v_flow : forall i j, i < n -> j < n -> i <> j -> flow i j (procs s i) (procs s j) (chan s i j);
  v_burst : forall i, i < n -> binv i (procs s i) (snt i);
  v_order : forall i j, i < n -> j < n -> i <> j -> D i <= D j -> length (chan s i j) <= snt i j
}.

Lemma B_pos : 0 < B. Proof. destruct (px_rate x X). lia. Qed.
Lemma z_pos : 0 < z. Proof. exact (px_unit x X). Qed.

Lemma inv_put D snt s i p' : inv D snt s -> i < n ->
  pinv i p' -> binv i p' (snt i) ->
  (forall j, p_part p' j = p_part (procs s i) j) -> (forall j, p_got p' j = p_got (procs s i) j) ->
  (forall j, j <> i -> outu p' j = outu (procs s i) j) ->
  inv D snt (put s i p').
Proof.
  intros I Hi Hp Hb Hpart Hgot Hout. destruct I as [I1 I2 I3 I4]. split; simpl.
  - intros k Hk. destruct (Nat.eq_dec k i) as [->|Hne]; [rewrite upd_same; exact Hp|rewrite upd_other by exact Hne; auto].
  - intros a b Ha Hb' Hab. specialize (I2 a b Ha Hb' Hab). unfold flow in *.
    destruct (Nat.eq_dec a i) as [->|Hai]; destruct (Nat.eq_dec b i) as [->|Hbi]; [lia| | |];
      rewrite ?upd_same, ?upd_other by assumption.
    + rewrite Hout by congruence. exact I2.
    + rewrite Hpart, Hgot. exact I2.
    + exact I2.
  - intros k Hk. destruct (Nat.eq_dec k i) as [->|Hne]; [rewrite upd_same; exact Hb|rewrite upd_other by exact Hne; auto].
  - exact I4.
Qed.

(** *** The initial state *)
Lemma concat_items_good i it : i < n -> In it (x_items x i) -> good_item it.
Proof. intros Hi Hit. exact (px_items x X i it Hi Hit). Qed.

Lemma next_burst_outu i p j : j < n -> j <> i -> p_pend p = [] -> p_cur p = [] -> outu (next_burst x i p) j = outu p j.
Proof.
  intros Hj Hji Hp Hc. unfold next_burst, outu. destruct (p_todo p) as [|it r] eqn:E.
  - cbn [p_pend p_buf p_cur p_todo]. rewrite Hp, Hc.
    rewrite to_flush by apply nodup_siblings.
    destruct (in_dec Nat.eq_dec j (siblings x i)) as [_|Hn]; [|exfalso; apply Hn; apply in_siblings; auto].
    reflexivity.
  - cbn [p_pend p_buf p_cur p_todo]. rewrite Hp, Hc. reflexivity.
Qed.

Lemma next_burst_pinv i p : pinv i p -> p_pend p = [] -> p_cur p = [] -> pinv i (next_burst x i p).
Proof.
  intros [V1 V2 V3 V4 V5 V6 V7 V8 V9] Hp Hc. unfold next_burst. destruct (p_todo p) as [|it r] eqn:E.
  - split; cbn [p_part p_got p_h p_todo p_cur p_pend p_buf p_left p_phase]; auto.
    + destruct V3 as (L & A1 & A2 & A3 & A4). exists L. rewrite Hc, E in A4. auto.
    + split; [constructor|intros ? ? []].
    + intros e He. apply in_map_iff in He. destruct He as (k & <- & Hk). apply in_siblings in Hk. simpl. exact Hk.
    + intros j. exists 0. pose proof B_pos. simpl. lia.
    + lia.
  - split; cbn [p_part p_got p_h p_todo p_cur p_pend p_buf p_left p_phase]; auto.
    + destruct V3 as (L & A1 & A2 & A3 & A4). exists L. rewrite Hc, E in A4. auto.
    + split; [constructor|intros ? ? []].
    + intros e [].
    + lia.
Qed.

Lemma next_burst_binv i p : pinv i p -> binv i (next_burst x i p) (fun _ => 0).
Proof.
  intros [V1 V2 V3 V4 V5 V6 V7 V8 V9] Hr j Hj Hji. unfold next_burst in *. destruct (p_todo p) as [|it r] eqn:E.
  - cbn [p_pend p_phase]. rewrite to_flush by apply nodup_siblings.
    destruct (in_dec Nat.eq_dec j (siblings x i)) as [_|Hn]; [|exfalso; apply Hn; apply in_siblings; auto].
    destruct (V7 j) as (k & Hk & Hl). rewrite Hl. split; [|discriminate].
    simpl. apply Nat.mul_le_mono_r. lia.
  - cbn [p_pend p_phase]. simpl. split; [lia|]. left. reflexivity.
Qed.

Lemma init_inv : inv (fun _ => 0) (fun _ _ => 0) (init x).
Proof.
  assert (forall i, i < n -> pinv i {| p_phase := Fill; p_todo := x_items x i; p_left := 0; p_cur := []; p_buf := fun _ => [];
                  p_pend := []; p_part := fun _ => []; p_got := fun _ => 0; p_h := x_h0 x i |}) as HP.
  { intros i Hi. pose proof z_pos. pose proof B_pos.
    split; cbn [p_part p_got p_h p_todo p_cur p_pend p_buf p_left p_phase]; auto.
    - intros. lia.
    - exists []. split; [reflexivity|]. split; [intros ? []|]. split; [intros; reflexivity|]. reflexivity.
    - intros it Hit. apply (concat_items_good i); assumption.
    - split; [constructor|intros ? ? []].
    - intros ? [].
    - intros j. exists 0. simpl. lia.
    - lia. }
  split; simpl.
  - intros i Hi. apply next_burst_pinv; auto.
  - intros i j Hi Hj Hij. unfold flow.
    assert (p_got (init_proc x j) i = 0 /\ p_part (init_proc x j) i = []) as [E1 E2].
    { unfold init_proc, next_burst. simpl. destruct (x_items x j); auto. }
    rewrite E1, E2. unfold init_proc. rewrite next_burst_outu by auto. reflexivity.
  - intros i Hi. apply (next_burst_binv i _ (HP i Hi)).
  - intros. lia.
Qed.

(** *** Preservation *)
Lemma take_item_inv D snt s i it rest : inv D snt s -> i < n -> p_phase (procs s i) = Fill ->
  p_pend (procs s i) = [] -> p_cur (procs s i) = [] -> p_todo (procs s i) = it :: rest ->
  (0 < p_left (procs s i) \/ all_read x i (procs s i)) ->
  inv D snt (put s i (take_item (procs s i) it rest)).
Proof.
  intros I Hi Hph Hp Hc Ht Hl. pose proof (v_procs _ _ _ I i Hi) as V. pose proof (v_burst _ _ _ I i Hi) as Vb.
  apply inv_put; auto.
  - destruct V as [V1 V2 V3 V4 V5 V6 V7 V8 V9].
    split; cbn [take_item p_part p_got p_h p_todo p_cur p_pend p_buf p_left p_phase]; auto.
    + destruct V3 as (L & A1 & A2 & A3 & A4). exists L. cbn [p_h p_got p_cur p_todo]. rewrite Hc, Ht in A4.
      simpl in A4. rewrite to_app in A4. auto.
    + intros it' Hit. apply V4. rewrite Ht. right; exact Hit.
    + apply V4. rewrite Ht. left; reflexivity.
    + rewrite Hc in V8. destruct (px_rate x X). destruct it; lia.
    + rewrite Hph. exact Logic.I.
  - intros Hr j Hj Hji. cbn [take_item p_pend p_phase p_buf p_left p_cur].
    assert (~ all_read x i (procs s i)) as Hr' by exact Hr.
    specialize (Vb Hr' j Hj Hji). rewrite Hph, Hp, Hc in *. destruct Vb as [Vb1 Vb2].
    split; [exact Vb1|]. intros _. destruct (Vb2 eq_refl) as [E|E]; [left; exact E|right].
    assert (length (to j it) <= 1) as H1.
    { apply to_nodup. apply (v_todo _ _ V). rewrite Ht. left; reflexivity. }
    destruct Hl as [Hl|Hl]; [|contradiction].
    change (to j []) with (@nil (list U)) in E. simpl in E.
    assert (z * (p_left (procs s i) - 1 + length (to j it)) <= z * (p_left (procs s i) + 0)) by (apply Nat.mul_le_mono_l; lia).
    lia.
  - intros j Hji. unfold outu. cbn [take_item p_pend p_buf p_cur p_todo]. rewrite Hc, Ht. simpl.
    rewrite to_app, concat_app. reflexivity.
Qed.

Lemma handle_own_inv D snt s i m rest : inv D snt s -> i < n -> p_pend (procs s i) = [] ->
  p_cur (procs s i) = (i, m) :: rest -> inv D snt (put s i (handle_own x i (procs s i) m rest)).
Proof.
  intros I Hi Hp Hc. pose proof (v_procs _ _ _ I i Hi) as V. pose proof (v_burst _ _ _ I i Hi) as Vb.
  assert (p_phase (procs s i) = Fill) as Hph.
  { pose proof (v_phase _ _ V) as Q. destruct (p_phase (procs s i)); auto.
    - destruct Q; congruence. - destruct Q; congruence. - destruct Q; congruence. }
  apply inv_put; auto.
  - destruct V as [V1 V2 V3 V4 V5 V6 V7 V8 V9].
    split; cbn [handle_own p_part p_got p_h p_todo p_cur p_pend p_buf p_left p_phase]; auto.
    + destruct V3 as (L & A1 & A2 & A3 & A4). exists (L ++ [(i, m)]). cbn [p_h p_got p_cur p_todo].
      split. { unfold handle_all. rewrite fold_left_app. simpl. unfold handle_all in A1. rewrite <- A1. reflexivity. }
      split. { intros e He. apply in_app_or in He. destruct He as [He|[<-|[]]]; [auto|exact Hi]. }
      split.
      * intros j Hj Hji. rewrite to_app, to_other by auto. rewrite A3 by auto. apply app_nil_r.
      * rewrite A4, Hc, to_self, to_app, to_self. rewrite <- !app_assoc. reflexivity.
    + rewrite Hc in V5. destruct V5 as [G1 G2]. split.
      * inversion G1; assumption.
      * intros j m' Hm. apply G2. right; exact Hm.
    + rewrite Hc in V8. destruct rest; lia.
    + rewrite Hph. exact Logic.I.
  - intros Hr j Hj Hji. cbn [handle_own p_pend p_phase p_buf p_left p_cur].
    assert (~ all_read x i (procs s i)) as Hr' by exact Hr.
    specialize (Vb Hr' j Hj Hji). rewrite Hc, to_other in Vb by auto. exact Vb.
  - intros j Hji. unfold outu. cbn [handle_own p_pend p_buf p_cur p_todo]. rewrite Hc, to_other by auto. reflexivity.
Qed.

Lemma push_inv D snt s i j m rest : inv D snt s -> i < n -> j <> i -> p_pend (procs s i) = [] ->
  p_cur (procs s i) = (j, m) :: rest -> inv D snt (put s i (push_msg x (procs s i) j m rest)).
Proof.
  intros I Hi Hji Hp Hc. pose proof (v_procs _ _ _ I i Hi) as V. pose proof (v_burst _ _ _ I i Hi) as Vb.
  assert (p_phase (procs s i) = Fill) as Hph.
  { pose proof (v_phase _ _ V) as Q. destruct (p_phase (procs s i)); auto.
    - destruct Q; congruence. - destruct Q; congruence. - destruct Q; congruence. }
  pose proof z_pos as Hz. pose proof B_pos as HB.
  destruct V as [V1 V2 V3 V4 V5 V6 V7 V8 V9]. rewrite Hc in V5, V8.
  destruct V5 as [G1 G2]. destruct (G2 j m (or_introl eq_refl)) as [Hj Hm].
  destruct (V7 j) as (k & Hk & Hkl).
  assert (length (p_buf (procs s i) j ++ m) = S k * z) as Hlen by (rewrite app_length, Hkl, Hm; simpl; lia).
  assert (to j rest = []) as Hrest.
  { apply to_nil. intros m' Hm'. inversion G1 as [|? ? Hn _]; subst. apply Hn. apply in_map_iff. exists (j, m'). auto. }
  assert ((B * z <=? length (p_buf (procs s i) j ++ m)) = (S k =? B)) as Hfull.
  { rewrite Hlen. destruct (S k =? B) eqn:E.
    - apply Nat.eqb_eq in E. rewrite E. apply Nat.leb_refl.
    - apply Nat.eqb_neq in E. apply Nat.leb_gt. apply Nat.mul_lt_mono_pos_r; lia. }
  apply inv_put; auto.
  - split; cbn [push_msg p_part p_got p_h p_todo p_cur p_pend p_buf p_left p_phase]; auto.
    + destruct V3 as (L & A1 & A2 & A3 & A4). exists L. cbn [push_msg p_h p_got p_cur p_todo].
      rewrite Hc, to_other in A4 by auto. auto.
    + split; [inversion G1; assumption|]. intros j' m' Hm'. apply G2. right; exact Hm'.
    + rewrite Hfull. destruct (S k =? B); [|intros ? []]. intros e [<-|[]]. simpl. auto.
    + intros l. rewrite Hfull. unfold upd. destruct (l =? j) eqn:E; [|apply V7].
      destruct (S k =? B) eqn:E2; [exists 0; simpl; lia|]. apply Nat.eqb_neq in E2. exists (S k). split; [lia|exact Hlen].
    + destruct rest; lia.
    + rewrite Hph. exact Logic.I.
  - intros Hr l Hl Hli. cbn [push_msg p_pend p_phase p_buf p_left p_cur]. rewrite Hfull.
    assert (~ all_read x i (procs s i)) as Hr' by exact Hr.
    specialize (Vb Hr' l Hl Hli). rewrite Hp, Hc in Vb. simpl concat in Vb. change (to l []) with (@nil (list U)) in Vb.
    simpl in Vb. destruct Vb as [Vb1 Vb2]. specialize (Vb2 Hph).
    destruct (Nat.eq_dec l j) as [->|Hlj].
    + rewrite upd_same, Hrest. rewrite to_self, Hrest in Vb2. simpl length in Vb2.
      destruct (S k =? B) eqn:E.
      * apply Nat.eqb_eq in E.
        assert (snt i j + 0 = 0) as E0.
        { destruct Vb2 as [Vb2|Vb2]; [exact Vb2|]. exfalso. rewrite Hkl in Vb2.
          assert (k * z + z = B * z) by (rewrite <- E; simpl; lia).
          assert (z * 1 <= z * (p_left (procs s i) + 1)) by (apply Nat.mul_le_mono_l; lia). lia. }
        rewrite to_self. simpl concat. change (to j []) with (@nil (list U)). simpl concat. rewrite app_nil_r, Hlen, E.
        split; [lia|]. intros _. right. simpl length.
        destruct (px_rate x X) as [R1 R2]. simpl.
        rewrite (Nat.mul_comm z). apply Nat.mul_lt_mono_pos_r; lia.
      * simpl concat. simpl length. split; [exact Vb1|]. intros _. destruct Vb2 as [Vb2|Vb2]; [left; exact Vb2|right].
        rewrite Hlen. rewrite Hkl in Vb2. simpl. replace (z * (p_left (procs s i) + 0)) with (z * p_left (procs s i)) by lia.
        replace (z * (p_left (procs s i) + 1)) with (z * p_left (procs s i) + z) in Vb2 by lia. lia.
    + rewrite upd_other by auto. rewrite to_other in Vb2 by auto.
      destruct (S k =? B).
      * rewrite to_other by auto. simpl. auto.
      * simpl. auto.
  - intros l Hli. unfold outu. cbn [push_msg p_pend p_buf p_cur p_todo]. rewrite Hfull, Hc, Hp.
    destruct (Nat.eq_dec l j) as [->|Hlj].
    + rewrite upd_same, to_self. destruct (S k =? B).
      * rewrite to_self. change (to j []) with (@nil (list U)). simpl. rewrite app_nil_r, <- !app_assoc. reflexivity.
      * simpl. rewrite <- !app_assoc. reflexivity.
    + rewrite upd_other, to_other by auto. destruct (S k =? B); [rewrite to_other by auto|]; reflexivity.
Qed.

Lemma send_inv D snt s i j u us rest : inv D snt s -> i < n -> p_pend (procs s i) = (j, u :: us) :: rest ->
  inv D (upd2 snt i j (S (snt i j)))
    {| procs := upd (procs s) i (set_pend (procs s i) ((j, us) :: rest)); chan := upd2 (chan s) i j (chan s i j ++ [u]) |}.
Proof.
  intros I Hi Hp. destruct I as [I1 I2 I3 I4].
  pose proof (I1 i Hi) as V. pose proof (I3 i Hi) as Vb.
  destruct (v_pend _ _ V (j, u :: us)) as [Hj Hji]; [rewrite Hp; left; reflexivity|]. simpl in Hj, Hji.
  split; simpl.
  - intros k Hk. destruct (Nat.eq_dec k i) as [->|Hne]; [rewrite upd_same|rewrite upd_other by exact Hne; auto].
    destruct V as [V1 V2 V3 V4 V5 V6 V7 V8 V9].
    split; cbn [set_pend p_part p_got p_h p_todo p_cur p_pend p_buf p_left p_phase]; auto.
    + intros e He. destruct He as [<-|He]; [simpl; auto|]. apply V6. rewrite Hp. right; exact He.
    + destruct (p_phase (procs s i)); auto.
      * destruct V9 as [V9 _]. rewrite Hp in V9. discriminate V9.
      * destruct V9 as (_ & _ & _ & V9 & _). rewrite Hp in V9. discriminate V9.
  - intros a b Ha Hb Hab. specialize (I2 a b Ha Hb Hab). unfold flow in *.
    destruct (Nat.eq_dec b i) as [->|Hbi].
    + rewrite upd_same. rewrite upd_other by auto. rewrite upd2_other by auto. exact I2.
    + rewrite (upd_other _ _ _ b) by auto.
      destruct (Nat.eq_dec a i) as [->|Hai].
      * rewrite upd_same. unfold outu in *. cbn [set_pend p_pend p_buf p_cur p_todo]. rewrite Hp in I2.
        destruct (Nat.eq_dec b j) as [->|Hbj].
        -- rewrite upd2_same. rewrite to_self in *. simpl in I2. simpl. rewrite I2, <- !app_assoc. reflexivity.
        -- rewrite upd2_other by auto. rewrite to_other in * by auto. exact I2.
      * rewrite upd_other, upd2_other by auto. exact I2.
  - intros k Hk. destruct (Nat.eq_dec k i) as [->|Hne].
    + rewrite upd_same. intros Hr l Hl Hli. cbn [set_pend p_pend p_phase p_buf p_left p_cur].
      specialize (Vb Hr l Hl Hli). rewrite Hp in Vb.
      destruct (Nat.eq_dec l j) as [->|Hlj].
      * rewrite upd2_same. rewrite to_self in *. simpl in *. rewrite app_length in *.
        destruct Vb as [Vb1 Vb2]. split; [lia|]. intros E. specialize (Vb2 E). right. destruct Vb2 as [Vb2|Vb2]; [lia|exact Vb2].
      * rewrite upd2_other by auto. rewrite to_other in * by auto. exact Vb.
    + rewrite upd_other by auto. specialize (I3 k Hk). intros Hr l Hl Hlk. specialize (I3 Hr l Hl Hlk).
      rewrite upd2_other by auto. exact I3.
  - intros a b Ha Hb Hab HD. specialize (I4 a b Ha Hb Hab HD).
    destruct (Nat.eq_dec a i) as [->|Hai]; [destruct (Nat.eq_dec b j) as [->|Hbj]|].
    + rewrite !upd2_same, app_length. simpl. lia.
    + rewrite !upd2_other by auto. exact I4.
    + rewrite !upd2_other by auto. exact I4.
Qed.

Lemma sent_inv D snt s i j rest : inv D snt s -> i < n -> p_pend (procs s i) = (j, []) :: rest ->
  inv D snt (put s i (set_pend (procs s i) rest)).
Proof.
  intros I Hi Hp. pose proof (v_procs _ _ _ I i Hi) as V. pose proof (v_burst _ _ _ I i Hi) as Vb.
  assert (forall l, concat (to l (p_pend (procs s i))) = concat (to l rest)) as HT.
  { intros l. rewrite Hp. destruct (Nat.eq_dec l j) as [->|Hl]; [rewrite to_self; reflexivity|rewrite to_other by auto; reflexivity]. }
  apply inv_put; auto.
  - destruct V as [V1 V2 V3 V4 V5 V6 V7 V8 V9].
    split; cbn [set_pend p_part p_got p_h p_todo p_cur p_pend p_buf p_left p_phase]; auto.
    + intros e He. apply V6. rewrite Hp. right; exact He.
    + destruct (p_phase (procs s i)); auto.
      * destruct V9 as [V9 _]. rewrite Hp in V9. discriminate V9.
      * destruct V9 as (_ & _ & _ & V9 & _). rewrite Hp in V9. discriminate V9.
  - intros Hr l Hl Hli. cbn [set_pend p_pend p_phase p_buf p_left p_cur]. specialize (Vb Hr l Hl Hli).
    rewrite HT in Vb. exact Vb.
  - intros l Hl. unfold outu. cbn [set_pend p_pend p_buf p_cur p_todo]. rewrite HT. reflexivity.
Qed.

Lemma poll_inv D snt s i : inv D snt s -> i < n -> p_phase (procs s i) = Fill -> p_pend (procs s i) = [] ->
  p_cur (procs s i) = [] -> inv D snt (put s i (set_phase (procs s i) Drain)).
Proof.
  intros I Hi Hph Hp Hc. pose proof (v_procs _ _ _ I i Hi) as V. pose proof (v_burst _ _ _ I i Hi) as Vb.
  apply inv_put; auto.
  - destruct V as [V1 V2 V3 V4 V5 V6 V7 V8 V9].
    split; cbn [set_phase p_part p_got p_h p_todo p_cur p_pend p_buf p_left p_phase]; auto.
  - intros Hr l Hl Hli. cbn [set_phase p_pend p_phase p_buf p_left p_cur]. destruct (Vb Hr l Hl Hli) as [Vb1 _].
    split; [exact Vb1|discriminate].
Qed.

Lemma finish_inv D snt s i : inv D snt s -> i < n -> p_phase (procs s i) = Final -> p_pend (procs s i) = [] ->
  all_read x i (procs s i) -> inv D snt (put s i (set_phase (procs s i) Done)).
Proof.
  intros I Hi Hph Hp Ha. pose proof (v_procs _ _ _ I i Hi) as V. pose proof (v_burst _ _ _ I i Hi) as Vb.
  apply inv_put; auto.
  - destruct V as [V1 V2 V3 V4 V5 V6 V7 V8 V9]. rewrite Hph in V9.
    split; cbn [set_phase p_part p_got p_h p_todo p_cur p_pend p_buf p_left p_phase]; auto.
    destruct V9 as (A & B' & C). auto.
  - intros Hr. exfalso. apply Hr. exact Ha.
Qed.

Lemma got_next i p : all_read x i (next_burst x i p) <-> all_read x i p.
Proof. unfold all_read, next_burst. destruct (p_todo p); simpl; tauto. Qed.

Lemma next_burst_got i p : p_got (next_burst x i p) = p_got p.
Proof. unfold next_burst. destruct (p_todo p); reflexivity. Qed.
Lemma next_burst_part i p : p_part (next_burst x i p) = p_part p.
Proof. unfold next_burst. destruct (p_todo p); reflexivity. Qed.

Lemma skip_inv D snt s i : inv D snt s -> i < n -> p_phase (procs s i) = Fill -> p_pend (procs s i) = [] ->
  p_cur (procs s i) = [] -> all_read x i (procs s i) -> inv D snt (put s i (next_burst x i (procs s i))).
Proof.
  intros I Hi Hph Hp Hc Ha. pose proof (v_procs _ _ _ I i Hi) as V.
  destruct I as [I1 I2 I3 I4]. split; simpl.
  - intros k Hk. destruct (Nat.eq_dec k i) as [->|Hne]; [rewrite upd_same|rewrite upd_other by exact Hne; auto].
    apply next_burst_pinv; auto.
  - intros a b Ha' Hb Hab. specialize (I2 a b Ha' Hb Hab). unfold flow in *.
    destruct (Nat.eq_dec a i) as [->|Hai]; destruct (Nat.eq_dec b i) as [->|Hbi]; [lia| | |];
      rewrite ?upd_same, ?upd_other by assumption.
    + rewrite next_burst_outu by auto. exact I2.
    + rewrite next_burst_got, next_burst_part. exact I2.
    + exact I2.
  - intros k Hk. destruct (Nat.eq_dec k i) as [->|Hne]; [rewrite upd_same|rewrite upd_other by exact Hne; auto].
    intros Hr. exfalso. apply Hr. apply got_next; auto.
  - exact I4.
Qed.

(** Once everything that i sent to j was handled, the channel is empty. *)
Lemma all_got_empty i j p q c : i < n -> flow i j p q c -> length (msgs i j) <= p_got q i -> c = [] /\ outu p j = [] /\ p_part q i = [].
Proof.
  intros Hi F Hg. unfold flow in F. rewrite firstn_all2 in F by exact Hg.
  rewrite <- (app_nil_r (concat (msgs i j))) in F at 1. apply app_inv_head in F.
  symmetry in F. apply app_eq_nil in F. destruct F as [F1 F2]. apply app_eq_nil in F2. destruct F2. auto.
Qed.

Lemma max_below (D : nat -> nat) : exists M, forall k, k < n -> D k < M.
Proof.
  induction n as [|k IH]; [exists 0; lia|]. destruct IH as [M HM]. exists (S (Nat.max M (D k))).
  intros l Hl. destruct (Nat.eq_dec l k) as [->|Hne]; [lia|]. specialize (HM l ltac:(lia)). lia.
Qed.

Lemma drained_inv D snt s i : inv D snt s -> i < n -> p_phase (procs s i) = Drain ->
  (forall j, In j (siblings x i) -> p_got (procs s i) j < x_want x i j -> chan s j i = []) ->
  exists D' snt', inv D' snt' (put s i (next_burst x i (procs s i))).
Proof.
  intros I Hi Hph Hd. pose proof (v_procs _ _ _ I i Hi) as V. pose proof (v_burst _ _ _ I i Hi) as Vb.
  pose proof (v_phase _ _ V) as Q. rewrite Hph in Q. destruct Q as [Hp Hc].
  destruct (max_below D) as [M HM].
  assert (forall j, j < n -> j <> i -> chan s j i = []) as Hempty.
  { intros j Hj Hji. destruct (le_lt_dec (x_want x i j) (p_got (procs s i) j)) as [Hle|Hlt].
    - rewrite (px_want x X i j) in Hle by auto.
      apply (all_got_empty j i _ _ _ Hj (v_flow _ _ _ I j i Hj Hi Hji) Hle).
    - apply Hd; [apply in_siblings; auto|exact Hlt]. }
  exists (upd D i M), (fun a b => if a =? i then 0 else snt a b).
  destruct I as [I1 I2 I3 I4]. split; simpl.
  - intros k Hk. destruct (Nat.eq_dec k i) as [->|Hne]; [rewrite upd_same|rewrite upd_other by exact Hne; auto].
    apply next_burst_pinv; auto.
  - intros a b Ha' Hb Hab. specialize (I2 a b Ha' Hb Hab). unfold flow in *.
    destruct (Nat.eq_dec a i) as [->|Hai]; destruct (Nat.eq_dec b i) as [->|Hbi]; [lia| | |];
      rewrite ?upd_same, ?upd_other by assumption.
    + rewrite next_burst_outu by auto. exact I2.
    + rewrite next_burst_got, next_burst_part. exact I2.
    + exact I2.
  - intros k Hk. destruct (Nat.eq_dec k i) as [->|Hne].
    + rewrite upd_same, Nat.eqb_refl. apply next_burst_binv; exact V.
    + rewrite upd_other by exact Hne. apply Nat.eqb_neq in Hne. rewrite Hne. apply I3; exact Hk.
  - intros a b Ha Hb Hab HD. destruct (Nat.eq_dec b i) as [->|Hbi].
    + rewrite Hempty by auto. simpl. lia.
    + rewrite (upd_other D i M b) in HD by auto. destruct (Nat.eq_dec a i) as [->|Hai].
      * rewrite upd_same in HD. specialize (HM b Hb). lia.
      * rewrite upd_other in HD by auto. apply Nat.eqb_neq in Hai. rewrite Hai. auto.
Qed.

Lemma receive_out i p j u k : outu (receive x i p j u) k = outu p k.
Proof. unfold receive. destruct (_ =? _); reflexivity. Qed.
Lemma receive_pend i p j u : p_pend (receive x i p j u) = p_pend p.
Proof. unfold receive. destruct (_ =? _); reflexivity. Qed.

Lemma recv_inv D snt s i j u us : inv D snt s -> i < n -> j < n -> j <> i ->
  p_got (procs s i) j < x_want x i j -> chan s j i = u :: us ->
  inv D snt {| procs := upd (procs s) i (receive x i (procs s i) j u); chan := upd2 (chan s) j i us |}.
Proof.
  intros I Hi Hj Hji Hg Hch. pose proof z_pos as Hz.
  pose proof (v_procs _ _ _ I i Hi) as V. pose proof (v_burst _ _ _ I i Hi) as Vb.
  pose proof (v_flow _ _ _ I j i Hj Hi Hji) as F.
  rewrite (px_want x X i j) in Hg by auto.
  assert (length (p_part (procs s i) j ++ [u]) = z ->
          firstn (S (p_got (procs s i) j)) (msgs j i) = firstn (p_got (procs s i) j) (msgs j i) ++ [p_part (procs s i) j ++ [u]]) as Hnext.
  { intros Hl. apply (next_message z _ _ _ (us ++ outu (procs s j) i)); auto.
    - intros m Hm. apply (msg_len j i); auto.
    - unfold flow in F. rewrite Hch in F. rewrite F, <- !app_assoc. reflexivity. }
  destruct I as [I1 I2 I3 I4]. split; simpl.
  - intros k Hk. destruct (Nat.eq_dec k i) as [->|Hne]; [rewrite upd_same|rewrite upd_other by exact Hne; auto].
    destruct V as [V1 V2 V3 V4 V5 V6 V7 V8 V9]. unfold receive.
    destruct (length (p_part (procs s i) j ++ [u]) =? z) eqn:E.
    + apply Nat.eqb_eq in E. specialize (Hnext E).
      split; cbn [p_part p_got p_h p_todo p_cur p_pend p_buf p_left p_phase]; auto.
      * intros l Hl Hli. unfold upd. destruct (l =? j); [simpl; lia|auto].
      * intros l Hl Hli. destruct (Nat.eq_dec l j) as [->|Hlj]; [rewrite upd_same; lia|rewrite upd_other by auto; auto].
      * destruct V3 as (L & A1 & A2 & A3 & A4). exists (L ++ [(j, p_part (procs s i) j ++ [u])]). cbn [p_h p_got p_cur p_todo].
        split. { unfold handle_all. rewrite fold_left_app. simpl. unfold handle_all in A1. rewrite <- A1. reflexivity. }
        split. { intros e He. apply in_app_or in He. destruct He as [He|[<-|[]]]; [auto|exact Hj]. }
        split.
        -- intros l Hl Hli. rewrite to_app, A3 by auto. destruct (Nat.eq_dec l j) as [->|Hlj].
           ++ rewrite to_self, upd_same, Hnext. reflexivity.
           ++ rewrite to_other, upd_other by auto. apply app_nil_r.
        -- rewrite A4, to_app, to_other by auto. unfold to at 4. simpl. rewrite app_nil_r. reflexivity.
      * destruct (p_phase (procs s i)); auto. destruct V9 as (A & B' & C & D' & E').
        split; [exact A|]. split; [exact B'|]. split; [exact C|]. split; [exact D'|].
        intros l Hl. specialize (E' l Hl). cbn [p_got]. unfold upd. destruct (l =? j) eqn:El; [|exact E'].
        apply Nat.eqb_eq in El. subst l. lia.
    + apply Nat.eqb_neq in E.
      split; cbn [p_part p_got p_h p_todo p_cur p_pend p_buf p_left p_phase]; auto.
      intros l Hl Hli. destruct (Nat.eq_dec l j) as [->|Hlj]; [rewrite upd_same|rewrite upd_other by auto; auto].
      specialize (V1 j Hj Hji). rewrite app_length in *. simpl in *. lia.
  - intros a b Ha Hb Hab. specialize (I2 a b Ha Hb Hab).
    destruct (Nat.eq_dec b i) as [->|Hbi].
    + rewrite upd_same, upd_other by auto. destruct (Nat.eq_dec a j) as [->|Haj].
      * rewrite upd2_same. unfold flow in *. unfold receive.
        destruct (length (p_part (procs s i) j ++ [u]) =? z) eqn:E.
        -- apply Nat.eqb_eq in E. specialize (Hnext E). cbn [p_part p_got]. rewrite !upd_same, Hnext, concat_app.
           rewrite F, Hch. simpl concat. rewrite app_nil_r, <- !app_assoc. simpl. reflexivity.
        -- cbn [p_part p_got]. rewrite upd_same, F, Hch, <- !app_assoc. reflexivity.
      * rewrite upd2_other by auto. unfold flow in *. unfold receive.
        destruct (length (p_part (procs s i) j ++ [u]) =? z); cbn [p_part p_got]; rewrite !upd_other by auto; exact I2.
    + rewrite (upd_other _ _ _ b) by auto. rewrite upd2_other by auto.
      destruct (Nat.eq_dec a i) as [->|Hai]; [rewrite upd_same|rewrite upd_other by auto; exact I2].
      unfold flow in *. rewrite receive_out. exact I2.
  - intros k Hk. destruct (Nat.eq_dec k i) as [->|Hne]; [rewrite upd_same|rewrite upd_other by exact Hne; auto].
    intros Hr l Hl Hli. unfold receive in Hr |- *.
    destruct (length (p_part (procs s i) j ++ [u]) =? z).
    + assert (~ all_read x i (procs s i)) as Hr'.
      { intros Ha. apply Hr. intros k Hk'. cbn [p_got]. specialize (Ha k Hk'). unfold upd. destruct (k =? j) eqn:Ek; [|exact Ha].
        apply Nat.eqb_eq in Ek. subst k. lia. }
      exact (Vb Hr' l Hl Hli).
    + exact (Vb Hr l Hl Hli).
  - intros a b Ha Hb Hab HD. specialize (I4 a b Ha Hb Hab HD).
    destruct (Nat.eq_dec a j) as [->|Haj]; [destruct (Nat.eq_dec b i) as [->|Hbi]|].
    + rewrite upd2_same. rewrite Hch in I4. simpl in I4. lia.
    + rewrite upd2_other by auto. exact I4.
    + rewrite upd2_other by auto. exact I4.
Qed.

Definition invariant (s : st U H) : Prop := exists D snt, inv D snt s.

Lemma step_invariant s s' : invariant s -> step x s s' -> invariant s'.
Proof.
  intros (D & snt & I) Hs. destruct Hs.
  - exists D, snt. apply take_item_inv; auto.
  - exists D, snt. apply handle_own_inv; auto.
  - exists D, snt. apply push_inv; auto.
  - eexists D, _. apply send_inv; eauto.
  - exists D, snt. eapply sent_inv; eauto.
  - exists D, snt. apply poll_inv; auto.
  - exists D, snt. apply skip_inv; auto.
  - exists D, snt. apply in_siblings in H1. apply recv_inv; tauto.
  - eapply drained_inv; eauto.
  - exists D, snt. apply finish_inv; auto.
Qed.

Lemma reach_invariant s : reach (step x) (init x) s -> invariant s.
Proof.
  apply (reach_inv (step x) invariant step_invariant). exists (fun _ => 0), (fun _ _ => 0). exact init_inv.
Qed.

End Inv.
