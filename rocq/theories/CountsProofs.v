(** Differential privacy of the numbers of lookups in whole deployments. *)
From Coq Require Import Reals Psatz.
From Verif Require Import Base Sizes Handlers Party Parallel ParChain ChainSpec ParChainSpec Net Lts Procs ParProcs
  NoiseReal NoiseRealProofs PrivacySpec PrivacyProofs CountsSpec.
Local Open Scope nat_scope.

(** ** Averages *)
Section Average.
  Variable (p : nat -> R) (m : nat).
  Lemma average_ext n : forall g g', (forall zs, drawn m n zs -> g zs = g' zs) -> average p m n g = average p m n g'.
  Proof.
    induction n as [|n IH]; intros g g' H; cbn [average]; [apply H; split; constructor|].
    apply rsum_ext. intros z Hz. f_equal. apply IH. intros zs (L & F). apply H. split; [cbn; lia|]. constructor; [lia|exact F].
  Qed.
  Fixpoint add_lists (a b : list nat) : list nat :=
    match a, b with x :: a, y :: b => x + y :: add_lists a b | _, _ => [] end.
  Lemma expect_average hist : forall f, expect p m hist f = average p m (length hist) (fun zs => f (add_lists hist zs)).
  Proof.
    induction hist as [|h hist IH]; intros f; cbn [expect average length]; [reflexivity|].
    apply rsum_ext. intros z _. f_equal. rewrite IH. reflexivity.
  Qed.
  Hypothesis Hp : forall z, (0 <= p z)%R.
  Lemma expect_pos hist : forall f, (forall os, 0 <= f os)%R -> (0 <= expect p m hist f)%R.
  Proof.
    induction hist as [|h hist IH]; intros f Hf; cbn [expect]; [apply Hf|]. apply rsum_nonneg. intros z _.
    apply Rmult_le_pos; [apply Hp|]. apply IH. intros os. apply Hf.
  Qed.
End Average.

(** ** Histograms *)
Definition hist (rows : nat) (o : nat -> nat) (l : list Z) : list nat :=
  map (fun k => count_occ Z.eq_dec l (Z.of_nat k) + o k) (seq 0 rows).

Lemma map_seq_split {A} (f : nat -> A) rows x : x < rows ->
  map f (seq 0 rows) = map f (seq 0 x) ++ f x :: map f (seq (S x) (rows - S x)).
Proof.
  intros H. replace rows with (x + S (rows - S x)) at 1 by lia. rewrite seq_app, map_app. reflexivity.
Qed.
Lemma map_seq_split_at {A} (f : nat -> A) a n x : a <= x < a + n ->
  map f (seq a n) = map f (seq a (x - a)) ++ f x :: map f (seq (S x) (a + n - S x)).
Proof.
  intros H. replace n with ((x - a) + S (a + n - S x)) at 1 by lia. rewrite seq_app, map_app. cbn [seq map].
  replace (a + (x - a)) with x by lia. reflexivity.
Qed.
Lemma map_seq_ext {A} (f g : nat -> A) a n : (forall i, a <= i < a + n -> f i = g i) -> map f (seq a n) = map g (seq a n).
Proof. intros H. apply map_ext_in. intros i Hi. apply in_seq in Hi. apply H. lia. Qed.

Lemma neighbours_of rows (f g : nat -> nat) x y : x < rows -> y < rows -> x <> y -> f x = S (g x) -> g y = S (f y) ->
  (forall k, k <> x -> k <> y -> f k = g k) -> neighbours (map f (seq 0 rows)) (map g (seq 0 rows)).
Proof.
  intros Hx Hy N Ex Ey E. destruct (Nat.lt_ge_cases x y) as [L|L].
  - rewrite (map_seq_split f rows x), (map_seq_split g rows x) by assumption.
    rewrite (map_seq_split_at f (S x) _ y), (map_seq_split_at g (S x) _ y) by lia. rewrite Ex, Ey.
    rewrite (map_seq_ext f g 0 x), (map_seq_ext f g (S x) (y - S x)), (map_seq_ext f g (S y)) by (intros i Hi; apply E; lia).
    apply nb_left.
  - rewrite (map_seq_split f rows y), (map_seq_split g rows y) by assumption.
    rewrite (map_seq_split_at f (S y) _ x), (map_seq_split_at g (S y) _ x) by lia. rewrite Ex, Ey.
    rewrite (map_seq_ext f g 0 y), (map_seq_ext f g (S y) (x - S y)), (map_seq_ext f g (S x)) by (intros i Hi; apply E; lia).
    apply nb_right.
Qed.

Definition one_more (o : nat -> nat) (x : Z) (k : nat) : nat := if Z.eq_dec x (Z.of_nat k) then S (o k) else o k.
Lemma hist_cons rows o x l : hist rows o (x :: l) = hist rows (one_more o x) l.
Proof.
  unfold hist, one_more. apply map_ext. intros k. cbn [count_occ]. destruct (Z.eq_dec x (Z.of_nat k)); lia.
Qed.

Section Group.
  Variable (p : nat -> R) (m : nat) (e d : R).
  Hypothesis (He : (0 <= e)%R) (Hd : (0 <= d)%R) (Hp : forall z, (0 <= p z)%R) (P : private p m e d).
  Variable f : list nat -> R.
  Hypothesis Hf : forall os, (0 <= f os <= 1)%R.

  Lemma one_step rows o x y l : (0 <= x < Z.of_nat rows)%Z -> (0 <= y < Z.of_nat rows)%Z ->
    (expect p m (hist rows o (x :: l)) f <= exp e * expect p m (hist rows o (y :: l)) f + d)%R.
  Proof using All.
    intros Hx Hy. destruct (Z.eq_dec x y) as [->|N].
    - assert (0 <= expect p m (hist rows o (y :: l)) f)%R by (apply expect_pos; [exact Hp|]; intros os; apply Hf).
      assert (1 <= exp e)%R by (pose proof (exp_le1 (- e) ltac:(lra)); pose proof (exp_pos e); pose proof (exp_pos (-e));
        assert (exp e * exp (- e) = 1)%R by (rewrite <- exp_plus, Rplus_opp_r; apply exp_0); nra).
      nra.
    - apply P; [|exact Hf]. unfold hist. apply (neighbours_of rows _ _ (Z.to_nat x) (Z.to_nat y)); try lia.
      + cbn [count_occ]. rewrite Z2Nat.id by lia. destruct (Z.eq_dec x x); [|congruence]. destruct (Z.eq_dec y x); [congruence|lia].
      + cbn [count_occ]. rewrite Z2Nat.id by lia. destruct (Z.eq_dec y y); [|congruence]. destruct (Z.eq_dec x y); [congruence|lia].
      + intros k H1 H2. cbn [count_occ]. destruct (Z.eq_dec x (Z.of_nat k)); [lia|]. destruct (Z.eq_dec y (Z.of_nat k)); [lia|reflexivity].
  Qed.

  Definition valid (rows : nat) (l : list Z) : Prop := Forall (fun k => (0 <= k < Z.of_nat rows)%Z) l.
  Lemma group t l l' : differ t l l' -> forall rows o, valid rows l -> valid rows l' ->
    (expect p m (hist rows o l) f <= exp (INR t * e) * expect p m (hist rows o l') f + rsum t (fun i => exp (INR i * e)) * d)%R.
  Proof using All.
    induction 1 as [|t x l l' D IH|t x y l l' D IH]; intros rows o V V'.
    - cbn [INR rsum]. rewrite Rmult_0_l, exp_0. lra.
    - inversion V; inversion V'; subst. rewrite !hist_cons. apply IH; assumption.
    - inversion V as [|? ? Hx V1]; inversion V' as [|? ? Hy V2]; subst.
      pose proof (one_step rows o x y l Hx Hy) as S1. rewrite (hist_cons rows o y l) in S1.
      pose proof (IH rows (one_more o y) V1 V2) as S2. rewrite (hist_cons rows o y l').
      rewrite rsum_shift. change (INR 0) with 0%R.
      replace (INR (S t) * e)%R with (e + INR t * e)%R by (rewrite S_INR; lra). rewrite exp_plus.
      rewrite Rmult_0_l, exp_0.
      rewrite (rsum_ext t (fun i => exp (INR (S i) * e)) (fun i => exp e * exp (INR i * e))%R)
        by (intros i _; rewrite S_INR, <- exp_plus; f_equal; lra).
      rewrite rsum_lin. pose proof (exp_pos e).
      apply (Rmult_le_compat_l (exp e)) in S2; [|lra]. lra.
  Qed.
End Group.

(** ** Sums over the parties *)
Definition rest (h : nat) (others : nat -> nat -> nat) (P k : nat) : nat :=
  list_sum (map (fun j => if j =? h then 0 else others j k) (seq 0 P)).
Lemma sum_split h (others : nat -> nat -> nat) P k z : h < P ->
  list_sum (map (fun j => if j =? h then z else others j k) (seq 0 P)) = rest h others P k + z.
Proof.
  unfold rest. induction P as [|P IH]; intros H; [lia|]. rewrite !seq_S, !map_app, !list_sum_app, !Nat.add_0_l. cbn [map].
  destruct (Nat.eqb_spec P h) as [->|N]; [|rewrite IH by lia; lia].
  assert (E : forall w, map (fun j => if j =? h then w else others j k) (seq 0 h) = map (fun j => others j k) (seq 0 h)).
  { intros w. apply map_ext_in. intros j Hj. apply in_seq in Hj. destruct (Nat.eqb_spec j h); [lia|reflexivity]. }
  rewrite !E. cbn [list_sum fold_right]. lia.
Qed.
Lemma map_by_number {A B} (f : A -> B) (g : nat -> B) l : (forall j a, nth_error l j = Some a -> f a = g j) ->
  map f l = map g (seq 0 (length l)).
Proof.
  revert g. induction l as [|a l IH]; intros g H; [reflexivity|]. cbn [map length seq]. f_equal; [apply (H 0 a); reflexivity|].
  rewrite <- seq_shift, map_map. apply IH. intros j b Hj. apply (H (S j) b). exact Hj.
Qed.
Lemma plus_seq (f : nat -> nat) n : forall a zs, length zs = n ->
  add_lists (map f (seq a n)) zs = map (fun k => f k + nth (k - a) zs 0) (seq a n).
Proof.
  induction n as [|n IH]; intros a zs L; [reflexivity|]. destruct zs as [|z zs]; [discriminate|].
  cbn [seq map add_lists]. rewrite Nat.sub_diag. cbn [nth]. f_equal. rewrite IH by (cbn in L; lia).
  apply map_ext_in. intros k Hk. apply in_seq in Hk. replace (k - a) with (S (k - S a)) by lia. reflexivity.
Qed.

(** What the backend sees of draws zs. *)
Definition sees (rows : nat) (l : list Z) (o : nat -> nat) (zs : list nat) (keys : list Z) : Prop :=
  forall k, k < rows -> count_occ Z.eq_dec keys (Z.of_nat k) = count_occ Z.eq_dec l (Z.of_nat k) + o k + nth k zs 0.

Lemma sees_counts rows l o zs keys : length zs = rows -> sees rows l o zs keys -> counts rows keys = add_lists (hist rows o l) zs.
Proof.
  intros L H. unfold counts, hist. rewrite plus_seq by exact L. apply map_seq_ext. intros k Hk. rewrite Nat.sub_0_r. apply H. lia.
Qed.

Lemma count_repeat_map (x : nat) rows (g : nat -> nat) : x < rows ->
  count_occ Z.eq_dec (flat_map (fun k => repeat (Z.of_nat k) (g k)) (seq 0 rows)) (Z.of_nat x) = g x.
Proof.
  intros H. assert (R : forall k n, count_occ Z.eq_dec (repeat (Z.of_nat k) n) (Z.of_nat x) = if k =? x then n else 0).
  { intros k n. induction n as [|n IH]; cbn [repeat count_occ]; [destruct (k =? x); reflexivity|]. rewrite IH.
    destruct (Z.eq_dec (Z.of_nat k) (Z.of_nat x)) as [E|E]; destruct (Nat.eqb_spec k x); lia. }
  assert (G : forall n, count_occ Z.eq_dec (flat_map (fun k => repeat (Z.of_nat k) (g k)) (seq 0 n)) (Z.of_nat x) = if x <? n then g x else 0).
  { induction n as [|n IH]; [reflexivity|]. rewrite seq_S, flat_map_app, count_occ_app, IH. cbn [flat_map]. rewrite Nat.add_0_l, app_nil_r, R.
    destruct (Nat.eqb_spec n x), (Nat.ltb_spec x n), (Nat.ltb_spec x (S n)); subst; lia. }
  rewrite G. destruct (Nat.ltb_spec x rows); [reflexivity|lia].
Qed.
Lemma count_flat_map {A} (f : A -> list Z) l k : count_occ Z.eq_dec (flat_map f l) k = list_sum (map (fun a => count_occ Z.eq_dec (f a) k) l).
Proof. induction l as [|a l IH]; cbn [flat_map map list_sum fold_right]; [reflexivity|]. rewrite count_occ_app, IH. reflexivity. Qed.

Lemma adds_sees h others rows parties zs l keys : adds h others rows parties zs ->
  Permutation keys (l ++ flat_map (noise_keys rows) parties) -> sees rows l (rest h others (length parties)) zs keys.
Proof.
  intros (H & A) Pm k Hk. rewrite (proj1 (Permutation_count_occ Z.eq_dec _ _) Pm), count_occ_app, count_flat_map.
  rewrite <- Nat.add_assoc. f_equal.
  rewrite (map_by_number _ (fun j => if j =? h then nth k zs 0 else others j k)); [apply sum_split; exact H|].
  intros j cf Hj. unfold noise_keys. rewrite count_repeat_map by exact Hk. apply A; assumption.
Qed.
Lemma par_adds_sees h others N rows parties zs l keys : par_adds h others N rows parties zs ->
  Permutation keys (l ++ flat_map (party_noise_keys N rows) parties) -> sees rows l (rest h others (length parties)) zs keys.
Proof.
  intros (H & A) Pm k Hk. rewrite (proj1 (Permutation_count_occ Z.eq_dec _ _) Pm), count_occ_app, count_flat_map.
  rewrite <- Nat.add_assoc. f_equal.
  rewrite (map_by_number _ (fun j => if j =? h then nth k zs 0 else others j k)); [apply sum_split; exact H|].
  intros j cf Hj. apply A; assumption.
Qed.

(** Everything together. *)
Lemma sees_private p m e d rows o t l l' seen seen' f : (0 <= e)%R -> (0 <= d)%R -> (forall z, (0 <= p z)%R) -> private p m e d ->
  (forall os, (0 <= f os <= 1)%R) -> differ t l l' -> valid rows l -> valid rows l' ->
  (forall zs, drawn m rows zs -> sees rows l o zs (seen zs)) -> (forall zs, drawn m rows zs -> sees rows l' o zs (seen' zs)) ->
  (average p m rows (fun zs => f (counts rows (seen zs))) <=
   exp (INR t * e) * average p m rows (fun zs => f (counts rows (seen' zs))) + rsum t (fun i => exp (INR i * e)) * d)%R.
Proof.
  intros He Hd Hp P Hf D V V' S S'.
  assert (E : forall l seen, (forall zs, drawn m rows zs -> sees rows l o zs (seen zs)) ->
    average p m rows (fun zs => f (counts rows (seen zs))) = expect p m (hist rows o l) f).
  { intros l0 seen0 H. rewrite expect_average. unfold hist at 1. rewrite map_length, seq_length. apply average_ext. intros zs Hz.
    rewrite (sees_counts rows l0 o zs _ (proj1 Hz) (H zs Hz)). reflexivity. }
  rewrite (E l seen S), (E l' seen' S'). apply (group p m e d He Hd Hp P f Hf t l l' D rows o V V').
Qed.

(** ** Executions *)
Lemma ret_stays_net {C} (eqb : C -> C -> bool) cap n (s s' : net C ending) q e :
  steps (net_step eqb cap) n s s' -> nt_proc s q = Ret e -> nt_proc s' q = Ret e.
Proof.
  intros H E. induction H as [|n s s1 s2 _ IH St]; [exact E|]. specialize (IH E). destruct St as [r St].
  destruct St; cbn [nt_proc]; unfold set_proc; destruct (Nat.eqb_spec q r) as [->|]; try assumption; congruence.
Qed.
Lemma finishes_from {St} (R : St -> St -> Prop) bound (done : St -> Prop) s0 :
  (forall n s, steps R n s0 s -> n <= bound /\ ((exists s', R s s') \/ done s)) ->
  forall n s, steps R n s0 s -> exists k s', steps R k s s' /\ done s' /\ exists n', steps R n' s0 s'.
Proof.
  intros A n s H. remember (S bound - n) as k eqn:Ek. revert n s H Ek. induction k as [|k IH]; intros n s H Ek.
  - destruct (A n s H) as (B & _). lia.
  - destruct (A n s H) as (B & [(s' & St')|D]).
    + assert (H' : steps R (S n) s0 s') by (econstructor; eassumption).
      destruct (IH (S n) s' H' ltac:(lia)) as (j & s2 & H2 & D & H3). exists (S j), s2. split; [|auto].
      clear - St' H2. revert s St'. induction H2 as [|j x y z Hxy IHs Ryz]; intros w Hw; [econstructor; [constructor|exact Hw]|].
      econstructor; [apply IHs; exact Hw|exact Ryz].
    + exists 0, s. split; [constructor|]. eauto.
Qed.
