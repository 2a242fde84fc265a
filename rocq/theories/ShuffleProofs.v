(** Proofs about [Shuffle]. *)
From Verif Require Import Base BaseProofs Shuffle Spec.

Definition rand_ok (rnd : nat -> Z) : Prop := forall k, 0 <= rnd k <= RAND_MAX.

Lemma random_bounded_lt r i : 0 <= r <= RAND_MAX -> 1 <= i < 2 ^ 32 ->
  0 <= random_bounded r i /\ 2 * random_bounded r i < i.
Proof.
  unfold RAND_MAX, random_bounded. intros Hr Hi.
  rewrite (w32_id r) by (unfold u32; lia).
  assert (Hp : 0 <= r * i < 2 ^ 64) by nia.
  rewrite (w64_id (r * i)) by exact Hp.
  rewrite Z.shiftr_div_pow2 by lia.
  assert (Hd : 0 <= r * i / 2 ^ 32) by (apply Z.div_pos; lia).
  assert (Hd2 : 2 * (r * i / 2 ^ 32) < i).
  { assert (H1 : r * i / 2 ^ 32 * 2 ^ 32 <= r * i) by (rewrite Z.mul_comm; apply Z.mul_div_le; lia).
    nia. }
  rewrite w32_id by (unfold u32; lia). lia.
Qed.

Lemma swap_spec {A} (arr : list A) a b : (a < length arr)%nat -> (b < length arr)%nat ->
  exists arr', swap arr a b = Ok arr' /\ length arr' = length arr /\ Permutation arr arr' /\
    forall j, nth_error arr' j =
      if (j =? b)%nat then nth_error arr a else if (j =? a)%nat then nth_error arr b else nth_error arr j.
Proof.
  intros Ha Hb. unfold swap.
  destruct (get_lt arr a Ha) as (x & Ex & Nx). destruct (get_lt arr b Hb) as (y & Ey & Ny).
  rewrite Ex, Ey. cbn [bind]. rewrite set_Ok by exact Ha. cbn [bind].
  rewrite set_Ok by (rewrite length_upd; exact Hb).
  set (arr' := upd (upd arr a y) b x).
  assert (L : length arr' = length arr) by (unfold arr'; rewrite !length_upd; reflexivity).
  assert (N : forall j, nth_error arr' j =
      if (j =? b)%nat then nth_error arr a else if (j =? a)%nat then nth_error arr b else nth_error arr j).
  { intros j. unfold arr'. destruct (Nat.eqb_spec j b) as [->|Hjb].
    - rewrite nth_error_upd_eq by (rewrite length_upd; lia). congruence.
    - rewrite nth_error_upd_ne by congruence.
      destruct (Nat.eqb_spec j a) as [->|Hja].
      + rewrite nth_error_upd_eq by lia. congruence.
      + rewrite nth_error_upd_ne by congruence. reflexivity. }
  exists arr'. split; [reflexivity|]. split; [exact L|]. split; [|exact N].
  apply Permutation_nth_error. split; [symmetry; exact L|].
  exists (fun j => if (j =? b)%nat then a else if (j =? a)%nat then b else j). split.
  - intros j k. destruct (Nat.eqb_spec j b), (Nat.eqb_spec j a), (Nat.eqb_spec k b), (Nat.eqb_spec k a); lia.
  - intros j. rewrite N. destruct (j =? b)%nat, (j =? a)%nat; reflexivity.
Qed.

Lemma shuffle_loop_spec {A} rnd : rand_ok rnd -> forall i k (arr : list A),
  (i <= length arr)%nat -> Z.of_nat i < 2 ^ 32 ->
  exists arr', shuffle_loop rnd i k arr = Ok arr' /\ Permutation arr arr' /\ length arr' = length arr /\
    (forall j, (i <= j)%nat -> nth_error arr' j = nth_error arr j) /\
    ((2 <= i)%nat -> exists p, (2 * p < i)%nat /\ nth_error arr' (i - 1) = nth_error arr p).
Proof.
  intros Hr. induction i as [|i IH]; intros k arr Hi Hz.
  - exists arr. cbn. repeat split; auto. lia.
  - cbn [shuffle_loop]. destruct (Nat.eqb_spec i 0) as [->|Hi0].
    + exists arr. repeat split; auto. lia.
    + destruct (random_bounded_lt (rnd k) (Z.of_nat (S i)) (Hr k)) as [B1 B2]; [lia|].
      rewrite (w32_id (Z.of_nat (S i))) by (unfold u32; lia).
      set (p := Z.to_nat (random_bounded (rnd k) (Z.of_nat (S i)))).
      assert (Hp : (2 * p < S i)%nat) by (unfold p; lia).
      destruct (swap_spec arr i p) as (a1 & E1 & L1 & P1 & N1); try lia.
      rewrite E1. cbn [bind].
      destruct (IH (S k) a1) as (a2 & E2 & P2 & L2 & N2 & _); try lia.
      exists a2. split; [exact E2|]. split; [eapply Permutation_trans; eassumption|]. split; [lia|]. split.
      * intros j Hj. rewrite N2 by lia. rewrite N1.
        destruct (Nat.eqb_spec j p); [lia|]. destruct (Nat.eqb_spec j i); [lia|]. reflexivity.
      * intros _. exists p. split; [exact Hp|]. replace (S i - 1)%nat with i by lia.
        rewrite N2 by lia. rewrite N1.
        destruct (Nat.eqb_spec i p) as [e|_]; [exfalso; lia|]. rewrite Nat.eqb_refl. reflexivity.
Qed.

Lemma shuffle_spec {A} rnd (arr : list A) : rand_ok rnd -> Z.of_nat (length arr) < 2 ^ 32 ->
  exists arr', shuffle rnd arr (length arr) = Ok arr' /\ Permutation arr arr' /\ length arr' = length arr.
Proof.
  intros Hr Hn. destruct (shuffle_loop_spec rnd Hr (length arr) 0 arr) as (a & E & P & L & _); auto.
  exists a; auto.
Qed.

(** Inverse table of a permutation of 0..n-1. *)
Lemma inverse_loop fwd n : Permutation (seq 0 n) fwd ->
  exists bwd, for_ n 0 (fun i b => let* t := get fwd i in set_ b t i) (repeat O n) = Ok bwd /\
    length bwd = n /\
    (forall i t, nth_error fwd i = Some t -> nth_error bwd t = Some i).
Proof.
  intros P.
  assert (Lf : length fwd = n) by (rewrite <- (Permutation_length P); apply seq_length).
  assert (ND : NoDup fwd) by (eapply Permutation_NoDup; [exact P | apply seq_NoDup]).
  assert (Rng : forall i t, nth_error fwd i = Some t -> (t < n)%nat).
  { intros i t Hi. apply nth_error_In in Hi. apply (Permutation_in _ (Permutation_sym P)) in Hi.
    apply in_seq in Hi. lia. }
  destruct (for_inv (fun k b => length b = n /\
      forall i t, (i < k)%nat -> nth_error fwd i = Some t -> nth_error b t = Some i)
      n 0 (fun i b => let* t := get fwd i in set_ b t i) (repeat O n)) as (b & E & L & H).
  - split; [apply repeat_length|]. intros; lia.
  - intros k b Hk [Lb Hb].
    destruct (get_lt fwd k) as (t & Et & Nt); [lia|]. rewrite Et. cbn [bind].
    pose proof (Rng _ _ Nt) as Ht. rewrite set_Ok by lia.
    eexists; split; [reflexivity|]. split; [rewrite length_upd; exact Lb|].
    intros i u Hi Nu. destruct (Nat.eq_dec i k) as [->|Hne].
    + rewrite Nt in Nu; inversion Nu; subst u. apply nth_error_upd_eq. lia.
    + rewrite nth_error_upd_ne; [apply Hb; [lia|exact Nu]|].
      intros <-. apply Hne. apply (proj1 (NoDup_nth_error fwd) ND); [|congruence].
      apply nth_error_Some. congruence.
  - exists b. split; [exact E|]. split; [exact L|]. intros i t Hi. apply H; [|exact Hi].
    assert (i < length fwd)%nat by (apply nth_error_Some; congruence). lia.
Qed.

Lemma ls_initialize_spec rng seed n : rand_ok (rng seed) -> Z.of_nat n < 2 ^ 32 ->
  exists s, ls_initialize rng seed n = Ok s /\
    length (ls_forward s) = n /\ length (ls_backward s) = n /\
    Permutation (seq 0 n) (ls_forward s) /\ Permutation (seq 0 n) (ls_backward s) /\
    (forall i t, nth_error (ls_forward s) i = Some t <-> nth_error (ls_backward s) t = Some i).
Proof.
  intros Hr Hn. unfold ls_initialize.
  destruct (shuffle_spec (rng seed) (seq 0 n) Hr) as (fwd & E & P & L); [rewrite seq_length; exact Hn|].
  rewrite seq_length in *. rewrite E. cbn [bind].
  destruct (inverse_loop fwd n P) as (bwd & Eb & Lb & Hb). rewrite Eb. cbn [bind].
  eexists; split; [reflexivity|]. cbn [ls_forward ls_backward].
  assert (ND : NoDup fwd) by (eapply Permutation_NoDup; [exact P | apply seq_NoDup]).
  assert (Hiff : forall i t, nth_error fwd i = Some t <-> nth_error bwd t = Some i).
  { intros i t. split; [apply Hb|]. intros Ht.
    assert (Htn : (t < n)%nat) by (rewrite <- Lb; apply nth_error_Some; congruence).
    assert (Hin : In t fwd).
    { apply (Permutation_in _ P). apply in_seq. lia. }
    apply In_nth_error in Hin. destruct Hin as [i' Hi']. pose proof (Hb _ _ Hi') as Hb'.
    rewrite Ht in Hb'. inversion Hb'; subst. exact Hi'. }
  repeat (split; [assumption|]). split; [|exact Hiff].
  apply NoDup_Permutation_bis.
  - apply seq_NoDup.
  - rewrite seq_length. lia.
  - intros i Hi. apply in_seq in Hi. destruct (nth_error fwd i) as [t|] eqn:Ef.
    + apply Hiff in Ef. eapply nth_error_In; eauto.
    + apply nth_error_None in Ef. lia.
Qed.

Lemma c13 rng seed n : (forall k, 0 <= rng seed k <= 2 ^ 31 - 1) -> Z.of_nat n < 2 ^ 32 ->
  exists s, ls_initialize rng seed n = Ok s /\ bijection_below n (ls_shuffle s) (ls_deshuffle s).
Proof.
  intros Hr Hn. destruct (ls_initialize_spec rng seed n Hr Hn) as (s & E & Lf & Lb & Pf & Pb & H).
  exists s. split; [exact E|]. intros i Hi. split.
  - destruct (get_lt (ls_forward s) i) as (j & Ej & Nj); [lia|]. exists j.
    split; [|split; [exact Ej|]].
    + apply nth_error_In in Nj. apply (Permutation_in _ (Permutation_sym Pf)) in Nj. apply in_seq in Nj. lia.
    + apply get_Ok. apply H. exact Nj.
  - destruct (get_lt (ls_backward s) i) as (j & Ej & Nj); [lia|]. exists j.
    split; [|split; [exact Ej|]].
    + apply nth_error_In in Nj. apply (Permutation_in _ (Permutation_sym Pb)) in Nj. apply in_seq in Nj. lia.
    + apply get_Ok. apply H. exact Nj.
Qed.

Lemma c14 rng seed n : (forall k, 0 <= rng seed k <= 2 ^ 31 - 1) -> (2 <= n)%nat -> Z.of_nat n < 2 ^ 32 ->
  exists s j, ls_initialize rng seed n = Ok s /\ ls_shuffle s (n - 1) = Ok j /\ (2 * j < n)%nat.
Proof.
  intros Hr H2 Hn. destruct (ls_initialize_spec rng seed n Hr Hn) as (s & E & _).
  destruct (shuffle_loop_spec (rng seed) Hr n 0 (seq 0 n)) as (a & Ea & _ & La & _ & Hp);
    [rewrite seq_length; lia | exact Hn |].
  destruct (Hp H2) as (p & Bp & Np).
  exists s, p. split; [exact E|]. split; [|exact Bp].
  unfold ls_initialize in E. unfold shuffle in E. rewrite Ea in E. cbn [bind] in E.
  destruct (for_ n 0 _ (repeat O n)); cbn [bind] in E; try discriminate. inversion E; subst s.
  unfold ls_shuffle. cbn [ls_forward]. apply get_Ok. rewrite Np.
  rewrite nth_error_nth' with (d := O) by (rewrite seq_length; lia). f_equal. apply seq_nth. lia.
Qed.

Lemma c14_two rng seed : (forall k, 0 <= rng seed k <= 2 ^ 31 - 1) ->
  ls_initialize rng seed 2 = Ok {| ls_forward := [1; 0]%nat; ls_backward := [1; 0]%nat |}.
Proof.
  intros Hr. unfold ls_initialize, shuffle. cbn [seq shuffle_loop Nat.eqb].
  destruct (random_bounded_lt (rng seed 0%nat) (w32 (Z.of_nat 2)) (Hr 0%nat)) as [B1 B2]; [unfold w32; cbn; lia|].
  assert (Hp : random_bounded (rng seed 0%nat) (w32 (Z.of_nat 2)) = 0).
  { change (w32 (Z.of_nat 2)) with 2 in *. lia. }
  rewrite Hp. reflexivity.
Qed.

Lemma c14_identity rng seed n s : (forall k, 0 <= rng seed k <= 2 ^ 31 - 1) -> (2 <= n)%nat -> Z.of_nat n < 2 ^ 32 ->
  ls_initialize rng seed n = Ok s -> exists i, (i < n)%nat /\ ls_shuffle s i <> Ok i.
Proof.
  intros Hr H2 Hn E. destruct (c14 rng seed n Hr H2 Hn) as (s' & j & E' & Ej & B).
  rewrite E in E'. inversion E'; subst s'. exists (n - 1)%nat. split; [lia|].
  rewrite Ej. intros H. inversion H. lia.
Qed.
