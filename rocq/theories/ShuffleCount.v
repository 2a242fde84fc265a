(** How many different permutations the shuffle of shuffle/util.h can produce
    when rand() returns at most 2^31 - 1: proofs for C14. *)
From Coq Require Import Factorial.
From Verif Require Import Base BaseProofs Shuffle Spec ShuffleProofs.

(** 1 * 1 * 2 * 2 * 3 * 3 ... : half of i, rounded up, for every i up to n. *)
Fixpoint shuffle_ways (n : nat) : nat :=
  match n with
  | O => 1
  | S m => (S n / 2) * shuffle_ways m
  end%nat.

Lemma rb_onto i p : 1 <= i <= 2 ^ 31 -> 0 <= p -> 2 * p < i ->
  exists r, 0 <= r <= RAND_MAX /\ random_bounded r i = p.
Proof.
  intros Hi Hp H. set (r := (p * 2 ^ 32 + i - 1) / i).
  assert (R : p * 2 ^ 32 <= r * i < p * 2 ^ 32 + i).
  { unfold r. pose proof (Z.div_mod (p * 2 ^ 32 + i - 1) i ltac:(lia)). pose proof (Z.mod_pos_bound (p * 2 ^ 32 + i - 1) i ltac:(lia)). nia. }
  assert (B : 0 <= r <= RAND_MAX).
  { unfold RAND_MAX. clearbody r. split; [nia|]. assert (r * i < 2147483648 * i); [|nia]. nia. }
  exists r. split; [exact B|]. unfold random_bounded. clearbody r. unfold RAND_MAX in B.
  rewrite (w32_id r) by (unfold u32; lia).
  assert (0 <= r * i < 2 ^ 64) by nia.
  rewrite Z.shiftr_div_pow2 by lia. unfold w64. rewrite Z.mod_small by lia.
  assert (E : r * i / 2 ^ 32 = p).
  { symmetry. apply (Z.div_unique_pos _ _ p (r * i - p * 2 ^ 32)); lia. }
  rewrite E. unfold w32. apply Z.mod_small. lia.
Qed.

Definition swapped {A} (arr : list A) (a b : nat) : list A := match swap arr a b with Ok x => x | _ => arr end.
Fixpoint reach {A} (i : nat) (arr : list A) : list (list A) :=
  match i with
  | O => [arr]
  | S i' => flat_map (fun p => reach i' (swapped arr i' p)) (seq 0 (S (S i') / 2))
  end.
Lemma half_lt i p : (p < S (S i) / 2)%nat <-> (2 * p < S i)%nat.
Proof. pose proof (Nat.div_mod (S (S i)) 2 ltac:(lia)). pose proof (Nat.mod_upper_bound (S (S i)) 2 ltac:(lia)). lia. Qed.
Lemma swapped_ok {A} (arr : list A) a b : (a < length arr)%nat -> (b < length arr)%nat ->
  swap arr a b = Ok (swapped arr a b) /\ length (swapped arr a b) = length arr /\ Permutation arr (swapped arr a b) /\
  forall j, nth_error (swapped arr a b) j =
      if (j =? b)%nat then nth_error arr a else if (j =? a)%nat then nth_error arr b else nth_error arr j.
Proof. intros Ha Hb. destruct (swap_spec arr a b Ha Hb) as (x & E & L & P & N). unfold swapped. rewrite E. auto. Qed.
Lemma swapped_self {A} (arr : list A) : (0 < length arr)%nat -> swapped arr 0 0 = arr.
Proof.
  intros H. destruct (swapped_ok arr 0 0 H H) as (_ & L & _ & N). apply nth_error_ext. intros [|n]; apply N.
Qed.

Lemma reach_keeps {A} : forall i (arr out : list A), (i <= length arr)%nat -> In out (reach i arr) ->
  length out = length arr /\ forall j, (i <= j)%nat -> nth_error out j = nth_error arr j.
Proof.
  induction i as [|i IH]; intros arr out Hi H; [destruct H as [<-|[]]; auto|].
  cbn [reach] in H. apply in_flat_map in H as (p & Hp & H). apply in_seq in Hp. assert (P : (2 * p < S i)%nat) by (apply half_lt; lia).
  destruct (swapped_ok arr i p) as (_ & L & _ & N); [lia|lia|].
  destruct (IH _ _ ltac:(rewrite L; lia) H) as (LO & F). split; [congruence|].
  intros j Hj. rewrite F by lia. rewrite N. destruct (Nat.eqb_spec j p); [lia|]. destruct (Nat.eqb_spec j i); [lia|]. reflexivity.
Qed.
Lemma reach_top {A} i p (arr out : list A) : (i < length arr)%nat -> (2 * p < S i)%nat -> In out (reach i (swapped arr i p)) ->
  nth_error out i = nth_error arr p.
Proof.
  intros Hi Hp H. destruct (swapped_ok arr i p) as (_ & L & _ & N); [lia|lia|].
  destruct (reach_keeps i _ _ ltac:(rewrite L; lia) H) as (_ & F). rewrite F by lia. rewrite N.
  destruct (Nat.eqb_spec i p); [subst; reflexivity|]. rewrite Nat.eqb_refl. reflexivity.
Qed.
Lemma flat_map_length_const {A B} (f : A -> list B) c l : (forall x, In x l -> length (f x) = c) -> length (flat_map f l) = (length l * c)%nat.
Proof.
  induction l as [|x l IH]; intros H; [reflexivity|]. cbn [flat_map length]. rewrite app_length, H by (left; reflexivity).
  rewrite IH by (intros; apply H; right; assumption). lia.
Qed.
Lemma reach_length {A} : forall i (arr : list A), length (reach i arr) = shuffle_ways i.
Proof.
  induction i as [|i IH]; intros arr; [reflexivity|]. cbn [reach].
  rewrite (flat_map_length_const _ (shuffle_ways i)) by (intros; apply IH). rewrite seq_length. reflexivity.
Qed.
Lemma nodup_both {A} (l1 l2 : list A) : NoDup l1 -> NoDup l2 -> (forall x, In x l1 -> ~ In x l2) -> NoDup (l1 ++ l2).
Proof.
  induction 1 as [|x l Hx Hl IH]; intros H2 D; [exact H2|]. cbn [app]. constructor.
  - intros H. apply in_app_or in H as [H|H]; [exact (Hx H)|]. exact (D x (or_introl eq_refl) H).
  - apply IH; [exact H2|]. intros y Hy. apply D. right; exact Hy.
Qed.
Lemma flat_map_nodup {A B} (f : A -> list B) l : NoDup l -> (forall x, In x l -> NoDup (f x)) ->
  (forall x y z, In x l -> In y l -> In z (f x) -> In z (f y) -> x = y) -> NoDup (flat_map f l).
Proof.
  induction 1 as [|x l Hx Hl IH]; intros Hf Hd; [constructor|]. cbn [flat_map]. apply nodup_both.
  - apply Hf; left; reflexivity.
  - apply IH; [intros; apply Hf; right; assumption|]. intros; eapply Hd; [right|right| |]; eassumption.
  - intros z Hz Hz'. apply in_flat_map in Hz' as (y & Hy & Hz'). apply Hx.
    rewrite (Hd x y z); [exact Hy|left; reflexivity|right; exact Hy|exact Hz|exact Hz'].
Qed.
Lemma reach_nodup {A} : forall i (arr : list A), (i <= length arr)%nat -> NoDup arr -> NoDup (reach i arr).
Proof.
  induction i as [|i IH]; intros arr Hi Hn; [repeat constructor; auto|]. cbn [reach]. apply flat_map_nodup.
  - apply seq_NoDup.
  - intros p Hp. apply in_seq in Hp. assert (P : (2 * p < S i)%nat) by (apply half_lt; lia).
    destruct (swapped_ok arr i p) as (_ & L & Pm & _); [lia|lia|].
    apply IH; [rewrite L; lia|]. eapply Permutation_NoDup; eassumption.
  - intros p q out Hp Hq H1 H2. apply in_seq in Hp, Hq.
    assert (P : (2 * p < S i)%nat) by (apply half_lt; lia). assert (Q : (2 * q < S i)%nat) by (apply half_lt; lia).
    apply reach_top in H1; [|lia|lia]. apply reach_top in H2; [|lia|lia].
    rewrite NoDup_nth_error in Hn. apply Hn; [lia|congruence].
Qed.

Lemma reach_sound {A} rnd : rand_ok rnd -> forall i k (arr : list A),
  (i <= length arr)%nat -> Z.of_nat i < 2 ^ 32 -> exists out, shuffle_loop rnd i k arr = Ok out /\ In out (reach i arr).
Proof.
  intros Hr. induction i as [|i IH]; intros k arr Hi Hz; [exists arr; cbn; auto|].
  cbn [shuffle_loop reach]. destruct (Nat.eqb_spec i 0) as [->|H0].
  { exists arr. split; [reflexivity|]. cbn. rewrite swapped_self by lia. auto. }
  rewrite (w32_id (Z.of_nat (S i))) by (unfold u32; lia).
  destruct (random_bounded_lt (rnd k) (Z.of_nat (S i)) (Hr k) ltac:(lia)) as (B1 & B2).
  set (p := Z.to_nat (random_bounded (rnd k) (Z.of_nat (S i)))).
  assert (P : (2 * p < S i)%nat) by (unfold p; lia).
  destruct (swapped_ok arr i p) as (E & L & _); [lia|lia|]. rewrite E. cbn [bind].
  destruct (IH (S k) (swapped arr i p) ltac:(rewrite L; lia) ltac:(lia)) as (out & E' & H).
  exists out. split; [exact E'|]. apply in_flat_map. exists p. split; [|exact H]. apply in_seq. apply half_lt in P. lia.
Qed.
Lemma shuffle_loop_ext {A} rnd rnd' : forall i k (arr : list A), (forall j, (k <= j)%nat -> rnd j = rnd' j) ->
  shuffle_loop rnd i k arr = shuffle_loop rnd' i k arr.
Proof.
  induction i as [|i IH]; intros k arr H; [reflexivity|]. cbn [shuffle_loop]. destruct (i =? 0)%nat; [reflexivity|].
  rewrite (H k) by lia. destruct (swap _ _ _); [|reflexivity..]. cbn [bind]. apply IH. intros; apply H; lia.
Qed.
Lemma reach_complete {A} : forall i k (arr out : list A), (i <= length arr)%nat -> Z.of_nat i <= 2 ^ 31 -> In out (reach i arr) ->
  exists rnd, rand_ok rnd /\ shuffle_loop rnd i k arr = Ok out.
Proof.
  induction i as [|i IH]; intros k arr out Hi Hz H.
  { destruct H as [<-|[]]. exists (fun _ => 0). split; [intros j; unfold RAND_MAX; lia|reflexivity]. }
  cbn [reach] in H. apply in_flat_map in H as (p & Hp & H). apply in_seq in Hp. assert (P : (2 * p < S i)%nat) by (apply half_lt; lia).
  destruct (swapped_ok arr i p) as (E & L & _); [lia|lia|].
  destruct (IH (S k) _ _ ltac:(rewrite L; lia) ltac:(lia) H) as (rnd & Hr & ER).
  destruct (rb_onto (Z.of_nat (S i)) (Z.of_nat p)) as (r & Br & Er); [lia|lia|lia|].
  exists (fun j => if (j =? k)%nat then r else rnd j). split.
  { intros j. destruct (j =? k)%nat; [exact Br|apply Hr]. }
  cbn [shuffle_loop]. destruct (Nat.eqb_spec i 0) as [->|H0].
  { cbn in ER. replace p with 0%nat in ER by lia. rewrite swapped_self in ER by lia. exact ER. }
  rewrite Nat.eqb_refl, (w32_id (Z.of_nat (S i))) by (unfold u32; lia). rewrite Er, Nat2Z.id, E. cbn [bind].
  rewrite <- ER. apply shuffle_loop_ext. intros j Hj. destruct (Nat.eqb_spec j k); [lia|reflexivity].
Qed.

Lemma map_get_all {A} (l : list A) : map_res (get l) (seq 0 (length l)) = Ok l.
Proof.
  assert (G : forall pre post : list A, map_res (get (pre ++ post)) (seq (length pre) (length post)) = Ok post).
  { intros pre post; revert pre. induction post as [|x post IH]; intros pre; [reflexivity|]. cbn [length seq map_res].
    unfold get at 1. rewrite nth_error_app2, Nat.sub_diag by lia. cbn [nth_error bind].
    specialize (IH (pre ++ [x])). rewrite <- app_assoc in IH. cbn [app] in IH. rewrite app_length in IH. cbn [length] in IH.
    rewrite Nat.add_1_r in IH. rewrite IH. reflexivity. }
  exact (G [] l).
Qed.

Lemma c14_number n : Z.of_nat n <= 2 ^ 31 -> exists L, NoDup L /\ length L = shuffle_ways n /\
  forall l, In l L <-> exists rng seed s, (forall k, 0 <= rng seed k <= 2 ^ 31 - 1) /\
    ls_initialize rng seed n = Ok s /\ map_res (ls_shuffle s) (seq 0 n) = Ok l.
Proof.
  intros Hn. exists (reach n (seq 0 n)). split; [apply reach_nodup; [rewrite seq_length; lia|apply seq_NoDup]|].
  split; [apply reach_length|]. intros l. split.
  - intros H. destruct (reach_complete n 0 (seq 0 n) l) as (rnd & Hr & E); [rewrite seq_length; lia|lia|exact H|].
    destruct (ls_initialize_spec (fun _ => rnd) 0 n Hr ltac:(lia)) as (s & Es & Lf & _).
    exists (fun _ => rnd), 0, s. split; [intros k; specialize (Hr k); unfold RAND_MAX in Hr; lia|]. split; [exact Es|].
    unfold ls_initialize, shuffle in Es. rewrite E in Es. cbn [bind] in Es.
    destruct (for_ _ _ _ _); try discriminate Es. cbn [bind] in Es. injection Es as <-. cbn [ls_forward] in Lf.
    change (map_res (get l) (seq 0 n) = Ok l). rewrite <- Lf. apply map_get_all.
  - intros (rng & seed & s & Hr & Es & E).
    assert (Hr' : rand_ok (rng seed)) by (intros k; specialize (Hr k); unfold RAND_MAX; lia).
    destruct (ls_initialize_spec rng seed n Hr' ltac:(lia)) as (s' & Es' & Lf & _). rewrite Es in Es'. injection Es' as <-.
    destruct (reach_sound (rng seed) Hr' n 0 (seq 0 n)) as (out & Eo & Ho); [rewrite seq_length; lia|lia|].
    unfold ls_initialize, shuffle in Es. rewrite Eo in Es. cbn [bind] in Es.
    destruct (for_ _ _ _ _); try discriminate Es. cbn [bind] in Es. injection Es as <-. cbn [ls_forward] in Lf.
    change (map_res (get out) (seq 0 n) = Ok l) in E. rewrite <- Lf, map_get_all in E. injection E as <-. exact Ho.
Qed.

Lemma c14_few n : (shuffle_ways n * 2 ^ (n / 2) <= fact n)%nat.
Proof.
  induction n as [|n IH]; [cbn; lia|]. cbn [shuffle_ways]. change (fact (S n)) with (S n * fact n)%nat.
  destruct (Nat.Even_or_Odd n) as [(m & ->)|(m & ->)].
  - replace (S (S (2 * m)) / 2)%nat with (S m) by (apply (Nat.div_unique _ 2 _ 0); lia).
    replace (S (2 * m) / 2)%nat with m by (apply (Nat.div_unique _ 2 _ 1); lia).
    replace (2 * m / 2)%nat with m in IH by (apply (Nat.div_unique _ 2 _ 0); lia).
    revert IH. generalize (shuffle_ways (2 * m) * 2 ^ m)%nat (fact (2 * m)) (shuffle_ways (2 * m)) (2 ^ m)%nat.
    intros. nia.
  - replace (S (S (2 * m + 1)) / 2)%nat with (S m) by (apply (Nat.div_unique _ 2 _ 1); lia).
    replace (S (2 * m + 1) / 2)%nat with (S m) by (apply (Nat.div_unique _ 2 _ 0); lia).
    replace ((2 * m + 1) / 2)%nat with m in IH by (apply (Nat.div_unique _ 2 _ 1); lia).
    cbn [Nat.pow]. revert IH. generalize (shuffle_ways (2 * m + 1)) (2 ^ m)%nat (fact (2 * m + 1)). intros. nia.
Qed.
