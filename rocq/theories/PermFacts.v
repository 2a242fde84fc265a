(** Facts about permutations of concatenated lists. *)
From Verif Require Import Base BaseProofs Spec ParShuffleProofs ParShuffleFacts.

Lemma Permutation_flat_map_ext {A B} (f g : A -> list B) l : (forall x, In x l -> Permutation (f x) (g x)) ->
  Permutation (flat_map f l) (flat_map g l).
Proof. induction l as [|x l IH]; intros H; cbn; [constructor|]. apply Permutation_app; [apply H; left; reflexivity|apply IH; intros; apply H; right; assumption]. Qed.

Lemma flat_map_app_perm {A B} (f g : A -> list B) l :
  Permutation (flat_map (fun x => f x ++ g x) l) (flat_map f l ++ flat_map g l).
Proof.
  induction l as [|x l IH]; cbn; [constructor|]. rewrite <- !app_assoc. apply Permutation_app_head.
  rewrite IH, !app_assoc. apply Permutation_app_tail, Permutation_app_comm.
Qed.

Lemma flat_map_nil {A B} (l : list A) : flat_map (fun _ => @nil B) l = [].
Proof. induction l; cbn; auto. Qed.

Lemma flat_map_swap {A B C} (f : A -> B -> list C) l m :
  Permutation (flat_map (fun a => flat_map (f a) m) l) (flat_map (fun b => flat_map (fun a => f a b) l) m).
Proof.
  revert m. induction l as [|a l IH]; intros m; cbn.
  - rewrite flat_map_nil. constructor.
  - rewrite flat_map_app_perm. apply Permutation_app_head, IH.
Qed.

Lemma flat_map_pick (x : nat) {A} (v : A) N : (x < N)%nat ->
  Permutation (flat_map (fun t => if (t =? x)%nat then [v] else []) (seq 0 N)) [v].
Proof.
  intros H. replace N with (x + S (N - x - 1))%nat by lia. rewrite seq_app, flat_map_app. cbn [seq flat_map Nat.add].
  rewrite Nat.eqb_refl.
  assert (Z1 : forall a n, (forall t, In t (seq a n) -> t <> x) -> flat_map (fun t => if (t =? x)%nat then [v] else []) (seq a n) = []).
  { intros a n Ht. revert a Ht. induction n as [|n IH]; intros a Ht; cbn; [reflexivity|].
    destruct (Nat.eqb_spec a x); [exfalso; apply (Ht a); [left; reflexivity|assumption]|]. apply IH. intros t Hin. apply Ht. right. exact Hin. }
  rewrite !Z1; [reflexivity| |]; intros t Hin; apply in_seq in Hin; lia.
Qed.

(** Splitting messages by destination loses nothing. *)
Lemma addressed_all {A} (targets : list nat) N : (forall t, In t targets -> (t < N)%nat) -> forall msgs : list A,
  length msgs = length targets ->
  Permutation (flat_map (fun t => addressed_to t targets msgs) (seq 0 N)) msgs.
Proof.
  induction targets as [|x targets IH]; intros H [|m msgs] L; try discriminate.
  - unfold addressed_to. cbn. rewrite flat_map_nil. constructor.
  - assert (E : forall t, addressed_to t (x :: targets) (m :: msgs) = (if (t =? x)%nat then [m] else []) ++ addressed_to t targets msgs).
    { intros t. unfold addressed_to. cbn [combine filter fst]. rewrite Nat.eqb_sym. destruct (t =? x)%nat; reflexivity. }
    rewrite (flat_map_ext _ _ E). rewrite flat_map_app_perm. rewrite flat_map_pick by (apply H; left; reflexivity).
    cbn [app]. constructor. apply IH; [intros t Ht; apply H; right; exact Ht|]. cbn in L. lia.
Qed.

Lemma concat_map_seq {A} (f : nat -> list A) N : concat (map f (seq 0 N)) = flat_map f (seq 0 N).
Proof. symmetry. apply flat_map_concat_map. Qed.
Lemma concat_nth_seq {A} (l : list (list A)) N : length l = N -> concat l = flat_map (fun i => nth i l []) (seq 0 N).
Proof.
  intros <-. rewrite flat_map_concat_map. f_equal. 
  apply nth_error_ext. intros i. destruct (Nat.lt_ge_cases i (length l)) as [H|H].
  - rewrite nth_error_map_seq by exact H. apply nth_error_nth'. exact H.
  - rewrite !(proj2 (nth_error_None _ _)); [reflexivity|rewrite map_length, seq_length; exact H|exact H].
Qed.
