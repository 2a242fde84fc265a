(** Tags identify queries (C72). *)
From Verif Require Import Base BaseProofs Incremental Wire Onion Shuffle State Database Handlers Batch Party Chain Spec ChainSpec
  ShuffleProofs OnlineProofs UpstreamSpec.

Definition tagged (it : item) : Z * Z := (it_tag it, it_key it).
Lemma tagged_advance l : map tagged (map advance l) = map tagged l.
Proof. rewrite map_map. reflexivity. Qed.
Lemma tagged_combine l : combine (map it_tag l) (map it_key l) = map tagged l.
Proof. induction l as [|x l IH]; cbn; [reflexivity|]. rewrite IH. reflexivity. Qed.

Lemma chain_carries rows bp states levels : chain_ok rows bp states levels ->
  forall j l, nth_error levels j = Some l -> incl (map tagged (hd [] levels)) (map tagged l).
Proof.
  induction 1 as [items _ _|rp rest noise items levels H _ C IH]; intros [|j] l E; cbn [nth_error hd] in E |- *.
  - injection E as <-. apply incl_refl.
  - destruct j; discriminate.
  - injection E as <-. apply incl_refl.
  - eapply incl_tran; [|exact (IH j l E)]. cbn [hd]. destruct H as (_ & _ & _ & O & _).
    pose proof (Permutation_map tagged (next_perm _ _ noise items O eq_refl)) as P. rewrite map_app, tagged_advance in P.
    intros x Hx. apply (Permutation_in x P). apply in_or_app. right. exact Hx.
Qed.

Lemma find_tagged l t k : NoDup (map fst l) -> In (t, k) l -> find (fun p : Z * Z => fst p =? t) l = Some (t, k).
Proof.
  induction l as [|(t', k') l IH]; intros U H; [destruct H|]. cbn [find map fst] in *. apply NoDup_cons_iff in U as (U1 & U2).
  destruct (Z.eqb_spec t' t) as [->|Ht].
  - destruct H as [H|H]; [rewrite H; reflexivity|]. exfalso. apply U1. change t with (fst (t, k)). apply in_map. exact H.
  - destruct H as [H|H]; [injection H as -> ->; contradiction|]. apply IH; assumption.
Qed.

(** [items]: the clients' queries; [l]: those on the last link. *)
Lemma keys_found items l : map it_tag items = map Z.of_nat (seq 0 (length items)) -> NoDup (map it_tag l) ->
  incl (map tagged items) (map tagged l) ->
  map (key_of_query (map it_tag l) (map it_key l)) (seq 0 (length items)) = map Some (map it_key items).
Proof.
  intros T U I. apply nth_error_ext. intros i. rewrite !nth_error_map. destruct (Nat.lt_ge_cases i (length items)) as [Hi|Hi].
  - rewrite (nth_error_seq) by exact Hi. cbn [option_map Nat.add].
    destruct (nth_error items i) as [it|] eqn:E; [|apply nth_error_None in E; lia]. cbn [option_map].
    assert (Et : it_tag it = Z.of_nat i).
    { apply (f_equal (fun l => nth_error l i)) in T. rewrite nth_error_map, E, nth_error_map_seq in T by exact Hi. injection T as ->. reflexivity. }
    unfold key_of_query. rewrite tagged_combine. rewrite (find_tagged _ (Z.of_nat i) (it_key it)); [reflexivity| |].
    + rewrite map_map. exact U.
    + apply I. apply nth_error_In in E. apply (in_map tagged) in E. unfold tagged at 1 in E. rewrite Et in E. exact E.
  - rewrite !(proj2 (nth_error_None _ _)); [reflexivity|lia|rewrite seq_length; lia].
Qed.

Lemma filter_low n : forall k s, filter (fun t => t <? Z.of_nat n) (map Z.of_nat (seq s k)) = map Z.of_nat (seq s (Nat.min k (n - s))).
Proof.
  induction k as [|k IH]; intros s; [reflexivity|]. cbn [seq map filter]. destruct (Z.ltb_spec (Z.of_nat s) (Z.of_nat n)) as [H|H].
  - replace (Nat.min (S k) (n - s)) with (S (Nat.min k (n - S s))) by lia. cbn [seq map]. f_equal. apply IH.
  - rewrite IH. replace (n - s)%nat with 0%nat by lia. replace (n - S s)%nat with 0%nat by lia. rewrite !Nat.min_0_r. reflexivity.
Qed.
Lemma Permutation_filter {A} (f : A -> bool) l l' : Permutation l l' -> Permutation (filter f l) (filter f l').
Proof.
  induction 1 as [|x l l' _ IH|x y l|l l' l'' _ IH1 _ IH2]; cbn [filter]; [constructor| | |eapply Permutation_trans; eassumption].
  - destruct (f x); [constructor; exact IH|exact IH].
  - destruct (f x), (f y); try constructor; apply Permutation_refl.
Qed.
Lemma low_tags n tags : Permutation tags (map Z.of_nat (seq 0 (length tags))) -> (n <= length tags)%nat ->
  Permutation (client_tags n tags) (map Z.of_nat (seq 0 n)).
Proof.
  intros P H. unfold client_tags. apply (Permutation_filter (fun t => t <? Z.of_nat n)) in P. rewrite filter_low in P.
  rewrite Nat.sub_0_r, Nat.min_r in P by exact H. exact P.
Qed.
Lemma tags_NoDup tags n : Permutation tags (map Z.of_nat (seq 0 n)) -> NoDup tags.
Proof.
  intros P. apply (Permutation_NoDup (Permutation_sym P)). apply FinFun.Injective_map_NoDup; [intros a b; apply Nat2Z.inj|apply seq_NoDup].
Qed.
