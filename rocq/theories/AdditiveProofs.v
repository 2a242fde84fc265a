(** Proofs about [Additive]. *)
From Verif Require Import Base BaseProofs Incremental Wire WireProofs Additive.

(** Byte-wise XOR of two strings. *)
Definition xorl (a b : list Z) : list Z := map (fun p => Z.lxor (fst p) (snd p)) (combine a b).

Lemma length_xorl a b : length a = length b -> length (xorl a b) = length a.
Proof. intros H. unfold xorl. rewrite map_length, combine_length. lia. Qed.

Lemma nth_error_xorl a : forall b i, length a = length b ->
  nth_error (xorl a b) i =
  match nth_error a i, nth_error b i with
  | Some x, Some y => Some (Z.lxor x y)
  | _, _ => None
  end.
Proof.
  induction a as [|x a IH]; intros [|y b] i H; try discriminate.
  - destruct i; reflexivity.
  - destruct i; cbn; auto. apply IH. cbn in H. lia.
Qed.

Lemma lxor_mod_256 u v : Z.lxor u v mod 256 = Z.lxor (u mod 256) (v mod 256).
Proof.
  change 256 with (2 ^ 8). apply Z.bits_inj'. intros k Hk.
  rewrite Z.lxor_spec.
  destruct (Z.lt_ge_cases k 8).
  - rewrite !Z.mod_pow2_bits_low by lia. apply Z.lxor_spec.
  - rewrite !Z.mod_pow2_bits_high by lia. reflexivity.
Qed.

Lemma lxor_div_256 u v : Z.lxor u v / 256 = Z.lxor (u / 256) (v / 256).
Proof.
  change 256 with (2 ^ 8). rewrite <- !Z.shiftr_div_pow2 by lia. apply Z.shiftr_lxor.
Qed.

Lemma le_lxor n : forall u v, le n (Z.lxor u v) = xorl (le n u) (le n v).
Proof.
  induction n as [|n IH]; intros u v; cbn [le]; auto.
  unfold xorl. cbn [combine map fst snd]. f_equal.
  - apply lxor_mod_256.
  - rewrite lxor_div_256. apply IH.
Qed.

Lemma xor_word a b : bytes 4 a -> bytes 4 b -> le 4 (Z.lxor (of_le a) (of_le b)) = xorl a b.
Proof. intros Ha Hb. rewrite le_lxor, !le_of_le by auto. reflexivity. Qed.

Lemma byte_lxor a b : byte a -> byte b -> byte (Z.lxor a b).
Proof.
  unfold byte. intros Ha Hb.
  rewrite <- (Z.mod_small a 256), <- (Z.mod_small b 256) by lia.
  rewrite <- lxor_mod_256. apply Z.mod_pos_bound. lia.
Qed.

Lemma bytes_xorl n a b : bytes n a -> bytes n b -> bytes n (xorl a b).
Proof.
  intros [La Ha] [Lb Hb]. split; [rewrite length_xorl; lia|].
  apply Forall_forall. intros z Hz. unfold xorl in Hz.
  apply in_map_iff in Hz. destruct Hz as [[x y] [<- Hin]].
  rewrite Forall_forall in Ha, Hb. cbn.
  apply byte_lxor; [apply Ha; eapply in_combine_l; eauto|apply Hb; eapply in_combine_r; eauto].
Qed.

Lemma Forall_nth_error {A} (P : A -> Prop) l :
  Forall P l <-> (forall i a, nth_error l i = Some a -> P a).
Proof.
  rewrite Forall_forall. split.
  - intros H i a E. apply H. eapply nth_error_In; eauto.
  - intros H a Hin. apply In_nth_error in Hin. destruct Hin as [i E]. eauto.
Qed.

(** Word-wise XOR in memory, dst equal to tally or disjoint from both inputs. *)
Lemma xor_mem_spec m tp sp dp k :
  Forall byte m ->
  (tp + 4 * k <= length m)%nat -> (sp + 4 * k <= length m)%nat -> (dp + 4 * k <= length m)%nat ->
  (dp = tp \/ (dp + 4 * k <= tp)%nat \/ (tp + 4 * k <= dp)%nat) ->
  ((dp + 4 * k <= sp)%nat \/ (sp + 4 * k <= dp)%nat) ->
  exists m', xor_mem m tp sp dp (4 * k) = Ok m' /\ length m' = length m /\ Forall byte m' /\
    forall j, nth_error m' j =
      if (dp <=? j)%nat && (j <? dp + 4 * k)%nat
      then match nth_error m (tp + (j - dp)), nth_error m (sp + (j - dp)) with
           | Some x, Some y => Some (Z.lxor x y) | _, _ => None end
      else nth_error m j.
Proof.
  intros Hm Ht Hs Hd A1 A2. unfold xor_mem.
  replace (4 * k / 4)%nat with k by (rewrite Nat.mul_comm, Nat.div_mul; lia).
  destruct (for_inv (fun i mm => length mm = length m /\ Forall byte mm /\
     forall j, nth_error mm j =
      if (dp <=? j)%nat && (j <? dp + 4 * i)%nat
      then match nth_error m (tp + (j - dp)), nth_error m (sp + (j - dp)) with
           | Some x, Some y => Some (Z.lxor x y) | _, _ => None end
      else nth_error m j) k 0 (xor_body tp sp dp) m) as (m' & E & H).
  - split; auto. split; auto. intros j.
    destruct (Nat.leb_spec dp j), (Nat.ltb_spec j (dp + 4 * 0)); cbn [andb]; auto; lia.
  - intros i mm Hi (Hl & Hb & Hj). unfold xor_body.
    rewrite !rd_Ok by lia. cbn [bind].
    set (a := firstn 4 (skipn (tp + 4 * i) mm)). set (b := firstn 4 (skipn (sp + 4 * i) mm)).
    assert (Ha : bytes 4 a).
    { split; [unfold a; rewrite firstn_length, skipn_length; lia|].
      apply Forall_nth_error. intros x y Hx. unfold a in Hx.
      rewrite nth_error_firstn in Hx. destruct (x <? 4)%nat; [|discriminate].
      rewrite nth_error_skipn in Hx. rewrite Forall_nth_error in Hb. eauto. }
    assert (Hbb : bytes 4 b).
    { split; [unfold b; rewrite firstn_length, skipn_length; lia|].
      apply Forall_nth_error. intros x y Hx. unfold b in Hx.
      rewrite nth_error_firstn in Hx. destruct (x <? 4)%nat; [|discriminate].
      rewrite nth_error_skipn in Hx. rewrite Forall_nth_error in Hb. eauto. }
    rewrite xor_word by auto.
    pose proof (bytes_xorl 4 a b Ha Hbb) as Hx.
    destruct (wr_Ok mm (dp + 4 * i) (xorl a b)) as (m' & E & Hl' & Hn).
    { rewrite (proj1 Hx). lia. }
    exists m'. split; [exact E|]. rewrite (proj1 Hx) in Hn.
    assert (HJ : forall j, nth_error m' j =
      (if (dp <=? j)%nat && (j <? dp + 4 * S i)%nat
       then match nth_error m (tp + (j - dp)), nth_error m (sp + (j - dp)) with
            | Some x, Some y => Some (Z.lxor x y) | _, _ => None end
       else nth_error m j)).
    { intros j. rewrite Hn.
      destruct (Nat.leb_spec (dp + 4 * i) j) as [L1|L1]; cbn [andb].
      - destruct (Nat.ltb_spec j (dp + 4 * i + 4)) as [L2|L2].
        + destruct (Nat.leb_spec dp j); [|lia]. destruct (Nat.ltb_spec j (dp + 4 * S i)); [|lia].
          cbn [andb].
          rewrite nth_error_xorl by (rewrite (proj1 Ha), (proj1 Hbb); reflexivity).
          unfold a, b. rewrite !nth_error_firstn, !nth_error_skipn.
          destruct (Nat.ltb_spec (j - (dp + 4 * i)) 4); [|lia].
          replace (tp + 4 * i + (j - (dp + 4 * i)))%nat with (tp + (j - dp))%nat by lia.
          replace (sp + 4 * i + (j - (dp + 4 * i)))%nat with (sp + (j - dp))%nat by lia.
          rewrite (Hj (tp + (j - dp))%nat), (Hj (sp + (j - dp))%nat).
          destruct (Nat.leb_spec dp (tp + (j - dp))), (Nat.ltb_spec (tp + (j - dp)) (dp + 4 * i));
            destruct (Nat.leb_spec dp (sp + (j - dp))), (Nat.ltb_spec (sp + (j - dp)) (dp + 4 * i));
            cbn [andb]; try lia; reflexivity.
        + rewrite Hj.
          destruct (Nat.leb_spec dp j); [|lia].
          destruct (Nat.ltb_spec j (dp + 4 * i)), (Nat.ltb_spec j (dp + 4 * S i)); cbn [andb]; try lia; auto.
      - rewrite Hj. destruct (Nat.leb_spec dp j); cbn [andb]; auto.
        destruct (Nat.ltb_spec j (dp + 4 * i)), (Nat.ltb_spec j (dp + 4 * S i)); try lia; auto. }
    split; [lia|]. split; auto.
    apply Forall_nth_error. intros j z Hz. rewrite Hn in Hz.
    destruct ((dp + 4 * i <=? j)%nat && (j <? dp + 4 * i + 4)%nat).
    + destruct Hx as [_ Hx]. rewrite Forall_nth_error in Hx. eauto.
    + rewrite Forall_nth_error in Hb. eauto.
  - exists m'. split; [exact E|]. exact H.
Qed.

Lemma xor_inplace_spec a b : bytes 52 a -> bytes 52 b -> xor_inplace a b = Ok (xorl a b).
Proof.
  intros [La Ha] [Lb Hb]. unfold xor_inplace. rewrite La, Lb.
  destruct (xor_mem_spec (a ++ b) 0 52 0 13) as (m' & E & Hl & _ & Hn);
    try (rewrite app_length; lia); try lia.
  { apply Forall_app; auto. }
  change (4 * 13)%nat with 52%nat in *. rewrite E. cbn [bind]. f_equal.
  apply nth_error_ext. intros i. rewrite nth_error_firstn, nth_error_xorl by lia.
  destruct (Nat.ltb_spec i 52) as [Hi|Hi].
  - rewrite Hn. cbn [Nat.leb andb]. destruct (Nat.ltb_spec i (0 + 52)); [|lia].
    rewrite Nat.sub_0_r, Nat.add_0_l.
    rewrite nth_error_app1, nth_error_app2 by lia.
    rewrite La. replace (52 + i - 52)%nat with i by lia. reflexivity.
  - rewrite (proj2 (nth_error_None a i)) by lia. reflexivity.
Qed.

(** ** Algebra of masks *)
Definition zero52 : list Z := repeat 0 52.

Lemma bytes_zero52 : bytes 52 zero52.
Proof. split; [reflexivity|]. apply Forall_forall. intros z Hz. apply repeat_spec in Hz. subst. unfold byte; lia. Qed.

Lemma xorl_comm a b : xorl a b = xorl b a.
Proof.
  unfold xorl. revert b; induction a as [|x a IH]; intros [|y b]; cbn; auto.
  rewrite Z.lxor_comm. f_equal. apply IH.
Qed.
Lemma xorl_assoc a : forall b c, xorl (xorl a b) c = xorl a (xorl b c).
Proof.
  unfold xorl. induction a as [|x a IH]; intros [|y b] [|z c]; cbn; auto.
  rewrite Z.lxor_assoc. f_equal. apply IH.
Qed.
Lemma xorl_repeat0 n : forall a, length a = n -> xorl (repeat 0 n) a = a.
Proof.
  induction n as [|n IH]; intros [|x a] H; try discriminate; auto.
  unfold xorl. cbn [repeat combine map fst snd]. rewrite Z.lxor_0_l. f_equal. apply IH. auto.
Qed.
Lemma xorl_zero_l a : length a = 52%nat -> xorl zero52 a = a.
Proof. apply xorl_repeat0. Qed.
Lemma xorl_zero_r a : length a = 52%nat -> xorl a zero52 = a.
Proof. rewrite xorl_comm. apply xorl_zero_l. Qed.
Lemma xorl_self a : xorl a a = repeat 0 (length a).
Proof. unfold xorl. induction a as [|x a IH]; cbn; auto. rewrite Z.lxor_nilpotent. f_equal. exact IH. Qed.
Lemma xorl_nilp a : length a = 52%nat -> xorl a a = zero52.
Proof. intros H. rewrite xorl_self, H. reflexivity. Qed.

Definition xor_all (l : list (list Z)) : list Z := fold_right xorl zero52 l.

Lemma bytes_xor_all l : Forall (bytes 52) l -> bytes 52 (xor_all l).
Proof.
  induction 1; cbn [xor_all fold_right]; [apply bytes_zero52|]. apply bytes_xorl; auto.
Qed.

Lemma xor_all_perm l1 l2 : Permutation l1 l2 -> xor_all l1 = xor_all l2.
Proof.
  induction 1; cbn [xor_all fold_right]; auto.
  - unfold xor_all in IHPermutation. rewrite IHPermutation. reflexivity.
  - rewrite <- !xorl_assoc. f_equal. apply xorl_comm.
  - congruence.
Qed.

Lemma xor_all_app l1 l2 : Forall (bytes 52) l2 ->
  xor_all (l1 ++ l2) = xorl (xor_all l1) (xor_all l2).
Proof.
  intros H2. induction l1 as [|a l IH]; cbn [app xor_all fold_right].
  - rewrite xorl_zero_l; auto. apply (bytes_xor_all l2 H2).
  - unfold xor_all in IH. rewrite IH, xorl_assoc. reflexivity.
Qed.

Lemma fold_reconstruct l : forall r, bytes 52 r -> Forall (bytes 52) l ->
  fold_res additive_reconstruct l r = Ok (xorl r (xor_all l)).
Proof.
  induction l as [|a l IH]; intros r Hr Hl; cbn [fold_res xor_all fold_right].
  - rewrite xorl_zero_r; auto. apply Hr.
  - inversion Hl as [|? ? Ha Hl']; subst. unfold additive_reconstruct at 1.
    rewrite xor_inplace_spec by auto. cbn [bind].
    rewrite IH by (auto; apply bytes_xorl; auto).
    rewrite xorl_assoc. reflexivity.
Qed.

Lemma additive_loop_spec draws n : forall i shares acc,
  (i + n <= length draws)%nat -> Forall (bytes 52) draws -> bytes 52 acc ->
  additive_loop draws n i shares acc =
    Ok (shares ++ firstn n (skipn i draws), xorl acc (xor_all (firstn n (skipn i draws)))).
Proof.
  induction n as [|n IH]; intros i shares acc Hl Hd Ha; cbn [additive_loop].
  - cbn [firstn xor_all fold_right]. rewrite app_nil_r, xorl_zero_r; auto. apply Ha.
  - destruct (get_lt draws i) as (s & Es & Ns); [lia|].
    rewrite Es. cbn [bind].
    assert (Hs : bytes 52 s).
    { rewrite Forall_forall in Hd. apply Hd. eapply nth_error_In; eauto. }
    rewrite xor_inplace_spec by auto. cbn [bind].
    rewrite IH by (try lia; auto; apply bytes_xorl; auto).
    assert (E : skipn i draws = s :: skipn (S i) draws).
    { clear - Ns. revert i Ns; induction draws as [|a d IHd]; intros [|i] Ns; cbn in *; try discriminate.
      - inversion Ns; reflexivity.
      - apply IHd; auto. }
    rewrite E. cbn [firstn xor_all fold_right].
    rewrite <- app_assoc. cbn [app]. rewrite xorl_assoc. reflexivity.
Qed.

Lemma generate_additive_spec draws n :
  (n <= length draws)%nat -> Forall (bytes 52) draws ->
  generate_additive_secret_shares draws (S n) = Ok (firstn n draws ++ [xor_all (firstn n draws)]).
Proof.
  intros Hl Hd. unfold generate_additive_secret_shares.
  rewrite additive_loop_spec; auto using bytes_zero52.
  cbn [bind fst snd app skipn].
  rewrite xorl_zero_l; [reflexivity|]. apply bytes_xor_all.
  apply Forall_forall. intros x Hx. rewrite Forall_forall in Hd. apply Hd.
  rewrite <- (firstn_skipn n draws). apply in_or_app. auto.
Qed.

Lemma Forall_firstn {A} (P : A -> Prop) n l : Forall P l -> Forall P (firstn n l).
Proof.
  intros H. rewrite Forall_forall in *. intros x Hx. apply H.
  rewrite <- (firstn_skipn n l). apply in_or_app; auto.
Qed.
Lemma Forall_skipn {A} (P : A -> Prop) n l : Forall P l -> Forall P (skipn n l).
Proof.
  intros H. rewrite Forall_forall in *. intros x Hx. apply H.
  rewrite <- (firstn_skipn n l). apply in_or_app; auto.
Qed.

Lemma generate_additive_wf draws n shares :
  (n <= S (length draws))%nat -> (0 < n)%nat -> Forall (bytes 52) draws ->
  generate_additive_secret_shares draws n = Ok shares ->
  length shares = n /\ Forall (bytes 52) shares /\ xor_all shares = zero52.
Proof.
  intros Hn H0 Hd E. destruct n as [|n]; [lia|].
  rewrite generate_additive_spec in E by (auto; lia). inversion E; subst. clear E.
  pose proof (Forall_firstn _ n _ Hd) as Hf.
  pose proof (bytes_xor_all _ Hf) as Hx.
  repeat split.
  - rewrite app_length, firstn_length. cbn. lia.
  - apply Forall_app; auto.
  - rewrite xor_all_app by auto. cbn [xor_all fold_right].
    fold (xor_all (firstn n draws)).
    rewrite (xorl_zero_r _ (proj1 Hx)). apply xorl_nilp. apply Hx.
Qed.

Lemma c07_cancel draws n order r :
  (0 < n)%nat -> length draws = (n - 1)%nat -> Forall (bytes 52) draws -> bytes 52 r ->
  exists shares, generate_additive_secret_shares draws n = Ok shares /\ length shares = n /\
    (Permutation shares order -> fold_res additive_reconstruct order r = Ok r).
Proof.
  intros H0 Hl Hd Hr. destruct n as [|n]; [lia|].
  pose proof (generate_additive_spec draws n ltac:(lia) Hd) as E.
  eexists. split; [exact E|].
  destruct (generate_additive_wf draws (S n) _ ltac:(lia) H0 Hd E) as (L & W & X).
  split; [exact L|]. intros HP.
  rewrite fold_reconstruct; auto.
  - rewrite <- (xor_all_perm _ _ HP), X, xorl_zero_r; auto. apply Hr.
  - rewrite Forall_forall in *. intros x Hx. apply W. eapply Permutation_in; [symmetry; eauto|auto].
Qed.

(** ** Hiding *)

Lemma xorl_solve a b c : bytes 52 a -> bytes 52 b -> bytes 52 c ->
  (xorl a b = c <-> b = xorl a c).
Proof.
  intros Ha Hb Hc. split.
  - intros <-. rewrite <- xorl_assoc, xorl_nilp, xorl_zero_l; auto; [apply Hb|apply Ha].
  - intros ->. rewrite <- xorl_assoc, xorl_nilp, xorl_zero_l; auto; [apply Hc|apply Ha].
Qed.

Lemma c08_masked pre post r c :
  Forall (bytes 52) pre -> Forall (bytes 52) post -> bytes 52 r -> bytes 52 c ->
  exists! m, bytes 52 m /\ fold_res additive_reconstruct (pre ++ m :: post) r = Ok c.
Proof.
  intros Hpre Hpost Hr Hc.
  set (k := xorl r (xor_all (pre ++ post))).
  assert (Hk : bytes 52 k).
  { apply bytes_xorl; auto. apply bytes_xor_all. apply Forall_app; auto. }
  assert (K : forall m, bytes 52 m ->
    fold_res additive_reconstruct (pre ++ m :: post) r = Ok (xorl k m)).
  { intros m Hm. rewrite fold_reconstruct; auto; [|apply Forall_app; auto].
    f_equal. unfold k. rewrite xorl_assoc. f_equal.
    rewrite <- (xor_all_perm (m :: (pre ++ post)) (pre ++ m :: post)) by apply Permutation_middle.
    cbn [xor_all fold_right]. apply xorl_comm. }
  exists (xorl k c). split.
  - split; [apply bytes_xorl; auto|]. rewrite K by (apply bytes_xorl; auto). f_equal.
    apply xorl_solve; auto. apply bytes_xorl; auto.
  - intros m [Hm E]. rewrite K in E by auto. inversion E as [E'].
    rewrite E'. symmetry. apply xorl_solve; auto.
Qed.

(** Removing one element. *)
Definition drop_at {A} (i : nat) (l : list A) : list A := firstn i l ++ skipn (S i) l.

Lemma c08_any n i others :
  (i < n)%nat -> length others = (n - 1)%nat -> Forall (bytes 52) others ->
  exists! draws, (length draws = (n - 1)%nat /\ Forall (bytes 52) draws) /\
    exists shares, generate_additive_secret_shares draws n = Ok shares /\ drop_at i shares = others.
Proof.
  intros Hi Ho Hw. destruct n as [|n]; [lia|].
  replace (S n - 1)%nat with n in * by lia.
  assert (G : forall draws, length draws = n -> Forall (bytes 52) draws ->
     generate_additive_secret_shares draws (S n) = Ok (draws ++ [xor_all draws])).
  { intros draws L W. rewrite generate_additive_spec by (auto; lia).
    rewrite firstn_all2 by lia. reflexivity. }
  destruct (Nat.eq_dec i n) as [->|Hne].
  - (* the computed mask is the missing one *)
    assert (D : forall draws : list (list Z), length draws = n ->
       drop_at n (draws ++ [xor_all draws]) = draws).
    { intros draws L. unfold drop_at. rewrite firstn_app_exact by auto.
      rewrite skipn_all2 by (rewrite app_length; cbn; lia). apply app_nil_r. }
    exists others. split.
    + split; auto. eexists. split; [apply G; auto|]. apply D; auto.
    + intros d [[L W] (sh & E & R)]. rewrite G in E by auto. inversion E; subst sh. rewrite D in R by auto. auto.
  - assert (Hn : (i < n)%nat) by lia.
    (* others = a ++ b ++ [last] with a = firstn i *)
    destruct (exists_last (l := others)) as (ob & last & ->).
    { intros ->. cbn in Ho. lia. }
    rewrite app_length in Ho. cbn in Ho.
    apply Forall_app in Hw. destruct Hw as [Hob Hlast]. inversion Hlast as [|? ? Hla _]; subst.
    set (v := xorl last (xor_all ob)).
    assert (Hv : bytes 52 v) by (apply bytes_xorl; auto; apply bytes_xor_all; auto).
    assert (K : forall draws, length draws = (length ob + 1)%nat -> Forall (bytes 52) draws ->
      (drop_at i (draws ++ [xor_all draws]) = ob ++ [last] <->
       draws = firstn i ob ++ v :: skipn i ob)).
    { intros draws L W.
      assert (Hsplit : exists x, draws = firstn i draws ++ x :: skipn (S i) draws /\ bytes 52 x).
      { destruct (nth_error draws i) as [x|] eqn:Ex.
        - exists x. split.
          + rewrite <- (firstn_skipn i draws) at 1. f_equal.
            clear - Ex. revert i Ex. induction draws as [|a d IHd]; intros [|i] E; cbn in *; try discriminate.
            * inversion E; auto.
            * apply IHd; auto.
          + rewrite Forall_forall in W. apply W. eapply nth_error_In; eauto.
        - apply nth_error_None in Ex. lia. }
      destruct Hsplit as (x & Ed & Hx).
      assert (Dr : drop_at i (draws ++ [xor_all draws]) =
                   (firstn i draws ++ skipn (S i) draws) ++ [xor_all draws]).
      { unfold drop_at. rewrite firstn_app, skipn_app.
        replace (i - length draws)%nat with 0%nat by lia.
        replace (S i - length draws)%nat with 0%nat by lia.
        cbn [firstn skipn]. rewrite app_nil_r, app_assoc. reflexivity. }
      rewrite Dr.
      assert (Xd : xor_all draws = xorl x (xor_all (firstn i draws ++ skipn (S i) draws))).
      { rewrite Ed at 1. rewrite <- (xor_all_perm _ _ (Permutation_middle _ _ _)). reflexivity. }
      assert (Hrest : Forall (bytes 52) (firstn i draws ++ skipn (S i) draws)).
      { apply Forall_app; split; [apply Forall_firstn|apply Forall_skipn]; auto. }
      split.
      - intros E. apply app_inj_tail in E. destruct E as [E1 E2].
        rewrite E1 in Xd.
        rewrite Xd in E2. rewrite xorl_comm in E2.
        apply xorl_solve in E2; auto; [|apply bytes_xor_all; auto].
        rewrite Ed. rewrite <- E1.
        assert (Lf : length (firstn i draws) = i) by (rewrite firstn_length; lia).
        rewrite (firstn_app_exact _ _ i Lf), (skipn_app_exact _ _ i Lf).
        f_equal. f_equal. rewrite E2. unfold v. apply xorl_comm.
      - intros E.
        assert (Lf : length (firstn i ob) = i) by (rewrite firstn_length; lia).
        assert (F1 : firstn i draws = firstn i ob).
        { rewrite E. apply firstn_app_exact. exact Lf. }
        assert (F2 : skipn (S i) draws = skipn i ob).
        { rewrite E. replace (firstn i ob ++ v :: skipn i ob) with ((firstn i ob ++ [v]) ++ skipn i ob)
            by (rewrite <- app_assoc; reflexivity).
          apply skipn_app_exact. rewrite app_length, Lf. cbn. lia. }
        assert (Fx : x = v).
        { rewrite F1, F2 in Ed. rewrite E in Ed. apply app_inv_head in Ed. congruence. }
        rewrite F1, F2, firstn_skipn in Xd. rewrite F1, F2, firstn_skipn. f_equal. f_equal.
        rewrite Xd, Fx. rewrite xorl_comm. apply xorl_solve; auto; [apply bytes_xor_all; auto|].
        unfold v. apply xorl_comm. }
    exists (firstn i ob ++ v :: skipn i ob).
    assert (Ld : length (firstn i ob ++ v :: skipn i ob) = (length ob + 1)%nat).
    { rewrite app_length. cbn [length]. rewrite firstn_length, skipn_length. lia. }
    assert (Wd : Forall (bytes 52) (firstn i ob ++ v :: skipn i ob)).
    { apply Forall_app. split; [apply Forall_firstn; auto|].
      constructor; auto. apply Forall_skipn; auto. }
    split.
    + split; [split; [lia|auto]|]. eexists. split; [apply G; [lia|auto]|]. apply K; auto.
    + intros d [[L W] (sh & E & R)]. rewrite G in E by auto. inversion E; subst sh.
      symmetry. apply K; auto; lia.
Qed.
