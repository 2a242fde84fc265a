(** Lemmas about [Base]. *)
From Verif Require Export Base.

Lemma bind_Ok {A B} (r : res A) (f : A -> res B) b :
  bind r f = Ok b -> exists a, r = Ok a /\ f a = Ok b.
Proof. destruct r; simpl; intros H; try discriminate. eauto. Qed.

Lemma w32_id z : u32 z -> w32 z = z.
Proof. unfold u32, w32; intros; apply Z.mod_small; lia. Qed.
Lemma w64_id z : u64 z -> w64 z = z.
Proof. unfold u64, w64; intros; apply Z.mod_small; lia. Qed.
Lemma w8_id z : u8 z -> w8 z = z.
Proof. unfold u8, w8; intros; apply Z.mod_small; lia. Qed.
Lemma w32_u32 z : u32 (w32 z).
Proof. unfold u32, w32; apply Z.mod_pos_bound; lia. Qed.
Lemma w64_u64 z : u64 (w64 z).
Proof. unfold u64, w64; apply Z.mod_pos_bound; lia. Qed.
Lemma w8_u8 z : u8 (w8 z).
Proof. unfold u8, w8; apply Z.mod_pos_bound; lia. Qed.

Lemma s64_ok z : - 2 ^ 63 <= z < 2 ^ 63 -> s64 z = Ok z.
Proof.
  intros [H1 H2]. unfold s64.
  apply Z.leb_le in H1. apply Z.ltb_lt in H2. rewrite H1, H2. reflexivity.
Qed.

Lemma length_upd {A} (l : list A) i a : length (upd l i a) = length l.
Proof. revert i; induction l as [|h t IH]; intros [|i]; simpl; auto. Qed.

Lemma nth_error_upd {A} (l : list A) i j a :
  nth_error (upd l i a) j =
  if (i =? j)%nat && (i <? length l)%nat then Some a else nth_error l j.
Proof.
  revert i j; induction l as [|h t IH]; intros [|i] [|j]; simpl; auto.
  - rewrite andb_false_r. reflexivity.
  - rewrite IH. reflexivity.
Qed.

Lemma nth_error_upd_eq {A} (l : list A) i a :
  (i < length l)%nat -> nth_error (upd l i a) i = Some a.
Proof.
  intros H. rewrite nth_error_upd, Nat.eqb_refl.
  apply Nat.ltb_lt in H. rewrite H. reflexivity.
Qed.

Lemma nth_error_upd_ne {A} (l : list A) i j a :
  i <> j -> nth_error (upd l i a) j = nth_error l j.
Proof.
  intros H. rewrite nth_error_upd. apply Nat.eqb_neq in H. rewrite H. reflexivity.
Qed.

Lemma get_Ok {A} (l : list A) i a : get l i = Ok a <-> nth_error l i = Some a.
Proof.
  unfold get. destruct (nth_error l i); split; intros H; inversion H; auto.
Qed.

Lemma get_lt {A} (l : list A) i : (i < length l)%nat -> exists a, get l i = Ok a /\ nth_error l i = Some a.
Proof.
  intros H. unfold get. destruct (nth_error l i) eqn:E; eauto.
  apply nth_error_None in E. lia.
Qed.

Lemma set_Ok {A} (l : list A) i a : (i < length l)%nat -> set_ l i a = Ok (upd l i a).
Proof. intros H. unfold set_. apply Nat.ltb_lt in H. rewrite H. reflexivity. Qed.

Lemma upd_app_l {A} (l1 l2 : list A) i a :
  (i < length l1)%nat -> upd (l1 ++ l2) i a = upd l1 i a ++ l2.
Proof.
  revert i; induction l1 as [|h t IH]; intros [|i] H; simpl in *; try lia; auto.
  rewrite IH by lia. reflexivity.
Qed.

Lemma upd_app_r {A} (l1 l2 : list A) i a :
  (length l1 <= i)%nat -> upd (l1 ++ l2) i a = l1 ++ upd l2 (i - length l1) a.
Proof.
  revert i; induction l1 as [|h t IH]; intros i H; simpl in *.
  - rewrite Nat.sub_0_r. reflexivity.
  - destruct i; [lia|]. rewrite IH by lia. reflexivity.
Qed.

Lemma nth_error_ext {A} (l1 l2 : list A) :
  (forall i, nth_error l1 i = nth_error l2 i) -> l1 = l2.
Proof.
  revert l2; induction l1 as [|a l1 IH]; intros [|b l2] H; auto.
  - specialize (H O); discriminate.
  - specialize (H O); discriminate.
  - f_equal.
    + specialize (H O); simpl in H; congruence.
    + apply IH. intros i. apply (H (S i)).
Qed.

(** Loop rule. *)
Lemma for_inv {S} (I : nat -> S -> Prop) n i f (s : S) :
  I i s ->
  (forall k t, (i <= k < i + n)%nat -> I k t -> exists t', f k t = Ok t' /\ I (Datatypes.S k) t') ->
  exists s', for_ n i f s = Ok s' /\ I (i + n)%nat s'.
Proof.
  revert i s; induction n as [|n IH]; intros i s H0 Hs; simpl.
  - exists s. rewrite Nat.add_0_r. auto.
  - destruct (Hs i s) as [t' [E Ht]]; [lia|auto|].
    rewrite E; simpl.
    destruct (IH (Datatypes.S i) t' Ht) as [s' [E' Hs']].
    + intros k t Hk HI. apply Hs; [lia|auto].
    + exists s'. split; auto.
      replace (i + Datatypes.S n)%nat with (Datatypes.S i + n)%nat by lia. auto.
Qed.

Lemma for_ext {S} n i (f g : nat -> S -> res S) s :
  (forall k t, (i <= k < i + n)%nat -> f k t = g k t) ->
  for_ n i f s = for_ n i g s.
Proof.
  revert i s; induction n as [|n IH]; intros i s H; simpl; auto.
  rewrite H by lia. destruct (g i s); simpl; auto.
  apply IH. intros; apply H; lia.
Qed.

Lemma for_snoc {S} n i (f : nat -> S -> res S) s :
  for_ (Datatypes.S n) i f s = let* t := for_ n i f s in f (i + n)%nat t.
Proof.
  revert i s; induction n as [|n IH]; intros i s.
  - cbn [for_ bind]. rewrite Nat.add_0_r. destruct (f i s); reflexivity.
  - assert (E : for_ (Datatypes.S (Datatypes.S n)) i f s =
      (let* s' := f i s in for_ (Datatypes.S n) (Datatypes.S i) f s')) by reflexivity.
    rewrite E. clear E.
    replace (for_ (Datatypes.S n) i f s) with
      (let* s' := f i s in for_ n (Datatypes.S i) f s') by reflexivity.
    destruct (f i s) as [a| | |]; cbn [bind]; auto.
    rewrite IH. replace (Datatypes.S i + n)%nat with (i + Datatypes.S n)%nat by lia.
    reflexivity.
Qed.

Lemma bind_assoc {A B C} (r : res A) (f : A -> res B) (g : B -> res C) :
  bind (bind r f) g = bind r (fun a => bind (f a) g).
Proof. destruct r; reflexivity. Qed.

(** ** Little-endian images *)

Lemma length_le n : forall z, length (le n z) = n.
Proof. induction n as [|n IH]; intros z; cbn [le length]; auto. Qed.

Lemma le_bytes n : forall z, Forall byte (le n z).
Proof.
  induction n as [|n IH]; intros z; cbn [le]; constructor; auto.
  unfold byte. apply Z.mod_pos_bound. lia.
Qed.

Lemma bytes_le n z : bytes n (le n z).
Proof. split; [apply length_le|apply le_bytes]. Qed.

Lemma of_le_le n : forall z, of_le (le n z) = z mod 256 ^ Z.of_nat n.
Proof.
  induction n as [|n IH]; intros z; cbn [le of_le].
  - cbn [Z.of_nat]. rewrite Z.pow_0_r, Z.mod_1_r. reflexivity.
  - rewrite IH, Nat2Z.inj_succ, Z.pow_succ_r by lia.
    rewrite Z.rem_mul_r by lia. ring.
Qed.

Lemma of_le_bound l : Forall byte l -> 0 <= of_le l < 256 ^ Z.of_nat (length l).
Proof.
  induction 1 as [|b l Hb Hl IH]; cbn [of_le length].
  - rewrite Z.pow_0_r. lia.
  - unfold byte in Hb. rewrite Nat2Z.inj_succ, Z.pow_succ_r by lia. lia.
Qed.

Lemma le_of_le n : forall l, bytes n l -> le n (of_le l) = l.
Proof.
  induction n as [|n IH]; intros l [Hl Hb]; destruct l as [|b l]; try discriminate; auto.
  inversion Hb as [|? ? Hb1 Hb2]; subst. cbn [of_le le].
  unfold byte in Hb1.
  replace (b + 256 * of_le l) with (of_le l * 256 + b) by ring.
  rewrite Z.div_add_l, Z.div_small, Z.add_0_r by lia.
  rewrite Z.add_comm, Z.mod_add, Z.mod_small by lia.
  rewrite IH; auto. split; auto.
Qed.

Lemma of_le_le_small n z : 0 <= z < 256 ^ Z.of_nat n -> of_le (le n z) = z.
Proof. intros H. rewrite of_le_le. apply Z.mod_small. exact H. Qed.

(** ** Memory *)

Lemma nth_error_firstn {A} (l : list A) n i :
  nth_error (firstn n l) i = if (i <? n)%nat then nth_error l i else None.
Proof.
  revert n i; induction l as [|a l IH]; intros [|n] [|i]; simpl; auto.
  - destruct (S i <? S n)%nat; auto.
  - rewrite IH. reflexivity.
Qed.

Lemma nth_error_skipn {A} (l : list A) n i :
  nth_error (skipn n l) i = nth_error l (n + i).
Proof.
  revert n i; induction l as [|a l IH]; intros [|n] i; simpl; auto.
  destruct i; auto.
Qed.

Lemma rd_Ok m off n : (off + n <= length m)%nat -> rd m off n = Ok (firstn n (skipn off m)).
Proof. intros H. unfold rd. apply Nat.leb_le in H. rewrite H. reflexivity. Qed.

Lemma wr_Ok m off bs : (off + length bs <= length m)%nat ->
  exists m', wr m off bs = Ok m' /\ length m' = length m /\
    forall j, nth_error m' j =
      if (off <=? j)%nat && (j <? off + length bs)%nat then nth_error bs (j - off) else nth_error m j.
Proof.
  intros H. unfold wr. pose proof H as H'. apply Nat.leb_le in H'. rewrite H'.
  eexists; split; [reflexivity|]. split.
  - rewrite !app_length, firstn_length, skipn_length. lia.
  - intros j.
    destruct (Nat.leb_spec off j) as [L|L]; cbn [andb].
    + rewrite nth_error_app2 by (rewrite firstn_length; lia).
      rewrite firstn_length, Nat.min_l by lia.
      destruct (Nat.ltb_spec j (off + length bs)) as [L2|L2].
      * rewrite nth_error_app1 by lia. reflexivity.
      * rewrite nth_error_app2 by lia. rewrite nth_error_skipn. f_equal. lia.
    + rewrite nth_error_app1 by (rewrite firstn_length; lia).
      rewrite nth_error_firstn. apply Nat.ltb_lt in L. rewrite L. reflexivity.
Qed.

Lemma nth_error_rd m off n bs : rd m off n = Ok bs -> length bs = n /\
  forall j, (j < n)%nat -> nth_error bs j = nth_error m (off + j).
Proof.
  unfold rd. destruct (Nat.leb_spec (off + n) (length m)) as [L|L]; intros E; inversion E; subst.
  split.
  - rewrite firstn_length, skipn_length. lia.
  - intros j Hj. rewrite nth_error_firstn, nth_error_skipn.
    apply Nat.ltb_lt in Hj. rewrite Hj. reflexivity.
Qed.

Lemma fold_res_app {A S} (f : S -> A -> res S) l1 l2 s :
  fold_res f (l1 ++ l2) s = let* s' := fold_res f l1 s in fold_res f l2 s'.
Proof.
  revert s; induction l1 as [|a l IH]; intros s; cbn [app fold_res bind]; auto.
  destruct (f s a); cbn [bind]; auto.
Qed.

Lemma map_res_Ok {A B} (f : A -> res B) (g : A -> B) l :
  (forall a, In a l -> f a = Ok (g a)) -> map_res f l = Ok (map g l).
Proof.
  induction l as [|a l IH]; intros H; cbn [map_res map]; auto.
  rewrite H by (left; auto). cbn [bind]. rewrite IH by (intros; apply H; right; auto).
  reflexivity.
Qed.

Lemma map_res_app {A B} (f : A -> res B) l1 l2 :
  map_res f (l1 ++ l2) =
  let* a := map_res f l1 in let* b := map_res f l2 in Ok (a ++ b).
Proof.
  induction l1 as [|x l IH]; cbn [app map_res bind].
  - destruct (map_res f l2); reflexivity.
  - destruct (f x); cbn [bind]; auto. rewrite IH.
    destruct (map_res f l); cbn [bind]; auto.
    destruct (map_res f l2); reflexivity.
Qed.

Lemma map_res_length {A B} (f : A -> res B) l r : map_res f l = Ok r -> length r = length l.
Proof.
  revert r; induction l as [|a l IH]; intros r H; cbn [map_res] in H.
  - inversion H; reflexivity.
  - apply bind_Ok in H. destruct H as (b & E & H).
    apply bind_Ok in H. destruct H as (r' & E' & H). inversion H; subst.
    cbn [length]. f_equal. auto.
Qed.

Lemma nth_error_seq i n j : (j < n)%nat -> nth_error (seq i n) j = Some (i + j)%nat.
Proof. intros H. rewrite nth_error_nth' with (d := O) by (rewrite seq_length; exact H). rewrite seq_nth by exact H. reflexivity. Qed.

Lemma nth_error_map_seq {A} (f : nat -> A) n j : (j < n)%nat -> nth_error (map f (seq 0 n)) j = Some (f j).
Proof. intros H. rewrite nth_error_map, nth_error_seq by exact H. reflexivity. Qed.

Lemma skipn_nth {A} (l : list A) i x : nth_error l i = Some x -> skipn i l = x :: skipn (S i) l.
Proof.
  revert i; induction l as [|h t IH]; intros [|i] H; cbn in *; try discriminate.
  - inversion H; reflexivity.
  - apply IH. exact H.
Qed.
