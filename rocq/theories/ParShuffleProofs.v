(** Proofs about [ParShuffle]. *)
From Verif Require Import Base BaseProofs Shuffle ShuffleProofs ParShuffle Spec.

Notation cnt := (count_occ Nat.eq_dec).

Definition sum (l : list nat) : nat := fold_right Nat.add O l.

Lemma sum_app a b : sum (a ++ b) = (sum a + sum b)%nat.
Proof. induction a; cbn; [reflexivity|]. unfold sum in *. lia. Qed.

Definition off (counts : list nat) (s : nat) : nat := sum (firstn s counts).

Lemma firstn_S_snoc {A} (l : list A) s c : nth_error l s = Some c -> firstn (S s) l = firstn s l ++ [c].
Proof.
  revert s; induction l as [|a l IH]; intros [|s] H; cbn in *; try discriminate.
  - inversion H; reflexivity.
  - f_equal. apply IH. exact H.
Qed.

Lemma off_S counts s c : nth_error counts s = Some c -> off counts (S s) = (off counts s + c)%nat.
Proof. intros H. unfold off. rewrite (firstn_S_snoc _ _ _ H), sum_app. cbn. lia. Qed.

Lemma off_mono counts s t : (s <= t)%nat -> (off counts s <= off counts t)%nat.
Proof.
  intros H. unfold off.
  rewrite <- (firstn_skipn s (firstn t counts)), firstn_firstn, Nat.min_l by lia.
  rewrite sum_app. lia.
Qed.

Lemma off_all counts s : (length counts <= s)%nat -> off counts s = sum counts.
Proof. intros H. unfold off. rewrite firstn_all2 by lia. reflexivity. Qed.

(** The section of the global map M belonging to server s. *)
Definition sect (M counts : list nat) (s : nat) : list nat :=
  firstn (nth s counts O) (skipn (off counts s) M).

(** Part of the section of s covered after idx rounds of the scan. *)
Definition part (M counts : list nat) (idx s : nat) : list nat :=
  firstn (idx - off counts s) (sect M counts s).

(** Increasing positions of t in l. *)
Fixpoint positions_from (i t : nat) (l : list nat) : list nat :=
  match l with
  | [] => []
  | x :: l' => if (x =? t)%nat then i :: positions_from (S i) t l' else positions_from (S i) t l'
  end.
Definition positions (t : nat) (l : list nat) : list nat := positions_from 0 t l.

Lemma positions_from_app t l1 : forall l2 i,
  positions_from i t (l1 ++ l2) = positions_from i t l1 ++ positions_from (i + length l1) t l2.
Proof.
  induction l1 as [|x l1 IH]; intros l2 i; cbn [positions_from app length].
  - rewrite Nat.add_0_r. reflexivity.
  - rewrite IH. replace (S i + length l1)%nat with (i + S (length l1))%nat by lia.
    destruct (x =? t)%nat; reflexivity.
Qed.

Lemma positions_from_length t l : forall i, length (positions_from i t l) = cnt l t.
Proof.
  induction l as [|x l IH]; intros i; cbn [positions_from count_occ]; [reflexivity|].
  destruct (Nat.eqb_spec x t) as [E|E], (Nat.eq_dec x t) as [E'|E']; try contradiction; cbn [length]; rewrite IH; reflexivity.
Qed.

Lemma positions_length t l : length (positions t l) = cnt l t.
Proof. apply positions_from_length. Qed.

(** The final content of a shuffler. *)
Definition slice (total N s : nat) : nat := slice_size total (total / N) s N.

Definition ps_spec (M counts : list nat) (N self noise : nat) : pshuffler := {|
  ps_slice := slice (sum counts) N self;
  ps_forward := sect M counts self;
  ps_backward := map (fun t => positions t (sect M counts self)) (seq 0 N);
  ps_forward_idx := 0;
  ps_backward_idx := repeat O N;
  ps_from := map (fun s => cnt (sect M counts s) self) (seq 0 N);
  ps_prefix := map (fun s => sum (map (fun s' => cnt (sect M counts s') self) (seq 0 s))) (seq 0 N);
  ps_to := map (fun t => cnt (sect M counts self) t) (seq 0 N);
  ps_to_noise := map (fun t => cnt (firstn noise (sect M counts self)) t) (seq 0 N)
|}.

(** --- total_count --- *)
Lemma total_count_spec counts : Z.of_nat (sum counts) < 2 ^ 32 ->
  total_count counts (length counts) = Ok (Z.of_nat (sum counts)).
Proof.
  intros H. unfold total_count.
  destruct (for_inv (fun k t => t = Z.of_nat (off counts k)) (length counts) 0
    (fun id t => let* c := get counts id in Ok (w32 (t + Z.of_nat c))) 0) as (t & E & Ht).
  - reflexivity.
  - intros k t Hk ->. destruct (get_lt counts k) as (c & Ec & Nc); [lia|]. rewrite Ec. cbn [bind].
    eexists; split; [reflexivity|]. rewrite (off_S _ _ _ Nc).
    pose proof (off_mono counts (S k) (length counts)) as Hm. rewrite (off_S _ _ _ Nc) in Hm.
    rewrite (off_all counts (length counts)) in Hm by lia.
    rewrite w32_id by (unfold u32; lia). lia.
  - rewrite E, Ht. cbn [Nat.add]. rewrite off_all by lia. reflexivity.
Qed.

(** --- assign_map --- *)
Lemma fill_loop sid n : forall start (a b c : list nat), length a = start -> length b = n ->
  for_ n start (fun i m' => set_ m' i sid) (a ++ b ++ c) = Ok (a ++ repeat sid n ++ c).
Proof.
  induction n as [|n IH]; intros start a b c La Lb; cbn [for_ repeat].
  - destruct b; [reflexivity|discriminate].
  - destruct b as [|x b]; [discriminate|]. cbn [length] in Lb.
    rewrite set_Ok by (rewrite !app_length; cbn [length]; lia). cbn [bind].
    rewrite upd_app_r by lia. replace (start - length a)%nat with O by lia. cbn [app upd].
    change (a ++ sid :: b ++ c) with (a ++ [sid] ++ (b ++ c)). rewrite app_assoc.
    rewrite IH; [|rewrite app_length; cbn; lia|lia].
    rewrite <- app_assoc. reflexivity.
Qed.

Definition ident (total N : nat) : list nat :=
  flat_map (fun s => repeat s (slice total N s)) (seq 0 N).

Lemma slice_last total N : (0 < N)%nat -> slice total N (N - 1) = (total - (N - 1) * (total / N))%nat.
Proof. intros H. unfold slice, slice_size. rewrite Nat.eqb_refl. reflexivity. Qed.
Lemma slice_other total N s : (s < N - 1)%nat -> slice total N s = (total / N)%nat.
Proof. intros H. unfold slice, slice_size. destruct (Nat.eqb_spec s (N - 1)); [lia|reflexivity]. Qed.

Lemma flat_repeat_length total N k : (k <= N - 1)%nat ->
  length (flat_map (fun s => repeat s (slice total N s)) (seq 0 k)) = (k * (total / N))%nat.
Proof.
  induction k as [|k IH]; intros Hk; [reflexivity|].
  rewrite seq_S, flat_map_app, app_length, IH by lia. cbn [flat_map Nat.add]. rewrite app_nil_r, repeat_length.
  rewrite slice_other by lia. lia.
Qed.

Lemma div_mul_le total N : (0 < N)%nat -> (N * (total / N) <= total)%nat.
Proof. intros H. apply Nat.mul_div_le. lia. Qed.

Lemma assign_map_spec total N : (0 < N)%nat ->
  assign_map total (total / N) N = Ok (ident total N).
Proof.
  intros HS. unfold assign_map. set (per := (total / N)%nat).
  pose proof (div_mul_le total N HS) as Hd. fold per in Hd.
  assert (Hkp : forall k, (k < N)%nat -> (k * per + per <= total)%nat) by (intros; nia).
  destruct (for_inv (fun k m => (k < N)%nat -> m =
      flat_map (fun s => repeat s (slice total N s)) (seq 0 k) ++ repeat O (total - k * per)) (N - 1) 0
      (fun sid m =>
        let start := (sid * per)%nat in
        let end_ := if (sid =? N - 1)%nat then total else (start + per)%nat in
        for_ (end_ - start) start (fun i m' => set_ m' i sid) m) (repeat O total)) as (m & E & Hm).
  - intros _. cbn. rewrite Nat.sub_0_r. reflexivity.
  - intros k m Hk Hm. rewrite Hm by lia. cbv zeta.
    destruct (Nat.eqb_spec k (N - 1)) as [|_]; [lia|].
    replace (k * per + per - k * per)%nat with per by lia.
    assert (Hsplit : (total - k * per = per + (total - (k + 1) * per))%nat) by (specialize (Hkp k); lia).
    rewrite Hsplit, repeat_app.
    rewrite fill_loop; [|apply flat_repeat_length; lia|apply repeat_length].
    eexists; split; [reflexivity|]. intros _.
    rewrite seq_S, flat_map_app, <- app_assoc. f_equal. cbn [flat_map Nat.add]. rewrite app_nil_r.
    rewrite slice_other by lia. f_equal. f_equal. lia.
  - assert (Hsn : forall f (s : list nat), for_ N 0 f s = let* s' := for_ (N - 1) 0 f s in f (N - 1)%nat s').
    { intros f0 s0. replace N with (S (N - 1)) at 1 by lia. rewrite for_snoc. reflexivity. }
    rewrite Hsn. clear Hsn.
    cbv zeta in E. rewrite E. cbn [bind]. cbn [Nat.add] in *. rewrite Nat.eqb_refl.
    rewrite (Hm ltac:(lia)).
    pose proof (fill_loop (N - 1) (total - (N - 1) * per) ((N - 1) * per)
       (flat_map (fun s => repeat s (slice total N s)) (seq 0 (N - 1)))
       (repeat O (total - (N - 1) * per)) []) as F.
    rewrite !app_nil_r in F. rewrite F; [|apply flat_repeat_length; lia|apply repeat_length].
    f_equal. unfold ident.
    assert (Esq : seq 0 N = seq 0 (N - 1) ++ [N - 1]%nat).
    { replace N with ((N - 1) + 1)%nat at 1 by lia. rewrite seq_app. reflexivity. }
    rewrite Esq, flat_map_app. cbn [flat_map]. rewrite app_nil_r.
    rewrite slice_last by lia. reflexivity.
Qed.

(** Counting in the identity assignment. *)
Lemma cnt_repeat x t n : cnt (repeat x n) t = if (x =? t)%nat then n else O.
Proof.
  induction n as [|n IH]; cbn [repeat count_occ]; [destruct (x =? t)%nat; reflexivity|].
  destruct (Nat.eqb_spec x t) as [E|E], (Nat.eq_dec x t) as [E'|E']; try contradiction; rewrite IH; reflexivity.
Qed.

Lemma cnt_flat_repeat (f : nat -> nat) t n : forall i,
  cnt (flat_map (fun s => repeat s (f s)) (seq i n)) t =
  if (i <=? t)%nat && (t <? i + n)%nat then f t else O.
Proof.
  induction n as [|n IH]; intros i; cbn [seq flat_map].
  - destruct (Nat.leb_spec i t), (Nat.ltb_spec t (i + 0)); try lia; reflexivity.
  - rewrite count_occ_app, cnt_repeat, IH.
    destruct (Nat.eqb_spec i t), (Nat.leb_spec i t), (Nat.ltb_spec t (i + S n)), (Nat.leb_spec (S i) t),
      (Nat.ltb_spec t (S i + n)); cbn [andb]; subst; try lia.
Qed.

Lemma cnt_ident total N t : (t < N)%nat -> cnt (ident total N) t = slice total N t.
Proof.
  intros H. unfold ident. rewrite cnt_flat_repeat. destruct (Nat.ltb_spec t (0 + N)); [reflexivity|lia].
Qed.

Lemma ident_length total N : (0 < N)%nat -> length (ident total N) = total.
Proof.
  intros H. unfold ident.
  assert (Esq : seq 0 N = seq 0 (N - 1) ++ [N - 1]%nat).
  { replace N with ((N - 1) + 1)%nat at 1 by lia. rewrite seq_app. reflexivity. }
  rewrite Esq, flat_map_app, app_length, flat_repeat_length by lia.
  cbn [flat_map]. rewrite app_nil_r, repeat_length, slice_last by lia.
  pose proof (div_mul_le total N H). nia.
Qed.

Lemma ident_lt total N x : In x (ident total N) -> (x < N)%nat.
Proof.
  unfold ident. rewrite in_flat_map. intros (s & Hs & Hx). apply repeat_spec in Hx. apply in_seq in Hs. lia.
Qed.

(** --- the scan --- *)
Lemma incr_map (f f' : nat -> nat) N k : (k < N)%nat -> f' k = S (f k) ->
  (forall s, (s < N)%nat -> s <> k -> f' s = f s) ->
  incr (map f (seq 0 N)) k = Ok (map f' (seq 0 N)).
Proof.
  intros Hk E H. unfold incr.
  assert (Hn : nth_error (map f (seq 0 N)) k = Some (f k)).
  { rewrite nth_error_map. rewrite nth_error_nth' with (d := O) by (rewrite seq_length; lia).
    rewrite seq_nth by lia. reflexivity. }
  unfold get. rewrite Hn. cbn [bind]. rewrite set_Ok by (rewrite map_length, seq_length; lia).
  f_equal. apply nth_error_ext. intros j.
  assert (L : length (map f (seq 0 N)) = N) by (rewrite map_length, seq_length; reflexivity).
  destruct (Nat.lt_ge_cases j N) as [Hj|Hj].
  - rewrite (nth_error_map_seq f') by exact Hj.
    destruct (Nat.eq_dec k j) as [->|Hne].
    + rewrite nth_error_upd_eq by lia. congruence.
    + rewrite nth_error_upd_ne by congruence. rewrite nth_error_map_seq by exact Hj.
      rewrite H by lia. reflexivity.
  - rewrite !(proj2 (nth_error_None _ _)); [reflexivity| |]; rewrite ?length_upd, ?map_length, ?seq_length; lia.
Qed.

Lemma advance_spec counts idx : (idx < sum counts)%nat -> forall fuel source,
  (source < length counts)%nat -> (length counts <= source + fuel)%nat ->
  (off counts source <= idx)%nat ->
  exists s, advance fuel counts idx (off counts source) source = Ok (off counts s, s) /\
    (s < length counts)%nat /\ (source <= s)%nat /\
    (off counts s <= idx < off counts s + nth s counts O)%nat.
Proof.
  intros Hidx. induction fuel as [|fuel IH]; intros source Hs Hf Ho.
  - lia.
  - cbn [advance].
    destruct (get_lt counts source Hs) as (c & Ec & Nc). rewrite Ec. cbn [bind].
    assert (Hnth : nth source counts O = c) by (apply nth_error_nth; exact Nc).
    destruct (Nat.leb_spec c (idx - off counts source)) as [L|L].
    + rewrite <- (off_S _ _ _ Nc).
      assert (H1 : (off counts (S source) <= idx)%nat) by (rewrite (off_S _ _ _ Nc); lia).
      assert (H2 : (S source < length counts)%nat).
      { destruct (Nat.lt_ge_cases (S source) (length counts)) as [|G]; [assumption|].
        rewrite off_all in H1 by lia. lia. }
      destruct (IH (S source)) as (s & E & A & B & C); try lia.
      exists s. split; [exact E|]. split; [exact A|]. split; [lia|exact C].
    + exists source. split; [reflexivity|]. split; [exact Hs|]. split; [lia|]. rewrite Hnth. lia.
Qed.

Lemma map_zero (f : nat -> nat) n : forall i, (forall j, f j = O) -> map f (seq i n) = repeat O n.
Proof. induction n as [|n IH]; intros i H; cbn; [reflexivity|]. rewrite H, IH by exact H. reflexivity. Qed.

Lemma cnt_snoc l x t : cnt (l ++ [x]) t = if (x =? t)%nat then S (cnt l t) else cnt l t.
Proof.
  rewrite count_occ_app. cbn [count_occ].
  destruct (Nat.eqb_spec x t) as [E|E], (Nat.eq_dec x t) as [E'|E']; try contradiction; lia.
Qed.

Lemma sect_len M counts s : length M = sum counts -> (s < length counts)%nat ->
  length (sect M counts s) = nth s counts O.
Proof.
  intros LM Hs. unfold sect. rewrite firstn_length, skipn_length, LM.
  destruct (nth_error counts s) as [c|] eqn:E; [|apply nth_error_None in E; lia].
  rewrite (nth_error_nth _ _ _ E).
  pose proof (off_S _ _ _ E) as H1. pose proof (off_mono counts (S s) (length counts)) as H2.
  rewrite (off_all counts (length counts)) in H2 by lia. lia.
Qed.

Section Scan.
Variables (M counts : list nat) (self noise : nat).
Let N := length counts.
Hypothesis LM : length M = sum counts.
Hypothesis MN : forall x, In x M -> (x < N)%nat.
Hypothesis Hself : (self < N)%nat.

Lemma sect_length s : (s < N)%nat -> length (sect M counts s) = nth s counts O.
Proof. apply sect_len. exact LM. Qed.

Lemma sect_nth s j : (j < nth s counts O)%nat -> nth_error (sect M counts s) j = nth_error M (off counts s + j).
Proof.
  intros Hj. unfold sect. rewrite nth_error_firstn, nth_error_skipn.
  destruct (Nat.ltb_spec j (nth s counts O)); [reflexivity|lia].
Qed.

(** Covering one more position. *)
Lemma part_step idx s target : (s < N)%nat ->
  (off counts s <= idx < off counts s + nth s counts O)%nat -> nth_error M idx = Some target ->
  part M counts (S idx) s = part M counts idx s ++ [target].
Proof.
  intros Hs Hi Ht. unfold part.
  replace (S idx - off counts s)%nat with (S (idx - off counts s)) by lia.
  apply firstn_S_snoc. rewrite sect_nth by lia. rewrite <- Ht. f_equal. lia.
Qed.

Lemma nth_off s : (s < N)%nat -> off counts (S s) = (off counts s + nth s counts O)%nat.
Proof.
  intros Hs. destruct (nth_error counts s) as [c|] eqn:E; [|apply nth_error_None in E; unfold N in *; lia].
  rewrite (off_S _ _ _ E), (nth_error_nth _ _ _ E). reflexivity.
Qed.

Lemma part_other idx s s' : (s < N)%nat -> (s' < N)%nat -> s <> s' ->
  (off counts s <= idx < off counts s + nth s counts O)%nat ->
  part M counts (S idx) s' = part M counts idx s'.
Proof.
  intros Hs Hs' Hne Hi. unfold part.
  destruct (Nat.lt_ge_cases s s') as [L|L].
  - pose proof (off_mono counts (S s) s' L) as H. rewrite nth_off in H by exact Hs.
    replace (S idx - off counts s')%nat with O by lia. replace (idx - off counts s')%nat with O by lia. reflexivity.
  - assert (L' : (S s' <= s)%nat) by lia. pose proof (off_mono counts _ _ L') as H. rewrite nth_off in H by exact Hs'.
    rewrite !firstn_all2; [reflexivity| |]; rewrite sect_length by exact Hs'; lia.
Qed.

Lemma part_length idx s : (s < N)%nat -> (off counts s <= idx <= off counts s + nth s counts O)%nat ->
  length (part M counts idx s) = (idx - off counts s)%nat.
Proof. intros Hs Hi. unfold part. rewrite firstn_length, sect_length by exact Hs. lia. Qed.

Lemma part_full idx s : (s < N)%nat -> (off counts s + nth s counts O <= idx)%nat ->
  part M counts idx s = sect M counts s.
Proof. intros Hs Hi. unfold part. apply firstn_all2. rewrite sect_length by exact Hs. lia. Qed.

Definition scan_inv (idx : nat) (s : scan) : Prop :=
  (sc_source s < N)%nat /\ sc_start s = off counts (sc_source s) /\ (sc_start s <= idx)%nat /\
  sc_from s = map (fun s' => cnt (part M counts idx s') self) (seq 0 N) /\
  sc_to s = map (fun t => cnt (part M counts idx self) t) (seq 0 N) /\
  sc_to_noise s = map (fun t => cnt (firstn noise (part M counts idx self)) t) (seq 0 N) /\
  sc_forward s = part M counts idx self ++
    repeat O (nth self counts O - length (part M counts idx self)).

Lemma scan_step_inv idx s : (idx < sum counts)%nat -> scan_inv idx s ->
  exists s', scan_step self noise counts M idx s = Ok s' /\ scan_inv (S idx) s'.
Proof.
  intros Hidx (Hsrc & Hst & Hle & Hfrom & Hto & Htn & Hfw).
  unfold scan_step. rewrite Hst.
  destruct (advance_spec counts idx Hidx (length counts) (sc_source s)) as (src & Ea & Hs & _ & Hr);
    try (unfold N in *; lia).
  rewrite Ea. cbn [bind].
  destruct (get_lt M idx) as (target & Et & Nt); [lia|]. rewrite Et. cbn [bind].
  pose proof (MN target (nth_error_In _ _ Nt)) as Htn'.
  assert (HsN : (src < N)%nat) by exact Hs.
  assert (From : (if (target =? self)%nat then incr (sc_from s) src else Ok (sc_from s)) =
     Ok (map (fun s' => cnt (part M counts (S idx) s') self) (seq 0 N))).
  { rewrite Hfrom. destruct (Nat.eqb_spec target self) as [Heq|Hne].
    - apply incr_map; [exact HsN| |].
      + rewrite (part_step idx src target HsN Hr Nt), cnt_snoc, Heq, Nat.eqb_refl. reflexivity.
      + intros s' Hs' Hd. rewrite (part_other idx src s'); auto.
    - f_equal. apply map_ext_in. intros s' Hs'. apply in_seq in Hs'.
      destruct (Nat.eq_dec s' src) as [->|Hd].
      + rewrite (part_step idx src target HsN Hr Nt), cnt_snoc.
        destruct (Nat.eqb_spec target self); [contradiction|reflexivity].
      + rewrite (part_other idx src s'); auto; lia. }
  rewrite From. cbn [bind].
  destruct (Nat.eqb_spec src self) as [Heq|Hne].
  - subst src.
    assert (Lp : length (part M counts idx self) = (idx - off counts self)%nat).
    { apply part_length; [exact HsN|lia]. }
    assert (Tn : (if (idx - off counts self <? noise)%nat then incr (sc_to_noise s) target else Ok (sc_to_noise s)) =
       Ok (map (fun t => cnt (firstn noise (part M counts (S idx) self)) t) (seq 0 N))).
    { rewrite Htn. rewrite (part_step idx self target HsN Hr Nt).
      destruct (Nat.ltb_spec (idx - off counts self) noise) as [L|L].
      - rewrite (firstn_all2 (n := noise) (part M counts idx self ++ [target])) by (rewrite app_length; cbn; lia).
        apply incr_map; [exact Htn'| |].
        + rewrite cnt_snoc, Nat.eqb_refl, firstn_all2 by lia. reflexivity.
        + intros t Ht Hd. rewrite cnt_snoc, firstn_all2 by lia.
          destruct (Nat.eqb_spec target t); [congruence|reflexivity].
      - f_equal. apply map_ext. intros t. rewrite firstn_app.
        replace (noise - length (part M counts idx self))%nat with O by lia. rewrite firstn_O, app_nil_r. reflexivity. }
    rewrite Tn. cbn [bind].
    rewrite Hto. erewrite (incr_map _ (fun t => cnt (part M counts (S idx) self) t) N target); [|exact Htn'| |].
    2:{ rewrite (part_step idx self target HsN Hr Nt), cnt_snoc, Nat.eqb_refl. reflexivity. }
    2:{ intros t Ht Hd. rewrite (part_step idx self target HsN Hr Nt), cnt_snoc.
        destruct (Nat.eqb_spec target t); [congruence|reflexivity]. }
    cbn [bind]. rewrite Hfw.
    rewrite set_Ok by (rewrite app_length, repeat_length; lia). cbn [bind].
    eexists; split; [reflexivity|]. unfold scan_inv. cbn [sc_source sc_start sc_from sc_to sc_to_noise sc_forward].
    repeat (split; [solve [reflexivity|assumption|lia]|]).
    rewrite upd_app_r by lia. replace (idx - off counts self - length (part M counts idx self))%nat with O by lia.
    rewrite (part_step idx self target HsN Hr Nt), app_length. cbn [length].
    replace (nth self counts O - length (part M counts idx self))%nat with
      (S (nth self counts O - (length (part M counts idx self) + 1)))%nat by lia.
    cbn [repeat upd]. rewrite <- app_assoc. reflexivity.
  - eexists; split; [reflexivity|]. unfold scan_inv. cbn [sc_source sc_start sc_from sc_to sc_to_noise sc_forward].
    rewrite !(part_other idx src self) by auto.
    repeat (split; [solve [reflexivity|assumption|lia]|]). assumption.
Qed.

Lemma scan_spec : exists s,
  for_ (sum counts) 0 (scan_step self noise counts M)
      {| sc_start := 0; sc_source := 0; sc_from := repeat O N;
         sc_to := repeat O N; sc_to_noise := repeat O N;
         sc_forward := repeat O (nth self counts O) |} = Ok s /\
  sc_from s = map (fun s' => cnt (sect M counts s') self) (seq 0 N) /\
  sc_to s = map (fun t => cnt (sect M counts self) t) (seq 0 N) /\
  sc_to_noise s = map (fun t => cnt (firstn noise (sect M counts self)) t) (seq 0 N) /\
  sc_forward s = sect M counts self.
Proof.
  destruct (for_inv scan_inv (sum counts) 0 (scan_step self noise counts M)
      {| sc_start := 0; sc_source := 0; sc_from := repeat O N;
         sc_to := repeat O N; sc_to_noise := repeat O N;
         sc_forward := repeat O (nth self counts O) |}) as (s & E & Hinv).
  - unfold scan_inv, part. cbn [sc_source sc_start sc_from sc_to sc_to_noise sc_forward Nat.sub firstn].
    split; [lia|]. split; [reflexivity|]. split; [lia|].
    rewrite firstn_nil.
    rewrite !map_zero by reflexivity. cbn [app length]. rewrite Nat.sub_0_r. auto.
  - intros k t Hk Hi. apply scan_step_inv; [lia|exact Hi].
  - exists s. split; [exact E|]. cbn [Nat.add] in Hinv.
    assert (F : forall s', (s' < N)%nat -> part M counts (sum counts) s' = sect M counts s').
    { intros s' Hs'. apply part_full; [exact Hs'|]. rewrite <- nth_off by exact Hs'.
      rewrite <- (off_all counts (length counts)) by lia. apply off_mono. exact Hs'. }
    destruct Hinv as (_ & _ & _ & H1 & H2 & H3 & H4).
    rewrite (F self Hself) in *. rewrite sect_length, Nat.sub_diag, app_nil_r in H4 by exact Hself.
    split; [|auto]. rewrite H1. apply map_ext_in. intros s' Hs'. apply in_seq in Hs'. rewrite F by lia. reflexivity.
Qed.
End Scan.

Lemma set_map {A} (f f' : nat -> A) N k v : (k < N)%nat -> f' k = v ->
  (forall s, (s < N)%nat -> s <> k -> f' s = f s) ->
  set_ (map f (seq 0 N)) k v = Ok (map f' (seq 0 N)).
Proof.
  intros Hk E H.
  assert (L : length (map f (seq 0 N)) = N) by (rewrite map_length, seq_length; reflexivity).
  rewrite set_Ok by lia. f_equal. apply nth_error_ext. intros j.
  destruct (Nat.lt_ge_cases j N) as [Hj|Hj].
  - rewrite (nth_error_map_seq f') by exact Hj.
    destruct (Nat.eq_dec k j) as [->|Hne].
    + rewrite nth_error_upd_eq by lia. congruence.
    + rewrite nth_error_upd_ne by congruence. rewrite nth_error_map_seq by exact Hj. rewrite H by lia. reflexivity.
  - rewrite !(proj2 (nth_error_None _ _)); [reflexivity| |]; rewrite ?length_upd, ?map_length, ?seq_length; lia.
Qed.

Lemma get_map {A} (f : nat -> A) N k : (k < N)%nat -> get (map f (seq 0 N)) k = Ok (f k).
Proof. intros H. apply get_Ok. apply nth_error_map_seq. exact H. Qed.

Lemma cnt_firstn_le l n t : (cnt (firstn n l) t <= cnt l t)%nat.
Proof. rewrite <- (firstn_skipn n l) at 2. rewrite count_occ_app. lia. Qed.

Lemma positions_snoc t l x : positions t (l ++ [x]) = if (x =? t)%nat then positions t l ++ [length l] else positions t l.
Proof.
  unfold positions. rewrite positions_from_app. cbn [positions_from Nat.add].
  destruct (x =? t)%nat; [reflexivity|apply app_nil_r].
Qed.

Lemma fill_backward_spec N fwd : (forall x, In x fwd -> (x < N)%nat) ->
  fill_backward N (length fwd) fwd (map (fun t => cnt fwd t) (seq 0 N)) =
  Ok (map (fun t => positions t fwd) (seq 0 N), map (fun t => cnt fwd t) (seq 0 N)).
Proof.
  intros Hlt. unfold fill_backward.
  rewrite (map_res_Ok _ (fun sid => repeat O (cnt fwd sid))).
  2:{ intros sid Hs. apply in_seq in Hs. rewrite get_map by lia. reflexivity. }
  cbn [bind].
  destruct (for_inv (fun i bt => bt =
      (map (fun t => positions t (firstn i fwd) ++ repeat O (cnt fwd t - cnt (firstn i fwd) t)) (seq 0 N),
       map (fun t => cnt (firstn i fwd) t) (seq 0 N)))
      (length fwd) 0 (fun (i : nat) (bt : list (list nat) * list nat) =>
    let '(b, t) := bt in
    let* target := get fwd i in
    let* row := get b target in
    let* c := get t target in
    let* row' := set_ row c i in
    let* b' := set_ b target row' in
    let* t' := set_ t target (S c) in
    Ok (b', t')) (map (fun sid => repeat O (cnt fwd sid)) (seq 0 N), repeat O N)) as (bt & E & H).
  - f_equal.
    + apply map_ext. intros t. cbn. rewrite Nat.sub_0_r. reflexivity.
    + symmetry. apply map_zero. reflexivity.
  - intros i bt Hi ->.
    destruct (get_lt fwd i) as (x & Ex & Nx); [lia|]. rewrite Ex. cbn [bind].
    pose proof (Hlt x (nth_error_In _ _ Nx)) as Hx.
    rewrite !get_map by exact Hx. cbn [bind].
    pose proof (firstn_S_snoc _ _ _ Nx) as Hf.
    assert (Hc : (cnt (firstn (S i) fwd) x <= cnt fwd x)%nat) by apply cnt_firstn_le.
    rewrite Hf, cnt_snoc, Nat.eqb_refl in Hc.
    assert (Lf : length (firstn i fwd) = i) by (rewrite firstn_length; lia).
    rewrite set_Ok by (rewrite app_length, repeat_length, positions_length; lia). cbn [bind].
    rewrite (set_map _ (fun t => positions t (firstn (S i) fwd) ++ repeat O (cnt fwd t - cnt (firstn (S i) fwd) t))); auto.
    2:{ rewrite Hf, positions_snoc, cnt_snoc, Nat.eqb_refl, Lf.
        rewrite upd_app_r by (rewrite positions_length; lia). rewrite positions_length, Nat.sub_diag.
        replace (cnt fwd x - cnt (firstn i fwd) x)%nat with (S (cnt fwd x - S (cnt (firstn i fwd) x))) by lia.
        cbn [repeat upd]. rewrite <- app_assoc. reflexivity. }
    2:{ intros s Hs Hne. rewrite Hf, positions_snoc, cnt_snoc.
        destruct (Nat.eqb_spec x s); [congruence|reflexivity]. }
    cbn [bind].
    rewrite (set_map _ (fun t => cnt (firstn (S i) fwd) t)); auto.
    2:{ rewrite Hf, cnt_snoc, Nat.eqb_refl. reflexivity. }
    2:{ intros s Hs Hne. rewrite Hf, cnt_snoc. destruct (Nat.eqb_spec x s); [congruence|reflexivity]. }
    cbn [bind]. eexists; split; reflexivity.
  - rewrite E, H. cbn [Nat.add]. rewrite firstn_all. f_equal. f_equal.
    apply map_ext. intros t. rewrite Nat.sub_diag. apply app_nil_r.
Qed.

Lemma prefix_sums_spec N (g : nat -> nat) : (0 < N)%nat ->
  prefix_sums N (map g (seq 0 N)) = Ok (map (fun s => sum (map g (seq 0 s))) (seq 0 N)).
Proof.
  intros HN. unfold prefix_sums.
  destruct (for_inv (fun k p => p = map (fun s => if (s <=? k)%nat then sum (map g (seq 0 s)) else O) (seq 0 N))
     (N - 1) 0 (fun sid p =>
    let* a := get p sid in
    let* b := get (map g (seq 0 N)) sid in
    set_ p (S sid) (a + b)%nat) (repeat O N)) as (p & E & H).
  - symmetry. apply map_zero. intros [|j]; reflexivity.
  - intros k p Hk ->. rewrite !get_map by lia. cbn [bind]. rewrite Nat.leb_refl.
    eexists; split; [|reflexivity].
    apply set_map; [lia| |].
    + rewrite Nat.leb_refl. rewrite seq_S, map_app, sum_app. cbn. lia.
    + intros s Hs Hne. destruct (Nat.leb_spec s (S k)), (Nat.leb_spec s k); try lia; reflexivity.
  - rewrite E, H. f_equal. apply map_ext_in. intros s Hs. apply in_seq in Hs.
    destruct (Nat.leb_spec s (0 + (N - 1))); [reflexivity|lia].
Qed.

(** What Initialize computes, on every server, from the same shuffled map. *)
Definition par_map_ok (M counts : list nat) (N : nat) : Prop :=
  length counts = N /\ length M = sum counts /\ (forall x, In x M -> (x < N)%nat) /\
  (forall t, (t < N)%nat -> cnt M t = slice (sum counts) N t).

Lemma sect_In M counts s x : In x (sect M counts s) -> In x M.
Proof.
  unfold sect. intros H. apply (In_nth_error) in H. destruct H as [j H].
  rewrite nth_error_firstn, nth_error_skipn in H. destruct (j <? nth s counts O)%nat; [|discriminate].
  eapply nth_error_In; exact H.
Qed.

Lemma ps_initialize_spec rng seed counts N : rand_ok (rng seed) ->
  length counts = N -> (0 < N)%nat -> Z.of_nat (sum counts) < 2 ^ 32 ->
  exists M, par_map_ok M counts N /\
    forall self noise, (self < N)%nat ->
      ps_initialize rng self N seed counts noise = Ok (ps_spec M counts N self noise).
Proof.
  intros Hr HN H0 Hsum.
  destruct (shuffle_spec (rng seed) (ident (sum counts) N) Hr) as (M & EM & PM & LM).
  { rewrite ident_length by exact H0. exact Hsum. }
  rewrite ident_length in * by exact H0.
  assert (HM : par_map_ok M counts N).
  { split; [exact HN|]. split; [exact LM|]. split.
    - intros x Hx. apply (Permutation_in _ (Permutation_sym PM)) in Hx. eapply ident_lt; exact Hx.
    - intros t Ht. rewrite <- (proj1 (Permutation_count_occ Nat.eq_dec _ _) PM). apply cnt_ident. exact Ht. }
  exists M. split; [exact HM|]. intros self noise Hself.
  destruct HM as (_ & _ & HlM & _).
  unfold ps_initialize. subst N. rewrite total_count_spec by exact Hsum. cbn [bind]. rewrite Nat2Z.id.
  destruct (Nat.eqb_spec (length counts) 0) as [|_]; [lia|].
  destruct (get_lt counts self Hself) as (own & Eo & No). rewrite Eo. cbn [bind].
  rewrite assign_map_spec by exact H0. cbn [bind]. rewrite EM. cbn [bind].
  destruct (scan_spec M counts self noise LM HlM Hself) as (s & Es & F1 & F2 & F3 & F4).
  assert (Hown : nth self counts O = own) by (apply nth_error_nth; exact No).
  rewrite <- Hown. rewrite Es. cbn [bind]. rewrite F4, F2, F1, F3.
  rewrite <- (sect_len M counts self LM Hself).
  rewrite fill_backward_spec by (intros x Hx; apply HlM; eapply sect_In; exact Hx). cbn [bind].
  rewrite prefix_sums_spec by exact H0. cbn [bind fst snd].
  reflexivity.
Qed.
