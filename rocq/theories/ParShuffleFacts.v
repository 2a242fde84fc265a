(** Consequences of [ps_initialize_spec]: properties C15-C19. *)
From Verif Require Import Base BaseProofs Shuffle ShuffleProofs ParShuffle ParShuffleProofs Spec.

(** --- positions --- *)
Lemma positions_from_inv t l : forall i j p, nth_error (positions_from i t l) j = Some p ->
  (i <= p)%nat /\ nth_error l (p - i) = Some t /\ j = cnt (firstn (p - i) l) t.
Proof.
  induction l as [|x l IH]; intros i j p H; cbn [positions_from] in H.
  - destruct j; discriminate.
  - destruct (Nat.eqb_spec x t) as [->|Hx].
    + destruct j as [|j]; cbn in H.
      * inversion H; subst. rewrite Nat.sub_diag. cbn. auto.
      * apply IH in H. destruct H as (H1 & H2 & H3). replace (p - i)%nat with (S (p - S i)) by lia.
        cbn [nth_error firstn count_occ]. split; [lia|]. split; [exact H2|].
        destruct (Nat.eq_dec t t); [lia|congruence].
    + apply IH in H. destruct H as (H1 & H2 & H3). replace (p - i)%nat with (S (p - S i)) by lia.
      cbn [nth_error firstn count_occ]. split; [lia|]. split; [exact H2|].
      destruct (Nat.eq_dec x t); [contradiction|exact H3].
Qed.

Lemma positions_inv t l j p : nth_error (positions t l) j = Some p ->
  nth_error l p = Some t /\ j = cnt (firstn p l) t.
Proof. intros H. apply positions_from_inv in H. rewrite Nat.sub_0_r in H. tauto. Qed.

Lemma positions_rank t l p : nth_error l p = Some t -> nth_error (positions t l) (cnt (firstn p l) t) = Some p.
Proof.
  intros H. apply nth_error_split in H. destruct H as (l1 & l2 & -> & L1).
  rewrite firstn_app, L1, Nat.sub_diag, firstn_O, app_nil_r, firstn_all2 by lia.
  unfold positions. rewrite positions_from_app. cbn [positions_from]. rewrite Nat.eqb_refl.
  rewrite nth_error_app2 by (rewrite positions_from_length; lia).
  rewrite positions_from_length, Nat.sub_diag. cbn. f_equal. lia.
Qed.

Lemma indices_from t l : forall i,
  filter (fun p => match nth_error l (p - i) with Some x => (x =? t)%nat | None => false end) (seq i (length l)) =
  positions_from i t l.
Proof.
  induction l as [|x l IH]; intros i; [reflexivity|]. cbn [length seq filter positions_from].
  rewrite Nat.sub_diag. cbn [nth_error].
  assert (E : filter (fun p => match nth_error (x :: l) (p - i) with Some x => (x =? t)%nat | None => false end) (seq (S i) (length l))
            = positions_from (S i) t l).
  { rewrite <- IH. apply filter_ext_in. intros p Hp. apply in_seq in Hp.
    replace (p - i)%nat with (S (p - S i)) by lia. reflexivity. }
  rewrite E. reflexivity.
Qed.
Lemma indices_positions t l : indices_of t l = positions t l.
Proof.
  unfold positions. rewrite <- indices_from. unfold indices_of. apply filter_ext. intros p.
  rewrite Nat.sub_0_r. reflexivity.
Qed.

(** --- repeated calls --- *)
Lemma shuffle_many_spec k : forall p, (ps_forward_idx p + k <= length (ps_forward p))%nat ->
  exists p', shuffle_many k p = Ok (firstn k (skipn (ps_forward_idx p) (ps_forward p)), p') /\
    ps_forward_idx p' = (ps_forward_idx p + k)%nat /\ ps_forward p' = ps_forward p /\
    ps_backward p' = ps_backward p /\ ps_backward_idx p' = ps_backward_idx p.
Proof.
  induction k as [|k IH]; intros p Hk; cbn [shuffle_many].
  - exists p. rewrite firstn_O, Nat.add_0_r. auto.
  - unfold ps_shuffle_one at 1.
    destruct (get_lt (ps_forward p) (ps_forward_idx p)) as (t & Et & Nt); [lia|]. rewrite Et. cbn [bind fst snd].
    match goal with |- context [shuffle_many k ?q] => destruct (IH q) as (p' & E & F1 & F2 & F3 & F4) end;
      [cbn [ps_forward ps_forward_idx]; lia|].
    rewrite E. cbn [bind fst snd]. cbn [ps_forward ps_forward_idx ps_backward ps_backward_idx] in *.
    exists p'. split; [|repeat split; [lia|assumption..]].
    f_equal. f_equal. rewrite (skipn_nth _ _ _ Nt). reflexivity.
Qed.

Lemma deshuffle_many_spec t row k : forall p i,
  nth_error (ps_backward p) t = Some row -> nth_error (ps_backward_idx p) t = Some i ->
  (i + k <= length row)%nat ->
  exists p', deshuffle_many k t p = Ok (firstn k (skipn i row), p') /\
    nth_error (ps_backward_idx p') t = Some (i + k)%nat /\
    ps_backward p' = ps_backward p.
Proof.
  induction k as [|k IH]; intros p i Hrow Hi Hk; cbn [deshuffle_many].
  - exists p. rewrite firstn_O, Nat.add_0_r. auto.
  - unfold ps_deshuffle_one at 1.
    unfold get at 1. rewrite Hrow. cbn [bind]. unfold get at 1. rewrite Hi. cbn [bind].
    destruct (get_lt row i) as (v & Ev & Nv); [lia|]. rewrite Ev. cbn [bind].
    rewrite set_Ok by (apply nth_error_Some; congruence). cbn [bind fst snd].
    match goal with |- context [deshuffle_many k t ?q] => destruct (IH q (S i)) as (p' & E & F1 & F2) end;
      cbn [ps_backward ps_backward_idx] in *; try assumption; try lia.
    { apply nth_error_upd_eq. apply nth_error_Some. congruence. }
    rewrite E. cbn [bind fst snd]. exists p'.
    split; [|split; [rewrite F1; f_equal; lia|exact F2]].
    f_equal. f_equal. rewrite (skipn_nth _ _ _ Nv). reflexivity.
Qed.

Section Facts.
Variables (M counts : list nat) (N : nat).
Hypothesis HM : par_map_ok M counts N.

Lemma sect_all : forall n, flat_map (sect M counts) (seq 0 n) = firstn (off counts n) M.
Proof.
  destruct HM as (HN & LM & _).
  induction n as [|n IH]; [reflexivity|].
  rewrite seq_S, flat_map_app, IH. cbn [flat_map Nat.add]. rewrite app_nil_r.
  destruct (nth_error counts n) as [c|] eqn:E.
  - rewrite (off_S _ _ _ E). unfold sect. rewrite (nth_error_nth _ _ _ E).
    rewrite <- (firstn_skipn (off counts n) M) at 3.
    assert (Ho : (off counts n <= length M)%nat).
    { rewrite LM. rewrite <- (off_all counts (length counts)) by lia. apply off_mono.
      apply Nat.lt_le_incl. apply nth_error_Some. congruence. }
    rewrite firstn_app, firstn_length, Nat.min_l by exact Ho.
    rewrite (firstn_all2 (n := off counts n + c)%nat) by (rewrite firstn_length; lia).
    f_equal. f_equal. lia.
  - apply nth_error_None in E. unfold sect. rewrite nth_overflow by exact E. cbn [firstn]. rewrite app_nil_r.
    rewrite !off_all by lia. reflexivity.
Qed.

Lemma sum_cnt_sect t : sum (map (fun s => cnt (sect M counts s) t) (seq 0 N)) = cnt M t.
Proof.
  destruct HM as (HN & LM & _).
  assert (H : forall n, sum (map (fun s => cnt (sect M counts s) t) (seq 0 n)) = cnt (firstn (off counts n) M) t).
  { induction n as [|n IH]; [reflexivity|]. rewrite <- sect_all in *.
    rewrite seq_S, map_app, sum_app, IH, flat_map_app, count_occ_app. cbn. rewrite app_nil_r. lia. }
  rewrite H, off_all by lia. rewrite <- LM, firstn_all. reflexivity.
Qed.

Lemma slices_sum total : (0 < N)%nat -> sum (map (slice total N) (seq 0 N)) = total.
Proof.
  intros H0. rewrite <- (ident_length total N H0) at 2. unfold ident.
  generalize (seq 0 N) as l. induction l as [|s l IH]; [reflexivity|].
  cbn [map flat_map]. rewrite app_length, repeat_length, <- IH. reflexivity.
Qed.
End Facts.

Lemma init_all rng seed counts (noise : nat -> nat) (ps : nat -> pshuffler) :
  par_pre rng seed counts ->
  (forall s, (s < length counts)%nat -> ps_initialize rng s (length counts) seed counts (noise s) = Ok (ps s)) ->
  exists M, par_map_ok M counts (length counts) /\
    forall s, (s < length counts)%nat -> ps s = ps_spec M counts (length counts) s (noise s).
Proof.
  intros (Hr & HN & Hs) Hps.
  destruct (ps_initialize_spec rng seed counts (length counts) Hr eq_refl) as (M & HM & HI); [lia|exact Hs|].
  exists M. split; [exact HM|]. intros s Hlt. specialize (Hps s Hlt). rewrite (HI s (noise s) Hlt) in Hps.
  congruence.
Qed.

Lemma c15_ok rng seed counts self noise : par_pre rng seed counts -> (self < length counts)%nat ->
  exists p, ps_initialize rng self (length counts) seed counts noise = Ok p.
Proof.
  intros (Hr & HN & Hs) Hself.
  destruct (ps_initialize_spec rng seed counts (length counts) Hr eq_refl) as (M & HM & HI); [lia|exact Hs|].
  eauto.
Qed.

Lemma c15 rng seed counts (noise : nat -> nat) (ps : nat -> pshuffler) :
  let N := length counts in
  let total := list_sum counts in
  par_pre rng seed counts ->
  (forall s, (s < N)%nat -> ps_initialize rng s N seed counts (noise s) = Ok (ps s)) ->
  (forall s, (s < N - 1)%nat -> ps_slice (ps s) = (total / N)%nat) /\
  ps_slice (ps (N - 1)%nat) = (total - (N - 1) * (total / N))%nat /\
  list_sum (map (fun s => ps_slice (ps s)) (seq 0 N)) = total /\
  (forall s, (s < N)%nat -> exists received,
     map_res (ps_count_from (ps s)) (seq 0 N) = Ok received /\ list_sum received = ps_slice (ps s)).
Proof.
  intros N total Hpre Hps. destruct (init_all _ _ _ _ _ Hpre Hps) as (M & HM & E).
  destruct Hpre as (Hr & HN & Hs). fold N in HN, E.
  split; [|split; [|split]].
  - intros s Hlt. rewrite E by lia. cbn [ps_slice ps_spec]. apply slice_other. lia.
  - rewrite E by lia. cbn [ps_slice ps_spec]. apply slice_last. lia.
  - rewrite (map_ext_in _ (slice total N)).
    + apply slices_sum. lia.
    + intros s Hin. apply in_seq in Hin. rewrite E by lia. reflexivity.
  - intros s Hlt. rewrite E by lia. eexists. split.
    + apply (map_res_Ok _ (fun s' => cnt (sect M counts s') s)). intros s' Hs'. apply in_seq in Hs'.
      unfold ps_count_from. cbn [ps_from ps_spec]. rewrite get_map by lia. reflexivity.
    + cbn [ps_slice ps_spec]. change list_sum with sum. erewrite sum_cnt_sect by exact HM.
      apply HM. exact Hlt.
Qed.

Lemma targets_spec rng seed counts (noise : nat -> nat) (ps : nat -> pshuffler) a M :
  par_map_ok M counts (length counts) ->
  ps a = ps_spec M counts (length counts) a (noise a) ->
  (a < length counts)%nat ->
  par_pre rng seed counts ->
  exists p', shuffle_many (nth a counts O) (ps a) = Ok (sect M counts a, p') /\
    ps_shuffle_one p' = UB.
Proof.
  intros HM E Ha _. destruct HM as (_ & LM & _).
  pose proof (sect_len M counts a LM Ha) as L.
  destruct (shuffle_many_spec (nth a counts O) (ps a)) as (p' & E' & F1 & F2 & _).
  { rewrite E. cbn [ps_forward ps_forward_idx ps_spec]. lia. }
  exists p'. split.
  - rewrite E'. rewrite E. cbn [ps_forward ps_forward_idx ps_spec skipn]. rewrite firstn_all2 by lia. reflexivity.
  - unfold ps_shuffle_one. rewrite F1, F2, E. cbn [ps_forward ps_forward_idx ps_spec].
    unfold get. rewrite (proj2 (nth_error_None _ _)) by lia. reflexivity.
Qed.

Lemma c16 rng seed counts (noise : nat -> nat) (ps : nat -> pshuffler) a b :
  let N := length counts in
  par_pre rng seed counts ->
  (forall s, (s < N)%nat -> ps_initialize rng s N seed counts (noise s) = Ok (ps s)) ->
  (a < N)%nat -> (b < N)%nat ->
  exists n targets p',
    ps_count_to (ps a) b = Ok n /\ ps_count_from (ps b) a = Ok n /\
    shuffle_many (nth a counts O) (ps a) = Ok (targets, p') /\
    count_occ Nat.eq_dec targets b = n /\ Forall (fun t => (t < N)%nat) targets /\
    ps_shuffle_one p' = UB.
Proof.
  intros N Hpre Hps Ha Hb. destruct (init_all _ _ _ _ _ Hpre Hps) as (M & HM & E).
  destruct (targets_spec rng seed counts noise ps a M HM (E a Ha) Ha Hpre) as (p' & Et & Eu).
  exists (cnt (sect M counts a) b), (sect M counts a), p'.
  rewrite (E b Hb). rewrite (E a Ha) at 1. unfold ps_count_to, ps_count_from. cbn [ps_to ps_from ps_spec].
  rewrite !get_map by assumption. repeat split; auto.
  apply Forall_forall. intros x Hx. apply sect_In in Hx. apply HM. exact Hx.
Qed.

(** --- FindSourceOf --- *)
Lemma find_source_spec (g : nat -> nat) N idx :
  (idx < sum (map g (seq 0 N)))%nat ->
  let prefix := map (fun s => sum (map g (seq 0 s))) (seq 0 N) in
  forall n id, (id + n = N)%nat -> (1 <= id)%nat -> (sum (map g (seq 0 (id - 1))) <= idx)%nat ->
  exists s, find_source prefix N n id idx = Ok s /\ (s < N)%nat /\
    (sum (map g (seq 0 s)) <= idx < sum (map g (seq 0 s)) + g s)%nat.
Proof.
  intros Hidx prefix. induction n as [|n IH]; intros id Hn H1 Hle; cbn [find_source].
  - exists (N - 1)%nat. split; [reflexivity|]. split; [lia|].
    replace (id - 1)%nat with (N - 1)%nat in Hle by lia. split; [exact Hle|].
    replace N with (S (N - 1)) in Hidx by lia. rewrite seq_S, map_app, sum_app in Hidx. cbn in Hidx. lia.
  - unfold prefix at 1. rewrite get_map by lia. cbn [bind].
    destruct (Nat.ltb_spec idx (sum (map g (seq 0 id)))) as [L|L].
    + exists (id - 1)%nat. split; [reflexivity|]. split; [lia|]. split; [exact Hle|].
      replace id with (S (id - 1)) in L by lia. rewrite seq_S, map_app, sum_app in L. cbn in L. lia.
    + apply IH; try lia. replace (S id - 1)%nat with id by lia. exact L.
Qed.

Lemma c18 rng seed counts (noise : nat -> nat) (ps : nat -> pshuffler) self idx :
  let N := length counts in
  par_pre rng seed counts ->
  (forall s, (s < N)%nat -> ps_initialize rng s N seed counts (noise s) = Ok (ps s)) ->
  (self < N)%nat -> (idx < ps_slice (ps self))%nat ->
  exists s, ps_find_source (ps self) N idx = Ok s /\ (s < N)%nat /\
    forall s' p c, ps_prefix_from (ps self) s' = Ok p -> ps_count_from (ps self) s' = Ok c ->
      ((p <= idx < p + c)%nat <-> s' = s).
Proof.
  intros N Hpre Hps Hself Hidx. destruct (init_all _ _ _ _ _ Hpre Hps) as (M & HM & E).
  rewrite (E self Hself) in *. cbn [ps_slice ps_spec] in Hidx.
  set (g := fun s => cnt (sect M counts s) self) in *.
  assert (Htot : sum (map g (seq 0 N)) = slice (sum counts) N self).
  { unfold g. erewrite sum_cnt_sect by exact HM. apply HM. exact Hself. }
  unfold ps_find_source, ps_prefix_from, ps_count_from. cbn [ps_prefix ps_from ps_spec]. fold g.
  assert (Hlt : (idx < sum (map g (seq 0 N)))%nat) by (rewrite Htot; exact Hidx).
  destruct (find_source_spec g N idx Hlt (N - 1) 1) as (s & Es & Hs & Hr); [lia|lia|cbn; lia|].
  exists s. split; [exact Es|]. split; [exact Hs|].
  intros s' p c Hp Hc.
  assert (Hs' : (s' < N)%nat).
  { apply get_Ok in Hc. assert (Hl : (s' < length (map g (seq 0 N)))%nat) by (apply nth_error_Some; fold N in Hc; rewrite Hc; discriminate).
    rewrite map_length, seq_length in Hl. exact Hl. }
  fold N in Hp, Hc. rewrite get_map in Hp, Hc by exact Hs'. inversion Hp; inversion Hc; subst p c. clear Hp Hc.
  assert (Mono : forall u v, (u < v)%nat -> (sum (map g (seq 0 u)) + g u <= sum (map g (seq 0 v)))%nat).
  { intros u v Huv. replace v with (u + (1 + (v - u - 1)))%nat by lia.
    rewrite !seq_app, !map_app, !sum_app. cbn [seq map sum fold_right Nat.add]. lia. }
  split; [|intros ->; exact Hr].
  intros H. destruct (Nat.lt_trichotomy s' s) as [L|[L|L]]; [|exact L|]; pose proof (Mono _ _ L); lia.
Qed.

Lemma c19 rng seed counts (noise : nat -> nat) (ps : nat -> pshuffler) a t :
  let N := length counts in
  par_pre rng seed counts ->
  (forall s, (s < N)%nat -> ps_initialize rng s N seed counts (noise s) = Ok (ps s)) ->
  (a < N)%nat -> (t < N)%nat ->
  exists n targets p',
    shuffle_many (nth a counts O) (ps a) = Ok (targets, p') /\
    ps_count_noise_to (ps a) t = Ok n /\
    forall j i, nth_error (indices_of t targets) j = Some i -> ((i < noise a)%nat <-> (j < n)%nat).
Proof.
  intros N Hpre Hps Ha Ht. destruct (init_all _ _ _ _ _ Hpre Hps) as (M & HM & E).
  destruct (targets_spec rng seed counts noise ps a M HM (E a Ha) Ha Hpre) as (p' & Et & _).
  exists (cnt (firstn (noise a) (sect M counts a)) t), (sect M counts a), p'.
  split; [exact Et|]. split.
  { rewrite (E a Ha). unfold ps_count_noise_to. cbn [ps_to_noise ps_spec]. rewrite get_map by exact Ht. reflexivity. }
  intros j i Hj. rewrite indices_positions in Hj. apply positions_inv in Hj. destruct Hj as [Hi ->].
  set (l := sect M counts a) in *. split; intros H.
  - assert (Hc : (cnt (firstn (S i) l) t <= cnt (firstn (noise a) l) t)%nat).
    { rewrite <- (firstn_skipn (S i) (firstn (noise a) l)), firstn_firstn, Nat.min_l by lia.
      rewrite count_occ_app. lia. }
    rewrite (firstn_S_snoc _ _ _ Hi), cnt_snoc, Nat.eqb_refl in Hc. lia.
  - destruct (Nat.lt_ge_cases i (noise a)) as [|G]; [assumption|].
    assert (Hc : (cnt (firstn (noise a) l) t <= cnt (firstn i l) t)%nat).
    { rewrite <- (firstn_skipn (noise a) (firstn i l)), firstn_firstn, Nat.min_l by lia.
      rewrite count_occ_app. lia. }
    lia.
Qed.

(** --- the exchange --- *)
Lemma addressed_nth {A} t : forall (targets : list nat) (msgs : list A) i j p,
  nth_error (positions_from i t targets) j = Some p -> length msgs = length targets ->
  nth_error (addressed_to t targets msgs) j = nth_error msgs (p - i).
Proof.
  induction targets as [|x l IH]; intros [|m msgs] i j p H L; cbn [positions_from] in H; cbn in L; try discriminate.
  - destruct j; discriminate.
  - pose proof (positions_from_inv t (x :: l) i j p) as Hge. cbn [positions_from] in Hge. specialize (Hge H).
    unfold addressed_to in *. cbn [combine filter fst].
    destruct (Nat.eqb_spec x t) as [->|Hx].
    + cbn [map snd]. destruct j as [|j]; cbn [nth_error] in *.
      * inversion H; subst. rewrite Nat.sub_diag. reflexivity.
      * pose proof (positions_from_inv _ _ _ _ _ H) as (Hp & _).
        rewrite (IH msgs (S i) j p H) by lia. replace (p - i)%nat with (S (p - S i)) by lia. reflexivity.
    + pose proof (positions_from_inv _ _ _ _ _ H) as (Hp & _).
      rewrite (IH msgs (S i) j p H) by lia. replace (p - i)%nat with (S (p - S i)) by lia. reflexivity.
Qed.

Lemma addressed_length {A} t (targets : list nat) (msgs : list A) : length msgs = length targets ->
  length (addressed_to t targets msgs) = cnt targets t.
Proof.
  revert msgs; induction targets as [|x l IH]; intros [|m msgs] L; cbn in L; try discriminate; [reflexivity|].
  unfold addressed_to in *. cbn [combine filter fst count_occ].
  destruct (Nat.eqb_spec x t) as [E|E], (Nat.eq_dec x t) as [E'|E']; try contradiction; cbn [map length];
    rewrite IH by lia; reflexivity.
Qed.

Lemma nth_error_flat_map {A} (g : nat -> list A) N a j : (a < N)%nat -> (j < length (g a))%nat ->
  nth_error (flat_map g (seq 0 N)) (sum (map (fun s => length (g s)) (seq 0 a)) + j) = nth_error (g a) j.
Proof.
  intros Ha Hj. replace N with (a + (1 + (N - a - 1)))%nat by lia.
  rewrite seq_app, flat_map_app. cbn [Nat.add].
  assert (L : length (flat_map g (seq 0 a)) = sum (map (fun s => length (g s)) (seq 0 a))).
  { generalize (seq 0 a) as l. induction l as [|x l IH]; [reflexivity|]. cbn. rewrite app_length, IH. reflexivity. }
  rewrite nth_error_app2 by lia. rewrite L. replace (_ + j - _)%nat with j by lia.
  cbn [seq flat_map]. rewrite nth_error_app1 by exact Hj. reflexivity.
Qed.

Lemma flat_map_len {A} (g : nat -> list A) l :
  length (flat_map g l) = sum (map (fun s => length (g s)) l).
Proof. induction l as [|x l IH]; [reflexivity|]. cbn. rewrite app_length, IH. reflexivity. Qed.

(** Undoing a local shuffle around a pointwise function. *)
Lemma placed_roundtrip {A B} (f : A -> B) rng seed n s (src out : list A) (reply : list B) :
  (forall k, 0 <= rng seed k <= 2 ^ 31 - 1) -> Z.of_nat n < 2 ^ 32 ->
  ls_initialize rng seed n = Ok s -> length src = n ->
  placed (ls_shuffle s) src out -> placed (ls_deshuffle s) (map f out) reply ->
  reply = map f src.
Proof.
  intros Hr Hn E L [Lo Po] [Lr Pr].
  destruct (c13 rng seed n Hr Hn) as (s' & E' & Bij). rewrite E in E'. inversion E'; subst s'. clear E'.
  rewrite map_length in Lr.
  apply nth_error_ext. intros i.
  destruct (Nat.lt_ge_cases i n) as [Hi|Hi].
  - destruct (nth_error src i) as [x|] eqn:Ex; [|apply nth_error_None in Ex; lia].
    destruct (Po i x Ex) as (j & Ej & Nj).
    destruct (Bij i Hi) as ((j' & _ & Ej' & Eb) & _). rewrite Ej in Ej'. inversion Ej'; subst j'.
    rewrite nth_error_map, Ex. cbn [option_map].
    destruct (Pr j (f x)) as (i' & Ei' & Ni'); [rewrite nth_error_map, Nj; reflexivity|].
    rewrite Eb in Ei'. inversion Ei'; subst. exact Ni'.
  - rewrite !(proj2 (nth_error_None _ _)); [reflexivity| |]; rewrite ?map_length; lia.
Qed.

Lemma c17 {A B} (f : A -> B) rng seed (lseeds : nat -> Z) (inputs : list (list A)) (noise : nat -> nat)
    (ps : nat -> pshuffler) (ls : nat -> lshuffler) :
  let N := length inputs in
  let counts := map (@length A) inputs in
  par_pre rng seed counts ->
  (forall s k, 0 <= rng (lseeds s) k <= 2 ^ 31 - 1) ->
  (forall s, (s < N)%nat -> ps_initialize rng s N seed counts (noise s) = Ok (ps s)) ->
  (forall s, (s < N)%nat -> ls_initialize rng (lseeds s) (ps_slice (ps s)) = Ok (ls s)) ->
  exists targets : nat -> list nat,
    (forall a, (a < N)%nat -> exists p', shuffle_many (nth a counts O) (ps a) = Ok (targets a, p')) /\
    let recv b := flat_map (fun a => addressed_to b (targets a) (nth a inputs [])) (seq 0 N) in
    forall (out : nat -> list A) (reply : nat -> list B),
    (forall b, (b < N)%nat -> length (recv b) = ps_slice (ps b) /\
       placed (ls_shuffle (ls b)) (recv b) (out b) /\
       placed (ls_deshuffle (ls b)) (map f (out b)) (reply b)) ->
    forall a final, (a < N)%nat ->
      (length final = nth a counts O /\
       forall t, (t < N)%nat -> exists idxs p' start n,
         deshuffle_many n t (ps a) = Ok (idxs, p') /\
         ps_count_to (ps a) t = Ok n /\ ps_count_from (ps t) a = Ok n /\ ps_prefix_from (ps t) a = Ok start /\
         let section := firstn n (skipn start (reply t)) in
         length section = n /\
         forall j i x, nth_error idxs j = Some i -> nth_error section j = Some x -> nth_error final i = Some x)
      <-> final = map f (nth a inputs []).
Proof.
  intros N counts Hpre Hlr Hps Hls.
  assert (LN : length counts = N) by (unfold counts; apply map_length).
  destruct (init_all rng seed counts noise ps Hpre) as (M & HM & E).
  { rewrite LN. exact Hps. }
  rewrite LN in *.
  exists (sect M counts). split.
  { intros a Ha. destruct (targets_spec rng seed counts noise ps a M) as (p' & Et & _); rewrite ?LN; eauto. }
  intros recv out reply Hb a final Ha.
  destruct HM as (_ & LM & HlM & HcM).
  assert (Linp : forall s, (s < N)%nat -> length (nth s inputs []) = length (sect M counts s)).
  { intros s Hs. rewrite sect_len by (rewrite ?LN; assumption). unfold counts.
    rewrite <- (map_nth (@length A) inputs [] s). reflexivity. }
  assert (Hrep : forall t, (t < N)%nat -> reply t = map f (recv t)).
  { intros t Ht. destruct (Hb t Ht) as (L1 & P1 & P2).
    eapply (placed_roundtrip f rng (lseeds t)); [apply Hlr| |apply Hls; exact Ht|exact L1|exact P1|exact P2].
    rewrite E by exact Ht. cbn [ps_slice ps_spec].
    assert (HN0 : (0 < N)%nat) by lia.
    pose proof (HcM t Ht) as Hc. pose proof (count_occ_bound Nat.eq_dec t M) as Hbd.
    destruct Hpre as (_ & _ & Hs). change (list_sum counts) with (sum counts) in Hs. lia. }
  assert (Hto : forall t, (t < N)%nat -> ps_count_to (ps a) t = Ok (cnt (sect M counts a) t)).
  { intros t Ht. rewrite E by exact Ha. unfold ps_count_to. cbn [ps_to ps_spec]. rewrite get_map by exact Ht. reflexivity. }
  assert (Hfrom : forall t, (t < N)%nat -> ps_count_from (ps t) a = Ok (cnt (sect M counts a) t)).
  { intros t Ht. rewrite E by exact Ht. unfold ps_count_from. cbn [ps_from ps_spec]. rewrite get_map by exact Ha. reflexivity. }
  assert (Hpf : forall t, (t < N)%nat -> ps_prefix_from (ps t) a = Ok (sum (map (fun s => cnt (sect M counts s) t) (seq 0 a)))).
  { intros t Ht. rewrite E by exact Ht. unfold ps_prefix_from. cbn [ps_prefix ps_spec]. rewrite get_map by exact Ha. reflexivity. }
  assert (Hdm : forall t, (t < N)%nat -> exists p', deshuffle_many (cnt (sect M counts a) t) t (ps a) =
      Ok (positions t (sect M counts a), p')).
  { intros t Ht. destruct (deshuffle_many_spec t (positions t (sect M counts a)) (cnt (sect M counts a) t) (ps a) 0) as (p' & Ed & _).
    - rewrite E by exact Ha. cbn [ps_backward ps_spec]. rewrite nth_error_map_seq by exact Ht. reflexivity.
    - rewrite E by exact Ha. cbn [ps_backward_idx ps_spec].
      rewrite nth_error_nth' with (d := O) by (rewrite repeat_length; exact Ht). rewrite nth_repeat. reflexivity.
    - rewrite positions_length. lia.
    - exists p'. rewrite Ed. cbn [skipn]. rewrite firstn_all2 by (rewrite positions_length; lia). reflexivity. }
  (* the section of a in t's reply *)
  assert (Hsec : forall t, (t < N)%nat ->
    let start := sum (map (fun s => cnt (sect M counts s) t) (seq 0 a)) in
    let n := cnt (sect M counts a) t in
    firstn n (skipn start (reply t)) = map f (addressed_to t (sect M counts a) (nth a inputs []))).
  { intros t Ht start n. rewrite Hrep by exact Ht. rewrite skipn_map, firstn_map. f_equal.
    assert (Hg : forall s, (s < N)%nat -> length (addressed_to t (sect M counts s) (nth s inputs [])) = cnt (sect M counts s) t).
    { intros s Hs. apply addressed_length. apply Linp. exact Hs. }
    apply nth_error_ext. intros j. rewrite nth_error_firstn, nth_error_skipn.
    destruct (Nat.ltb_spec j n) as [L|L].
    - unfold recv.
      assert (Est : start = sum (map (fun s => length (addressed_to t (sect M counts s) (nth s inputs []))) (seq 0 a))).
      { unfold start. f_equal. apply map_ext_in. intros s Hs. apply in_seq in Hs. rewrite Hg by lia. reflexivity. }
      rewrite Est. apply (nth_error_flat_map (fun s => addressed_to t (sect M counts s) (nth s inputs []))); [exact Ha|].
      rewrite Hg by exact Ha. exact L.
    - symmetry. apply nth_error_None. rewrite Hg by exact Ha. exact L. }
  assert (La : nth a counts O = length (nth a inputs [])).
  { rewrite Linp, sect_len by (rewrite ?LN; assumption). reflexivity. }
  split.
  - intros [Lf Hall]. apply nth_error_ext. intros i.
    destruct (Nat.lt_ge_cases i (nth a counts O)) as [Hi|Hi].
    + destruct (nth_error (sect M counts a) i) as [t|] eqn:Et.
      2:{ apply nth_error_None in Et. rewrite <- Linp in Et by exact Ha. lia. }
      assert (Ht : (t < N)%nat) by (apply HlM; eapply sect_In; eapply nth_error_In; exact Et).
      destruct (Hall t Ht) as (idxs & p' & start & n & Ed & En & _ & Es & Lsec & Hp).
      rewrite Hto in En by exact Ht. inversion En; subst n. rewrite Hpf in Es by exact Ht. inversion Es; subst start.
      destruct (Hdm t Ht) as (p'' & Ed'). rewrite Ed in Ed'. inversion Ed'; subst idxs.
      pose proof (positions_rank t _ _ Et) as Hr.
      pose proof (Hsec t Ht) as Hs. cbv zeta in Hs.
      destruct (nth_error (nth a inputs []) i) as [x|] eqn:Ex; [|apply nth_error_None in Ex; lia].
      rewrite nth_error_map, Ex. cbn [option_map].
      eapply Hp; [exact Hr|]. cbv zeta. rewrite Hs, nth_error_map.
      erewrite addressed_nth; [|exact Hr|apply Linp; exact Ha]. rewrite Nat.sub_0_r, Ex. reflexivity.
    + rewrite !(proj2 (nth_error_None _ _)); [reflexivity| |]; rewrite ?map_length; lia.
  - intros ->. split; [rewrite map_length; lia|]. intros t Ht.
    destruct (Hdm t Ht) as (p' & Ed).
    exists (positions t (sect M counts a)), p', (sum (map (fun s => cnt (sect M counts s) t) (seq 0 a))), (cnt (sect M counts a) t).
    split; [exact Ed|]. split; [apply Hto; exact Ht|]. split; [apply Hfrom; exact Ht|]. split; [apply Hpf; exact Ht|].
    cbv zeta. pose proof (Hsec t Ht) as Hs. cbv zeta in Hs. rewrite Hs. split.
    + rewrite map_length. apply addressed_length. apply Linp. exact Ha.
    + intros j i x Hj Hx. rewrite nth_error_map in *.
      erewrite addressed_nth in Hx; [|exact Hj|apply Linp; exact Ha]. rewrite Nat.sub_0_r in Hx. exact Hx.
Qed.
