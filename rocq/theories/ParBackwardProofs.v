(** The way back through a party with several servers. *)
From Verif Require Import Base BaseProofs Wire WireProofs Additive AdditiveProofs Shuffle ShuffleProofs ParShuffle
  ParShuffleProofs ParShuffleFacts State Handlers Batch Party Parallel Spec OnlineProofs ParMergeProofs ParForwardProofs.

Lemma fold_inv {A S} (f : S -> A -> res S) (Inv : nat -> S -> Prop) (full : list A) :
  (forall r st x, Inv r st -> nth_error full r = Some x -> exists st', f st x = Ok st' /\ Inv (Datatypes.S r) st') ->
  forall st, Inv 0%nat st -> exists st', fold_res f full st = Ok st' /\ Inv (length full) st'.
Proof.
  intros Hs. assert (G : forall l k, (k <= length full)%nat -> skipn k full = l -> forall st, Inv k st ->
    exists st', fold_res f l st = Ok st' /\ Inv (length full) st').
  { induction l as [|x l IH]; intros k Hk E st I.
    - exists st. split; [reflexivity|]. assert (L : length (skipn k full) = 0%nat) by (rewrite E; reflexivity).
      rewrite skipn_length in L. replace (length full) with k by lia. exact I.
    - assert (Nx : nth_error full k = Some x).
      { replace k with (k + 0)%nat by lia. rewrite <- nth_error_skipn, E. reflexivity. }
      assert (Hlt : (k < length full)%nat) by (apply nth_error_Some; congruence).
      destruct (Hs k st x I Nx) as (st1 & E1 & I1). cbn [fold_res]. rewrite E1. cbn [bind].
      apply (IH (Datatypes.S k)); [lia| |exact I1]. rewrite (skipn_nth _ _ _ Nx) in E. congruence. }
  intros st I. apply (G full 0%nat); [lia|reflexivity|exact I].
Qed.

Lemma sum_cnt l : forall N, (forall x, In x l -> (x < N)%nat) -> sum (map (cnt l) (seq 0 N)) = length l.
Proof.
  induction l as [|a l IH]; intros N H; cbn [length].
  - rewrite map_zero by reflexivity. generalize N as n. induction n; [reflexivity|exact IHn].
  - rewrite <- (IH N) by (intros x Hx; apply H; right; exact Hx).
    assert (Ha : (a < N)%nat) by (apply H; left; reflexivity).
    assert (E : forall s, cnt (a :: l) s = ((if (s =? a)%nat then 1 else 0) + cnt l s)%nat).
    { intros s. cbn [count_occ]. destruct (Nat.eq_dec a s), (Nat.eqb_spec s a); subst; try contradiction; lia. }
    rewrite (sum_ext _ (fun s => ((if (s =? a)%nat then 1 else 0) + cnt l s)%nat)) by (intros; apply E).
    pose proof (sum_except (fun s => ((if (s =? a)%nat then 1 else 0) + cnt l s)%nat) a N Ha) as E1.
    pose proof (sum_except (cnt l) a N Ha) as E2.
    rewrite (sum_ext _ (fun s => if (s =? a)%nat then 0%nat else cnt l s)) in E1
      by (intros x _; destruct (x =? a)%nat; reflexivity).
    rewrite E2 in E1. rewrite Nat.eqb_refl in E1.
    pose proof (sum_seq_lt (fun s => ((if (s =? a)%nat then 1 else 0) + cnt l s)%nat) a N Ha) as E3.
    pose proof (sum_seq_lt (cnt l) a N Ha) as E4. cbn beta in E3. rewrite Nat.eqb_refl in E3. lia.
Qed.

(** Splitting consecutive sections apart. *)
Lemma addressed_app {A} t (l1 l2 : list nat) (m1 m2 : list A) : length l1 = length m1 ->
  addressed_to t (l1 ++ l2) (m1 ++ m2) = addressed_to t l1 m1 ++ addressed_to t l2 m2.
Proof.
  revert m1; induction l1 as [|x l1 IH]; intros [|y m1] L; cbn in L; try discriminate; [reflexivity|].
  unfold addressed_to in *. cbn [app combine filter fst]. destruct (x =? t)%nat; cbn [map app]; rewrite IH by lia; reflexivity.
Qed.
Lemma addressed_repeat {A} t s n (m : list A) : length m = n ->
  addressed_to t (repeat s n) m = if (s =? t)%nat then m else [].
Proof.
  intros <-. induction m as [|x m IH]; cbn [length repeat].
  - destruct (s =? t)%nat; reflexivity.
  - unfold addressed_to in *. cbn [combine filter fst]. destruct (s =? t)%nat; cbn [map snd]; [f_equal|]; exact IH.
Qed.
Lemma addressed_sections {A} (f : nat -> list A) (g : nat -> nat) t n : forall i,
  (forall s, (i <= s < i + n)%nat -> length (f s) = g s) ->
  addressed_to t (flat_map (fun s => repeat s (g s)) (seq i n)) (flat_map f (seq i n)) =
  if (i <=? t)%nat && (t <? i + n)%nat then f t else [].
Proof.
  induction n as [|n IH]; intros i H; cbn [seq flat_map].
  - destruct (Nat.leb_spec i t), (Nat.ltb_spec t (i + 0)); try lia; reflexivity.
  - rewrite addressed_app by (rewrite repeat_length, H by lia; reflexivity).
    rewrite addressed_repeat by (apply H; lia). rewrite IH by (intros; apply H; lia).
    destruct (Nat.eqb_spec i t), (Nat.leb_spec i t), (Nat.ltb_spec t (i + S n)), (Nat.leb_spec (S i) t),
      (Nat.ltb_spec t (S i + n)); cbn [andb]; subst; try lia; rewrite ?app_nil_r; reflexivity.
Qed.

Lemma owners_length (g : nat -> nat) n : length (flat_map (fun s => repeat s (g s)) (seq 0 n)) = sum (map g (seq 0 n)).
Proof. rewrite flat_map_len. apply sum_ext. intros s _. apply repeat_length. Qed.
Lemma owners_nth (g : nat -> nat) n i s : nth_error (flat_map (fun s => repeat s (g s)) (seq 0 n)) i = Some s ->
  (s < n)%nat /\ (sum (map g (seq 0 s)) <= i < sum (map g (seq 0 (S s))))%nat.
Proof.
  intros H. assert (Hi : (i < sum (map g (seq 0 n)))%nat) by (rewrite <- owners_length; apply nth_error_Some; congruence).
  destruct (section_find g i n Hi) as (s' & r & Hs & Hr & ->).
  pose proof (nth_error_flat_map (fun s => repeat s (g s)) n s' r Hs) as E. cbn beta in E. rewrite repeat_length in E. specialize (E Hr).
  rewrite (sum_ext (fun s => length (repeat s (g s))) g) in E by (intros; apply repeat_length).
  rewrite H in E. symmetry in E. apply nth_error_In in E. apply repeat_spec in E. subst s'.
  split; [exact Hs|]. rewrite sum_seq_S. lia.
Qed.

(** ** DeshuffleOne, skipping noise *)
Lemma skip_noise_spec source noise row : forall fuel p k m v,
  nth_error (ps_backward p) source = Some row -> nth_error (ps_backward_idx p) source = Some k ->
  (k <= m)%nat -> (m - k <= fuel)%nat -> nth_error row m = Some v -> (noise <= Z.of_nat v) ->
  (forall i u, (k <= i < m)%nat -> nth_error row i = Some u -> Z.of_nat u < noise) ->
  exists p', skip_noise fuel p source noise = Ok (v, p') /\ ps_backward p' = ps_backward p /\
    ps_backward_idx p' = upd (ps_backward_idx p) source (S m).
Proof.
  assert (Hm : forall f p k u, nth_error (ps_backward p) source = Some row ->
     nth_error (ps_backward_idx p) source = Some k -> nth_error row k = Some u ->
     exists p1, ps_deshuffle_one p source = Ok (u, p1) /\ ps_backward p1 = ps_backward p /\
       ps_backward_idx p1 = upd (ps_backward_idx p) source (S k) /\
       skip_noise f p source noise = if Z.of_nat u <? noise then match f with O => NoFuel | S f => skip_noise f p1 source noise end
                                     else Ok (u, p1)).
  { intros f p k u Hrow Hk Nu.
    assert (E : exists p1, ps_deshuffle_one p source = Ok (u, p1) /\ ps_backward p1 = ps_backward p /\
       ps_backward_idx p1 = upd (ps_backward_idx p) source (S k)).
    { unfold ps_deshuffle_one. unfold get at 1. rewrite Hrow. cbn [bind]. unfold get at 1. rewrite Hk. cbn [bind].
      unfold get. rewrite Nu. cbn [bind]. rewrite set_Ok by (apply nth_error_Some; congruence). cbn [bind].
      eexists. split; [reflexivity|]. split; reflexivity. }
    destruct E as (p1 & E1 & E2 & E3). exists p1. repeat (split; [assumption|]).
    destruct f; cbn [skip_noise]; rewrite E1; reflexivity. }
  induction fuel as [|fuel IH]; intros p k m v Hrow Hk Hkm Hf Nv Hv Hlow.
  - assert (k = m) by lia. subst k. destruct (Hm 0%nat p m v Hrow Hk Nv) as (p1 & _ & E2 & E3 & ->).
    destruct (Z.ltb_spec (Z.of_nat v) noise); [lia|]. exists p1. auto.
  - destruct (Nat.eq_dec k m) as [->|Hne].
    + destruct (Hm (S fuel) p m v Hrow Hk Nv) as (p1 & _ & E2 & E3 & ->).
      destruct (Z.ltb_spec (Z.of_nat v) noise); [lia|]. exists p1. auto.
    + assert (Hlt : (m < length row)%nat) by (apply nth_error_Some; congruence).
      destruct (get_lt row k) as (u & _ & Nu); [lia|].
      destruct (Hm (S fuel) p k u Hrow Hk Nu) as (p1 & _ & E2 & E3 & ->).
      pose proof (Hlow k u ltac:(lia) Nu). destruct (Z.ltb_spec (Z.of_nat u) noise); [|lia].
      destruct (IH p1 (S k) m v) as (p' & E & F1 & F2); auto; try lia.
      * rewrite E2. exact Hrow.
      * rewrite E3. apply nth_error_upd_eq. apply nth_error_Some. congruence.
      * intros i w Hi. apply Hlow. lia.
      * exists p'. split; [exact E|]. rewrite F1, F2, E2, E3. split; [reflexivity|].
        assert (Huu : forall (l : list nat) i a b, upd (upd l i a) i b = upd l i b).
        { induction l as [|h l IHl]; intros [|i] a b; cbn [upd]; try reflexivity. rewrite IHl. reflexivity. }
        apply Huu.
Qed.

Section Backward.
Variables (M counts : list nat) (N : nat) (noise : nat -> nat) (ls : nat -> lshuffler).
Hypothesis HM : par_map_ok M counts N.
Hypothesis HN : (2 <= N)%nat.
Hypothesis Hsum : Z.of_nat (sum counts) < 2 ^ 32.
Hypothesis Hls : forall t, (t < N)%nat -> ls_ok (size counts N t) (ls t).
Hypothesis Hnoise : forall a, (a < N)%nat -> (noise a <= nth a counts 0)%nat.
Notation tgt := (tgt M counts).
Notation from := (from M counts).
Notation pre := (pre M counts).
Notation size := (size counts N).
Notation shuf := (shuf M counts N noise ls).
Notation rank := (rank M counts).
Notation pos := (pos M counts ls).
Notation nfrom := (nfrom M counts noise).

Definition g (t s : nat) : nat := (from t s - nfrom t s)%nat.
Definition gpre (t s : nat) : nat := sum (map (g t) (seq 0 s)).
(** What t returns to s, out of the responses u in the order of arrival. *)
Definition sec {A} (t s : nat) (u : list A) : list A := skipn (nfrom t s) (firstn (from t s) (skipn (pre t s) u)).
Definition owners (t : nat) : list nat := flat_map (fun s => repeat s (g t s)) (seq 0 N).

Lemma nfrom_le t s : (nfrom t s <= from t s)%nat.
Proof. apply cnt_firstn_le. Qed.
Lemma gpre_sub t s : gpre t s = (pre t s - sum (map (nfrom t) (seq 0 s)))%nat.
Proof. apply sum_sub. intros. apply nfrom_le. Qed.
Lemma npre_le t s : (sum (map (nfrom t) (seq 0 s)) <= pre t s)%nat.
Proof. apply sum_le. intros. apply nfrom_le. Qed.
Lemma sec_length {A} t s (u : list A) : (t < N)%nat -> (s < N)%nat -> length u = size t -> length (sec t s u) = g t s.
Proof using All.
  intros Ht Hs L. unfold sec. rewrite skipn_length, firstn_length, skipn_length, L.
  pose proof (pre_from_le M counts N noise ls HM HN Hsum Hls t s Ht Hs). unfold g. lia.
Qed.
Lemma sec_nth {A} t s (u : list A) r : (r < g t s)%nat -> nth_error (sec t s u) r = nth_error u (pre t s + (nfrom t s + r)).
Proof using All.
  intros Hr. unfold sec, g in *. rewrite nth_error_skipn, nth_error_firstn.
  destruct (Nat.ltb_spec (nfrom t s + r) (from t s)); [|lia]. rewrite nth_error_skipn. f_equal; lia.
Qed.
Lemma all_sec_length {A} t (u : list A) : (t < N)%nat -> length u = size t ->
  length (flat_map (fun s => sec t s u) (seq 0 N)) = gpre t N.
Proof using All.
  intros Ht L. rewrite flat_map_len. apply sum_ext. intros s Hs. apply in_seq in Hs. apply sec_length; [exact Ht|lia|exact L].
Qed.
Lemma gpre_small t : (t < N)%nat -> (gpre t N <= size t)%nat.
Proof using All.
  intros Ht. rewrite gpre_sub. unfold ParForwardProofs.pre.
  rewrite (from_sum M counts N noise ls HM HN Hsum Hls t Ht). lia.
Qed.

Lemma collect_responses_spec rp t sent (d : list Z) : (t < N)%nat -> length sent = size t ->
  pr_sh rp = shuf t -> pr_shuffled rp = Z.of_nat (size t) ->
  exists b, collect_responses N rp sent = Ok b /\
    bt_data b = flat_map (fun s => sec t s (pick d sent (ls_forward (ls t)))) (seq 0 N).
Proof using All.
  intros Ht Ls Esh Esz. set (u := pick d sent (ls_forward (ls t))).
  assert (Lu : length u = size t).
  { unfold u, pick. rewrite map_length. apply (Hls t Ht). }
  unfold collect_responses. rewrite Esh, Esz.
  cbn [ParForwardProofs.shuf sh_noisep sh_ls sh_ps sh_noise].
  rewrite get_map by lia. cbn [bind]. replace (S (N - 1)) with N by lia.
  rewrite Nat2Z.id, recv_all by exact Ls. cbn [bind].
  pose proof (size_lt M counts N noise ls HM HN Hsum Hls t Ht) as Hsz.
  pose proof (gpre_small t Ht) as Hgs. pose proof (gpre_sub t N) as Hgn.
  pose proof (npre_le t N) as Hnp. unfold ParForwardProofs.pre in Hgn, Hnp.
  rewrite (from_sum M counts N noise ls HM HN Hsum Hls t Ht) in Hgn, Hnp.
  assert (En : Z.to_nat (w32 (Z.of_nat (size t) - Z.of_nat (sum (map (nfrom t) (seq 0 N))))) = gpre t N).
  { rewrite w32_id by (unfold u32; lia). lia. }
  rewrite En.
  destruct (fold_inv (fun s resp =>
    let '(read, out) := s in
    let* target := ls_deshuffle (ls t) read in
    let* source := ps_find_source (sh_ps (shuf t)) N target in
    let* start := ps_prefix_from (sh_ps (shuf t)) source in
    let* n := get (map (nfrom t) (seq 0 N)) source in
    if (start + n <=? target)%nat then
      let* np := get (map (fun s => sum (map (nfrom t) (seq 0 (S s)))) (seq 0 N)) source in
      let* out' := bt_set out (target - np) resp in
      Ok (S read, out')
    else Ok (S read, out))
    (fun r st => fst st = r /\ length (bt_data (snd st)) = gpre t N /\
       forall s o i, (s < N)%nat -> (o < g t s)%nat -> ls_shuffle (ls t) (pre t s + (nfrom t s + o)) = Ok i -> (i < r)%nat ->
         nth_error (bt_data (snd st)) (gpre t s + o) = nth_error sent i) sent) with (st := (0%nat, bt_initialize zero_response (gpre t N)))
    as ((read & b) & E & E1 & E2 & E3).
  - intros r (read & b) x (Hr & Lb & Hb) Nx. cbn [fst snd] in *. subst read.
    assert (Hlt : (r < size t)%nat) by (rewrite <- Ls; apply nth_error_Some; congruence).
    destruct (ls_ok_bwd (size t) (ls t) r (Hls t Ht) Hlt) as (i & Hi & Ei & Ni). rewrite Ei. cbn [bind].
    pose proof Hi as Hi'. rewrite <- (from_sum M counts N noise ls HM HN Hsum Hls t Ht) in Hi'.
    unfold ps_find_source. cbn [ParForwardProofs.shuf sh_ps ps_prefix ps_spec].
    destruct (find_source_spec (from t) N i Hi' (N - 1) 1) as (s & Es & Hs & Hrange); [lia|lia|cbn; lia|].
    match goal with |- context [find_source ?a ?b ?c ?d ?e] => replace (find_source a b c d e) with (Ok s) by (symmetry; exact Es) end.
    cbn [bind].
    pose proof (get_prefix M counts N noise ls HM HN Hsum Hls t s Hs) as Gp.
    cbn [ParForwardProofs.shuf sh_ps] in Gp. rewrite Gp. cbn [bind].
    rewrite !get_map by exact Hs.
    change (sum (map (from t) (seq 0 s))) with (pre t s) in Hrange. cbn [bind].
    assert (Epos : forall s' o i', (s' < N)%nat -> (o < g t s')%nat -> ls_shuffle (ls t) (pre t s' + (nfrom t s' + o)) = Ok i' ->
       i' = r -> s' = s /\ (nfrom t s' + o = i - pre t s)%nat).
    { intros s' o i' Hs' Ho Es' ->. apply get_Ok in Es'.
      destruct (Hls t Ht) as (_ & _ & _ & _ & Hinv). apply Hinv in Es'.
      apply get_Ok in Ei. rewrite Es' in Ei. inversion Ei as [Eq].
      pose proof (nfrom_le t s'). unfold g in Ho.
      destruct (section_unique (from t) s' s (nfrom t s' + o) (i - pre t s)) as (E1 & E2); [lia|lia| |].
      - change (sum (map (from t) (seq 0 s'))) with (pre t s'). change (sum (map (from t) (seq 0 s))) with (pre t s). lia.
      - split; [exact E1|lia]. }
    destruct (Nat.leb_spec (pre t s + nfrom t s) i) as [Hge|Hlow].
    + pose proof (sum_seq_S (nfrom t) s) as HS. pose proof (npre_le t s) as Hns.
      assert (Hidx : (i - sum (map (nfrom t) (seq 0 (S s))) = gpre t s + (i - pre t s - nfrom t s))%nat).
      { rewrite gpre_sub. lia. }
      assert (Hin : (i - pre t s - nfrom t s < g t s)%nat) by (unfold g; lia).
      assert (Hbound : (gpre t s + (i - pre t s - nfrom t s) < gpre t N)%nat).
      { pose proof (sum_seq_lt (g t) s N Hs) as Hq. unfold gpre. lia. }
      unfold bt_set. rewrite Hidx. rewrite set_Ok by lia. cbn [bind].
      eexists. split; [reflexivity|]. cbn [fst snd bt_data]. split; [reflexivity|]. split; [rewrite length_upd; exact Lb|].
      intros s' o i' Hs' Ho Es' Hi2.
      destruct (Nat.eq_dec i' r) as [->|Hne].
      * destruct (Epos s' o r Hs' Ho Es' eq_refl) as (-> & Eo).
        replace o with (i - pre t s - nfrom t s)%nat by lia. rewrite nth_error_upd_eq by lia. symmetry. exact Nx.
      * rewrite nth_error_upd_ne; [apply (Hb s' o i'); auto; lia|]. intros Eq.
        destruct (section_unique (g t) s s' (i - pre t s - nfrom t s) o Hin Ho Eq) as (<- & <-).
        replace (pre t s + (nfrom t s + (i - pre t s - nfrom t s)))%nat with i in Es' by lia.
        apply get_Ok in Es'. rewrite Es' in Ni. congruence.
    + cbn [bind]. eexists. split; [reflexivity|]. cbn [fst snd]. split; [reflexivity|]. split; [exact Lb|].
      intros s' o i' Hs' Ho Es' Hi2.
      destruct (Nat.eq_dec i' r) as [->|Hne].
      * destruct (Epos s' o r Hs' Ho Es' eq_refl) as (-> & Eo). lia.
      * apply (Hb s' o i'); auto. lia.
  - cbn [fst snd]. split; [reflexivity|]. split; [apply repeat_length|]. intros; lia.
  - match goal with |- exists b, bind ?x _ = _ /\ _ => replace x with (Ok (A := nat * batch (list Z)) (read, b)) by (symmetry; exact E) end.
    cbn [bind snd]. exists b. split; [reflexivity|]. cbn [fst snd] in *.
    apply nth_error_ext. intros i. destruct (Nat.lt_ge_cases i (gpre t N)) as [Hi|Hi].
    + destruct (section_find (g t) i N Hi) as (s & o & Hs & Ho & ->).
      change (sum (map (g t) (seq 0 s))) with (gpre t s).
      pose proof (pre_from_le M counts N noise ls HM HN Hsum Hls t s Ht Hs) as Hpf.
      destruct (ls_ok_fwd (size t) (ls t) (pre t s + (nfrom t s + o)) (Hls t Ht)) as (j & Hj & Ej & _); [unfold g in Ho; lia|].
      rewrite (E3 s o j Hs Ho Ej) by lia.
      unfold gpre. rewrite (sum_ext (g t) (fun s => length (sec t s u)) (seq 0 s)).
      2:{ intros x Hx. apply in_seq in Hx. symmetry. apply sec_length; [exact Ht|lia|exact Lu]. }
      rewrite (nth_error_flat_map (fun s => sec t s u) N s o Hs) by (rewrite sec_length; assumption).
      rewrite sec_nth by exact Ho. unfold u. apply get_Ok in Ej.
      destruct (get_lt sent j) as (x & _ & Nx); [lia|]. rewrite Nx. symmetry.
      eapply pick_nth; [exact Ej|exact Nx].
    + rewrite !(proj2 (nth_error_None _ _)); [reflexivity| |]; rewrite ?all_sec_length by assumption; lia.
Qed.

Lemma target_end_spec t s : (t < N)%nat -> (s < N - 1)%nat -> target_end (shuf t) s = Ok (Z.of_nat (gpre t (S s))).
Proof using All.
  intros Ht Hs. unfold target_end.
  rewrite (get_prefix M counts N noise ls HM HN Hsum Hls t (s + 1)) by lia. cbn [bind].
  cbn [ParForwardProofs.shuf sh_noisep]. rewrite get_map by lia. cbn [bind].
  replace (s + 1)%nat with (S s) by lia. f_equal.
  pose proof (gpre_sub t (S s)) as Hg. pose proof (npre_le t (S s)) as Hn.
  pose proof (sum_seq_le (from t) (S s) N ltac:(lia)) as Hp.
  rewrite (from_sum M counts N noise ls HM HN Hsum Hls t Ht) in Hp.
  pose proof (size_lt M counts N noise ls HM HN Hsum Hls t Ht) as Hz.
  change (sum (map (from t) (seq 0 (S s)))) with (pre t (S s)) in Hp.
  rewrite w32_id by (unfold u32; lia). lia.
Qed.

Lemma seek_spec t i s : (t < N)%nat -> (s < N)%nat -> (gpre t s <= i < gpre t (S s))%nat ->
  forall fuel target end_, (target <= s)%nat -> (s - target <= fuel)%nat ->
  ((target < N - 1)%nat -> end_ = Z.of_nat (gpre t (S target))) ->
  exists e, seek (shuf t) N fuel (Z.of_nat i) target end_ = Ok (s, e) /\ ((s < N - 1)%nat -> e = Z.of_nat (gpre t (S s))).
Proof using All.
  intros Ht Hs Hi. induction fuel as [|fuel IH]; intros target end_ Htg Hf He.
  - assert (target = s) by lia. subst target. cbn [seek].
    destruct (Nat.ltb_spec s (N - 1)) as [L|L].
    + rewrite He by exact L. destruct (Z.leb_spec (Z.of_nat (gpre t (S s))) (Z.of_nat i)); [lia|]. cbn [andb]. eauto.
    + rewrite andb_false_r. exists end_. split; [reflexivity|lia].
  - cbn [seek]. destruct (Nat.eq_dec target s) as [->|Hne].
    + destruct (Nat.ltb_spec s (N - 1)) as [L|L].
      * rewrite He by exact L. destruct (Z.leb_spec (Z.of_nat (gpre t (S s))) (Z.of_nat i)); [lia|]. cbn [andb]. eauto.
      * rewrite andb_false_r. exists end_. split; [reflexivity|lia].
    + destruct (Nat.ltb_spec target (N - 1)) as [L|L]; [|lia].
      rewrite He by exact L.
      assert (Hm : (gpre t (S target) <= gpre t s)%nat) by (apply sum_seq_le; lia).
      destruct (Z.leb_spec (Z.of_nat (gpre t (S target))) (Z.of_nat i)); [|lia]. cbn [andb].
      destruct (Nat.ltb_spec (S target) (N - 1)) as [L'|L'].
      * rewrite target_end_spec by assumption. cbn [bind]. apply IH; [lia|lia|reflexivity].
      * cbn [bind]. apply IH; [lia|lia|lia].
Qed.

Lemma route_back_spec t (items : list (list Z)) : (t < N)%nat -> forall i target end_,
  (i + length items = gpre t N)%nat ->
  (forall s, nth_error (owners t) i = Some s -> (target <= s)%nat) ->
  ((target < N - 1)%nat -> end_ = Z.of_nat (gpre t (S target))) ->
  route_back (shuf t) N (Z.of_nat i) target end_ items = Ok (combine (skipn i (owners t)) items).
Proof using All.
  intros Ht. induction items as [|x items IH]; intros i target end_ L Htg He; cbn [route_back length] in *.
  - destruct (skipn i (owners t)); reflexivity.
  - assert (Lo : length (owners t) = gpre t N) by (apply owners_length).
    destruct (get_lt (owners t) i) as (s & _ & Ns); [lia|].
    destruct (owners_nth (g t) N i s Ns) as (Hs & Hi).
    destruct (seek_spec t i s Ht Hs Hi N target end_ (Htg s Ns)) as (e & Es & He'); [lia|exact He|].
    rewrite Es. cbn [bind fst snd].
    pose proof (gpre_small t Ht). pose proof (size_lt M counts N noise ls HM HN Hsum Hls t Ht).
    rewrite w32_id by (unfold u32; lia). replace (Z.of_nat i + 1) with (Z.of_nat (S i)) by lia.
    rewrite IH; [| lia | | exact He'].
    + cbn [bind]. rewrite (skipn_nth _ _ _ Ns). reflexivity.
    + intros s' Ns'. destruct (owners_nth (g t) N (S i) s' Ns') as (Hs' & Hi').
      destruct (Nat.le_gt_cases s s') as [|Hlt]; [assumption|exfalso].
      pose proof (sum_seq_le (g t) (S s') s ltac:(lia)). lia.
Qed.
End Backward.
