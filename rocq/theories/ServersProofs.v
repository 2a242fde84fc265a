From Verif Require Import Base Servers Lts.

Definition smap_wf {T} (gap count : Z) (m : smap T) : Prop :=
  sm_gap m = gap /\ length (sm_data m) = Z.to_nat (count - 1).

Lemma upd_length {A} (l : list A) i a : length (upd l i a) = length l.
Proof. revert i; induction l; intros [|i]; cbn; auto. Qed.
Lemma nth_upd_same {A} (l : list A) i a : (i < length l)%nat -> nth_error (upd l i a) i = Some a.
Proof. revert i; induction l; intros [|i]; cbn; intros; try lia; auto. apply IHl; lia. Qed.
Lemma nth_upd_other {A} (l : list A) i j a : i <> j -> nth_error (upd l i a) j = nth_error l j.
Proof. revert i j; induction l; intros [|i] [|j]; cbn; intros; try lia; auto. Qed.

Lemma smap_index_ok {T} asserts gap count (m : smap T) id :
  smap_wf gap count m -> 0 <= gap < count -> 0 <= id < count -> id <> gap ->
  smap_index asserts m id = Ok (Z.to_nat (if id >? gap then id - 1 else id)) /\
  (Z.to_nat (if id >? gap then id - 1 else id) < Z.to_nat (count - 1))%nat.
Proof.
  intros [G L] Hg Hid Hne. unfold smap_index. rewrite G.
  replace (asserts && (id =? gap)) with false by (destruct asserts; lia).
  split; [reflexivity|]. destruct (id >? gap) eqn:E; lia.
Qed.

Lemma smap_set_ok {T} asserts gap count (m : smap T) id v :
  smap_wf gap count m -> 0 <= gap < count -> 0 <= id < count -> id <> gap ->
  exists m', smap_set asserts m id v = Ok m' /\ smap_wf gap count m' /\
    smap_get asserts m' id = Ok v /\
    (forall b, 0 <= b < count -> b <> gap -> b <> id -> smap_get asserts m' b = smap_get asserts m b).
Proof.
  intros W Hg Hid Hne.
  destruct (smap_index_ok asserts _ _ m id W Hg Hid Hne) as [E R].
  pose proof W as [G L]. unfold smap_set. rewrite E. cbn [bind]. unfold set_. rewrite L.
  replace (_ <? _)%nat with true by (symmetry; apply Nat.ltb_lt; exact R).
  cbn [bind]. eexists. split; [reflexivity|].
  set (m' := {| sm_gap := sm_gap m; sm_data := _ |}).
  assert (W' : smap_wf gap count m') by (split; [exact G|unfold m'; cbn [sm_data]; rewrite upd_length; exact L]).
  split; [exact W'|]. split.
  - unfold smap_get. destruct (smap_index_ok asserts _ _ m' id W' Hg Hid Hne) as [E' _]. rewrite E'. cbn [bind].
    unfold get, m'. cbn [sm_data]. rewrite nth_upd_same by (rewrite L; exact R). reflexivity.
  - intros b Hb Hbg Hbi. unfold smap_get.
    destruct (smap_index_ok asserts _ _ m' b W' Hg Hb Hbg) as [E' _].
    destruct (smap_index_ok asserts _ _ m b W Hg Hb Hbg) as [E'' _].
    rewrite E', E''. cbn [bind]. unfold get, m'. cbn [sm_data]. rewrite nth_upd_other; [reflexivity|].
    destruct (id >? gap) eqn:?, (b >? gap) eqn:?; lia.
Qed.

Lemma smap_get_wf {T} asserts gap count (m : smap T) id :
  smap_wf gap count m -> 0 <= gap < count -> 0 <= id < count -> id <> gap ->
  exists v, smap_get asserts m id = Ok v.
Proof.
  intros W Hg Hid Hne. destruct (smap_index_ok asserts _ _ m id W Hg Hid Hne) as [E R].
  destruct W as [_ L]. unfold smap_get. rewrite E. cbn [bind]. unfold get.
  destruct (nth_error _ _) eqn:N; [eauto|]. apply nth_error_None in N. lia.
Qed.

Lemma smap_new_ok {T} gap count (d : T) : 0 < count ->
  exists m, smap_new gap count d = Ok m /\ smap_wf gap count m /\ sm_data m = repeat d (Z.to_nat (count - 1)).
Proof.
  intros H. unfold smap_new. replace (count =? 0) with false by lia. eexists. split; [reflexivity|].
  split; [split|]; cbn; auto. apply repeat_length.
Qed.

Lemma smap_new_get {T} asserts gap count (d : T) m id :
  smap_new gap count d = Ok m -> 0 <= gap < count -> 0 <= id < count -> id <> gap ->
  smap_get asserts m id = Ok d.
Proof.
  intros H Hg Hid Hne. destruct (smap_new_ok gap count d ltac:(lia)) as (m' & E & W & D).
  rewrite E in H. injection H as <-.
  destruct (smap_index_ok asserts _ _ m' id W Hg Hid Hne) as [Ei R].
  unfold smap_get. rewrite Ei. cbn [bind]. unfold get. rewrite D.
  rewrite nth_error_repeat by exact R. reflexivity.
Qed.

(** Out of range or at the gap. *)
Lemma smap_gap_access {T} gap count (m : smap T) :
  smap_wf gap count m -> smap_get true m gap = Abort.
Proof. intros [G L]. unfold smap_get, smap_index. rewrite G, Z.eqb_refl. reflexivity. Qed.
Lemma smap_range_access {T} asserts gap count (m : smap T) id :
  smap_wf gap count m -> 0 <= gap < count -> count <= id -> smap_get asserts m id = UB.
Proof.
  intros [G L] Hg Hid. unfold smap_get, smap_index. rewrite G.
  replace (asserts && (id =? gap)) with false by (destruct asserts; lia).
  replace (id >? gap) with true by lia. cbn [bind]. unfold get.
  destruct (nth_error _ _) eqn:N; [|reflexivity].
  assert (Z.to_nat (id - 1) < length (sm_data m))%nat by (apply nth_error_Some; congruence). lia.
Qed.

(** The filling loops. *)
Lemma fill_loop {T} (fill : T) : forall n i l f, (i + n <= length l)%nat ->
  (forall k l, f k l = set_ l k fill) ->
  exists l', for_ n i f l = Ok l' /\ length l' = length l /\
    forall k, nth_error l' k = if ((i <=? k) && (k <? i + n))%nat then Some fill else nth_error l k.
Proof.
  induction n; intros i l f H Hf.
  - exists l. cbn [for_]. split; [reflexivity|split; [reflexivity|]]. intros k.
    replace ((i <=? k) && (k <? i + 0))%nat with false by lia. reflexivity.
  - cbn [for_]. rewrite Hf. unfold set_. replace (i <? length l)%nat with true by lia. cbn [bind].
    destruct (IHn (S i) (upd l i fill) f ltac:(rewrite upd_length; lia) Hf) as (l' & E & L & N).
    exists l'. split; [exact E|]. split; [rewrite L; apply upd_length|].
    intros k. rewrite N. destruct (Nat.eq_dec k i).
    + subst. replace ((S i <=? i) && (i <? S i + n))%nat with false by (destruct (S i <=? i)%nat eqn:?; lia).
      replace ((i <=? i) && (i <? i + S n))%nat with true by lia. apply nth_upd_same; lia.
    + rewrite nth_upd_other by lia.
      replace ((i <=? k) && (k <? i + S n))%nat with ((S i <=? k) && (k <? S i + n))%nat by lia. reflexivity.
Qed.

Lemma for_shift {St} n i (f g : nat -> St -> res St) s :
  (forall k s, (i <= k < i + n)%nat -> f (S k) s = g k s) -> for_ n (S i) f s = for_ n i g s.
Proof.
  revert i s; induction n; intros i s H; [reflexivity|]. cbn [for_].
  rewrite (H i s) by lia. destruct (g i s); cbn [bind]; auto. apply IHn. intros; apply H; lia.
Qed.

Lemma smap_fill_ok {T} gap count (d fill : T) : u8 gap -> u8 count -> 0 <= gap < count ->
  exists m, smap_fill gap count d fill = Ok m /\ smap_wf gap count m /\
    forall asserts id, 0 <= id < count -> id <> gap -> smap_get asserts m id = Ok fill.
Proof.
  intros Ug Uc Hg. unfold u8 in *. unfold smap_fill.
  destruct (smap_new_ok gap count d ltac:(lia)) as (m & -> & [G L] & D). cbn [bind].
  destruct (fill_loop fill (Z.to_nat gap) 0 (sm_data m) (fun i l => set_ l i fill)
              ltac:(rewrite L; lia) ltac:(reflexivity)) as (l1 & -> & L1 & N1).
  cbn [bind]. cbv zeta. replace (w8 (gap + 1)) with (gap + 1) by (unfold w8; rewrite Z.mod_small; lia).
  replace (Z.to_nat (gap + 1)) with (S (Z.to_nat gap)) by lia.
  rewrite (for_shift _ (Z.to_nat gap) _ (fun i l => set_ l i fill)).
  2:{ intros k s _. cbn [Nat.eqb]. replace (S k - 1)%nat with k by lia. reflexivity. }
  destruct (fill_loop fill (Z.to_nat (count - (gap + 1))) (Z.to_nat gap) l1 (fun i l => set_ l i fill)
              ltac:(rewrite L1, L; lia) ltac:(reflexivity)) as (l2 & -> & L2 & N2).
  cbn [bind]. eexists. split; [reflexivity|].
  set (m' := {| sm_gap := gap; sm_data := l2 |}).
  assert (W' : smap_wf gap count m') by (split; [reflexivity|cbn; lia]).
  split; [exact W'|]. intros asserts id Hid Hne.
  destruct (smap_index_ok asserts _ _ m' id W' Hg Hid Hne) as [E R].
  unfold smap_get. rewrite E. cbn [bind]. unfold get, m'. cbn [sm_data]. rewrite N2, N1.
  destruct (id >? gap) eqn:C.
  - replace (_ && _) with true by lia. reflexivity.
  - replace ((Z.to_nat gap <=? Z.to_nat id) && _)%nat with false by lia.
    replace (_ && _) with true by lia. reflexivity.
Qed.

(** ** Poll *)
Definition readable (r : Z) : bool := Z.testbit r 0.

Lemma poll_scan_all : forall revs res,
  length res = length revs ->
  Forall (fun r => r <> 0 -> readable r = true) revs ->
  poll_scan (poll_count revs) revs res =
  Ok (map (fun r => if readable r then 0 else r) revs,
      map (fun rb => readable (fst rb) || snd rb) (combine revs res)).
Proof.
  assert (Z0 : forall revs res, length res = length revs -> Forall (fun r => r = 0) revs ->
     (revs, res) = (map (fun r => if readable r then 0 else r) revs,
      map (fun rb => readable (fst rb) || snd rb) (combine revs res))).
  { induction revs; intros [|b res] L F; try discriminate; [reflexivity|].
    inversion F; subst. cbn [map combine fst snd]. cbn in L.
    specialize (IHrevs res ltac:(lia) H2). injection IHrevs as E1 E2. rewrite <- E1, <- E2. reflexivity. }
  induction revs; intros [|b res] L F; try discriminate; [reflexivity|].
  inversion F as [|? ? Ha F']; subst. cbn in L. injection L as L.
  unfold poll_count. cbn [filter]. destruct (a =? 0) eqn:E.
  - cbn [negb]. fold (poll_count revs). specialize (IHrevs res L F').
    destruct (poll_count revs) eqn:N.
    + cbn [poll_scan]. f_equal. apply Z0; [cbn; lia|]. constructor; [lia|].
      rewrite Forall_forall. intros x Hx. destruct (Z.eq_dec x 0); auto. exfalso.
      unfold poll_count in N. apply length_zero_iff_nil in N.
      assert (In x []) as [] by (rewrite <- N; apply filter_In; split; [auto|lia]).
    + cbn [poll_scan]. replace (Z.testbit a 0) with false by (replace a with 0 by lia; reflexivity).
      rewrite IHrevs. cbn [bind map combine fst snd].
      replace (readable a) with false by (replace a with 0 by lia; reflexivity). reflexivity.
  - cbn [negb length]. fold (poll_count revs). cbn [poll_scan].
    assert (Ra : readable a = true) by (apply Ha; lia). unfold readable in Ra. rewrite Ra.
    rewrite IHrevs by auto. cbn [bind map combine fst snd]. unfold readable at 3 5. rewrite Ra. reflexivity.
Qed.

Lemma poll_scan_over : forall revs res n,
  (length (filter readable revs) < n)%nat -> poll_scan n revs res = UB.
Proof.
  induction revs; intros res n H.
  - destruct n; [cbn in H; lia|reflexivity].
  - cbn [filter] in H. destruct n; [lia|]. cbn [poll_scan]. destruct res; [reflexivity|].
    change (Z.testbit a 0) with (readable a). destruct (readable a).
    + cbn [length] in H. rewrite IHrevs by lia. reflexivity.
    + rewrite IHrevs by lia. reflexivity.
Qed.

Lemma readable_nonzero r : readable r = true -> (r =? 0) = false.
Proof. intros H. destruct (r =? 0) eqn:E; auto. replace r with 0 in H by lia. discriminate. Qed.

Lemma poll_scan_bad revs res :
  Exists (fun r => r <> 0 /\ readable r = false) revs -> poll_scan (poll_count revs) revs res = UB.
Proof.
  intros H. apply poll_scan_over. unfold poll_count. induction H as [r l [H1 H2]|r l H IH].
  - cbn [filter]. rewrite H2. replace (r =? 0) with false by lia. cbn [negb length].
    enough (length (filter readable l) <= length (filter (fun r => negb (r =? 0)%Z) l))%nat by lia.
    clear. induction l; cbn [filter]; [lia|]. destruct (readable a) eqn:E.
    + rewrite (readable_nonzero _ E). cbn [negb length]. lia.
    + destruct (negb _); cbn [length]; lia.
  - cbn [filter]. destruct (readable r) eqn:E.
    + rewrite (readable_nonzero _ E). cbn [negb length]. lia.
    + destruct (negb _); cbn [length]; lia.
Qed.

(** ** Registration of siblings *)
Definition pt_wf gap count (t : ptable) : Prop := smap_wf gap count (pt_socks t) /\ smap_wf gap count (pt_polls t).
(** Sibling [id] is registered with descriptor [fd] and polled for input. *)
Definition registered (asserts : bool) (t : ptable) (id fd : Z) : Prop :=
  smap_get asserts (pt_socks t) id = Ok fd /\
  smap_get asserts (pt_polls t) id = Ok {| pf_fd := fd; pf_events := 1; pf_revents := 0 |}.

Lemma register_ok asserts gap count t id fd :
  pt_wf gap count t -> 0 <= gap < count -> 0 <= id < count -> id <> gap ->
  exists t', register asserts t id fd = Ok t' /\ pt_wf gap count t' /\ registered asserts t' id fd /\
    forall b f, 0 <= b < count -> b <> gap -> b <> id -> registered asserts t b f -> registered asserts t' b f.
Proof.
  intros [W1 W2] Hg Hid Hne. unfold register.
  destruct (smap_set_ok asserts gap count (pt_socks t) id fd W1 Hg Hid Hne) as (s' & -> & Ws & Gs & Os).
  cbn [bind].
  destruct (smap_set_ok asserts gap count (pt_polls t) id {| pf_fd := fd; pf_events := 1; pf_revents := 0 |} W2 Hg Hid Hne)
    as (p' & -> & Wp & Gp & Op).
  cbn [bind]. eexists. split; [reflexivity|]. split; [split; assumption|]. split; [split; assumption|].
  intros b f Hb Hbg Hbi [R1 R2]. split; cbn [pt_socks pt_polls]; [rewrite Os|rewrite Op]; assumption.
Qed.

Lemma register_arrivals_ok asserts gap count : 0 <= gap < count -> forall arr t,
  pt_wf gap count t -> NoDup (map snd arr) -> Forall (fun a => 0 <= snd a < gap) arr ->
  exists t', register_arrivals asserts gap arr t = Ok t' /\ pt_wf gap count t' /\
    (forall fd id, In (fd, id) arr -> registered asserts t' id fd) /\
    (forall b f, 0 <= b < count -> b <> gap -> ~ In b (map snd arr) -> registered asserts t b f -> registered asserts t' b f).
Proof.
  intros Hg. induction arr as [|[fd id] arr IH]; intros t W ND F.
  - exists t. split; [reflexivity|]. split; [exact W|]. split; [intros ? ? []|auto].
  - inversion F as [|? ? Hid F']; subst. cbn [snd] in Hid. inversion ND as [|? ? Hni ND']; subst.
    destruct (register_ok asserts gap count t id fd W Hg ltac:(lia) ltac:(lia)) as (t1 & E1 & W1 & R1 & O1).
    destruct (IH t1 W1 ND' F') as (t' & E & W' & R & O).
    exists t'. split.
    { unfold register_arrivals in *. cbn [fold_res]. replace (id <? gap) with true by lia.
      rewrite andb_false_r. rewrite E1. cbn [bind]. exact E. }
    split; [exact W'|]. split.
    + intros f i [H|H]; [|auto]. injection H as -> ->. apply O; try lia; auto.
    + intros b f Hb Hbg Hnb Rb. cbn [map snd In] in Hnb. apply O; auto.
Qed.

Lemma connect_higher_ok asserts gap count newfd t :
  u8 count -> 0 <= gap < count -> pt_wf gap count t ->
  exists t', connect_higher asserts gap count newfd t =
      Ok (t', map (fun i => (gap + Z.of_nat i, gap)) (seq 1 (Z.to_nat (count - gap - 1)))) /\
    pt_wf gap count t' /\
    (forall id, gap < id < count -> registered asserts t' id (newfd id)) /\
    (forall id fd, 0 <= id < gap -> registered asserts t id fd -> registered asserts t' id fd).
Proof.
  intros Uc Hg W. unfold u8 in Uc. unfold connect_higher.
  replace (w8 (count - gap)) with (count - gap) by (unfold w8; rewrite Z.mod_small; lia). cbv zeta.
  enough (G : forall n i s, (1 <= i)%nat -> gap + Z.of_nat (i + n) <= count -> pt_wf gap count (fst s) ->
     (forall id, gap < id < gap + Z.of_nat i -> registered asserts (fst s) id (newfd id)) ->
     exists t', for_ n i (fun i s => let id := w8 (gap + Z.of_nat i) in
        let* t' := register asserts (fst s) id (newfd id) in Ok (t', snd s ++ [(id, gap)])) s =
        Ok (t', snd s ++ map (fun i => (gap + Z.of_nat i, gap)) (seq i n)) /\
       pt_wf gap count t' /\
       (forall id, gap < id < gap + Z.of_nat (i + n) -> registered asserts t' id (newfd id)) /\
       (forall id fd, 0 <= id < gap -> registered asserts (fst s) id fd -> registered asserts t' id fd)).
  { destruct (G (Z.to_nat (count - gap - 1)) 1%nat (t, []) ltac:(lia) ltac:(lia) W ltac:(intros; lia))
      as (t' & E & W' & R & O). cbn [fst snd app] in *. cbv zeta in *.
    exists t'. split; [exact E|]. split; [exact W'|]. split; [|exact O].
    intros id Hid. apply R. lia. }
  clear W t. induction n; intros i s Hi Hn W R.
  - exists (fst s). cbn [for_ seq map]. rewrite app_nil_r. split; [destruct s; reflexivity|].
    split; [exact W|]. split; [|auto]. intros id Hid. apply R. lia.
  - cbn [for_]. cbv zeta.
    replace (w8 (gap + Z.of_nat i)) with (gap + Z.of_nat i) by (unfold w8; rewrite Z.mod_small; lia).
    destruct (register_ok asserts gap count (fst s) (gap + Z.of_nat i) (newfd (gap + Z.of_nat i)) W Hg ltac:(lia) ltac:(lia))
      as (t1 & -> & W1 & R1 & O1).
    cbn [bind].
    destruct (IHn (S i) (t1, snd s ++ [(gap + Z.of_nat i, gap)]) ltac:(lia) ltac:(lia) W1) as (t' & E & W' & R' & O').
    { cbn [fst]. intros id Hid. destruct (Z.eq_dec id (gap + Z.of_nat i)); [subst; exact R1|].
      apply O1; try lia. apply R; lia. }
    cbv zeta in E. rewrite E. exists t'. cbn [fst snd seq map]. rewrite <- app_assoc. split; [reflexivity|].
    split; [exact W'|]. split.
    + intros id Hid. apply R'. lia.
    + intros id fd Hid Hr. apply O'; auto. apply O1; auto; lia.
Qed.

Lemma sibling_initialize_ok asserts self count arrivals newfd :
  u8 count -> 0 <= self < count ->
  Permutation (map snd arrivals) (map Z.of_nat (seq 0 (Z.to_nat self))) ->
  exists t, sibling_initialize asserts self count arrivals newfd =
      Ok (t, map (fun i => (self + Z.of_nat i, self)) (seq 1 (Z.to_nat (count - self - 1)))) /\
    pt_wf self count t /\
    (forall fd id, In (fd, id) arrivals -> registered asserts t id fd) /\
    (forall id, self < id < count -> registered asserts t id (newfd id)).
Proof.
  intros Uc Hs P. unfold sibling_initialize.
  destruct (smap_new_ok self count 0 ltac:(lia)) as (s & -> & Ws & _). cbn [bind].
  destruct (smap_new_ok self count {| pf_fd := 0; pf_events := 0; pf_revents := 0 |} ltac:(lia)) as (p & -> & Wp & _).
  cbn [bind].
  assert (F : Forall (fun a : Z * Z => 0 <= snd a < self) arrivals).
  { rewrite Forall_forall. intros a Ha.
    assert (In (snd a) (map Z.of_nat (seq 0 (Z.to_nat self)))) as Hin
      by (apply (Permutation_in _ P), in_map; exact Ha).
    apply in_map_iff in Hin as (k & Hk & Hk'). apply in_seq in Hk'. lia. }
  assert (ND : NoDup (map snd arrivals)).
  { apply (Permutation_NoDup (Permutation_sym P)).
    apply FinFun.Injective_map_NoDup; [intros x y; lia|apply seq_NoDup]. }
  assert (exists t, (if self >? 0 then register_arrivals asserts self arrivals {| pt_socks := s; pt_polls := p |}
             else Ok {| pt_socks := s; pt_polls := p |}) = Ok t /\ pt_wf self count t /\
             forall fd id, In (fd, id) arrivals -> registered asserts t id fd) as (t & -> & Wt & Rt).
  { destruct (self >? 0) eqn:E.
    - destruct (register_arrivals_ok asserts self count Hs arrivals {| pt_socks := s; pt_polls := p |} (conj Ws Wp) ND F)
        as (t & -> & Wt & R & _). eauto.
    - eexists. split; [reflexivity|]. split; [split; assumption|]. intros fd id Hin.
      rewrite Forall_forall in F. specialize (F _ Hin). cbn in F. lia. }
  cbn [bind].
  destruct (connect_higher_ok asserts self count newfd t Uc Hs Wt) as (t' & -> & W' & R' & O').
  exists t'. split; [reflexivity|]. split; [exact W'|]. split; [|exact R'].
  intros fd id Hin. apply O'; [|auto]. rewrite Forall_forall in F. specialize (F _ Hin). cbn in F. lia.
Qed.

(** ** The connection phase *)
Definition conn_inv (n : nat) (c : cstate_) : Prop :=
  (forall s, (s < n)%nat -> Permutation (c_pend c s ++ c_acc c s) (filter (fun x => (s <? c_nxt c x)%nat) (seq 0 s))) /\
  (forall s, (s < n)%nat -> (s < c_nxt c s <= n)%nat) /\
  (forall s, (s < n)%nat -> (S s < c_nxt c s)%nat -> length (c_acc c s) = s).

Lemma fupd_same {A} (f : nat -> A) k v : fupd f k v k = v.
Proof. unfold fupd. rewrite Nat.eqb_refl. reflexivity. Qed.
Lemma fupd_other {A} (f : nat -> A) k v x : x <> k -> fupd f k v x = f x.
Proof. unfold fupd. intros. destruct (Nat.eqb_spec x k); [contradiction|reflexivity]. Qed.

Lemma filter_ext_in' {A} (f g : A -> bool) l : (forall x, In x l -> f x = g x) -> filter f l = filter g l.
Proof. induction l; intros H; [reflexivity|]. cbn. rewrite (H a) by (left; reflexivity). rewrite IHl; [reflexivity|]. intros; apply H; right; assumption. Qed.

Lemma conn_inv_start n : conn_inv n conn_start.
Proof.
  split; [|split].
  - intros s Hs. cbn. replace (filter _ _) with (@nil nat); [constructor|].
    symmetry. apply length_zero_iff_nil. destruct (filter _ _) as [|x l] eqn:E; [reflexivity|].
    assert (In x (x :: l)) as Hin by (left; reflexivity). rewrite <- E in Hin.
    apply filter_In in Hin as [Hin Hx]. apply in_seq in Hin. apply Nat.leb_le in Hx. lia.
  - intros; cbn; lia.
  - intros; cbn in *; lia.
Qed.

Lemma filter_add (s k : nat) (f g : nat -> bool) : (s < k)%nat ->
  (forall x, x <> s -> g x = f x) -> f s = false -> g s = true ->
  Permutation (filter f (seq 0 k) ++ [s]) (filter g (seq 0 k)).
Proof.
  intros Hs Ho Hf Hg. replace k with (s + S (k - s - 1))%nat by lia. rewrite seq_app.
  cbn [Nat.add seq]. rewrite !filter_app. cbn [filter]. rewrite Hf, Hg.
  rewrite (filter_ext_in' f g (seq 0 s)) by (intros x Hx; apply in_seq in Hx; symmetry; apply Ho; lia).
  rewrite (filter_ext_in' f g (seq (S s) _)) by (intros x Hx; apply in_seq in Hx; symmetry; apply Ho; lia).
  rewrite <- app_assoc. apply Permutation_app_head. symmetry. apply Permutation_cons_append.
Qed.

Lemma conn_inv_step n c c' : conn_inv n c -> conn_step n c c' -> conn_inv n c'.
Proof.
  intros (I1 & I2 & I3) H. inversion H; subst; clear H; unfold conn_inv; cbn [c_lis c_pend c_acc c_nxt].
  - auto.
  - split; [|split; [exact I2|]].
    + intros s' Hs'. destruct (Nat.eq_dec s' s).
      * subst. rewrite !fupd_same. rewrite <- (I1 s Hs'). rewrite H3.
        rewrite <- !app_assoc. apply Permutation_app_head. cbn [app].
        rewrite app_assoc. rewrite <- Permutation_cons_append. constructor. reflexivity.
      * rewrite !fupd_other by assumption. auto.
    + intros s' Hs' Hn. destruct (Nat.eq_dec s' s).
      * subst. specialize (I3 s Hs' Hn). lia.
      * rewrite fupd_other by assumption. auto.
  - set (t := c_nxt c s) in *.
    split; [|split].
    + intros s' Hs'. destruct (Nat.eq_dec s' t).
      * subst s'. rewrite fupd_same. pose proof (I1 t Hs') as P. pose proof (I2 s H0).
        transitivity ((c_pend c t ++ c_acc c t) ++ [s]).
        { rewrite <- !app_assoc. apply Permutation_app_head. apply Permutation_app_comm. }
        rewrite P. apply filter_add; [lia| | |].
        -- intros x Hx. rewrite fupd_other by assumption. reflexivity.
        -- fold t. apply Nat.ltb_irrefl.
        -- rewrite fupd_same. apply Nat.ltb_lt. lia.
      * rewrite fupd_other by assumption. rewrite (I1 s' Hs').
        erewrite filter_ext_in'; [reflexivity|]. intros x Hx. cbn beta.
        destruct (Nat.eq_dec x s); [|rewrite fupd_other by assumption; reflexivity].
        subst x. rewrite fupd_same. fold t. apply in_seq in Hx.
        destruct (s' <? t)%nat eqn:?, (s' <? S t)%nat eqn:?; lia.
    + intros s' Hs'. destruct (Nat.eq_dec s' s).
      * subst. rewrite fupd_same. pose proof (I2 s Hs'). lia.
      * rewrite fupd_other by assumption. auto.
    + intros s' Hs' Hn. destruct (Nat.eq_dec s' s); [subst; assumption|].
      rewrite fupd_other in Hn by assumption. auto.
Qed.

Lemma filter_full (s : nat) (f : nat -> bool) : (forall x, (x < s)%nat -> f x = true) -> filter f (seq 0 s) = seq 0 s.
Proof.
  intros H. rewrite (filter_ext_in' f (fun _ => true)).
  - clear. induction (seq 0 s); cbn; [reflexivity|]. rewrite IHl. reflexivity.
  - intros x Hx. apply in_seq in Hx. apply H. lia.
Qed.

Definition conn_fin (n : nat) (c : cstate_) (s : nat) : Prop := length (c_acc c s) = s /\ c_nxt c s = n.

Lemma conn_progress n c : conn_inv n c -> ~ conn_done n c -> exists c', conn_step n c c'.
Proof.
  intros (I1 & I2 & I3) ND.
  assert (exists s, (s < n)%nat /\ ~ conn_fin n c s /\ forall x, (x < s)%nat -> conn_fin n c x) as (s & Hs & Hnf & Hlow).
  { assert (Dec : forall s, {conn_fin n c s} + {~ conn_fin n c s}).
    { intros s. unfold conn_fin. destruct (Nat.eq_dec (length (c_acc c s)) s), (Nat.eq_dec (c_nxt c s) n); intuition. }
    assert (G : forall k, (k <= n)%nat -> (forall x, (x < k)%nat -> conn_fin n c x) \/
       exists s, (s < n)%nat /\ ~ conn_fin n c s /\ forall x, (x < s)%nat -> conn_fin n c x).
    { induction k; intros Hk; [left; intros; lia|]. destruct (IHk ltac:(lia)) as [H|H]; [|right; exact H].
      destruct (Dec k) as [D|D].
      - left. intros x Hx. destruct (Nat.eq_dec x k); [subst; exact D|]. apply H. lia.
      - right. exists k. split; [lia|]. split; assumption. }
    destruct (G n ltac:(lia)) as [H|H]; [|exact H]. exfalso. apply ND. exact H. }
  pose proof (I1 s Hs) as P. rewrite filter_full in P.
  2:{ intros x Hx. destruct (Hlow x Hx) as [_ E]. rewrite E. apply Nat.ltb_lt. exact Hs. }
  apply Permutation_length in P. rewrite app_length, seq_length in P.
  destruct (Nat.lt_ge_cases (length (c_acc c s)) s) as [Hlt|Hge].
  - destruct (c_lis c s) eqn:L.
    + destruct (c_pend c s) as [|x l] eqn:Q; [cbn in P; lia|].
      eexists. apply (cs_accept n c s x [] l); auto.
    + eexists. apply (cs_listen n c s); auto. lia.
  - assert (E : length (c_acc c s) = s) by lia.
    assert (Hn : (c_nxt c s < n)%nat).
    { pose proof (I2 s Hs). destruct (Nat.eq_dec (c_nxt c s) n); [|lia]. exfalso. apply Hnf. split; assumption. }
    destruct (c_lis c (c_nxt c s)) eqn:L.
    + eexists. apply (cs_connect n c s (c_nxt c s)); auto.
    + pose proof (I2 s Hs). eexists. apply (cs_listen n c (c_nxt c s)); auto. lia.
Qed.

(** Every execution is finite. *)
Definition conn_measure (n : nat) (c : cstate_) : nat :=
  list_sum (map (fun s => (if c_lis c s then 0 else 1) + (s - length (c_acc c s)) + (n - c_nxt c s)) (seq 0 n))%nat.

Lemma sum_change (f g : nat -> nat) s n : (s < n)%nat ->
  (forall x, x <> s -> f x = g x) -> (f s < g s)%nat ->
  (list_sum (map f (seq 0 n)) < list_sum (map g (seq 0 n)))%nat.
Proof.
  intros Hs Ho Hlt. replace n with (s + S (n - s - 1))%nat by lia. rewrite seq_app. cbn [Nat.add seq].
  rewrite !map_app. cbn [map]. rewrite !list_sum_app. cbn [list_sum fold_right].
  rewrite (map_ext_in f g (seq 0 s)) by (intros x Hx; apply in_seq in Hx; apply Ho; lia).
  rewrite (map_ext_in f g (seq (S s) _)) by (intros x Hx; apply in_seq in Hx; apply Ho; lia).
  change (fold_right Nat.add 0%nat ?l) with (list_sum l).
  unfold list_sum. cbn [fold_right]. fold list_sum. lia.
Qed.

Lemma conn_measure_step n c c' : conn_inv n c -> conn_step n c c' -> (conn_measure n c' < conn_measure n c)%nat.
Proof.
  intros (I1 & I2 & I3) H. inversion H; subst; clear H; unfold conn_measure; cbn [c_lis c_pend c_acc c_nxt].
  - apply (sum_change _ _ s); [lia| |].
    + intros y Hy. rewrite fupd_other by assumption. reflexivity.
    + rewrite fupd_same, H1. lia.
  - apply (sum_change _ _ s); [lia| |].
    + intros y Hy. rewrite fupd_other by assumption. reflexivity.
    + rewrite fupd_same, app_length. cbn [length]. lia.
  - apply (sum_change _ _ s); [lia| |].
    + intros y Hy. rewrite fupd_other by assumption. reflexivity.
    + rewrite fupd_same. lia.
Qed.

Lemma conn_reach_inv n c : reach (conn_step n) conn_start c -> conn_inv n c.
Proof. apply reach_inv; [apply conn_inv_step|apply conn_inv_start]. Qed.

Lemma conn_final n c : reach (conn_step n) conn_start c -> conn_done n c ->
  forall s, (s < n)%nat -> Permutation (c_acc c s) (seq 0 s).
Proof.
  intros R D s Hs. destruct (conn_reach_inv n c R) as (I1 & I2 & I3).
  pose proof (I1 s Hs) as P. rewrite filter_full in P.
  2:{ intros x Hx. destruct (D x ltac:(lia)) as [_ E]. rewrite E. apply Nat.ltb_lt. exact Hs. }
  pose proof (Permutation_length P) as L. rewrite app_length, seq_length in L.
  destruct (D s Hs) as [E _]. destruct (c_pend c s) as [|x l]; [exact P|cbn in L; lia].
Qed.
