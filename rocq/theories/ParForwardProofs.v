(** The forward shuffle of a party with several servers. *)
From Verif Require Import Base BaseProofs Wire Shuffle ShuffleProofs ParShuffle ParShuffleProofs ParShuffleFacts
  State Handlers Batch Party Parallel Spec OnlineProofs ParMergeProofs.

Lemma sum_seq_S (f : nat -> nat) n : sum (map f (seq 0 (S n))) = (sum (map f (seq 0 n)) + f n)%nat.
Proof. rewrite seq_S, map_app, sum_app. cbn. lia. Qed.
Lemma sum_seq_le (f : nat -> nat) m n : (m <= n)%nat -> (sum (map f (seq 0 m)) <= sum (map f (seq 0 n)))%nat.
Proof. intros H. replace n with (m + (n - m))%nat by lia. rewrite seq_app, map_app, sum_app. lia. Qed.
Lemma sum_seq_lt (f : nat -> nat) s n : (s < n)%nat -> (sum (map f (seq 0 s)) + f s <= sum (map f (seq 0 n)))%nat.
Proof. intros H. rewrite <- sum_seq_S. apply sum_seq_le. lia. Qed.
Lemma sum_le (f g : nat -> nat) l : (forall x, In x l -> (f x <= g x)%nat) -> (sum (map f l) <= sum (map g l))%nat.
Proof.
  induction l as [|a l IH]; intros H; cbn; [lia|].
  pose proof (H a (or_introl eq_refl)). specialize (IH (fun x Hx => H x (or_intror Hx))). unfold sum in *. lia.
Qed.
Lemma sum_sub (f g : nat -> nat) l : (forall x, In x l -> (g x <= f x)%nat) ->
  sum (map (fun x => (f x - g x)%nat) l) = (sum (map f l) - sum (map g l))%nat.
Proof.
  induction l as [|a l IH]; intros H; cbn [map sum fold_right]; [lia|].
  pose proof (H a (or_introl eq_refl)). specialize (IH (fun x Hx => H x (or_intror Hx))).
  pose proof (sum_le g f l (fun x Hx => H x (or_intror Hx))). unfold sum in *. lia.
Qed.
(** A sum with one term left out. *)
Lemma sum_except (f : nat -> nat) self n : (self < n)%nat ->
  sum (map (fun s => if (s =? self)%nat then 0%nat else f s) (seq 0 n)) = (sum (map f (seq 0 n)) - f self)%nat.
Proof.
  intros H. replace n with (self + (1 + (n - self - 1)))%nat by lia.
  rewrite !seq_app, !map_app, !sum_app. cbn [seq map sum fold_right Nat.add]. rewrite Nat.eqb_refl.
  rewrite (sum_ext (fun s => if (s =? self)%nat then 0%nat else f s) f (seq 0 self)).
  2:{ intros x Hx. apply in_seq in Hx. destruct (Nat.eqb_spec x self); [lia|reflexivity]. }
  rewrite (sum_ext (fun s => if (s =? self)%nat then 0%nat else f s) f (seq (self + 1) (n - self - 1))).
  2:{ intros x Hx. apply in_seq in Hx. destruct (Nat.eqb_spec x self); [lia|reflexivity]. }
  unfold sum. lia.
Qed.

(** Positions in consecutive sections. *)
Lemma section_unique (f : nat -> nat) s s' r r' : (r < f s)%nat -> (r' < f s')%nat ->
  (sum (map f (seq 0 s)) + r = sum (map f (seq 0 s')) + r')%nat -> s = s' /\ r = r'.
Proof.
  intros H H' E. destruct (Nat.lt_trichotomy s s') as [L|[->|L]].
  - pose proof (sum_seq_lt f s s' L). lia.
  - split; [reflexivity|lia].
  - pose proof (sum_seq_lt f s' s L). lia.
Qed.
Lemma section_find (f : nat -> nat) i : forall n, (i < sum (map f (seq 0 n)))%nat ->
  exists s r, (s < n)%nat /\ (r < f s)%nat /\ i = (sum (map f (seq 0 s)) + r)%nat.
Proof.
  induction n as [|n IH]; intros H; [cbn in H; lia|]. rewrite sum_seq_S in H.
  destruct (Nat.lt_ge_cases i (sum (map f (seq 0 n)))) as [L|L].
  - destruct (IH L) as (s & r & Hs & Hr & E). exists s, r. split; [lia|auto].
  - exists n, (i - sum (map f (seq 0 n)))%nat. split; [lia|]. split; lia.
Qed.

Lemma route_spec {A} (items : list A) : forall p, (ps_forward_idx p + length items <= length (ps_forward p))%nat ->
  route p items = Ok (combine (skipn (ps_forward_idx p) (ps_forward p)) items).
Proof.
  induction items as [|x items IH]; intros p H; cbn [route length] in *.
  - destruct (skipn _ _); reflexivity.
  - unfold ps_shuffle_one. destruct (get_lt (ps_forward p) (ps_forward_idx p)) as (t & E & Nt); [lia|].
    rewrite E. cbn [bind fst snd]. rewrite IH by (cbn [ps_forward ps_forward_idx]; lia).
    cbn [bind ps_forward ps_forward_idx]. rewrite (skipn_nth _ _ _ Nt). reflexivity.
Qed.

(** The shufflers of all servers. *)
Section Tables.
Variables (M counts : list nat) (N : nat) (noise : nat -> nat) (ls : nat -> lshuffler).
Definition tgt (a : nat) : list nat := sect M counts a.
Definition from (t s : nat) : nat := cnt (tgt s) t.
Definition pre (t s : nat) : nat := sum (map (from t) (seq 0 s)).
Definition nfrom (t s : nat) : nat := cnt (firstn (noise s) (tgt s)) t.
Definition size (t : nat) : nat := slice (sum counts) N t.
Definition shuf (t : nat) : shufs := {|
  sh_ps := ps_spec M counts N t (noise t); sh_ls := ls t;
  sh_noise := map (nfrom t) (seq 0 N);
  sh_noisep := map (fun s => sum (map (nfrom t) (seq 0 (S s)))) (seq 0 N) |}.
(** Where message j of server a ends up: server and index. *)
Definition rank (a j : nat) : nat := cnt (firstn j (tgt a)) (nth j (tgt a) 0%nat).
Definition pos (a j : nat) : nat * nat :=
  let t := nth j (tgt a) 0%nat in (t, nth (pre t a + rank a j) (ls_forward (ls t)) 0%nat).
(** The messages that reach t, source by source. *)
Definition received {A} (t : nat) (ins : list (list A)) : list A :=
  flat_map (fun a => addressed_to t (tgt a) (nth a ins [])) (seq 0 N).
(** The complete orders of handling messages at t. *)
Definition complete (traffic : nat -> nat -> nat) (order : nat -> list nat) : Prop :=
  forall t, (t < N)%nat -> (forall s, In s (order t) -> (s < N)%nat) /\
    forall s, (s < N)%nat -> cnt (order t) s = traffic t s.
End Tables.

Section Forward.
Variables (M counts : list nat) (N : nat) (noise : nat -> nat) (ls : nat -> lshuffler).
Hypothesis HM : par_map_ok M counts N.
Hypothesis HN : (2 <= N)%nat.
Hypothesis Hsum : Z.of_nat (sum counts) < 2 ^ 32.
Hypothesis Hls : forall t, (t < N)%nat -> ls_ok (size counts N t) (ls t).
Notation tgt := (tgt M counts).
Notation from := (from M counts).
Notation pre := (pre M counts).
Notation size := (size counts N).
Notation shuf := (shuf M counts N noise ls).
Notation rank := (rank M counts).
Notation pos := (pos M counts ls).
Notation received := (received M counts N).

Lemma from_sum t : (t < N)%nat -> sum (map (from t) (seq 0 N)) = size t.
Proof using All.
  intros Ht. pose proof (sum_cnt_sect M counts N HM t) as E. destruct HM as (_ & _ & _ & Hc).
  rewrite (Hc t Ht) in E. exact E.
Qed.
Lemma tgt_len a : (a < N)%nat -> length (tgt a) = nth a counts 0%nat.
Proof using All. intros Ha. destruct HM as (E & L & _). apply sect_len; [exact L|rewrite E; exact Ha]. Qed.
Lemma tgt_lt a j t : nth_error (tgt a) j = Some t -> (t < N)%nat.
Proof using All. intros H. apply nth_error_In in H. apply sect_In in H. destruct HM as (_ & _ & Hx & _). apply Hx. exact H. Qed.
Lemma size_lt t : (t < N)%nat -> Z.of_nat (size t) < 2 ^ 32.
Proof using All.
  intros Ht. destruct HM as (_ & L & _ & Hc). pose proof (Hc t Ht) as E. change (cnt M t = size t) in E.
  pose proof (count_occ_bound Nat.eq_dec t M). lia.
Qed.
Lemma pre_from_le t s : (t < N)%nat -> (s < N)%nat -> (pre t s + from t s <= size t)%nat.
Proof using All. intros Ht Hs. rewrite <- from_sum by exact Ht. apply sum_seq_lt. exact Hs. Qed.

Lemma get_prefix t s : (s < N)%nat -> ps_prefix_from (sh_ps (shuf t)) s = Ok (pre t s).
Proof using All. intros Hs. unfold ps_prefix_from. cbn [shuf sh_ps ps_prefix ps_spec]. rewrite get_map by exact Hs. reflexivity. Qed.
Lemma get_from t s : (s < N)%nat -> ps_count_from (sh_ps (shuf t)) s = Ok (from t s).
Proof using All. intros Hs. unfold ps_count_from. cbn [shuf sh_ps ps_from ps_spec]. rewrite get_map by exact Hs. reflexivity. Qed.

Lemma stream_length {A} (ins : list (list A)) t s : (s < N)%nat -> length (nth s ins []) = nth s counts 0%nat ->
  length (addressed_to t (tgt s) (nth s ins [])) = from t s.
Proof using All. intros Hs L. apply addressed_length. rewrite tgt_len by exact Hs. exact L. Qed.

Lemma received_length {A} (ins : list (list A)) t : (t < N)%nat ->
  (forall s, (s < N)%nat -> length (nth s ins []) = nth s counts 0%nat) -> length (received t ins) = size t.
Proof using All.
  intros Ht L. unfold ParForwardProofs.received. rewrite flat_map_len. rewrite <- from_sum by exact Ht.
  apply sum_ext. intros s Hs. apply in_seq in Hs. apply stream_length; [lia|apply L; lia].
Qed.

Lemma received_nth {A} (ins : list (list A)) t s r : (t < N)%nat -> (s < N)%nat ->
  (forall s, (s < N)%nat -> length (nth s ins []) = nth s counts 0%nat) -> (r < from t s)%nat ->
  nth_error (received t ins) (pre t s + r) = nth_error (addressed_to t (tgt s) (nth s ins [])) r.
Proof using All.
  intros Ht Hs L Hr. unfold ParForwardProofs.received, ParForwardProofs.pre.
  rewrite (sum_ext (from t) (fun s => length (addressed_to t (tgt s) (nth s ins []))) (seq 0 s)).
  2:{ intros x Hx. apply in_seq in Hx. symmetry. apply stream_length; [lia|apply L; lia]. }
  apply (nth_error_flat_map (fun s => addressed_to t (tgt s) (nth s ins [])) N s r Hs).
  rewrite stream_length by (try apply L; exact Hs). exact Hr.
Qed.

(** Element [rank a j] of the stream from a to its target is message j. *)
Lemma stream_nth {A} (ins : list (list A)) a j t : (a < N)%nat -> length (nth a ins []) = nth a counts 0%nat ->
  nth_error (tgt a) j = Some t ->
  nth_error (addressed_to t (tgt a) (nth a ins [])) (rank a j) = nth_error (nth a ins []) j.
Proof using All.
  intros Ha L Nt. unfold ParForwardProofs.rank. rewrite (nth_error_nth _ _ _ Nt).
  pose proof (positions_rank t (tgt a) j Nt) as P.
  rewrite (addressed_nth t (tgt a) (nth a ins []) 0 _ j P); [rewrite Nat.sub_0_r; reflexivity|].
  rewrite L. symmetry. apply tgt_len. exact Ha.
Qed.
Lemma rank_lt a j t : nth_error (tgt a) j = Some t -> (rank a j < from t a)%nat.
Proof using All.
  intros Nt. unfold ParForwardProofs.rank, ParForwardProofs.from. rewrite (nth_error_nth _ _ _ Nt).
  pose proof (positions_rank t (tgt a) j Nt) as P. rewrite <- (positions_length t (tgt a)). apply nth_error_Some. congruence.
Qed.

(** ** Storing what arrives *)
Section Store.
Context {A B : Type} (R : B -> list A -> Prop) (okA : A -> Prop) (store : B -> nat -> A -> res B).
Hypothesis Hstore : forall b l i x, R b l -> (i < length l)%nat -> okA x ->
  exists b', store b i x = Ok b' /\ R b' (upd l i x).

Definition arrived (t : nat) (ins : list (list A)) (c : nat -> nat) (st : list nat * B) : Prop :=
  fst st = map c (seq 0 N) /\
  exists data, R (snd st) data /\ length data = size t /\
    forall s r x i, (s < N)%nat -> (r < c s)%nat -> nth_error (addressed_to t (tgt s) (nth s ins [])) r = Some x ->
      ls_shuffle (ls t) (pre t s + r) = Ok i -> nth_error data i = Some x.

Lemma arrived_step t ins c st s x : (t < N)%nat ->
  (forall s, (s < N)%nat -> length (nth s ins []) = nth s counts 0%nat) ->
  (forall s y, In y (nth s ins []) -> okA y) ->
  (forall s, (s < N)%nat -> (c s <= from t s)%nat) ->
  arrived t ins c st -> (s < N)%nat -> nth_error (addressed_to t (tgt s) (nth s ins [])) (c s) = Some x ->
  exists st', from_sibling store (shuf t) st (s, x) = Ok st' /\ arrived t ins (bump c s) st'.
Proof using All.
  intros Ht L Hok Hc (E1 & data & HR & Ld & Hd) Hs Nx. destruct st as [recvd b]. cbn [fst snd] in *. subst recvd.
  unfold from_sibling. cbn [fst snd]. rewrite get_prefix by exact Hs. cbn [bind].
  rewrite get_map by exact Hs. cbn [bind].
  rewrite (set_map c (bump c s)) by first [exact Hs | apply bump_eq | intros; apply bump_ne; assumption]. cbn [bind].
  assert (Hr : (c s < from t s)%nat).
  { rewrite <- (stream_length ins t s) by (try apply L; exact Hs). apply nth_error_Some. congruence. }
  pose proof (pre_from_le t s Ht Hs) as Hle.
  destruct (ls_ok_fwd (size t) (ls t) (pre t s + c s) (Hls t Ht)) as (i & Hi & Ei & _); [lia|].
  cbn [shuf sh_ls]. rewrite Ei. cbn [bind].
  assert (Ox : okA x).
  { apply (Hok s). apply nth_error_In in Nx. unfold addressed_to in Nx. apply in_map_iff in Nx.
    destruct Nx as ((t' & y) & <- & Hin). apply filter_In in Hin. destruct Hin as (Hin & _). eapply in_combine_r. exact Hin. }
  destruct (Hstore b data i x HR) as (b' & Es & HR'); [lia|exact Ox|]. rewrite Es. cbn [bind].
  eexists. split; [reflexivity|]. split; [reflexivity|]. cbn [snd]. exists (upd data i x).
  split; [exact HR'|]. split; [rewrite length_upd; exact Ld|].
  intros s' r y i' Hs' Hr' Ny Ei'.
  destruct (Nat.eq_dec s' s) as [->|Hne].
  - destruct (Nat.eq_dec r (c s)) as [->|Hner].
    + rewrite Ei in Ei'. inversion Ei'; subst i'. rewrite Nx in Ny. inversion Ny; subst y. apply nth_error_upd_eq. lia.
    + rewrite bump_eq in Hr'. rewrite nth_error_upd_ne; [apply (Hd s r); auto; lia|].
      intros ->. apply Hner. pose proof (ls_inj _ _ _ _ _ (Hls t Ht) Ei Ei'). lia.
  - rewrite bump_ne in Hr' by exact Hne. rewrite nth_error_upd_ne; [apply (Hd s' r); auto|].
    intros ->. pose proof (ls_inj _ _ _ _ _ (Hls t Ht) Ei Ei') as Eq.
    destruct (section_unique (from t) s s' (c s) r Hr) as (Es' & _); [|exact Eq|congruence].
    pose proof (Hc s' Hs'). lia.
Qed.

Lemma par_shuffle_spec (d : A) ins empty order :
  length ins = N -> length empty = N ->
  (forall s, (s < N)%nat -> length (nth s ins []) = nth s counts 0%nat) ->
  (forall s y, In y (nth s ins []) -> okA y) ->
  (forall t e, nth_error empty t = Some e -> exists l, R e l /\ length l = size t) ->
  complete N from order ->
  exists outs, par_shuffle store (map shuf (seq 0 N)) (map (fun t => Z.of_nat (size t)) (seq 0 N)) ins empty order = Ok outs /\
    length outs = N /\
    forall t b, nth_error outs t = Some b -> R b (pick d (received t ins) (ls_backward (ls t))).
Proof using All.
  intros Li Le L Hok He Ho. unfold par_shuffle. rewrite map_length, seq_length.
  rewrite (map_res_Ok _ (fun s => combine (tgt s) (nth s ins []))).
  2:{ intros s Hs. apply in_seq in Hs. rewrite get_map by lia. cbn [bind].
      destruct (get_lt ins s) as (l & E & Nl); [lia|]. rewrite E. cbn [bind]. cbn [shuf sh_ps].
      rewrite route_spec.
      - cbn [ps_forward ps_forward_idx ps_spec skipn]. rewrite (nth_error_nth _ _ _ Nl). reflexivity.
      - cbn [ps_forward ps_forward_idx ps_spec Nat.add]. change (sect M counts s) with (tgt s).
        rewrite tgt_len by lia. rewrite <- L by lia. rewrite (nth_error_nth _ _ _ Nl). lia. }
  cbn [bind].
  set (sends := map (fun s => combine (tgt s) (nth s ins [])) (seq 0 N)).
  assert (G : forall t, (t < N)%nat -> exists b,
    (let* sh := get (map shuf (seq 0 N)) t in
     let* n := get (map (fun t => Z.of_nat (size t)) (seq 0 N)) t in
     let* e := get empty t in
     let* c := shuffle_counts sh N t n in
     let* log := send_and_poll t (fst c) (snd c) sends (order t) in
     let* r := fold_res (from_sibling store sh) log (repeat 0%nat N, e) in
     Ok (snd r)) = Ok b /\ R b (pick d (received t ins) (ls_backward (ls t)))).
  { intros t Ht. rewrite !get_map by exact Ht. cbn [bind].
    destruct (get_lt empty t) as (e & Ee & Ne); [lia|]. rewrite Ee. cbn [bind].
    destruct (He t e Ne) as (l0 & R0 & L0).
    unfold shuffle_counts. rewrite (map_res_Ok _ (from t)).
    2:{ intros s Hs. apply in_seq in Hs. apply get_from. lia. }
    cbn [bind]. rewrite get_map by exact Ht. cbn [bind fst snd].
    destruct (Ho t Ht) as (Ho1 & Ho2).
    destruct (send_and_poll_spec (from_sibling store (shuf t))
      (fun c st => (forall s, (s < N)%nat -> (c s <= from t s)%nat) /\ arrived t ins c st) N t
      (fun s => addressed_to t (tgt s) (nth s ins []))
      (map (from t) (seq 0 N)) (w32 (Z.of_nat (size t) - Z.of_nat (from t t))) sends (order t) (repeat 0%nat N, e))
      as (log & st' & c' & El & Ef & (_ & Ia) & Hc'); auto.
    - unfold sends. rewrite map_length, seq_length. reflexivity.
    - intros s snt Hs Ns. unfold sends in Ns. rewrite nth_error_map_seq in Ns by exact Hs. inversion Ns. reflexivity.
    - intros s Hs _. rewrite nth_error_map_seq by exact Hs. rewrite stream_length by auto. reflexivity.
    - rewrite (sum_ext _ (fun s => if (s =? t)%nat then 0%nat else from t s)).
      2:{ intros s Hs. apply in_seq in Hs. rewrite stream_length by (try apply L; lia). reflexivity. }
      rewrite sum_except by exact Ht. rewrite from_sum by exact Ht.
      pose proof (pre_from_le t t Ht Ht). pose proof (size_lt t Ht).
      rewrite w32_id by (unfold u32; lia). lia.
    - split; [intros; lia|]. split; [cbn [fst]; symmetry; apply map_zero; reflexivity|].
      exists l0. cbn [snd]. split; [exact R0|]. split; [exact L0|]. intros; lia.
    - intros c st s x (Hc & Ia) Hs Nx.
      destruct (arrived_step t ins c st s x Ht L Hok Hc Ia Hs Nx) as (st' & E' & I').
      exists st'. split; [exact E'|]. split; [|exact I'].
      intros s' Hs'. destruct (Nat.eq_dec s' s) as [->|Hne].
      + rewrite bump_eq. rewrite <- (stream_length ins t s) by auto.
        apply nth_error_Some. congruence.
      + rewrite bump_ne by exact Hne. apply Hc. exact Hs'.
    - intros s Hs. rewrite stream_length by auto. apply Ho2. exact Hs.
    - rewrite El. cbn [bind].
      match goal with |- exists b, bind ?x _ = _ /\ _ => replace x with (Ok (A := list nat * B) st') by (symmetry; exact Ef) end.
      cbn [bind]. exists (snd st'). split; [reflexivity|].
      destruct Ia as (_ & data & HR & Ld & Hd).
      assert (data = pick d (received t ins) (ls_backward (ls t))) as <-; [|exact HR].
      apply (filled_all d (size t)); [apply Hls; exact Ht|apply received_length; assumption|].
      split; [rewrite received_length by assumption; exact Ld|].
      intros i x j Hi Nx Ej. rewrite <- from_sum in Hi by exact Ht.
      destruct (section_find (from t) i N Hi) as (s & r & Hs & Hr & ->).
      change (sum (map (from t) (seq 0 s))) with (pre t s) in *.
      rewrite received_nth in Nx by assumption.
      apply (Hd s r x j Hs); [|exact Nx|exact Ej].
      rewrite Hc' by exact Hs. rewrite stream_length by auto. exact Hr. }
  destruct (fun H => map_res_exists (fun t =>
     let* sh := get (map shuf (seq 0 N)) t in
     let* n := get (map (fun t => Z.of_nat (size t)) (seq 0 N)) t in
     let* e := get empty t in
     let* c := shuffle_counts sh N t n in
     let* log := send_and_poll t (fst c) (snd c) sends (order t) in
     let* r := fold_res (from_sibling store sh) log (repeat 0%nat N, e) in
     Ok (snd r)) (fun t b => R b (pick d (received t ins) (ls_backward (ls t)))) (seq 0 N) H) as (outs & E & F).
  { intros t Hin. apply in_seq in Hin. apply G. lia. }
  exists outs. split; [exact E|]. pose proof (map_res_length _ _ _ E) as Lo. rewrite seq_length in Lo. split; [exact Lo|].
  intros t b Nb. apply (F t t b); [|exact Nb]. apply nth_error_seq. rewrite <- Lo. apply nth_error_Some. congruence.
Qed.
End Store.
End Forward.
