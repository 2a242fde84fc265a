(** The online stage of a party with several servers. *)
From Verif Require Import Base BaseProofs Wire WireProofs Additive AdditiveProofs Shuffle ShuffleProofs ParShuffle
  ParShuffleProofs ParShuffleFacts State Handlers Batch Party Parallel Spec ParSpec OnlineProofs ParMergeProofs ParForwardProofs
  ParBackwardProofs.

Lemma Forall2_len {A B} (R : A -> B -> Prop) l l' : Forall2 R l l' -> length l = length l'.
Proof. induction 1; cbn; auto. Qed.

Lemma Forall2_nth_err {A B} (R : A -> B -> Prop) l l' i x y :
  Forall2 R l l' -> nth_error l i = Some x -> nth_error l' i = Some y -> R x y.
Proof.
  intros H. revert i. induction H as [|a b l l' Hab H IH]; intros [|i] N1 N2; cbn [nth_error] in *; try discriminate.
  - inversion N1; inversion N2; subst; assumption.
  - eapply IH; eassumption.
Qed.

(** The tables of all siblings. *)
Record tables := { tb_M : list nat; tb_counts : list nat; tb_noise : nat -> nat; tb_ls : nat -> lshuffler }.
Definition tb_ok (N : nat) (tb : tables) : Prop :=
  par_map_ok (tb_M tb) (tb_counts tb) N /\ (2 <= N)%nat /\ Z.of_nat (sum (tb_counts tb)) < 2 ^ 32 /\
  (forall t, (t < N)%nat -> ls_ok (size (tb_counts tb) N t) (tb_ls tb t)) /\
  (forall a, (a < N)%nat -> (tb_noise tb a <= nth a (tb_counts tb) 0)%nat).

Section Online.
Variables (N : nat) (tb : tables).
Hypothesis HT : tb_ok N tb.
Notation tgt := (tgt (tb_M tb) (tb_counts tb)).
Notation from := (from (tb_M tb) (tb_counts tb)).
Notation pre := (pre (tb_M tb) (tb_counts tb)).
Notation size := (size (tb_counts tb) N).
Notation shuf := (shuf (tb_M tb) (tb_counts tb) N (tb_noise tb) (tb_ls tb)).
Notation rank := (rank (tb_M tb) (tb_counts tb)).
Notation pos := (pos (tb_M tb) (tb_counts tb) (tb_ls tb)).
Notation nfrom := (nfrom (tb_M tb) (tb_counts tb) (tb_noise tb)).
Notation g := (g (tb_M tb) (tb_counts tb) (tb_noise tb)).
Notation gpre := (gpre (tb_M tb) (tb_counts tb) (tb_noise tb)).
Notation sec := (sec (tb_M tb) (tb_counts tb) (tb_noise tb)).
Notation owners := (owners (tb_M tb) (tb_counts tb) N (tb_noise tb)).
Notation count := (fun a => nth a (tb_counts tb) 0%nat).
Notation noise := (tb_noise tb).
Notation received := (received (tb_M tb) (tb_counts tb) N).

Local Ltac tabs := destruct HT as (HM & HN & Hsum & Hls & Hnoise).

Definition inp (a : nat) : nat := (count a - noise a)%nat.

(** ** Facts about positions *)
Lemma pos_server a j : (a < N)%nat -> (j < count a)%nat ->
  (fst (pos a j) < N)%nat /\ (snd (pos a j) < size (fst (pos a j)))%nat.
Proof using All.
  tabs. intros Ha Hj. unfold ParForwardProofs.pos. cbn [fst snd].
  destruct (get_lt (tgt a) j) as (t & _ & Nt); [rewrite (tgt_len _ _ N noise (tb_ls tb)) by assumption; exact Hj|].
  rewrite (nth_error_nth _ _ _ Nt).
  assert (Ht : (t < N)%nat) by (eapply tgt_lt; eauto). split; [exact Ht|].
  pose proof (rank_lt _ _ N noise (tb_ls tb) HM HN Hsum Hls a j t Nt) as Hr.
  pose proof (pre_from_le _ _ N noise (tb_ls tb) HM HN Hsum Hls t a Ht Ha) as Hp.
  destruct (ls_ok_fwd (size t) (tb_ls tb t) (pre t a + rank a j) (Hls t Ht)) as (i & Hi & Ei & _); [lia|].
  apply get_Ok in Ei. rewrite (nth_error_nth _ _ _ Ei). exact Hi.
Qed.

(** Taking from the shuffled lists at [pos] is taking from the inputs. *)
Lemma pos_nth {A} (d : A) (ins : list (list A)) a j : (a < N)%nat -> (j < count a)%nat ->
  (forall s, (s < N)%nat -> length (nth s ins []) = count s) ->
  nth_error (pick d (received (fst (pos a j)) ins) (ls_backward (tb_ls tb (fst (pos a j))))) (snd (pos a j)) =
  nth_error (nth a ins []) j.
Proof using All.
  tabs. intros Ha Hj L. unfold ParForwardProofs.pos. cbn [fst snd].
  destruct (get_lt (tgt a) j) as (t & _ & Nt); [rewrite (tgt_len _ _ N noise (tb_ls tb)) by assumption; exact Hj|].
  rewrite (nth_error_nth _ _ _ Nt).
  assert (Ht : (t < N)%nat) by (eapply tgt_lt; eauto).
  pose proof (rank_lt _ _ N noise (tb_ls tb) HM HN Hsum Hls a j t Nt) as Hr.
  pose proof (pre_from_le _ _ N noise (tb_ls tb) HM HN Hsum Hls t a Ht Ha) as Hp.
  destruct (ls_ok_fwd (size t) (tb_ls tb t) (pre t a + rank a j) (Hls t Ht)) as (i & Hi & Ei & Nb); [lia|].
  apply get_Ok in Ei. rewrite (nth_error_nth _ _ _ Ei).
  destruct (get_lt (nth a ins []) j) as (x & _ & Nx); [rewrite L by exact Ha; exact Hj|]. rewrite Nx.
  eapply pick_nth; [exact Nb|].
  rewrite (received_nth _ _ N noise (tb_ls tb) HM HN Hsum Hls ins t a (rank a j) Ht Ha L Hr).
  rewrite (stream_nth _ _ N noise (tb_ls tb) HM HN Hsum Hls ins a j t Ha (L a Ha) Nt). exact Nx.
Qed.

Lemma pos_inj a j a' j' : (a < N)%nat -> (a' < N)%nat -> (j < count a)%nat -> (j' < count a')%nat ->
  pos a j = pos a' j' -> a = a' /\ j = j'.
Proof using All.
  intros Ha Ha' Hj Hj' E.
  (* label every input by its own coordinates *)
  set (ins := map (fun a => map (fun j => (a, j)) (seq 0 (count a))) (seq 0 N)).
  assert (Ei : forall s, (s < N)%nat -> nth s ins [] = map (fun j => (s, j)) (seq 0 (count s))).
  { intros s Hs. unfold ins. apply nth_error_nth. rewrite nth_error_map_seq by exact Hs. reflexivity. }
  assert (L : forall s, (s < N)%nat -> length (nth s ins []) = count s).
  { intros s Hs. rewrite Ei by exact Hs. rewrite map_length, seq_length. reflexivity. }
  pose proof (pos_nth (0, 0)%nat ins a j Ha Hj L) as P. pose proof (pos_nth (0, 0)%nat ins a' j' Ha' Hj' L) as P'.
  rewrite E, P', !Ei, !nth_error_map_seq in P by assumption. inversion P. auto.
Qed.

Lemma pos_surj t i : (t < N)%nat -> (i < size t)%nat -> exists a j, (a < N)%nat /\ (j < count a)%nat /\ pos a j = (t, i).
Proof using All.
  tabs. intros Ht Hi. destruct (ls_ok_bwd (size t) (tb_ls tb t) i (Hls t Ht) Hi) as (q & Hq & Eq & Nq).
  pose proof Hq as Hq'. rewrite <- (from_sum _ _ N noise (tb_ls tb) HM HN Hsum Hls t Ht) in Hq'.
  destruct (section_find (from t) q N Hq') as (s & r & Hs & Hr & Eqr).
  assert (Hlen : (r < length (positions t (tgt s)))%nat) by (rewrite positions_length; exact Hr).
  destruct (get_lt (positions t (tgt s)) r Hlen) as (j & _ & Nj). apply positions_inv in Nj. destruct Nj as (Nj & Er).
  exists s, j. split; [exact Hs|]. split.
  { rewrite <- (tgt_len _ _ N noise (tb_ls tb) HM HN Hsum Hls s Hs). apply nth_error_Some. congruence. }
  unfold ParForwardProofs.pos, ParForwardProofs.rank. rewrite (nth_error_nth _ _ _ Nj), <- Er. f_equal.
  apply nth_error_nth. rewrite <- Nq. f_equal. symmetry. exact Eqr.
Qed.

(** ** A server between the stages *)
Definition par_ok (rps : list pready) (nq : nat -> list query) : Prop :=
  length rps = N /\
  forall a rp, nth_error rps a = Some rp ->
    pr_noise rp = Z.of_nat (noise a) /\ pr_input rp = Z.of_nat (inp a) /\ pr_shuffled rp = Z.of_nat (size a) /\
    pr_sh rp = shuf a /\ pr_tags rp = bt_initialize 0 (inp a) /\ length (bt_data (pr_queries rp)) = count a /\
    length (nq a) = noise a /\ firstn (noise a) (bt_data (pr_queries rp)) = nq a.

Lemma handle_query_same p p' q h : handles p q h -> qs_map p' = qs_map p -> qs_sim p' = qs_sim p ->
  handle_query p' q = Ok (h, qs_load p' (q_tag q)).
Proof.
  intros (p1 & H) Em Es. unfold handle_query, qs_next_tag, qs_incremental, qs_load in *. cbn [qs_it] in *.
  rewrite Em, Es. destruct (find_tag _ _); cbn [ptr bind] in *; [|discriminate]. inversion H. reflexivity.
Qed.

Lemma collect_queries_spec rp n0 sent handled nq :
  pr_noise rp = Z.of_nat n0 -> pr_tags rp = bt_initialize 0 (length sent) ->
  length (bt_data (pr_queries rp)) = (n0 + length sent)%nat -> length nq = n0 -> firstn n0 (bt_data (pr_queries rp)) = nq ->
  Forall2 (handles (pr_state rp)) sent handled ->
  exists rp', collect_queries rp sent = Ok rp' /\
    pr_noise rp' = pr_noise rp /\ pr_input rp' = pr_input rp /\ pr_shuffled rp' = pr_shuffled rp /\ pr_sh rp' = pr_sh rp /\
    qs_map (pr_state rp') = qs_map (pr_state rp) /\ qs_sim (pr_state rp') = qs_sim (pr_state rp) /\
    bt_data (pr_tags rp') = map q_tag sent /\ bt_data (pr_queries rp') = nq ++ handled.
Proof.
  intros En Et Lq Ln Eq HH. unfold collect_queries. rewrite Lq, En, Nat2Z.id.
  replace (n0 + length sent - n0)%nat with (length sent) by lia. rewrite recv_all by reflexivity. cbn [bind].
  assert (G : forall rest hrest done hdone p qs, Forall2 (handles (pr_state rp)) rest hrest ->
    qs_map p = qs_map (pr_state rp) -> qs_sim p = qs_sim (pr_state rp) ->
    length hdone = length done ->
    length (bt_data qs) = (n0 + length done + length rest)%nat -> firstn (n0 + length done) (bt_data qs) = nq ++ hdone ->
    exists p' qs' right, fold_res (fun s q =>
      let '(read, p, tags, qs) := s in
      let* tags' := bt_push tags (q_tag q) in
      let* h := handle_query p q in
      let* qs' := bt_set qs read (fst h) in
      Ok (S read, snd h, tags', qs')) rest
      ((n0 + length done)%nat, p, {| bt_data := map q_tag done ++ repeat 0 (length rest); bt_right := length done |}, qs) =
      Ok ((n0 + length (done ++ rest))%nat, p', {| bt_data := map q_tag (done ++ rest); bt_right := right |}, qs') /\
      qs_map p' = qs_map (pr_state rp) /\ qs_sim p' = qs_sim (pr_state rp) /\ bt_data qs' = nq ++ hdone ++ hrest).
  { clear - Ln. induction rest as [|q rest IH]; intros hrest done hdone p qs HH Em Es Lh Lqs Fq; inversion HH; subst; cbn [fold_res length repeat].
    - exists p, qs, (length done). rewrite !app_nil_r. split; [reflexivity|]. split; [assumption|]. split; [assumption|].
      rewrite <- Fq. symmetry. apply firstn_all2. cbn in Lqs. lia.
    - pose proof (push_rest (map q_tag done) (q_tag q) (map q_tag rest) 0 (length done) ltac:(rewrite map_length; reflexivity)) as Hp.
      rewrite (map_length q_tag rest) in Hp. cbn [repeat] in Hp. rewrite Hp. cbn [bind].
      rewrite (handle_query_same (pr_state rp) p q y) by assumption. cbn [bind fst snd].
      cbn [length] in Lqs. unfold bt_set. rewrite set_Ok by lia. cbn [bind].
      destruct (IH l' (done ++ [q]) (hdone ++ [y]) (qs_load p (q_tag q)) {| bt_data := upd (bt_data qs) (length nq + length done) y; bt_right := bt_right qs |})
        as (p' & qs' & right & E & E1 & E2 & E3); auto.
      + rewrite !app_length. cbn. lia.
      + cbn [bt_data]. rewrite length_upd, app_length. cbn [length]. lia.
      + cbn [bt_data]. rewrite app_length. cbn [length].
        replace (length nq + (length done + 1))%nat with (S (length nq + length done)) by lia.
        rewrite (firstn_S_snoc _ _ y) by (apply nth_error_upd_eq; lia).
        rewrite app_assoc. f_equal. rewrite <- Fq. clear. revert y.
        generalize (length nq + length done)%nat as n. generalize (bt_data qs) as l.
        induction l as [|h l IH]; intros [|n] y; cbn [upd firstn]; try reflexivity. rewrite IH. reflexivity.
      + exists p', qs', right. rewrite <- !app_assoc in *. cbn [app] in *. split; [|auto].
        rewrite map_app, <- app_assoc, app_length in E. cbn [map app length] in E.
        replace (length nq + (length done + 1))%nat with (S (length nq + length done)) in E by lia.
        rewrite app_length, map_length. cbn [length]. exact E. }
  destruct (G sent handled [] [] (pr_state rp) (pr_queries rp) HH eq_refl eq_refl eq_refl) as (p' & qs' & right & E & E1 & E2 & E3).
  { cbn [length]. lia. }
  { cbn [length]. rewrite Nat.add_0_r, app_nil_r. exact Eq. }
  cbn [length app map] in E. rewrite Nat.add_0_r in E. rewrite Et. unfold bt_initialize.
  match goal with |- exists r, bind ?x _ = _ /\ _ => replace x with
    (Ok ((n0 + length sent)%nat, p', {| bt_data := map q_tag sent; bt_right := right |}, qs')) by (symmetry; exact E) end.
  cbn [bind]. eexists. split; [reflexivity|]. cbn [pr_noise pr_input pr_shuffled pr_sh pr_state pr_tags pr_queries].
  repeat (split; [first [reflexivity|assumption]|]). exact E3.
Qed.

(** After CollectQueries. *)
Definition par_ok' (rps : list pready) (sent : list (list query)) : Prop :=
  length rps = N /\
  forall a rp, nth_error rps a = Some rp ->
    pr_noise rp = Z.of_nat (noise a) /\ pr_input rp = Z.of_nat (inp a) /\ pr_shuffled rp = Z.of_nat (size a) /\
    pr_sh rp = shuf a /\ bt_data (pr_tags rp) = map q_tag (nth a sent []).
Definition same_state (rps rps' : list pready) : Prop :=
  forall a rp rp', nth_error rps a = Some rp -> nth_error rps' a = Some rp' ->
    qs_map (pr_state rp') = qs_map (pr_state rp) /\ qs_sim (pr_state rp') = qs_sim (pr_state rp).

Lemma nth_len {A} (l : list (list A)) n : length l = n -> forall a, (a < n)%nat -> nth_error l a = Some (nth a l []).
Proof. intros L a Ha. apply nth_error_nth'. lia. Qed.

Lemma bt_set_rep (b : batch query) l i x : bt_data b = l -> (i < length l)%nat -> True ->
  exists b', bt_set b i x = Ok b' /\ bt_data b' = upd l i x.
Proof. intros <- Hi _. unfold bt_set. rewrite set_Ok by exact Hi. cbn [bind]. eexists; split; reflexivity. Qed.

Lemma map_res_nth {A B} (f : A -> res B) l r i a : map_res f l = Ok r -> nth_error l i = Some a ->
  exists b, f a = Ok b /\ nth_error r i = Some b.
Proof.
  revert r i; induction l as [|x l IH]; intros r i H Hn; [destruct i; discriminate|].
  cbn [map_res] in H. destruct (f x) as [y| | |] eqn:Ex; try discriminate. cbn [bind] in H.
  destruct (map_res f l) as [ys| | |] eqn:El; try discriminate. cbn [bind] in H. inversion H; subst r.
  destruct i as [|i]; cbn [nth_error] in *; [inversion Hn; subst; eauto|]. apply (IH ys i eq_refl Hn).
Qed.

Lemma par_forward_spec rps nq sent handled order :
  par_ok rps nq -> length sent = N -> length handled = N ->
  (forall a, (a < N)%nat -> length (nth a sent []) = inp a) ->
  (forall a rp, nth_error rps a = Some rp -> Forall2 (handles (pr_state rp)) (nth a sent []) (nth a handled [])) ->
  complete N from order ->
  let ins := map (fun a => nq a ++ nth a handled []) (seq 0 N) in
  exists rps' outs, par_forward rps sent order = Ok (rps', outs) /\ par_ok' rps' sent /\ same_state rps rps' /\
    outs = map (fun t => pick zero_query (received t ins) (ls_backward (tb_ls tb t))) (seq 0 N).
Proof using All.
  tabs. intros (Lr & Hr) Ls Lh Hsl Hh Ho ins. unfold par_forward. rewrite Lr.
  assert (G1 : exists rps', map_res (fun i => let* rp := get rps i in let* s := get sent i in collect_queries rp s) (seq 0 N) = Ok rps' /\
     forall i a rp', nth_error (seq 0 N) i = Some a -> nth_error rps' i = Some rp' ->
       exists rp, nth_error rps a = Some rp /\
       pr_noise rp' = pr_noise rp /\ pr_input rp' = pr_input rp /\ pr_shuffled rp' = pr_shuffled rp /\ pr_sh rp' = pr_sh rp /\
       qs_map (pr_state rp') = qs_map (pr_state rp) /\ qs_sim (pr_state rp') = qs_sim (pr_state rp) /\
       bt_data (pr_tags rp') = map q_tag (nth a sent []) /\ bt_data (pr_queries rp') = nq a ++ nth a handled []).
  { apply (map_res_exists (fun i => let* rp := get rps i in let* s := get sent i in collect_queries rp s)
      (fun a rp' => exists rp, nth_error rps a = Some rp /\
       pr_noise rp' = pr_noise rp /\ pr_input rp' = pr_input rp /\ pr_shuffled rp' = pr_shuffled rp /\ pr_sh rp' = pr_sh rp /\
       qs_map (pr_state rp') = qs_map (pr_state rp) /\ qs_sim (pr_state rp') = qs_sim (pr_state rp) /\
       bt_data (pr_tags rp') = map q_tag (nth a sent []) /\ bt_data (pr_queries rp') = nq a ++ nth a handled [])).
    intros a Ha. apply in_seq in Ha. destruct (get_lt rps a) as (rp & Erp & Nrp); [lia|]. rewrite Erp. cbn [bind].
    unfold get. rewrite (nth_len sent N Ls a) by lia. cbn [bind].
    destruct (Hr a rp Nrp) as (E1 & E2 & E3 & E4 & E5 & E6 & E7 & E8).
    assert (Hi : length (nth a sent []) = inp a) by (apply Hsl; lia).
    assert (Hcount : (count a = noise a + inp a)%nat) by (unfold inp; specialize (Hnoise a ltac:(lia)); lia).
    destruct (collect_queries_spec rp (noise a) (nth a sent []) (nth a handled []) (nq a)) as (rp' & E' & F); auto.
    - rewrite Hi. exact E5.
    - rewrite Hi, E6. exact Hcount.
    - exists rp'. split; [exact E'|]. exists rp. split; [exact Nrp|exact F]. }
  destruct G1 as (rps' & E & G1). rewrite E. cbn [bind].
  pose proof (map_res_length _ _ _ E) as Lr'. rewrite seq_length in Lr'.
  assert (G2 : forall a, (a < N)%nat -> exists rp rp', nth_error rps a = Some rp /\ nth_error rps' a = Some rp' /\
       pr_noise rp' = pr_noise rp /\ pr_input rp' = pr_input rp /\ pr_shuffled rp' = pr_shuffled rp /\ pr_sh rp' = pr_sh rp /\
       qs_map (pr_state rp') = qs_map (pr_state rp) /\ qs_sim (pr_state rp') = qs_sim (pr_state rp) /\
       bt_data (pr_tags rp') = map q_tag (nth a sent []) /\ bt_data (pr_queries rp') = nq a ++ nth a handled []).
  { intros a Ha. destruct (get_lt rps' a) as (rp' & _ & Nrp'); [lia|].
    destruct (G1 a a rp' (nth_error_seq 0 N a Ha) Nrp') as (rp & Nrp & F). exists rp, rp'. auto. }
  assert (Esh : map pr_sh rps' = map shuf (seq 0 N)).
  { apply nth_error_ext. intros a. destruct (Nat.lt_ge_cases a N) as [Ha|Ha].
    - destruct (G2 a Ha) as (rp & rp' & N1 & N2 & F). rewrite nth_error_map, N2, nth_error_map_seq by exact Ha. cbn.
      destruct (Hr a rp N1) as (E1 & E2 & E3 & E4 & _). f_equal. rewrite <- E4. apply F.
    - rewrite !(proj2 (nth_error_None _ _)); [reflexivity| |]; rewrite map_length, ?seq_length; lia. }
  assert (Esz : map pr_shuffled rps' = map (fun t => Z.of_nat (size t)) (seq 0 N)).
  { apply nth_error_ext. intros a. destruct (Nat.lt_ge_cases a N) as [Ha|Ha].
    - destruct (G2 a Ha) as (rp & rp' & N1 & N2 & F). rewrite nth_error_map, N2, nth_error_map_seq by exact Ha. cbn.
      destruct (Hr a rp N1) as (E1 & E2 & E3 & E4 & _). f_equal. rewrite <- E3. apply F.
    - rewrite !(proj2 (nth_error_None _ _)); [reflexivity| |]; rewrite map_length, ?seq_length; lia. }
  assert (Eins : map (fun rp => bt_all (pr_queries rp)) rps' = ins).
  { unfold ins. apply nth_error_ext. intros a. destruct (Nat.lt_ge_cases a N) as [Ha|Ha].
    - destruct (G2 a Ha) as (rp & rp' & N1 & N2 & F). rewrite nth_error_map, N2, nth_error_map_seq by exact Ha. cbn.
      f_equal. apply F.
    - rewrite !(proj2 (nth_error_None _ _)); [reflexivity| |]; rewrite map_length, ?seq_length; lia. }
  rewrite Esh, Esz, Eins.
  assert (Lins : forall s, (s < N)%nat -> length (nth s ins []) = count s).
  { intros s Hs. unfold ins. rewrite (nth_error_nth _ _ _ (nth_error_map_seq (fun a => nq a ++ nth a handled []) N s Hs)).
    destruct (G2 s Hs) as (rp & rp' & N1 & N2 & F). destruct (Hr s rp N1) as (_ & _ & _ & _ & _ & _ & Ln & _).
    pose proof (Hh s rp N1) as HF. apply Forall2_len in HF. rewrite app_length, <- HF, Hsl, Ln by exact Hs.
    unfold inp. specialize (Hnoise s Hs). lia. }
  destruct (par_shuffle_spec (tb_M tb) (tb_counts tb) N noise (tb_ls tb) HM HN Hsum Hls
    (fun b l => bt_data b = l) (fun _ : query => True) bt_set bt_set_rep zero_query ins
    (map (fun rp => bt_initialize zero_query (Z.to_nat (pr_shuffled rp))) rps') order) as (outs & Eo & Lo & Ho').
  - unfold ins. rewrite map_length, seq_length. reflexivity.
  - rewrite map_length. exact Lr'.
  - exact Lins.
  - auto.
  - intros t e Ne. exists (bt_data e). split; [reflexivity|]. rewrite nth_error_map in Ne.
    destruct (nth_error rps' t) as [rp'|] eqn:N2; [|discriminate]. inversion Ne; subst e. cbn [bt_initialize bt_data].
    rewrite repeat_length. assert (Ht : (t < N)%nat) by (rewrite <- Lr'; apply nth_error_Some; congruence).
    assert (Some (pr_shuffled rp') = Some (Z.of_nat (size t))) as Eq.
    { transitivity (nth_error (map pr_shuffled rps') t); [rewrite nth_error_map, N2; reflexivity|].
      rewrite Esz, nth_error_map_seq by exact Ht. reflexivity. }
    inversion Eq as [Eq']. rewrite Eq'. apply Nat2Z.id.
  - exact Ho.
  - rewrite Eo. cbn [bind]. exists rps', (map bt_all outs). split; [reflexivity|]. split; [|split].
    + split; [exact Lr'|]. intros a rp' N2.
      assert (Ha : (a < N)%nat) by (rewrite <- Lr'; apply nth_error_Some; congruence).
      destruct (G2 a Ha) as (rp & rp2 & N1 & N2' & F1 & F2 & F3 & F4 & F5 & F6 & F7 & F8).
      rewrite N2 in N2'. inversion N2'; subst rp2.
      destruct (Hr a rp N1) as (E1 & E2 & E3 & E4 & _). rewrite F1, F2, F3, F4. auto.
    + intros a rp rp' N1 N2. assert (Ha : (a < N)%nat) by (rewrite <- Lr'; apply nth_error_Some; congruence).
      destruct (G2 a Ha) as (rp1 & rp2 & N1' & N2' & F1 & F2 & F3 & F4 & F5 & F6 & _).
      rewrite N2 in N2'. inversion N2'; subst rp2. rewrite N1 in N1'. inversion N1'; subst rp1. auto.
    + apply nth_error_ext. intros t. destruct (Nat.lt_ge_cases t N) as [Ht|Ht].
      * rewrite nth_error_map_seq by exact Ht. rewrite nth_error_map. destruct (get_lt outs t) as (b & _ & Nb); [lia|].
        rewrite Nb. cbn. f_equal. apply (Ho' t b Nb).
      * rewrite !(proj2 (nth_error_None _ _)); [reflexivity| |]; rewrite map_length, ?seq_length; lia.
Qed.

(** ** Backward *)
(** Entry j of the backward map is noise exactly for the first ones. *)
Lemma positions_noise a t j i : nth_error (positions t (tgt a)) j = Some i ->
  ((i < noise a)%nat <-> (j < nfrom t a)%nat).
Proof.
  intros Hj. apply positions_inv in Hj. destruct Hj as [Hi ->]. unfold ParForwardProofs.nfrom.
  set (l := tgt a) in *. split; intros H.
  - assert (Hc : (cnt (firstn (S i) l) t <= cnt (firstn (noise a) l) t)%nat).
    { rewrite <- (firstn_skipn (S i) (firstn (noise a) l)), firstn_firstn, Nat.min_l by lia.
      rewrite count_occ_app. lia. }
    rewrite (firstn_S_snoc _ _ _ Hi), cnt_snoc, Nat.eqb_refl in Hc. lia.
  - destruct (Nat.lt_ge_cases i (noise a)) as [|G]; [assumption|].
    assert (Hc : (cnt (firstn (noise a) l) t <= cnt (firstn i l) t)%nat).
    { rewrite <- (firstn_skipn (noise a) (firstn i l)), firstn_firstn, Nat.min_l by lia.
      rewrite count_occ_app. lia. }
    lia.
Qed.

Lemma positions_inj a t t' r r' i : nth_error (positions t (tgt a)) r = Some i ->
  nth_error (positions t' (tgt a)) r' = Some i -> t = t' /\ r = r'.
Proof. intros H H'. apply positions_inv in H, H'. destruct H as (H & ->), H' as (H' & ->). rewrite H in H'. inversion H'. auto. Qed.

(** Message r from t is for input index(t, r). *)
Definition back_index (a t r : nat) : nat := nth (nfrom t a + r) (positions t (tgt a)) 0%nat.

Lemma back_index_spec a t r : (a < N)%nat -> (r < g t a)%nat ->
  nth_error (positions t (tgt a)) (nfrom t a + r) = Some (back_index a t r) /\
  (noise a <= back_index a t r < count a)%nat.
Proof using All.
  tabs. intros Ha Hr. unfold ParBackwardProofs.g in Hr.
  destruct (get_lt (positions t (tgt a)) (nfrom t a + r)) as (i & _ & Ni).
  { rewrite positions_length. change (cnt (tgt a) t) with (from t a). lia. }
  unfold back_index. rewrite (nth_error_nth _ _ _ Ni). split; [exact Ni|].
  pose proof (positions_noise a t _ _ Ni). apply positions_inv in Ni. destruct Ni as (Ni & _).
  assert ((i < length (tgt a))%nat) by (apply nth_error_Some; congruence).
  rewrite (tgt_len _ _ N noise (tb_ls tb) HM HN Hsum Hls a Ha) in *. lia.
Qed.

Section OneServer.
Variables (a : nat) (rp : pready) (tags : list Z) (masks : list (list Z)) (stream : nat -> list (list Z)).
Hypothesis Ha : (a < N)%nat.
Hypothesis Enoise : pr_noise rp = Z.of_nat (noise a).
Hypothesis Etags : bt_data (pr_tags rp) = tags.
Hypothesis Ltags : length tags = inp a.
Hypothesis Hmask : Forall2 (unmasks (pr_state rp)) tags masks.
Hypothesis Lstream : forall t, (t < N)%nat -> length (stream t) = g t a.
Hypothesis Bstream : forall t, (t < N)%nat -> Forall (bytes 52) (stream t).

Definition answered (c : nat -> nat) (st : pshuffler * batch (list Z)) : Prop :=
  (forall t, (t < N)%nat -> (c t <= g t a)%nat) /\
  ps_backward (fst st) = map (fun t => positions t (tgt a)) (seq 0 N) /\
  length (ps_backward_idx (fst st)) = N /\
  (forall t, (t < N)%nat -> nth_error (ps_backward_idx (fst st)) t =
     Some (if (c t =? 0)%nat then 0%nat else nfrom t a + c t)%nat) /\
  length (bt_data (snd st)) = inp a /\ Forall (bytes 52) (bt_data (snd st)) /\
  forall t r x, (t < N)%nat -> (r < c t)%nat -> nth_error (stream t) r = Some x ->
    nth_error (bt_data (snd st)) (back_index a t r - noise a) = Some (xorl x (nth (back_index a t r - noise a) masks [])).

Lemma answered_step c st t x : answered c st -> (t < N)%nat -> nth_error (stream t) (c t) = Some x ->
  exists st', response_from rp st (t, x) = Ok st' /\ answered (bump c t) st'.
Proof using All.
  intros (Hc & Hb & Li & Hi & Lo & Bo & Hd) Ht Nx. destruct st as [p out]. cbn [fst snd] in *.
  assert (Hr : (c t < g t a)%nat) by (rewrite <- Lstream by exact Ht; apply nth_error_Some; congruence).
  destruct (back_index_spec a t (c t) Ha Hr) as (Nv & Hv).
  unfold response_from. cbn [fst snd]. rewrite Hb, get_map by exact Ht. cbn [bind].
  rewrite Enoise.
  destruct (skip_noise_spec t (Z.of_nat (noise a)) (positions t (tgt a)) (length (positions t (tgt a))) p
     (if (c t =? 0)%nat then 0%nat else nfrom t a + c t)%nat (nfrom t a + c t) (back_index a t (c t)))
    as (p' & E' & F1 & F2).
  - rewrite Hb, nth_error_map_seq by exact Ht. reflexivity.
  - apply Hi. exact Ht.
  - destruct (Nat.eqb_spec (c t) 0); lia.
  - assert ((nfrom t a + c t < length (positions t (tgt a)))%nat) by (apply nth_error_Some; congruence). lia.
  - exact Nv.
  - lia.
  - intros i u Hiu Nu. apply Nat2Z.inj_lt. apply (positions_noise a t i u Nu).
    destruct (Nat.eqb_spec (c t) 0); lia.
  - rewrite E'. cbn [bind fst snd]. rewrite Nat2Z.id.
    set (k := (back_index a t (c t) - noise a)%nat).
    assert (Hk : (k < inp a)%nat) by (unfold k, inp; lia).
    unfold bt_get. rewrite Etags. destruct (get_lt tags k) as (tag & Etg & Ntg); [lia|]. rewrite Etg. cbn [bind].
    destruct (get_lt (bt_data out) k) as (old & Eold & Nold); [lia|]. rewrite Eold. cbn [bind].
    assert (Lm : length masks = inp a) by (rewrite <- Ltags; symmetry; eapply Forall2_len; exact Hmask).
    destruct (get_lt masks k) as (m & _ & Nm); [lia|].
    assert (Um : unmasks (pr_state rp) tag m).
    { eapply Forall2_nth_err; eassumption. }
    destruct Um as (Up & Ub).
    assert (Bx : bytes 52 x) by (eapply Forall_forall; [apply (Bstream t Ht)|eapply nth_error_In; exact Nx]).
    assert (Bold : bytes 52 old) by (eapply Forall_forall; [exact Bo|eapply nth_error_In; exact Nold]).
    unfold handle_response. rewrite Up. cbn [bind]. rewrite reconstruct_to by assumption. cbn [bind].
    unfold bt_set. rewrite set_Ok by lia. cbn [bind].
    eexists. split; [reflexivity|]. unfold answered. cbn [fst snd bt_data].
    split; [|split; [|split; [|split; [|split; [|split]]]]].
    + intros t' Ht'. destruct (Nat.eq_dec t' t) as [->|Hne]; [rewrite bump_eq; lia|rewrite bump_ne by exact Hne; apply Hc; exact Ht'].
    + congruence.
    + rewrite F2, length_upd. exact Li.
    + intros t' Ht'. rewrite F2. destruct (Nat.eq_dec t' t) as [->|Hne].
      * rewrite nth_error_upd_eq by lia. rewrite bump_eq. cbn [Nat.eqb]. f_equal. lia.
      * rewrite nth_error_upd_ne by congruence. rewrite bump_ne by exact Hne. apply Hi. exact Ht'.
    + rewrite length_upd. exact Lo.
    + apply Forall_upd; [exact Bo|]. apply bytes_xorl; assumption.
    + intros t' r y Ht' Hr' Ny. destruct (Nat.eq_dec t' t) as [->|Hne].
      * rewrite bump_eq in Hr'. destruct (Nat.eq_dec r (c t)) as [->|Hner].
        -- rewrite Nx in Ny. inversion Ny; subst y. rewrite nth_error_upd_eq by (fold k; lia). fold k.
           rewrite (nth_error_nth _ _ _ Nm). reflexivity.
        -- rewrite nth_error_upd_ne; [apply Hd; auto; lia|].
           destruct (back_index_spec a t r Ha) as (Nv' & Hv'); [lia|].
           intros Eq. apply Hner. assert (back_index a t (c t) = back_index a t r) as Eb by (unfold k in Eq; lia).
           rewrite <- Eb in Nv'. destruct (positions_inj a t t _ _ _ Nv Nv') as (_ & Er). lia.
      * rewrite bump_ne in Hr' by exact Hne. rewrite nth_error_upd_ne; [apply Hd; auto|].
        pose proof (Hc t' Ht') as Hct. destruct (back_index_spec a t' r Ha) as (Nv' & Hv'); [lia|].
        intros Eq. apply Hne. assert (back_index a t (c t) = back_index a t' r) as Eb by (unfold k in Eq; lia).
        rewrite <- Eb in Nv'. destruct (positions_inj a t t' _ _ _ Nv Nv') as (Er & _). congruence.
Qed.
End OneServer.

Definition back_traffic (a t : nat) : nat := g t a.

Lemma par_backward_spec rps' sent tags (masks : nat -> list (list Z)) (replies : list (list (list Z))) order :
  par_ok' rps' sent ->
  (forall a, (a < N)%nat -> map q_tag (nth a sent []) = tags a /\ length (tags a) = inp a) ->
  (forall a rp, nth_error rps' a = Some rp -> Forall2 (unmasks (pr_state rp)) (tags a) (masks a)) ->
  length replies = N -> (forall t, (t < N)%nat -> length (nth t replies []) = size t /\ Forall (bytes 52) (nth t replies [])) ->
  complete N back_traffic order ->
  exists result, par_backward rps' replies order = Ok result /\ length result = N /\
    forall a, (a < N)%nat -> length (nth a result []) = inp a /\
      forall k, (k < inp a)%nat -> let p := pos a (noise a + k) in
        nth_error (nth a result []) k = Some (xorl (nth (snd p) (nth (fst p) replies []) []) (nth k (masks a) [])).
Proof using All.
  tabs. intros (Lr & Hr) Htags Hmask Lrep Hrep Ho. unfold par_backward. rewrite Lr.
  set (u := fun t => pick (@nil Z) (nth t replies []) (ls_forward (tb_ls tb t))).
  assert (Lu : forall t, (t < N)%nat -> length (u t) = size t).
  { intros t Ht. unfold u, pick. rewrite map_length. apply (Hls t Ht). }
  set (full := fun t => flat_map (fun s => sec t s (u t)) (seq 0 N)).
  rewrite (map_res_Ok _ (fun t => combine (owners t) (full t))).
  2:{ intros t Hin. apply in_seq in Hin. assert (Ht : (t < N)%nat) by lia.
      destruct (get_lt rps' t) as (rp & Erp & Nrp); [lia|]. rewrite Erp. cbn [bind].
      unfold get. rewrite (nth_len replies N Lrep t Ht). cbn [bind].
      destruct (Hr t rp Nrp) as (E1 & E2 & E3 & E4 & E5). destruct (Hrep t Ht) as (Lt & Bt).
      destruct (collect_responses_spec _ _ N noise (tb_ls tb) HM HN Hsum Hls Hnoise rp t (nth t replies []) [] Ht Lt E4 E3)
        as (b & Eb & Db).
      rewrite Eb. cbn [bind]. rewrite E4. rewrite (target_end_spec _ _ N noise (tb_ls tb) HM HN Hsum Hls Hnoise t 0) by lia. cbn [bind].
      unfold bt_all. rewrite Db. fold (u t). fold (full t).
      pose proof (route_back_spec _ _ N noise (tb_ls tb) HM HN Hsum Hls Hnoise t (full t) Ht 0 0 (Z.of_nat (gpre t 1))) as Rb.
      apply Rb.
      - cbn [Nat.add]. apply (all_sec_length _ _ N noise (tb_ls tb) HM HN Hsum Hls Hnoise); [exact Ht|apply Lu; exact Ht].
      - intros; lia.
      - reflexivity. }
  cbn [bind]. set (sends := map (fun t => combine (owners t) (full t)) (seq 0 N)).
  assert (G : forall a, (a < N)%nat -> exists r,
    (let* rp := get rps' a in
     let* c := deshuffle_counts rp N a in
     let* log := send_and_poll a (fst c) (snd c) sends (order a) in
     let* r := fold_res (response_from rp) log
                 (sh_ps (pr_sh rp), bt_initialize zero_response (Z.to_nat (pr_input rp))) in
     Ok (bt_all (snd r))) = Ok r /\ length r = inp a /\
      forall k, (k < inp a)%nat -> let p := pos a (noise a + k) in
        nth_error r k = Some (xorl (nth (snd p) (nth (fst p) replies []) []) (nth k (masks a) []))).
  { intros a Ha. destruct (get_lt rps' a) as (rp & Erp & Nrp); [lia|]. rewrite Erp. cbn [bind].
    destruct (Hr a rp Nrp) as (E1 & E2 & E3 & E4 & E5). destruct (Htags a Ha) as (Etg & Ltg).
    assert (Hsz : forall t, (t < N)%nat -> Z.of_nat (from t a) < 2 ^ 32).
    { intros t Ht. pose proof (size_lt _ _ N noise (tb_ls tb) HM HN Hsum Hls t Ht).
      pose proof (pre_from_le _ _ N noise (tb_ls tb) HM HN Hsum Hls t a Ht Ha). lia. }
    unfold deshuffle_counts. rewrite E4.
    rewrite (map_res_Ok _ (fun t => g t a)).
    2:{ intros t Hin. apply in_seq in Hin. assert (Ht : (t < N)%nat) by lia.
        unfold ps_count_to, ps_count_noise_to. cbn [ParForwardProofs.shuf sh_ps ps_to ps_to_noise ps_spec].
        rewrite !get_map by exact Ht. cbn [bind]. f_equal.
        change (cnt (sect (tb_M tb) (tb_counts tb) a) t) with (from t a).
        change (cnt (firstn (noise a) (sect (tb_M tb) (tb_counts tb) a)) t) with (nfrom t a).
        pose proof (nfrom_le (tb_M tb) (tb_counts tb) noise t a). specialize (Hsz t Ht).
        rewrite w32_id by (unfold u32; lia). unfold ParBackwardProofs.g. lia. }
    cbn [bind]. rewrite get_map by exact Ha. cbn [bind fst snd].
    assert (Htl : forall x, In x (tgt a) -> (x < N)%nat).
    { intros x Hx. apply In_nth_error in Hx. destruct Hx as (j & Hx). eapply tgt_lt; eauto. }
    assert (Hg : sum (map (fun t => g t a) (seq 0 N)) = inp a).
    { unfold ParBackwardProofs.g. rewrite (sum_sub (fun t => from t a) (fun t => nfrom t a)) by (intros; apply nfrom_le).
      pose proof (sum_cnt (tgt a) N Htl) as S1. pose proof (sum_cnt (firstn (noise a) (tgt a)) N) as S2.
      change (sum (map (fun t => from t a) (seq 0 N))) with (sum (map (cnt (tgt a)) (seq 0 N))).
      change (sum (map (fun t => nfrom t a) (seq 0 N))) with (sum (map (cnt (firstn (noise a) (tgt a))) (seq 0 N))).
      rewrite S1, S2.
      2:{ intros x Hx. apply Htl. rewrite <- (firstn_skipn (noise a)). apply in_or_app. left. exact Hx. }
      rewrite firstn_length, (tgt_len _ _ N noise (tb_ls tb) HM HN Hsum Hls a Ha). specialize (Hnoise a Ha).
      rewrite Nat.min_l by exact Hnoise. reflexivity. }
    assert (Hinp : Z.of_nat (inp a) < 2 ^ 32).
    { unfold inp. destruct HM as (LN & _). assert (nth a (tb_counts tb) 0 <= sum (tb_counts tb))%nat.
      { clear - LN Ha. revert a Ha. revert N LN. induction (tb_counts tb) as [|c cs IH]; intros N' LN [|a] Ha; cbn in *; try lia.
        specialize (IH _ eq_refl a). cbn in IH. unfold sum in *. lia. }
      lia. }
    destruct (Ho a Ha) as (Ho1 & Ho2).
    assert (Lsec : forall t, (t < N)%nat -> length (sec t a (u t)) = g t a).
    { intros t Ht. apply (sec_length _ _ N noise (tb_ls tb) HM HN Hsum Hls Hnoise); [exact Ht|exact Ha|apply Lu; exact Ht]. }
    destruct (send_and_poll_spec (response_from rp)
      (answered a (masks a) (fun t => sec t a (u t))) N a (fun t => sec t a (u t))
      (map (fun t => g t a) (seq 0 N)) (w32 (pr_input rp - Z.of_nat (g a a))) sends (order a)
      (sh_ps (shuf a), bt_initialize zero_response (Z.to_nat (pr_input rp))))
      as (log & st' & c' & El & Ef & Ia & Hc'); auto.
    - unfold sends. rewrite map_length, seq_length. reflexivity.
    - intros t snt Ht Ns. unfold sends in Ns. rewrite nth_error_map_seq in Ns by exact Ht. inversion Ns.
      change (outgoing a (combine (owners t) (full t))) with (addressed_to a (owners t) (full t)).
      unfold ParBackwardProofs.owners, full. rewrite addressed_sections.
      + destruct (Nat.leb_spec 0 a), (Nat.ltb_spec a (0 + N)); try lia. reflexivity.
      + intros s Hs. apply (sec_length _ _ N noise (tb_ls tb) HM HN Hsum Hls Hnoise); [exact Ht|lia|apply Lu; exact Ht].
    - intros t Ht _. rewrite nth_error_map_seq by exact Ht. rewrite Lsec by exact Ht. reflexivity.
    - rewrite (sum_ext _ (fun t => if (t =? a)%nat then 0%nat else g t a)).
      2:{ intros t Hin. apply in_seq in Hin. rewrite Lsec by lia. reflexivity. }
      rewrite (sum_except (fun t => g t a)) by exact Ha. rewrite Hg, E2.
      pose proof (sum_seq_lt (fun t => g t a) a N Ha) as Hle. rewrite Hg in Hle.
      rewrite w32_id by (unfold u32; lia). lia.
    - unfold answered. cbn [fst snd]. rewrite E2, Nat2Z.id.
      split; [intros; lia|]. split; [reflexivity|].
      split; [cbn [ParForwardProofs.shuf sh_ps ps_backward_idx ps_spec]; apply repeat_length|].
      split.
      { intros t Ht. cbn [ParForwardProofs.shuf sh_ps ps_backward_idx ps_spec Nat.eqb].
        rewrite nth_error_nth' with (d := 0%nat) by (rewrite repeat_length; exact Ht). rewrite nth_repeat. reflexivity. }
      split; [apply repeat_length|]. split; [apply Forall_bytes_zero|]. intros; lia.
    - intros c st t x Iv Ht Nx.
      apply (answered_step a rp (tags a) (masks a) (fun t => sec t a (u t)) Ha E1) with (c := c) (st := st); auto.
      + rewrite E5. exact Etg.
      + intros t' Ht'. apply Forall_forall. intros y Hy. apply In_nth_error in Hy. destruct Hy as (r & Ny).
        assert (Hrg : (r < g t' a)%nat) by (rewrite <- Lsec by exact Ht'; apply nth_error_Some; congruence).
        rewrite (sec_nth _ _ N noise (tb_ls tb) HM HN Hsum Hls Hnoise) in Ny by exact Hrg.
        destruct (Hrep t' Ht') as (Lt & Bt). unfold u, pick in Ny. rewrite nth_error_map in Ny.
        destruct (nth_error (ls_forward (tb_ls tb t')) _) as [j|] eqn:Ej; [|discriminate]. inversion Ny; subst y.
        rewrite Forall_forall in Bt. apply Bt. apply nth_In. rewrite Lt.
        destruct (Hls t' Ht') as (_ & _ & P & _). apply nth_error_In in Ej. apply Permutation_sym in P.
        apply (Permutation_in _ P) in Ej. apply in_seq in Ej. lia.
    - intros t Ht. rewrite Lsec by exact Ht. apply Ho2. exact Ht.
    - rewrite El. cbn [bind].
      match goal with |- exists b, bind ?x _ = _ /\ _ => replace x with (Ok (A := pshuffler * batch (list Z)) st') by (symmetry; exact Ef) end.
      cbn [bind]. unfold bt_all. eexists. split; [reflexivity|].
      destruct Ia as (_ & _ & _ & _ & Lo & _ & Hd). split; [exact Lo|].
      intros k Hk. set (j := (noise a + k)%nat) in *.
      assert (Hj : (j < count a)%nat) by (unfold j, inp in *; lia).
      destruct (get_lt (tgt a) j) as (t & _ & Nt).
      { rewrite (tgt_len _ _ N noise (tb_ls tb) HM HN Hsum Hls a Ha). exact Hj. }
      assert (Ht : (t < N)%nat) by (eapply tgt_lt; eauto).
      pose proof (positions_rank t (tgt a) j Nt) as Pj.
      assert (Erank : rank a j = cnt (firstn j (tgt a)) t) by (unfold ParForwardProofs.rank; rewrite (nth_error_nth _ _ _ Nt); reflexivity).
      rewrite <- Erank in Pj.
      assert (Hge : (nfrom t a <= rank a j)%nat).
      { destruct (Nat.le_gt_cases (nfrom t a) (rank a j)) as [|Hlt]; [assumption|exfalso].
        apply (positions_noise a t _ _ Pj) in Hlt. unfold j in Hlt. lia. }
      pose proof (rank_lt _ _ N noise (tb_ls tb) HM HN Hsum Hls a j t Nt) as Hrk.
      set (r := (rank a j - nfrom t a)%nat).
      assert (Hrg : (r < g t a)%nat) by (unfold r, ParBackwardProofs.g; lia).
      destruct (get_lt (sec t a (u t)) r) as (x & _ & Nx); [rewrite Lsec by exact Ht; exact Hrg|].
      assert (Ebi : back_index a t r = j).
      { unfold back_index, r. replace (nfrom t a + (rank a j - nfrom t a))%nat with (rank a j) by lia.
        apply nth_error_nth. exact Pj. }
      specialize (Hd t r x Ht). rewrite Hc' in Hd by exact Ht. rewrite Lsec in Hd by exact Ht.
      specialize (Hd Hrg Nx). rewrite Ebi in Hd. replace (j - noise a)%nat with k in Hd by (unfold j; lia).
      rewrite Hd. f_equal. f_equal. unfold ParForwardProofs.pos. cbn [fst snd]. rewrite (nth_error_nth _ _ _ Nt).
      rewrite (sec_nth _ _ N noise (tb_ls tb) HM HN Hsum Hls Hnoise) in Nx by exact Hrg.
      replace (nfrom t a + r)%nat with (rank a j) in Nx by (unfold r; lia).
      unfold u, pick in Nx. rewrite nth_error_map in Nx.
      destruct (nth_error (ls_forward (tb_ls tb t)) (pre t a + rank a j)) as [q|] eqn:Eq; [|discriminate].
      inversion Nx. rewrite (nth_error_nth _ _ _ Eq). reflexivity. }
  destruct (map_res_exists (fun a =>
     let* rp := get rps' a in
     let* c := deshuffle_counts rp N a in
     let* log := send_and_poll a (fst c) (snd c) sends (order a) in
     let* r := fold_res (response_from rp) log
                 (sh_ps (pr_sh rp), bt_initialize zero_response (Z.to_nat (pr_input rp))) in
     Ok (bt_all (snd r))) (fun a r => length r = inp a /\
      forall k, (k < inp a)%nat -> let p := pos a (noise a + k) in
        nth_error r k = Some (xorl (nth (snd p) (nth (fst p) replies []) []) (nth k (masks a) []))) (seq 0 N)) as (result & E & F).
  { intros a Hin. apply in_seq in Hin. apply G. lia. }
  exists result. split; [exact E|]. pose proof (map_res_length _ _ _ E) as L. rewrite seq_length in L. split; [exact L|].
  intros a Ha. apply (F a a (nth a result [])); [apply nth_error_seq; exact Ha|apply nth_len with (n := N); assumption].
Qed.
End Online.
