(** BroadcastSecrets. *)
From Verif Require Import Base BaseProofs Wire Incremental Shuffle ParShuffleProofs State StateProofs Handlers Batch Party Parallel Spec ParSpec
  ParMergeProofs PermFacts ParPartyProofs.

Lemma merge_fst {A} order : forall (boxes : list (list A)) log, merge order boxes = Ok log -> map fst log = order.
Proof.
  induction order as [|s order IH]; intros boxes log H; cbn [merge] in H.
  - destruct (forallb _ boxes); [|discriminate]. inversion H. reflexivity.
  - destruct (nth_error boxes s) as [[|x b]|]; try discriminate.
    destruct (merge order _) as [r| | |] eqn:E; try discriminate. cbn [bind] in H. inversion H. cbn. f_equal. eapply IH; exact E.
Qed.

(** Every message is handled exactly once. *)
Lemma send_and_poll_perm {A} (N self : nat) (stream : nat -> list A) wants total sends order :
  length sends = N -> (self < N)%nat ->
  (forall s snt, (s < N)%nat -> nth_error sends s = Some snt -> outgoing self snt = stream s) ->
  (forall s, (s < N)%nat -> s <> self -> nth_error wants s = Some (length (stream s))) ->
  total = Z.of_nat (sum (map (fun s => if (s =? self)%nat then 0%nat else length (stream s)) (seq 0 N))) ->
  (forall s, In s order -> (s < N)%nat) -> (forall s, (s < N)%nat -> cnt order s = length (stream s)) ->
  exists log, send_and_poll self wants total sends order = Ok log /\
    Permutation (map snd log) (flat_map stream (seq 0 N)).
Proof.
  intros Ls Hself Hout Hw Ht Hin Hc.
  destruct (send_and_poll_spec (fun (_ : unit) _ => Ok tt) (fun _ _ => True) N self stream wants total sends order tt)
    as (log & _ & _ & E & _); auto.
  { intros. exists tt. auto. }
  exists log. split; [exact E|].
  pose proof (send_and_poll_streams self wants total sends order log E) as Hstr. rewrite Ls in Hstr.
  assert (Ef : map fst log = order).
  { unfold send_and_poll in E. destruct (map_res _ _) as [boxes| | |]; try discriminate. cbn [bind] in E.
    destruct (total =? _); [|discriminate]. eapply merge_fst; exact E. }
  assert (Ec : combine (map fst log) (map snd log) = log) by (clear; induction log as [|[a b] l IH]; cbn; congruence).
  rewrite <- (addressed_all (map fst log) N) with (msgs := map snd log); [|rewrite Ef; exact Hin|rewrite !map_length; reflexivity].
  apply Permutation_flat_map_ext. intros s Hs. apply in_seq in Hs. unfold addressed_to. rewrite Ec.
  destruct (Hstr s ltac:(lia)) as (w & E1 & E2). rewrite E1.
  destruct (get_lt sends s) as (snt & _ & Ns); [lia|]. rewrite (nth_error_nth _ _ _ Ns), (Hout s snt) in E2 |- * by (try lia; exact Ns).
  rewrite Hc, firstn_length in E2 by lia. rewrite firstn_all2 by lia. reflexivity.
Qed.

Lemma NoDup_app_l {A} (l m : list A) : NoDup (l ++ m) -> NoDup l.
Proof. induction l as [|x l IH]; cbn; intros H; [constructor|]. inversion H; subst. constructor; [|auto]. intros I. apply H2. apply in_or_app. auto. Qed.

Section Broadcast.
Variables (pack : Z * stored -> osecret) (store : qstate -> osecret -> res qstate) (norm : osecret -> osecret) (a : bool).
Variables (iter : iteration) (states : list qstate) (order : nat -> list nat).
Hypothesis Hstore : forall p o, store p o = qs_store a p (norm o).
Hypothesis Hpack : forall p e, In p states -> In e (qs_map p) -> entry (norm (pack e)) = e.
Hypothesis Hiter : forall i m, Permutation (iter i m) m.
Notation N := (length states).
Notation held := (fun s => qs_map (nth s states qs_new)).
Hypothesis Htot : Z.of_nat (length (flat_map qs_map states)) < 2 ^ 32.
Hypothesis Horder : complete N (fun t s => if (s =? t)%nat then 0%nat else length (held s)) order.

Lemma all_held : flat_map qs_map states = flat_map held (seq 0 N).
Proof using All.
  rewrite flat_map_concat_map, (concat_nth_seq (map qs_map states) N) by apply map_length.
  apply flat_map_ext. intros s. change (@nil (Z * stored)) with (qs_map qs_new). apply map_nth.
Qed.
Lemma len_held l : (forall s, In s l -> (s < N)%nat) -> length (flat_map held l) = sum (map (fun s => length (held s)) l).
Proof using All. intros _. induction l as [|s l IH]; cbn; [reflexivity|]. rewrite app_length. unfold sum in IH. rewrite <- IH. reflexivity. Qed.

Definition stream_to (t s : nat) : list osecret := if (s =? t)%nat then [] else map pack (iter s (held s)).

Lemma outgoing_broadcast t i (l : list (Z * stored)) : (t < N)%nat ->
  outgoing t (flat_map (fun e => map (fun t => (t, pack e)) (filter (fun t => negb (t =? i)%nat) (seq 0 N))) l) =
  if (i =? t)%nat then [] else map pack l.
Proof using All.
  intros Ht. unfold outgoing.
  assert (H1 : forall e n b, filter (fun x => (fst x =? t)%nat) (map (fun t => (t, pack e)) (filter (fun t => negb (t =? i)%nat) (seq b n))) =
     if (b <=? t)%nat && (t <? b + n)%nat && negb (t =? i)%nat then [(t, pack e)] else []).
  { intros e. induction n as [|n IH]; intros b; cbn [seq filter map].
    - destruct (Nat.leb_spec b t), (Nat.ltb_spec t (b + 0)); cbn [andb]; try reflexivity; lia.
    - destruct (Nat.eqb_spec b i) as [Eb|Eb]; cbn [negb map filter fst].
      + rewrite IH. destruct (Nat.leb_spec (S b) t), (Nat.leb_spec b t), (Nat.ltb_spec t (S b + n)), (Nat.ltb_spec t (b + S n)), (Nat.eqb_spec t i);
          cbn [andb negb]; try reflexivity; lia.
      + destruct (Nat.eqb_spec b t) as [Et|Et]; rewrite IH.
        * destruct (Nat.leb_spec (S b) t), (Nat.leb_spec b t), (Nat.ltb_spec t (S b + n)), (Nat.ltb_spec t (b + S n)), (Nat.eqb_spec t i);
          cbn [andb negb]; try lia; rewrite Et; reflexivity.
        * destruct (Nat.leb_spec (S b) t), (Nat.leb_spec b t), (Nat.ltb_spec t (S b + n)), (Nat.ltb_spec t (b + S n)), (Nat.eqb_spec t i);
          cbn [andb negb]; try reflexivity; lia. }
  assert (H2 : forall l, map snd (filter (fun x => (fst x =? t)%nat) (flat_map (fun e => map (fun t => (t, pack e)) (filter (fun t => negb (t =? i)%nat) (seq 0 N))) l)) =
     if (i =? t)%nat then [] else map pack l).
  { induction l0 as [|e l0 IH]; cbn [flat_map]; [destruct (i =? t)%nat; reflexivity|].
    rewrite filter_app, map_app, IH, H1. destruct (Nat.leb_spec 0 t), (Nat.ltb_spec t (0 + N)); try lia. cbn [andb].
    rewrite (Nat.eqb_sym t i). destruct (i =? t)%nat; reflexivity. }
  apply H2.
Qed.

(** What server i handles, in some order. *)
Lemma broadcast_log i : (i < N)%nat ->
  let counts := map (fun p => Z.to_nat (w32 (Z.of_nat (length (qs_map p))))) states in
  exists log, send_and_poll i counts
     (sum32 (map (fun s => if (s =? i)%nat then 0 else Z.of_nat (nth s counts 0%nat)) (seq 0 N)))
     (map (fun i => flat_map (fun e => map (fun t => (t, pack e)) (filter (fun t => negb (t =? i)%nat) (seq 0 N))) (iter i (held i))) (seq 0 N))
     (order i) = Ok log /\
   Permutation (map snd log) (flat_map (stream_to i) (seq 0 N)).
Proof using All.
  intros Hi counts.
  pose proof all_held as Eall. pose proof (len_held (seq 0 N)) as Elen. rewrite <- Eall in Elen.
  assert (Hall : forall s, In s (seq 0 N) -> (s < N)%nat) by (intros s Hs; apply in_seq in Hs; lia). specialize (Elen Hall).
  assert (Hle : forall s, (s < N)%nat -> (length (held s) <= length (flat_map qs_map states))%nat).
  { intros s Hs. rewrite Elen. pose proof (ParForwardProofs.sum_seq_lt (fun s => length (held s)) s N Hs). cbn beta in *. lia. }
  assert (Hcnt : forall s, (s < N)%nat -> nth_error counts s = Some (length (held s))).
  { intros s Hs. unfold counts. rewrite nth_error_map, (nth_error_nth' states qs_new) by exact Hs. cbn [option_map]. f_equal.
    specialize (Hle s Hs). cbn beta in Hle. rewrite w32_id by (unfold u32; lia). apply Nat2Z.id. }
  assert (Lst : forall s, (s < N)%nat -> length (stream_to i s) = if (s =? i)%nat then 0%nat else length (held s)).
  { intros s Hs. unfold stream_to. destruct (s =? i)%nat; [reflexivity|]. rewrite map_length. apply Permutation_length, Hiter. }
  apply send_and_poll_perm; auto.
  - rewrite map_length, seq_length. reflexivity.
  - intros s snt Hs Ns. rewrite nth_error_map_seq in Ns by exact Hs. inversion Ns. apply outgoing_broadcast. exact Hi.
  - intros s Hs Hne. rewrite Hcnt by exact Hs. rewrite Lst by exact Hs. destruct (Nat.eqb_spec s i); [contradiction|reflexivity].
  - rewrite (map_ext_in _ (fun s => Z.of_nat (if (s =? i)%nat then 0%nat else length (held s)))).
    2:{ intros s Hs. specialize (Hall s Hs). rewrite (nth_error_nth _ _ _ (Hcnt s Hall)). destruct (s =? i)%nat; reflexivity. }
    rewrite <- (map_map (fun s => if (s =? i)%nat then 0%nat else length (held s)) Z.of_nat), sum32_spec.
    + f_equal. apply sum_ext. intros s Hs. specialize (Hall s Hs). rewrite Lst by exact Hall. destruct (s =? i)%nat; reflexivity.
    + apply Z.le_lt_trans with (2 := Htot). apply Nat2Z.inj_le. rewrite Elen. apply ParForwardProofs.sum_le.
      intros s Hs. destruct (s =? i)%nat; lia.
  - apply (Horder i Hi).
  - intros s Hs. rewrite Lst by exact Hs. apply (Horder i Hi). exact Hs.
Qed.

Lemma stream_entries i : (i < N)%nat ->
  Permutation (map entry (map norm (flat_map (stream_to i) (seq 0 N))) ++ held i) (flat_map qs_map states).
Proof using All.
  intros Hi. rewrite all_held.
  assert (E : forall l, (forall s, In s l -> (s < N)%nat) ->
    Permutation (map entry (map norm (flat_map (stream_to i) l))) (flat_map (fun s => if (s =? i)%nat then [] else held s) l)).
  { induction l as [|s l IH]; intros Hl; cbn [flat_map map]; [constructor|]. rewrite !map_app. apply Permutation_app; [|apply IH; intros; apply Hl; right; assumption].
    unfold stream_to. destruct (s =? i)%nat; [constructor|]. rewrite !map_map.
    assert (Hs : (s < N)%nat) by (apply Hl; left; reflexivity).
    rewrite (map_ext_in _ (fun e => e)), map_id; [apply Hiter|].
    intros e He. apply (Permutation_in _ (Hiter s _)) in He. apply (Hpack (nth s states qs_new)); [apply nth_In; exact Hs|exact He]. }
  rewrite (E (seq 0 N)) by (intros s Hs; apply in_seq in Hs; lia).
  replace N with (i + S (N - i - 1))%nat by lia. rewrite seq_app, !flat_map_app. cbn [seq flat_map Nat.add]. rewrite Nat.eqb_refl.
  assert (E2 : forall b n, (forall s, In s (seq b n) -> s <> i) -> flat_map (fun s => if (s =? i)%nat then [] else held s) (seq b n) = flat_map held (seq b n)).
  { intros b n. revert b. induction n as [|n IH]; intros b Hb; cbn; [reflexivity|]. rewrite IH by (intros s Hs; apply Hb; right; exact Hs).
    destruct (Nat.eqb_spec b i); [exfalso; apply (Hb b); [left; reflexivity|assumption]|reflexivity]. }
  rewrite !E2 by (intros s Hs; apply in_seq in Hs; lia). cbn [app].
  rewrite <- app_assoc. apply Permutation_app_head. apply Permutation_app_comm.
Qed.

Lemma broadcast_body i p : nth_error states i = Some p ->
  exists l, (let* p := get states i in
    let counts := map (fun p => Z.to_nat (w32 (Z.of_nat (length (qs_map p))))) states in
    let total := sum32 (map (fun s => if (s =? i)%nat then 0 else Z.of_nat (nth s counts 0%nat)) (seq 0 N)) in
    let* log := send_and_poll i counts total (map (fun i => flat_map (fun e => map (fun t => (t, pack e)) (filter (fun t => negb (t =? i)%nat) (seq 0 N))) (iter i (held i))) (seq 0 N)) (order i) in
    fold_res (fun p m => store p (snd m)) log p) = install_all a p l /\
    Permutation (map entry l ++ qs_map p) (flat_map qs_map states).
Proof using All.
  intros Np. assert (Hi : (i < N)%nat) by (apply nth_error_Some; congruence).
  destruct (broadcast_log i Hi) as (log & E & P). unfold get. rewrite Np. cbn [bind]. rewrite E. cbn [bind].
  exists (map norm (map snd log)). split.
  - clear - Hstore. revert p. induction log as [|m log IH]; intros p; cbn [fold_res map install_all]; [reflexivity|].
    unfold install_all. cbn [fold_res]. rewrite Hstore. destruct (qs_store a p _); cbn [bind]; auto. apply IH.
  - rewrite P. pose proof (stream_entries i Hi) as S0. cbn beta in S0. rewrite (nth_error_nth _ _ qs_new Np) in S0. exact S0.
Qed.

Lemma broadcast_spec : NoDup (map fst (flat_map qs_map states)) ->
  exists states', broadcast_secrets pack store iter states order = Ok states' /\ length states' = N /\
    forall i p p', nth_error states i = Some p -> nth_error states' i = Some p' ->
      qs_sim p' = qs_sim p /\ Permutation (qs_map p') (flat_map qs_map states).
Proof using All.
  intros ND. unfold broadcast_secrets.
  rewrite (map_res_Ok _ (fun i => flat_map (fun e => map (fun t => (t, pack e)) (filter (fun t => negb (t =? i)%nat) (seq 0 N))) (iter i (held i)))).
  2:{ intros i Hi. apply in_seq in Hi. unfold get. rewrite (nth_error_nth' states qs_new) by lia. reflexivity. }
  cbn [bind]. cbn zeta.
  match goal with |- exists st, map_res ?f _ = _ /\ _ =>
    destruct (map_res_exists f (fun i p' => forall p, nth_error states i = Some p ->
      qs_sim p' = qs_sim p /\ Permutation (qs_map p') (flat_map qs_map states)) (seq 0 N)) as (states' & E & F) end.
  - intros i Hi. apply in_seq in Hi. destruct (get_lt states i) as (p & _ & Np); [lia|].
    destruct (broadcast_body i p Np) as (l & E & P). cbn zeta in E. 
    destruct (install_spec a l p) as (p' & Ei & Es & Em).
    + apply (Permutation_map fst) in P. rewrite map_app, map_fst_entry in P. apply Permutation_sym in P.
      apply (Permutation_NoDup P) in ND. apply NoDup_app_l in ND. exact ND.
    + intros o Ho. apply find_tag_None. intros Hin.
      apply (Permutation_map fst) in P. rewrite map_app, map_fst_entry in P. apply Permutation_sym in P.
      apply (Permutation_NoDup P) in ND. clear - ND Ho Hin. apply in_map with (f := o_tag) in Ho.
      revert ND Ho. generalize (o_tag o) as t, (map o_tag l) as ts, Hin. clear. intros t ts.
      induction ts as [|x ts IH]; intros Hin ND Ho; [destruct Ho|]. cbn in ND. inversion ND as [|? ? N1 N2]; subst.
      destruct Ho as [->|Ho]; [|apply IH; auto; eapply N2]. apply N1. apply in_or_app. right. exact Hin.
    + exists p'. split; [rewrite <- Ei; exact E|]. intros p0 Np0. rewrite Np in Np0. inversion Np0; subst p0.
      split; [exact Es|]. rewrite Em. rewrite <- P. apply Permutation_app_tail. apply Permutation_sym, Permutation_rev.
  - exists states'. split; [exact E|]. pose proof (map_res_length _ _ _ E) as L. rewrite seq_length in L. split; [exact L|].
    intros i p p' Np Np'. assert (Hi : (i < N)%nat) by (apply nth_error_Some; congruence).
    apply (F i i p' (nth_error_seq 0 N i Hi) Np' p Np).
Qed.

Lemma broadcast_dup : a = true -> (0 < N)%nat -> Forall (fun p => NoDup (map fst (qs_map p))) states -> ~ NoDup (map fst (flat_map qs_map states)) ->
  broadcast_secrets pack store iter states order = Abort.
Proof using All.
  intros Ha HN Hown ND. unfold broadcast_secrets.
  rewrite (map_res_Ok _ (fun i => flat_map (fun e => map (fun t => (t, pack e)) (filter (fun t => negb (t =? i)%nat) (seq 0 N))) (iter i (held i)))).
  2:{ intros i Hi. apply in_seq in Hi. unfold get. rewrite (nth_error_nth' states qs_new) by lia. reflexivity. }
  cbn [bind]. cbn zeta.
  destruct (get_lt states 0) as (p & _ & Np); [lia|].
  destruct (broadcast_body 0 p Np) as (l & E & P). cbn zeta in E. 
  assert (Es : seq 0 N = 0%nat :: seq 1 (N - 1)) by (destruct N; [lia|cbn; rewrite Nat.sub_0_r; reflexivity]).
  match goal with |- map_res ?f (seq 0 N) = _ => assert (Ef : f 0%nat = install_all a p l) by exact E; set (body := f) in * end.
  rewrite Es. cbn [map_res]. rewrite Ef, Ha. rewrite install_dup; [reflexivity|].
  destruct (in_dec Z.eq_dec 0 [0]) as [_|H]; [|exfalso; apply H; left; reflexivity].
  assert (Hp : NoDup (map fst (qs_map p))) by (rewrite Forall_forall in Hown; apply Hown; eapply nth_error_In; exact Np).
  apply (Permutation_map fst) in P. rewrite map_app, map_fst_entry in P.
  assert (ND' : ~ NoDup (map o_tag l ++ map fst (qs_map p))).
  { intros H. apply ND. eapply Permutation_NoDup; [exact P|exact H]. }
  clear - ND' Hp. induction l as [|o l IH]; cbn [map app] in *; [contradiction|].
  destruct (in_dec Z.eq_dec (o_tag o) (map o_tag l)) as [I|I].
  { left. intros H. inversion H. contradiction. }
  destruct (find_tag (qs_map p) (o_tag o)) as [s|] eqn:Ef.
  { right. exists o. split; [left; reflexivity|congruence]. }
  apply find_tag_None in Ef. destruct IH as [IH|(o' & Ho' & IH)].
  - intros H. apply ND'. constructor; [|exact H]. intros Hin. apply in_app_or in Hin. tauto.
  - left. intros H. inversion H. contradiction.
  - right. exists o'. split; [right; exact Ho'|exact IH].
Qed.
End Broadcast.

Lemma find_tag_perm m m' t : NoDup (map fst m) -> Permutation m m' -> find_tag m' t = find_tag m t.
Proof.
  intros ND P. destruct (find_tag m t) as [s|] eqn:E.
  - apply find_tag_In.
    + eapply Permutation_NoDup; [apply Permutation_map; exact P|exact ND].
    + eapply Permutation_in; [exact P|]. clear - E. induction m as [|[t' s'] m IH]; cbn in *; [discriminate|].
      destruct (Z.eqb_spec t' t) as [->|Hne]; [left; congruence|right; auto].
  - apply find_tag_None in E. apply find_tag_None. intros H. apply E. eapply Permutation_in; [|exact H].
    apply Permutation_sym, Permutation_map. exact P.
Qed.
