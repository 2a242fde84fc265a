(** Handling the messages of several sources in some complete order. *)
From Verif Require Import Base BaseProofs Shuffle ShuffleProofs ParShuffle ParShuffleProofs ParShuffleFacts Batch Party Parallel Spec.

Definition bump (c : nat -> nat) (s : nat) : nat -> nat := fun s' => if (s' =? s)%nat then S (c s') else c s'.
Lemma bump_eq c s : bump c s s = S (c s).
Proof. unfold bump. rewrite Nat.eqb_refl. reflexivity. Qed.
Lemma bump_ne c s s' : s' <> s -> bump c s s' = c s'.
Proof. intros H. unfold bump. destruct (Nat.eqb_spec s' s); [contradiction|reflexivity]. Qed.

(** What is left of every queue. *)
Definition left {A} (boxes : list (list A)) (c : nat -> nat) : list (list A) :=
  map (fun s => skipn (c s) (nth s boxes [])) (seq 0 (length boxes)).

Lemma left_upd {A} (boxes : list (list A)) c s x : (s < length boxes)%nat ->
  nth_error (nth s boxes []) (c s) = Some x ->
  nth_error (left boxes c) s = Some (x :: skipn (S (c s)) (nth s boxes [])) /\
  upd (left boxes c) s (skipn (S (c s)) (nth s boxes [])) = left boxes (bump c s).
Proof.
  intros Hs Nx. split.
  - unfold left. rewrite nth_error_map_seq by exact Hs. rewrite (skipn_nth _ _ _ Nx). reflexivity.
  - apply nth_error_ext. intros j. unfold left.
    assert (L : forall c', length (map (fun s => skipn (c' s) (nth s boxes [])) (seq 0 (length boxes))) = length boxes)
      by (intros; rewrite map_length, seq_length; reflexivity).
    destruct (Nat.lt_ge_cases j (length boxes)) as [Hj|Hj].
    + rewrite (nth_error_map_seq (fun s0 => skipn (bump c s s0) (nth s0 boxes []))) by exact Hj.
      destruct (Nat.eq_dec s j) as [<-|Hne].
      * rewrite nth_error_upd_eq by (rewrite L; exact Hs). rewrite bump_eq. reflexivity.
      * rewrite nth_error_upd_ne by congruence. rewrite nth_error_map_seq by exact Hj. rewrite bump_ne by congruence. reflexivity.
    + rewrite !(proj2 (nth_error_None _ _)); [reflexivity| |]; rewrite ?length_upd, ?L; lia.
Qed.

Lemma merge_fold {A St} (step : St -> nat * A -> res St) (Inv : (nat -> nat) -> St -> Prop) (boxes : list (list A)) :
  (forall c st s x, Inv c st -> (s < length boxes)%nat -> nth_error (nth s boxes []) (c s) = Some x ->
     exists st', step st (s, x) = Ok st' /\ Inv (bump c s) st') ->
  forall order c st, Inv c st ->
  (forall s, In s order -> (s < length boxes)%nat) ->
  (forall s, (s < length boxes)%nat -> (c s + cnt order s)%nat = length (nth s boxes [])) ->
  exists log st' c', merge order (left boxes c) = Ok log /\ fold_res step log st = Ok st' /\ Inv c' st' /\
    forall s, (s < length boxes)%nat -> c' s = length (nth s boxes []).
Proof.
  intros Hstep. induction order as [|s order IH]; intros c st I Hin Hc.
  - exists [], st, c. cbn [merge fold_res].
    assert (forallb (fun b => match b with [] => true | _ => false end) (left boxes c) = true) as ->.
    { apply forallb_forall. intros b Hb. unfold left in Hb. apply in_map_iff in Hb. destruct Hb as (s & <- & Hs).
      apply in_seq in Hs. rewrite skipn_all2; [reflexivity|]. rewrite <- Hc by lia. cbn. lia. }
    split; [reflexivity|]. split; [reflexivity|]. split; [exact I|].
    intros s Hs. rewrite <- Hc by exact Hs. cbn. lia.
  - assert (Hs : (s < length boxes)%nat) by (apply Hin; left; reflexivity).
    pose proof (Hc s Hs) as Hcs. cbn [count_occ] in Hcs. destruct (Nat.eq_dec s s) as [_|C]; [|congruence].
    destruct (get_lt (nth s boxes []) (c s)) as (x & _ & Nx); [lia|].
    destruct (left_upd boxes c s x Hs Nx) as (Ln & Lu).
    destruct (Hstep c st s x I Hs Nx) as (st1 & E1 & I1).
    destruct (IH (bump c s) st1 I1) as (log & st' & c' & Em & Ef & I' & Hc').
    + intros s' Hs'. apply Hin. right. exact Hs'.
    + intros s' Hs'. rewrite <- (Hc s' Hs'). cbn [count_occ].
      destruct (Nat.eq_dec s s') as [<-|Hne].
      * rewrite bump_eq. lia.
      * rewrite bump_ne by congruence. reflexivity.
    + exists ((s, x) :: log), st', c'. cbn [merge fold_res]. rewrite Ln, Lu, Em. cbn [bind]. rewrite E1.
      split; [reflexivity|]. split; [exact Ef|]. auto.
Qed.

Lemma left_0 {A} (boxes : list (list A)) : left boxes (fun _ => 0%nat) = boxes.
Proof.
  unfold left. apply nth_error_ext. intros i. destruct (Nat.lt_ge_cases i (length boxes)) as [H|H].
  - rewrite nth_error_map_seq by exact H. cbn [skipn]. symmetry. apply nth_error_nth'. exact H.
  - rewrite !(proj2 (nth_error_None _ _)); [reflexivity| |]; rewrite ?map_length, ?seq_length; lia.
Qed.

(** An order is possible only if it is complete. *)
Lemma merge_complete {A} order : forall (boxes : list (list A)) log, merge order boxes = Ok log ->
  (forall s, In s order -> (s < length boxes)%nat) /\
  forall s, (s < length boxes)%nat -> cnt order s = length (nth s boxes []) /\
    map snd (filter (fun e => (fst e =? s)%nat) log) = nth s boxes [].
Proof.
  induction order as [|s order IH]; intros boxes log H; cbn [merge] in H.
  - destruct (forallb _ boxes) eqn:E; [|discriminate]. inversion H; subst. split; [intros s []|].
    intros s Hs. rewrite forallb_forall in E. specialize (E (nth s boxes []) (nth_In _ _ Hs)).
    destruct (nth s boxes []); [split; reflexivity|discriminate].
  - destruct (nth_error boxes s) as [[|x b]|] eqn:N; try discriminate.
    destruct (merge order (upd boxes s b)) as [r| | |] eqn:Em; try discriminate. cbn [bind] in H. inversion H; subst log. clear H.
    assert (Hs : (s < length boxes)%nat) by (apply nth_error_Some; congruence).
    destruct (IH _ _ Em) as (Hin & Hall). rewrite length_upd in *. split.
    + intros s' [<-|Hs']; [exact Hs|apply Hin; exact Hs'].
    + intros s' Hs'. destruct (Hall s' Hs') as (Hc & Hf). cbn [count_occ filter fst].
      destruct (Nat.eq_dec s s') as [<-|Hne].
      * rewrite Nat.eqb_refl. cbn [map snd].
        assert (nth s (upd boxes s b) [] = b) as Eb by (apply nth_error_nth; apply nth_error_upd_eq; exact Hs).
        rewrite Eb in *. rewrite (nth_error_nth _ _ _ N). cbn [length]. split; [congruence|f_equal; exact Hf].
      * destruct (Nat.eqb_spec s s'); [contradiction|].
        assert (nth s' (upd boxes s b) [] = nth s' boxes []) as Eb.
        { destruct (get_lt boxes s' Hs') as (v & _ & Nv). rewrite (nth_error_nth _ _ _ Nv).
          apply nth_error_nth. rewrite nth_error_upd_ne by congruence. exact Nv. }
        rewrite Eb in *. auto.
Qed.

(** ** SendAndPoll *)
Lemma sum_ext (f g : nat -> nat) l : (forall x, In x l -> f x = g x) -> sum (map f l) = sum (map g l).
Proof. intros H. f_equal. apply map_ext_in. exact H. Qed.

Lemma send_and_poll_spec {A St} (step : St -> nat * A -> res St) (Inv : (nat -> nat) -> St -> Prop)
    (N self : nat) (stream : nat -> list A) wants total sends order st0 :
  length sends = N -> (self < N)%nat ->
  (forall s snt, (s < N)%nat -> nth_error sends s = Some snt -> outgoing self snt = stream s) ->
  (forall s, (s < N)%nat -> s <> self -> nth_error wants s = Some (length (stream s))) ->
  total = Z.of_nat (sum (map (fun s => if (s =? self)%nat then 0%nat else length (stream s)) (seq 0 N))) ->
  Inv (fun _ => 0%nat) st0 ->
  (forall c st s x, Inv c st -> (s < N)%nat -> nth_error (stream s) (c s) = Some x ->
     exists st', step st (s, x) = Ok st' /\ Inv (bump c s) st') ->
  (forall s, In s order -> (s < N)%nat) ->
  (forall s, (s < N)%nat -> cnt order s = length (stream s)) ->
  exists log st' c', send_and_poll self wants total sends order = Ok log /\ fold_res step log st0 = Ok st' /\
    Inv c' st' /\ forall s, (s < N)%nat -> c' s = length (stream s).
Proof.
  intros Ls Hself Hout Hw Ht I0 Hstep Hin Hc. unfold send_and_poll. rewrite Ls.
  set (boxes := map stream (seq 0 N)).
  assert (Lb : length boxes = N) by (unfold boxes; rewrite map_length, seq_length; reflexivity).
  assert (Hb : forall s, (s < N)%nat -> nth s boxes [] = stream s).
  { intros s Hs. apply nth_error_nth. apply nth_error_map_seq. exact Hs. }
  rewrite (map_res_Ok _ stream).
  2:{ intros s Hs. apply in_seq in Hs. destruct (get_lt sends s) as (snt & E & Nsn); [lia|]. rewrite E. cbn [bind].
      rewrite (Hout s snt) by (try lia; assumption).
      destruct (Nat.eqb_spec s self) as [->|Hne]; [reflexivity|].
      unfold get. rewrite Hw by (try lia; assumption). cbn [bind]. unfold recv. rewrite Nat.ltb_irrefl, firstn_all. reflexivity. }
  cbn [bind]. fold boxes. rewrite Lb.
  change list_sum with sum.
  rewrite (sum_ext _ (fun s => if (s =? self)%nat then 0%nat else length (stream s))).
  2:{ intros s Hs. apply in_seq in Hs. rewrite Hb by lia. reflexivity. }
  rewrite <- Ht, Z.eqb_refl.
  destruct (merge_fold step Inv boxes) with (order := order) (c := fun _ : nat => 0%nat) (st := st0)
    as (log & st' & c' & Em & Ef & I' & Hc').
  - intros c st s x I Hs. rewrite Lb in Hs. rewrite Hb by exact Hs. apply Hstep; assumption.
  - exact I0.
  - rewrite Lb. exact Hin.
  - rewrite Lb. intros s Hs. rewrite Hb by exact Hs. cbn. apply Hc. exact Hs.
  - rewrite left_0 in Em. exists log, st', c'. rewrite Em. split; [reflexivity|]. split; [exact Ef|]. split; [exact I'|].
    rewrite Lb in Hc'. intros s Hs. rewrite Hc' by exact Hs. rewrite Hb by exact Hs. reflexivity.
Qed.

(** The converse: an answer means that every message has been handled once. *)
Lemma send_and_poll_streams {A} self wants total (sends : list (list (nat * A))) order log :
  send_and_poll self wants total sends order = Ok log -> forall s, (s < length sends)%nat ->
  exists w, map snd (filter (fun e => (fst e =? s)%nat) log) = firstn w (outgoing self (nth s sends [])) /\
    cnt order s = length (firstn w (outgoing self (nth s sends []))).
Proof.
  unfold send_and_poll. intros H s Hs.
  destruct (map_res _ (seq 0 (length sends))) as [boxes| | |] eqn:Em; try discriminate. cbn [bind] in H.
  destruct (total =? _); [|discriminate].
  apply merge_complete in H. destruct H as (_ & H).
  pose proof (map_res_length _ _ _ Em) as Lb. rewrite seq_length in Lb.
  destruct (H s) as (Hc & Hf); [lia|].
  assert (Hbox : exists w, nth s boxes [] = firstn w (outgoing self (nth s sends []))).
  { clear H Hc Hf.
    assert (G : forall l r, map_res (fun s : nat =>
         let* snt := get sends s in
         let msgs := outgoing self snt in
         if (s =? self)%nat then Ok msgs else let* w := get wants s in recv w msgs) l = Ok r ->
       forall i s, nth_error l i = Some s -> exists w, nth i r [] = firstn w (outgoing self (nth s sends []))).
    { induction l as [|a l IH]; intros r Hr i t Nt; [destruct i; discriminate|]. cbn [map_res] in Hr.
      destruct (get sends a) as [snt| | |] eqn:Eg; try discriminate. cbn [bind] in Hr.
      destruct (if (a =? self)%nat then Ok (outgoing self snt) else let* w := get wants a in recv w (outgoing self snt))
        as [b0| | |] eqn:Eb; try discriminate. cbn [bind] in Hr.
      destruct (map_res _ l) as [r'| | |] eqn:El; try discriminate. cbn [bind] in Hr. inversion Hr; subst r. clear Hr.
      destruct i as [|i]; cbn [nth_error] in Nt.
      - inversion Nt; subst t. cbn [nth]. apply get_Ok in Eg. rewrite (nth_error_nth _ _ _ Eg).
        destruct (a =? self)%nat.
        + inversion Eb; subst b0. eexists. symmetry. apply firstn_all.
        + destruct (get wants a) as [w| | |]; try discriminate. cbn [bind] in Eb. unfold recv in Eb.
          destruct (_ <? _)%nat; [discriminate|]. inversion Eb. exists w. reflexivity.
      - cbn [nth]. apply (IH r' eq_refl i t Nt). }
    apply (G _ _ Em s s). apply nth_error_seq. exact Hs. }
  destruct Hbox as (w & Ew). exists w. rewrite <- Ew. auto.
Qed.

(** Mapping with a specification for each element. *)
Lemma map_res_exists {A B} (f : A -> res B) (P : A -> B -> Prop) l :
  (forall a, In a l -> exists b, f a = Ok b /\ P a b) ->
  exists r, map_res f l = Ok r /\ forall i a b, nth_error l i = Some a -> nth_error r i = Some b -> P a b.
Proof.
  induction l as [|a l IH]; intros H.
  - exists []. split; [reflexivity|]. intros [|i] ? ? E; discriminate.
  - destruct (H a (or_introl eq_refl)) as (b & Eb & Pb).
    destruct IH as (r & Er & Hr); [intros x Hx; apply H; right; exact Hx|].
    exists (b :: r). cbn [map_res]. rewrite Eb. cbn [bind]. rewrite Er. split; [reflexivity|].
    intros [|i] a' b' Na Nb; cbn [nth_error] in *.
    + inversion Na; inversion Nb; subst. exact Pb.
    + apply (Hr i); assumption.
Qed.
