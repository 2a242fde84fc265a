(** CipherBatch: memory layout invariant. *)
From Verif Require Import Base BaseProofs CipherBatch Spec.

Definition sized (n : nat) (l : list (list Z)) : Prop := Forall (fun c => length c = n) l.

Lemma sized_concat n l : sized n l -> length (concat l) = (length l * n)%nat.
Proof. induction 1 as [|c l H _ IH]; cbn; [reflexivity|]. rewrite app_length, H, IH. lia. Qed.

Definition rep (c : cbatch) (shorts : list (list Z)) (gap : list Z) (longs : list (list Z)) (rest : list Z) : Prop :=
  cb_mem c = concat shorts ++ gap ++ concat longs ++ rest /\
  sized (cb_short c) shorts /\ sized (cb_long c) longs /\
  cb_last_short c = length (concat shorts) /\
  cb_first_long c = (length (concat shorts) + length gap)%nat /\
  cb_last_long c = (length (concat shorts) + length gap + length (concat longs))%nat.

Lemma firstn_exact {A} (a b : list A) : firstn (length a) (a ++ b) = a.
Proof. rewrite firstn_app, Nat.sub_diag, firstn_all. cbn. apply app_nil_r. Qed.
Lemma skipn_exact {A} (a b : list A) : skipn (length a) (a ++ b) = b.
Proof. rewrite skipn_app, Nat.sub_diag, skipn_all. reflexivity. Qed.

Lemma wr_mid a bs old b : length bs = length old -> wr (a ++ old ++ b) (length a) bs = Ok (a ++ bs ++ b).
Proof.
  intros H. unfold wr. rewrite !app_length.
  assert ((length a + length bs <=? length a + (length old + length b))%nat = true) as -> by (apply Nat.leb_le; lia).
  rewrite firstn_exact. rewrite H.
  replace (length a + length old)%nat with (length (a ++ old)) by apply app_length.
  rewrite app_assoc with (n := b), skipn_exact. reflexivity.
Qed.

Lemma rep_init s l n m :
  exists gap rest, rep (cb_initialize s l n m) [] gap [] rest /\
    length gap = (n * s)%nat /\ length rest = (m * l)%nat /\
    cb_short (cb_initialize s l n m) = s /\ cb_long (cb_initialize s l n m) = l.
Proof.
  exists (repeat 0 (n * s)), (repeat 0 (m * l)).
  unfold rep, cb_initialize, sized; cbn. rewrite !repeat_length, <- repeat_app.
  repeat split; try constructor; try lia.
Qed.

Lemma rep_push_short c shorts gap longs rest v :
  rep c shorts gap longs rest -> (cb_short c <= length v)%nat -> (cb_short c <= length gap)%nat ->
  exists c', cb_push_short c v = Ok c' /\
    rep c' (shorts ++ [firstn (cb_short c) v]) (skipn (cb_short c) gap) longs rest /\
    cb_short c' = cb_short c /\ cb_long c' = cb_long c.
Proof.
  intros (M & S1 & S2 & E1 & E2 & E3) Hv Hg. unfold cb_push_short.
  rewrite rd_Ok by lia. cbn [bind skipn]. set (b := firstn (cb_short c) v).
  assert (Lb : length b = cb_short c) by (unfold b; rewrite firstn_length; lia).
  assert (Eg : gap ++ concat longs ++ rest = firstn (cb_short c) gap ++ skipn (cb_short c) gap ++ concat longs ++ rest)
    by (rewrite app_assoc with (l := firstn _ _), firstn_skipn; reflexivity).
  rewrite M, E1, Eg.
  rewrite wr_mid by (rewrite Lb, firstn_length; lia). cbn [bind].
  eexists; split; [reflexivity|]. unfold rep; cbn [cb_mem cb_short cb_long cb_last_short cb_first_long cb_last_long].
  rewrite concat_app. cbn [concat]. rewrite app_nil_r.
  repeat split.
  - rewrite <- !app_assoc. reflexivity.
  - apply Forall_app. split; [exact S1|]. constructor; [exact Lb|constructor].
  - exact S2.
  - rewrite app_length. lia.
  - rewrite app_length, skipn_length. lia.
  - rewrite app_length, skipn_length. lia.
Qed.

Lemma rep_push_long c shorts gap longs rest v :
  rep c shorts gap longs rest -> (cb_long c <= length v)%nat -> (cb_long c <= length rest)%nat ->
  exists c', cb_push_long c v = Ok c' /\
    rep c' shorts gap (longs ++ [firstn (cb_long c) v]) (skipn (cb_long c) rest) /\
    cb_short c' = cb_short c /\ cb_long c' = cb_long c.
Proof.
  intros (M & S1 & S2 & E1 & E2 & E3) Hv Hg. unfold cb_push_long.
  rewrite rd_Ok by lia. cbn [bind skipn]. set (b := firstn (cb_long c) v).
  assert (Lb : length b = cb_long c) by (unfold b; rewrite firstn_length; lia).
  assert (Eg : concat shorts ++ gap ++ concat longs ++ rest =
    (concat shorts ++ gap ++ concat longs) ++ firstn (cb_long c) rest ++ skipn (cb_long c) rest)
    by (rewrite firstn_skipn, <- !app_assoc; reflexivity).
  rewrite M, E3, Eg.
  replace (length (concat shorts) + length gap + length (concat longs))%nat
    with (length (concat shorts ++ gap ++ concat longs)) by (rewrite !app_length; lia).
  rewrite wr_mid by (rewrite Lb, firstn_length; lia). cbn [bind].
  eexists; split; [reflexivity|]. unfold rep; cbn [cb_mem cb_short cb_long cb_last_short cb_first_long cb_last_long].
  rewrite concat_app. cbn [concat]. rewrite app_nil_r.
  repeat split; try assumption.
  - rewrite <- !app_assoc. reflexivity.
  - apply Forall_app. split; [exact S2|]. constructor; [exact Lb|constructor].
  - rewrite !app_length. lia.
Qed.

Lemma rep_pop c shorts gap x longs rest :
  rep c shorts gap (x :: longs) rest ->
  exists p c', cb_pop_long c = (p, c') /\ skipn p (cb_mem c') = x ++ concat longs ++ rest /\
    length x = cb_long c /\
    rep c' shorts (gap ++ x) longs rest /\ cb_short c' = cb_short c /\ cb_long c' = cb_long c.
Proof.
  intros (M & S1 & S2 & E1 & E2 & E3). inversion S2 as [|? ? Lx S2']; subst.
  eexists _, _. split; [reflexivity|]. cbn [cb_mem cb_short cb_long]. split; [|split; [exact Lx|split]].
  - rewrite M, E2. rewrite app_assoc, <- app_length, skipn_exact. cbn [concat]. rewrite <- app_assoc. reflexivity.
  - unfold rep; cbn [cb_mem cb_short cb_long cb_last_short cb_first_long cb_last_long].
    repeat split; try assumption.
    + rewrite M. cbn [concat]. rewrite <- !app_assoc. reflexivity.
    + rewrite app_length. lia.
    + rewrite E3. cbn [concat]. rewrite !app_length. lia.
  - split; reflexivity.
Qed.

Lemma rep_get c shorts gap longs rest i x : rep c shorts gap longs rest ->
  nth_error shorts i = Some x -> cb_get_short c i = Ok x.
Proof.
  intros (M & S1 & _ & _ & _ & _) N. unfold cb_get_short. rewrite M.
  destruct (nth_error_split _ _ N) as (a & b & Es & La).
  rewrite Es in *. apply Forall_app in S1. destruct S1 as [Sa Sb]. inversion Sb as [|? ? Lx _]; subst.
  rewrite concat_app. cbn [concat]. rewrite <- !app_assoc.
  rewrite <- (sized_concat _ _ Sa).
  rewrite rd_Ok by (rewrite !app_length; lia).
  rewrite skipn_exact. rewrite <- Lx at 1. rewrite firstn_exact. reflexivity.
Qed.

Lemma skipn_skipn' {A} (l : list A) : forall a b, skipn a (skipn b l) = skipn (a + b) l.
Proof.
  intros a b. revert l. induction b as [|b IH]; intros l; [rewrite Nat.add_0_r; reflexivity|].
  rewrite Nat.add_succ_r. destruct l; [rewrite !skipn_nil; reflexivity|]. cbn. apply IH.
Qed.

(** The pushes. *)
Lemma push_all_spec s l ops : forall c shorts gap longs rest,
  rep c shorts gap longs rest -> cb_short c = s -> cb_long c = l ->
  sized s (lefts ops) -> sized l (rights ops) ->
  (length (lefts ops) * s <= length gap)%nat -> (length (rights ops) * l <= length rest)%nat ->
  exists c', push_all c ops = Ok c' /\
    rep c' (shorts ++ lefts ops) (skipn (length (lefts ops) * s) gap) (longs ++ rights ops)
      (skipn (length (rights ops) * l) rest) /\ cb_short c' = s /\ cb_long c' = l.
Proof.
  induction ops as [|o ops IH]; intros c shorts gap longs rest R Hs Hl Sl Sr Hg Hr.
  - exists c. cbn. rewrite !app_nil_r. auto.
  - unfold push_all. cbn [fold_res].
    destruct o as [v|v]; cbn [lefts rights flat_map app] in *; fold (@lefts (list Z) (list Z)) (@rights (list Z) (list Z)) in *;
    change (flat_map (fun o : list Z + list Z => match o with inl a => [a] | inr _ => [] end) ops) with (lefts ops) in *;
    change (flat_map (fun o : list Z + list Z => match o with inl _ => [] | inr b => [b] end) ops) with (rights ops) in *.
    + inversion Sl as [|? ? Lv Sl']; subst. cbn [length] in Hg.
      destruct (rep_push_short c shorts gap longs rest v R) as (c1 & E1 & R1 & Q1 & Q2); [lia|lia|].
      rewrite E1. cbn [bind]. rewrite <- Lv, firstn_all in R1.
      edestruct (IH c1) as (c' & E & R' & P1 & P2); [exact R1|exact Q1|exact Q2| | | | |].
      * exact Sl'.
      * exact Sr.
      * rewrite skipn_length. lia.
      * exact Hr.
      * exists c'. split; [exact E|]. 
        rewrite <- app_assoc in R'. cbn [app] in R'.
        split; [|split; assumption].
        replace (length (v :: lefts ops) * cb_short c)%nat with (length (lefts ops) * cb_short c + length v)%nat by (cbn [length]; lia).
        rewrite <- skipn_skipn'. exact R'.
    + inversion Sr as [|? ? Lv Sr']; subst. cbn [length] in Hr.
      destruct (rep_push_long c shorts gap longs rest v R) as (c1 & E1 & R1 & Q1 & Q2); [lia|lia|].
      rewrite E1. cbn [bind]. rewrite <- Lv, firstn_all in R1.
      edestruct (IH c1) as (c' & E & R' & P1 & P2); [exact R1|exact Q1|exact Q2| | | | |].
      * exact Sl.
      * exact Sr'.
      * exact Hg.
      * rewrite skipn_length. lia.
      * exists c'. split; [exact E|].
        rewrite <- app_assoc in R'. cbn [app] in R'.
        split; [|split; assumption].
        replace (length (v :: rights ops) * cb_long c)%nat with (length (rights ops) * cb_long c + length v)%nat by (cbn [length]; lia).
        rewrite <- skipn_skipn'. exact R'.
Qed.

Lemma has_long_spec c shorts gap longs rest : rep c shorts gap longs rest -> (0 < cb_long c)%nat ->
  cb_has_long c = match longs with [] => false | _ => true end.
Proof.
  intros (M & S1 & S2 & E1 & E2 & E3) Hl. unfold cb_has_long. rewrite E2, E3, (sized_concat _ _ S2).
  destruct longs; cbn [length].
  - apply Nat.ltb_ge. lia.
  - apply Nat.ltb_lt. nia.
Qed.

Lemma process_spec {S} (handle : S -> list Z -> res (S * list Z)) s l :
  (s <= l)%nat -> (0 < l)%nat ->
  forall longs, (forall st c junk, In c longs -> handle st (c ++ junk) = handle st c) ->
    (forall st c st' o, In c longs -> handle st c = Ok (st', o) -> length o = s) ->
  forall fuel c st shorts gap rest, (length longs <= fuel)%nat ->
  rep c shorts gap longs rest -> cb_short c = s -> cb_long c = l ->
  match peel_all handle st longs with
  | Ok (st', outs) => exists c' gap' , cb_process handle fuel c st = Ok (c', st') /\ rep c' (shorts ++ outs) gap' [] rest /\
       cb_short c' = s /\ cb_long c' = l /\ length outs = length longs
  | Abort => cb_process handle fuel c st = Abort
  | UB => cb_process handle fuel c st = UB
  | NoFuel => cb_process handle fuel c st = NoFuel
  end.
Proof.
  intros Hsl Hl. induction longs as [|x longs IH]; intros Hj Hlen fuel c st shorts gap rest Hf R Es El.
  - cbn [peel_all]. assert (H := has_long_spec _ _ _ _ _ R ltac:(lia)).
    assert (cb_process handle fuel c st = Ok (c, st)) as -> by (destruct fuel; cbn [cb_process]; rewrite H; reflexivity).
    exists c, gap. rewrite app_nil_r. auto.
  - destruct fuel as [|f]; [cbn in Hf; lia|].
    assert (H := has_long_spec _ _ _ _ _ R ltac:(lia)).
    cbn [cb_process peel_all]. rewrite H.
    destruct (rep_pop _ _ _ _ _ _ R) as (p & c1 & Ep & Em & Lx & R1 & Q1 & Q2).
    rewrite Ep, Em, Hj by (left; reflexivity).
    destruct (handle st x) as [[st1 o]| | |] eqn:Eh; cbn [bind fst snd]; try reflexivity.
    assert (Lo := Hlen _ _ _ _ (or_introl eq_refl) Eh).
    destruct (rep_push_short c1 shorts (gap ++ x) longs rest o R1) as (c2 & E2 & R2 & Q3 & Q4);
      [lia|rewrite app_length; lia|].
    rewrite E2. cbn [bind].
    assert (firstn (cb_short c1) o = o) as Ef by (rewrite Q1, Es, <- Lo; apply firstn_all).
    rewrite Ef in R2.
    specialize (IH (fun st c junk Hc => Hj st c junk (or_intror Hc)) (fun st c st' o Hc => Hlen st c st' o (or_intror Hc))
      f c2 st1 _ _ rest ltac:(cbn in Hf; lia) R2 ltac:(congruence) ltac:(congruence)).
    destruct (peel_all handle st1 longs) as [[st' outs]| | |]; cbn [bind fst snd]; try exact IH.
    destruct IH as (c' & gap' & E' & R' & A1 & A2 & A3). exists c', gap'.
    rewrite <- app_assoc in R'. cbn [app] in R'. cbn [length]. repeat split; try assumption; try apply R'. lia.
Qed.

Lemma c36 {S} (handle : S -> list Z -> res (S * list Z)) s l ops st fuel :
  (s <= l)%nat -> (0 < l)%nat -> (length (rights ops) <= fuel)%nat ->
  Forall (fun c => length c = s) (lefts ops) -> Forall (fun c => length c = l) (rights ops) ->
  (forall st c junk, In c (rights ops) -> handle st (c ++ junk) = handle st c) ->
  (forall st c st' o, In c (rights ops) -> handle st c = Ok (st', o) -> length o = s) ->
  exists b, push_all (cb_initialize s l (length (lefts ops)) (length (rights ops))) ops = Ok b /\
  match peel_all handle st (rights ops) with
  | Ok (st', outs) => exists b', cb_process handle fuel b st = Ok (b', st') /\ cb_has_long b' = false /\
      length outs = length (rights ops) /\
      forall i x, nth_error (lefts ops ++ outs) i = Some x -> cb_get_short b' i = Ok x
  | Abort => cb_process handle fuel b st = Abort
  | UB => cb_process handle fuel b st = UB
  | NoFuel => cb_process handle fuel b st = NoFuel
  end.
Proof.
  intros Hsl Hl Hf Sl Sr Hj Hlen.
  destruct (rep_init s l (length (lefts ops)) (length (rights ops))) as (gap & rest & R & Lg & Lr & E1 & E2).
  edestruct (push_all_spec s l ops) as (b & Eb & Rb & B1 & B2); [exact R|exact E1|exact E2|exact Sl|exact Sr|lia|lia|].
  exists b. split; [exact Eb|]. cbn [app] in Rb.
  pose proof (process_spec handle s l Hsl Hl (rights ops) Hj Hlen fuel b st _ _ _ Hf Rb B1 B2) as P.
  destruct (peel_all handle st (rights ops)) as [[st' outs]| | |]; try exact P.
  destruct P as (c' & gap' & E & R' & A1 & A2 & A3). exists c'.
  split; [exact E|]. split; [exact (has_long_spec _ _ _ _ _ R' ltac:(lia))|]. split; [exact A3|].
  intros i x N. eapply rep_get; eassumption.
Qed.
