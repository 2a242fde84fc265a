(** What the keys looked up at the backend's servers reveal to someone with the
    configuration, for entities with several servers. *)
From Verif Require Import Base BaseProofs Incremental IncrementalProofs Wire WireProofs Additive AdditiveProofs Onion OnionProofs
  Shuffle Sizes State Database CipherBatch CipherBatchProofs Range Handlers Batch Party Chain Spec SharingProofs ShuffleProofs
  StateProofs ChainSpec OnlineProofs OfflineProofs OfflineParty ChainProofs ParShuffle ParShuffleProofs ParShuffleFacts Parallel ParSpec ParChainSpec
  ParMergeProofs ParForwardProofs ParBackwardProofs ParOnlineProofs ParPartyProofs PermFacts ParFacts ParSecretsProofs ParTagProofs ParStage ParParty ParChain ParChainProofs ReadProofs.

Local Notation advance := OnlineProofs.advance.

(** ** Where the queries end up *)
(** Of each server: the shared seed, its own seed and how many fake queries it adds. *)
Definition par_place (rng : rng_t) (N : nat) (party : list (Z * Z * nat)) (toks : list (list (option nat))) : list (list (option nat)) :=
  let at_ s := nth s party (0, 0, 0%nat) in
  let counts := map (fun s => (snd (at_ s) + length (nth s toks []))%nat) (seq 0 N) in
  map (fun t =>
    let got := flat_map (fun s =>
      match ps_initialize rng s N (fst (fst (at_ s))) counts (snd (at_ s)) with
      | Ok p => addressed_to t (ps_forward p) (repeat None (snd (at_ s)) ++ nth s toks [])
      | _ => []
      end) (seq 0 N) in
    match ls_initialize rng (snd (fst (at_ t))) (length got) with
    | Ok ls => pick None got (ls_backward ls)
    | _ => []
    end) (seq 0 N).
(** The list cut into pieces of the given lengths. *)
Fixpoint cut {A} (ns : list nat) (l : list A) : list (list A) :=
  match ns with
  | [] => []
  | n :: ns' => firstn n l :: cut ns' (skipn n l)
  end.
Definition par_places (rng : rng_t) (N : nat) (parties : list (list (Z * Z * nat))) (ns : list nat) : list (list (option nat)) :=
  fold_left (fun toks party => par_place rng N party toks) parties (cut ns (map Some (seq 0 (list_sum ns)))).
Definition par_read_off (rng : rng_t) (N : nat) (parties : list (list (Z * Z * nat))) (ns : list nat) (looked : list (list Z)) : list (list Z) :=
  cut ns (read_places (concat (par_places rng N parties ns)) (list_sum ns) (concat looked)).

Lemma cut_concat {A} (ls : list (list A)) : cut (map (fun l => length l) ls) (concat ls) = ls.
Proof.
  induction ls as [|l ls IH]; [reflexivity|]. cbn [map concat cut]. rewrite firstn_app, Nat.sub_diag, firstn_all, firstn_O, app_nil_r.
  rewrite skipn_app, Nat.sub_diag, skipn_all. cbn [app skipn]. rewrite IH. reflexivity.
Qed.
Lemma concat_cut {A} ns : forall l : list A, length l = list_sum ns -> concat (cut ns l) = l.
Proof.
  induction ns as [|n ns IH]; intros l H; cbn [cut concat] in *.
  - destruct l; [reflexivity|discriminate].
  - change (list_sum (n :: ns)) with (n + list_sum ns)%nat in H. rewrite IH by (rewrite skipn_length; lia). apply firstn_skipn.
Qed.
Lemma cut_Forall2 {A B} (R : A -> B -> Prop) : forall (ls : list (list B)) (l : list A), Forall2 R l (concat ls) ->
  Forall2 (Forall2 R) (cut (map (fun l => length l) ls) l) ls.
Proof.
  induction ls as [|x ls IH]; intros l F; cbn [map cut concat] in *; [constructor|].
  apply Forall2_app_inv_r in F. destruct F as (l1 & l2 & F1 & F2 & ->). pose proof (Forall2_length' _ _ _ F1) as L.
  rewrite <- L, firstn_app, Nat.sub_diag, firstn_all, firstn_O, app_nil_r, skipn_app, Nat.sub_diag, skipn_all. cbn [app skipn].
  constructor; [exact F1|apply IH; exact F2].
Qed.

Lemma Forall2_addressed {A B} (R : A -> B -> Prop) t : forall tg l l', Forall2 R l l' -> Forall2 R (addressed_to t tg l) (addressed_to t tg l').
Proof.
  intros tg l l' F. unfold addressed_to. revert tg. induction F as [|x y l l' H F IH]; intros [|u tg]; cbn; try constructor.
  specialize (IH tg). destruct (u =? t)%nat; cbn; auto.
Qed.
Lemma Forall2_flat {A B C} (R : A -> B -> Prop) (f : C -> list A) (g : C -> list B) l : (forall x, In x l -> Forall2 R (f x) (g x)) ->
  Forall2 R (flat_map f l) (flat_map g l).
Proof.
  induction l as [|x l IH]; intros H; cbn; [constructor|]. apply Forall2_app; [apply H; left; reflexivity|apply IH; intros y Hy; apply H; right; exact Hy].
Qed.
Lemma Forall2_concat {A B} (R : A -> B -> Prop) ls ls' : Forall2 (Forall2 R) ls ls' -> Forall2 R (concat ls) (concat ls').
Proof. induction 1; cbn; [constructor|]. apply Forall2_app; assumption. Qed.

(** ** One party *)
Definition drawn (rng : rng_t) (N rows : nat) (confs : list sconf) (its : list (list item)) (tb : tables) (noise : nat -> list item) : Prop :=
  tb_ok N tb /\ length (tb_counts tb) = N /\ length its = N /\
  (forall s, (s < N)%nat -> (length (noise s) + length (nth s its []) = nth s (tb_counts tb) 0)%nat) /\
  forall s, (s < N)%nat -> exists sf, nth_error confs s = Some sf /\ length (noise s) = server_noise N rows s (sf_conf sf) /\
    (exists p, ps_initialize rng s N (sf_shared sf) (tb_counts tb) (length (noise s)) = Ok p /\ ps_forward p = tgt (tb_M tb) (tb_counts tb) s) /\
    ls_initialize rng (pf_seed (sf_conf sf)) (size (tb_counts tb) N s) = Ok (tb_ls tb s).

Definition par_seeds (N rows : nat) (confs : list sconf) : list (Z * Z * nat) :=
  map (fun s => match nth_error confs s with
                | Some sf => (sf_shared sf, pf_seed (sf_conf sf), server_noise N rows s (sf_conf sf))
                | None => (0, 0, 0%nat)
                end) (seq 0 N).
Definition notes (keys : list Z) (o : option nat) (it : item) : Prop := noted keys o (it_key it).

Section Party.
Variables (rng : rng_t) (N rows : nat) (confs : list sconf) (its : list (list item)) (tb : tables) (noise : nat -> list item).
Hypothesis Hd : drawn rng N rows confs its tb noise.

Lemma seeds_nth s : (s < N)%nat -> exists sf, nth_error confs s = Some sf /\ nth s (par_seeds N rows confs) (0, 0, 0%nat) = (sf_shared sf, pf_seed (sf_conf sf), length (noise s)).
Proof using All.
  intros H. destruct Hd as (_ & _ & _ & _ & X). destruct (X s H) as (sf & Nf & E & _). exists sf. split; [exact Nf|].
  apply nth_error_nth. unfold par_seeds. rewrite nth_error_map_seq by exact H. rewrite Nf, E. reflexivity.
Qed.

Section Toks.
Variables (toks : list (list (option nat))).
Hypothesis Lt : forall s, (s < N)%nat -> length (nth s toks []) = length (nth s its []).

Definition tok_batches : list (list (option nat)) := map (fun s => repeat None (length (noise s)) ++ nth s toks []) (seq 0 N).
Lemma tok_batches_nth s : (s < N)%nat -> nth s tok_batches [] = repeat None (length (noise s)) ++ nth s toks [].
Proof using. intros H. apply nth_error_nth. unfold tok_batches. rewrite nth_error_map_seq by exact H. reflexivity. Qed.
Lemma tok_batches_length s : (s < N)%nat -> length (nth s tok_batches []) = nth s (tb_counts tb) 0%nat.
Proof using All. intros H. rewrite tok_batches_nth, app_length, repeat_length, Lt by exact H. apply Hd. exact H. Qed.

Lemma par_place_is : par_place rng N (par_seeds N rows confs) toks =
  map (fun t => pick None (received (tb_M tb) (tb_counts tb) N t tok_batches) (ls_backward (tb_ls tb t))) (seq 0 N).
Proof using All.
  unfold par_place. pose proof Hd as (HT & Lc & Li & HL & X). destruct HT as (HM & HN & Hsum & Hls & Hnoise).
  assert (Ec : map (fun s => (snd (nth s (par_seeds N rows confs) (0%Z, 0%Z, 0%nat)) + length (nth s toks []))%nat) (seq 0 N) = tb_counts tb).
  { apply nth_error_ext. intros s. destruct (Nat.lt_ge_cases s N) as [Hs|Hs].
    - rewrite nth_error_map_seq by exact Hs. destruct (seeds_nth s Hs) as (sf & _ & ->). cbn [snd]. rewrite Lt, HL by exact Hs.
      symmetry. apply nth_error_nth'. lia.
    - rewrite !(proj2 (nth_error_None _ _)); [reflexivity|lia|rewrite map_length, seq_length; exact Hs]. }
  rewrite Ec. apply map_ext_in. intros t Ht. apply in_seq in Ht.
  assert (Eg : flat_map (fun s => match ps_initialize rng s N (fst (fst (nth s (par_seeds N rows confs) (0, 0, 0%nat)))) (tb_counts tb) (snd (nth s (par_seeds N rows confs) (0, 0, 0%nat))) with
      | Ok p => addressed_to t (ps_forward p) (repeat None (snd (nth s (par_seeds N rows confs) (0, 0, 0%nat))) ++ nth s toks [])
      | _ => [] end) (seq 0 N) = received (tb_M tb) (tb_counts tb) N t tok_batches).
  { unfold received. apply flat_map_ext_in. intros s Hs. apply in_seq in Hs. destruct (seeds_nth s ltac:(lia)) as (sf & Nf & ->). cbn [fst snd].
    destruct (X s ltac:(lia)) as (sf' & Nf' & _ & (p & Ep & Eq) & _). assert (sf' = sf) by congruence. subst sf'.
    rewrite Ep, Eq, tok_batches_nth by lia. reflexivity. }
  rewrite Eg. destruct (seeds_nth t ltac:(lia)) as (sf & Nf & ->). cbn [fst snd].
  rewrite (received_length _ _ N (tb_noise tb) (tb_ls tb)) by (auto using tok_batches_length; lia).
  destruct (X t ltac:(lia)) as (sf' & Nf' & _ & _ & El). assert (sf' = sf) by congruence. subst sf'. rewrite El. reflexivity.
Qed.

Lemma par_place_notes keys : Forall2 (Forall2 (notes keys)) toks its ->
  Forall2 (Forall2 (notes keys)) (par_place rng N (par_seeds N rows confs) toks) (nexts N tb noise its).
Proof using All.
  intros F. rewrite par_place_is. unfold nexts. apply Forall2_map_seq. intros t Ht.
  apply Forall2_pick; [|intros i H; discriminate]. unfold received. apply Forall2_flat. intros s Hs. apply in_seq in Hs.
  apply Forall2_addressed. rewrite tok_batches_nth, batches_nth by lia. apply Forall2_app.
  - induction (noise s) as [|x l IH]; cbn; constructor; [intros i H; discriminate|exact IH].
  - pose proof (Forall2_nth_or (Forall2 (notes keys)) [] [] toks its F (Forall2_nil _) s) as F1. clear - F1.
    induction F1; cbn; constructor; auto.
Qed.

Lemma par_place_in i : length toks = N -> In (Some i) (concat toks) -> In (Some i) (concat (par_place rng N (par_seeds N rows confs) toks)).
Proof using All.
  intros L Hin. rewrite par_place_is. pose proof Hd as (HT & _).
  eapply Permutation_in; [symmetry; apply (outs_perm N tb HT None tok_batches tok_batches_length)|].
  rewrite (concat_nth_seq toks N L) in Hin. apply in_flat_map in Hin. destruct Hin as (s & Hs & Hin). apply in_flat_map. exists s. split; [exact Hs|].
  apply in_seq in Hs. rewrite tok_batches_nth by lia. apply in_or_app. right. exact Hin.
Qed.
End Toks.
End Party.

(** ** The chain *)
Inductive passes (rng : rng_t) (N rows : nat) : list (list sconf) -> list (list (list item)) -> Prop :=
| passes_end its : passes rng N rows [] [its]
| passes_party confs parties tb noise its levels :
    drawn rng N rows confs its tb noise ->
    passes rng N rows parties (nexts N tb noise its :: levels) ->
    passes rng N rows (confs :: parties) (its :: nexts N tb noise its :: levels).

Lemma passes_places rng N rows keys n : forall parties levels, passes rng N rows parties levels ->
  forall toks, length toks = N -> Forall2 (Forall2 (notes keys)) toks (hd [] levels) -> (forall i, (i < n)%nat -> In (Some i) (concat toks)) ->
  let toks' := fold_left (fun toks party => par_place rng N party toks) (map (par_seeds N rows) parties) toks in
  Forall2 (Forall2 (notes keys)) toks' (last levels []) /\ forall i, (i < n)%nat -> In (Some i) (concat toks').
Proof.
  induction 1 as [its|confs parties tb noise its levels H C IH]; intros toks L F Hin.
  - split; assumption.
  - cbn [map fold_left hd]. cbn [hd] in F.
    change (last (its :: nexts N tb noise its :: levels) []) with (last (nexts N tb noise its :: levels) []).
    assert (Lt : forall s, (s < N)%nat -> length (nth s toks []) = length (nth s its [])).
    { intros s Hs. pose proof (Forall2_nth_or _ [] [] toks its F (Forall2_nil _) s) as F1. exact (Forall2_length' _ _ _ F1). }
    apply IH.
    + unfold par_place. rewrite map_length, seq_length. reflexivity.
    + cbn [hd]. apply par_place_notes; assumption.
    + intros i Hi. eapply par_place_in; eauto.
Qed.

Lemma passes_read rng N rows parties its levels keys : passes rng N rows parties (its :: levels) -> length its = N ->
  map (map it_key) its = keys ->
  par_read_off rng N (map (par_seeds N rows) parties) (map (fun l => length l) keys) (map (map it_key) (last (its :: levels) [])) = keys.
Proof.
  intros C L E. unfold par_read_off.
  assert (Es : list_sum (map (fun l => length l) keys) = length (concat keys)).
  { clear. induction keys as [|k keys IH]; [reflexivity|]. cbn [map concat]. change (list_sum (?a :: ?b)) with (a + list_sum b)%nat. rewrite IH, app_length. reflexivity. }
  destruct (passes_places rng N rows (concat keys) (length (concat keys)) parties _ C
    (cut (map (fun l => length l) keys) (map Some (seq 0 (list_sum (map (fun l => length l) keys)))))) as (F & Hin).
  - subst keys. clear - L. rewrite map_map. rewrite <- L. generalize (map Some (seq 0 (list_sum (map (fun x : list item => length (map it_key x)) its)))). clear L.
    induction its as [|x l IH]; intros m; cbn; [reflexivity|]. rewrite IH. reflexivity.
  - cbn [hd]. replace (map (fun l => length l) keys) with (map (fun l : list item => length l) its) at 1
      by (subst keys; rewrite map_map; apply map_ext; intros x; symmetry; apply map_length).
    apply cut_Forall2. rewrite Es. pose proof (Forall2_start (concat keys)) as F. subst keys. rewrite <- concat_map in F |- *.
    clear - F. remember (map it_key (concat its)) as ks eqn:Ek. rewrite Ek in F at 3. clear Ek.
    revert F. generalize (map Some (seq 0 (length ks))) as m. generalize (concat its) as l.
    induction l as [|x l IH]; intros m F; inversion F; subst; constructor; auto.
  - intros i Hi. rewrite concat_cut by (rewrite map_length, seq_length; reflexivity). rewrite Es. apply in_start. exact Hi.
  - rewrite Es. rewrite read_places_spec; [apply cut_concat| |exact Hin].
    apply Forall2_concat in F. unfold par_places. rewrite <- concat_map. clear - F.
    match type of F with Forall2 _ ?a ?b => revert F; generalize a as l, b as m end.
    intros l m F. induction F; cbn; constructor; auto.
Qed.

Lemma passes_last rng N rows parties levels d : passes rng N rows parties levels -> nth (length parties) levels d = last levels [].
Proof.
  induction 1 as [its|confs parties tb noise its levels H C IH]; [reflexivity|].
  change (last (its :: nexts N tb noise its :: levels) []) with (last (nexts N tb noise its :: levels) []). rewrite <- IH. reflexivity.
Qed.
