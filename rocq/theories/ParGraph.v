(** One order of all that the servers of a deployment exchange, of which every
    server's script is its own part. *)
From Verif Require Import Base BaseProofs Incremental IncrementalProofs Wire Onion Shuffle Sizes State Database Range Handlers Batch Party Chain Parallel
  OnlineProofs ParFacts PermFacts ParChainProofs Stream StreamProofs Net Procs ProcProofs ProcChain ProcNet ParProcs ParCrash ProcExchange ParRules ParLocal ParServer ParEntity.

Notation gev := (gact mchan blk).

(** ** Events along the chain *)
Definition fwd (P : nat) (lnk ent : nat -> list gev) : list gev := flat_map (fun j => lnk j ++ ent (S j)) (seq 0 (S P)).
Definition bwd (P : nat) (lnk ent : nat -> list gev) : list gev := flat_map (fun j => ent (S j) ++ lnk j) (rev (seq 0 (S P))).

Lemma flat_none {A B} (f : A -> list B) l : (forall a, List.In a l -> f a = []) -> flat_map f l = [].
Proof. induction l as [|a l IH]; intros H; [reflexivity|]. cbn. rewrite H by (left; reflexivity). apply IH. intros; apply H; right; assumption. Qed.
Lemma flat_at {B} (f : nat -> list B) P k : (k <= P)%nat -> (forall j, j <> k -> f j = []) ->
  flat_map f (seq 0 (S P)) = f k /\ flat_map f (rev (seq 0 (S P))) = f k.
Proof.
  intros H Hf. replace (S P) with (k + S (P - k))%nat by lia. rewrite seq_app, rev_app_distr, !flat_map_app. cbn [seq rev Nat.add]. rewrite flat_map_app. cbn [flat_map].
  rewrite !(flat_none f (seq _ _)), !(flat_none f (rev (seq _ _))); rewrite ?app_nil_r; auto; intros j Hj; apply Hf; rewrite <- ?in_rev in Hj; apply in_seq in Hj; lia.
Qed.
Lemma flat_two {B} (f : nat -> list B) P k : (S k <= P)%nat -> (forall j, j <> k -> j <> S k -> f j = []) ->
  flat_map f (seq 0 (S P)) = f k ++ f (S k) /\ flat_map f (rev (seq 0 (S P))) = f (S k) ++ f k.
Proof.
  intros H Hf. replace (S P) with (k + S (S (P - S k)))%nat by lia. rewrite seq_app, rev_app_distr, !flat_map_app. cbn [seq rev Nat.add]. rewrite !flat_map_app. cbn [flat_map].
  rewrite !(flat_none f (seq _ _)), !(flat_none f (rev (seq _ _))); rewrite ?app_nil_r; auto; intros j Hj; apply Hf; rewrite <- ?in_rev in Hj; apply in_seq in Hj; lia.
Qed.

Section Graph.
  Context (N : nat).
  Notation scr e i := (scripts (mfrom N) (mto N) (bmember N) (e * N + i)).
  Notation script1 := (script (mfrom N) (mto N) (bmember N)).

  Lemma server_eqb e i e' i' : (i < N)%nat -> (i' < N)%nat -> (e * N + i =? e' * N + i')%nat = ((e =? e') && (i =? i'))%nat.
  Proof.
    intros H H'. destruct (Nat.eqb_spec (e * N + i) (e' * N + i')) as [E|E]; symmetry.
    - apply andb_true_iff. pose proof (f_equal (fun x => x / N)%nat E) as E1. pose proof (f_equal (fun x => x mod N)%nat E) as E2. cbn beta in *.
      rewrite !server_div in E1 by assumption. rewrite !server_mod in E2 by assumption. subst. rewrite !Nat.eqb_refl. auto.
    - apply not_true_iff_false. intros Ht. apply andb_true_iff in Ht. rewrite !Nat.eqb_eq in Ht. destruct Ht as [-> ->]. congruence.
  Qed.
  Lemma scripts_app p (a b : list gev) : scripts (mfrom N) (mto N) (bmember N) p (a ++ b) = scripts (mfrom N) (mto N) (bmember N) p a ++ scripts (mfrom N) (mto N) (bmember N) p b.
  Proof. apply flat_map_app. Qed.
  Lemma scripts_flat {A} p (f : A -> list gev) l :
    scripts (mfrom N) (mto N) (bmember N) p (flat_map f l) = flat_map (fun a => scripts (mfrom N) (mto N) (bmember N) p (f a)) l.
  Proof. induction l as [|a l IH]; [reflexivity|]. cbn [flat_map]. rewrite scripts_app, IH. reflexivity. Qed.

  (** [bs i] on channel c of the i-th servers. *)
  Definition on (c : chan) (bs : nat -> list Z) : list gev := flat_map (fun i => map (Byte (Link i c)) (bs i)) (seq 0 N).
  Lemma scr_on e i c bs : (i < N)%nat ->
    scr e i (on c bs) = if (sender c =? e)%nat then snd_ i c (bs i) else if (receiver c =? e)%nat then rcv_ i c (bs i) else [].
  Proof.
    intros Hi. unfold on. rewrite scripts_flat.
    assert (H1 : forall i', (i' < N)%nat -> scr e i (map (Byte (Link i' c)) (bs i')) =
      if (i' =? i)%nat then (if (sender c =? e)%nat then snd_ i c (bs i) else if (receiver c =? e)%nat then rcv_ i c (bs i) else []) else []).
    { intros i' Hi'. destruct (Nat.eqb_spec i' i) as [->|Hne].
      - generalize (bs i) as l. induction l as [|v l IH]; [destruct (sender c =? e)%nat; [reflexivity|]; destruct (receiver c =? e)%nat; reflexivity|].
        cbn [map]. unfold scripts in *. cbn [flat_map]. rewrite IH. cbn [script mfrom mto]. rewrite !server_eqb, !Nat.eqb_refl, !andb_true_r by assumption.
        destruct (sender c =? e)%nat; [reflexivity|]. destruct (receiver c =? e)%nat; reflexivity.
      - generalize (bs i') as l. induction l as [|v l IH]; [reflexivity|].
        cbn [map]. unfold scripts in *. cbn [flat_map]. rewrite IH. cbn [script mfrom mto]. rewrite !server_eqb by assumption.
        rewrite (proj2 (Nat.eqb_neq i' i)) by assumption. rewrite !andb_false_r. reflexivity. }
    replace N with (S (N - 1)) by lia. edestruct (flat_at (fun i' => if (i' <? N)%nat then scr e i (map (Byte (Link i' c)) (bs i')) else []) (N - 1) i) as [E _]; [lia| |].
    - intros j Hj. destruct (Nat.ltb_spec j N) as [Hl|Hl]; [|reflexivity]. rewrite H1 by exact Hl. rewrite (proj2 (Nat.eqb_neq j i)) by assumption. reflexivity.
    - rewrite (proj2 (Nat.ltb_lt i N) Hi), H1 in E by assumption. rewrite Nat.eqb_refl in E. rewrite <- E. apply flat_map_ext_in.
      intros a Ha. apply in_seq in Ha. rewrite (proj2 (Nat.ltb_lt a N)) by lia. replace (S (N - 1)) with N by lia. reflexivity.
  Qed.
  Definition blks (l : list blk) : list gev := map (fun x => Block x) l.
  Lemma scr_blks e i l : (i < N)%nat -> Forall (fun x => bk_k x = e) l -> scr e i (blks l) = map (fun x => Loc x) l.
  Proof.
    intros Hi. induction 1 as [|x l Hx F IH]; [reflexivity|]. cbn [blks map]. unfold scripts in *. cbn [flat_map]. fold (blks l). rewrite IH. cbn [script].
    unfold bmember. rewrite server_div by exact Hi. rewrite Hx, Nat.eqb_refl. reflexivity.
  Qed.
  Lemma scr_blks_other e e' i l : (i < N)%nat -> Forall (fun x => bk_k x = e') l -> e <> e' -> scr e i (blks l) = [].
  Proof.
    intros Hi F Hne. induction F as [|x l Hx F IH]; [reflexivity|]. cbn [blks map]. unfold scripts in *. cbn [flat_map]. fold (blks l). rewrite IH. cbn [script].
    unfold bmember. rewrite server_div by exact Hi. rewrite Hx, (proj2 (Nat.eqb_neq e e')) by assumption. reflexivity.
  Qed.

  (** The parts of the entities in a pass along the chain. *)
  Section Pass.
    Context (P : nat) (lnk ent : nat -> list gev) (i : nat) (Hi : (i < N)%nat).
    Context (HL : forall j e, e <> j -> e <> S j -> scr e i (lnk j) = []) (HE : forall e e', e <> e' -> scr e i (ent e') = []).
    Lemma pass_far j e : e <> j -> e <> S j -> scr e i (lnk j ++ ent (S j)) = [] /\ scr e i (ent (S j) ++ lnk j) = [].
    Proof using All. intros H1 H2. rewrite !scripts_app, HL, HE by lia. auto. Qed.
    Lemma pass_client : scr 0 i (fwd P lnk ent) = scr 0 i (lnk 0%nat) /\ scr 0 i (bwd P lnk ent) = scr 0 i (lnk 0%nat).
    Proof using All.
      unfold fwd, bwd. rewrite !scripts_flat. split.
      - rewrite (proj1 (flat_at (fun j => scr 0 i (lnk j ++ ent (S j))) P 0 (Nat.le_0_l P) (fun j Hj => proj1 (pass_far j 0 (not_eq_sym Hj) (O_S j))))).
        rewrite scripts_app, HE, app_nil_r by lia. reflexivity.
      - rewrite (proj2 (flat_at (fun j => scr 0 i (ent (S j) ++ lnk j)) P 0 (Nat.le_0_l P) (fun j Hj => proj2 (pass_far j 0 (not_eq_sym Hj) (O_S j))))).
        rewrite scripts_app, HE by lia. reflexivity.
    Qed.
    Lemma pass_party k : (k < P)%nat ->
      scr (S k) i (fwd P lnk ent) = scr (S k) i (lnk k) ++ scr (S k) i (ent (S k)) ++ scr (S k) i (lnk (S k)) /\
      scr (S k) i (bwd P lnk ent) = scr (S k) i (lnk (S k)) ++ scr (S k) i (ent (S k)) ++ scr (S k) i (lnk k).
    Proof using All.
      intros Hk. unfold fwd, bwd. rewrite !scripts_flat. split.
      - rewrite (proj1 (flat_two (fun j => scr (S k) i (lnk j ++ ent (S j))) P k Hk
          (fun j H1 H2 => proj1 (pass_far j (S k) (not_eq_sym H2) (fun E => H1 (eq_add_S _ _ (eq_sym E))))))).
        rewrite !scripts_app. rewrite (HE (S k) (S (S k))) by lia. rewrite app_nil_r, app_assoc. reflexivity.
      - rewrite (proj2 (flat_two (fun j => scr (S k) i (ent (S j) ++ lnk j)) P k Hk
          (fun j H1 H2 => proj2 (pass_far j (S k) (not_eq_sym H2) (fun E => H1 (eq_add_S _ _ (eq_sym E))))))).
        rewrite !scripts_app. rewrite (HE (S k) (S (S k))) by lia. reflexivity.
    Qed.
    Lemma pass_backend :
      scr (S P) i (fwd P lnk ent) = scr (S P) i (lnk P) ++ scr (S P) i (ent (S P)) /\
      scr (S P) i (bwd P lnk ent) = scr (S P) i (ent (S P)) ++ scr (S P) i (lnk P).
    Proof using All.
      assert (Hf : forall j, (j < S P)%nat -> j <> P -> S P <> j /\ S P <> S j) by (intros; lia).
      unfold fwd, bwd. rewrite !scripts_flat. rewrite seq_S, rev_app_distr. cbn [rev app Nat.add]. rewrite flat_map_app. cbn [flat_map].
      rewrite !flat_none, ?app_nil_r; rewrite ?scripts_app; auto; intros a Ha; rewrite <- ?in_rev in Ha; apply in_seq in Ha; apply pass_far; lia.
    Qed.
    Lemma pass_beyond e : (S P < e)%nat -> scr e i (fwd P lnk ent) = [] /\ scr e i (bwd P lnk ent) = [].
    Proof using All.
      intros He. unfold fwd, bwd. rewrite !scripts_flat. split; apply flat_none; intros a Ha; rewrite <- ?in_rev in Ha; apply in_seq in Ha; apply pass_far; lia.
    Qed.
  End Pass.

  Lemma scr_from i c bs : (i < N)%nat -> scr (sender c) i (on c bs) = snd_ i c (bs i).
  Proof. intros Hi. rewrite scr_on by exact Hi. rewrite Nat.eqb_refl. reflexivity. Qed.
  Lemma scr_to i c bs : (i < N)%nat -> sender c <> receiver c -> scr (receiver c) i (on c bs) = rcv_ i c (bs i).
  Proof. intros Hi Hne. rewrite scr_on by exact Hi. rewrite (proj2 (Nat.eqb_neq _ _) Hne), Nat.eqb_refl. reflexivity. Qed.
  Lemma scr_far e i c bs : (i < N)%nat -> sender c <> e -> receiver c <> e -> scr e i (on c bs) = [].
  Proof. intros Hi H1 H2. rewrite scr_on by exact Hi. rewrite (proj2 (Nat.eqb_neq _ _) H1), (proj2 (Nat.eqb_neq _ _) H2). reflexivity. Qed.

  (** ** The servers of an entity connect to each other *)
  Section Setup.
    Context (acc : nat -> nat -> list nat).
    Definition setup_of (e t : nat) : list gev :=
      map (fun u => Byte (SLis e t u) 1) (seq 0 t) ++ map (fun u => Byte (SCon e u t) 1) (acc e t) ++ map (fun u => Byte (Sib e u t) (Z.of_nat u)) (acc e t).
    Definition setup (e : nat) : list gev := flat_map (setup_of e) (seq 0 N).
    Hypothesis Hacc : forall e t, (t < N)%nat -> Permutation (acc e t) (seq 0 t).

    Lemma flat_pick {B} (F : nat -> list B) (g : B) (i : nat) l : NoDup l -> (forall u, List.In u l -> F u = if (u =? i)%nat then [g] else []) ->
      flat_map F l = if in_dec Nat.eq_dec i l then [g] else [].
    Proof.
      induction 1 as [|u l Hn ND IH]; intros H; [reflexivity|]. cbn [flat_map]. rewrite H by (left; reflexivity). rewrite IH by (intros; apply H; right; assumption).
      destruct (Nat.eqb_spec u i) as [->|Hne].
      - destruct (in_dec Nat.eq_dec i l); [contradiction|]. destruct (in_dec Nat.eq_dec i (i :: l)) as [|Hx]; [reflexivity|]. exfalso. apply Hx. left. reflexivity.
      - destruct (in_dec Nat.eq_dec i l) as [Hl|Hl], (in_dec Nat.eq_dec i (u :: l)) as [Hx|Hx]; try reflexivity.
        + exfalso. apply Hx. right. exact Hl.
        + destruct Hx; [congruence|contradiction].
    Qed.
    Lemma flat_each {A B} (F : A -> list B) (g : A -> B) l : (forall a, List.In a l -> F a = [g a]) -> flat_map F l = map g l.
    Proof. intros H. rewrite <- flat_map_single. apply flat_map_ext_in. exact H. Qed.
    Lemma scripts_map {A} p (f : A -> gev) l : scripts (mfrom N) (mto N) (bmember N) p (map f l) = flat_map (fun a => script1 p (f a)) l.
    Proof. induction l as [|a l IH]; [reflexivity|]. cbn [map flat_map]. rewrite <- IH. reflexivity. Qed.

    Lemma acc_lt e t u : (t < N)%nat -> List.In u (acc e t) -> (u < t)%nat.
    Proof using Hacc. intros Ht Hu. apply (Permutation_in _ (Hacc e t Ht)) in Hu. apply in_seq in Hu. lia. Qed.
    Lemma acc_in e t u : (t < N)%nat -> (u < t)%nat -> List.In u (acc e t).
    Proof using Hacc. intros Ht Hu. apply (Permutation_in _ (Permutation_sym (Hacc e t Ht))). apply in_seq. lia. Qed.
    Lemma acc_nodup e t : (t < N)%nat -> NoDup (acc e t).
    Proof using Hacc. intros Ht. eapply Permutation_NoDup; [apply Permutation_sym, Hacc, Ht|apply seq_NoDup]. Qed.

    Lemma setup_own e i : (i < N)%nat -> scr e i (setup_of e i) =
      map (fun t => Snd (SLis e i t) 1) (seq 0 i) ++ map (fun t => Rcv (SCon e t i) 1) (acc e i) ++ map (fun t => Rcv (Sib e t i) (Z.of_nat t)) (acc e i).
    Proof using Hacc.
      intros Hi. unfold setup_of. rewrite !scripts_app, !scripts_map.
      rewrite (flat_each _ (fun t => Snd (SLis e i t) 1)) by (intros u Hu; cbn [script mfrom]; rewrite Nat.eqb_refl; reflexivity).
      rewrite (flat_each _ (fun t => Rcv (SCon e t i) 1)), (flat_each _ (fun t => Rcv (Sib e t i) (Z.of_nat t))); [reflexivity| |];
        (intros u Hu; pose proof (acc_lt e i u Hi Hu); cbn [script mfrom mto]; rewrite server_eqb by lia; rewrite (proj2 (Nat.eqb_neq u i)) by lia; rewrite andb_false_r, Nat.eqb_refl; reflexivity).
    Qed.
    Lemma setup_above e i t : (i < t)%nat -> (t < N)%nat -> scr e i (setup_of e t) = [Rcv (SLis e t i) 1; Snd (SCon e i t) 1; Snd (Sib e i t) (Z.of_nat i)].
    Proof using Hacc.
      intros Hi Ht. unfold setup_of. rewrite !scripts_app, !scripts_map.
      rewrite (flat_pick _ (Rcv (SLis e t i) 1) i), (flat_pick _ (Snd (SCon e i t) 1) i), (flat_pick _ (Snd (Sib e i t) (Z.of_nat i)) i); try apply seq_NoDup; try (apply acc_nodup; exact Ht).
      - destruct (in_dec Nat.eq_dec i (seq 0 t)) as [_|Hx]; [|exfalso; apply Hx, in_seq; lia].
        destruct (in_dec Nat.eq_dec i (acc e t)) as [_|Hx]; [reflexivity|]. exfalso. apply Hx, acc_in; assumption.
      - intros u Hu. pose proof (acc_lt e t u Ht Hu). cbn [script mfrom mto]. rewrite (proj2 (Nat.eqb_neq u t)) by lia. rewrite !server_eqb by lia.
        rewrite (proj2 (Nat.eqb_neq t i)) by lia. rewrite Nat.eqb_refl. cbn [andb]. destruct (Nat.eqb_spec u i) as [->|]; reflexivity.
      - intros u Hu. pose proof (acc_lt e t u Ht Hu). cbn [script mfrom mto]. rewrite (proj2 (Nat.eqb_neq u t)) by lia. rewrite !server_eqb by lia.
        rewrite (proj2 (Nat.eqb_neq t i)) by lia. rewrite Nat.eqb_refl. cbn [andb]. destruct (Nat.eqb_spec u i) as [->|]; reflexivity.
      - intros u Hu. apply in_seq in Hu. cbn [script mfrom mto]. rewrite (proj2 (Nat.eqb_neq t u)) by lia. rewrite !server_eqb by lia.
        rewrite (proj2 (Nat.eqb_neq t i)) by lia. rewrite Nat.eqb_refl. cbn [andb]. destruct (Nat.eqb_spec u i) as [->|]; reflexivity.
    Qed.
    Lemma setup_off e i e' t : (i < N)%nat -> (t < N)%nat -> e <> e' \/ (t < i)%nat -> scr e i (setup_of e' t) = [].
    Proof using Hacc.
      intros Hi Ht Ho. unfold setup_of. rewrite !scripts_app, !scripts_map.
      rewrite !flat_none; [reflexivity| | |]; intros u Hu; [apply (acc_lt e' t u Ht) in Hu|apply (acc_lt e' t u Ht) in Hu|apply in_seq in Hu];
        cbn [script mfrom mto]; rewrite ?(proj2 (Nat.eqb_neq u t)), ?(proj2 (Nat.eqb_neq t u)) by lia; rewrite !server_eqb by lia;
        destruct (Nat.eqb_spec e' e), (Nat.eqb_spec t i), (Nat.eqb_spec u i); cbn [andb]; try reflexivity; exfalso; lia.
    Qed.
    Lemma scr_setup e i : (i < N)%nat -> scr e i (setup e) = siblings_script N e i (acc e i).
    Proof using Hacc.
      intros Hi. unfold setup, siblings_script. rewrite scripts_flat. replace N with (i + S (N - S i))%nat at 1 by lia. rewrite seq_app, flat_map_app. cbn [seq flat_map Nat.add].
      rewrite flat_none, setup_own by (try exact Hi; intros t Ht; apply in_seq in Ht; apply setup_off; try right; lia). cbn [app]. rewrite <- !app_assoc. do 3 f_equal.
      apply flat_map_ext_in. intros t Ht. apply in_seq in Ht. apply setup_above; lia.
    Qed.
    Lemma scr_setup_off e e' i : (i < N)%nat -> e <> e' -> scr e i (setup e') = [].
    Proof using Hacc.
      intros Hi Hne. unfold setup. rewrite scripts_flat. apply flat_none. intros t Ht. apply in_seq in Ht. apply setup_off; [exact Hi|lia|left; exact Hne].
    Qed.
  End Setup.

  (** ** Passes along the chain *)
  Section Lanes.
    Context (P : nat).
    (** Exchanges of the parties, and of the backend. *)
    Definition ents (f g : nat -> list blk) (e : nat) : list gev := blks (if (e <=? P)%nat then f e else g e).
    Definition nob (e : nat) : list blk := [].
    Definition nol (j : nat) : list gev := [].
    Definition local (f : nat -> list blk) : Prop := forall e, Forall (fun x => bk_k x = e) (f e).
    Definition locs (l : list blk) : list mact := map (fun x => Loc x) l.
    Context (bs : nat -> nat -> list Z) (f g : nat -> list blk) (Hf : local f) (Hg : local g).
    Context (i : nat) (Hi : (i < N)%nat).
    Lemma scr_ents_party k : (k < P)%nat -> scr (S k) i (ents f g (S k)) = locs (f (S k)).
    Proof using Hf Hi. intros Hk. unfold ents. rewrite (proj2 (Nat.leb_le (S k) P) Hk). apply scr_blks; [exact Hi|apply Hf]. Qed.
    Lemma scr_ents_backend : scr (S P) i (ents f g (S P)) = locs (g (S P)).
    Proof using Hg Hi. unfold ents. rewrite (proj2 (Nat.leb_gt (S P) P) (Nat.lt_succ_diag_r P)). apply scr_blks; [exact Hi|apply Hg]. Qed.
    Lemma scr_ents_off e e' : e <> e' -> scr e i (ents f g e') = [].
    Proof using Hf Hg Hi. intros Hne. apply (scr_blks_other e e'); [exact Hi| |exact Hne]. destruct (e' <=? P)%nat; auto. Qed.

    Let up j := on (Fwd j) (bs j).
    Let down j := on (Bwd j) (bs j).
    Let greet j := on (Lis j) (fun _ => [1]) ++ on (Con j) (fun _ => [1]).
    Lemma up_far j e : e <> j -> e <> S j -> scr e i (up j) = [].
    Proof using Hi. intros H1 H2. apply scr_far; cbn [sender receiver]; auto. Qed.
    Lemma down_far j e : e <> j -> e <> S j -> scr e i (down j) = [].
    Proof using Hi. intros H1 H2. apply scr_far; cbn [sender receiver]; auto. Qed.
    Lemma greet_far j e : e <> j -> e <> S j -> scr e i (greet j) = [].
    Proof using Hi. intros H1 H2. unfold greet. rewrite scripts_app, !scr_far; cbn [sender receiver]; auto. Qed.
    Lemma nol_far j e : e <> j -> e <> S j -> scr e i (nol j) = [].
    Proof. reflexivity. Qed.
    Lemma up_low j : scr j i (up j) = snd_ i (Fwd j) (bs j i). Proof using Hi. exact (scr_from i (Fwd j) (bs j) Hi). Qed.
    Lemma up_high j : scr (S j) i (up j) = rcv_ i (Fwd j) (bs j i). Proof using Hi. exact (scr_to i (Fwd j) (bs j) Hi (Nat.neq_succ_diag_r j)). Qed.
    Lemma down_low j : scr j i (down j) = rcv_ i (Bwd j) (bs j i). Proof using Hi. exact (scr_to i (Bwd j) (bs j) Hi (Nat.neq_succ_diag_l j)). Qed.
    Lemma down_high j : scr (S j) i (down j) = snd_ i (Bwd j) (bs j i). Proof using Hi. exact (scr_from i (Bwd j) (bs j) Hi). Qed.
    Lemma greet_low j : scr j i (greet j) = m_connect i j.
    Proof using Hi.
      unfold greet. rewrite scripts_app. exact (f_equal2 (@app mact) (scr_to i (Lis j) (fun _ => [1]) Hi (Nat.neq_succ_diag_l j)) (scr_from i (Con j) (fun _ => [1]) Hi)).
    Qed.
    Lemma greet_high j : scr (S j) i (greet j) = m_listen i j.
    Proof using Hi.
      unfold greet. rewrite scripts_app. exact (f_equal2 (@app mact) (scr_from i (Lis j) (fun _ => [1]) Hi) (scr_to i (Con j) (fun _ => [1]) Hi (Nat.neq_succ_diag_r j))).
    Qed.

    Lemma lane_client :
      scr 0 i (fwd P up (ents f g)) = snd_ i (Fwd 0) (bs 0%nat i) /\
      scr 0 i (bwd P down (ents f g)) = rcv_ i (Bwd 0) (bs 0%nat i) /\
      scr 0 i (fwd P nol (ents f g)) = [] /\
      scr 0 i (fwd P greet (ents f g)) = m_connect i 0.
    Proof using All.
      rewrite (proj1 (pass_client P up (ents f g) i Hi up_far scr_ents_off)), (proj2 (pass_client P down (ents f g) i Hi down_far scr_ents_off)).
      rewrite (proj1 (pass_client P nol (ents f g) i Hi nol_far scr_ents_off)), (proj1 (pass_client P greet (ents f g) i Hi greet_far scr_ents_off)).
      rewrite up_low, down_low, greet_low. auto.
    Qed.
    Lemma lane_party k : (k < P)%nat ->
      scr (S k) i (fwd P up (ents f g)) = rcv_ i (Fwd k) (bs k i) ++ locs (f (S k)) ++ snd_ i (Fwd (S k)) (bs (S k) i) /\
      scr (S k) i (bwd P down (ents f g)) = rcv_ i (Bwd (S k)) (bs (S k) i) ++ locs (f (S k)) ++ snd_ i (Bwd k) (bs k i) /\
      scr (S k) i (fwd P nol (ents f g)) = locs (f (S k)) /\
      scr (S k) i (fwd P greet (ents f g)) = m_listen i k ++ locs (f (S k)) ++ m_connect i (S k).
    Proof using All.
      intros Hk.
      rewrite (proj1 (pass_party P up (ents f g) i Hi up_far scr_ents_off k Hk)), (proj2 (pass_party P down (ents f g) i Hi down_far scr_ents_off k Hk)).
      rewrite (proj1 (pass_party P nol (ents f g) i Hi nol_far scr_ents_off k Hk)), (proj1 (pass_party P greet (ents f g) i Hi greet_far scr_ents_off k Hk)).
      rewrite !scr_ents_party, up_low, up_high, down_low, down_high, greet_low, greet_high by exact Hk. cbn [nol scripts flat_map app]. rewrite app_nil_r. auto.
    Qed.
    Lemma lane_backend :
      scr (S P) i (fwd P up (ents f g)) = rcv_ i (Fwd P) (bs P i) ++ locs (g (S P)) /\
      scr (S P) i (bwd P down (ents f g)) = locs (g (S P)) ++ snd_ i (Bwd P) (bs P i) /\
      scr (S P) i (fwd P nol (ents f g)) = locs (g (S P)) /\
      scr (S P) i (fwd P greet (ents f g)) = m_listen i P ++ locs (g (S P)).
    Proof using All.
      rewrite (proj1 (pass_backend P up (ents f g) i Hi up_far scr_ents_off)), (proj2 (pass_backend P down (ents f g) i Hi down_far scr_ents_off)).
      rewrite (proj1 (pass_backend P nol (ents f g) i Hi nol_far scr_ents_off)), (proj1 (pass_backend P greet (ents f g) i Hi greet_far scr_ents_off)).
      rewrite !scr_ents_backend, up_high, down_high, greet_high. auto.
    Qed.
    Lemma lane_beyond e : (S P < e)%nat ->
      scr e i (fwd P up (ents f g)) = [] /\ scr e i (bwd P down (ents f g)) = [] /\ scr e i (fwd P nol (ents f g)) = [] /\ scr e i (fwd P greet (ents f g)) = [].
    Proof using All.
      intros He. repeat split; eapply pass_beyond; try exact Hi; try exact He; try exact scr_ents_off; [exact up_far|exact down_far|exact nol_far|exact greet_far].
    Qed.
  End Lanes.

  (** ** A whole run *)
  Section Whole.
    Context (db : list response) (offline online : bool) (P : nat) (acc : nat -> nat -> list nat) (lk : nat -> dlink) (pl : nat -> plan).
    Hypothesis Hacc : forall e t, (t < N)%nat -> Permutation (acc e t) (seq 0 t).
    Definition g_connect : list gev := fwd P (fun j => on (Lis j) (fun _ => [1]) ++ on (Con j) (fun _ => [1])) (ents P nob nob).
    Definition g_setup : list gev := fwd P nol (setup acc).
    Definition f_counts (e : nat) := [x_counts e (pl e)].
    Definition f_ready (tag e : nat) := [ready_blk e tag].
    Definition f_ciphers (e : nat) := [x_ready2 e; x_noise1 e (pl e); x_ciphers N e (pl e); x_ready3 e].
    Definition f_secrets (e : nat) := [x_entries e (pl e); x_secrets N e (pl e); x_noise2 e (pl e)].
    Definition f_bsecrets (e : nat) := [x_entries e (pl e); x_secrets N e (pl e); ready_blk e 8].
    Definition f_noise (e : nat) := [x_noise2 e (pl e)].
    Definition f_queries (e : nat) := [x_ready5 e; x_queries N e (pl e); x_ready6 e].
    Definition f_responses (e : nat) := [x_responses N e (pl e); x_ready7 e; x_ready8 e].
    Definition b_counts (j i : nat) := le 4 (Z.of_nat (l_count (lk j) i)).
    Definition b_ready (j i : nat) : list Z := [1].
    Definition b_ciphers (j i : nat) := concat (l_ciphers (lk j) i).
    Definition b_queries (j i : nat) := concat (l_queries (lk j) i).
    Definition b_responses (j i : nat) := concat (l_responses db (lk j) i).
    Definition g_up (bs : nat -> nat -> list Z) (f : nat -> list blk) : list gev := fwd P (fun j => on (Fwd j) (bs j)) (ents P f nob).
    Definition g_down (bs : nat -> nat -> list Z) (f : nat -> list blk) : list gev := bwd P (fun j => on (Bwd j) (bs j)) (ents P f nob).
    Definition g_stay (f g : nat -> list blk) : list gev := fwd P nol (ents P f g).
    Definition g_stage : list gev :=
      if offline then g_up b_counts f_counts ++ g_down b_ready (f_ready 1) ++ g_up b_ciphers f_ciphers ++ g_stay f_secrets f_bsecrets ++ g_down b_ready (f_ready 9)
      else g_up b_counts f_counts ++ g_stay f_noise nob ++ g_down b_ready (f_ready 9).
    Definition g_online : list gev := if online then g_up b_queries f_queries ++ g_down b_responses f_responses else [].
    Definition g_all : list gev := g_connect ++ g_setup ++ g_stage ++ g_online.

    Lemma local_nob : local nob. Proof. intros e. constructor. Qed.
    Ltac loc := intros e; repeat constructor.
    Lemma local_counts : local f_counts. Proof. loc. Qed.
    Lemma local_ready tag : local (f_ready tag). Proof. loc. Qed.
    Lemma local_ciphers : local f_ciphers. Proof. loc. Qed.
    Lemma local_secrets : local f_secrets. Proof. loc. Qed.
    Lemma local_bsecrets : local f_bsecrets. Proof. loc. Qed.
    Lemma local_noise : local f_noise. Proof. loc. Qed.
    Lemma local_queries : local f_queries. Proof. loc. Qed.
    Lemma local_responses : local f_responses. Proof. loc. Qed.

    Lemma g_party k i : (i < N)%nat -> (k < P)%nat ->
      scr (S k) i g_all = party_script db offline online N k i (acc (S k) i) (pl (S k)) (lk k) (lk (S k)).
    Proof using Hacc.
      intros Hi Hk. unfold g_all, party_script. rewrite !scripts_app.
      unfold g_connect. rewrite (proj2 (proj2 (proj2 (lane_party P b_ready nob nob local_nob local_nob i Hi k Hk)))).
      unfold g_setup. rewrite (proj1 (pass_party P nol (setup acc) i Hi (nol_far i) (fun e e' => scr_setup_off acc Hacc e e' i Hi) k Hk)).
      rewrite scr_setup by assumption. cbn [nol scripts flat_map locs nob map app]. rewrite app_nil_r, <- app_assoc. do 3 f_equal.
      unfold g_stage, party_stage, g_online, party_online, s_offline, s_simulate, s_counts, s_ready, s_ciphers, s_secrets, s_queries, s_responses. f_equal.
      - unfold g_up, g_down, g_stay. destruct offline; rewrite !scripts_app.
        + rewrite (proj1 (lane_party P b_counts f_counts nob local_counts local_nob i Hi k Hk)).
          rewrite (proj1 (lane_party P b_ciphers f_ciphers nob local_ciphers local_nob i Hi k Hk)).
          rewrite (proj1 (proj2 (lane_party P b_ready (f_ready 1) nob (local_ready 1) local_nob i Hi k Hk))).
          rewrite (proj1 (proj2 (lane_party P b_ready (f_ready 9) nob (local_ready 9) local_nob i Hi k Hk))).
          rewrite (proj1 (proj2 (proj2 (lane_party P b_ready f_secrets f_bsecrets local_secrets local_bsecrets i Hi k Hk)))). reflexivity.
        + rewrite (proj1 (lane_party P b_counts f_counts nob local_counts local_nob i Hi k Hk)).
          rewrite (proj1 (proj2 (lane_party P b_ready (f_ready 9) nob (local_ready 9) local_nob i Hi k Hk))).
          rewrite (proj1 (proj2 (proj2 (lane_party P b_ready f_noise nob local_noise local_nob i Hi k Hk)))). reflexivity.
      - unfold g_up, g_down. destruct online; [|reflexivity]. rewrite scripts_app.
        rewrite (proj1 (lane_party P b_queries f_queries nob local_queries local_nob i Hi k Hk)).
        rewrite (proj1 (proj2 (lane_party P b_responses f_responses nob local_responses local_nob i Hi k Hk))). reflexivity.
    Qed.
    Lemma g_backend i : (i < N)%nat -> scr (S P) i g_all = backend_script db offline online N P i (acc (S P) i) (pl (S P)) (lk P).
    Proof using Hacc.
      intros Hi. unfold g_all, backend_script. rewrite !scripts_app.
      unfold g_connect. rewrite (proj2 (proj2 (proj2 (lane_backend P b_ready nob nob local_nob local_nob i Hi)))).
      unfold g_setup. rewrite (proj1 (pass_backend P nol (setup acc) i Hi (nol_far i) (fun e e' => scr_setup_off acc Hacc e e' i Hi))).
      rewrite scr_setup by assumption. cbn [nol scripts flat_map locs nob map app]. rewrite app_nil_r. do 2 f_equal.
      unfold g_stage, backend_stage, g_online, backend_online_script. f_equal.
      - unfold g_up, g_down, g_stay. destruct offline; rewrite !scripts_app.
        + rewrite (proj1 (lane_backend P b_counts f_counts nob local_counts local_nob i Hi)).
          rewrite (proj1 (lane_backend P b_ciphers f_ciphers nob local_ciphers local_nob i Hi)).
          rewrite (proj1 (proj2 (lane_backend P b_ready (f_ready 1) nob (local_ready 1) local_nob i Hi))).
          rewrite (proj1 (proj2 (lane_backend P b_ready (f_ready 9) nob (local_ready 9) local_nob i Hi))).
          rewrite (proj1 (proj2 (proj2 (lane_backend P b_ready f_secrets f_bsecrets local_secrets local_bsecrets i Hi)))).
          cbn [locs nob map]. rewrite !app_nil_r. reflexivity.
        + rewrite (proj1 (lane_backend P b_counts f_counts nob local_counts local_nob i Hi)).
          rewrite (proj1 (proj2 (lane_backend P b_ready (f_ready 9) nob (local_ready 9) local_nob i Hi))).
          rewrite (proj1 (proj2 (proj2 (lane_backend P b_ready f_noise nob local_noise local_nob i Hi)))).
          cbn [locs nob map]. rewrite !app_nil_r. reflexivity.
      - unfold g_up, g_down. destruct online; [|reflexivity]. rewrite scripts_app.
        rewrite (proj1 (lane_backend P b_queries f_queries nob local_queries local_nob i Hi)).
        rewrite (proj1 (proj2 (lane_backend P b_responses f_responses nob local_responses local_nob i Hi))). cbn [locs nob map]. rewrite !app_nil_r. reflexivity.
    Qed.
    Lemma g_client i : (i < N)%nat -> scr 0 i g_all = client_script db offline online i (lk 0%nat).
    Proof using Hacc.
      intros Hi. unfold g_all, client_script. rewrite !scripts_app.
      unfold g_connect. rewrite (proj2 (proj2 (proj2 (lane_client P b_ready nob nob local_nob local_nob i Hi)))).
      unfold g_setup. rewrite (proj1 (pass_client P nol (setup acc) i Hi (nol_far i) (fun e e' => scr_setup_off acc Hacc e e' i Hi))).
      cbn [nol scripts flat_map locs nob map app]. f_equal.
      unfold g_stage, g_online. f_equal.
      - unfold g_up, g_down, g_stay. destruct offline; rewrite !scripts_app.
        + rewrite (proj1 (lane_client P b_counts f_counts nob local_counts local_nob i Hi)).
          rewrite (proj1 (lane_client P b_ciphers f_ciphers nob local_ciphers local_nob i Hi)).
          rewrite (proj1 (proj2 (lane_client P b_ready (f_ready 1) nob (local_ready 1) local_nob i Hi))).
          rewrite (proj1 (proj2 (lane_client P b_ready (f_ready 9) nob (local_ready 9) local_nob i Hi))).
          rewrite (proj1 (proj2 (proj2 (lane_client P b_ready f_secrets f_bsecrets local_secrets local_bsecrets i Hi)))). reflexivity.
        + rewrite (proj1 (lane_client P b_counts f_counts nob local_counts local_nob i Hi)).
          rewrite (proj1 (proj2 (lane_client P b_ready (f_ready 9) nob (local_ready 9) local_nob i Hi))).
          rewrite (proj1 (proj2 (proj2 (lane_client P b_ready f_noise nob local_noise local_nob i Hi)))). rewrite app_nil_r. reflexivity.
      - unfold g_up, g_down. destruct online; [|reflexivity]. rewrite scripts_app.
        rewrite (proj1 (lane_client P b_queries f_queries nob local_queries local_nob i Hi)).
        rewrite (proj1 (proj2 (lane_client P b_responses f_responses nob local_responses local_nob i Hi))). reflexivity.
    Qed.
    Lemma g_beyond e i : (i < N)%nat -> (S P < e)%nat -> scr e i g_all = [].
    Proof using Hacc.
      intros Hi He. unfold g_all. rewrite !scripts_app.
      unfold g_connect. rewrite (proj2 (proj2 (proj2 (lane_beyond P b_ready nob nob local_nob local_nob i Hi e He)))).
      unfold g_setup. rewrite (proj1 (pass_beyond P nol (setup acc) i Hi (nol_far i) (fun e e' => scr_setup_off acc Hacc e e' i Hi) e He)).
      unfold g_stage, g_online, g_up, g_down, g_stay. destruct offline; rewrite !scripts_app.
      - rewrite (proj1 (lane_beyond P b_counts f_counts nob local_counts local_nob i Hi e He)).
        rewrite (proj1 (lane_beyond P b_ciphers f_ciphers nob local_ciphers local_nob i Hi e He)).
        rewrite (proj1 (proj2 (lane_beyond P b_ready (f_ready 1) nob (local_ready 1) local_nob i Hi e He))).
        rewrite (proj1 (proj2 (lane_beyond P b_ready (f_ready 9) nob (local_ready 9) local_nob i Hi e He))).
        rewrite (proj1 (proj2 (proj2 (lane_beyond P b_ready f_secrets f_bsecrets local_secrets local_bsecrets i Hi e He)))).
        destruct online; [|reflexivity]. rewrite scripts_app.
        rewrite (proj1 (lane_beyond P b_queries f_queries nob local_queries local_nob i Hi e He)).
        rewrite (proj1 (proj2 (lane_beyond P b_responses f_responses nob local_responses local_nob i Hi e He))). reflexivity.
      - rewrite (proj1 (lane_beyond P b_counts f_counts nob local_counts local_nob i Hi e He)).
        rewrite (proj1 (proj2 (lane_beyond P b_ready (f_ready 9) nob (local_ready 9) local_nob i Hi e He))).
        rewrite (proj1 (proj2 (proj2 (lane_beyond P b_ready f_noise nob local_noise local_nob i Hi e He)))).
        destruct online; [|reflexivity]. rewrite scripts_app.
        rewrite (proj1 (lane_beyond P b_queries f_queries nob local_queries local_nob i Hi e He)).
        rewrite (proj1 (proj2 (lane_beyond P b_responses f_responses nob local_responses local_nob i Hi e He))). reflexivity.
    Qed.

    (** ** No exchange occurs twice *)
    Definition short (x : blk) : Prop := bk_small x = true -> forall s t, (length (bk_data x s t) <= 4)%nat.
    Definition tagged (T : list nat) (l : list blk) : Prop := NoDup l /\ forall x, List.In x l -> List.In (bk_tag x) T /\ short x.
    Lemma nodup_app {A} (l1 l2 : list A) : NoDup l1 -> NoDup l2 -> (forall x, List.In x l1 -> ~ List.In x l2) -> NoDup (l1 ++ l2).
    Proof.
      intros H1 H2 Hd. induction H1 as [|a l1 Ha H1 IH]; [exact H2|]. cbn [app]. constructor.
      - intros Hx. apply in_app_iff in Hx. destruct Hx as [Hx|Hx]; [contradiction|]. apply (Hd a); [left; reflexivity|exact Hx].
      - apply IH. intros x Hx. apply Hd. right. exact Hx.
    Qed.
    Lemma tagged_app T1 T2 l1 l2 : tagged T1 l1 -> tagged T2 l2 -> (forall t, List.In t T1 -> ~ List.In t T2) -> tagged (T1 ++ T2) (l1 ++ l2).
    Proof.
      intros [N1 H1] [N2 H2] Hd. split.
      - apply nodup_app; auto. intros x Hx Hx2. apply (Hd (bk_tag x)); [apply H1|apply H2]; assumption.
      - intros x Hx. apply in_app_iff in Hx. destruct Hx as [Hx|Hx]; [apply H1 in Hx|apply H2 in Hx]; (split; [apply in_app_iff|]); tauto.
    Qed.
    Lemma blocks_app (a b : list gev) : blocks (a ++ b) = blocks a ++ blocks b.
    Proof. apply flat_map_app. Qed.
    Lemma blocks_flat {A} (f : A -> list gev) l : blocks (flat_map f l) = flat_map (fun a => blocks (f a)) l.
    Proof. induction l as [|a l IH]; [reflexivity|]. cbn [flat_map]. rewrite blocks_app, IH. reflexivity. Qed.
    Lemma blocks_bytes {A} (f : A -> mchan) v l : blocks (map (fun a => Byte (X := blk) (f a) (v a)) l) = [].
    Proof. induction l as [|a l IH]; [reflexivity|]. exact IH. Qed.
    Lemma blocks_blks l : blocks (blks l) = l.
    Proof. induction l as [|a l IH]; [reflexivity|]. cbn [blks map]. unfold blocks in *. cbn [flat_map]. fold (blks l). rewrite IH. reflexivity. Qed.
    Lemma blocks_on c bs : blocks (on c bs) = [].
    Proof. unfold on. rewrite blocks_flat. apply flat_none. intros a _. apply (blocks_bytes (fun _ => Link a c) (fun v => v)). Qed.
    Lemma blocks_setup e : blocks (setup acc e) = [].
    Proof. unfold setup. rewrite blocks_flat. apply flat_none. intros a _. unfold setup_of. rewrite !blocks_app, !blocks_bytes. reflexivity. Qed.
    Lemma NoDup_flat (f : nat -> list blk) l : NoDup l -> local f -> (forall e, NoDup (f e)) -> NoDup (flat_map f l).
    Proof.
      intros ND Hl Hn. induction ND as [|e l He ND IH]; [constructor|]. cbn [flat_map]. apply nodup_app; [apply Hn|exact IH|].
      intros x Hx Hx2. apply in_flat_map in Hx2. destruct Hx2 as [e' [He' Hx']].
      pose proof (proj1 (Forall_forall _ _) (Hl e) x Hx) as E1. pose proof (proj1 (Forall_forall _ _) (Hl e') x Hx') as E2. cbn beta in *. congruence.
    Qed.
    Lemma tagged_pass T (f g : nat -> list blk) l : NoDup l -> local f -> local g -> (forall e, tagged T (f e)) -> (forall e, tagged T (g e)) ->
      tagged T (flat_map (fun j => blocks (ents P f g (S j))) l).
    Proof.
      intros ND Hf Hg Tf Tg. set (h e := if (e <=? P)%nat then f e else g e).
      assert (E : flat_map (fun j => blocks (ents P f g (S j))) l = flat_map h (map S l)).
      { rewrite !flat_map_concat_map, map_map. f_equal. apply map_ext. intros j. unfold ents. apply blocks_blks. }
      rewrite E. split.
      - apply NoDup_flat; [apply FinFun.Injective_map_NoDup; [intros x y Exy; congruence|exact ND]|intros e; unfold h; destruct (e <=? P)%nat; auto|].
        intros e. unfold h. destruct (e <=? P)%nat; [apply Tf|apply Tg].
      - intros x Hx. apply in_flat_map in Hx. destruct Hx as [e [_ Hx]]. unfold h in Hx. destruct (e <=? P)%nat; [apply (Tf e)|apply (Tg e)]; exact Hx.
    Qed.
    Lemma tagged_up T bs f : local f -> (forall e, tagged T (f e)) -> tagged T (blocks (g_up bs f)).
    Proof.
      intros Hf Tf. unfold g_up, fwd. rewrite blocks_flat. erewrite flat_map_ext_in; [apply (tagged_pass T f nob); eauto using seq_NoDup, local_nob|].
      - intros e. split; [constructor|intros x []].
      - intros j _. rewrite blocks_app, blocks_on. reflexivity.
    Qed.
    Lemma tagged_down T bs f : local f -> (forall e, tagged T (f e)) -> tagged T (blocks (g_down bs f)).
    Proof.
      intros Hf Tf. unfold g_down, bwd. rewrite blocks_flat. erewrite flat_map_ext_in; [apply (tagged_pass T f nob); eauto using NoDup_rev, seq_NoDup, local_nob|].
      - intros e. split; [constructor|intros x []].
      - intros j _. rewrite blocks_app, blocks_on, app_nil_r. reflexivity.
    Qed.
    Lemma tagged_stay T f g : local f -> local g -> (forall e, tagged T (f e)) -> (forall e, tagged T (g e)) -> tagged T (blocks (g_stay f g)).
    Proof. intros Hf Hg Tf Tg. unfold g_stay, fwd. rewrite blocks_flat. apply (tagged_pass T f g); auto using seq_NoDup. Qed.
    Lemma tagged_list T (l : list blk) : NoDup (map bk_tag l) -> incl (map bk_tag l) T -> Forall short l -> tagged T l.
    Proof.
      intros ND Hi F. split; [exact (NoDup_map_inv _ _ ND)|]. intros x Hx. split; [apply Hi, in_map, Hx|exact (proj1 (Forall_forall _ _) F x Hx)].
    Qed.
    Lemma short_ready e tag : short (ready_blk e tag). Proof. intros _ s t. cbn. lia. Qed.
    Lemma short_count e tag h : short (count_blk e tag h). Proof. intros _ s t. cbn [count_blk bk_data]. rewrite length_le. lia. Qed.
    Lemma short_sap {M} e tag (enc : M -> list Z) h : short (sap_blk N e tag enc h). Proof. intros H. discriminate. Qed.
    Lemma blocks_start : blocks (g_connect ++ g_setup) = [].
    Proof.
      rewrite blocks_app. unfold g_connect, g_setup, fwd. rewrite !blocks_flat, !flat_none; [reflexivity| |]; intros j _; rewrite !blocks_app, ?blocks_on, ?blocks_setup; [reflexivity|].
      unfold ents, nob. destruct (_ <=? _)%nat; reflexivity.
    Qed.
    Ltac tags := intros e; apply tagged_list; [cbn; repeat constructor; cbn; lia|intros t; cbn; lia|repeat first [apply Forall_nil|apply Forall_cons]; first [apply short_ready|apply short_count|apply short_sap]].
    Lemma g_tagged : exists T, tagged T (blocks g_all).
    Proof.
      unfold g_all. rewrite app_assoc, blocks_app, blocks_start. cbn [app]. rewrite blocks_app. unfold g_stage, g_online.
      pose proof (tagged_up [0]%nat b_counts f_counts local_counts ltac:(tags)) as T0.
      pose proof (tagged_down [1]%nat b_ready (f_ready 1) (local_ready 1) ltac:(tags)) as T1.
      pose proof (tagged_up [2;3;4;5]%nat b_ciphers f_ciphers local_ciphers ltac:(tags)) as T2.
      pose proof (tagged_stay [6;7;8]%nat f_secrets f_bsecrets local_secrets local_bsecrets ltac:(tags) ltac:(tags)) as T3.
      pose proof (tagged_stay [8]%nat f_noise nob local_noise local_nob ltac:(tags) ltac:(tags)) as T3'.
      pose proof (tagged_down [9]%nat b_ready (f_ready 9) (local_ready 9) ltac:(tags)) as T4.
      pose proof (tagged_up [10;11;12]%nat b_queries f_queries local_queries ltac:(tags)) as T5.
      pose proof (tagged_down [13;14;15]%nat b_responses f_responses local_responses ltac:(tags)) as T6.
      assert (To : tagged [10;11;12;13;14;15]%nat (blocks (if online then g_up b_queries f_queries ++ g_down b_responses f_responses else []))).
      { destruct online; [|split; [constructor|intros x []]]. rewrite blocks_app. apply (tagged_app [10;11;12] [13;14;15])%nat; auto. intros t. cbn. lia. }
      assert (Ts : tagged [0;1;2;3;4;5;6;7;8;9]%nat (blocks (if offline then g_up b_counts f_counts ++ g_down b_ready (f_ready 1) ++ g_up b_ciphers f_ciphers ++ g_stay f_secrets f_bsecrets ++ g_down b_ready (f_ready 9)
        else g_up b_counts f_counts ++ g_stay f_noise nob ++ g_down b_ready (f_ready 9)))).
      { destruct offline; rewrite !blocks_app.
        - apply (tagged_app [0] [1;2;3;4;5;6;7;8;9])%nat; auto; [|intros t; cbn; lia].
          apply (tagged_app [1] [2;3;4;5;6;7;8;9])%nat; auto; [|intros t; cbn; lia].
          apply (tagged_app [2;3;4;5] [6;7;8;9])%nat; auto; [|intros t; cbn; lia].
          apply (tagged_app [6;7;8] [9])%nat; auto. intros t; cbn; lia.
        - assert (T : tagged [0;8;9]%nat (blocks (g_up b_counts f_counts) ++ blocks (g_stay f_noise nob) ++ blocks (g_down b_ready (f_ready 9)))).
          { apply (tagged_app [0] [8;9])%nat; auto; [|intros t; cbn; lia]. apply (tagged_app [8] [9])%nat; auto. intros t; cbn; lia. }
          destruct T as [T1' T2']. split; [exact T1'|]. intros x Hx. apply T2' in Hx. destruct Hx as [Hx Hs]. split; [|exact Hs]. cbn in *. lia. }
      eexists. exact (tagged_app _ _ _ _ Ts To ltac:(intros t; cbn; lia)).
    Qed.
    Lemma g_nodup : NoDup (blocks g_all).
    Proof. destruct g_tagged as [T H]. apply H. Qed.
    Lemma g_small x c : List.In x (blocks g_all) -> bk_small x = true -> (length (bdata N x c) <= 4)%nat.
    Proof.
      intros Hx Hs. destruct g_tagged as [T [_ H]]. destruct (H x Hx) as [_ Hq]. destruct c; cbn [bdata]; try (cbn; lia). destruct (_ && _); [apply Hq, Hs|cbn; lia].
    Qed.
  End Whole.
End Graph.
