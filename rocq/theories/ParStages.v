(** The order in which the connections of a deployment with several servers per
    entity are used. *)
From Verif Require Import Base BaseProofs Incremental IncrementalProofs Wire WireProofs Additive AdditiveProofs Onion OnionProofs
  Shuffle Sizes State Database CipherBatch CipherBatchProofs Range Handlers Batch Party Chain Spec SharingProofs ShuffleProofs
  StateProofs ChainSpec OnlineProofs OfflineProofs OfflineParty ChainProofs ParShuffle ParShuffleProofs ParShuffleFacts Parallel ParChain
  ParSpec ParChainSpec ParMergeProofs ParForwardProofs ParBackwardProofs ParOnlineProofs ParPartyProofs PermFacts ParFacts
  ParSecretsProofs ParTagProofs ParStage ParParty ParChainProofs Stream StreamProofs Net Lts Procs ProcProofs ProcChain ProcNet ParProcs ParCrash ProcExchange
  ParRules ParLocal ParServer ParEntity ReadProofs ParRead ParRuns ParGraph ParNet ProcNetCrash TalkSpec TrafficSpec ParCrashProofs ParCrashNet
  ProcCrash ParSized  ParTrafficSpec ParTraffic StageSpec ParStagesSpec.

Section Positions.
  Context (N : nat) (HN : (0 < N)%nat) (G : list (gact mchan blk)) (Hnd : NoDup (blocks G)).
  Notation gst := (@gst mchan blk).
  Notation scripts := (scripts (mfrom N) (mto N) (bmember N)).
  Notation sinv := (sinv mchan_eqb (mfrom N) (mto N) (bdata N) (bmember N) G).
  Notation reads_st := (reads_st mchan_eqb (bdata N)). Notation writes_st := (writes_st mchan_eqb (bdata N)).
  Notation reads := (reads mchan_eqb (bdata N)). Notation writes := (writes mchan_eqb (bdata N)).
  Notation behind := (behind (mfrom N) (mto N) (bmember N)).
  Notation from := (mfrom N). Notation to := (mto N).
  Context (ch h : mchan -> list Z) (gs : nat -> gst) (I : sinv ch gs).
  Context (Hh : forall c, h c ++ writes_st c (gs (from c)) = writes c (scripts (from c) G)).

  (** p has got at least as far as where l remains to be done. *)
  Definition reached (p : nat) (l : list mact) : Prop := (length (script_of (gs p)) <= length l)%nat.

  Lemma rest p : exists a, scripts p G = a ++ script_of (gs p).
  Proof using I HN.
    destruct (v_pos _ _ _ _ _ _ _ _ I p) as [k E]. exists (scripts p (firstn k G)). rewrite E. unfold ProcNet.scripts. rewrite <- flat_map_app, firstn_skipn. reflexivity.
  Qed.
  Lemma reached_split p A B : scripts p G = A ++ B -> reached p B -> exists a, B = a ++ script_of (gs p).
  Proof using I HN.
    intros E H. destruct (rest p) as [a Ea]. rewrite E in Ea. exists (skipn (length A) a).
    pose proof (f_equal (fun l => length l) Ea) as L. cbn beta in L. rewrite !app_length in L. unfold reached in H.
    apply (f_equal (skipn (length A))) in Ea. rewrite !skipn_app, Nat.sub_diag, skipn_all in Ea. cbn [app skipn] in Ea.
    rewrite Ea. f_equal. replace (length A - length a)%nat with 0%nat by lia. reflexivity.
  Qed.
  Lemma unreached_split p A B : scripts p G = A ++ B -> ~ reached p B -> exists a e l, A = a ++ e :: l /\ script_of (gs p) = (e :: l) ++ B.
  Proof using I HN.
    intros E H. destruct (rest p) as [a Ea]. rewrite E in Ea. unfold reached in H.
    pose proof (f_equal (fun l => length l) Ea) as L. cbn beta in L. rewrite !app_length in L.
    assert (X : A = a ++ skipn (length a) A /\ script_of (gs p) = skipn (length a) A ++ B).
    { split.
      - apply (f_equal (firstn (length a))) in Ea. rewrite !firstn_app, Nat.sub_diag, firstn_all in Ea. cbn [firstn] in Ea.
        replace (length a - length A)%nat with 0%nat in Ea by lia. cbn [firstn] in Ea. rewrite !app_nil_r in Ea. rewrite <- Ea at 1. symmetry. apply firstn_skipn.
      - apply (f_equal (skipn (length a))) in Ea. rewrite !skipn_app, Nat.sub_diag, skipn_all in Ea. cbn [app skipn] in Ea.
        rewrite <- Ea. replace (length a - length A)%nat with 0%nat by lia. reflexivity. }
    destruct X as [X1 X2]. destruct (skipn (length a) A) as [|e l] eqn:Es; [rewrite X2 in H; cbn [app] in H; lia|]. exists a, e, l. auto.
  Qed.

  Lemma link_writes i c p : writes_st (Link i c) (gs p) = writes (Link i c) (script_of (gs p)).
  Proof using I HN.
    pose proof (v_fine _ _ _ _ _ _ _ _ I p) as F. destruct (gs p) as [l|x R W u hot g l]; [reflexivity|].
    cbn [ProcNet.writes_st ProcNet.script_of]. destruct F as [_ F]. destruct (F (Link i c)) as [k ->]. unfold ProcNet.W0. cbn [bdata].
    destruct (_ =? _)%nat; rewrite skipn_nil; reflexivity.
  Qed.
  Lemma link_reads i c p : reads_st (Link i c) (gs p) = reads (Link i c) (script_of (gs p)).
  Proof using I HN.
    pose proof (v_fine _ _ _ _ _ _ _ _ I p) as F. destruct (gs p) as [l|x R W u hot g l]; [reflexivity|].
    cbn [ProcNet.reads_st ProcNet.script_of]. destruct F as [F _]. destruct (F (Link i c)) as [k ->]. unfold ProcNet.R0. cbn [bdata].
    destruct (_ =? _)%nat; rewrite skipn_nil; reflexivity.
  Qed.

  Lemma not_before i c A B : scripts (from (Link i c)) G = A ++ B -> (length (writes (Link i c) A) < length (h (Link i c)))%nat -> reached (from (Link i c)) B.
  Proof using I Hh HN.
    intros E H. destruct (Nat.le_gt_cases (length (script_of (gs (from (Link i c))))) (length B)) as [Hle|Hgt]; [exact Hle|exfalso].
    destruct (unreached_split _ _ _ E) as (a & e & l & EA & El); [unfold reached; lia|].
    pose proof (Hh (Link i c)) as X. rewrite link_writes, E, El, EA, <- app_assoc, (writes_app _ _ _ a) in X. apply app_inv_tail in X.
    rewrite EA, writes_app, app_length, X in H. lia.
  Qed.
  Lemma has_sent i c A B : scripts (from (Link i c)) G = A ++ B -> reached (from (Link i c)) B -> (length (writes (Link i c) A) <= length (h (Link i c)))%nat.
  Proof using I Hh HN.
    intros E H. destruct (reached_split _ _ _ E H) as [a Ea]. pose proof (Hh (Link i c)) as X. rewrite link_writes, E, Ea, app_assoc, (writes_app _ _ _ (A ++ a)) in X.
    apply app_inv_tail in X. rewrite X, writes_app, app_length. lia.
  Qed.
  Lemma has_got i c A B : scripts (to (Link i c)) G = A ++ B -> reached (to (Link i c)) B -> (length (reads (Link i c) A) <= length (h (Link i c)))%nat.
  Proof using I Hh HN.
    intros E H. destruct (reached_split _ _ _ E H) as [a Ea]. pose proof (Hh (Link i c)) as X.
    pose proof (balanced_graph N HN G (Link i c)) as Bl. rewrite E, Ea, !reads_app in Bl.
    pose proof (v_bal _ _ _ _ _ _ _ _ I (Link i c)) as V. rewrite link_reads in V. rewrite V in Bl.
    rewrite <- Bl in X. apply (f_equal (fun l => length l)) in X. rewrite !app_length in X. lia.
  Qed.

  (** Whoever is past an exchange has met all who send something in it. *)
  Lemma together c x A B A' B' : bdata N x c <> [] -> scripts (to c) G = A ++ Loc x :: B -> scripts (from c) G = A' ++ Loc x :: B' ->
    reached (to c) B -> reached (from c) (Loc x :: B').
  Proof using All.
    intros Hd E E' H. destruct (Nat.le_gt_cases (length (script_of (gs (from c)))) (length (Loc x :: B'))) as [Hle|Hgt]; [exact Hle|exfalso].
    destruct (unreached_split _ _ _ E') as (a & e & l & EA & El); [unfold reached; lia|].
    assert (Bp : behind G (to c) (Loc x :: B)).
    { pose proof (behind_skip (mfrom N) (mto N) (bmember N) G (to c) A (Loc x :: B)) as Y. specialize (Y ltac:(exists 0%nat; symmetry; exact E) (length A)).
      rewrite skipn_all in Y. exact Y. }
    assert (Bq : behind G (from c) (Loc x :: B')).
    { pose proof (behind_skip (mfrom N) (mto N) (bmember N) G (from c) A' (Loc x :: B')) as Y. specialize (Y ltac:(exists 0%nat; symmetry; exact E') (length A')).
      rewrite skipn_all in Y. exact Y. }
    destruct (aligned (mfrom N) (mto N) (bmember N) G (to c) (from c) x B B' Hnd Bp Bq) as (G1 & E1 & E2).
    pose proof (balanced_graph N HN G1 c) as Bl. rewrite <- E1, <- E2 in Bl.
    pose proof (v_bal _ _ _ _ _ _ _ _ I c) as V.
    assert (HA : scripts (to c) G = (A ++ [Loc x]) ++ B) by (rewrite <- app_assoc; exact E).
    destruct (reached_split _ _ _ HA H) as [a' Ea'].
    assert (L1 : (length (reads_st c (gs (to c))) <= length (reads c B))%nat).
    { rewrite Ea', reads_app, app_length. pose proof (v_fine _ _ _ _ _ _ _ _ I (to c)) as F. destruct (gs (to c)) as [l1|y R W u hot g l1]; cbn [ProcNet.reads_st ProcNet.script_of]; [lia|].
      destruct F as [F _]. destruct (F c) as [k Ek]. unfold ProcNet.R0 in Ek. rewrite Nat.eqb_refl in Ek.
      change (reads c (Loc y :: l1)) with (bdata N y c ++ reads c l1). rewrite !app_length, Ek, skipn_length. lia. }
    assert (L2 : (length (bdata N x c) + length (writes c B') <= length (writes_st c (gs (from c))))%nat).
    { destruct (gs (from c)) as [l1|y R W u hot g l1]; cbn [ProcNet.writes_st ProcNet.script_of] in *.
      - rewrite El, writes_app, app_length. change (writes c (Loc x :: B')) with (bdata N x c ++ writes c B'). rewrite app_length. lia.
      - cbn [app] in El. injection El as _ ->. rewrite app_length, writes_app, app_length. change (writes c (Loc x :: B')) with (bdata N x c ++ writes c B'). rewrite app_length. lia. }
    rewrite V, app_length in L1. rewrite Bl in L1. destruct (bdata N x c); [contradiction|]. cbn [length] in L2. lia.
  Qed.

  (** When server i of entity e has sent on something after exchange x, all
      servers of the entity have done all that comes before x. *)
  Lemma barrier e x (A : nat -> list mact) i c : (forall t, (t < N)%nat -> exists B, scripts (e * N + t) G = A t ++ Loc x :: B) ->
    bk_k x = e -> (forall s t, bk_data x s t <> []) -> (i < N)%nat -> sender c = e ->
    (length (writes (Link i c) (A i)) < length (h (Link i c)))%nat ->
    forall t, (t < N)%nat ->
      (forall c', sender c' = e -> (length (writes (Link t c') (A t)) <= length (h (Link t c')))%nat) /\
      (forall c', receiver c' = e -> (length (reads (Link t c') (A t)) <= length (h (Link t c')))%nat).
  Proof using All.
    intros HA Ek Hd Hi Es H t Ht. destruct (HA t Ht) as [Bt HAt]. destruct (HA i Hi) as [Bi HAi].
    assert (Rt : reached (e * N + t) (Loc x :: Bt)).
    { assert (Ri : reached (e * N + i) Bi).
      { pose proof (not_before i c (A i ++ [Loc x]) Bi) as Y. cbn [mfrom] in Y. rewrite Es in Y. apply Y; [rewrite <- app_assoc; exact HAi|].
        rewrite writes_app. change (writes (Link i c) [Loc x]) with (@nil Z). rewrite app_nil_r. exact H. }
      destruct (Nat.eq_dec t i) as [->|Hne].
      - rewrite HAt in HAi. apply app_inv_head in HAi. injection HAi as ->. unfold reached in *. cbn [length]. lia.
      - pose proof (together (Sib e t i) x (A i) Bi (A t) Bt) as Y. cbn [mfrom mto] in Y. replace (t =? i)%nat with false in Y by (symmetry; apply Nat.eqb_neq; exact Hne).
        apply Y; auto. cbn [bdata]. rewrite Ek, Nat.eqb_refl. replace (t <? N)%nat with true by (symmetry; apply Nat.ltb_lt; exact Ht).
        replace (i <? N)%nat with true by (symmetry; apply Nat.ltb_lt; exact Hi). replace (t =? i)%nat with false by (symmetry; apply Nat.eqb_neq; exact Hne). apply Hd. }
    split; intros c' Ec.
    - apply (has_sent t c' (A t) (Loc x :: Bt)); cbn [mfrom]; rewrite Ec; [exact HAt|exact Rt].
    - apply (has_got t c' (A t) (Loc x :: Bt)); cbn [mto]; rewrite Ec; [exact HAt|exact Rt].
  Qed.
End Positions.

(** ** The scripts of clients, parties and backend *)
Section Scripts.
  Context (N P : nat) (HN : (0 < N)%nat) (db : list response) (offline online : bool) (acc : nat -> nat -> list nat) (lk : nat -> dlink) (pl : nat -> plan).
  Context (Hacc : forall e t, (t < N)%nat -> Permutation (acc e t) (seq 0 t)).
  Notation G := (g_all N db offline online P acc lk pl).
  Notation scripts := (scripts (mfrom N) (mto N) (bmember N)).
  Notation writes_st := (writes_st mchan_eqb (bdata N)).
  Notation reads := (reads mchan_eqb (bdata N)). Notation writes := (writes mchan_eqb (bdata N)).
  Context (ch h : mchan -> list Z) (gs : nat -> @gst mchan blk).
  Context (I : sinv mchan_eqb (mfrom N) (mto N) (bdata N) (bmember N) G ch gs).
  Context (Hh : forall c, h c ++ writes_st c (gs (mfrom N c)) = writes c (scripts (mfrom N c) G)).
  Context (Q : nat -> nat -> nat).
  Context (Hcip : offline = true -> forall j i, (j <= P)%nat -> (i < N)%nat -> length (concat (l_ciphers (lk j) i)) = (124 * (S P - j) * Q j i)%nat).
  Context (Hqry : forall j i, (j <= P)%nat -> (i < N)%nat -> length (concat (l_queries (lk j) i)) = (12 * Q j i)%nat).
  Context (Hres : forall j i, (j <= P)%nat -> (i < N)%nat -> length (concat (l_responses db (lk j) i)) = (52 * Q j i)%nat).
  Notation fwd := (fun j i => length (h (Link i (Fwd j)))). Notation bwd := (fun j i => length (h (Link i (Bwd j)))).
  Notation cip := (cipher_bytes P Q offline).
  Context (Htop : online = false -> forall j i, (j <= P)%nat -> (i < N)%nat -> (fwd j i <= 4 + cip j i)%nat /\ (bwd j i <= ready_bytes offline)%nat).

  Context (Hanswers : forall j i, (j <= P)%nat -> (i < N)%nat -> (bwd j i <= ready_bytes offline + 52 * Q j i)%nat).
  Context (Hmore : forall j i, (j < P)%nat -> (i < N)%nat -> (0 < Q j i)%nat -> exists i', (i' < N)%nat /\ (0 < Q (S j) i')%nat).

  Lemma w_snd i c d bs : writes (Link i c) (snd_ i d bs) = if chan_eqb c d then bs else [].
  Proof.
    unfold snd_. induction bs as [|z bs IH]; cbn [map ProcNet.writes flat_map]; [destruct (chan_eqb c d); reflexivity|].
    unfold ProcNet.writes in IH. rewrite IH. cbn [mchan_eqb]. rewrite Nat.eqb_refl. cbn [andb]. destruct (chan_eqb c d); reflexivity.
  Qed.
  Lemma w_rcv i c d bs : writes (Link i c) (rcv_ i d bs) = [].
  Proof. unfold rcv_. induction bs as [|z bs IH]; [reflexivity|]. cbn [map ProcNet.writes flat_map]. exact IH. Qed.
  Lemma r_rcv i c d bs : reads (Link i c) (rcv_ i d bs) = if chan_eqb c d then bs else [].
  Proof.
    unfold rcv_. induction bs as [|z bs IH]; cbn [map ProcNet.reads flat_map]; [destruct (chan_eqb c d); reflexivity|].
    unfold ProcNet.reads in IH. rewrite IH. cbn [mchan_eqb]. rewrite Nat.eqb_refl. cbn [andb]. destruct (chan_eqb c d); reflexivity.
  Qed.
  Lemma r_snd i c d bs : reads (Link i c) (snd_ i d bs) = [].
  Proof. unfold snd_. induction bs as [|z bs IH]; [reflexivity|]. cbn [map ProcNet.reads flat_map]. exact IH. Qed.
  Lemma w_loc i c x l : writes (Link i c) (Loc x :: l) = writes (Link i c) l. Proof. reflexivity. Qed.
  Lemma r_loc i c x l : reads (Link i c) (Loc x :: l) = reads (Link i c) l. Proof. reflexivity. Qed.
  Lemma w_nil i c : writes (Link i c) [] = []. Proof. reflexivity. Qed.
  Lemma r_nil i c : reads (Link i c) [] = []. Proof. reflexivity. Qed.

  Definition data_link (c : chan) : bool := match c with Fwd _ | Bwd _ => true | _ => false end.
  Lemma w_pre i c a b : data_link c = true -> writes (Link i c) (m_listen i a) = [] /\ writes (Link i c) (m_connect i b) = [] /\
    reads (Link i c) (m_listen i a) = [] /\ reads (Link i c) (m_connect i b) = [].
  Proof. intros H. destruct c; try discriminate; cbn; rewrite ?andb_false_r; auto. Qed.
  Lemma quiet_map {A} i c (f : A -> mact) l : (forall a, writes (Link i c) [f a] = [] /\ reads (Link i c) [f a] = []) ->
    writes (Link i c) (map f l) = [] /\ reads (Link i c) (map f l) = [].
  Proof.
    intros H. induction l as [|a l [E1 E2]]; [split; reflexivity|]. destruct (H a) as [F1 F2]. cbn [map]. change (f a :: map f l) with ([f a] ++ map f l).
    rewrite writes_app, reads_app, F1, F2, E1, E2. split; reflexivity.
  Qed.
  Lemma w_sib i c e t l : writes (Link i c) (siblings_script N e t l) = [] /\ reads (Link i c) (siblings_script N e t l) = [].
  Proof.
    unfold siblings_script. rewrite !writes_app, !reads_app.
    assert (F : forall l0, writes (Link i c) (flat_map (fun t0 => [Rcv (SLis e t0 t) 1; Snd (SCon e t t0) 1; Snd (Sib e t t0) (Z.of_nat t)]) l0) = [] /\
      reads (Link i c) (flat_map (fun t0 => [Rcv (SLis e t0 t) 1; Snd (SCon e t t0) 1; Snd (Sib e t t0) (Z.of_nat t)]) l0) = []).
    { induction l0 as [|a l0 [E1 E2]]; [split; reflexivity|]. cbn [flat_map]. rewrite writes_app, reads_app, E1, E2. split; reflexivity. }
    destruct (F (seq (S t) (N - S t))) as [-> ->].
    destruct (quiet_map i c (fun u => Snd (SLis e t u) 1) (seq 0 t) ltac:(split; reflexivity)) as [-> ->].
    destruct (quiet_map i c (fun u => Rcv (SCon e u t) 1) l ltac:(split; reflexivity)) as [-> ->].
    destruct (quiet_map i c (fun u => Rcv (Sib e u t) (Z.of_nat u)) l ltac:(split; reflexivity)) as [-> ->]. split; reflexivity.
  Qed.
  Lemma neq_S k : (S k =? k)%nat = false. Proof. apply Nat.eqb_neq. lia. Qed.
  Lemma neq_S' k : (k =? S k)%nat = false. Proof. apply Nat.eqb_neq. lia. Qed.

  Lemma w_listen i c a : data_link c = true -> writes (Link i c) (m_listen i a) = []. Proof. intros H. apply (w_pre i c a a H). Qed.
  Lemma w_connect i c a : data_link c = true -> writes (Link i c) (m_connect i a) = []. Proof. intros H. apply (w_pre i c a a H). Qed.
  Lemma r_listen i c a : data_link c = true -> reads (Link i c) (m_listen i a) = []. Proof. intros H. apply (w_pre i c a a H). Qed.
  Lemma r_connect i c a : data_link c = true -> reads (Link i c) (m_connect i a) = []. Proof. intros H. apply (w_pre i c a a H). Qed.
  Lemma w_sibs i c e t l : writes (Link i c) (siblings_script N e t l) = []. Proof. apply w_sib. Qed.
  Lemma r_sibs i c e t l : reads (Link i c) (siblings_script N e t l) = []. Proof. apply w_sib. Qed.

  Ltac sizes_in H :=
    rewrite ?writes_app, ?reads_app in H;
    rewrite ?w_listen, ?w_connect, ?r_listen, ?r_connect, ?w_sibs, ?r_sibs, ?w_loc, ?r_loc, ?w_nil, ?r_nil, ?w_snd, ?w_rcv, ?r_rcv, ?r_snd in H by reflexivity;
    cbn [chan_eqb] in H; rewrite ?Nat.eqb_refl, ?neq_S, ?neq_S' in H; rewrite ?app_length, ?length_le in H; cbn [length app] in H.
  Ltac sizes :=
    rewrite ?writes_app, ?reads_app;
    rewrite ?w_listen, ?w_connect, ?r_listen, ?r_connect, ?w_sibs, ?r_sibs, ?w_loc, ?r_loc, ?w_nil, ?r_nil, ?w_snd, ?w_rcv, ?r_rcv, ?r_snd by reflexivity;
    cbn [chan_eqb]; rewrite ?Nat.eqb_refl, ?neq_S, ?neq_S'; rewrite ?app_length, ?length_le; cbn [length app].

  Let Hnd : NoDup (blocks G). Proof. apply g_nodup. exact Hacc. Qed.
  Let bar := barrier N HN G Hnd ch h gs I Hh.

  Section Party.
    Context (k : nat) (Hk : (k < P)%nat).
    Definition pre (t : nat) : list mact := m_listen t k ++ m_connect t (S k) ++ siblings_script N (S k) t (acc (S k) t).
    Definition st_counts (t : nat) : list mact := s_counts k t (pl (S k)) (l_count (lk k) t) (l_count (lk (S k)) t).
    Definition st_ciphers (t : nat) : list mact := s_ciphers N k t (pl (S k)) (l_ciphers (lk k) t) (l_ciphers (lk (S k)) t).
    Definition st_stage (t : nat) : list mact := party_stage offline N k t (pl (S k)) (lk k) (lk (S k)).
    Definition st_queries (t : nat) : list mact := s_queries N k t (pl (S k)) (l_queries (lk k) t) (l_queries (lk (S k)) t).

    Ltac flat := repeat (rewrite <- app_assoc; cbn [app]).
    Ltac at_point_of u Hu := eexists; rewrite (g_party N db offline online P acc lk pl Hacc k u Hu Hk); unfold party_script, pre, st_counts, st_ciphers, st_stage, st_queries, party_stage, party_online;
      repeat match goal with E : offline = _ |- _ => rewrite E | E : online = _ |- _ => rewrite E end;
      unfold s_offline, s_simulate, s_counts, s_ready, s_ciphers, s_secrets, s_queries, s_responses; flat; reflexivity.
    Ltac at_point := let u := fresh "u" in let Hu := fresh "Hu" in intros u Hu; at_point_of u Hu.
    Ltac at_point_either := let u := fresh "u" in let Hu := fresh "Hu" in let Off := fresh "Off" in
      intros u Hu; destruct (bool_dec offline true) as [Off|Off]; [|apply not_true_is_false in Off]; at_point_of u Hu.

    Lemma party_counts i t : (i < N)%nat -> (t < N)%nat -> (0 < fwd (S k) i)%nat -> (4 <= fwd k t)%nat.
    Proof using All.
      intros Hi Ht H.
      pose proof (bar (S k) (x_counts (S k) (pl (S k))) (fun t => pre t ++ rcv_ t (Fwd k) (le 4 (Z.of_nat (l_count (lk k) t)))) i (Fwd (S k))) as X.
      destruct (X ltac:(at_point_either) eq_refl ltac:(intros s u E; apply (f_equal (fun l => length l)) in E; discriminate E) Hi eq_refl) with (t := t) as [_ R]; [|exact Ht|].
      - unfold pre. sizes. exact H.
      - specialize (R (Fwd k) eq_refl). unfold pre in R. sizes_in R. exact R.
    Qed.

    Lemma ready_data e tag : forall s t, bk_data (ready_blk e tag) s t <> []. Proof. discriminate. Qed.
    Lemma party_allocated i t : offline = true -> (i < N)%nat -> (t < N)%nat -> (1 <= bwd k i)%nat -> (4 <= fwd k t)%nat /\ (4 <= fwd (S k) t)%nat /\ (1 <= bwd (S k) t)%nat.
    Proof using All.
      intros Off Hi Ht H.
      pose proof (bar (S k) (ready_blk (S k) 1) (fun t => pre t ++ st_counts t ++ rcv_ t (Bwd (S k)) [1]) i (Bwd k)) as X.
      destruct (X ltac:(at_point) eq_refl (ready_data _ _) Hi eq_refl) with (t := t) as [W R]; [|exact Ht|].
      - unfold pre, st_counts, s_counts. sizes. lia.
      - specialize (W (Fwd (S k)) eq_refl). pose proof (R (Fwd k) eq_refl) as R1. pose proof (R (Bwd (S k)) eq_refl) as R2.
        unfold pre, st_counts, s_counts in *. sizes_in W. sizes_in R1. sizes_in R2. lia.
    Qed.
    Lemma party_ciphers i t : offline = true -> (i < N)%nat -> (t < N)%nat -> (4 < fwd (S k) i)%nat -> (4 + cip k t <= fwd k t)%nat.
    Proof using All.
      intros Off Hi Ht H.
      pose proof (bar (S k) (x_ready3 (S k)) (fun t => pre t ++ st_counts t ++ s_ready k t 1 ++ rcv_ t (Fwd k) (concat (l_ciphers (lk k) t)) ++
        [Loc (x_ready2 (S k)); Loc (x_noise1 (S k) (pl (S k))); Loc (x_ciphers N (S k) (pl (S k)))]) i (Fwd (S k))) as X.
      destruct (X ltac:(at_point) eq_refl (ready_data _ _) Hi eq_refl) with (t := t) as [_ R]; [|exact Ht|].
      - unfold pre, st_counts, s_counts, s_ready. sizes. lia.
      - specialize (R (Fwd k) eq_refl). unfold pre, st_counts, s_counts, s_ready in *. sizes_in R. unfold cipher_bytes. rewrite Off. rewrite (Hcip Off) in R by lia. lia.
    Qed.
    Lemma party_ready i t : (i < N)%nat -> (t < N)%nat -> (ready_bytes offline <= bwd k i)%nat ->
      (4 + cip k t <= fwd k t)%nat /\ (4 + cip (S k) t <= fwd (S k) t)%nat /\ (ready_bytes offline <= bwd (S k) t)%nat.
    Proof using All.
      intros Hi Ht H. destruct (bool_dec offline true) as [Off|Off].
      - pose proof (bar (S k) (ready_blk (S k) 9) (fun t => pre t ++ st_counts t ++ s_ready k t 1 ++ st_ciphers t ++ s_secrets N k (pl (S k)) ++ rcv_ t (Bwd (S k)) [1]) i (Bwd k)) as X.
        destruct (X ltac:(at_point) eq_refl (ready_data _ _) Hi eq_refl) with (t := t) as [W R]; [|exact Ht|]; unfold ready_bytes, cipher_bytes in *; rewrite Off in *.
        + unfold pre, st_counts, s_counts, s_ready, st_ciphers, s_ciphers, s_secrets. sizes. lia.
        + specialize (W (Fwd (S k)) eq_refl). pose proof (R (Fwd k) eq_refl) as R1. pose proof (R (Bwd (S k)) eq_refl) as R2.
          unfold pre, st_counts, s_counts, s_ready, st_ciphers, s_ciphers, s_secrets in *. sizes_in W. sizes_in R1. sizes_in R2. rewrite (Hcip eq_refl) in W, R1 by lia. lia.
      - apply not_true_is_false in Off.
        pose proof (bar (S k) (ready_blk (S k) 9) (fun t => pre t ++ st_counts t ++ [Loc (x_noise2 (S k) (pl (S k)))] ++ rcv_ t (Bwd (S k)) [1]) i (Bwd k)) as X.
        destruct (X ltac:(at_point) eq_refl (ready_data _ _) Hi eq_refl) with (t := t) as [W R]; [|exact Ht|]; unfold ready_bytes, cipher_bytes in *; rewrite Off in *.
        + unfold pre, st_counts, s_counts. sizes. lia.
        + specialize (W (Fwd (S k)) eq_refl). pose proof (R (Fwd k) eq_refl) as R1. pose proof (R (Bwd (S k)) eq_refl) as R2.
          unfold pre, st_counts, s_counts in *. sizes_in W. sizes_in R1. sizes_in R2. lia.
    Qed.

    (** What a party's server has sent and received in the offline stage. *)
    Lemma stage_sizes t : (t < N)%nat -> length (writes (Link t (Fwd (S k))) (st_stage t)) = (4 + cip (S k) t)%nat /\
      length (writes (Link t (Bwd k)) (st_stage t)) = ready_bytes offline /\
      length (reads (Link t (Fwd k)) (st_stage t)) = (4 + cip k t)%nat /\ length (reads (Link t (Bwd (S k))) (st_stage t)) = ready_bytes offline.
    Proof using All.
      intros Ht. unfold st_stage, party_stage, cipher_bytes, ready_bytes. destruct (bool_dec offline true) as [Off|Off].
      - rewrite Off. unfold s_offline, s_counts, s_ready, s_ciphers, s_secrets. sizes. rewrite !(Hcip Off) by lia. repeat split; lia.
      - apply not_true_is_false in Off. rewrite Off. unfold s_simulate, s_counts, s_ready. sizes. repeat split; lia.
    Qed.
    Lemma party_queries i t : (i < N)%nat -> (t < N)%nat -> (4 + cip (S k) i < fwd (S k) i)%nat -> (4 + cip k t + 12 * Q k t <= fwd k t)%nat.
    Proof using All.
      intros Hi Ht H. destruct (bool_dec online true) as [On|On].
      - pose proof (bar (S k) (x_ready6 (S k)) (fun t => pre t ++ st_stage t ++ rcv_ t (Fwd k) (concat (l_queries (lk k) t)) ++
          [Loc (x_ready5 (S k)); Loc (x_queries N (S k) (pl (S k)))]) i (Fwd (S k))) as X.
        destruct (stage_sizes i Hi) as (S1 & _). destruct (stage_sizes t Ht) as (_ & _ & S3 & _).
        destruct (X ltac:(at_point) eq_refl (ready_data _ _) Hi eq_refl) with (t := t) as [_ R]; [|exact Ht|].
        + unfold pre. sizes. lia.
        + specialize (R (Fwd k) eq_refl). unfold pre in *. sizes_in R. rewrite Hqry in R by lia. lia.
      - apply not_true_is_false in On. destruct (Htop On (S k) i Hk Hi) as [Y _]. lia.
    Qed.
    Lemma party_responses i t : (i < N)%nat -> (t < N)%nat -> (ready_bytes offline < bwd k i)%nat ->
      (4 + cip k t + 12 * Q k t <= fwd k t)%nat /\ (4 + cip (S k) t + 12 * Q (S k) t <= fwd (S k) t)%nat /\ (ready_bytes offline + 52 * Q (S k) t <= bwd (S k) t)%nat.
    Proof using All.
      intros Hi Ht H. destruct (bool_dec online true) as [On|On].
      - pose proof (bar (S k) (x_ready8 (S k)) (fun t => pre t ++ st_stage t ++ st_queries t ++ rcv_ t (Bwd (S k)) (concat (l_responses db (lk (S k)) t)) ++
          [Loc (x_responses N (S k) (pl (S k))); Loc (x_ready7 (S k))]) i (Bwd k)) as X.
        destruct (stage_sizes i Hi) as (_ & S2 & _). destruct (stage_sizes t Ht) as (S1 & _ & S3 & S4).
        destruct (X ltac:(at_point) eq_refl (ready_data _ _) Hi eq_refl) with (t := t) as [W R]; [|exact Ht|].
        + unfold pre, st_queries, s_queries. sizes. lia.
        + specialize (W (Fwd (S k)) eq_refl). pose proof (R (Fwd k) eq_refl) as R1. pose proof (R (Bwd (S k)) eq_refl) as R2.
          unfold pre, st_queries, s_queries in *. sizes_in W. sizes_in R1. sizes_in R2. rewrite Hqry in W, R1 by lia. rewrite Hres in R2 by lia. lia.
      - apply not_true_is_false in On. destruct (Htop On k i ltac:(lia) Hi) as [_ Y]. lia.
    Qed.
  End Party.

  (** ** The client and the backend *)
  Ltac flat := repeat (rewrite <- app_assoc; cbn [app]).
  Lemma client_waits i : offline = true -> (i < N)%nat -> (4 < fwd 0 i)%nat -> (1 <= bwd 0 i)%nat.
  Proof using All.
    intros Off Hi H. set (A := m_connect i 0 ++ snd_ i (Fwd 0) (le 4 (Z.of_nat (l_count (lk 0%nat) i))) ++ rcv_ i (Bwd 0) [1]).
    assert (E : exists B, scripts (0 * N + i) G = A ++ B).
    { eexists. rewrite (g_client N db offline online P acc lk pl Hacc i Hi). unfold client_script, A. rewrite Off. flat. reflexivity. }
    destruct E as [B E]. pose proof (not_before N HN G ch h gs I Hh i (Fwd 0) A B) as X. cbn [mfrom sender] in X. specialize (X E).
    pose proof (has_got N HN G ch h gs I Hh i (Bwd 0) A B) as Y. cbn [mto receiver] in Y. specialize (Y E).
    unfold A in X, Y. sizes_in X. sizes_in Y. apply Y, X, H.
  Qed.
  Lemma client_waits_again i : (i < N)%nat -> (4 + cip 0 i < fwd 0 i)%nat -> (ready_bytes offline <= bwd 0 i)%nat.
  Proof using All.
    intros Hi H. destruct (bool_dec online true) as [On|On].
    2: { apply not_true_is_false in On. destruct (Htop On 0%nat i ltac:(lia) Hi) as [Y _]. lia. }
    set (A := m_connect i 0 ++ snd_ i (Fwd 0) (le 4 (Z.of_nat (l_count (lk 0%nat) i))) ++ rcv_ i (Bwd 0) [1] ++
      (if offline then snd_ i (Fwd 0) (concat (l_ciphers (lk 0%nat) i)) ++ rcv_ i (Bwd 0) [1] else [])).
    assert (E : exists B, scripts (0 * N + i) G = A ++ B).
    { eexists. rewrite (g_client N db offline online P acc lk pl Hacc i Hi). unfold client_script, A. rewrite On. flat. reflexivity. }
    destruct E as [B E]. pose proof (not_before N HN G ch h gs I Hh i (Fwd 0) A B) as X. cbn [mfrom sender] in X. specialize (X E).
    pose proof (has_got N HN G ch h gs I Hh i (Bwd 0) A B) as Y. cbn [mto receiver] in Y. specialize (Y E).
    unfold A, cipher_bytes, ready_bytes in *. destruct (bool_dec offline true) as [Off|Off].
    - rewrite Off in *. sizes_in X. sizes_in Y. rewrite (Hcip eq_refl) in X by lia. apply Y, X. lia.
    - apply not_true_is_false in Off. rewrite Off in *. sizes_in X. sizes_in Y. apply Y, X. lia.
  Qed.
  Lemma backend_allocated i : offline = true -> (i < N)%nat -> (1 <= bwd P i)%nat -> (4 <= fwd P i)%nat.
  Proof using All.
    intros Off Hi H. set (A := m_listen i P ++ siblings_script N (S P) i (acc (S P) i) ++ rcv_ i (Fwd P) (le 4 (Z.of_nat (l_count (lk P) i)))).
    assert (E : exists B, scripts (S P * N + i) G = A ++ B).
    { eexists. rewrite (g_backend N db offline online P acc lk pl Hacc i Hi). unfold backend_script, backend_stage, A. rewrite Off. flat. reflexivity. }
    destruct E as [B E]. pose proof (not_before N HN G ch h gs I Hh i (Bwd P) A B) as X. cbn [mfrom sender] in X. specialize (X E).
    pose proof (has_got N HN G ch h gs I Hh i (Fwd P) A B) as Y. cbn [mto receiver] in Y. specialize (Y E).
    unfold A in X, Y. sizes_in X. sizes_in Y. apply Y, X. lia.
  Qed.
  Lemma backend_ready i : (i < N)%nat -> (ready_bytes offline <= bwd P i)%nat -> (4 + cip P i <= fwd P i)%nat.
  Proof using All.
    intros Hi H.
    set (A := m_listen i P ++ siblings_script N (S P) i (acc (S P) i) ++ rcv_ i (Fwd P) (le 4 (Z.of_nat (l_count (lk P) i))) ++
      (if offline then snd_ i (Bwd P) [1] ++ rcv_ i (Fwd P) (concat (l_ciphers (lk P) i)) else [])).
    assert (E : exists B, scripts (S P * N + i) G = A ++ B).
    { destruct (bool_dec offline true) as [Off|Off]; [|apply not_true_is_false in Off];
        (eexists; rewrite (g_backend N db offline online P acc lk pl Hacc i Hi); unfold backend_script, backend_stage, A; rewrite Off; flat; reflexivity). }
    destruct E as [B E]. pose proof (not_before N HN G ch h gs I Hh i (Bwd P) A B) as X. cbn [mfrom sender] in X. specialize (X E).
    pose proof (has_got N HN G ch h gs I Hh i (Fwd P) A B) as Y. cbn [mto receiver] in Y. specialize (Y E).
    unfold A, cipher_bytes, ready_bytes in *. destruct (bool_dec offline true) as [Off|Off].
    - rewrite Off in *. sizes_in X. sizes_in Y. rewrite (Hcip eq_refl) in Y by lia. apply Y, X. lia.
    - apply not_true_is_false in Off. rewrite Off in *. sizes_in X. sizes_in Y. apply Y, X. lia.
  Qed.
  Lemma backend_waits i : (i < N)%nat -> (ready_bytes offline < bwd P i)%nat -> (4 + cip P i + 12 * Q P i <= fwd P i)%nat.
  Proof using All.
    intros Hi H. destruct (bool_dec online true) as [On|On].
    2: { apply not_true_is_false in On. destruct (Htop On P i ltac:(lia) Hi) as [_ Y]. lia. }
    set (A := m_listen i P ++ siblings_script N (S P) i (acc (S P) i) ++ backend_stage offline N P i (pl (S P)) (lk P) ++ rcv_ i (Fwd P) (concat (l_queries (lk P) i))).
    assert (E : exists B, scripts (S P * N + i) G = A ++ B).
    { eexists. rewrite (g_backend N db offline online P acc lk pl Hacc i Hi). unfold backend_script, backend_online_script, A. rewrite On. flat. reflexivity. }
    destruct E as [B E]. pose proof (not_before N HN G ch h gs I Hh i (Bwd P) A B) as X. cbn [mfrom sender] in X. specialize (X E).
    pose proof (has_got N HN G ch h gs I Hh i (Fwd P) A B) as Y. cbn [mto receiver] in Y. specialize (Y E).
    unfold A, backend_stage, cipher_bytes, ready_bytes in *. destruct (bool_dec offline true) as [Off|Off].
    - rewrite Off in *. sizes_in X. sizes_in Y. rewrite (Hcip eq_refl), Hqry in Y by lia. etransitivity; [|apply Y, X; lia]. lia.
    - apply not_true_is_false in Off. rewrite Off in *. sizes_in X. sizes_in Y. rewrite Hqry in Y by lia. etransitivity; [|apply Y, X; lia]. lia.
  Qed.

  (** A response on a link shows that all later links are done. *)
  Lemma later_responses : forall d j i l, (j < P)%nat -> (i < N)%nat -> l = (j + d)%nat -> (l <= P)%nat -> (ready_bytes offline < bwd j i)%nat -> forall t, (t < N)%nat ->
    (4 + cip l t + 12 * Q l t <= fwd l t)%nat /\ ((j < l)%nat -> (ready_bytes offline + 52 * Q l t <= bwd l t)%nat).
  Proof using All.
    induction d as [|d IH]; intros j i l Hj Hi El Hl H t Ht.
    - replace l with j by lia. split; [apply (party_responses j Hj i t Hi Ht H)|lia].
    - destruct (party_responses j Hj i t Hi Ht H) as (_ & X2 & X3). destruct (Nat.eq_dec l (S j)) as [->|Hne]; [auto|].
      assert (Hq : (0 < Q j i)%nat) by (pose proof (Hanswers j i ltac:(lia) Hi); lia).
      destruct (Hmore j i Hj Hi Hq) as (i' & Hi' & Hq'). destruct (party_responses j Hj i i' Hi Hi' H) as (_ & _ & X).
      destruct (IH (S j) i' l ltac:(lia) Hi' ltac:(lia) Hl ltac:(lia) t Ht) as [Y1 Y2]. split; [exact Y1|]. intros _. apply Y2. lia.
  Qed.

  Lemma all_staged : par_staged N P Q offline fwd bwd.
  Proof using All.
    constructor.
    - intros j i t Hj Hi Ht H. exact (party_counts j Hj i t Hi Ht H).
    - intros Off i Hi H. pose proof (client_waits i Off Hi H) as R0. split; [exact R0|].
      assert (S1 : forall j, (j < P)%nat -> forall t, (t < N)%nat -> (4 <= fwd j t)%nat /\ (4 <= fwd (S j) t)%nat /\ (1 <= bwd (S j) t)%nat).
      { induction j as [|j IH]; intros Hj t Ht; [exact (party_allocated 0 Hj i t Off Hi Ht R0)|].
        destruct (IH ltac:(lia) t Ht) as (_ & _ & R). exact (party_allocated (S j) Hj t t Off Ht Ht R). }
      intros [|j] t Hj Ht Hor.
      { split; [|lia]. destruct (Nat.eq_dec P 0) as [E0|E0]; [|apply (S1 0%nat ltac:(lia) t Ht)]. destruct Hor as [Hor| ->]; [lia|].
        pose proof (backend_allocated i Off Hi) as X. rewrite E0 in X. exact (X R0). }
      destruct (S1 j ltac:(lia) t Ht) as (_ & R1 & R2). auto.
    - intros j i t Off Hj Hi Ht H. exact (party_ciphers j Hj i t Off Hi Ht H).
    - intros i Hi H. pose proof (client_waits_again i Hi H) as R0. split; [exact R0|].
      assert (S1 : forall j, (j < P)%nat -> forall t, (t < N)%nat -> (4 + cip j t <= fwd j t)%nat /\ (4 + cip (S j) t <= fwd (S j) t)%nat /\ (ready_bytes offline <= bwd (S j) t)%nat).
      { induction j as [|j IH]; intros Hj t Ht; [exact (party_ready 0 Hj i t Hi Ht R0)|].
        destruct (IH ltac:(lia) t Ht) as (_ & _ & R). exact (party_ready (S j) Hj t t Ht Ht R). }
      intros [|j] t Hj Ht Hor.
      { split; [|lia]. destruct (Nat.eq_dec P 0) as [E0|E0]; [|apply (S1 0%nat ltac:(lia) t Ht)]. destruct Hor as [Hor| ->]; [lia|].
        pose proof (backend_ready i Hi) as X. rewrite E0 in X. rewrite E0. exact (X R0). }
      destruct (S1 j ltac:(lia) t Ht) as (_ & R1 & R2). auto.
    - intros j i t Hj Hi Ht H. exact (party_queries j Hj i t Hi Ht H).
    - intros j i l t Hj Hi Hl Ht H. exact (later_responses (l - j) j i l Hj Hi ltac:(lia) ltac:(lia) H t Ht).
    - exact backend_waits.
  Qed.
End Scripts.

(** ** Executions *)
Lemma last_share total N : (0 < N)%nat -> (0 < total)%nat -> (0 < total - (N - 1) * (total / N))%nat.
Proof.
  intros HN Ht. destruct N as [|n]; [lia|]. pose proof (Nat.mul_div_le total (S n) ltac:(lia)) as X. replace (S n - 1)%nat with n by lia.
  revert X. generalize (total / S n)%nat as q. intros q X. rewrite Nat.mul_succ_l in X. destruct q as [|q]; [rewrite Nat.mul_0_r; lia|].
  revert X. generalize (n * S q)%nat as m. intros m X. lia.
Qed.

Section Executions.
Variables (b : sealbox) (rng : rng_t) (iter : iteration) (db : list response) (junk : list Z) (offline online : bool) (N : nat) (bpk bsk : list Z).
Variables (mem : nat -> smem) (acc : nat -> list nat) (clients : list client) (parties : list (list sconf)).
Variables (links : list dlink) (plans : list plan).
Hypothesis HN : (0 < N)%nat.
Hypothesis Hmem : forall p, smem_ok (mem p).
Hypothesis Hacc : forall p, Permutation (acc p) (seq 0 (p mod N)).
Hypothesis Lc : length clients = N.
Hypothesis S0 : par_set_up b rng iter db junk offline online N clients parties bpk bsk mem links plans.
Local Notation procs := (par_entity b true rng iter offline online N mem acc db junk clients parties bpk bsk).
Local Notation goal := (par_goal db online N clients parties links).
Local Notation graph := (par_graph db offline online N acc parties links plans).
Local Notation NP := (S (S (length parties)) * N)%nat.
Local Notation scripts := (scripts (mfrom N) (mto N) (bmember N)).

Definition positioned (h : mchan -> list Z) : Prop := exists ch gs, sinv mchan_eqb (mfrom N) (mto N) (bdata N) (bmember N) graph ch gs /\
  forall c, h c ++ writes_st mchan_eqb (bdata N) c (gs (mfrom N c)) = writes mchan_eqb (bdata N) c (scripts (mfrom N c) graph).

Lemma run_positioned cap h s : (forall c, (1 <= cap c)%nat) -> (forall k s t, (BUFFER_SIZE <= cap (Sib k s t))%nat) ->
  carries (net_step mchan_eqb cap) (net_start procs) h s -> positioned h.
Proof using All.
  intros Hcap1 Hcap H. pose proof S0 as (R & Hcl & _).
  assert (X : (exists n, steps (net_step mchan_eqb cap) n (net_start procs) s) /\
    exists r gs, good mchan_eqb (mfrom N) (mto N) (bdata N) (bmember N) (bgas N) BUFFER_SIZE bk_small graph NP goal s r gs /\
      forall c, total mchan_eqb (bdata N) c graph = h c ++ writes_st mchan_eqb (bdata N) c (gs (mfrom N c))).
  { apply (network_carries mchan_eqb (mfrom N) (mto N) (bdata N) (bmember N) (bgas N) BUFFER_SIZE bk_small mchan_eqb_spec (fun c => mfrom_to N c HN) (bdata_member N) cap Hcap1) with (procs := procs); [| | | | |exact H].
    - intros x c Hd. destruct c; try (exfalso; apply Hd; reflexivity). apply Hcap.
    - intros x c Hx Hs. pose proof (g_small N _ _ _ _ _ _ _ (acc_at N acc Hacc) x c Hx Hs) as Hl. destruct c; try (cbn [bdata length]; lia).
      etransitivity; [exact Hl|]. etransitivity; [|apply Hcap]. unfold BUFFER_SIZE. lia.
    - apply g_nodup. intros e t. apply (acc_at N acc Hacc).
    - intros p Hp. exact (beyond b rng iter db junk offline online N bpk bsk mem acc clients parties links plans HN Hmem Hacc Lc S0 p Hp).
    - intros p Hp. pose proof (par_obeys b rng iter db junk offline online N bpk bsk mem acc clients parties links plans cap HN Hmem Hacc Lc R Hcl Hcap1 Hcap p Hp (fun _ => false) (or_introl eq_refl) []) as Y.
      rewrite app_nil_r in Y. eapply ob_mono; [exact Y|]. intros a st [Ha Hs]. split; [symmetry; exact Ha|exact Hs]. }
  destruct X as (_ & r & gs & Gd & Ht). exists (nt_chan s), gs. split.
  - pose proof (g_inv _ _ _ _ _ _ _ _ _ _ _ _ _ _ Gd) as V. constructor; [apply (i_bal _ _ _ _ _ _ _ _ _ V)|apply (i_pos _ _ _ _ _ _ _ _ _ V)|apply (i_fine _ _ _ _ _ _ _ _ _ V)].
  - intros c. rewrite <- Ht. symmetry. apply (written N HN).
Qed.

Lemma crash_positioned cap h s : crash_carries pn_net (par_crash_step N cap) (par_crash_start procs) h s -> positioned h.
Proof using All.
  intros H. pose proof (fun p => run_obeys b rng iter db junk offline online N bpk bsk mem acc clients parties links plans HN Hmem Hacc Lc S0 mest p (or_intror eq_refl)) as O.
  pose proof (run_beyond b rng iter db junk offline online N bpk bsk mem acc clients parties links plans HN Hmem Hacc Lc S0) as By.
  assert (X : exists gs lost, psurvives_with N graph goal mest s gs lost /\
    forall c, h c ++ writes_st mchan_eqb (bdata N) c (gs (mfrom N c)) = writes mchan_eqb (bdata N) c (scripts (mfrom N c) graph)).
  { induction H as [|h s1 w s2 H (gs & lost & Su & Hh) St Hw].
    - exists (fun p => Out (scripts p graph)), (fun _ => []). split; [apply (psurvives_start_with N HN graph procs goal cap mest NP O By)|reflexivity].
    - destruct (psucc_step N HN graph procs goal cap mest NP O By s1 gs lost s2 (or_intror (fun c Hc => Hc)) Su St) as (gs' & lost' & Su' & Hw'). exists gs', lost'. split; [exact Su'|].
      intros c. destruct (Hw' c) as (w' & Pw & E). rewrite (crash_put_fun _ _ _ _ _ (Hw c) Pw), <- app_assoc, <- E. apply Hh. }
  destruct X as (gs & lost & (V & _) & Hh). eexists _, gs. split; [exact V|exact Hh].
Qed.

Lemma positioned_staged (keys : list (list Z * list Z)) h : length keys = S (length parties) ->
  planned rng N (length db) (length keys) db offline 0 parties links plans ->
  map (fun l : list item => length l) (dl_its (nth 0 links d_none)) = map (fun c => length (ct_keys c)) clients ->
  positioned h ->
  par_staged N (length parties) (on_link N (map (fun c => length (ct_keys c)) clients) (map (par_seeds N (length db)) parties)) offline
    (fun j i => length (h (Link i (Fwd j)))) (fun j i => length (h (Link i (Bwd j)))).
Proof using All.
  intros Hk PN H0 (ch & gs & V & Hh). rewrite Hk in PN.
  destruct (planned_nth _ _ _ _ _ _ d_none p_none _ _ _ _ PN) as [PL _]. cbn [Nat.add] in PL.
  pose proof (fun j i => on_link_at rng N (length db) (S (length parties)) db offline _ parties links plans PN H0 j i) as OL.
  assert (T : forall c, (length (h c) <= par_traffic rng N (map (fun c => length (ct_keys c)) clients) (map (par_seeds N (length db)) parties) offline online c)%nat).
  { intros c. rewrite <- (graph_amount rng N db offline online _ acc parties links plans HN Hacc PN H0 c), <- (written N HN), <- (Hh c), app_length. lia. }
  apply (all_staged N (length parties) HN db offline online (fun e t => acc (e * N + t)%nat) (fun j => nth j links d_none) (fun e => nth (pred e) plans p_none) (fun e t => acc_at N acc Hacc e t) ch h gs V Hh).
  - intros Off j i Hj Hi. destruct (PL j Hj) as [(_ & _ & Hc) _]. rewrite OL by exact Hj. apply (Hc Off i Hi).
  - intros j i Hj Hi. rewrite OL by exact Hj. unfold l_queries, l_count. rewrite (sized_concat 12), !map_length; [reflexivity|]. apply queries_len.
  - intros j i Hj Hi. destruct (PL j Hj) as [(_ & Hr & _) _]. rewrite OL by exact Hj. apply (Hr i Hi).
  - intros On j i Hj Hi. pose proof (T (Link i (Fwd j))) as T1. pose proof (T (Link i (Bwd j))) as T2. unfold par_traffic in T1, T2. rewrite map_length in T1, T2.
    rewrite (proj2 (Nat.ltb_lt i N) Hi), (proj2 (Nat.leb_le j (length parties)) Hj), On in T1, T2. cbn [andb] in T1, T2. unfold cipher_bytes, ready_bytes. split; lia.
  - intros j i Hj Hi. pose proof (T (Link i (Bwd j))) as T2. unfold par_traffic in T2. rewrite map_length in T2.
    rewrite (proj2 (Nat.ltb_lt i N) Hi), (proj2 (Nat.leb_le j (length parties)) Hj) in T2. cbn [andb] in T2. unfold ready_bytes. destruct online; lia.
  - intros j i Hj Hi Hq. exists (N - 1)%nat. split; [lia|]. unfold on_link in *. cbn [arriving].
    set (total := list_sum _). assert (Ht : (0 < total)%nat).
    { unfold total. clear - Hi Hq. pose proof (in_sum (fun s => (fakes (map (par_seeds N (length db)) parties) j s + nth s (arriving N (map (fun c => length (ct_keys c)) clients) (map (par_seeds N (length db)) parties) j) 0)%nat) N i Hi) as X. cbn beta in X. lia. }
    rewrite nth_indep with (d' := share_of total N 0) by (rewrite map_length, seq_length; lia). rewrite map_nth, seq_nth by lia. unfold share_of. cbn [Nat.add]. rewrite Nat.eqb_refl.
    apply last_share; [exact HN|exact Ht].
Qed.
End Executions.
