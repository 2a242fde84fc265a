(** The connection phase: invariant, progress, fairness. *)
From Coq Require Import Permutation.
From Verif Require Import Base Connect.
Local Open Scope Z_scope.
Local Open Scope list_scope.

Lemma nodup_map_inj {A B} (f : A -> B) l : (forall x y, List.In x l -> List.In y l -> f x = f y -> x = y) -> NoDup l -> NoDup (map f l).
Proof.
  induction l as [|x l IH]; intros H Hn; [constructor|]. inversion Hn as [|? ? H1 H2]; subst. cbn [map]. constructor; [|apply IH; auto; intros; apply H; auto; right; assumption].
  intros X. apply in_map_iff in X as (y & E & X). apply H1. rewrite (H x y (or_introl eq_refl) (or_intror X) (eq_sym E)). exact X.
Qed.
Section Links.
  Variables (N all : nat) (ipq : nat -> list Z) (pt : bool -> nat -> Z) (host : nat -> option (list Z)).
  Hypothesis HN : (1 <= N)%nat.
  Hypothesis Hall : exists P, all = ((P + 1) * N)%nat /\ (1 <= P)%nat.
  Hypothesis Hhost : forall q, (N <= q < all)%nat -> host q = Some (ipq q).
  Hypothesis Huniq : forall b q b' q', (N <= q < all)%nat -> (N <= q' < all)%nat -> ipq q = ipq q' -> pt b q = pt b' q' -> b = b' /\ q = q'.

  Definition up (p : nat) : list act :=
    if (0 <? p mod N)%nat then Listen (pt true p) :: repeat (Accept (pt true p)) (p mod N) ++ map (fun j => Hear (pt true p) j (Z.of_nat (p mod N))) (seq 0 (p mod N)) else [].
  Definition down (p : nat) : list act :=
    flat_map (fun d => [Dial (ipq (p + d)) (pt true (p + d)); Greet (Z.of_nat (p mod N))]) (seq 1 (N - 1 - p mod N)).
  Definition scr (p : nat) : list act :=
    if (p <? all)%nat then
      (if (N <=? p)%nat then [Listen (pt false p); Accept (pt false p)] else []) ++
      (if (p + N <? all)%nat then [Dial (ipq (p + N)) (pt false (p + N))] else []) ++
      (if (N <=? p)%nat then up p ++ down p else [])
    else [].

  (** ** Ranks *)
  Definition top : nat := (2 * all + 2)%nat.
  Definition to_next (p : nat) (a : list Z) (x : Z) : bool := (p + N <? all)%nat && text_eqb a (ipq (p + N)) && (x =? pt false (p + N)).
  Definition rank (p : nat) (a : act) : nat :=
    match a with
    | Listen x => if (x =? pt false p)%Z then 0 else top
    | Accept x => if (x =? pt false p)%Z then 2 * (p / N) else top + 1 + 2 * (p mod N)
    | Hear _ _ _ => top + 1 + 2 * (p mod N)
    | Dial a x => if to_next p a x then 2 * (p / N) + 1 else top + 2 + 2 * (p mod N)
    | Greet _ => top + 2 + 2 * (p mod N)
    end%nat.
  Definition greets (l : list act) : Prop := match l with Greet _ :: _ => True | _ => False end.
  Definition act_ok (p : nat) (a : act) (r : list act) : Prop :=
    match a with
    | Listen x => (N <= p < all)%nat /\ (exists b, x = pt b p) /\ ~ List.In (Listen x) r /\ ~ greets r
    | Accept x => (N <= p < all)%nat /\ (exists b, x = pt b p) /\ ~ greets r
    | Hear x j own => (N <= p < all)%nat /\ x = pt true p /\ (j < p mod N)%nat /\ own = Z.of_nat (p mod N) /\ ~ greets r
    | Dial a x => ~ List.In (Dial a x) r /\ (p < all)%nat /\
        ((p + N < all)%nat /\ a = ipq (p + N) /\ x = pt false (p + N) /\ ~ greets r \/
         exists d, (N <= p)%nat /\ (1 <= d)%nat /\ (p mod N + d < N)%nat /\ a = ipq (p + d) /\ x = pt true (p + d) /\ greets r)
    | Greet own => (p < all)%nat /\ own = Z.of_nat (p mod N) /\ ~ greets r
    end.
  Fixpoint wf (p : nat) (l : list act) : Prop :=
    match l with
    | [] => True
    | a :: r => act_ok p a r /\ (forall b, List.In b r -> (rank p a <= rank p b)%nat) /\ wf p r
    end.

  Lemma sibling_range p d : (N <= p < all)%nat -> (p mod N + d < N)%nat -> (N <= p + d < all)%nat /\ ((p + d) / N = p / N)%nat /\ ((p + d) mod N = p mod N + d)%nat.
  Proof using All.
    intros Hp Hd. destruct Hall as (P & -> & HP). pose proof (Nat.div_mod p N ltac:(lia)) as E.
    assert (E1 : ((p + d) / N = p / N)%nat) by (symmetry; apply (Nat.div_unique _ N _ (p mod N + d)%nat); nia).
    assert (E2 : ((p + d) mod N = p mod N + d)%nat) by (symmetry; apply (Nat.mod_unique _ N (p / N)); nia).
    split; [|auto]. split; [lia|]. assert (p / N < P + 1)%nat by (apply Nat.div_lt_upper_bound; lia). nia.
  Qed.
  Lemma rank_next p : (p + N < all)%nat -> rank p (Dial (ipq (p + N)) (pt false (p + N))) = (2 * (p / N) + 1)%nat.
  Proof using All.
    intros H. cbn [rank]. unfold to_next, text_eqb. rewrite (proj2 (Nat.ltb_lt _ _) H), Z.eqb_refl. destruct (list_eq_dec _ _ _); [reflexivity|congruence].
  Qed.
  Lemma rank_down p d : (N <= p < all)%nat -> (1 <= d)%nat -> (p mod N + d < N)%nat -> rank p (Dial (ipq (p + d)) (pt true (p + d))) = (top + 2 + 2 * (p mod N))%nat.
  Proof using All.
    intros Hp H1 H2. destruct (sibling_range p d Hp H2) as (R & _ & _). cbn [rank]. unfold to_next. destruct (Nat.ltb_spec (p + N) all) as [L|L]; [|reflexivity].
    unfold text_eqb. destruct (list_eq_dec _ _ _) as [E|]; [|reflexivity]. cbn [andb]. destruct (Z.eqb_spec (pt true (p + d)) (pt false (p + N))) as [E'|]; [|reflexivity].
    destruct (Huniq true (p + d) false (p + N) R ltac:(lia) E E'). discriminate.
  Qed.
  Lemma pt_apart p : (N <= p < all)%nat -> pt true p <> pt false p.
  Proof using All. intros Hp E. destruct (Huniq true p false p Hp Hp eq_refl E). discriminate. Qed.
  Lemma rank_true p x : (N <= p < all)%nat -> x = pt true p -> rank p (Listen x) = top /\ rank p (Accept x) = (top + 1 + 2 * (p mod N))%nat.
  Proof using All. intros Hp ->. cbn [rank]. destruct (Z.eqb_spec (pt true p) (pt false p)) as [E|]; [destruct (pt_apart p Hp E)|]. auto. Qed.
  Lemma rank_false p : rank p (Listen (pt false p)) = 0%nat /\ rank p (Accept (pt false p)) = (2 * (p / N))%nat.
  Proof using All. cbn [rank]. rewrite Z.eqb_refl. auto. Qed.
  Lemma div_top p : (p < all)%nat -> (2 * (p / N) + 1 <= top)%nat.
  Proof using All. intros H. unfold top. pose proof (Nat.div_le_upper_bound p N p ltac:(lia) ltac:(nia)). lia. Qed.

  Lemma wf_down p : (N <= p < all)%nat -> forall l, (forall d, List.In d l -> (1 <= d)%nat /\ (p mod N + d < N)%nat) -> NoDup l ->
    wf p (flat_map (fun d => [Dial (ipq (p + d)) (pt true (p + d)); Greet (Z.of_nat (p mod N))]) l) /\ ~ greets (flat_map (fun d => [Dial (ipq (p + d)) (pt true (p + d)); Greet (Z.of_nat (p mod N))]) l).
  Proof using All.
    intros Hp l H Hnd. split; [|destruct l; cbn; auto].
    assert (R : forall l, (forall d, List.In d l -> (1 <= d)%nat /\ (p mod N + d < N)%nat) ->
      forall b, List.In b (flat_map (fun d => [Dial (ipq (p + d)) (pt true (p + d)); Greet (Z.of_nat (p mod N))]) l) -> rank p b = (top + 2 + 2 * (p mod N))%nat).
    { clear l H Hnd. intros l H b Hb. apply in_flat_map in Hb as (d & Hd & Hb). destruct (H d Hd) as (H1 & H2). cbn in Hb. destruct Hb as [<-|[<-|[]]]; [apply rank_down; assumption|reflexivity]. }
    induction l as [|d l IH]; [exact I|]. inversion Hnd as [|? ? Hn1 Hn2]; subst. destruct (H d (or_introl eq_refl)) as (H1 & H2).
    assert (H' : forall d, List.In d l -> (1 <= d)%nat /\ (p mod N + d < N)%nat) by (intros x Hx; apply H; right; exact Hx). specialize (IH H' Hn2).
    cbn [flat_map app wf]. split; [|split; [|split; [|split]]].
    - cbn [act_ok]. split; [|split; [lia|right; exists d; cbn; repeat split; auto; lia]]. intros [X|X]; [discriminate|]. apply in_flat_map in X as (d' & Hd' & X). cbn in X. destruct X as [X|[X|[]]]; [|discriminate].
      inversion X as [[X1 X2]]. destruct (sibling_range p d Hp H2) as (R1 & _). destruct (H' _ Hd') as (_ & H4). destruct (sibling_range p d' Hp H4) as (R2 & _).
      destruct (Huniq true _ true _ R2 R1 X1 X2) as (_ & E). assert (d' = d) by lia. subst d'. contradiction.
    - intros b [<-|Hb]; rewrite (rank_down p d Hp H1 H2); [cbn; lia|]. rewrite (R l H' b Hb). lia.
    - cbn [act_ok]. split; [lia|]. split; [reflexivity|]. destruct l; cbn; auto.
    - intros b Hb. rewrite (R l H' b Hb). cbn. lia.
    - exact IH.
  Qed.
  Lemma wf_app p l m : wf p l -> wf p m -> (forall a b, List.In a l -> List.In b m -> (rank p a <= rank p b)%nat) ->
    (forall a, List.In a l -> match a with Listen x => ~ List.In (Listen x) m | Dial i x => ~ List.In (Dial i x) m | _ => True end) -> (l <> [] -> ~ greets m) -> wf p (l ++ m).
  Proof using All.
    intros Hl Hm Hr Hd Hg. induction l as [|a l IH]; [exact Hm|]. cbn [app wf] in *. destruct Hl as (A & R & W). split; [|split].
    - assert (Gr : greets (l ++ m) <-> match l with [] => False | _ => greets l end).
      { destruct l as [|b l]; cbn [app]; [split; [intros G; exact (Hg ltac:(discriminate) G)|intros []]|]. destruct b; cbn; reflexivity. }
      assert (Gr' : ~ greets l -> ~ greets (l ++ m)) by (rewrite Gr; destruct l; tauto).
      specialize (Hd a (or_introl eq_refl)).
      destruct a; cbn [act_ok] in *.
      + destruct A as (A1 & A2 & A3 & A4). repeat split; try tauto. intros X. apply in_app_or in X as [X|X]; tauto.
      + tauto.
      + tauto.
      + destruct A as (A1 & A2 & A3). split; [intros X; apply in_app_or in X as [X|X]; tauto|]. split; [exact A2|]. destruct A3 as [A3|(d & D1 & D2 & D3 & D4 & D5 & D6)]; [left; tauto|].
        right. exists d. repeat split; auto. apply Gr. destruct l; [destruct D6|exact D6].
      + tauto.
    - intros b Hb. apply in_app_or in Hb as [Hb|Hb]; [auto|]. apply Hr; [left; reflexivity|exact Hb].
    - apply IH; auto.
      + intros a' b Ha Hb. apply Hr; [right; exact Ha|exact Hb].
      + intros a' Ha. apply Hd. right. exact Ha.
      + intros _. apply Hg. discriminate.
  Qed.

  Lemma in_up p a : List.In a (up p) -> (0 < p mod N)%nat /\ (a = Listen (pt true p) \/ a = Accept (pt true p) \/ exists j, (j < p mod N)%nat /\ a = Hear (pt true p) j (Z.of_nat (p mod N))).
  Proof using All.
    unfold up. destruct (Nat.ltb_spec 0 (p mod N)) as [L|L]; [|intros []]. intros [<-|H]; [auto|]. split; [exact L|]. apply in_app_or in H as [H|H].
    - apply repeat_spec in H. auto.
    - apply in_map_iff in H as (j & <- & Hj). apply in_seq in Hj. right. right. exists j. split; [lia|reflexivity].
  Qed.
  Lemma in_down p a : List.In a (down p) -> a = Greet (Z.of_nat (p mod N)) \/ exists d, (1 <= d)%nat /\ (p mod N + d < N)%nat /\ a = Dial (ipq (p + d)) (pt true (p + d)).
  Proof using All.
    unfold down. intros H. apply in_flat_map in H as (d & Hd & H). apply in_seq in Hd. cbn in H. destruct H as [<-|[<-|[]]]; [right; exists d; repeat split; lia|auto].
  Qed.
  Lemma wf_up p : (N <= p < all)%nat -> wf p (up p) /\ ~ greets (up p).
  Proof using All.
    intros Hp. unfold up. destruct (Nat.ltb_spec 0 (p mod N)) as [L|L]; [|cbn; auto]. split; [|cbn; auto]. destruct (rank_true p _ Hp eq_refl) as (R1 & R2).
    set (h := fun j => Hear (pt true p) j (Z.of_nat (p mod N))).
    assert (Wh : forall l, (forall j, List.In j l -> (j < p mod N)%nat) -> wf p (map h l) /\ ~ greets (map h l)).
    { induction l as [|j l IH]; intros Hl; [cbn; auto|]. destruct IH as (IH & G); [intros; apply Hl; right; assumption|]. split; [|cbn; auto]. cbn [map wf]. split; [|split; [|exact IH]].
      - cbn [act_ok h]. repeat split; try lia; auto. apply Hl. left. reflexivity.
      - intros b Hb. apply in_map_iff in Hb as (j' & <- & _). cbn. lia. }
    destruct (Wh (seq 0 (p mod N))) as (Wh1 & Wh2); [intros j Hj; apply in_seq in Hj; lia|].
    assert (Wa : forall n, wf p (repeat (Accept (pt true p)) n ++ map h (seq 0 (p mod N))) /\ ~ greets (repeat (Accept (pt true p)) n ++ map h (seq 0 (p mod N)))).
    { induction n as [|n (IH & G)]; [cbn; auto|]. split; [|cbn; auto]. cbn [repeat app wf]. split; [|split; [|exact IH]].
      - cbn [act_ok]. split; [lia|]. split; [exists true; reflexivity|exact G].
      - intros b Hb. rewrite R2. apply in_app_or in Hb as [Hb|Hb]; [apply repeat_spec in Hb; subst b; rewrite R2; lia|]. apply in_map_iff in Hb as (j' & <- & _). cbn. lia. }
    destruct (Wa (p mod N)%nat) as (Wa1 & Wa2). cbn [wf]. split; [|split; [|exact Wa1]].
    - cbn [act_ok]. split; [lia|]. split; [exists true; reflexivity|]. split; [|exact Wa2].
      intros X. apply in_app_or in X as [X|X]; [apply repeat_spec in X; discriminate|]. apply in_map_iff in X as (j & X & _). discriminate.
    - intros b Hb. rewrite R1. apply in_app_or in Hb as [Hb|Hb]; [apply repeat_spec in Hb; subst b; rewrite R2; lia|]. apply in_map_iff in Hb as (j' & <- & _). cbn. lia.
  Qed.
  Lemma scr_wf p : wf p (scr p).
  Proof using All.
    unfold scr. destruct (Nat.ltb_spec p all) as [Lp|]; [|exact I].
    assert (T : wf p (if (N <=? p)%nat then up p ++ down p else []) /\ ~ greets (if (N <=? p)%nat then up p ++ down p else []) /\
      forall a, List.In a (if (N <=? p)%nat then up p ++ down p else []) -> (top <= rank p a)%nat).
    { destruct (Nat.leb_spec N p) as [L|L]; [|cbn; tauto]. assert (Hp : (N <= p < all)%nat) by lia.
      destruct (wf_down p Hp (seq 1 (N - 1 - p mod N))) as (D1 & D2); [intros d Hd; apply in_seq in Hd; lia|apply seq_NoDup|]. destruct (wf_up p Hp) as (U1 & U2). fold (down p) in *.
      destruct (rank_true p _ Hp eq_refl) as (R1 & R2).
      assert (RU : forall a, List.In a (up p) -> (top <= rank p a <= top + 1 + 2 * (p mod N))%nat).
      { intros a Ha. destruct (in_up p a Ha) as (_ & [->|[->|(j & _ & ->)]]); rewrite ?R1, ?R2; cbn [rank]; lia. }
      assert (RD : forall a, List.In a (down p) -> rank p a = (top + 2 + 2 * (p mod N))%nat).
      { intros a Ha. destruct (in_down p a Ha) as [->|(d & d1 & d2 & ->)]; [reflexivity|]. apply rank_down; assumption. }
      split; [|split].
      - apply wf_app; auto.
        + intros a b Ha Hb. specialize (RU a Ha). specialize (RD b Hb). lia.
        + intros a Ha. destruct (in_up p a Ha) as (_ & [->|[->|(j & _ & ->)]]); auto. intros X. destruct (in_down p _ X) as [E|(d & _ & _ & E)]; discriminate.
      - destruct (up p) as [|u l] eqn:Eu; [exact D2|]. rewrite <- Eu in U2. rewrite Eu in U2. destruct u; cbn in *; auto.
      - intros a Ha. apply in_app_or in Ha as [Ha|Ha]; [apply RU; exact Ha|]. rewrite (RD a Ha). lia. }
    set (tl := if (N <=? p)%nat then up p ++ down p else []) in *. destruct T as (T1 & T2 & T3). pose proof (div_top p Lp) as DT.
    assert (T4 : forall x, x = pt false p -> ~ List.In (Listen x) tl).
    { intros x -> X. specialize (T3 _ X). cbn in T3. rewrite Z.eqb_refl in T3. unfold top in T3. lia. }
    assert (M : wf p ((if (p + N <? all)%nat then [Dial (ipq (p + N)) (pt false (p + N))] else []) ++ tl) /\ ~ greets ((if (p + N <? all)%nat then [Dial (ipq (p + N)) (pt false (p + N))] else []) ++ tl) /\
      forall a, List.In a ((if (p + N <? all)%nat then [Dial (ipq (p + N)) (pt false (p + N))] else []) ++ tl) -> (2 * (p / N) <= rank p a)%nat /\ a <> Listen (pt false p)).
    { destruct (Nat.ltb_spec (p + N) all) as [L|L]; cbn [app].
      - pose proof (rank_next p L) as RN. split; [|split; [cbn; auto|]].
        + cbn [wf]. split; [|split; [|exact T1]].
          * cbn [act_ok]. split; [|split; [exact Lp|left; auto]]. intros X. specialize (T3 _ X). rewrite RN in T3. unfold top in *. pose proof (Nat.div_le_upper_bound p N p ltac:(lia) ltac:(nia)). lia.
          * intros b Hb. specialize (T3 b Hb). rewrite RN. lia.
        + intros a [<-|Ha]; [rewrite RN; split; [lia|discriminate]|]. split; [specialize (T3 a Ha); lia|]. intros ->. exact (T4 _ eq_refl Ha).
      - split; [exact T1|]. split; [exact T2|]. intros a Ha. split; [specialize (T3 a Ha); lia|]. intros ->. exact (T4 _ eq_refl Ha). }
    set (md := (if (p + N <? all)%nat then [Dial (ipq (p + N)) (pt false (p + N))] else []) ++ tl) in *. destruct M as (M1 & M2 & M3).
    destruct (Nat.leb_spec N p) as [L|L]; [|exact M1]. destruct (rank_false p) as (R1 & R2). cbn [app wf]. split; [|split; [|split; [|split; [|exact M1]]]].
    - cbn [act_ok]. split; [lia|]. split; [exists false; reflexivity|]. split; [|cbn; auto]. intros [X|X]; [discriminate|]. destruct (M3 _ X) as (_ & E). exact (E eq_refl).
    - intros b _. rewrite R1. lia.
    - cbn [act_ok]. split; [lia|]. split; [exists false; reflexivity|exact M2].
    - intros b Hb. rewrite R2. apply M3. exact Hb.
  Qed.

  (** ** Invariant *)
  Definition is_accept (x : Z) (a : act) : bool := match a with Accept y => y =? x | _ => false end.
  Definition accepts (x : Z) (l : list act) : nat := length (filter (is_accept x) l).
  Definition wired (c : conn) : Prop :=
    (cn_from c < all)%nat /\ (N <= cn_to c < all)%nat /\
    (cn_port c = pt false (cn_to c) /\ cn_to c = (cn_from c + N)%nat \/
     cn_port c = pt true (cn_to c) /\ (N <= cn_from c < cn_to c)%nat /\ (cn_from c / N = cn_to c / N)%nat).
  Definition quiet (p : nat) (l : list conn) : Prop := forall c, List.In c l -> cn_from c = p -> cn_port c = pt true (cn_to c) -> cn_said c = Some (Z.of_nat (p mod N)).
  Definition fresh_conn (p : nat) (l : list conn) : Prop :=
    exists l1 c l2, l = l1 ++ c :: l2 /\ cn_from c = p /\ (forall c', List.In c' l1 -> cn_from c' <> p) /\ cn_port c = pt true (cn_to c) /\ cn_said c = None /\ quiet p l2.
  Definition key (c : conn) : nat * nat * Z := (cn_from c, cn_to c, cn_port c).
  Record lnk (st : links) : Prop := {
    k_wf : forall p, wf p (lk_todo st p);
    k_open1 : forall q x, List.In (Listen x) (scr q) -> List.In (Listen x) (lk_todo st q) \/ List.In (q, x) (lk_open st);
    k_open2 : forall q x, List.In (q, x) (lk_open st) -> (N <= q < all)%nat /\ (exists b, x = pt b q) /\ ~ List.In (Listen x) (lk_todo st q);
    k_dial : forall p a x, List.In (Dial a x) (scr p) -> List.In (Dial a x) (lk_todo st p) \/ exists c, List.In c (lk_conns st) /\ cn_from c = p /\ cn_port c = x /\ ipq (cn_to c) = a;
    k_conn : forall c, List.In c (lk_conns st) -> wired c /\ ~ List.In (Dial (ipq (cn_to c)) (cn_port c)) (lk_todo st (cn_from c));
    k_main : forall c, List.In c (lk_conns st) -> cn_port c = pt false (cn_to c) -> cn_said c = None;
    k_keys : NoDup (map key (lk_conns st));
    k_acc : forall q x, (length (filter (at_port q x) (lk_accepted st)) + accepts x (lk_todo st q) = accepts x (scr q))%nat;
    k_said : forall p, (greets (lk_todo st p) -> fresh_conn p (lk_conns st)) /\ (~ greets (lk_todo st p) -> quiet p (lk_conns st));
    k_failed : lk_failed st = [] }.

  Lemma lnk_start todo : (forall p, todo p = scr p) -> lnk (link_start todo).
  Proof using All.
    intros H. constructor; cbn [link_start lk_todo lk_open lk_conns lk_accepted lk_failed]; try (intros; rewrite ?H; auto; fail).
    - intros p. rewrite H. apply scr_wf.
    - intros q x [].
    - intros c [].
    - intros c [].
    - constructor.
    - intros p. split; [|intros _ c []]. rewrite H. intros G. exfalso. revert G. unfold scr. destruct (Nat.ltb_spec p all) as [Lp|]; [|cbn; auto].
      destruct (Nat.leb_spec N p) as [L|L]; [cbn; auto|]. destruct (Nat.ltb_spec (p + N) all); cbn; auto.
  Qed.

  Lemma same_host_iff ip q : (N <= q < all)%nat -> (same_host host ip q = true <-> ipq q = ip).
  Proof using All.
    intros Hq. unfold same_host. rewrite (Hhost q Hq). unfold text_eqb. destruct (list_eq_dec _ _ _); split; congruence.
  Qed.
  Lemma in_arrivals q x st c : List.In c (arrivals q x st) <-> List.In c (lk_conns st) /\ cn_to c = q /\ cn_port c = x.
  Proof using All.
    unfold arrivals. rewrite <- in_rev, filter_In. unfold at_port. cbn [fst snd]. rewrite andb_true_iff, Nat.eqb_eq, Z.eqb_eq. tauto.
  Qed.
  Lemma wired_true c : wired c -> cn_port c = pt true (cn_to c) -> (N <= cn_from c < cn_to c)%nat /\ (cn_from c / N = cn_to c / N)%nat /\ (cn_from c mod N < cn_to c mod N)%nat.
  Proof using All.
    intros (W1 & W2 & [(W3 & _)|(_ & W3 & W4)]) E; [destruct (pt_apart _ W2); congruence|]. split; [exact W3|]. split; [exact W4|].
    pose proof (Nat.div_mod (cn_from c) N ltac:(lia)). pose proof (Nat.div_mod (cn_to c) N ltac:(lia)). nia.
  Qed.
  Lemma said_is st c id : lnk st -> List.In c (lk_conns st) -> cn_port c = pt true (cn_to c) -> cn_said c = Some id -> id = Z.of_nat (cn_from c mod N).
  Proof using All.
    intros K Hc E Hs. destruct (k_said st K (cn_from c)) as (K1 & K2).
    assert (D : greets (lk_todo st (cn_from c)) \/ ~ greets (lk_todo st (cn_from c))) by (destruct (lk_todo st (cn_from c)) as [|[]]; cbn; auto).
    destruct D as [G|G].
    - destruct (K1 G) as (l1 & c0 & l2 & El & F1 & F2 & F3 & F4 & F5). rewrite El in Hc. apply in_app_or in Hc as [Hc|[<-|Hc]].
      + destruct (F2 c Hc eq_refl).
      + congruence.
      + specialize (F5 c Hc eq_refl E). congruence.
    - specialize (K2 G c Hc eq_refl E). congruence.
  Qed.
  Lemma say_keys p id l : map key (say p id l) = map key l.
  Proof using All.
    induction l as [|c l IH]; [reflexivity|]. cbn [say]. destruct (Nat.eqb_spec (cn_from c) p) as [<-|]; cbn [map]; [reflexivity|]. rewrite IH. reflexivity.
  Qed.
  Lemma say_in p id l c : List.In c (say p id l) -> List.In c l \/ (exists c0, List.In c0 l /\ key c0 = key c /\ cn_from c = p /\ cn_said c = Some id).
  Proof using All.
    induction l as [|d l IH]; [intros []|]. cbn [say]. destruct (Nat.eqb_spec (cn_from d) p) as [<-|].
    - intros [<-|H]; [right; exists d; cbn; auto|left; right; exact H].
    - intros [<-|H]; [left; left; reflexivity|]. destruct (IH H) as [H'|(c0 & H' & R)]; [left; right; exact H'|right; exists c0; split; [right; exact H'|exact R]].
  Qed.
  Lemma in_say p id l c : List.In c l -> exists c', List.In c' (say p id l) /\ key c' = key c.
  Proof using All.
    intros H. assert (X : List.In (key c) (map key (say p id l))) by (rewrite say_keys; apply in_map; exact H). apply in_map_iff in X as (c' & E & X). exists c'. auto.
  Qed.
  Lemma say_app p id l m : say p id (l ++ m) = if existsb (fun c => cn_from c =? p)%nat l then say p id l ++ m else l ++ say p id m.
  Proof using All.
    induction l as [|c l IH]; [reflexivity|]. cbn [app say existsb]. destruct (cn_from c =? p)%nat; cbn [orb]; [reflexivity|]. rewrite IH. destruct (existsb _ l); reflexivity.
  Qed.
  Lemma say_other p id l c : List.In c (say p id l) -> cn_from c <> p -> List.In c l.
  Proof using All. intros H Hn. destruct (say_in p id l c H) as [H'|(c0 & _ & _ & E & _)]; [exact H'|contradiction]. Qed.
  Lemma quiet_say q p id l : q <> p -> quiet q l -> quiet q (say p id l).
  Proof using All. intros Hn H c Hc Ec. apply (say_other p id) in Hc; [|congruence]. apply H; assumption. Qed.
  Lemma fresh_say q p id l : q <> p -> fresh_conn q l -> fresh_conn q (say p id l).
  Proof using All.
    intros Hn (l1 & c & l2 & -> & F1 & F2 & F3 & F4 & F5). rewrite say_app. destruct (existsb (fun c => cn_from c =? p)%nat l1).
    - exists (say p id l1), c, l2. repeat split; auto. intros c' Hc' E. apply (say_other p id) in Hc'; [|congruence]. exact (F2 c' Hc' E).
    - cbn [say]. destruct (Nat.eqb_spec (cn_from c) p); [congruence|]. exists l1, c, (say p id l2). repeat split; auto. apply quiet_say; assumption.
  Qed.

  Section Step.
    Variables (st : links) (p : nat) (a : act) (rest : list act).
    Hypothesis K : lnk st.
    Hypothesis Etodo : lk_todo st p = a :: rest.
    Local Notation todo' := (set_todo p rest (lk_todo st)).
    Lemma t_ok : act_ok p a rest /\ (forall b, List.In b rest -> (rank p a <= rank p b)%nat) /\ wf p rest.
    Proof using All. pose proof (k_wf st K p) as W. rewrite Etodo in W. exact W. Qed.
    Lemma t_wf q : wf q (todo' q).
    Proof using All. unfold set_todo. destruct (Nat.eqb_spec q p) as [->|]; [apply t_ok|apply (k_wf st K)]. Qed.
    Lemma t_sub q b : List.In b (todo' q) -> List.In b (lk_todo st q).
    Proof using All. unfold set_todo. destruct (Nat.eqb_spec q p) as [->|]; [rewrite Etodo; right; assumption|auto]. Qed.
    Lemma t_sup q b : List.In b (lk_todo st q) -> List.In b (todo' q) \/ (q = p /\ b = a).
    Proof using All. unfold set_todo. destruct (Nat.eqb_spec q p) as [->|]; [rewrite Etodo; intros [<-|H]; auto|auto]. Qed.
    Lemma t_other q : q <> p -> todo' q = lk_todo st q.
    Proof using All. unfold set_todo. destruct (Nat.eqb_spec q p); [contradiction|reflexivity]. Qed.
    Lemma t_self : todo' p = rest.
    Proof using All. unfold set_todo. rewrite Nat.eqb_refl. reflexivity. Qed.
    Lemma t_acc q x : accepts x (lk_todo st q) = (accepts x (todo' q) + if (q =? p)%nat && is_accept x a then 1 else 0)%nat.
    Proof using All. unfold set_todo. destruct (Nat.eqb_spec q p) as [->|]; [|cbn; lia]. rewrite Etodo. unfold accepts. cbn [filter andb]. destruct (is_accept x a); cbn [length]; lia. Qed.
    Lemma t_acc0 q x : (forall y, a <> Accept y) -> accepts x (lk_todo st q) = accepts x (todo' q).
    Proof using All. intros H. rewrite t_acc. destruct a; cbn [is_accept]; rewrite ?andb_false_r; try lia. destruct (H port eq_refl). Qed.
    (** What does not change with connections and ports *)
    Lemma t_dial : (forall i x, a <> Dial i x) -> forall q i x, List.In (Dial i x) (scr q) -> List.In (Dial i x) (todo' q) \/ exists c, List.In c (lk_conns st) /\ cn_from c = q /\ cn_port c = x /\ ipq (cn_to c) = i.
    Proof using All. intros Hn q i x H. destruct (k_dial st K q i x H) as [H'|H']; [|auto]. destruct (t_sup q _ H') as [H''|(_ & E)]; [auto|]. destruct (Hn i x). congruence. Qed.
    Lemma t_open1 : (forall x, a <> Listen x) -> forall q x, List.In (Listen x) (scr q) -> List.In (Listen x) (todo' q) \/ List.In (q, x) (lk_open st).
    Proof using All. intros Hn q x H. destruct (k_open1 st K q x H) as [H'|H']; [|auto]. destruct (t_sup q _ H') as [H''|(_ & E)]; [auto|]. destruct (Hn x). congruence. Qed.
    Lemma t_open2 q x : List.In (q, x) (lk_open st) -> (N <= q < all)%nat /\ (exists b, x = pt b q) /\ ~ List.In (Listen x) (todo' q).
    Proof using All. intros H. destruct (k_open2 st K q x H) as (H1 & H2 & H3). repeat split; try tauto. intros X. apply H3. apply t_sub. exact X. Qed.
    Lemma t_conn c : List.In c (lk_conns st) -> wired c /\ ~ List.In (Dial (ipq (cn_to c)) (cn_port c)) (todo' (cn_from c)).
    Proof using All. intros H. destruct (k_conn st K c H) as (H1 & H2). split; [exact H1|]. intros X. apply H2. apply t_sub. exact X. Qed.
    Lemma t_said : ~ greets (a :: rest) -> ~ greets rest -> forall q, (greets (todo' q) -> fresh_conn q (lk_conns st)) /\ (~ greets (todo' q) -> quiet q (lk_conns st)).
    Proof using All.
      intros G1 G2 q. destruct (Nat.eq_dec q p) as [->|Hn]; [|rewrite (t_other q Hn); apply (k_said st K)]. rewrite t_self. split; [contradiction|]. intros _. apply (k_said st K). rewrite Etodo. exact G1.
    Qed.
    Lemma t_acc' : (forall y, a <> Accept y) -> forall q x, (length (filter (at_port q x) (lk_accepted st)) + accepts x (todo' q) = accepts x (scr q))%nat.
    Proof using All. intros H q x. rewrite <- (t_acc0 q x H). apply (k_acc st K). Qed.

    Lemma lnk_step : lnk (link_step host p st).
    Proof using All.
      destruct t_ok as (A & _ & _). unfold link_step. rewrite Etodo. assert (Ea : exists a0, a0 = a) by eauto. destruct Ea as (a0 & Ea). rewrite <- Ea in A |- *. destruct a0 as [x|x|x j own|i x|own]; cbn [act_ok] in A.
      - destruct A as (Hp & (b & Hb) & A3 & A4). rewrite (Hhost p Hp).
        match goal with |- context[existsb ?f ?l] => destruct (existsb f l) eqn:Ex end.
        { apply existsb_exists in Ex as ((q, y) & Hin & H). cbn [fst snd] in H. apply andb_true_iff in H as (H1 & H2). apply Z.eqb_eq in H2. subst y.
          destruct (k_open2 st K q x Hin) as (Q1 & (b' & Q2) & Q3). apply (same_host_iff _ q Q1) in H1. destruct (Huniq b' q b p Q1 Hp H1 ltac:(congruence)) as (_ & ->). destruct Q3. rewrite Etodo. left. congruence. }
        constructor; cbn [lk_todo lk_open lk_conns lk_accepted lk_failed].
        + apply t_wf.
        + intros q y H. destruct (k_open1 st K q y H) as [H'|H']; [|right; right; exact H']. destruct (t_sup q _ H') as [H''|(-> & E)]; [auto|]. rewrite <- Ea in E. inversion E; subst. right. left. reflexivity.
        + intros q y [E|H]; [|apply t_open2; exact H]. inversion E; subst q y. rewrite t_self. repeat split; try tauto; try lia. exists b. exact Hb.
        + apply t_dial. congruence.
        + apply t_conn.
        + apply (k_main st K).
        + apply (k_keys st K).
        + apply t_acc'. congruence.
        + apply t_said; [rewrite <- Ea; cbn; auto|exact A4].
        + apply (k_failed st K).
      - destruct A as (Hp & (b & Hb) & A4). destruct (Nat.ltb_spec (length (filter (at_port p x) (lk_accepted st))) (length (arrivals p x st))) as [L|L]; [|exact K].
        constructor; cbn [lk_todo lk_open lk_conns lk_accepted lk_failed].
        + apply t_wf.
        + apply t_open1. congruence.
        + apply t_open2.
        + apply t_dial. congruence.
        + apply t_conn.
        + apply (k_main st K).
        + apply (k_keys st K).
        + intros q y. pose proof (k_acc st K q y) as Q. rewrite (t_acc q y), <- Ea in Q. cbn [filter]. unfold at_port at 1. cbn [fst snd]. cbn [is_accept] in Q. rewrite (Nat.eqb_sym q p) in Q. destruct ((p =? q)%nat && (x =? y)); cbn [length] in *; lia.
        + apply t_said; [rewrite <- Ea; cbn; auto|exact A4].
        + apply (k_failed st K).
      - destruct A as (Hp & -> & A3 & -> & A5). destruct (nth_error (arrivals p (pt true p) st) j) as [c|] eqn:En; [|exact K].
        destruct (cn_said c) as [id|] eqn:Es; [|exact K]. apply nth_error_In in En. apply in_arrivals in En as (C1 & C2 & C3).
        pose proof (said_is st c id K C1 ltac:(congruence) Es) as Eid. destruct (k_conn st K c C1) as (W & _). destruct (wired_true c W ltac:(congruence)) as (W1 & W2 & W3). rewrite C2 in W3.
        destruct (Z.ltb_spec id (Z.of_nat (p mod N))) as [L|L]; [|lia].
        constructor; cbn [lk_todo lk_open lk_conns lk_accepted lk_failed].
        + apply t_wf.
        + apply t_open1. congruence.
        + apply t_open2.
        + apply t_dial. congruence.
        + apply t_conn.
        + apply (k_main st K).
        + apply (k_keys st K).
        + apply t_acc'. congruence.
        + apply t_said; [rewrite <- Ea; cbn; auto|exact A5].
        + apply (k_failed st K).
      - match goal with |- context[find ?f ?l] => destruct (find f l) as [(q, y)|] eqn:Ef end; [|exact K].
        apply find_some in Ef as (Hin & H). cbn [fst snd] in H |- *. apply andb_true_iff in H as (H1 & H2). apply Z.eqb_eq in H2. subst y.
        destruct (k_open2 st K q x Hin) as (Q1 & (b & Q2) & Q3). apply (same_host_iff _ q Q1) in H1. destruct A as (A1 & A2 & A3).
        set (c := {| cn_from := p; cn_to := q; cn_port := x; cn_said := None |}).
        assert (W : wired c /\ (b = false -> ~ greets rest) /\ (b = true -> greets rest)).
        { destruct A3 as [(B1 & B2 & B3 & B4)|(d & B1 & B2 & B3 & B4 & B5 & B6)].
          - destruct (Huniq b q false (p + N) Q1 ltac:(lia) ltac:(congruence) ltac:(congruence)) as (-> & ->). split; [|split; [auto|discriminate]]. unfold wired, c. cbn. split; [lia|]. split; [lia|]. left. auto.
          - destruct (sibling_range p d ltac:(lia) B3) as (R1 & R2 & R3). destruct (Huniq b q true (p + d) Q1 R1 ltac:(congruence) ltac:(congruence)) as (-> & ->). split; [|split; [discriminate|auto]].
            unfold wired, c. cbn. split; [lia|]. split; [lia|]. right. repeat split; auto; lia. }
        destruct W as (W & Wf & Wt).
        constructor; cbn [lk_todo lk_open lk_conns lk_accepted lk_failed].
        + apply t_wf.
        + apply t_open1. congruence.
        + apply t_open2.
        + intros r i' x' H. destruct (k_dial st K r i' x' H) as [H'|(c' & H' & R)]; [|right; exists c'; split; [right; exact H'|exact R]].
          destruct (t_sup r _ H') as [H''|(-> & E)]; [auto|]. rewrite <- Ea in E. inversion E; subst i' x'. right. exists c. split; [left; reflexivity|]. cbn. auto.
        + intros c' [<-|H]; [|apply t_conn; exact H]. split; [exact W|]. cbn [cn_to cn_port cn_from c]. rewrite t_self, H1. exact A1.
        + intros c' [<-|H]; [reflexivity|apply (k_main st K); exact H].
        + cbn [map]. constructor; [|apply (k_keys st K)]. intros X. apply in_map_iff in X as (c' & E & X). destruct (k_conn st K c' X) as (_ & V). unfold key in E. inversion E as [[E1 E2 E3]]. apply V. rewrite E1, E2, E3, H1, Etodo. left. congruence.
        + apply t_acc'. congruence.
        + intros r. destruct (Nat.eq_dec r p) as [->|Hn].
          * rewrite t_self. assert (Qt : quiet p (lk_conns st)) by (apply (k_said st K); rewrite Etodo, <- Ea; cbn; auto). split.
            -- intros G. destruct b; [|destruct (Wf eq_refl G)]. exists [], c, (lk_conns st). cbn. repeat split; auto.
            -- intros G. destruct b; [destruct (G (Wt eq_refl))|]. intros c' [<-|H] E1 E2; [|apply Qt; assumption]. cbn in E2. destruct (pt_apart q Q1). congruence.
          * rewrite (t_other r Hn). destruct (k_said st K r) as (S1 & S2). split.
            -- intros G. destruct (S1 G) as (l1 & c0 & l2 & El & F1 & F2 & F3 & F4 & F5). exists (c :: l1), c0, l2. rewrite El. repeat split; auto. intros c' [<-|H]; [cbn; congruence|auto].
            -- intros G c' [<-|H] E1 E2; [cbn in E1; congruence|apply (S2 G); assumption].
        + apply (k_failed st K).
      - destruct A as (A1 & -> & A3). assert (F : fresh_conn p (lk_conns st)) by (apply (k_said st K); rewrite Etodo, <- Ea; cbn; auto).
        assert (KI : forall c, List.In c (say p (Z.of_nat (p mod N)) (lk_conns st)) -> exists c0, List.In c0 (lk_conns st) /\ cn_from c0 = cn_from c /\ cn_to c0 = cn_to c /\ cn_port c0 = cn_port c).
        { intros c Hc. destruct (say_in _ _ _ _ Hc) as [Hc'|(c0 & H0 & E & _)]; [exists c; auto|]. exists c0. split; [exact H0|]. unfold key in E. inversion E. auto. }
        constructor; cbn [lk_todo lk_open lk_conns lk_accepted lk_failed].
        + apply t_wf.
        + apply t_open1. congruence.
        + apply t_open2.
        + intros r i' x' H. destruct (t_dial ltac:(congruence) r i' x' H) as [H'|(c' & H' & R1 & R2 & R3)]; [auto|]. right. destruct (in_say p (Z.of_nat (p mod N)) _ c' H') as (c'' & H'' & E). exists c''. unfold key in E. inversion E as [[E1 E2 E3]]. split; [exact H''|]. repeat split; congruence.
        + intros c Hc. destruct (KI c Hc) as (c0 & H0 & E1 & E2 & E3). destruct (t_conn c0 H0) as (V1 & V2). rewrite <- E1, <- E2, <- E3. split; [|exact V2]. unfold wired in *. rewrite <- E1, <- E2, <- E3. exact V1.
        + intros c Hc Ec. destruct F as (l1 & c0 & l2 & El & F1 & F2 & F3 & F4 & F5). rewrite El, say_app in Hc.
          assert (X : existsb (fun c => cn_from c =? p)%nat l1 = false). { destruct (existsb _ l1) eqn:X; [|reflexivity]. apply existsb_exists in X as (c' & H' & X). apply Nat.eqb_eq in X. destruct (F2 c' H' X). }
          rewrite X in Hc. cbn [say] in Hc. rewrite (proj2 (Nat.eqb_eq _ _) F1) in Hc.
          assert (Hin0 : List.In c0 (lk_conns st)) by (rewrite El; apply in_or_app; right; left; reflexivity).
          apply in_app_or in Hc as [Hc|[<-|Hc]].
          * apply (k_main st K); [rewrite El; apply in_or_app; auto|exact Ec].
          * cbn [cn_port cn_to] in Ec. destruct (k_conn st K c0 Hin0) as ((_ & V & _) & _). destruct (pt_apart _ V). congruence.
          * apply (k_main st K); [rewrite El; apply in_or_app; right; right; exact Hc|exact Ec].
        + rewrite say_keys. apply (k_keys st K).
        + apply t_acc'. congruence.
        + intros r. destruct (Nat.eq_dec r p) as [->|Hn].
          * rewrite t_self. split; [contradiction|]. intros _. destruct F as (l1 & c0 & l2 & El & F1 & F2 & F3 & F4 & F5). rewrite El, say_app.
            assert (X : existsb (fun c => cn_from c =? p)%nat l1 = false). { destruct (existsb _ l1) eqn:X; [|reflexivity]. apply existsb_exists in X as (c' & H' & X). apply Nat.eqb_eq in X. destruct (F2 c' H' X). }
            rewrite X. cbn [say]. rewrite (proj2 (Nat.eqb_eq _ _) F1). intros c Hc E1 E2. apply in_app_or in Hc as [Hc|[<-|Hc]]; [destruct (F2 c Hc E1)|reflexivity|apply F5; assumption].
          * rewrite (t_other r Hn). destruct (k_said st K r) as (S1 & S2). split; intros G; [apply fresh_say; auto|apply quiet_say; auto].
        + apply (k_failed st K).
    Qed.
  End Step.
  Lemma lnk_steps st p : lnk st -> lnk (link_step host p st).
  Proof using All.
    intros K. destruct (lk_todo st p) as [|a rest] eqn:E; [|exact (lnk_step st p a rest K E)]. unfold link_step. rewrite E. exact K.
  Qed.

  (** ** Progress *)
  Definition can (st : links) (p : nat) : Prop := (length (lk_todo (link_step host p st) p) < length (lk_todo st p))%nat.
  Lemma in_scr_listen q : (N <= q < all)%nat -> List.In (Listen (pt false q)) (scr q) /\ ((0 < q mod N)%nat -> List.In (Listen (pt true q)) (scr q)).
  Proof using All.
    intros Hq. unfold scr. rewrite (proj2 (Nat.ltb_lt q all)), (proj2 (Nat.leb_le N q)) by lia. split; [left; reflexivity|]. intros H. apply in_or_app. right. apply in_or_app. right. apply in_or_app. left.
    unfold up. rewrite (proj2 (Nat.ltb_lt _ _) H). left. reflexivity.
  Qed.
  Lemma in_scr_next p : (p + N < all)%nat -> List.In (Dial (ipq (p + N)) (pt false (p + N))) (scr p).
  Proof using All.
    intros H. unfold scr. rewrite (proj2 (Nat.ltb_lt p all)), (proj2 (Nat.ltb_lt _ _) H) by lia. apply in_or_app. right. left. reflexivity.
  Qed.
  Lemma in_scr_sib p d : (N <= p < all)%nat -> (1 <= d)%nat -> (p mod N + d < N)%nat -> List.In (Dial (ipq (p + d)) (pt true (p + d))) (scr p).
  Proof using All.
    intros Hp H1 H2. unfold scr. rewrite (proj2 (Nat.ltb_lt p all)), (proj2 (Nat.leb_le N p)) by lia. apply in_or_app. right. apply in_or_app. right. apply in_or_app. right.
    unfold down. apply in_flat_map. exists d. split; [apply in_seq; lia|left; reflexivity].
  Qed.
  Lemma accepts_app x l m : accepts x (l ++ m) = (accepts x l + accepts x m)%nat.
  Proof using All. unfold accepts. rewrite filter_app, app_length. reflexivity. Qed.
  Lemma accepts_none x l : (forall a, List.In a l -> is_accept x a = false) -> accepts x l = 0%nat.
  Proof using All. intros H. unfold accepts. induction l as [|a l IH]; [reflexivity|]. cbn [filter]. rewrite (H a) by (left; reflexivity). apply IH. intros b Hb. apply H. right. exact Hb. Qed.
  Lemma accepts_scr q : (N <= q < all)%nat -> accepts (pt false q) (scr q) = 1%nat /\ accepts (pt true q) (scr q) = (q mod N)%nat.
  Proof using All.
    intros Hq. pose proof (pt_apart q Hq) as Ha. unfold scr. rewrite (proj2 (Nat.ltb_lt q all)), (proj2 (Nat.leb_le N q)) by lia.
    assert (D : forall x, accepts x (if (q + N <? all)%nat then [Dial (ipq (q + N)) (pt false (q + N))] else []) = 0%nat) by (intros x; destruct (q + N <? all)%nat; reflexivity).
    assert (Dn : forall x, accepts x (down q) = 0%nat) by (intros x; apply accepts_none; intros a Hin; destruct (in_down q a Hin) as [->|(d & _ & _ & ->)]; reflexivity).
    assert (U : accepts (pt false q) (up q) = 0%nat /\ accepts (pt true q) (up q) = (q mod N)%nat).
    { split.
      - apply accepts_none. intros a Hin. destruct (in_up q a Hin) as (_ & [->|[->|(j & _ & ->)]]); try reflexivity. cbn [is_accept]. apply Z.eqb_neq. exact Ha.
      - unfold up. destruct (Nat.ltb_spec 0 (q mod N)) as [L|L]; [|cbn; lia]. change (accepts (pt true q) ([Listen (pt true q)] ++ repeat (Accept (pt true q)) (q mod N) ++ map (fun j => Hear (pt true q) j (Z.of_nat (q mod N))) (seq 0 (q mod N))) = (q mod N)%nat).
        rewrite !accepts_app. rewrite (accepts_none _ (map _ _)) by (intros a Hin; apply in_map_iff in Hin as (j & <- & _); reflexivity).
        assert (R : forall n, accepts (pt true q) (repeat (Accept (pt true q)) n) = n).
        { induction n as [|n IH]; [reflexivity|]. unfold accepts in *. cbn [repeat filter is_accept]. rewrite Z.eqb_refl. cbn [length]. lia. }
        rewrite R. cbn. lia. }
    destruct U as (U1 & U2). rewrite !accepts_app, !D, !Dn, U1, U2. unfold accepts. cbn [filter is_accept]. rewrite Z.eqb_refl. destruct (Z.eqb_spec (pt false q) (pt true q)); [congruence|]. cbn. lia.
  Qed.

  (** Who may be at the other end *)
  Lemma at_main st c q : lnk st -> List.In c (arrivals q (pt false q) st) -> (q < all)%nat /\ cn_from c = (q - N)%nat /\ (N <= q)%nat /\ cn_said c = None.
  Proof using All.
    intros K H. apply in_arrivals in H as (H1 & H2 & H3). destruct (k_conn st K c H1) as ((W1 & W2 & W3) & _). pose proof (k_main st K c H1 ltac:(congruence)) as Hs. destruct W3 as [(_ & W3)|(W3 & _)]; [|destruct (pt_apart _ W2); congruence].
    repeat split; try lia. exact Hs.
  Qed.
  Lemma at_parallel st c q : lnk st -> (N <= q < all)%nat -> List.In c (arrivals q (pt true q) st) -> exists d, (1 <= d <= q mod N)%nat /\ cn_from c = (q - d)%nat.
  Proof using All.
    intros K Hq H. apply in_arrivals in H as (H1 & H2 & H3). destruct (k_conn st K c H1) as (W & _). destruct (wired_true c W ltac:(congruence)) as (W1 & W2 & W3). rewrite H2 in *.
    exists (q - cn_from c)%nat. pose proof (Nat.div_mod (cn_from c) N ltac:(lia)). pose proof (Nat.div_mod q N ltac:(lia)). split; [|lia]. split; [lia|]. rewrite W2 in H. lia.
  Qed.
  Lemma nodup_keys_from l : (forall c c', List.In c l -> List.In c' l -> cn_to c = cn_to c' /\ cn_port c = cn_port c') -> NoDup (map key l) -> NoDup (map cn_from l).
  Proof using All.
    induction l as [|c l IH]; intros H Hn; [constructor|]. cbn [map] in *. inversion Hn as [|? ? H1 H2]; subst. constructor; [|apply IH; auto; intros; apply H; right; assumption].
    intros X. apply H1. apply in_map_iff in X as (c' & E & X). apply in_map_iff. exists c'. split; [|exact X]. unfold key. destruct (H c c' (or_introl eq_refl) (or_intror X)) as (E1 & E2). congruence.
  Qed.
  Lemma nodup_filter_map {A B} (f : A -> B) (g : A -> bool) l : NoDup (map f l) -> NoDup (map f (filter g l)).
  Proof using All.
    induction l as [|x l IH]; intros H; [constructor|]. cbn [map filter] in *. inversion H as [|? ? H1 H2]; subst. destruct (g x); [|auto]. cbn [map]. constructor; [|auto].
    intros X. apply H1. apply in_map_iff in X as (y & E & X). apply filter_In in X as (X & _). apply in_map_iff. exists y. auto.
  Qed.
  Lemma arrivals_nodup st q x : lnk st -> NoDup (map cn_from (arrivals q x st)).
  Proof using All.
    intros K. apply nodup_keys_from.
    - intros c c' H H'. apply in_arrivals in H as (_ & H1 & H2). apply in_arrivals in H' as (_ & H3 & H4). split; congruence.
    - unfold arrivals. rewrite map_rev. apply NoDup_rev. apply nodup_filter_map. apply (k_keys st K).
  Qed.
  Lemma main_room st q : lnk st -> (N <= q < all)%nat -> (length (arrivals q (pt false q) st) <= 1)%nat.
  Proof using All.
    intros K Hq. pose proof (arrivals_nodup st q (pt false q) K) as Hn. rewrite <- (map_length cn_from). change 1%nat with (length [(q - N)%nat]). apply NoDup_incl_length; [exact Hn|].
    intros y Hy. apply in_map_iff in Hy as (c & <- & Hc). left. symmetry. apply (at_main st c q K Hc).
  Qed.
  Lemma parallel_room st q : lnk st -> (N <= q < all)%nat -> (length (arrivals q (pt true q) st) <= q mod N)%nat.
  Proof using All.
    intros K Hq. pose proof (arrivals_nodup st q (pt true q) K) as Hn. rewrite <- (map_length cn_from). assert (E : length (map (fun d => (q - d)%nat) (seq 1 (q mod N))) = (q mod N)%nat) by (rewrite map_length, seq_length; reflexivity).
    rewrite <- E. apply NoDup_incl_length; [exact Hn|].
    intros y Hy. apply in_map_iff in Hy as (c & <- & Hc). destruct (at_parallel st c q K Hq Hc) as (d & Hd & E'). apply in_map_iff. exists d. split; [auto|apply in_seq; lia].
  Qed.

  Lemma progress st : lnk st -> forall r p a rest, lk_todo st p = a :: rest -> rank p a = r -> exists p', (p' < all)%nat /\ can st p'.
  Proof using All.
    intros K. induction r as [r IH] using lt_wf_ind. intros p a rest E Er.
    assert (Less : forall q b, List.In b (lk_todo st q) -> (rank q b < r)%nat -> exists p', (p' < all)%nat /\ can st p').
    { intros q b Hb Hr. destruct (lk_todo st q) as [|h t] eqn:Eq; [destruct Hb|]. apply (IH (rank q h)) with (p := q) (a := h) (rest := t); auto.
      pose proof (k_wf st K q) as W. rewrite Eq in W. destruct W as (_ & W & _). destruct Hb as [<-|Hb]; [exact Hr|]. specialize (W b Hb). lia. }
    pose proof (k_wf st K p) as W. rewrite E in W. destruct W as (A & _ & _).
    assert (Hset : set_todo p rest (lk_todo st) p = rest) by (unfold set_todo; rewrite Nat.eqb_refl; reflexivity).
    assert (Opened : forall q b, (N <= q < all)%nat -> List.In (Listen (pt b q)) (scr q) -> (rank q (Listen (pt b q)) < r)%nat -> (exists p', (p' < all)%nat /\ can st p') \/ List.In (q, pt b q) (lk_open st)).
    { intros q b Hq H Hr. destruct (k_open1 st K q _ H) as [H'|H']; [left; exact (Less q _ H' Hr)|right; exact H']. }
    assert (Made : forall q p' b, (N <= q < all)%nat -> List.In (Dial (ipq q) (pt b q)) (scr p') -> (rank p' (Dial (ipq q) (pt b q)) < r)%nat -> (exists p', (p' < all)%nat /\ can st p') \/ exists c, List.In c (arrivals q (pt b q) st) /\ cn_from c = p').
    { intros q p' b Hq H Hr. destruct (k_dial st K p' _ _ H) as [H'|(c & H1 & H2 & H3 & H4)]; [left; exact (Less p' _ H' Hr)|right]. exists c. split; [|exact H2]. apply in_arrivals. split; [exact H1|]. split; [|exact H3].
      destruct (k_conn st K c H1) as ((_ & V & V') & _). assert (exists b', cn_port c = pt b' (cn_to c)) as (b' & Eb) by (destruct V' as [(V' & _)|(V' & _)]; eauto). apply (Huniq b' (cn_to c) b q V Hq H4). congruence. }
    assert (Ready : forall q b, (N <= q < all)%nat -> a = Dial (ipq q) (pt b q) -> List.In (q, pt b q) (lk_open st) -> can st p).
    { intros q b Hq -> Ho. unfold can, link_step. rewrite E. match goal with |- context[find ?f ?l] => destruct (find f l) eqn:Ef end; [cbn [lk_todo]; rewrite Hset; cbn; lia|].
      exfalso. apply (find_none _ _ Ef) in Ho. cbn [fst snd] in Ho. rewrite Z.eqb_refl, andb_true_r in Ho. rewrite (proj2 (same_host_iff _ q Hq) eq_refl) in Ho. discriminate. }
    assert (Full : (N <= p < all)%nat -> r = (top + 1 + 2 * (p mod N))%nat -> (exists p', (p' < all)%nat /\ can st p') \/ (p mod N <= length (arrivals p (pt true p) st))%nat).
    { intros Hp Hr0.
      assert (M : forall n, (n <= p mod N)%nat -> (exists p', (p' < all)%nat /\ can st p') \/ incl (map (fun d => (p - d)%nat) (seq 1 n)) (map cn_from (arrivals p (pt true p) st))).
      { induction n as [|n IHn]; intros Hn; [right; intros y []|]. destruct (IHn ltac:(lia)) as [|I]; [auto|].
        assert (Hd : ((p - S n) mod N = p mod N - S n)%nat /\ (N <= p - S n < all)%nat).
        { pose proof (Nat.div_mod p N ltac:(lia)). assert (1 <= p / N)%nat by (apply Nat.div_le_lower_bound; lia). split; [|nia]. symmetry. apply (Nat.mod_unique _ N (p / N)); [|nia]. pose proof (Nat.mod_upper_bound p N). lia. }
        destruct Hd as (Hd1 & Hd2). pose proof (Nat.mod_upper_bound p N ltac:(lia)) as Hu.
        pose proof (in_scr_sib (p - S n) (S n) Hd2 ltac:(lia) ltac:(lia)) as Hs. pose proof (rank_down (p - S n) (S n) Hd2 ltac:(lia) ltac:(lia)) as Hr. replace (p - S n + S n)%nat with p in Hs, Hr by lia.
        destruct (Made p (p - S n)%nat true Hp Hs ltac:(lia)) as [|(c & Hc & Ec)]; [auto|right]. rewrite seq_S, map_app. apply incl_app; [exact I|]. intros y [<-|[]]. apply in_map_iff. exists c. auto. }
      destruct (M (p mod N)%nat (le_n _)) as [|I]; [auto|right]. rewrite <- (map_length cn_from).
      assert (E' : length (map (fun d => (p - d)%nat) (seq 1 (p mod N))) = (p mod N)%nat) by (rewrite map_length, seq_length; reflexivity). rewrite <- E' at 1. apply NoDup_incl_length; [|exact I].
      assert (Hsmall : (p mod N <= p)%nat) by (apply Nat.mod_le; lia). apply nodup_map_inj; [|apply seq_NoDup]. intros d d' Hd Hd' Ed. apply in_seq in Hd. apply in_seq in Hd'. lia. }
    destruct a as [x|x|x j own|i x|own]; cbn [act_ok] in A.
    - destruct A as (Hp & (b & Hb) & A3 & A4). exists p. split; [lia|]. unfold can. unfold link_step. rewrite E.
      match goal with |- context[existsb ?f ?l] => destruct (existsb f l) end; cbn [lk_todo]; [|rewrite Hset; cbn; lia]. unfold set_todo. rewrite Nat.eqb_refl. cbn. lia.
    - destruct A as (Hp & (b & Hb) & A4). subst x. pose proof (accepts_scr p Hp) as (S1 & S2). pose proof (k_acc st K p (pt b p)) as KA.
      assert (T : (1 <= accepts (pt b p) (lk_todo st p))%nat) by (rewrite E; unfold accepts; cbn [filter is_accept]; rewrite Z.eqb_refl; cbn; lia).
      assert (Go : (accepts (pt b p) (scr p) <= length (arrivals p (pt b p) st))%nat -> exists p', (p' < all)%nat /\ can st p').
      { intros G. exists p. split; [lia|]. unfold can, link_step. rewrite E. destruct (Nat.ltb_spec (length (filter (at_port p (pt b p)) (lk_accepted st))) (length (arrivals p (pt b p) st))); [|lia]. cbn [lk_todo]. rewrite Hset. cbn. lia. }
      destruct b.
      + destruct (rank_true p _ Hp eq_refl) as (_ & R2). rewrite R2 in Er.
        destruct (Full Hp ltac:(lia)) as [|M]; [assumption|]. apply Go. rewrite S2. exact M.
      + destruct (rank_false p) as (_ & R2). rewrite R2 in Er. assert (Hd : ((p - N) / N + 1 = p / N)%nat) by (replace p with ((p - N) + 1 * N)%nat at 2 by lia; rewrite Nat.div_add by lia; lia).
        pose proof (in_scr_next (p - N) ltac:(lia)) as Hs. pose proof (rank_next (p - N) ltac:(lia)) as Hr. replace (p - N + N)%nat with p in * by lia.
        destruct (Made p (p - N)%nat false Hp Hs ltac:(lia)) as [|(c & Hc & Ec)]; [assumption|]. apply Go. rewrite S1. destruct (arrivals p (pt false p) st); [destruct Hc|cbn; lia].
    - destruct A as (Hp & -> & A3 & -> & A5). cbn [rank] in Er. destruct (Full Hp ltac:(lia)) as [|M]; [assumption|].
      destruct (nth_error (arrivals p (pt true p) st) j) as [c|] eqn:En; [|apply nth_error_None in En; lia]. pose proof (nth_error_In _ _ En) as Hc. pose proof Hc as Hc'. apply in_arrivals in Hc as (C1 & C2 & C3).
      destruct (cn_said c) as [id|] eqn:Es.
      + exists p. split; [lia|]. unfold can, link_step. rewrite E, En, Es. destruct (id <? Z.of_nat (p mod N)); cbn [lk_todo]; [rewrite Hset; cbn; lia|]. unfold set_todo. rewrite Nat.eqb_refl. cbn. lia.
      + destruct (k_conn st K c C1) as (W & _). destruct (wired_true c W ltac:(congruence)) as (W1 & W2 & W3). destruct (k_said st K (cn_from c)) as (K1 & K2). destruct (lk_todo st (cn_from c)) as [|h t] eqn:Eh.
        * specialize (K2 (fun x => x) c C1 eq_refl ltac:(congruence)). congruence.
        * destruct h as [y|y|y j' o|i' y|o].
          1-4: specialize (K2 (fun x => x) c C1 eq_refl ltac:(congruence)); congruence.
          apply (Less (cn_from c) (Greet o)); [rewrite Eh; left; reflexivity|]. cbn [rank]. rewrite C2 in W3. lia.
    - destruct A as (A1 & A2 & [(B1 & B2 & B3 & B4)|(d & B1 & B2 & B3 & B4 & B5 & B6)]).
      + subst i x. rewrite rank_next in Er by assumption. destruct (Opened (p + N)%nat false ltac:(lia)) as [|Ho]; [apply in_scr_listen; lia|destruct (rank_false (p + N)) as (-> & _); lia|assumption|].
        exists p. split; [lia|]. exact (Ready (p + N)%nat false ltac:(lia) eq_refl Ho).
      + subst i x. destruct (sibling_range p d ltac:(lia) B3) as (R1 & R2 & R3). rewrite (rank_down p d ltac:(lia) B2 B3) in Er.
        destruct (Opened (p + d)%nat true R1) as [|Ho]; [apply in_scr_listen; lia|destruct (rank_true (p + d) _ R1 eq_refl) as (-> & _); lia|assumption|].
        exists p. split; [lia|]. exact (Ready (p + d)%nat true R1 eq_refl Ho).
    - exists p. split; [lia|]. unfold can, link_step. rewrite E. cbn [lk_todo]. rewrite Hset. cbn. lia.
  Qed.

  (** ** Every fair schedule *)
  Definition left_ (st : links) : nat := list_sum (map (fun p => length (lk_todo st p)) (seq 0 all)).
  Lemma todo_cases st p : link_step host p st = st \/ (exists a rest, lk_todo st p = a :: rest /\ (length (lk_todo (link_step host p st) p) <= length rest)%nat /\ forall q, q <> p -> lk_todo (link_step host p st) q = lk_todo st q).
  Proof using All.
    unfold link_step. destruct (lk_todo st p) as [|a rest] eqn:E; [auto|].
    assert (S1 : (length (set_todo p rest (lk_todo st) p) <= length rest)%nat /\ forall q, q <> p -> set_todo p rest (lk_todo st) q = lk_todo st q).
    { unfold set_todo. rewrite Nat.eqb_refl. split; [lia|]. intros q Hq. destruct (Nat.eqb_spec q p); [contradiction|reflexivity]. }
    assert (S2 : (length (set_todo p [] (lk_todo st) p) <= length rest)%nat /\ forall q, q <> p -> set_todo p [] (lk_todo st) q = lk_todo st q).
    { unfold set_todo. rewrite Nat.eqb_refl. split; [cbn; lia|]. intros q Hq. destruct (Nat.eqb_spec q p); [contradiction|reflexivity]. }
    destruct a.
    - match goal with |- context[existsb ?f ?l] => destruct (existsb f l) end; right; exists (Listen port), rest; auto.
    - destruct (_ <? _)%nat; [right; exists (Accept port), rest; auto|auto].
    - destruct (nth_error _ _) as [c|]; [|auto]. destruct (cn_said c) as [id|]; [|auto]. destruct (id <? own); right; exists (Hear port j own), rest; auto.
    - destruct (find _ _); [right; exists (Dial ip port), rest; auto|auto].
    - right. exists (Greet own), rest. auto.
  Qed.
  Lemma sum_less (f g : nat -> nat) p n : (p < n)%nat -> (f p < g p)%nat -> (forall q, q <> p -> f q = g q) -> (list_sum (map f (seq 0 n)) < list_sum (map g (seq 0 n)))%nat.
  Proof using All.
    intros Hp Hlt Hq. induction n as [|n IH]; [lia|]. rewrite seq_S, !map_app, !list_sum_app. cbn [map list_sum fold_right plus]. destruct (Nat.eq_dec p n) as [->|].
    - assert (E : map f (seq 0 n) = map g (seq 0 n)) by (apply map_ext_in; intros q Hin; apply in_seq in Hin; apply Hq; lia). rewrite E. lia.
    - rewrite (Hq n) by lia. specialize (IH ltac:(lia)). lia.
  Qed.
  Lemma step_or st p : lnk st -> link_step host p st = st \/ (left_ (link_step host p st) < left_ st)%nat.
  Proof using All.
    intros K. destruct (todo_cases st p) as [|(a & rest & E & H1 & H2)]; [auto|right]. apply (sum_less _ _ p); [|rewrite E; cbn; lia|intros q Hq; rewrite H2 by assumption; reflexivity].
    pose proof (k_wf st K p) as W. rewrite E in W. destruct W as (W & _). destruct a; cbn [act_ok] in W; tauto || lia.
  Qed.
  Lemma can_less st p : lnk st -> (p < all)%nat -> can st p -> (left_ (link_step host p st) < left_ st)%nat.
  Proof using All.
    intros K Hp C. destruct (step_or st p K) as [E|]; [|assumption]. unfold can in C. rewrite E in C. lia.
  Qed.
  Lemma left_zero st : lnk st -> left_ st = 0%nat \/ exists p, (p < all)%nat /\ lk_todo st p <> [].
  Proof using All.
    intros K. unfold left_. generalize all at 1 2. intros k. induction k as [|n [IH|(p & Hp & IH)]]; [auto| |right; exists p; split; [lia|exact IH]].
    destruct (lk_todo st n) as [|a r] eqn:E; [|right; exists n; split; [lia|congruence]]. left. rewrite seq_S, map_app, list_sum_app, IH. cbn. rewrite E. reflexivity.
  Qed.
  Lemma zero_done st p : lnk st -> left_ st = 0%nat -> lk_todo st p = [].
  Proof using All.
    intros K H. destruct (lk_todo st p) as [|a r] eqn:E; [reflexivity|exfalso]. assert (Hp : (p < all)%nat). { pose proof (k_wf st K p) as W. rewrite E in W. destruct W as (W & _). destruct a; cbn [act_ok] in W; tauto || lia. }
    revert H Hp. unfold left_. generalize all. intros k. induction k as [|n IH]; [lia|]. rewrite seq_S, map_app, list_sum_app. cbn. intros H Hp. destruct (Nat.eq_dec p n) as [->|]; [rewrite E in H; cbn in H; lia|apply IH; lia].
  Qed.
  Section Run.
    Variables (who : nat -> nat) (run : nat -> links).
    Hypothesis Hrun : forall n, run (S n) = link_step host (who n) (run n).
    Hypothesis H0 : lnk (run O).
    Lemma run_lnk n : lnk (run n).
    Proof using All. induction n as [|n IH]; [exact H0|]. rewrite Hrun. apply lnk_steps. exact IH. Qed.
    Lemma run_le n m : (n <= m)%nat -> run m = run n \/ (left_ (run m) < left_ (run n))%nat.
    Proof using All.
      induction 1 as [|m H IH]; [auto|]. rewrite Hrun. destruct (step_or (run m) (who m) (run_lnk m)) as [E|E]; [rewrite E; exact IH|]. right. destruct IH as [IH|IH]; [rewrite <- IH; exact E|lia].
    Qed.
    Hypothesis Hfair : forall p, (p < all)%nat -> forall n, exists m, (n <= m)%nat /\ who m = p.
    Lemma run_done k : forall n, (left_ (run n) <= k)%nat -> exists m, (n <= m)%nat /\ forall p, lk_todo (run m) p = [].
    Proof using All.
      induction k as [|k IH]; intros n Hk.
      - exists n. split; [lia|]. intros p. apply zero_done; [apply run_lnk|lia].
      - destruct (left_zero (run n) (run_lnk n)) as [Z0|(p & Hp & Hne)]; [exists n; split; [lia|]; intros p; apply zero_done; [apply run_lnk|lia]|].
        destruct (lk_todo (run n) p) as [|a rest] eqn:E; [congruence|]. destruct (progress (run n) (run_lnk n) _ p a rest E eq_refl) as (p' & Hp' & C). destruct (Hfair p' Hp' n) as (m & Hm & Ew).
        destruct (run_le n m Hm) as [Er|Er].
        + pose proof (can_less _ _ (run_lnk n) Hp' C) as L. rewrite <- Er, <- Ew, <- Hrun in L. rewrite Er in L. destruct (IH (S m) ltac:(lia)) as (m' & H1 & H2). exists m'. split; [lia|exact H2].
        + destruct (IH m ltac:(lia)) as (m' & H1 & H2). exists m'. split; [lia|exact H2].
    Qed.
    Lemma run_stays : exists n, forall m, (n <= m)%nat -> forall p, lk_todo (run m) p = [].
    Proof using All.
      destruct (run_done _ 0%nat (le_n _)) as (n & _ & H). exists n. induction 1 as [|m _ IH]; [exact H|]. intros p. rewrite Hrun. unfold link_step. rewrite IH. apply IH.
    Qed.
  End Run.

  (** ** What the connections are when everyone is done *)
  Lemma done_main st q : lnk st -> (forall p, lk_todo st p = []) -> (N <= q < all)%nat -> map (fun c => (cn_from c, cn_said c)) (arrivals q (pt false q) st) = [((q - N)%nat, None)].
  Proof using All.
    intros K D Hq. pose proof (in_scr_next (q - N) ltac:(lia)) as Hs. replace (q - N + N)%nat with q in Hs by lia.
    destruct (k_dial st K _ _ _ Hs) as [X|(c & H1 & H2 & H3 & H4)]; [rewrite D in X; destruct X|]. destruct (k_conn st K c H1) as ((_ & V & V') & _).
    assert (exists b', cn_port c = pt b' (cn_to c)) as (b' & Eb) by (destruct V' as [(V' & _)|(V' & _)]; eauto). destruct (Huniq b' (cn_to c) false q V Hq H4 ltac:(congruence)) as (_ & Eq).
    assert (Hc : List.In c (arrivals q (pt false q) st)) by (apply in_arrivals; auto). pose proof (main_room st q K Hq) as L. destruct (arrivals q (pt false q) st) as [|c1 [|c2 l]] eqn:Ea; [destruct Hc| |cbn in L; lia].
    destruct (at_main st c1 q K ltac:(rewrite Ea; left; reflexivity)) as (_ & E1 & _ & E2). cbn. rewrite E1, E2. reflexivity.
  Qed.
  Lemma done_parallel st q : lnk st -> (forall p, lk_todo st p = []) -> (N <= q < all)%nat ->
    Permutation (map (fun c => (cn_from c, cn_said c)) (arrivals q (pt true q) st)) (map (fun i => ((q / N * N + i)%nat, Some (Z.of_nat i))) (seq 0 (q mod N))).
  Proof using All.
    intros K D Hq. pose proof (Nat.div_mod q N ltac:(lia)) as Eq. assert (Hq1 : (1 <= q / N)%nat) by (apply Nat.div_le_lower_bound; lia). pose proof (Nat.mod_upper_bound q N ltac:(lia)) as Hu.
    apply NoDup_Permutation.
    - apply (NoDup_map_inv fst). rewrite map_map. cbn [fst]. apply arrivals_nodup. exact K.
    - apply nodup_map_inj; [|apply seq_NoDup]. intros x y _ _ E. inversion E. lia.
    - intros (f, o). split; intros H.
      + apply in_map_iff in H as (c & E & Hc). inversion E; subst f o. pose proof Hc as Hc'. apply in_arrivals in Hc' as (C1 & C2 & C3). destruct (k_conn st K c C1) as (W & _). destruct (wired_true c W ltac:(congruence)) as (W1 & W2 & W3). rewrite C2 in *.
        destruct (k_said st K (cn_from c)) as (_ & Q). rewrite D in Q. specialize (Q (fun x => x) c C1 eq_refl ltac:(congruence)). rewrite Q. apply in_map_iff. exists (cn_from c mod N)%nat. split; [|apply in_seq; lia].
        rewrite <- W2. pose proof (Nat.div_mod (cn_from c) N ltac:(lia)). f_equal. lia.
      + apply in_map_iff in H as (i & E & Hi). apply in_seq in Hi. inversion E; subst f o. set (p := (q / N * N + i)%nat) in *.
        assert (Hm : (p mod N = i)%nat) by (symmetry; apply (Nat.mod_unique _ N (q / N)); [lia|unfold p; lia]). assert (Hp : (N <= p < all)%nat) by (unfold p; nia).
        pose proof (in_scr_sib p (q mod N - i) Hp ltac:(lia) ltac:(lia)) as Hs. replace (p + (q mod N - i))%nat with q in Hs by (unfold p; lia).
        destruct (k_dial st K _ _ _ Hs) as [X|(c & H1 & H2 & H3 & H4)]; [rewrite D in X; destruct X|]. destruct (k_conn st K c H1) as ((_ & V & V') & _).
        assert (exists b', cn_port c = pt b' (cn_to c)) as (b' & Eb) by (destruct V' as [(V' & _)|(V' & _)]; eauto). destruct (Huniq b' (cn_to c) true q V Hq H4 ltac:(congruence)) as (_ & Ec).
        destruct (k_said st K (cn_from c)) as (_ & Q). rewrite D in Q. specialize (Q (fun x => x) c H1 eq_refl ltac:(congruence)). apply in_map_iff. exists c. split; [|apply in_arrivals; auto]. rewrite Q, H2, Hm. reflexivity.
  Qed.
End Links.
