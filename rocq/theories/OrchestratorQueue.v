(** Proofs about the order in which jobs are given. *)
From Coq Require Import Permutation.
From Verif Require Import Base Config Orchestrator OrchestratorSpec OrchestratorProofs OrchestratorConfigs.

Lemma described_heap s h e d : inv s h -> nth_error (described h) e = Some d -> exists y, nth_error (or_heap s) e = Some y /\ ex_desc y = d.
Proof.
  intros I H. rewrite <- (i_desc _ _ I), nth_error_map in H. destruct (nth_error (or_heap s) e) as [y|]; [|discriminate]. exists y. cbn in H. inversion H. auto.
Qed.
Lemma heap_described s h e y : inv s h -> nth_error (or_heap s) e = Some y -> nth_error (described h) e = Some (ex_desc y).
Proof. intros I H. rewrite <- (i_desc _ _ I). now apply map_nth_error. Qed.
Lemma members_taken s h e y k : inv s h -> nth_error (or_heap s) e = Some y -> length (ex_members k y) = taken k e h.
Proof. intros I H. rewrite (e_members _ _ _ (i_exp _ _ I _ _ H)), map_length. reflexivity. Qed.
Lemma described_length s h : inv s h -> length (described h) = length (or_heap s).
Proof. intros I. rewrite <- (i_desc _ _ I). apply map_length. Qed.
Lemma ready_takes s h e y : inv s h -> nth_error (or_heap s) e = Some y -> ready_for_clients y = takes_clients h e.
Proof.
  intros I H. unfold takes_clients, ready_for_clients. rewrite (heap_described _ _ _ _ I H), <- (members_taken _ _ _ _ Server I H). reflexivity.
Qed.

Lemma filter_ext_in' {A} (f g : A -> bool) l : (forall x, List.In x l -> f x = g x) -> filter f l = filter g l.
Proof. intros H. induction l as [|a l IH]; [reflexivity|]. cbn. rewrite (H a) by (left; reflexivity). rewrite IH by (intros; apply H; right; assumption). reflexivity. Qed.

Definition increasing (l : list nat) : Prop := forall i j x y, (i < j)%nat -> nth_error l i = Some x -> nth_error l j = Some y -> (x < y)%nat.
Record q_inv (s : orch) (h : hist) : Prop := {
  q_list : or_list s = listed h;
  q_queue : forall k, queue k s = filter (has_room k h) (listed h);
  q_below : forall e, List.In e (listed h) -> (e < length (described h))%nat;
  q_incr : increasing (listed h)
}.
Lemma increasing_snoc l n : increasing l -> (forall e, List.In e l -> (e < n)%nat) -> increasing (l ++ [n]).
Proof.
  intros H B i j x y L Hi Hj. destruct (Nat.lt_ge_cases j (length l)) as [Lj|Lj].
  - rewrite nth_error_app1 in Hi, Hj by lia. exact (H i j x y L Hi Hj).
  - rewrite nth_error_app2 in Hj by lia. destruct (j - length l)%nat as [|[|]] eqn:Ej; cbn in Hj; inversion Hj; subst.
    rewrite nth_error_app1 in Hi by lia. apply B. eapply nth_error_In, Hi.
Qed.

Lemma listed_same ev r h : (match ev with NewExperiment _ true => False | ClearExperiments => False | _ => True end) -> listed ((ev, r) :: h) = listed h.
Proof. destruct ev as [| | | | |? []| |]; cbn; tauto. Qed.
Lemma room_same k ev r h e : (match ev, r with NewExperiment _ _, _ => False | Ping _, RJob _ => False | _, _ => True end) -> has_room k ((ev, r) :: h) e = has_room k h e.
Proof. intros H. unfold has_room, taken. destruct ev; try reflexivity; [|contradiction]. destruct r; try reflexivity. contradiction. Qed.

Lemma q_quiet a s h ev s' r : happens a s h -> handle a s ev = (s', r) -> q_inv s h ->
  (match ev, r with NewExperiment _ _, _ => False | ClearExperiments, _ => False | Ping _, RJob _ => False | _, _ => True end) ->
  or_list s' = or_list s -> (forall k, queue k s' = queue k s) -> q_inv s' ((ev, r) :: h).
Proof.
  intros Hh H [Q1 Q2 Q3 Q4] E El Eq.
  assert (L : listed ((ev, r) :: h) = listed h) by (apply listed_same; destruct ev as [| | | | |? []| |]; tauto).
  assert (D : described ((ev, r) :: h) = described h) by (destruct ev; try reflexivity; destruct r; contradiction).
  constructor; rewrite ?L, ?D; auto; [congruence|]. intros k. rewrite Eq, Q2. apply filter_ext_in'. intros e _. symmetry. apply room_same.
  destruct ev; auto. 
Qed.

Theorem happens_q a s h : happens a s h -> q_inv s h.
Proof.
  induction 1 as [|s h ev s' r Hh IH H].
  - constructor; cbn; auto. + intros []; reflexivity. + contradiction. + intros [|i] j x y _ Hi; discriminate.
  - pose proof (happens_inv _ _ _ Hh) as I. pose proof (q_quiet _ _ _ _ _ _ Hh H IH) as QQ. destruct ev as [k ip|w|w keys|w|w res|d add|e'|].
    + inversion H; subst. apply QQ; auto; intros []; reflexivity.
    + destruct (nth_error (or_workers s) w) as [x|] eqn:Hx; [|cbn in H; rewrite Hx in H; inversion H; subst; apply QQ; auto].
      destruct (ping_cases _ _ _ _ _ _ _ I H Hx) as [(-> & -> & _)|(e & rest & y & j & Hq & Hy & Hc & -> & Hj & Hok & Hn & Ew & Eh & El & Eq)].
      * apply QQ; auto; intros []; reflexivity.
      * destruct IH as [Q1 Q2 Q3 Q4]. set (k := wk_kind x) in *. constructor; cbn [listed described]; auto; [congruence|]. intros k'. rewrite Eq.
        assert (HR : forall e', has_room k' ((Ping w, RJob j) :: h) e' =
          if kind_eqb k k' && (e =? e')%nat then (S (length (ex_members k y)) <? needs k (ex_desc y))%nat else has_room k' h e').
        { intros e'. unfold has_room, taken. cbn [given described]. rewrite filter_app', app_length. cbn [filter].
          destruct (is_for k' e' (w, j)) eqn:Ef.
          - apply is_for_true in Ef as [E1 E2]. destruct Hj as [E3 E4]. assert (e' = e) as -> by congruence. assert (k' = k) as -> by congruence.
            rewrite kind_eqb_refl, Nat.eqb_refl. cbn [andb]. rewrite (heap_described _ _ _ _ I Hy). cbn [length].
            rewrite (members_taken _ _ _ _ k I Hy). unfold taken. now rewrite Nat.add_1_r.
          - apply is_for_false in Ef. destruct Hj as [E3 E4]. rewrite Nat.add_0_r.
            assert (kind_eqb k k' && (e =? e')%nat = false) as ->; [|reflexivity].
            destruct (kind_eqb k k') eqn:Ek; [|reflexivity]. apply kind_eqb_eq in Ek. destruct (Nat.eqb_spec e e') as [Ee|]; [|reflexivity].
            exfalso. apply Ef. split; congruence. }
        rewrite (filter_ext_in' _ _ _ (fun e' _ => HR e')). clear HR. rewrite (Q2 k'). destruct (kind_eqb k k') eqn:Ek; cbn [andb]; [|reflexivity].
        apply kind_eqb_eq in Ek. subst k'.
        assert (Lr : (length (ex_members k y) < needs k (ex_desc y))%nat).
        { destruct (i_queue _ _ I k e) as (y' & Hy' & Hl); [rewrite Hq; left; reflexivity|]. congruence. }
        pose proof (i_nodup _ _ I k) as N. rewrite Hq in N.
        destruct (Nat.eqb_spec (needs k (ex_desc y)) (S (length (ex_members k y)))) as [Ef|Ef].
        -- assert ((S (length (ex_members k y)) <? needs k (ex_desc y))%nat = false) as -> by (apply Nat.ltb_ge; lia).
           assert (F : forall l, filter (fun e' => if (e =? e')%nat then false else has_room k h e') l = filter (fun e' => negb (e =? e')%nat) (filter (has_room k h) l)).
           { induction l as [|b l IHl]; [reflexivity|]. cbn. destruct (has_room k h b) eqn:Eb; cbn; destruct (e =? b)%nat eqn:Ee; cbn; rewrite ?Eb; congruence. }
           rewrite F, <- Q2, Hq. cbn. rewrite Nat.eqb_refl. cbn. inversion N; subst. symmetry. 
           clear -H2. induction rest as [|b rest IHr]; [reflexivity|]. cbn. destruct (Nat.eqb_spec e b) as [->|]; [exfalso; apply H2; left; reflexivity|].
           cbn. f_equal. apply IHr. intros X. apply H2. right. exact X.
        -- assert ((S (length (ex_members k y)) <? needs k (ex_desc y))%nat = true) as -> by (apply Nat.ltb_lt; lia).
           rewrite Q2. apply filter_ext_in'. intros e' _. destruct (Nat.eqb_spec e e') as [<-|]; [|reflexivity].
           assert (HI : List.In e (filter (has_room k h) (listed h))) by (rewrite <- Q2, Hq; left; reflexivity). now apply filter_In in HI.
    + cbn in H. destruct (nth_error (or_workers s) w) as [x|]; [|inversion H; subst; apply QQ; auto].
      destruct (wk_exp x) as [e|]; [|inversion H; subst; apply QQ; auto]. destruct (nth_error (or_heap s) e) as [y|]; [|inversion H; subst; apply QQ; auto].
      destruct (negb _); [inversion H; subst; apply QQ; auto|]. destruct (ex_config y); [inversion H; subst; apply QQ; auto|].
      destruct (ds_kind (ex_desc y)); [|inversion H; subst; apply QQ; auto|inversion H; subst; apply QQ; auto].
      destruct (generate a keys (or_workers s) y); inversion H; subst; apply QQ; auto; intros []; reflexivity.
    + cbn in H. destruct (nth_error (or_workers s) w); inversion H; subst; apply QQ; auto.
    + cbn in H. destruct (nth_error (or_workers s) w) as [x|]; [|inversion H; subst; apply QQ; auto].
      destruct (wk_exp x) as [e|]; [|inversion H; subst; apply QQ; auto]. destruct (nth_error (or_heap s) e) as [y|]; [|inversion H; subst; apply QQ; auto].
      destruct (result_file _ _ _); inversion H; subst; apply QQ; auto; intros []; reflexivity.
    + inversion H; subst. destruct IH as [Q1 Q2 Q3 Q4]. pose proof (described_length _ _ I) as DL.
      assert (HR : forall k e, (e < length (described h))%nat -> has_room k ((NewExperiment d add, RNone) :: h) e = has_room k h e).
      { intros k e L. unfold has_room, taken. cbn [described given]. rewrite nth_error_app1 by assumption. reflexivity. }
      assert (HN : forall k, has_room k ((NewExperiment d add, RNone) :: h) (length (described h)) = (0 <? needs k (sized d))%nat).
      { intros k. unfold has_room, taken. cbn [described given]. rewrite nth_error_app2, Nat.sub_diag by lia. cbn [nth_error].
        change (filter (is_for k (length (described h))) (given h)) with (of_exp k (length (described h)) (given h)). rewrite (no_given _ _ _ k I) by lia. reflexivity. }
      assert (HQ : forall k, queue k (add_experiment d add s) = if add && (0 <? needs k (sized d))%nat then queue k s ++ [length (or_heap s)] else queue k s) by (intros []; reflexivity).
      destruct add; constructor; cbn [listed described or_list add_experiment].
      * now rewrite Q1, DL.
      * intros k. rewrite HQ. cbn [andb]. rewrite filter_app'. cbn [filter]. rewrite HN, <- DL, Q2.
        rewrite (filter_ext_in' (has_room k ((NewExperiment d true, RNone) :: h)) (has_room k h) (listed h)) by (intros e He; apply HR, Q3, He). destruct (0 <? needs k (sized d))%nat; [reflexivity|now rewrite app_nil_r].
      * intros e He. rewrite app_length. cbn. apply in_app_or in He as [He|[<-|[]]]; [apply Q3 in He; lia|lia].
      * apply increasing_snoc; auto.
      * exact Q1.
      * intros k. rewrite HQ. cbn [andb]. rewrite Q2. symmetry. apply filter_ext_in'. intros e He. apply HR, Q3, He.
      * intros e He. rewrite app_length. apply Q3 in He. lia.
      * exact Q4.
    + cbn in H. destruct (existsb _ _); [|inversion H; subst; apply QQ; auto]. destruct (nth_error (or_heap s) e') as [y|]; inversion H; subst; apply QQ; auto; intros []; reflexivity.
    + inversion H; subst. constructor; cbn; auto; [intros []; reflexivity|contradiction|intros [|i] j x y _ Hi; discriminate].
Qed.

(** The head of a filtered increasing list is its least element. *)
Lemma head_least f l e rest : increasing l -> filter f l = e :: rest -> List.In e l /\ f e = true /\ forall e', List.In e' l -> (e' < e)%nat -> f e' = false.
Proof.
  intros Hi H. assert (He : List.In e (filter f l)) by (rewrite H; left; reflexivity). apply filter_In in He as [He1 He2]. split; [assumption|]. split; [assumption|].
  intros e' He' L. destruct (f e') eqn:E; [exfalso|reflexivity].
  revert H He'. induction l as [|b l IH]; intros H He'; [contradiction|].
  assert (Hi' : increasing l) by (intros i j x y Lij A B; apply (Hi (S i) (S j) x y); auto; lia).
  cbn in H. destruct (f b) eqn:Eb.
  - inversion H; subst. destruct He' as [->|He']; [lia|]. apply In_nth_error in He' as (i & Hn). pose proof (Hi 0%nat (S i) e e' ltac:(lia) eq_refl Hn). lia.
  - destruct He' as [->|He']; [congruence|]. destruct He1 as [->|He1]; [congruence|]. apply IH; auto.
Qed.
