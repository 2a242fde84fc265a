From Verif Require Import Base Net.

Section Generic.
  Context {Ch M L : Type} (ceqb : Ch -> Ch -> bool).
  Context (ceqb_spec : forall a b, ceqb a b = true <-> a = b).
  Notation ev := (@ev Ch M L).
  Notation sends := (@sends Ch M L ceqb).
  Notation recvs := (@recvs Ch M L ceqb).
  Notation enabled := (@enabled Ch M L ceqb).
  Notation run := (@run Ch M L ceqb).

  Lemma proj_app p (a b : list ev) : proj p (a ++ b) = proj p a ++ proj p b.
  Proof. unfold proj. rewrite filter_app, map_app. reflexivity. Qed.
  Lemma sends_app c a b : sends c (a ++ b) = sends c a ++ sends c b.
  Proof. apply flat_map_app. Qed.
  Lemma recvs_app c a b : recvs c (a ++ b) = recvs c a ++ recvs c b.
  Proof. apply flat_map_app. Qed.

  (** Kinds in a process' own action list. *)
  Definition psends (c : Ch) (l : list (act Ch M L)) : list M :=
    flat_map (fun a => match a with Snd c' m => if ceqb c c' then [m] else [] | _ => [] end) l.
  Definition precvs (c : Ch) (l : list (act Ch M L)) : list M :=
    flat_map (fun a => match a with Rcv c' m => if ceqb c c' then [m] else [] | _ => [] end) l.

  Definition owner_s (G : list ev) (c : Ch) (p : nat) : Prop := forall q m, In (q, Snd c m) G -> q = p.
  Definition owner_r (G : list ev) (c : Ch) (p : nat) : Prop := forall q m, In (q, Rcv c m) G -> q = p.

  Lemma sends_owner G c p : owner_s G c p -> sends c G = psends c (proj p G).
  Proof.
    induction G as [|[q a] G IH]; intros O; [reflexivity|].
    assert (O' : owner_s G c p) by (intros q' m Hin; eapply O; right; exact Hin).
    unfold Net.sends, proj. cbn [flat_map filter map fst snd]. fold (sends c G).
    destruct (q =? p)%nat eqn:E; cbn [map].
    - unfold psends. cbn [flat_map snd]. fold (psends c (proj p G)). rewrite IH by exact O'. reflexivity.
    - fold (proj p G). rewrite IH by exact O'. destruct a as [c' m|c' m|l]; try reflexivity.
      destruct (ceqb c c') eqn:Ec; [|reflexivity]. apply ceqb_spec in Ec. subst c'.
      specialize (O q m (or_introl eq_refl)). apply Nat.eqb_neq in E. contradiction.
  Qed.
  Lemma recvs_owner G c p : owner_r G c p -> recvs c G = precvs c (proj p G).
  Proof.
    induction G as [|[q a] G IH]; intros O; [reflexivity|].
    assert (O' : owner_r G c p) by (intros q' m Hin; eapply O; right; exact Hin).
    unfold Net.recvs, proj. cbn [flat_map filter map fst snd]. fold (recvs c G).
    destruct (q =? p)%nat eqn:E; cbn [map].
    - unfold precvs. cbn [flat_map snd]. fold (precvs c (proj p G)). rewrite IH by exact O'. reflexivity.
    - fold (proj p G). rewrite IH by exact O'. destruct a as [c' m|c' m|l]; try reflexivity.
      destruct (ceqb c c') eqn:Ec; [|reflexivity]. apply ceqb_spec in Ec. subst c'.
      specialize (O q m (or_introl eq_refl)). apply Nat.eqb_neq in E. contradiction.
  Qed.

  Lemma proj_one p q a : @proj Ch M L q [(p, a)] = if (p =? q)%nat then [a] else [].
  Proof. unfold proj. cbn [filter fst]. destruct (p =? q)%nat; reflexivity. Qed.
  Lemma proj_cons p q a l : @proj Ch M L q ((p, a) :: l) = (if (p =? q)%nat then [a] else []) ++ proj q l.
  Proof. unfold proj. cbn [filter fst]. destruct (p =? q)%nat; reflexivity. Qed.
  Lemma sends1 c p a : sends c [(p, a)] = match a with Snd c' m => if ceqb c c' then [m] else [] | _ => [] end.
  Proof. unfold Net.sends. cbn [flat_map snd]. apply app_nil_r. Qed.
  Lemma recvs1 c p a : recvs c [(p, a)] = match a with Rcv c' m => if ceqb c c' then [m] else [] | _ => [] end.
  Proof. unfold Net.recvs. cbn [flat_map snd]. apply app_nil_r. Qed.

  (** Interleavings of arbitrary programs. *)
  Lemma run_prefix cap prog tr : run cap prog tr -> forall p, proj p tr = firstn (length (proj p tr)) (prog p).
  Proof.
    induction 1 as [|tr p a R IH N E]; intros q; [reflexivity|].
    rewrite proj_app, proj_one. destruct (p =? q)%nat eqn:Q.
    - apply Nat.eqb_eq in Q. subst q. rewrite app_length. cbn [length].
      rewrite Nat.add_1_r. rewrite (IH p) at 1. clear - N. revert N. generalize (length (proj p tr)) as n.
      generalize (prog p) as l. induction l as [|x l IHl]; intros n N.
      + destruct n; discriminate.
      + destruct n; cbn in *; [injection N as ->; reflexivity|]. f_equal. apply IHl. exact N.
    - rewrite !app_nil_r. apply IH.
  Qed.

  Lemma run_in_prog cap prog tr : run cap prog tr -> forall p a, In (p, a) tr -> In a (prog p).
  Proof.
    intros R p a H. assert (In a (proj p tr)) as Hin.
    { unfold proj. apply in_map_iff. exists (p, a). split; [reflexivity|]. apply filter_In. split; [exact H|]. apply Nat.eqb_refl. }
    rewrite (run_prefix _ _ _ R) in Hin. clear - Hin. revert Hin. generalize (length (proj p tr)). intros n Hin.
    rewrite <- (firstn_skipn n (prog p)). apply in_or_app. left. exact Hin.
  Qed.

  Lemma run_le cap prog tr : run cap prog tr -> forall c, (length (recvs c tr) <= length (sends c tr))%nat.
  Proof.
    induction 1 as [|tr p a R IH N E]; intros c; [reflexivity|].
    rewrite recvs_app, sends_app, !app_length. specialize (IH c).
    rewrite sends1, recvs1. destruct a as [c' m|c' m|l]; cbn [length]; [| |lia].
    - destruct (ceqb c c'); cbn [length]; lia.
    - destruct (ceqb c c') eqn:Ec; cbn [length]; [|lia]. apply ceqb_spec in Ec. subst c'. unfold Net.enabled in E. lia.
  Qed.

  Lemma run_cap cap prog tr : run cap prog tr -> forall c, (length (sends c tr) <= length (recvs c tr) + cap c)%nat.
  Proof.
    induction 1 as [|tr p a R IH N E]; intros c; [cbn; lia|].
    rewrite recvs_app, sends_app, !app_length. specialize (IH c).
    rewrite sends1, recvs1. destruct a as [c' m|c' m|l]; cbn [length]; [| |lia].
    - destruct (ceqb c c') eqn:Ec; cbn [length]; [|lia]. apply ceqb_spec in Ec. subst c'. unfold Net.enabled in E. lia.
    - destruct (ceqb c c'); cbn [length]; lia.
  Qed.

  (** A process has executed A entirely once it has executed more of something
      than A contains. *)
  Lemma prefix_past {X} (cnt : list X -> nat) (l A B : list X) n :
    (forall a b, (cnt a <= cnt (a ++ b))%nat) ->
    l = A ++ B -> (cnt A < cnt (firstn n l))%nat -> exists r, firstn n l = A ++ r.
  Proof.
    intros Mono -> H. destruct (Nat.le_gt_cases (length A) n) as [Hle|Hgt].
    - rewrite firstn_app. rewrite firstn_all2 by exact Hle. eauto.
    - exfalso. rewrite firstn_app in H. replace (n - length A)%nat with 0%nat in H by lia. rewrite firstn_O, app_nil_r in H.
      pose proof (Mono (firstn n A) (skipn n A)). rewrite firstn_skipn in H0. lia.
  Qed.

  (** *** Choreographies: a global sequence of events that is itself possible
      with channels of capacity one. *)
  Definition ok_trace (G : list ev) : Prop :=
    forall G1 e G2, G = G1 ++ e :: G2 -> enabled (fun _ => 1%nat) G1 (snd e).
  Definition owned (G : list ev) : Prop := forall c, exists s r, owner_s G c s /\ owner_r G c r.
  Definition matched (G : list ev) : Prop := forall c, sends c G = recvs c G.

  Lemma firstn_prefix {X} (l : list X) n m : (n <= m)%nat -> exists r, firstn m l = firstn n l ++ r.
  Proof.
    intros H. exists (firstn (m - n) (skipn n l)). revert l m H. induction n; intros l m H.
    - cbn [firstn app skipn]. rewrite Nat.sub_0_r. reflexivity.
    - destruct m; [lia|]. destruct l; [cbn; rewrite firstn_nil; reflexivity|]. cbn. f_equal. apply IHn. lia.
  Qed.

  Lemma psends_mono c a b : (length (psends c a) <= length (psends c (a ++ b)))%nat.
  Proof. unfold psends. rewrite flat_map_app, app_length. lia. Qed.
  Lemma precvs_mono c a b : (length (precvs c a) <= length (precvs c (a ++ b)))%nat.
  Proof. unfold precvs. rewrite flat_map_app, app_length. lia. Qed.

  Lemma find_next (G tr : list ev) :
    (forall p, (length (proj p G) <= length (proj p tr))%nat) \/
    exists G1 p a G2, G = G1 ++ (p, a) :: G2 /\ length (proj p G1) = length (proj p tr) /\
      forall q, (length (proj q G1) <= length (proj q tr))%nat.
  Proof.
    induction G as [|[p a] G IH] using rev_ind; [left; intros; cbn; lia|].
    destruct IH as [IH|(G1 & q & b & G2 & -> & H)].
    - destruct (Nat.le_gt_cases (length (proj p (G ++ [(p, a)]))) (length (proj p tr))) as [Hle|Hgt].
      + left. intros q. destruct (Nat.eq_dec q p); [subst; exact Hle|].
        rewrite proj_app, app_length, proj_one.
        destruct (Nat.eqb_spec p q); [congruence|]. cbn [length]. rewrite Nat.add_0_r. apply IH.
      + right. exists G, p, a, []. split; [reflexivity|]. split; [|exact IH].
        specialize (IH p). rewrite proj_app, app_length, proj_one, Nat.eqb_refl in Hgt. cbn [length] in Hgt. lia.
    - right. exists G1, q, b, (G2 ++ [(p, a)]). rewrite <- app_assoc. auto.
  Qed.

  Lemma nth_proj (G1 G2 : list ev) p a : nth_error (proj p (G1 ++ (p, a) :: G2)) (length (proj p G1)) = Some a.
  Proof.
    rewrite proj_app. rewrite nth_error_app2, Nat.sub_diag by lia.
    unfold proj. cbn [filter fst]. rewrite Nat.eqb_refl. reflexivity.
  Qed.

  Lemma in_proj p a (G : list ev) : In a (proj p G) <-> In (p, a) G.
  Proof.
    unfold proj. rewrite in_map_iff. split.
    - intros ([q b] & E & H). apply filter_In in H as [H Q]. cbn in *. apply Nat.eqb_eq in Q. subst. exact H.
    - intros H. exists (p, a). split; [reflexivity|]. apply filter_In. split; [exact H|apply Nat.eqb_refl].
  Qed.

  Lemma owner_run cap G tr : run cap (fun p => proj p G) tr -> forall c s r, owner_s G c s -> owner_r G c r ->
    owner_s tr c s /\ owner_r tr c r.
  Proof.
    intros R c s r Os Or. split; intros q m H; apply (run_in_prog _ _ _ R) in H; apply in_proj in H; eauto.
  Qed.

  Theorem choreography_progress cap G tr : (forall c, (1 <= cap c)%nat) -> owned G -> ok_trace G ->
    run cap (fun p => proj p G) tr -> finished (fun p => proj p G) tr \/ exists e, run cap (fun p => proj p G) (tr ++ [e]).
  Proof.
    intros Hcap Own Ok R. destruct (find_next G tr) as [H|(G1 & p & a & G2 & EG & Hp & Hq)].
    - left. intros p. rewrite (run_prefix _ _ _ R p). apply firstn_all2. apply H.
    - right. exists (p, a).
      assert (Npre : forall q, exists r, proj q tr = proj q G1 ++ r).
      { intros q. rewrite (run_prefix _ _ _ R q). destruct (firstn_prefix (proj q G) _ _ (Hq q)) as [r Er].
        exists r. rewrite Er. f_equal. rewrite EG, proj_app. rewrite firstn_app, Nat.sub_diag, firstn_all, firstn_O, app_nil_r. reflexivity. }
      constructor; [exact R| |].
      + rewrite <- Hp, EG. apply nth_proj.
      + specialize (Ok G1 (p, a) G2 EG). cbn [snd] in Ok.
        assert (Hpp : proj p tr = proj p G1).
        { destruct (Npre p) as [r Er]. rewrite Er in Hp. rewrite app_length in Hp.
          destruct r; [rewrite Er; apply app_nil_r|cbn in Hp; lia]. }
        assert (OG1 : forall c s r, owner_s G c s -> owner_r G c r -> owner_s G1 c s /\ owner_r G1 c r).
        { intros c s r Os Or. split; intros q m Hin; [apply (Os q m)|apply (Or q m)]; rewrite EG; apply in_or_app; left; exact Hin. }
        destruct a as [c m|c m|l]; cbn in Ok |- *; [| |exact I].
        * destruct (Own c) as (s & r & Os & Or).
          assert (s = p) as -> by (symmetry; apply (Os p m); rewrite EG; apply in_elt).
          destruct (owner_run _ _ _ R c p r Os Or) as [Ts Tr]. destruct (OG1 c p r Os Or) as [Gs Gr].
          rewrite (sends_owner _ _ _ Ts), (recvs_owner _ _ _ Tr), Hpp.
          rewrite (sends_owner _ _ _ Gs), (recvs_owner _ _ _ Gr) in Ok.
          destruct (Npre r) as [x Ex]. rewrite Ex. pose proof (precvs_mono c (proj r G1) x). specialize (Hcap c). lia.
        * destruct (Own c) as (s & r & Os & Or).
          assert (r = p) as -> by (symmetry; apply (Or p m); rewrite EG; apply in_elt).
          destruct (owner_run _ _ _ R c s p Os Or) as [Ts Tr]. destruct (OG1 c s p Os Or) as [Gs Gr].
          rewrite (sends_owner _ _ _ Ts), (recvs_owner _ _ _ Tr), Hpp.
          rewrite (sends_owner _ _ _ Gs), (recvs_owner _ _ _ Gr) in Ok.
          destruct (Npre s) as [x Ex]. rewrite Ex. pose proof (psends_mono c (proj s G1) x). lia.
  Qed.

  (** The message a process reads is of the kind it expects. *)
  Theorem choreography_aligned cap G tr p c m : owned G -> matched G ->
    run cap (fun p => proj p G) (tr ++ [(p, Rcv c m)]) -> nth_error (sends c tr) (length (recvs c tr)) = Some m.
  Proof.
    intros Own Ma R'. inversion R' as [|tr0 p0 a0 R N E Eq]; [destruct tr; discriminate|].
    apply app_inj_tail in Eq as [-> Eq]. injection Eq as -> ->.
    destruct (Own c) as (s & r & Os & Or).
    assert (Hin : In (p, Rcv c m) G) by (apply in_proj; eapply nth_error_In; exact N).
    assert (r = p) as -> by (symmetry; eapply Or; exact Hin).
    destruct (owner_run _ _ _ R c s p Os Or) as [Ts Tr].
    destruct (owner_run _ _ _ R' c s p Os Or) as [_ Tr'].
    specialize (Ma c). rewrite (sends_owner _ _ _ Os), (recvs_owner _ _ _ Or) in Ma.
    cbn in E. rewrite (sends_owner _ _ _ Ts), (recvs_owner _ _ _ Tr) in *.
    pose proof (run_prefix _ _ _ R s) as Ps. pose proof (run_prefix _ _ _ R' p) as Pr.
    assert (Es : exists x, psends c (proj s G) = psends c (proj s tr) ++ x).
    { rewrite <- (firstn_skipn (length (proj s tr)) (proj s G)). unfold psends at 1. rewrite flat_map_app.
      rewrite <- Ps. eexists. reflexivity. }
    assert (Er : exists x, precvs c (proj p G) = precvs c (proj p tr) ++ m :: x).
    { rewrite <- (firstn_skipn (length (proj p (tr ++ [(p, Rcv c m)]))) (proj p G)). unfold precvs at 1. rewrite flat_map_app.
      rewrite <- Pr. rewrite proj_app, proj_one, Nat.eqb_refl.
      rewrite flat_map_app. cbn [flat_map]. replace (ceqb c c) with true by (symmetry; apply ceqb_spec; reflexivity).
      rewrite <- !app_assoc. eexists. reflexivity. }
    destruct Es as [x Ex], Er as [y Ey]. rewrite Ex, Ey in Ma.
    assert (nth_error (psends c (proj s tr) ++ x) (length (precvs c (proj p tr))) = Some m) as Hn.
    { rewrite Ma. rewrite nth_error_app2, Nat.sub_diag by lia. reflexivity. }
    rewrite nth_error_app1 in Hn by exact E. exact Hn.
  Qed.

  (** No interleaving is longer than the choreography. *)
  Lemma length_projs N (tr : list ev) : Forall (fun e => (fst e < N)%nat) tr ->
    length tr = list_sum (map (fun p => length (proj p tr)) (seq 0 N)).
  Proof.
    induction 1 as [|[p a] tr Hp F IH].
    - cbn. induction (seq 0 N); [reflexivity|]. cbn. exact IHl.
    - cbn [length]. rewrite IH. cbn in Hp. clear - Hp.
      replace N with (p + S (N - p - 1))%nat by lia. rewrite seq_app. cbn [Nat.add seq]. rewrite !map_app, !list_sum_app. cbn [map].
      assert (X : forall l, ~ In p l -> map (fun q => length (proj q ((p, a) :: tr))) l = map (fun q => length (proj q tr)) l).
      { intros l Hl. apply map_ext_in. intros q Hq. unfold proj. cbn [filter fst]. destruct (Nat.eqb_spec p q); [subst; contradiction|reflexivity]. }
      rewrite !X by (intros H; apply in_seq in H; lia).
      change (list_sum (?a :: ?l)) with (a + list_sum l)%nat.
      replace (length (proj p ((p, a) :: tr))) with (S (length (proj p tr))); [lia|].
      unfold proj. cbn [filter fst]. rewrite Nat.eqb_refl. reflexivity.
  Qed.

  Lemma run_bounded cap G tr N : Forall (fun e : ev => (fst e < N)%nat) G ->
    run cap (fun p => proj p G) tr -> (length tr <= length G)%nat.
  Proof.
    intros F R. rewrite (length_projs N G F), (length_projs N tr).
    - clear F. generalize (seq 0 N) as l. induction l; cbn [map]; [lia|].
      change (list_sum (?a :: ?l)) with (a + list_sum l)%nat.
      rewrite (run_prefix _ _ _ R a) at 1. rewrite firstn_length. lia.
    - rewrite Forall_forall in *. intros [p a] Hin. apply (run_in_prog _ _ _ R) in Hin. apply in_proj in Hin. exact (F _ Hin).
  Qed.

  (** *** Building blocks *)
  Definition balanced (T : list ev) : Prop := ok_trace T /\ matched T.

  Lemma balanced_nil : balanced [].
  Proof. split; [intros [|? ?] ? ? H; discriminate|intros c; reflexivity]. Qed.

  Lemma enabled_app cap A B a : matched A -> enabled cap B a -> enabled cap (A ++ B) a.
  Proof.
    intros Ma. destruct a as [c m|c m|l]; cbn; [| |auto]; rewrite sends_app, recvs_app, !app_length, (Ma c); lia.
  Qed.

  Lemma balanced_app A B : balanced A -> balanced B -> balanced (A ++ B).
  Proof.
    intros [OA MA] [OB MB]. split.
    - intros G1 e G2 H. apply app_eq_app in H as [l [[-> H]|[-> H]]].
      + destruct l as [|x l].
        * cbn in H. rewrite app_nil_r in *. rewrite <- (app_nil_r G1). apply enabled_app; [exact MA|].
          apply (OB [] e G2). symmetry. exact H.
        * cbn in H. injection H as -> ->. apply (OA G1 x l). reflexivity.
      + apply enabled_app; [exact MA|]. apply (OB l e G2). exact H.
    - intros c. rewrite sends_app, recvs_app, MA, MB. reflexivity.
  Qed.
  Lemma balanced_flat_map {X} (f : X -> list ev) l : (forall x, balanced (f x)) -> balanced (flat_map f l).
  Proof. intros H. induction l; [apply balanced_nil|]. cbn. apply balanced_app; auto. Qed.

  Lemma balanced_msg p q c m : balanced [(p, Snd c m); (q, Rcv c m)].
  Proof.
    assert (R : ceqb c c = true) by (apply ceqb_spec; reflexivity).
    split.
    - intros G1 e G2 H. destruct G1 as [|x [|y G1]]; cbn in H.
      + injection H as <- _. cbn. lia.
      + injection H as <- <- _. cbn. rewrite R. cbn. lia.
      + injection H as _ _ H. destruct G1; discriminate.
    - intros c'. cbn. destruct (ceqb c' c); reflexivity.
  Qed.
  Lemma balanced_loc p l : balanced [(p, Loc l)].
  Proof.
    split.
    - intros G1 e G2 H. destruct G1 as [|x G1]; cbn in H; [injection H as <- _; exact I|].
      injection H as _ H. destruct G1; discriminate.
    - intros c'. reflexivity.
  Qed.
End Generic.
