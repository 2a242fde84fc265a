(** The single-server deployment follows a choreography. *)
From Verif Require Import Base Net NetProofs.

Notation nev := (@ev chan kind stone).

Lemma chan_eqb_spec a b : chan_eqb a b = true <-> a = b.
Proof.
  destruct a, b; cbn; try (split; [discriminate|congruence]); rewrite Nat.eqb_eq; split; congruence.
Qed.

Definition g_conn (j : nat) : list nev :=
  [(S j, Snd (Lis j) KListen); (j, Rcv (Lis j) KListen); (j, Snd (Con j) KConnect); (S j, Rcv (Con j) KConnect)].
Definition g_fwd (m : kind) (n : nat) (j : nat) : list nev :=
  flat_map (fun _ => [(j, Snd (Fwd j) m); (S j, Rcv (Fwd j) m)]) (seq 0 n).
Definition g_bwd (m : kind) (n : nat) (j : nat) : list nev :=
  flat_map (fun _ => [(S j, Snd (Bwd j) m); (j, Rcv (Bwd j) m)]) (seq 0 n).
Definition g_locs (P : nat) (l : stone) : list nev := flat_map (fun k => [(S k, Loc l)]) (seq 0 (S P)).

Definition g_chain (P : nat) (z : sizes) (offline online : bool) : list nev :=
  flat_map g_conn (seq 0 (S P)) ++
  flat_map (g_fwd KCount 1) (seq 0 (S P)) ++
  g_locs P Allocated ++
  (if offline then flat_map (g_bwd KReady 1) (rev (seq 0 (S P))) ++
     flat_map (fun j => g_fwd KCipher (z_cipher z j) j) (seq 0 (S P)) else []) ++
  g_locs P OfflineDone ++
  flat_map (g_bwd KReady 1) (rev (seq 0 (S P))) ++
  (if online then flat_map (fun j => g_fwd KQuery (z_query z j) j) (seq 0 (S P)) ++
     flat_map (fun j => g_bwd KResponse (z_response z j) j) (rev (seq 0 (S P))) else []).

(** Events of a block stay on the two entities of its link. *)
Definition on_link (f : nat -> list nev) : Prop := forall j p a, In (p, a) (f j) -> p = j \/ p = S j.

Lemma proj_off p (l : list nev) : (forall a, ~ In (p, a) l) -> proj p l = [].
Proof.
  intros H. destruct (proj p l) as [|a t] eqn:E; [reflexivity|]. exfalso. apply (H a). apply in_proj. rewrite E. left. reflexivity.
Qed.

Definition back_part (f : nat -> list nev) (n p : nat) : list action :=
  if ((1 <=? p) && (p - 1 <? n))%nat then proj p (f (p - 1)%nat) else [].
Definition front_part (f : nat -> list nev) (n p : nat) : list action :=
  if (p <? n)%nat then proj p (f p) else [].

Lemma proj_links f n p : on_link f ->
  proj p (flat_map f (seq 0 n)) = back_part f n p ++ front_part f n p.
Proof.
  intros H. unfold back_part, front_part. induction n.
  - cbn [seq flat_map]. replace ((1 <=? p) && (p - 1 <? 0))%nat with false by lia. reflexivity.
  - rewrite seq_S, flat_map_app, proj_app, IHn. cbn [flat_map Nat.add]. rewrite app_nil_r.
    destruct (Nat.eq_dec p n) as [->|N1]; [|destruct (Nat.eq_dec p (S n)) as [->|N2]].
    + replace (n - 1 <? n)%nat with (1 <=? n)%nat by lia. replace (n - 1 <? S n)%nat with true by lia.
      replace (n <? n)%nat with false by lia. replace (n <? S n)%nat with true by lia.
      rewrite andb_diag, andb_true_r, app_nil_r. reflexivity.
    + replace ((1 <=? S n) && (S n - 1 <? n))%nat with false by lia. replace (S n <? n)%nat with false by lia.
      replace ((1 <=? S n) && (S n - 1 <? S n))%nat with true by lia. replace (S n <? S n)%nat with false by lia.
      replace (S n - 1)%nat with n by lia. rewrite ?app_nil_r. reflexivity.
    + rewrite (proj_off p (f n)) by (intros a Ha; apply H in Ha; lia). rewrite app_nil_r.
      replace (p - 1 <? S n)%nat with (p - 1 <? n)%nat by lia. replace (p <? S n)%nat with (p <? n)%nat by lia. reflexivity.
Qed.
Lemma proj_links_rev f n p : on_link f ->
  proj p (flat_map f (rev (seq 0 n))) = front_part f n p ++ back_part f n p.
Proof.
  intros H. unfold back_part, front_part. induction n.
  - cbn [seq flat_map rev]. replace ((1 <=? p) && (p - 1 <? 0))%nat with false by lia. reflexivity.
  - rewrite seq_S, rev_app_distr. cbn [rev app flat_map Nat.add]. rewrite proj_app, IHn.
    destruct (Nat.eq_dec p n) as [->|N1]; [|destruct (Nat.eq_dec p (S n)) as [->|N2]].
    + replace (n - 1 <? n)%nat with (1 <=? n)%nat by lia. replace (n - 1 <? S n)%nat with true by lia.
      replace (n <? n)%nat with false by lia. replace (n <? S n)%nat with true by lia.
      rewrite andb_diag, andb_true_r. reflexivity.
    + replace ((1 <=? S n) && (S n - 1 <? n))%nat with false by lia. replace (S n <? n)%nat with false by lia.
      replace ((1 <=? S n) && (S n - 1 <? S n))%nat with true by lia. replace (S n <? S n)%nat with false by lia.
      replace (S n - 1)%nat with n by lia. rewrite !app_nil_r. reflexivity.
    + rewrite (proj_off p (f n)) by (intros a Ha; apply H in Ha; lia). cbn [app].
      replace (p - 1 <? S n)%nat with (p - 1 <? n)%nat by lia. replace (p <? S n)%nat with (p <? n)%nat by lia. reflexivity.
Qed.

Lemma on_conn : on_link g_conn.
Proof. intros j p a H. cbn in H. intuition congruence. Qed.
Lemma on_fwd m n : on_link (fun j => g_fwd m (n j) j).
Proof. intros j p a H. apply in_flat_map in H as (x & _ & H). cbn in H. intuition congruence. Qed.
Lemma on_bwd m n : on_link (fun j => g_bwd m (n j) j).
Proof. intros j p a H. apply in_flat_map in H as (x & _ & H). cbn in H. intuition congruence. Qed.

Lemma proj_fwd m n j p : proj p (g_fwd m n j) =
  if (p =? j)%nat then repeat (Snd (Fwd j) m) n else if (p =? S j)%nat then repeat (Rcv (Fwd j) m) n else [].
Proof.
  unfold g_fwd. generalize 0%nat. induction n; intros s; [cbn [seq flat_map repeat]; destruct (p =? j)%nat, (p =? S j)%nat; reflexivity|].
  change (flat_map ?f (seq ?s (S ?n))) with (@app nev (f s) (flat_map f (seq (S s) n))). cbv beta.
  rewrite proj_app, IHn, !proj_cons.
    destruct (Nat.eqb_spec j p), (Nat.eqb_spec (S j) p), (Nat.eqb_spec p j), (Nat.eqb_spec p (S j)); try lia; reflexivity.
Qed.
Lemma proj_bwd m n j p : proj p (g_bwd m n j) =
  if (p =? S j)%nat then repeat (Snd (Bwd j) m) n else if (p =? j)%nat then repeat (Rcv (Bwd j) m) n else [].
Proof.
  unfold g_bwd. generalize 0%nat. induction n; intros s; [cbn [seq flat_map repeat]; destruct (p =? j)%nat, (p =? S j)%nat; reflexivity|].
  change (flat_map ?f (seq ?s (S ?n))) with (@app nev (f s) (flat_map f (seq (S s) n))). cbv beta.
  rewrite proj_app, IHn, !proj_cons.
    destruct (Nat.eqb_spec j p), (Nat.eqb_spec (S j) p), (Nat.eqb_spec p j), (Nat.eqb_spec p (S j)); try lia; reflexivity.
Qed.
Lemma proj_conn j p : proj p (g_conn j) =
  if (p =? j)%nat then connect_to j else if (p =? S j)%nat then listen_on j else [].
Proof.
  unfold proj, g_conn, connect_to, listen_on. cbn [filter fst].
  destruct (Nat.eqb_spec j p), (Nat.eqb_spec (S j) p), (Nat.eqb_spec p j), (Nat.eqb_spec p (S j)); try lia; reflexivity.
Qed.
Lemma proj_locs P l p : proj p (g_locs P l) = if ((1 <=? p) && (p <=? S P))%nat then [Loc l] else [].
Proof.
  unfold g_locs. rewrite proj_links.
  2:{ intros j q a H. cbn in H. intuition congruence. }
  unfold back_part, front_part. replace (p - 1 <? S P)%nat with (p <=? S P)%nat by lia.
  replace (proj p [(S p, Loc l)]) with (@nil action).
  2:{ rewrite proj_one. destruct (Nat.eqb_spec (S p) p); [lia|reflexivity]. }
  replace (if (p <? S P)%nat then [] else @nil action) with (@nil action) by (destruct (p <? S P)%nat; reflexivity).
  rewrite app_nil_r. destruct ((1 <=? p) && (p <=? S P))%nat eqn:E; [|reflexivity].
  rewrite proj_one. destruct (Nat.eqb_spec (S (p - 1)) p); [reflexivity|lia].
Qed.

Lemma chain_proj P z offline online p : proj p (g_chain P z offline online) = deployment_prog P z offline online p.
Proof.
  unfold g_chain. rewrite !proj_app, !proj_locs.
  rewrite (proj_links g_conn) by apply on_conn.
  rewrite (proj_links (g_fwd KCount 1)) by apply (on_fwd KCount (fun _ => 1%nat)).
  rewrite (proj_links_rev (g_bwd KReady 1)) by apply (on_bwd KReady (fun _ => 1%nat)).
  assert (E1 : proj p (if offline then flat_map (g_bwd KReady 1) (rev (seq 0 (S P))) ++
     flat_map (fun j => g_fwd KCipher (z_cipher z j) j) (seq 0 (S P)) else []) =
     if offline then (front_part (g_bwd KReady 1) (S P) p ++ back_part (g_bwd KReady 1) (S P) p) ++
        back_part (fun j => g_fwd KCipher (z_cipher z j) j) (S P) p ++ front_part (fun j => g_fwd KCipher (z_cipher z j) j) (S P) p
     else []).
  { destruct offline; [|reflexivity]. rewrite proj_app, proj_links_rev, proj_links; [reflexivity|apply on_fwd|apply (on_bwd KReady (fun _ => 1%nat))]. }
  assert (E2 : proj p (if online then flat_map (fun j => g_fwd KQuery (z_query z j) j) (seq 0 (S P)) ++
     flat_map (fun j => g_bwd KResponse (z_response z j) j) (rev (seq 0 (S P))) else []) =
     if online then (back_part (fun j => g_fwd KQuery (z_query z j) j) (S P) p ++ front_part (fun j => g_fwd KQuery (z_query z j) j) (S P) p) ++
        front_part (fun j => g_bwd KResponse (z_response z j) j) (S P) p ++ back_part (fun j => g_bwd KResponse (z_response z j) j) (S P) p
     else []).
  { destruct online; [|reflexivity]. rewrite proj_app, proj_links_rev, proj_links; [reflexivity|apply on_fwd|apply on_bwd]. }
  rewrite E1, E2. clear E1 E2. unfold back_part, front_part. rewrite !proj_conn, !proj_fwd, !proj_bwd.
  unfold deployment_prog.
  assert (p = 0 \/ (1 <= p <= P) \/ p = S P \/ S P < p)%nat as [->|[Hp|[->|Hp]]] by lia.
  - cbn [Nat.eqb Nat.leb andb Nat.ltb Nat.sub]. unfold client_prog. destruct offline, online; cbn [app repeat]; rewrite <- ?app_assoc, ?app_nil_r; cbn [app]; reflexivity.
  - replace (p =? 0)%nat with false by lia. replace (p <=? P)%nat with true by lia.
    replace ((1 <=? p) && (p - 1 <? S P))%nat with true by lia. replace (p <? S P)%nat with true by lia.
    replace ((1 <=? p) && (p <=? S P))%nat with true by lia. rewrite !Nat.eqb_refl.
    replace (p =? p - 1)%nat with false by lia. replace (p =? S (p - 1))%nat with true by lia.
    replace (p =? S p)%nat with false by lia.
    unfold party_prog. destruct offline, online; cbn [app repeat]; rewrite <- ?app_assoc, ?app_nil_r; cbn [app]; reflexivity.
  - replace (S P =? 0)%nat with false by lia. replace (S P <=? P)%nat with false by lia. rewrite !Nat.eqb_refl.
    replace ((1 <=? S P) && (S P - 1 <? S P))%nat with true by lia. replace (S P <? S P)%nat with false by lia.
    replace ((1 <=? S P) && (S P <=? S P))%nat with true by lia.
    replace (S P =? S P - 1)%nat with false by lia. replace (S P =? S (S P - 1))%nat with true by lia.
    unfold backend_prog. destruct offline, online; cbn [app repeat]; rewrite <- ?app_assoc, ?app_nil_r; cbn [app]; reflexivity.
  - replace (p =? 0)%nat with false by lia. replace (p <=? P)%nat with false by lia. replace (p =? S P)%nat with false by lia.
    replace ((1 <=? p) && (p - 1 <? S P))%nat with false by lia. replace (p <? S P)%nat with false by lia.
    replace ((1 <=? p) && (p <=? S P))%nat with false by lia. destruct offline, online; reflexivity.
Qed.

(** The choreography is well formed. *)
Lemma balanced_conn j : balanced chan_eqb (g_conn j).
Proof.
  apply (balanced_app chan_eqb chan_eqb_spec [_; _] [_; _]); apply balanced_msg; apply chan_eqb_spec.
Qed.
Lemma balanced_fwd m n j : balanced chan_eqb (g_fwd m n j).
Proof. apply (balanced_flat_map chan_eqb chan_eqb_spec). intros _. apply balanced_msg. apply chan_eqb_spec. Qed.
Lemma balanced_bwd m n j : balanced chan_eqb (g_bwd m n j).
Proof. apply (balanced_flat_map chan_eqb chan_eqb_spec). intros _. apply balanced_msg. apply chan_eqb_spec. Qed.

Lemma chain_balanced P z offline online : balanced chan_eqb (g_chain P z offline online).
Proof.
  unfold g_chain, g_locs.
  pose proof (fun A B => balanced_app (M := kind) (L := stone) chan_eqb chan_eqb_spec A B) as BA.
  pose proof (fun f l => balanced_flat_map (M := kind) (L := stone) chan_eqb chan_eqb_spec (X := nat) f l) as BF.
  apply BA; [apply BF, balanced_conn|].
  apply BA; [apply BF; intros; apply balanced_fwd|].
  apply BA; [apply BF; intros; apply balanced_loc|].
  apply BA; [destruct offline; [|apply balanced_nil]; apply BA; apply BF; intros; [apply balanced_bwd|apply balanced_fwd]|].
  apply BA; [apply BF; intros; apply balanced_loc|].
  apply BA; [apply BF; intros; apply balanced_bwd|].
  destruct online; [|apply balanced_nil]. apply BA; apply BF; intros; [apply balanced_fwd|apply balanced_bwd].
Qed.

Definition well_owned (e : nev) : Prop :=
  match snd e with Snd c _ => fst e = sender c | Rcv c _ => fst e = receiver c | Loc _ => True end.

Lemma chain_owned_events P z offline online : Forall well_owned (g_chain P z offline online) /\
  Forall (fun e => (fst e < S (S P))%nat) (g_chain P z offline online).
Proof.
  assert (FM : forall (Q : nev -> Prop) f (l : list nat), (forall j, In j l -> Forall Q (f j)) -> Forall Q (flat_map f l)).
  { intros Q f l H. rewrite Forall_forall. intros e He. apply in_flat_map in He as (x & Hx & He).
    specialize (H x Hx). rewrite Forall_forall in H. auto. }
  assert (A : forall (Q : nev -> Prop), (forall j, (j < S P)%nat -> Forall Q (g_conn j)) ->
    (forall m n j, (j < S P)%nat -> Forall Q (g_fwd m n j)) -> (forall m n j, (j < S P)%nat -> Forall Q (g_bwd m n j)) ->
    (forall l j, (j < S P)%nat -> Q (S j, Loc l)) -> Forall Q (g_chain P z offline online)).
  { intros Q H1 H2 H3 H4. unfold g_chain.
    assert (In1 : forall j, In j (seq 0 (S P)) -> (j < S P)%nat) by (intros j Hj; apply in_seq in Hj; lia).
    assert (In2 : forall j, In j (rev (seq 0 (S P))) -> (j < S P)%nat) by (intros j Hj; apply in_rev in Hj; auto).
    apply Forall_app; split; [apply FM; intros; apply H1; auto|].
    apply Forall_app; split; [apply FM; intros; apply H2; auto|].
    apply Forall_app; split; [apply FM; intros; constructor; [apply H4; auto|constructor]|].
    apply Forall_app; split.
    { destruct offline; [|constructor]. apply Forall_app; split; apply FM; intros; [apply H3|apply H2]; auto. }
    apply Forall_app; split; [apply FM; intros; constructor; [apply H4; auto|constructor]|].
    apply Forall_app; split; [apply FM; intros; apply H3; auto|].
    destruct online; [|constructor]. apply Forall_app; split; apply FM; intros; [apply H2|apply H3]; auto. }
  split; apply A.
  - intros j _. repeat constructor.
  - intros m n j _. apply FM. intros i _. repeat constructor.
  - intros m n j _. apply FM. intros i _. repeat constructor.
  - intros l j _. exact I.
  - intros j Hj. repeat (apply Forall_cons; [cbn; lia|]); apply Forall_nil.
  - intros m n j Hj. apply FM. intros i _. repeat (apply Forall_cons; [cbn; lia|]); apply Forall_nil.
  - intros m n j Hj. apply FM. intros i _. repeat (apply Forall_cons; [cbn; lia|]); apply Forall_nil.
  - intros l j Hj. cbn. lia.
Qed.

Lemma chain_owner P z offline online c :
  owner_s (g_chain P z offline online) c (sender c) /\ owner_r (g_chain P z offline online) c (receiver c).
Proof.
  destruct (chain_owned_events P z offline online) as [F _]. rewrite Forall_forall in F.
  split; intros q m Hin; exact (F _ Hin).
Qed.
Lemma chain_owned P z offline online : owned (g_chain P z offline online).
Proof. intros c. exists (sender c), (receiver c). apply chain_owner. Qed.

Lemma run_ext {Ch M L} (ceqb : Ch -> Ch -> bool) cap (prog prog' : nat -> list (act Ch M L)) tr :
  (forall p, prog p = prog' p) -> run ceqb cap prog tr -> run ceqb cap prog' tr.
Proof. intros E. induction 1 as [|tr p a R IH N En]; [constructor|]. constructor; auto. rewrite <- E. exact N. Qed.

Lemma chain_run P z offline online cap tr : run chan_eqb cap (deployment_prog P z offline online) tr <->
  run chan_eqb cap (fun p => proj p (g_chain P z offline online)) tr.
Proof. split; apply run_ext; intros p; [symmetry|]; apply chain_proj. Qed.

Lemma chain_sends P z offline online cap tr c : run chan_eqb cap (deployment_prog P z offline online) tr ->
  sends chan_eqb c tr = psends chan_eqb c (proj (sender c) tr) /\
  recvs chan_eqb c tr = precvs chan_eqb c (proj (receiver c) tr).
Proof.
  intros R. apply chain_run in R. destruct (chain_owner P z offline online c) as [Os Or].
  destruct (owner_run chan_eqb cap _ _ R c _ _ Os Or) as [Ts Tr].
  split; [apply sends_owner|apply recvs_owner]; auto; apply chan_eqb_spec.
Qed.

(** ** Readiness *)

Lemma psends_repeat c (a : action) n : psends chan_eqb c (repeat a n) = match a with Snd c' m => if chan_eqb c c' then repeat m n else [] | _ => [] end.
Proof.
  induction n; [destruct a; try reflexivity; cbn; destruct (chan_eqb _ _); reflexivity|].
  unfold psends in *. cbn [repeat flat_map]. rewrite IHn. destruct a; try reflexivity. destruct (chan_eqb _ _); reflexivity.
Qed.
Lemma precvs_repeat c (a : action) n : precvs chan_eqb c (repeat a n) = match a with Rcv c' m => if chan_eqb c c' then repeat m n else [] | _ => [] end.
Proof.
  induction n; [destruct a; try reflexivity; cbn; destruct (chan_eqb _ _); reflexivity|].
  unfold precvs in *. cbn [repeat flat_map]. rewrite IHn. destruct a; try reflexivity. destruct (chan_eqb _ _); reflexivity.
Qed.
Lemma psends_app c (a b : list action) : psends chan_eqb c (a ++ b) = psends chan_eqb c a ++ psends chan_eqb c b.
Proof. apply flat_map_app. Qed.
Lemma precvs_app c (a b : list action) : precvs chan_eqb c (a ++ b) = precvs chan_eqb c a ++ precvs chan_eqb c b.
Proof. apply flat_map_app. Qed.

(** What an entity has done once it has sent q+1 messages backwards, where q is
    the number of ready messages before the milestone. *)
Lemma milestone P z offline online cap tr (q : nat) (l : stone) :
  run chan_eqb cap (deployment_prog P z offline online) tr ->
  (forall k, (1 <= k <= S P)%nat -> exists A B, deployment_prog P z offline online k = A ++ B /\ In (Loc l) A /\
     length (psends chan_eqb (Bwd (k - 1)) A) = q /\ ((k <= P)%nat -> length (precvs chan_eqb (Bwd k) A) = S q)) ->
  (S q <= length (recvs chan_eqb (Bwd 0) tr))%nat ->
  forall k, (1 <= k <= S P)%nat -> In (k, Loc l) tr.
Proof.
  intros R HA H0.
  assert (St : forall k, (1 <= k <= S P)%nat -> (S q <= length (recvs chan_eqb (Bwd (k - 1)) tr))%nat ->
     In (k, Loc l) tr /\ ((k <= P)%nat -> (S q <= length (recvs chan_eqb (Bwd k) tr))%nat)).
  { intros k Hk Hr. destruct (HA k Hk) as (A & B & EA & Hl & Hs & Hv).
    pose proof (run_le chan_eqb chan_eqb_spec _ _ _ R (Bwd (k - 1))) as Hle.
    destruct (chain_sends P z offline online cap tr (Bwd (k - 1)) R) as [Es _]. cbn [sender] in Es.
    replace (S (k - 1)) with k in Es by lia.
    pose proof (run_prefix chan_eqb _ _ _ R k) as Pre.
    destruct (prefix_past (fun x => length (psends chan_eqb (Bwd (k - 1)) x)) (deployment_prog P z offline online k) A B
                (length (proj k tr))) as [r Er].
    - intros a b. apply (psends_mono chan_eqb chan_eqb_spec).
    - exact EA.
    - rewrite <- Pre, <- Es. lia.
    - rewrite <- Pre in Er. split.
      + apply in_proj. rewrite Er. apply in_or_app. left. exact Hl.
      + intros HkP. destruct (chain_sends P z offline online cap tr (Bwd k) R) as [_ Erc]. cbn [receiver] in Erc.
        rewrite Erc, Er, precvs_app, app_length, Hv by exact HkP. lia. }
  assert (All : forall k, (1 <= k <= S P)%nat -> (S q <= length (recvs chan_eqb (Bwd (k - 1)) tr))%nat).
  { induction k as [|k IH]; intros Hk; [lia|]. replace (S k - 1)%nat with k by lia. destruct k; [exact H0|].
    apply (St (S k)); [lia| |lia]. apply IH. lia. }
  intros k Hk. apply St; auto.
Qed.

Ltac count_simpl :=
  rewrite ?psends_app, ?precvs_app, ?app_length, ?psends_repeat, ?precvs_repeat; cbn [psends precvs flat_map chan_eqb app length];
  rewrite ?Nat.eqb_refl; cbn [app length].

(** First milestone when the offline stage is executed: everything allocated. *)
Lemma alloc_split P z online k : (1 <= k <= S P)%nat ->
  exists A B, deployment_prog P z true online k = A ++ B /\ In (Loc Allocated) A /\
     length (psends chan_eqb (Bwd (k - 1)) A) = 0%nat /\ ((k <= P)%nat -> length (precvs chan_eqb (Bwd k) A) = 1%nat).
Proof.
  intros Hk. unfold deployment_prog. replace (k =? 0)%nat with false by lia.
  destruct (k <=? P)%nat eqn:E.
  - unfold party_prog. exists (listen_on (k - 1) ++ connect_to k ++ [Rcv (Fwd (k - 1)) KCount; Snd (Fwd k) KCount; Loc Allocated; Rcv (Bwd k) KReady]).
    eexists. split; [cbn [app listen_on connect_to]; reflexivity|]. split; [cbn; tauto|]. split; [reflexivity|].
    intros _. cbn. rewrite Nat.eqb_refl. reflexivity.
  - replace (k =? S P)%nat with true by lia. unfold backend_prog.
    exists (listen_on (k - 1) ++ [Rcv (Fwd (k - 1)) KCount; Loc Allocated]).
    eexists. split; [cbn [app listen_on]; reflexivity|]. split; [cbn; tauto|]. split; [reflexivity|]. lia.
Qed.

Lemma done_split P z offline online k : (1 <= k <= S P)%nat ->
  exists A B, deployment_prog P z offline online k = A ++ B /\ In (Loc OfflineDone) A /\
     length (psends chan_eqb (Bwd (k - 1)) A) = (if offline then 1 else 0)%nat /\
     ((k <= P)%nat -> length (precvs chan_eqb (Bwd k) A) = S (if offline then 1 else 0)%nat).
Proof.
  intros Hk. unfold deployment_prog. replace (k =? 0)%nat with false by lia.
  destruct (k <=? P)%nat eqn:E.
  - unfold party_prog.
    exists (listen_on (k - 1) ++ connect_to k ++ [Rcv (Fwd (k - 1)) KCount; Snd (Fwd k) KCount; Loc Allocated] ++
      (if offline then [Rcv (Bwd k) KReady; Snd (Bwd (k - 1)) KReady] ++
         repeat (Rcv (Fwd (k - 1)) KCipher) (z_cipher z (k - 1)) ++ repeat (Snd (Fwd k) KCipher) (z_cipher z k) else []) ++
      [Loc OfflineDone; Rcv (Bwd k) KReady]).
    eexists. split; [rewrite <- !app_assoc; cbn [app]; reflexivity|].
    split; [rewrite !in_app_iff; cbn; tauto|].
    destruct offline; count_simpl; split; intros; try reflexivity.
  - replace (k =? S P)%nat with true by lia. unfold backend_prog.
    exists (listen_on (k - 1) ++ [Rcv (Fwd (k - 1)) KCount; Loc Allocated] ++
      (if offline then Snd (Bwd (k - 1)) KReady :: repeat (Rcv (Fwd (k - 1)) KCipher) (z_cipher z (k - 1)) else []) ++ [Loc OfflineDone]).
    eexists. split; [rewrite <- !app_assoc; cbn [app]; reflexivity|].
    split; [rewrite !in_app_iff; cbn; tauto|]. split; [|lia].
    destruct offline; [|reflexivity].
    change (Snd (Bwd (k - 1)) KReady :: ?l) with ([Snd (Bwd (k - 1)) KReady] ++ l). count_simpl. reflexivity.
Qed.

(** The client has received q ready messages before the k-th unit it sends. *)
Lemma client_before P z offline online cap tr A B a :
  run chan_eqb cap (deployment_prog P z offline online) (tr ++ [(0%nat, a)]) ->
  deployment_prog P z offline online 0 = A ++ B -> ~ In a A ->
  (length (precvs chan_eqb (Bwd 0) A) <= length (recvs chan_eqb (Bwd 0) tr))%nat.
Proof.
  intros R E Hn. inversion R as [|tr0 p0 a0 R0 N En Eq]; [destruct tr; discriminate|].
  apply app_inj_tail in Eq as [-> Eq]. injection Eq as -> ->.
  pose proof (run_prefix chan_eqb _ _ _ R0 0%nat) as Pre.
  destruct (Nat.le_gt_cases (length A) (length (proj 0 tr))) as [Hle|Hgt].
  - destruct (chain_sends P z offline online cap tr (Bwd 0) R0) as [_ ->]. cbn [receiver].
    rewrite Pre, E, firstn_app, firstn_all2 by exact Hle. rewrite precvs_app, app_length. lia.
  - exfalso. rewrite E, nth_error_app1 in N by exact Hgt. apply nth_error_In in N. contradiction.
Qed.
