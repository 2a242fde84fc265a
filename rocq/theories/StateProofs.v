(** ClientState, PartyState, BackendState and Database. *)
From Verif Require Import Base BaseProofs Incremental Wire State Database Spec.

(** ** ClientState *)
Definition st_tag (x : Z * list ishare * list Z) := fst (fst x).
Definition st_incs (x : Z * list ishare * list Z) := snd (fst x).
Definition st_mask (x : Z * list ishare * list Z) := snd x.

Lemma repeat_snoc_upd {A B} (f : A -> B) (done : list A) (x : A) d m :
  upd (map f done ++ repeat d (S m)) (length done) (f x) = map f (done ++ [x]) ++ repeat d m.
Proof.
  induction done as [|y done IH]; cbn; [reflexivity|]. f_equal. exact IH.
Qed.

Lemma setz_at {A} (l : list A) n a : (n < length l)%nat -> setz l (Z.of_nat n) a = Ok (upd l n a).
Proof. intros H. unfold setz, set_. rewrite Nat2Z.id. apply Nat.ltb_lt in H. rewrite H. reflexivity. Qed.

Definition cs_at (c : cstate) (done : list (Z * list ishare * list Z)) (room : nat) : Prop :=
  cs_sim c = false /\ cs_w c = Z.of_nat (length done) /\ cs_r c = 0 /\
  cs_tags c = Some (map st_tag done ++ repeat 0 room) /\
  cs_incs c = Some (map st_incs done ++ repeat [] room) /\
  cs_pre c = Some (map st_mask done ++ repeat (repeat 0 PRESHARE_SIZE) room).

Lemma store_all_spec l : forall c done room, cs_at c done (length l + room) ->
  Z.of_nat (length done + length l) < 2 ^ 32 ->
  exists c', store_all c l = Ok c' /\ cs_at c' (done ++ l) room.
Proof.
  induction l as [|x l IH]; intros c done room H Hb.
  - exists c. rewrite app_nil_r. auto.
  - destruct H as (H1 & H2 & H3 & H4 & H5 & H6). unfold store_all. cbn [fold_res].
    unfold cs_add. rewrite H4, H5, H6, H2. cbn [ptr bind length] in *.
    cbn [Nat.add].
    rewrite setz_at by (rewrite app_length, map_length, repeat_length; lia). cbn [bind].
    rewrite setz_at by (rewrite app_length, map_length, repeat_length; lia). cbn [bind].
    rewrite setz_at by (rewrite app_length, map_length, repeat_length; lia). cbn [bind].
    change (fst (fst x)) with (st_tag x). change (snd (fst x)) with (st_incs x). change (snd x) with (st_mask x).
    rewrite !(repeat_snoc_upd _ done x).
    destruct (IH {| cs_sim := cs_sim c; cs_w := w32 (Z.of_nat (length done) + 1); cs_r := cs_r c; cs_size := cs_size c;
        cs_tags := Some (map st_tag (done ++ [x]) ++ repeat 0 (length l + room));
        cs_incs := Some (map st_incs (done ++ [x]) ++ repeat [] (length l + room));
        cs_pre := Some (map st_mask (done ++ [x]) ++ repeat (repeat 0 PRESHARE_SIZE) (length l + room)) |}
        (done ++ [x]) room) as (c' & E & R).
    + unfold cs_at; cbn. rewrite app_length. cbn [length]. repeat split; auto.
      rewrite w32_id; [lia|]. unfold u32. lia.
    + rewrite app_length. cbn [length]. lia.
    + exists c'. split; [exact E|]. rewrite <- app_assoc in R. exact R.
Qed.

Lemma load_times_spec n c : exists r, load_times n c =
  {| cs_sim := cs_sim c; cs_w := cs_w c; cs_r := r; cs_size := cs_size c;
     cs_tags := cs_tags c; cs_incs := cs_incs c; cs_pre := cs_pre c |} /\
  ((n = 0)%nat -> r = cs_r c) /\ ((0 < n)%nat -> r = w32 (cs_r c + Z.of_nat n)).
Proof.
  induction n as [|n (r & E & R0 & R)].
  - exists (cs_r c). destruct c; cbn. repeat split; lia.
  - change (load_times (S n) c) with (cs_load_next (load_times n c)). rewrite E. unfold cs_load_next; cbn.
    eexists; split; [reflexivity|]. split; [lia|]. intros _.
    destruct n.
    + rewrite R0 by lia. f_equal.
    + rewrite R by lia. unfold w32. rewrite Zplus_mod_idemp_l. f_equal. lia.
Qed.

Lemma nth_map_some {A B} (f : A -> B) l i x : nth_error l i = Some x -> nth_error (map f l) i = Some (f x).
Proof. intros H. rewrite nth_error_map, H. reflexivity. Qed.

Lemma cs_init_at {A} c pc (l : list A) :
  exists c0, cs_initialize c pc (Z.of_nat (length l)) false false = Ok c0 /\ cs_at c0 [] (length l + 0).
Proof.
  unfold cs_initialize. eexists; split; [reflexivity|]. rewrite Nat.add_0_r, Nat2Z.id.
  unfold cs_at; cbn. auto 10.
Qed.

Lemma getz_nth {A} (l : list A) i x : nth_error l (Z.to_nat i) = Some x -> getz l i = Ok x.
Proof. intros H. unfold getz, get. rewrite H. reflexivity. Qed.
Lemma getz_out {A} (l : list A) i : Z.of_nat (length l) <= i -> getz l i = UB.
Proof.
  intros H. unfold getz, get. destruct (nth_error l (Z.to_nat i)) eqn:E; [|reflexivity].
  assert (nth_error l (Z.to_nat i) <> None) by congruence. apply nth_error_Some in H0. lia.
Qed.

Lemma c37 c pc l : Z.of_nat (length l) < 2 ^ 32 ->
  exists c0 c1, cs_initialize c pc (Z.of_nat (length l)) false false = Ok c0 /\
    store_all c0 l = Ok c1 /\
    (forall i tag incs mask, nth_error l i = Some (tag, incs, mask) ->
       cs_get_tag (load_times (S i) c1) = Ok tag /\
       cs_get_incs (load_times (S i) c1) = Ok incs /\
       forall m, cs_get_pre (load_times (S i) (cs_finish (load_times m c1))) = Ok mask) /\
    (forall n, (n = 0)%nat \/ Z.of_nat (length l) < Z.of_nat n <= 2 ^ 32 ->
       cs_get_tag (load_times n c1) = UB /\ cs_get_incs (load_times n c1) = UB /\
       forall m, cs_get_pre (load_times n (cs_finish (load_times m c1))) = UB) /\
    (forall x, store_all c1 [x] = UB).
Proof.
  intros Hb. destruct (cs_init_at c pc l) as (c0 & E0 & A0).
  destruct (store_all_spec l c0 [] 0 A0 ltac:(cbn; lia)) as (c1 & E1 & A1).
  exists c0, c1. split; [exact E0|]. split; [exact E1|]. cbn [app] in A1.
  destruct A1 as (H1 & H2 & H3 & H4 & H5 & H6). cbn [repeat] in *. rewrite app_nil_r in *.
  assert (Fin : forall n m, exists r, load_times n (cs_finish (load_times m c1)) =
     {| cs_sim := false; cs_w := cs_w c1; cs_r := r; cs_size := cs_size c1;
        cs_tags := None; cs_incs := None; cs_pre := cs_pre c1 |} /\
     ((n = 0)%nat -> r = 0) /\ ((0 < n)%nat -> r = w32 (Z.of_nat n))).
  { intros n m. destruct (load_times_spec m c1) as (rm & Em & _ & _). rewrite Em.
    destruct (load_times_spec n (cs_finish {| cs_sim := cs_sim c1; cs_w := cs_w c1; cs_r := rm; cs_size := cs_size c1;
        cs_tags := cs_tags c1; cs_incs := cs_incs c1; cs_pre := cs_pre c1 |})) as (r & E & R0 & R).
    exists r. rewrite E. cbn in *. rewrite H1. auto. }
  split; [|split].
  - intros i tag incs mask N.
    assert (Hi : (i < length l)%nat) by (apply nth_error_Some; congruence).
    destruct (load_times_spec (S i) c1) as (r & E & _ & R). rewrite E, R by lia. rewrite H3.
    assert (Ei : w32 (w32 (0 + Z.of_nat (S i)) - 1) = Z.of_nat i).
    { rewrite (w32_id (0 + _)) by (unfold u32; lia). rewrite w32_id by (unfold u32; lia). lia. }
    unfold cs_get_tag, cs_get_incs, cs_cur; cbn [cs_sim cs_r cs_tags cs_incs]. rewrite H1, H4, H5, Ei. cbn [ptr bind].
    split; [|split].
    + apply getz_nth. rewrite Nat2Z.id. exact (nth_map_some st_tag _ _ _ N).
    + apply getz_nth. rewrite Nat2Z.id. exact (nth_map_some st_incs _ _ _ N).
    + intros m. destruct (Fin (S i) m) as (r' & E' & _ & R'). rewrite E', R' by lia.
      unfold cs_get_pre, cs_cur; cbn [cs_sim cs_r cs_pre]. rewrite H6. cbn [ptr bind].
      change (Z.of_nat (S i)) with (0 + Z.of_nat (S i)) at 1. rewrite Ei.
      apply getz_nth. rewrite Nat2Z.id. exact (nth_map_some st_mask _ _ _ N).
  - intros n Hn.
    assert (Ei : forall r, ((n = 0)%nat -> r = 0) -> ((0 < n)%nat -> r = w32 (Z.of_nat n)) -> Z.of_nat (length l) <= w32 (r - 1)).
    { intros r R0 R. destruct Hn as [Hn|Hn].
      - rewrite R0 by exact Hn. change (w32 (0 - 1)) with 4294967295. lia.
      - rewrite R by lia. unfold w32. rewrite Zminus_mod_idemp_l. rewrite Z.mod_small by lia. lia. }
    destruct (load_times_spec n c1) as (r & E & R0 & R). rewrite H3 in *. cbn [Z.add] in R.
    specialize (Ei r R0 R) as Ei1.
    rewrite E. unfold cs_get_tag, cs_get_incs, cs_cur; cbn [cs_sim cs_r cs_tags cs_incs]. rewrite H1, H4, H5. cbn [ptr bind].
    split; [apply getz_out; rewrite map_length; exact Ei1|].
    split; [apply getz_out; rewrite map_length; exact Ei1|].
    intros m. destruct (Fin n m) as (r' & E' & R0' & R'). rewrite E'.
    unfold cs_get_pre, cs_cur; cbn [cs_sim cs_r cs_pre]. rewrite H6. cbn [ptr bind].
    apply getz_out; rewrite map_length. exact (Ei r' R0' R').
  - intros x. unfold store_all. cbn [fold_res]. unfold cs_add. rewrite H4, H2. cbn [ptr bind].
    unfold setz, set_. rewrite Nat2Z.id, map_length, Nat.ltb_irrefl. reflexivity.
Qed.

(** Noise secrets: no masks are kept. *)


Definition ns_at (c : cstate) (done : list (Z * list ishare)) (room : nat) : Prop :=
  cs_sim c = false /\ cs_w c = Z.of_nat (length done) /\ cs_r c = 0 /\
  cs_tags c = Some (map fst done ++ repeat 0 room) /\
  cs_incs c = Some (map snd done ++ repeat [] room).

Lemma store_noise_spec l : forall c done room, ns_at c done (length l + room) ->
  Z.of_nat (length done + length l) < 2 ^ 32 ->
  exists c', store_noise c l = Ok c' /\ ns_at c' (done ++ l) room.
Proof.
  induction l as [|x l IH]; intros c done room H Hb.
  - exists c. rewrite app_nil_r. auto.
  - destruct H as (H1 & H2 & H3 & H4 & H5). unfold store_noise. cbn [fold_res].
    unfold cs_add_noise. rewrite H4, H5, H2. cbn [ptr bind length] in *.
    cbn [Nat.add].
    rewrite setz_at by (rewrite app_length, map_length, repeat_length; lia). cbn [bind].
    rewrite setz_at by (rewrite app_length, map_length, repeat_length; lia). cbn [bind].
    rewrite (repeat_snoc_upd fst done x), (repeat_snoc_upd snd done x).
    edestruct (IH {| cs_sim := cs_sim c; cs_w := w32 (Z.of_nat (length done) + 1); cs_r := cs_r c; cs_size := cs_size c;
        cs_tags := Some (map fst (done ++ [x]) ++ repeat 0 (length l + room));
        cs_incs := Some (map snd (done ++ [x]) ++ repeat [] (length l + room));
        cs_pre := cs_pre c |}
        (done ++ [x]) room) as (c' & E & R).
    + unfold ns_at; cbn. rewrite app_length. cbn [length]. repeat split; auto.
      rewrite w32_id; [lia|]. unfold u32. lia.
    + rewrite app_length. cbn [length]. lia.
    + exists c'. split; [exact E|]. rewrite <- app_assoc in R. exact R.
Qed.

Lemma c37_noise c pc l : Z.of_nat (length l) < 2 ^ 32 ->
  exists c0 c1, cs_initialize c pc (Z.of_nat (length l)) true false = Ok c0 /\
    store_noise c0 l = Ok c1 /\
    (forall i tag incs, nth_error l i = Some (tag, incs) ->
       cs_get_tag (load_times (S i) c1) = Ok tag /\
       cs_get_incs (load_times (S i) c1) = Ok incs).
Proof.
  intros Hb.
  destruct (cs_initialize c pc (Z.of_nat (length l)) true false) as [c0| | |] eqn:E0; try discriminate E0.
  assert (A0 : ns_at c0 [] (length l + 0)).
  { inversion E0. rewrite Nat.add_0_r, Nat2Z.id. unfold ns_at; cbn. auto 10. }
  destruct (store_noise_spec l _ [] 0 A0 ltac:(cbn; lia)) as (c1 & E1 & A1).
  exists c0, c1. split; [reflexivity|]. split; [exact E1|]. cbn [app] in A1.
  destruct A1 as (H1 & H2 & H3 & H4 & H5). cbn [repeat] in *. rewrite app_nil_r in *.
  intros i tag incs N.
  assert (Hi : (i < length l)%nat) by (apply nth_error_Some; congruence).
  destruct (load_times_spec (S i) c1) as (r & E & _ & R). rewrite E, R by lia. rewrite H3.
  assert (Ei : w32 (w32 (0 + Z.of_nat (S i)) - 1) = Z.of_nat i).
  { rewrite (w32_id (0 + _)) by (unfold u32; lia). rewrite w32_id by (unfold u32; lia). lia. }
  unfold cs_get_tag, cs_get_incs, cs_cur; cbn [cs_sim cs_r cs_tags cs_incs]. rewrite H1, H4, H5, Ei. cbn [ptr bind].
  split; apply getz_nth; rewrite Nat2Z.id.
  - exact (nth_map_some fst _ _ _ N).
  - exact (nth_map_some snd _ _ _ N).
Qed.

Lemma c37_simulated c pc count noise n :
  exists c0, cs_initialize c pc count noise true = Ok c0 /\
    cs_get_tag (load_times n c0) = Ok 0 /\
    cs_get_incs (load_times n c0) = Ok (repeat {| sx := 0; sy := 1 |} pc) /\
    (noise = false -> forall m, cs_get_pre (load_times n (cs_finish (load_times m c0))) = Ok (repeat 0 52)).
Proof.
  unfold cs_initialize. destruct noise; cbn; eexists; (split; [reflexivity|]);
  match goal with |- context [load_times n ?c0] => destruct (load_times_spec n c0) as (r & E & _) end; rewrite E; cbn;
  (split; [reflexivity|]); (split; [reflexivity|]); intros Hn; try discriminate Hn; intros m;
  match goal with |- context [load_times m ?c0] => destruct (load_times_spec m c0) as (r' & E' & _) end; rewrite E'; cbn;
  match goal with |- context [load_times n ?c0] => destruct (load_times_spec n c0) as (r'' & E'' & _) end; rewrite E''; reflexivity.
Qed.

(** ** PartyState *)
Definition entry (o : osecret) : Z * stored :=
  (o_tag o, {| st_next := o_next o; st_share := o_share o; st_pre := o_preshare o |}).

Lemma find_tag_None m t : find_tag m t = None <-> ~ In t (map fst m).
Proof.
  induction m as [|[t' s] m IH]; cbn; [tauto|]. destruct (Z.eqb_spec t' t).
  - split; [discriminate|tauto].
  - rewrite IH. tauto.
Qed.
Lemma find_tag_In m t s : NoDup (map fst m) -> In (t, s) m -> find_tag m t = Some s.
Proof.
  induction m as [|[t' s'] m IH]; cbn; [tauto|]. intros N [E|H]; inversion N as [|? ? N1 N2]; subst.
  - inversion E; subst. rewrite Z.eqb_refl. reflexivity.
  - destruct (Z.eqb_spec t' t) as [->|]; [|auto].
    exfalso. apply N1. apply in_map_iff. exists (t, s). auto.
Qed.

Lemma install_spec a l : forall p,
  NoDup (map o_tag l) -> (forall o, In o l -> find_tag (qs_map p) (o_tag o) = None) ->
  exists p', install_all a p l = Ok p' /\ qs_sim p' = qs_sim p /\
    qs_map p' = rev (map entry l) ++ qs_map p.
Proof.
  induction l as [|o l IH]; intros p N H.
  - exists p. auto.
  - cbn [map] in N. inversion N as [|? ? N1 N2]; subst. unfold install_all. cbn [fold_res].
    unfold qs_store. rewrite H by (left; reflexivity). cbn [bind].
    edestruct IH as (p' & E & S1 & M1); [exact N2| |].
    2:{ exists p'. split; [exact E|]. split; [exact S1|]. rewrite M1. cbn [qs_map map rev]. rewrite <- app_assoc. reflexivity. }
    intros o' Ho'. cbn [qs_map find_tag].
    destruct (Z.eqb_spec (o_tag o) (o_tag o')) as [E|_]; [|apply H; right; exact Ho'].
    exfalso. apply N1. rewrite E. apply in_map. exact Ho'.
Qed.

Lemma install_dup l : forall p,
  (~ NoDup (map o_tag l) \/ exists o, In o l /\ find_tag (qs_map p) (o_tag o) <> None) ->
  install_all true p l = Abort.
Proof.
  induction l as [|o l IH]; intros p H.
  - exfalso. destruct H as [H|(o & [] & _)]. apply H. constructor.
  - unfold install_all. cbn [fold_res]. unfold qs_store.
    destruct (find_tag (qs_map p) (o_tag o)) eqn:F; [reflexivity|]. cbn [bind].
    apply IH. destruct H as [H|(o' & [->|Ho'] & H)].
    + destruct (in_dec Z.eq_dec (o_tag o) (map o_tag l)) as [I|I].
      * right. apply in_map_iff in I. destruct I as (o' & E & Ho'). exists o'. split; [exact Ho'|].
        cbn [qs_map find_tag]. rewrite E, Z.eqb_refl. discriminate.
      * left. intros N. apply H. cbn [map]. constructor; assumption.
    + congruence.
    + right. exists o'. split; [exact Ho'|]. cbn [qs_map find_tag]. destruct (o_tag o =? o_tag o'); [discriminate|exact H].
Qed.

Lemma map_fst_entry l : map fst (map entry l) = map o_tag l.
Proof. rewrite map_map. reflexivity. Qed.

Lemma find_installed l o : NoDup (map o_tag l) -> In o l ->
  find_tag (rev (map entry l) ++ []) (o_tag o) = Some (snd (entry o)).
Proof.
  intros N H. rewrite app_nil_r. apply find_tag_In.
  - rewrite map_rev, map_fst_entry. apply NoDup_rev. exact N.
  - apply in_rev. rewrite rev_involutive. apply in_map_iff. exists o. split; [reflexivity|exact H].
Qed.
Lemma find_not_installed l t : ~ In t (map o_tag l) -> find_tag (rev (map entry l) ++ []) t = None.
Proof.
  intros H. rewrite app_nil_r. apply find_tag_None. rewrite map_rev, map_fst_entry.
  rewrite <- in_rev. exact H.
Qed.

Lemma c38 a l : NoDup (map o_tag l) ->
  exists p, install_all a (qs_initialize_state qs_new false) l = Ok p /\
    length (qs_map p) = length l /\
    (forall o, In o l ->
       qs_next_tag (qs_load p (o_tag o)) = Ok (o_next o) /\
       qs_incremental (qs_load p (o_tag o)) = Ok (o_share o) /\
       qs_preshare p (o_tag o) = Ok (o_preshare o)) /\
    (forall t, ~ In t (map o_tag l) ->
       qs_next_tag (qs_load p t) = UB /\ qs_incremental (qs_load p t) = UB /\ qs_preshare p t = Abort).
Proof.
  intros N.
  destruct (install_spec a l (qs_initialize_state qs_new false) N (fun _ _ => eq_refl)) as (p & E & S1 & M1).
  exists p. split; [exact E|]. cbn [qs_initialize_state qs_sim qs_map qs_new] in *. split; [|split].
  - rewrite M1, app_nil_r, rev_length, map_length. reflexivity.
  - intros o Ho. unfold qs_next_tag, qs_incremental, qs_preshare, qs_load; cbn. rewrite S1, M1.
    rewrite (find_installed l o N Ho). auto.
  - intros t Ht. unfold qs_next_tag, qs_incremental, qs_preshare, qs_load; cbn. rewrite S1, M1.
    rewrite (find_not_installed l t Ht). auto.
Qed.

Lemma bs_install a p l : install_all_backend a p l =
  install_all a p (map (fun o => {| o_tag := o_tag o; o_next := 0; o_share := o_share o; o_preshare := o_preshare o |}) l).
Proof.
  revert p; induction l as [|o l IH]; intros p; [reflexivity|].
  unfold install_all_backend, install_all in *. cbn [fold_res map]. unfold bs_store at 1.
  destruct (qs_store a p _); cbn [bind]; auto.
Qed.

Lemma c38_backend a l : NoDup (map o_tag l) ->
  exists p, install_all_backend a (qs_initialize_state qs_new false) l = Ok p /\
    length (qs_map p) = length l /\
    (forall o, In o l ->
       qs_incremental (qs_load p (o_tag o)) = Ok (o_share o) /\
       bs_preshare (qs_load p (o_tag o)) = Ok (o_preshare o)) /\
    (forall t, ~ In t (map o_tag l) ->
       qs_incremental (qs_load p t) = UB /\ bs_preshare (qs_load p t) = UB).
Proof.
  intros N. rewrite bs_install.
  set (l' := map _ l).
  assert (T : map o_tag l' = map o_tag l) by (unfold l'; rewrite map_map; reflexivity).
  assert (N' : NoDup (map o_tag l')) by (rewrite T; exact N).
  destruct (install_spec a l' (qs_initialize_state qs_new false) N' (fun _ _ => eq_refl)) as (p & E & S1 & M1).
  exists p. split; [exact E|]. cbn [qs_initialize_state qs_sim qs_map qs_new] in *. split; [|split].
  - rewrite M1, app_nil_r, rev_length. unfold l'. rewrite !map_length. reflexivity.
  - intros o Ho. unfold qs_incremental, bs_preshare, qs_load; cbn. rewrite S1, M1.
    pose proof (find_installed l' {| o_tag := o_tag o; o_next := 0; o_share := o_share o; o_preshare := o_preshare o |} N') as F.
    cbn in F. rewrite F; [auto|]. unfold l'. apply in_map_iff. exists o. auto.
  - intros t Ht. rewrite <- T in Ht. unfold qs_incremental, bs_preshare, qs_load; cbn. rewrite S1, M1.
    rewrite (find_not_installed l' t Ht). auto.
Qed.

Lemma c38_dup l : ~ NoDup (map o_tag l) ->
  install_all true (qs_initialize_state qs_new false) l = Abort /\
  install_all_backend true (qs_initialize_state qs_new false) l = Abort.
Proof.
  intros N. split; [apply install_dup; left; exact N|].
  rewrite bs_install. apply install_dup. left. rewrite map_map. exact N.
Qed.

(** Without assertions a second secret under the same tag is dropped. *)
Lemma install_ndebug l : forall p, exists p', install_all false p l = Ok p' /\ qs_sim p' = qs_sim p /\
  forall t, find_tag (qs_map p') t = match find_tag (qs_map p) t with Some s => Some s | None =>
    find_tag (map entry l) t end.
Proof.
  induction l as [|o l IH]; intros p.
  - exists p. split; [reflexivity|]. split; [reflexivity|]. intros t. destruct (find_tag (qs_map p) t); reflexivity.
  - unfold install_all. cbn [fold_res]. unfold qs_store.
    destruct (find_tag (qs_map p) (o_tag o)) as [s|] eqn:F; cbn [bind].
    + destruct (IH {| qs_sim := qs_sim p; qs_map := qs_map p; qs_it := None |}) as (p' & E & S1 & T).
      exists p'. split; [exact E|]. split; [exact S1|]. intros t. rewrite T. cbn [qs_map map find_tag entry].
      destruct (find_tag (qs_map p) t) eqn:G; [reflexivity|].
      destruct (Z.eqb_spec (o_tag o) t); [subst; congruence|reflexivity].
    + match goal with |- context [fold_res _ l ?p1] => destruct (IH p1) as (p' & E & S1 & T) end.
      exists p'. split; [exact E|]. split; [exact S1|]. intros t. rewrite T. cbn [qs_map map find_tag entry].
      destruct (Z.eqb_spec (o_tag o) t); [subst; rewrite F|]; reflexivity.
Qed.

Lemma c38_ndebug l1 o l2 : ~ In (o_tag o) (map o_tag l1) ->
  exists p, install_all false (qs_initialize_state qs_new false) (l1 ++ o :: l2) = Ok p /\
    qs_next_tag (qs_load p (o_tag o)) = Ok (o_next o) /\
    qs_incremental (qs_load p (o_tag o)) = Ok (o_share o) /\
    qs_preshare p (o_tag o) = Ok (o_preshare o).
Proof.
  intros N. destruct (install_ndebug (l1 ++ o :: l2) (qs_initialize_state qs_new false)) as (p & E & S1 & T).
  exists p. split; [exact E|]. cbn [qs_initialize_state qs_sim qs_map qs_new find_tag] in *.
  unfold qs_next_tag, qs_incremental, qs_preshare, qs_load; cbn. rewrite S1, T.
  assert (find_tag (map entry (l1 ++ o :: l2)) (o_tag o) = Some (snd (entry o))) as ->; [|auto].
  clear E T. induction l1 as [|x l1 IH]; cbn in *.
  - rewrite Z.eqb_refl. reflexivity.
  - destruct (Z.eqb_spec (o_tag x) (o_tag o)); [tauto|]. apply IH. tauto.
Qed.

(** ** Database *)
Lemma db_create_spec n : db_create n = Ok (map db_row (seq 0 n)).
Proof.
  unfold db_create.
  destruct (for_inv (fun i db => db = map db_row (seq 0 i) ++ repeat db_zero (n - i)) n 0
     (fun i db => set_ db i (db_row i)) (repeat db_zero n)) as (db & E & I).
  - cbn. rewrite Nat.sub_0_r. reflexivity.
  - intros k t Hk ->. unfold set_. rewrite app_length, map_length, seq_length, repeat_length.
    assert ((k <? k + (n - k))%nat = true) as -> by (apply Nat.ltb_lt; lia).
    eexists; split; [reflexivity|].
    replace (n - k)%nat with (S (n - S k)) by lia.
    pose proof (repeat_snoc_upd db_row (seq 0 k) k db_zero (n - S k)) as U. rewrite seq_length in U. rewrite U.
    replace (seq 0 k ++ [k]) with (seq 0 (S k)) by (rewrite seq_S; reflexivity). reflexivity.
  - rewrite E, I. cbn [Nat.add]. rewrite Nat.sub_diag. cbn. rewrite app_nil_r. reflexivity.
Qed.

Lemma c56 n : Z.of_nat n < 2 ^ 32 ->
  exists db, db_create n = Ok db /\
    (forall k, 0 <= k < Z.of_nat n ->
       db_lookup db k = Ok {| r_value := (2 * k) mod 2 ^ 32; r_sig := repeat (k mod 128) 48 |} /\
       wf_response {| r_value := (2 * k) mod 2 ^ 32; r_sig := repeat (k mod 128) 48 |}) /\
    (forall k, Z.of_nat n <= k -> db_lookup db k = UB) /\
    (forall draw, (forall b, 2 <= b -> 0 <= draw b < b) -> (forall b, b < 2 -> draw b = 0) ->
       (0 < n)%nat -> 0 <= db_random_row db draw < Z.of_nat n).
Proof.
  intros Hn. rewrite db_create_spec. eexists; split; [reflexivity|]. split; [|split].
  - intros k Hk. split.
    + unfold db_lookup, get. rewrite nth_error_map_seq by lia.
      unfold db_row. rewrite Z2Nat.id by lia. reflexivity.
    + split; cbn.
      * apply Z.mod_pos_bound. lia.
      * split; [reflexivity|].
        pose proof (Z.mod_pos_bound k 128 ltac:(lia)) as B.
        repeat (constructor; [unfold byte; lia|]). constructor.
  - intros k Hk. unfold db_lookup, get.
    destruct (nth_error _ (Z.to_nat k)) eqn:E; [|reflexivity].
    assert (nth_error (map db_row (seq 0 n)) (Z.to_nat k) <> None) as H by congruence.
    apply nth_error_Some in H. rewrite map_length, seq_length in H. lia.
  - intros draw H1 H2 H0. unfold db_random_row. rewrite map_length, seq_length.
    destruct (Z_lt_ge_dec (Z.of_nat n) 2).
    + rewrite H2 by lia. lia.
    + apply H1. lia.
Qed.
