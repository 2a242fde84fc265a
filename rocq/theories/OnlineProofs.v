(** The online stage of a single-server deployment, given what the parties hold
    after the offline (or simulated) stage. *)
From Verif Require Import Base BaseProofs Incremental Wire WireProofs Additive AdditiveProofs Onion Shuffle State Database
  Handlers Batch Party Chain Spec SharingProofs ShuffleProofs StateProofs.

(** ** Items: one message on its way through the chain *)
Record item := { it_tag : Z; it_secrets : list osecret; it_key : Z; it_tally : Z }.
Definition q_of (it : item) : query := {| q_tag := it_tag it; q_tally := it_tally it |}.
Definition row (db : list response) (k : Z) : response := nth (Z.to_nat k) db db_zero.
(** The response travelling back on the link where the item was sent. *)
Definition answer (db : list response) (it : item) : list Z :=
  xorl (enc_response (row db (it_key it))) (xor_all (map o_preshare (it_secrets it))).
Definition advance (it : item) : item :=
  {| it_tag := it_tag it; it_secrets := tl (it_secrets it); it_key := it_key it;
     it_tally := match it_secrets it with s :: _ => incremental_reconstruct (it_tally it) (o_share s) | [] => it_tally it end |}.

Definition ok_item (rows m : nat) (it : item) : Prop :=
  length (it_secrets it) = m /\
  Forall (fun s => wf_osecret s /\ o_tag s = it_tag it /\ o_next s = it_tag it) (it_secrets it) /\
  fold_left incremental_reconstruct (map o_share (it_secrets it)) (it_tally it) = it_key it /\
  0 <= it_key it < Z.of_nat rows.

Lemma ok_advance rows m it : ok_item rows (S m) it -> ok_item rows m (advance it).
Proof.
  intros (L & F & R & B). unfold ok_item, advance. cbn [it_tag it_secrets it_key it_tally].
  destruct (it_secrets it) as [|s ss]; [discriminate|]. cbn [tl length map fold_left] in *.
  inversion F; subst. split; [lia|]. split; [assumption|]. split; assumption.
Qed.

(** A store that holds the item's first secret. *)
Definition knows (p : qstate) (it : item) : Prop :=
  exists s ss, it_secrets it = s :: ss /\
    find_tag (qs_map p) (if qs_sim p then 0 else it_tag it) =
      Some {| st_next := it_tag it; st_share := o_share s; st_pre := o_preshare s |}.
Definition knows_last (p : qstate) (it : item) : Prop :=
  exists s ss n, it_secrets it = s :: ss /\
    find_tag (qs_map p) (if qs_sim p then 0 else it_tag it) =
      Some {| st_next := n; st_share := o_share s; st_pre := o_preshare s |}.

Lemma knows_load p it t : knows p it -> knows (qs_load p t) it.
Proof. intros H; exact H. Qed.
Lemma knows_last_load p it t : knows_last p it -> knows_last (qs_load p t) it.
Proof. intros H; exact H. Qed.

Lemma handle_query_item p it : knows p it -> handle_query p (q_of it) = Ok (q_of (advance it), qs_load p (it_tag it)).
Proof.
  intros (s & ss & E & F). unfold handle_query, q_of, advance, qs_next_tag, qs_incremental.
  cbn [q_tag q_tally qs_load qs_it it_tag it_tally]. rewrite F, E. reflexivity.
Qed.

Lemma bytes_enc_response r : wf_response r -> bytes 52 (enc_response r).
Proof.
  destruct r as [v s]. intros [Hv [Hl Hb]]. unfold enc_response. cbn [r_value r_sig] in *. split.
  - rewrite app_length, length_le, Hl. reflexivity.
  - apply Forall_app. split; [apply le_bytes|exact Hb].
Qed.

Lemma reconstruct_to a b old : bytes 52 a -> bytes 52 b -> bytes 52 old ->
  additive_reconstruct_to a b old = Ok (xorl a b).
Proof.
  intros [La Ha] [Lb Hb] [Lo Ho]. unfold additive_reconstruct_to.
  assert (Hm : Forall byte (a ++ b ++ old)) by (repeat (apply Forall_app; split); assumption).
  destruct (c09 (a ++ b ++ old) 0 (length a) (length a + length b)) as (m' & E & L & _ & _ & X);
    try (rewrite ?app_length; lia); [exact Hm|].
  rewrite E. cbn [bind]. rewrite !app_length in L. rewrite rd_Ok by lia.
  f_equal. rewrite Lo, X. cbn [skipn]. rewrite (firstn_app_exact a) by exact La.
  rewrite La. rewrite (skipn_app_exact a) by exact La. rewrite (firstn_app_exact b) by exact Lb. reflexivity.
Qed.

Lemma row_wf db k : Forall wf_response db -> 0 <= k < Z.of_nat (length db) -> wf_response (row db k).
Proof. intros F B. unfold row. rewrite Forall_forall in F. apply F. apply nth_In. lia. Qed.

Lemma answer_bytes db m it : Forall wf_response db -> ok_item (length db) m it -> bytes 52 (answer db it).
Proof.
  intros F (L & Fs & R & B). unfold answer. apply bytes_xorl.
  - apply bytes_enc_response. apply row_wf; assumption.
  - apply bytes_xor_all. apply Forall_map. eapply Forall_impl; [|exact Fs]. intros s ((_ & _ & _ & _ & W) & _). exact W.
Qed.

Lemma answer_advance db s ss it : it_secrets it = s :: ss ->
  xorl (answer db (advance it)) (o_preshare s) = answer db it.
Proof.
  intros E. unfold answer, advance. cbn [it_secrets it_key]. rewrite E. cbn [tl map xor_all fold_right].
  rewrite xorl_assoc. f_equal. apply xorl_comm.
Qed.

Lemma handle_response_item db p it m old : Forall wf_response db -> ok_item (length db) (S m) it -> knows p it ->
  bytes 52 old -> handle_response p (it_tag it) (answer db (advance it)) old = Ok (answer db it).
Proof.
  intros F O (s & ss & E & K) Ho. unfold handle_response, qs_preshare. rewrite K. cbn [bind st_pre].
  assert (W : bytes 52 (o_preshare s)).
  { destruct O as (_ & Fs & _). rewrite E in Fs. inversion Fs as [|? ? ((_ & _ & _ & _ & W) & _) _]; subst. exact W. }
  rewrite reconstruct_to; [|apply (answer_bytes db m); [exact F|apply ok_advance; exact O]|exact W|exact Ho].
  f_equal. apply (answer_advance db s ss). exact E.
Qed.

(** ** The shuffler *)
Definition ls_ok (n : nat) (ls : lshuffler) : Prop :=
  length (ls_forward ls) = n /\ length (ls_backward ls) = n /\
  Permutation (seq 0 n) (ls_forward ls) /\ Permutation (seq 0 n) (ls_backward ls) /\
  (forall i t, nth_error (ls_forward ls) i = Some t <-> nth_error (ls_backward ls) t = Some i).

Lemma ls_ok_fwd n ls i : ls_ok n ls -> (i < n)%nat ->
  exists j, (j < n)%nat /\ ls_shuffle ls i = Ok j /\ nth_error (ls_backward ls) j = Some i.
Proof.
  intros (L & L' & P & P' & H) Hi. destruct (get_lt (ls_forward ls) i) as (j & E & N); [lia|].
  exists j. split; [|split; [exact E|apply H; exact N]].
  apply nth_error_In in N. apply Permutation_sym in P. apply (Permutation_in _ P) in N. apply in_seq in N. lia.
Qed.
Lemma ls_ok_bwd n ls j : ls_ok n ls -> (j < n)%nat ->
  exists i, (i < n)%nat /\ ls_deshuffle ls j = Ok i /\ nth_error (ls_forward ls) i = Some j.
Proof.
  intros (L & L' & P & P' & H) Hi. destruct (get_lt (ls_backward ls) j) as (i & E & N); [lia|].
  exists i. split; [|split; [exact E|apply H; exact N]].
  apply nth_error_In in N. apply Permutation_sym in P'. apply (Permutation_in _ P') in N. apply in_seq in N. lia.
Qed.

(** src rearranged along a list of indices. *)
Definition pick {A} (d : A) (src : list A) (idx : list nat) : list A := map (fun j => nth j src d) idx.
Lemma nth_seq_all {A} (d : A) src : map (fun j => nth j src d) (seq 0 (length src)) = src.
Proof.
  apply nth_error_ext. intros i. destruct (Nat.lt_ge_cases i (length src)) as [H|H].
  - rewrite nth_error_map_seq by exact H. symmetry. apply nth_error_nth'. exact H.
  - rewrite !(proj2 (nth_error_None _ _)); [reflexivity| |]; rewrite ?map_length, ?seq_length; lia.
Qed.
Lemma pick_perm {A} (d : A) src idx : Permutation (seq 0 (length src)) idx -> Permutation src (pick d src idx).
Proof. intros P. rewrite <- (nth_seq_all d src) at 1. apply Permutation_map. exact P. Qed.
Lemma pick_map {A B} (f : A -> B) d src idx : pick (f d) (map f src) idx = map f (pick d src idx).
Proof. unfold pick. rewrite map_map. apply map_ext. intros j. apply map_nth. Qed.
Lemma pick_nth {A} (d : A) src idx i j x : nth_error idx i = Some j -> nth_error src j = Some x ->
  nth_error (pick d src idx) i = Some x.
Proof. intros H X. unfold pick. rewrite nth_error_map, H. cbn. rewrite (nth_error_nth _ _ _ X). reflexivity. Qed.

(** The first k places of a shuffled batch are filled. *)
Definition filled {A} (ls : lshuffler) (k : nat) (src data : list A) : Prop :=
  length data = length src /\
  forall i x j, (i < k)%nat -> nth_error src i = Some x -> ls_shuffle ls i = Ok j -> nth_error data j = Some x.

Lemma ls_inj n ls i i' j : ls_ok n ls -> ls_shuffle ls i = Ok j -> ls_shuffle ls i' = Ok j -> i = i'.
Proof.
  intros (_ & _ & _ & _ & H) E E'. apply get_Ok in E, E'. apply H in E, E'. congruence.
Qed.

Lemma filled_set {A} n ls k (src data : list A) x : ls_ok n ls -> length src = n -> filled ls k src data ->
  nth_error src k = Some x ->
  exists j, ls_shuffle ls k = Ok j /\ set_ data j x = Ok (upd data j x) /\ filled ls (S k) src (upd data j x).
Proof.
  intros O L (Ld & F) N. assert (Hk : (k < n)%nat) by (rewrite <- L; apply nth_error_Some; congruence).
  destruct (ls_ok_fwd n ls k O Hk) as (j & Hj & E & _). exists j. split; [exact E|].
  split; [apply set_Ok; lia|]. split; [rewrite length_upd; exact Ld|].
  intros i y j' Hi Ny E'. destruct (Nat.eq_dec i k) as [->|Hne].
  - rewrite E in E'. inversion E'; subst j'. rewrite N in Ny. inversion Ny; subst y.
    apply nth_error_upd_eq. lia.
  - rewrite nth_error_upd_ne; [apply (F i); [lia|assumption|assumption]|].
    intros ->. apply Hne. apply (ls_inj n ls i k j' O E' E).
Qed.

Lemma filled_all {A} (d : A) n ls (src data : list A) : ls_ok n ls -> length src = n -> filled ls n src data ->
  data = pick d src (ls_backward ls).
Proof.
  intros O L (Ld & F). destruct (O) as (Lf & Lb & _).
  apply nth_error_ext. intros j. destruct (Nat.lt_ge_cases j n) as [H|H].
  - destruct (ls_ok_bwd n ls j O H) as (i & Hi & E & N).
    destruct (get_lt src i) as (x & _ & Nx); [lia|].
    rewrite (F i x j Hi Nx); [|apply get_Ok; exact N]. symmetry. apply (pick_nth d src _ j i x); [|exact Nx].
    apply get_Ok. exact E.
  - rewrite !(proj2 (nth_error_None _ _)); [reflexivity| |]; unfold pick; rewrite ?map_length; lia.
Qed.

(** ** Collecting queries *)
Lemma recv_all {A} n (l : list A) : length l = n -> recv n l = Ok l.
Proof. intros <-. unfold recv. rewrite Nat.ltb_irrefl, firstn_all. reflexivity. Qed.

Lemma push_rest {A} (done : list A) x rest d right : right = length done ->
  bt_push {| bt_data := done ++ repeat d (S (length (rest : list A))); bt_right := right |} x =
  Ok {| bt_data := (done ++ [x]) ++ repeat d (length rest); bt_right := length (done ++ [x]) |}.
Proof.
  intros ->. unfold bt_push. cbn [bt_data bt_right]. rewrite set_Ok by (rewrite app_length, repeat_length; lia).
  cbn [bind]. rewrite upd_app_r, Nat.sub_diag by lia. cbn [repeat upd]. rewrite <- app_assoc, app_length. cbn [length app].
  do 3 f_equal. lia.
Qed.

Lemma forward_loop n ls (noise : list item) : ls_ok n ls -> forall rest done p data right,
  length (noise ++ done ++ rest) = n ->
  Forall (knows p) rest ->
  filled ls (length (noise ++ done)) (map q_of (noise ++ map advance (done ++ rest))) data ->
  exists p' data', fold_res (fun s q =>
    let '(read, p, tags, qs) := s in
    let* tags' := bt_push tags (q_tag q) in
    let* target := ls_shuffle ls read in
    let* h := handle_query p q in
    let* qs' := bt_set qs target (fst h) in
    Ok (S read, snd h, tags', qs')) (map q_of rest)
      (length (noise ++ done), p,
       {| bt_data := map it_tag done ++ repeat 0 (length rest); bt_right := length done |},
       {| bt_data := data; bt_right := right |}) =
    Ok (n, p', {| bt_data := map it_tag (done ++ rest); bt_right := length (done ++ rest) |},
        {| bt_data := data'; bt_right := right |}) /\
    qs_sim p' = qs_sim p /\ qs_map p' = qs_map p /\
    filled ls n (map q_of (noise ++ map advance (done ++ rest))) data'.
Proof.
  intros O. induction rest as [|it rest IH]; intros done p data right L K F; cbn [map fold_res].
  - exists p, data. rewrite app_nil_r in *. cbn [repeat length]. rewrite app_nil_r. rewrite L in *.
    split; [reflexivity|]. auto.
  - inversion K as [|? ? K1 K2]; subst x l.
    set (src := map q_of (noise ++ map advance (done ++ it :: rest))) in *.
    assert (Lsrc : length src = n).
    { unfold src. rewrite map_length, app_length, map_length. rewrite app_length in L. exact L. }
    assert (Nk : nth_error src (length (noise ++ done)) = Some (q_of (advance it))).
    { unfold src. rewrite nth_error_map, app_length, nth_error_app2 by lia.
      replace (length noise + length done - length noise)%nat with (length done) by lia.
      rewrite nth_error_map, nth_error_app2, Nat.sub_diag by lia. reflexivity. }
    destruct (filled_set n ls _ src data _ O Lsrc F Nk) as (j & Ej & Es & F').
    cbn [q_of q_tag length].
    pose proof (push_rest (map it_tag done) (it_tag it) (map it_tag rest) 0 (length done)
                  ltac:(rewrite map_length; reflexivity)) as Hp.
    rewrite (map_length it_tag rest) in Hp. rewrite Hp. cbn [bind].
    rewrite Ej. cbn [bind].
    change {| q_tag := it_tag it; q_tally := it_tally it |} with (q_of it).
    rewrite (handle_query_item p it K1). cbn [bind fst snd].
    unfold bt_set. cbn [bt_data bt_right]. rewrite Es. cbn [bind].
    specialize (IH (done ++ [it]) (qs_load p (it_tag it)) (upd data j (q_of (advance it))) right).
    assert (Eapp : (done ++ [it]) ++ rest = done ++ it :: rest) by (rewrite <- app_assoc; reflexivity).
    rewrite Eapp in IH.
    assert (Ln : length (noise ++ done ++ [it]) = S (length (noise ++ done))).
    { rewrite !app_length. cbn [length]. lia. }
    rewrite Ln in IH.
    destruct IH as (p' & data' & E & S1 & M1 & F'').
    + exact L.
    + exact K2.
    + exact F'.
    + exists p', data'. split; [|auto].
      rewrite <- E. clear. do 4 f_equal. rewrite map_app. cbn [map]. f_equal.
      rewrite !app_length, map_length. reflexivity.
Qed.

(** ** Collecting responses *)
Definition returned (ls : lshuffler) (db : list response) (noise : nat) (items : list item) (read : nat) (out : list (list Z)) : Prop :=
  length out = length items /\ Forall (bytes 52) out /\
  forall i it j, nth_error items i = Some it -> ls_shuffle ls (noise + i) = Ok j -> (j < read)%nat ->
    nth_error out i = Some (answer db it).

Lemma Forall_upd {A} (P : A -> Prop) l i a : Forall P l -> P a -> Forall P (upd l i a).
Proof.
  revert i; induction l as [|h t IH]; intros [|i] F H; cbn [upd]; auto; inversion F; subst; constructor; auto.
Qed.

Lemma backward_loop n ls db rows m p noise items : ls_ok n ls -> length db = rows -> Forall wf_response db ->
  (noise + length items = n)%nat ->
  Forall (ok_item rows (S m)) items -> Forall (knows p) items ->
  forall resps read out right,
  (forall j x, nth_error resps j = Some x -> forall i, ls_deshuffle ls (read + j) = Ok i -> (noise <= i)%nat ->
     forall it, nth_error items (i - noise) = Some it -> x = answer db (advance it)) ->
  (read + length resps = n)%nat ->
  returned ls db noise items read out ->
  exists out', fold_res (fun s resp =>
    let '(read, out) := s in
    let* target := ls_deshuffle ls read in
    if (Z.of_nat target <? Z.of_nat noise) then Ok (S read, out)
    else
      let target_index := (target - Z.to_nat (Z.of_nat noise))%nat in
      let* old := bt_get out target_index in
      let* tag := bt_get {| bt_data := map it_tag items; bt_right := length items |} target_index in
      let* v := handle_response p tag resp old in
      let* out' := bt_set out target_index v in
      Ok (S read, out')) resps (read, {| bt_data := out; bt_right := right |}) =
    Ok (n, {| bt_data := out'; bt_right := right |}) /\ returned ls db noise items n out'.
Proof.
  intros O Lrows F Ln Ok_ K. rewrite Nat2Z.id.
  induction resps as [|x resps IH]; intros read out right H L R; cbn [fold_res].
  - exists out. cbn [length] in L. replace read with n in * by lia. auto.
  - cbn [length] in L.
    destruct (ls_ok_bwd n ls read O) as (i & Hi & Ei & Ni); [lia|]. rewrite Ei. cbn [bind].
    destruct R as (Lo & Fo & Ro).
    destruct (Z.ltb_spec (Z.of_nat i) (Z.of_nat noise)) as [Hlt|Hge]; cbn [bind].
    + apply IH; [| lia |].
      * intros j y Nj. intros i' Ei'. apply (H (S j) y Nj). rewrite Nat.add_succ_r. exact Ei'.
      * split; [exact Lo|]. split; [exact Fo|]. intros i' it j' N E Hj.
        destruct (Nat.eq_dec j' read) as [->|Hne]; [|apply (Ro i' it j'); [assumption|assumption|lia]].
        exfalso. apply get_Ok in E. apply (proj1 (proj2 (proj2 (proj2 (proj2 O))) _ _)) in E.
        apply get_Ok in Ei. rewrite E in Ei. inversion Ei; subst. lia.
    + destruct (get_lt items (i - noise)) as (it & _ & Nit); [lia|].
      destruct (get_lt out (i - noise)) as (old & Eold & Nold); [lia|].
      unfold bt_get. cbn [bt_data]. rewrite Eold. cbn [bind].
      assert (get (map it_tag items) (i - noise) = Ok (it_tag it)) as -> by (apply get_Ok; rewrite nth_error_map, Nit; reflexivity).
      cbn [bind].
      rewrite (H 0%nat x eq_refl i) with (it := it); [| rewrite Nat.add_0_r; exact Ei | lia | exact Nit].
      assert (Oit : ok_item rows (S m) it) by (rewrite Forall_forall in Ok_; apply Ok_; eapply nth_error_In; eauto).
      assert (Kit : knows p it) by (rewrite Forall_forall in K; apply K; eapply nth_error_In; eauto).
      assert (Bold : bytes 52 old) by (rewrite Forall_forall in Fo; apply Fo; eapply nth_error_In; eauto).
      subst rows.
      rewrite (handle_response_item db p it m old F Oit Kit Bold). cbn [bind].
      unfold bt_set. cbn [bt_data bt_right]. rewrite set_Ok by lia. cbn [bind].
      apply IH; [| lia |].
      * intros j y Nj. intros i' Ei'. apply (H (S j) y Nj). rewrite Nat.add_succ_r. exact Ei'.
      * split; [rewrite length_upd; exact Lo|]. split; [apply Forall_upd; [exact Fo|apply (answer_bytes db (S m)); assumption]|].
        intros i' it' j' N E Hj. apply get_Ok in E.
        destruct (Nat.eq_dec j' read) as [->|Hne].
        -- apply (proj1 (proj2 (proj2 (proj2 (proj2 O))) _ _)) in E. apply get_Ok in Ei. rewrite E in Ei.
           inversion Ei; subst i. replace (noise + i' - noise)%nat with i' in * by lia.
           rewrite Nit in N. inversion N; subst it'. apply nth_error_upd_eq. lia.
        -- rewrite nth_error_upd_ne.
           ++ apply (Ro i' it' j'); [assumption|apply get_Ok; exact E|lia].
           ++ intros Heq. subst i'. replace (noise + (i - noise))%nat with i in E by lia. congruence.
Qed.

Lemma returned_all n ls db noise items out : ls_ok n ls -> (noise + length items = n)%nat ->
  returned ls db noise items n out -> out = map (answer db) items.
Proof.
  intros O L (Lo & _ & R). apply nth_error_ext. intros i.
  destruct (Nat.lt_ge_cases i (length items)) as [H|H].
  - destruct (get_lt items i H) as (it & _ & N). rewrite nth_error_map, N. cbn.
    destruct (ls_ok_fwd n ls (noise + i) O) as (j & Hj & E & _); [lia|]. apply (R i it j N E Hj).
  - rewrite !(proj2 (nth_error_None _ _)); [reflexivity| |]; rewrite ?map_length; lia.
Qed.

(** ** A party between the stages *)
Definition next_items (ls : lshuffler) (noise items : list item) : list item :=
  pick {| it_tag := 0; it_secrets := []; it_key := 0; it_tally := 0 |} (noise ++ map advance items) (ls_backward ls).

Definition holds (rp : ready) (noise items : list item) : Prop :=
  rp_noise rp = Z.of_nat (length noise) /\ rp_input rp = Z.of_nat (length items) /\
  rp_shuffled rp = Z.of_nat (length noise + length items) /\
  ls_ok (length noise + length items) (rp_shuffler rp) /\
  rp_tags rp = bt_initialize 0 (length items) /\
  Forall (knows (rp_state rp)) items /\
  filled (rp_shuffler rp) (length noise) (map q_of (noise ++ map advance items)) (bt_data (rp_queries rp)).

Lemma next_length rp noise items : holds rp noise items ->
  length (next_items (rp_shuffler rp) noise items) = (length noise + length items)%nat.
Proof. intros (_ & _ & _ & (Lf & Lb & _) & _). unfold next_items, pick. rewrite map_length. exact Lb. Qed.

Lemma next_perm n ls noise items : ls_ok n ls -> (length noise + length items = n)%nat ->
  Permutation (noise ++ map advance items) (next_items ls noise items).
Proof.
  intros (_ & _ & _ & P & _) L. apply pick_perm. rewrite app_length, map_length, L. exact P.
Qed.

Lemma party_forward_spec rp noise items : holds rp noise items ->
  exists rp', party_forward rp (map q_of items) = Ok (rp', map q_of (next_items (rp_shuffler rp) noise items)) /\
    rp_noise rp' = rp_noise rp /\ rp_input rp' = rp_input rp /\ rp_shuffled rp' = rp_shuffled rp /\
    rp_shuffler rp' = rp_shuffler rp /\ rp_tags rp' = {| bt_data := map it_tag items; bt_right := length items |} /\
    Forall (knows (rp_state rp')) items.
Proof.
  intros (Hn & Hi & Hs & O & Ht & K & F). unfold party_forward. rewrite Hn, Hs.
  rewrite recv_all by (rewrite map_length; lia). cbn [bind]. rewrite Nat2Z.id.
  set (n := (length noise + length items)%nat) in *.
  destruct (rp_queries rp) as [data right] eqn:Eq. cbn [bt_data] in F.
  destruct (forward_loop n (rp_shuffler rp) noise O items [] (rp_state rp) data right) as (p' & data' & E & S1 & M1 & F').
  - cbn [app]. apply app_length.
  - exact K.
  - rewrite app_nil_r. cbn [app]. exact F.
  - rewrite app_nil_r in E. cbn [app map length] in E. rewrite Ht.
    unfold bt_initialize. rewrite E. cbn [bind]. eexists. split.
    + f_equal. f_equal. unfold bt_all, next_items. cbn [bt_data app] in *.
      rewrite <- pick_map. apply (filled_all _ n); [exact O| |exact F'].
      rewrite map_length, app_length, map_length. reflexivity.
    + cbn. repeat (split; [reflexivity|]). eapply Forall_impl; [|exact K].
      intros it (s & ss & E1 & E2). exists s, ss. rewrite S1, M1. auto.
Qed.

Lemma Forall_bytes_zero n : Forall (bytes 52) (repeat zero_response n).
Proof. apply Forall_forall. intros x Hx. apply repeat_spec in Hx. subst. apply bytes_zero52. Qed.

Lemma party_backward_spec db m rp rp' noise items : Forall wf_response db -> holds rp noise items ->
  Forall (ok_item (length db) (S m)) items ->
  rp_noise rp' = rp_noise rp -> rp_input rp' = rp_input rp -> rp_shuffled rp' = rp_shuffled rp ->
  rp_shuffler rp' = rp_shuffler rp -> rp_tags rp' = {| bt_data := map it_tag items; bt_right := length items |} ->
  Forall (knows (rp_state rp')) items ->
  party_backward rp' (map (answer db) (next_items (rp_shuffler rp) noise items)) = Ok (map (answer db) items).
Proof.
  intros F H Ok_ E1 E2 E3 E4 E5 K. pose proof (next_length _ _ _ H) as Ln.
  destruct H as (Hn & Hi & Hs & O & Ht & _ & _). unfold party_backward.
  rewrite E1, E2, E3, E4, E5, Hn, Hi, Hs, !Nat2Z.id.
  rewrite recv_all by (rewrite map_length; exact Ln). cbn [bind].
  set (n := (length noise + length items)%nat) in *. set (ls := rp_shuffler rp) in *.
  destruct (backward_loop n ls db (length db) m (rp_state rp') (length noise) items O eq_refl F eq_refl Ok_ K
    (map (answer db) (next_items ls noise items)) 0%nat (repeat zero_response (length items)) 0%nat) as (out & E & R).
  - intros j x Nj i Ei Hle it Nit. cbn [Nat.add] in Ei. rewrite nth_error_map in Nj.
    destruct (nth_error (next_items ls noise items) j) as [it'|] eqn:Nn; [|discriminate]. inversion Nj; subst x. f_equal.
    assert (Nx : nth_error (noise ++ map advance items) i = Some (advance it)).
    { rewrite nth_error_app2 by lia. rewrite nth_error_map, Nit. reflexivity. }
    unfold next_items in Nn. apply get_Ok in Ei. erewrite pick_nth in Nn; [|exact Ei|exact Nx].
    inversion Nn. reflexivity.
  - rewrite map_length, Ln. reflexivity.
  - split; [apply repeat_length|]. split; [apply Forall_bytes_zero|]. intros; lia.
  - rewrite Nat2Z.id in E. unfold bt_initialize.
    match goal with |- bind ?x _ = _ => assert (x = Ok (n, {| bt_data := out; bt_right := 0 |})) as -> by exact E end.
    cbn [bind snd bt_all bt_data].
    f_equal. unfold bt_all; cbn [bt_data]. apply (returned_all n ls db (length noise)); [exact O|reflexivity|exact R].
Qed.

(** ** The backend *)
Lemma push_all_queries {A} (d : A) l : forall done right, right = length done ->
  fold_res bt_push l {| bt_data := done ++ repeat d (length l); bt_right := right |} =
  Ok {| bt_data := done ++ l; bt_right := length (done ++ l) |}.
Proof.
  induction l as [|x l IH]; intros done right Hr; cbn [fold_res length repeat].
  - rewrite !app_nil_r, Hr. reflexivity.
  - pose proof (push_rest done x l d right Hr) as E. cbn [repeat] in E. rewrite E. cbn [bind].
    rewrite IH by reflexivity. rewrite <- app_assoc. reflexivity.
Qed.

Lemma backend_query_item db junk p it : Forall wf_response db -> ok_item (length db) 1 it -> knows_last p it -> bytes 52 junk ->
  backend_handle_query db junk p (q_of it) = Ok (it_key it, answer db it, qs_load p (it_tag it)).
Proof.
  intros F (L & Fs & R & B) (s & ss & nx & E & K) J. rewrite E in *.
  destruct ss; [|discriminate L]. cbn [map fold_left] in R.
  unfold backend_handle_query, qs_incremental, bs_preshare, q_of. cbn [q_tag q_tally qs_load qs_it].
  rewrite K. cbn [ptr bind st_share st_pre]. rewrite R.
  unfold db_lookup, get. rewrite (nth_error_nth' db db_zero) by lia. cbn [bind].
  inversion Fs as [|? ? ((_ & _ & _ & _ & W) & _) _]; subst.
  rewrite reconstruct_to; [|apply bytes_enc_response; apply (row_wf db); assumption|exact W|exact J].
  cbn [bind]. do 3 f_equal. unfold answer. rewrite E. cbn [map xor_all fold_right].
  rewrite xorl_zero_r by (apply W). reflexivity.
Qed.

Lemma backend_loop db junk : Forall wf_response db -> bytes 52 junk -> forall items p keys resps,
  Forall (ok_item (length db) 1) items -> Forall (knows_last p) items ->
  exists p', fold_res (fun s q =>
    let '(keys, resps, p) := s in
    let* h := backend_handle_query db junk p q in
    let '(key, resp, p') := h in
    Ok (keys ++ [key], resps ++ [resp], p')) (map q_of items) (keys, resps, p) =
  Ok (keys ++ map it_key items, resps ++ map (answer db) items, p').
Proof.
  intros F J. induction items as [|it items IH]; intros p keys resps Ok_ K; cbn [map fold_res].
  - exists p. rewrite !app_nil_r. reflexivity.
  - inversion Ok_; inversion K; subst. rewrite backend_query_item by assumption. cbn [bind].
    destruct (IH (qs_load p (it_tag it)) (keys ++ [it_key it]) (resps ++ [answer db it])) as (p' & E); [assumption|assumption|].
    exists p'. rewrite E, <- !app_assoc. reflexivity.
Qed.

Lemma backend_online_spec db junk count p items : Forall wf_response db -> bytes 52 junk ->
  count = Z.of_nat (length items) -> Forall (ok_item (length db) 1) items -> Forall (knows_last p) items ->
  backend_online db junk count p (map q_of items) = Ok (map it_key items, map (answer db) items).
Proof.
  intros F J -> Ok_ K. unfold backend_online. rewrite Nat2Z.id. rewrite recv_all by apply map_length. cbn [bind].
  unfold bt_initialize. pose proof (push_all_queries zero_query (map q_of items) [] 0 eq_refl) as E.
  rewrite map_length in E. cbn [app] in E. rewrite E. cbn [bind]. unfold bt_all; cbn [bt_data].
  destruct (backend_loop db junk F J items p [] []) as (p' & E'); [assumption|assumption|].
  rewrite E'. reflexivity.
Qed.

(** ** The chain *)
(** [levels]: the items on this and the later links. *)
Inductive chain_ok (rows : nat) (bp : qstate) : list ready -> list (list item) -> Prop :=
| chain_end items :
    Forall (ok_item rows 1) items -> Forall (knows_last bp) items ->
    chain_ok rows bp [] [items]
| chain_party rp rest noise items levels :
    holds rp noise items ->
    Forall (ok_item rows (S (S (length rest)))) items ->
    chain_ok rows bp rest (next_items (rp_shuffler rp) noise items :: levels) ->
    chain_ok rows bp (rp :: rest) (items :: next_items (rp_shuffler rp) noise items :: levels).

Lemma chain_nonempty rows bp rps levels : chain_ok rows bp rps levels -> levels <> [].
Proof. destruct 1; discriminate. Qed.

Lemma online_spec db junk bp : Forall wf_response db -> bytes 52 junk -> forall rps levels,
  chain_ok (length db) bp rps levels ->
  online_chain rps db junk (Z.of_nat (length (last levels []))) bp (map q_of (hd [] levels)) =
  Ok (map (fun l => (map q_of l, map (answer db) l)) levels, map it_key (last levels [])).
Proof.
  intros F J rps levels H. induction H as [items Ok_ K | rp rest noise items levels H Ok_ C IH].
  - cbn [online_chain last hd map]. rewrite backend_online_spec by auto. reflexivity.
  - cbn [online_chain hd]. destruct (party_forward_spec rp noise items H) as (rp' & E & E1 & E2 & E3 & E4 & E5 & K).
    rewrite E. cbn [bind fst snd].
    change (last (items :: next_items (rp_shuffler rp) noise items :: levels) [])
      with (last (next_items (rp_shuffler rp) noise items :: levels) []).
    cbn [hd] in IH. rewrite IH. cbn [bind fst snd map].
    rewrite (party_backward_spec db (S (length rest)) rp rp' noise items) by assumption. reflexivity.
Qed.
