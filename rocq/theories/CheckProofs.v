(** What a process can return, whatever its system calls deliver; the client's check. *)
From Verif Require Import Base BaseProofs Incremental Wire WireProofs Additive AdditiveProofs Onion Shuffle Sizes State Database CipherBatch
  Range Handlers Batch Party Chain Net Stream Lts Procs ParProcs ParCrash.

Inductive may_return {C A} : proc C A -> A -> Prop :=
| mr_ret a : may_return (Ret a) a
| mr_write c bs k n a : may_return (k n) a -> may_return (Write c bs k) a
| mr_read c n k got a : may_return (k got) a -> may_return (Read c n k) a
| mr_poll block l k fs a : may_return (k fs) a -> may_return (Poll block l k) a.

Lemma mr_bind {C A B} (p : proc C A) : forall (f : A -> proc C B) z, may_return (pbind p f) z ->
  exists a, may_return p a /\ may_return (f a) z.
Proof.
  induction p as [a|w|c bs k IH|c n k IH|block l k IH]; intros f z H; cbn [pbind] in H.
  - exists a. split; [constructor|exact H].
  - inversion H.
  - inversion H as [|? ? ? ? ? M|? ? ? ? ? M|? ? ? ? ? M]; subst. destruct (IH _ _ _ M) as (a & H1 & H2). exists a. split; [econstructor; exact H1|exact H2].
  - inversion H as [|? ? ? ? ? M|? ? ? ? ? M|? ? ? ? ? M]; subst. destruct (IH _ _ _ M) as (a & H1 & H2). exists a. split; [econstructor; exact H1|exact H2].
  - inversion H as [|? ? ? ? ? M|? ? ? ? ? M|? ? ? ? ? M]; subst. destruct (IH _ _ _ M) as (a & H1 & H2). exists a. split; [econstructor; exact H1|exact H2].
Qed.
Lemma mr_lift {C A} (r : res A) a : may_return (@lift C A r) a -> r = Ok a.
Proof. destruct r; cbn; intros H; inversion H; reflexivity. Qed.
Lemma mr_Ret {C A} (x a : A) : may_return (@Ret C A x) a -> x = a.
Proof. intros H. inversion H. reflexivity. Qed.
Lemma mr_relabel {C C' A} (f : C -> C') (p : proc C A) : forall a, may_return (relabel f p) a -> may_return p a.
Proof.
  induction p as [x|w|c bs k IH|c n k IH|block l k IH]; intros a H; cbn [relabel] in H; inversion H; subst; econstructor; eauto.
Qed.

(** ** Networks *)
Lemma mr_step {C} (eqb : C -> C -> bool) cap (s s' : net C ending) q p a : proc_step eqb cap s q s' ->
  may_return (nt_proc s' p) a -> may_return (nt_proc s p) a.
Proof.
  intros St. destruct St; cbn [nt_proc]; unfold set_proc; destruct (Nat.eqb_spec p q) as [->|]; auto;
    intros M; rewrite H; econstructor; exact M.
Qed.

Lemma mr_crash cap s s' p a : crash_step cap s s' ->
  may_return (nt_proc (cn_net s') p) a -> may_return (nt_proc (cn_net s) p) a.
Proof.
  intros St. destruct St; cbn [cn_net nt_proc]; auto.
  - eapply mr_step; eassumption.
  - unfold set_proc. destruct (Nat.eqb_spec p p0) as [->|]; auto. intros M. rewrite H0. econstructor. exact M.
Qed.
Lemma mr_crashes cap s s' p a : reach (crash_step cap) s s' ->
  may_return (nt_proc (cn_net s') p) a -> may_return (nt_proc (cn_net s) p) a.
Proof. intros [n H]. induction H; eauto using mr_crash. Qed.

Lemma mr_par_crash N cap s s' p a : par_crash_step N cap s s' ->
  may_return (nt_proc (pn_net s') p) a -> may_return (nt_proc (pn_net s) p) a.
Proof.
  intros St. destruct St; cbn [pn_net nt_proc]; auto.
  - eapply mr_step; eassumption.
  - unfold set_proc. destruct (Nat.eqb_spec p p0) as [->|]; auto. intros M. rewrite H0. econstructor. exact M.
  - unfold set_proc. destruct (Nat.eqb_spec p p0) as [->|]; auto. intros M. rewrite H0. econstructor. exact M.
Qed.
Lemma mr_par_crashes N cap s s' p a : reach (par_crash_step N cap) s s' ->
  may_return (nt_proc (pn_net s') p) a -> may_return (nt_proc (pn_net s) p) a.
Proof. intros [n H]. induction H; eauto using mr_par_crash. Qed.

(** ** The client *)
Lemma map_res_lengths {A} (f : A -> res (list Z)) n l xs : (forall a x, f a = Ok x -> length x = n) ->
  map_res f l = Ok xs -> Forall (fun x => length x = n) xs.
Proof.
  intros F. revert xs; induction l as [|a l IH]; intros xs H; cbn [map_res] in H.
  - inversion H. constructor.
  - destruct (f a) as [x| | |] eqn:E; cbn [bind] in H; try discriminate.
    destruct (map_res f l) as [t| | |]; cbn [bind] in H; try discriminate. inversion H; subst. constructor; [eapply F; eauto|apply IH; reflexivity].
Qed.

Lemma rd_length m o n x : rd m o n = Ok x -> length x = n.
Proof.
  unfold rd. destruct (Nat.leb_spec (o + n) (length m)) as [H|H]; [|discriminate].
  intros E. inversion E. rewrite firstn_length, skipn_length. lia.
Qed.
Lemma take_each_returns {S} (c : chan) (handle : S -> list Z -> res S) : forall fuel count b m s s',
  may_return (pread_each lb_ops fuel c handle count b m s) s' ->
  exists xs, (count <= length xs)%nat /\ Forall (fun x => length x = bo_unit lb_ops b) xs /\ fold_res handle xs s = Ok s'.
Proof.
  induction fuel as [|fuel IH]; intros count b m s s' H; cbn [pread_each] in H; destruct (Nat.ltb_spec 0 count) as [Hc|Hc].
  - inversion H.
  - apply mr_Ret in H. subst. exists []. split; [cbn; lia|]. split; [constructor|reflexivity].
  - apply mr_bind in H. destruct H as ([b1 m1] & H1 & H). cbn [fst snd] in H.
    apply mr_bind in H. destruct H as (offs & _ & H).
    apply mr_bind in H. destruct H as (xs & Hx & H). apply mr_lift in Hx.
    apply mr_bind in H. destruct H as (s1 & Hs & H). apply mr_lift in Hs.
    apply mr_bind in H. destruct H as ([m2 b2] & Hcl & H). apply mr_lift in Hcl. cbn [fst snd] in H.
    apply IH in H. destruct H as (ys & Ly & Fy & Ey).
    unfold pread_buf in H1. apply mr_bind in H1. destruct H1 as (got & _ & H1).
    apply mr_bind in H1. destruct H1 as (m' & _ & H1). apply mr_Ret in H1.
    assert (U : bo_unit lb_ops b1 = bo_unit lb_ops b) by (apply (f_equal fst) in H1; cbn [fst] in H1; rewrite <- H1; reflexivity).
    assert (U2 : bo_unit lb_ops b2 = bo_unit lb_ops b).
    { rewrite <- U. clear - Hcl. unfold lb_ops in Hcl. cbn [bo_clear] in Hcl. unfold lb_ops. cbn [bo_unit].
      repeat match type of Hcl with context [bind ?x _] => destruct x; cbn [bind] in Hcl; try discriminate end.
      inversion Hcl. reflexivity. }
    exists (xs ++ ys). rewrite app_length. split; [lia|]. split.
    + apply Forall_app. split.
      * cbn [fst snd] in Hx. rewrite U in Hx. eapply map_res_lengths; [|exact Hx]. intros o x E. apply rd_length in E. exact E.
      * rewrite U2 in Fy. exact Fy.
    + rewrite fold_res_app, Hs. cbn [bind]. exact Ey.
  - apply mr_Ret in H. subst. exists []. split; [cbn; lia|]. split; [constructor|reflexivity].
Qed.

Lemma sig_loop_true l r : forall n i, sig_loop l r n i = Ok true -> forall j, (i <= j < i + n)%nat ->
  exists a, nth_error l j = Some a /\ nth_error r j = Some a.
Proof.
  induction n as [|n IH]; intros i H j Hj; [lia|]. cbn [sig_loop] in H.
  destruct (get l i) as [x| | |] eqn:E1; cbn [bind] in H; try discriminate.
  destruct (get r i) as [y| | |] eqn:E2; cbn [bind] in H; try discriminate.
  destruct (Z.eqb_spec x y) as [->|]; cbn [negb] in H; [|discriminate].
  destruct (Nat.eq_dec j i) as [->|]; [exists y; split; apply get_Ok; assumption|apply (IH (S i)); [exact H|lia]].
Qed.

Lemma response_eqb_true l r : response_eqb l r = Ok true -> length (r_sig l) = 48%nat -> length (r_sig r) = 48%nat -> l = r.
Proof.
  unfold response_eqb. destruct l as [v s], r as [v' s']. cbn [r_value r_sig]. intros H L L'.
  destruct (Z.eqb_spec v v') as [->|]; cbn [negb] in H; [|discriminate]. f_equal.
  apply nth_error_ext. intros j. destruct (Nat.lt_ge_cases j 48) as [Hj|Hj].
  - destruct (sig_loop_true _ _ _ _ H j) as (a & -> & ->); [unfold SIG_SIZE; lia|reflexivity].
  - rewrite !(proj2 (nth_error_None _ _)); [reflexivity|lia|lia].
Qed.

Lemma wr_length m o bs x : wr m o bs = Ok x -> length x = length m.
Proof.
  unfold wr. destruct (Nat.leb_spec (o + length bs) (length m)) as [H|H]; [|discriminate].
  intros E. inversion E. rewrite !app_length, firstn_length, skipn_length. lia.
Qed.
Lemma xor_mem_length m tp sp dp sz x : xor_mem m tp sp dp sz = Ok x -> length x = length m.
Proof.
  unfold xor_mem. remember (sz / 4)%nat as n eqn:En. clear En. generalize 0%nat. revert m. induction n as [|n IH]; intros m i H; cbn [for_] in H.
  - inversion H. reflexivity.
  - destruct (xor_body tp sp dp i m) as [y| | |] eqn:E; cbn [bind] in H; try discriminate. apply IH in H. rewrite H.
    unfold xor_body in E. destruct (rd m (tp + 4 * i) 4); cbn [bind] in E; try discriminate.
    destruct (rd m (sp + 4 * i) 4); cbn [bind] in E; try discriminate. eapply wr_length. exact E.
Qed.
Lemma xor_inplace_length a b x : xor_inplace a b = Ok x -> length x = length a.
Proof.
  unfold xor_inplace. destruct (xor_mem (a ++ b) 0 (length a) 0 (length b)) as [m| | |] eqn:E; cbn [bind]; try discriminate.
  intros H. inversion H; subst. rewrite firstn_length. apply xor_mem_length in E. rewrite E, app_length. lia.
Qed.

Lemma client_handle_returns db xs : Forall wf_response db -> Forall (fun x => length x = 52%nat) xs -> forall keys l st s',
  fold_res (fun s m =>
      let '(keys, l, st) := s in
      let* m := client_reconstruct st m in
      let response := dec_response (fst m) in
      let* key := get keys 0 in
      let* expected := db_lookup db key in
      let* eq := response_eqb response expected in
      let* _ := assert_ eq in
      Ok (tl keys, l ++ [response], snd m)) xs (keys, l, st) = Ok s' ->
  exists done, length done = length xs /\ keys = done ++ fst (fst s') /\
    map Some (snd (fst s')) = map Some l ++ map (fun k => nth_error db (Z.to_nat k)) done.
Proof.
  intros D. induction xs as [|x xs IH]; intros F keys l st s' H; cbn [fold_res] in H.
  - inversion H; subst. exists []. cbn. rewrite app_nil_r. auto.
  - inversion F as [|? ? Fx Fr]; subst.
    destruct (client_reconstruct st x) as [[y st1]| | |] eqn:E1; cbn [bind fst snd] in H; try discriminate.
    destruct keys as [|k keys]; [discriminate H|]. cbn [get nth_error bind tl] in H.
    destruct (db_lookup db k) as [e| | |] eqn:E2; cbn [bind] in H; try discriminate.
    destruct (response_eqb (dec_response y) e) as [q| | |] eqn:E3; cbn [bind] in H; try discriminate.
    destruct q; cbn [assert_ bind] in H; [|discriminate].
    apply (IH Fr) in H. destruct H as (done & Ld & Ek & Em). exists (k :: done).
    split; [cbn; lia|]. split; [cbn; f_equal; exact Ek|].
    rewrite Em, map_app, <- app_assoc. f_equal. cbn [map app]. f_equal.
    unfold db_lookup in E2. apply get_Ok in E2. rewrite E2. f_equal.
    apply response_eqb_true in E3; [exact E3| |].
    + unfold client_reconstruct in E1. destruct (cs_get_pre (cs_load_next st)) as [z| | |] eqn:Ez; cbn [bind] in E1; try discriminate.
      destruct (additive_reconstruct x z) as [w| | |] eqn:Ew; cbn [bind] in E1; try discriminate. inversion E1; subst w.
      apply xor_inplace_length in Ew. unfold dec_response. cbn [r_sig]. rewrite skipn_length. lia.
    + rewrite Forall_forall in D. destruct (D e) as [_ [L _]]; [eapply nth_error_In; exact E2|exact L].
Qed.

Lemma client_check b offline id mem parties db c l : Forall wf_response db ->
  may_return (pclient b true offline true id mem parties db c) (ClientEnd l) ->
  map Some l = map (fun k => nth_error db (Z.to_nat k)) (ct_keys c).
Proof.
  intros D H. unfold pclient in H. apply mr_bind in H. destruct H as ([] & _ & H).
  apply mr_bind in H. destruct H as (st & _ & H). apply mr_bind in H. destruct H as (l' & H & Hr).
  apply mr_Ret in Hr. inversion Hr; subst l'. clear Hr. unfold pclient_online in H.
  apply mr_bind in H. destruct H as (r & _ & H). apply mr_bind in H. destruct H as (fl & _ & H).
  apply mr_bind in H. destruct H as (s & Ht & H). apply mr_Ret in H. subst l.
  unfold take_each in Ht. apply take_each_returns in Ht. destruct Ht as (xs & Lx & Fx & Ef).
  apply client_handle_returns in Ef; [|exact D|exact Fx]. destruct Ef as (done & Ld & Ek & Em).
  rewrite Em. cbn [map app]. f_equal. destruct s as [[keys' l'] st']. cbn [fst] in *.
  destruct keys' as [|k keys']; [rewrite Ek, app_nil_r; reflexivity|].
  apply (f_equal (@length _)) in Ek. rewrite app_length in Ek. cbn [length] in Ek. lia.
Qed.
