(** A backend among arbitrary peers, the offline stage simulated. *)
From Verif Require Import Base BaseProofs Incremental IncrementalProofs Wire WireProofs Additive AdditiveProofs Onion Shuffle Sizes State StateProofs Database CipherBatch
  Range Handlers Batch Party Chain Net Stream CipherBatchProofs SharingProofs StreamProofs Lts Procs ProcProofs Spec ChainSpec ShuffleProofs OnlineProofs OfflineProofs OfflineParty ChainProofs ProcChain
  PeerSpec PeerProofs TalkSpec TalkProofs MeetSpec MeetProofs MeetParty MeetBackend MeetSimulated.



Section Backend.
  Variables (db : list response) (junk : list Z) (j n : nat) (online : bool) (mem : nat -> list Z).
  Hypothesis Hdb : Forall wf_response db.
  Hypothesis Hj : bytes 52 junk.
  Hypothesis Hn : Z.of_nat n < 2 ^ 32.
  Hypothesis Hmem : forall i, length (mem i) = BUFFER_SIZE.

  Notation hist := (list (chan * Z)).
  Notation said := (sim_backend_said db n online).
  Notation cin := (count_in n).
  Notation key m := (q_tally (passed m)).
  Notation row_of m := (nth_error db (Z.to_nat (key m))).

  Definition simulated (p : qstate) : Prop := qs_sim p = true /\ find_tag (qs_map p) 0 = Some identity_secret.
  Lemma serve p m : simulated p -> bytes 12 m -> backend_handle_query db junk p (dec_query m) =
    match row_of m with Some row => Ok (key m, enc_response row, qs_load p (q_tag (dec_query m))) | None => UB end.
  Proof using All.
    intros [E1 E2] B. unfold backend_handle_query, qs_incremental, bs_preshare, qs_load. cbn [qs_it]. rewrite E1, E2. cbn [ptr bind st_share st_pre identity_secret].
    assert (Eh : incremental_reconstruct (q_tally (dec_query m)) {| sx := 0; sy := 1 |} = q_tally (dec_query m) mod PRIME)
      by exact (f_equal q_tally (handled_nothing _ (dec_tally m B))).
    rewrite Eh. unfold db_lookup, get. unfold passed. cbn [q_tally].
    destruct (nth_error db (Z.to_nat (q_tally (dec_query m) mod PRIME))) as [row|] eqn:Er; cbn [bind]; [|reflexivity].
    assert (W : wf_response row) by (rewrite Forall_forall in Hdb; apply Hdb; eapply nth_error_In; exact Er).
    pose proof (bytes_enc_response row W) as Bw.
    rewrite (reconstruct_to (enc_response row) (repeat 0 PRESHARE_SIZE) junk); cbn [bind].
    - change (repeat 0 PRESHARE_SIZE) with zero52. rewrite (xorl_zero_r (enc_response row)) by apply Bw. reflexivity.
    - exact Bw.
    - split; [reflexivity|]. apply Forall_repeat. unfold byte. lia.
    - exact Hj.
  Qed.

  Notation f := (fun (s : list Z * qstate) q =>
      let* h := backend_handle_query db junk (snd s) q in
      let '(key, resp, p') := h in
      Ok (resp, (fst s ++ [key], p'))).
  Lemma serving : forall raw rows p acc ks, simulated p -> Forall (bytes 12) raw -> map (fun m => row_of m) raw = map Some rows ->
    exists p', simulated p' /\ fold_res (fun s a => let* x := f (snd s) a in Ok (fst s ++ [fst x], snd x)) (map dec_query raw) (acc, (ks, p)) =
      Ok (acc ++ map enc_response rows, (ks ++ map (fun m => key m) raw, p')).
  Proof using All.
    induction raw as [|m raw IH]; intros [|row rows] p acc ks Sp B E; try discriminate E; cbn [map fold_res].
    - exists p. split; [exact Sp|]. rewrite !app_nil_r. reflexivity.
    - pose proof (f_equal (hd None) E) as E1. pose proof (f_equal (@tl _) E) as E2. cbn [map hd tl] in E1, E2. inversion B; subst. cbn [fst snd]. rewrite (serve p m Sp) by assumption. rewrite E1. cbn [bind fst snd].
      destruct (IH rows (qs_load p (q_tag (dec_query m))) (acc ++ [enc_response row]) (ks ++ [key m])) as (p' & Sp' & Ef); [exact Sp|assumption|exact E2|].
      exists p'. split; [exact Sp'|]. rewrite Ef, <- !app_assoc. reflexivity.
  Qed.
  Lemma served_front : forall raw, (exists rows, map (fun m => row_of m) raw = map Some rows) \/
    exists l1 m l2 rows, raw = l1 ++ m :: l2 /\ map (fun m => row_of m) l1 = map Some rows /\ row_of m = None.
  Proof using.
    clear. induction raw as [|m raw IH]; [left; exists []; reflexivity|].
    destruct (row_of m) as [row|] eqn:Er; [|right; exists [], m, raw, []; auto].
    destruct IH as [(rows & E)|(l1 & m' & l2 & rows & -> & E & Em)].
    - left. exists (row :: rows). cbn [map]. rewrite Er, E. reflexivity.
    - right. exists (m :: l1), m', l2, (row :: rows). cbn [map app]. rewrite Er, E. auto.
  Qed.
  Lemma rows_sized raw rows : map (fun m => row_of m) raw = map Some rows -> sized response_size (map enc_response rows).
  Proof using Hdb.
    intros E. apply Forall_map, Forall_forall. intros row Hr. rewrite Forall_forall in Hdb.
    assert (W : wf_response row).
    { apply Hdb. assert (Hm : In (Some row) (map Some rows)) by (apply in_map; exact Hr). rewrite <- E in Hm.
      apply in_map_iff in Hm. destruct Hm as (m & Hm & _). eapply nth_error_In. exact Hm. }
    exact (proj1 (bytes_enc_response row W)).
  Qed.
  Lemma served_rows raw rows : map (fun m => row_of m) raw = map Some rows -> served db raw (map (fun m => key m) raw) (map enc_response rows).
  Proof using. intros E. split; [reflexivity|]. exists rows. split; [rewrite map_map; exact E|reflexivity]. Qed.

  Definition TSafe (I O : hist) : Prop := bcounted j n I -> bown j O /\ said (on (Fwd j) I) (on (Bwd j) O).
  Definition TU (I : hist) : Prop := bcounted j n I -> online = true /\ missing_row db n (on (Fwd j) I).
  Notation bat := (bat j).
  Lemma tsafe_mono I O x : TSafe I O -> TSafe (I ++ x) O.
  Proof using.
    intros HS C. destruct (HS (bcounted_less _ _ _ _ C)) as [HO HS']. split; [exact HO|]. rewrite !on_app. clear -HS'.
    destruct HS'; eauto using sim_backend_said, begins_more.
  Qed.
  Lemma tu_mono I x : TU I -> TU (I ++ x).
  Proof using.
    intros HS C. destruct (HS (bcounted_less _ _ _ _ C)) as (E & raw & q & L & F & B & R). split; [exact E|].
    exists raw, q. do 2 (split; [assumption|]). split; [|exact R]. rewrite on_app. apply begins_more. exact B.
  Qed.
  Lemma tat_safe prev back I O : bat prev back I O -> said prev back -> TSafe I O.
  Proof using. intros [<- <- Ho] HS. split; auto. Qed.

  Notation dos := (does TSafe TU).
  Lemma tsend {X A} est (p : proc chan A) a bs prev back I O (Q : A -> hist -> hist -> Prop) :
    @follows_on chan X A est p (map (Snd (Bwd j)) bs) a -> bat prev back I O ->
    (forall w, begins w bs -> said prev (back ++ w)) ->
    (forall O', bat prev (back ++ bs) I O' -> Q a I O') -> dos p I O Q.
  Proof using.
    intros F A0 HS HQ. eapply (does_sends _ _ est p _ a F (Bwd j) bs); [reflexivity| |].
    - intros w Hw. eapply tat_safe; [apply bat_send; exact A0|]. apply HS. exact Hw.
    - apply HQ. apply bat_send. exact A0.
  Qed.
  Lemma does_tother {A} (p : proc chan A) I O (Q : A -> hist -> hist -> Prop) : bother j n I -> (forall a I' O', bother j n I' -> Q a I' O') -> dos p I O Q.
  Proof using.
    intros Hot HQ. apply does_anything.
    - intros x O' C. destruct (bother_counted j n (I ++ x)); [apply bother_more; exact Hot|exact C].
    - intros x C. destruct (bother_counted j n (I ++ x)); [apply bother_more; exact Hot|exact C].
    - intros a x O'. apply HQ. apply bother_more. exact Hot.
  Qed.

  Lemma does_tonline p I O (Q : list Z -> hist -> hist -> Prop) : online = true -> simulated p -> bat cin [1] I O ->
    (forall raw looked_up answers I' O', length raw = n -> Forall (bytes 12) raw -> served db raw looked_up answers ->
       bat (cin ++ concat raw) ([1] ++ concat answers) I' O' -> Q looked_up I' O') ->
    dos (pbackend_online mem (S j) db junk (Z.of_nat n) p) I O Q.
  Proof using All.
    intros Eon Sp A0 HQ. unfold pbackend_online. replace (S j - 1)%nat with j by lia.
    rewrite Nat2Z.id. apply does_bind.
    assert (Push : forall qs, length qs = n -> fold_res bt_push qs (bt_initialize zero_query n) = Ok {| bt_data := qs; bt_right := length qs |}).
    { intros qs Lqs. unfold bt_initialize. rewrite <- Lqs. pose proof (push_all_queries zero_query qs [] 0 eq_refl) as E. exact E. }
    apply does_take_each; [exact tu_mono|apply Hmem|apply message_sizes|exact Hn| |].
    { intros msgs Bm Lm Eub. exfalso. rewrite (fold_map dec_query bt_push) in Eub.
      pose proof (Push (map dec_query msgs ++ repeat zero_query (n - length msgs))) as E.
      rewrite app_length, map_length, repeat_length, fold_res_app, Eub in E. specialize (E ltac:(lia)). discriminate E. }
    intros raw bt Braw Lraw Ebt. rewrite (fold_map dec_query bt_push), Push in Ebt by (rewrite map_length; exact Lraw).
    inversion Ebt; subst bt. clear Ebt. unfold bt_all. cbn [bt_data]. apply bat_read with (bs := concat raw) in A0.
    apply does_bind. destruct (served_front raw) as [(rows & Er)|(raw1 & m & raw2 & rows & Eraw & Er & Em)].
    - destruct (serving raw rows p [] [] Sp Braw Er) as (p' & _ & E). cbn [app] in E.
      pose proof (served_rows raw rows Er) as An.
      destruct (fo_send_messages (X := unit) (est := established) (Bwd j) (mem 2%nat) response_size f _ _ _ _
        (Hmem 2%nat) (proj2 message_sizes) E (rows_sized _ _ Er)) as (w1 & w2 & e1 & e2 & F1 & F2 & Qe).
      assert (SR : forall w, begins w (concat (map enc_response rows)) -> said (cin ++ concat raw) ([1] ++ w)).
      { intros w Hw. eapply sbsaid_responses with (raw := raw) (rest := []); [exact Eon|rewrite app_nil_r; exact Lraw|rewrite app_nil_r; exact Braw|exact An
          |rewrite app_nil_r; apply begins_refl|apply begins_app; exact Hw]. }
      rewrite Qe in SR. eapply tsend; [exact F1|exact A0| |].
      { intros w Hw. apply SR. apply begins_more. exact Hw. }
      clear A0. intros O1 A1. cbn [fst snd]. apply does_bind. eapply tsend; [exact F2|exact A1| |].
      { intros w Hw. rewrite <- app_assoc. apply SR. apply begins_app. exact Hw. }
      clear A1. intros O2 A2. rewrite <- app_assoc, <- Qe in A2. cbn [does]. exact (HQ raw _ _ _ _ Lraw Braw An A2).
    - subst raw. pose proof Braw as Braw'. apply Forall_app in Braw'. destruct Braw' as [B1 B2]. inversion B2 as [|? ? Bm _]; subst.
      destruct (serving raw1 rows p [] [] Sp B1 Er) as (p' & Sp' & E). cbn [app] in E.
      pose proof (served_rows raw1 rows Er) as An.
      destruct (fo_send_messages (X := unit) (est := established) (Bwd j) (mem 2%nat) response_size f _ _ _ _
        (Hmem 2%nat) (proj2 message_sizes) E (rows_sized _ _ Er)) as (w1 & w2 & e1 & e2 & F1 & F2 & Qe).
      unfold psend_each in *. rewrite map_app. apply does_fold_app. eapply tsend; [exact F1|exact A0| |].
      { intros w Hw. eapply sbsaid_responses with (raw := raw1) (rest := m :: raw2); [exact Eon|exact Lraw|exact Braw|exact An
          |apply begins_refl|]. rewrite Qe. apply begins_app. apply begins_more. exact Hw. }
      intros O1 A1. cbn [map pfold fst snd]. apply does_bind. rewrite (serve p' m Sp' Bm), Em. cbn [bind lift pbind does].
      intros _ C. split; [exact Eon|]. exists (raw1 ++ m :: raw2), m. split; [exact Lraw|]. split; [exact Braw|].
      split; [rewrite (ba_prev _ _ _ _ _ A1); apply begins_refl|]. split; [apply in_or_app; right; left; reflexivity|exact Em].
  Qed.

  Lemma does_sim_backend b pk sk : dos (pbackend b true false online mem (S j) db junk pk sk) [] []
    (fun a I O => bcounted j n I -> exists looked_up, a = BackendEnd looked_up /\
       sim_backend_finished db n online looked_up (on (Fwd j) I) (on (Bwd j) O)).
  Proof using All.
    unfold pbackend. replace (S j - 1)%nat with j by lia.
    apply does_bind. unfold plisten. apply does_bind. unfold psys_send. cbn [does]. intros n1 Hn1. cbn [length] in Hn1.
    assert (n1 = 1%nat) as -> by lia. cbn [firstn map app].
    assert (Ow : bown j [(Lis j, 1)]) by (intros c x [E|[]]; inversion E; subst; auto).
    split; [intros _; split; [exact Ow|apply sbsaid_nothing]|].
    apply does_bind. unfold psys_read. cbn [does]. intros g1 _ _. cbn [does app].
    assert (A0 : bat [] [] (map (pair (Con j)) g1) [(Lis j, 1)]) by (split; [rewrite on_other; reflexivity|reflexivity|exact Ow]).
    apply does_bind. unfold pbackend_simulate. replace (S j - 1)%nat with j by lia. apply does_bind. apply does_count. intros n' U'.
    apply bat_read with (bs := le 4 n') in A0. cbn [app] in A0.
    destruct (Z.eq_dec n' (Z.of_nat n)) as [->|Ne].
    2:{ assert (Hot : bother j n (map (pair (Con j)) g1 ++ map (pair (Fwd j)) (le 4 n'))).
        { exists n'. split; [|exact Ne]. split; [exact U'|]. rewrite (ba_prev _ _ _ _ _ A0). apply begins_refl. }
        apply does_tother; [exact Hot|]. intros. apply does_tother; [assumption|]. intros a0 I0 O0 Hot' C. destruct (bother_counted _ _ _ Hot' C). }
    apply does_bind. eapply tsend with (bs := [1]); [apply (fo_ready (X := unit) (est := established))|exact A0| |].
    { intros w Hw. apply sbsaid_ready; [apply begins_refl|exact Hw]. }
    clear A0. intros O1 A1. cbn [app does] in *. change (le 4 (Z.of_nat n)) with cin in *.
    apply does_bind. remember online as onl eqn:Eon. destruct onl.
    - cbn [fst snd]. eapply does_tonline; [symmetry; exact Eon|split; reflexivity|exact A1|].
      intros raw ks answers I' O' Lr Br An A2 C. exists ks. split; [reflexivity|]. destruct A2 as [-> -> _]. eapply sbfinished_online; eassumption.
    - cbn [does]. intros C. exists []. split; [reflexivity|]. destruct A1 as [-> -> _]. apply sbfinished_offline.
  Qed.
End Backend.
