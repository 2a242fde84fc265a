(** A backend among arbitrary peers. *)
From Verif Require Import Base BaseProofs Incremental Wire WireProofs Additive AdditiveProofs Onion Shuffle Sizes State Database CipherBatch
  Range Handlers Batch Party Chain Net Stream CipherBatchProofs SharingProofs StreamProofs Lts Procs ProcProofs Spec ChainSpec ShuffleProofs OnlineProofs OfflineProofs OfflineParty ChainProofs ProcChain
  PeerSpec PeerProofs TalkSpec TalkProofs MeetSpec MeetProofs MeetParty.

Lemma does_unbind {C A B} Safe U (p : proc C A) : forall (f : A -> proc C B) I O Q,
  does Safe U (pbind p f) I O Q -> does Safe U p I O (fun a I' O' => does Safe U (f a) I' O' Q).
Proof.
  induction p as [a|w|c bs k IH|c n k IH|block l k IH]; intros f I O Q H; cbn [pbind does] in *; auto.
  intros n Hn. destruct (H n Hn) as [H1 H2]. split; [exact H1|]. apply IH. exact H2.
Qed.
Lemma does_mono {C A} Safe U (p : proc C A) : forall I O (Q Q' : A -> list (C * Z) -> list (C * Z) -> Prop),
  (forall a I O, Q a I O -> Q' a I O) -> does Safe U p I O Q -> does Safe U p I O Q'.
Proof.
  induction p as [a|w|c bs k IH|c n k IH|block l k IH]; intros I O Q Q' HQ H; cbn [does] in *; eauto.
  intros n Hn. destruct (H n Hn) as [H1 H2]. split; [exact H1|]. eapply IH; eauto.
Qed.
Lemma does_fold_app {C A S} Safe U (g : S -> A -> proc C S) l2 (Q : S -> list (C * Z) -> list (C * Z) -> Prop) : forall l1 s I O,
  does Safe U (pfold g l1 s) I O (fun s' I' O' => does Safe U (pfold g l2 s') I' O' Q) -> does Safe U (pfold g (l1 ++ l2) s) I O Q.
Proof.
  induction l1 as [|a l1 IH]; intros s I O H; cbn [pfold app] in *; [exact H|].
  apply does_bind. apply does_unbind in H. eapply does_mono; [|exact H]. cbn beta. intros s' I' O'. apply IH.
Qed.

(** The answerable queries at the front of a list. *)
Section Split.
  Context (db : list response) (l : list osecret).
  Definition good (qs : list query) (secs : list osecret) (rows : list response) : Prop :=
    Forall2 (secret_of l) qs secs /\
    map (fun k => nth_error db (Z.to_nat k)) (map (fun x => incremental_reconstruct (q_tally (fst x)) (o_share (snd x))) (combine qs secs)) = map Some rows.
  Definition bad (q : query) : Prop :=
    ~ In (q_tag q) (map o_tag l) \/
    exists s, secret_of l q s /\ nth_error db (Z.to_nat (incremental_reconstruct (q_tally q) (o_share s))) = None.

  Lemma good_front : forall qs, (exists secs rows, good qs secs rows) \/
    exists l1 q l2 secs rows, qs = l1 ++ q :: l2 /\ good l1 secs rows /\ bad q.
  Proof.
    induction qs as [|q qs IH]; [left; exists [], []; split; [constructor|reflexivity]|].
    destruct (known_or_not l q) as [(s & Hs)|Hs].
    2:{ right. exists [], q, qs, [], []. split; [reflexivity|]. split; [split; [constructor|reflexivity]|left; exact Hs]. }
    destruct (nth_error db (Z.to_nat (incremental_reconstruct (q_tally q) (o_share s)))) as [row|] eqn:Er.
    2:{ right. exists [], q, qs, [], []. split; [reflexivity|]. split; [split; [constructor|reflexivity]|right; exists s; auto]. }
    destruct IH as [(secs & rows & F & E)|(l1 & q' & l2 & secs & rows & -> & (F & E) & B)].
    - left. exists (s :: secs), (row :: rows). split; [constructor; assumption|]. cbn [combine map fst snd]. rewrite Er, E. reflexivity.
    - right. exists (q :: l1), q', l2, (s :: secs), (row :: rows). split; [reflexivity|]. split; [|exact B].
      split; [constructor; assumption|]. cbn [combine map fst snd]. rewrite Er, E. reflexivity.
  Qed.
End Split.

Section Backend.
  Variables (b : sealbox) (pk sk : list Z) (db : list response) (junk : list Z) (j n : nat) (online : bool) (mem : nat -> list Z).
  Hypothesis Hsz : box_sizes b pk sk.
  Hypothesis Hdb : Forall wf_response db.
  Hypothesis Hj : bytes 52 junk.
  Hypothesis Hn : Z.of_nat n < 2 ^ 32.
  Hypothesis Hmem : forall i, length (mem i) = BUFFER_SIZE.

  Notation hist := (list (chan * Z)).
  Notation said := (backend_said b pk sk db n online).
  Notation cin := (count_in n).
  Notation takes := (accepted b pk sk 124 n).

  Definition bown (O : hist) : Prop := forall c x, List.In (c, x) O -> c = Bwd j \/ (c = Lis j /\ x = 1).
  Definition bcounted (I : hist) : Prop := forall n', announces (on (Fwd j) I) n' -> n' = Z.of_nat n.
  Definition BSafe (I O : hist) : Prop := bcounted I -> bown O /\ said (on (Fwd j) I) (on (Bwd j) O).
  Definition BU (I : hist) : Prop := bcounted I -> online = true /\ unanswerable b pk sk db n (on (Fwd j) I).
  Record bat (prev back : list Z) (I O : hist) : Prop := { ba_prev : on (Fwd j) I = prev; ba_back : on (Bwd j) O = back; ba_own : bown O }.

  Lemma bcounted_less I x : bcounted (I ++ x) -> bcounted I.
  Proof using. intros C n' [U1 B]. apply C. split; [exact U1|]. rewrite on_app. apply begins_more. exact B. Qed.
  Lemma bsafe_mono I O x : BSafe I O -> BSafe (I ++ x) O.
  Proof using.
    intros HS C. destruct (HS (bcounted_less _ _ C)) as [HO HS']. split; [exact HO|]. rewrite !on_app. clear -HS'.
    destruct HS'; eauto using backend_said, begins_more.
  Qed.
  Lemma bu_mono I x : BU I -> BU (I ++ x).
  Proof using.
    intros HS C. destruct (HS (bcounted_less _ _ C)) as (E & cs & opens & raw & q & A & L & F & B & R). split; [exact E|].
    exists cs, opens, raw, q. do 3 (split; [assumption|]). split; [|exact R]. rewrite on_app. apply begins_more. exact B.
  Qed.
  Lemma bat_read prev back I O bs : bat prev back I O -> bat (prev ++ bs) back (I ++ map (pair (Fwd j)) bs) O.
  Proof using. intros [<- <- Ho]. split; auto. rewrite on_app, on_same. reflexivity. Qed.
  Lemma bat_send prev back I O bs : bat prev back I O -> bat prev (back ++ bs) I (O ++ map (pair (Bwd j)) bs).
  Proof using.
    intros [<- <- Ho]. split; auto; [rewrite on_app, on_same; reflexivity|]. intros c x Hin. apply in_app_or in Hin.
    destruct Hin as [Hin|Hin]; [apply Ho; exact Hin|]. apply in_map_iff in Hin. destruct Hin as (y & E & _). inversion E; subst. auto.
  Qed.
  Lemma bat_safe prev back I O : bat prev back I O -> said prev back -> BSafe I O.
  Proof using. intros [<- <- Ho] HS. split; auto. Qed.

  Notation dos := (does BSafe BU).
  Lemma bsend {X A} est (p : proc chan A) a bs prev back I O (Q : A -> hist -> hist -> Prop) :
    @follows_on chan X A est p (map (Snd (Bwd j)) bs) a -> bat prev back I O ->
    (forall w, begins w bs -> said prev (back ++ w)) ->
    (forall O', bat prev (back ++ bs) I O' -> Q a I O') -> dos p I O Q.
  Proof using.
    intros F A0 HS HQ. eapply (does_sends _ _ est p _ a F (Bwd j) bs); [reflexivity| |].
    - intros w Hw. eapply bat_safe; [apply bat_send; exact A0|]. apply HS. exact Hw.
    - apply HQ. apply bat_send. exact A0.
  Qed.
  Definition bother (I : hist) : Prop := exists n', announces (on (Fwd j) I) n' /\ n' <> Z.of_nat n.
  Lemma bother_more I x : bother I -> bother (I ++ x).
  Proof using. intros (n' & [U1 B] & Ne). exists n'. split; [|exact Ne]. split; [exact U1|]. rewrite on_app. apply begins_more. exact B. Qed.
  Lemma bother_counted I : bother I -> ~ bcounted I.
  Proof using. intros (n' & A & Ne) C. exact (Ne (C _ A)). Qed.
  Lemma does_bother {A} (p : proc chan A) I O (Q : A -> hist -> hist -> Prop) : bother I -> (forall a I' O', bother I' -> Q a I' O') -> dos p I O Q.
  Proof using.
    intros Hot HQ. apply does_anything.
    - intros x O' C. destruct (bother_counted (I ++ x)); [apply bother_more; exact Hot|exact C].
    - intros x C. destruct (bother_counted (I ++ x)); [apply bother_more; exact Hot|exact C].
    - intros a x O'. apply HQ. apply bother_more. exact Hot.
  Qed.

  Lemma backend_cases cs : length cs = n -> Forall (bytes 124) cs ->
    fold_res (backend_handle_cipher b true pk sk) cs (qs_initialize_state qs_new false) = Abort \/
    exists opens p, takes cs opens /\ stores_last p (map fst opens) /\ Forall (fun s => bytes 52 (o_preshare s)) (map fst opens) /\
      fold_res (backend_handle_cipher b true pk sk) cs (qs_initialize_state qs_new false) = Ok p.
  Proof using Hsz.
    intros Lcs Bc. destruct (c60_backend b true pk sk cs Hsz Bc) as (H1 & H2).
    unfold backend_offline in H1, H2. rewrite Nat2Z.id, recv_all in H1, H2 by reflexivity. cbn [bind] in H1, H2.
    destruct (all_or_bad b pk sk cs) as [Hb|(opens & Eo)]; [left; apply H1; exact Hb|].
    destruct (H2 opens Eo) as (H3 & H4).
    destruct (ListDec.NoDup_dec Z.eq_dec (map (fun x => o_tag (fst x)) opens)) as [Nd|Nd]; [|left; apply H4; exact Nd].
    right. destruct (install_stores_last true (map fst opens)) as (p & E & K); [rewrite map_map; exact Nd|].
    exists opens, p. split; [constructor; assumption|]. split; [exact K|].
    split; [exact (backend_shows_bytes b pk sk cs opens Hsz Bc Eo)|]. rewrite H3. exact E.
  Qed.

  Lemma does_boffline I O (Q : Z * qstate -> hist -> hist -> Prop) : bat [] [] I O ->
    (forall s I' O', bother I' \/ (exists cs opens, takes cs opens /\ stores_last (snd s) (map fst opens) /\
       Forall (fun s => bytes 52 (o_preshare s)) (map fst opens) /\ fst s = Z.of_nat n /\
       bat (cin ++ concat cs) [1; 1] I' O') -> Q s I' O') ->
    dos (pbackend_offline b true mem (S j) pk sk) I O Q.
  Proof using All.
    intros A0 HQ. unfold pbackend_offline. replace (S j - 1)%nat with j by lia. apply does_bind. apply does_count. intros n' U'.
    apply bat_read with (bs := le 4 n') in A0. cbn [app] in A0.
    destruct (Z.eq_dec n' (Z.of_nat n)) as [->|Ne].
    2:{ apply does_bother; [|intros; apply HQ; left; assumption].
        exists n'. split; [|exact Ne]. split; [exact U'|]. rewrite (ba_prev _ _ _ _ A0). apply begins_refl. }
    fold cin in A0. apply does_bind. eapply bsend with (bs := [1]); [apply (fo_ready (X := unit) (est := established))|exact A0| |].
    { intros w Hw. apply bsaid_ready; [apply begins_refl|exact Hw]. }
    clear A0. intros O1 A1. cbn [app] in A1. apply does_bind. rewrite Nat2Z.id. change backend_in_size with 124%nat.
    apply does_take_ciphers; [exact bu_mono|apply Hmem|unfold BUFFER_SIZE; lia|exact Hn| |].
    { intros msgs Bm Lm Eub. exfalso.
      assert (Bz : bytes 124 (repeat 0 124)).
      { split; [apply repeat_length|]. apply Forall_forall. intros x Hx. apply repeat_spec in Hx. subst x. unfold byte. lia. }
      set (cs := msgs ++ repeat (repeat 0 124) (n - length msgs)).
      assert (Lcs : length cs = n) by (unfold cs; rewrite app_length, repeat_length; lia).
      assert (Bcs : Forall (bytes 124) cs).
      { apply Forall_app. split; [exact Bm|]. apply Forall_forall. intros x Hx. apply repeat_spec in Hx. subst x. exact Bz. }
      assert (E : fold_res (backend_handle_cipher b true pk sk) cs (qs_initialize_state qs_new false) = UB).
      { unfold cs. rewrite fold_res_app, Eub. reflexivity. }
      destruct (backend_cases cs Lcs Bcs) as [E'|(? & ? & _ & _ & _ & E')]; congruence. }
    intros cs p Bcs Lcs Ep. destruct (backend_cases cs Lcs Bcs) as [E'|(opens & p' & Tk & Sp & Bp & E')]; [congruence|].
    rewrite Ep in E'. inversion E'; subst p'. clear E'. apply bat_read with (bs := concat cs) in A1. apply does_bind.
    eapply bsend with (bs := [1]); [apply (fo_ready (X := unit) (est := established))|exact A1| |].
    { intros w Hw. eapply bsaid_stored; [exact Tk|apply begins_refl|]. apply (begins_app [1]). exact Hw. }
    clear A1. intros O2 A2. cbn [does app] in *. apply HQ. right. exists cs, opens. cbn [fst snd]. auto.
  Qed.

  Notation f := (fun (s : list Z * qstate) q =>
      let* h := backend_handle_query db junk (snd s) q in
      let '(key, resp, p') := h in
      Ok (resp, (fst s ++ [key], p'))).

  (** Handling the answerable queries, and one that is not. *)
  Lemma answering l p qs secs rows : stores_last p l -> Forall (fun s => bytes 52 (o_preshare s)) l -> good db l qs secs rows ->
    exists p', fold_res (fun s a => let* x := f (snd s) a in Ok (fst s ++ [fst x], snd x)) qs ([], ([], p)) =
      Ok (map (fun x => xorl (enc_response (fst x)) (o_preshare (snd x))) (combine rows secs),
          (map (fun x => incremental_reconstruct (q_tally (fst x)) (o_share (snd x))) (combine qs secs), p')) /\
    sized response_size (map (fun x => xorl (enc_response (fst x)) (o_preshare (snd x))) (combine rows secs)) /\
    forall q, bad db l q -> f (map (fun x => incremental_reconstruct (q_tally (fst x)) (o_share (snd x))) (combine qs secs), p') q = UB.
  Proof using Hdb Hj.
    intros Sp Bp (Fs & Er). destruct (backend_any db junk l Hdb Hj Bp qs p [] [] Sp) as (_ & A2). destruct (A2 secs Fs) as (_ & A4).
    destruct (A4 rows Er) as (p' & E). exists p'. cbn [app] in E. pose proof (backend_as_fold _ _ _ _ _ _ _ _ _ E) as E'. split; [exact E'|]. split.
    - apply Forall_map. apply Forall_forall. intros [row s] Hin. cbn [fst snd].
      pose proof (in_combine_l _ _ _ _ Hin) as Hr. pose proof (in_combine_r _ _ _ _ Hin) as Hs.
      assert (Wr : wf_response row).
      { rewrite Forall_forall in Hdb. apply Hdb. assert (Hm : In (Some row) (map Some rows)) by (apply in_map; exact Hr). rewrite <- Er in Hm.
        apply in_map_iff in Hm. destruct Hm as (k & Hk & _). eapply nth_error_In. exact Hk. }
      assert (Bs : bytes 52 (o_preshare s)).
      { rewrite Forall_forall in Bp. apply Bp. clear -Fs Hs. induction Fs as [|q s' ? ? [Hin _] Fs IH]; [contradiction|]. destruct Hs as [->|Hs]; auto. }
      rewrite length_xorl; rewrite (proj1 (bytes_enc_response row Wr)); [reflexivity|]. symmetry. apply Bs.
    - intros q Hb.
      set (g := fun (s : list Z * list (list Z) * qstate) q =>
        let '(keys, resps, p) := s in
        let* h := backend_handle_query db junk p q in
        let '(key, resp, p') := h in
        Ok (keys ++ [key], resps ++ [resp], p')) in *.
      assert (Eb : fold_res g (qs ++ [q]) ([], [], p) = UB).
      { destruct (backend_any db junk l Hdb Hj Bp (qs ++ [q]) p [] [] Sp) as (B1 & B2). destruct Hb as [Hq|(s & Hs & Hk)].
        - apply B1. exists q. split; [apply in_or_app; right; left; reflexivity|exact Hq].
        - destruct (B2 (secs ++ [s])) as (B3 & _); [apply Forall2_app; [exact Fs|repeat constructor; apply Hs]|]. apply B3.
          exists (incremental_reconstruct (q_tally q) (o_share s)). split; [|exact Hk].
          apply in_map_iff. exists (q, s). split; [reflexivity|].
          assert (Lc : length qs = length secs) by (eapply Forall2_length'; exact Fs).
          clear -Lc. revert secs Lc. induction qs as [|a qs IH]; intros [|c secs] Lc; try discriminate; cbn; [left; reflexivity|].
          right. apply IH. cbn in Lc. congruence. }
      rewrite fold_res_app, E in Eb. cbn [bind fold_res] in Eb. unfold g at 1 in Eb. cbn [snd].
      destruct (backend_handle_query db junk p' q) as [[[key resp] p2]| | |]; cbn [bind] in *; [discriminate|discriminate|reflexivity|discriminate].
  Qed.

  Lemma does_bonline cs opens s I O (Q : list Z -> hist -> hist -> Prop) : online = true -> takes cs opens ->
    stores_last (snd s) (map fst opens) -> Forall (fun s => bytes 52 (o_preshare s)) (map fst opens) -> fst s = Z.of_nat n ->
    bat (cin ++ concat cs) [1; 1] I O ->
    (forall raw looked_up answers I' O', length raw = n -> Forall (bytes 12) raw -> answered db opens raw looked_up answers ->
       bat (cin ++ concat cs ++ concat raw) ([1; 1] ++ concat answers) I' O' -> Q looked_up I' O') ->
    dos (pbackend_online mem (S j) db junk (fst s) (snd s)) I O Q.
  Proof using All.
    intros Eon Tk Sp Bp -> A0 HQ. destruct s as [s0 p]. cbn [snd] in *. unfold pbackend_online. replace (S j - 1)%nat with j by lia.
    rewrite Nat2Z.id. apply does_bind.
    assert (Push : forall qs, length qs = n -> fold_res bt_push qs (bt_initialize zero_query n) = Ok {| bt_data := qs; bt_right := length qs |}).
    { intros qs Lqs. unfold bt_initialize. rewrite <- Lqs. pose proof (push_all_queries zero_query qs [] 0 eq_refl) as E. exact E. }
    apply does_take_each; [exact bu_mono|apply Hmem|apply message_sizes|exact Hn| |].
    { intros msgs Bm Lm Eub. exfalso. rewrite (fold_map dec_query bt_push) in Eub.
      pose proof (Push (map dec_query msgs ++ repeat zero_query (n - length msgs))) as E.
      rewrite app_length, map_length, repeat_length, fold_res_app, Eub in E. specialize (E ltac:(lia)). discriminate E. }
    intros raw bt Braw Lraw Ebt. rewrite (fold_map dec_query bt_push), Push in Ebt by (rewrite map_length; exact Lraw).
    inversion Ebt; subst bt. clear Ebt. unfold bt_all. cbn [bt_data]. apply bat_read with (bs := concat raw) in A0. rewrite <- app_assoc in A0.
    apply does_bind. destruct (good_front db (map fst opens) (map dec_query raw)) as [(secs & rows & Gd)|(l1 & q & l2 & secs & rows & El & Gd & Bq)].
    - destruct (answering _ p _ secs rows Sp Bp Gd) as (p' & E & Sz & _).
      set (answers := map (fun x => xorl (enc_response (fst x)) (o_preshare (snd x))) (combine rows secs)) in *.
      set (ks := map (fun x => incremental_reconstruct (q_tally (fst x)) (o_share (snd x))) (combine (map dec_query raw) secs)) in *.
      assert (An : answered db opens raw ks answers).
      { exists secs, rows. destruct Gd as [G1 G2]. split; [exact G1|]. split; [reflexivity|]. split; [exact G2|reflexivity]. }
      destruct (fo_send_messages (X := unit) (est := established) (Bwd j) (mem 2%nat) response_size f _ _ _ _
        (Hmem 2%nat) (proj2 message_sizes) E Sz) as (w1 & w2 & e1 & e2 & F1 & F2 & Qe).
      assert (SR : forall w, begins w (concat answers) -> said (cin ++ concat cs ++ concat raw) ([1; 1] ++ w)).
      { intros w Hw. eapply bsaid_responses with (raw := raw) (rest := []); [exact Eon|exact Tk|rewrite app_nil_r; exact Lraw|rewrite app_nil_r; exact Braw|exact An
          |rewrite app_nil_r; apply begins_refl|apply begins_app; exact Hw]. }
      rewrite Qe in SR. eapply bsend; [exact F1|exact A0| |].
      { intros w Hw. apply SR. apply begins_more. exact Hw. }
      clear A0. intros O1 A1. cbn [fst snd]. apply does_bind. eapply bsend; [exact F2|exact A1| |].
      { intros w Hw. rewrite <- app_assoc. apply SR. apply begins_app. exact Hw. }
      clear A1. intros O2 A2. rewrite <- app_assoc, <- Qe in A2. cbn [does]. exact (HQ raw ks answers _ _ Lraw Braw An A2).
    - destruct (answering _ p _ secs rows Sp Bp Gd) as (p' & E & Sz & HB). specialize (HB q Bq).
      set (answers := map (fun x => xorl (enc_response (fst x)) (o_preshare (snd x))) (combine rows secs)) in *.
      set (ks := map (fun x => incremental_reconstruct (q_tally (fst x)) (o_share (snd x))) (combine l1 secs)) in *.
      destruct (map_eq_app _ _ _ _ El) as (raw1 & raw2 & -> & E1 & E2).
      destruct raw2 as [|q0 raw2]; [discriminate E2|]. cbn [map] in E2. inversion E2; subst q l2. subst l1.
      assert (An : answered db opens raw1 ks answers).
      { exists secs, rows. destruct Gd as [G1 G2]. split; [exact G1|]. split; [reflexivity|]. split; [exact G2|reflexivity]. }
      destruct (fo_send_messages (X := unit) (est := established) (Bwd j) (mem 2%nat) response_size f _ _ _ _
        (Hmem 2%nat) (proj2 message_sizes) E Sz) as (w1 & w2 & e1 & e2 & F1 & F2 & Qe).
      unfold psend_each in *. rewrite El. apply does_fold_app. eapply bsend; [exact F1|exact A0| |].
      { intros w Hw. eapply bsaid_responses with (raw := raw1) (rest := q0 :: raw2); [exact Eon|exact Tk|exact Lraw|exact Braw|exact An
          |apply begins_refl|]. rewrite Qe. apply begins_app. apply begins_more. exact Hw. }
      intros O1 A1. cbn [pfold fst snd]. cbn [fst snd] in HB. apply does_bind. rewrite HB. cbn [lift pbind does].
      intros _ C. split; [exact Eon|]. exists cs, opens, (raw1 ++ q0 :: raw2), q0. split; [exact Tk|]. split; [exact Lraw|]. split; [exact Braw|].
      split; [rewrite (ba_prev _ _ _ _ A1); apply begins_refl|]. split; [apply in_or_app; right; left; reflexivity|].
      destruct Bq as [Bq|Bq]; [left; rewrite map_map in Bq; exact Bq|right; exact Bq].
  Qed.

  Lemma does_backend : dos (pbackend b true true online mem (S j) db junk pk sk) [] []
    (fun a I O => bcounted I -> exists looked_up, a = BackendEnd looked_up /\
       backend_finished b pk sk db n online looked_up (on (Fwd j) I) (on (Bwd j) O)).
  Proof using All.
    unfold pbackend. replace (S j - 1)%nat with j by lia.
    apply does_bind. unfold plisten. apply does_bind. unfold psys_send. cbn [does]. intros n1 Hn1. cbn [length] in Hn1.
    assert (n1 = 1%nat) as -> by lia. cbn [firstn map app].
    assert (Ow : bown [(Lis j, 1)]) by (intros c x [E|[]]; inversion E; subst; auto).
    split; [intros _; split; [exact Ow|apply bsaid_nothing]|].
    apply does_bind. unfold psys_read. cbn [does]. intros g1 _ _. cbn [does app].
    assert (A0 : bat [] [] (map (pair (Con j)) g1) [(Lis j, 1)]) by (split; [rewrite on_other; reflexivity|reflexivity|exact Ow]).
    apply does_bind. apply does_boffline; [exact A0|]. intros s I O [Hot|(cs & opens & Tk & Sp & Bp & Ec & A1)].
    { apply does_bother; [exact Hot|]. intros a I' O' Hot' C. destruct (bother_counted _ Hot' C). }
    apply does_bind. remember online as onl eqn:Eon. destruct onl.
    - eapply does_bonline; [symmetry; exact Eon|exact Tk|exact Sp|exact Bp|exact Ec|exact A1|].
      intros raw ks answers I' O' Lr Br An A2 C. exists ks. split; [reflexivity|]. destruct A2 as [-> -> _]. eapply bfinished_online; eassumption.
    - cbn [does]. intros C. exists []. split; [reflexivity|]. destruct A1 as [-> -> _]. eapply bfinished_offline; eassumption.
  Qed.
End Backend.
