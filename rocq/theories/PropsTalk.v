(** C75: a client among arbitrary peers. *)
From Verif Require Import Base Incremental Wire Additive Onion Sizes State Database Handlers Party Chain Net Lts Procs ParProcs ParCrash
  ChainSpec Spec Toy PropsChain TalkSpec TalkProofs.

(** Whatever it talks to, a client says only the beginning of a fixed string of
    bytes, which depends on the client alone; its behaviour is never undefined;
    and when it returns it has said everything and, if assertions are enabled,
    got the rows it asked for. *)
Theorem C75_client : forall b asserts offline online mem db keys id c, sound_client b db keys id c ->
  (forall i, length (mem i) = BUFFER_SIZE) -> (offline = true -> asserts = true) ->
  exists ciphers queries, client_makes b offline online id (length keys) c ciphers queries /\
    forall out p, talk (pclient b asserts offline online (Z.of_nat id) mem (length keys) db c) out p ->
      begins out (client_words (length (ct_keys c)) ciphers queries) /\
      p <> Crash Undefined /\
      forall e, p = Ret e -> out = client_words (length (ct_keys c)) ciphers queries /\
        exists l, e = ClientEnd l /\ length l = (if online then length (ct_keys c) else 0%nat) /\
          (online = true -> asserts = true -> map Some l = map (fun k => nth_error db (Z.to_nat k)) (ct_keys c)).
Proof.
  intros b asserts offline online mem db keys id c Sc Hmem Ha.
  destruct (client_says b asserts offline online mem db keys id c Sc Hmem Ha) as (cs & qs & M & Sy).
  exists cs, qs. split; [exact M|]. intros out p T. destruct (says_talk _ _ _ T _ _ Sy) as (rest & E & Sp).
  split; [exists rest; exact E|]. split; [intros ->; apply Sp; reflexivity|].
  intros e ->. cbn [says] in Sp. destruct Sp as (-> & Hl). rewrite app_nil_r in E. auto.
Qed.
Print Assumptions C75_client.

(** In an execution of a network of arbitrary processes, in which any of them
    may be killed at any time. *)
Theorem C75_network : forall b asserts offline online mem db keys id c, sound_client b db keys id c ->
  (forall i, length (mem i) = BUFFER_SIZE) -> (offline = true -> asserts = true) ->
  exists ciphers queries, client_makes b offline online id (length keys) c ciphers queries /\
    forall cap p s, nt_proc (cn_net s) p = pclient b asserts offline online (Z.of_nat id) mem (length keys) db c ->
    (forall s', reach (crash_step cap) s s' -> exists out, logged (crash_step cap) (fun s => nt_proc (cn_net s) p) s out s') /\
    forall out s', logged (crash_step cap) (fun s => nt_proc (cn_net s) p) s out s' ->
      begins out (client_words (length (ct_keys c)) ciphers queries) /\ nt_proc (cn_net s') p <> Crash Undefined.
Proof.
  intros b asserts offline online mem db keys id c Sc Hmem Ha.
  destruct (C75_client b asserts offline online mem db keys id c Sc Hmem Ha) as (cs & qs & M & H).
  exists cs, qs. split; [exact M|]. intros cap p s E. split.
  - intros s' R. apply logged_exists; [|exact R]. intros s1 s2 St. apply (move_crash cap _ _ p St).
  - intros out s' L. apply logged_talk in L. rewrite E in L. destruct (H _ _ L) as (H1 & H2 & _). auto.
Qed.
Print Assumptions C75_network.

(** Client [i] among the processes of a deployment with several servers per
    party. *)
Theorem C75_network_servers : forall b asserts offline online mem db keys id c, sound_client b db keys id c ->
  (forall i, length (mem i) = BUFFER_SIZE) -> (offline = true -> asserts = true) ->
  exists ciphers queries, client_makes b offline online id (length keys) c ciphers queries /\
    forall N cap p i s, nt_proc (pn_net s) p = relabel (Link i) (pclient b asserts offline online (Z.of_nat id) mem (length keys) db c) ->
    (forall s', reach (par_crash_step N cap) s s' -> exists out, logged (par_crash_step N cap) (fun s => nt_proc (pn_net s) p) s out s') /\
    forall out s', logged (par_crash_step N cap) (fun s => nt_proc (pn_net s) p) s out s' ->
      begins out (map (fun x => (Link i (fst x), snd x)) (client_words (length (ct_keys c)) ciphers queries)) /\
      nt_proc (pn_net s') p <> Crash Undefined.
Proof.
  intros b asserts offline online mem db keys id c Sc Hmem Ha.
  destruct (C75_client b asserts offline online mem db keys id c Sc Hmem Ha) as (cs & qs & M & H).
  exists cs, qs. split; [exact M|]. intros N cap p i s E. split.
  - intros s' R. apply logged_exists; [|exact R]. intros s1 s2 St. apply (move_par_crash N cap _ _ p St).
  - intros out s' L. apply logged_talk in L. rewrite E in L.
    destruct (talk_relabel _ _ _ _ L _ eq_refl) as (q & out' & Eq & -> & T). destruct (H _ _ T) as ((rest & Er) & H2 & _).
    split; [exists (map (fun x => (Link i (fst x), snd x)) rest); rewrite Er, map_app; reflexivity|].
    rewrite Eq. destruct q; try discriminate. cbn [relabel]. intros X. apply H2. inversion X. reflexivity.
Qed.
Print Assumptions C75_network_servers.

(** The client of the example deployment. *)
Lemma ex_sound_client : sound_client toy_box ex_db ex_keys 0 ex_client.
Proof.
  pose proof ex_deployment as D. pose proof ex_keyed as K. split.
  - split; [exact (dp_db _ _ _ _ _ D)|]. apply (dp_rows _ _ _ _ _ D).
  - exact (dp_queries _ _ _ _ _ D).
  - vm_compute. reflexivity.
  - pose proof (dp_max _ _ _ _ _ D) as X. pose proof (dp_count _ _ _ _ _ D) as Y. rewrite <- Y in *. split; [apply le_n_S, Nat.le_0_l|exact X].
  - exact (ky_box _ _ _ _ _ _ _ K).
  - exact (ky_client _ _ _ _ _ _ _ K).
  - exact (ky_rand _ _ _ _ _ _ _ K).
Qed.

(** A world that takes everything and answers with the bytes [w]. *)
Fixpoint listen_to {C A} (p : proc C A) (w : list Z) : list (C * Z) * proc C A :=
  match p with
  | Write c bs k => match bs with [] => ([], p) | _ => let r := listen_to (k (length bs)) w in (map (pair c) bs ++ fst r, snd r) end
  | Read c n k => match w with [] => ([], p) | _ => listen_to (k (firstn n w)) (skipn n w) end
  | _ => ([], p)
  end.
Lemma listen_to_talk {C A} (p : proc C A) : forall w, talk p (fst (listen_to p w)) (snd (listen_to p w)).
Proof.
  induction p as [a|f|c bs k IH|c n k IH|block l k IH]; intros w; cbn [listen_to].
  - constructor.
  - constructor.
  - destruct bs as [|x bs]; [constructor|]. cbn [fst snd].
    pose proof (talk_write c (x :: bs) k (length (x :: bs)) _ _ ltac:(cbn; lia) (IH _ w)) as T. rewrite firstn_all in T. exact T.
  - destruct w as [|x w]; [constructor|]. eapply talk_read; [|apply IH]. rewrite firstn_length. lia.
  - constructor.
Qed.
(** After both ready bytes it gets bytes that are not the masked rows: it has
    said everything (1 + 4 + 2 * 372 + 2 * 12 bytes) and aborts; with a byte that
    is no ready byte it aborts before it has sent its queries.  Without an
    offline stage and assertions it takes what it gets. *)
Definition ex_talking (asserts offline : bool) : proc chan ending :=
  pclient toy_box asserts offline true 0 (fun _ => repeat 7 BUFFER_SIZE) (length ex_keys) ex_db ex_client.
Example C75_example :
  (let r := listen_to (ex_talking true true) ([1; 1; 1] ++ repeat 77 104) in (length (fst r), snd r)) = (773%nat, Crash Aborted) /\
  (let r := listen_to (ex_talking true true) ([1; 1; 0] ++ repeat 77 104) in (length (fst r), snd r)) = (749%nat, Crash Aborted) /\
  (let r := listen_to (ex_talking false false) ([1; 1] ++ repeat 77 104) in
   (length (fst r), match snd r with Ret (ClientEnd l) => length l | _ => 0%nat end)) = (29%nat, 2%nat).
Proof. vm_compute. repeat split. Qed.
