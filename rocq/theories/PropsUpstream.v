(** What the parties before an honest one, and what the backend, learn. *)
From Verif Require Import Base BaseProofs Incremental Wire Onion Shuffle ParShuffle State Database Handlers Batch Party Chain Parallel ParChain Spec
  ChainSpec ParSpec ParChainSpec Toy OnlineProofs ChainProofs PropsShuffle PropsChain ParForwardProofs ParFacts ParTagProofs ParOnlineProofs ParChainProofs PropsParChain
  UpstreamSpec TagProofs UpstreamProofs ParParty ParPartyProofs ParShuffleProofs ParShuffleFacts.

(** C71 Take any run, an honest entity (party number [h], or the backend if [h] is
    the number of parties) and any other queries [keys'] of the same number.  With
    the same choices of everybody else, the client has exactly one choice of what it
    gives to the honest entity for which a run with [keys'] looks the same to all
    parties before it: the same number of messages everywhere, the same sizes of
    ciphers, the same secrets in the ciphers they open, the same queries sent and the
    same responses received.  As these choices are uniform, the parties before an
    honest one together learn nothing about the keys.  (Nothing is claimed about the
    entities after it; what a cipher reveals to those who cannot open it, but for its
    size, is not modelled.) *)
Theorem C71_upstream_parties_learn_nothing : forall b rng db junk c parties keys bpk bsk h keys',
  deployment rng db c parties keys -> keyed b db c parties keys bpk bsk -> bytes 52 junk ->
  (h <= length parties)%nat -> length keys' = length (ct_keys c) -> Forall (fun k => 0 <= k < Z.of_nat (length db)) keys' ->
  let n := length keys' in
  let run_with r ks := run b true rng db junk {| ct_pkeys := ct_pkeys c; ct_rand := r; ct_keys := ks |} parties bpk bsk in
  exists o, run_with (ct_rand c) (ct_keys c) = Ok o /\
  exists r', same_but h n (ct_rand c) r' /\ good_rand r' n (length keys) /\
    (exists o', run_with r' keys' = Ok o' /\ seen b keys h o' = seen b keys h o) /\
    (forall r'' o'', same_but h n (ct_rand c) r'' -> good_rand r'' n (length keys) -> run_with r'' keys' = Ok o'' ->
       seen b keys h o'' = seen b keys h o -> same_at h n r' r'').
Proof.
  intros b rng db junk c parties keys bpk bsk h keys' D K J Hh Hl Hk n run_with.
  destruct (run_spec b rng db junk c parties keys bpk bsk D K J) as (o & E & _).
  exists o. split; [destruct c; exact E|]. exact (upstream b rng db junk c parties keys bpk bsk o h keys' D K J E Hh Hl Hk).
Qed.
Print Assumptions C71_upstream_parties_learn_nothing.

(** With other keys and all the same choices the views do differ: in the client's
    queries and in what becomes of them. *)
Example C71_example :
  let run_with r ks := run toy_box true ex_rng ex_db (repeat 9 52) {| ct_pkeys := ct_pkeys ex_client; ct_rand := r; ct_keys := ks |}
                         [ex_conf 0; ex_conf 1] [3] [] in
  (exists o, run_with (ct_rand ex_client) [2; 0] = Ok o /\
     exists r', same_but 1 2 (ct_rand ex_client) r' /\ good_rand r' 2 3 /\
       exists o', run_with r' [1; 1] = Ok o' /\ seen toy_box ex_keys 1 o' = seen toy_box ex_keys 1 o) /\
  (let* o := run_with (ct_rand ex_client) [2; 0] in let* o' := run_with (ct_rand ex_client) [1; 1] in
   Ok (map (map q_tally) (vw_queries (seen toy_box ex_keys 1 o)), map (map q_tally) (vw_queries (seen toy_box ex_keys 1 o')))) =
  Ok ([[226891873; 881972865]; [459588201; 2002568702; 226891873]],
      [[362174821; 1517103221]; [277293439; 2002568702; 362174821]]).
Proof.
  cbv zeta. split.
  - destruct (C71_upstream_parties_learn_nothing toy_box ex_rng ex_db (repeat 9 52) ex_client [ex_conf 0; ex_conf 1] ex_keys [3] [] 1%nat [1; 1]
      ex_deployment ex_keyed) as (o & E & r' & S & G & (o' & E' & V) & _).
    + split; [reflexivity|]. apply Forall_repeat. unfold byte. lia.
    + cbn. lia.
    + reflexivity.
    + repeat constructor; cbn; lia.
    + exists o. split; [exact E|]. exists r'. split; [exact S|]. split; [exact G|]. exists o'. split; [exact E'|exact V].
  - vm_compute. reflexivity.
Qed.

(** C72 Tags are counted, not random, and the same on every link.  So the backend
    alone, from nothing but the tags of the queries it receives and the keys it looks
    up, can tell the key of the client's i-th query, for every i; and at every link
    the client's queries are exactly those with a tag below their number. *)
Theorem C72_tags_identify_queries : forall b rng db junk c parties keys bpk bsk,
  deployment rng db c parties keys -> keyed b db c parties keys bpk bsk -> bytes 52 junk ->
  let n := length (ct_keys c) in
  exists o, run b true rng db junk c parties bpk bsk = Ok o /\
    map (key_of_query (map q_tag (last (oc_queries o) [])) (oc_keys o)) (seq 0 n) = map Some (ct_keys c) /\
    forall qs, In qs (oc_queries o) -> Permutation (client_tags n (map q_tag qs)) (map Z.of_nat (seq 0 n)).
Proof.
  intros b rng db junk c parties keys bpk bsk D K J n.
  destruct (run_levels b rng db junk parties keys bpk bsk c D K J) as (o & E & _ & Q & _ & L & Ek & I & _). exists o. split; [exact E|].
  set (items := client_items (ct_rand c) (length keys) (ct_keys c)) in *.
  assert (Li : length items = n) by apply client_items_length.
  destruct (run_spec b rng db junk c parties keys bpk bsk D K J) as (o' & E' & _ & T & _). rewrite E in E'. injection E' as <-.
  rewrite Forall_forall in T.
  set (levels := levels_by rng (length keys) (length db) ls_backward 0 parties items) in *.
  assert (Hne : levels <> []) by (intros H; rewrite H in L; discriminate).
  split.
  - rewrite Q, (last_map (map q_of) levels [] []), map_map by exact Hne. cbn [q_tag q_of]. rewrite Ek, <- Li.
    etransitivity; [apply keys_found|].
    + rewrite Li. apply client_items_tags.
    + pose proof (last_nth_error levels [] Hne) as N. apply nth_error_In, (in_map (map q_of)) in N. rewrite <- Q in N. apply T in N.
      rewrite map_map in N. exact (tags_NoDup _ _ N).
    + apply (I (length levels - 1)%nat). apply last_nth_error. exact Hne.
    + f_equal. apply client_items_keys.
  - intros qs H. pose proof (T qs H) as P. apply low_tags; [rewrite map_length; exact P|].
    rewrite Q in H. apply in_map_iff in H as (l & <- & H). apply In_nth_error in H as (j & N). apply I in N.
    rewrite !map_length. rewrite <- Li. rewrite <- (map_length tagged items), <- (map_length tagged l). apply NoDup_incl_length; [|exact N].
    apply (NoDup_map_inv fst). rewrite map_map. change (NoDup (map it_tag items)). unfold items. rewrite client_items_tags.
    apply (tags_NoDup _ (length (ct_keys c))). apply Permutation_refl.
Qed.
Print Assumptions C72_tags_identify_queries.

(** With several servers: together the backend's servers can tell the key of every
    query of every client (in the order of the clients and their queries), and at
    every link the clients' queries are exactly those with a tag below their number. *)
Theorem C72_tags_identify_queries_of_all_clients : forall b rng iter db junk N clients parties keys bpk bsk,
  par_deployment rng db N clients parties keys -> par_keyed b db N clients parties keys bpk bsk ->
  (forall i l, Permutation (iter i l) l) -> bytes 52 junk ->
  let n := length (client_keys clients) in
  exists trs btr, length trs = length parties /\ (exists scs border, Forall2 (fits N) trs scs /\ complete N btr border) /\
  forall scs border, Forall2 (fits N) trs scs -> complete N btr border ->
  exists o, par_run b true rng iter db junk clients (combine parties scs) bpk bsk border = Ok o /\
    map (key_of_query (map q_tag (concat (last (po_queries o) []))) (concat (po_keys o))) (seq 0 n) = map Some (client_keys clients) /\
    length (po_queries o) = S (length parties) /\
    forall qss, In qss (po_queries o) -> Permutation (client_tags n (map q_tag (concat qss))) (map Z.of_nat (seq 0 n)).
Proof.
  intros b rng iter db junk N clients parties keys bpk bsk D K Hi J n.
  destruct (par_run_spec b rng iter db junk N clients parties keys bpk bsk D K Hi J) as (trs & btr & L & H).
  exists trs, btr. split; [exact L|]. split.
  - destruct (fits_exist N trs) as (scs & Fs). destruct (complete_exists N btr) as (border & Hb). exists scs, border. split; assumption.
  - intros scs border Fs Hb. destruct (H scs border Fs Hb) as (o & E & (_ & _ & Lc & Hc & Hs & Hq & _) & T & _ & F). exists o.
    split; [exact E|]. split; [exact F|]. split; [rewrite <- Lc, <- Hq, map_length; reflexivity|].
    intros qss Hin. rewrite Forall_forall in T. apply low_tags; [rewrite map_length; exact (T qss Hin)|]. rewrite map_length.
    apply In_nth_error in Hin. destruct Hin as (j & Nj).
    assert (Nc : nth_error (po_counts o) j = Some (lens qss)) by (rewrite <- Hq, nth_error_map, Nj; reflexivity).
    assert (Lq : forall ls, lens qss = map Z.of_nat ls -> length (concat qss) = list_sum ls).
    { intros ls El. rewrite length_concat_sum. f_equal. unfold lens in El. rewrite <- (map_map (fun x : list query => length x) Z.of_nat) in El.
      revert El. generalize (map (fun x : list query => length x) qss). intros l. revert ls. induction l as [|x l IH]; intros [|y ls] El; cbn [map] in El; try discriminate; [reflexivity|].
      injection El as E1 E2. f_equal; [lia|exact (IH _ E2)]. }
    destruct j as [|j].
    + destruct (po_counts o) as [|c0 cs]; [discriminate|]. injection Nc as ->. cbn [hd] in Hc.
      rewrite (Lq (map (fun c => length (ct_keys c)) clients)); [|rewrite map_map; exact Hc].
      unfold n, client_keys. rewrite flat_map_concat_map, length_concat_sum, map_map. reflexivity.
    + specialize (Hs j _ Nc). cbv zeta in Hs. rewrite <- (map_map (fun t => share_of _ N t) Z.of_nat) in Hs. rewrite (Lq _ Hs).
      pose proof (pd_tiled _ _ _ _ _ _ D) as ((T1 & _) & _).
      erewrite map_ext; [|intros t; apply share_slice]. change list_sum with sum. rewrite (slices_sum N) by lia. unfold n. lia.
Qed.
Print Assumptions C72_tags_identify_queries_of_all_clients.

(** In the example the backend looks up 1, 2, 0, 1 for tags 2, 0, 1, 3. *)
Example C72_example : (let* o := run toy_box true ex_rng ex_db (repeat 9 52) ex_client [ex_conf 0; ex_conf 1] [3] [] in
    Ok (map (key_of_query (map q_tag (last (oc_queries o) [])) (oc_keys o)) (seq 0 2), ct_keys ex_client)) =
  Ok ([Some 2; Some 0], [2; 0]).
Proof. vm_compute. reflexivity. Qed.
Example C72_example_servers : (let* o := par_run toy_box true ex_rng px_iter ex_db (repeat 9 52) px_clients
      (combine px_parties (px_schedules true)) [3] [] (px_order true 0 5 5 0) in
    Ok (map (key_of_query (map q_tag (concat (last (po_queries o) []))) (concat (po_keys o))) (seq 0 4), client_keys px_clients,
        map (fun qss => client_tags 4 (map q_tag (concat qss))) (po_queries o))) =
  Ok ([Some 2; Some 0; Some 1; Some 2], [2; 0; 1; 2], [[0; 1; 2; 3]; [3; 2; 1; 0]; [0; 3; 1; 2]]).
Proof. vm_compute. reflexivity. Qed.
