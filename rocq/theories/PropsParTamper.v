(** Theorems about the integrity of answers with several servers per party. *)
From Verif Require Import Base Sizes BaseProofs Incremental Wire Onion Shuffle State Database Range Handlers Batch Party Chain Spec
  Toy PropsShuffle ChainSpec PeerSpec ParShuffle Parallel ParChain ParSpec ParForwardProofs ParFacts ParTagProofs ParOnlineProofs ParChainSpec ParChainProofs PropsChain PropsParChain
  TamperSpec PropsTamper ParTamperSpec ParTamper.
From Verif Require ConfigProofs.

(** C74.  Fix a deployment in which every party has several servers, orders of
    arrival and a link [j], and let somebody replace the responses that come
    back to all servers on that link by others, as many for each server as there
    should be.  There is a place on the link, a server and a position, for each
    query of each client, no two the same.  A client that does not compare what
    it gets with its own copy of the database accepts every replacement, and
    each of its rows is off by exactly what was changed at its place; one that
    does has the right rows when nothing was changed at its own places and
    aborts otherwise.  What is put at all other places (the answers to other
    clients' and to fake queries) makes no difference to it.  See
    [par_tampering] in ParTamperSpec. *)
Theorem C74_tampering_several : forall b rng iter db junk N clients parties keys bpk bsk,
  par_deployment rng db N clients parties keys -> par_keyed b db N clients parties keys bpk bsk ->
  (forall i l, Permutation (iter i l) l) -> bytes 52 junk ->
  exists trs btr, length trs = length parties /\
  (exists scs border, Forall2 (fits N) trs scs /\ complete N btr border) /\
  forall scs border, Forall2 (fits N) trs scs -> complete N btr border ->
  exists o, par_run b true rng iter db junk clients (combine parties scs) bpk bsk border = Ok o /\
    forall j, (j <= length parties)%nat -> exists place,
      par_tampering (fun checks rss' i => par_run_tampered b checks rng iter db clients (combine parties scs) bpk bsk border j rss' i) db
        (map ct_keys clients) (nth j (po_responses o) []) place.
Proof.
  intros b rng iter db junk N clients parties keys bpk bsk D K Hi J.
  destruct (par_run_tampering b rng iter db junk N clients parties keys bpk bsk D K Hi J) as (trs & btr & L & H).
  exists trs, btr. split; [exact L|]. split; [|exact H].
  destruct (fits_exist N trs) as (scs & Fs). destruct (complete_exists N btr) as (border & Hb). exists scs, border. split; assumption.
Qed.
Print Assumptions C74_tampering_several.

(** Likewise without an offline stage. *)
Theorem C74_tampering_several_simulated : forall rng db junk N clients parties keys,
  par_deployment rng db N clients parties keys -> bytes 52 junk ->
  exists trs, length trs = length parties /\
  (exists scs, Forall2 (fits_online N) trs scs) /\
  forall scs, Forall2 (fits_online N) trs scs ->
  exists o, par_run_simulated true rng db junk clients (combine parties scs) = Ok o /\
    forall j, (j <= length parties)%nat -> exists place,
      par_tampering (fun checks rss' i => par_run_simulated_tampered checks rng db clients (combine parties scs) j rss' i) db
        (map ct_keys clients) (nth j (po_responses o) []) place.
Proof.
  intros rng db junk N clients parties keys D J.
  destruct (par_run_simulated_tampering rng db junk N clients parties keys D J) as (trs & L & H).
  exists trs. split; [exact L|]. split; [|exact H].
  destruct (fits_exist N trs) as (scs & Fs). exists scs. eapply ConfigProofs.Forall2_impl; [|exact Fs]. intros tr sc (_ & _ & H3 & H4). split; assumption.
Qed.
Print Assumptions C74_tampering_several_simulated.

(** The middle link of the example deployment carries three responses to one
    server and four to the other.  With one of them replaced, at each place in
    turn: which of the two clients that check abort, and the values that the
    ones that do not check get. *)
Definition px_spoilt (rss : list (list (list Z))) (p : nat * nat) : list (list (list Z)) :=
  map (fun t => if (t =? fst p)%nat then ex_spoilt (nth t rss []) (snd p) else nth t rss []) (seq 0 (length rss)).
Example C74_several_example :
  (let* o := par_run toy_box true ex_rng px_iter ex_db (repeat 9 52) px_clients (combine px_parties (px_schedules false)) [3] [] (px_order false 0 5 5 0) in
   let rss := nth 1 (po_responses o) [] in
   let t checks p := map (par_run_tampered toy_box checks ex_rng px_iter ex_db px_clients (combine px_parties (px_schedules false)) [3] []
     (px_order false 0 5 5 0) 1 (px_spoilt rss p)) [0; 1]%nat in
   let places := [(0, 0); (0, 1); (0, 2); (1, 0); (1, 1); (1, 2); (1, 3)]%nat in
   Ok (map (@length _) rss, map (fun p => map (fun r => match r with Abort => true | _ => false end) (t true p)) places,
       map (fun p => map (fun r => match r with Ok l => map r_value l | _ => [] end) (t false p)) places)) =
  Ok ([3; 4]%nat,
      [[false; true]; [false; false]; [false; true]; [true; false]; [false; false]; [true; false]; [false; false]],
      [[[4; 0]; [2; 1212696648]]; [[4; 0]; [2; 4]]; [[4; 0]; [1111638594; 4]]; [[4; 1212696648]; [2; 4]];
       [[4; 0]; [2; 4]]; [[1111638594; 0]; [2; 4]]; [[4; 0]; [2; 4]]]).
Proof. vm_compute. reflexivity. Qed.

(** The example deployment meets the hypotheses. *)
Lemma px_iter_perm : forall i l, Permutation (px_iter i l) l.
Proof. intros i l. unfold px_iter. destruct (i =? 0)%nat; [symmetry; apply Permutation_rev|apply Permutation_refl]. Qed.
Example C74_several_example_met : exists trs btr, length trs = 2%nat /\
  (exists scs border, Forall2 (fits 2) trs scs /\ complete 2 btr border) /\
  forall scs border, Forall2 (fits 2) trs scs -> complete 2 btr border ->
  exists o, par_run toy_box true ex_rng px_iter ex_db (repeat 9 52) px_clients (combine px_parties scs) [3] [] border = Ok o /\
    forall j, (j <= 2)%nat -> exists place,
      par_tampering (fun checks rss' i => par_run_tampered toy_box checks ex_rng px_iter ex_db px_clients (combine px_parties scs) [3] [] border j rss' i) ex_db
        [[2; 0]; [1; 2]] (nth j (po_responses o) []) place.
Proof.
  apply (C74_tampering_several toy_box ex_rng px_iter ex_db (repeat 9 52) 2 px_clients px_parties ex_keys [3] [] px_deployment px_keyed px_iter_perm).
  split; [reflexivity|]. apply Forall_forall. intros x H. apply repeat_spec in H. unfold byte. lia.
Qed.
