(** Theorems about the integrity of answers. *)
From Verif Require Import Base Sizes Stream BaseProofs Incremental Wire Onion Shuffle State Database Range Handlers Batch Party Chain Net Lts Procs ParProcs ParCrash Spec
  Toy PropsShuffle ChainSpec PeerSpec TamperSpec TamperProofs CheckProofs PropsChain PropsCrash.
From Verif Require Import Chain.

(** C74.  Fix a deployment and a link [j] between the client and the backend, and
    let somebody replace the responses that come back on that link by others, as
    many as there should be.  There is a place on the link for each of the
    client's queries, no two the same, fixed beforehand.  If the client does not
    compare what it gets with its own copy of the database, it accepts every
    replacement, and each row is off by exactly what was changed at its place;
    if it does, it has the right rows when nothing was changed at those places
    and aborts otherwise.  What is put at all other places (the answers to fake
    queries) makes no difference.  See [tampering] in TamperSpec. *)
Theorem C74_tampering : forall b rng db junk c parties keys bpk bsk,
  deployment rng db c parties keys -> keyed b db c parties keys bpk bsk -> bytes 52 junk ->
  exists o, run b true rng db junk c parties bpk bsk = Ok o /\
    forall j, (j <= length parties)%nat -> exists pos,
      tampering (fun checks rs' => run_tampered b checks rng db c parties bpk bsk j rs') db (ct_keys c) (nth j (oc_responses o) []) pos.
Proof. exact run_tampering. Qed.
Print Assumptions C74_tampering.

(** Likewise without an offline stage. *)
Theorem C74_tampering_simulated : forall rng db junk c parties keys,
  deployment rng db c parties keys -> bytes 52 junk ->
  exists o, run_simulated true rng db junk c parties = Ok o /\
    forall j, (j <= length parties)%nat -> exists pos,
      tampering (fun checks rs' => run_simulated_tampered checks rng db c parties j rs') db (ct_keys c) (nth j (oc_responses o) []) pos.
Proof. exact run_simulated_tampering. Qed.
Print Assumptions C74_tampering_simulated.

(** C74.  With assertions compiled in, a client that returns from a run with an
    online stage has the rows it asked for, whatever the other processes are,
    whatever is under way on the connections, whoever is killed, and whatever
    bytes are lost.  (The client needs the database for that.) *)
Theorem C74_client_checks : forall b offline id mem parties db c cap s s' p l, Forall wf_response db ->
  nt_proc (cn_net s) p = pclient b true offline true id mem parties db c ->
  reach (crash_step cap) s s' -> nt_proc (cn_net s') p = Ret (ClientEnd l) ->
  map Some l = map (fun k => nth_error db (Z.to_nat k)) (ct_keys c).
Proof.
  intros b offline id mem parties db c cap s s' p l D E R Er. apply (client_check b offline id mem parties); [exact D|].
  rewrite <- E. apply (mr_crashes cap s s' p); [exact R|]. rewrite Er. constructor.
Qed.
Print Assumptions C74_client_checks.

(** Likewise for client [i] of a deployment with several servers per party. *)
Theorem C74_client_checks_servers : forall b offline id mem parties db c N cap s s' p i l, Forall wf_response db ->
  nt_proc (pn_net s) p = relabel (Link i) (pclient b true offline true id mem parties db c) ->
  reach (par_crash_step N cap) s s' -> nt_proc (pn_net s') p = Ret (ClientEnd l) ->
  map Some l = map (fun k => nth_error db (Z.to_nat k)) (ct_keys c).
Proof.
  intros b offline id mem parties db c N cap s s' p i l D E R Er. apply (client_check b offline id mem parties); [exact D|].
  apply (mr_relabel (Link i)). rewrite <- E. apply (mr_par_crashes N cap s s' p); [exact R|]. rewrite Er. constructor.
Qed.
Print Assumptions C74_client_checks_servers.

(** The middle link of the example deployment carries three responses.  With
    one of them replaced, at each place in turn: whether the client that checks
    aborts, and the values that the one that does not check gets.  The second
    place is the fake query's. *)
Definition ex_spoilt (rs : list (list Z)) (p : nat) : list (list Z) := upd rs p (repeat 77 52).
Example C74_example :
  (let* o := run toy_box true ex_rng ex_db (repeat 9 52) ex_client [ex_conf 0; ex_conf 1] [3] [] in
   let rs := nth 1 (oc_responses o) [] in
   let t checks p := run_tampered toy_box checks ex_rng ex_db ex_client [ex_conf 0; ex_conf 1] [3] [] 1 (ex_spoilt rs p) in
   Ok (length rs, map (fun p => match t true p with Abort => true | _ => false end) (seq 0 (length rs)),
       map (fun p => match t false p with Ok l => map r_value l | _ => [] end) (seq 0 (length rs)))) =
  Ok (3%nat, [true; false; true], [[4; 1212696648]; [4; 0]; [1111638594; 0]]).
Proof. vm_compute. reflexivity. Qed.

(** A process that accepts the client's connection, takes its count and its
    queries, and answers with bytes of its own choice.  With the rows asked for
    (nothing is masked, as there is no offline stage) the client returns; with
    others it does not. *)
Definition ex_impostor (rs : list response) : proc chan ending :=
  do _ <- plisten 0;
  do _ <- pread_count (Fwd 0);
  do _ <- psend_ready (Bwd 0);
  do _ <- pread 24 (Fwd 0) (repeat 0 24) 0 0 24;
  do _ <- psend 104 (Bwd 0) (flat_map enc_response rs) 0 0 104;
  Ret PartyEnd.
Definition ex_against (rs : list response) : cnet :=
  crash_start (fun p => match p with
    | O => pclient toy_box true false true 0 (fun _ => repeat 7 BUFFER_SIZE) 3 ex_db ex_client
    | S O => ex_impostor rs
    | _ => Ret PartyEnd
    end).
Definition ex_outcome (rs : list response) : proc chan ending := nt_proc (cn_net (fold_left greedy (rounds 40) (ex_against rs))) 0.
Example C74_example_client :
  ex_outcome [db_row 2; db_row 0] = Ret (ClientEnd [db_row 2; db_row 0]) /\
  ex_outcome [db_row 2; db_row 1] = Crash Aborted.
Proof. split; vm_compute; reflexivity. Qed.
Example C74_example_client_reached : forall rs, reach (crash_step (fun _ => 64%nat)) (ex_against rs) (fold_left greedy (rounds 40) (ex_against rs)).
Proof. intros rs. apply greedies_reach. Qed.
