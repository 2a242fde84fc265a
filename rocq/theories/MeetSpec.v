(** What a party or a backend says to peers of which nothing is assumed, byte by
    byte: the vocabulary of C84. *)
From Verif Require Import Base Incremental Wire Onion Shuffle State Database Party Net Procs ChainSpec PeerSpec TalkSpec.

(** [dialog p ins outs p']: with some results of its system calls p gets to p',
    having received the bytes [ins] and sent the bytes [outs] (each with its
    connection, in order).  A send(2) may take part of the bytes; a read(2) may
    deliver any bytes, at most as many as asked for, or none; a poll(2) may
    report anything. *)
Inductive dialog {C A} : proc C A -> list (C * Z) -> list (C * Z) -> proc C A -> Prop :=
| dialog_none : forall p, dialog p [] [] p
| dialog_write : forall c bs k n ins outs p, (1 <= n <= length bs)%nat -> dialog (k n) ins outs p ->
    dialog (Write c bs k) ins (map (pair c) (firstn n bs) ++ outs) p
| dialog_read : forall c n k got ins outs p, (length got <= n)%nat -> Forall byte got -> dialog (k got) ins outs p ->
    dialog (Read c n k) (map (pair c) got ++ ins) outs p
| dialog_poll : forall block l k fs ins outs p, dialog (k fs) ins outs p -> dialog (Poll block l k) ins outs p.

(** The bytes of one connection. *)
Definition on (c : chan) (l : list (chan * Z)) : list Z := map snd (filter (fun x => chan_eqb c (fst x)) l).

(** The peer has announced [n] messages: the first four bytes. *)
Definition announces (received : list Z) (n : Z) : Prop := u32 n /\ begins (le 4 n) received.

(** [count] ciphers of [size] bytes, each of which opens with the key pair and
    shows the secret and the inner cipher listed, all under different tags. *)
Record accepted (b : sealbox) (pk sk : list Z) (size count : nat) (cs : list (list Z)) (opens : list (osecret * list Z)) : Prop := {
  ac_count : length cs = count;
  ac_bytes : Forall (bytes size) cs;
  ac_opens : map (shows b pk sk) cs = map Some opens;
  ac_tags : NoDup (map (fun x => o_tag (fst x)) opens)
}.

Section Party.
  (** A party with a key pair, its shuffler, the size of the ciphers it takes, and
      its own ciphers and queries, which hide those of the peer. *)
  Context (b : sealbox) (pk sk : list Z) (ls : lshuffler) (size n : nat) (fresh : list (list Z)) (noise : list query).

  (** The ciphers sent on: its own and the inner ciphers of the peer's. *)
  Definition ciphers_sent (opens : list (osecret * list Z)) (out : list (list Z)) : Prop :=
    length out = (length fresh + n)%nat /\ Forall (fun c => length c + 124 = size)%nat out /\
    forall i j, ls_shuffle ls i = Ok j -> nth_error out i = nth_error (fresh ++ map snd opens) j.

  (** The queries sent on: its own and the peer's (12 bytes each), each handled
      with the secret of its tag. *)
  Definition queries_sent (opens : list (osecret * list Z)) (raw : list (list Z)) (secs : list osecret) (out : list query) : Prop :=
    length raw = n /\ Forall (bytes 12) raw /\ Forall2 (secret_of (map fst opens)) (map dec_query raw) secs /\
    length out = (length noise + n)%nat /\
    forall i j, ls_shuffle ls i = Ok j ->
      nth_error out j = nth_error (noise ++ map (fun x => handled (fst x) (snd x)) (combine (map dec_query raw) secs)) i.

  (** The responses sent back: to each of the peer's queries the response that
      came back at its place, masked. *)
  Definition responses_sent (secs : list osecret) (resps back : list (list Z)) : Prop :=
    length resps = (length noise + n)%nat /\ Forall (bytes 52) resps /\ length back = n /\ Forall (fun r => length r = 52%nat) back /\
    forall i s j r, nth_error secs i = Some s -> ls_shuffle ls (length noise + i) = Ok j -> nth_error resps j = Some r ->
      nth_error back i = Some (masked r (o_preshare s)).

  Definition count_in : list Z := le 4 (Z.of_nat n).
  Definition count_out : list Z := le 4 (Z.of_nat (length fresh + n)).

  (** [party_said online prev next fwd back]: having received [prev] from the
      peer before it and [next] from the peer after it, a party may have sent
      [fwd] to the peer after it and [back] to the peer before it. *)
  Inductive party_said (online : bool) : list Z -> list Z -> list Z -> list Z -> Prop :=
  | said_nothing : forall prev next, party_said online prev next [] []
  | said_count : forall prev next fwd, begins count_in prev -> begins fwd count_out -> party_said online prev next fwd []
  | said_ready : forall prev next back, begins count_in prev -> begins [1] next -> begins back [1] ->
      party_said online prev next count_out back
  | said_ciphers : forall prev next fwd cs opens out, accepted b pk sk size n cs opens -> ciphers_sent opens out ->
      begins (count_in ++ concat cs) prev -> begins [1] next -> begins fwd (count_out ++ concat out) ->
      party_said online prev next fwd [1]
  | said_stored : forall prev next back cs opens out, accepted b pk sk size n cs opens -> ciphers_sent opens out ->
      begins (count_in ++ concat cs) prev -> begins [1; 1] next -> begins back [1; 1] ->
      party_said online prev next (count_out ++ concat out) back
  | said_queries : forall prev next fwd cs opens out raw secs qs, online = true ->
      accepted b pk sk size n cs opens -> ciphers_sent opens out -> queries_sent opens raw secs qs ->
      begins (count_in ++ concat cs ++ concat raw) prev -> begins [1; 1] next ->
      begins fwd (count_out ++ concat out ++ concat (map enc_query qs)) ->
      party_said online prev next fwd [1; 1]
  | said_responses : forall prev next back cs opens out raw secs qs resps answers, online = true ->
      accepted b pk sk size n cs opens -> ciphers_sent opens out -> queries_sent opens raw secs qs -> responses_sent secs resps answers ->
      begins (count_in ++ concat cs ++ concat raw) prev -> begins ([1; 1] ++ concat resps) next ->
      begins back ([1; 1] ++ concat answers) ->
      party_said online prev next (count_out ++ concat out ++ concat (map enc_query qs)) back.

  (** ... and when it has finished it has read and sent exactly this. *)
  Inductive party_finished : bool -> list Z -> list Z -> list Z -> list Z -> Prop :=
  | finished_offline : forall cs opens out, accepted b pk sk size n cs opens -> ciphers_sent opens out ->
      party_finished false (count_in ++ concat cs) [1; 1] (count_out ++ concat out) [1; 1]
  | finished_online : forall cs opens out raw secs qs resps answers,
      accepted b pk sk size n cs opens -> ciphers_sent opens out -> queries_sent opens raw secs qs -> responses_sent secs resps answers ->
      party_finished true (count_in ++ concat cs ++ concat raw) ([1; 1] ++ concat resps)
        (count_out ++ concat out ++ concat (map enc_query qs)) ([1; 1] ++ concat answers).

  (** The peer has sent a query under a tag for which it sent no cipher. *)
  Definition unknown_tag (prev : list Z) : Prop :=
    exists cs opens raw q, accepted b pk sk size n cs opens /\ begins (count_in ++ concat cs ++ concat raw) prev /\
      (length raw <= n)%nat /\ Forall (bytes 12) raw /\ In q raw /\ ~ In (q_tag (dec_query q)) (map (fun x => o_tag (fst x)) opens).
End Party.

Section Backend.
  (** A backend with a key pair and a table, to which [n] messages are announced. *)
  Context (b : sealbox) (pk sk : list Z) (db : list response) (n : nat).

  (** The responses to some queries: for each the row named by its tally and the
      secret of its tag, masked. *)
  Definition answered (opens : list (osecret * list Z)) (raw : list (list Z)) (looked_up : list Z) (answers : list (list Z)) : Prop :=
    exists secs rows, Forall2 (secret_of (map fst opens)) (map dec_query raw) secs /\
      looked_up = map (fun x => incremental_reconstruct (q_tally (fst x)) (o_share (snd x))) (combine (map dec_query raw) secs) /\
      map (fun k => nth_error db (Z.to_nat k)) looked_up = map Some rows /\
      answers = map (fun x => masked (enc_response (fst x)) (o_preshare (snd x))) (combine rows secs).

  Inductive backend_said (online : bool) : list Z -> list Z -> Prop :=
  | bsaid_nothing : forall prev, backend_said online prev []
  | bsaid_ready : forall prev back, begins (count_in n) prev -> begins back [1] -> backend_said online prev back
  | bsaid_stored : forall prev back cs opens, accepted b pk sk 124 n cs opens ->
      begins (count_in n ++ concat cs) prev -> begins back [1; 1] -> backend_said online prev back
  | bsaid_responses : forall prev back cs opens raw rest looked_up answers, online = true -> accepted b pk sk 124 n cs opens ->
      length (raw ++ rest) = n -> Forall (bytes 12) (raw ++ rest) -> answered opens raw looked_up answers ->
      begins (count_in n ++ concat cs ++ concat (raw ++ rest)) prev -> begins back ([1; 1] ++ concat answers) ->
      backend_said online prev back.

  Inductive backend_finished : bool -> list Z -> list Z -> list Z -> Prop :=
  | bfinished_offline : forall cs opens, accepted b pk sk 124 n cs opens -> backend_finished false [] (count_in n ++ concat cs) [1; 1]
  | bfinished_online : forall cs opens raw looked_up answers, accepted b pk sk 124 n cs opens ->
      length raw = n -> Forall (bytes 12) raw -> answered opens raw looked_up answers ->
      backend_finished true looked_up (count_in n ++ concat cs ++ concat raw) ([1; 1] ++ concat answers).

  (** The peer has sent a query that cannot be answered: under a tag for which it
      sent no cipher, or for a row that does not exist. *)
  Definition unanswerable (prev : list Z) : Prop :=
    exists cs opens raw q, accepted b pk sk 124 n cs opens /\ length raw = n /\ Forall (bytes 12) raw /\
      begins (count_in n ++ concat cs ++ concat raw) prev /\ In q raw /\
      (~ In (q_tag (dec_query q)) (map (fun x => o_tag (fst x)) opens) \/
       exists s, secret_of (map fst opens) (dec_query q) s /\
         nth_error db (Z.to_nat (incremental_reconstruct (q_tally (dec_query q)) (o_share s))) = None).
End Backend.

(** With the offline stage simulated there are no ciphers; all tags are zero and
    the secrets of a party change nothing. *)
Section Simulated.
  Context (ls : lshuffler) (n : nat) (noise : list query).

  (** What is sent on for a query (12 bytes): its tally, reduced. *)
  Definition passed (m : list Z) : query := {| q_tag := 0; q_tally := q_tally (dec_query m) mod PRIME |}.
  Definition queries_passed (raw : list (list Z)) (out : list query) : Prop :=
    length raw = n /\ Forall (bytes 12) raw /\ length out = (length noise + n)%nat /\
    forall i j, ls_shuffle ls i = Ok j -> nth_error out j = nth_error (noise ++ map passed raw) i.
  (** The responses to the peer's queries, unchanged. *)
  Definition responses_passed (resps back : list (list Z)) : Prop :=
    length resps = (length noise + n)%nat /\ Forall (bytes 52) resps /\ length back = n /\
    forall i j, (i < n)%nat -> ls_shuffle ls (length noise + i) = Ok j -> nth_error back i = nth_error resps j.
  Definition sim_count_out : list Z := le 4 (Z.of_nat (length noise + n)).

  Inductive sim_party_said (online : bool) : list Z -> list Z -> list Z -> list Z -> Prop :=
  | ssaid_nothing : forall prev next, sim_party_said online prev next [] []
  | ssaid_count : forall prev next fwd, begins (count_in n) prev -> begins fwd sim_count_out -> sim_party_said online prev next fwd []
  | ssaid_ready : forall prev next back, begins (count_in n) prev -> begins [1] next -> begins back [1] ->
      sim_party_said online prev next sim_count_out back
  | ssaid_queries : forall prev next fwd raw qs, online = true -> queries_passed raw qs ->
      begins (count_in n ++ concat raw) prev -> begins [1] next ->
      begins fwd (sim_count_out ++ concat (map enc_query qs)) -> sim_party_said online prev next fwd [1]
  | ssaid_responses : forall prev next back raw qs resps answers, online = true -> queries_passed raw qs -> responses_passed resps answers ->
      begins (count_in n ++ concat raw) prev -> begins ([1] ++ concat resps) next ->
      begins back ([1] ++ concat answers) -> sim_party_said online prev next (sim_count_out ++ concat (map enc_query qs)) back.
  Inductive sim_party_finished : bool -> list Z -> list Z -> list Z -> list Z -> Prop :=
  | sfinished_offline : sim_party_finished false (count_in n) [1] sim_count_out [1]
  | sfinished_online : forall raw qs resps answers, queries_passed raw qs -> responses_passed resps answers ->
      sim_party_finished true (count_in n ++ concat raw) ([1] ++ concat resps)
        (sim_count_out ++ concat (map enc_query qs)) ([1] ++ concat answers).
End Simulated.

Section SimulatedBackend.
  Context (db : list response) (n : nat).
  (** The row named by the tally, as it is. *)
  Definition served (raw : list (list Z)) (looked_up : list Z) (answers : list (list Z)) : Prop :=
    looked_up = map (fun m => q_tally (passed m)) raw /\
    exists rows, map (fun k => nth_error db (Z.to_nat k)) looked_up = map Some rows /\ answers = map enc_response rows.
  Inductive sim_backend_said (online : bool) : list Z -> list Z -> Prop :=
  | sbsaid_nothing : forall prev, sim_backend_said online prev []
  | sbsaid_ready : forall prev back, begins (count_in n) prev -> begins back [1] -> sim_backend_said online prev back
  | sbsaid_responses : forall prev back raw rest looked_up answers, online = true ->
      length (raw ++ rest) = n -> Forall (bytes 12) (raw ++ rest) -> served raw looked_up answers ->
      begins (count_in n ++ concat (raw ++ rest)) prev -> begins back ([1] ++ concat answers) -> sim_backend_said online prev back.
  Inductive sim_backend_finished : bool -> list Z -> list Z -> list Z -> Prop :=
  | sbfinished_offline : sim_backend_finished false [] (count_in n) [1]
  | sbfinished_online : forall raw looked_up answers, length raw = n -> Forall (bytes 12) raw -> served raw looked_up answers ->
      sim_backend_finished true looked_up (count_in n ++ concat raw) ([1] ++ concat answers).
  (** The peer has asked for a row that does not exist. *)
  Definition missing_row (prev : list Z) : Prop :=
    exists raw m, length raw = n /\ Forall (bytes 12) raw /\ begins (count_in n ++ concat raw) prev /\ In m raw /\
      nth_error db (Z.to_nat (q_tally (passed m))) = None.
End SimulatedBackend.
