(** What a process says to the world, whatever the world says to it. *)
From Verif Require Import Base Wire Onion State Database Handlers Party Chain Net Procs ChainSpec.

(** [talk p out p']: with some results of its system calls p gets to p', having
    sent the bytes [out] (each with the connection it was sent on, in this
    order).  A send(2) may take part of the bytes; a read(2) may deliver any
    bytes, at most as many as asked for, or none (the end of the stream); a
    poll(2) may report anything. *)
Inductive talk {C A} : proc C A -> list (C * Z) -> proc C A -> Prop :=
| talk_none : forall p, talk p [] p
| talk_write : forall c bs k n out p, (1 <= n <= length bs)%nat -> talk (k n) out p ->
    talk (Write c bs k) (map (pair c) (firstn n bs) ++ out) p
| talk_read : forall c n k got out p, (length got <= n)%nat -> talk (k got) out p -> talk (Read c n k) out p
| talk_poll : forall block l k fs out p, talk (k fs) out p -> talk (Poll block l k) out p.

(** [l] is the beginning of [m]. *)
Definition begins {A} (l m : list A) : Prop := exists rest, m = l ++ rest.

(** The bytes a client has to say: it connects to the first party, announces the
    number of its queries, sends the ciphers of the offline stage (none when that
    stage is simulated) and its queries. *)
Definition client_words (count : nat) (ciphers : list (list Z)) (queries : list query) : list (chan * Z) :=
  (Con 0, 1) :: map (pair (Fwd 0)) (le 4 (Z.of_nat count) ++ concat ciphers ++ concat (map enc_query queries)).

(** ** Executions in which what a process sends is written down *)

(** What p does in one step of an execution: nothing, or one system call. *)
Inductive move {C A} : proc C A -> list (C * Z) -> proc C A -> Prop :=
| move_none : forall p, move p [] p
| move_write : forall c bs k n, (1 <= n <= length bs)%nat -> move (Write c bs k) (map (pair c) (firstn n bs)) (k n)
| move_read : forall c n k got, (length got <= n)%nat -> move (Read c n k) [] (k got)
| move_poll : forall block l k fs, move (Poll block l k) [] (k fs).

(** [logged step view s out s']: an execution of [step] leads from s to s', in
    which the process [view] sends the bytes [out]. *)
Inductive logged {S C A} (step : S -> S -> Prop) (view : S -> proc C A) : S -> list (C * Z) -> S -> Prop :=
| logged_none : forall s, logged step view s [] s
| logged_step : forall s out s1 w s2, logged step view s out s1 -> step s1 s2 -> move (view s1) w (view s2) ->
    logged step view s (out ++ w) s2.

(** ** A client with what it needs to take part as number [id] *)
Record sound_client (b : sealbox) (db : list response) (keys : list (list Z * list Z)) (id : nat) (c : client) : Prop := {
  sc_db : Forall wf_response db /\ Z.of_nat (length db) <= 2 ^ 31 - 1;
  sc_queries : Forall (fun k => 0 <= k < Z.of_nat (length db)) (ct_keys c);
  sc_room : Z.of_nat (id * length (ct_keys c) + length (ct_keys c)) < 2 ^ 32;
  sc_parties : (1 <= length keys <= 255)%nat;
  sc_box : forall pk sk, In (pk, sk) keys -> box_ok b pk sk;
  sc_keys : ct_pkeys c = map fst keys;
  sc_rand : good_rand (ct_rand c) (length (ct_keys c)) (length keys)
}.

(** The ciphers and queries a client makes, by itself. *)
Definition client_makes (b : sealbox) (offline online : bool) (id parties : nat) (c : client)
    (ciphers : list (list Z)) (queries : list query) : Prop :=
  exists st,
    (if offline then client_offline b true (Z.of_nat id) parties (ct_pkeys c) (ct_rand c) (length (ct_keys c)) = Ok (ciphers, st)
     else ciphers = [] /\ client_simulate parties (length (ct_keys c)) = Ok st) /\
    (if online then exists st', client_queries st (ct_keys c) = Ok (queries, st') else queries = []).
