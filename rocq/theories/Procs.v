(** The entities of a single-server deployment as communicating processes:
    every system call on a connection is an explicit step in which the kernel
    chooses how many bytes are transferred, so that a whole deployment can be run
    under every schedule. *)
From Verif Require Import Base Incremental Wire Additive Onion Shuffle Sizes State Database CipherBatch Range Handlers Batch Party Chain Net Stream.

(** Why a process stopped early. *)
Inductive fault := Aborted | Undefined | Spinning.

(** A sequential program making system calls on connections.  [Write c bs k]: a
    send(2) of the bytes bs, which continues with the number of bytes taken by
    the kernel; [Read c n k]: a read(2) of at most n bytes, which continues with
    the bytes received; [Poll block l k]: a poll(2) for input on the connections
    l with timeout -1 (block) or 0, which continues with the flags of l.  C is
    the type of (directions of) connections. *)
Inductive proc (C A : Type) : Type :=
| Ret (a : A)
| Crash (f : fault)
| Write (c : C) (bs : list Z) (k : nat -> proc C A)
| Read (c : C) (n : nat) (k : list Z -> proc C A)
| Poll (block : bool) (l : list C) (k : list bool -> proc C A).
Arguments Ret {C A}. Arguments Crash {C A}. Arguments Write {C A}. Arguments Read {C A}. Arguments Poll {C A}.

Fixpoint pbind {C A B} (p : proc C A) (f : A -> proc C B) : proc C B :=
  match p with
  | Ret a => f a
  | Crash w => Crash w
  | Write c bs k => Write c bs (fun n => pbind (k n) f)
  | Read c n k => Read c n (fun bs => pbind (k bs) f)
  | Poll b l k => Poll b l (fun r => pbind (k r) f)
  end.
Notation "'do' x '<-' e ';' k" := (pbind e (fun x => k))
  (at level 200, x pattern, e at level 100, k at level 200, right associativity).

(** A local computation of the model. *)
Definition lift {C A} (r : res A) : proc C A :=
  match r with Ok a => Ret a | Abort => Crash Aborted | UB => Crash Undefined | NoFuel => Crash Spinning end.

(** System calls of zero bytes return at once. *)
Definition psys_send {C} (c : C) (bs : list Z) : proc C nat := match bs with [] => Ret 0%nat | _ => Write c bs Ret end.
Definition psys_read {C} (c : C) (n : nat) : proc C (list Z) := match n with O => Ret [] | _ => Read c n Ret end.

(** sockets/common.cc:133-140  Send; [fuel] counts system calls. *)
Fixpoint psend {C} (fuel : nat) (c : C) (m : list Z) (off sent size : nat) : proc C unit :=
  if (sent <? size)%nat then
    match fuel with
    | O => Crash Spinning
    | S f =>
        do bs <- lift (rd m (off + sent) (size - sent));
        do n <- psys_send c bs;
        psend f c m off (sent + n) size
    end
  else Ret tt.

(** sockets/common.cc:118-125  Read: exactly size bytes to [m] at [off]. *)
Fixpoint pread {C} (fuel : nat) (c : C) (m : list Z) (off bytes size : nat) : proc C (list Z) :=
  if (bytes <? size)%nat then
    match fuel with
    | O => Crash Spinning
    | S f =>
        do got <- psys_read c (size - bytes);
        do m' <- lift (wr m (off + bytes) got);
        pread f c m' off (bytes + length got) size
    end
  else Ret m.

(** for (x : l) with communication in the body *)
Fixpoint pfold {C A S} (f : S -> A -> proc C S) (l : list A) (s : S) : proc C S :=
  match l with [] => Ret s | a :: t => do s' <- f s a; pfold f t s' end.

Section Template.
  Context {C B : Type} (ops : bufops B).

  (** sockets/common.h:44-46 Send(fd, buf), client_socket.cc:44-51,
      server_socket.cc:48-51 Flush*; the pair is the logical buffer and the
      contents of its physical buffer. *)
  Definition pflush (c : C) (w : B * list Z) : proc C (B * list Z) :=
    do _ <- psend (bo_bytes ops (fst w)) c (snd w) (bo_tobuffer ops (fst w)) 0 (bo_bytes ops (fst w));
    do r <- lift (bo_clear ops (fst w) (snd w));
    Ret (snd r, fst r).

  (** sockets/client_socket.cc:30-41, server_socket.cc:40-45  Send*: push, flush
      when full. *)
  Definition psend_msg (c : C) (w : B * list Z) (v : list Z) : proc C (B * list Z) :=
    do p <- lift (bo_push ops (fst w) (snd w) v);
    if bo_full ops (snd p) then pflush c (snd p, fst p) else Ret (snd p, fst p).

  (** A loop over l that computes a message with [f] and sends it. *)
  Definition psend_each {A S} (c : C) (f : S -> A -> res (list Z * S)) (l : list A) (s : S) (w : B * list Z)
    : proc C (S * (B * list Z)) :=
    pfold (fun sw a =>
      do x <- lift (f (fst sw) a);
      do w' <- psend_msg c (snd sw) (fst x);
      Ret (snd x, w')) l (s, w).

  (** sockets/common.h:32-37  Read(fd, read_count, buf), as [read_buf] in Stream. *)
  Definition pread_buf (c : C) (read_count : nat) (b : B) (m : list Z) : proc C (B * list Z) :=
    let cap := Z.of_nat (bo_capacity ops b) in
    let count := w64 (Z.of_nat (read_count * bo_unit ops b) - Z.of_nat (bo_leftover ops b)) in
    do got <- psys_read c (Z.to_nat (if cap <? count then cap else count));
    do m' <- lift (wr m (bo_tobuffer ops b) got);
    Ret (bo_update ops b (length got), m').

  (** The loops "while (count > 0) { buffer = Read...(count); for (x : buffer)
      handle x; count -= Size(); Clear(); }", as [read_batch] in Stream.
      Handlers only touch the element they are given.  [fuel] counts rounds. *)
  Fixpoint pread_each {S} (fuel : nat) (c : C) (handle : S -> list Z -> res S) (count : nat) (b : B) (m : list Z) (s : S)
    : proc C S :=
    if (0 <? count)%nat then
      match fuel with
      | O => Crash Spinning
      | Datatypes.S f =>
          do r <- pread_buf c count b m;
          do offs <- lift (bo_elems ops (fst r));
          do xs <- lift (map_res (fun o => rd (snd r) o (bo_unit ops (fst r))) offs);
          do s' <- lift (fold_res handle xs s);
          do cl <- lift (bo_clear ops (fst r) (snd r));
          pread_each f c handle (count - length xs) (snd cl) (fst cl) s'
      end
    else Ret s.
End Template.

(** Logical buffers over a physical buffer with contents [mem]:
    sockets/client_socket.h:14-21, server_socket.h:12-19.  Every loop leaves its
    logical buffer empty and without leftover bytes (C32, C33), so the next one
    is modelled to start from the constructor's state; [mem] is then arbitrary. *)
Definition messages (size : nat) (mem : list Z) : lbuf * list Z := (lb_make BUFFER_SIZE size, mem).
Definition ciphers (size : nat) (mem : list Z) : cbuf * list Z := (cl_make BUFFER_SIZE size, mem).
(** Receiving n messages (queries, responses), n ciphers. *)
Definition take_each {C S} (c : C) (mem : list Z) (size n : nat) (handle : S -> list Z -> res S) (s : S) : proc C S :=
  pread_each lb_ops (n * size) c handle n (fst (messages size mem)) (snd (messages size mem)) s.
Definition take_ciphers {C S} (c : C) (mem : list Z) (size n : nat) (handle : S -> list Z -> res S) (s : S) : proc C S :=
  pread_each cl_ops (n * size) c handle n (fst (ciphers size mem)) (snd (ciphers size mem)) s.

(** sockets/client_socket.cc:20-22 SendCount, server_socket.cc:19-23 ReadCount,
    server_socket.cc:24-27 SendReady, client_socket.cc:23-27 WaitForReady *)
Definition psend_count {C} (c : C) (n : Z) : proc C unit := psend 4 c (le 4 n) 0 0 4.
Definition pread_count {C} (c : C) : proc C Z := do bs <- pread 4 c (repeat 0 4) 0 0 4; Ret (of_le bs).
Definition psend_ready {C} (c : C) : proc C unit := psend 1 c [1] 0 0 1.
Definition pwait_ready {C} (asserts : bool) (c : C) : proc C unit :=
  do bs <- pread 1 c [0] 0 0 1;
  lift (if asserts then assert_ (match bs with [x] => x =? 1 | _ => false end) else Ok tt).
(** sockets/common.cc:29-68 ConnectTo, 70-117 ListenOn: as [connect_to] and
    [listen_on] in Net. *)
Definition pconnect (j : nat) : proc chan unit := do _ <- psys_read (Lis j) 1; do _ <- psys_send (Con j) [1]; Ret tt.
Definition plisten (j : nat) : proc chan unit := do _ <- psys_send (Lis j) [1]; do _ <- psys_read (Con j) 1; Ret tt.

(** sizeof(Query), sizeof(Response) *)
Definition query_size : nat := 12.
Definition response_size : nat := 52.

(** What an entity ends with: the client its responses, the backend the keys it
    looked up. *)
Inductive ending := ClientEnd (l : list response) | PartyEnd | BackendEnd (keys : list Z).

Section Programs.
  (** [mem i]: contents of the physical buffer when the entity's i-th loop starts. *)
  Context (b : sealbox) (asserts : bool) (rng : rng_t) (offline online : bool).

  (** client/client_offline.cc:10-37  StartOffline; [id] is the client's number. *)
  Definition pclient_offline (id : Z) (mem : nat -> list Z) (parties : nat) (c : client) : proc chan cstate :=
    let count := length (ct_keys c) in
    do _ <- psend_count (Fwd 0) (Z.of_nat count);
    do _ <- pwait_ready asserts (Bwd 0);
    do st <- lift (cs_initialize cs_new parties (Z.of_nat count) false false);
    do r <- psend_each cl_ops (Fwd 0) (fun st i =>
      let* m := client_make_secret id (Z.of_nat count) parties (ct_rand c) st i in
      let* x := onion_encrypt b asserts (rn_coins (ct_rand c) i) (rn_junk1 (ct_rand c) i) (rn_junk2 (ct_rand c) i)
                  (fst m) 0 parties (ct_pkeys c) in
      Ok (x, snd m)) (seq 0 count) st (ciphers (client_out_size parties) (mem 0%nat));
    do _ <- pflush cl_ops (Fwd 0) (snd r);
    do _ <- pwait_ready asserts (Bwd 0);
    Ret (fst r).

  (** client/client_offline.cc:39-46  SimulateOffline *)
  Definition pclient_simulate (parties : nat) (c : client) : proc chan cstate :=
    let count := length (ct_keys c) in
    do st <- lift (client_simulate parties count);
    do _ <- psend_count (Fwd 0) (Z.of_nat count);
    do _ <- pwait_ready asserts (Bwd 0);
    Ret st.

  (** client/client_online.cc:11-50  StartOnline; RandomRow draws [ct_keys]; the
      handler of the responses keeps the keys still expected. *)
  Definition pclient_online (mem : nat -> list Z) (db : list response) (c : client) (st : cstate) : proc chan (list response) :=
    do r <- psend_each lb_ops (Fwd 0) (fun st key =>
      let* q := make_query st key in
      Ok (enc_query (fst q), snd q)) (ct_keys c) st (messages query_size (mem 1%nat));
    do _ <- pflush lb_ops (Fwd 0) (snd r);
    do s <- take_each (Bwd 0) (mem 2%nat) response_size (length (ct_keys c)) (fun s m =>
      let '(keys, l, st) := s in
      let* m := client_reconstruct st m in
      let response := dec_response (fst m) in
      let* key := get keys 0 in
      let* expected := db_lookup db key in
      let* eq := response_eqb response expected in
      let* _ := (if asserts then assert_ eq else Ok tt) in
      Ok (tl keys, l ++ [response], snd m)) (ct_keys c, [], cs_finish (fst r));
    Ret (snd (fst s)).

  (** client/client_initialization.cc:11-32, client.h:21-30 *)
  Definition pclient (id : Z) (mem : nat -> list Z) (parties : nat) (db : list response) (c : client) : proc chan ending :=
    do _ <- pconnect 0;
    do st <- (if offline then pclient_offline id mem parties c else pclient_simulate parties c);
    do l <- (if online then pclient_online mem db c st else Ret []);
    Ret (ClientEnd l).

  (** party/party_initialization.cc:79-91  InitializeCounts: entity k reads from
      link k-1 and announces on link k. *)
  Definition pparty_counts (k : nat) (noise : Z) : proc chan Z :=
    do input <- pread_count (Fwd (k - 1));
    do _ <- psend_count (Fwd k) (shuffled_count input noise);
    Ret input.

  (** party/party_offline.cc:112-177  StartOffline *)
  Definition pparty_offline (mem : nat -> list Z) (k : nat) (cf : pconf) : proc chan ready :=
    do smp <- lift (noise_samples asserts cf);
    let '(start_, end_, noise, noise_count) := smp in
    do input <- pparty_counts k noise_count;
    let shuffled := shuffled_count input noise_count in
    let qs := qs_initialize_state qs_new false in
    do ns <- lift (cs_initialize cs_new (remaining_parties cf) noise_count true false);
    do cn <- lift (create_noise_ciphers b asserts cf input noise_count ns);
    do _ <- pwait_ready asserts (Bwd k);
    do _ <- psend_ready (Bwd (k - 1));
    do cb <- take_ciphers (Fwd (k - 1)) (mem 0%nat) (party_in_size (pf_parties cf) (pf_party cf)) (Z.to_nat input) cb_push_long (fst cn);
    do ls1 <- lift (ls_initialize rng (pf_seed cf) (Z.to_nat shuffled));
    do ins <- lift (install_secrets b asserts cf input cb qs);
    do r <- psend_each cl_ops (Fwd k) (fun _ i =>
      let* m := (let* idx := ls_shuffle ls1 i in cb_get_short (fst ins) idx) in
      Ok (m, tt)) (seq 0 (Z.to_nat shuffled)) tt (ciphers (party_out_size (pf_parties cf) (pf_party cf)) (mem 1%nat));
    do _ <- pflush cl_ops (Fwd k) (snd r);
    do ls <- lift (ls_initialize rng (pf_seed cf) (Z.to_nat shuffled));
    do queries <- lift (noise_queries start_ end_ noise ls (snd cn) (bt_initialize zero_query (Z.to_nat shuffled)));
    do _ <- pwait_ready asserts (Bwd k);
    do _ <- psend_ready (Bwd (k - 1));
    Ret {| rp_noise := noise_count; rp_input := input; rp_shuffled := shuffled; rp_state := snd ins;
           rp_shuffler := ls; rp_tags := bt_initialize 0 (Z.to_nat input); rp_queries := queries |}.

  (** party/party_offline.cc:179-211  SimulateOffline *)
  Definition pparty_simulate (k : nat) (cf : pconf) : proc chan ready :=
    do smp <- lift (noise_samples asserts cf);
    let '(start_, end_, noise, noise_count) := smp in
    do input <- pparty_counts k noise_count;
    let shuffled := shuffled_count input noise_count in
    do ls <- lift (ls_initialize rng (pf_seed cf) (Z.to_nat shuffled));
    let qs := qs_initialize_state qs_new true in
    do ns <- lift (cs_initialize cs_new (remaining_parties cf) noise_count true true);
    do queries <- lift (noise_queries start_ end_ noise ls ns (bt_initialize zero_query (Z.to_nat shuffled)));
    do _ <- pwait_ready asserts (Bwd k);
    do _ <- psend_ready (Bwd (k - 1));
    Ret {| rp_noise := noise_count; rp_input := input; rp_shuffled := shuffled; rp_state := qs;
           rp_shuffler := ls; rp_tags := bt_initialize 0 (Z.to_nat input); rp_queries := queries |}.

  (** party/party_online.cc:14-31 CollectQueries, 34-45 SendQueries *)
  Definition pparty_forward (mem : nat -> list Z) (k : nat) (rp : ready) : proc chan ready :=
    do r <- take_each (Fwd (k - 1)) (mem 2%nat) query_size (Z.to_nat (rp_shuffled rp - rp_noise rp)) (fun s m =>
      let q := dec_query m in
      let '(read, p, tags, qs) := s in
      let* tags' := bt_push tags (q_tag q) in
      let* target := ls_shuffle (rp_shuffler rp) read in
      let* h := handle_query p q in
      let* qs' := bt_set qs target (fst h) in
      Ok (S read, snd h, tags', qs')) (Z.to_nat (rp_noise rp), rp_state rp, rp_tags rp, rp_queries rp);
    let '(_, p, tags, qs) := r in
    do r <- psend_each lb_ops (Fwd k) (fun _ q => Ok (enc_query q, tt)) (bt_all qs) tt (messages query_size (mem 3%nat));
    do _ <- pflush lb_ops (Fwd k) (snd r);
    Ret {| rp_noise := rp_noise rp; rp_input := rp_input rp; rp_shuffled := rp_shuffled rp; rp_state := p;
           rp_shuffler := rp_shuffler rp; rp_tags := tags; rp_queries := bt_initialize zero_query 0 |}.

  (** party/party_online.cc:49-76 CollectResponses, 79-88 SendResponses *)
  Definition pparty_backward (mem : nat -> list Z) (k : nat) (rp : ready) : proc chan unit :=
    do r <- take_each (Bwd k) (mem 4%nat) response_size (Z.to_nat (rp_shuffled rp)) (fun s resp =>
      let '(read, out) := s in
      let* target := ls_deshuffle (rp_shuffler rp) read in
      if (Z.of_nat target <? rp_noise rp) then Ok (S read, out)
      else
        let target_index := (target - Z.to_nat (rp_noise rp))%nat in
        let* old := bt_get out target_index in
        let* tag := bt_get (rp_tags rp) target_index in
        let* v := handle_response (rp_state rp) tag resp old in
        let* out' := bt_set out target_index v in
        Ok (S read, out')) (0%nat, bt_initialize zero_response (Z.to_nat (rp_input rp)));
    do r <- psend_each lb_ops (Bwd (k - 1)) (fun _ v => Ok (v, tt)) (bt_all (snd r)) tt (messages response_size (mem 5%nat));
    do _ <- pflush lb_ops (Bwd (k - 1)) (snd r);
    Ret tt.

  (** party/party_initialization.cc:12-60 (checks, then the sockets: back_
      listens, next_ connects), party.h:28-37 *)
  Definition pparty (mem : nat -> list Z) (k : nat) (cf : pconf) : proc chan ending :=
    do _ <- lift (party_check asserts cf);
    do _ <- plisten (k - 1);
    do _ <- pconnect k;
    do rp <- (if offline then pparty_offline mem k cf else pparty_simulate k cf);
    do _ <- (if online then do rp' <- pparty_forward mem k rp; pparty_backward mem k rp' else Ret tt);
    Ret PartyEnd.

  (** backend/backend_offline.cc:62-78 StartOffline (one server), 80-89
      SimulateOffline; also returns the batch's capacity. *)
  Definition pbackend_offline (mem : nat -> list Z) (k : nat) (pk sk : list Z) : proc chan (Z * qstate) :=
    do count <- pread_count (Fwd (k - 1));
    do _ <- psend_ready (Bwd (k - 1));
    do p <- take_ciphers (Fwd (k - 1)) (mem 0%nat) backend_in_size (Z.to_nat count) (backend_handle_cipher b asserts pk sk)
              (qs_initialize_state qs_new false);
    do _ <- psend_ready (Bwd (k - 1));
    Ret (count, p).
  Definition pbackend_simulate (k : nat) : proc chan (Z * qstate) :=
    do count <- pread_count (Fwd (k - 1));
    do _ <- psend_ready (Bwd (k - 1));
    Ret (count, backend_simulate).

  (** backend/backend_online.cc:8-36: all queries are collected, then each is
      handled and its response sent. *)
  Definition pbackend_online (mem : nat -> list Z) (k : nat) (db : list response) (junk : list Z) (count : Z) (p : qstate) : proc chan (list Z) :=
    do bt <- take_each (Fwd (k - 1)) (mem 1%nat) query_size (Z.to_nat count) (fun s m => bt_push s (dec_query m))
               (bt_initialize zero_query (Z.to_nat count));
    do r <- psend_each lb_ops (Bwd (k - 1)) (fun s q =>
      let* h := backend_handle_query db junk (snd s) q in
      let '(key, resp, p') := h in
      Ok (resp, (fst s ++ [key], p'))) (bt_all bt) ([], p) (messages response_size (mem 2%nat));
    do _ <- pflush lb_ops (Bwd (k - 1)) (snd r);
    Ret (fst (fst r)).

  (** backend/backend_initialization.cc:11-36, backend.h:23-32 *)
  Definition pbackend (mem : nat -> list Z) (k : nat) (db : list response) (junk pk sk : list Z) : proc chan ending :=
    do _ <- plisten (k - 1);
    do s <- (if offline then pbackend_offline mem k pk sk else pbackend_simulate k);
    do keys <- (if online then pbackend_online mem k db junk (fst s) (snd s) else Ret []);
    Ret (BackendEnd keys).

  (** Entity 0 is the client, 1 .. P the parties, P+1 the backend; [mem p] are
      the physical buffers of entity p. *)
  Definition entity (mem : nat -> nat -> list Z) (db : list response) (junk : list Z) (c : client) (parties : list pconf) (bpk bsk : list Z)
      (p : nat) : proc chan ending :=
    match p with
    | O => pclient 0 (mem p) (S (length parties)) db c
    | S j =>
        match nth_error parties j with
        | Some cf => pparty (mem p) p cf
        | None => if (j =? length parties)%nat then pbackend (mem p) p db junk bpk bsk else Ret PartyEnd
        end
    end.
End Programs.

(** ** Networks of processes *)

(** The processes and the bytes under way on every channel, oldest first. *)
Record net (C E : Type) := { nt_proc : nat -> proc C E; nt_chan : C -> list Z }.
Arguments nt_proc {C E}. Arguments nt_chan {C E}. Arguments Build_net {C E}.

Definition set_proc {C E} (f : nat -> proc C E) (p : nat) (x : proc C E) : nat -> proc C E :=
  fun q => if (q =? p)%nat then x else f q.
Definition set_chan {C} (eqb : C -> C -> bool) (f : C -> list Z) (c : C) (x : list Z) : C -> list Z :=
  fun d => if eqb d c then x else f d.

(** There is something to read. *)
Definition readable (bs : list Z) : bool := match bs with [] => false | _ => true end.

(** One step of process p: the kernel takes some of the bytes that p sends, as
    far as there is room, or hands it some of the bytes it may read, or tells it
    which connections have bytes to read.  [cap] bounds the bytes under way,
    [eqb] decides equality of channels. *)
Inductive proc_step {C E} (eqb : C -> C -> bool) (cap : C -> nat) (s : net C E) (p : nat) : net C E -> Prop :=
| step_write : forall c bs k n, nt_proc s p = Write c bs k -> (1 <= n <= length bs)%nat ->
    (length (nt_chan s c) + n <= cap c)%nat ->
    proc_step eqb cap s p {| nt_proc := set_proc (nt_proc s) p (k n); nt_chan := set_chan eqb (nt_chan s) c (nt_chan s c ++ firstn n bs) |}
| step_read : forall c n k got rest, nt_proc s p = Read c n k -> nt_chan s c = got ++ rest -> (1 <= length got <= n)%nat ->
    proc_step eqb cap s p {| nt_proc := set_proc (nt_proc s) p (k got); nt_chan := set_chan eqb (nt_chan s) c rest |}
| step_poll : forall block l k, nt_proc s p = Poll block l k ->
    (block = true -> exists c, In c l /\ readable (nt_chan s c) = true) ->
    proc_step eqb cap s p {| nt_proc := set_proc (nt_proc s) p (k (map (fun c => readable (nt_chan s c)) l)); nt_chan := nt_chan s |}.

(** Some process makes a step.  While both ends of a connection run, a read
    waits until there is a byte. *)
Definition net_step {C E} (eqb : C -> C -> bool) (cap : C -> nat) (s s' : net C E) : Prop := exists p, proc_step eqb cap s p s'.

(** All entities started, nothing under way. *)
Definition net_start {C E} (procs : nat -> proc C E) : net C E := {| nt_proc := procs; nt_chan := fun _ => [] |}.

(** ** Crashes *)

(** The network and the processes that have been killed: by somebody, by the
    machine, by SIGPIPE on a send to a closed connection, or by the failed
    assertion after a system call that returned an error
    (sockets/common.cc:21-27). *)
Record cnet := { cn_net : net chan ending; cn_killed : nat -> bool }.
Definition set_killed (f : nat -> bool) (p : nat) : nat -> bool := fun q => if (q =? p)%nat then true else f q.

(** Process p has closed its connections. *)
Definition exited (s : cnet) (p : nat) : Prop := cn_killed s p = true \/ exists e, nt_proc (cn_net s) p = Ret e.

(** Fwd and Bwd are the two directions of an established connection; Lis and
    Con stand for accept and connect, which wait or retry for ever. *)
Definition established (c : chan) : bool := match c with Fwd _ | Bwd _ => true | _ => false end.

(** A process that has not been killed makes a step; a process is killed at any
    moment; bytes sent by a killed process are lost, from some point on; a read
    from a connection closed by its sender with no bytes left returns 0.  (The
    processes of a single-server deployment never poll.) *)
Inductive crash_step (cap : chan -> nat) (s : cnet) : cnet -> Prop :=
| crash_run : forall p s', cn_killed s p = false -> proc_step chan_eqb cap (cn_net s) p s' ->
    crash_step cap s {| cn_net := s'; cn_killed := cn_killed s |}
| crash_kill : forall p,
    crash_step cap s {| cn_net := cn_net s; cn_killed := set_killed (cn_killed s) p |}
| crash_lose : forall c bs, cn_killed s (sender c) = true -> (exists lost, nt_chan (cn_net s) c = bs ++ lost) ->
    crash_step cap s {| cn_net := {| nt_proc := nt_proc (cn_net s); nt_chan := set_chan chan_eqb (nt_chan (cn_net s)) c bs |};
                        cn_killed := cn_killed s |}
| crash_eof : forall p c n k, cn_killed s p = false -> nt_proc (cn_net s) p = Read c n k -> established c = true ->
    exited s (sender c) -> nt_chan (cn_net s) c = [] ->
    crash_step cap s {| cn_net := {| nt_proc := set_proc (nt_proc (cn_net s)) p (k []); nt_chan := nt_chan (cn_net s) |};
                        cn_killed := cn_killed s |}.
Definition crash_start (procs : nat -> proc chan ending) : cnet := {| cn_net := net_start procs; cn_killed := fun _ => false |}.
