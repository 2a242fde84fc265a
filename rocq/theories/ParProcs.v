(** The entities of a deployment with N servers each as communicating processes:
    every system call, also on the connections between the servers of one party
    (or of the backend), is an explicit step, as in Procs. *)
From Verif Require Import Base Incremental Wire Additive Onion Shuffle ParShuffle Sizes State Database CipherBatch Range Handlers Batch
  Party Chain Parallel Net Stream Procs.

(** Connections: [Link i c]: c between servers i of neighbouring entities;
    [Sib k s t]: the bytes from server s to server t of entity k; [SLis k s t]:
    server s of entity k listens, which the retry loop of server t observes;
    [SCon k s t]: the connection request of s to t. *)
Inductive mchan := Link (i : nat) (c : chan) | Sib (k s t : nat) | SLis (k s t : nat) | SCon (k s t : nat).
Definition mchan_eqb (a b : mchan) : bool :=
  match a, b with
  | Link i c, Link j d => (i =? j)%nat && chan_eqb c d
  | Sib k s t, Sib k' s' t' | SLis k s t, SLis k' s' t' | SCon k s t, SCon k' s' t' => (k =? k')%nat && (s =? s')%nat && (t =? t')%nat
  | _, _ => false
  end.

(** A program that talks over other connections. *)
Fixpoint relabel {C C' A} (f : C -> C') (p : proc C A) : proc C' A :=
  match p with
  | Ret a => Ret a
  | Crash w => Crash w
  | Write c bs k => Write (f c) bs (fun n => relabel f (k n))
  | Read c n k => Read (f c) n (fun bs => relabel f (k bs))
  | Poll b l k => Poll b (map f l) (fun r => relabel f (k r))
  end.

(** ** Sockets between siblings *)
Section Siblings.
  Context {C : Type} (asserts : bool) (N self : nat).
  (** The server ids in the order of the loops "for (id = 0; id < server_count;
      id++) if (id != server_id)". *)
  Definition siblings_of : list nat := filter (fun t => negb (t =? self)%nat) (seq 0 N).

  (** [tx t], [rx t]: the two directions of the connection stored for sibling t. *)
  Context (tx rx : nat -> C).

  (** sockets/parallel_socket.cc:103-106 SendCount, 107-113 BroadcastCount *)
  Definition pbroadcast_count (n : Z) : proc C unit := pfold (fun _ t => psend_count (tx t) n) siblings_of tt.
  (** parallel_party_initialization.cc:150-154: a count for each sibling. *)
  Definition psend_counts (f : nat -> res Z) : proc C unit :=
    pfold (fun _ t => do n <- lift (f t); psend_count (tx t) n) siblings_of tt.
  (** parallel_party_initialization.cc:112-119 and 158-167,
      parallel_party_offline.cc:106-111: ReadCount (parallel_socket.cc:114-119) of
      every sibling; [own] in the place of the server itself. *)
  Definition pread_counts (own : Z) : proc C (list Z) :=
    pfold (fun l t => do n <- (if (t =? self)%nat then Ret own else pread_count (rx t)); Ret (l ++ [n])) (seq 0 N) [].
  (** sockets/parallel_socket.cc:120-128 BroadcastReady, 129-138 WaitForReady;
      they are always called together. *)
  Definition pbarrier : proc C unit :=
    do _ <- pfold (fun _ t => psend_ready (tx t)) siblings_of tt;
    pfold (fun _ t => pwait_ready asserts (rx t)) siblings_of tt.
End Siblings.

Definition fupd {A} (f : nat -> A) (i : nat) (a : A) : nat -> A := fun j => if (j =? i)%nat then a else f j.

Section SendAndPoll.
  (** protocol/parallel_party/parallel_party_util.inc:6-112  SendAndPoll.  Items
      of type A yield messages of type M, sent in logical buffers of type B;
      [next] is send_handler without the sending itself: the targets and messages
      for an item, changing a state P; [handle] is what is done to every message,
      own ones included, changing a state H.  [wants] is servers_read_count. *)
  Context {C A B M P H : Type} (ops : bufops B) (N self : nat) (tx rx : nat -> C).
  Context (enc : M -> list Z) (dec : list Z -> M) (wants : list nat).
  Context (next : P -> A -> res (list (nat * M) * P)) (handle : H -> nat * M -> res H).

  (** [sp_w t], [sp_r t]: buffers for writing to and reading from sibling t with
      their memory; [sp_got]: received_from_sibling_counts_; [sp_left]:
      read_count; [sp_watch]: the siblings that are not ignored by poll. *)
  Record sap := {
    sp_next : P; sp_acc : H; sp_w : nat -> B * list Z; sp_r : nat -> B * list Z;
    sp_got : nat -> nat; sp_left : Z; sp_watch : list nat
  }.
  Definition sp_set_next (s : sap) (p : P) : sap :=
    {| sp_next := p; sp_acc := sp_acc s; sp_w := sp_w s; sp_r := sp_r s; sp_got := sp_got s; sp_left := sp_left s; sp_watch := sp_watch s |}.
  Definition sp_set_acc (s : sap) (h : H) : sap :=
    {| sp_next := sp_next s; sp_acc := h; sp_w := sp_w s; sp_r := sp_r s; sp_got := sp_got s; sp_left := sp_left s; sp_watch := sp_watch s |}.
  Definition sp_set_w (s : sap) (t : nat) (w : B * list Z) : sap :=
    {| sp_next := sp_next s; sp_acc := sp_acc s; sp_w := fupd (sp_w s) t w; sp_r := sp_r s; sp_got := sp_got s; sp_left := sp_left s; sp_watch := sp_watch s |}.

  (** parallel_party_shuffle.cc:65-69, 119-123, 187-191 and
      sockets/parallel_socket.cc:187-218: an own message is handled, others go
      into the buffer of their target, which is flushed when full. *)
  Definition psap_put (s : sap) (m : nat * M) : proc C sap :=
    if (fst m =? self)%nat then do h <- lift (handle (sp_acc s) m); Ret (sp_set_acc s h)
    else if (fst m <? N)%nat then do w <- psend_msg ops (tx (fst m)) (sp_w s (fst m)) (enc (snd m)); Ret (sp_set_w s (fst m) w)
    else Crash Undefined.
  (** :41  send_handler *)
  Definition psap_item (s : sap) (a : A) : proc C sap :=
    do x <- lift (next (sp_next s) a);
    pfold psap_put (fst x) (sp_set_next s (snd x)).

  (** :58-70, 94-107: reading from a sibling that poll has found readable, if
      messages of it remain to be read; read_handler is
      parallel_party_shuffle.cc:73-82 and the like.  Also whether there were. *)
  Definition psap_take (s : sap) (t : nat) : proc C (bool * sap) :=
    do want <- lift (get wants t);
    let remaining := (want - sp_got s t)%nat in
    if (0 <? remaining)%nat then
      do r <- pread_buf ops (rx t) remaining (fst (sp_r s t)) (snd (sp_r s t));
      do offs <- lift (bo_elems ops (fst r));
      do xs <- lift (map_res (fun o => rd (snd r) o (bo_unit ops (fst r))) offs);
      do h <- lift (fold_res handle (map (fun x => (t, dec x)) xs) (sp_acc s));
      do cl <- lift (bo_clear ops (fst r) (snd r));
      let got := (sp_got s t + length xs)%nat in
      Ret (true, {| sp_next := sp_next s; sp_acc := h; sp_w := sp_w s; sp_r := fupd (sp_r s) t (snd cl, fst cl); sp_got := fupd (sp_got s) t got;
                    sp_left := w32 (sp_left s - Z.of_nat (length xs));
                    sp_watch := if (got =? want)%nat then filter (fun u => negb (u =? t)%nat) (sp_watch s) else sp_watch s |})
    else Ret (false, s).
  (** :52-73, 91-109: one poll (timeout 0 or -1) and the loop over what it found;
      found_data.  sockets/common.cc:143-157, parallel_socket.cc:141-146. *)
  Definition psap_round (block : bool) (s : sap) : proc C (bool * sap) :=
    do fs <- Poll block (map rx (sp_watch s)) Ret;
    pfold (fun fs t => do r <- psap_take (snd fs) t; Ret (fst fs || fst r, snd r))
      (map fst (filter snd (combine (sp_watch s) fs))) (false, s).
  (** :50-75  do ... while (found_data && read_count > 0); [fuel] counts rounds. *)
  Fixpoint psap_drain (fuel : nat) (s : sap) : proc C sap :=
    do r <- psap_round false s;
    if fst r && (0 <? sp_left (snd r)) then match fuel with O => Crash Spinning | S f => psap_drain f (snd r) end
    else Ret (snd r).
  (** :34-76  while (it != end): a burst of [rate] items (of all items when
      nothing remains to be read), then the reading loop; [fuel] counts bursts. *)
  Fixpoint psap_bursts (fuel dfuel rate : nat) (items : list A) (s : sap) : proc C sap :=
    match items with
    | [] => Ret s
    | _ =>
        match fuel with
        | O => Crash Spinning
        | S f =>
            let n := if sp_left s =? 0 then length items else rate in
            do s1 <- pfold psap_item (firstn n items) s;
            do s2 <- (if sp_left s1 =? 0 then Ret s1 else psap_drain dfuel s1);
            psap_bursts f dfuel rate (skipn n items) s2
        end
    end.
  (** :78-87  flush everything; parallel_socket.cc:221-256 *)
  Definition psap_flush (s : sap) : proc C sap :=
    pfold (fun s t => do w <- pflush ops (tx t) (sp_w s t); Ret (sp_set_w s t w)) (siblings_of N self) s.
  (** :89-109  while (read_count > 0) *)
  Fixpoint psap_rest (fuel : nat) (s : sap) : proc C sap :=
    if 0 <? sp_left s then
      match fuel with O => Crash Spinning | S f => do r <- psap_round true s; psap_rest f (snd r) end
    else Ret s.

  (** [unit]: size of a message; [wbuf], [rbuf]: the (empty) buffers.  The loops
      of the code go on for ever when the connection to a sibling has ended; here
      they are followed for at least [patience] rounds. *)
  Definition psap (patience unit : nat) (wbuf rbuf : nat -> B * list Z) (total : Z) (items : list A) (p0 : P) (h0 : H) : proc C H :=
    let s0 := {| sp_next := p0; sp_acc := h0; sp_w := wbuf; sp_r := rbuf; sp_got := fun _ => 0%nat; sp_left := total;
                 sp_watch := filter (fun t => negb (t =? self)%nat && negb (nth t wants 0 =? 0)%nat) (seq 0 N) |} in
    let fuel := (patience + list_sum wants * unit)%nat in
    do s1 <- psap_bursts (length items) fuel (BUFFER_SIZE / unit) items s0;
    do s2 <- psap_flush s1;
    do s3 <- psap_rest fuel s2;
    Ret (sp_acc s3).
End SendAndPoll.

(** Memory of the buffers: [sm_w e t], [sm_r e t] for sibling t in the e-th
    exchange; [sm_link] as in Procs.  [sm_patience e]: how many rounds of the
    polling loops of the e-th exchange are followed at least (not memory; the code
    knows no bound). *)
Record smem := { sm_link : nat -> list Z; sm_w : nat -> nat -> list Z; sm_r : nat -> nat -> list Z; sm_patience : nat -> nat }.

Section Servers.
  Context (b : sealbox) (asserts : bool) (rng : rng_t) (iter : iteration) (offline online : bool) (N : nat).

  (** sockets/parallel_socket.cc:52-100  Initialize at server i of entity k: it
      listens; accepts a connection of every server before it, in the order [acc]
      in which they happen to arrive (common.cc:105-116); reads from each one whose
      it is; connects to the servers after it and tells them its id.  Returns the
      connections by sibling.  A byte (server_id_t) holds the id. *)
  Definition psiblings (k i : nat) (acc : list nat) : proc mchan (list nat) :=
    do _ <- pfold (fun _ t => do _ <- psys_send (SLis k i t) [1]; Ret tt) (seq 0 i) tt;
    do _ <- pfold (fun _ t => do _ <- psys_read (SCon k t i) 1; Ret tt) acc tt;
    do fds <- pfold (fun fds t =>
      do bs <- pread 1 (Sib k t i) [0] 0 0 1;
      let id := of_le bs in
      do _ <- lift (if asserts then assert_ (id <? Z.of_nat i) else Ok tt);
      lift (set_ fds (Z.to_nat id) t)) acc (seq 0 N);
    pfold (fun fds t =>
      do _ <- psys_read (SLis k t i) 1;
      do _ <- psys_send (SCon k i t) [1];
      do _ <- psend 1 (Sib k i t) (le 1 (Z.of_nat i)) 0 0 1;
      lift (set_ fds t t)) (seq (S i) (N - S i)) fds.

  Section Server.
    (** Server i of entity k, connected to its siblings by tx and rx. *)
    Context (k i : nat) (mem : smem) (tx rx : nat -> mchan).
    Notation back c := (Link i (c (k - 1)%nat)).
    Notation next c := (Link i (c k)).
    Notation barrier := (pbarrier asserts N i tx rx).

    (** parallel_party_initialization.cc:105-138  InitializeCounts *)
    Definition pserver_counts (cf : sconf) (smp : Z * Z * batch Z * Z) : proc mchan counted :=
      let '(start_, end_, samples, noise) := smp in
      do input <- pread_count (back Fwd);
      let own := w32 (noise + input) in
      do _ <- pbroadcast_count N i tx own;
      do at_ <- pread_counts N i rx own;
      let total := sum32 at_ in
      let shuffled := par_shuffled total (pf_servers (sf_conf cf)) (pf_server (sf_conf cf)) in
      do _ <- psend_count (next Fwd) shuffled;
      Ret {| co_start := start_; co_end := end_; co_samples := samples; co_noise := noise; co_input := input;
             co_at := at_; co_total := total; co_shuffled := shuffled |}.

    (** parallel_party_initialization.cc:141-171  InitializeShufflers *)
    Definition pserver_shufflers (cf : sconf) (ct : counted) : proc mchan shufs :=
      do p <- lift (ps_initialize rng (Z.to_nat (pf_server (sf_conf cf))) (Z.to_nat (pf_servers (sf_conf cf))) (sf_shared cf)
                      (map Z.to_nat (co_at ct)) (Z.to_nat (co_noise ct)));
      do _ <- lift (if asserts then assert_ (co_shuffled ct =? Z.of_nat (ps_slice p)) else Ok tt);
      do _ <- psend_counts N i tx (fun t => let* n := ps_count_noise_to p t in Ok (Z.of_nat n));
      do own <- lift (ps_count_noise_to p i);
      do from <- pread_counts N i rx (Z.of_nat own);
      do ls <- lift (ls_initialize rng (pf_seed (sf_conf cf)) (Z.to_nat (co_shuffled ct)));
      Ret {| sh_ps := p; sh_ls := ls; sh_noise := map Z.to_nat from; sh_noisep := running 0 (map Z.to_nat from) |}.

    (** parallel_party_shuffle.cc:40-86 ShuffleCiphers, 94-141 ShuffleQueries,
        without the barrier at the end; e numbers the exchange. *)
    Definition next_shuffled {M} (p : pshuffler) (x : M) : res (list (nat * M) * pshuffler) :=
      let* r := ps_shuffle_one p in Ok ([(fst r, x)], snd r).
    Definition pshuffle_ciphers (e size : nat) (sh : shufs) (shuffled : Z) (items : list (list Z)) (empty : cbatch) : proc mchan cbatch :=
      do c <- lift (shuffle_counts sh N i shuffled);
      do r <- psap cl_ops N i tx rx (fun m => m) (fun m => m) (fst c) next_shuffled (from_sibling cb_set_short sh) (sm_patience mem e) size
                (fun t => ciphers size (sm_w mem e t)) (fun t => ciphers size (sm_r mem e t)) (snd c) items (sh_ps sh) (repeat 0%nat N, empty);
      Ret (snd r).
    Definition pshuffle_queries (e : nat) (sh : shufs) (shuffled : Z) (items : list query) (empty : batch query) : proc mchan (batch query) :=
      do c <- lift (shuffle_counts sh N i shuffled);
      do r <- psap lb_ops N i tx rx enc_query dec_query (fst c) next_shuffled (from_sibling bt_set sh) (sm_patience mem e) query_size
                (fun t => messages query_size (sm_w mem e t)) (fun t => messages query_size (sm_r mem e t)) (snd c) items (sh_ps sh) (repeat 0%nat N, empty);
      Ret (snd r).
    (** parallel_party_shuffle.cc:148-203 DeshuffleResponses *)
    Definition next_deshuffled (sh : shufs) (s : Z * nat * Z) (x : list Z) : res (list (nat * list Z) * (Z * nat * Z)) :=
      let '(index, target, end_) := s in
      let* t := seek sh N N index target end_ in
      Ok ([(fst t, x)], (w32 (index + 1), fst t, snd t)).
    Definition pdeshuffle (e : nat) (rp : pready) (items : list (list Z)) : proc mchan (batch (list Z)) :=
      do c <- lift (deshuffle_counts rp N i);
      do end0 <- lift (target_end (pr_sh rp) 0);
      do r <- psap lb_ops N i tx rx (fun m => m) (fun m => m) (fst c) (next_deshuffled (pr_sh rp)) (response_from rp) (sm_patience mem e) response_size
                (fun t => messages response_size (sm_w mem e t)) (fun t => messages response_size (sm_r mem e t)) (snd c) items
                (0, 0%nat, end0) (sh_ps (pr_sh rp), bt_initialize zero_response (Z.to_nat (pr_input rp)));
      Ret (snd r).

    (** parallel_party_offline.cc:98-136, backend/backend_offline.cc:23-60
        BroadcastSecrets *)
    Definition psecrets (e : nat) (pack : Z * stored -> osecret) (store : qstate -> osecret -> res qstate) (p : qstate) : proc mchan qstate :=
      let own := w32 (Z.of_nat (length (qs_map p))) in
      do _ <- pbroadcast_count N i tx own;
      do counts <- pread_counts N i rx own;
      let total := sum32 (map (fun t => if (t =? i)%nat then 0 else nth t counts 0) (seq 0 N)) in
      psap lb_ops N i tx rx enc_osecret dec_osecret (map Z.to_nat counts)
        (fun (_ : unit) x => Ok (map (fun t => (t, pack x)) (siblings_of N i), tt)) (fun p m => store p (snd m)) (sm_patience mem e) SECRET_SIZE
        (fun t => messages SECRET_SIZE (sm_w mem e t)) (fun t => messages SECRET_SIZE (sm_r mem e t)) total (iter i (qs_map p)) tt p.

    (** parallel_party_offline.cc:183-192, 233-241 *)
    Definition server_ready (ct : counted) (sh : shufs) (ns : cstate) (st : qstate) : res pready :=
      let* qs := par_noise_queries (co_start ct) (co_end ct) (co_samples ct) ns
                   (bt_initialize zero_query (Z.to_nat (w32 (co_input ct + co_noise ct)))) in
      Ok {| pr_noise := co_noise ct; pr_input := co_input ct; pr_shuffled := co_shuffled ct; pr_state := st;
            pr_sh := sh; pr_tags := bt_initialize 0 (Z.to_nat (co_input ct)); pr_queries := qs |}.
    (** :155-159, 197-203, 244-247: waiting for the next party and the siblings. *)
    Definition pserver_ready : proc mchan unit :=
      do _ <- pwait_ready asserts (next Bwd);
      do _ <- barrier;
      psend_ready (back Bwd).

    (** parallel_party_offline.cc:138-212  StartOffline *)
    Definition pserver_offline (cf : sconf) : proc mchan pready :=
      do smp <- lift (noise_samples asserts (sf_conf cf));
      do ct <- pserver_counts cf smp;
      do ns <- lift (cs_initialize cs_new (remaining_parties (sf_conf cf)) (co_noise ct) true false);
      do made <- lift (par_noise_ciphers b asserts (sf_conf cf) ct ns);
      do _ <- pserver_ready;
      let in_size := party_in_size (pf_parties (sf_conf cf)) (pf_party (sf_conf cf)) in
      let out_size := party_out_size (pf_parties (sf_conf cf)) (pf_party (sf_conf cf)) in
      do cb <- take_ciphers (back Fwd) (sm_link mem 0%nat) in_size (Z.to_nat (co_input ct)) cb_push_long (fst made);
      do _ <- barrier;
      do sh1 <- pserver_shufflers cf ct;
      do ins <- lift (install_secrets b asserts (sf_conf cf) (co_input ct) cb (qs_initialize_state qs_new false));
      do items <- lift (cb_all (fst ins));
      do outb <- pshuffle_ciphers 0 out_size sh1 (co_shuffled ct) items (cb_initialize out_size in_size (Z.to_nat (co_shuffled ct)) 0);
      do _ <- barrier;
      do out <- lift (cb_all outb);
      do r <- psend_each cl_ops (next Fwd) (fun _ x => Ok (x, tt)) out tt (ciphers out_size (sm_link mem 1%nat));
      do _ <- pflush cl_ops (next Fwd) (snd r);
      do st <- psecrets 1 party_pack (qs_store asserts) (snd ins);
      do sh <- pserver_shufflers cf ct;
      do rp <- lift (server_ready ct sh (snd made) st);
      do _ <- pserver_ready;
      Ret rp.

    (** parallel_party_offline.cc:215-251  SimulateOffline *)
    Definition pserver_simulate (cf : sconf) : proc mchan pready :=
      do smp <- lift (noise_samples asserts (sf_conf cf));
      do ct <- pserver_counts cf smp;
      do sh <- pserver_shufflers cf ct;
      do ns <- lift (cs_initialize cs_new (remaining_parties (sf_conf cf)) (co_noise ct) true true);
      do rp <- lift (server_ready ct sh ns (qs_initialize_state qs_new true));
      do _ <- pserver_ready;
      Ret rp.

    (** parallel_party_online.cc:16-31 CollectQueries *)
    Definition pcollect_queries (rp : pready) : proc mchan pready :=
      do r <- take_each (back Fwd) (sm_link mem 2%nat) query_size (length (bt_data (pr_queries rp)) - Z.to_nat (pr_noise rp)) (fun s m =>
        let q := dec_query m in
        let '(read, p, tags, qs) := s in
        let* tags' := bt_push tags (q_tag q) in
        let* h := handle_query p q in
        let* qs' := bt_set qs read (fst h) in
        Ok (S read, snd h, tags', qs')) (Z.to_nat (pr_noise rp), pr_state rp, pr_tags rp, pr_queries rp);
      let '(_, p, tags, qs) := r in
      Ret {| pr_noise := pr_noise rp; pr_input := pr_input rp; pr_shuffled := pr_shuffled rp; pr_state := p;
             pr_sh := pr_sh rp; pr_tags := tags; pr_queries := qs |}.
    (** :42-67 CollectResponses *)
    Definition pcollect_responses (rp : pready) : proc mchan (batch (list Z)) :=
      let sh := pr_sh rp in
      do noise <- lift (get (sh_noisep sh) (N - 1));
      let non_noise := w32 (pr_shuffled rp - Z.of_nat noise) in
      do r <- take_each (next Bwd) (sm_link mem 4%nat) response_size (Z.to_nat (pr_shuffled rp)) (fun s resp =>
        let '(read, out) := s in
        let* target := ls_deshuffle (sh_ls sh) read in
        let* source := ps_find_source (sh_ps sh) N target in
        let* start := ps_prefix_from (sh_ps sh) source in
        let* n := get (sh_noise sh) source in
        if (start + n <=? target)%nat then
          let* np := get (sh_noisep sh) source in
          let* out' := bt_set out (target - np) resp in
          Ok (S read, out')
        else Ok (S read, out)) (0%nat, bt_initialize zero_response (Z.to_nat non_noise));
      Ret (snd r).

    (** parallel_party_online.cc:79-107  StartOnline *)
    Definition pserver_online (rp : pready) : proc mchan unit :=
      do rp' <- pcollect_queries rp;
      do _ <- barrier;
      do out <- pshuffle_queries 2 (pr_sh rp') (pr_shuffled rp') (bt_all (pr_queries rp')) (bt_initialize zero_query (Z.to_nat (pr_shuffled rp')));
      do _ <- barrier;
      do r <- psend_each lb_ops (next Fwd) (fun _ q => Ok (enc_query q, tt)) (bt_all out) tt (messages query_size (sm_link mem 3%nat));
      do _ <- pflush lb_ops (next Fwd) (snd r);
      do ins <- pcollect_responses rp';
      do resps <- pdeshuffle 3 rp' (bt_all ins);
      do _ <- barrier;
      do _ <- barrier;
      do r <- psend_each lb_ops (back Bwd) (fun _ v => Ok (v, tt)) (bt_all resps) tt (messages response_size (sm_link mem 5%nat));
      do _ <- pflush lb_ops (back Bwd) (snd r);
      Ret tt.

    (** backend/backend_offline.cc:62-78 StartOffline *)
    Definition pbserver_offline (pk sk : list Z) : proc mchan (Z * qstate) :=
      do count <- pread_count (back Fwd);
      do _ <- psend_ready (back Bwd);
      do p <- take_ciphers (back Fwd) (sm_link mem 0%nat) backend_in_size (Z.to_nat count) (backend_handle_cipher b asserts pk sk)
                (qs_initialize_state qs_new false);
      do p' <- (if (1 <? N)%nat then do p' <- psecrets 0 backend_pack (bs_store asserts) p; do _ <- barrier; Ret p' else Ret p);
      do _ <- psend_ready (back Bwd);
      Ret (count, p').
  End Server.

  (** parallel_party_initialization.cc:62-75 (checks, back_, next_, siblings_),
      parallel_party.h:30-39 *)
  Definition pserver (k i : nat) (mem : smem) (acc : list nat) (cf : sconf) : proc mchan ending :=
    do _ <- lift (par_check asserts (sf_conf cf));
    do _ <- relabel (Link i) (plisten (k - 1));
    do _ <- relabel (Link i) (pconnect k);
    do fds <- psiblings k i acc;
    let tx t := Sib k i (nth t fds i) in
    let rx t := Sib k (nth t fds i) i in
    do rp <- (if offline then pserver_offline k i mem tx rx cf else pserver_simulate k i tx rx cf);
    do _ <- (if online then pserver_online k i mem tx rx rp else Ret tt);
    Ret PartyEnd.

  (** backend/backend_initialization.cc:11-36, backend.h:23-32 *)
  Definition pbserver (k i : nat) (mem : smem) (acc : list nat) (db : list response) (junk pk sk : list Z) : proc mchan ending :=
    do _ <- relabel (Link i) (plisten (k - 1));
    do fds <- (if (1 <? N)%nat then psiblings k i acc else Ret []);
    let tx t := Sib k i (nth t fds i) in
    let rx t := Sib k (nth t fds i) i in
    do s <- (if offline then pbserver_offline k i mem tx rx pk sk else relabel (Link i) (pbackend_simulate k));
    do keys <- (if online then relabel (Link i) (pbackend_online (sm_link mem) k db junk (fst s) (snd s)) else Ret []);
    Ret (BackendEnd keys).

  (** Process p is server p mod N of entity p / N: entity 0 are the clients,
      1 .. P the parties, P+1 the backend. *)
  Definition par_entity (mem : nat -> smem) (acc : nat -> list nat) (db : list response) (junk : list Z) (clients : list client)
      (parties : list (list sconf)) (bpk bsk : list Z) (p : nat) : proc mchan ending :=
    let i := (p mod N)%nat in
    match (p / N)%nat with
    | O =>
        match nth_error clients i with
        | Some c => relabel (Link i) (pclient b asserts offline online (Z.of_nat i) (sm_link (mem p)) (S (length parties)) db c)
        | None => Ret PartyEnd
        end
    | S j =>
        match nth_error parties j with
        | Some confs => match nth_error confs i with Some cf => pserver (S j) i (mem p) (acc p) cf | None => Ret PartyEnd end
        | None => if (j =? length parties)%nat then pbserver (S j) i (mem p) (acc p) db junk bpk bsk else Ret PartyEnd
        end
    end.
End Servers.
