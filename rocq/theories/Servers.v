(** Per-sibling tables, polling, and the connection phase of sibling servers. *)
From Verif Require Import Base.

(** types/containers.h:15-55  ServersMap<T>: a table keyed by sibling id with a
    gap at the owner's id. *)
Record smap (T : Type) := { sm_gap : Z; sm_data : list T }.
Arguments sm_gap {T} _.
Arguments sm_data {T} _.

(** types/containers.h:19-20: std::make_unique<T[]>(server_count - 1); the int
    -1 becomes a huge size_t and the allocation throws. [d] is the value T's
    default constructor leaves. *)
Definition smap_new {T} (gap count : Z) (d : T) : res (smap T) :=
  if count =? 0 then Abort
  else Ok {| sm_gap := gap; sm_data := repeat d (Z.to_nat (count - 1)) |}.

(** types/containers.h:23-31; the loop variables are uint8_t, the start of the
    second loop wraps. [i - 1] is an int: index -1 is out of bounds. *)
Definition smap_fill {T} (gap count : Z) (d fill : T) : res (smap T) :=
  let* m := smap_new gap count d in
  let* l1 := for_ (Z.to_nat gap) 0 (fun i l => set_ l i fill) (sm_data m) in
  let start := w8 (gap + 1) in
  let* l2 := for_ (Z.to_nat (count - start)) (Z.to_nat start)
               (fun i l => if (i =? 0)%nat then UB else set_ l (i - 1) fill) l1 in
  Ok {| sm_gap := gap; sm_data := l2 |}.

(** types/containers.h:34-47  operator[] *)
Definition smap_index {T} (asserts : bool) (m : smap T) (id : Z) : res nat :=
  if asserts && (id =? sm_gap m) then Abort
  else Ok (Z.to_nat (if id >? sm_gap m then id - 1 else id)).
Definition smap_get {T} (asserts : bool) (m : smap T) (id : Z) : res T :=
  let* i := smap_index asserts m id in get (sm_data m) i.
Definition smap_set {T} (asserts : bool) (m : smap T) (id : Z) (v : T) : res (smap T) :=
  let* i := smap_index asserts m id in
  let* l := set_ (sm_data m) i v in
  Ok {| sm_gap := sm_gap m; sm_data := l |}.

(** parallel_party_initialization.cc:26-30, backend_initialization.cc:20,
    parallel_party_util.inc:17: a map without a gap is built as
    ServersMap(server_count, server_count + 1); the second argument is converted
    to uint8_t. *)
Definition smap_gapless {T} (server_count : Z) (d : T) : res (smap T) :=
  smap_new server_count (w8 (server_count + 1)) d.
Definition smap_gapless_fill {T} (server_count : Z) (d fill : T) : res (smap T) :=
  smap_fill server_count (w8 (server_count + 1)) d fill.

(** sockets/common.cc:143-157  Poll.  [ret] is what poll() does: [None] is an
    error (-1), [Some revents] fills in the returned events; poll's return value
    is then the number of entries with a non-zero mask.  POLLIN is bit 0.
    [result] is the caller's array, one cell per descriptor. *)
Fixpoint poll_scan (nfds : nat) (revents : list Z) (result : list bool) : res (list Z * list bool) :=
  match nfds with
  | O => Ok (revents, result)
  | S n =>
      match revents, result with
      | r :: rs, b :: bs =>
          if Z.testbit r 0
          then let* (rs', bs') := poll_scan n rs bs in Ok (0 :: rs', true :: bs')
          else let* (rs', bs') := poll_scan nfds rs bs in Ok (r :: rs', b :: bs')
      | _, _ => UB
      end
  end.
Definition poll_count (revents : list Z) : nat := length (filter (fun r => negb (r =? 0)) revents).
Definition poll_ (asserts : bool) (ret : option (list Z)) (result : list bool) : res (Z * list Z * list bool) :=
  match ret with
  | None => if asserts then Abort else Ok (w64 (-1), [], result)
  | Some revents =>
      let nfds := poll_count revents in
      let* (rs, bs) := poll_scan nfds revents result in
      Ok (Z.of_nat nfds, rs, bs)
  end.

(** struct pollfd, as filled in by parallel_socket.cc *)
Record pfd := { pf_fd : Z; pf_events : Z; pf_revents : Z }.

Record ptable := { pt_socks : smap Z; pt_polls : smap pfd }.

(** sockets/parallel_socket.cc:69-74 and 89-94: one connection is entered into
    the two tables. *)
Definition register (asserts : bool) (t : ptable) (id fd : Z) : res ptable :=
  let* s := smap_set asserts (pt_socks t) id fd in
  let* p := smap_set asserts (pt_polls t) id {| pf_fd := fd; pf_events := 1; pf_revents := 0 |} in
  Ok {| pt_socks := s; pt_polls := p |}.

(** sockets/parallel_socket.cc:63-75: the accepted connections in arrival order,
    each with the identity byte its first read returns. *)
Definition register_arrivals (asserts : bool) (self : Z) (arrivals : list (Z * Z)) (t : ptable) : res ptable :=
  fold_res (fun t (a : Z * Z) => let (fd, id) := a in
      if asserts && negb (id <? self) then Abort else register asserts t id fd) arrivals t.

(** sockets/parallel_socket.cc:80-99: connect to the higher ids; [newfd id] is
    the descriptor ConnectTo returns.  Also returns the identity bytes sent, as
    (receiver, byte). *)
Definition connect_higher (asserts : bool) (self server_count : Z) (newfd : Z -> Z) (t : ptable)
  : res (ptable * list (Z * Z)) :=
  let count := w8 (server_count - self) in
  for_ (Z.to_nat (count - 1)) 1 (fun i s =>
      let id := w8 (self + Z.of_nat i) in
      let* t' := register asserts (fst s) id (newfd id) in
      Ok (t', snd s ++ [(id, self)])) (t, []).

(** sockets/parallel_socket.cc:13-19 (tables) and 52-100  Initialize *)
Definition sibling_initialize (asserts : bool) (self server_count : Z) (arrivals : list (Z * Z)) (newfd : Z -> Z)
  : res (ptable * list (Z * Z)) :=
  let* s := smap_new self server_count 0 in
  let* p := smap_new self server_count {| pf_fd := 0; pf_events := 0; pf_revents := 0 |} in
  let* t := (if self >? 0 then register_arrivals asserts self arrivals {| pt_socks := s; pt_polls := p |}
             else Ok {| pt_socks := s; pt_polls := p |}) in
  connect_higher asserts self server_count newfd t.

(** sockets/parallel_socket.cc:145-147  IgnoreServer (poll() skips entries with
    a negative descriptor) and 148-154  ResetServers. *)
Definition ignore_server (asserts : bool) (t : ptable) (id : Z) : res ptable :=
  let* fd := smap_get asserts (pt_socks t) id in
  let* e := smap_get asserts (pt_polls t) id in
  let* p := smap_set asserts (pt_polls t) id {| pf_fd := fd * -1; pf_events := pf_events e; pf_revents := pf_revents e |} in
  Ok {| pt_socks := pt_socks t; pt_polls := p |}.
Definition reset_servers (asserts : bool) (self server_count : Z) (t : ptable) : res ptable :=
  for_ (Z.to_nat server_count) 0 (fun i t =>
      let id := Z.of_nat i in
      if id =? self then Ok t else
      let* fd := smap_get asserts (pt_socks t) id in
      let* e := smap_get asserts (pt_polls t) id in
      let* p := smap_set asserts (pt_polls t) id {| pf_fd := fd; pf_events := pf_events e; pf_revents := pf_revents e |} in
      Ok {| pt_socks := pt_socks t; pt_polls := p |}) t.

(** The connection phase of all siblings of one party as a transition system
    (parallel_socket.cc:52-100, common.cc:29-110): server s listens, accepts s
    connections in any order, then connects to s+1, s+2, ... in order.  A
    connect succeeds once its target listens (ConnectTo retries until then) and
    does not wait for accept.  Simplification: connecting and sending the
    identity byte are one step (a one-byte send into an empty socket never
    waits). *)
Record cstate_ := { c_lis : nat -> bool; c_pend : nat -> list nat; c_acc : nat -> list nat; c_nxt : nat -> nat }.
Definition fupd {A} (f : nat -> A) (k : nat) (v : A) : nat -> A := fun x => if (x =? k)%nat then v else f x.

Definition conn_start : cstate_ :=
  {| c_lis := fun _ => false; c_pend := fun _ => []; c_acc := fun _ => []; c_nxt := fun s => S s |}.

Inductive conn_step (n : nat) : cstate_ -> cstate_ -> Prop :=
| cs_listen : forall c s, (0 < s < n)%nat -> c_lis c s = false ->
    conn_step n c {| c_lis := fupd (c_lis c) s true; c_pend := c_pend c; c_acc := c_acc c; c_nxt := c_nxt c |}
| cs_accept : forall c s x l1 l2, (s < n)%nat -> c_lis c s = true -> (length (c_acc c s) < s)%nat ->
    c_pend c s = l1 ++ x :: l2 ->
    conn_step n c {| c_lis := c_lis c; c_pend := fupd (c_pend c) s (l1 ++ l2);
                     c_acc := fupd (c_acc c) s (c_acc c s ++ [x]); c_nxt := c_nxt c |}
| cs_connect : forall c s t, (s < n)%nat -> length (c_acc c s) = s -> c_nxt c s = t -> (t < n)%nat ->
    c_lis c t = true ->
    conn_step n c {| c_lis := c_lis c; c_pend := fupd (c_pend c) t (c_pend c t ++ [s]);
                     c_acc := c_acc c; c_nxt := fupd (c_nxt c) s (S t) |}.

Definition conn_done (n : nat) (c : cstate_) : Prop :=
  forall s, (s < n)%nat -> length (c_acc c s) = s /\ c_nxt c s = n.
