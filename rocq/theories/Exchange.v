(** Model of the exchange between the servers of one party (or of the
    backend): SendAndPoll (protocol/parallel_party/parallel_party_util.inc) as
    used by ShuffleCiphers, ShuffleQueries, DeshuffleResponses and
    BroadcastSecrets, running at all siblings at the same time over TCP
    channels of bounded capacity, as a transition system.

    A channel carries single units (bytes).  A system call that transfers
    several bytes is several steps here: all its interleavings with the other
    servers are covered. *)
From Coq Require Import List Arith Bool.
From Verif Require Import Lts.
Import ListNotations.

Section Exchange.
Context {U H : Type}.

(** One exchange.  [x_items i] is the collection server i iterates over; an item
    is the list of (target, message) pairs its send_handler sends: one pair for
    the shuffles (parallel_party_shuffle.cc:63-70, 117-124, 178-192), one per
    sibling for a broadcast (sockets/parallel_socket.cc:207-218).  A pair with
    target i is handled locally.  [x_h i] is the effect of FromSibling / Store
    at server i, on its state [H]; [x_h0 i] is its state before. *)
Record exch := {
  x_n : nat;                                 (* server_count_ *)
  x_cap : nat -> nat -> nat;                 (* units the channel i -> j can hold *)
  x_unit : nat;                              (* message size in units *)
  x_buf : nat;                               (* capacity of a LogicalBuffer, in messages *)
  x_rate : nat;                              (* poll_rate *)
  x_items : nat -> list (list (nat * list U));
  x_want : nat -> nat -> nat;                (* servers_read_count of server i, for source j *)
  x_h : nat -> H -> nat -> list U -> H;
  x_h0 : nat -> H
}.

Inductive phase := Fill | Drain | Final | Done.

(** Control state of one server: remaining items, items left in this burst,
    rest of the current item, write buffers, sends in progress, and per source
    the bytes of an incomplete message and the number of messages handled. *)
Record proc := {
  p_phase : phase;
  p_todo : list (list (nat * list U));
  p_left : nat;
  p_cur : list (nat * list U);
  p_buf : nat -> list U;
  p_pend : list (nat * list U);
  p_part : nat -> list U;
  p_got : nat -> nat;
  p_h : H
}.

Record st := { procs : nat -> proc; chan : nat -> nat -> list U }.

Definition upd {A} (f : nat -> A) (i : nat) (a : A) : nat -> A := fun k => if k =? i then a else f k.
Definition upd2 {A} (f : nat -> nat -> A) (i j : nat) (a : A) : nat -> nat -> A :=
  fun k l => if (k =? i) && (l =? j) then a else f k l.
Definition put (s : st) (i : nat) (p : proc) : st := {| procs := upd (procs s) i p; chan := chan s |}.

Variable x : exch.

(** The siblings of server i in the order of the loops over server ids. *)
Definition siblings (i : nat) : list nat := filter (fun j => negb (j =? i)) (seq 0 (x_n x)).

(** parallel_party_util.inc:45, 75, 91: read_count == 0, as the sum of what the
    siblings still owe. *)
Definition all_read (i : nat) (p : proc) : Prop := forall j, In j (siblings i) -> x_want x i j <= p_got p j.

(** :34  while (it != end): the next burst, or the flush of :78-87. *)
Definition next_burst (i : nat) (p : proc) : proc :=
  match p_todo p with
  | _ :: _ => {| p_phase := Fill; p_todo := p_todo p; p_left := x_rate x; p_cur := []; p_buf := p_buf p;
                 p_pend := []; p_part := p_part p; p_got := p_got p; p_h := p_h p |}
  | [] => {| p_phase := Final; p_todo := []; p_left := 0; p_cur := []; p_buf := fun _ => [];
             p_pend := map (fun j => (j, p_buf p j)) (siblings i);
             p_part := p_part p; p_got := p_got p; p_h := p_h p |}
  end.

Definition init_proc (i : nat) : proc :=
  next_burst i {| p_phase := Fill; p_todo := x_items x i; p_left := 0; p_cur := []; p_buf := fun _ => [];
                  p_pend := []; p_part := fun _ => []; p_got := fun _ => 0; p_h := x_h0 x i |}.
Definition init : st := {| procs := init_proc; chan := fun _ _ => [] |}.

(** :36-42  the next item of the burst: send_handler is called. *)
Definition take_item (p : proc) (it : list (nat * list U)) (rest : list (list (nat * list U))) : proc :=
  {| p_phase := p_phase p; p_todo := rest; p_left := p_left p - 1; p_cur := it; p_buf := p_buf p;
     p_pend := p_pend p; p_part := p_part p; p_got := p_got p; p_h := p_h p |}.

(** target == server_id_: FromSibling is called directly. *)
Definition handle_own (i : nat) (p : proc) (m : list U) (rest : list (nat * list U)) : proc :=
  {| p_phase := p_phase p; p_todo := p_todo p; p_left := p_left p; p_cur := rest; p_buf := p_buf p;
     p_pend := p_pend p; p_part := p_part p; p_got := p_got p; p_h := x_h x i (p_h p) i m |}.

(** sockets/parallel_socket.cc:187-218: PushBack, then flush when full. *)
Definition push_msg (p : proc) (j : nat) (m : list U) (rest : list (nat * list U)) : proc :=
  let b := p_buf p j ++ m in
  let full := x_buf x * x_unit x <=? length b in
  {| p_phase := p_phase p; p_todo := p_todo p; p_left := p_left p; p_cur := rest;
     p_buf := upd (p_buf p) j (if full then [] else b);
     p_pend := if full then [(j, b)] else [];
     p_part := p_part p; p_got := p_got p; p_h := p_h p |}.

Definition set_pend (p : proc) (l : list (nat * list U)) : proc :=
  {| p_phase := p_phase p; p_todo := p_todo p; p_left := p_left p; p_cur := p_cur p; p_buf := p_buf p;
     p_pend := l; p_part := p_part p; p_got := p_got p; p_h := p_h p |}.
Definition set_phase (p : proc) (f : phase) : proc :=
  {| p_phase := f; p_todo := p_todo p; p_left := p_left p; p_cur := p_cur p; p_buf := p_buf p;
     p_pend := p_pend p; p_part := p_part p; p_got := p_got p; p_h := p_h p |}.

(** read_handler, one unit: a complete message is handled and counted. *)
Definition receive (i : nat) (p : proc) (j : nat) (u : U) : proc :=
  let m := p_part p j ++ [u] in
  if length m =? x_unit x
  then {| p_phase := p_phase p; p_todo := p_todo p; p_left := p_left p; p_cur := p_cur p; p_buf := p_buf p;
          p_pend := p_pend p; p_part := upd (p_part p) j []; p_got := upd (p_got p) j (S (p_got p j));
          p_h := x_h x i (p_h p) j m |}
  else {| p_phase := p_phase p; p_todo := p_todo p; p_left := p_left p; p_cur := p_cur p; p_buf := p_buf p;
          p_pend := p_pend p; p_part := upd (p_part p) j m; p_got := p_got p; p_h := p_h p |}.

(** Server i is in one of its two reading loops (:52-75, :91-113). *)
Definition reading (p : proc) : Prop := p_phase p = Drain \/ (p_phase p = Final /\ p_pend p = []).

Inductive step (s : st) : st -> Prop :=
(** :36 *)
| s_item i it rest : i < x_n x -> p_phase (procs s i) = Fill -> p_pend (procs s i) = [] -> p_cur (procs s i) = [] ->
    p_todo (procs s i) = it :: rest -> (0 < p_left (procs s i) \/ all_read i (procs s i)) ->
    step s (put s i (take_item (procs s i) it rest))
| s_own i m rest : i < x_n x -> p_pend (procs s i) = [] -> p_cur (procs s i) = (i, m) :: rest ->
    step s (put s i (handle_own i (procs s i) m rest))
| s_push i j m rest : i < x_n x -> j <> i -> p_pend (procs s i) = [] -> p_cur (procs s i) = (j, m) :: rest ->
    step s (put s i (push_msg (procs s i) j m rest))
(** sockets/common.cc:133-140: send blocks while the channel is full. *)
| s_send i j u us rest : i < x_n x -> p_pend (procs s i) = (j, u :: us) :: rest -> length (chan s i j) < x_cap x i j ->
    step s {| procs := upd (procs s) i (set_pend (procs s i) ((j, us) :: rest));
              chan := upd2 (chan s) i j (chan s i j ++ [u]) |}
| s_sent i j rest : i < x_n x -> p_pend (procs s i) = (j, []) :: rest ->
    step s (put s i (set_pend (procs s i) rest))
(** :36 ends; :45-47 read_count != 0: start polling. *)
| s_poll i : i < x_n x -> p_phase (procs s i) = Fill -> p_pend (procs s i) = [] -> p_cur (procs s i) = [] ->
    (p_todo (procs s i) = [] \/ p_left (procs s i) = 0) -> ~ all_read i (procs s i) ->
    step s (put s i (set_phase (procs s i) Drain))
(** :45-47 read_count == 0 and nothing left to send. *)
| s_skip i : i < x_n x -> p_phase (procs s i) = Fill -> p_pend (procs s i) = [] -> p_cur (procs s i) = [] ->
    p_todo (procs s i) = [] -> all_read i (procs s i) ->
    step s (put s i (next_burst i (procs s i)))
(** :57-72, 96-111: a sibling that still owes messages has data to read. *)
| s_recv i j u us : i < x_n x -> In j (siblings i) -> reading (procs s i) ->
    p_got (procs s i) j < x_want x i j -> chan s j i = u :: us ->
    step s {| procs := upd (procs s) i (receive i (procs s i) j u); chan := upd2 (chan s) j i us |}
(** :75  Poll(0) finds no data (or nothing is owed): the do-while ends. *)
| s_drained i : i < x_n x -> p_phase (procs s i) = Drain ->
    (forall j, In j (siblings i) -> p_got (procs s i) j < x_want x i j -> chan s j i = []) ->
    step s (put s i (next_burst i (procs s i)))
(** :91 read_count == 0 *)
| s_finish i : i < x_n x -> p_phase (procs s i) = Final -> p_pend (procs s i) = [] -> all_read i (procs s i) ->
    step s (put s i (set_phase (procs s i) Done)).

(** SendAndPoll has returned at every server. *)
Definition all_done (s : st) : Prop := forall i, i < x_n x -> p_phase (procs s i) = Done.

End Exchange.
Arguments exch : clear implicits.
Arguments proc : clear implicits.
Arguments st : clear implicits.
