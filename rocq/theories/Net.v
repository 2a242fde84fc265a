(** Processes that exchange messages over FIFO channels of bounded capacity:
    the communication skeleton of the blocking phases of the protocol. *)
From Verif Require Import Base.

(** One blocking communication (or local event) of a process.  [Snd c m]: write
    one unit of a message of kind m to channel c (blocks while c is full);
    [Rcv c m]: read one unit from c where the program expects kind m (blocks
    while c is empty); [Loc l]: a local event. *)
Inductive act (Ch M L : Type) : Type :=
| Snd (c : Ch) (m : M)
| Rcv (c : Ch) (m : M)
| Loc (l : L).
Arguments Snd {Ch M L} c m.
Arguments Rcv {Ch M L} c m.
Arguments Loc {Ch M L} l.

Section Net.
  Context {Ch M L : Type} (ceqb : Ch -> Ch -> bool).

  (** An event: which process did what. *)
  Definition ev : Type := (nat * act Ch M L)%type.

  (** The events of process p, in order. *)
  Definition proj (p : nat) (tr : list ev) : list (act Ch M L) :=
    map snd (filter (fun e => (fst e =? p)%nat) tr).

  (** Message kinds written to / read from a channel so far, in order. *)
  Definition sends (c : Ch) (tr : list ev) : list M :=
    flat_map (fun e => match snd e with Snd c' m => if ceqb c c' then [m] else [] | _ => [] end) tr.
  Definition recvs (c : Ch) (tr : list ev) : list M :=
    flat_map (fun e => match snd e with Rcv c' m => if ceqb c c' then [m] else [] | _ => [] end) tr.

  Definition enabled (cap : Ch -> nat) (tr : list ev) (a : act Ch M L) : Prop :=
    match a with
    | Snd c _ => (length (sends c tr) < length (recvs c tr) + cap c)%nat
    | Rcv c _ => (length (recvs c tr) < length (sends c tr))%nat
    | Loc _ => True
    end.

  (** [run cap prog tr]: tr is a possible interleaving, from the start, of the
      programs [prog p] with channel capacities [cap]. *)
  Inductive run (cap : Ch -> nat) (prog : nat -> list (act Ch M L)) : list ev -> Prop :=
  | run_nil : run cap prog []
  | run_snoc : forall tr p a, run cap prog tr ->
      nth_error (prog p) (length (proj p tr)) = Some a -> enabled cap tr a ->
      run cap prog (tr ++ [(p, a)]).

  (** All programs have been executed completely. *)
  Definition finished (prog : nat -> list (act Ch M L)) (tr : list ev) : Prop := forall p, proj p tr = prog p.
End Net.

(** ** The single-server deployment (client, parties, backend) *)

(** Kinds of messages between neighbouring entities. *)
Inductive kind := KListen | KConnect | KCount | KReady | KCipher | KQuery | KResponse.

(** Entity 0 is the client, 1..P are the parties, P+1 is the backend; link j
    joins entities j and j+1.  [Lis j]: entity j+1 listens (observed by the retry
    loop of connect); [Con j]: the connection request; [Fwd j], [Bwd j]: the two
    directions of the connection. *)
Inductive chan := Lis (j : nat) | Con (j : nat) | Fwd (j : nat) | Bwd (j : nat).
Definition chan_eqb (a b : chan) : bool :=
  match a, b with
  | Lis i, Lis j | Con i, Con j | Fwd i, Fwd j | Bwd i, Bwd j => (i =? j)%nat
  | _, _ => false
  end.

(** Local milestones: batch and states allocated; offline work finished. *)
Inductive stone := Allocated | OfflineDone.

(** The entities at the two ends of a channel. *)
Definition sender (c : chan) : nat := match c with Lis j => S j | Con j => j | Fwd j => j | Bwd j => S j end.
Definition receiver (c : chan) : nat := match c with Lis j => j | Con j => S j | Fwd j => S j | Bwd j => j end.
Definition action := act chan kind stone.

(** sockets/common.cc:29-68 ConnectTo: retry until the peer listens, then
    connect. *)
Definition connect_to (j : nat) : list action := [Rcv (Lis j) KListen; Snd (Con j) KConnect].
(** sockets/common.cc:70-117 ListenOn with one connection: listen, accept. *)
Definition listen_on (j : nat) : list action := [Snd (Lis j) KListen; Rcv (Con j) KConnect].

(** Numbers of units (messages or, more finely, bytes) sent over each link per
    batch of ciphers, queries and responses. *)
Record sizes := { z_cipher : nat -> nat; z_query : nat -> nat; z_response : nat -> nat }.

(** client/client_initialization.cc:11-32 (connect), client.h:21-30 (Start),
    client_offline.cc:10-46, client_online.cc:11-50 *)
Definition client_prog (z : sizes) (offline online : bool) : list action :=
  connect_to 0 ++
  (if offline then
     [Snd (Fwd 0) KCount; Rcv (Bwd 0) KReady] ++ repeat (Snd (Fwd 0) KCipher) (z_cipher z 0) ++ [Rcv (Bwd 0) KReady]
   else [Snd (Fwd 0) KCount; Rcv (Bwd 0) KReady]) ++
  (if online then repeat (Snd (Fwd 0) KQuery) (z_query z 0) ++ repeat (Rcv (Bwd 0) KResponse) (z_response z 0) else []).

(** Party number k-1 (entity k): party_initialization.cc:12-60 (sockets),
    79-91 (counts); party.h:28-37; party_offline.cc:112-177 (StartOffline),
    179-211 (SimulateOffline); party_online.cc:14-109. *)
Definition party_prog (z : sizes) (offline online : bool) (k : nat) : list action :=
  let b := (k - 1)%nat in
  listen_on b ++ connect_to k ++
  [Rcv (Fwd b) KCount; Snd (Fwd k) KCount; Loc Allocated] ++
  (if offline then
     [Rcv (Bwd k) KReady; Snd (Bwd b) KReady] ++
     repeat (Rcv (Fwd b) KCipher) (z_cipher z b) ++ repeat (Snd (Fwd k) KCipher) (z_cipher z k)
   else []) ++
  [Loc OfflineDone; Rcv (Bwd k) KReady; Snd (Bwd b) KReady] ++
  (if online then
     repeat (Rcv (Fwd b) KQuery) (z_query z b) ++ repeat (Snd (Fwd k) KQuery) (z_query z k) ++
     repeat (Rcv (Bwd k) KResponse) (z_response z k) ++ repeat (Snd (Bwd b) KResponse) (z_response z b)
   else []).

(** backend_initialization.cc:11-41, backend_offline.cc:62-89 (one server, so
    no sibling traffic), backend_online.cc:8-36; entity P+1. *)
Definition backend_prog (z : sizes) (offline online : bool) (k : nat) : list action :=
  let b := (k - 1)%nat in
  listen_on b ++
  [Rcv (Fwd b) KCount; Loc Allocated] ++
  (if offline then Snd (Bwd b) KReady :: repeat (Rcv (Fwd b) KCipher) (z_cipher z b) else []) ++
  [Loc OfflineDone; Snd (Bwd b) KReady] ++
  (if online then repeat (Rcv (Fwd b) KQuery) (z_query z b) ++ repeat (Snd (Bwd b) KResponse) (z_response z b) else []).

(** The whole deployment with P parties (besides client and backend). *)
Definition deployment_prog (P : nat) (z : sizes) (offline online : bool) (p : nat) : list action :=
  if (p =? 0)%nat then client_prog z offline online
  else if (p <=? P)%nat then party_prog z offline online p
  else if (p =? S P)%nat then backend_prog z offline online p
  else [].
