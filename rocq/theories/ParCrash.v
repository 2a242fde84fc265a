(** Deployments with N servers per entity in which processes are killed. *)
From Verif Require Import Base Net Procs ParProcs.

(** The process that sends on a channel.  Process [e * N + i] is server i of
    entity e. *)
Definition mfrom (N : nat) (c : mchan) : nat :=
  match c with
  | Link i c => (sender c * N + i)%nat
  | Sib k s t | SLis k s t | SCon k s t => (k * N + s)%nat
  end.

(** Fwd and Bwd are the two directions of an established connection between
    neighbours, Sib one direction of an established connection between siblings;
    the others stand for accept and connect, which wait or retry for ever
    (sockets/common.cc:61-66, 109). *)
Definition mest (c : mchan) : bool := match c with Link _ c => established c | Sib _ _ _ => true | _ => false end.

(** The network and the processes that have been killed, as in [cnet]. *)
Record pcnet := { pn_net : net mchan ending; pn_killed : nat -> bool }.
Definition pc_exited (s : pcnet) (p : nat) : Prop := pn_killed s p = true \/ exists e, nt_proc (pn_net s) p = Ret e.

(** The sender has closed the connection and all it sent has been read or lost. *)
Definition pc_ended (N : nat) (s : pcnet) (c : mchan) : Prop :=
  mest c = true /\ pc_exited s (mfrom N c) /\ nt_chan (pn_net s) c = [].

(** The answers that poll may give (sockets/common.cc:143-157): POLLIN wherever
    there are bytes to read, and where the stream has ended, once the end has
    arrived; if it is to wait, then for one of them.  (Linux reports POLLIN with
    every event on a closed or reset TCP connection.  The loop at 148-155 counts
    on that: it would walk past the array otherwise.) *)
Definition pc_flags (N : nat) (s : pcnet) (block : bool) (l : list mchan) (fs : list bool) : Prop :=
  Forall2 (fun c f => (readable (nt_chan (pn_net s) c) = true -> f = true) /\
                      (f = true -> readable (nt_chan (pn_net s) c) = true \/ pc_ended N s c)) l fs /\
  (block = true -> In true fs).

(** A process that has not been killed makes a step; a process is killed at any
    moment; bytes sent by a killed process are lost, from some point on; a read
    from a connection that has ended returns 0; a poll may report that it has. *)
Inductive par_crash_step (N : nat) (cap : mchan -> nat) (s : pcnet) : pcnet -> Prop :=
| pc_run : forall p s', pn_killed s p = false -> proc_step mchan_eqb cap (pn_net s) p s' ->
    par_crash_step N cap s {| pn_net := s'; pn_killed := pn_killed s |}
| pc_kill : forall p,
    par_crash_step N cap s {| pn_net := pn_net s; pn_killed := set_killed (pn_killed s) p |}
| pc_lose : forall c bs, pn_killed s (mfrom N c) = true -> (exists lost, nt_chan (pn_net s) c = bs ++ lost) ->
    par_crash_step N cap s {| pn_net := {| nt_proc := nt_proc (pn_net s); nt_chan := set_chan mchan_eqb (nt_chan (pn_net s)) c bs |};
                              pn_killed := pn_killed s |}
| pc_eof : forall p c n k, pn_killed s p = false -> nt_proc (pn_net s) p = Read c n k -> pc_ended N s c ->
    par_crash_step N cap s {| pn_net := {| nt_proc := set_proc (nt_proc (pn_net s)) p (k []); nt_chan := nt_chan (pn_net s) |};
                              pn_killed := pn_killed s |}
| pc_poll : forall p block l k fs, pn_killed s p = false -> nt_proc (pn_net s) p = Poll block l k -> pc_flags N s block l fs ->
    par_crash_step N cap s {| pn_net := {| nt_proc := set_proc (nt_proc (pn_net s)) p (k fs); nt_chan := nt_chan (pn_net s) |};
                              pn_killed := pn_killed s |}.
Definition par_crash_start (procs : nat -> proc mchan ending) : pcnet := {| pn_net := net_start procs; pn_killed := fun _ => false |}.
