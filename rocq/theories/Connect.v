(** Model of how the processes of a deployment get connected: the socket calls of
    their constructors, one at a time, in any interleaving.
    Simplifications: only connections of these processes arrive; socket() and
    setsockopt() succeed; ports are below 2^16; an address names one machine, as
    text; a queue of waiting connections is never full (C83_orderly: there are
    never more than listen() was told). *)
From Verif Require Import Base Config MainFlags Boot.

(** sockets/common.cc:70-110 up to listen(); 112-120 accept(); parallel_socket.cc:
    64-67 read the identity from the j-th connection accepted, which must be below
    [own]; common.cc:29-68 connect(), again and again; parallel_socket.cc:96-97 send
    the own identity on the connection just made. *)
Inductive act :=
| Listen (port : Z)
| Accept (port : Z)
| Hear (port : Z) (j : nat) (own : Z)
| Dial (ip : list Z) (port : Z)
| Greet (own : Z).

(** parallel_socket.cc:52-100  ParallelSocket::Initialize *)
Definition sibling_script (pc : pcfg) (server count : Z) : res (list act) :=
  let* up := (if 0 <? server then
                let* sv := get (pc_servers pc) (Z.to_nat server) in
                Ok (Listen (sv_parallel sv) :: repeat (Accept (sv_parallel sv)) (Z.to_nat server) ++
                    map (fun j => Hear (sv_parallel sv) j server) (seq 0 (Z.to_nat server)))
              else Ok []) in
  let* down := map_res (fun i => let* sv := get (pc_servers pc) (Z.to_nat server + i) in Ok [Dial (sv_ip sv) (sv_parallel sv); Greet server])
                 (seq 1 (Z.to_nat (w8 (count - server)) - 1)) in
  Ok (up ++ concat down).
(** server_socket.cc:10-16 *)
Definition back_script (sv : Config.sconf) : list act := [Listen (sv_port sv); Accept (sv_port sv)].
(** client_initialization.cc:27-31, party_initialization.cc:54-58,
    parallel_party_initialization.cc:60-66, backend_initialization.cc:30-35, for
    the choice that main.cc makes. *)
Definition script (cfg : config) (d : decision) : res (list act) :=
  match d with
  | RunClient server _ _ _ =>
      let* first := at_ (cg_parties cfg) 0 in
      let* sv := at_ (pc_servers first) server in
      Ok [Dial (sv_ip sv) (sv_port sv)]
  | RunParty party server _ _ =>
      let* pc := at_ (cg_parties cfg) party in
      let* sv := at_ (pc_servers pc) server in
      let* nextparty := at_ (cg_parties cfg) (party + 1) in
      let* next := at_ (pc_servers nextparty) server in
      Ok (back_script sv ++ [Dial (sv_ip next) (sv_port next)])
  | RunParallelParty party server _ _ =>
      let* pc := at_ (cg_parties cfg) party in
      let* sv := at_ (pc_servers pc) server in
      let* nextparty := at_ (cg_parties cfg) (party + 1) in
      let* next := at_ (pc_servers nextparty) server in
      let* s := sibling_script pc server (cg_servers_n cfg) in
      Ok (back_script sv ++ [Dial (sv_ip next) (sv_port next)] ++ s)
  | RunBackend server _ _ =>
      let* pc := at_ (cg_parties cfg) (w8 (cg_parties_n cfg - 1)) in
      let* sv := at_ (pc_servers pc) server in
      if 1 <? cg_servers_n cfg then
        let* s := sibling_script pc server (cg_servers_n cfg) in Ok (back_script sv ++ s)
      else Ok (back_script sv)
  | Exit1 => Ok []
  end.

(** A connection: who made it, to whom and to which port, and the identity sent on it. *)
Record conn := { cn_from : nat; cn_to : nat; cn_port : Z; cn_said : option Z }.
(** What is left to do for every process, who listens on which ports, the
    connections made (newest first), one entry per accept(), and the processes that
    were stopped by an assertion. *)
Record links := { lk_todo : nat -> list act; lk_open : list (nat * Z); lk_conns : list conn; lk_accepted : list (nat * Z); lk_failed : list nat }.

Definition set_todo (p : nat) (l : list act) (f : nat -> list act) : nat -> list act := fun q => if (q =? p)%nat then l else f q.
Definition at_port (q : nat) (port : Z) (x : nat * Z) : bool := (fst x =? q)%nat && (snd x =? port).
(** The connections that have arrived at a port of q, in this order. *)
Definition arrivals (q : nat) (port : Z) (st : links) : list conn := rev (filter (fun c => at_port q port (cn_to c, cn_port c)) (lk_conns st)).
Definition text_eqb (a b : list Z) : bool := if list_eq_dec Z.eq_dec a b then true else false.
(** [host p]: the address of the machine of process p. *)
Definition same_host (host : nat -> option (list Z)) (ip : list Z) (q : nat) : bool := match host q with Some x => text_eqb x ip | None => false end.
Fixpoint say (p : nat) (id : Z) (l : list conn) : list conn :=
  match l with
  | [] => []
  | c :: l => if (cn_from c =? p)%nat then {| cn_from := p; cn_to := cn_to c; cn_port := cn_port c; cn_said := Some id |} :: l else c :: say p id l
  end.

(** One system call of process p; nothing changes while it blocks or connect() fails. *)
Definition link_step (host : nat -> option (list Z)) (p : nat) (st : links) : links :=
  match lk_todo st p with
  | [] => st
  | a :: rest =>
      let go := {| lk_todo := set_todo p rest (lk_todo st); lk_open := lk_open st; lk_conns := lk_conns st; lk_accepted := lk_accepted st; lk_failed := lk_failed st |} in
      let fail := {| lk_todo := set_todo p [] (lk_todo st); lk_open := lk_open st; lk_conns := lk_conns st; lk_accepted := lk_accepted st; lk_failed := p :: lk_failed st |} in
      match a with
      | Listen port =>
          if existsb (fun x => match host p with Some ip => same_host host ip (fst x) && (snd x =? port) | None => false end) (lk_open st)
          then fail
          else {| lk_todo := lk_todo go; lk_open := (p, port) :: lk_open st; lk_conns := lk_conns st; lk_accepted := lk_accepted st; lk_failed := lk_failed st |}
      | Accept port =>
          if (length (filter (at_port p port) (lk_accepted st)) <? length (arrivals p port st))%nat
          then {| lk_todo := lk_todo go; lk_open := lk_open st; lk_conns := lk_conns st; lk_accepted := (p, port) :: lk_accepted st; lk_failed := lk_failed st |}
          else st
      | Hear port j own =>
          match nth_error (arrivals p port st) j with
          | Some c => match cn_said c with Some id => if id <? own then go else fail | None => st end
          | None => st
          end
      | Dial ip port =>
          match find (fun x => same_host host ip (fst x) && (snd x =? port)) (lk_open st) with
          | Some x => {| lk_todo := lk_todo go; lk_open := lk_open st; lk_conns := {| cn_from := p; cn_to := fst x; cn_port := port; cn_said := None |} :: lk_conns st;
                         lk_accepted := lk_accepted st; lk_failed := lk_failed st |}
          | None => st
          end
      | Greet own => {| lk_todo := lk_todo go; lk_open := lk_open st; lk_conns := say p own (lk_conns st); lk_accepted := lk_accepted st; lk_failed := lk_failed st |}
      end
  end.
(** Nothing has happened yet. *)
Definition link_start (todo : nat -> list act) : links := {| lk_todo := todo; lk_open := []; lk_conns := []; lk_accepted := []; lk_failed := [] |}.
