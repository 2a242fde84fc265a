(** Model of experiments/daemon_server.sh and daemon_client.sh, the loops that
    run on the workers, together with the orchestrator.
    Simplifications: a request is sent, handled and answered in one step; the two
    scripts are one program (a server is never sent a SealPIR job, C78); contents
    of log files are arbitrary byte strings; the log requests (daemon_server.sh:
    82-85) and the time that passes in `sleep` are left out. *)
From Verif Require Import Base Config Orchestrator.

(** Where a daemon is in its loop: before `curl .../ping` (daemon_server.sh:16-24,
    daemon_client.sh:16-24), before `curl .../config` (server 43-51, client
    43-51), watching the process it has started (server 77-97, client 90-110;
    None: the `sleep 5` after "Invalid type"), before `curl .../done` (server
    99-101, client 112-114), there with the job whose log it is about to upload. *)
Inductive dstate := DIdle | DConfig (j : job) | DRun (oj : option job) | DUpload (oj : option job) (log : list Z).

(** A request may be lost, or the reply to it: curl then leaves an empty string
    (daemon_server.sh:19, 45, 50, 81, 101: no exit status is looked at). *)
Inductive net := Fine | NoRequest | NoReply.
(** The orchestrator (main.js, cmd.js), what it was asked and replied, the
    daemons by worker id, and (observation only) the processes that have been
    started, those of DP-PIR with the contents of their configuration file, and
    those that have ended, with what they had written and whether they were killed. *)
Record sys := { sy_orch : orch; sy_hist : list (event * reply); sy_daemons : list dstate;
  sy_starts : list (nat * job * option (list Z)); sy_ends : list (nat * job * (list Z * bool)) }.
Definition sy_start : sys := {| sy_orch := or_start; sy_hist := []; sy_daemons := []; sy_starts := []; sy_ends := [] |}.

(** One `curl` (daemon_server.sh:19, 45, 50, 81, 101) and its handler in main.js. *)
Definition request (a : bool) (n : net) (s : orch) (h : list (event * reply)) (ev : event) : orch * list (event * reply) * option reply :=
  match n with
  | NoRequest => (s, h, None)
  | Fine => let (s', r) := handle a s ev in (s', (ev, r) :: h, Some r)
  | NoReply => let (s', r) := handle a s ev in (s', (ev, r) :: h, None)
  end.

(** The request that the daemon sends next (daemon_server.sh:19, 45 and 50, 81,
    101; daemon_client.sh:19, 45 and 50, 93, 114). *)
Definition next_request (w : nat) (keys : nat -> list Z * list Z) (d : dstate) : event :=
  match d with DIdle => Ping w | DConfig _ => AskConfig w keys | DRun _ => ShouldKill w | DUpload _ log => ReportDone w log end.
(** daemon_server.sh:35, daemon_client.sh:35: type is "dppir" *)
Definition is_dppir (j : job) : bool := match j with JParty _ _ _ _ => true | JClient _ _ _ _ => true | _ => false end.
(** daemon_server.sh:70-75 with an empty type; 93 *)
Definition invalid_log : list Z := [73; 110; 118; 97; 108; 105; 100; 32; 116; 121; 112; 101; 32; 10].
Definition killed_log : list Z := [75; 105; 108; 108; 101; 100; 32; 98; 121; 32; 79; 114; 99; 104; 97; 115; 116; 114; 97; 116; 111; 114; 33; 10].
(** What it does with the reply; [text] is what the process has written so far.
    Server 19-35, 46-51, 81-95; client 19-35, 46-51, 93-108. *)
Definition react (d : dstate) (r : option reply) (text : list Z) : dstate :=
  match d with
  | DIdle =>
      match r with
      | Some RWait => DIdle
      | Some (RJob j) => if is_dppir j then DConfig j else DRun (Some j)
      | _ => DRun None
      end
  | DConfig j => match r with Some RWait => DConfig j | _ => DRun (Some j) end
  | DRun oj =>
      match r with
      | Some (RKill true) => DUpload oj (match oj with Some _ => text | None => invalid_log end ++ killed_log)
      | _ => DRun oj
      end
  | DUpload _ _ => DIdle
  end.

(** Steps: a machine starts its daemon (server 9, client 9), the operator types
    a command, a daemon sends its next request, a process ends by itself. *)
Inductive label :=
| LStart (k : wkind) (ip : list Z)
| LNew (d : desc) (add : bool)
| LKill (e : nat)
| LClear
| LAsk (w : nat) (n : net) (keys : nat -> list Z * list Z) (text : list Z)
| LExit (w : nat) (text : list Z).
(** daemon_server.sh:45-46, 50: the contents of the file $config (of an error page
    they are left out). *)
Definition config_file (r : option reply) : list Z :=
  match r with Some (RConfig bs) => bs | Some RWait => [87; 65; 73; 84] | _ => [] end.
(** Observations: a process of a job has been started (daemon_server.sh:55-58,
    68-69; daemon_client.sh:56-59, 70-71, 80-81), and one has ended (daemon_server.sh:
    78, 89-94). *)
Definition started (w : nat) (d d' : dstate) (r : option reply) : list (nat * job * option (list Z)) :=
  match d, d' with
  | DIdle, DRun (Some j) => [(w, j, None)]
  | DConfig _, DRun (Some j) => [(w, j, Some (config_file r))]
  | _, _ => []
  end.
Definition ended (w : nat) (d d' : dstate) (text : list Z) (killed : bool) : list (nat * job * (list Z * bool)) :=
  match d, d' with DRun (Some j), DUpload _ _ => [(w, j, (text, killed))] | _, _ => [] end.
(** A command of cmd.js, or `curl .../giveip` of a new daemon (daemon_server.sh:9). *)
Definition operator (a : bool) (sy : sys) (ev : event) : sys :=
  let (s', r) := handle a (sy_orch sy) ev in
  {| sy_orch := s'; sy_hist := (ev, r) :: sy_hist sy;
     sy_daemons := match ev with Register _ _ => sy_daemons sy ++ [DIdle] | _ => sy_daemons sy end;
     sy_starts := sy_starts sy; sy_ends := sy_ends sy |}.
(** The daemon of worker w goes from d to d'. *)
Definition move (w : nat) (d d' : dstate) (r : option reply) (text : list Z) (killed : bool) (s : orch) (h : list (event * reply)) (sy : sys) : sys :=
  {| sy_orch := s; sy_hist := h; sy_daemons := update w (fun _ => d') (sy_daemons sy);
     sy_starts := sy_starts sy ++ started w d d' r; sy_ends := sy_ends sy ++ ended w d d' text killed |}.
(** One step of the whole: an iteration of one of the loops of daemon_server.sh:
    14-102 and daemon_client.sh:14-115 up to its next request, or a command. *)
Definition sy_step (a : bool) (sy : sys) (l : label) : option sys :=
  match l with
  | LStart k ip => Some (operator a sy (Register k ip))
  | LNew d add => Some (operator a sy (NewExperiment d add))
  | LKill e => Some (operator a sy (KillExperiment e))
  | LClear => Some (operator a sy ClearExperiments)
  | LAsk w n keys text =>
      match nth_error (sy_daemons sy) w with
      | None => None
      | Some d =>
          match request a n (sy_orch sy) (sy_hist sy) (next_request w keys d) with
          | (s', h', r) => Some (move w d (react d r text) r text true s' h' sy)
          end
      end
  | LExit w text =>
      match nth_error (sy_daemons sy) w with
      | Some (DRun oj) =>
          Some (move w (DRun oj) (DUpload oj (match oj with Some _ => text | None => invalid_log end)) None text false (sy_orch sy) (sy_hist sy) sy)
      | _ => None
      end
  end.
Fixpoint sy_run (a : bool) (sy : sys) (ls : list label) : option sys :=
  match ls with
  | [] => Some sy
  | l :: ls => match sy_step a sy l with Some sy' => sy_run a sy' ls | None => None end
  end.
