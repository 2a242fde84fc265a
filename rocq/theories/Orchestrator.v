(** Model of experiments/orchestrator (orchestrator.js, worker.js,
    experiment.js, main.js and the commands of cmd.js), the HTTP server that
    hands out the jobs of experiments to machines ("workers").
    Simplifications: log requests (worker.js:61-73), console output and time
    stamps are left out; a request whose handler throws leaves the state as it
    was and gets an error reply (express answers it with status 500; for /config,
    whose handler is async, the request is never answered, and from version 15 on
    node.js ends the orchestrator); numbers are naturals; a request is handled at
    once (node.js runs one handler at a time; none of these handlers waits); the
    file with the configuration is not touched by others between its creation and
    its reading (experiment.js:145-150); files can be written. *)
From Verif Require Import Base Config.

(** constants.js:1-8 and 23-32 *)
Inductive wkind := Server | Client.
Inductive wstatus := WReady | WWorking | WCleanup.
Inductive ekind := Dppir | Checklist | Sealpir.
Inductive estatus := EWaiting | EWorking | ECleanup | EDone.

(** worker.js:3-14  Worker; its id is its place in the list of all workers
    (worker.js:5,17; orchestrator.js:17-28 are the only places that make one). *)
Record worker := { wk_ip : list Z; wk_kind : wkind; wk_status : wstatus; wk_exp : option nat }.

(** What toJSON stores and fromJSON reads (experiment.js:93-100, 214-232, 270-280,
    301-310) and the constructors take: [ds_clients] and [ds_servers] are
    clientsNum and serversNum; epsilon and delta are the images of the doubles
    that gen_config will read; [ds_mode] is the mode or the pirtype.  Checklist
    and SealPIR use some of the fields. *)
Record desc := {
  ds_kind : ekind; ds_name : list Z; ds_mode : Z; ds_clients : nat; ds_servers : nat;
  ds_table : Z; ds_parties : nat; ds_parallel : nat; ds_epsilon : Z; ds_delta : Z; ds_queries : Z
}.

(** experiment.js:9-23 and 103-112.  [ex_clients], [ex_servers]: ids of the
    workers assigned, in order; the maps are lists with the newest entry first. *)
Record experiment := {
  ex_desc : desc; ex_status : estatus; ex_clients : list nat; ex_servers : list nat;
  ex_fin_clients : nat; ex_fin_servers : nat;
  ex_client_map : list (nat * nat); ex_server_map : list (nat * (nat * nat));
  ex_party : nat; ex_machine : nat; ex_client : nat;
  ex_config : option (list Z)
}.
(** The numbers of clients and servers: experiment.js:104, 236 and 284. *)
Definition sized (d : desc) : desc :=
  let cs := match ds_kind d with Dppir => (ds_clients d, ds_servers d) | Checklist => (1%nat, 2%nat) | Sealpir => (1%nat, 0%nat) end in
  {| ds_kind := ds_kind d; ds_name := ds_name d; ds_mode := ds_mode d; ds_clients := fst cs; ds_servers := snd cs;
     ds_table := ds_table d; ds_parties := ds_parties d; ds_parallel := ds_parallel d; ds_epsilon := ds_epsilon d;
     ds_delta := ds_delta d; ds_queries := ds_queries d |}.
Definition new_experiment (d : desc) : experiment :=
  {| ex_desc := sized d; ex_status := EWaiting; ex_clients := []; ex_servers := []; ex_fin_clients := 0; ex_fin_servers := 0;
     ex_client_map := []; ex_server_map := []; ex_party := 0; ex_machine := 0; ex_client := 0; ex_config := None |}.

(** orchestrator.js:6-14.  [or_heap]: all experiments ever made, by id
    (experiment.js:10,26); workers may refer to those no longer in the lists. *)
Record orch := {
  or_workers : list worker; or_heap : list experiment; or_list : list nat; or_clients : list nat; or_servers : list nat
}.
Definition or_start : orch := {| or_workers := []; or_heap := []; or_list := []; or_clients := []; or_servers := [] |}.

(** Replace element i. *)
Fixpoint update {A} (i : nat) (f : A -> A) (l : list A) : list A :=
  match l, i with
  | [], _ => []
  | a :: l, O => f a :: l
  | a :: l, S i => a :: update i f l
  end.
Definition set_workers (s : orch) (ws : list worker) : orch :=
  {| or_workers := ws; or_heap := or_heap s; or_list := or_list s; or_clients := or_clients s; or_servers := or_servers s |}.
Definition set_heap (s : orch) (h : list experiment) : orch :=
  {| or_workers := or_workers s; or_heap := h; or_list := or_list s; or_clients := or_clients s; or_servers := or_servers s |}.

(** worker.js:25-32  ready *)
Definition worker_ready (w : worker) : worker :=
  {| wk_ip := wk_ip w; wk_kind := wk_kind w; wk_status := WReady; wk_exp := None |}.
(** worker.js:33-38  assignExperiment *)
Definition worker_assign (e : nat) (w : worker) : worker :=
  {| wk_ip := wk_ip w; wk_kind := wk_kind w; wk_status := WWorking; wk_exp := Some e |}.
(** worker.js:39-44  kill *)
Definition worker_kill (w : worker) : worker :=
  match wk_status w with
  | WWorking => {| wk_ip := wk_ip w; wk_kind := wk_kind w; wk_status := WCleanup; wk_exp := wk_exp w |}
  | _ => w
  end.

(** orchestrator.js:17-28, worker.js:3-14 *)
Definition add_worker (k : wkind) (ip : list Z) (s : orch) : orch :=
  set_workers s (or_workers s ++ [{| wk_ip := ip; wk_kind := k; wk_status := WReady; wk_exp := None |}]).

(** The constructors (experiment.js:9-23) and, if it is added (the interactive
    load, cmd.js:236-241, may skip it), orchestrator.js:53-61  addExperiment. *)
Definition add_experiment (d : desc) (add : bool) (s : orch) : orch :=
  let e := length (or_heap s) in
  {| or_workers := or_workers s; or_heap := or_heap s ++ [new_experiment d];
     or_list := if add then or_list s ++ [e] else or_list s;
     or_clients := if add && (0 <? ds_clients (sized d))%nat then or_clients s ++ [e] else or_clients s;
     or_servers := if add && (0 <? ds_servers (sized d))%nat then or_servers s ++ [e] else or_servers s |}.

(** experiment.js:153-169 with 37-49: assignWorker on the side of the experiment.
    Only DPPIR experiments number their workers. *)
Definition exp_assign (w : nat) (k : wkind) (e : experiment) : experiment :=
  let d := ex_desc e in
  let dp := match ds_kind d with Dppir => true | _ => false end in
  let cl := match k with Client => ex_clients e ++ [w] | Server => ex_clients e end in
  let sv := match k with Client => ex_servers e | Server => ex_servers e ++ [w] end in
  let machine := S (ex_machine e) in
  let next := (machine =? ds_parallel d)%nat in
  {| ex_desc := d;
     ex_status := if (length cl =? ds_clients d)%nat && (length sv =? ds_servers d)%nat then EWorking else ex_status e;
     ex_clients := cl; ex_servers := sv; ex_fin_clients := ex_fin_clients e; ex_fin_servers := ex_fin_servers e;
     ex_client_map := match k with Client => if dp then (w, ex_client e) :: ex_client_map e else ex_client_map e | Server => ex_client_map e end;
     ex_server_map := match k with Server => if dp then (w, (ex_party e, ex_machine e)) :: ex_server_map e else ex_server_map e | Client => ex_server_map e end;
     ex_party := match k with Server => if dp && next then S (ex_party e) else ex_party e | Client => ex_party e end;
     ex_machine := match k with Server => if dp then (if next then 0%nat else machine) else ex_machine e | Client => ex_machine e end;
     ex_client := match k with Client => if dp then S (ex_client e) else ex_client e | Server => ex_client e end;
     ex_config := ex_config e |}.
(** Both sides. *)
Definition assign_worker (e w : nat) (k : wkind) (s : orch) : orch :=
  {| or_workers := update w (worker_assign e) (or_workers s); or_heap := update e (exp_assign w k) (or_heap s);
     or_list := or_list s; or_clients := or_clients s; or_servers := or_servers s |}.

(** experiment.js:90-92 and 267-269  readyForClients *)
Definition ready_for_clients (e : experiment) : bool :=
  match ds_kind (ex_desc e) with
  | Checklist => (length (ex_servers e) =? ds_servers (ex_desc e))%nat
  | _ => true
  end.

(** orchestrator.js:90-115  assignExperiment, for worker number w of kind k *)
Definition assign_experiment (w : nat) (k : wkind) (s : orch) : orch * option nat :=
  let s := set_workers s (update w worker_ready (or_workers s)) in
  match k with
  | Client =>
      match or_clients s with
      | [] => (s, None)
      | e :: queue =>
          match nth_error (or_heap s) e with
          | Some x =>
              if ready_for_clients x then
                let s' := assign_worker e w k s in
                let full := (ds_clients (ex_desc x) =? S (length (ex_clients x)))%nat in
                ({| or_workers := or_workers s'; or_heap := or_heap s'; or_list := or_list s';
                    or_clients := if full then queue else e :: queue; or_servers := or_servers s' |}, Some e)
              else (s, None)
          | None => (s, None)
          end
      end
  | Server =>
      match or_servers s with
      | [] => (s, None)
      | e :: queue =>
          match nth_error (or_heap s) e with
          | Some x =>
              let s' := assign_worker e w k s in
              let full := (ds_servers (ex_desc x) =? S (length (ex_servers x)))%nat in
              ({| or_workers := or_workers s'; or_heap := or_heap s'; or_list := or_list s';
                  or_clients := or_clients s'; or_servers := if full then queue else e :: queue |}, Some e)
          | None => (s, None)
          end
      end
  end.

(** experiment.js:50-74  finished, on the side of the experiment *)
Definition exp_finished (k : wkind) (e : experiment) : experiment :=
  let d := ex_desc e in
  let fc := match k with Client => S (ex_fin_clients e) | Server => ex_fin_clients e end in
  let fs := match k with Client => ex_fin_servers e | Server => S (ex_fin_servers e) end in
  let st :=
    match k with
    | Client =>
        if (fc =? ds_clients d)%nat then
          if (ds_servers d =? 0)%nat || (fs =? ds_servers d)%nat then EDone
          else match ds_kind d with Checklist => ECleanup | _ => ex_status e end
        else ex_status e
    | Server => if (fs =? ds_servers d)%nat && (fc =? ds_clients d)%nat then EDone else ex_status e
    end in
  {| ex_desc := d; ex_status := st; ex_clients := ex_clients e; ex_servers := ex_servers e; ex_fin_clients := fc; ex_fin_servers := fs;
     ex_client_map := ex_client_map e; ex_server_map := ex_server_map e; ex_party := ex_party e; ex_machine := ex_machine e;
     ex_client := ex_client e; ex_config := ex_config e |}.
(** Mark the workers [ids] to be killed. *)
Definition kill_all (ids : list nat) (ws : list worker) : list worker := fold_left (fun ws i => update i worker_kill ws) ids ws.
(** experiment.js:54-60: the servers of a checklist experiment whose clients have
    all finished are killed. *)
Definition finish_kills (k : wkind) (e : experiment) : list nat :=
  match k, ds_kind (ex_desc e) with
  | Client, Checklist => if (S (ex_fin_clients e) =? ds_clients (ex_desc e))%nat then ex_servers e else []
  | _, _ => []
  end.

(** The file a result is written to (experiment.js:87-89, 170-180, 242-248,
    289-291): in the directory of the experiment's name. *)
Inductive filename := FClient (n : nat) | FParty (p m : nat) | FOnlyClient | FServer (w : nat) | FSealpir.
Fixpoint lookup {A} (w : nat) (l : list (nat * A)) : option A :=
  match l with [] => None | (v, a) :: l => if (v =? w)%nat then Some a else lookup w l end.
Definition result_file (w : nat) (k : wkind) (e : experiment) : option filename :=
  match ds_kind (ex_desc e), k with
  | Dppir, Client => match lookup w (ex_client_map e) with Some n => Some (FClient n) | None => None end
  | Dppir, Server => match lookup w (ex_server_map e) with Some (p, m) => Some (FParty p m) | None => None end
  | Checklist, Client => Some FOnlyClient
  | Checklist, Server => Some (FServer w)
  | Sealpir, _ => Some FSealpir
  end.

(** The jobs handed out (experiment.js:204-213, 249-259, 292-294); [e] is the
    experiment's id, which the text sent does not contain.  A checklist client is
    given the addresses and ports of two servers. *)
Inductive job :=
| JParty (e p m : nat) (mode : Z)
| JClient (e n : nat) (queries mode : Z)
| JCheckServer (e w : nat) (table port pirtype : Z)
| JCheckClient (e : nat) (a1 : list Z) (p1 : Z) (a2 : list Z) (p2 : Z) (queries pirtype : Z)
| JSealpir (e : nat) (table queries : Z).
(** experiment.js:251-256: the port of a checklist server *)
Definition port_of (w : nat) : Z := 10000 + Z.of_nat w.
Definition serialize_job (w : nat) (k : wkind) (id : nat) (s : orch) : option job :=
  match nth_error (or_heap s) id with
  | None => None
  | Some e =>
      let d := ex_desc e in
      match ds_kind d, k with
      | Dppir, Client => match lookup w (ex_client_map e) with Some n => Some (JClient id n (ds_queries d) (ds_mode d)) | None => None end
      | Dppir, Server => match lookup w (ex_server_map e) with Some (p, m) => Some (JParty id p m (ds_mode d)) | None => None end
      | Checklist, Server => Some (JCheckServer id w (ds_table d) (port_of w) (ds_mode d))
      | Checklist, Client =>
          match ex_servers e with
          | s1 :: s2 :: _ =>
              match nth_error (or_workers s) s1, nth_error (or_workers s) s2 with
              | Some w1, Some w2 => Some (JCheckClient id (wk_ip w1) (port_of s1) (wk_ip w2) (port_of s2) (ds_queries d) (ds_mode d))
              | _, _ => None
              end
          | _ => None
          end
      | Sealpir, _ => Some (JSealpir id (ds_table d) (ds_queries d))
      end
  end.

(** experiment.js:126-151: gen_config with the addresses of the servers in the
    order in which they were assigned; [keys] are the key pairs it generates.
    The result is the contents of the file it writes; None if it fails. *)
Definition generate (asserts : bool) (keys : nat -> list Z * list Z) (ws : list worker) (e : experiment) : option (list Z) :=
  let d := ex_desc e in
  let ips := map (fun i => match nth_error ws i with Some w => wk_ip w | None => [] end) (ex_servers e) in
  match (let* c := from_args asserts (ds_table d) (ds_epsilon d) (ds_delta d) (Z.of_nat (ds_parties d)) (Z.of_nat (ds_parallel d)) ips keys in
         serialize asserts c) with
  | Ok bs => Some bs
  | _ => None
  end.
Definition set_config (c : option (list Z)) (e : experiment) : experiment :=
  {| ex_desc := ex_desc e; ex_status := ex_status e; ex_clients := ex_clients e; ex_servers := ex_servers e;
     ex_fin_clients := ex_fin_clients e; ex_fin_servers := ex_fin_servers e;
     ex_client_map := ex_client_map e; ex_server_map := ex_server_map e; ex_party := ex_party e; ex_machine := ex_machine e;
     ex_client := ex_client e; ex_config := c |}.

(** Requests of workers (main.js:39-117) and commands of the operator. *)
Inductive event :=
| Register (k : wkind) (ip : list Z)
| Ping (w : nat)
| AskConfig (w : nat) (keys : nat -> list Z * list Z)
| ShouldKill (w : nat)
| ReportDone (w : nat) (result : list Z)
| NewExperiment (d : desc) (add : bool)
| KillExperiment (e : nat)
| ClearExperiments.
Inductive reply :=
| RId (w : nat) | RWait | RJob (j : job) | RConfig (bs : list Z) | REmpty | RKill (b : bool)
| RStored (name : list Z) (f : filename) (result : list Z) | RNone | RError.

Definition handle (asserts : bool) (s : orch) (ev : event) : orch * reply :=
  match ev with
  | Register k ip => (add_worker k ip s, RId (length (or_workers s)))          (* main.js:39-48 *)
  | Ping w =>                                                                  (* main.js:95-104 *)
      match nth_error (or_workers s) w with
      | None => (s, RError)
      | Some x =>
          match assign_experiment w (wk_kind x) s with
          | (s', None) => (s', RWait)
          | (s', Some e) => (s', match serialize_job w (wk_kind x) e s' with Some j => RJob j | None => RError end)
          end
      end
  | AskConfig w keys =>                                                        (* main.js:57-70, experiment.js:126-151 *)
      match nth_error (or_workers s) w with
      | Some x =>
          match wk_exp x with
          | Some e =>
              match nth_error (or_heap s) e with
              | Some y =>
                  if negb (ds_servers (ex_desc y) =? length (ex_servers y))%nat then (s, RWait)
                  else match ex_config y, ds_kind (ex_desc y) with
                       | Some bs, _ => (s, RConfig bs)
                       | None, Checklist => (s, RError)
                       | None, Sealpir => (s, RError)
                       | None, Dppir =>
                           match generate asserts keys (or_workers s) y with
                           | Some bs => (set_heap s (update e (set_config (Some bs)) (or_heap s)), RConfig bs)
                           | None => (s, REmpty)
                           end
                       end
              | None => (s, RError)
              end
          | None => (s, RError)
          end
      | None => (s, RError)
      end
  | ShouldKill w =>                                                            (* main.js:74-84 *)
      match nth_error (or_workers s) w with
      | Some x => (s, RKill (match wk_status x with WCleanup => true | _ => false end))
      | None => (s, RError)
      end
  | ReportDone w result =>                                                     (* main.js:107-117 *)
      match nth_error (or_workers s) w with
      | Some x =>
          match wk_exp x with
          | Some e =>
              match nth_error (or_heap s) e with
              | Some y =>
                  match result_file w (wk_kind x) y with
                  | Some f =>
                      ({| or_workers := kill_all (finish_kills (wk_kind x) y) (update w worker_ready (or_workers s));
                          or_heap := update e (exp_finished (wk_kind x)) (or_heap s);
                          or_list := or_list s; or_clients := or_clients s; or_servers := or_servers s |},
                       RStored (ds_name (ex_desc y)) f result)
                  | None => (s, RError)
                  end
              | None => (s, RError)
              end
          | None => (s, RError)
          end
      | None => (s, RError)
      end
  | NewExperiment d add => (add_experiment d add s, RNone)                     (* cmd.js:91-95, 118, 129, 222-242 *)
  | KillExperiment e =>                                                        (* orchestrator.js:76-89 *)
      if existsb (Nat.eqb e) (or_list s) then
        match nth_error (or_heap s) e with
        | Some y => (set_workers s (kill_all (ex_clients y ++ ex_servers y) (or_workers s)), RNone)
        | None => (s, RError)
        end
      else (s, RError)
  | ClearExperiments =>                                                        (* orchestrator.js:123-127 *)
      ({| or_workers := or_workers s; or_heap := or_heap s; or_list := []; or_clients := []; or_servers := [] |}, RNone)
  end.

(** A whole history of requests and commands, with the replies. *)
Fixpoint serve (asserts : bool) (s : orch) (evs : list event) : orch * list (event * reply) :=
  match evs with
  | [] => (s, [])
  | ev :: evs =>
      let (s1, r) := handle asserts s ev in
      let (s2, h) := serve asserts s1 evs in
      (s2, (ev, r) :: h)
  end.

(** cmd.js:52-102  newDPPIR, once the answers have been read: for all the
    combinations, in order; it stops where there are not enough workers.  The name
    is a function of the parameters.  A parallelism of 0 gives Infinity queries in
    the code and 0 here. *)
Definition count_kind (k : wkind) (ws : list worker) : nat :=
  length (filter (fun w => match k, wk_kind w with Server, Server => true | Client, Client => true | _, _ => false end) ws).
Definition dppir_desc (name : list Z) (mode table : Z) (ps pr : nat) (batch eps del : Z) : desc :=
  {| ds_kind := Dppir; ds_name := name; ds_mode := mode; ds_clients := pr; ds_servers := ps * pr; ds_table := table;
     ds_parties := ps; ds_parallel := pr; ds_epsilon := eps; ds_delta := del; ds_queries := batch / Z.of_nat pr |}.
Fixpoint new_dppirs (servers clients : nat) (l : list (list Z * Z * Z * nat * nat * Z * Z * Z)) : list event :=
  match l with
  | [] => []
  | (name, mode, table, ps, pr, batch, eps, del) :: l =>
      if (servers <? ps * pr)%nat then [] else if (clients <? pr)%nat then []
      else NewExperiment (dppir_desc name mode table ps pr batch eps del) true :: new_dppirs servers clients l
  end.
Definition new_dppir (s : orch) (naming : Z -> nat -> nat -> Z -> Z -> Z -> list Z) (mode : Z) (tables : list Z) (parties parallelisms : list nat)
  (batches epsilons deltas : list Z) : list event :=
  new_dppirs (count_kind Server (or_workers s)) (count_kind Client (or_workers s))
    (flat_map (fun t => flat_map (fun ps => flat_map (fun pr => flat_map (fun b => flat_map (fun e => map (fun d =>
       (naming t ps pr b e d, mode, t, ps, pr, b, e, d)) deltas) epsilons) batches) parallelisms) parties) tables).
