(** Specification vocabulary for the orchestrator of experiments: everything is
    read off the history of requests and replies, newest first. *)
From Verif Require Import Base Config Orchestrator.

Definition hist := list (event * reply).

(** The histories that can happen, with the state after them. *)
Inductive happens (asserts : bool) : orch -> hist -> Prop :=
| happens_start : happens asserts or_start []
| happens_next s h ev s' r : happens asserts s h -> handle asserts s ev = (s', r) -> happens asserts s' ((ev, r) :: h).

(** The workers registered, by number, and the experiments described, by number. *)
Fixpoint registered (h : hist) : list (wkind * list Z) :=
  match h with
  | [] => []
  | (Register k ip, _) :: h => registered h ++ [(k, ip)]
  | _ :: h => registered h
  end.
Fixpoint described (h : hist) : list desc :=
  match h with
  | [] => []
  | (NewExperiment d _, _) :: h => described h ++ [sized d]
  | _ :: h => described h
  end.

(** The experiment a job belongs to, and the kind of worker it is for. *)
Definition job_exp (j : job) : nat :=
  match j with
  | JParty e _ _ _ => e | JClient e _ _ _ => e | JCheckServer e _ _ _ _ => e | JCheckClient e _ _ _ _ _ _ => e | JSealpir e _ _ => e
  end.
Definition job_kind (j : job) : wkind :=
  match j with JParty _ _ _ _ => Server | JCheckServer _ _ _ _ _ => Server | _ => Client end.
Definition kind_eqb (a b : wkind) : bool := match a, b with Server, Server => true | Client, Client => true | _, _ => false end.
(** Is it a job of experiment e for workers of kind k? *)
Definition is_for (k : wkind) (e : nat) (x : nat * job) : bool := (job_exp (snd x) =? e)%nat && kind_eqb (job_kind (snd x)) k.

(** The job worker w was given last and has neither reported nor, by asking for
    another one, dropped. *)
Fixpoint doing (w : nat) (h : hist) : option job :=
  match h with
  | [] => None
  | (Ping v, RJob j) :: h => if (v =? w)%nat then Some j else doing w h
  | (Ping v, RWait) :: h => if (v =? w)%nat then None else doing w h
  | (ReportDone v _, RStored _ _ _) :: h => if (v =? w)%nat then None else doing w h
  | _ :: h => doing w h
  end.

(** The jobs given (oldest first), reported as done, and dropped, each with the worker. *)
Fixpoint given (h : hist) : list (nat * job) :=
  match h with
  | [] => []
  | (Ping w, RJob j) :: h => given h ++ [(w, j)]
  | _ :: h => given h
  end.
Definition with_job (w : nat) (h : hist) : list (nat * job) := match doing w h with Some j => [(w, j)] | None => [] end.
Fixpoint reported (h : hist) : list (nat * job) :=
  match h with
  | [] => []
  | (ReportDone w _, RStored _ _ _) :: h => with_job w h ++ reported h
  | _ :: h => reported h
  end.
Fixpoint dropped (h : hist) : list (nat * job) :=
  match h with
  | [] => []
  | (Ping w, RJob _) :: h => with_job w h ++ dropped h
  | (Ping w, RWait) :: h => with_job w h ++ dropped h
  | _ :: h => dropped h
  end.
(** The jobs being done now. *)
Definition current (h : hist) : list (nat * job) := flat_map (fun w => with_job w h) (seq 0 (length (registered h))).

(** The results stored: the job reported, the directory, the file and the contents, newest first. *)
Fixpoint stored (h : hist) : list (job * (list Z * filename * list Z)) :=
  match h with
  | [] => []
  | (ReportDone w _, RStored name f text) :: h => map (fun x => (snd x, (name, f, text))) (with_job w h) ++ stored h
  | _ :: h => stored h
  end.
Definition job_file (w : nat) (j : job) : filename :=
  match j with
  | JParty _ p m _ => FParty p m | JClient _ n _ _ => FClient n | JCheckServer _ _ _ _ _ => FServer w
  | JCheckClient _ _ _ _ _ _ _ => FOnlyClient | JSealpir _ _ _ => FSealpir
  end.

(** The status that the operator is shown (cmd.js:155-161). *)
Definition status (s : orch) (e : nat) : option estatus := option_map ex_status (nth_error (or_heap s) e).
(** How many workers of a kind an experiment is for. *)
Definition needs (k : wkind) (d : desc) : nat := match k with Client => ds_clients d | Server => ds_servers d end.

(** Experiments as "new dppir" makes them, small enough for gen_config. *)
Definition well_made (d : desc) : Prop :=
  ds_kind d = Dppir /\ ds_servers d = (ds_parties d * ds_parallel d)%nat /\ ds_clients d = ds_parallel d /\
  (0 < ds_parties d < 256)%nat /\ (0 < ds_parallel d < 256)%nat /\ u64 (ds_epsilon d) /\ u64 (ds_delta d).

(** The experiments in the operator's list: those added since it was last cleared. *)
Fixpoint listed (h : hist) : list nat :=
  match h with
  | [] => []
  | (NewExperiment d true, _) :: h => listed h ++ [length (described h)]
  | (ClearExperiments, _) :: h => []
  | _ :: h => listed h
  end.
(** How many jobs of experiment e have been given to workers of kind k, and may another one be? *)
Definition taken (k : wkind) (e : nat) (h : hist) : nat := length (filter (is_for k e) (given h)).
Definition has_room (k : wkind) (h : hist) (e : nat) : bool :=
  match nth_error (described h) e with Some d => (taken k e h <? needs k d)%nat | None => false end.
(** A checklist experiment takes clients only when it has its servers. *)
Definition takes_clients (h : hist) (e : nat) : bool :=
  match nth_error (described h) e with
  | Some d => match ds_kind d with Checklist => (taken Server e h =? ds_servers d)%nat | _ => true end
  | None => false
  end.

(** Which workers a command "kill e", or the report of a checklist client, is
    meant for: those which have ever been given a job of e (a server job of the
    client's experiment); it makes a difference to those that have a job now. *)
Definition marks (ev : event) (r : reply) (h : hist) (w : nat) : bool :=
  match ev, r with
  | KillExperiment e, RNone => existsb (fun x => (fst x =? w)%nat && (job_exp (snd x) =? e)%nat) (given h)
  | ReportDone v _, RStored _ _ _ =>
      match doing v h with
      | Some (JCheckClient e _ _ _ _ _ _) => existsb (fun x => (fst x =? w)%nat && is_for Server e x) (given h)
      | _ => false
      end
  | _, _ => false
  end.
(** Has worker w been marked since it was given the job that it has now? *)
Fixpoint told (w : nat) (h : hist) : bool :=
  match h with
  | [] => false
  | (ev, r) :: h' =>
      match doing w h with
      | None => false
      | Some _ => match ev, r with Ping v, RJob _ => negb (v =? w)%nat | _, _ => true end && (told w h' || marks ev r h' w)
      end
  end.
