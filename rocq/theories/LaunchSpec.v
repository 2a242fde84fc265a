(** Specification vocabulary for experiments run by the orchestrator and the daemons. *)
From Coq Require Import String.
From Verif Require Import Base Config MainFlags Orchestrator OrchestratorSpec Daemon DaemonSpec.
Local Open Scope Z_scope.
Local Open Scope list_scope.

(** The number of a process in a deployment with N servers per party, as in
    BootSpec: clients first, then the servers of party 0, and so on. *)
Definition role_number (N : nat) (j : job) : nat :=
  match j with JClient _ n _ _ => n | JParty _ p m _ => (S p * N + m)%nat | _ => 0%nat end.
(** gen_config's keys have their length, and addresses do not contain the byte 0. *)
Definition sane (h : hist) : Prop :=
  (forall w keys r, List.In (AskConfig w keys, r) h -> forall i, length (fst (keys i)) = 32%nat /\ length (snd (keys i)) = 32%nat) /\
  (forall k ip, List.In (k, ip) (registered h) -> Forall (fun c => c <> 0) ip).
(** The processes that have been started for experiment e. *)
Definition processes (e : nat) (sy : sys) : list (nat * job) := filter (fun x => (job_exp (snd x) =? e)%nat) (map fst (sy_starts sy)).
(** All processes of experiment e have been started: all jobs are given and no
    daemon waits for the configuration. *)
Definition all_started (e : nat) (d : desc) (sy : sys) : Prop :=
  (forall k, taken k e (sy_hist sy) = needs k d) /\ (forall v j, nth_error (sy_daemons sy) v = Some (DConfig j) -> job_exp j <> e).
