(** Specification vocabulary for the daemons on the workers. *)
From Verif Require Import Base Config Orchestrator OrchestratorSpec Daemon.

(** The states that can be reached by steps of a certain kind. *)
Inductive reach (a : bool) (ok : label -> bool) : sys -> Prop :=
| reach_start : reach a ok sy_start
| reach_step sy l sy' : reach a ok sy -> ok l = true -> sy_step a sy l = Some sy' -> reach a ok sy'.
(** No request and no reply is lost. *)
Definition lossless (l : label) : bool := match l with LAsk _ Fine _ _ => true | LAsk _ _ _ _ => false | _ => true end.
(** ... and the list of experiments is not cleared. *)
Definition calm (l : label) : bool := match l with LClear => false | _ => lossless l end.

(** The machine that takes a step. *)
Definition who (l : label) : option nat := match l with LAsk w _ _ _ => Some w | LExit w _ => Some w | _ => None end.

(** A process that is bound to end: a DP-PIR process once the processes of all
    roles of its experiment have been started (C53, C63, C65), the client of a
    checklist experiment, and SealPIR.  The servers of checklist run until they
    are killed. *)
Definition bound (sy : sys) (j : job) : Prop :=
  match j with
  | JCheckServer _ _ _ _ _ => False
  | JCheckClient _ _ _ _ _ _ _ => True
  | JSealpir _ _ _ => True
  | _ =>
      (forall d k, nth_error (described (sy_hist sy)) (job_exp j) = Some d -> taken k (job_exp j) (sy_hist sy) = needs k d) /\
      (forall v j', nth_error (sy_daemons sy) v = Some (DConfig j') -> job_exp j' <> job_exp j)
  end.

(** An endless execution without losses in which every machine takes steps again
    and again and processes that are bound to end do so.  Anything else is
    possible: new machines, new experiments, "kill", processes that end early. *)
Record fair_run (a : bool) (run : nat -> sys) (lab : nat -> label) : Prop := {
  fr_step : forall i, sy_step a (run i) (lab i) = Some (run (S i));
  fr_calm : forall i, calm (lab i) = true;
  fr_turn : forall n w, (w < length (sy_daemons (run n)))%nat -> exists m, (n <= m)%nat /\ who (lab m) = Some w;
  fr_end : forall n w j, nth_error (sy_daemons (run n)) w = Some (DRun (Some j)) -> bound (run n) j ->
             exists m, (n <= m)%nat /\ nth_error (sy_daemons (run m)) w <> Some (DRun (Some j))
}.

(** The machines of a kind that have registered. *)
Definition machines (k : wkind) (h : hist) : nat := length (filter (fun x => kind_eqb (fst x) k) (registered h)).

(** The jobs of machine w, in order; the job whose process a daemon is about to
    start, and the one whose process it watches. *)
Definition jobs_of (w : nat) (l : list (nat * job)) : list job := map snd (filter (fun x => (fst x =? w)%nat) l).
Definition waiting (d : option dstate) : list job := match d with Some (DConfig j) => [j] | _ => [] end.
Definition running (d : option dstate) : list job := match d with Some (DRun (Some j)) => [j] | _ => [] end.
(** A process of job j on machine w had the contents conf of its configuration
    file: those of a reply to a request made for this job. *)
Definition proper (h : hist) (w : nat) (j : job) (conf : option (list Z)) : Prop :=
  match conf with
  | None => is_dppir j = false
  | Some bs => is_dppir j = true /\ exists keys r h1 h2, h = h2 ++ (AskConfig w keys, r) :: h1 /\ doing w h1 = Some j /\ match r with RConfig b => bs = b | REmpty => bs = [] | _ => False end
  end.
