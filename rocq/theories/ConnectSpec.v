(** Specification vocabulary for processes getting connected. *)
From Coq Require Import Permutation String.
From Verif Require Import Base Config MainFlags Boot BootSpec Connect.
Local Open Scope list_scope.

(** Everyone reads the same configuration: at least two parties, at least one
    server each, no two equal addresses. *)
Record configured (file : list Z) (cfg : config) (name stage : string) (queries : nat -> Z) : Prop := {
  cn_file : exists asserts, read_file asserts (Some file) = Ok cfg;
  cn_parties : 2 <= cg_parties_n cfg;
  cn_servers : 1 <= cg_servers_n cfg;
  cn_addresses : NoDup (addresses cfg);
  cn_name : name <> ""%string;
  cn_stage : exists offline online, stage_runs stage offline online;
  cn_queries : forall i, 0 <= queries i < 2 ^ 32
}.
Definition servers (cfg : config) : nat := Z.to_nat (cg_servers_n cfg).
(** Client i has number i; server i of party k has number (k + 1) * servers + i. *)
Definition processes (cfg : config) : nat := ((Z.to_nat (cg_parties_n cfg) + 1) * servers cfg)%nat.
(** The processes are started with the documented command lines and make these calls. *)
Definition calls (cfg : config) (name stage : string) (queries : nat -> Z) (todo : nat -> list act) : Prop :=
  forall p, ((p < processes cfg)%nat -> exists d,
               main_ (command name stage queries (servers cfg) p) (Ok (cg_servers_n cfg, cg_parties_n cfg)) = Ok d /\ script cfg d = Ok (todo p)) /\
            ((processes cfg <= p)%nat -> todo p = []).
(** Any order: [who n] makes the n-th step; nobody is forgotten for ever. *)
Definition schedule (cfg : config) (who : nat -> nat) (todo : nat -> list act) (run : nat -> links) : Prop :=
  run O = link_start todo /\ forall n, run (S n) = link_step (host cfg (servers cfg)) (who n) (run n).
Definition nobody_starves (cfg : config) (who : nat -> nat) : Prop := forall p, (p < processes cfg)%nat -> forall n, exists m, (n <= m)%nat /\ who m = p.

(** [sv] is server i of party k. *)
Definition server_of (cfg : config) (k i : nat) (sv : Config.sconf) : Prop := exists pc, nth_error (cg_parties cfg) k = Some pc /\ nth_error (pc_servers pc) i = Some sv.
(** Who is at the other end of a connection, and as whom they introduced themselves. *)
Definition ends (l : list conn) : list (nat * option Z) := map (fun c => (cn_from c, cn_said c)) l.
(** Everyone has what they need: at its port server i of party k has one
    connection, from server i of the party before (from client i for the first
    party), and at its other port one from every lower server of its own party,
    which said who it is. *)
Definition connected (cfg : config) (st : links) : Prop :=
  let N := servers cfg in
  lk_failed st = [] /\ (forall p, lk_todo st p = []) /\
  forall k i sv, server_of cfg k i sv ->
    ends (arrivals ((k + 1) * N + i) (sv_port sv) st) = [((k * N + i)%nat, None)] /\
    Permutation (ends (arrivals ((k + 1) * N + i) (sv_parallel sv) st)) (map (fun j => (((k + 1) * N + j)%nat, Some (Z.of_nat j))) (seq 0 i)).
(** At any time: nobody was stopped by an assertion, every connection is one of the
    above, and no more arrive at a port than its listen() was told to expect. *)
Definition orderly (cfg : config) (st : links) : Prop :=
  let N := servers cfg in
  lk_failed st = [] /\
  (forall c, List.In c (lk_conns st) -> exists k i sv, server_of cfg k i sv /\ cn_to c = ((k + 1) * N + i)%nat /\
     (cn_port c = sv_port sv /\ cn_from c = (k * N + i)%nat /\ cn_said c = None \/
      cn_port c = sv_parallel sv /\ exists j, (j < i)%nat /\ cn_from c = ((k + 1) * N + j)%nat /\ (cn_said c = None \/ cn_said c = Some (Z.of_nat j)))) /\
  forall k i sv, server_of cfg k i sv ->
    (List.length (arrivals ((k + 1) * N + i) (sv_port sv) st) <= 1)%nat /\ (List.length (arrivals ((k + 1) * N + i) (sv_parallel sv) st) <= i)%nat.
