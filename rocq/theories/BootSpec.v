(** Specification vocabulary for deployments started from the command line. *)
From Coq Require Import String.
From Verif Require Import Base Incremental Wire Onion Shuffle Database NoiseFloat Config AddressSpec MainFlags Handlers Party ChainSpec Boot.
Local Open Scope Z_scope.
Local Open Scope list_scope.

(** The documented command lines: process [e * N + i] is client i for e = 0 and
    otherwise server i of party e - 1; the last party is the backend. *)
Definition command (name stage : string) (queries : nat -> Z) (N p : nat) : flags :=
  match (p / N)%nat with
  | O => {| fl_role := "client"; fl_stage := stage; fl_config := name; fl_server := Z.of_nat (p mod N); fl_party := -1;
            fl_queries := queries (p mod N)%nat |}
  | S k => {| fl_role := "party"; fl_stage := stage; fl_config := name; fl_server := Z.of_nat (p mod N); fl_party := Z.of_nat k;
              fl_queries := -1 |}
  end.

(** A stage and what it runs: the offline stage (or its simulation), the online stage. *)
Definition stage_runs (stage : string) (offline online : bool) : Prop :=
  (stage = "offline" /\ offline = true /\ online = false \/
   stage = "online" /\ offline = false /\ online = true \/
   stage = "all" /\ offline = true /\ online = true)%string.

(** A configuration to run with: at least two parties, a database that the
    servers' shares tile (C20), key pairs that open what they seal, and privacy
    parameters for which the noise distribution exists and makes at most [most]
    fake queries per row and party. *)
Record usable (b : sealbox) (flog : double -> double) (sampling : bool) (cfg : config) (most : Z) : Prop := {
  us_parties : 2 <= cg_parties_n cfg;
  us_servers : 1 <= cg_servers_n cfg <= cg_db cfg;
  us_db : cg_db cfg <= 2 ^ 31 - 1;
  us_tiled : (cg_servers_n cfg - 1) * ((cg_db cfg + cg_servers_n cfg - 1) / cg_servers_n cfg) <= cg_db cfg;
  us_keys : Forall (fun pc => box_ok b (pc_pkey pc) (pc_skey pc)) (cg_parties cfg);
  us_noise : exists d, noise_new flog (double_of_bits (cg_epsilon cfg)) (double_of_bits (cg_delta cfg)) = Ok d /\
    forall r1 r2 v, sample sampling flog d r1 r2 = Ok v -> v <= most
}.

(** randombytes_uniform(n) is below n; the secrets a process makes are drawn from
    their domains: a client makes them for all parties, a server of party k for
    those after it. *)
Definition fair (cfg : config) (N p : nat) (en : entropy) : Prop :=
  (forall j n, 1 <= n -> 0 <= en_draw en j n < n) /\
  forall count, good_rand (en_rand en) count (match (p / N)%nat with O => Z.to_nat (cg_parties_n cfg) | S k => Z.to_nat (cg_parties_n cfg) - k - 1 end)%nat.

(** The row with number k, and the rows that the numbers drawn by a client denote. *)
Definition row_of (k : Z) : response := {| r_value := (2 * k) mod 2 ^ 32; r_sig := repeat (k mod 128) 48 |}.
Definition asked (cfg : config) (en : entropy) (queries : Z) : list Z :=
  map (fun j => en_draw en j (cg_db cfg)) (seq 0 (Z.to_nat queries)).

(** A deployment started from a configuration file: everyone reads the same file
    with the same stage; rand() delivers 31 bits; all queries, the fake ones
    included, fit in 32 bits.  With an offline stage and several servers, tags are
    unique only for constant noise and clients with equally many queries (C40, C41). *)
Record started (b : sealbox) (rng : rng_t) (flog : double -> double) (sampling : bool) (file : list Z) (cfg : config)
    (name stage : string) (offline online : bool) (queries : nat -> Z) (most : Z) (en : nat -> entropy) : Prop := {
  st_file : read_file true (Some file) = Ok cfg;
  st_usable : usable b flog sampling cfg most;
  st_name : name <> ""%string;
  st_stage : stage_runs stage offline online;
  st_rng : forall seed i, 0 <= rng seed i <= 2 ^ 31 - 1;
  st_fair : forall p, fair cfg (Z.to_nat (cg_servers_n cfg)) p (en p);
  st_queries : forall i, 0 <= queries i;
  st_total : Z.of_nat (list_sum (map (fun i => Z.to_nat (queries i)) (seq 0 (Z.to_nat (cg_servers_n cfg))))) +
    Z.of_nat (Z.to_nat (cg_parties_n cfg) - 1) * cg_db cfg * most < 2 ^ 32;
  st_tags : offline = true -> 1 < cg_servers_n cfg -> sampling = false /\ forall i, queries i = queries 0%nat
}.

(** The address of the machine on which process p runs, as text, if the configuration says so. *)
Definition host (cfg : config) (N p : nat) : option (list Z) :=
  match (p / N)%nat with
  | O => None
  | S k => match nth_error (cg_parties cfg) k with
           | Some pc => option_map sv_ip (nth_error (pc_servers pc) (p mod N))
           | None => None
           end
  end.
(** Process p connects to the n-th port on which process q listens (0: for the
    previous party, 1: for siblings). *)
Definition connects (cfg : config) (N : nat) (proc : nat -> running) (p q n : nat) : Prop :=
  exists a, In a (ru_dials (proc p)) /\ ip4 (fst a) /\ host cfg N q = Some (dotted (fst a)) /\ nth_error (ru_listens (proc q)) n = Some (snd a).
(** All addresses of the configuration. *)
Definition addresses (cfg : config) : list (list Z * Z) :=
  flat_map (fun pc => flat_map (fun sv => [(sv_ip sv, sv_port sv); (sv_ip sv, sv_parallel sv)]) (pc_servers pc)) (cg_parties cfg).
(** ... are written as four decimal numbers. *)
Definition numeric (cfg : config) : Prop := Forall (fun a => exists x, ip4 x /\ fst a = dotted x) (addresses cfg).
