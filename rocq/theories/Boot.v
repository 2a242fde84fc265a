(** Model of a whole process: main.cc with the constructors of the four roles,
    from the configuration file and the command line to the program that runs. *)
From Coq Require Import String.
From Flocq Require Import IEEE754.Binary IEEE754.Bits.
From Verif Require Import Base Incremental Wire Onion Shuffle State Database Range NoiseFloat Handlers Batch Config Address MainFlags
  Party Chain Parallel ParChain Net Procs ParProcs.
Local Open Scope Z_scope.
Local Open Scope list_scope.

(** What libsodium delivers to one process: the bytes of its secrets and its j-th
    randombytes_uniform(n). *)
Record entropy := { en_rand : rand; en_draw : nat -> Z -> Z }.
(** What the process finds on its machine: the bytes behind its buffers, the
    order in which the connections of its siblings arrive, and what the
    uninitialised address of its j-th call of ConnectTo holds. *)
Record surroundings := { sr_mem : smem; sr_acc : list nat; sr_stack : nat -> list Z }.

(** std::vector::at throws when the index is too large. *)
Definition at_ {A} (l : list A) (i : Z) : res A := match nth_error l (Z.to_nat i) with Some x => Ok x | None => Abort end.

(** config.cc:25-30: the 64 bits of a double as the double; NaNs are one value. *)
Definition double_of_bits (z : Z) : double := B2BSN 53 1024 (b64_of_bits z).

(** One role at work; with several servers per party it also talks to siblings. *)
Inductive program := Serial (p : proc chan ending) | Siblings (p : proc mchan ending).
(** A process after its constructor: ports it listens on, addresses (four bytes,
    port) it connects to, and what it does. *)
Record running := { ru_listens : list Z; ru_dials : list (list Z * Z); ru_program : program }.

Section Main.
  (** [sampling]: built with DPPIR_SAMPLE; [junk]: what an uninitialised response
      holds at the backend. *)
  Context (b : sealbox) (asserts : bool) (rng : rng_t) (flog : double -> double) (sampling : bool) (iter : iteration) (junk : list Z).

  (** sockets/parallel_socket.cc:52-100  Initialize: server 0 does not listen; the
      address of every server after this one. *)
  Definition sibling_listens (pc : pcfg) (server : Z) : res (list Z) :=
    if 0 <? server then let* sv := at_ (pc_servers pc) server in Ok [sv_parallel sv] else Ok [].
  Definition sibling_dials (pc : pcfg) (server : Z) : list (list Z * Z) :=
    map (fun sv => (sv_ip sv, sv_parallel sv)) (skipn (S (Z.to_nat server)) (pc_servers pc)).

  (** sockets/common.cc:29-68 ConnectTo for each of l in turn. *)
  Fixpoint dials (stack : nat -> list Z) (j : nat) (l : list (list Z * Z)) : list (list Z * Z) :=
    match l with [] => [] | a :: t => (dialled asserts (stack j) (fst a), snd a) :: dials stack (S j) t end.

  (** client/client_initialization.cc:11-32 and main.cc:98-99; the keys are those
      that RandomRow draws in client_online.cc:20-22. *)
  Definition boot_client (cfg : config) (db : list response) (server queries : Z) (offline online : bool) (en : entropy) (sr : surroundings) : res running :=
    let* _ := (if asserts then assert_ (2 <=? cg_parties_n cfg) else Ok tt) in
    let* first := at_ (cg_parties cfg) 0 in
    let* sv := at_ (pc_servers first) server in
    let c := {| ct_pkeys := map pc_pkey (cg_parties cfg); ct_rand := en_rand en;
                ct_keys := map (fun j => db_random_row db (en_draw en j)) (seq 0 (Z.to_nat queries)) |} in
    let p := pclient b asserts offline online server (sm_link (sr_mem sr)) (Z.to_nat (cg_parties_n cfg)) db c in
    Ok {| ru_listens := []; ru_dials := dials (sr_stack sr) 0 [(sv_ip sv, sv_port sv)];
          ru_program := if cg_servers_n cfg =? 1 then Serial p else Siblings (relabel (Link (Z.to_nat server)) p) |}.

  (** party/party_initialization.cc:12-60 and
      parallel_party/parallel_party_initialization.cc:12-76: the common part.
      Sample() never fails once the distribution is constructed (C22, C25).  Its
      results are drawn before anything calls srand() (srand() is only in
      shuffle/local_shuffle.cc:13 and parallel_shuffle.cc:76, both after
      InitializeNoiseSamples), so rand() delivers what it does after srand(1), and
      each sample takes two results (noise.cc:15-19, 30): assumes that nothing else
      in the process calls rand() or srand(). *)
  Definition boot_conf (cfg : config) (db : list response) (party server : Z) (en : entropy) : res (pcfg * Config.sconf * Config.sconf * pconf) :=
    let* pc := at_ (cg_parties cfg) party in
    let* sv := at_ (pc_servers pc) server in
    let* d := noise_new flog (double_of_bits (cg_epsilon cfg)) (double_of_bits (cg_delta cfg)) in
    let* nextparty := at_ (cg_parties cfg) (party + 1) in
    let* nextserver := at_ (pc_servers nextparty) server in
    Ok (pc, sv, nextserver,
        {| pf_party := Z.to_nat party; pf_parties := Z.to_nat (cg_parties_n cfg); pf_server := server; pf_servers := cg_servers_n cfg;
           pf_pkeys := map pc_pkey (cg_parties cfg); pf_pkey := pc_pkey pc; pf_skey := pc_skey pc;
           pf_seed := sv_seed sv; pf_db := Z.of_nat (List.length db); pf_rand := en_rand en;
           pf_samples := fun i => match sample sampling flog d (rng 1 (2 * i)%nat) (rng 1 (2 * i + 1)%nat) with Ok v => v | _ => 0 end |}).
  (** main.cc:102-106 *)
  Definition boot_party (cfg : config) (db : list response) (party server : Z) (offline online : bool) (en : entropy) (sr : surroundings) : res running :=
    let* x := boot_conf cfg db party server en in
    let '(_, sv, next, cf) := x in
    Ok {| ru_listens := [sv_port sv]; ru_dials := dials (sr_stack sr) 0 [(sv_ip next, sv_port next)];
          ru_program := Serial (pparty b asserts rng offline online (sm_link (sr_mem sr)) (S (Z.to_nat party)) cf) |}.
  (** main.cc:107-110 *)
  Definition boot_server (cfg : config) (db : list response) (party server : Z) (offline online : bool) (en : entropy) (sr : surroundings) : res running :=
    let* x := boot_conf cfg db party server en in
    let '(pc, sv, next, cf) := x in
    let* l := sibling_listens pc server in
    Ok {| ru_listens := sv_port sv :: l; ru_dials := dials (sr_stack sr) 0 ((sv_ip next, sv_port next) :: sibling_dials pc server);
          ru_program := Siblings (pserver b asserts rng iter offline online (Z.to_nat (cg_servers_n cfg)) (S (Z.to_nat party)) (Z.to_nat server)
                                    (sr_mem sr) (sr_acc sr) {| sf_conf := cf; sf_shared := pc_seed pc |}) |}.

  (** backend/backend_initialization.cc:11-36 and main.cc:112-114.  With one
      server, the program is the one of Procs, without the code for siblings. *)
  Definition boot_backend (cfg : config) (db : list response) (server : Z) (offline online : bool) (sr : surroundings) : res running :=
    let* pc := at_ (cg_parties cfg) (w8 (cg_parties_n cfg - 1)) in
    let* sv := at_ (pc_servers pc) server in
    let* _ := (if asserts then assert_ (2 <=? cg_parties_n cfg) else Ok tt) in
    let n := Z.to_nat (cg_parties_n cfg) in
    if 1 <? cg_servers_n cfg then
      let* l := sibling_listens pc server in
      Ok {| ru_listens := sv_port sv :: l; ru_dials := dials (sr_stack sr) 0 (sibling_dials pc server);
            ru_program := Siblings (pbserver b asserts iter offline online (Z.to_nat (cg_servers_n cfg)) n (Z.to_nat server)
                                      (sr_mem sr) (sr_acc sr) db junk (pc_pkey pc) (pc_skey pc)) |}
    else
      Ok {| ru_listens := [sv_port sv]; ru_dials := [];
            ru_program := Serial (pbackend b asserts offline online (sm_link (sr_mem sr)) n db junk (pc_pkey pc) (pc_skey pc)) |}.

  (** main.cc:27-118: validation and choice of the role are [main_]; None is exit
      code 1.  [file] is what the configuration file holds, if it exists. *)
  Definition main_program (f : flags) (file : option (list Z)) (en : entropy) (sr : surroundings) : res (option running) :=
    let* d := main_ f (let* cfg := read_file asserts file in Ok (cg_servers_n cfg, cg_parties_n cfg)) in
    match d with
    | Exit1 => Ok None
    | _ =>
        let* cfg := read_file asserts file in
        let* db := db_create (Z.to_nat (cg_db cfg)) in
        let* r := match d with
                  | RunClient server queries offline online => boot_client cfg db server queries offline online en sr
                  | RunParty party server offline online => boot_party cfg db party server offline online en sr
                  | RunParallelParty party server offline online => boot_server cfg db party server offline online en sr
                  | RunBackend server offline online => boot_backend cfg db server offline online sr
                  | Exit1 => Abort
                  end in
        Ok (Some r)
    end.
End Main.
