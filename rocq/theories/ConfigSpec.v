(** Specification vocabulary for configurations. *)
From Verif Require Import Base Config.

(** A value of the C++ type int. *)
Definition int_val (z : Z) : Prop := - 2 ^ 31 <= z < 2 ^ 31.

(** Configurations whose vectors have the declared sizes, whose fields hold
    values of their C++ types, and whose addresses contain no NUL. *)
Definition server_val (s : sconf) : Prop :=
  int_val (sv_seed s) /\ int_val (sv_port s) /\ int_val (sv_parallel s) /\ Forall (fun c => c <> 0) (sv_ip s).
Definition party_val (servers : Z) (p : pcfg) : Prop :=
  int_val (pc_seed p) /\ length (pc_pkey p) = 32%nat /\ length (pc_skey p) = 32%nat /\
  Z.of_nat (length (pc_servers p)) = servers /\ Forall server_val (pc_servers p).
Definition config_val (c : config) : Prop :=
  u32 (cg_db c) /\ u64 (cg_epsilon c) /\ u64 (cg_delta c) /\ u8 (cg_parties_n c) /\ u8 (cg_servers_n c) /\
  Z.of_nat (length (cg_parties c)) = cg_parties_n c /\ Forall (party_val (cg_servers_n c)) (cg_parties c).

(** A size that a size_t can hold. *)
Definition fits (s : list Z) : Prop := Z.of_nat (length s) < 2 ^ 64.

(** All servers of all parties. *)
Definition all_servers (c : config) : list sconf := concat (map pc_servers (cg_parties c)).
