(** Model of DPPIR/types/database.cc. *)
From Verif Require Import Base Incremental Wire.

(** types/database.cc:10-13, the row written in round i.  "2 * i" is uint32_t;
    i % 128 is below 128, so the conversion to char keeps it. *)
Definition db_row (i : nat) : response :=
  {| r_value := w32 (2 * Z.of_nat i); r_sig := repeat (Z.of_nat i mod 128) SIG_SIZE |}.

(** types/database.cc:8-14  Database(rows): value-initialised rows, then a loop. *)
Definition db_zero : response := {| r_value := 0; r_sig := repeat 0 SIG_SIZE |}.
Definition db_create (rows : nat) : res (list response) :=
  for_ rows 0 (fun i db => set_ db i (db_row i)) (repeat db_zero rows).

(** types/database.cc:18  Lookup: unchecked array access. *)
Definition db_lookup (db : list response) (key : Z) : res response := get db (Z.to_nat key).

(** types/database.cc:16  RandomRow = randombytes_uniform(size); [draw] is what
    libsodium returns: below the bound, or 0 when the bound is 0 or 1. *)
Definition db_random_row (db : list response) (draw : Z -> Z) : Z := draw (Z.of_nat (length db)).
