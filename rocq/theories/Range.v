(** Model of noise::FindRange (DPPIR/noise/noise.cc:33-43). *)
From Verif Require Import Base.

(** noise.cc:36  range_size = std::ceil(1.0 * db_size / servers_count), as exact
    integer arithmetic; [C21] proves that the double-precision expression has
    this value. *)
Definition range_size (servers_count db_size : Z) : Z := - ((- db_size) / servers_count).

(** noise.cc:33-43  FindRange.  server_id and servers_count are uint8_t, the
    rest is uint32_t; "servers_count - 1" is an int.  [asserts]: assertions
    compiled in. *)
Definition find_range (asserts : bool) (server_id servers_count db_size : Z) : res (Z * Z) :=
  let* _ := (if asserts then assert_ (servers_count <=? db_size) else Ok tt) in
  let range := range_size servers_count db_size in
  let range_start := w32 (server_id * range) in
  let range_end := w32 (range_start + range) in
  Ok (range_start, if server_id =? servers_count - 1 then db_size else range_end).
