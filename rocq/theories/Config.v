(** Model of DPPIR/config/config.h, config.cc and gen_config.cc. *)
From Verif Require Import Base.

(** config.h:12-17  struct ServerConfig; the string is its bytes. *)
Record sconf := { sv_seed : Z; sv_port : Z; sv_parallel : Z; sv_ip : list Z }.
(** config.h:19-26  struct PartyConfig *)
Record pcfg := { pc_seed : Z; pc_servers : list sconf; pc_pkey : list Z; pc_skey : list Z }.
(** config.h:28-38  struct Config.  The doubles are their 64-bit images: they
    are only copied here. *)
Record config := {
  cg_db : Z; cg_epsilon : Z; cg_delta : Z;
  cg_parties_n : Z; cg_servers_n : Z; cg_parties : list pcfg
}.
(** crypto_box_PUBLICKEYBYTES, crypto_box_SECRETKEYBYTES *)
Definition KEY_SIZE : nat := 32.

(** config.cc:12-14  Int2Bin; an unsigned argument converts to int bit by bit. *)
Definition int2bin (v : Z) : list Z := le 4 (w32 v).
(** config.cc:15-17  Double2Bin *)
Definition double2bin (v : Z) : list Z := le 8 v.

(** config.cc:75-81, one server of Serialize *)
Definition ser_server (s : sconf) : list Z :=
  int2bin (sv_seed s) ++ int2bin (sv_port s) ++ int2bin (sv_parallel s) ++ sv_ip s ++ [0].
(** config.cc:68-82, one party *)
Definition ser_party (asserts : bool) (servers : Z) (p : pcfg) : res (list Z) :=
  let* _ := (if asserts then assert_ (Z.of_nat (length (pc_servers p)) =? servers) else Ok tt) in
  Ok (int2bin (pc_seed p) ++ pc_pkey p ++ pc_skey p ++ concat (map ser_server (pc_servers p))).
(** config.cc:57-84  Serialize *)
Definition serialize (asserts : bool) (c : config) : res (list Z) :=
  let* _ := (if asserts then assert_ (Z.of_nat (length (cg_parties c)) =? cg_parties_n c) else Ok tt) in
  let* ps := map_res (ser_party asserts (cg_servers_n c)) (cg_parties c) in
  Ok (int2bin (cg_db c) ++ double2bin (cg_epsilon c) ++ double2bin (cg_delta c) ++
      int2bin (cg_parties_n c) ++ int2bin (cg_servers_n c) ++ concat ps).

(** The reader: [data] and [n] of Deserialize.  Memory is the string followed
    by its terminating NUL; reading past that is undefined.  [n] is a size_t and
    wraps.  Simplification: misaligned int and double reads are allowed. *)
Record cursor := { cu_off : nat; cu_n : Z }.
Definition advance_cursor (u : cursor) (k : nat) : cursor :=
  {| cu_off := cu_off u + k; cu_n := w64 (cu_n u - Z.of_nat k) |}.
(** config.cc:19-24  Bin2Int *)
Definition to_int (z : Z) : Z := if z <? 2 ^ 31 then z else z - 2 ^ 32.
Definition bin2int (mem : list Z) (u : cursor) : res (Z * cursor) :=
  let* b := rd mem (cu_off u) 4 in
  Ok (to_int (of_le b), advance_cursor u 4).
(** config.cc:25-30  Bin2Double *)
Definition bin2double (mem : list Z) (u : cursor) : res (Z * cursor) :=
  let* b := rd mem (cu_off u) 8 in
  Ok (of_le b, advance_cursor u 8).
(** config.cc:32-39, the loop of Bin2Str over the memory from the pointer on.
    The missing return after assert(false) is undefined behaviour. *)
Fixpoint str_scan (asserts : bool) (m : list Z) (n : Z) (i : nat) : res nat :=
  if Z.of_nat i <? n then
    match m with
    | [] => UB
    | c :: t => if c =? 0 then Ok i else str_scan asserts t n (S i)
    end
  else if asserts then Abort else UB.
(** config.cc:31-41  Bin2Str *)
Definition bin2str (asserts : bool) (mem : list Z) (u : cursor) : res (list Z * cursor) :=
  let m := skipn (cu_off u) mem in
  let* i := str_scan asserts m (cu_n u) 0 in
  Ok (firstn i m, advance_cursor u (S i)).
(** config.cc:43-52  ReadIntoBuffer *)
Definition read_into_buffer (asserts : bool) (sz : nat) (mem : list Z) (u : cursor) : res (list Z * cursor) :=
  let* _ := (if asserts then assert_ (Z.of_nat sz <=? cu_n u) else Ok tt) in
  let* b := rd mem (cu_off u) sz in
  Ok (b, advance_cursor u sz).

(** config.cc:102-109, the loop over servers *)
Fixpoint des_servers (asserts : bool) (mem : list Z) (n : nat) (u : cursor) : res (list sconf * cursor) :=
  match n with
  | O => Ok ([], u)
  | S n' =>
      let* (seed, u1) := bin2int mem u in
      let* (port, u2) := bin2int mem u1 in
      let* (par, u3) := bin2int mem u2 in
      let* (ip, u4) := bin2str asserts mem u3 in
      let* (rest, u5) := des_servers asserts mem n' u4 in
      Ok ({| sv_seed := seed; sv_port := port; sv_parallel := par; sv_ip := ip |} :: rest, u5)
  end.
(** config.cc:97-111, the loop over parties *)
Fixpoint des_parties (asserts : bool) (mem : list Z) (servers : nat) (n : nat) (u : cursor) : res (list pcfg * cursor) :=
  match n with
  | O => Ok ([], u)
  | S n' =>
      let* (seed, u1) := bin2int mem u in
      let* (pk, u2) := read_into_buffer asserts KEY_SIZE mem u1 in
      let* (sk, u3) := read_into_buffer asserts KEY_SIZE mem u2 in
      let* (svs, u4) := des_servers asserts mem servers u3 in
      let* (rest, u5) := des_parties asserts mem servers n' u4 in
      Ok ({| pc_seed := seed; pc_servers := svs; pc_pkey := pk; pc_skey := sk |} :: rest, u5)
  end.
(** config.cc:87-115  Deserialize.  int converts to uint32_t and uint8_t by
    wrapping. *)
Definition deserialize (asserts : bool) (s : list Z) : res config :=
  let mem := s ++ [0] in
  let* (db, u1) := bin2int mem {| cu_off := 0; cu_n := Z.of_nat (length s) |} in
  let* (eps, u2) := bin2double mem u1 in
  let* (del, u3) := bin2double mem u2 in
  let* (pn, u4) := bin2int mem u3 in
  let* (sn, u5) := bin2int mem u4 in
  let* (ps, u6) := des_parties asserts mem (Z.to_nat (w8 sn)) (Z.to_nat (w8 pn)) u5 in
  let* _ := (if asserts then assert_ (cu_n u6 =? 0) else Ok tt) in
  Ok {| cg_db := w32 db; cg_epsilon := eps; cg_delta := del;
        cg_parties_n := w8 pn; cg_servers_n := w8 sn; cg_parties := ps |}.

(** config.cc:118-126  ReadFile: the contents of the file, or nothing when it
    cannot be opened (then get() fails at once). *)
Definition read_file (asserts : bool) (contents : option (list Z)) : res config :=
  deserialize asserts (match contents with Some s => s | None => [] end).

(** ** gen_config.cc *)

(** "127.0.0.1" *)
Definition localhost : list Z := [49; 50; 55; 46; 48; 46; 48; 46; 49].

(** gen_config.cc:76-97 (and 35-56): party i with its servers.  [sn] is
    config.server_count, [ip i j] the address given for the server. *)
Definition gen_party (sn : Z) (ip : nat -> nat -> res (list Z)) (keys : nat -> list Z * list Z) (i : nat) : res pcfg :=
  let* svs := map_res (fun j =>
    let k := Z.of_nat i * sn + Z.of_nat j in
    let* a := ip i j in
    Ok {| sv_seed := k; sv_port := 3000 + k; sv_parallel := 4000 + k; sv_ip := a |}) (seq 0 (Z.to_nat sn)) in
  Ok {| pc_seed := Z.of_nat i + 1000; pc_servers := svs; pc_pkey := fst (keys i); pc_skey := snd (keys i) |}.

(** gen_config.cc:61-100  FromArgs: the arguments are the values of std::stoi
    and std::stod, [ips] are the remaining arguments argv[6..], [keys] the
    generated key pairs. *)
Definition from_args (asserts : bool) (db eps del parties servers : Z) (ips : list (list Z)) (keys : nat -> list Z * list Z)
  : res config :=
  let pn := w8 parties in
  let sn := w8 servers in
  let args := 6 + pn * sn in
  let argc := 6 + Z.of_nat (length ips) in
  let* _ := (if asserts then assert_ ((argc =? args) || (argc =? 6)) else Ok tt) in
  let* ps := map_res (gen_party sn (fun i j =>
      if argc =? 6 then Ok localhost else get ips (i * Z.to_nat sn + j)%nat) keys) (seq 0 (Z.to_nat pn)) in
  Ok {| cg_db := w32 db; cg_epsilon := eps; cg_delta := del; cg_parties_n := pn; cg_servers_n := sn; cg_parties := ps |}.

(** gen_config.cc:11-59  Interactive: the vectors have the sizes typed in, the
    loops run to the stored (uint8_t) counts; [lines] are the addresses typed
    in order.  A default PartyConfig / ServerConfig is indeterminate; zeros here
    (Serialize aborts before looking at one).  Negative sizes throw. *)
Definition default_server : sconf := {| sv_seed := 0; sv_port := 0; sv_parallel := 0; sv_ip := [] |}.
Definition default_party : pcfg :=
  {| pc_seed := 0; pc_servers := []; pc_pkey := repeat 0 KEY_SIZE; pc_skey := repeat 0 KEY_SIZE |}.
Definition interactive (db eps del parties servers : Z) (line : nat -> nat -> list Z) (keys : nat -> list Z * list Z)
  : res config :=
  if (parties <? 0) || ((0 <? w8 parties) && (servers <? 0)) then Abort else
  let pn := w8 parties in
  let sn := w8 servers in
  let* ps := map_res (fun i =>
      let* p := gen_party sn (fun i j => Ok (match line i j with [] => localhost | l => l end)) keys i in
      Ok {| pc_seed := pc_seed p;
            pc_servers := pc_servers p ++ repeat default_server (Z.to_nat servers - Z.to_nat sn);
            pc_pkey := pc_pkey p; pc_skey := pc_skey p |}) (seq 0 (Z.to_nat pn)) in
  Ok {| cg_db := w32 db; cg_epsilon := eps; cg_delta := del; cg_parties_n := pn; cg_servers_n := sn;
        cg_parties := ps ++ repeat default_party (Z.to_nat parties - Z.to_nat pn) |}.
