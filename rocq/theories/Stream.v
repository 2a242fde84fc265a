(** Model of the logical buffers of DPPIR/types/containers.h and of
    DPPIR/sockets/{common,client_socket,server_socket}: buffered reading and
    writing of messages over a byte stream. *)
From Verif Require Import Base.

(** The connection as seen by one process: [w_in] are all the bytes the peer
    will ever send (then it closes), [w_out] the bytes handed to the kernel so
    far, [w_calls] numbers the system calls. *)
Record world := { w_in : list Z; w_out : list Z; w_calls : nat }.

(** The kernel decides how many bytes each read/send call transfers: [k i n] is
    the transfer size of call number i when n bytes are requested (and, for
    reads, available).  Errors (negative results) end in Abort (MY_ASSERT,
    common.cc:21-27); [kernel_ok] excludes them. *)
Definition kernel := nat -> nat -> Z.
Definition kernel_ok (k : kernel) : Prop := forall i n, (0 < n)%nat -> 1 <= k i n <= Z.of_nat n.

(** read(2): at end of stream, or when nothing is requested, 0. *)
Definition sys_read (k : kernel) (w : world) (n : nat) : res (list Z * world) :=
  let avail := Nat.min n (length (w_in w)) in
  let status := if (avail =? 0)%nat then 0 else k (w_calls w) avail in
  if status <? 0 then Abort
  else Ok (firstn (Z.to_nat status) (w_in w),
           {| w_in := skipn (Z.to_nat status) (w_in w); w_out := w_out w; w_calls := S (w_calls w) |}).

(** send(2) of the bytes [b]; returns the number of bytes taken. *)
Definition sys_send (k : kernel) (w : world) (b : list Z) : res (nat * world) :=
  let status := if (length b =? 0)%nat then 0 else k (w_calls w) (length b) in
  if status <? 0 then Abort
  else Ok (Z.to_nat status,
           {| w_in := w_in w; w_out := w_out w ++ firstn (Z.to_nat status) b; w_calls := S (w_calls w) |}).

(** sockets/common.cc:118-125  Read: exactly buf_size bytes into memory [m] at
    [off].  The C++ loop is unbounded; [fuel] counts system calls. *)
Fixpoint read_exact (k : kernel) (fuel : nat) (w : world) (m : list Z) (off bytes size : nat)
  : res (list Z * world) :=
  if (bytes <? size)%nat then
    match fuel with
    | O => NoFuel
    | S f =>
        let* r := sys_read k w (size - bytes) in
        let* m' := wr m (off + bytes) (fst r) in
        read_exact k f (snd r) m' off (bytes + length (fst r)) size
    end
  else Ok (m, w).

(** sockets/common.cc:127-131  ReadSome *)
Definition read_some (k : kernel) (w : world) (m : list Z) (off n : nat) : res (nat * list Z * world) :=
  let* r := sys_read k w n in
  let* m' := wr m off (fst r) in
  Ok (length (fst r), m', snd r).

(** sockets/common.cc:133-140  Send *)
Fixpoint send_all (k : kernel) (fuel : nat) (w : world) (m : list Z) (off sent size : nat) : res world :=
  if (sent <? size)%nat then
    match fuel with
    | O => NoFuel
    | S f =>
        let* b := rd m (off + sent) (size - sent) in
        let* r := sys_send k w b in
        send_all k f (snd r) m off (sent + fst r) size
    end
  else Ok w.

(** The members the LOGICAL_BUFFER template parameter must provide
    (sockets/common.h:31-46); offsets are relative to the physical buffer. *)
Record bufops (B : Type) := {
  bo_unit : B -> nat;                                   (* UnitSize *)
  bo_leftover : B -> nat;                               (* Leftover *)
  bo_capacity : B -> nat;                               (* BufferCapacity *)
  bo_tobuffer : B -> nat;                               (* ToBuffer *)
  bo_bytes : B -> nat;                                  (* BufferSize *)
  bo_size : B -> nat;                                   (* Size *)
  bo_full : B -> bool;                                  (* Full *)
  bo_elems : B -> res (list nat);                       (* begin..end *)
  bo_clear : B -> list Z -> res (list Z * B);           (* Clear *)
  bo_update : B -> nat -> B;                            (* Update *)
  bo_push : B -> list Z -> list Z -> res (list Z * B)   (* PushBack *)
}.
Arguments bo_unit {B}. Arguments bo_leftover {B}. Arguments bo_capacity {B}. Arguments bo_tobuffer {B}.
Arguments bo_bytes {B}. Arguments bo_size {B}. Arguments bo_full {B}. Arguments bo_elems {B}.
Arguments bo_clear {B}. Arguments bo_update {B}. Arguments bo_push {B}.

(** memcpy inside one memory; overlapping ranges are undefined behaviour. *)
Definition memcpy_within (m : list Z) (dst src n : nat) : res (list Z) :=
  if (n =? 0)%nat then Ok m
  else if (dst + n <=? src)%nat || (src + n <=? dst)%nat then
    let* b := rd m src n in wr m dst b
  else UB.

(** types/containers.h:113-118  LogicalBuffer<T>; sizeof(T) = lb_unit. *)
Record lbuf := { lb_unit : nat; lb_capacity : nat; lb_end : nat; lb_leftover : nat }.
(** types/containers.h:69-74  constructor over a physical buffer of SZ bytes *)
Definition lb_make (sz unit : nat) : lbuf :=
  {| lb_unit := unit; lb_capacity := sz / unit; lb_end := 0; lb_leftover := 0 |}.
(** types/containers.h:76-111 *)
Definition lb_ops : bufops lbuf := {|
  bo_unit := lb_unit;
  bo_leftover := lb_leftover;
  bo_capacity := fun b => (lb_capacity b * lb_unit b - lb_leftover b)%nat;
  bo_tobuffer := lb_leftover;
  bo_bytes := fun b => (lb_end b * lb_unit b)%nat;
  bo_size := lb_end;
  bo_full := fun b => (lb_end b =? lb_capacity b)%nat;
  bo_elems := fun b => Ok (map (fun i => i * lb_unit b)%nat (seq 0 (lb_end b)));
  bo_clear := fun b m =>
    let* m' := (if (0 <? lb_end b)%nat then memcpy_within m 0 (lb_end b * lb_unit b) (lb_leftover b) else Ok m) in
    Ok (m', {| lb_unit := lb_unit b; lb_capacity := lb_capacity b; lb_end := 0; lb_leftover := lb_leftover b |});
  bo_update := fun b n =>
    let bytes := (n + lb_leftover b)%nat in
    {| lb_unit := lb_unit b; lb_capacity := lb_capacity b;
       lb_end := bytes / lb_unit b; lb_leftover := bytes mod lb_unit b |};
  bo_push := fun b m v =>
    let* u := rd v 0 (lb_unit b) in
    let* m' := wr m (lb_end b * lb_unit b) u in
    Ok (m', {| lb_unit := lb_unit b; lb_capacity := lb_capacity b; lb_end := S (lb_end b); lb_leftover := lb_leftover b |})
|}.

(** types/containers.h:253-258  CipherLogicalBuffer: capacity and end in bytes. *)
Record cbuf := { cl_unit : nat; cl_capacity : nat; cl_end : nat; cl_leftover : nat }.
(** types/containers.h:206-212  constructor *)
Definition cl_make (sz unit : nat) : cbuf :=
  {| cl_unit := unit; cl_capacity := sz - sz mod unit; cl_end := 0; cl_leftover := 0 |}.
(** types/containers.h:160-197 CipherIterator, 214-220 begin/end: the pointers
    visited by "for (it = begin; it != end; ++it)". *)
Fixpoint cipher_offsets (fuel off unit stop : nat) : res (list nat) :=
  if (off =? stop)%nat then Ok []
  else match fuel with
       | O => NoFuel
       | S f => let* r := cipher_offsets f (off + unit) unit stop in Ok (off :: r)
       end.
(** types/containers.h:214-251 *)
Definition cl_ops : bufops cbuf := {|
  bo_unit := cl_unit;
  bo_leftover := cl_leftover;
  bo_capacity := fun b => (cl_capacity b - cl_leftover b)%nat;
  bo_tobuffer := cl_leftover;
  bo_bytes := cl_end;
  bo_size := fun b => (cl_end b / cl_unit b)%nat;
  bo_full := fun b => (cl_end b =? cl_capacity b)%nat;
  bo_elems := fun b => cipher_offsets (cl_end b) 0 (cl_unit b) (cl_end b);
  bo_clear := fun b m =>
    let* m' := (if (0 <? cl_end b)%nat then memcpy_within m 0 (cl_end b) (cl_leftover b) else Ok m) in
    Ok (m', {| cl_unit := cl_unit b; cl_capacity := cl_capacity b; cl_end := 0; cl_leftover := cl_leftover b |});
  bo_update := fun b n =>
    let bytes := (n + cl_leftover b)%nat in
    {| cl_unit := cl_unit b; cl_capacity := cl_capacity b;
       cl_end := bytes - bytes mod cl_unit b; cl_leftover := bytes mod cl_unit b |};
  bo_push := fun b m v =>
    let* u := rd v 0 (cl_unit b) in
    let* m' := wr m (cl_end b) u in
    Ok (m', {| cl_unit := cl_unit b; cl_capacity := cl_capacity b; cl_end := cl_end b + cl_unit b; cl_leftover := cl_leftover b |})
|}.

Section Template.
  Context {B : Type} (ops : bufops B) (k : kernel).

  (** sockets/common.h:32-37  Read(fd, read_count, buf): one ReadSome of at most
      min(BufferCapacity, read_count * UnitSize - Leftover) bytes (uint64_t). *)
  Definition read_buf (w : world) (read_count : nat) (b : B) (m : list Z) : res (B * list Z * world) :=
    let cap := Z.of_nat (bo_capacity ops b) in
    let count := w64 (Z.of_nat (read_count * bo_unit ops b) - Z.of_nat (bo_leftover ops b)) in
    let n := Z.to_nat (if cap <? count then cap else count) in
    let* r := read_some k w m (bo_tobuffer ops b) n in
    let '(got, m', w') := r in
    Ok (bo_update ops b got, m', w').

  (** The batch loops, e.g. backend/backend_online.cc:12-20,
      backend_offline.cc:12-20, party/party_offline.cc:16-26,
      party_online.cc:16-29, client/client_online.cc:34-49:
      while (count > 0) { buffer = Read(count); for (x : buffer) deliver x;
      count -= Size(); Clear(); }.  Handlers only touch the element they are
      given, so delivery is modelled by collecting the elements.  [fuel] counts
      iterations. *)
  Fixpoint read_batch (fuel : nat) (w : world) (count : nat) (b : B) (m : list Z)
    : res (list (list Z) * B * list Z * world) :=
    if (0 <? count)%nat then
      match fuel with
      | O => NoFuel
      | S f =>
          let* r := read_buf w count b m in
          let '(b1, m1, w1) := r in
          let* offs := bo_elems ops b1 in
          let* xs := map_res (fun o => rd m1 o (bo_unit ops b1)) offs in
          let* c := bo_clear ops b1 m1 in
          let* rest := read_batch f w1 (count - length xs) (snd c) (fst c) in
          let '(ys, b3, m3, w3) := rest in
          Ok (xs ++ ys, b3, m3, w3)
      end
    else Ok ([], b, m, w).

  (** sockets/client_socket.cc:44-51, server_socket.cc:48-51  Flush*, using
      common.h:44-46  Send(fd, buf). *)
  Definition flush (w : world) (b : B) (m : list Z) : res (B * list Z * world) :=
    let* w' := send_all k (bo_bytes ops b) w m (bo_tobuffer ops b) 0 (bo_bytes ops b) in
    let* c := bo_clear ops b m in
    Ok (snd c, fst c, w').

  (** sockets/client_socket.cc:30-41, server_socket.cc:40-45  Send*: push, flush
      when full. *)
  Definition send_msg (w : world) (b : B) (m : list Z) (v : list Z) : res (B * list Z * world) :=
    let* p := bo_push ops b m v in
    if bo_full ops (snd p) then flush w (snd p) (fst p)
    else Ok (snd p, fst p, w).

  (** A loop of Send* calls followed by the flush. *)
  Definition send_batch (w : world) (b : B) (m : list Z) (msgs : list (list Z)) : res (B * list Z * world) :=
    let* r := fold_res (fun st v => let '(b, m, w) := st in send_msg w b m v) msgs (b, m, w) in
    let '(b', m', w') := r in
    flush w' b' m'.
End Template.

(** sockets/server_socket.cc:19-23, parallel_socket.cc:114-119  ReadCount *)
Definition read_count_ (k : kernel) (fuel : nat) (w : world) : res (Z * world) :=
  let* r := read_exact k fuel w (repeat 0 4) 0 0 4 in
  Ok (of_le (fst r), snd r).
(** sockets/client_socket.cc:20-22, parallel_socket.cc:103-106  SendCount *)
Definition send_count (k : kernel) (w : world) (count : Z) : res world :=
  send_all k 4 w (le 4 count) 0 0 4.
(** sockets/server_socket.cc:24-27  SendReady *)
Definition send_ready (k : kernel) (w : world) : res world := send_all k 1 w [1] 0 0 1.
(** sockets/client_socket.cc:23-27  WaitForReady; the byte is checked by an
    assert. *)
Definition wait_ready (asserts : bool) (k : kernel) (fuel : nat) (w : world) : res world :=
  let* r := read_exact k fuel w [0] 0 0 1 in
  let* _ := (if asserts then assert_ (match fst r with [b] => b =? 1 | _ => false end) else Ok tt) in
  Ok (snd r).
