(** Model of CipherBatch in DPPIR/types/containers.h and of its use in
    protocol/party/party_offline.cc. *)
From Verif Require Import Base.

(** types/containers.h:344-351.  Pointers are offsets into the allocation. *)
Record cbatch := {
  cb_mem : list Z;
  cb_last_short : nat; cb_first_long : nat; cb_last_long : nat; cb_end : nat;
  cb_short : nat; cb_long : nat
}.

(** types/containers.h:277-295  constructor and Initialize (make_unique
    zero-initialises).  Products are 64-bit and cannot wrap: counts are below
    2^32, sizes at most 255*124. *)
Definition cb_initialize (short_size long_size short_count long_count : nat) : cbatch :=
  let short_bytes := (short_count * short_size)%nat in
  let long_bytes := (long_count * long_size)%nat in
  {| cb_mem := repeat 0 (short_bytes + long_bytes);
     cb_last_short := 0; cb_first_long := short_bytes; cb_last_long := short_bytes;
     cb_end := short_bytes + long_bytes; cb_short := short_size; cb_long := long_size |}.

(** types/containers.h:306-308  HasLong *)
Definition cb_has_long (c : cbatch) : bool := (cb_first_long c <? cb_last_long c)%nat.

(** types/containers.h:311-314  PushShort; [v] is the memory at the argument. *)
Definition cb_push_short (c : cbatch) (v : list Z) : res cbatch :=
  let* b := rd v 0 (cb_short c) in
  let* m := wr (cb_mem c) (cb_last_short c) b in
  Ok {| cb_mem := m; cb_last_short := cb_last_short c + cb_short c; cb_first_long := cb_first_long c;
        cb_last_long := cb_last_long c; cb_end := cb_end c; cb_short := cb_short c; cb_long := cb_long c |}.

(** types/containers.h:315-318  PushLong *)
Definition cb_push_long (c : cbatch) (v : list Z) : res cbatch :=
  let* b := rd v 0 (cb_long c) in
  let* m := wr (cb_mem c) (cb_last_long c) b in
  Ok {| cb_mem := m; cb_last_short := cb_last_short c; cb_first_long := cb_first_long c;
        cb_last_long := cb_last_long c + cb_long c; cb_end := cb_end c; cb_short := cb_short c; cb_long := cb_long c |}.

(** types/containers.h:319-323  PopLong returns a pointer (offset) into the batch. *)
Definition cb_pop_long (c : cbatch) : nat * cbatch :=
  (cb_first_long c,
   {| cb_mem := cb_mem c; cb_last_short := cb_last_short c; cb_first_long := cb_first_long c + cb_long c;
      cb_last_long := cb_last_long c; cb_end := cb_end c; cb_short := cb_short c; cb_long := cb_long c |}).

(** types/containers.h:324-326  GetShort: the cipher read at the pointer by
    SendCipher (sockets copy cipher_size bytes). *)
Definition cb_get_short (c : cbatch) (idx : nat) : res (list Z) :=
  rd (cb_mem c) (idx * cb_short c) (cb_short c).

(** protocol/party/party_offline.cc:60-77  the loop of InstallSecrets.
    [handle s mem] decrypts the cipher at the start of [mem] (the memory from
    the popped pointer on), installs the secret into [s], and returns the next
    layer's memory. *)
Fixpoint cb_process {S} (handle : S -> list Z -> res (S * list Z)) (fuel : nat) (c : cbatch) (s : S)
  : res (cbatch * S) :=
  if cb_has_long c then
    match fuel with
    | O => NoFuel
    | Datatypes.S f =>
        let (p, c1) := cb_pop_long c in
        let* r := handle s (skipn p (cb_mem c1)) in
        let* c2 := cb_push_short c1 (snd r) in
        cb_process handle f c2 (fst r)
    end
  else Ok (c, s).
