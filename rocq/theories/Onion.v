(** Model of DPPIR/onion/onion.cc and onion.h. *)
From Verif Require Import Base Incremental Wire.

(** libsodium sealed boxes, left abstract (not modelled): [box_seal] gets a
    fresh coin (ephemeral key) and may fail (non-zero status), [box_open] may
    fail.  Lengths and the correctness law are [box_ok], a premise of theorems. *)
Record sealbox := {
  box_seal : nat -> list Z -> list Z -> option (list Z);  (* coin, pkey, message *)
  box_open : list Z -> list Z -> list Z -> option (list Z)  (* pkey, skey, cipher *)
}.

(** crypto_box_SEALBYTES, sizeof(OfflineSecret). *)
Definition SEALBYTES : nat := 48.
Definition SECRET_SIZE : nat := 76.

(** Correctness law of sealed boxes for a key pair. *)
Definition box_ok (b : sealbox) (pk sk : list Z) : Prop :=
  forall coin m, Forall byte m ->
    exists c, box_seal b coin pk m = Some c /\
      length c = (SEALBYTES + length m)%nat /\ Forall byte c /\
      box_open b pk sk c = Some m.

(** onion/onion.cc:22-26  CipherSize; the argument is a uint8_t. *)
Definition cipher_size (party_count : nat) : nat := (SECRET_SIZE + SEALBYTES) * party_count.

(** onion/onion.cc:42-60, loop of OnionEncrypt.  [i] counts down; the two
    buffers swap roles in every round.  [asserts] = assertions compiled in
    (NDEBUG not defined): the sealing call is the argument of assert(). *)
Fixpoint onion_loop (b : sealbox) (asserts : bool) (coins : nat -> nat)
    (secrets : list osecret) (first_party total : nat) (pkeys : list (list Z))
    (i : nat) (inb outb : list Z) (off : nat) : res (list Z * list Z * nat) :=
  match i with
  | O => Ok (inb, outb, off)
  | S idx =>
      let party_id := Z.to_nat (w8 (Z.of_nat (first_party + idx))) in
      let* s := get secrets idx in
      if (off <? SECRET_SIZE)%nat then UB else
      let off1 := (off - SECRET_SIZE)%nat in
      let* inb1 := wr inb off1 (enc_osecret s) in
      let* outb1 :=
        (if asserts then
           let* pk := get pkeys party_id in
           let* m := rd inb1 off1 (total - off1) in
           match box_seal b (coins idx) pk m with
           | None => Abort
           | Some c => if (off1 <? SEALBYTES)%nat then UB else wr outb (off1 - SEALBYTES) c
           end
         else Ok outb) in
      if (off1 <? SEALBYTES)%nat then UB else
      onion_loop b asserts coins secrets first_party total pkeys idx outb1 inb1 (off1 - SEALBYTES)
  end.

(** onion/onion.cc:29-68  OnionEncrypt.  [junk1], [junk2]: the uninitialised
    contents of the two new[] buffers (infinite streams of bytes).  The counts
    are uint8_t: "parties" wraps when first_party > party_count. *)
Definition onion_encrypt (b : sealbox) (asserts : bool) (coins : nat -> nat)
    (junk1 junk2 : nat -> Z)
    (secrets : list osecret) (first_party party_count : nat) (pkeys : list (list Z))
    : res (list Z) :=
  let parties := Z.to_nat (w8 (Z.of_nat party_count - Z.of_nat first_party)) in
  let total := cipher_size parties in
  let outb := map junk1 (seq 0 total) in
  let inb := map junk2 (seq 0 total) in
  let* r := onion_loop b asserts coins secrets first_party total pkeys parties inb outb total in
  let '(inb', _, off) := r in
  if asserts && negb (off =? 0)%nat then Abort else Ok inb'.

(** onion/onion.cc:71-83  OnionDecrypt and onion.h:28-40  OnionLayer (Msg,
    NextLayer).  [cipher] is the memory from the given pointer on.  When opening
    fails: abort with assertions, use of uninitialised memory without. *)
Definition onion_decrypt (b : sealbox) (asserts : bool) (cipher : list Z) (party_count : nat)
    (pk sk : list Z) : res (osecret * list Z) :=
  let sz := cipher_size party_count in
  if (sz <? SEALBYTES)%nat then UB else
  let* c := rd cipher 0 sz in
  match box_open b pk sk c with
  | None => if asserts then Abort else UB
  | Some plain =>
      let* msg := rd plain 0 SECRET_SIZE in
      Ok (dec_osecret msg, skipn SECRET_SIZE plain)
  end.
