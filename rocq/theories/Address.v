(** Addresses in the configuration file and the addresses connected to. *)
From Verif Require Import Base.

(** glibc's inet_pton for AF_INET (inet_pton4 in inet/inet_pton.c; not part of the
    repository), called at sockets/common.cc:58.  [saw]: saw_digit; [cur]: *tp;
    [done]: the octets before it. *)
Fixpoint pton_loop (s : list Z) (saw : bool) (octets : nat) (cur : Z) (done : list Z) : option (list Z) :=
  match s with
  | [] => if (octets <? 4)%nat then None else Some (done ++ [cur])
  | ch :: t =>
      if (48 <=? ch) && (ch <=? 57) then
        let new := cur * 10 + (ch - 48) in
        if saw && (cur =? 0) then None
        else if 255 <? new then None
        else if saw then pton_loop t true octets new done
        else if (4 <? S octets)%nat then None
        else pton_loop t true (S octets) new done
      else if (ch =? 46) && saw then
        if (octets =? 4)%nat then None else pton_loop t false octets 0 (done ++ [cur])
      else None
  end.
Definition inet_pton (s : list Z) : option (list Z) := pton_loop s false 0 0 [].

(** sockets/common.cc:55-58: servaddr is not initialised; inet_pton leaves the
    address alone when it cannot read the text, and returns 0, with which the
    assertion is content; without assertions it is not called.  [stack]: what the
    address holds before. *)
Definition dialled (asserts : bool) (stack : list Z) (ip : list Z) : list Z :=
  if asserts then match inet_pton ip with Some a => a | None => stack end else stack.
