(** Specification vocabulary for addresses. *)
From Verif Require Import Base Sizes.

(** Four bytes; a byte in decimal without leading zeros, and four of them with dots. *)
Definition ip4 (a : list Z) : Prop := length a = 4%nat /\ Forall (fun x => 0 <= x <= 255) a.
Definition decimal (n : Z) : list Z :=
  (if 100 <=? n then [48 + n / 100] else []) ++ (if 10 <=? n then [48 + n / 10 mod 10] else []) ++ [48 + n mod 10].
Definition dotted (a : list Z) : list Z :=
  match a with [w; x; y; z] => decimal w ++ 46 :: decimal x ++ 46 :: decimal y ++ 46 :: decimal z | _ => [] end.
