(** Common vocabulary of the model: outcomes of C++ code, machine words,
    bounds-checked arrays and counted loops. *)
From Coq Require Export ZArith List Bool Lia Arith Permutation.
From Coq Require Export ZifyBool ZifyNat ZifyN.
Export ListNotations.
Global Open Scope Z_scope.
Global Open Scope list_scope.
(** lia with division and modulo; kept separate from lia because it is slow. *)
Ltac dlia := zify; Z.div_mod_to_equations; lia.

(** Outcome of running a piece of the C++ code.
    [Ok a]   : it returns [a].
    [Abort]  : a failed assert, exit(), or an uncaught exception.
    [UB]     : undefined behaviour (out-of-bounds, null/end() dereference,
               signed overflow, unrepresentable conversion).
    [NoFuel] : the model's recursion bound was exhausted (never an observation
               of the code; theorems exclude it or use it to say "still looping"). *)
Inductive res (A : Type) : Type :=
| Ok (a : A)
| Abort
| UB
| NoFuel.
Arguments Ok {A} a.
Arguments Abort {A}.
Arguments UB {A}.
Arguments NoFuel {A}.

Definition bind {A B} (r : res A) (f : A -> res B) : res B :=
  match r with
  | Ok a => f a
  | Abort => Abort
  | UB => UB
  | NoFuel => NoFuel
  end.

Notation "'let*' x ':=' e 'in' k" := (bind e (fun x => k))
  (at level 200, x pattern, e at level 100, k at level 200, right associativity).

(** [assert(b)] with assertions compiled in. *)
Definition assert_ (b : bool) : res unit := if b then Ok tt else Abort.

(** Unsigned machine words: uint8_t, uint16_t, uint32_t, uint64_t arithmetic. *)
Definition w8 (z : Z) : Z := z mod 2 ^ 8.
Definition w32 (z : Z) : Z := z mod 2 ^ 32.
Definition w64 (z : Z) : Z := z mod 2 ^ 64.

(** int64_t arithmetic: leaving the range is undefined. *)
Definition s64 (z : Z) : res Z :=
  if (- 2 ^ 63 <=? z) && (z <? 2 ^ 63) then Ok z else UB.

Definition u8 (z : Z) : Prop := 0 <= z < 2 ^ 8.
Definition u32 (z : Z) : Prop := 0 <= z < 2 ^ 32.
Definition u64 (z : Z) : Prop := 0 <= z < 2 ^ 64.

(** Bounds-checked array access. *)
Definition get {A} (l : list A) (i : nat) : res A :=
  match nth_error l i with Some a => Ok a | None => UB end.

Fixpoint upd {A} (l : list A) (i : nat) (a : A) : list A :=
  match l, i with
  | [], _ => []
  | _ :: t, O => a :: t
  | h :: t, S j => h :: upd t j a
  end.

Definition set_ {A} (l : list A) (i : nat) (a : A) : res (list A) :=
  if (i <? length l)%nat then Ok (upd l i a) else UB.

(** [for (i = from; n more rounds; i++) s = f(i, s)] *)
Fixpoint for_ {S} (n : nat) (i : nat) (f : nat -> S -> res S) (s : S) : res S :=
  match n with
  | O => Ok s
  | Datatypes.S n' => let* s' := f i s in for_ n' (Datatypes.S i) f s'
  end.

(** Byte memory: a list of bytes (0..255); pointers are offsets.
    [rd]/[wr] model reading and memcpy-ing a range; leaving the memory is UB. *)
Definition rd (m : list Z) (off n : nat) : res (list Z) :=
  if (off + n <=? length m)%nat then Ok (firstn n (skipn off m)) else UB.
Definition wr (m : list Z) (off : nat) (bs : list Z) : res (list Z) :=
  if (off + length bs <=? length m)%nat
  then Ok (firstn off m ++ bs ++ skipn (off + length bs) m)
  else UB.

Definition byte (z : Z) : Prop := 0 <= z < 256.
Definition bytes (n : nat) (l : list Z) : Prop := length l = n /\ Forall byte l.

(** Little-endian images of unsigned integers (x86-64 / the packed structs). *)
Fixpoint le (n : nat) (z : Z) : list Z :=
  match n with
  | O => []
  | S n' => z mod 256 :: le n' (z / 256)
  end.
Fixpoint of_le (l : list Z) : Z :=
  match l with
  | [] => 0
  | b :: t => b + 256 * of_le t
  end.

(** Run an action for every element, threading a state. *)
Fixpoint fold_res {A S} (f : S -> A -> res S) (l : list A) (s : S) : res S :=
  match l with
  | [] => Ok s
  | a :: t => let* s' := f s a in fold_res f t s'
  end.

(** Map with an action. *)
Fixpoint map_res {A B} (f : A -> res B) (l : list A) : res (list B) :=
  match l with
  | [] => Ok []
  | a :: t => let* b := f a in let* r := map_res f t in Ok (b :: r)
  end.
