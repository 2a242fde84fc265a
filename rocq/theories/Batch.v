(** Model of Batch<T> in DPPIR/types/containers.h:121-158. *)
From Verif Require Import Base.

(** containers.h:153-157: ptr_ with capacity_ elements, right_ (left_ is unused). *)
Record batch (A : Type) := { bt_data : list A; bt_right : nat }.
Arguments bt_data {A}. Arguments bt_right {A}.
(** containers.h:127-132  Initialize: make_unique value-initialises to [zero]. *)
Definition bt_initialize {A} (zero : A) (capacity : nat) : batch A :=
  {| bt_data := repeat zero capacity; bt_right := 0 |}.
(** containers.h:147  operator[], read and write *)
Definition bt_get {A} (b : batch A) (i : nat) : res A := get (bt_data b) i.
Definition bt_set {A} (b : batch A) (i : nat) (v : A) : res (batch A) :=
  let* d := set_ (bt_data b) i v in Ok {| bt_data := d; bt_right := bt_right b |}.
(** containers.h:148  PushBack *)
Definition bt_push {A} (b : batch A) (v : A) : res (batch A) :=
  let* d := set_ (bt_data b) (bt_right b) v in Ok {| bt_data := d; bt_right := S (bt_right b) |}.
(** containers.h:143-144: begin()..end() covers the whole capacity. *)
Definition bt_all {A} (b : batch A) : list A := bt_data b.
