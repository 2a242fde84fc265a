(** Specification vocabulary for the privacy theorems. *)
From Coq Require Import Reals List.
From Coquelicot Require Import Coquelicot.
Import ListNotations.
Local Open Scope R_scope.

(** Two independent uniform reals in [0,1] satisfy [A] with probability [p]. *)
Definition unit_prob (A : R -> R -> bool) (p : R) : Prop :=
  exists g : R -> R,
    (forall u1, 0 < u1 < 1 -> is_RInt (fun u2 => if A u1 u2 then 1 else 0) 0 1 (g u1)) /\ is_RInt g 0 1 p.

(** Cumulative distribution function of the Laplace distribution with mean 0. *)
Definition laplace_cdf (span x : R) : R :=
  if Rle_dec x 0 then exp (x / span) / 2 else 1 - exp (- x / span) / 2.

(** Sum of the first [n] values of [f]. *)
Fixpoint rsum (n : nat) (f : nat -> R) : R :=
  match n with O => 0 | S n' => rsum n' f + f n' end.

(** Expected value of [f] on the counts seen by the backend when noise with
    probabilities [p] on 0..m is added independently to every count. *)
Fixpoint expect (p : nat -> R) (m : nat) (hist : list nat) (f : list nat -> R) : R :=
  match hist with
  | [] => f []
  | h :: rest => rsum (S m) (fun z => p z * expect p m rest (fun os => f ((h + z)%nat :: os)))
  end.

(** Two query histograms that differ by one client asking for another key. *)
Inductive neighbours : list nat -> list nat -> Prop :=
| nb_left l1 l2 l3 x y : neighbours (l1 ++ S x :: l2 ++ y :: l3) (l1 ++ x :: l2 ++ S y :: l3)
| nb_right l1 l2 l3 x y : neighbours (l1 ++ x :: l2 ++ S y :: l3) (l1 ++ S x :: l2 ++ y :: l3).

(** (epsilon, delta)-differential privacy of adding noise [p] to every count:
    for every test of the noisy counts (including randomised ones, hence any
    further processing). *)
Definition private (p : nat -> R) (m : nat) (epsilon delta : R) : Prop :=
  forall hist hist', neighbours hist hist' ->
    forall f, (forall os, 0 <= f os <= 1) ->
      expect p m hist f <= exp epsilon * expect p m hist' f + delta.
