(** What goes over the connections of a network of processes. *)
From Verif Require Import Base Net Lts Procs TalkSpec.

(** In a step from s to s' the bytes w are put on connection c: its contents
    grow by w at the end; if w is empty bytes may be taken at the front. *)
Definition put {C E} (s s' : net C E) (c : C) (w : list Z) : Prop :=
  nt_chan s' c = nt_chan s c ++ w \/ (w = [] /\ exists got, nt_chan s c = got ++ nt_chan s' c).

(** [carries step s h s']: an execution leads from s to s', in which the bytes
    [h c] are put on each connection c. *)
Inductive carries {C E} (step : net C E -> net C E -> Prop) (s : net C E) : (C -> list Z) -> net C E -> Prop :=
| carries_none : carries step s (fun _ => []) s
| carries_step : forall h s1 w s2, carries step s h s1 -> step s1 s2 -> (forall c, put s1 s2 c (w c)) ->
    carries step s (fun c => h c ++ w c) s2.

(** The same when processes may be killed: then bytes at the end of what is under
    way may also be lost.  [net_of] is the network in a state that also says who
    has been killed. *)
Definition crash_put {C E} (s s' : net C E) (c : C) (w : list Z) : Prop :=
  nt_chan s' c = nt_chan s c ++ w \/ (w = [] /\ exists got lost, nt_chan s c = got ++ nt_chan s' c ++ lost).
Inductive crash_carries {S C E} (net_of : S -> net C E) (step : S -> S -> Prop) (s : S) : (C -> list Z) -> S -> Prop :=
| crash_carries_none : crash_carries net_of step s (fun _ => []) s
| crash_carries_step : forall h s1 w s2, crash_carries net_of step s h s1 -> step s1 s2 -> (forall c, crash_put (net_of s1) (net_of s2) c (w c)) ->
    crash_carries net_of step s (fun c => h c ++ w c) s2.

(** How many bytes go over each connection in a deployment with n client queries
    and parties that add [noise] fake queries: one each way to connect; then on
    link j a count (4 bytes), a cipher with one layer (124 bytes) per entity ahead
    and a query (12 bytes) per query that comes that far; and back one byte per
    barrier (two with a real offline stage) and as many responses (52 bytes). *)
Definition traffic (n : nat) (noise : list nat) (offline online : bool) (c : chan) : nat :=
  let queries j := (n + list_sum (firstn j noise))%nat in
  let link j bytes := if (j <=? length noise)%nat then bytes else 0%nat in
  match c with
  | Lis j => link j 1%nat
  | Con j => link j 1%nat
  | Fwd j => link j (4 + (if offline then 124 * (S (length noise) - j) * queries j else 0) + (if online then 12 * queries j else 0))%nat
  | Bwd j => link j ((if offline then 2 else 1) + (if online then 52 * queries j else 0))%nat
  end.
