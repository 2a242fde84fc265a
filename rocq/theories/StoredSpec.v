(** What storing and loading experiments is to achieve: vocabulary. *)
From Coq Require Import String.
From Verif Require Import Base Json JsonSpec Orchestrator Stored.
Local Open Scope list_scope.
Local Open Scope Z_scope.

(** Two experiments that are run alike: the fields that their kind uses agree. *)
Definition same_job (d d' : desc) : Prop :=
  ds_kind d' = ds_kind d /\ ds_name d' = ds_name d /\ ds_clients d' = ds_clients d /\ ds_servers d' = ds_servers d /\
  ds_table d' = ds_table d /\ ds_queries d' = ds_queries d /\
  match ds_kind d with
  | Dppir => ds_mode d' = ds_mode d /\ ds_parties d' = ds_parties d /\ ds_parallel d' = ds_parallel d /\
             ds_epsilon d' = ds_epsilon d /\ ds_delta d' = ds_delta d
  | Checklist => ds_mode d' = ds_mode d
  | Sealpir => True
  end.

(** The numbers are integers that JavaScript represents exactly, mode, epsilon and
    delta are read back as they are written (they are not NaN, infinite or -0), the
    name is a string with which a directory can be made. *)
Definition safe (z : Z) : Prop := Z.abs z < 2 ^ 53.
Definition storable (c : coding) (made : list Z -> bool) (d : desc) : Prop :=
  units (ds_name d) /\ made (ds_name d) = true /\ safe (ds_table d) /\ safe (ds_queries d) /\
  safe (Z.of_nat (ds_clients d)) /\ safe (Z.of_nat (ds_servers d)) /\
  match ds_kind d with
  | Dppir =>
      (units (co_mode_text c (ds_mode d)) /\ co_mode_code c (co_mode_text c (ds_mode d)) = ds_mode d) /\
      safe (Z.of_nat (ds_parties d)) /\ safe (Z.of_nat (ds_parallel d)) /\
      (literal (co_double_text c (ds_epsilon d)) /\ co_double_image c (co_double_text c (ds_epsilon d)) = ds_epsilon d) /\
      (literal (co_double_text c (ds_delta d)) /\ co_double_image c (co_double_text c (ds_delta d)) = ds_delta d)
  | Checklist => units (co_mode_text c (ds_mode d)) /\ co_mode_code c (co_mode_text c (ds_mode d)) = ds_mode d
  | Sealpir => True
  end.

(** The orchestrator [s'] is [s] with the experiments [ds] entered after all
    others: workers and old experiments are as they were, the new ones wait for
    workers, have the next ids and are at the end of the list and the queues. *)
Definition entered (ds : list desc) (s s' : orch) : Prop :=
  let ids := seq (List.length (or_heap s)) (List.length ds) in
  or_workers s' = or_workers s /\ or_heap s' = or_heap s ++ map new_experiment ds /\ listed s' = listed s ++ ds /\
  or_list s' = or_list s ++ ids /\
  or_clients s' = or_clients s ++ map fst (filter (fun p => 0 <? ds_clients (snd p))%nat (combine ids ds)) /\
  or_servers s' = or_servers s ++ map fst (filter (fun p => 0 <? ds_servers (snd p))%nat (combine ids ds)).

(** The site after some operations, with any files in the directory at first. *)
Definition reached (c : coding) (made : list Z -> bool) (asserts : bool) (s : site) : Prop :=
  exists fs ops, s = run c made asserts {| st_orch := or_start; st_files := fs |} ops.

(** Texts written by hand: the last member named k of the object is v; the literal
    is the decimal integer z. *)
Definition bound (l : list (list Z * json)) (k : string) (v : json) : Prop :=
  exists l1 l2, l = l1 ++ (txt k, v) :: l2 /\ ~ List.In (txt k) (map fst l2).
Inductive reads_nat : list Z -> Z -> Prop :=
| rn_one c : 48 <= c <= 57 -> reads_nat [c] (c - 48)
| rn_more t z c : reads_nat t z -> 48 <= c <= 57 -> reads_nat (t ++ [c]) (10 * z + (c - 48)).
Inductive reads_int : list Z -> Z -> Prop :=
| ri_nat t z : reads_nat t z -> reads_int t z
| ri_neg t z : reads_nat t z -> reads_int (45 :: t) (- z).
Definition bound_int (l : list (list Z * json)) (k : string) (z : Z) : Prop := exists t, bound l k (JNum t) /\ reads_int t z.
Definition bound_double (c : coding) (l : list (list Z * json)) (k : string) (z : Z) : Prop :=
  exists t, bound l k (JNum t) /\ co_double_image c t = z.
Definition bound_mode (c : coding) (l : list (list Z * json)) (k : string) (z : Z) : Prop :=
  exists t, bound l k (JStr t) /\ co_mode_code c t = z.
(** The JSON value describes the experiment [d]. *)
Definition describes (c : coding) (v : json) (d : desc) : Prop :=
  exists l, v = JObj l /\ bound l "name_" (JStr (ds_name d)) /\ bound l "experimentType" (JStr (type_text (ds_kind d))) /\
  bound_int l "tableSize" (ds_table d) /\ bound_int l "queries" (ds_queries d) /\
  match ds_kind d with
  | Dppir =>
      bound_int l "clientsNum" (Z.of_nat (ds_clients d)) /\ bound_int l "serversNum" (Z.of_nat (ds_servers d)) /\
      bound_mode c l "mode" (ds_mode d) /\ bound_int l "parties" (Z.of_nat (ds_parties d)) /\
      bound_int l "parallelism" (Z.of_nat (ds_parallel d)) /\
      bound_double c l "epsilon" (ds_epsilon d) /\ bound_double c l "delta" (ds_delta d)
  | Checklist => (ds_clients d = 1 /\ ds_servers d = 2)%nat /\ bound_mode c l "pirtype" (ds_mode d)
  | Sealpir => (ds_clients d = 1 /\ ds_servers d = 0)%nat
  end.
(** It describes none: there is no type that the program knows, or no name. *)
Definition hopeless (v : json) : Prop :=
  ~ exists l k name, v = JObj l /\ bound l "experimentType" (JStr (type_text k)) /\ bound l "name_" (JStr name).
(** The answers to "Load ...? [Y/n]" with which an experiment is left out. *)
Definition no (answer : list Z) : Prop :=
  List.In answer (map txt ["n"; "N"; "no"; "No"; "nO"; "NO"])%string.
