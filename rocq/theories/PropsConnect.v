(** C83: the processes of a deployment may be started in any order and still get
    connected, each to the right ones. *)
From Coq Require Import Permutation String.
From Verif Require Import Base BaseProofs Config MainFlags Boot BootSpec PropsBoot Connect ConnectSpec ConnectProofs ConnectScript.
Local Open Scope Z_scope.
Local Open Scope list_scope.

(** Nobody is refused before connecting, and in whatever order the calls are made,
    everyone is connected in the end and stays so. *)
Theorem C83_connected : forall file cfg name stage queries, configured file cfg name stage queries ->
  (exists todo, calls cfg name stage queries todo) /\
  forall todo who run, calls cfg name stage queries todo -> schedule cfg who todo run -> nobody_starves cfg who ->
    exists n, forall m, (n <= m)%nat -> connected cfg (run m).
Proof.
  intros file cfg name stage queries C. split; [exact (calls_exist file cfg name stage queries C)|].
  intros todo who run Hc Hs. exact (run_connected file cfg name stage queries C todo who run Hc Hs).
Qed.
Print Assumptions C83_connected.

(** At every moment of every schedule, also one that forgets someone. *)
Theorem C83_orderly : forall file cfg name stage queries todo who run n, configured file cfg name stage queries ->
  calls cfg name stage queries todo -> schedule cfg who todo run -> orderly cfg (run n).
Proof.
  intros file cfg name stage queries todo who run n C Hc Hs. exact (run_orderly file cfg name stage queries C todo who run Hc Hs n).
Qed.
Print Assumptions C83_orderly.

(** As long as not everyone is done, some process can make its next call: no two
    wait for each other. *)
Theorem C83_no_deadlock : forall file cfg name stage queries todo who run n, configured file cfg name stage queries ->
  calls cfg name stage queries todo -> schedule cfg who todo run ->
  (forall p, lk_todo (run n) p = []) \/
  exists p, (p < processes cfg)%nat /\ link_step (host cfg (servers cfg)) p (run n) <> run n.
Proof.
  intros file cfg name stage queries todo who run n C Hc Hs. exact (run_moves file cfg name stage queries C todo who run Hc Hs n).
Qed.
Print Assumptions C83_no_deadlock.

(** The order in which a server's siblings arrive is what C65 and C66 ask for. *)
Theorem C83_siblings : forall cfg st k i sv, connected cfg st -> server_of cfg k i sv ->
  exists order, map cn_said (arrivals ((k + 1) * servers cfg + i) (sv_parallel sv) st) = map (fun j => Some (Z.of_nat j)) order /\
    Permutation order (seq 0 i).
Proof.
  intros cfg st k i sv (_ & _ & H) Sv. destruct (H k i sv Sv) as (_ & Q). apply (Permutation_map snd) in Q. unfold ends in Q. rewrite !map_map in Q. cbn [snd] in Q.
  apply Permutation_map_inv in Q as (order & E & Q). exists order. split; [exact E|symmetry; exact Q].
Qed.
Print Assumptions C83_siblings.

(** Two parties with two servers each, and two clients. *)
Definition kx_todo (p : nat) : list act :=
  match main_ (command "config.txt" "all" (fun _ => 2) 2 p) (Ok (2, 2)) with
  | Ok d => match script (bx_cfg 2) d with Ok s => if (p <? 6)%nat then s else [] | _ => [] end
  | _ => []
  end.
Fixpoint kx_run (who : nat -> nat) (n : nat) : links :=
  match n with O => link_start kx_todo | S n => link_step (host (bx_cfg 2) 2) (who n) (kx_run who n) end.
Example C83_example : configured (bx_file 2) (bx_cfg 2) "config.txt" "all" (fun _ => 2) /\
  calls (bx_cfg 2) "config.txt" "all" (fun _ => 2) kx_todo /\
  (forall who, schedule (bx_cfg 2) who kx_todo (kx_run who)) /\
  nobody_starves (bx_cfg 2) (fun n => n mod 6)%nat /\ nobody_starves (bx_cfg 2) (fun n => 5 - n mod 6)%nat.
Proof.
  assert (C : configured (bx_file 2) (bx_cfg 2) "config.txt" "all" (fun _ => 2)).
  { destruct (bx_started 2 2 (or_intror eq_refl) eq_refl) as [F U Nm St _ _ _ _ _]. destruct U as [U1 U2 _ _ _ _]. constructor; auto; try lia; eauto. apply C66_example. }
  assert (E6 : processes (bx_cfg 2) = 6%nat) by reflexivity.
  split; [exact C|]. split; [|split; [|split]].
  - intros p. rewrite E6. split.
    + intros Hp. destruct p as [|[|[|[|[|[|p]]]]]]; [| | | | | |lia]; (eexists; split; [vm_compute; reflexivity|vm_compute; reflexivity]).
    + intros Hp. unfold kx_todo. rewrite (proj2 (Nat.ltb_ge _ _) Hp). destruct (main_ _ _); try reflexivity. destruct (script _ _); reflexivity.
  - intros who. split; reflexivity.
  - intros p Hp n. rewrite E6 in Hp. exists (n * 6 + p)%nat. split; [lia|]. rewrite Nat.add_comm, Nat.mod_add, Nat.mod_small by lia. reflexivity.
  - intros p Hp n. rewrite E6 in Hp. exists (n * 6 + (5 - p))%nat. split; [lia|]. rewrite Nat.add_comm, Nat.mod_add, Nat.mod_small by lia. lia.
Qed.
(** How many calls everyone makes and has left: none after some rounds, in two orders. *)
Example C83_example_run :
  map (fun q => List.length (kx_todo q)) (seq 0 6) = [1; 1; 5; 6; 4; 5]%nat /\
  map (fun q => List.length (lk_todo (kx_run (fun n => n mod 6)%nat 7) q)) (seq 0 6) <> [0; 0; 0; 0; 0; 0]%nat /\
  map (fun q => List.length (lk_todo (kx_run (fun n => n mod 6)%nat 40) q)) (seq 0 6) = [0; 0; 0; 0; 0; 0]%nat /\
  map (fun q => List.length (lk_todo (kx_run (fun n => 5 - n mod 6)%nat 60) q)) (seq 0 6) = [0; 0; 0; 0; 0; 0]%nat /\
  List.length (lk_conns (kx_run (fun n => n mod 6)%nat 40)) = 6%nat.
Proof. vm_compute. repeat split; discriminate. Qed.
