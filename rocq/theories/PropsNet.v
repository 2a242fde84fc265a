(** Theorems about the blocking exchanges of client, parties and backend. *)
From Verif Require Import Base Net NetProofs NetChain.

Definition total_actions (P : nat) (z : sizes) (offline online : bool) : nat :=
  list_sum (map (fun p => length (deployment_prog P z offline online p)) (seq 0 (S (S P)))).

Lemma chain_bound P z offline online cap tr : run chan_eqb cap (deployment_prog P z offline online) tr ->
  (length tr <= total_actions P z offline online)%nat.
Proof.
  intros R. apply chain_run in R. destruct (chain_owned_events P z offline online) as [_ F].
  pose proof (run_bounded chan_eqb cap _ _ (S (S P)) F R) as B.
  rewrite (length_projs (S (S P)) _ F) in B. unfold total_actions.
  erewrite map_ext; [exact B|]. intros p. cbv beta. rewrite chain_proj. reflexivity.
Qed.

(** C53: an interleaving that has not finished can continue, whatever the
    capacities of the channels. *)
Theorem C53_no_deadlock : forall P z offline online cap tr, (forall c, (1 <= cap c)%nat) ->
  run chan_eqb cap (deployment_prog P z offline online) tr ->
  finished (deployment_prog P z offline online) tr \/
  exists e, run chan_eqb cap (deployment_prog P z offline online) (tr ++ [e]).
Proof.
  intros P z offline online cap tr Hc R. apply chain_run in R.
  destruct (choreography_progress chan_eqb chan_eqb_spec cap _ _ Hc (chain_owned P z offline online)
              (proj1 (chain_balanced P z offline online)) R) as [H|[e H]].
  - left. intros p. rewrite H. apply chain_proj.
  - right. exists e. apply chain_run. exact H.
Qed.
Print Assumptions C53_no_deadlock.

(** C53: and it cannot continue forever: every interleaving can be completed,
    and none has more steps than the programs have actions. *)
Theorem C53_completes : forall P z offline online cap tr, (forall c, (1 <= cap c)%nat) ->
  run chan_eqb cap (deployment_prog P z offline online) tr ->
  (length tr <= total_actions P z offline online)%nat /\
  exists rest, run chan_eqb cap (deployment_prog P z offline online) (tr ++ rest) /\
    finished (deployment_prog P z offline online) (tr ++ rest).
Proof.
  intros P z offline online cap tr Hc R. split; [eapply chain_bound; exact R|].
  remember (total_actions P z offline online - length tr)%nat as n eqn:En.
  assert (Hn : (total_actions P z offline online - length tr <= n)%nat) by lia. clear En.
  revert tr R Hn. induction n; intros tr R Hn.
  - destruct (C53_no_deadlock P z offline online cap tr Hc R) as [F|[e R']].
    + exists []. rewrite app_nil_r. auto.
    + apply chain_bound in R'. rewrite app_length in R'. cbn [length] in R'. lia.
  - destruct (C53_no_deadlock P z offline online cap tr Hc R) as [F|[e R']].
    + exists []. rewrite app_nil_r. auto.
    + destruct (IHn (tr ++ [e]) R') as (rest & R'' & F).
      * rewrite app_length. cbn [length]. lia.
      * exists (e :: rest). rewrite <- app_assoc in *. auto.
Qed.
Print Assumptions C53_completes.

(** C53: whenever an entity reads, the unit it gets is of the kind it expects
    (a count, a ready byte, a cipher, a query, a response), and at the end no
    unread data is left in any connection. *)
Theorem C53_aligned : forall P z offline online cap tr p c m,
  run chan_eqb cap (deployment_prog P z offline online) (tr ++ [(p, Rcv c m)]) ->
  nth_error (sends chan_eqb c tr) (length (recvs chan_eqb c tr)) = Some m.
Proof.
  intros P z offline online cap tr p c m R. apply chain_run in R.
  eapply choreography_aligned; [apply chan_eqb_spec|apply chain_owned|exact (proj2 (chain_balanced P z offline online))|exact R].
Qed.
Print Assumptions C53_aligned.
Theorem C53_nothing_left : forall P z offline online cap tr,
  run chan_eqb cap (deployment_prog P z offline online) tr -> finished (deployment_prog P z offline online) tr ->
  forall c, sends chan_eqb c tr = recvs chan_eqb c tr.
Proof.
  intros P z offline online cap tr R F c. destruct (chain_sends P z offline online cap tr c R) as [-> ->].
  rewrite !F, <- !chain_proj. destruct (chain_owner P z offline online c) as [Os Or].
  rewrite <- (sends_owner chan_eqb chan_eqb_spec _ _ _ Os), <- (recvs_owner chan_eqb chan_eqb_spec _ _ _ Or).
  apply (proj2 (chain_balanced P z offline online)).
Qed.
Print Assumptions C53_nothing_left.

(** C54: when the client sends an offline cipher, every party and the backend
    have allocated their batches. *)
Theorem C54_first_cipher : forall P z online cap tr,
  run chan_eqb cap (deployment_prog P z true online) (tr ++ [(0%nat, Snd (Fwd 0) KCipher)]) ->
  forall k, (1 <= k <= S P)%nat -> In (k, Loc Allocated) tr.
Proof.
  intros P z online cap tr R. inversion R as [|tr0 p0 a0 R0 N En Eq]; [destruct tr; discriminate|].
  apply app_inj_tail in Eq as [-> Eq]. injection Eq as -> ->.
  eapply (milestone P z true online cap tr 0 Allocated R0); [intros; apply alloc_split; assumption|].
  change 1%nat with (length (precvs chan_eqb (Bwd 0) (connect_to 0 ++ [Snd (Fwd 0) KCount; Rcv (Bwd 0) KReady] : list action))).
  eapply client_before; [exact R| |].
  - unfold deployment_prog, client_prog. cbn [Nat.eqb app connect_to]. reflexivity.
  - cbn. intuition discriminate.
Qed.
Print Assumptions C54_first_cipher.

(** C54: when the client sends an online query, every party and the backend
    have finished the offline stage (real or simulated). *)
Theorem C54_first_query : forall P z offline cap tr,
  run chan_eqb cap (deployment_prog P z offline true) (tr ++ [(0%nat, Snd (Fwd 0) KQuery)]) ->
  forall k, (1 <= k <= S P)%nat -> In (k, Loc OfflineDone) tr.
Proof.
  intros P z offline cap tr R. inversion R as [|tr0 p0 a0 R0 N En Eq]; [destruct tr; discriminate|].
  apply app_inj_tail in Eq as [-> Eq]. injection Eq as -> ->.
  eapply (milestone P z offline true cap tr (if offline then 1 else 0) OfflineDone R0); [intros; apply done_split; assumption|].
  assert (E : deployment_prog P z offline true 0 =
     (connect_to 0 ++ (if offline then [Snd (Fwd 0) KCount; Rcv (Bwd 0) KReady] ++ repeat (Snd (Fwd 0) KCipher) (z_cipher z 0) ++ [Rcv (Bwd 0) KReady]
        else [Snd (Fwd 0) KCount; Rcv (Bwd 0) KReady])) ++
     (repeat (Snd (Fwd 0) KQuery) (z_query z 0) ++ repeat (Rcv (Bwd 0) KResponse) (z_response z 0))).
  { unfold deployment_prog, client_prog. cbn [Nat.eqb]. rewrite app_assoc. reflexivity. }
  pose proof (client_before P z offline true cap tr _ _ _ R E) as H.
  etransitivity; [|apply H].
  - destruct offline; count_simpl; lia.
  - destruct offline.
    + rewrite !in_app_iff. intros [Hi|[Hi|[Hi|Hi]]]; try (cbn in Hi; intuition discriminate).
      apply repeat_spec in Hi. discriminate.
    + rewrite !in_app_iff. intros [Hi|Hi]; cbn in Hi; intuition discriminate.
Qed.
Print Assumptions C54_first_query.

(** Two parties, three messages per link: a complete interleaving exists, it
    contains cipher and query sends, and the premises of C54 are met. *)
Definition net_z : sizes := {| z_cipher := fun _ => 3%nat; z_query := fun _ => 3%nat; z_response := fun _ => 3%nat |}.
Example C53_example : exists tr, run chan_eqb (fun _ => 1%nat) (deployment_prog 2 net_z true true) tr /\
  finished (deployment_prog 2 net_z true true) tr /\ In (0%nat, Snd (Fwd 0) KQuery) tr /\ In (0%nat, Snd (Fwd 0) KCipher) tr.
Proof.
  destruct (C53_completes 2 net_z true true (fun _ => 1%nat) [] (fun _ => le_n 1) ltac:(constructor)) as [_ (tr & R & F)].
  cbn [app] in *. exists tr. split; [exact R|]. split; [exact F|].
  split; apply in_proj; rewrite F; cbn; tauto.
Qed.
(** The pipeline is not degenerate: a deployment whose two sides disagree on
    the stage (client simulates the offline stage, the others run it) gets stuck. *)
Example C53_mismatch : exists tr,
  let prog := fun p => if (p =? 0)%nat then client_prog net_z false true else deployment_prog 1 net_z true true p in
  run chan_eqb (fun _ => 9%nat) prog tr /\ nth_error (sends chan_eqb (Fwd 0) tr) (length (recvs chan_eqb (Fwd 0) tr)) = Some KQuery /\
  nth_error (prog 1%nat) (length (proj 1 tr)) = Some (Rcv (Fwd 0) KCipher).
Proof.
  exists [(1, Snd (Lis 0) KListen); (0, Rcv (Lis 0) KListen); (0, Snd (Con 0) KConnect); (1, Rcv (Con 0) KConnect);
     (2, Snd (Lis 1) KListen); (1, Rcv (Lis 1) KListen); (1, Snd (Con 1) KConnect); (2, Rcv (Con 1) KConnect);
     (0, Snd (Fwd 0) KCount); (1, Rcv (Fwd 0) KCount); (1, Snd (Fwd 1) KCount); (2, Rcv (Fwd 1) KCount);
     (1, Loc Allocated); (2, Loc Allocated); (2, Snd (Bwd 1) KReady); (1, Rcv (Bwd 1) KReady); (1, Snd (Bwd 0) KReady);
     (0, Rcv (Bwd 0) KReady); (0, Snd (Fwd 0) KQuery)]%nat.
  cbv zeta. split; [|split; reflexivity].
  repeat match goal with |- run _ ?cap ?prog (?x :: ?t) =>
    let l := constr:(x :: t) in let l' := eval cbn in (removelast l) in let y := eval cbn in (last l x) in
    change l with (l' ++ [y]); apply run_snoc; [|reflexivity|first [exact I | cbn; lia]] end.
  constructor.
Qed.
