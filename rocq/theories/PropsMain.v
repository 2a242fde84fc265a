(** Theorems about the command line and about client tags. *)
From Coq Require Import String.
From Verif Require Import Base Wire Additive Handlers State Spec StateProofs MainFlags Toy.

(** Specification of the documented command line.  [wants f off on]: the stage
    flag is one of the three known words and selects these stages. *)
Definition wants (f : flags) (off on : bool) : Prop :=
  (fl_stage f = "offline" /\ off = true /\ on = false \/
   fl_stage f = "online" /\ off = false /\ on = true \/
   fl_stage f = "all" /\ off = true /\ on = true)%string.
Definition valid_client (f : flags) (servers parties : Z) : Prop :=
  fl_role f = "client"%string /\ fl_config f <> ""%string /\ 0 <= fl_server f < servers /\
  0 <= fl_queries f /\ fl_party f < parties.
Definition valid_party (f : flags) (servers parties : Z) : Prop :=
  fl_role f = "party"%string /\ fl_config f <> ""%string /\ 0 <= fl_server f < servers /\
  0 <= fl_party f < parties.

Definition run_of (f : flags) (servers parties : Z) (off on : bool) (d : decision) : Prop :=
  (valid_client f servers parties /\ d = RunClient (fl_server f) (fl_queries f mod 2 ^ 32) off on) \/
  (valid_party f servers parties /\
    ((fl_party f = parties - 1 /\ d = RunBackend (fl_server f) off on) \/
     (fl_party f < parties - 1 /\ servers = 1 /\ d = RunParty (fl_party f) (fl_server f) off on) \/
     (fl_party f < parties - 1 /\ servers <> 1 /\ d = RunParallelParty (fl_party f) (fl_server f) off on))).

Ltac str := repeat match goal with
  | H : String.eqb ?a ?b = true |- _ => apply String.eqb_eq in H
  | H : String.eqb ?a ?b = false |- _ => apply String.eqb_neq in H
  end.

(** C55: a role is run exactly when the flags are valid, and then it is the
    documented one with the documented arguments; otherwise exit code 1. *)
Theorem C55_command_line : forall f servers parties, u8 servers -> u8 parties ->
  exists d, main_ f (Ok (servers, parties)) = Ok d /\
    (d <> Exit1 <-> exists off on, wants f off on /\ (valid_client f servers parties \/ valid_party f servers parties)) /\
    (d <> Exit1 -> exists off on, wants f off on /\ run_of f servers parties off on d).
Proof.
  intros f servers parties Us Up. unfold u8 in *. unfold main_, flags_rejected, wants, run_of, valid_client, valid_party.
  assert (W8 : forall z m, 0 <= z < m -> m < 2 ^ 8 -> w8 z = z) by (intros; unfold w8; apply Z.mod_small; lia).
  destruct (fl_config f =? "")%string eqn:E1; cbn [orb].
  { eexists. split; [reflexivity|]. str. split; [|congruence]. split; [congruence|]. intros (off & on & _ & [H|H]); tauto. }
  destruct (fl_stage f =? "")%string eqn:E2; cbn [orb].
  { eexists. split; [reflexivity|]. str. rewrite E2. split; [|congruence]. split; [congruence|].
    intros (off & on & [H|[H|H]] & _); destruct H as [H _]; discriminate H. }
  destruct (fl_role f =? "client")%string eqn:E4; str.
  - rewrite E4. cbn [String.eqb Ascii.eqb Bool.eqb andb negb orb].
    destruct (fl_stage f =? "online")%string eqn:S1, (fl_stage f =? "offline")%string eqn:S2, (fl_stage f =? "all")%string eqn:S3;
      str; try congruence; cbn [andb negb orb].
    all: destruct (fl_queries f <? 0) eqn:Q, (fl_server f <? 0) eqn:V; cbn [andb negb orb bind];
      try (destruct (fl_server f >=? servers) eqn:V2; [|destruct (fl_party f >=? parties) eqn:V3]);
      (eexists; split; [reflexivity|]); split;
      (* exit cases *)
      try congruence;
      try (split; [congruence|]; intros (off & on & W & [H|H]);
           [try lia; intuition (try congruence; lia)|destruct H as [H _]; discriminate H]).
    all: try (split; [intros _; do 2 eexists; split; [|left; split; [reflexivity|]; split; [exact E1|]; lia]; intuition eauto|intros _; discriminate]).
    all: try (intros _; rewrite (W8 _ servers) by lia; unfold w32; do 2 eexists; split; [|left; split; [split; [reflexivity|]; split; [exact E1|]; lia|reflexivity]]; intuition eauto).
  - destruct (fl_role f =? "party")%string eqn:E5; str.
    2:{ destruct (fl_stage f =? "online")%string, (fl_stage f =? "offline")%string, (fl_stage f =? "all")%string; cbn [andb negb orb].
        all: destruct (fl_role f =? "")%string; cbn [andb negb orb].
        all: eexists; split; [reflexivity|]; split; [|congruence]; split; [congruence|].
        all: intros (off & on & _ & [[H _]|[H _]]); contradiction. }
    rewrite E5. cbn [String.eqb Ascii.eqb Bool.eqb andb negb orb].
    destruct (fl_stage f =? "online")%string eqn:S1, (fl_stage f =? "offline")%string eqn:S2, (fl_stage f =? "all")%string eqn:S3;
      str; try congruence; cbn [andb negb orb].
    all: destruct (fl_party f <? 0) eqn:Q, (fl_server f <? 0) eqn:V; cbn [andb negb orb bind];
      try (destruct (fl_server f >=? servers) eqn:V2; [|destruct (fl_party f >=? parties) eqn:V3;
        [|destruct (fl_party f <? parties - 1) eqn:V4; [destruct (servers =? 1) eqn:V5|]]]);
      (eexists; split; [reflexivity|]); split;
      try congruence;
      try (split; [congruence|]; intros (off & on & W & [H|H]);
           [destruct H as [H _]; discriminate H|try lia; intuition (try congruence; lia)]).
    all: try (split; [intros _; do 2 eexists; split; [|right; split; [reflexivity|]; split; [exact E1|]; lia]; intuition eauto|intros _; discriminate]).
    all: intros _; rewrite ?(W8 (fl_server f) servers), ?(W8 (fl_party f) parties) by lia; do 2 eexists;
         (split; [|right; split; [split; [reflexivity|]; split; [exact E1|]; lia|]]);
         [|first [left; split; [lia|reflexivity] | right; left; split; [lia|]; split; [lia|reflexivity] | right; right; split; [lia|]; split; [lia|reflexivity]]].
    all: intuition eauto.
Qed.
Print Assumptions C55_command_line.
(** Flags that are invalid on their own are rejected before the configuration
    file is opened. *)
Theorem C55_before_config : forall f, (forall off on, ~ wants f off on) \/ fl_config f = ""%string \/ fl_server f < 0 \/
    (fl_role f <> "client" /\ fl_role f <> "party")%string \/
    (fl_role f = "party"%string /\ fl_party f < 0) \/ (fl_role f = "client"%string /\ fl_queries f < 0) ->
  forall cfg, main_ f cfg = Ok Exit1.
Proof.
  intros f H cfg. unfold main_. enough (flags_rejected f = true) as -> by reflexivity. unfold flags_rejected, wants in *.
  destruct H as [H|[H|[H|[H|[H|H]]]]].
  - destruct (fl_stage f =? "online")%string eqn:S1; [str; exfalso; eapply (H false true); tauto|].
    destruct (fl_stage f =? "offline")%string eqn:S2; [str; exfalso; eapply (H true false); tauto|].
    destruct (fl_stage f =? "all")%string eqn:S3; [str; exfalso; eapply (H true true); tauto|].
    cbn [negb andb]. rewrite !orb_true_r. reflexivity.
  - rewrite H. reflexivity.
  - replace (fl_server f <? 0) with true by lia. apply orb_true_r.
  - destruct H as [H1 H2]. apply String.eqb_neq in H1, H2. rewrite H1, H2. cbn [negb andb]. rewrite !orb_true_r. reflexivity.
  - destruct H as [H1 H2]. rewrite H1. replace (fl_party f <? 0) with true by lia.
    replace ("party" =? "party")%string with true by reflexivity. cbn [andb]. rewrite !orb_true_r. reflexivity.
  - destruct H as [H1 H2]. rewrite H1. replace (fl_queries f <? 0) with true by lia.
    replace ("client" =? "client")%string with true by reflexivity. cbn [andb]. rewrite !orb_true_r. reflexivity.
Qed.
Print Assumptions C55_before_config.
Example C55_example :
  main_ {| fl_role := "client"; fl_stage := "all"; fl_config := "c"; fl_server := 1; fl_party := -1; fl_queries := 2 ^ 32 + 5 |}
    (Ok (2, 3)) = Ok (RunClient 1 5 true true) /\
  main_ {| fl_role := "party"; fl_stage := "online"; fl_config := "c"; fl_server := 0; fl_party := 2; fl_queries := -1 |}
    (Ok (2, 3)) = Ok (RunBackend 0 false true) /\
  main_ {| fl_role := "party"; fl_stage := "online"; fl_config := "c"; fl_server := 0; fl_party := 3; fl_queries := -1 |}
    (Ok (2, 3)) = Ok Exit1.
Proof. repeat split. Qed.

(** ** Client tags *)

(** The tags of all clients; client s issues [q s] queries. *)
Definition all_client_tags (clients : nat) (q : nat -> nat) : list Z :=
  flat_map (fun s => map (fun i => client_sample_tag (Z.of_nat s) (Z.of_nat (q s)) (Z.of_nat i)) (seq 0 (q s))) (seq 0 clients).

Lemma map_shift (k n : nat) : map (fun i => Z.of_nat (k + i)) (seq 0 n) = map Z.of_nat (seq k n).
Proof.
  assert (G : forall n k a, map (fun i => Z.of_nat (k + i)) (seq a n) = map Z.of_nat (seq (k + a) n)).
  { clear. induction n; intros k a; [reflexivity|]. cbn [seq map]. f_equal. rewrite IHn.
    replace (k + S a)%nat with (S (k + a)) by lia. reflexivity. }
  rewrite G. f_equal. f_equal. lia.
Qed.

(** C41: with equal counts the tags are 0, 1, ..., clients*q-1. *)
Theorem C41_equal_counts : forall clients q, Z.of_nat (clients * q) <= 2 ^ 32 ->
  all_client_tags clients (fun _ => q) = map Z.of_nat (seq 0 (clients * q)) /\
  NoDup (all_client_tags clients (fun _ => q)).
Proof.
  intros n q H.
  assert (E : all_client_tags n (fun _ => q) = map Z.of_nat (seq 0 (n * q))).
  { revert H. unfold all_client_tags. induction n; intros H; [reflexivity|].
    rewrite seq_S, flat_map_app, IHn by lia. cbn [flat_map]. rewrite app_nil_r.
    replace (S n * q)%nat with (n * q + q)%nat by lia. rewrite seq_app, map_app. f_equal.
    rewrite Nat.add_0_l, <- map_shift. apply map_ext_in. intros i Hi. apply in_seq in Hi.
    unfold client_sample_tag, w32. rewrite (Z.mod_small (_ * _)) by lia. rewrite Z.mod_small by lia. lia. }
  split; [exact E|]. rewrite E. apply FinFun.Injective_map_NoDup; [intros x y; lia|apply seq_NoDup].
Qed.
Print Assumptions C41_equal_counts.

(** Exactly when do two clients use a common tag (while nothing exceeds 32
    bits)?  When the intervals [a*qa, a*qa+qa) and [b*qb, b*qb+qb) overlap. *)
Theorem C41_collision_iff : forall a qa b qb, 0 <= a -> 0 <= b -> 0 < qa -> 0 < qb ->
  (a + 1) * qa <= 2 ^ 32 -> (b + 1) * qb <= 2 ^ 32 ->
  ((exists i j, 0 <= i < qa /\ 0 <= j < qb /\ client_sample_tag a qa i = client_sample_tag b qb j) <->
   (a * qa < (b + 1) * qb /\ b * qb < (a + 1) * qa)).
Proof.
  intros a qa b qb Ha Hb Hqa Hqb Fa Fb.
  assert (T : forall s q i, 0 <= s -> 0 < q -> (s + 1) * q <= 2 ^ 32 -> 0 <= i < q -> client_sample_tag s q i = s * q + i).
  { intros s q i Hs Hq F Hi. unfold client_sample_tag, w32. rewrite (Z.mod_small (_ * _)) by nia. apply Z.mod_small. nia. }
  split.
  - intros (i & j & Hi & Hj & E). rewrite !T in E by assumption. nia.
  - intros [H1 H2]. destruct (Z_le_gt_dec (a * qa) (b * qb)).
    + exists (b * qb - a * qa), 0. split; [nia|]. split; [lia|]. rewrite !T by nia. lia.
    + exists 0, (a * qa - b * qb). split; [lia|]. split; [nia|]. rewrite !T by nia. lia.
Qed.
Print Assumptions C41_collision_iff.

(** Every secret a client makes carries that tag at every party. *)
Theorem C41_secret_tags : forall server q parties r st i secrets st',
  client_make_secret server q parties r st i = Ok (secrets, st') ->
  forall o, In o secrets -> o_tag o = client_sample_tag server q (Z.of_nat i) /\ o_next o = client_sample_tag server q (Z.of_nat i).
Proof.
  intros server q parties r st i secrets st' H o Ho. unfold client_make_secret in H.
  destruct (generate_additive_secret_shares _ _) as [pres| | |]; cbn [bind] in H; try discriminate.
  destruct (secret_loop _ _ _ _ _ _) as [[ss t]| | |] eqn:E; cbn [bind] in H; try discriminate.
  destruct (at_ pres parties); cbn [bind] in H; try discriminate.
  destruct (cs_add _ _ _ _); cbn [bind] in H; try discriminate. injection H as <- <-. cbn [fst] in Ho.
  revert E Ho. generalize (client_sample_tag server q (Z.of_nat i)) as tg. generalize (Incremental.pre_incremental_secret_shares (rn_x r i) (rn_y r i) parties) as incs.
  intros incs tg. generalize 0%nat as k. revert ss t. generalize parties as n. clear. induction n; intros ss t k E Ho.
  - injection E as <- <-. destruct Ho.
  - cbn [secret_loop] in E. destruct (at_ incs k); cbn [bind] in E; try discriminate.
    destruct (at_ pres k); cbn [bind] in E; try discriminate.
    destruct (secret_loop _ _ _ _ _ _) as [[ss' t']| | |] eqn:E'; cbn [bind] in E; try discriminate.
    injection E as <- <-. destruct Ho as [<-|Ho]; [split; reflexivity|]. eapply IHn; eauto.
Qed.
Print Assumptions C41_secret_tags.

(** If two clients share a tag, a store receiving all their secrets aborts. *)
Theorem C41_collision_aborts : forall clients q (secrets : list osecret),
  ~ NoDup (all_client_tags clients q) -> map o_tag secrets = all_client_tags clients q ->
  install_all true (qs_initialize_state qs_new false) secrets = Abort /\
  install_all_backend true (qs_initialize_state qs_new false) secrets = Abort.
Proof. intros n q l H E. apply c38_dup. rewrite E. exact H. Qed.
Print Assumptions C41_collision_aborts.

(** Three clients with 3, 2 and 1 queries collide; with equal counts they do not. *)
Example C41_example :
  all_client_tags 3 (fun s => 3 - s)%nat = [0; 1; 2; 2; 3; 2] /\ ~ NoDup (all_client_tags 3 (fun s => 3 - s)%nat) /\
  map o_tag (map toy_secret (all_client_tags 3 (fun s => 3 - s)%nat)) = all_client_tags 3 (fun s => 3 - s)%nat /\
  all_client_tags 3 (fun _ => 2%nat) = [0; 1; 2; 3; 4; 5].
Proof.
  repeat split. change (~ NoDup [0; 1; 2; 2; 3; 2]). intros H. apply (NoDup_remove_2 [0; 1] [2; 3; 2] 2) in H. apply H. cbn. tauto.
Qed.
