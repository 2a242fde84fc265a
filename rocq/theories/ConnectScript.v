(** The calls that the processes of a configuration make, and what follows for them. *)
From Coq Require Import Permutation String.
From Verif Require Import Base BaseProofs Config MainFlags ParRules Boot BootSpec BootProofs Connect ConnectSpec ConnectProofs.
Local Open Scope Z_scope.
Local Open Scope list_scope.

Section Cfg.
  Variables (file : list Z) (cfg : config) (name stage : string) (queries : nat -> Z).
  Hypothesis C : configured file cfg name stage queries.
  Local Notation N := (servers cfg).
  Local Notation all := (processes cfg).
  Definition svq (q : nat) : Config.sconf := nth (q mod N) (pc_servers (nth (q / N - 1) (cg_parties cfg) no_pc)) no_sv.
  Definition ipq (q : nat) : list Z := sv_ip (svq q).
  Definition ptq (b : bool) (q : nat) : Z := if b then sv_parallel (svq q) else sv_port (svq q).
  Local Notation P := (Z.to_nat (cg_parties_n cfg)).

  Lemma sizes : (1 <= N <= 255)%nat /\ (2 <= P <= 255)%nat /\ cg_servers_n cfg = Z.of_nat N /\ cg_parties_n cfg = Z.of_nat P /\ List.length (cg_parties cfg) = P /\
    Forall (fun p => List.length (pc_servers p) = N) (cg_parties cfg).
  Proof using All.
    destruct C as [(a & F) Hp Hs _ _ _ _]. destruct (file_shape a file cfg F) as (_ & U1 & U2 & L & FL). unfold u8, servers in *. repeat split; try lia; auto.
  Qed.
  Lemma all_shape : exists P', all = ((P' + 1) * N)%nat /\ (1 <= P')%nat.
  Proof using All. exists P. destruct sizes as (_ & H & _). split; [reflexivity|lia]. Qed.
  Lemma place q : (N <= q < all)%nat -> exists k i, (k < P)%nat /\ (i < N)%nat /\ q = ((k + 1) * N + i)%nat /\ (q / N = k + 1)%nat /\ (q mod N = i)%nat /\ server_of cfg k i (svq q).
  Proof using All.
    intros Hq. destruct sizes as (HN & HP & _ & _ & L & F). unfold processes in Hq. exists (q / N - 1)%nat, (q mod N)%nat. pose proof (Nat.div_mod q N ltac:(lia)) as E. pose proof (Nat.mod_upper_bound q N ltac:(lia)) as Hu.
    assert (H1 : (1 <= q / N)%nat) by (apply Nat.div_le_lower_bound; lia). assert (H2 : (q / N < P + 1)%nat) by (apply Nat.div_lt_upper_bound; lia).
    assert (Hn : nth_error (cg_parties cfg) (q / N - 1) = Some (nth (q / N - 1) (cg_parties cfg) no_pc)) by (apply nth_error_nth'; lia).
    repeat split; try lia; try nia. eexists. split; [exact Hn|]. apply nth_error_nth'. rewrite Forall_forall in F. rewrite (F _ (nth_error_In _ _ Hn)). lia.
  Qed.
  Lemma at_place k i : (k < P)%nat -> (i < N)%nat -> (N <= (k + 1) * N + i < all)%nat /\ (((k + 1) * N + i) / N = k + 1)%nat /\ (((k + 1) * N + i) mod N = i)%nat.
  Proof using All.
    intros Hk Hi. unfold processes. split; [nia|]. split; [symmetry; apply (Nat.div_unique _ N _ i); lia|symmetry; apply (Nat.mod_unique _ N (k + 1)%nat); lia].
  Qed.
  Lemma server_at k i sv : server_of cfg k i sv -> (k < P)%nat /\ (i < N)%nat /\ sv = svq ((k + 1) * N + i).
  Proof using All.
    intros (pc & H1 & H2). destruct sizes as (HN & HP & _ & _ & L & F). assert (Hk : (k < P)%nat) by (rewrite <- L; apply nth_error_Some; congruence).
    rewrite Forall_forall in F. assert (Hi : (i < N)%nat) by (rewrite <- (F pc (nth_error_In _ _ H1)); apply nth_error_Some; congruence).
    split; [exact Hk|]. split; [exact Hi|]. destruct (at_place k i Hk Hi) as (_ & E1 & E2). unfold svq. rewrite E1, E2. replace (k + 1 - 1)%nat with k by lia.
    rewrite (nth_error_nth _ _ no_pc H1). symmetry. apply nth_error_nth. exact H2.
  Qed.
  Lemma hosts q : (N <= q < all)%nat -> host cfg N q = Some (ipq q).
  Proof using All.
    intros Hq. destruct (place q Hq) as (k & i & Hk & Hi & E & E1 & E2 & pc & H1 & H2). unfold host. rewrite E1, E2. replace (k + 1)%nat with (S k) by lia. rewrite H1, H2. reflexivity.
  Qed.
  Lemma apart b q b' q' : (N <= q < all)%nat -> (N <= q' < all)%nat -> ipq q = ipq q' -> ptq b q = ptq b' q' -> b = b' /\ q = q'.
  Proof using All.
    intros Hq Hq' Ei Ep. destruct (place q Hq) as (k & i & Hk & Hi & E & _ & _ & pc & H1 & H2). destruct (place q' Hq') as (k' & i' & Hk' & Hi' & E' & _ & _ & pc' & H1' & H2').
    pose proof (cn_addresses _ _ _ _ _ C) as H. unfold addresses in H. set (f := fun sv : Config.sconf => [(sv_ip sv, sv_port sv); (sv_ip sv, sv_parallel sv)]) in *.
    assert (I1 : List.In (ipq q, ptq b q) (f (svq q))) by (unfold ptq; destruct b; cbn; auto). assert (I2 : List.In (ipq q, ptq b q) (f (svq q'))) by (rewrite Ei, Ep; unfold ptq; destruct b'; cbn; auto).
    assert (Ek : k = k').
    { refine (nodup_flat_at _ _ H k k' _ _ (ipq q, ptq b q) H1 H1' _ _); apply in_flat_map.
      - exists (svq q). split; [eapply nth_error_In; exact H2|exact I1].
      - exists (svq q'). split; [eapply nth_error_In; exact H2'|exact I2]. }
    subst k'. assert (pc' = pc) by congruence. subst pc'. pose proof (nodup_flat_in _ _ _ H (nth_error_In _ _ H1)) as G.
    pose proof (nodup_flat_at _ _ G i i' _ _ _ H2 H2' I1 I2) as Ei'. subst i'. assert (q = q') by lia. split; [|assumption]. subst q'.
    pose proof (nodup_flat_in _ _ _ G (nth_error_In _ _ H2)) as G2. cbn in G2. inversion G2 as [|? ? X _]. unfold ptq in Ep. destruct b, b'; auto; exfalso; apply X; left; congruence.
  Qed.

  Local Notation script_of := (scr N all ipq ptq).
  Lemma siblings_are k i pc : nth_error (cg_parties cfg) k = Some pc -> (k < P)%nat -> (i < N)%nat ->
    sibling_script pc (Z.of_nat i) (cg_servers_n cfg) = Ok (up N ptq ((k + 1) * N + i) ++ down N ipq ptq ((k + 1) * N + i)).
  Proof using All.
    intros Hpc Hk Hi. destruct sizes as (HN & HP & EN & EP & L & F). rewrite Forall_forall in F. pose proof (F pc (nth_error_In _ _ Hpc)) as Lpc.
    assert (Hsv : forall j, (j < N)%nat -> nth_error (pc_servers pc) j = Some (svq ((k + 1) * N + j))).
    { intros j Hj. destruct (at_place k j Hk Hj) as (_ & E1 & E2). unfold svq. rewrite E1, E2. replace (k + 1 - 1)%nat with k by lia. rewrite (nth_error_nth _ _ no_pc Hpc). apply nth_error_nth'. lia. }
    destruct (at_place k i Hk Hi) as (_ & E1 & E2). unfold sibling_script, get. rewrite !Nat2Z.id.
    assert (U : (if 0 <? Z.of_nat i then let* sv := match nth_error (pc_servers pc) i with Some a => Ok a | None => UB end in
        Ok (Listen (sv_parallel sv) :: repeat (Accept (sv_parallel sv)) i ++ map (fun j => Hear (sv_parallel sv) j (Z.of_nat i)) (seq 0 i)) else Ok []) = Ok (up N ptq ((k + 1) * N + i))).
    { unfold up. rewrite E2, (Hsv i Hi). destruct (Z.ltb_spec 0 (Z.of_nat i)), (Nat.ltb_spec 0 i); try lia; reflexivity. }
    rewrite U. cbn [bind]. rewrite w8_id by (unfold u8; lia). rewrite EN. replace (Z.to_nat (Z.of_nat N - Z.of_nat i) - 1)%nat with (N - 1 - i)%nat by lia.
    rewrite (map_res_Ok _ (fun d => [Dial (ipq ((k + 1) * N + i + d)) (ptq true ((k + 1) * N + i + d)); Greet (Z.of_nat i)])).
    - cbn [bind]. unfold down. rewrite E2, <- flat_map_concat_map. reflexivity.
    - intros d Hd. apply in_seq in Hd. rewrite (Hsv (i + d)%nat) by lia. cbn [bind]. rewrite Nat.add_assoc. reflexivity.
  Qed.
  Lemma call_of p : (p < all)%nat -> exists d, main_ (command name stage queries N p) (Ok (cg_servers_n cfg, cg_parties_n cfg)) = Ok d /\ script cfg d = Ok (script_of p).
  Proof using All.
    intros Lp. destruct sizes as (HN & HP & EN & EP & L & F). destruct C as [_ Hpn Hsn _ Hn (off & on & Hst) Hq]. unfold command. pose proof (Nat.mod_upper_bound p N ltac:(lia)) as Hu. pose proof (Nat.div_mod p N ltac:(lia)) as Ep.
    assert (Hat : forall k, (k < P)%nat -> exists pc, nth_error (cg_parties cfg) k = Some pc /\ nth_error (pc_servers pc) (p mod N) = Some (svq ((k + 1) * N + p mod N))).
    { intros k Hk. destruct (at_place k (p mod N) Hk Hu) as (R & E1 & E2). destruct (place _ R) as (k' & i' & _ & _ & _ & E3 & E4 & pc & X & Y). rewrite E1 in E3. rewrite E2 in E4. assert (k' = k) by lia. subst k' i'. exists pc. auto. }
    unfold scr. rewrite (proj2 (Nat.ltb_lt _ _) Lp). destruct (p / N)%nat as [|k] eqn:Ek.
    - rewrite (main_client name stage off on) by (try assumption; try lia; apply Hq). destruct (Hat 0%nat ltac:(lia)) as (pc & X & Y). eexists. split; [reflexivity|]. cbn [script].
      rewrite (at_Ok (cg_parties cfg) 0%nat pc X : at_ (cg_parties cfg) 0 = _). cbn [bind]. rewrite (at_Ok _ _ _ Y). cbn [bind].
      destruct (Nat.leb_spec N p) as [X'|X']; [nia|]. unfold processes. destruct (Nat.ltb_spec (p + N) ((P + 1) * N)) as [Y'|Y']; [|nia]. cbn [app].
      replace ((0 + 1) * N + p mod N)%nat with (p + N)%nat by nia. reflexivity.
    - assert (Hk : (k < P)%nat). { unfold processes in Lp. assert (p / N < P + 1)%nat by (apply Nat.div_lt_upper_bound; lia). lia. }
      assert (E : p = ((k + 1) * N + p mod N)%nat) by nia.
      rewrite (main_party name stage off on) by (try assumption; lia). destruct (Hat k Hk) as (pc & X & Y). pose proof (siblings_are k (p mod N) pc X Hk Hu) as Sb. rewrite <- E in Sb, Y.
      destruct (Nat.leb_spec N p) as [X'|X']; [|nia].
      assert (One : cg_servers_n cfg = 1 -> up N ptq p ++ down N ipq ptq p = []).
      { intros E1. assert (EN1 : N = 1%nat) by lia. unfold up, down. rewrite EN1, Nat.mod_1_r. reflexivity. }
      destruct (Z.ltb_spec (Z.of_nat k) (cg_parties_n cfg - 1)) as [Lk|Lk].
      + assert (Ln : (p + N < all)%nat) by (unfold processes; nia). rewrite (proj2 (Nat.ltb_lt _ _) Ln). destruct (Hat (k + 1)%nat ltac:(lia)) as (pc2 & X2 & Y2). replace ((k + 1 + 1) * N + p mod N)%nat with (p + N)%nat in Y2 by nia.
        destruct (Z.eqb_spec (cg_servers_n cfg) 1) as [E1|E1]; eexists; (split; [reflexivity|]); cbn [script]; rewrite (at_Ok _ _ _ X); cbn [bind]; rewrite (at_Ok _ _ _ Y); cbn [bind];
          replace (Z.of_nat k + 1) with (Z.of_nat (k + 1)) by lia; rewrite (at_Ok _ _ _ X2); cbn [bind]; rewrite (at_Ok _ _ _ Y2); cbn [bind].
        * rewrite (One E1). reflexivity.
        * rewrite Sb. reflexivity.
      + assert (Ln : (all <= p + N)%nat) by (unfold processes; nia). rewrite (proj2 (Nat.ltb_ge _ _) Ln). eexists. split; [reflexivity|]. cbn [script].
        rewrite w8_id by (unfold u8; lia). replace (cg_parties_n cfg - 1) with (Z.of_nat k) by lia. rewrite (at_Ok _ _ _ X); cbn [bind]; rewrite (at_Ok _ _ _ Y); cbn [bind].
        destruct (Z.ltb_spec 1 (cg_servers_n cfg)) as [E1|E1]; [rewrite Sb|rewrite One by lia]; reflexivity.
  Qed.
  Lemma calls_are todo : calls cfg name stage queries todo -> forall p, todo p = script_of p.
  Proof using All.
    intros H p. destruct (H p) as (H1 & H2). destruct (Nat.lt_ge_cases p all) as [Lp|Lp]; [|rewrite (H2 Lp); unfold scr; rewrite (proj2 (Nat.ltb_ge _ _) Lp); reflexivity].
    destruct (H1 Lp) as (d & Hd & Hs). destruct (call_of p Lp) as (d' & Hd' & Hs'). congruence.
  Qed.
  (** The calls exist: nobody is refused before connecting. *)
  Lemma calls_exist : exists todo, calls cfg name stage queries todo.
  Proof using All.
    exists script_of. intros p. split; [apply call_of|]. intros H. unfold scr. rewrite (proj2 (Nat.ltb_ge _ _) H). reflexivity.
  Qed.

  Section Any.
    Variables (todo : nat -> list act) (who : nat -> nat) (run : nat -> links).
    Hypothesis Hc : calls cfg name stage queries todo.
    Hypothesis Hs : schedule cfg who todo run.
    Lemma HN1 : (1 <= N)%nat.
    Proof using All. destruct sizes as (H & _). lia. Qed.
    Lemma inv n : lnk N all ipq ptq (run n).
    Proof using All.
      destruct Hs as (S0 & S1). apply (run_lnk N all ipq ptq (host cfg N) HN1 all_shape hosts apart who run S1). rewrite S0. apply (lnk_start N all ipq ptq (host cfg N) HN1 all_shape hosts apart). apply calls_are. exact Hc.
    Qed.
    Lemma run_orderly n : orderly cfg (run n).
    Proof using All.
      pose proof (inv n) as K. split; [apply (k_failed _ _ _ _ _ K)|]. split.
      - intros c Hin. destruct (k_conn _ _ _ _ _ K c Hin) as (W & _). pose proof W as (W1 & W2 & W3). destruct (place _ W2) as (k & i & Hk & Hi & E & E1 & E2 & Sv). exists k, i, (svq (cn_to c)). split; [exact Sv|]. split; [exact E|].
        destruct W3 as [(A1 & A2)|(A1 & _)]; [left|right].
        + split; [exact A1|]. split; [nia|]. apply (k_main _ _ _ _ _ K c Hin A1).
        + split; [exact A1|]. destruct (wired_true N all ipq ptq (host cfg N) HN1 all_shape hosts apart c W A1) as (B1 & B2 & B3). pose proof HN1 as HN1. pose proof (Nat.div_mod (cn_from c) N ltac:(lia)) as Ed. rewrite B2, E1 in Ed.
          exists (cn_from c mod N)%nat. split; [lia|]. split; [lia|]. destruct (cn_said c) as [id|] eqn:Es; [right|auto]. rewrite (said_is N all ipq ptq (host cfg N) HN1 all_shape hosts apart (run n) c id K Hin A1 Es). reflexivity.
      - intros k i sv Sv. destruct (server_at k i sv Sv) as (Hk & Hi & ->). destruct (at_place k i Hk Hi) as (R & E1 & E2).
        pose proof (main_room N all ipq ptq (host cfg N) HN1 all_shape hosts apart (run n) _ K R) as M1. pose proof (parallel_room N all ipq ptq (host cfg N) HN1 all_shape hosts apart (run n) _ K R) as M2. rewrite E2 in M2. auto.
    Qed.
    Lemma run_connected : nobody_starves cfg who -> exists n, forall m, (n <= m)%nat -> connected cfg (run m).
    Proof using All.
      intros Hf. destruct (run_stays N all ipq ptq (host cfg N) HN1 all_shape hosts apart who run (proj2 Hs) (inv 0) Hf) as (n & Hn). exists n. intros m Hm. specialize (Hn m Hm). pose proof (inv m) as K.
      split; [apply (k_failed _ _ _ _ _ K)|]. split; [exact Hn|]. intros k i sv Sv. destruct (server_at k i sv Sv) as (Hk & Hi & ->). destruct (at_place k i Hk Hi) as (R & E1 & E2).
      pose proof (done_main N all ipq ptq (host cfg N) HN1 all_shape hosts apart (run m) _ K Hn R) as M1. pose proof (done_parallel N all ipq ptq (host cfg N) HN1 all_shape hosts apart (run m) _ K Hn R) as M2. rewrite E1, E2 in M2. split; [|exact M2].
      unfold ends. cbn [ptq] in M1. rewrite M1. f_equal. f_equal. nia.
    Qed.
    (** Someone can go on as long as not everyone is done. *)
    Lemma run_moves n : (forall p, lk_todo (run n) p = []) \/ exists p, (p < all)%nat /\ link_step (host cfg N) p (run n) <> run n.
    Proof using All.
      pose proof (inv n) as K. destruct (left_zero N all ipq ptq (host cfg N) HN1 all_shape hosts apart (run n) K) as [Z0|(p & Hp & Hne)]; [left; intros p; exact (zero_done N all ipq ptq (host cfg N) HN1 all_shape hosts apart (run n) p K Z0)|right].
      destruct (lk_todo (run n) p) as [|a rest] eqn:E; [congruence|]. destruct (progress N all ipq ptq (host cfg N) HN1 all_shape hosts apart (run n) K _ p a rest E eq_refl) as (p' & Hp' & Cn). exists p'. split; [exact Hp'|]. intros X. unfold can in Cn. rewrite X in Cn. lia.
    Qed.
  End Any.
End Cfg.
