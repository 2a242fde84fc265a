(** From the configuration file and the command lines to the hypotheses of the
    theorems about deployments. *)
From Coq Require Import String.
From Verif Require Import Base BaseProofs Incremental Wire Onion Shuffle State Database StateProofs Range NoiseFloat NoiseFloatProofs Handlers Batch
  Config MainFlags Party Chain Parallel ParChain Net Procs ParProcs ParCrash Spec ChainSpec ParSpec ParChainSpec OnlineProofs OfflineProofs ParPartyProofs ParParty ParTagProofs ParChainProofs ParRules ParServer Address AddressSpec AddressProofs Boot BootSpec.
Local Open Scope Z_scope.
Local Open Scope list_scope.

(** ** What a file that parses contains *)

Lemma des_servers_length a mem n : forall u l u', des_servers a mem n u = Ok (l, u') -> List.length l = n.
Proof.
  induction n as [|n IH]; intros u l u' H; cbn [des_servers] in H; [inversion H; reflexivity|].
  apply bind_Ok in H as ([s1 u1] & _ & H). apply bind_Ok in H as ([s2 u2] & _ & H). apply bind_Ok in H as ([s3 u3] & _ & H).
  apply bind_Ok in H as ([s4 u4] & _ & H). apply bind_Ok in H as ([r u5] & E & H). inversion H; subst. cbn. f_equal. eapply IH. exact E.
Qed.
Lemma des_parties_shape a mem sn n : forall u l u', des_parties a mem sn n u = Ok (l, u') ->
  List.length l = n /\ Forall (fun p => List.length (pc_servers p) = sn) l.
Proof.
  induction n as [|n IH]; intros u l u' H; cbn [des_parties] in H; [inversion H; split; [reflexivity|constructor]|].
  apply bind_Ok in H as ([s1 u1] & _ & H). apply bind_Ok in H as ([s2 u2] & _ & H). apply bind_Ok in H as ([s3 u3] & _ & H).
  apply bind_Ok in H as ([s4 u4] & Es & H). apply bind_Ok in H as ([r u5] & E & H). inversion H; subst. destruct (IH _ _ _ E) as [L F].
  split; [cbn; f_equal; exact L|]. constructor; [cbn; eapply des_servers_length; exact Es|exact F].
Qed.
Lemma file_shape a file cfg : read_file a (Some file) = Ok cfg ->
  u32 (cg_db cfg) /\ u8 (cg_parties_n cfg) /\ u8 (cg_servers_n cfg) /\
  List.length (cg_parties cfg) = Z.to_nat (cg_parties_n cfg) /\
  Forall (fun p => List.length (pc_servers p) = Z.to_nat (cg_servers_n cfg)) (cg_parties cfg).
Proof.
  unfold read_file, deserialize. intros H.
  apply bind_Ok in H as ([db u1] & _ & H). apply bind_Ok in H as ([e u2] & _ & H). apply bind_Ok in H as ([d u3] & _ & H).
  apply bind_Ok in H as ([pn u4] & _ & H). apply bind_Ok in H as ([sn u5] & _ & H). apply bind_Ok in H as ([ps u6] & E & H).
  apply bind_Ok in H as (? & _ & H). inversion H; subst; cbn. destruct (des_parties_shape _ _ _ _ _ _ _ E) as [L F].
  split; [apply w32_u32|]. split; [apply w8_u8|]. split; [apply w8_u8|]. split; [exact L|exact F].
Qed.

Lemma at_Ok {A} (l : list A) (i : nat) x : nth_error l i = Some x -> at_ l (Z.of_nat i) = Ok x.
Proof. intros H. unfold at_. rewrite Nat2Z.id, H. reflexivity. Qed.

(** ** Choice of the role *)

Lemma stage_known stage off on : stage_runs stage off on ->
  (stage =? "")%string = false /\ (negb (stage =? "online") && negb (stage =? "offline") && negb (stage =? "all"))%string = false /\
  ((stage =? "offline") || (stage =? "all"))%string = off /\ ((stage =? "online") || (stage =? "all"))%string = on.
Proof. intros [(-> & -> & ->)|[(-> & -> & ->)|(-> & -> & ->)]]; repeat split. Qed.

Lemma main_client name stage off on server q sn pn : stage_runs stage off on -> name <> ""%string -> 0 <= server < sn -> sn <= 255 -> 0 <= pn -> u32 q ->
  main_ {| fl_role := "client"; fl_stage := stage; fl_config := name; fl_server := server; fl_party := -1; fl_queries := q |} (Ok (sn, pn)) =
  Ok (RunClient server q off on).
Proof.
  intros Hs Hn Hv Hsn Hp Hq. destruct (stage_known _ _ _ Hs) as (S1 & S2 & S3 & S4). unfold main_, flags_rejected.
  cbn [fl_role fl_stage fl_config fl_server fl_party fl_queries]. rewrite (proj2 (String.eqb_neq _ _) Hn), S1, S2, S3, S4.
  cbn [orb andb negb String.eqb Ascii.eqb Bool.eqb bind]. unfold u32 in Hq.
  rewrite (proj2 (Z.ltb_ge q 0)), (proj2 (Z.ltb_ge server 0)) by lia. cbn [orb].
  rewrite !Z.geb_leb, (proj2 (Z.leb_gt sn server)), (proj2 (Z.leb_gt pn (-1))) by lia.
  rewrite w8_id by (unfold u8; lia). rewrite w32_id by exact Hq. reflexivity.
Qed.
Lemma main_party name stage off on server party sn pn : stage_runs stage off on -> name <> ""%string -> 0 <= server < sn -> sn <= 255 -> 0 <= party < pn -> pn <= 255 ->
  main_ {| fl_role := "party"; fl_stage := stage; fl_config := name; fl_server := server; fl_party := party; fl_queries := -1 |} (Ok (sn, pn)) =
  Ok (if party <? pn - 1 then if sn =? 1 then RunParty party server off on else RunParallelParty party server off on else RunBackend server off on).
Proof.
  intros Hs Hn Hv Hsn Hp Hpn. destruct (stage_known _ _ _ Hs) as (S1 & S2 & S3 & S4). unfold main_, flags_rejected.
  cbn [fl_role fl_stage fl_config fl_server fl_party fl_queries]. rewrite (proj2 (String.eqb_neq _ _) Hn), S1, S2, S3, S4.
  cbn [orb andb negb String.eqb Ascii.eqb Bool.eqb bind].
  rewrite (proj2 (Z.ltb_ge party 0)), (proj2 (Z.ltb_ge server 0)) by lia. cbn [orb].
  rewrite !Z.geb_leb, (proj2 (Z.leb_gt sn server)), (proj2 (Z.leb_gt pn party)) by lia.
  rewrite !w8_id by (unfold u8; lia). destruct (party <? pn - 1), (sn =? 1); reflexivity.
Qed.

Lemma list_sum_ge l x : List.In x l -> (x <= list_sum l)%nat.
Proof. induction l as [|y l IH]; intros [].
  - subst. change (list_sum (x :: l)) with (x + list_sum l)%nat. lia.
  - change (list_sum (y :: l)) with (y + list_sum l)%nat. specialize (IH H). lia.
Qed.

(** ** How many fake queries there are *)

Lemma keys_before N rows s : tiled N rows -> (s < N)%nat -> Z.of_nat (list_sum (map (key_count N rows) (seq 0 s))) = first_key N rows s.
Proof.
  intros T. induction s as [|s IH]; intros Hs; [unfold first_key; cbn; lia|].
  rewrite seq_S, map_app, list_sum_app. cbn [map list_sum fold_right Nat.add].
  rewrite <- (next_first N rows T s Hs), (end_first_count N rows T s) by lia. rewrite <- IH by lia. lia.
Qed.
Lemma keys_sum N rows : tiled N rows -> list_sum (map (key_count N rows) (seq 0 N)) = rows.
Proof.
  intros T. pose proof T as (T1 & _). assert (Z.of_nat (list_sum (map (key_count N rows) (seq 0 N))) = Z.of_nat rows); [|lia].
  replace N with (S (N - 1)) at 2 by lia. rewrite seq_S, map_app, list_sum_app. cbn [map list_sum fold_right Nat.add].
  rewrite <- (last_end N rows T), (end_first_count N rows T (N - 1)) by lia. rewrite <- (keys_before N rows _ T) by lia. lia.
Qed.
Lemma noise_most r cf most : (forall i, 0 <= pf_samples cf i <= most) -> Z.of_nat (noise_total r cf) <= Z.of_nat r * most.
Proof.
  intros H. unfold noise_total. induction r as [|r IH]; [cbn; lia|]. rewrite seq_S, map_app, list_sum_app. cbn [map list_sum fold_right Nat.add].
  pose proof (H r). lia.
Qed.
Lemma sum_most {A} (f g : A -> nat) (m : Z) l : (forall x, List.In x l -> Z.of_nat (f x) <= Z.of_nat (g x) * m) ->
  Z.of_nat (list_sum (map f l)) <= Z.of_nat (list_sum (map g l)) * m.
Proof.
  induction l as [|x l IH]; intros H; [cbn; lia|]. change (list_sum (map f (x :: l))) with (f x + list_sum (map f l))%nat.
  change (list_sum (map g (x :: l))) with (g x + list_sum (map g l))%nat. pose proof (H x (or_introl eq_refl)). specialize (IH (fun y Hy => H y (or_intror Hy))). lia.
Qed.
Lemma length_flat_sum {A B} (f : A -> list B) l : List.length (flat_map f l) = list_sum (map (fun x => List.length (f x)) l).
Proof. induction l as [|x l IH]; [reflexivity|]. cbn [flat_map map]. rewrite app_length, IH. reflexivity. Qed.
Lemma sum_const {A} (c : nat) (l : list A) : list_sum (map (fun _ => c) l) = (List.length l * c)%nat.
Proof. induction l as [|x l IH]; [reflexivity|]. cbn [map List.length]. change (list_sum (c :: ?y)) with (c + list_sum y)%nat. rewrite IH. lia. Qed.
Lemma nth_error_seq0 {A} (f : nat -> A) n k x : nth_error (map f (seq 0 n)) k = Some x -> (k < n)%nat /\ x = f k.
Proof.
  intros H. assert (Hk : (k < n)%nat). { assert (X : nth_error (map f (seq 0 n)) k <> None) by congruence. apply nth_error_Some in X. rewrite map_length, seq_length in X. exact X. }
  rewrite nth_error_map_seq in H by exact Hk. inversion H. auto.
Qed.

(** ** Addresses *)

Lemma nodup_app_l {A} (l m : list A) : NoDup (l ++ m) -> NoDup l /\ NoDup m /\ forall x, List.In x l -> List.In x m -> False.
Proof.
  induction l as [|y l IH]; cbn; intros H; [split; [constructor|]; split; [exact H|intros x []]|]. inversion H as [|? ? N1 N2]; subst.
  destruct (IH N2) as (A1 & A2 & A3). split; [constructor; [intros C; apply N1, in_or_app; left; exact C|exact A1]|]. split; [exact A2|].
  intros x [<-|Hx] Hm; [apply N1, in_or_app; right; exact Hm|exact (A3 x Hx Hm)].
Qed.
Lemma nodup_flat_at {A B} (f : A -> list B) l : NoDup (flat_map f l) -> forall m m' x x' y,
  nth_error l m = Some x -> nth_error l m' = Some x' -> List.In y (f x) -> List.In y (f x') -> m = m'.
Proof.
  induction l as [|z l IH]; intros H m m' x x' y Hx Hx' Hy Hy'; [destruct m; discriminate Hx|].
  cbn [flat_map] in H. apply nodup_app_l in H. destruct H as (_ & H & Hd).
  assert (Q : forall n w, nth_error l n = Some w -> List.In y (f w) -> List.In y (flat_map f l)).
  { intros n w Hn Hw. apply in_flat_map. exists w. split; [eapply nth_error_In; exact Hn|exact Hw]. }
  destruct m as [|m], m' as [|m']; cbn in Hx, Hx'.
  - reflexivity.
  - inversion Hx; subst. exfalso. eapply Hd; [exact Hy|]. eapply Q; eassumption.
  - inversion Hx'; subst. exfalso. eapply Hd; [exact Hy'|]. eapply Q; eassumption.
  - f_equal. eapply IH; eassumption.
Qed.
Lemma nodup_flat_in {A B} (f : A -> list B) l x : NoDup (flat_map f l) -> List.In x l -> NoDup (f x).
Proof.
  induction l as [|z l IH]; intros H []; cbn [flat_map] in H; apply nodup_app_l in H; destruct H as (H1 & H2 & _); [subst; exact H1|auto].
Qed.

(** ** Addresses *)
Lemma dials_in st h o : forall l j, Forall (fun a => exists x, ip4 x /\ fst a = dotted x) l ->
  (exists a, List.In a (dials true st j l) /\ ip4 (fst a) /\ h = Some (dotted (fst a)) /\ o = Some (snd a)) <->
  (exists a : list Z * Z, List.In a l /\ h = Some (fst a) /\ o = Some (snd a)).
Proof.
  induction l as [|[ip port] l IH]; intros j F.
  - split; intros (a & [] & _).
  - inversion F as [|? ? (x & Hx & E) F']; subst. specialize (IH (S j) F'). cbn [dials fst snd] in *. subst ip. unfold dialled. rewrite pton_dotted by exact Hx.
    split.
    + intros (a & [<-|Ia] & H1 & H2 & H3); [exists (dotted x, port); cbn [fst snd] in *; split; [left; reflexivity|auto]|].
      destruct (proj1 IH (ex_intro _ a (conj Ia (conj H1 (conj H2 H3))))) as (a' & A1 & A2). exists a'. split; [right; exact A1|exact A2].
    + intros (a & [<-|Ia] & H1 & H2); [exists (x, port); cbn [fst snd] in *; split; [left; reflexivity|auto]|].
      destruct (proj2 IH (ex_intro _ a (conj Ia (conj H1 H2)))) as (a' & A1 & A2). exists a'. split; [right; exact A1|exact A2].
Qed.
Lemma dials_stack st : forall l j, map fst (dials false st j l) = map st (seq j (List.length (dials false st j l))).
Proof. induction l as [|a l IH]; intros j; [reflexivity|]. cbn [dials map List.length seq]. rewrite IH. reflexivity. Qed.

Lemma dials_count asserts st : forall l j, List.length (dials asserts st j l) = List.length l.
Proof. induction l as [|a l IH]; intros j; [reflexivity|]. cbn [dials List.length]. rewrite IH. reflexivity. Qed.
Lemma dials_nth st : forall l j0 j a, nth_error (dials true st j0 l) j = Some a -> exists ip, nth_error l j = Some (ip, snd a) /\
  (ip4 (fst a) /\ ip = dotted (fst a) \/ fst a = st (j0 + j)%nat /\ forall x, ip4 x -> ip <> dotted x).
Proof.
  induction l as [|[ip port] l IH]; intros j0 j a H; [destruct j; discriminate H|]. destruct j as [|j]; cbn [dials nth_error fst snd] in *.
  - inversion H; subst. exists ip. split; [reflexivity|]. cbn [fst]. rewrite Nat.add_0_r. unfold dialled. destruct (inet_pton ip) as [x|] eqn:E.
    + left. apply dotted_pton. exact E.
    + right. split; [reflexivity|]. intros x Hx ->. rewrite pton_dotted in E by exact Hx. discriminate E.
  - destruct (IH (S j0) j a H) as (ip' & I1 & I2). exists ip'. split; [exact I1|]. replace (j0 + S j)%nat with (S j0 + j)%nat by lia. exact I2.
Qed.

Section Run.
  Context (b : sealbox) (asserts : bool) (rng : rng_t) (flog : double -> double) (sampling : bool) (iter : iteration) (junk : list Z)
    (file : list Z) (cfg : config) (name stage : string) (off on : bool) (queries : nat -> Z) (most : Z)
    (en : nat -> entropy) (sr : nat -> surroundings).
  Let N := Z.to_nat (cg_servers_n cfg).
  Let P := (Z.to_nat (cg_parties_n cfg) - 1)%nat.
  Let rows := Z.to_nat (cg_db cfg).
  Hypothesis Hread : read_file asserts (Some file) = Ok cfg.
  Hypothesis Huse : usable b flog sampling cfg most.
  Hypothesis Hname : name <> ""%string.
  Hypothesis Hstage : stage_runs stage off on.
  Hypothesis Hrng : forall seed i, 0 <= rng seed i <= 2 ^ 31 - 1.
  Hypothesis Hfair : forall p, fair cfg N p (en p).
  Hypothesis Hq : forall i, 0 <= queries i.
  Hypothesis Htotal : Z.of_nat (list_sum (map (fun i => Z.to_nat (queries i)) (seq 0 N))) + Z.of_nat P * cg_db cfg * most < 2 ^ 32.

  Definition the_db : list response := map db_row (seq 0 rows).
  Definition the_dist : dist :=
    match noise_new flog (double_of_bits (cg_epsilon cfg)) (double_of_bits (cg_delta cfg)) with Ok d => d | _ => {| nd_debug := true; nd_span := dz 0; nd_cutoff := dz 0 |} end.
  Definition the_sample (i : nat) : Z :=
    match sample sampling flog the_dist (rng 1 (2 * i)%nat) (rng 1 (2 * i + 1)%nat) with Ok v => v | _ => 0 end.
  Definition the_keys : list (list Z * list Z) := map (fun pc => (pc_pkey pc, pc_skey pc)) (cg_parties cfg).
  Definition no_pc : pcfg := {| pc_seed := 0; pc_servers := []; pc_pkey := []; pc_skey := [] |}.
  Definition no_sv : Config.sconf := {| sv_seed := 0; sv_port := 0; sv_parallel := 0; sv_ip := [] |}.
  Definition the_pc (k : nat) : pcfg := nth k (cg_parties cfg) no_pc.
  Definition the_sv (k i : nat) : Config.sconf := nth i (pc_servers (the_pc k)) no_sv.
  Definition the_client (i : nat) : client :=
    {| ct_pkeys := map pc_pkey (cg_parties cfg); ct_rand := en_rand (en i); ct_keys := asked cfg (en i) (queries i) |}.
  Definition the_conf (k i : nat) : pconf :=
    {| pf_party := k; pf_parties := Z.to_nat (cg_parties_n cfg); pf_server := Z.of_nat i; pf_servers := cg_servers_n cfg;
       pf_pkeys := map pc_pkey (cg_parties cfg); pf_pkey := pc_pkey (the_pc k); pf_skey := pc_skey (the_pc k);
       pf_seed := sv_seed (the_sv k i); pf_db := Z.of_nat (List.length the_db); pf_rand := en_rand (en (S k * N + i));
       pf_samples := the_sample |}.

  Lemma shape : u32 (cg_db cfg) /\ u8 (cg_parties_n cfg) /\ u8 (cg_servers_n cfg) /\
    List.length (cg_parties cfg) = Z.to_nat (cg_parties_n cfg) /\
    Forall (fun p => List.length (pc_servers p) = Z.to_nat (cg_servers_n cfg)) (cg_parties cfg).
  Proof using All. exact (file_shape _ _ _ Hread). Qed.
  Lemma n_parties : Z.of_nat (S P) = cg_parties_n cfg /\ (1 <= P)%nat /\ (S P <= 255)%nat /\ Z.to_nat (cg_parties_n cfg) = S P.
  Proof using All. destruct shape as (_ & U & _). pose proof (us_parties _ _ _ _ _ Huse). unfold P, u8 in *. lia. Qed.
  Lemma n_servers : Z.of_nat N = cg_servers_n cfg /\ (1 <= N)%nat /\ (N <= 255)%nat.
  Proof using All. destruct shape as (_ & _ & U & _). pose proof (us_servers _ _ _ _ _ Huse). unfold N, u8 in *. lia. Qed.
  Lemma n_rows : Z.of_nat rows = cg_db cfg /\ (N <= rows)%nat /\ (1 <= rows)%nat /\ Z.of_nat rows <= 2 ^ 31 - 1.
  Proof using All. pose proof (us_servers _ _ _ _ _ Huse). pose proof (us_db _ _ _ _ _ Huse). unfold N, rows. lia. Qed.
  Lemma db_length : List.length the_db = rows.
  Proof using All. unfold the_db. rewrite map_length, seq_length. reflexivity. Qed.
  Lemma at_pc k : (k < S P)%nat -> nth_error (cg_parties cfg) k = Some (the_pc k) /\ List.length (pc_servers (the_pc k)) = N.
  Proof using All.
    intros Hk. destruct shape as (_ & _ & _ & L & F). destruct n_parties as (_ & _ & _ & E). rewrite E in L.
    assert (Hn : nth_error (cg_parties cfg) k = Some (the_pc k)) by (apply nth_error_nth'; rewrite L; exact Hk).
    split; [exact Hn|]. rewrite Forall_forall in F. apply F. eapply nth_error_In. exact Hn.
  Qed.
  Lemma at_sv k i : (k < S P)%nat -> (i < N)%nat -> nth_error (pc_servers (the_pc k)) i = Some (the_sv k i).
  Proof using All. intros Hk Hi. destruct (at_pc k Hk) as [_ L]. apply nth_error_nth'. rewrite L. exact Hi. Qed.

  Lemma dist_ok : noise_new flog (double_of_bits (cg_epsilon cfg)) (double_of_bits (cg_delta cfg)) = Ok the_dist /\
    forall i, 0 <= the_sample i <= most /\ the_sample i < 2 ^ 32.
  Proof using All.
    destruct (us_noise _ _ _ _ _ Huse) as (d & E & M). unfold the_sample. assert (Ed : the_dist = d) by (unfold the_dist; rewrite E; reflexivity). rewrite Ed.
    split; [exact E|]. intros i. set (r1 := rng 1 (2 * i)%nat). set (r2 := rng 1 (2 * i + 1)%nat).
    destruct (noise_new_cutoff _ _ _ _ E) as (_ & _ & _ & R & _).
    assert (X : exists v, sample sampling flog d r1 r2 = Ok v /\ 0 <= v < 2 ^ 32).
    { destruct sampling.
      - destruct (sample_real_bounded flog _ _ d E r1 r2) as (v & Ev & Hv). exists v. split; [exact Ev|]. lia.
      - destruct (sample_const flog _ _ d E r1 r2) as (Ev & Hv). eexists. split; [exact Ev|]. lia. }
    destruct X as (v & Ev & Hv). rewrite Ev. pose proof (M _ _ _ Ev). lia.
  Qed.
  Lemma samples_const i j : sampling = false -> the_sample i = the_sample j.
  Proof using All. intros H. unfold the_sample. rewrite H. reflexivity. Qed.

  Lemma most_pos : 0 <= most.
  Proof using All. destruct dist_ok as [_ D]. pose proof (D 0%nat). lia. Qed.
  Lemma queries_u32 i : (i < N)%nat -> u32 (queries i).
  Proof using All.
    intros Hi. pose proof most_pos. assert (Hs : (Z.to_nat (queries i) <= list_sum (map (fun i => Z.to_nat (queries i)) (seq 0 N)))%nat).
    { apply list_sum_ge. apply in_map_iff. exists i. split; [reflexivity|]. apply in_seq. lia. }
    assert (0 <= Z.of_nat P * cg_db cfg * most). { destruct n_rows. apply Z.mul_nonneg_nonneg; [apply Z.mul_nonneg_nonneg|]; lia. }
    specialize (Hq i). unfold u32. lia.
  Qed.

  (** What [main_program] is for each process. *)
  Lemma boot_client_Ok i : (i < N)%nat ->
    main_program b asserts rng flog sampling iter junk (command name stage queries N i) (Some file) (en i) (sr i) =
      Ok (Some {| ru_listens := []; ru_dials := dials asserts (sr_stack (sr i)) 0 [(sv_ip (the_sv 0 i), sv_port (the_sv 0 i))];
        ru_program := let p := pclient b asserts off on (Z.of_nat i) (sm_link (sr_mem (sr i))) (S P) the_db (the_client i) in
          if cg_servers_n cfg =? 1 then Serial p else Siblings (relabel (Link i) p) |}).
  Proof using All.
    intros Hi. destruct n_parties as (P1 & P2 & P3 & P4). destruct n_servers as (N1 & N2 & N3). destruct n_rows as (R1 & R2 & R3 & R4).
    unfold main_program, command. rewrite Nat.div_small, Nat.mod_small by exact Hi. rewrite Hread. cbn [bind].
    rewrite (main_client name stage off on) by (first [assumption | apply queries_u32; exact Hi | lia]). cbn [bind].
    fold rows. rewrite db_create_spec. fold the_db. cbn [bind]. unfold boot_client.
    rewrite (proj2 (Z.leb_le 2 (cg_parties_n cfg))) by lia. replace (if asserts then assert_ true else Ok tt) with (Ok tt) by (destruct asserts; reflexivity). cbn [bind].
    rewrite (at_Ok (cg_parties cfg) 0%nat (the_pc 0) (proj1 (at_pc 0 ltac:(lia))) : at_ (cg_parties cfg) 0 = _). cbn [bind].
    rewrite (at_Ok _ i _ (at_sv 0 i ltac:(lia) Hi)). cbn [bind]. rewrite P4, Nat2Z.id.
    unfold the_client, asked, db_random_row. rewrite db_length, R1. reflexivity.
  Qed.
  Lemma boot_conf_Ok k i : (k < P)%nat -> (i < N)%nat ->
    boot_conf rng flog sampling cfg the_db (Z.of_nat k) (Z.of_nat i) (en (S k * N + i)) = Ok (the_pc k, the_sv k i, the_sv (S k) i, the_conf k i).
  Proof using All.
    intros Hk Hi. unfold boot_conf. rewrite (at_Ok _ k _ (proj1 (at_pc k ltac:(lia)))). cbn [bind].
    rewrite (at_Ok _ i _ (at_sv k i ltac:(lia) Hi)). cbn [bind]. rewrite (proj1 dist_ok). cbn [bind].
    replace (Z.of_nat k + 1) with (Z.of_nat (S k)) by lia.
    rewrite (at_Ok _ (S k) _ (proj1 (at_pc (S k) ltac:(lia)))). cbn [bind]. rewrite (at_Ok _ i _ (at_sv (S k) i ltac:(lia) Hi)). cbn [bind].
    rewrite Nat2Z.id. reflexivity.
  Qed.
  Lemma dials_Ok k i : (k < S P)%nat -> sibling_dials (the_pc k) (Z.of_nat i) =
    map (fun t => (sv_ip (the_sv k t), sv_parallel (the_sv k t))) (seq (S i) (N - S i)).
  Proof using All.
    intros Hk. unfold sibling_dials. rewrite Nat2Z.id.
    destruct (at_pc k Hk) as [_ L]. rewrite <- L. unfold the_sv. clear. generalize (pc_servers (the_pc k)) as l. intros l.
    revert i. induction l as [|x l IH]; intros i; [rewrite skipn_nil; reflexivity|]. cbn [skipn List.length Nat.sub].
    destruct i as [|i].
    - rewrite skipn_O, Nat.sub_0_r, <- seq_shift, map_map. cbn [nth]. rewrite <- (nth_seq_all no_sv l) at 1. rewrite map_map. reflexivity.
    - rewrite IH. rewrite <- (seq_shift _ (S i)), map_map. reflexivity.
  Qed.
  Lemma boot_party_Ok k i : (k < P)%nat -> (i < N)%nat ->
    main_program b asserts rng flog sampling iter junk (command name stage queries N (S k * N + i)) (Some file) (en (S k * N + i)%nat) (sr (S k * N + i)%nat) =
      Ok (Some (if cg_servers_n cfg =? 1 then
        {| ru_listens := [sv_port (the_sv k i)]; ru_dials := dials asserts (sr_stack (sr (S k * N + i)%nat)) 0 [(sv_ip (the_sv (S k) i), sv_port (the_sv (S k) i))];
           ru_program := Serial (pparty b asserts rng off on (sm_link (sr_mem (sr (S k * N + i)%nat))) (S k) (the_conf k i)) |}
        else
        {| ru_listens := sv_port (the_sv k i) :: (if (0 <? i)%nat then [sv_parallel (the_sv k i)] else []);
           ru_dials := dials asserts (sr_stack (sr (S k * N + i)%nat)) 0 ((sv_ip (the_sv (S k) i), sv_port (the_sv (S k) i)) :: map (fun t => (sv_ip (the_sv k t), sv_parallel (the_sv k t))) (seq (S i) (N - S i)));
           ru_program := Siblings (pserver b asserts rng iter off on N (S k) i (sr_mem (sr (S k * N + i)%nat)) (sr_acc (sr (S k * N + i)%nat))
                                     {| sf_conf := the_conf k i; sf_shared := pc_seed (the_pc k) |}) |})).
  Proof using All.
    intros Hk Hi. destruct n_parties as (P1 & P2 & P3 & P4). destruct n_servers as (N1 & N2 & N3). destruct n_rows as (R1 & R2 & R3 & R4).
    unfold main_program, command. rewrite server_div, server_mod by exact Hi. rewrite Hread. cbn [bind].
    rewrite (main_party name stage off on) by (first [assumption | lia]). cbn [bind].
    rewrite (proj2 (Z.ltb_lt _ _)) by lia.
    destruct (cg_servers_n cfg =? 1) eqn:E1; cbn [bind]; fold rows; rewrite db_create_spec; fold the_db; cbn [bind]; unfold boot_party, boot_server;
      rewrite (boot_conf_Ok k i Hk Hi); cbn [bind]; rewrite ?Nat2Z.id; [reflexivity|].
    unfold sibling_listens. replace (0 <? Z.of_nat i) with (0 <? i)%nat by (destruct i; reflexivity).
    rewrite (at_Ok _ i _ (at_sv k i ltac:(lia) Hi)). cbn [bind].
    rewrite (dials_Ok k i) by lia. destruct (0 <? i)%nat; reflexivity.
  Qed.
  Lemma boot_backend_Ok i : (i < N)%nat ->
    main_program b asserts rng flog sampling iter junk (command name stage queries N (S P * N + i)) (Some file) (en (S P * N + i)%nat) (sr (S P * N + i)%nat) =
      Ok (Some (if cg_servers_n cfg =? 1 then
        {| ru_listens := [sv_port (the_sv P i)]; ru_dials := [];
           ru_program := Serial (pbackend b asserts off on (sm_link (sr_mem (sr (S P * N + i)%nat))) (S P) the_db junk (pc_pkey (the_pc P)) (pc_skey (the_pc P))) |}
        else
        {| ru_listens := sv_port (the_sv P i) :: (if (0 <? i)%nat then [sv_parallel (the_sv P i)] else []);
           ru_dials := dials asserts (sr_stack (sr (S P * N + i)%nat)) 0 (map (fun t => (sv_ip (the_sv P t), sv_parallel (the_sv P t))) (seq (S i) (N - S i)));
           ru_program := Siblings (pbserver b asserts iter off on N (S P) i (sr_mem (sr (S P * N + i)%nat)) (sr_acc (sr (S P * N + i)%nat))
                                     the_db junk (pc_pkey (the_pc P)) (pc_skey (the_pc P))) |})).
  Proof using All.
    intros Hi. destruct n_parties as (P1 & P2 & P3 & P4). destruct n_servers as (N1 & N2 & N3). destruct n_rows as (R1 & R2 & R3 & R4).
    unfold main_program, command. rewrite server_div, server_mod by exact Hi. rewrite Hread. cbn [bind].
    rewrite (main_party name stage off on) by (first [assumption | lia]). cbn [bind].
    rewrite (proj2 (Z.ltb_ge _ _)) by lia. fold rows. rewrite db_create_spec. fold the_db. cbn [bind]. unfold boot_backend.
    rewrite w8_id by (unfold u8; lia). replace (cg_parties_n cfg - 1) with (Z.of_nat P) by lia.
    rewrite (at_Ok _ P _ (proj1 (at_pc P ltac:(lia)))). cbn [bind].
    rewrite (at_Ok _ i _ (at_sv P i ltac:(lia) Hi)). cbn [bind]. rewrite (proj2 (Z.leb_le 2 (cg_parties_n cfg))) by lia. replace (if asserts then assert_ true else Ok tt) with (Ok tt) by (destruct asserts; reflexivity). cbn [bind].
    rewrite P4, Nat2Z.id. destruct (Z.eqb_spec (cg_servers_n cfg) 1) as [E1|E1]; [rewrite E1; reflexivity|].
    rewrite (proj2 (Z.ltb_lt 1 (cg_servers_n cfg))) by lia.
    unfold sibling_listens. replace (0 <? Z.of_nat i) with (0 <? i)%nat by (destruct i; reflexivity).
    rewrite (at_Ok _ i _ (at_sv P i ltac:(lia) Hi)). cbn [bind]. rewrite (dials_Ok P i) by lia. destruct (0 <? i)%nat; reflexivity.
  Qed.

  (** ** The deployment with several servers per party *)

  Definition the_server (k i : nat) : Parallel.sconf := {| sf_conf := the_conf k i; sf_shared := pc_seed (the_pc k) |}.
  Definition the_clients : list client := map the_client (seq 0 N).
  Definition the_parties : list (list Parallel.sconf) := map (fun k => map (the_server k) (seq 0 N)) (seq 0 P).

  Lemma keys_count : List.length the_keys = S P.
  Proof using All. unfold the_keys. rewrite map_length. destruct shape as (_ & _ & _ & L & _). rewrite L. apply n_parties. Qed.
  Lemma keys_fst : map fst the_keys = map pc_pkey (cg_parties cfg).
  Proof using All. unfold the_keys. rewrite map_map. reflexivity. Qed.
  Lemma keys_at k : (k < S P)%nat -> nth_error the_keys k = Some (pc_pkey (the_pc k), pc_skey (the_pc k)).
  Proof using All. intros Hk. unfold the_keys. rewrite nth_error_map, (proj1 (at_pc k Hk)). reflexivity. Qed.
  Lemma asked_length i : List.length (ct_keys (the_client i)) = Z.to_nat (queries i).
  Proof using All. cbn. unfold asked. rewrite map_length, seq_length. reflexivity. Qed.
  Lemma asked_range i : Forall (fun k => 0 <= k < Z.of_nat (List.length the_db)) (ct_keys (the_client i)).
  Proof using All.
    destruct n_rows as (R1 & R2 & R3 & R4). rewrite db_length, R1. cbn. unfold asked. apply Forall_map, Forall_forall. intros j _.
    apply (proj1 (Hfair i)). lia.
  Qed.
  Lemma db_wf : Forall wf_response the_db.
  Proof using All.
    destruct n_rows as (R1 & R2 & R3 & R4). unfold the_db. apply Forall_map, Forall_forall. intros k Hk. apply in_seq in Hk.
    destruct (c56 rows ltac:(lia)) as (db0 & _ & F & _). destruct (F (Z.of_nat k) ltac:(lia)) as [_ W]. unfold db_row. exact W.
  Qed.
  Lemma tiles : 1 < cg_servers_n cfg -> tiled N rows.
  Proof using All.
    intros H. destruct n_servers as (N1 & N2 & N3). destruct n_rows as (R1 & R2 & R3 & R4). split; [lia|]. split; [exact R2|]. split; [exact R4|].
    unfold keys_per_server. rewrite R1, N1. replace (Z.of_nat (N - 1)) with (cg_servers_n cfg - 1) by lia. exact (us_tiled _ _ _ _ _ Huse).
  Qed.
  Lemma samples_most k i j : 0 <= pf_samples (the_conf k i) j <= most.
  Proof using All. destruct dist_ok as [_ D]. cbn [the_conf pf_samples]. apply D. Qed.
  Lemma party_noise_bound k : tiled N rows -> Z.of_nat (List.length (party_noise_keys N rows (map (the_server k) (seq 0 N)))) <= Z.of_nat rows * most.
  Proof using All.
    intros T. unfold party_noise_keys. rewrite length_flat_sum. apply Z.le_trans with (Z.of_nat (list_sum (map (key_count N rows) (seq 0 N))) * most); [|rewrite (keys_sum N rows T); lia]. apply sum_most. intros i Hi. apply in_seq in Hi.
    rewrite nth_error_map_seq by lia. rewrite server_keys_length. unfold server_noise. apply noise_most. intros j. apply samples_most.
  Qed.
  Lemma clients_total : List.length (client_keys the_clients) = list_sum (map (fun i => Z.to_nat (queries i)) (seq 0 N)).
  Proof using All. unfold client_keys, the_clients. rewrite length_flat_sum, map_map. f_equal. apply map_ext. exact asked_length. Qed.
  Lemma parties_length : List.length the_parties = P.
  Proof using All. unfold the_parties. rewrite map_length, seq_length. reflexivity. Qed.

  Lemma several_deployment : 1 < cg_servers_n cfg -> par_deployment rng the_db N the_clients the_parties the_keys.
  Proof using All.
    intros HN. pose proof (tiles HN) as T. destruct n_parties as (P1 & P2 & P3 & P4). destruct n_servers as (N1 & N2 & N3). destruct n_rows as (R1 & R2 & R3 & R4).
    split.
    - rewrite parties_length, keys_count. reflexivity.
    - rewrite keys_count. exact P3.
    - unfold the_clients. rewrite map_length, seq_length. reflexivity.
    - rewrite db_length. exact T.
    - intros k confs Hc. apply nth_error_seq0 in Hc. destruct Hc as [Hk ->]. split; [rewrite map_length, seq_length; reflexivity|].
      exists (pc_seed (the_pc k)). split; [apply Hrng|]. intros i sf Hs. apply nth_error_seq0 in Hs. destruct Hs as [Hi ->].
      split; cbn [the_server sf_conf sf_shared the_conf pf_party pf_parties pf_server pf_servers pf_db pf_seed pf_samples].
      + reflexivity.
      + rewrite keys_count. exact P4.
      + reflexivity.
      + symmetry. exact N1.
      + reflexivity.
      + reflexivity.
      + apply Hrng.
      + intros j _. destruct dist_ok as [_ D]. destruct (D j). lia.
    - exact db_wf.
    - unfold client_keys, the_clients. apply Forall_flat_map, Forall_map, Forall_forall. intros i _. apply asked_range.
    - rewrite db_length, clients_total, Nat2Z.inj_add. unfold the_parties. rewrite length_flat_sum, map_map.
      pose proof (sum_most (fun k => List.length (party_noise_keys N rows (map (the_server k) (seq 0 N)))) (fun _ => rows) most (seq 0 P)
        (fun k _ => party_noise_bound k T)) as B. rewrite sum_const, seq_length, Nat2Z.inj_mul, R1 in B. lia.
  Qed.
  Lemma several_keyed : 1 < cg_servers_n cfg -> sampling = false -> (forall i, queries i = queries 0%nat) ->
    par_keyed b the_db N the_clients the_parties the_keys (pc_pkey (the_pc P)) (pc_skey (the_pc P)).
  Proof using All.
    intros HN Hs Heq. destruct n_parties as (P1 & P2 & P3 & P4). split.
    - intros pk sk Hin. unfold the_keys in Hin. apply in_map_iff in Hin. destruct Hin as (pc & E & Hin). inversion E; subst.
      pose proof (us_keys _ _ _ _ _ Huse) as F. rewrite Forall_forall in F. exact (F _ Hin).
    - rewrite parties_length. apply keys_at. lia.
    - unfold the_clients. apply Forall_map, Forall_forall. intros i Hi. apply in_seq in Hi. split; [cbn; symmetry; exact keys_fst|].
      rewrite keys_count. pose proof (proj2 (Hfair i)) as F. rewrite Nat.div_small in F by lia. rewrite P4 in F. apply F.
    - exists (Z.to_nat (queries 0%nat)). unfold the_clients. apply Forall_map, Forall_forall. intros i Hi. rewrite asked_length, (Heq i). reflexivity.
    - intros k confs i sf Hc Hsf. apply nth_error_seq0 in Hc. destruct Hc as [Hk ->]. apply nth_error_seq0 in Hsf. destruct Hsf as [Hi ->].
      split; [cbn; symmetry; exact keys_fst|]. split; [cbn; apply keys_at; lia|]. rewrite keys_count. cbn [the_server sf_conf the_conf pf_rand].
      pose proof (proj2 (Hfair (S k * N + i)%nat)) as F. rewrite server_div in F by exact Hi. rewrite P4 in F. apply F.
    - intros k confs Hc. apply nth_error_seq0 in Hc. destruct Hc as [Hk ->]. exists (Z.to_nat (the_sample 0)).
      intros i sf j Hsf _. apply nth_error_seq0 in Hsf. destruct Hsf as [Hi ->]. cbn [the_server sf_conf the_conf pf_samples].
      rewrite (samples_const j 0 Hs). destruct dist_ok as [_ D]. pose proof (D 0%nat). lia.
  Qed.
  Lemma several_programs p : 1 < cg_servers_n cfg -> (p < (P + 2) * N)%nat ->
    exists r, main_program b asserts rng flog sampling iter junk (command name stage queries N p) (Some file) (en p) (sr p) = Ok (Some r) /\
      ru_program r = Siblings (par_entity b asserts rng iter off on N (fun p => sr_mem (sr p)) (fun p => sr_acc (sr p)) the_db junk the_clients the_parties
        (pc_pkey (the_pc P)) (pc_skey (the_pc P)) p).
  Proof using All.
    intros HN Hp. destruct n_servers as (N1 & N2 & N3). set (e := (p / N)%nat). set (i := (p mod N)%nat).
    assert (Hi : (i < N)%nat) by (apply Nat.mod_upper_bound; lia). assert (Ep : p = (e * N + i)%nat) by (rewrite (Nat.div_mod p N) at 1 by lia; unfold e, i; lia).
    assert (He : (e < P + 2)%nat) by (apply Nat.div_lt_upper_bound; lia). clearbody e i. rewrite Ep in *. clear Hp Ep p.
    assert (E1 : (cg_servers_n cfg =? 1) = false) by (apply Z.eqb_neq; lia).
    unfold par_entity. rewrite server_div, server_mod by exact Hi. rewrite parties_length. destruct e as [|k].
    - cbn [Nat.mul Nat.add]. eexists. split; [apply boot_client_Ok; exact Hi|]. cbn [ru_program]. rewrite E1.
      unfold the_clients. rewrite nth_error_map_seq by exact Hi. reflexivity.
    - destruct (Nat.eq_dec k P) as [->|Hk].
      + eexists. split; [apply boot_backend_Ok; exact Hi|]. rewrite E1. cbn [ru_program].
        rewrite (proj2 (nth_error_None the_parties P)) by (rewrite parties_length; lia). rewrite Nat.eqb_refl. reflexivity.
      + eexists. split; [apply boot_party_Ok; [lia|exact Hi]|]. rewrite E1. cbn [ru_program].
        unfold the_parties. rewrite nth_error_map_seq by lia. rewrite nth_error_map_seq by exact Hi. reflexivity.
  Qed.

  (** ** The deployment with one server per party *)

  Definition the_line : list pconf := map (fun k => the_conf k 0) (seq 0 P).
  Lemma line_length : List.length the_line = P.
  Proof using All. unfold the_line. rewrite map_length, seq_length. reflexivity. Qed.
  Lemma single_deployment : cg_servers_n cfg = 1 -> deployment rng the_db (the_client 0) the_line the_keys.
  Proof using All.
    intros HN. assert (EN : N = 1%nat) by (unfold N; rewrite HN; reflexivity).
    destruct n_parties as (P1 & P2 & P3 & P4). destruct n_rows as (R1 & R2 & R3 & R4). split.
    - rewrite line_length, keys_count. reflexivity.
    - rewrite keys_count. exact P3.
    - intros k cf Hc. apply nth_error_seq0 in Hc. destruct Hc as [Hk ->].
      split; cbn [the_conf pf_party pf_parties pf_server pf_servers pf_db pf_seed pf_samples].
      + reflexivity.
      + rewrite keys_count. exact P4.
      + reflexivity.
      + exact HN.
      + reflexivity.
      + apply Hrng.
      + intros j _. destruct dist_ok as [_ D]. destruct (D j). lia.
    - rewrite db_length. split; [exact R3|exact R4].
    - exact db_wf.
    - apply asked_range.
    - rewrite asked_length, db_length, Nat2Z.inj_add. pose proof Htotal as Ht. rewrite EN in Ht. cbn [seq map list_sum fold_right] in Ht.
      unfold the_line. rewrite map_map.
      pose proof (sum_most (fun k => noise_total rows (the_conf k 0)) (fun _ => rows) most (seq 0 P)
        (fun k _ => noise_most rows (the_conf k 0) most (samples_most k 0))) as B. rewrite sum_const, seq_length, Nat2Z.inj_mul, R1 in B. lia.
  Qed.
  Lemma single_keyed : cg_servers_n cfg = 1 ->
    keyed b the_db (the_client 0) the_line the_keys (pc_pkey (the_pc P)) (pc_skey (the_pc P)).
  Proof using All.
    intros HN. assert (EN : N = 1%nat) by (unfold N; rewrite HN; reflexivity). destruct n_parties as (P1 & P2 & P3 & P4). split.
    - intros pk sk Hin. unfold the_keys in Hin. apply in_map_iff in Hin. destruct Hin as (pc & E & Hin). inversion E; subst.
      pose proof (us_keys _ _ _ _ _ Huse) as F. rewrite Forall_forall in F. exact (F _ Hin).
    - intros k cf Hc. apply nth_error_seq0 in Hc. destruct Hc as [Hk ->]. split.
      + cbn. symmetry. exact keys_fst.
      + cbn. apply keys_at. lia.
      + rewrite keys_count. cbn [the_conf pf_rand].
        pose proof (proj2 (Hfair (S k * N + 0)%nat)) as F. rewrite server_div in F by lia. rewrite P4 in F. apply F.
    - rewrite line_length. apply keys_at. lia.
    - cbn. symmetry. exact keys_fst.
    - rewrite keys_count. pose proof (proj2 (Hfair 0%nat)) as F. rewrite Nat.div_small in F by lia. rewrite P4 in F. apply F.
  Qed.
  Lemma single_programs p : cg_servers_n cfg = 1 -> (p < P + 2)%nat ->
    exists r, main_program b asserts rng flog sampling iter junk (command name stage queries 1 p) (Some file) (en p) (sr p) = Ok (Some r) /\
      ru_program r = Serial (entity b asserts rng off on (fun p => sm_link (sr_mem (sr p))) the_db junk (the_client 0) the_line
        (pc_pkey (the_pc P)) (pc_skey (the_pc P)) p).
  Proof using All.
    intros HN Hp. assert (EN : N = 1%nat) by (unfold N; rewrite HN; reflexivity). assert (E1 : (cg_servers_n cfg =? 1) = true) by (apply Z.eqb_eq; exact HN).
    rewrite <- EN. assert (Ep : p = (p * N + 0)%nat) by (rewrite EN; lia). unfold entity. rewrite line_length. destruct p as [|k].
    - eexists. split; [apply boot_client_Ok; lia|]. cbn [ru_program]. rewrite E1. reflexivity.
    - destruct (Nat.eq_dec k P) as [->|Hk].
      + rewrite (proj2 (nth_error_None the_line P)) by (rewrite line_length; lia). rewrite Nat.eqb_refl.
        pose proof (boot_backend_Ok 0 ltac:(lia)) as B. rewrite E1, <- Ep in B. eexists. split; [exact B|reflexivity].
      + unfold the_line. rewrite nth_error_map_seq by lia.
        pose proof (boot_party_Ok k 0 ltac:(lia) ltac:(lia)) as B. rewrite E1, <- Ep in B. eexists. split; [exact B|reflexivity].
  Qed.

  (** The rows the clients end up with. *)
  Lemma row_at k : 0 <= k < cg_db cfg -> nth_error the_db (Z.to_nat k) = Some (row_of k).
  Proof using All.
    intros Hk. unfold the_db, rows. rewrite nth_error_map_seq by lia. unfold db_row, row_of, SIG_SIZE, w32. rewrite Z2Nat.id by lia. reflexivity.
  Qed.
  Lemma rows_are i res : map Some res = map (fun k => nth_error the_db (Z.to_nat k)) (ct_keys (the_client i)) -> res = map row_of (asked cfg (en i) (queries i)).
  Proof using All.
    intros H. assert (E : map Some res = map Some (map row_of (asked cfg (en i) (queries i)))).
    { rewrite H, map_map. apply map_ext_in. intros k Hk. apply row_at. pose proof (asked_range i) as F. rewrite Forall_forall in F. specialize (F k Hk).
      rewrite db_length in F. destruct n_rows as (R1 & _). lia. }
    clear H. revert E. generalize (map row_of (asked cfg (en i) (queries i))) as l. induction res as [|x r IH]; intros [|y l] E; inversion E; [reflexivity|].
    f_equal. apply IH. assumption.
  Qed.

  (** ** Who connects to whom *)

  Definition main_addr (k i : nat) : list Z * Z := (sv_ip (the_sv k i), sv_port (the_sv k i)).
  Definition side_addr (k i : nat) : list Z * Z := (sv_ip (the_sv k i), sv_parallel (the_sv k i)).
  Lemma addr_apart k i k' i' a : NoDup (addresses cfg) -> (k < S P)%nat -> (k' < S P)%nat -> (i < N)%nat -> (i' < N)%nat ->
    (a = main_addr k i \/ a = side_addr k i) -> (a = main_addr k' i' \/ a = side_addr k' i') ->
    k = k' /\ i = i' /\ (a = main_addr k i -> a = side_addr k i -> False).
  Proof using All.
    intros H Hk Hk' Hi Hi' Ha Ha'. unfold addresses in H.
    destruct (at_pc k Hk) as [Pk _]. destruct (at_pc k' Hk') as [Pk' _]. pose proof (at_sv k i Hk Hi) as Sk. pose proof (at_sv k' i' Hk' Hi') as Sk'.
    set (f := fun sv : Config.sconf => [(sv_ip sv, sv_port sv); (sv_ip sv, sv_parallel sv)]) in *.
    assert (I1 : List.In a (f (the_sv k i))) by (cbn; unfold main_addr, side_addr in Ha; intuition).
    assert (I2 : List.In a (f (the_sv k' i'))) by (cbn; unfold main_addr, side_addr in Ha'; intuition).
    assert (E : k = k').
    { refine (nodup_flat_at _ _ H k k' _ _ a Pk Pk' _ _); apply in_flat_map.
      - exists (the_sv k i). split; [eapply nth_error_In; exact Sk|exact I1].
      - exists (the_sv k' i'). split; [eapply nth_error_In; exact Sk'|exact I2]. }
    subst k'. split; [reflexivity|]. pose proof (nodup_flat_in _ _ _ H (nth_error_In _ _ Pk)) as H2.
    split; [exact (nodup_flat_at _ _ H2 i i' _ _ a Sk Sk' I1 I2)|]. pose proof (nodup_flat_in _ _ _ H2 (nth_error_In _ _ Sk)) as H3.
    intros E1 E2. cbn in H3. inversion H3 as [|? ? X _]. apply X. left. unfold main_addr, side_addr in *. congruence.
  Qed.
  (** The addresses that the configuration tells server i of entity e to connect to. *)
  Definition told (e i : nat) : list (list Z * Z) :=
    (if (e <=? P)%nat then [main_addr e i] else []) ++ match e with O => [] | S k => map (side_addr k) (seq (S i) (N - S i)) end.
  Lemma sockets_of e i r : (e < P + 2)%nat -> (i < N)%nat ->
    main_program b asserts rng flog sampling iter junk (command name stage queries N (e * N + i)) (Some file) (en (e * N + i)%nat) (sr (e * N + i)%nat) = Ok (Some r) ->
    ru_dials r = dials asserts (sr_stack (sr (e * N + i)%nat)) 0 (told e i) /\
    ru_listens r = match e with O => [] | S k => sv_port (the_sv k i) :: (if (0 <? i)%nat then [sv_parallel (the_sv k i)] else []) end.
  Proof using All.
    unfold told. intros He Hi H. assert (E1 : (cg_servers_n cfg =? 1) = true -> N = 1%nat) by (intros E; apply Z.eqb_eq in E; unfold N; rewrite E; reflexivity).
    destruct e as [|k]; [|destruct (Nat.eq_dec k P) as [->|Hk]].
    - cbn [Nat.mul Nat.add] in H. rewrite (boot_client_Ok i Hi) in H. inversion H. split; reflexivity.
    - rewrite (boot_backend_Ok i Hi) in H. rewrite (proj2 (Nat.leb_gt (S P) P)) by lia.
      destruct (cg_servers_n cfg =? 1); inversion H; clear H; [|split; reflexivity]. rewrite (E1 eq_refl) in *. replace i with 0%nat by lia. split; reflexivity.
    - rewrite (boot_party_Ok k i ltac:(lia) Hi) in H. rewrite (proj2 (Nat.leb_le (S k) P)) by lia.
      destruct (cg_servers_n cfg =? 1); inversion H; clear H; [|split; reflexivity]. rewrite (E1 eq_refl) in *. replace i with 0%nat by lia. split; reflexivity.
  Qed.
  Lemma host_of k i : (k < S P)%nat -> (i < N)%nat -> host cfg N (S k * N + i) = Some (sv_ip (the_sv k i)).
  Proof using All.
    intros Hk Hi. unfold host. rewrite server_div, server_mod by exact Hi. rewrite (proj1 (at_pc k Hk)), (at_sv k i Hk Hi). reflexivity.
  Qed.
  Lemma wires_text (proc : nat -> running) : NoDup (addresses cfg) ->
    (forall p, (p < (P + 2) * N)%nat ->
      main_program b asserts rng flog sampling iter junk (command name stage queries N p) (Some file) (en p) (sr p) = Ok (Some (proc p))) ->
    forall p q n, (p < (P + 2) * N)%nat -> (q < (P + 2) * N)%nat ->
      ((exists a, List.In a (told (p / N) (p mod N)) /\ host cfg N q = Some (fst a) /\ nth_error (ru_listens (proc q)) n = Some (snd a)) <-> n = 0%nat /\ q = (p + N)%nat \/ n = 1%nat /\ (1 <= p / N)%nat /\ (p / N = q / N)%nat /\ (p < q)%nat).
  Proof using All.
    intros Hd Hp p q n Lp Lq. destruct n_servers as (N1 & N2 & N3).
    assert (Split : forall p, (p < (P + 2) * N)%nat -> exists e i, p = (e * N + i)%nat /\ (i < N)%nat /\ (e < P + 2)%nat).
    { intros x Hx. exists (x / N)%nat, (x mod N)%nat. split; [rewrite (Nat.div_mod x N) at 1 by lia; lia|]. split; [apply Nat.mod_upper_bound; lia|apply Nat.div_lt_upper_bound; lia]. }
    destruct (Split p Lp) as (e & i & -> & Hi & He). destruct (Split q Lq) as (e' & i' & -> & Hi' & He').
    destruct (sockets_of e' i' _ He' Hi' (Hp _ Lq)) as (_ & Li).
    rewrite Li. rewrite !server_div, !server_mod by assumption. unfold told. clear Hp Li Split. split.
    - intros (a & Ia & Ho & Hn). destruct e' as [|k']; [cbn [host] in Ho; unfold host in Ho; rewrite server_div in Ho by exact Hi'; discriminate Ho|].
      rewrite (host_of k' i') in Ho by (try exact Hi'; lia). inversion Ho as [Ho'].
      assert (Ha' : n = 0%nat /\ a = main_addr k' i' \/ n = 1%nat /\ a = side_addr k' i').
      { destruct n as [|[|n]]; cbn [nth_error] in Hn.
        - left. split; [reflexivity|]. inversion Hn as [Hn']. unfold main_addr. rewrite Ho', Hn'. destruct a; reflexivity.
        - right. split; [reflexivity|]. destruct (0 <? i')%nat; cbn in Hn; [|discriminate Hn]. inversion Hn as [Hn']. unfold side_addr. rewrite Ho', Hn'. destruct a; reflexivity.
        - destruct (0 <? i')%nat; cbn in Hn; [destruct n|]; discriminate Hn. }
      apply in_app_or in Ia. destruct Ia as [Ia|Ia].
      + destruct (e <=? P)%nat eqn:Le; [|destruct Ia]. apply Nat.leb_le in Le. destruct Ia as [<-|[]].
        destruct (addr_apart e i k' i' (main_addr e i) Hd) as (<- & <- & X); try lia; try tauto.
        destruct Ha' as [(-> & _)|(_ & Ha')]; [|destruct (X eq_refl Ha')]. left. split; [reflexivity|]. lia.
      + destruct e as [|k]; [destruct Ia|]. apply in_map_iff in Ia. destruct Ia as (t & <- & It). apply in_seq in It.
        destruct (addr_apart k t k' i' (side_addr k t) Hd) as (<- & <- & X); try lia; try tauto.
        destruct Ha' as [(_ & Ha')|(-> & _)]; [destruct (X Ha' eq_refl)|]. right. split; [reflexivity|]. lia.
    - intros [(-> & Eq)|(-> & H1 & <- & H3)].
      + assert (X : e' = S e /\ i' = i). { rewrite <- Nat.add_assoc, (Nat.add_comm i N), Nat.add_assoc in Eq. replace (e * N + N)%nat with (S e * N)%nat in Eq by lia.
          split; [rewrite <- (server_div N e' i' Hi'), Eq; apply server_div; exact Hi|rewrite <- (server_mod N e' i' Hi'), Eq; apply server_mod; exact Hi]. }
        destruct X as [-> ->]. exists (main_addr e i). split; [|split; [apply host_of; [lia|exact Hi]|reflexivity]].
        rewrite (proj2 (Nat.leb_le e P)) by lia. left. reflexivity.
      + destruct e as [|k]; [lia|]. assert (Hlt : (i < i')%nat) by lia. exists (side_addr k i'). split; [|split; [apply host_of; [lia|exact Hi']|]].
        * apply in_or_app. right. apply in_map. apply in_seq. lia.
        * rewrite (proj2 (Nat.ltb_lt 0 i')) by lia. reflexivity.
  Qed.
  Lemma told_in e i a : (e < P + 2)%nat -> (i < N)%nat -> List.In a (told e i) -> List.In a (addresses cfg).
  Proof using All.
    intros He Hi H. unfold told in H. apply in_app_or in H.
    assert (X : forall k t, (k < S P)%nat -> (t < N)%nat -> List.In (main_addr k t) (addresses cfg) /\ List.In (side_addr k t) (addresses cfg)).
    { intros k t Hk Ht. unfold addresses. split; apply in_flat_map; exists (the_pc k); (split; [eapply nth_error_In; exact (proj1 (at_pc k Hk))|]);
        apply in_flat_map; exists (the_sv k t); (split; [eapply nth_error_In; exact (at_sv k t Hk Ht)|]); cbn; auto. }
    destruct H as [H|H].
    - destruct (Nat.leb_spec e P) as [L|L]; [|destruct H]. destruct H as [<-|[]]. apply X; [lia|exact Hi].
    - destruct e as [|k]; [destruct H|]. apply in_map_iff in H as (t & <- & It). apply in_seq in It. apply X; lia.
  Qed.
  Lemma wires (proc : nat -> running) : asserts = true -> NoDup (addresses cfg) -> numeric cfg ->
    (forall p, (p < (P + 2) * N)%nat ->
      main_program b asserts rng flog sampling iter junk (command name stage queries N p) (Some file) (en p) (sr p) = Ok (Some (proc p))) ->
    forall p q n, (p < (P + 2) * N)%nat -> (q < (P + 2) * N)%nat ->
      (connects cfg N proc p q n <-> n = 0%nat /\ q = (p + N)%nat \/ n = 1%nat /\ (1 <= p / N)%nat /\ (p / N = q / N)%nat /\ (p < q)%nat).
  Proof using All.
    intros Ha Hd Hv Hp p q n Lp Lq. rewrite <- (wires_text proc Hd Hp p q n Lp Lq). destruct n_servers as (N1 & N2 & N3).
    assert (Le : (p / N < P + 2)%nat) by (apply Nat.div_lt_upper_bound; lia). assert (Li : (p mod N < N)%nat) by (apply Nat.mod_upper_bound; lia).
    assert (Ep : p = (p / N * N + p mod N)%nat) by (rewrite (Nat.div_mod p N) at 1 by lia; lia).
    pose proof (Hp p Lp) as Hr. rewrite Ep in Hr at 1 2 3. destruct (sockets_of _ _ _ Le Li Hr) as (Di & _). rewrite <- Ep in Di.
    unfold connects. rewrite Di. rewrite Ha. apply dials_in. apply Forall_forall. intros a Ia.
    unfold numeric in Hv. rewrite Forall_forall in Hv. apply Hv. apply (told_in _ _ _ Le Li Ia).
  Qed.
  Lemma entity_of p : (p < (P + 2) * N)%nat -> (p / N < P + 2)%nat /\ (p mod N < N)%nat /\ p = (p / N * N + p mod N)%nat.
  Proof using All.
    intros Lp. destruct n_servers as (N1 & N2 & N3). split; [apply Nat.div_lt_upper_bound; lia|]. split; [apply Nat.mod_upper_bound; lia|].
    rewrite (Nat.div_mod p N) at 1 by lia. lia.
  Qed.
  Lemma sockets p r : (p < (P + 2) * N)%nat ->
    main_program b asserts rng flog sampling iter junk (command name stage queries N p) (Some file) (en p) (sr p) = Ok (Some r) ->
    ru_dials r = dials asserts (sr_stack (sr p)) 0 (told (p / N) (p mod N)).
  Proof using All.
    intros Lp Hr. destruct (entity_of p Lp) as (Le & Li & Ep). rewrite Ep in Hr at 1 2 3. destruct (sockets_of _ _ _ Le Li Hr) as (Di & _).
    rewrite <- Ep in Di. exact Di.
  Qed.
  Lemma starts p : (p < (P + 2) * N)%nat ->
    exists r, main_program b asserts rng flog sampling iter junk (command name stage queries N p) (Some file) (en p) (sr p) = Ok (Some r).
  Proof using All.
    intros Lp. destruct (entity_of p Lp) as (Le & Li & ->). generalize dependent (p mod N)%nat. generalize dependent (p / N)%nat. intros e He i Hi.
    destruct e as [|k]; [cbn [Nat.mul Nat.add]; rewrite (boot_client_Ok i Hi); eexists; reflexivity|].
    destruct (Nat.eq_dec k P) as [->|Hk]; [rewrite (boot_backend_Ok i Hi)|rewrite (boot_party_Ok k i ltac:(lia) Hi)]; eexists; reflexivity.
  Qed.
  Lemma dials_length p r : (p < (P + 2) * N)%nat ->
    main_program b asserts rng flog sampling iter junk (command name stage queries N p) (Some file) (en p) (sr p) = Ok (Some r) ->
    List.length (ru_dials r) = (match p / N with O => 1 | S k => (if k =? P then 0 else 1) + (N - 1 - p mod N) end)%nat.
  Proof using All.
    intros Lp Hr. rewrite (sockets p r Lp Hr), dials_count. destruct (entity_of p Lp) as (Le & _ & _). unfold told. rewrite app_length.
    destruct (p / N)%nat as [|k]; [reflexivity|]. rewrite map_length, seq_length. destruct (Nat.eqb_spec k P) as [->|Hk].
    - rewrite (proj2 (Nat.leb_gt (S P) P)) by lia. cbn [List.length]. lia.
    - rewrite (proj2 (Nat.leb_le (S k) P)) by lia. cbn [List.length]. lia.
  Qed.
  Lemma some_wires p r : asserts = true -> (p < (P + 2) * N)%nat ->
    main_program b asserts rng flog sampling iter junk (command name stage queries N p) (Some file) (en p) (sr p) = Ok (Some r) ->
    forall j a, nth_error (ru_dials r) j = Some a -> exists ip, List.In (ip, snd a) (addresses cfg) /\
      (ip4 (fst a) /\ ip = dotted (fst a) \/ fst a = sr_stack (sr p) j /\ forall x, ip4 x -> ip <> dotted x).
  Proof using All.
    intros Ha Lp Hr j a Ej. rewrite (sockets p r Lp Hr), Ha in Ej. destruct (entity_of p Lp) as (Le & Li & _).
    destruct (dials_nth _ _ _ _ _ Ej) as (ip & Ip & X). exists ip. split; [exact (told_in _ _ _ Le Li (nth_error_In _ _ Ip))|exact X].
  Qed.
  (** Without assertions, the configured addresses play no role. *)
  Lemma no_wires p r : asserts = false -> (p < (P + 2) * N)%nat ->
    main_program b asserts rng flog sampling iter junk (command name stage queries N p) (Some file) (en p) (sr p) = Ok (Some r) ->
    map fst (ru_dials r) = map (sr_stack (sr p)) (seq 0 (List.length (ru_dials r))).
  Proof using All.
    intros Ha Lp Hr. rewrite (sockets p r Lp Hr), Ha. apply dials_stack.
  Qed.
End Run.
