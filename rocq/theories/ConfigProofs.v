(** Proofs about the configuration reader and writer. *)
From Verif Require Import Base BaseProofs Config ConfigSpec.

(** ** A parser over lists, without pointers and counters *)
Definition obind {A B} (o : option A) (f : A -> option B) : option B := match o with Some a => f a | None => None end.
Notation "'opt*' x ':=' e 'in' k" := (obind e (fun x => k))
  (at level 200, x pattern, e at level 100, k at level 200, right associativity).

Definition p_take (n : nat) (l : list Z) : option (list Z * list Z) :=
  if (n <=? length l)%nat then Some (firstn n l, skipn n l) else None.
Definition p_int (l : list Z) : option (Z * list Z) := opt* (b, r) := p_take 4 l in Some (to_int (of_le b), r).
Definition p_double (l : list Z) : option (Z * list Z) := opt* (b, r) := p_take 8 l in Some (of_le b, r).
Fixpoint p_str (l : list Z) : option (list Z * list Z) :=
  match l with
  | [] => None
  | c :: t => if c =? 0 then Some ([], t) else opt* (s, r) := p_str t in Some (c :: s, r)
  end.
Fixpoint p_servers (n : nat) (l : list Z) : option (list sconf * list Z) :=
  match n with
  | O => Some ([], l)
  | S n' =>
      opt* (seed, l1) := p_int l in
      opt* (port, l2) := p_int l1 in
      opt* (par, l3) := p_int l2 in
      opt* (ip, l4) := p_str l3 in
      opt* (rest, l5) := p_servers n' l4 in
      Some ({| sv_seed := seed; sv_port := port; sv_parallel := par; sv_ip := ip |} :: rest, l5)
  end.
Fixpoint p_parties (servers n : nat) (l : list Z) : option (list pcfg * list Z) :=
  match n with
  | O => Some ([], l)
  | S n' =>
      opt* (seed, l1) := p_int l in
      opt* (pk, l2) := p_take KEY_SIZE l1 in
      opt* (sk, l3) := p_take KEY_SIZE l2 in
      opt* (svs, l4) := p_servers servers l3 in
      opt* (rest, l5) := p_parties servers n' l4 in
      Some ({| pc_seed := seed; pc_servers := svs; pc_pkey := pk; pc_skey := sk |} :: rest, l5)
  end.
Definition p_config (l : list Z) : option (config * list Z) :=
  opt* (db, l1) := p_int l in
  opt* (eps, l2) := p_double l1 in
  opt* (del, l3) := p_double l2 in
  opt* (pn, l4) := p_int l3 in
  opt* (sn, l5) := p_int l4 in
  opt* (ps, l6) := p_parties (Z.to_nat (w8 sn)) (Z.to_nat (w8 pn)) l5 in
  Some ({| cg_db := w32 db; cg_epsilon := eps; cg_delta := del;
           cg_parties_n := w8 pn; cg_servers_n := w8 sn; cg_parties := ps |}, l6).

(** Parsing is not affected by what follows. *)
Definition local {A} (p : list Z -> option (A * list Z)) : Prop :=
  forall l v r x, p l = Some (v, r) -> p (l ++ x) = Some (v, r ++ x).
Lemma local_bind {A B} (p : list Z -> option (A * list Z)) (q : A -> list Z -> option (B * list Z)) :
  local p -> (forall a, local (q a)) -> local (fun l => opt* (a, r) := p l in q a r).
Proof.
  intros Hp Hq l v r x H. destruct (p l) as [[a r1]|] eqn:E; [|discriminate]. cbn in H.
  rewrite (Hp _ _ _ x E). cbn. apply Hq. exact H.
Qed.
Lemma local_ret {A B} (f : A -> B) (a : A) : local (fun l => Some (f a, l)).
Proof. intros l v r x H. inversion H. reflexivity. Qed.
Lemma local_some {A} (a : A) : local (fun l => Some (a, l)).
Proof. intros l v r x H. inversion H. reflexivity. Qed.
Lemma local_take n : local (p_take n).
Proof.
  intros l v r x H. unfold p_take in *. rewrite app_length.
  destruct (Nat.leb_spec n (length l)) as [L|L]; [|discriminate]. inversion H.
  destruct (Nat.leb_spec n (length l + length x)); [|lia].
  rewrite firstn_app, skipn_app. replace (n - length l)%nat with 0%nat by lia. cbn [firstn skipn]. rewrite app_nil_r. reflexivity.
Qed.
Lemma local_int : local p_int.
Proof. apply (local_bind (p_take 4) (fun b r => Some (to_int (of_le b), r))); [apply local_take|intros; apply local_some]. Qed.
Lemma local_double : local p_double.
Proof. apply (local_bind (p_take 8) (fun b r => Some (of_le b, r))); [apply local_take|intros; apply local_some]. Qed.
Lemma local_str : local p_str.
Proof.
  intros l. induction l as [|c t IH]; intros v r x H; [discriminate|]. cbn in *. destruct (c =? 0); [inversion H; reflexivity|].
  destruct (p_str t) as [[s r1]|] eqn:E; [|discriminate]. rewrite (IH _ _ x eq_refl). cbn in *. inversion H. reflexivity.
Qed.
Lemma local_servers n : local (p_servers n).
Proof.
  induction n as [|n IH]; [apply local_some|]. cbn [p_servers].
  apply local_bind; [apply local_int|intros seed]. apply local_bind; [apply local_int|intros port].
  apply local_bind; [apply local_int|intros par]. apply local_bind; [apply local_str|intros ip].
  apply local_bind; [apply IH|intros rest]. apply local_some.
Qed.
Lemma local_parties sn n : local (p_parties sn n).
Proof.
  induction n as [|n IH]; [apply local_some|]. cbn [p_parties].
  apply local_bind; [apply local_int|intros seed]. apply local_bind; [apply local_take|intros pk].
  apply local_bind; [apply local_take|intros sk]. apply local_bind; [apply local_servers|intros svs].
  apply local_bind; [apply IH|intros rest]. apply local_some.
Qed.
Lemma local_config : local p_config.
Proof.
  unfold p_config. apply local_bind; [apply local_int|intros db]. apply local_bind; [apply local_double|intros eps].
  apply local_bind; [apply local_double|intros del]. apply local_bind; [apply local_int|intros pn].
  apply local_bind; [apply local_int|intros sn]. apply local_bind; [apply local_parties|intros ps]. apply local_some.
Qed.

(** ** The reader implements the parser *)
(** [good]: the cursor stands before [l], the rest of the string.  [bad]: it
    consumed the terminating NUL, and the byte counter has wrapped. *)
Definition good (mem : list Z) (u : cursor) (l : list Z) : Prop :=
  skipn (cu_off u) mem = l ++ [0] /\ cu_n u = Z.of_nat (length l) /\ Z.of_nat (length l) < 2 ^ 64.
Definition bad (mem : list Z) (u : cursor) : Prop := skipn (cu_off u) mem = [] /\ cu_n u = 2 ^ 64 - 1.

(** What a reading function does from a good cursor and from a bad one. *)
Definition reads {A} (asserts : bool) (mem : list Z) (f : cursor -> res (A * cursor)) (p : list Z -> option (A * list Z)) : Prop :=
  forall u, (forall l, good mem u l ->
    match p l with
    | Some (v, l') => exists u', f u = Ok (v, u') /\ good mem u' l'
    | None => f u = UB \/ (asserts = true /\ f u = Abort) \/ exists v u', f u = Ok (v, u') /\ bad mem u'
    end) /\
  (bad mem u -> f u = UB \/ exists v, f u = Ok (v, u)).

Lemma reads_bind {A B} asserts mem (f : cursor -> res (A * cursor)) p (g : A -> cursor -> res (B * cursor)) q :
  reads asserts mem f p -> (forall a, reads asserts mem (g a) (q a)) ->
  reads asserts mem (fun u => let* (a, u') := f u in g a u') (fun l => opt* (a, r) := p l in q a r).
Proof.
  intros Hf Hg u. destruct (Hf u) as [Hf1 Hf2]. split.
  - intros l G. specialize (Hf1 l G). destruct (p l) as [[a l1]|]; cbn [obind].
    + destruct Hf1 as (u1 & -> & G1). cbn [bind]. destruct (Hg a u1) as [H _]. exact (H l1 G1).
    + destruct Hf1 as [->|[[Ha ->]|(a & u1 & -> & B1)]]; cbn [bind]; auto.
      destruct (Hg a u1) as [_ H]. destruct (H B1) as [->|[v ->]]; auto. right; right. exists v, u1. auto.
  - intros B0. destruct (Hf2 B0) as [->|[a ->]]; cbn [bind]; auto. destruct (Hg a u) as [_ H]. destruct (H B0) as [->|[v ->]]; eauto.
Qed.
Lemma reads_ret {A} asserts mem (a : A) : reads asserts mem (fun u => Ok (a, u)) (fun l => Some (a, l)).
Proof. intros u. split; [intros l G; eauto|intros B0; eauto]. Qed.

Lemma skipn_step {A} (m : list A) o k l r : skipn o m = l ++ r -> length l = k -> skipn (o + k) m = r.
Proof.
  assert (X : forall o m', skipn (o + k) m' = skipn k (skipn o (m' : list A))).
  { intros o'. induction o' as [|o' IH]; intros m'; [reflexivity|]. destruct m'; [rewrite !skipn_nil; reflexivity|]. cbn. apply IH. }
  intros H L. rewrite X, H, skipn_app, <- L, Nat.sub_diag, skipn_all. reflexivity.
Qed.

Lemma good_take mem u l n : (n <= length l)%nat -> good mem u l ->
  rd mem (cu_off u) n = Ok (firstn n l) /\ good mem (advance_cursor u n) (skipn n l).
Proof.
  intros Hn (G1 & G2 & G3). assert (Lm : (length mem - cu_off u = length l + 1)%nat).
  { rewrite <- skipn_length, G1, app_length. reflexivity. }
  split.
  - unfold rd. destruct (Nat.leb_spec (cu_off u + n) (length mem)); [|lia]. rewrite G1, firstn_app.
    replace (n - length l)%nat with 0%nat by lia. cbn [firstn]. rewrite app_nil_r. reflexivity.
  - unfold good, advance_cursor; cbn [cu_off cu_n]. repeat split.
    + apply skipn_step with (firstn n l); [rewrite G1, app_assoc, firstn_skipn; reflexivity|]. rewrite firstn_length. lia.
    + rewrite skipn_length, G2. unfold w64. rewrite Z.mod_small; lia.
    + rewrite skipn_length. lia.
Qed.
Lemma bad_take mem u n : (0 < n)%nat -> bad mem u -> rd mem (cu_off u) n = UB.
Proof.
  intros Hn (B1 & _). unfold rd. destruct (Nat.leb_spec (cu_off u + n) (length mem)) as [L|L]; [|reflexivity].
  assert (X : length (skipn (cu_off u) mem) = 0%nat) by (rewrite B1; reflexivity). rewrite skipn_length in X. lia.
Qed.
(** Too short by exactly the terminator, or by more. *)
Lemma short_take mem u l n : (length l < n)%nat -> good mem u l ->
  rd mem (cu_off u) n = UB \/ (exists b, rd mem (cu_off u) n = Ok b /\ bad mem (advance_cursor u n)).
Proof.
  intros Hn (G1 & G2 & G3). assert (Lm : (length mem - cu_off u = length l + 1)%nat).
  { rewrite <- skipn_length, G1, app_length. reflexivity. }
  unfold rd. destruct (Nat.leb_spec (cu_off u + n) (length mem)) as [L|L]; [right|left; reflexivity].
  assert (En : n = S (length l)) by lia. eexists. split; [reflexivity|].
  unfold bad, advance_cursor; cbn [cu_off cu_n]. split.
  - apply skipn_step with (l ++ [0]); [rewrite G1, app_nil_r; reflexivity|]. rewrite app_length. cbn. lia.
  - rewrite G2. unfold w64. subst n.
    rewrite Nat2Z.inj_succ. replace (Z.of_nat (length l) - Z.succ (Z.of_nat (length l))) with (-1) by lia. reflexivity.
Qed.

Lemma reads_raw {A} asserts mem n (d : list Z -> A) : (0 < n)%nat ->
  reads asserts mem (fun u => let* b := rd mem (cu_off u) n in Ok (d b, advance_cursor u n)) (fun l => opt* (b, r) := p_take n l in Some (d b, r)).
Proof.
  intros Hn u. split.
  - intros l G. unfold p_take. destruct (Nat.leb_spec n (length l)) as [L|L]; cbn [obind].
    + destruct (good_take mem u l n L G) as [-> G']. cbn [bind]. eauto.
    + destruct (short_take mem u l n L G) as [->|(b & -> & B)]; cbn [bind]; [auto|]. right; right. eauto.
  - intros B. rewrite bad_take by assumption. auto.
Qed.
Lemma reads_int asserts mem : reads asserts mem (bin2int mem) p_int.
Proof. apply (reads_raw asserts mem 4 (fun b => to_int (of_le b))). lia. Qed.
Lemma reads_double asserts mem : reads asserts mem (bin2double mem) p_double.
Proof. apply (reads_raw asserts mem 8 of_le). lia. Qed.
Lemma reads_buffer asserts mem n : (0 < n)%nat -> Z.of_nat n < 2 ^ 64 -> reads asserts mem (read_into_buffer asserts n mem) (p_take n).
Proof.
  intros Hn Hn2 u. unfold read_into_buffer. split.
  - intros l G. unfold p_take. destruct (Nat.leb_spec n (length l)) as [L|L].
    + destruct (good_take mem u l n L G) as [E G']. rewrite E. destruct G as (_ & G2 & _). rewrite G2.
      destruct (Z.leb_spec (Z.of_nat n) (Z.of_nat (length l))); [|lia]. destruct asserts; cbn [bind assert_]; eauto.
    + destruct asserts.
      * destruct G as (_ & G2 & _). rewrite G2. destruct (Z.leb_spec (Z.of_nat n) (Z.of_nat (length l))); [lia|]. cbn [bind assert_]. auto.
      * cbn [bind]. destruct (short_take mem u l n L G) as [->|(b & -> & B)]; cbn [bind]; [auto|]. right; right. eauto.
  - intros B. rewrite bad_take by assumption. destruct B as (_ & ->).
    destruct (Z.leb_spec (Z.of_nat n) (2 ^ 64 - 1)); [|lia]. destruct asserts; cbn [bind assert_]; auto.
Qed.

Lemma str_scan_spec asserts l : forall i, Z.of_nat (length l + i) < 2 ^ 64 ->
  match p_str l with
  | Some (s, r) => str_scan asserts (l ++ [0]) (Z.of_nat (length l + i)) i = Ok (i + length s)%nat /\ l = s ++ 0 :: r
  | None => str_scan asserts (l ++ [0]) (Z.of_nat (length l + i)) i = if asserts then Abort else UB
  end.
Proof.
  induction l as [|c t IH]; intros i Hb.
  - cbn [p_str app length str_scan]. destruct (Z.ltb_spec (Z.of_nat i) (Z.of_nat (0 + i))); [lia|]. reflexivity.
  - cbn [p_str app str_scan]. destruct (Z.ltb_spec (Z.of_nat i) (Z.of_nat (length (c :: t) + i))); [|cbn [length] in *; lia].
    destruct (Z.eqb_spec c 0) as [->|Hc].
    + split; [f_equal; cbn; lia|reflexivity].
    + specialize (IH (S i)). replace (length t + S i)%nat with (length (c :: t) + i)%nat in IH by (cbn; lia). specialize (IH Hb).
      destruct (p_str t) as [[s r]|]; cbn [obind]; [|exact IH]. destruct IH as [-> ->]. split; [f_equal; cbn; lia|reflexivity].
Qed.
Lemma reads_str asserts mem : reads asserts mem (bin2str asserts mem) p_str.
Proof.
  intros u. unfold bin2str. split.
  - intros l G. destruct (good_take mem u l 0 ltac:(lia) G) as [_ _]. pose proof G as (G1 & G2 & G3). rewrite G1, G2.
    pose proof (str_scan_spec asserts l 0) as S. rewrite Nat.add_0_r in S. specialize (S G3).
    destruct (p_str l) as [[s r]|] eqn:E.
    + destruct S as [-> El]. cbn [bind Nat.add]. eexists. split.
      * do 2 f_equal. rewrite El. rewrite <- app_assoc, firstn_app, Nat.sub_diag, firstn_all. cbn [firstn]. apply app_nil_r.
      * destruct (good_take mem u l (S (length s))) as [_ G'].
        { rewrite El, app_length. cbn. lia. } { exact G. }
        replace (skipn (S (length s)) l) with r in G'; [exact G'|].
        rewrite El. rewrite skipn_app. replace (S (length s) - length s)%nat with 1%nat by lia. rewrite skipn_all2 by lia. reflexivity.
    + rewrite S. destruct asserts; cbn [bind]; auto.
  - intros (B1 & B2). rewrite B1, B2. cbn. auto.
Qed.
Lemma reads_servers asserts mem n : reads asserts mem (des_servers asserts mem n) (p_servers n).
Proof.
  induction n as [|n IH]; [apply reads_ret|]. cbn [des_servers p_servers].
  apply reads_bind; [apply reads_int|intros seed]. apply reads_bind; [apply reads_int|intros port].
  apply reads_bind; [apply reads_int|intros par]. apply reads_bind; [apply reads_str|intros ip].
  apply reads_bind; [apply IH|intros rest]. apply reads_ret.
Qed.
Lemma reads_parties asserts mem sn n : reads asserts mem (des_parties asserts mem sn n) (p_parties sn n).
Proof.
  induction n as [|n IH]; [apply reads_ret|]. cbn [des_parties p_parties].
  apply reads_bind; [apply reads_int|intros seed]. apply reads_bind; [apply reads_buffer; unfold KEY_SIZE; lia|intros pk].
  apply reads_bind; [apply reads_buffer; unfold KEY_SIZE; lia|intros sk]. apply reads_bind; [apply reads_servers|intros svs].
  apply reads_bind; [apply IH|intros rest]. apply reads_ret.
Qed.

Lemma deserialize_spec asserts s : Z.of_nat (length s) < 2 ^ 64 ->
  match p_config s with
  | Some (c, []) => deserialize asserts s = Ok c
  | Some (c, _ :: _) => deserialize asserts s = if asserts then Abort else Ok c
  | None => deserialize true s = UB \/ deserialize true s = Abort
  end.
Proof.
  intros Hs. set (mem := s ++ [0]).
  assert (R : forall asserts, reads asserts mem (fun u =>
    let* (db, u1) := bin2int mem u in let* (eps, u2) := bin2double mem u1 in let* (del, u3) := bin2double mem u2 in
    let* (pn, u4) := bin2int mem u3 in let* (sn, u5) := bin2int mem u4 in
    let* (ps, u6) := des_parties asserts mem (Z.to_nat (w8 sn)) (Z.to_nat (w8 pn)) u5 in
    Ok ({| cg_db := w32 db; cg_epsilon := eps; cg_delta := del;
           cg_parties_n := w8 pn; cg_servers_n := w8 sn; cg_parties := ps |}, u6)) p_config).
  { intros a. unfold p_config. apply reads_bind; [apply reads_int|intros db]. apply reads_bind; [apply reads_double|intros eps].
    apply reads_bind; [apply reads_double|intros del]. apply reads_bind; [apply reads_int|intros pn].
    apply reads_bind; [apply reads_int|intros sn]. apply reads_bind; [apply reads_parties|intros ps]. apply reads_ret. }
  set (u0 := {| cu_off := 0; cu_n := Z.of_nat (length s) |}).
  assert (G : good mem u0 s) by (unfold good, u0, mem; cbn; auto).
  assert (D : forall a, deserialize a s = let* (c, u) := (let* (db, u1) := bin2int mem u0 in let* (eps, u2) := bin2double mem u1 in let* (del, u3) := bin2double mem u2 in
    let* (pn, u4) := bin2int mem u3 in let* (sn, u5) := bin2int mem u4 in
    let* (ps, u6) := des_parties a mem (Z.to_nat (w8 sn)) (Z.to_nat (w8 pn)) u5 in
    Ok ({| cg_db := w32 db; cg_epsilon := eps; cg_delta := del;
           cg_parties_n := w8 pn; cg_servers_n := w8 sn; cg_parties := ps |}, u6)) in
    let* _ := (if a then assert_ (cu_n u =? 0) else Ok tt) in Ok c).
  { intros a. unfold deserialize. fold mem u0.
    destruct (bin2int mem u0) as [[db u1]| | |]; cbn [bind]; try reflexivity.
    destruct (bin2double mem u1) as [[eps u2]| | |]; cbn [bind]; try reflexivity.
    destruct (bin2double mem u2) as [[del u3]| | |]; cbn [bind]; try reflexivity.
    destruct (bin2int mem u3) as [[pn u4]| | |]; cbn [bind]; try reflexivity.
    destruct (bin2int mem u4) as [[sn u5]| | |]; cbn [bind]; try reflexivity.
    destruct (des_parties a mem _ _ u5) as [[ps u6]| | |]; cbn [bind]; reflexivity. }
  destruct (p_config s) as [[c r]|] eqn:E.
  - pose proof (proj1 (R asserts u0) s G) as H. rewrite E in H. destruct H as (u' & Hd & (_ & Gn & _)).
    rewrite D, Hd. cbn [bind]. rewrite Gn. destruct r as [|z r]; cbn [length].
    + destruct asserts; reflexivity.
    + destruct (Z.eqb_spec (Z.of_nat (S (length r))) 0); [lia|]. destruct asserts; reflexivity.
  - pose proof (proj1 (R true u0) s G) as H. rewrite E in H. rewrite D.
    destruct H as [->|[[_ ->]|(v & u' & -> & (_ & B))]]; cbn [bind]; auto. rewrite B. cbn. auto.
Qed.

(** ** Parsing what was written *)
Lemma take_app a l : p_take (length a) (a ++ l) = Some (a, l).
Proof.
  unfold p_take. rewrite app_length. destruct (Nat.leb_spec (length a) (length a + length l)); [|lia].
  rewrite firstn_app, skipn_app, Nat.sub_diag, firstn_all, skipn_all. cbn [firstn skipn app]. rewrite app_nil_r. reflexivity.
Qed.
Lemma int_u32 z : to_int (w32 z) = (z + 2 ^ 31) mod 2 ^ 32 - 2 ^ 31.
Proof. unfold to_int, w32. destruct (Z.ltb_spec (z mod 2 ^ 32) (2 ^ 31)); dlia. Qed.
Lemma p_int_app v l : p_int (int2bin v ++ l) = Some (to_int (w32 v), l).
Proof.
  unfold p_int, int2bin. replace 4%nat with (length (le 4 (w32 v))) at 1 by apply length_le. rewrite take_app. cbn [obind].
  rewrite of_le_le_small; [reflexivity|]. unfold w32. change (256 ^ Z.of_nat 4) with (2 ^ 32). apply Z.mod_pos_bound. lia.
Qed.
Lemma p_int_int v l : int_val v -> p_int (int2bin v ++ l) = Some (v, l).
Proof. intros H. rewrite p_int_app, int_u32. unfold int_val in H. do 2 f_equal. rewrite Z.mod_small by lia. lia. Qed.
Lemma p_double_app v l : u64 v -> p_double (double2bin v ++ l) = Some (v, l).
Proof.
  intros H. unfold p_double, double2bin. replace 8%nat with (length (le 8 v)) at 1 by apply length_le. rewrite take_app. cbn [obind].
  rewrite of_le_le_small; [reflexivity|]. exact H.
Qed.
Lemma p_str_app s l : Forall (fun c => c <> 0) s -> p_str (s ++ [0] ++ l) = Some (s, l).
Proof.
  induction s as [|c s IH]; intros H; [reflexivity|]. cbn [app p_str]. destruct (Z.eqb_spec c 0) as [->|_]; [inversion H; contradiction|].
  inversion H. cbn [app] in IH. rewrite IH by assumption. reflexivity.
Qed.

Lemma p_servers_ser svs l : Forall server_val svs -> p_servers (length svs) (concat (map ser_server svs) ++ l) = Some (svs, l).
Proof.
  revert l. induction svs as [|s svs IH]; intros l H; [reflexivity|]. apply Forall_cons_iff in H. destruct H as [(H1 & H2 & H3 & H4) H0].
  cbn [length map concat p_servers]. unfold ser_server. rewrite <- !app_assoc.
  rewrite p_int_int by assumption. cbn [obind]. rewrite p_int_int by assumption. cbn [obind].
  rewrite p_int_int by assumption. cbn [obind]. rewrite p_str_app by assumption. cbn [obind].
  rewrite IH by assumption. cbn [obind]. destruct s; reflexivity.
Qed.
Lemma ser_party_ok asserts sn p : party_val sn p -> ser_party asserts sn p =
  Ok (int2bin (pc_seed p) ++ pc_pkey p ++ pc_skey p ++ concat (map ser_server (pc_servers p))).
Proof. intros (_ & _ & _ & H & _). unfold ser_party. rewrite H, Z.eqb_refl. destruct asserts; reflexivity. Qed.
Lemma map_ser_parties asserts sn ps : Forall (party_val sn) ps -> exists bs, map_res (ser_party asserts sn) ps = Ok bs /\
  forall l, p_parties (Z.to_nat sn) (length ps) (concat bs ++ l) = Some (ps, l).
Proof.
  induction ps as [|p ps IH]; intros H; [exists []; split; reflexivity|]. apply Forall_cons_iff in H. destruct H as [Hp H0].
  destruct (IH H0) as (bs & E & P). eexists. split.
  - cbn [map_res]. rewrite (ser_party_ok asserts sn p Hp). cbn [bind]. rewrite E. reflexivity.
  - intros l. destruct Hp as (H1 & H2 & H3 & H4 & H5). cbn [concat length p_parties]. rewrite <- !app_assoc.
    rewrite p_int_int by assumption. cbn [obind].
    unfold KEY_SIZE. rewrite <- H2 at 1. rewrite take_app. cbn [obind]. rewrite <- H3. rewrite take_app. cbn [obind].
    replace (Z.to_nat sn) with (length (pc_servers p)) at 1 by lia. rewrite p_servers_ser by assumption. cbn [obind].
    rewrite P. cbn [obind]. destruct p; reflexivity.
Qed.
Lemma serialize_parses asserts c : config_val c -> exists d, serialize asserts c = Ok d /\ forall l, p_config (d ++ l) = Some (c, l).
Proof.
  intros (H1 & H2 & H3 & H4 & H5 & H6 & H7). unfold serialize. rewrite H6, Z.eqb_refl.
  destruct (map_ser_parties asserts _ _ H7) as (bs & E & P). rewrite E. eexists. split; [destruct asserts; reflexivity|].
  intros l. unfold p_config. rewrite <- !app_assoc. rewrite p_int_app. cbn [obind]. rewrite p_double_app by assumption. cbn [obind].
  rewrite p_double_app by assumption. cbn [obind]. unfold u8, u32 in *.
  rewrite p_int_int by (unfold int_val; lia). cbn [obind]. rewrite p_int_int by (unfold int_val; lia). cbn [obind].
  replace (w8 (cg_parties_n c)) with (cg_parties_n c) by (unfold w8; rewrite Z.mod_small; lia).
  replace (w8 (cg_servers_n c)) with (cg_servers_n c) by (unfold w8; rewrite Z.mod_small; lia).
  replace (Z.to_nat (cg_parties_n c)) with (length (cg_parties c)) by lia. rewrite P. cbn [obind].
  replace (w32 (to_int (w32 (cg_db c)))) with (cg_db c); [destruct c; reflexivity|].
  rewrite int_u32. unfold w32. dlia.
Qed.

(** ** Generated configurations *)
Lemma map_res_Forall2 {A B} (f : A -> res B) l r : map_res f l = Ok r -> Forall2 (fun a b => f a = Ok b) l r.
Proof.
  revert r. induction l as [|a l IH]; intros r H; cbn in H; [inversion H; constructor|].
  apply bind_Ok in H as (b & Hb & H). apply bind_Ok in H as (r' & Hr & H). inversion H; subst. constructor; auto.
Qed.
Lemma Forall2_impl {A B} (P Q : A -> B -> Prop) l r : (forall a b, P a b -> Q a b) -> Forall2 P l r -> Forall2 Q l r.
Proof. intros H F. induction F; constructor; auto. Qed.
Lemma Forall2_map {A B C} (g : B -> C) (h : A -> C) (P : A -> B -> Prop) l r :
  (forall a b, P a b -> g b = h a) -> Forall2 P l r -> map g r = map h l.
Proof. intros H F. induction F as [|a b l r Hab F IH]; [reflexivity|]. cbn. f_equal; [apply H; exact Hab|exact IH]. Qed.

(** Server number k of the whole deployment. *)
Definition numbered (s : sconf) : Prop := sv_port s = 3000 + sv_seed s /\ sv_parallel s = 4000 + sv_seed s.
Lemma gen_party_spec sn ip keys i p : gen_party sn ip keys i = Ok p ->
  pc_seed p = Z.of_nat i + 1000 /\ pc_pkey p = fst (keys i) /\ pc_skey p = snd (keys i) /\
  length (pc_servers p) = Z.to_nat sn /\
  Forall2 (fun j s => sv_seed s = Z.of_nat i * sn + Z.of_nat j /\ numbered s /\ ip i j = Ok (sv_ip s)) (seq 0 (Z.to_nat sn)) (pc_servers p).
Proof.
  intros H. unfold gen_party in H. apply bind_Ok in H as (svs & Hv & H). inversion H; subst; cbn.
  pose proof (map_res_length _ _ _ Hv) as L. rewrite seq_length in L. repeat split; auto.
  apply map_res_Forall2 in Hv. eapply Forall2_impl; [|exact Hv]. intros j s E. apply bind_Ok in E as (a & Ha & E).
  inversion E; subst; cbn. unfold numbered; cbn. repeat split; auto.
Qed.
Lemma map_shift b m : forall s, map (fun j => Z.of_nat b + Z.of_nat j) (seq s m) = map Z.of_nat (seq (b + s) m).
Proof.
  induction m as [|m IH]; intros s; cbn [seq map]; [reflexivity|]. f_equal; [lia|]. rewrite IH. do 2 f_equal. lia.
Qed.
Lemma seeds_concat m n : forall (ps : list pcfg) a,
  Forall2 (fun i p => map sv_seed (pc_servers p) = map (fun j => Z.of_nat i * Z.of_nat m + Z.of_nat j) (seq 0 m)) (seq a n) ps ->
  map sv_seed (concat (map pc_servers ps)) = map Z.of_nat (seq (a * m) (n * m)).
Proof.
  induction n as [|n IH]; intros ps a F; cbn [seq] in F; inversion F as [|i p is ps' Hp F' E1 E2]; subst; [reflexivity|].
  cbn [map concat]. rewrite map_app, Hp. rewrite (IH ps' (S a) F').
  replace (S n * m)%nat with (m + n * m)%nat by lia. rewrite seq_app, map_app. f_equal.
  - rewrite <- Nat2Z.inj_mul, map_shift. do 2 f_equal. lia.
  - do 2 f_equal. lia.
Qed.

(** What a generated list of parties looks like. *)
Definition generated (pn sn : nat) (ps : list pcfg) : Prop :=
  length ps = pn /\ map pc_seed ps = map (fun i => Z.of_nat i + 1000) (seq 0 pn) /\
  Forall (fun p => length (pc_servers p) = sn) ps /\
  map sv_seed (concat (map pc_servers ps)) = map Z.of_nat (seq 0 (pn * sn)) /\
  Forall numbered (concat (map pc_servers ps)).
Lemma generated_spec pn sn ip keys ps : 0 <= sn -> map_res (gen_party sn ip keys) (seq 0 pn) = Ok ps -> generated pn (Z.to_nat sn) ps.
Proof.
  intros Hs H. pose proof (map_res_length _ _ _ H) as L. rewrite seq_length in L. apply map_res_Forall2 in H.
  assert (F : Forall2 (fun i p => pc_seed p = Z.of_nat i + 1000 /\ length (pc_servers p) = Z.to_nat sn /\
     map sv_seed (pc_servers p) = map (fun j => Z.of_nat i * Z.of_nat (Z.to_nat sn) + Z.of_nat j) (seq 0 (Z.to_nat sn)) /\
     Forall numbered (pc_servers p)) (seq 0 pn) ps).
  { eapply Forall2_impl; [|exact H]. intros i p E. cbn beta in E. apply gen_party_spec in E as (E1 & _ & _ & E4 & E5). repeat split; auto.
    - rewrite Z2Nat.id by exact Hs. eapply Forall2_map; [|exact E5]. cbn beta. tauto.
    - clear -E5. induction E5 as [|j s l r (_ & N & _) F IH]; constructor; auto. }
  clear H. repeat split.
  - exact L.
  - eapply Forall2_map; [|exact F]. cbn beta. tauto.
  - clear -F. induction F as [|j s l r (_ & N & _) F IH]; constructor; auto.
  - rewrite (seeds_concat (Z.to_nat sn) pn ps 0); [reflexivity|]. eapply Forall2_impl; [|exact F]. cbn beta. tauto.
  - clear -F. induction F as [|j s l r (_ & _ & _ & N) F IH]; cbn; [constructor|]. apply Forall_app. auto.
Qed.

Lemma numbered_ports l : Forall numbered l -> map sv_port l = map (fun k => 3000 + k) (map sv_seed l) /\
  map sv_parallel l = map (fun k => 4000 + k) (map sv_seed l).
Proof. induction 1 as [|s l (H1 & H2) H (I1 & I2)]; cbn; [auto|]. rewrite H1, H2, I1, I2. auto. Qed.
Lemma NoDup_shift c l : NoDup l -> NoDup (map (fun k => c + k) l).
Proof. intros H. apply FinFun.Injective_map_NoDup; [|exact H]. intros x y E. lia. Qed.
Lemma NoDup_numbers n : NoDup (map Z.of_nat (seq 0 n)).
Proof. apply FinFun.Injective_map_NoDup; [|apply seq_NoDup]. intros x y E. lia. Qed.
Lemma In_numbers n k : In k (map Z.of_nat (seq 0 n)) <-> 0 <= k < Z.of_nat n.
Proof.
  rewrite in_map_iff. split.
  - intros (i & <- & Hi). apply in_seq in Hi. lia.
  - intros H. exists (Z.to_nat k). split; [lia|]. apply in_seq. lia.
Qed.

Lemma generated_ports pn sn ps : generated pn sn ps ->
  let svs := concat (map pc_servers ps) in
  NoDup (map sv_port svs) /\ NoDup (map sv_parallel svs) /\ NoDup (map sv_seed svs) /\ NoDup (map pc_seed ps) /\
  ((forall s t, In s svs -> In t svs -> sv_port s <> sv_parallel t) <-> (pn * sn <= 1000)%nat) /\
  ((forall s, In s svs -> 0 < sv_port s < 2 ^ 16 /\ 0 < sv_parallel s < 2 ^ 16) <-> Z.of_nat (pn * sn) <= 61536).
Proof.
  intros (_ & Hseed & _ & E & N) svs. fold svs in E, N. pose proof (numbered_ports svs N) as [P1 P2]. rewrite E in P1, P2.
  rewrite Forall_forall in N.
  assert (X : forall s, In s svs -> 0 <= sv_seed s < Z.of_nat (pn * sn)).
  { intros s Hs. apply In_numbers. rewrite <- E. apply in_map. exact Hs. }
  assert (Y : forall k, 0 <= k < Z.of_nat (pn * sn) -> exists s, In s svs /\ sv_seed s = k).
  { intros k Hk. apply In_numbers in Hk. rewrite <- E in Hk. apply in_map_iff in Hk as (s & H1 & H2). eauto. }
  repeat split.
  - rewrite P1. apply NoDup_shift, NoDup_numbers.
  - rewrite P2. apply NoDup_shift, NoDup_numbers.
  - rewrite E. apply NoDup_numbers.
  - rewrite Hseed. apply FinFun.Injective_map_NoDup; [|apply seq_NoDup]. intros x y H. lia.
  - intros H. destruct (le_lt_dec (pn * sn) 1000) as [L|L]; [exact L|exfalso].
    destruct (Y 1000) as (s & Hs & Es); [lia|]. destruct (Y 0) as (t & Ht & Et); [lia|].
    apply (H s t Hs Ht). destruct (N s Hs) as [-> _]. destruct (N t Ht) as [_ ->]. lia.
  - intros L s t Hs Ht. destruct (N s Hs) as [-> _]. destruct (N t Ht) as [_ ->]. pose proof (X s Hs). pose proof (X t Ht). lia.
  - intros H. destruct (Z_le_gt_dec (Z.of_nat (pn * sn)) 61536) as [L|L]; [exact L|exfalso].
    destruct (Y 61536) as (s & Hs & Es); [lia|]. destruct (H s Hs) as [_ H2]. destruct (N s Hs) as [_ N2]. rewrite N2 in H2. lia.
  - destruct (N s H0) as [-> _]. pose proof (X s H0). lia.
  - destruct (N s H0) as [-> _]. pose proof (X s H0). lia.
  - destruct (N s H0) as [_ ->]. pose proof (X s H0). lia.
  - destruct (N s H0) as [_ ->]. pose proof (X s H0). lia.
Qed.

(** Generated configurations are valid values. *)
Lemma generated_val a db eps del parties servers ips keys cfg :
  from_args a db eps del parties servers ips keys = Ok cfg -> u64 eps -> u64 del ->
  (forall i, length (fst (keys i)) = 32%nat /\ length (snd (keys i)) = 32%nat) -> Forall (Forall (fun c => c <> 0)) ips -> config_val cfg.
Proof.
  intros H Ue Ud Hk Hi. unfold from_args in H. apply bind_Ok in H as (? & _ & H). apply bind_Ok in H as (ps & Hps & H).
  inversion H; subst. clear H. pose proof (w8_u8 parties) as U1. pose proof (w8_u8 servers) as U2.
  pose proof (map_res_length _ _ _ Hps) as L. rewrite seq_length in L. apply map_res_Forall2 in Hps.
  unfold config_val; cbn [cg_db cg_epsilon cg_delta cg_parties_n cg_servers_n cg_parties].
  split; [apply w32_u32|]. do 4 (split; [assumption|]). unfold u8 in *. split; [lia|].
  apply Forall_forall. intros pc Ip. destruct (In_nth_error _ _ Ip) as (k & Nk).
  assert (X : exists i, (i < Z.to_nat (w8 parties))%nat /\ gen_party (w8 servers) (fun i j : nat => if 6 + Z.of_nat (length ips) =? 6 then Ok localhost else get ips (i * Z.to_nat (w8 servers) + j)) keys i = Ok pc).
  { clear -Hps Ip. assert (B : forall i, In i (seq 0 (Z.to_nat (w8 parties))) -> (i < Z.to_nat (w8 parties))%nat) by (intros i I; apply in_seq in I; lia).
    revert Hps B Ip. generalize (seq 0 (Z.to_nat (w8 parties))) as l. intros l F. induction F as [|i p l ps E F IH]; intros B Ip; [destruct Ip|].
    destruct Ip as [->|Ip]; [exists i; split; [apply B; left; reflexivity|exact E]|]. apply IH; [|exact Ip]. intros j J. apply B. right. exact J. }
  destruct X as (i & Li & E). apply gen_party_spec in E as (E1 & E2 & E3 & E4 & E5). destruct (Hk i) as [K1 K2].
  unfold party_val. rewrite E1, E2, E3, E4. split; [unfold int_val; lia|]. split; [exact K1|]. split; [exact K2|]. split; [lia|].
  assert (B : forall j, In j (seq 0 (Z.to_nat (w8 servers))) -> Z.of_nat j < w8 servers) by (intros j J; apply in_seq in J; lia).
  revert E5 B. generalize (seq 0 (Z.to_nat (w8 servers))) as l. generalize (pc_servers pc) as svs. intros svs l F.
  induction F as [|j sv l svs (A1 & (A2 & A3) & A4) F IH]; intros B; [constructor|]. constructor; [|apply IH; intros j' I; apply B; right; exact I].
  assert (Hj : Z.of_nat j < w8 servers) by (apply B; left; reflexivity).
  assert (Hs : 0 <= sv_seed sv < 2 ^ 16) by (rewrite A1; nia).
  unfold server_val, int_val. rewrite A2, A3. do 3 (split; [lia|]).
  destruct (6 + Z.of_nat (length ips) =? 6).
  - inversion A4. clear. repeat constructor; lia.
  - unfold get in A4. destruct (nth_error ips _) as [ip|] eqn:En; [|discriminate]. inversion A4; subst. apply nth_error_In in En.
    rewrite Forall_forall in Hi. apply (Hi _ En).
Qed.
