(** Proofs about [Incremental]. *)
From Coq Require Import Znumtheory.
From Verif Require Import Base BaseProofs Incremental.

(** ** 2^31 - 1 is prime *)

Fixpoint no_small_divisor (p : Z) (n : nat) (d : Z) : bool :=
  match n with
  | O => true
  | S n' => negb (p mod d =? 0) && no_small_divisor p n' (d + 1)
  end.

Lemma no_small_divisor_spec p n : forall d0,
  no_small_divisor p n d0 = true ->
  forall d, d0 <= d < d0 + Z.of_nat n -> p mod d <> 0.
Proof.
  induction n as [|n IH]; intros d0 H d Hd; [lia|].
  cbn [no_small_divisor] in H. apply andb_true_iff in H. destruct H as [H1 H2].
  destruct (Z.eq_dec d d0) as [->|Hne].
  - rewrite negb_true_iff, Z.eqb_neq in H1. exact H1.
  - apply (IH (d0 + 1)); [exact H2|lia].
Qed.

Lemma PRIME_no_small : no_small_divisor PRIME (Z.to_nat 46340) 2 = true.
Proof. vm_compute. reflexivity. Qed.

Lemma PRIME_prime : prime PRIME.
Proof.
  apply prime_alt. split; [unfold PRIME; lia|].
  intros n Hn [k Hk].
  assert (Hn2 : 46342 <= n).
  { destruct (Z_lt_ge_dec n 46342); [|lia].
    exfalso. apply (no_small_divisor_spec _ _ _ PRIME_no_small n); [lia|].
    rewrite Hk. apply Z.mod_mul. lia. }
  assert (Hk2 : 46342 <= k).
  { destruct (Z_lt_ge_dec k 46342); [|lia].
    assert (1 < k) by (unfold PRIME in *; nia).
    exfalso. apply (no_small_divisor_spec _ _ _ PRIME_no_small k); [lia|].
    rewrite Hk, Z.mul_comm. apply Z.mod_mul. lia. }
  unfold PRIME in *. nia.
Qed.

(** ** Extended Euclid *)

(** Bezout identity and size of the coefficients. *)
Lemma gcd_extended_spec fuel : forall k a b,
  (2 * k + 1 <= fuel)%nat -> 0 <= a < 2 ^ Z.of_nat k -> 0 < b < 2 ^ 32 -> a < 2 ^ 32 ->
  exists x y, gcd_extended fuel a b = Ok (x, y) /\
    a * x + b * y = Z.gcd a b /\ Z.abs x <= b /\ Z.abs y <= Z.max 1 a.
Proof.
  assert (Step : forall f a b x y,
    0 < a < 2 ^ 32 -> 0 < b < 2 ^ 32 ->
    gcd_extended f (b mod a) a = Ok (x, y) ->
    (b mod a) * x + a * y = Z.gcd (b mod a) a ->
    Z.abs x <= a -> Z.abs y <= Z.max 1 (b mod a) ->
    exists x' y', gcd_extended (S f) a b = Ok (x', y') /\
      a * x' + b * y' = Z.gcd a b /\ Z.abs x' <= b /\ Z.abs y' <= Z.max 1 a).
  { intros f a b x y Ha Hb E B Hx Hy.
    cbn [gcd_extended]. destruct (Z.eqb_spec a 0); [lia|].
    rewrite E. cbn [bind fst snd].
    assert (Hq : 0 <= b / a) by (apply Z.div_pos; lia).
    assert (Hdm : b = a * (b / a) + b mod a) by (apply Z.div_mod; lia).
    assert (Hm : 0 <= b mod a < a) by (apply Z.mod_pos_bound; lia).
    assert (Hqx : Z.abs (b / a * x) <= b).
    { rewrite Z.abs_mul, (Z.abs_eq (b / a)) by lia. nia. }
    rewrite s64_ok by lia. cbn [bind].
    assert (Hb2 : Z.abs (y - b / a * x) <= b).
    { destruct (Z.eq_dec (b mod a) 0) as [Hz|Hz].
      - (* then |y| <= 1; a*y = gcd = a so y = 1; x is arbitrary *)
        rewrite Hz in *. rewrite Z.gcd_0_l, Z.abs_eq in B by lia.
        assert (y = 1) by nia. subst y.
        destruct f; [discriminate|].
        cbn [gcd_extended] in E. inversion E; subst. lia.
      - assert (Z.abs y <= b mod a) by lia.
        assert (Z.abs (b / a * x) <= b / a * a).
        { rewrite Z.abs_mul, (Z.abs_eq (b / a)) by lia. nia. }
        lia. }
    rewrite s64_ok by lia. cbn [bind].
    exists (y - b / a * x), x. repeat split; try lia.
    rewrite <- (Z.gcd_mod b a) by lia.
    rewrite <- B. rewrite Hdm at 2. ring. }
  induction fuel as [fuel IH] using lt_wf_ind.
  intros k a b Hf Ha Hb Ha2.
  destruct fuel as [|f]; [lia|].
  destruct (Z.eq_dec a 0) as [->|Hnz].
  { cbn [gcd_extended]. destruct (Z.eqb_spec 0 0); [|lia].
    exists 0, 1. rewrite Z.gcd_0_l. repeat split; lia. }
  destruct k as [|k]; [cbn in Ha; lia|].
  destruct f as [|f]; [lia|].
  assert (Hm : 0 <= b mod a < a) by (apply Z.mod_pos_bound; lia).
  assert (exists x y, gcd_extended (S f) (b mod a) a = Ok (x, y) /\
    (b mod a) * x + a * y = Z.gcd (b mod a) a /\ Z.abs x <= a /\ Z.abs y <= Z.max 1 (b mod a))
    as (x & y & E & B & Hx & Hy).
  { destruct (Z.eq_dec (b mod a) 0) as [Hz|Hz].
    { rewrite Hz. exists 0, 1. rewrite Z.gcd_0_l.
      cbn [gcd_extended]. destruct (Z.eqb_spec 0 0); [|lia].
      repeat split; lia. }
    set (c := b mod a) in *.
    assert (Hm2 : 0 <= a mod c < c) by (apply Z.mod_pos_bound; lia).
    destruct (IH f ltac:(lia) k (a mod c) c) as (x & y & E & B & Hx & Hy).
    - lia.
    - (* two steps halve *)
      replace (2 ^ Z.of_nat (S k)) with (2 * 2 ^ Z.of_nat k) in Ha
        by (rewrite Nat2Z.inj_succ, Z.pow_succ_r; lia).
      assert (Hdm : a = c * (a / c) + a mod c) by (apply Z.div_mod; lia).
      assert (1 <= a / c) by (apply Z.div_le_lower_bound; lia).
      nia.
    - lia.
    - lia.
    - apply (Step f c a x y); auto; try lia. }
  apply (Step (S f) a b x y); auto; lia.
Qed.

Lemma mod_inverse_spec y :
  1 <= y < PRIME ->
  exists z, mod_inverse y PRIME = Ok z /\ 1 <= z < PRIME /\ (y * z) mod PRIME = 1.
Proof.
  intros Hy.
  destruct (gcd_extended_spec 65 32 y PRIME) as (x & w & E & B & Hx & Hw);
    try (unfold PRIME in *; cbn; lia).
  assert (G : Z.gcd y PRIME = 1).
  { apply Zgcd_1_rel_prime. apply rel_prime_sym.
    apply rel_prime_sym. apply rel_prime_le_prime; [apply PRIME_prime|lia]. }
  rewrite G in B.
  unfold mod_inverse. rewrite E. cbn [bind fst snd].
  assert (HP : PRIME = 2147483647) by reflexivity.
  set (v := if x <? 0 then x + PRIME else x).
  assert (Hv : 0 <= v <= PRIME).
  { unfold v. destruct (Z.ltb_spec x 0); lia. }
  rewrite s64_ok by lia. cbn [bind].
  rewrite Z.rem_mod_nonneg by lia.
  assert (Hr : 0 <= v mod PRIME < PRIME) by (apply Z.mod_pos_bound; lia).
  rewrite w32_id by (unfold u32; lia).
  assert (Heq : (y * (v mod PRIME)) mod PRIME = 1).
  { rewrite Z.mul_mod_idemp_r by lia.
    assert (exists k, y * v = 1 + k * PRIME) as [k ->].
    { unfold v. destruct (x <? 0).
      - exists (y - w). replace (y * (x + PRIME)) with (y * x + y * PRIME) by ring.
        replace (y * x) with (1 - PRIME * w) by lia. ring.
      - exists (- w). replace (y * x) with (1 - PRIME * w) by lia. ring. }
    rewrite Z.mod_add by lia. reflexivity. }
  exists (v mod PRIME). split; [reflexivity|]. split; [|assumption].
  destruct (Z.eq_dec (v mod PRIME) 0) as [Hz|]; [|lia].
  rewrite Hz, Z.mul_0_r in Heq. discriminate.
Qed.

(** ** Arithmetic modulo PRIME *)

Lemma PRIME_pos : 0 < PRIME. Proof. unfold PRIME; lia. Qed.
Lemma PRIME_nz : PRIME <> 0. Proof. unfold PRIME; lia. Qed.
Lemma PRIME_val : PRIME = 2147483647. Proof. reflexivity. Qed.
Opaque PRIME.

Definition wf_share (s : ishare) : Prop := 0 <= sx s < PRIME /\ 1 <= sy s < PRIME.

Lemma inv_exists y : y mod PRIME <> 0 ->
  exists z, 1 <= z < PRIME /\ (y * z) mod PRIME = 1.
Proof.
  intros H. pose proof PRIME_pos.
  pose proof (Z.mod_pos_bound y PRIME PRIME_pos).
  destruct (mod_inverse_spec (y mod PRIME)) as (z & _ & Hz & E); [lia|].
  exists z. split; [lia|]. rewrite Z.mul_mod_idemp_l in E by lia. exact E.
Qed.

Lemma mul_cancel_mod c a b :
  c mod PRIME <> 0 -> (c * a) mod PRIME = (c * b) mod PRIME -> a mod PRIME = b mod PRIME.
Proof.
  intros Hc E. pose proof PRIME_pos.
  destruct (inv_exists c Hc) as (z & _ & Hz).
  assert (forall v, (z * (c * v)) mod PRIME = v mod PRIME) as K.
  { intros v. replace (z * (c * v)) with ((c * z) * v) by ring.
    rewrite <- Z.mul_mod_idemp_l, Hz by lia. f_equal; ring. }
  rewrite <- (K a), <- (K b).
  rewrite <- (Z.mul_mod_idemp_r z (c * a)), <- (Z.mul_mod_idemp_r z (c * b)) by lia.
  rewrite E. reflexivity.
Qed.

Lemma mul_nonzero_mod a b :
  a mod PRIME <> 0 -> b mod PRIME <> 0 -> (a * b) mod PRIME <> 0.
Proof.
  intros Ha Hb E. apply Hb. pose proof PRIME_pos.
  rewrite (mul_cancel_mod a b 0 Ha); [apply Z.mod_0_l; lia|].
  rewrite Z.mul_0_r, E. symmetry. apply Z.mod_0_l. lia.
Qed.

Lemma reconstruct_eq t s :
  u32 t -> u32 (sx s) -> u32 (sy s) ->
  incremental_reconstruct t s = (t * sy s + sx s) mod PRIME /\
  0 <= t * sy s + sx s < 2 ^ 64 /\ 0 <= incremental_reconstruct t s < PRIME.
Proof.
  unfold u32. intros Ht Hx Hy. pose proof PRIME_val.
  assert (0 <= t * sy s <= (2 ^ 32 - 1) * (2 ^ 32 - 1)) by nia.
  assert (Hb : 0 <= t * sy s + sx s < 2 ^ 64) by lia.
  unfold incremental_reconstruct.
  rewrite (w64_id (t * sy s)) by (unfold u64; lia).
  rewrite (w64_id (t * sy s + sx s)) by (unfold u64; lia).
  pose proof (Z.mod_pos_bound (t * sy s + sx s) PRIME PRIME_pos).
  rewrite w32_id by (unfold u32; lia). auto.
Qed.

Lemma wf_u32 s : wf_share s -> u32 (sx s) /\ u32 (sy s).
Proof. unfold wf_share, u32. pose proof PRIME_val. lia. Qed.

Lemma tally_step_spec t s :
  u32 t -> wf_share s ->
  exists i, mod_inverse (sy s) PRIME = Ok i /\
    0 <= t + (if t <? sx s then PRIME else 0) - sx s < 2 ^ 33 /\
    0 <= (t + (if t <? sx s then PRIME else 0) - sx s) * i < 2 ^ 64 /\
    tally_step t s = Ok (((t - sx s) * i) mod PRIME) /\
    (((t - sx s) * i) mod PRIME * sy s + sx s) mod PRIME = t mod PRIME.
Proof.
  intros Ht Hs. pose proof PRIME_val as HP.
  destruct Hs as [Hx Hy].
  destruct (mod_inverse_spec (sy s) Hy) as (i & Ei & Hi & Hyi).
  exists i. split; [exact Ei|].
  set (t1 := t + (if t <? sx s then PRIME else 0) - sx s).
  assert (H1 : 0 <= t1 < 2 ^ 33).
  { unfold t1, u32 in *. destruct (Z.ltb_spec t (sx s)); lia. }
  assert (H2 : 0 <= t1 * i < 2 ^ 64) by nia.
  split; [exact H1|]. split; [exact H2|].
  assert (Hc : (t1 * i) mod PRIME = ((t - sx s) * i) mod PRIME).
  { unfold t1. destruct (t <? sx s); [|f_equal; ring].
    replace ((t + PRIME - sx s) * i) with ((t - sx s) * i + i * PRIME) by ring.
    apply Z.mod_add. lia. }
  split.
  - unfold tally_step. rewrite Ei. cbn [bind].
    rewrite (w64_id (t + _)) by (unfold u64, u32 in *; destruct (t <? sx s); lia).
    fold t1. rewrite (w64_id t1) by (unfold u64; lia).
    rewrite w64_id by (unfold u64; lia). rewrite Hc. reflexivity.
  - rewrite <- Z.add_mod_idemp_l by lia. rewrite Z.mul_mod_idemp_l by lia.
    replace ((t - sx s) * i * sy s) with ((sy s * i) * (t - sx s)) by ring.
    rewrite <- (Z.mul_mod_idemp_l (sy s * i)) by lia. rewrite Hyi, Z.mul_1_l.
    rewrite Z.add_mod_idemp_l by lia. f_equal. ring.
Qed.


Lemma tally_loop_cons s l i : forall t,
  tally_loop (s :: l) (S i) t = let* t' := tally_loop l i t in tally_step t' s.
Proof.
  induction i as [|i IH]; intros t.
  - cbn. destruct (tally_step t s); reflexivity.
  - change (tally_loop (s :: l) (S (S i)) t) with
      (let* a := get (s :: l) (S i) in let* t' := tally_step t a in tally_loop (s :: l) (S i) t').
    change (tally_loop l (S i) t) with
      (let* a := get l i in let* t' := tally_step t a in tally_loop l i t').
    change (get (s :: l) (S i)) with (get l i).
    destruct (get l i); cbn [bind]; auto.
    destruct (tally_step t a); cbn [bind]; auto.
Qed.

Lemma tally_loop_spec l : forall q,
  u32 q -> Forall wf_share l ->
  exists t, tally_loop l (length l) q = Ok t /\ u32 t /\
    (l <> [] -> 0 <= t < PRIME) /\
    reconstruct_all t l = match l with [] => q | _ => q mod PRIME end.
Proof.
  pose proof PRIME_val as HP.
  induction l as [|s l IH]; intros q Hq Hl.
  - exists q. cbn. repeat split; auto; try (unfold u32 in Hq; lia); congruence.
  - inversion Hl as [|? ? Hs Hl']; subst.
    destruct (IH q Hq Hl') as (t0 & E0 & Ht0 & Hb0 & R0).
    cbn [length]. rewrite tally_loop_cons, E0. cbn [bind].
    destruct (tally_step_spec t0 s Ht0 Hs) as (i & Ei & _ & _ & Es & Er).
    pose proof (Z.mod_pos_bound ((t0 - sx s) * i) PRIME PRIME_pos) as Hb.
    set (t := ((t0 - sx s) * i) mod PRIME) in *.
    exists t. split; [exact Es|].
    assert (Ht : u32 t) by (unfold u32; lia).
    repeat split; try (unfold u32 in *; lia); auto.
    unfold reconstruct_all. cbn [fold_left].
    destruct (wf_u32 s Hs) as [Hx Hy].
    destruct (reconstruct_eq t s Ht Hx Hy) as [-> _].
    rewrite Er.
    destruct l as [|s' l].
    + cbn. cbn in E0. inversion E0. reflexivity.
    + rewrite Z.mod_small by (apply Hb0; congruence). exact R0.
Qed.

Lemma generate_spec q l :
  u32 q -> Forall wf_share l ->
  exists t, generate_incremental_tally q l = Ok t /\ u32 t /\
    (l <> [] -> 0 <= t < PRIME) /\
    reconstruct_all t l = match l with [] => q | _ => q mod PRIME end.
Proof.
  intros Hq Hl. destruct (tally_loop_spec l q Hq Hl) as (t & E & Ht & Hb & R).
  exists t. unfold generate_incremental_tally. rewrite E. cbn [bind].
  rewrite w32_id by exact Ht. auto.
Qed.

Lemma pre_shares_wf rx ry n : forall i,
  (forall k, (i <= k < i + n)%nat -> 0 <= rx k < PRIME /\ 0 <= ry k < PRIME - 1) ->
  Forall wf_share (pre_shares rx ry n i) /\ length (pre_shares rx ry n i) = n.
Proof.
  pose proof PRIME_val.
  induction n as [|n IH]; intros i Hr; cbn [pre_shares length]; [auto|].
  destruct (IH (S i)) as [IH1 IH2]; [intros; apply Hr; lia|].
  split; [|congruence].
  constructor; auto. specialize (Hr i ltac:(lia)).
  unfold wf_share; cbn [sx sy]. rewrite w32_id by (unfold u32; lia). lia.
Qed.

Lemma roundtrip_list q l :
  0 <= q < PRIME -> Forall wf_share l ->
  exists t, generate_incremental_tally q l = Ok t /\ 0 <= t < PRIME /\ reconstruct_all t l = q.
Proof.
  pose proof PRIME_val. intros Hq Hl.
  destruct (generate_spec q l) as (t & E & Ht & Hb & R); auto; [unfold u32; lia|].
  exists t. split; [exact E|]. destruct l.
  - cbn in E. inversion E; subst. rewrite w32_id by (unfold u32; lia). auto.
  - split; [apply Hb; congruence|]. rewrite R. apply Z.mod_small. lia.
Qed.

Lemma c01_roundtrip rx ry n q :
  (forall k, (k < n)%nat -> 0 <= rx k < PRIME /\ 0 <= ry k < PRIME - 1) ->
  0 <= q < PRIME ->
  exists t, generate_incremental_tally q (pre_incremental_secret_shares rx ry n) = Ok t /\
            reconstruct_all t (pre_incremental_secret_shares rx ry n) = q.
Proof.
  intros Hr Hq.
  destruct (pre_shares_wf rx ry n 0) as [Hw _]; [intros; apply Hr; lia|].
  destruct (roundtrip_list q _ Hq Hw) as (t & E & _ & R). eauto.
Qed.

Lemma c02_domain rx ry n q :
  (forall k, (k < n)%nat -> 0 <= rx k < PRIME /\ 0 <= ry k < PRIME - 1) ->
  (0 < n)%nat -> 0 <= q < 2 ^ 32 ->
  exists t, generate_incremental_tally q (pre_incremental_secret_shares rx ry n) = Ok t /\
            reconstruct_all t (pre_incremental_secret_shares rx ry n) = q mod PRIME /\
            (reconstruct_all t (pre_incremental_secret_shares rx ry n) = q <-> q < PRIME).
Proof.
  intros Hr Hn Hq. pose proof PRIME_pos.
  destruct (pre_shares_wf rx ry n 0) as [Hw Hl]; [intros; apply Hr; lia|].
  fold (pre_incremental_secret_shares rx ry n) in *.
  destruct (generate_spec q _ Hq Hw) as (t & E & Ht & Hb & R).
  exists t. split; [exact E|].
  destruct (pre_incremental_secret_shares rx ry n) eqn:D; [cbn in Hl; lia|].
  rewrite R. split; [reflexivity|]. split; intros K.
  - rewrite <- K. apply Z.mod_pos_bound. lia.
  - apply Z.mod_small. lia.
Qed.

(** ** Injectivity and affine structure *)

Definition prod_y (l : list ishare) : Z := fold_right (fun s a => sy s * a) 1 l.

Lemma wf_prod_nonzero l : Forall wf_share l -> prod_y l mod PRIME <> 0.
Proof.
  pose proof PRIME_val.
  induction 1 as [|s l Hs Hl IH]; cbn [prod_y fold_right].
  - rewrite Z.mod_small by lia. lia.
  - apply mul_nonzero_mod; auto. destruct Hs as [_ Hy].
    rewrite Z.mod_small by lia. lia.
Qed.

Lemma reconstruct_all_bound l : forall t, 0 <= t < PRIME -> Forall wf_share l ->
  0 <= reconstruct_all t l < PRIME.
Proof.
  pose proof PRIME_val.
  induction l as [|s l IH]; intros t Ht Hl; cbn; auto.
  inversion Hl as [|? ? Hs Hl']; subst. apply IH; auto.
  destruct (wf_u32 s Hs). destruct (reconstruct_eq t s) as (_ & _ & Hb); auto.
  unfold u32; lia.
Qed.

Lemma reconstruct_diff l : forall t t', 0 <= t < PRIME -> 0 <= t' < PRIME -> Forall wf_share l ->
  (reconstruct_all t' l - reconstruct_all t l) mod PRIME = (prod_y l * (t' - t)) mod PRIME.
Proof.
  pose proof PRIME_val.
  induction l as [|s l IH]; intros t t' Ht Ht' Hl.
  - cbn [reconstruct_all fold_left prod_y fold_right]. f_equal. ring.
  - inversion Hl as [|? ? Hs Hl']; subst. destruct (wf_u32 s Hs).
    destruct (reconstruct_eq t s) as (E1 & _ & B1); auto; [unfold u32; lia|].
    destruct (reconstruct_eq t' s) as (E2 & _ & B2); auto; [unfold u32; lia|].
    unfold reconstruct_all in *. cbn [fold_left].
    rewrite IH by auto. rewrite E1, E2. cbn [prod_y fold_right]. fold (prod_y l).
    rewrite <- Z.mul_mod_idemp_r by lia.
    rewrite <- Zminus_mod.
    rewrite Z.mul_mod_idemp_r by lia. f_equal. ring.
Qed.

Lemma reconstruct_inj l t t' : 0 <= t < PRIME -> 0 <= t' < PRIME -> Forall wf_share l ->
  reconstruct_all t l = reconstruct_all t' l -> t = t'.
Proof.
  intros Ht Ht' Hl E. pose proof PRIME_val.
  pose proof (reconstruct_diff l t t' Ht Ht' Hl) as D.
  rewrite E, Z.sub_diag in D.
  assert (K : (t' - t) mod PRIME = 0 mod PRIME).
  { apply (mul_cancel_mod (prod_y l)); [apply wf_prod_nonzero; auto|].
    rewrite <- D, Z.mul_0_r. reflexivity. }
  rewrite Z.mod_0_l in K by lia.
  apply Z.mod_divide in K; [|lia]. destruct K as [k K]. nia.
Qed.

Lemma generate_iff l q t : 0 <= q < PRIME -> 0 <= t < PRIME -> Forall wf_share l ->
  (generate_incremental_tally q l = Ok t <-> reconstruct_all t l = q).
Proof.
  intros Hq Ht Hl. destruct (roundtrip_list q l Hq Hl) as (t0 & E & Hb & R).
  rewrite E. split; intros K.
  - inversion K; subst; auto.
  - f_equal. apply (reconstruct_inj l); auto. congruence.
Qed.

Lemma mod_eq_small a b : 0 <= a < PRIME -> (a - b) mod PRIME = 0 -> a = b mod PRIME.
Proof.
  pose proof PRIME_pos.
  intros Ha E. apply Z.mod_divide in E; [|lia]. destruct E as [k E].
  replace a with (b + k * PRIME) in * by lia.
  rewrite <- (Z.mod_small (b + k * PRIME) PRIME) by lia. apply Z.mod_add. lia.
Qed.

Lemma c05_hiding pre post y t q :
  Forall wf_share pre -> Forall wf_share post -> 1 <= y < PRIME ->
  0 <= t < PRIME -> 0 <= q < PRIME ->
  exists! x, 0 <= x < PRIME /\
    generate_incremental_tally q (pre ++ {| sx := x; sy := y |} :: post) = Ok t.
Proof.
  intros Hpre Hpost Hy Ht Hq. pose proof PRIME_val as HP.
  destruct (roundtrip_list q post Hq Hpost) as (v & Ev & Hv & Rv).
  set (u := reconstruct_all t pre).
  assert (Hu : 0 <= u < PRIME) by (apply reconstruct_all_bound; auto).
  assert (K : forall x, 0 <= x < PRIME ->
    (generate_incremental_tally q (pre ++ {| sx := x; sy := y |} :: post) = Ok t <->
     (u * y + x) mod PRIME = v)).
  { intros x Hx.
    assert (Hs : wf_share {| sx := x; sy := y |}) by (split; cbn; lia).
    rewrite generate_iff; auto; [|apply Forall_app; auto].
    unfold reconstruct_all. rewrite fold_left_app. cbn [fold_left].
    fold (reconstruct_all t pre). fold u.
    destruct (wf_u32 _ Hs).
    destruct (reconstruct_eq u {| sx := x; sy := y |}) as (E & _ & B); auto; [unfold u32; lia|].
    cbn [sx sy] in E.
    rewrite E in *. fold (reconstruct_all ((u * y + x) mod PRIME) post).
    split; intros R.
    - apply (reconstruct_inj post); auto. congruence.
    - rewrite R. exact Rv. }
  exists ((v - u * y) mod PRIME). split.
  - split; [apply Z.mod_pos_bound; lia|]. apply K; [apply Z.mod_pos_bound; lia|].
    rewrite Z.add_mod_idemp_r by lia. rewrite <- (Z.mod_small v PRIME) at 2 by lia.
    f_equal; ring.
  - intros x [Hx E]. apply K in E; auto.
    symmetry. apply mod_eq_small; [lia|].
    rewrite <- E.
    replace (x - ((u * y + x) mod PRIME - u * y)) with (x + u * y - (u * y + x) mod PRIME) by ring.
    rewrite Zminus_mod_idemp_r.
    replace (x + u * y - (u * y + x)) with 0 by ring. apply Z.mod_0_l. lia.
Qed.

Lemma c06_injective l t t' :
  Forall wf_share l -> 0 <= t < PRIME -> 0 <= t' < PRIME -> t <> t' ->
  reconstruct_all t l <> reconstruct_all t' l.
Proof. intros Hl Ht Ht' Hne E. apply Hne. eapply reconstruct_inj; eauto. Qed.

Lemma prod_y_app l1 l2 : prod_y (l1 ++ l2) = prod_y l1 * prod_y l2.
Proof.
  unfold prod_y. induction l1 as [|s l IH]; cbn [app fold_right]; [ring|].
  rewrite IH. ring.
Qed.

Lemma c06_unpredictable pre post x t t' d :
  Forall wf_share pre -> Forall wf_share post -> 0 <= x < PRIME ->
  0 <= t < PRIME -> 0 <= t' < PRIME -> t <> t' -> 1 <= d < PRIME ->
  exists! y, 1 <= y < PRIME /\
    (reconstruct_all t' (pre ++ {| sx := x; sy := y |} :: post) -
     reconstruct_all t (pre ++ {| sx := x; sy := y |} :: post)) mod PRIME = d.
Proof.
  intros Hpre Hpost Hx Ht Ht' Hne Hd. pose proof PRIME_val as HP.
  set (c := prod_y pre * prod_y post * (t' - t)).
  assert (Hc : c mod PRIME <> 0).
  { apply mul_nonzero_mod; [apply mul_nonzero_mod; apply wf_prod_nonzero; auto|].
    intros E. apply Z.mod_divide in E; [|lia]. destruct E as [k E]. nia. }
  assert (K : forall y, 1 <= y < PRIME ->
    (reconstruct_all t' (pre ++ {| sx := x; sy := y |} :: post) -
     reconstruct_all t (pre ++ {| sx := x; sy := y |} :: post)) mod PRIME = (c * y) mod PRIME).
  { intros y Hy. rewrite reconstruct_diff; auto.
    - rewrite prod_y_app. unfold prod_y at 2. cbn [fold_right sy].
      fold (prod_y post). f_equal. unfold c. ring.
    - apply Forall_app. split; auto. constructor; auto. split; cbn; lia. }
  clearbody c.
  destruct (inv_exists c Hc) as (z & Hz & Ez).
  set (y0 := (z * d) mod PRIME).
  assert (Hy0 : (c * y0) mod PRIME = d).
  { unfold y0. rewrite Z.mul_mod_idemp_r by exact PRIME_nz.
    replace (c * (z * d)) with ((c * z) * d) by ring.
    rewrite <- Z.mul_mod_idemp_l, Ez, Z.mul_1_l by exact PRIME_nz. apply Z.mod_small. lia. }
  assert (Hb : 1 <= y0 < PRIME).
  { pose proof (Z.mod_pos_bound (z * d) PRIME PRIME_pos) as B. fold y0 in B. clearbody y0.
    destruct (Z.eq_dec y0 0) as [E|]; [|lia].
    rewrite E, Z.mul_0_r, Z.mod_0_l in Hy0 by exact PRIME_nz. clear - Hy0 Hd. lia. }
  clearbody y0. exists y0. split.
  - split; [exact Hb|]. rewrite K; auto.
  - intros y [Hy E]. rewrite K in E by auto.
    rewrite <- (Z.mod_small y0 PRIME), <- (Z.mod_small y PRIME) by lia.
    apply (mul_cancel_mod c); auto. congruence.
Qed.

Lemma c04_inverse y :
  1 <= y < PRIME ->
  exists z, mod_inverse y PRIME = Ok z /\
    (forall w, 1 <= w < PRIME /\ (y * w) mod PRIME = 1 <-> w = z).
Proof.
  intros Hy. pose proof PRIME_val as HP.
  destruct (mod_inverse_spec y Hy) as (z & E & Hz & Ez).
  exists z. split; auto. intros w. split.
  - intros [Hw Ew]. rewrite <- (Z.mod_small z PRIME), <- (Z.mod_small w PRIME) by lia.
    apply (mul_cancel_mod y); [rewrite Z.mod_small by lia; lia|congruence].
  - intros ->. auto.
Qed.
