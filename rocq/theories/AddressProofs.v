(** What inet_pton accepts. *)
From Verif Require Import Base BaseProofs Address AddressSpec.

Lemma decimal_snoc n d : 1 <= n -> 0 <= d <= 9 -> n * 10 + d <= 255 -> decimal (n * 10 + d) = decimal n ++ [48 + d].
Proof.
  intros Hn Hd H. unfold decimal.
  assert (E1 : (n * 10 + d) / 10 = n) by (symmetry; apply (Z.div_unique _ _ _ d); lia).
  assert (E2 : (n * 10 + d) mod 10 = d) by (symmetry; apply (Z.mod_unique _ _ n); lia).
  assert (E3 : (n * 10 + d) / 100 = n / 10) by (change 100 with (10 * 10); rewrite <- Z.div_div by lia; rewrite E1; reflexivity).
  rewrite E1, E2, E3. rewrite (proj2 (Z.leb_le 10 (n * 10 + d))) by lia. rewrite (proj2 (Z.leb_gt 100 n)) by lia. cbn [app].
  destruct (Z.leb_spec 10 n).
  - rewrite (proj2 (Z.leb_le 100 (n * 10 + d))) by lia. rewrite (Z.mod_small (n / 10) 10); [reflexivity|].
    split; [apply Z.div_pos; lia|apply Z.div_lt_upper_bound; lia].
  - rewrite (proj2 (Z.leb_gt 100 (n * 10 + d))) by lia. reflexivity.
Qed.
Lemma decimal_digit d : 0 <= d <= 9 -> decimal d = [48 + d].
Proof. intros H. unfold decimal. rewrite (proj2 (Z.leb_gt 100 d)), (proj2 (Z.leb_gt 10 d)) by lia. cbn. rewrite Z.mod_small by lia. reflexivity. Qed.

Lemma is_digit d : 0 <= d <= 9 -> (48 <=? 48 + d) && (48 + d <=? 57) = true.
Proof. intros H. apply andb_true_intro. split; apply Z.leb_le; lia. Qed.
Lemma first_digit d t octets done : 0 <= d <= 9 -> (octets < 4)%nat ->
  pton_loop ((48 + d) :: t) false octets 0 done = pton_loop t true (S octets) d done.
Proof.
  intros H L. cbn [pton_loop]. rewrite is_digit by exact H. cbn [andb]. replace (0 * 10 + (48 + d - 48)) with d by lia.
  rewrite (proj2 (Z.ltb_ge 255 d)) by lia. rewrite (proj2 (Nat.ltb_ge 4 (S octets))) by lia. reflexivity.
Qed.
Lemma more_digit n d t octets done : 1 <= n -> 0 <= d <= 9 -> n * 10 + d <= 255 ->
  pton_loop ((48 + d) :: t) true octets n done = pton_loop t true octets (n * 10 + d) done.
Proof.
  intros Hn H L. cbn [pton_loop]. rewrite is_digit by exact H. cbn [andb]. rewrite (proj2 (Z.eqb_neq n 0)) by lia.
  replace (n * 10 + (48 + d - 48)) with (n * 10 + d) by lia. rewrite (proj2 (Z.ltb_ge 255 (n * 10 + d))) by lia. reflexivity.
Qed.
Lemma reads_decimal n t octets done : 0 <= n <= 255 -> (octets < 4)%nat ->
  pton_loop (decimal n ++ t) false octets 0 done = pton_loop t true (S octets) n done.
Proof.
  intros H L. destruct (Z.lt_ge_cases n 10) as [A|A].
  - rewrite decimal_digit by lia. apply first_digit; lia.
  - assert (D1 : 0 <= n mod 10 < 10) by (apply Z.mod_pos_bound; lia). pose proof (Z.div_mod n 10 ltac:(lia)) as E1.
    assert (D2 : 1 <= n / 10) by (apply Z.div_le_lower_bound; lia).
    rewrite E1 at 1. rewrite (Z.mul_comm 10). rewrite decimal_snoc by lia. rewrite <- app_assoc.
    transitivity (pton_loop (48 + n mod 10 :: t) true (S octets) (n / 10) done).
    + destruct (Z.lt_ge_cases (n / 10) 10) as [B|B].
      * rewrite decimal_digit by lia. apply first_digit; lia.
      * assert (D3 : 0 <= (n / 10) mod 10 < 10) by (apply Z.mod_pos_bound; lia). pose proof (Z.div_mod (n / 10) 10 ltac:(lia)) as E2.
        assert (D4 : 1 <= n / 10 / 10) by (apply Z.div_le_lower_bound; lia).
        rewrite E2 at 1. rewrite (Z.mul_comm 10). rewrite decimal_snoc by lia. rewrite <- app_assoc. rewrite decimal_digit by lia.
        cbn [app]. rewrite first_digit by lia. rewrite more_digit by lia. f_equal. lia.
    + rewrite more_digit by lia. f_equal. lia.
Qed.
Lemma reads_dot n t octets done : (octets < 4)%nat -> pton_loop (46 :: t) true octets n done = pton_loop t false octets 0 (done ++ [n]).
Proof. intros L. cbn [pton_loop Z.leb Z.compare Pos.compare Pos.compare_cont andb Z.eqb Pos.eqb]. rewrite (proj2 (Nat.eqb_neq octets 4)) by lia. reflexivity. Qed.

Lemma digits_inv : forall s octets n done a, 0 <= n <= 255 -> pton_loop s true octets n done = Some a ->
  exists m t, 0 <= m <= 255 /\ decimal n ++ s = decimal m ++ t /\ pton_loop t true octets m done = Some a /\ (t = [] \/ exists t', t = 46 :: t').
Proof.
  induction s as [|ch s IH]; intros octets n done a Hn H.
  - exists n, []. split; [lia|]. split; [reflexivity|]. split; [exact H|]. left. reflexivity.
  - cbn [pton_loop] in H. destruct ((48 <=? ch) && (ch <=? 57)) eqn:D.
    + apply andb_prop in D as [D1 D2]. apply Z.leb_le in D1, D2. cbn [andb] in H. destruct (Z.eqb_spec n 0) as [|N0]; [discriminate|].
      destruct (Z.ltb_spec 255 (n * 10 + (ch - 48))) as [|L]; [discriminate|].
      assert (B : 0 <= n * 10 + (ch - 48) <= 255) by lia. destruct (IH _ _ _ _ B H) as (m & t & M1 & M2 & M3 & M4). exists m, t. split; [exact M1|]. split; [|split; [exact M3|exact M4]].
      rewrite decimal_snoc in M2 by lia. rewrite <- M2, <- app_assoc. cbn [app]. replace (48 + (ch - 48)) with ch by lia. reflexivity.
    + destruct (Z.eqb_spec ch 46) as [->|]; [|discriminate]. exists n, (46 :: s). split; [lia|]. split; [reflexivity|].
      split; [exact H|]. right. eexists. reflexivity.
Qed.
Lemma octet_inv s octets done a : pton_loop s false octets 0 done = Some a -> (octets < 4)%nat ->
  exists m, 0 <= m <= 255 /\
    (S octets = 4%nat /\ s = decimal m /\ a = done ++ [m] \/
     exists t, (S octets < 4)%nat /\ s = decimal m ++ 46 :: t /\ pton_loop t false (S octets) 0 (done ++ [m]) = Some a).
Proof.
  intros H L. destruct s as [|ch s]; [cbn [pton_loop] in H; rewrite (proj2 (Nat.ltb_lt octets 4)) in H by lia; discriminate|].
  cbn [pton_loop] in H. destruct ((48 <=? ch) && (ch <=? 57)) eqn:D; [|rewrite andb_false_r in H; discriminate].
  apply andb_prop in D as [D1 D2]. apply Z.leb_le in D1, D2. cbn [andb] in H. destruct (255 <? _); [discriminate|].
  destruct (4 <? S octets)%nat; [discriminate|]. rewrite Z.mul_0_l, Z.add_0_l in H.
  assert (B : 0 <= ch - 48 <= 255) by lia. destruct (digits_inv s _ _ _ _ B H) as (m & t & M1 & M2 & M3 & M4). exists m. split; [exact M1|].
  rewrite decimal_digit in M2 by lia. replace (48 + (ch - 48)) with ch in M2 by lia. cbn [app] in M2. destruct M4 as [->|(t' & ->)].
  - left. cbn [pton_loop] in M3. destruct (Nat.ltb_spec (S octets) 4) as [|G]; [discriminate|]. split; [lia|]. rewrite app_nil_r in M2. split; [exact M2|congruence].
  - right. exists t'. cbn [pton_loop Z.leb Z.compare Pos.compare Pos.compare_cont andb Z.eqb Pos.eqb] in M3.
    destruct (Nat.eqb_spec (S octets) 4) as [|G]; [discriminate|]. split; [lia|]. split; [exact M2|exact M3].
Qed.
Lemma pton_dotted a : ip4 a -> inet_pton (dotted a) = Some a.
Proof.
  intros [L F]. destruct a as [|w [|x [|y [|z [|]]]]]; try discriminate L.
  inversion F as [|? ? F1 F']; subst. inversion F' as [|? ? F2 F'']; subst. inversion F'' as [|? ? F3 F4']; subst. inversion F4' as [|? ? F4 _]; subst.
  unfold inet_pton, dotted. rewrite reads_decimal by (try assumption; lia). rewrite reads_dot by lia. rewrite reads_decimal by (try assumption; lia).
  rewrite reads_dot by lia. rewrite reads_decimal by (try assumption; lia). rewrite reads_dot by lia.
  rewrite <- (app_nil_r (decimal z)). rewrite reads_decimal by (try assumption; lia). reflexivity.
Qed.
Lemma dotted_pton s a : inet_pton s = Some a -> ip4 a /\ s = dotted a.
Proof.
  intros H. unfold inet_pton in H.
  apply octet_inv in H as (w & W & [(X & _)|(t1 & _ & -> & H)]); [discriminate X| |lia].
  apply octet_inv in H as (x & X & [(Y & _)|(t2 & _ & -> & H)]); [discriminate Y| |lia].
  apply octet_inv in H as (y & Y & [(Z & _)|(t3 & _ & -> & H)]); [discriminate Z| |lia].
  apply octet_inv in H as (z & Z & [(_ & -> & ->)|(t4 & L & _)]); [|lia|lia].
  split; [split; [reflexivity|cbn [app]; do 4 (apply Forall_cons; [assumption|]); apply Forall_nil]|reflexivity].
Qed.
Lemma dotted_inj a a' : ip4 a -> ip4 a' -> dotted a = dotted a' -> a = a'.
Proof. intros H H' E. apply pton_dotted in H, H'. congruence. Qed.
