(** Proofs about the division of the database into noise ranges. *)
From Verif Require Import Base BaseProofs Range NoiseFloat NoiseFloatProofs.

Lemma range_size_bounds S db : 1 <= S -> 0 <= db -> db <= S * range_size S db < db + S.
Proof. intros HS Hd. unfold range_size. Z.div_mod_to_equations. nia. Qed.

Lemma range_size_small S db : 1 <= S -> 0 <= db -> (S - 1) * (S - 1) <= db -> (S - 1) * range_size S db <= db.
Proof. intros HS Hd H. pose proof (range_size_bounds S db HS Hd). nia. Qed.

Lemma find_range_Ok s S db : 0 <= s < S -> 1 <= S <= 255 -> S <= db < 2 ^ 32 -> (S - 1) * range_size S db <= db ->
  find_range_fp true s S db = Ok (s * range_size S db, if s =? S - 1 then db else (s + 1) * range_size S db).
Proof.
  intros Hs HS Hd H. rewrite find_range_fp_spec by lia. unfold find_range.
  assert ((S <=? db) = true) as -> by (apply Z.leb_le; lia). cbn [assert_ bind].
  pose proof (range_size_bounds S db ltac:(lia) ltac:(lia)). set (r := range_size S db) in *.
  assert (0 <= r) by nia. assert (s * r <= (S - 1) * r) by nia.
  rewrite w32_id by (unfold u32; nia). f_equal. f_equal. destruct (Z.eqb_spec s (S - 1)) as [E|E]; [reflexivity|].
  assert ((s + 1) * r <= (S - 1) * r) by nia. rewrite w32_id by (unfold u32; nia). lia.
Qed.

Lemma c20_tile S db : 1 <= S <= 255 -> S <= db < 2 ^ 32 -> (S - 1) * range_size S db <= db ->
  (forall s, 0 <= s < S -> exists a b, find_range_fp true s S db = Ok (a, b) /\ 0 <= a <= b /\ b <= db) /\
  (forall k, 0 <= k < db -> exists! s, 0 <= s < S /\ exists a b, find_range_fp true s S db = Ok (a, b) /\ a <= k < b).
Proof.
  intros HS Hd H. pose proof (range_size_bounds S db ltac:(lia) ltac:(lia)) as Hb. set (r := range_size S db) in *.
  assert (Hr : 1 <= r) by nia.
  split.
  - intros s Hs. rewrite (find_range_Ok s S db Hs HS Hd H). fold r. eexists _, _. split; [reflexivity|].
    assert (0 <= s * r) by (apply Z.mul_nonneg_nonneg; lia).
    destruct (Z.eqb_spec s (S - 1)) as [->|Hne]; [lia|]. assert ((s + 1) * r <= (S - 1) * r) by (apply Z.mul_le_mono_nonneg_r; lia). lia.
  - intros k Hk. exists (Z.min (k / r) (S - 1)).
    assert (Hq : 0 <= k / r) by (apply Z.div_pos; lia). pose proof (Z.div_mod k r ltac:(lia)) as Dm. pose proof (Z.mod_pos_bound k r ltac:(lia)) as Mb.
    split.
    + split; [lia|]. rewrite (find_range_Ok (Z.min (k / r) (S - 1)) S db ltac:(lia) HS Hd H). fold r. eexists _, _. split; [reflexivity|].
      destruct (Z.eqb_spec (Z.min (k / r) (S - 1)) (S - 1)) as [E|E].
      * rewrite E. assert (S - 1 <= k / r) by lia. assert (r * (S - 1) <= r * (k / r)) by nia. lia.
      * rewrite Z.min_l in * by lia. nia.
    + intros s (Hs & a & b & E & Hab). rewrite (find_range_Ok s S db Hs HS Hd H) in E. fold r in E. inversion E; subst a b; clear E.
      destruct (Z.eqb_spec s (S - 1)) as [->|Hne].
      * apply Z.min_r. apply Z.div_le_lower_bound; lia.
      * assert (k / r = s). { symmetry; apply (Z.div_unique_pos k r s (k - s * r)); lia. }
        lia.
Qed.

Lemma c20_gap S db : 1 <= S <= 255 -> S <= db < 2 ^ 32 -> db < (S - 1) * range_size S db ->
  exists a b, find_range_fp true (S - 1) S db = Ok (a, b) /\ b = db /\ b < a.
Proof.
  intros HS Hd H. rewrite find_range_fp_spec by lia. unfold find_range.
  assert ((S <=? db) = true) as -> by (apply Z.leb_le; lia). cbn [assert_ bind].
  pose proof (range_size_bounds S db ltac:(lia) ltac:(lia)) as Hb.
  assert (Hsm : db < (S - 1) * (S - 1)).
  { destruct (Z_lt_le_dec db ((S - 1) * (S - 1))) as [L|L]; [exact L|]. pose proof (range_size_small S db ltac:(lia) ltac:(lia) L). lia. }
  set (r := range_size S db) in *. assert (1 <= r) by nia. assert ((S - 1) * r < db + S) by nia.
  rewrite w32_id by (unfold u32; nia). rewrite Z.eqb_refl. eexists _, _. split; [reflexivity|]. lia.
Qed.
