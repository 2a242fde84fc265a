(** Proofs about [Wire]. *)
From Verif Require Import Base BaseProofs Incremental Wire.

Lemma firstn_app_exact {A} (a b : list A) n : length a = n -> firstn n (a ++ b) = a.
Proof. intros <-. rewrite firstn_app, Nat.sub_diag, firstn_all, firstn_O, app_nil_r. reflexivity. Qed.
Lemma skipn_app_exact {A} (a b : list A) n : length a = n -> skipn n (a ++ b) = b.
Proof. intros <-. rewrite skipn_app, Nat.sub_diag, skipn_all. reflexivity. Qed.

Lemma response_roundtrip r : wf_response r ->
  length (enc_response r) = 52%nat /\ dec_response (enc_response r) = r.
Proof.
  destruct r as [v s]. intros [Hv [Hl Hb]]. cbn [r_value r_sig] in *.
  unfold enc_response, dec_response. cbn [r_value r_sig]. split.
  - rewrite app_length, length_le, Hl. reflexivity.
  - rewrite firstn_app_exact, skipn_app_exact by apply length_le.
    rewrite of_le_le_small by exact Hv. reflexivity.
Qed.

Lemma query_roundtrip q : wf_query q ->
  length (enc_query q) = 12%nat /\ dec_query (enc_query q) = q.
Proof.
  destruct q as [t y]. intros [Ht Hy]. cbn [q_tag q_tally] in *.
  unfold enc_query, dec_query. cbn [q_tag q_tally]. split.
  - rewrite app_length, !length_le. reflexivity.
  - rewrite firstn_app_exact, skipn_app_exact by apply length_le.
    rewrite !of_le_le_small; auto.
Qed.

Lemma osecret_roundtrip s : wf_osecret s ->
  length (enc_osecret s) = 76%nat /\ dec_osecret (enc_osecret s) = s.
Proof.
  destruct s as [t n [x y] p]. intros (Ht & Hn & Hx & Hy & Hl & Hb).
  cbn [o_tag o_next o_share o_preshare sx sy] in *.
  unfold enc_osecret, dec_osecret. cbn [o_tag o_next o_share o_preshare sx sy]. split.
  - rewrite !app_length, !length_le, Hl. reflexivity.
  - assert (E1 : forall A (a b c d e : list A), a ++ b ++ c ++ d ++ e = (a ++ b) ++ c ++ d ++ e)
      by (intros; rewrite !app_assoc; reflexivity).
    assert (E2 : forall A (a b c d e : list A), a ++ b ++ c ++ d ++ e = (a ++ b ++ c) ++ d ++ e)
      by (intros; rewrite !app_assoc; reflexivity).
    f_equal.
    + rewrite firstn_app_exact by apply length_le. apply of_le_le_small; exact Ht.
    + rewrite (skipn_app_exact (le 8 t)) by apply length_le.
      rewrite firstn_app_exact by apply length_le. apply of_le_le_small; exact Hn.
    + f_equal.
      * rewrite E1. rewrite skipn_app_exact by (rewrite app_length, !length_le; reflexivity).
        rewrite firstn_app_exact by apply length_le. apply of_le_le_small; exact Hx.
      * rewrite E2. rewrite skipn_app_exact by (rewrite !app_length, !length_le; reflexivity).
        rewrite firstn_app_exact by apply length_le. apply of_le_le_small; exact Hy.
Qed.

(** Any byte string of the right length is the image of what it decodes to. *)
Lemma dec_enc_query b : bytes 12 b -> enc_query (dec_query b) = b.
Proof.
  intros [Hl Hb]. unfold enc_query, dec_query. cbn [q_tag q_tally].
  rewrite <- (firstn_skipn 8 b) at 3.
  rewrite <- (firstn_skipn 8 b), Forall_app in Hb. destruct Hb as [H1 H2].
  f_equal; apply le_of_le; split; auto.
  - rewrite firstn_length; lia.
  - rewrite skipn_length; lia.
Qed.

Lemma dec_enc_response b : bytes 52 b -> enc_response (dec_response b) = b.
Proof.
  intros [Hl Hb]. unfold enc_response, dec_response. cbn [r_value r_sig].
  rewrite <- (firstn_skipn 4 b), Forall_app in Hb. destruct Hb as [H1 H2].
  rewrite le_of_le; [apply firstn_skipn|]. split; auto. rewrite firstn_length; lia.
Qed.

Lemma sig_loop_spec l r n : forall i,
  (i + n <= length l)%nat -> (i + n <= length r)%nat ->
  exists b, sig_loop l r n i = Ok b /\
    (b = true <-> forall j, (i <= j < i + n)%nat -> nth_error l j = nth_error r j).
Proof.
  induction n as [|n IH]; intros i Hl Hr; cbn [sig_loop].
  - exists true. split; auto. split; auto. intros; lia.
  - destruct (get_lt l i) as (a & Ea & Na); [lia|].
    destruct (get_lt r i) as (b & Eb & Nb); [lia|].
    rewrite Ea, Eb. cbn [bind].
    destruct (Z.eqb_spec a b) as [->|Hne]; cbn [negb].
    + destruct (IH (S i)) as (v & Ev & Hv); try lia.
      exists v. split; auto. rewrite Hv. split; intros H j Hj.
      * destruct (Nat.eq_dec j i) as [->|]; [congruence|]. apply H; lia.
      * apply H; lia.
    + exists false. split; auto. split; [discriminate|].
      intros H. specialize (H i ltac:(lia)). congruence.
Qed.

Lemma response_eqb_spec l r : wf_response l -> wf_response r ->
  exists b, response_eqb l r = Ok b /\ (b = true <-> l = r).
Proof.
  destruct l as [lv ls], r as [rv rs]. intros [_ [Hl _]] [_ [Hr _]].
  cbn [r_value r_sig] in *. unfold response_eqb. cbn [r_value r_sig].
  destruct (Z.eqb_spec lv rv) as [->|Hne]; cbn [negb].
  - destruct (sig_loop_spec ls rs SIG_SIZE 0) as (b & Eb & Hb); [rewrite Hl; auto|rewrite Hr; auto|].
    exists b. split; auto. rewrite Hb. split; intros H.
    + f_equal. apply nth_error_ext. intros i.
      destruct (Nat.lt_ge_cases i 48) as [Hi|Hi].
      * apply H. unfold SIG_SIZE. lia.
      * rewrite (proj2 (nth_error_None ls i)), (proj2 (nth_error_None rs i)); auto; lia.
    + inversion H; auto.
  - exists false. split; auto. split; [discriminate|]. intros H; inversion H; congruence.
Qed.

Lemma response_neqb_spec l r : wf_response l -> wf_response r ->
  exists b, response_neqb l r = Ok b /\ (b = true <-> l <> r).
Proof.
  intros Hl Hr. destruct (response_eqb_spec l r Hl Hr) as (b & E & Hb).
  exists (negb b). unfold response_neqb. rewrite E. cbn [bind]. split; auto.
  rewrite negb_true_iff. split; intros H.
  - intros K. apply Hb in K. congruence.
  - destruct b; auto. exfalso. apply H. apply Hb. reflexivity.
Qed.
