(** The parser accepts exactly the JSON texts, and JSON.stringify writes one. *)
From Coq Require Import String.
From Verif Require Import Base Json JsonSpec.
Local Open Scope list_scope.
Local Open Scope Z_scope.

Scheme value_mut := Induction for value Sort Prop
with element_mut := Induction for element Sort Prop
with elements_mut := Induction for elements Sort Prop
with member_mut := Induction for member Sort Prop
with members_mut := Induction for members Sort Prop.
Combined Scheme grammar_ind from value_mut, element_mut, elements_mut, member_mut, members_mut.

Lemma is_ws_iff c : is_ws c = true <-> (c = 32 \/ c = 9 \/ c = 10 \/ c = 13).
Proof. unfold is_ws. lia. Qed.
Lemma skip_blanks w s : blanks w -> skip (w ++ s) = skip s.
Proof. induction 1 as [|c w H _ IH]; [easy|]. cbn. apply is_ws_iff in H. now rewrite H. Qed.
Lemma skip_stop c t : is_ws c = false -> skip (c :: t) = c :: t.
Proof. intro H. cbn. now rewrite H. Qed.
Lemma skip_spec s : exists w, s = w ++ skip s /\ blanks w.
Proof.
  induction s as [|c t (w & E & B)]; [exists []; split; [easy|constructor]|]. cbn. destruct (is_ws c) eqn:H.
  - exists (c :: w). split; [cbn; congruence|]. constructor; [now apply is_ws_iff|easy].
  - exists []. split; [easy|constructor].
Qed.
Lemma skip_head s c t : skip s = c :: t -> is_ws c = false.
Proof.
  induction s as [|x s IH]; cbn; [discriminate|]. destruct (is_ws x) eqn:H; [easy|]. intro E. now injection E as <- <-.
Qed.
Lemma blanks_app a b : blanks a -> blanks b -> blanks (a ++ b).
Proof. intros. now apply Forall_app. Qed.

(** Strings *)
Lemma hexvalue_iff c a : hexvalue c = Some a <-> hexit c a.
Proof.
  unfold hexvalue. split.
  - destruct ((48 <=? c) && (c <=? 57)) eqn:E1; [intro H; injection H as <-; constructor; lia|].
    destruct ((97 <=? c) && (c <=? 102)) eqn:E2; [intro H; injection H as <-; constructor 2; lia|].
    destruct ((65 <=? c) && (c <=? 70)) eqn:E3; [intro H; injection H as <-; constructor 3; lia|discriminate].
  - destruct 1 as [c H|c H|c H];
    destruct ((48 <=? c) && (c <=? 57)) eqn:E1; try (f_equal; lia); try lia;
    destruct ((97 <=? c) && (c <=? 102)) eqn:E2; try (f_equal; lia); try lia;
    destruct ((65 <=? c) && (c <=? 70)) eqn:E3; try (f_equal; lia); try lia.
Qed.
Definition escapes : list (Z * Z) := [(34, 34); (92, 92); (47, 47); (98, 8); (102, 12); (110, 10); (114, 13); (116, 9)].
Lemma unescape_iff e c : unescape e = Some c <-> List.In (e, c) escapes.
Proof.
  unfold unescape. split.
  - repeat match goal with |- context [if ?b then _ else _] => destruct b eqn:? end; try discriminate;
      intro H; injection H as <-; assert (e = 34 \/ e = 92 \/ e = 47 \/ e = 98 \/ e = 102 \/ e = 110 \/ e = 114 \/ e = 116) as D by lia;
      unfold escapes; cbn; repeat (destruct D as [D|D]; [subst; try lia; tauto|]); subst; try lia; tauto.
  - intro H. repeat (destruct H as [H|H]; [injection H as <- <-; reflexivity|]). destruct H.
Qed.
Lemma parse_chars_complete t s : chars t s -> forall r, parse_chars (t ++ 34 :: r) = Some (s, r).
Proof.
  induction 1 as [|c t s H1 H2 H3 _ IH|e c t s H _ IH|h1 h2 h3 h4 a b c d t s A B C D _ IH]; intro r.
  - easy.
  - cbn [app parse_chars]. replace (c =? 34) with false by lia. replace (c <? 32) with false by lia. replace (c =? 92) with false by lia.
    now rewrite IH.
  - cbn [app parse_chars]. change (92 =? 34) with false. change (92 <? 32) with false. change (92 =? 92) with true. cbv iota.
    assert (e <> 117) as N by (repeat (destruct H as [H|H]; [injection H as <- <-; discriminate|]); destruct H).
    replace (e =? 117) with false by lia. apply unescape_iff in H. now rewrite H, IH.
  - cbn [app parse_chars]. change (92 =? 34) with false. change (92 <? 32) with false. change (92 =? 92) with true. cbv iota.
    change (117 =? 117) with true. cbv iota. apply hexvalue_iff in A, B, C, D. rewrite A, B, C, D, IH. cbn [cons_unit].
    replace (((a * 16 + b) * 16 + c) * 16 + d) with (4096 * a + 256 * b + 16 * c + d) by lia. easy.
Qed.
Lemma parse_chars_sound n : forall s u r, (List.length s <= n)%nat -> parse_chars s = Some (u, r) -> exists t, s = t ++ 34 :: r /\ chars t u.
Proof.
  induction n as [|n IH]; intros s u r L; [destruct s; [discriminate|cbn in L; lia]|].
  destruct s as [|c t]; [discriminate|]. cbn [parse_chars]. cbn in L.
  destruct (c =? 34) eqn:E34; [intro E; injection E as <- <-; exists []; split; [cbn; f_equal; lia|constructor]|].
  destruct (c <? 32) eqn:E32; [discriminate|].
  destruct (c =? 92) eqn:E92.
  - destruct t as [|e t]; [discriminate|]. cbn in L. destruct (e =? 117) eqn:E117.
    + destruct t as [|h1 [|h2 [|h3 [|h4 t]]]]; try discriminate. cbn in L.
      destruct (hexvalue h1) as [a|] eqn:A; [|discriminate]. destruct (hexvalue h2) as [b|] eqn:B; [|discriminate].
      destruct (hexvalue h3) as [c'|] eqn:C; [|discriminate]. destruct (hexvalue h4) as [d|] eqn:D; [|discriminate].
      destruct (parse_chars t) as [[s' r']|] eqn:P; [|discriminate]. cbn. intro E. injection E as <- <-.
      apply IH in P; [|lia]. destruct P as (t' & -> & K). exists (c :: e :: h1 :: h2 :: h3 :: h4 :: t'). split; [easy|].
      apply hexvalue_iff in A, B, C, D. replace c with 92 by lia. replace e with 117 by lia.
      replace (((a * 16 + b) * 16 + c') * 16 + d) with (4096 * a + 256 * b + 16 * c' + d) by lia. now constructor.
    + destruct (unescape e) as [x|] eqn:U; [|discriminate]. destruct (parse_chars t) as [[s' r']|] eqn:P; [|discriminate].
      cbn. intro E. injection E as <- <-. apply IH in P; [|lia]. destruct P as (t' & -> & K). exists (c :: e :: t'). split; [easy|].
      replace c with 92 by lia. constructor; [now apply unescape_iff|easy].
  - destruct (parse_chars t) as [[s' r']|] eqn:P; [|discriminate]. cbn. intro E. injection E as <- <-.
    apply IH in P; [|lia]. destruct P as (t' & -> & K). exists (c :: t'). split; [easy|]. constructor; [lia|lia|lia|easy].
Qed.

(** Numbers *)
Definition stops (r : list Z) : Prop := match r with [] => True | c :: _ => is_ws c = true \/ c = 44 \/ c = 93 \/ c = 125 end.
Lemma is_digit_iff c : is_digit c = true <-> digit c.
Proof. unfold is_digit, digit. lia. Qed.
Definition no_digit (r : list Z) : Prop := match r with [] => True | c :: _ => is_digit c = false end.
Lemma digits_complete d r : Forall digit d -> no_digit r -> digits (d ++ r) = (d, r).
Proof.
  induction 1 as [|c d H _ IH]; intro N; cbn.
  - destruct r as [|c r]; [easy|]. cbn in *. now rewrite N.
  - apply is_digit_iff in H. now rewrite H, IH.
Qed.
Lemma digits_sound s : forall d r, digits s = (d, r) -> s = d ++ r /\ Forall digit d.
Proof.
  induction s as [|c t IH]; cbn; intros d r; [intro E; now injection E as <- <-|].
  destruct (is_digit c) eqn:H; [|intro E; now injection E as <- <-].
  destruct (digits t) as [d' r'] eqn:D. intro E. injection E as <- <-. destruct (IH _ _ eq_refl) as [-> F].
  split; [easy|]. constructor; [now apply is_digit_iff|easy].
Qed.
Lemma stops_no_digit r : stops r -> no_digit r.
Proof. destruct r as [|c r]; [easy|]. cbn. rewrite is_ws_iff. unfold is_digit. lia. Qed.
Lemma literal_first t : literal t -> exists c r, t = c :: r /\ (c = 45 \/ digit c).
Proof.
  intros (sg & i & f & e & -> & S & I & _ & _). destruct S as [->| ->]; [|exists 45; eexists; split; [reflexivity|now left]].
  destruct I as [->|(c & r & -> & H & _)]; [exists 48|exists c]; eexists; (split; [reflexivity|]); right; unfold digit; lia.
Qed.
Lemma exp_part_head e r : exp_part e -> stops r -> match e ++ r with [] => True | c :: _ => is_digit c = false /\ c <> 46 end.
Proof.
  intros [->|(x & sg & u & -> & X & _)] R; cbn.
  - destruct r as [|c r]; [easy|]. cbn in R. rewrite is_ws_iff in R. unfold is_digit. lia.
  - unfold is_digit. lia.
Qed.
Lemma frac_part_head f e r : frac_part f -> exp_part e -> stops r -> no_digit (f ++ e ++ r).
Proof.
  intros [->|(u & -> & _)] E R; cbn; [|easy].
  pose proof (exp_part_head _ _ E R) as H. destruct (e ++ r); cbn; tauto.
Qed.
Lemma parse_int_complete i r : int_part i -> no_digit r -> parse_int (i ++ r) = Some (i, r).
Proof.
  intros [->|(c & u & -> & H & F)] N; [easy|]. cbn [app parse_int]. replace (c =? 48) with false by lia.
  replace (is_digit c) with true by (unfold is_digit; lia).
  change (c :: u ++ r) with ((c :: u) ++ r). rewrite digits_complete; [easy| |easy]. constructor; [unfold digit; lia|easy].
Qed.
Lemma parse_frac_complete f e r : frac_part f -> exp_part e -> stops r -> parse_frac (f ++ e ++ r) = Some (f, e ++ r).
Proof.
  intros [->|(u & -> & N & F)] E R; pose proof (exp_part_head _ _ E R) as H.
  - cbn [app]. destruct (e ++ r) as [|c t]; [easy|]. cbn. now replace (c =? 46) with false by lia.
  - cbn [app parse_frac]. change (46 =? 46) with true. cbv iota. rewrite digits_complete; [|easy|destruct (e ++ r); cbn; tauto].
    destruct u; [congruence|easy].
Qed.
Lemma parse_exp_complete e r : exp_part e -> stops r -> parse_exp (e ++ r) = Some (e, r).
Proof.
  intros [->|(x & sg & u & -> & X & G & N & F)] R.
  - destruct r as [|c r]; [easy|]. cbn in *. rewrite is_ws_iff in R. now replace ((c =? 101) || (c =? 69)) with false by lia.
  - cbn [app parse_exp]. replace ((x =? 101) || (x =? 69)) with true by lia. rewrite <- app_assoc.
    destruct u as [|d u]; [congruence|].
    assert (forall y, y = 43 \/ y = 45 -> y <> d) as ND by (inversion F as [|? ? Hd _]; unfold digit in Hd; intros; lia).
    destruct G as [->|[->| ->]]; cbn [app].
    + replace ((d =? 43) || (d =? 45)) with false by (pose proof (ND 43); pose proof (ND 45); lia).
      change (d :: u ++ r) with ((d :: u) ++ r). rewrite digits_complete by (try easy; now apply stops_no_digit). easy.
    + change ((43 =? 43) || (43 =? 45)) with true. cbv iota.
      change (d :: u ++ r) with ((d :: u) ++ r). rewrite digits_complete by (try easy; now apply stops_no_digit). easy.
    + change ((45 =? 43) || (45 =? 45)) with true. cbv iota.
      change (d :: u ++ r) with ((d :: u) ++ r). rewrite digits_complete by (try easy; now apply stops_no_digit). easy.
Qed.
Lemma parse_number_complete t r : literal t -> stops r -> parse_number (t ++ r) = Some (t, r).
Proof.
  intros (sg & i & f & e & -> & S & I & F & E) R. unfold parse_number.
  assert (parse_sign ((sg ++ i ++ f ++ e) ++ r) = (sg, i ++ f ++ e ++ r)) as ->.
  { destruct S as [->| ->]; cbn [app parse_sign]; rewrite <- !app_assoc; [|easy].
    destruct I as [->|(c & u & -> & H & _)]; cbn; [easy|]. now replace (c =? 45) with false by lia. }
  rewrite parse_int_complete; [|easy|now apply frac_part_head]. rewrite parse_frac_complete, parse_exp_complete by easy. easy.
Qed.
Lemma parse_number_sound s l r : parse_number s = Some (l, r) -> s = l ++ r /\ literal l.
Proof.
  unfold parse_number. destruct (parse_sign s) as [sg s1] eqn:S.
  assert (s = sg ++ s1 /\ (sg = [] \/ sg = [45])) as [-> G].
  { destruct s as [|c t]; cbn in S; [injection S as <- <-; auto|]. destruct (c =? 45) eqn:H; injection S as <- <-; [|auto].
    split; [easy|]. right. f_equal. lia. }
  destruct (parse_int s1) as [[i s2]|] eqn:I; [|discriminate].
  assert (s1 = i ++ s2 /\ int_part i) as [-> PI].
  { destruct s1 as [|c t]; [discriminate|]. cbn [parse_int] in I. destruct (c =? 48) eqn:H.
    - injection I as <- <-. split; [easy|]. left. f_equal. lia.
    - destruct (is_digit c) eqn:D; [|discriminate]. apply is_digit_iff in D.
      assert (digits (c :: t) = (i, s2)) as I' by congruence. clear I. rename I' into I.
      destruct (digits_sound _ _ _ I) as [E F]. split; [easy|]. right.
      destruct i as [|c' i]; [|injection E as <- ->; inversion F; subst; exists c, i; unfold digit in *; split; [easy|split; [lia|easy]]].
      exfalso. cbn in I. apply is_digit_iff in D. rewrite D in I. destruct (digits t). discriminate. }
  destruct (parse_frac s2) as [[f s3]|] eqn:F; [|discriminate].
  assert (s2 = f ++ s3 /\ frac_part f) as [-> PF].
  { destruct s2 as [|c t]; cbn in F; [injection F as <- <-; split; [easy|now left]|]. destruct (c =? 46) eqn:H.
    - destruct (digits t) as [d u] eqn:D. destruct (digits_sound _ _ _ D) as [-> FD].
      destruct d as [|x d]; [discriminate|]. injection F as <- <-. split; [easy|]. right. exists (x :: d). split; [f_equal; lia|]. easy.
    - injection F as <- <-. split; [easy|now left]. }
  destruct (parse_exp s3) as [[e s4]|] eqn:E; [|discriminate]. intro X. injection X as <- <-.
  assert (s3 = e ++ s4 /\ exp_part e) as [-> PE].
  { destruct s3 as [|c t]; cbn in E; [injection E as <- <-; split; [easy|now left]|]. destruct ((c =? 101) || (c =? 69)) eqn:H.
    - destruct (match t with [] => ([], []) | x :: u => if (x =? 43) || (x =? 45) then ([x], u) else ([], t) end) as [g u] eqn:U.
      assert (t = g ++ u /\ (g = [] \/ g = [43] \/ g = [45])) as [-> PG].
      { destruct t as [|x t]; [injection U as <- <-; auto|]. destruct ((x =? 43) || (x =? 45)) eqn:X; injection U as <- <-; [|auto].
        split; [easy|]. assert (x = 43 \/ x = 45) as [->| ->] by lia; auto. }
      destruct (digits u) as [d v] eqn:D. destruct (digits_sound _ _ _ D) as [-> FD]. destruct d as [|x d]; [discriminate|].
      injection E as <- <-. split; [cbn; now rewrite <- app_assoc|]. right. exists c, g, (x :: d). split; [easy|]. split; [lia|]. easy.
    - injection E as <- <-. split; [easy|now left]. }
  split; [now rewrite !app_assoc|]. exists sg, i, f, e. easy.
Qed.

Lemma strip_app w r : strip w (w ++ r) = Some r.
Proof. induction w as [|a w IH]; cbn; [easy|]. now rewrite Z.eqb_refl. Qed.
Lemma strip_sound w : forall s r, strip w s = Some r -> s = w ++ r.
Proof.
  induction w as [|a w IH]; intros [|c s] r; cbn; try discriminate; try (intro E; injection E as ->; easy).
  destruct (a =? c) eqn:H; [|discriminate]. intro E. rewrite (IH _ _ E). f_equal. lia.
Qed.

(** Completeness *)
Lemma parse_value_close n w r : blanks w -> parse_value n (w ++ 93 :: r) = None.
Proof. intro B. destruct n as [|n]; [easy|]. cbn [parse_value]. now rewrite skip_blanks. Qed.
Lemma parse_elements_close n w r : blanks w -> parse_elements n (w ++ 93 :: r) = None.
Proof. intro B. destruct n as [|n]; [easy|]. cbn [parse_elements]. now rewrite parse_value_close. Qed.
Lemma parse_members_close n w r : blanks w -> parse_members n (w ++ 125 :: r) = None.
Proof. intro B. destruct n as [|n]; [easy|]. cbn [parse_members]. now rewrite skip_blanks. Qed.
Lemma stops_blanks w r : blanks w -> stops r -> stops (w ++ r).
Proof. intros [|c u H _] R; [easy|]. cbn. left. now apply is_ws_iff. Qed.
Lemma skip_delim w c r : blanks w -> is_ws c = false -> skip (w ++ c :: r) = c :: r.
Proof. intros B H. rewrite skip_blanks by easy. now apply skip_stop. Qed.

Definition value_ok (t : list Z) (v : json) : Prop :=
  forall w r n, blanks w -> stops r -> (2 * List.length t + 1 <= n)%nat -> parse_value n (w ++ t ++ r) = Some (v, r).
Definition element_ok (t : list Z) (v : json) : Prop :=
  forall r n, stops r -> (2 * List.length t + 1 <= n)%nat -> exists w, parse_value n (t ++ r) = Some (v, w ++ r) /\ blanks w.
Definition elements_ok (t : list Z) (l : list json) : Prop :=
  forall r n, (2 * List.length t + 2 <= n)%nat -> parse_elements n (t ++ 93 :: r) = Some (l, r).
Definition member_ok (t : list Z) (m : list Z * json) : Prop :=
  forall r n, stops r -> (2 * List.length t + 1 <= n)%nat ->
  exists t1 t2 t3 w, skip (t ++ r) = 34 :: t1 /\ parse_chars t1 = Some (fst m, t2) /\ skip t2 = 58 :: t3 /\
    parse_value n t3 = Some (snd m, w ++ r) /\ blanks w.
Definition members_ok (t : list Z) (l : list (list Z * json)) : Prop :=
  forall r n, (2 * List.length t + 2 <= n)%nat -> parse_members n (t ++ 125 :: r) = Some (l, r).

Ltac lens := repeat (rewrite app_length in * || cbn [List.length] in *).
Lemma complete :
  (forall t v, value t v -> value_ok t v) /\ (forall t v, element t v -> element_ok t v) /\
  (forall t l, elements t l -> elements_ok t l) /\ (forall t m, member t m -> member_ok t m) /\
  (forall t l, members t l -> members_ok t l).
Proof.
  apply grammar_ind; unfold value_ok, element_ok, elements_ok, member_ok, members_ok.
  - intros w r [|n] B R L; [lia|]. cbn [parse_value]. now rewrite skip_blanks.
  - intros w r [|n] B R L; [lia|]. cbn [parse_value]. now rewrite skip_blanks.
  - intros w r [|n] B R L; [lia|]. cbn [parse_value]. now rewrite skip_blanks.
  - intros t H w r [|n] B R L; [lia|]. cbn [parse_value]. rewrite skip_blanks by easy.
    pose proof (parse_number_complete _ _ H R) as P. destruct (literal_first _ H) as (c & u & -> & C). cbn [app] in *.
    rewrite skip_stop by (unfold digit, is_ws in *; lia). unfold digit in C.
    replace (c =? 34) with false by lia. replace (c =? 91) with false by lia. replace (c =? 123) with false by lia.
    replace (c =? 110) with false by lia. replace (c =? 116) with false by lia. replace (c =? 102) with false by lia. now rewrite P.
  - intros t s H w r [|n] B R L; [lia|]. cbn [parse_value]. rewrite skip_blanks by easy. cbn [app].
    rewrite skip_stop by easy. cbv iota beta. change (34 =? 34) with true. cbv iota. rewrite <- app_assoc. cbn [app].
    now rewrite (parse_chars_complete _ _ H).
  - intros w0 B0 w r [|n] B R L; [lia|]. cbn [parse_value]. rewrite skip_blanks by easy. cbn [app].
    rewrite skip_stop by easy. change (91 =? 34) with false. change (91 =? 91) with true. cbv iota. rewrite <- app_assoc. cbn [app].
    rewrite parse_elements_close, skip_delim by easy. easy.
  - intros t l _ IH w r [|n] B R L; [lia|]. cbn [parse_value]. rewrite skip_blanks by easy. cbn [app].
    rewrite skip_stop by easy. change (91 =? 34) with false. change (91 =? 91) with true. cbv iota. rewrite <- app_assoc. cbn [app].
    rewrite IH; [easy|]. lens. lia.
  - intros w0 B0 w r [|n] B R L; [lia|]. cbn [parse_value]. rewrite skip_blanks by easy. cbn [app].
    rewrite skip_stop by easy. change (123 =? 34) with false. change (123 =? 91) with false. change (123 =? 123) with true. cbv iota.
    rewrite <- app_assoc. cbn [app].
    rewrite parse_members_close, skip_delim by easy. easy.
  - intros t l _ IH w r [|n] B R L; [lia|]. cbn [parse_value]. rewrite skip_blanks by easy. cbn [app].
    rewrite skip_stop by easy. change (123 =? 34) with false. change (123 =? 91) with false. change (123 =? 123) with true. cbv iota.
    rewrite <- app_assoc. cbn [app]. rewrite IH; [easy|]. lens. lia.
  - intros w1 t w2 v B1 _ IH B2 r n R L. exists w2. split; [|easy]. rewrite <- !app_assoc. lens.
    apply IH; [easy|now apply stops_blanks|lia].
  - intros t v _ IH r [|n] L; [lia|]. cbn [parse_elements].
    destruct (IH (93 :: r) n) as (w & -> & B); [cbn; lia|lia|]. now rewrite skip_delim.
  - intros t v t' l _ IH _ IH' r [|n] L; [lia|]. cbn [parse_elements]. rewrite <- app_assoc. cbn [app]. lens.
    destruct (IH (44 :: t' ++ 93 :: r) n) as (w & -> & B); [cbn; lia|lia|]. rewrite skip_delim by easy.
    change (44 =? 93) with false. change (44 =? 44) with true. cbv iota. rewrite IH' by lia. easy.
  - intros w1 tk k w2 t v B1 K B2 _ IH r n R L. lens. destruct (IH r n R) as (w & P & B); [lia|].
    exists (tk ++ 34 :: (w2 ++ 58 :: t ++ r)), (w2 ++ 58 :: t ++ r), (t ++ r), w.
    repeat (rewrite <- !app_assoc; cbn [app]). rewrite !skip_delim by easy. rewrite (parse_chars_complete _ _ K). easy.
  - intros t [k v] _ IH r [|n] L; [lia|]. cbn [parse_members].
    destruct (IH (125 :: r) n) as (t1 & t2 & t3 & w & -> & P & S & V & B); [cbn; lia|lia|].
    change (34 =? 34) with true. cbv iota. rewrite P, S. change (58 =? 58) with true. cbv iota. rewrite V, skip_delim by easy. easy.
  - intros t [k v] t' l _ IH _ IH' r [|n] L; [lia|]. cbn [parse_members]. rewrite <- app_assoc. cbn [app]. lens.
    destruct (IH (44 :: t' ++ 125 :: r) n) as (t1 & t2 & t3 & w & -> & P & S & V & B); [cbn; lia|lia|].
    change (34 =? 34) with true. cbv iota. rewrite P, S. change (58 =? 58) with true. cbv iota. rewrite V, skip_delim by easy.
    change (44 =? 125) with false. change (44 =? 44) with true. cbv iota. rewrite IH' by lia. easy.
Qed.

(** Soundness *)
Lemma sound n :
  (forall s v r, parse_value n s = Some (v, r) -> exists w t, s = w ++ t ++ r /\ blanks w /\ value t v) /\
  (forall s l r, parse_elements n s = Some (l, r) -> exists t, s = t ++ 93 :: r /\ elements t l) /\
  (forall s l r, parse_members n s = Some (l, r) -> exists t, s = t ++ 125 :: r /\ members t l).
Proof.
  induction n as [|n (IHv & IHe & IHm)]; [easy|]. repeat split.
  - intros s v r. cbn [parse_value]. destruct (skip_spec s) as (w & E & B). destruct (skip s) as [|c t]; [discriminate|].
    subst s. destruct (c =? 34) eqn:C34.
    { destruct (parse_chars t) as [[u x]|] eqn:P; [|discriminate]. intro E. injection E as <- <-.
      destruct (parse_chars_sound _ _ _ _ (le_n _) P) as (t' & -> & K). exists w, (34 :: t' ++ [34]).
      replace c with 34 by lia. split; [cbn; now rewrite <- app_assoc|]. split; [easy|now constructor]. }
    destruct (c =? 91) eqn:C91.
    { replace c with 91 by lia. destruct (parse_elements n t) as [[l x]|] eqn:P.
      - intro E. injection E as <- <-. apply IHe in P. destruct P as (t' & -> & K). exists w, (91 :: t' ++ [93]).
        split; [cbn; now rewrite <- app_assoc|]. split; [easy|now constructor].
      - destruct (skip_spec t) as (w' & E & B'). destruct (skip t) as [|x y]; [discriminate|]. destruct (x =? 93) eqn:X; [|discriminate].
        intro F. injection F as <- <-. exists w, (91 :: w' ++ [93]). replace x with 93 in E by lia. rewrite E.
        split; [cbn; now rewrite <- app_assoc|]. split; [easy|now constructor]. }
    destruct (c =? 123) eqn:C123.
    { replace c with 123 by lia. destruct (parse_members n t) as [[l x]|] eqn:P.
      - intro E. injection E as <- <-. apply IHm in P. destruct P as (t' & -> & K). exists w, (123 :: t' ++ [125]).
        split; [cbn; now rewrite <- app_assoc|]. split; [easy|now constructor].
      - destruct (skip_spec t) as (w' & E & B'). destruct (skip t) as [|x y]; [discriminate|]. destruct (x =? 125) eqn:X; [|discriminate].
        intro F. injection F as <- <-. exists w, (123 :: w' ++ [125]). replace x with 125 in E by lia. rewrite E.
        split; [cbn; now rewrite <- app_assoc|]. split; [easy|now constructor]. }
    unfold keyword.
    destruct (c =? 110).
    { destruct (strip (txt "null") (c :: t)) as [x|] eqn:P; [|discriminate]. intro E. injection E as <- <-.
      apply strip_sound in P. rewrite P. exists w, (txt "null"). split; [easy|]. split; [easy|constructor]. }
    destruct (c =? 116).
    { destruct (strip (txt "true") (c :: t)) as [x|] eqn:P; [|discriminate]. intro E. injection E as <- <-.
      apply strip_sound in P. rewrite P. exists w, (txt "true"). split; [easy|]. split; [easy|constructor]. }
    destruct (c =? 102).
    { destruct (strip (txt "false") (c :: t)) as [x|] eqn:P; [|discriminate]. intro E. injection E as <- <-.
      apply strip_sound in P. rewrite P. exists w, (txt "false"). split; [easy|]. split; [easy|constructor]. }
    destruct (parse_number (c :: t)) as [[l x]|] eqn:P; [|discriminate]. intro E. injection E as <- <-.
    apply parse_number_sound in P. destruct P as [P K]. rewrite P. exists w, l. split; [easy|]. split; [easy|now constructor].
  - intros s l r. cbn [parse_elements]. destruct (parse_value n s) as [[v x]|] eqn:P; [|discriminate].
    apply IHv in P. destruct P as (w & t & -> & B & V). destruct (skip_spec x) as (w' & E & B'). destruct (skip x) as [|c y]; [discriminate|].
    subst x. destruct (c =? 93) eqn:C93.
    + intro E. injection E as <- <-. exists (w ++ t ++ w'). replace c with 93 by lia. split; [now rewrite <- !app_assoc|]. now constructor.
    + destruct (c =? 44) eqn:C44; [|discriminate]. destruct (parse_elements n y) as [[l' x]|] eqn:P; [|discriminate].
      intro E. injection E as <- <-. apply IHe in P. destruct P as (t' & -> & K). exists ((w ++ t ++ w') ++ 44 :: t').
      replace c with 44 by lia. split; [now rewrite <- !app_assoc|]. constructor; [now constructor|easy].
  - intros s l r. cbn [parse_members]. destruct (skip_spec s) as (w & E & B). destruct (skip s) as [|c t]; [discriminate|].
    subst s. destruct (c =? 34) eqn:C34; [|discriminate]. destruct (parse_chars t) as [[k x]|] eqn:P; [|discriminate].
    destruct (parse_chars_sound _ _ _ _ (le_n _) P) as (tk & -> & K). destruct (skip_spec x) as (w2 & E & B2).
    destruct (skip x) as [|c2 y]; [discriminate|]. subst x. destruct (c2 =? 58) eqn:C58; [|discriminate].
    destruct (parse_value n y) as [[v x]|] eqn:V; [|discriminate]. apply IHv in V. destruct V as (w3 & tv & -> & B3 & V).
    destruct (skip_spec x) as (w4 & E & B4). destruct (skip x) as [|c3 y]; [discriminate|]. subst x.
    assert (member (w ++ (34 :: tk ++ [34]) ++ w2 ++ 58 :: (w3 ++ tv ++ w4)) (k, v)) as M by (constructor; [easy|easy|easy|now constructor]).
    replace c with 34 by lia. replace c2 with 58 by lia. destruct (c3 =? 125) eqn:C125.
    + intro E. injection E as <- <-. replace c3 with 125 by lia. eexists. split; [|constructor; exact M].
      repeat (rewrite <- !app_assoc; cbn [app]). easy.
    + destruct (c3 =? 44) eqn:C44; [|discriminate]. destruct (parse_members n y) as [[l' x]|] eqn:Q; [|discriminate].
      intro E. injection E as <- <-. apply IHm in Q. destruct Q as (t' & -> & N). replace c3 with 44 by lia.
      eexists. split; [|constructor; [exact M|exact N]]. repeat (rewrite <- !app_assoc; cbn [app]). easy.
Qed.

Theorem parse_exact t v : parse t = Some v <-> json_text t v.
Proof.
  unfold parse, json_text. split.
  - destruct (parse_value (2 * List.length t + 1) t) as [[v' r]|] eqn:P; [|discriminate]. destruct (skip_spec r) as (w2 & E & B2).
    destruct (skip r); [|discriminate]. intro F. injection F as <-. rewrite app_nil_r in E. subst w2.
    apply (sound _) in P. destruct P as (w & u & -> & B & V). now constructor.
  - intro H. destruct (proj1 (proj2 complete) _ _ H [] (2 * List.length t + 1)%nat I (le_n _)) as (w & P & B).
    rewrite app_nil_r in P. rewrite P. rewrite skip_blanks by easy. easy.
Qed.
