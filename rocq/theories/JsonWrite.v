(** JSON.stringify writes a JSON text for the value, without lone surrogates. *)
From Coq Require Import String.
From Verif Require Import Base Json JsonSpec JsonProofs.
Local Open Scope list_scope.
Local Open Scope Z_scope.

Fixpoint json_rect' (P : json -> Prop) (Hn : P JNull) (Hb : forall b, P (JBool b)) (Hm : forall t, P (JNum t)) (Hs : forall s, P (JStr s))
  (Ha : forall l, Forall P l -> P (JArr l)) (Ho : forall l, Forall (fun kv => P (snd kv)) l -> P (JObj l)) (v : json) : P v :=
  match v with
  | JNull => Hn
  | JBool b => Hb b
  | JNum t => Hm t
  | JStr s => Hs s
  | JArr l => Ha l ((fix go l : Forall P l := match l with [] => Forall_nil _ | x :: l => Forall_cons x (json_rect' P Hn Hb Hm Hs Ha Ho x) (go l) end) l)
  | JObj l => Ho l ((fix go l : Forall (fun kv => P (snd kv)) l :=
                       match l with [] => Forall_nil _ | x :: l => Forall_cons x (json_rect' P Hn Hb Hm Hs Ha Ho (snd x)) (go l) end) l)
  end.

Lemma hexit_digit n : 0 <= n < 16 -> hexit (hexdigit n) n.
Proof.
  intro H. unfold hexdigit. destruct (n <? 10) eqn:E.
  - replace n with (48 + n - 48) at 2 by lia. constructor. lia.
  - replace n with (87 + n - 87) at 2 by lia. constructor 2. lia.
Qed.
Lemma chars_app t s t' s' : chars t s -> chars t' s' -> chars (t ++ t') (s ++ s').
Proof. induction 1; intro H'; cbn [app]; [easy|apply ch_plain|apply ch_escape|apply ch_hex]; auto. Qed.
Lemma escape_unit_chars c : 0 <= c < 65536 -> chars (escape_unit c) [c].
Proof.
  intro H. unfold escape_unit.
  replace [c] with [4096 * (c / 4096 mod 16) + 256 * (c / 256 mod 16) + 16 * (c / 16 mod 16) + c mod 16] by (f_equal; dlia).
  apply ch_hex; try (apply hexit_digit; apply Z.mod_pos_bound; lia). constructor.
Qed.
Lemma quote_unit_chars c : 0 <= c < 65536 -> chars (quote_unit c) [c].
Proof.
  intro H. unfold quote_unit.
  repeat match goal with |- context [if ?a =? ?b then _ else _] => destruct (Z.eqb_spec a b); [subst; apply ch_escape; [cbn; tauto|constructor]|] end.
  destruct ((c <? 32) || high c || low c) eqn:E; [now apply escape_unit_chars|]. apply ch_plain; try lia. constructor.
Qed.
Lemma quote_units_chars n : forall s, (List.length s <= n)%nat -> units s -> chars (quote_units s) s.
Proof.
  induction n as [|n IH]; intros s L U; [destruct s; [constructor|cbn in L; lia]|].
  destruct s as [|c t]; [constructor|]. inversion U as [|? ? Hc Ht]; subst. cbn in L.
  assert (chars (quote_unit c ++ quote_units t) (c :: t)) as Q.
  { change (c :: t) with ([c] ++ t). apply chars_app; [now apply quote_unit_chars|]. apply IH; [lia|easy]. }
  cbn [quote_units]. destruct t as [|d u]; [now rewrite app_nil_r in Q|].
  destruct (high c && low d) eqn:E; [|exact Q]. inversion Ht as [|? ? Hd Hu]; subst. cbn in L. unfold high, low in E.
  apply ch_plain; try lia. apply ch_plain; try lia. apply IH; [lia|easy].
Qed.
Lemma quote_value s : units s -> value (quote s) (JStr s).
Proof. intro U. constructor. now apply (quote_units_chars (List.length s)). Qed.

Lemma newline_blanks n : blanks (newline n).
Proof. constructor; [lia|]. induction n; cbn; constructor; [lia|easy]. Qed.
Lemma blanks_nil : blanks [].
Proof. constructor. Qed.
Lemma element_value t v : value t v -> element t v.
Proof. intro H. replace t with ([] ++ t ++ []) by now rewrite app_nil_r. constructor; [constructor|easy|constructor]. Qed.
Lemma element_lead w t v : blanks w -> element t v -> element (w ++ t) v.
Proof. intros B [w1 u w2 x B1 V B2]. rewrite app_assoc. constructor; [now apply blanks_app|easy|easy]. Qed.
Lemma element_trail w t v : blanks w -> element t v -> element (t ++ w) v.
Proof. intros B [w1 u w2 x B1 V B2]. rewrite <- !app_assoc. constructor; [easy|easy|now apply blanks_app]. Qed.
Lemma elements_join nl wl l : blanks nl -> blanks wl -> forall ts, Forall2 value ts l -> ts <> [] ->
  elements (nl ++ join (44 :: nl) ts ++ wl) l.
Proof.
  intros Bn Bl ts F. induction F as [|t v ts l V F IH]; [easy|]. intros _. destruct F as [|t' v' ts l V' F].
  - cbn. constructor. apply element_lead; [easy|]. apply element_trail; [easy|]. now apply element_value.
  - set (r := t' :: ts) in *.
    replace (nl ++ join (44 :: nl) (t :: r) ++ wl) with ((nl ++ t) ++ 44 :: (nl ++ join (44 :: nl) r ++ wl))
      by (unfold r; cbn [join]; repeat (rewrite <- !app_assoc; cbn [app]); easy).
    constructor; [|now apply IH]. apply element_lead; [easy|]. now apply element_value.
Qed.
Lemma members_join nl wl (l : list (list Z * json)) : blanks nl -> blanks wl ->
  forall ts, Forall2 (fun t kv => exists u, t = quote (fst kv) ++ 58 :: 32 :: u /\ units (fst kv) /\ value u (snd kv)) ts l -> ts <> [] ->
  members (nl ++ join (44 :: nl) ts ++ wl) l.
Proof.
  intros Bn Bl ts F.
  assert (forall w k v u, blanks w -> units k -> value u v -> member (nl ++ (quote k ++ 58 :: 32 :: u) ++ w) (k, v)) as M.
  { intros w k v u B U V. replace (nl ++ (quote k ++ 58 :: 32 :: u) ++ w) with (nl ++ (34 :: quote_units k ++ [34]) ++ [] ++ 58 :: ([32] ++ u ++ w))
      by (unfold quote; repeat (rewrite <- !app_assoc; cbn [app]); easy).
    constructor; [easy|now apply (quote_units_chars (List.length k))|constructor|]. constructor; [constructor; [lia|constructor]|easy|easy]. }
  induction F as [|t [k v] ts l (u & -> & U & V) F IH]; [easy|]. intros _. destruct F as [|t' m' ts l V' F].
  - cbn [join]. constructor. now apply M.
  - set (r := t' :: ts) in *.
    replace (nl ++ join (44 :: nl) ((quote (fst (k, v)) ++ 58 :: 32 :: u) :: r) ++ wl)
      with ((nl ++ (quote k ++ 58 :: 32 :: u) ++ []) ++ 44 :: (nl ++ join (44 :: nl) r ++ wl))
      by (unfold r; cbn [join fst]; repeat (rewrite <- !app_assoc; cbn [app]); easy).
    constructor; [|now apply IH]. apply M; [constructor|easy|easy].
Qed.
Theorem stringify_value v : valid v -> forall ind, value (stringify ind v) v.
Proof.
  induction v as [|b|t|s|l IH|l IH] using json_rect'; intros H ind; inversion H; subst.
  - constructor.
  - destruct b; constructor.
  - now constructor.
  - now apply quote_value.
  - cbn [stringify]. destruct l as [|x l]; [apply (va_arr0 []); constructor|].
    set (ts := map (stringify (ind + 2)) (x :: l)).
    assert (Forall2 value ts (x :: l)) as F.
    { unfold ts. revert IH H1. generalize (x :: l) as q. induction q as [|y q IHq]; intros A B; [constructor|].
      inversion A; inversion B; subst. constructor; auto. }
    change (enclose 91 93 ind ts) with (91 :: newline (ind + 2) ++ join (44 :: newline (ind + 2)) ts ++ newline ind ++ [93]).
    rewrite !app_assoc. rewrite app_comm_cons, <- app_comm_cons. constructor. rewrite <- app_assoc.
    apply elements_join; [apply newline_blanks|apply newline_blanks|easy|discriminate].
  - cbn [stringify]. destruct l as [|x l]; [apply (va_obj0 []); constructor|].
    set (ts := map (fun kv : list Z * json => quote (fst kv) ++ 58 :: 32 :: stringify (ind + 2) (snd kv)) (x :: l)).
    assert (Forall2 (fun t kv => exists u, t = quote (fst kv) ++ 58 :: 32 :: u /\ units (fst kv) /\ value u (snd kv)) ts (x :: l)) as F.
    { unfold ts. revert IH H1. generalize (x :: l) as q. induction q as [|y q IHq]; intros A B; [constructor|].
      inversion A as [|? ? A1 A2]; inversion B as [|? ? [B1 B2] B3]; subst. constructor; [|now apply IHq]. eexists. split; [reflexivity|]. auto. }
    change (enclose 123 125 ind ts) with (123 :: newline (ind + 2) ++ join (44 :: newline (ind + 2)) ts ++ newline ind ++ [125]).
    rewrite !app_assoc. constructor. rewrite <- app_assoc.
    apply members_join; [apply newline_blanks|apply newline_blanks|easy|discriminate].
Qed.
Theorem stringify_text v ind : valid v -> json_text (stringify ind v) v.
Proof. intro H. apply element_value. now apply stringify_value. Qed.

(** No lone surrogates *)
Lemma paired_app a b : paired a -> paired b -> paired (a ++ b).
Proof. induction 1; intro; cbn; [easy|constructor; auto|constructor 3; auto]. Qed.
Lemma paired_small a : Forall (fun c => c < 55296) a -> paired a.
Proof. induction 1; constructor; [lia|easy]. Qed.
Lemma hexdigit_small n : 0 <= n < 16 -> hexdigit n < 55296.
Proof. intro. unfold hexdigit. destruct (n <? 10); lia. Qed.
Lemma quote_unit_paired c : paired (quote_unit c).
Proof.
  unfold quote_unit.
  repeat match goal with |- context [if ?a =? ?b then _ else _] => destruct (a =? b); [apply paired_small; repeat (constructor; try lia)|] end.
  destruct ((c <? 32) || high c || low c) eqn:E.
  - apply paired_small. unfold escape_unit.
    repeat (constructor; [first [lia | apply hexdigit_small; apply Z.mod_pos_bound; lia]|]). constructor.
  - unfold high, low in E. constructor; [lia|constructor].
Qed.
Lemma quote_units_paired n : forall s, (List.length s <= n)%nat -> paired (quote_units s).
Proof.
  induction n as [|n IH]; intros s L; [destruct s; [constructor|cbn in L; lia]|].
  destruct s as [|c t]; [constructor|]. cbn in L. assert (paired (quote_unit c ++ quote_units t)) as Q.
  { apply paired_app; [apply quote_unit_paired|]. apply IH. lia. }
  cbn [quote_units]. destruct t as [|d u]; [apply quote_unit_paired|].
  destruct (high c && low d) eqn:E; [|exact Q]. unfold high, low in E. cbn in L. constructor 3; [lia|lia|]. apply IH. lia.
Qed.
Lemma quote_paired s : paired (quote s).
Proof.
  unfold quote. constructor; [lia|]. apply paired_app; [now apply (quote_units_paired (List.length s))|]. apply paired_small. repeat constructor.
Qed.
Lemma newline_paired n : paired (newline n).
Proof. apply paired_small. constructor; [lia|]. induction n; cbn; constructor; [lia|easy]. Qed.
Lemma join_paired sep l : paired sep -> Forall paired l -> paired (join sep l).
Proof.
  intros S. induction 1 as [|a l A F IH]; [constructor|]. destruct l as [|b l]; [easy|].
  change (paired (a ++ sep ++ join sep (b :: l))). apply paired_app; [easy|]. now apply paired_app.
Qed.
Lemma enclose_paired l r n ts : l < 55296 -> r < 55296 -> Forall paired ts -> paired (enclose l r n ts).
Proof.
  intros L R F. assert (paired [r]) as PR by (apply paired_small; constructor; [easy|constructor]).
  unfold enclose. destruct ts as [|t ts]; [constructor; [lia|easy]|]. constructor; [lia|].
  repeat apply paired_app; try apply newline_paired; try easy. apply join_paired; [|easy]. constructor; [lia|]. apply newline_paired.
Qed.
Lemma literal_small t : literal t -> Forall (fun c => c < 55296) t.
Proof.
  assert (forall d, Forall digit d -> Forall (fun c => c < 55296) d) as D by (intros d; apply Forall_impl; unfold digit; lia).
  intros (sg & i & f & e & -> & G & I & F & E). repeat (apply Forall_app; split).
  - destruct G as [->| ->]; repeat (constructor; try lia).
  - destruct I as [->|(c & r & -> & H & R)]; [repeat (constructor; try lia)|]. constructor; [lia|auto].
  - destruct F as [->|(r & -> & H & R)]; [constructor|]. constructor; [lia|auto].
  - destruct E as [->|(x & g & r & -> & X & K & N & R)]; [constructor|]. constructor; [lia|]. apply Forall_app. split; [|auto].
    destruct K as [->|[->| ->]]; repeat (constructor; try lia).
Qed.
Theorem stringify_paired v : valid v -> forall ind, paired (stringify ind v).
Proof.
  induction v as [|b|t|s|l IH|l IH] using json_rect'; intros H ind; inversion H; subst.
  - apply paired_small. repeat constructor.
  - apply paired_small. destruct b; repeat constructor.
  - apply paired_small. now apply literal_small.
  - apply quote_paired.
  - cbn [stringify]. apply enclose_paired; [lia|lia|]. rewrite Forall_map. rewrite Forall_forall in *. auto.
  - cbn [stringify]. apply enclose_paired; [lia|lia|]. rewrite Forall_map. rewrite Forall_forall in *. intros kv I.
    apply paired_app; [apply quote_paired|]. constructor; [lia|]. constructor; [lia|]. apply IH; [easy|]. now apply H1.
Qed.
