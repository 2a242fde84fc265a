(** What a JSON text is: the grammar of ECMA-404 (json.org), with the value that
    a text stands for. *)
From Coq Require Import String.
From Verif Require Import Base Json.
Local Open Scope list_scope.
Local Open Scope Z_scope.

Definition blanks (w : list Z) : Prop := Forall (fun c => c = 32 \/ c = 9 \/ c = 10 \/ c = 13) w.

(** Strings: the text between the quotation marks and the code units meant. *)
Inductive hexit : Z -> Z -> Prop :=
| hex_digit c : 48 <= c <= 57 -> hexit c (c - 48)
| hex_lower c : 97 <= c <= 102 -> hexit c (c - 87)
| hex_upper c : 65 <= c <= 70 -> hexit c (c - 55).
Inductive chars : list Z -> list Z -> Prop :=
| ch_end : chars [] []
| ch_plain c t s : 32 <= c -> c <> 34 -> c <> 92 -> chars t s -> chars (c :: t) (c :: s)
| ch_escape e c t s : List.In (e, c) [(34, 34); (92, 92); (47, 47); (98, 8); (102, 12); (110, 10); (114, 13); (116, 9)] ->
    chars t s -> chars (92 :: e :: t) (c :: s)
| ch_hex h1 h2 h3 h4 a b c d t s : hexit h1 a -> hexit h2 b -> hexit h3 c -> hexit h4 d -> chars t s ->
    chars (92 :: 117 :: h1 :: h2 :: h3 :: h4 :: t) (4096 * a + 256 * b + 16 * c + d :: s).

(** Numbers: -? (0 | [1-9][0-9]* ) (.[0-9]+)? ([eE][+-]?[0-9]+)? *)
Definition digit (c : Z) : Prop := 48 <= c <= 57.
Definition int_part (t : list Z) : Prop := t = [48] \/ exists c r, t = c :: r /\ 49 <= c <= 57 /\ Forall digit r.
Definition frac_part (t : list Z) : Prop := t = [] \/ exists r, t = 46 :: r /\ r <> [] /\ Forall digit r.
Definition exp_part (t : list Z) : Prop :=
  t = [] \/ exists e sg r, t = e :: sg ++ r /\ (e = 101 \/ e = 69) /\ (sg = [] \/ sg = [43] \/ sg = [45]) /\ r <> [] /\ Forall digit r.
Definition literal (t : list Z) : Prop :=
  exists sg i f e, t = sg ++ i ++ f ++ e /\ (sg = [] \/ sg = [45]) /\ int_part i /\ frac_part f /\ exp_part e.

Inductive value : list Z -> json -> Prop :=
| va_null : value (txt "null") JNull
| va_true : value (txt "true") (JBool true)
| va_false : value (txt "false") (JBool false)
| va_num t : literal t -> value t (JNum t)
| va_str t s : chars t s -> value (34 :: t ++ [34]) (JStr s)
| va_arr0 w : blanks w -> value (91 :: w ++ [93]) (JArr [])
| va_arr t l : elements t l -> value (91 :: t ++ [93]) (JArr l)
| va_obj0 w : blanks w -> value (123 :: w ++ [125]) (JObj [])
| va_obj t l : members t l -> value (123 :: t ++ [125]) (JObj l)
(** A value with blanks around it. *)
with element : list Z -> json -> Prop :=
| el w1 t w2 v : blanks w1 -> value t v -> blanks w2 -> element (w1 ++ t ++ w2) v
with elements : list Z -> list json -> Prop :=
| els_one t v : element t v -> elements t [v]
| els_more t v t' l : element t v -> elements t' l -> elements (t ++ 44 :: t') (v :: l)
with member : list Z -> list Z * json -> Prop :=
| mem w1 tk k w2 t v : blanks w1 -> chars tk k -> blanks w2 -> element t v ->
    member (w1 ++ (34 :: tk ++ [34]) ++ w2 ++ 58 :: t) (k, v)
with members : list Z -> list (list Z * json) -> Prop :=
| mems_one t m : member t m -> members t [m]
| mems_more t m t' l : member t m -> members t' l -> members (t ++ 44 :: t') (m :: l).

(** The text [t] is a JSON text for [v]. *)
Definition json_text (t : list Z) (v : json) : Prop := element t v.

(** Values that JavaScript can hold: its strings consist of 16-bit units, its
    (finite) numbers are written as literals. *)
Definition units (s : list Z) : Prop := Forall (fun c => 0 <= c < 65536) s.
Inductive valid : json -> Prop :=
| ok_null : valid JNull
| ok_bool b : valid (JBool b)
| ok_num t : literal t -> valid (JNum t)
| ok_str s : units s -> valid (JStr s)
| ok_arr l : Forall valid l -> valid (JArr l)
| ok_obj l : Forall (fun kv => units (fst kv) /\ valid (snd kv)) l -> valid (JObj l).

(** A text that UTF-8 can carry: every surrogate is half of a pair. *)
Inductive paired : list Z -> Prop :=
| pa_end : paired []
| pa_unit c t : ~ 55296 <= c <= 57343 -> paired t -> paired (c :: t)
| pa_pair c d t : 55296 <= c <= 56319 -> 56320 <= d <= 57343 -> paired t -> paired (c :: d :: t).
