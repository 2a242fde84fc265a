(** Model of the two functions of JavaScript with which the orchestrator writes
    and reads its lists of experiments: JSON.stringify(value, null, 2) and
    JSON.parse (used in experiments/orchestrator/cmd.js:190 and 220; they are
    part of node.js and follow ECMA-262, 25.5).
    A text is a list of UTF-16 code units.  Simplifications: the file holds the
    text (node.js writes and reads it as UTF-8, which loses nothing unless there
    are lone surrogates in it); a number is kept as the literal that stands for
    it; an object is the list of its members in the order of the text (also where
    JavaScript would sort or merge them: [field] looks up the last one). *)
From Coq Require Import String Ascii.
From Verif Require Import Base.
Local Open Scope Z_scope.
Local Open Scope list_scope.

Definition txt (s : string) : list Z := map (fun a => Z.of_nat (nat_of_ascii a)) (list_ascii_of_string s).

Inductive json :=
| JNull | JBool (b : bool) | JNum (lit : list Z) | JStr (s : list Z)
| JArr (l : list json) | JObj (l : list (list Z * json)).

(** QuoteJSONString (ECMA-262, 25.5.2.3) *)
Definition hexdigit (n : Z) : Z := if n <? 10 then 48 + n else 87 + n.
Definition escape_unit (c : Z) : list Z :=
  [92; 117; hexdigit (c / 4096 mod 16); hexdigit (c / 256 mod 16); hexdigit (c / 16 mod 16); hexdigit (c mod 16)].
Definition high (c : Z) : bool := (55296 <=? c) && (c <=? 56319).
Definition low (c : Z) : bool := (56320 <=? c) && (c <=? 57343).
Definition quote_unit (c : Z) : list Z :=
  if c =? 8 then [92; 98] else if c =? 9 then [92; 116] else if c =? 10 then [92; 110]
  else if c =? 12 then [92; 102] else if c =? 13 then [92; 114]
  else if c =? 34 then [92; 34] else if c =? 92 then [92; 92]
  else if (c <? 32) || high c || low c then escape_unit c else [c].
Fixpoint quote_units (s : list Z) : list Z :=
  match s with
  | [] => []
  | c :: t =>
      match t with
      | d :: u => if high c && low d then c :: d :: quote_units u else quote_unit c ++ quote_units t
      | [] => quote_unit c
      end
  end.
Definition quote (s : list Z) : list Z := 34 :: quote_units s ++ [34].

(** SerializeJSONProperty, SerializeJSONArray, SerializeJSONObject (25.5.2.2,
    25.5.2.4-5) with a gap of two blanks. *)
Definition newline (ind : nat) : list Z := 10 :: repeat 32 ind.
Fixpoint join (sep : list Z) (l : list (list Z)) : list Z :=
  match l with
  | [] => []
  | [a] => a
  | a :: l => a ++ sep ++ join sep l
  end.
Definition enclose (l r : Z) (ind : nat) (parts : list (list Z)) : list Z :=
  match parts with
  | [] => [l; r]
  | _ => l :: newline (ind + 2) ++ join (44 :: newline (ind + 2)) parts ++ newline ind ++ [r]
  end.
Fixpoint stringify (ind : nat) (v : json) : list Z :=
  match v with
  | JNull => txt "null"
  | JBool true => txt "true"
  | JBool false => txt "false"
  | JNum lit => lit
  | JStr s => quote s
  | JArr l => enclose 91 93 ind (map (stringify (ind + 2)) l)
  | JObj l => enclose 123 125 ind (map (fun kv => quote (fst kv) ++ 58 :: 32 :: stringify (ind + 2) (snd kv)) l)
  end.

(** JSON.parse (25.5.1): blanks, strings, numbers, values. *)
Definition is_ws (c : Z) : bool := (c =? 32) || (c =? 9) || (c =? 10) || (c =? 13).
Fixpoint skip (s : list Z) : list Z :=
  match s with
  | c :: t => if is_ws c then skip t else s
  | [] => []
  end.
Definition hexvalue (c : Z) : option Z :=
  if (48 <=? c) && (c <=? 57) then Some (c - 48)
  else if (97 <=? c) && (c <=? 102) then Some (c - 87)
  else if (65 <=? c) && (c <=? 70) then Some (c - 55)
  else None.
Definition unescape (c : Z) : option Z :=
  if c =? 34 then Some 34 else if c =? 92 then Some 92 else if c =? 47 then Some 47
  else if c =? 98 then Some 8 else if c =? 102 then Some 12 else if c =? 110 then Some 10
  else if c =? 114 then Some 13 else if c =? 116 then Some 9 else None.
Definition cons_unit (c : Z) (r : option (list Z * list Z)) : option (list Z * list Z) :=
  match r with Some (s, rest) => Some (c :: s, rest) | None => None end.
(** The characters of a string, after its opening quotation mark. *)
Fixpoint parse_chars (s : list Z) : option (list Z * list Z) :=
  match s with
  | [] => None
  | c :: t =>
      if c =? 34 then Some ([], t)
      else if c <? 32 then None
      else if c =? 92 then
        match t with
        | [] => None
        | e :: t =>
            if e =? 117 then
              match t with
              | h1 :: h2 :: h3 :: h4 :: t =>
                  match hexvalue h1, hexvalue h2, hexvalue h3, hexvalue h4 with
                  | Some a, Some b, Some c, Some d => cons_unit (((a * 16 + b) * 16 + c) * 16 + d) (parse_chars t)
                  | _, _, _, _ => None
                  end
              | _ => None
              end
            else match unescape e with Some u => cons_unit u (parse_chars t) | None => None end
        end
      else cons_unit c (parse_chars t)
  end.

Definition is_digit (c : Z) : bool := (48 <=? c) && (c <=? 57).
Fixpoint digits (s : list Z) : list Z * list Z :=
  match s with
  | c :: t => if is_digit c then let (d, r) := digits t in (c :: d, r) else ([], s)
  | [] => ([], [])
  end.
Definition parse_sign (s : list Z) : list Z * list Z :=
  match s with c :: t => if c =? 45 then ([c], t) else ([], s) | [] => ([], []) end.
Definition parse_int (s : list Z) : option (list Z * list Z) :=
  match s with
  | c :: t => if c =? 48 then Some ([c], t) else if is_digit c then Some (digits s) else None
  | [] => None
  end.
Definition parse_frac (s : list Z) : option (list Z * list Z) :=
  match s with
  | c :: t => if c =? 46 then match digits t with ([], _) => None | (d, r) => Some (c :: d, r) end else Some ([], s)
  | [] => Some ([], [])
  end.
Definition parse_exp (s : list Z) : option (list Z * list Z) :=
  match s with
  | c :: t =>
      if (c =? 101) || (c =? 69) then
        let (sg, u) := match t with x :: u => if (x =? 43) || (x =? 45) then ([x], u) else ([], t) | [] => ([], []) end in
        match digits u with ([], _) => None | (d, r) => Some (c :: sg ++ d, r) end
      else Some ([], s)
  | [] => Some ([], [])
  end.
Definition parse_number (s : list Z) : option (list Z * list Z) :=
  let (sg, s1) := parse_sign s in
  match parse_int s1 with
  | Some (i, s2) =>
      match parse_frac s2 with
      | Some (f, s3) =>
          match parse_exp s3 with
          | Some (e, s4) => Some (sg ++ i ++ f ++ e, s4)
          | None => None
          end
      | None => None
      end
  | None => None
  end.

Fixpoint strip (w s : list Z) : option (list Z) :=
  match w, s with
  | [], _ => Some s
  | a :: w, c :: s => if a =? c then strip w s else None
  | _ :: _, [] => None
  end.
Definition keyword (w : list Z) (v : json) (s : list Z) : option (json * list Z) :=
  match strip w s with Some r => Some (v, r) | None => None end.

(** The number [n] bounds the depth of the recursion. *)
Fixpoint parse_value (n : nat) (s : list Z) : option (json * list Z) :=
  match n with
  | O => None
  | S n =>
      match skip s with
      | [] => None
      | c :: t =>
          if c =? 34 then match parse_chars t with Some (u, r) => Some (JStr u, r) | None => None end
          else if c =? 91 then
            match parse_elements n t with
            | Some (l, r) => Some (JArr l, r)
            | None => match skip t with x :: r => if x =? 93 then Some (JArr [], r) else None | [] => None end
            end
          else if c =? 123 then
            match parse_members n t with
            | Some (l, r) => Some (JObj l, r)
            | None => match skip t with x :: r => if x =? 125 then Some (JObj [], r) else None | [] => None end
            end
          else if c =? 110 then keyword (txt "null") JNull (c :: t)
          else if c =? 116 then keyword (txt "true") (JBool true) (c :: t)
          else if c =? 102 then keyword (txt "false") (JBool false) (c :: t)
          else match parse_number (c :: t) with Some (l, r) => Some (JNum l, r) | None => None end
      end
  end
(** The elements of an array up to its closing bracket. *)
with parse_elements (n : nat) (s : list Z) : option (list json * list Z) :=
  match n with
  | O => None
  | S n =>
      match parse_value n s with
      | Some (v, r) =>
          match skip r with
          | c :: r =>
              if c =? 93 then Some ([v], r)
              else if c =? 44 then match parse_elements n r with Some (l, r) => Some (v :: l, r) | None => None end
              else None
          | [] => None
          end
      | None => None
      end
  end
(** The members of an object up to its closing brace. *)
with parse_members (n : nat) (s : list Z) : option (list (list Z * json) * list Z) :=
  match n with
  | O => None
  | S n =>
      match skip s with
      | c :: t =>
          if c =? 34 then
            match parse_chars t with
            | Some (k, r) =>
                match skip r with
                | c :: r =>
                    if c =? 58 then
                      match parse_value n r with
                      | Some (v, r) =>
                          match skip r with
                          | c :: r =>
                              if c =? 125 then Some ([(k, v)], r)
                              else if c =? 44 then match parse_members n r with Some (l, r) => Some ((k, v) :: l, r) | None => None end
                              else None
                          | [] => None
                          end
                      | None => None
                      end
                    else None
                | [] => None
                end
            | None => None
            end
          else None
      | [] => None
      end
  end.
Definition parse (s : list Z) : option json :=
  match parse_value (2 * List.length s + 1) s with
  | Some (v, r) => match skip r with [] => Some v | _ => None end
  | None => None
  end.
