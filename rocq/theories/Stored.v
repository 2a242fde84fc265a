(** Model of the commands store, load and loadi of the orchestrator
    (experiments/orchestrator/cmd.js:187-250) and of toJSON and fromJSON
    (experiment.js:93-100, 214-232, 270-280, 301-310; orchestrator.js:116-122).
    Simplifications: file names contain no "/" and files can be written and read;
    numbers that are not written as integers in the file, but where integers are
    meant, and fields of other types than the program itself writes are outside
    of the model ([Outside]). *)
From Coq Require Import String Ascii DecimalZ.
From Verif Require Import Base Json Orchestrator.
Local Open Scope string_scope.
Local Open Scope Z_scope.
Local Open Scope list_scope.

(** What the model leaves open: how modes and pirtypes and the doubles epsilon and
    delta, which descriptions carry as codes and images, are written and read. *)
Record coding := {
  co_mode_text : Z -> list Z; co_mode_code : list Z -> Z;
  co_double_text : Z -> list Z; co_double_image : list Z -> Z
}.

(** Integers in decimal, as JavaScript writes those below 10^21; as it reads them. *)
Fixpoint uint_text (d : Decimal.uint) : list Z :=
  match d with
  | Decimal.Nil => []
  | Decimal.D0 d => 48 :: uint_text d | Decimal.D1 d => 49 :: uint_text d | Decimal.D2 d => 50 :: uint_text d
  | Decimal.D3 d => 51 :: uint_text d | Decimal.D4 d => 52 :: uint_text d | Decimal.D5 d => 53 :: uint_text d
  | Decimal.D6 d => 54 :: uint_text d | Decimal.D7 d => 55 :: uint_text d | Decimal.D8 d => 56 :: uint_text d
  | Decimal.D9 d => 57 :: uint_text d
  end.
Definition int_text (z : Z) : list Z :=
  match Z.to_int z with Decimal.Pos d => uint_text d | Decimal.Neg d => 45 :: uint_text d end.
Definition nat_value (t : list Z) : option Z :=
  if forallb is_digit t then Some (fold_left (fun a c => a * 10 + (c - 48)) t 0) else None.
Definition int_value (t : list Z) : option Z :=
  match t with
  | c :: u => if c =? 45 then match nat_value u with Some z => Some (- z) | None => None end else nat_value t
  | [] => None
  end.

(** constants.js:24-28 *)
Definition type_text (k : ekind) : list Z := txt match k with Dppir => "dppir" | Checklist => "checklist" | Sealpir => "sealpir" end.

(** experiment.js:93-100, 214-225, 270-277, 301-307: toJSON.  The description is
    that of an experiment that exists, so the numbers of clients and servers are
    the ones its constructor set. *)
Definition num (z : Z) : json := JNum (int_text z).
Definition to_json (c : coding) (d : desc) : json :=
  JObj ([(txt "name_", JStr (ds_name d)); (txt "experimentType", JStr (type_text (ds_kind d)));
         (txt "clientsNum", num (Z.of_nat (ds_clients d))); (txt "serversNum", num (Z.of_nat (ds_servers d)))] ++
        match ds_kind d with
        | Dppir =>
            [(txt "mode", JStr (co_mode_text c (ds_mode d)));
             (txt "parties", num (Z.of_nat (ds_parties d))); (txt "parallelism", num (Z.of_nat (ds_parallel d)));
             (txt "epsilon", JNum (co_double_text c (ds_epsilon d))); (txt "delta", JNum (co_double_text c (ds_delta d)));
             (txt "queries", num (ds_queries d)); (txt "tableSize", num (ds_table d))]
        | Checklist =>
            [(txt "pirtype", JStr (co_mode_text c (ds_mode d))); (txt "queries", num (ds_queries d)); (txt "tableSize", num (ds_table d))]
        | Sealpir => [(txt "queries", num (ds_queries d)); (txt "tableSize", num (ds_table d))]
        end).

(** obj.key: the last member of that name. *)
Definition units_eqb (a b : list Z) : bool := if list_eq_dec Z.eq_dec a b then true else false.
Fixpoint field (k : list Z) (l : list (list Z * json)) : option json :=
  match l with
  | [] => None
  | (k', v) :: l => match field k l with Some w => Some w | None => if units_eqb k k' then Some v else None end
  end.
Definition string_field (k : string) (l : list (list Z * json)) : option (list Z) :=
  match field (txt k) l with Some (JStr s) => Some s | _ => None end.
Definition int_field (k : string) (l : list (list Z * json)) : option Z :=
  match field (txt k) l with Some (JNum t) => int_value t | _ => None end.
Definition nat_field (k : string) (l : list (list Z * json)) : option nat :=
  match int_field k l with Some z => if 0 <=? z then Some (Z.to_nat z) else None | None => None end.
Definition double_field (c : coding) (k : string) (l : list (list Z * json)) : option Z :=
  match field (txt k) l with Some (JNum t) => Some (co_double_image c t) | _ => None end.

(** cmd.js:222-235 with experiment.js:226-232, 278-280, 308-310 and 9-23: an element
    of the array becomes an experiment, or an exception is thrown: it is null, its
    type is unknown, its name is not a string, or the directory of its results
    cannot be made ([made]: mkdirSync succeeds for this name). *)
Inductive loaded := Loads (d : desc) | Throws | Outside.
Definition from_json (c : coding) (made : list Z -> bool) (v : json) : loaded :=
  match v with
  | JObj l =>
      match field (txt "experimentType") l with
      | Some (JStr ty) =>
          let named (body : list Z -> option desc) :=
            match field (txt "name_") l with
            | Some (JStr name) =>
                if made name then match body name with Some d => Loads d | None => Outside end else Throws
            | _ => Throws
            end in
          if units_eqb ty (type_text Dppir) then named (fun name =>
            match string_field "mode" l, nat_field "clientsNum" l, nat_field "serversNum" l, int_field "tableSize" l, nat_field "parties" l,
                  nat_field "parallelism" l, double_field c "epsilon" l, double_field c "delta" l, int_field "queries" l with
            | Some mode, Some cn, Some sn, Some table, Some ps, Some pr, Some eps, Some del, Some qs =>
                Some {| ds_kind := Dppir; ds_name := name; ds_mode := co_mode_code c mode; ds_clients := cn; ds_servers := sn;
                        ds_table := table; ds_parties := ps; ds_parallel := pr; ds_epsilon := eps; ds_delta := del; ds_queries := qs |}
            | _, _, _, _, _, _, _, _, _ => None
            end)
          else if units_eqb ty (type_text Checklist) then named (fun name =>
            match int_field "tableSize" l, int_field "queries" l, string_field "pirtype" l with
            | Some table, Some qs, Some pt =>
                Some {| ds_kind := Checklist; ds_name := name; ds_mode := co_mode_code c pt; ds_clients := 0; ds_servers := 0;
                        ds_table := table; ds_parties := 0; ds_parallel := 0; ds_epsilon := 0; ds_delta := 0; ds_queries := qs |}
            | _, _, _ => None
            end)
          else if units_eqb ty (type_text Sealpir) then named (fun name =>
            match int_field "tableSize" l, int_field "queries" l with
            | Some table, Some qs =>
                Some {| ds_kind := Sealpir; ds_name := name; ds_mode := 0; ds_clients := 0; ds_servers := 0;
                        ds_table := table; ds_parties := 0; ds_parallel := 0; ds_epsilon := 0; ds_delta := 0; ds_queries := qs |}
            | _, _ => None
            end)
          else Throws
      | _ => Throws
      end
  | _ => Throws
  end.

(** cmd.js:236-241: how the load ends: all is read, an exception stops it, it waits
    for an answer for ever, or the file is outside of the model. *)
Inductive outcome := Complete | Stopped | Asking | Unmodelled.
Definition declined (answer : list Z) : bool :=
  let lower := map (fun c => if (65 <=? c) && (c <=? 90) then c + 32 else c) answer in
  units_eqb lower (txt "n") || units_eqb lower (txt "no").
(** cmd.js:222-243: the experiments that the elements make and whether each is
    added; [answers]: those given to the questions of loadi, None for load. *)
Fixpoint load_elements (c : coding) (made : list Z -> bool) (answers : option (list (list Z))) (l : list json) :
  list event * outcome * option (list (list Z)) :=
  match l with
  | [] => ([], Complete, answers)
  | v :: l =>
      match from_json c made v with
      | Throws => ([], Stopped, answers)
      | Outside => ([], Unmodelled, answers)
      | Loads d =>
          match answers with
          | None => match load_elements c made None l with (evs, o, r) => (NewExperiment d true :: evs, o, r) end
          | Some [] => ([NewExperiment d false], Asking, answers)
          | Some (a :: answers) =>
              match load_elements c made (Some answers) l with
              (evs, o, r) => (NewExperiment d (negb (declined a)) :: evs, o, r)
              end
          end
      end
  end.
(** The elements of what JSON.parse returned: "for (const obj of arr)" throws unless
    it is an array or a string; characters of a string have no experimentType. *)
Definition iterate (v : json) : option (list json) :=
  match v with
  | JArr l => Some l
  | JStr s => Some (map (fun c => JStr [c]) s)
  | _ => None
  end.
(** cmd.js:217-245: the files, one after the other. *)
Definition files := list (list Z * list Z).
Fixpoint read_file (f : list Z) (fs : files) : option (list Z) :=
  match fs with
  | [] => None
  | (g, t) :: fs => if units_eqb f g then Some t else read_file f fs
  end.
Fixpoint load_files (c : coding) (made : list Z -> bool) (answers : option (list (list Z))) (fs : files) (names : list (list Z)) :
  list event * outcome :=
  match names with
  | [] => ([], Complete)
  | f :: names =>
      match read_file f fs with
      | None => ([], Stopped)
      | Some t =>
          match parse t with
          | None => ([], Stopped)
          | Some v =>
              match iterate v with
              | None => ([], Stopped)
              | Some l =>
                  match load_elements c made answers l with
                  | (evs, Complete, rest) =>
                      let (evs', o) := load_files c made rest fs names in (evs ++ evs', o)
                  | (evs, o, _) => (evs, o)
                  end
              end
          end
      end
  end.

(** orchestrator.js:116-122 and cmd.js:190: the text that store writes. *)
Definition listed (s : orch) : list desc :=
  flat_map (fun e => match nth_error (or_heap s) e with Some x => [ex_desc x] | None => [] end) (or_list s).
Definition store_text (c : coding) (s : orch) : list Z := stringify 0 (JArr (map (to_json c) (listed s))).
Fixpoint write_file (f t : list Z) (fs : files) : files :=
  match fs with
  | [] => [(f, t)]
  | (g, u) :: fs => if units_eqb f g then (g, t) :: fs else (g, u) :: write_file f t fs
  end.

(** The orchestrator with its directory stored/; [Restart]: it is ended and started
    again.  [Load f dir]: the command load with the argument f, where dir is what
    readdirSync returns (cmd.js:204-212; names without .json).  loadi waits for
    answers; other requests may be handled meanwhile, so its [event]s need not come
    one right after the other: see [load_files] for it. *)
Record site := { st_orch : orch; st_files : files }.
Inductive op := Request (ev : event) | Store (f : list Z) | Load (f : list Z) (dir : list (list Z)) | Restart.
Definition step (c : coding) (made : list Z -> bool) (asserts : bool) (s : site) (o : op) : site :=
  match o with
  | Request ev => {| st_orch := fst (handle asserts (st_orch s) ev); st_files := st_files s |}
  | Store f => {| st_orch := st_orch s; st_files := write_file f (store_text c (st_orch s)) (st_files s) |}
  | Load f dir =>
      let names := if units_eqb f (txt "*") then dir else [f] in
      {| st_orch := fst (serve asserts (st_orch s) (fst (load_files c made None (st_files s) names))); st_files := st_files s |}
  | Restart => {| st_orch := or_start; st_files := st_files s |}
  end.
Definition run (c : coding) (made : list Z -> bool) (asserts : bool) (s : site) (ops : list op) : site :=
  fold_left (step c made asserts) ops s.
