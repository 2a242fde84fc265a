(** Model of how a job becomes the command line of a process: the text that the
    orchestrator sends (experiment.js:204-213, 249-259, 292-294) and what
    daemon_server.sh and daemon_client.sh make of it.
    Simplifications: numbers are integers written in decimal (JavaScript writes
    those from 10^21 on otherwise); no word is a pattern of file names; the flags of
    processes of checklist and SealPIR are left out. *)
From Coq Require Import String Ascii DecimalString.
From Verif Require Import Base MainFlags Orchestrator.
Local Open Scope string_scope.
Local Open Scope Z_scope.
Local Open Scope list_scope.

(** Number to text; text to number as absl does for integer flags (also "+" and
    surrounding blanks are read by absl; no such text occurs). *)
Definition number (z : Z) : string := NilZero.string_of_int (Z.to_int z).
Definition int_flag (bits : Z) (s : string) : option Z :=
  match NilZero.int_of_string s with
  | Some d => let z := Z.of_int d in if (- 2 ^ (bits - 1) <=? z) && (z <? 2 ^ (bits - 1)) then Some z else None
  | None => None
  end.

(** experiment.js:204-213, 249-259, 292-294: serialize; constants.js:24-39 for the
    words.  [name_of]: the text of a mode or pirtype. *)
Definition address (ip : list Z) (port : Z) : string :=
  (string_of_list_ascii (map (fun c => ascii_of_nat (Z.to_nat c)) ip) ++ ":" ++ number port)%string.
Definition job_text (name_of : Z -> string) (j : job) : string :=
  String.concat " "
    match j with
    | JClient _ n queries mode => ["dppir"; number (Z.of_nat n); number queries; name_of mode]
    | JParty _ p m mode => ["dppir"; number (Z.of_nat p); number (Z.of_nat m); name_of mode]
    | JCheckClient _ a1 p1 a2 p2 queries pirtype => ["checklist"; address a1 p1; address a2 p2; number queries; name_of pirtype]
    | JCheckServer _ w table port pirtype => ["checklist"; number (Z.of_nat w); number table; number port; name_of pirtype]
    | JSealpir _ table queries => ["sealpir"; number table; number queries]
    end.

(** daemon_server.sh:28, daemon_client.sh:28: params=($response), splitting at
    blanks, tabs and line ends. *)
Definition blank (c : ascii) : bool := existsb (Ascii.eqb c) [" "%char; "009"%char; "010"%char].
Definition word (cur : string) : list string := if String.eqb cur "" then [] else [cur].
Fixpoint words (cur s : string) : list string :=
  match s with
  | EmptyString => word cur
  | String c t => if blank c then word cur ++ words "" t else words (cur ++ String c "")%string t
  end.

(** daemon_server.sh:28-57 and daemon_client.sh:28-58 with main.cc:17-25: the flags
    of the process started for the reply; None: it is not a process of DP-PIR, or
    absl refuses the flags. *)
Definition launch (k : wkind) (response : string) : option flags :=
  let param i := nth i (words "" response) "" in
  if String.eqb (param 0%nat) "dppir" then
    match k with
    | Server =>
        let party_id := param 1%nat in
        let server_id := param 2%nat in
        let online := param 3%nat in
        match int_flag 32 party_id, int_flag 32 server_id with
        | Some p, Some s =>
            Some {| fl_role := "party"; fl_stage := online; fl_config := "config/party-" ++ party_id ++ "-" ++ server_id ++ ".txt";
                    fl_server := s; fl_party := p; fl_queries := -1 |}
        | _, _ => None
        end
    | Client =>
        let server_id := param 1%nat in
        let queries := param 2%nat in
        let online := param 3%nat in
        match int_flag 32 server_id, int_flag 64 queries with
        | Some s, Some q =>
            Some {| fl_role := "client"; fl_stage := online; fl_config := "config/client-" ++ server_id ++ ".txt";
                    fl_server := s; fl_party := -1; fl_queries := q |}
        | _, _ => None
        end
    end
  else None.
