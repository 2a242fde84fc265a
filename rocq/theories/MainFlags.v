(** The command line of the program. *)
From Coq Require Import String.
From Verif Require Import Base.
Local Open Scope string_scope.

(** main.cc:19-25: the flags, after absl parsing. server_id and party_id are
    int, queries is int64_t; a missing flag has its default ("" or -1). *)
Record flags := {
  fl_role : string; fl_stage : string; fl_config : string;
  fl_server : Z; fl_party : Z; fl_queries : Z
}.

(** What main does after validation: exit code 1, or run one role.
    Stages are given as (offline, online). *)
Inductive decision :=
| Exit1
| RunClient (server queries : Z) (offline online : bool)
| RunParty (party server : Z) (offline online : bool)
| RunParallelParty (party server : Z) (offline online : bool)
| RunBackend (server : Z) (offline online : bool).

(** main.cc:41-72: validation before the configuration is read. *)
Definition flags_rejected (f : flags) : bool :=
  (fl_config f =? "") || (fl_stage f =? "") ||
  (negb (fl_stage f =? "online") && negb (fl_stage f =? "offline") && negb (fl_stage f =? "all")) ||
  (fl_role f =? "") ||
  (negb (fl_role f =? "client") && negb (fl_role f =? "party")) ||
  ((fl_role f =? "party") && (fl_party f <? 0)%Z) ||
  ((fl_role f =? "client") && (fl_queries f <? 0)%Z) ||
  (fl_server f <? 0)%Z.

(** main.cc:27-118.  [cfg] is the outcome of ReadFile and of building the
    database (server_count, party_count), both uint8_t.  Constructor arguments
    are converted to uint8_t (ids) and uint32_t (queries).  Not modelled:
    printing, sodium_init (line 28), flag parsing by absl. *)
Definition main_ (f : flags) (cfg : res (Z * Z)) : res decision :=
  if flags_rejected f then Ok Exit1 else
  let* (server_count, party_count) := cfg in
  if (fl_server f >=? server_count)%Z then Ok Exit1 else
  if (fl_party f >=? party_count)%Z then Ok Exit1 else
  let offline := (fl_stage f =? "offline") || (fl_stage f =? "all") in
  let online := (fl_stage f =? "online") || (fl_stage f =? "all") in
  if fl_role f =? "client" then Ok (RunClient (w8 (fl_server f)) (w32 (fl_queries f)) offline online) else
  if (fl_party f <? party_count - 1)%Z then
    if (server_count =? 1)%Z then Ok (RunParty (w8 (fl_party f)) (w8 (fl_server f)) offline online)
    else Ok (RunParallelParty (w8 (fl_party f)) (w8 (fl_server f)) offline online)
  else Ok (RunBackend (w8 (fl_server f)) offline online).
