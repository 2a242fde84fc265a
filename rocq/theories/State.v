(** Model of DPPIR/types/state.cc and state.h. *)
From Verif Require Import Base Incremental Wire.

(** Array access with a uint32_t index. *)
Definition getz {A} (l : list A) (i : Z) : res A := get l (Z.to_nat i).
Definition setz {A} (l : list A) (i : Z) (a : A) : res (list A) := set_ l (Z.to_nat i) a.
(** Dereferencing a unique_ptr<T[]>: null is undefined behaviour. *)
Definition ptr {A} (p : option A) : res A := match p with Some a => Ok a | None => UB end.

(** types/state.h:42-51  ClientState.  [None] is a null pointer. *)
Record cstate := {
  cs_sim : bool; cs_w : Z; cs_r : Z; cs_size : Z;
  cs_tags : option (list Z);
  cs_incs : option (list (list ishare));
  cs_pre : option (list (list Z))
}.

(** types/state.h:14  ClientState() = default: pointers are null, the rest is
    indeterminate (written by Initialize before any use). *)
Definition cs_new : cstate :=
  {| cs_sim := false; cs_w := 0; cs_r := 0; cs_size := 0; cs_tags := None; cs_incs := None; cs_pre := None |}.

(** types/state.cc:16-39  ClientState::Initialize.  make_unique value-initialises. *)
Definition cs_initialize (c : cstate) (party_count : nat) (secrets : Z) (noise simulated : bool) : res cstate :=
  let size := if simulated then 1 else secrets in
  let n := Z.to_nat size in
  let tags := repeat 0 n in
  let incs := repeat (@nil ishare) n in
  let pre := if noise then cs_pre c else Some (repeat (repeat 0 PRESHARE_SIZE) n) in
  if simulated then
    let* tags' := setz tags 0 0 in
    let* incs' := setz incs 0 (repeat {| sx := 0; sy := 1 |} party_count) in
    let* pre' := (if noise then Ok pre else
                    let* p := ptr pre in let* p' := setz p 0 (repeat 0 PRESHARE_SIZE) in Ok (Some p')) in
    Ok {| cs_sim := true; cs_w := 0; cs_r := 0; cs_size := size;
          cs_tags := Some tags'; cs_incs := Some incs'; cs_pre := pre' |}
  else
    Ok {| cs_sim := false; cs_w := 0; cs_r := 0; cs_size := size;
          cs_tags := Some tags; cs_incs := Some incs; cs_pre := pre |}.

(** types/state.cc:42-47  AddNoiseSecret *)
Definition cs_add_noise (c : cstate) (tag : Z) (incs : list ishare) : res cstate :=
  let* ts := ptr (cs_tags c) in
  let* ts' := setz ts (cs_w c) tag in
  let* is := ptr (cs_incs c) in
  let* is' := setz is (cs_w c) incs in
  Ok {| cs_sim := cs_sim c; cs_w := w32 (cs_w c + 1); cs_r := cs_r c; cs_size := cs_size c;
        cs_tags := Some ts'; cs_incs := Some is'; cs_pre := cs_pre c |}.

(** types/state.cc:48-55  AddSecret *)
Definition cs_add (c : cstate) (tag : Z) (incs : list ishare) (preshare : list Z) : res cstate :=
  let* ts := ptr (cs_tags c) in
  let* ts' := setz ts (cs_w c) tag in
  let* is := ptr (cs_incs c) in
  let* is' := setz is (cs_w c) incs in
  let* ps := ptr (cs_pre c) in
  let* ps' := setz ps (cs_w c) preshare in
  Ok {| cs_sim := cs_sim c; cs_w := w32 (cs_w c + 1); cs_r := cs_r c; cs_size := cs_size c;
        cs_tags := Some ts'; cs_incs := Some is'; cs_pre := Some ps' |}.

(** types/state.cc:58  LoadNext *)
Definition cs_load_next (c : cstate) : cstate :=
  {| cs_sim := cs_sim c; cs_w := cs_w c; cs_r := w32 (cs_r c + 1); cs_size := cs_size c;
     cs_tags := cs_tags c; cs_incs := cs_incs c; cs_pre := cs_pre c |}.

(** Index used by the getters: 0 when simulated, else read_idx_ - 1 (uint32_t). *)
Definition cs_cur (c : cstate) : Z := if cs_sim c then 0 else w32 (cs_r c - 1).
(** types/state.cc:59-64  GetTag *)
Definition cs_get_tag (c : cstate) : res Z := let* l := ptr (cs_tags c) in getz l (cs_cur c).
(** types/state.cc:65-70  GetIncrementalShares *)
Definition cs_get_incs (c : cstate) : res (list ishare) := let* l := ptr (cs_incs c) in getz l (cs_cur c).
(** types/state.cc:71-76  GetPreshare *)
Definition cs_get_pre (c : cstate) : res (list Z) := let* l := ptr (cs_pre c) in getz l (cs_cur c).

(** types/state.cc:79-83  FinishSharing *)
Definition cs_finish (c : cstate) : cstate :=
  {| cs_sim := cs_sim c; cs_w := cs_w c; cs_r := 0; cs_size := cs_size c;
     cs_tags := None; cs_incs := None; cs_pre := cs_pre c |}.
(** types/state.cc:85-92  Free *)
Definition cs_free (c : cstate) : cstate :=
  {| cs_sim := cs_sim c; cs_w := 0; cs_r := 0; cs_size := 0;
     cs_tags := None; cs_incs := None; cs_pre := None |}.

(** types/state.h:57-65  PartyState::secret and state.h:104-112
    BackendState::secret (which has no next_tag; [st_next] is 0 there). *)
Record stored := { st_next : Z; st_share : ishare; st_pre : list Z }.

(** types/state.h:91-97 and 136-142.  The unordered_map is a list of pairs in
    iteration order; [qs_it] is the cached iterator, [None] standing for end(),
    an uninitialised iterator, or one invalidated by an insertion (C++ only
    invalidates when rehashing; the model is stricter). *)
Record qstate := { qs_sim : bool; qs_map : list (Z * stored); qs_it : option stored }.
Definition qs_new : qstate := {| qs_sim := false; qs_map := []; qs_it := None |}.

(** unordered_map::find *)
Fixpoint find_tag (m : list (Z * stored)) (t : Z) : option stored :=
  match m with
  | [] => None
  | (t', s) :: r => if t' =? t then Some s else find_tag r t
  end.

(** The entry written by Initialize(true): state.cc:104-107 and 150-152. *)
Definition identity_secret : stored :=
  {| st_next := 0; st_share := {| sx := 0; sy := 1 |}; st_pre := repeat 0 PRESHARE_SIZE |}.
Fixpoint put_tag (m : list (Z * stored)) (t : Z) (s : stored) : list (Z * stored) :=
  match m with
  | [] => [(t, s)]
  | (t', s') :: r => if t' =? t then (t', s) :: r else (t', s') :: put_tag r t s
  end.

(** types/state.cc:101-109 and 147-154  Initialize.  The map is not cleared. *)
Definition qs_initialize_state (p : qstate) (simulated : bool) : qstate :=
  {| qs_sim := simulated;
     qs_map := if simulated then put_tag (qs_map p) 0 identity_secret else qs_map p;
     qs_it := None |}.

(** types/state.cc:112-118  PartyState::Store.  Where a new element appears in
    the iteration order is unspecified in C++; here it is first.  Theorems about
    iteration quantify over permutations. *)
Definition qs_store (asserts : bool) (p : qstate) (o : osecret) : res qstate :=
  match find_tag (qs_map p) (o_tag o) with
  | Some _ => if asserts then Abort else Ok {| qs_sim := qs_sim p; qs_map := qs_map p; qs_it := None |}
  | None =>
      Ok {| qs_sim := qs_sim p;
            qs_map := (o_tag o, {| st_next := o_next o; st_share := o_share o; st_pre := o_preshare o |}) :: qs_map p;
            qs_it := None |}
  end.

(** types/state.cc:157-163  BackendState::Store (drops next_tag). *)
Definition bs_store (asserts : bool) (p : qstate) (o : osecret) : res qstate :=
  qs_store asserts p {| o_tag := o_tag o; o_next := 0; o_share := o_share o; o_preshare := o_preshare o |}.

(** types/state.cc:121-127 and 166-172  LoadSecret *)
Definition qs_load (p : qstate) (tag : Z) : qstate :=
  {| qs_sim := qs_sim p; qs_map := qs_map p;
     qs_it := find_tag (qs_map p) (if qs_sim p then 0 else tag) |}.
(** types/state.cc:128-131 and 173-178: dereferencing the cached iterator. *)
Definition qs_next_tag (p : qstate) : res Z := let* s := ptr (qs_it p) in Ok (st_next s).
Definition qs_incremental (p : qstate) : res ishare := let* s := ptr (qs_it p) in Ok (st_share s).
Definition bs_preshare (p : qstate) : res (list Z) := let* s := ptr (qs_it p) in Ok (st_pre s).
(** types/state.cc:132-138  GetPreshare(tag): at() throws when the tag is absent. *)
Definition qs_preshare (p : qstate) (tag : Z) : res (list Z) :=
  match find_tag (qs_map p) (if qs_sim p then 0 else tag) with
  | Some s => Ok (st_pre s)
  | None => Abort
  end.
