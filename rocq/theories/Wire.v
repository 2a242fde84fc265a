(** Model of the packed records of DPPIR/types/types.h and DPPIR/types/types.cc.
    Records are sent as their memory image (little-endian, no padding). *)
From Verif Require Import Base Incremental.

(** types/types.h:14-15  SIG_T_SIZE, PRESHARE_T_SIZE *)
Definition SIG_SIZE : nat := 48.
Definition PRESHARE_SIZE : nat := 52.

(** types/types.h:69-72  struct Response.  [char] is modelled by its byte 0..255. *)
Record response := { r_value : Z; r_sig : list Z }.
(** types/types.h:62-65  struct Query *)
Record query := { q_tag : Z; q_tally : Z }.
(** types/types.h:53-58  struct OfflineSecret *)
Record osecret := { o_tag : Z; o_next : Z; o_share : ishare; o_preshare : list Z }.

(** Memory image of a Response (types.h:69-75): 4 + 48 bytes. *)
Definition enc_response (r : response) : list Z := le 4 (r_value r) ++ r_sig r.
Definition dec_response (b : list Z) : response :=
  {| r_value := of_le (firstn 4 b); r_sig := skipn 4 b |}.

(** Memory image of a Query (types.h:62-66): 8 + 4 bytes. *)
Definition enc_query (q : query) : list Z := le 8 (q_tag q) ++ le 4 (q_tally q).
Definition dec_query (b : list Z) : query :=
  {| q_tag := of_le (firstn 8 b); q_tally := of_le (skipn 8 b) |}.

(** Memory image of an OfflineSecret (types.h:53-59): 8 + 8 + 4 + 4 + 52 bytes. *)
Definition enc_osecret (s : osecret) : list Z :=
  le 8 (o_tag s) ++ le 8 (o_next s) ++ le 4 (sx (o_share s)) ++ le 4 (sy (o_share s)) ++ o_preshare s.
Definition dec_osecret (b : list Z) : osecret :=
  {| o_tag := of_le (firstn 8 b);
     o_next := of_le (firstn 8 (skipn 8 b));
     o_share := {| sx := of_le (firstn 4 (skipn 16 b)); sy := of_le (firstn 4 (skipn 20 b)) |};
     o_preshare := skipn 24 b |}.

(** types/types.cc:24-28, the signature loop of operator==. *)
Fixpoint sig_loop (l r : list Z) (n i : nat) : res bool :=
  match n with
  | O => Ok true
  | S n' =>
      let* a := get l i in
      let* b := get r i in
      if negb (a =? b) then Ok false else sig_loop l r n' (S i)
  end.
(** types/types.cc:20-30  operator== *)
Definition response_eqb (l r : response) : res bool :=
  if negb (r_value l =? r_value r) then Ok false
  else sig_loop (r_sig l) (r_sig r) SIG_SIZE 0.
(** types/types.cc:31  operator!= *)
Definition response_neqb (l r : response) : res bool :=
  let* b := response_eqb l r in Ok (negb b).

(** Values the C++ types can hold. *)
Definition wf_response (r : response) : Prop := u32 (r_value r) /\ bytes 48 (r_sig r).
Definition wf_query (q : query) : Prop := u64 (q_tag q) /\ u32 (q_tally q).
Definition wf_osecret (s : osecret) : Prop :=
  u64 (o_tag s) /\ u64 (o_next s) /\ u32 (sx (o_share s)) /\ u32 (sy (o_share s)) /\
  bytes 52 (o_preshare s).
