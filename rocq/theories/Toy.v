(** A toy sealed box and toy secrets, used only to show that hypotheses of the
    property theorems can be met. *)
From Verif Require Import Base BaseProofs Incremental Wire Onion.

Fixpoint eqb_list (a b : list Z) : bool :=
  match a, b with
  | [], [] => true
  | x :: a', y :: b' => (x =? y) && eqb_list a' b'
  | _, _ => false
  end.
Lemma eqb_list_refl a : eqb_list a a = true.
Proof. induction a; cbn; [reflexivity|]. rewrite Z.eqb_refl. exact IHa. Qed.

(** Header of 48 bytes naming the key, followed by the plain text. *)
Definition toy_header (pk : list Z) : list Z := repeat (hd 0 pk mod 256) 48.
Definition toy_box : sealbox := {|
  box_seal := fun _ pk m => Some (toy_header pk ++ m);
  box_open := fun pk _ c => if eqb_list (firstn 48 c) (toy_header pk) then Some (skipn 48 c) else None
|}.
Definition toy_secret (z : Z) : osecret :=
  {| o_tag := z; o_next := z + 1; o_share := {| sx := z; sy := z + 2 |}; o_preshare := repeat z 52 |}.

Lemma toy_box_ok pk sk : box_ok toy_box pk sk.
Proof.
  intros coin m Hm. exists (toy_header pk ++ m). cbn [box_seal box_open toy_box].
  assert (L : length (toy_header pk) = 48%nat) by apply repeat_length.
  split; [reflexivity|]. split; [rewrite app_length, L; reflexivity|]. split.
  - apply Forall_app; split; [|exact Hm]. apply Forall_forall; intros x Hx. apply repeat_spec in Hx; subst.
    unfold byte. apply Z.mod_pos_bound. lia.
  - rewrite firstn_app, L, Nat.sub_diag, firstn_all2, firstn_O, app_nil_r by lia.
    rewrite eqb_list_refl, skipn_app, L, Nat.sub_diag, skipn_all2 by lia. reflexivity.
Qed.

Lemma toy_secret_wf z : 0 <= z < 250 -> wf_osecret (toy_secret z).
Proof.
  intros Hz. unfold wf_osecret, toy_secret, u64, u32, bytes; cbn [o_tag o_next o_share o_preshare sx sy].
  repeat split; try lia. apply Forall_forall; intros x Hx. apply repeat_spec in Hx; subst. unfold byte; lia.
Qed.

Lemma toy_ok : (forall pk sk, box_ok toy_box pk sk) /\ Forall wf_osecret [toy_secret 1; toy_secret 2].
Proof. split; [exact toy_box_ok|]. repeat constructor; apply toy_secret_wf; lia. Qed.

Lemma toy_ndebug : Forall wf_osecret [toy_secret 1; toy_secret 2; toy_secret 3] /\
  (let* c := onion_encrypt toy_box false (fun _ => O) (fun _ => 0) (fun _ => 0)
     [toy_secret 1; toy_secret 2; toy_secret 3] 0 3 [] in
   Ok (dec_osecret (firstn 76 (skipn (124 + 48) c)))) = Ok (toy_secret 2).
Proof.
  split; [repeat constructor; apply toy_secret_wf; lia|]. vm_compute. reflexivity.
Qed.
