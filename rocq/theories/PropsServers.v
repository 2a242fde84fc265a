(** Theorems about sibling tables, polling and the sibling connection phase. *)
From Verif Require Import Base Servers Lts ServersProofs.

(** C52: a table with a gap at the owner's id: every other id has a cell of its
    own (writing one id changes what is read at that id only); the owner's id is
    rejected, ids out of range leave the table. *)
Theorem C52_cells : forall (T : Type) asserts gap count (d : T), u8 count -> 0 <= gap < count ->
  exists m, smap_new gap count d = Ok m /\
    (forall id, 0 <= id < count -> id <> gap -> smap_get asserts m id = Ok d) /\
    forall m', (exists n, steps (fun a b => exists id v, 0 <= id < count /\ id <> gap /\ smap_set asserts a id v = Ok b) n m m') ->
      smap_get true m' gap = Abort /\
      (forall id, count <= id -> smap_get asserts m' id = UB) /\
      (forall id v, 0 <= id < count -> id <> gap ->
        exists m'', smap_set asserts m' id v = Ok m'' /\ smap_get asserts m'' id = Ok v /\
          forall b, 0 <= b < count -> b <> gap -> b <> id -> smap_get asserts m'' b = smap_get asserts m' b).
Proof.
  intros T asserts gap count d Uc Hg. destruct (smap_new_ok gap count d ltac:(lia)) as (m & E & W & _).
  exists m. split; [exact E|]. split; [intros; eapply smap_new_get; eauto|].
  intros m' [n Hst]. assert (W' : smap_wf gap count m').
  { revert W Hst. apply (steps_inv _ (smap_wf gap count)). intros a b Wa (id & v & Hid & Hne & S).
    destruct (smap_set_ok asserts gap count a id v Wa Hg Hid Hne) as (b' & Eb & Wb & _). congruence. }
  split; [eapply smap_gap_access; eauto|]. split; [intros; eapply smap_range_access; eauto|].
  intros id v Hid Hne. destruct (smap_set_ok asserts gap count m' id v W' Hg Hid Hne) as (m'' & E' & _ & G & O). eauto.
Qed.
Print Assumptions C52_cells.

(** C52: the filling constructor fills every cell. *)
Theorem C52_fill : forall (T : Type) gap count (d fill : T), u8 gap -> u8 count -> 0 <= gap < count ->
  exists m, smap_fill gap count d fill = Ok m /\
    forall asserts id, 0 <= id < count -> id <> gap -> smap_get asserts m id = Ok fill.
Proof. intros T gap count d fill Ug Uc Hg. destruct (smap_fill_ok gap count d fill Ug Uc Hg) as (m & E & _ & F). eauto. Qed.
Print Assumptions C52_fill.

(** C52: the table without gap has one independent cell per server for up to
    254 servers; with 255 servers it cannot be built. *)
Theorem C52_gapless : forall (T : Type) asserts servers (d fill : T), 0 <= servers < 255 ->
  exists m mf, smap_gapless servers d = Ok m /\ smap_gapless_fill servers d fill = Ok mf /\
    (forall id, 0 <= id < servers -> smap_get asserts m id = Ok d /\ smap_get asserts mf id = Ok fill) /\
    (forall id v, 0 <= id < servers -> exists m', smap_set asserts m id v = Ok m' /\ smap_get asserts m' id = Ok v /\
       forall b, 0 <= b < servers -> b <> id -> smap_get asserts m' b = smap_get asserts m b).
Proof.
  intros T asserts S d fill HS. unfold smap_gapless, smap_gapless_fill.
  replace (w8 (S + 1)) with (S + 1) by (unfold w8; rewrite Z.mod_small; lia).
  destruct (smap_new_ok S (S + 1) d ltac:(lia)) as (m & E & W & _).
  destruct (smap_fill_ok S (S + 1) d fill ltac:(unfold u8; lia) ltac:(unfold u8; lia) ltac:(lia)) as (mf & Ef & _ & F).
  exists m, mf. split; [exact E|]. split; [exact Ef|]. split.
  - intros id Hid. split; [eapply smap_new_get; eauto; lia|apply F; lia].
  - intros id v Hid. destruct (smap_set_ok asserts S (S + 1) m id v W ltac:(lia) ltac:(lia) ltac:(lia)) as (m' & E' & _ & G & O).
    exists m'. split; [exact E'|]. split; [exact G|]. intros b Hb Hne. apply O; lia.
Qed.
Print Assumptions C52_gapless.
Theorem C52_gapless_255 : forall (T : Type) (d fill : T),
  smap_gapless 255 d = Abort /\ smap_gapless_fill 255 d fill = Abort.
Proof. intros. split; reflexivity. Qed.
Print Assumptions C52_gapless_255.
Example C52_example : exists m m', smap_new 1 3 7 = Ok m /\ smap_set true m 2 9 = Ok m' /\
  smap_get true m' 2 = Ok 9 /\ smap_get true m' 0 = Ok 7 /\ smap_get true m' 1 = Abort.
Proof. do 2 eexists. repeat split. Qed.

(** C51: what Poll does with every combination of returned event masks.  An
    entry is readable when its mask has POLLIN (the lowest bit). *)
Theorem C51_poll : forall asserts revents result, length result = length revents ->
  (Forall (fun r => r <> 0 -> Z.odd r = true) revents ->
     poll_ asserts (Some revents) result =
       Ok (Z.of_nat (length (filter Z.odd revents)),
           map (fun r => if Z.odd r then 0 else r) revents,
           map (fun rb => Z.odd (fst rb) || snd rb) (combine revents result))) /\
  (Exists (fun r => r <> 0 /\ Z.odd r = false) revents -> poll_ asserts (Some revents) result = UB).
Proof.
  intros asserts revs res L. unfold poll_.
  assert (RO : forall r, readable r = Z.odd r) by (intros r; apply Z.bit0_odd).
  split; intros H.
  - rewrite poll_scan_all; [|exact L|].
    + cbn [bind]. apply f_equal. apply f_equal2; [apply f_equal2|].
      * f_equal. unfold poll_count. clear L. induction H as [|r l Hr H IH]; [reflexivity|]. cbn [filter].
        destruct (r =? 0) eqn:E; cbn [negb].
        -- replace (Z.odd r) with false by (replace r with 0 by lia; reflexivity). exact IH.
        -- rewrite Hr by lia. cbn [length]. rewrite IH. reflexivity.
      * apply map_ext. intros r. rewrite RO. reflexivity.
      * apply map_ext. intros r. rewrite RO. reflexivity.
    + eapply Forall_impl; [|exact H]. cbv beta. intros r Hr. rewrite RO; exact Hr.
  - rewrite poll_scan_bad; [reflexivity|]. apply Exists_exists. apply Exists_exists in H as (r & Hin & H).
    exists r. rewrite RO. auto.
Qed.
Print Assumptions C51_poll.
Theorem C51_poll_error : forall result, poll_ true None result = Abort /\
  poll_ false None result = Ok (2 ^ 64 - 1, [], result).
Proof. intros. split; reflexivity. Qed.
Print Assumptions C51_poll_error.
(** POLLIN = 1, POLLERR = 8, POLLHUP = 16. *)
Example C51_example :
  poll_ true (Some [0; 1; 17; 0]) [false; false; false; false] = Ok (2, [0; 0; 0; 0], [false; true; true; false]) /\
  poll_ true (Some [1; 16; 1]) [false; false; false] = UB.
Proof. split; reflexivity. Qed.

(** C58: whatever the arrival order of the lower siblings, every sibling is
    registered under its own id with its own connection, and the server
    announces itself to every higher sibling. *)
Theorem C58_registered : forall asserts self count arrivals newfd, u8 count -> 0 <= self < count ->
  Permutation (map snd arrivals) (map Z.of_nat (seq 0 (Z.to_nat self))) ->
  exists t, sibling_initialize asserts self count arrivals newfd =
      Ok (t, map (fun i => (self + Z.of_nat i, self)) (seq 1 (Z.to_nat (count - self - 1)))) /\
    (forall fd id, In (fd, id) arrivals ->
       smap_get asserts (pt_socks t) id = Ok fd /\
       smap_get asserts (pt_polls t) id = Ok {| pf_fd := fd; pf_events := 1; pf_revents := 0 |}) /\
    (forall id, self < id < count ->
       smap_get asserts (pt_socks t) id = Ok (newfd id) /\
       smap_get asserts (pt_polls t) id = Ok {| pf_fd := newfd id; pf_events := 1; pf_revents := 0 |}).
Proof.
  intros asserts self count arrivals newfd Uc Hs P.
  destruct (sibling_initialize_ok asserts self count arrivals newfd Uc Hs P) as (t & E & _ & R1 & R2).
  exists t. split; [exact E|]. split; [exact R1|exact R2].
Qed.
Print Assumptions C58_registered.

(** C58: a wrong identity (not a lower sibling) stops the program. *)
Theorem C58_bad_identity : forall self count fd id rest newfd, 0 < self -> 0 < count -> self <= id ->
  sibling_initialize true self count ((fd, id) :: rest) newfd = Abort.
Proof.
  intros self count fd id rest newfd Hs Hc Hid. unfold sibling_initialize, smap_new.
  replace (count =? 0) with false by lia. cbn [bind]. replace (self >? 0) with true by lia.
  unfold register_arrivals. cbn [fold_res]. replace (id <? self) with false by lia. reflexivity.
Qed.
Print Assumptions C58_bad_identity.

(** C58: the connection phase of any number of siblings: no execution is longer
    than the stated bound, an execution that cannot continue has finished, and
    then server s has accepted exactly the siblings 0..s-1, each once. *)
Theorem C58_completes : forall n c, reach (conn_step n) conn_start c ->
  (stuck (conn_step n) c -> conn_done n c) /\
  (conn_done n c -> forall s, (s < n)%nat -> Permutation (c_acc c s) (seq 0 s)).
Proof.
  intros n c R. split.
  - intros St s Hs.
    assert (D : conn_done n c \/ ~ conn_done n c).
    { unfold conn_done. clear R St s Hs. generalize n at 1 3 as k. induction k; [left; intros; lia|].
      destruct IHk as [H|H]; [|right; intros G; apply H; intros; apply G; lia].
      destruct (Nat.eq_dec (length (c_acc c k)) k) as [E1|E1]; [|right; intros G; apply E1; apply (G k); lia].
      destruct (Nat.eq_dec (c_nxt c k) n) as [E2|E2]; [|right; intros G; apply E2; apply (G k); lia].
      left. intros s Hs. destruct (Nat.eq_dec s k); [subst; auto|apply H; lia]. }
    destruct D as [D|D]; [apply D; exact Hs|]. exfalso.
    destruct (conn_progress n c (conn_reach_inv n c R) D) as [c' H]. exact (St c' H).
  - intros D s Hs. eapply conn_final; eauto.
Qed.
Print Assumptions C58_completes.
Theorem C58_terminates : forall n k c, steps (conn_step n) k conn_start c -> (k <= n * (2 * n + 1))%nat.
Proof.
  intros n k c H.
  pose proof (steps_measure _ (conn_inv n) (conn_measure n) (conn_inv_step n) (conn_measure_step n) _ _ _ (conn_inv_start n) H) as M.
  enough (conn_measure n conn_start <= n * (2 * n + 1))%nat by lia.
  unfold conn_measure. cbn [conn_start c_lis c_acc c_nxt length].
  assert (G : forall f (l : list nat) B, (forall x, In x l -> (f x <= B)%nat) -> (list_sum (map f l) <= length l * B)%nat).
  { clear. intros f l B. induction l; intros H; [cbn; lia|]. cbn [map length Nat.mul].
    change (list_sum (f a :: map f l)) with (f a + list_sum (map f l))%nat.
    pose proof (H a (or_introl eq_refl)). specialize (IHl (fun x Hx => H x (or_intror Hx))). lia. }
  etransitivity; [apply (G _ _ (2 * n + 1)%nat)|rewrite seq_length; lia].
  intros x Hx. apply in_seq in Hx. lia.
Qed.
Print Assumptions C58_terminates.
Example C58_example : exists t,
  sibling_initialize true 2 4 [(9, 1); (8, 0)] (fun id => 100 + id) = Ok (t, [(3, 2)]) /\
  smap_get true (pt_socks t) 0 = Ok 8 /\ smap_get true (pt_socks t) 1 = Ok 9 /\ smap_get true (pt_socks t) 3 = Ok 103.
Proof. eexists. repeat split. Qed.

(** IgnoreServer makes poll skip exactly that sibling (negative descriptor) and
    ResetServers restores all; a descriptor 0 cannot be skipped. *)
Theorem C58_ignore : forall asserts self count t id, smap_wf self count (pt_socks t) -> smap_wf self count (pt_polls t) ->
  0 <= self < count -> 0 <= id < count -> id <> self ->
  exists fd t', smap_get asserts (pt_socks t) id = Ok fd /\ ignore_server asserts t id = Ok t' /\
    pt_socks t' = pt_socks t /\
    (exists e, smap_get asserts (pt_polls t') id = Ok e /\ pf_fd e = - fd /\ (pf_fd e < 0 <-> 0 < fd)) /\
    (forall b, 0 <= b < count -> b <> self -> b <> id -> smap_get asserts (pt_polls t') b = smap_get asserts (pt_polls t) b).
Proof.
  intros asserts self count t id W1 W2 Hs Hid Hne.
  destruct (smap_get_wf asserts self count (pt_socks t) id W1 Hs Hid Hne) as [fd Efd].
  destruct (smap_get_wf asserts self count (pt_polls t) id W2 Hs Hid Hne) as [e Ee].
  unfold ignore_server. rewrite Efd, Ee. cbn [bind].
  destruct (smap_set_ok asserts self count (pt_polls t) id {| pf_fd := fd * -1; pf_events := pf_events e; pf_revents := pf_revents e |} W2 Hs Hid Hne)
    as (p' & -> & _ & G & O). cbn [bind].
  exists fd. eexists. split; [reflexivity|]. split; [reflexivity|]. cbn [pt_socks pt_polls]. split; [reflexivity|].
  split; [|exact O]. eexists. split; [exact G|]. cbn [pf_fd]. lia.
Qed.
Print Assumptions C58_ignore.
