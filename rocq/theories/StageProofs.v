(** The order in which the connections of a deployment are used. *)
From Verif Require Import Base BaseProofs Wire WireProofs Onion Sizes State Database Handlers Party Net NetProofs NetChain Lts Stream Procs ProcProofs
  ChainSpec OnlineProofs OfflineProofs OfflineParty ChainProofs ProcChain TalkSpec TrafficSpec ProcCrash TrafficProofs StageSpec.
From Verif Require Import Chain.

(** What has been put on the connections is what an interleaving of the parts
    of the choreography sends. *)
Definition traced cap (G : list dev) (h : chan -> list Z) : Prop :=
  exists tr, Net.run chan_eqb cap (fun p => proj p G) tr /\ forall c, h c = sends chan_eqb c tr.

Lemma deployment_traced P d offline online (procs : nat -> proc chan ending) goal :
  (forall p, follows (procs p) (dprog P d offline online p) (goal p)) ->
  forall cap h (s : net chan ending), (forall c, (1 <= cap c)%nat) -> carries (net_step chan_eqb cap) (net_start procs) h s ->
    traced cap (gd_chain P d offline online) h.
Proof.
  intros F cap h s Hc H.
  assert (F' : forall p, follows (procs p) (proj p (gd_chain P d offline online)) (goal p)) by (intros p; rewrite dchain_proj; apply F).
  destruct (dchain_events P d offline online) as [_ Bd].
  destruct (history_all cap (gd_chain P d offline online) (S (S P)) procs goal Hc (dchain_owned _ _ _ _) (dchain_balanced _ _ _ _) Bd F' h s H)
    as (tr & F0 & (R & _) & _ & Hh).
  exists tr. auto.
Qed.
Lemma deployment_crash_traced P d offline online (procs : nat -> proc chan ending) goal :
  (forall p, follows (procs p) (dprog P d offline online p) (goal p)) ->
  forall cap h s, (forall c, (1 <= cap c)%nat) -> crash_carries cn_net (crash_step cap) (crash_start procs) h s ->
    traced cap (gd_chain P d offline online) h.
Proof.
  intros F cap h s Hc H. set (G := gd_chain P d offline online).
  assert (X : survives_by cap G goal h s).
  { induction H as [|h s1 w s2 H IH St Hw]; [apply (survives_start cap G (S (S P)) procs goal Hc (dchain_owner P d offline online) (dchain_balanced _ _ _ _) (proj2 (dchain_events _ _ _ _)) (Fol' P d offline online procs goal F))|].
    destruct (survives_step cap G (S (S P)) procs goal Hc (dchain_owner P d offline online) (dchain_balanced _ _ _ _) (proj2 (dchain_events _ _ _ _))
      (Fol' P d offline online procs goal F) h s1 s2 IH St) as (w' & Hw' & (tr & F0 & lost & H1 & H2 & H3 & H4)).
    exists tr, F0, lost. split; [exact H1|]. split; [exact H2|]. split; [exact H3|]. intros c. rewrite (crash_put_fun _ _ _ _ _ (Hw c) (Hw' c)). apply H4. }
  destruct X as (tr & F0 & lost & (R & Pf & _) & _ & _ & Hh). exists tr. split; [exact R|]. intros c.
  destruct (dchain_owner P d offline online c) as [Os Or]. destruct (owner_run chan_eqb cap _ _ R c _ _ Os Or) as [Ts _].
  rewrite (sends_owner chan_eqb chan_eqb_spec _ _ _ Ts). specialize (Hh c). rewrite <- (Pf (sender c)) in Hh.
  rewrite <- (firstn_skipn (length (proj (sender c) tr)) (proj (sender c) G)) in Hh at 2.
  unfold psends in Hh. rewrite flat_map_app in Hh. apply app_inv_tail in Hh. rewrite Hh.
  rewrite (run_prefix chan_eqb cap _ _ R (sender c)) at 2. reflexivity.
Qed.

Lemma psends_map c c' (l : list Z) : psends chan_eqb c (map (@Snd chan Z unit c') l) = if chan_eqb c c' then l else [].
Proof. unfold psends. induction l as [|x l IH]; cbn [map flat_map]; [destruct (chan_eqb c c'); reflexivity|]. rewrite IH. destruct (chan_eqb c c'); reflexivity. Qed.
Lemma precvs_map c c' (l : list Z) : precvs chan_eqb c (map (@Rcv chan Z unit c') l) = if chan_eqb c c' then l else [].
Proof. unfold precvs. induction l as [|x l IH]; cbn [map flat_map]; [destruct (chan_eqb c c'); reflexivity|]. rewrite IH. destruct (chan_eqb c c'); reflexivity. Qed.
Lemma psends_map_rcv c c' (l : list Z) : psends chan_eqb c (map (@Rcv chan Z unit c') l) = [].
Proof. unfold psends. induction l as [|x l IH]; [reflexivity|exact IH]. Qed.
Lemma precvs_map_snd c c' (l : list Z) : precvs chan_eqb c (map (@Snd chan Z unit c') l) = [].
Proof. unfold precvs. induction l as [|x l IH]; [reflexivity|exact IH]. Qed.
Lemma dpsends_app c (a l : list dact) : psends chan_eqb c (a ++ l) = psends chan_eqb c a ++ psends chan_eqb c l.
Proof. unfold psends. apply flat_map_app. Qed.
Lemma dprecvs_app c (a l : list dact) : precvs chan_eqb c (a ++ l) = precvs chan_eqb c a ++ precvs chan_eqb c l.
Proof. unfold precvs. apply flat_map_app. Qed.
Lemma eqb_S j : (j =? S j)%nat = false. Proof. apply Nat.eqb_neq. lia. Qed.
Lemma eqb_S' j : (S j =? j)%nat = false. Proof. apply Nat.eqb_neq. lia. Qed.

Ltac sizes := rewrite ?dpsends_app, ?dprecvs_app, ?psends_map, ?precvs_map, ?psends_map_rcv, ?precvs_map_snd; unfold dlisten, dconnect;
  cbn [psends precvs flat_map chan_eqb app length]; rewrite ?Nat.eqb_refl, ?eqb_S, ?eqb_S'; cbn [app length]; rewrite ?app_nil_r, ?app_length, ?length_le; cbn [length].

Section Stages.
Context (P : nat) (d : ldata) (offline online : bool) (cap : chan -> nat) (tr : list dev).
Context (R : Net.run chan_eqb cap (fun p => proj p (gd_chain P d offline online)) tr).
Local Notation at_ c := (length (sends chan_eqb c tr)).
Definition off (j : nat) : nat := if offline then length (ld_cipher d j) else 0%nat.
Definition ons (j : nat) : nat := if online then length (ld_query d j) else 0%nat.
Definition ans (j : nat) : nat := if online then length (ld_response d j) else 0%nat.
Definition ready : nat := if offline then 2%nat else 1%nat.

Lemma past c A B : dprog P d offline online (sender c) = A ++ B -> (length (psends chan_eqb c A) < at_ c)%nat ->
  (forall c', sender c' = sender c -> (length (psends chan_eqb c' A) <= at_ c')%nat) /\
  (forall c', receiver c' = sender c -> (length (precvs chan_eqb c' A) <= at_ c')%nat).
Proof using All.
  intros E H. destruct (dchain_owner P d offline online c) as [Os Or]. destruct (owner_run chan_eqb cap _ _ R c _ _ Os Or) as [Ts _].
  rewrite (sends_owner chan_eqb chan_eqb_spec _ _ _ Ts) in H. pose proof (run_prefix chan_eqb _ _ _ R (sender c)) as Pre.
  destruct (prefix_past (fun x => length (psends chan_eqb c x)) (proj (sender c) (gd_chain P d offline online)) A B (length (proj (sender c) tr))) as [r Er].
  - intros a b. apply (psends_mono chan_eqb chan_eqb_spec).
  - rewrite dchain_proj. exact E.
  - rewrite <- Pre. exact H.
  - rewrite <- Pre in Er. split; intros c' Ec.
    + destruct (dchain_owner P d offline online c') as [Os' Or']. destruct (owner_run chan_eqb cap _ _ R c' _ _ Os' Or') as [Ts' _].
      rewrite (sends_owner chan_eqb chan_eqb_spec _ _ _ Ts'), Ec, Er. apply (psends_mono chan_eqb chan_eqb_spec).
    + destruct (dchain_owner P d offline online c') as [Os' Or']. destruct (owner_run chan_eqb cap _ _ R c' _ _ Os' Or') as [_ Tr'].
      etransitivity; [|apply (run_le chan_eqb chan_eqb_spec _ _ _ R)].
      rewrite (recvs_owner chan_eqb chan_eqb_spec _ _ _ Tr'), Ec, Er. apply (precvs_mono chan_eqb chan_eqb_spec).
Qed.

Lemma party_prog j : (S j <= P)%nat -> dprog P d offline online (S j) = dparty d offline online (S j).
Proof. intros H. unfold dprog. cbn [Nat.eqb]. replace (S j <=? P)%nat with true by lia. reflexivity. Qed.
Lemma backend_prog_ : dprog P d offline online (S P) = dbackend d offline online (S P).
Proof. unfold dprog. cbn [Nat.eqb]. replace (S P <=? P)%nat with false by lia. rewrite Nat.eqb_refl. reflexivity. Qed.

(** *** The client *)
Lemma client_ciphers : offline = true -> (4 < at_ (Fwd 0))%nat -> (1 <= at_ (Bwd 0))%nat.
Proof using All.
  intros Ho H.
  destruct (past (Fwd 0) (dconnect 0 ++ map (Snd (Fwd 0)) (le 4 (ld_count d 0)) ++ [Rcv (Bwd 0) 1])
    (map (Snd (Fwd 0)) (ld_cipher d 0) ++ [Rcv (Bwd 0) 1] ++ (if online then map (Snd (Fwd 0)) (ld_query d 0) ++ map (Rcv (Bwd 0)) (ld_response d 0) else []))) as [_ Hr].
  - unfold dprog, dclient. rewrite Ho. cbn [Nat.eqb sender]. rewrite <- !app_assoc. reflexivity.
  - sizes. exact H.
  - specialize (Hr (Bwd 0) eq_refl). revert Hr. sizes. lia.
Qed.
Lemma client_queries : (4 + off 0 < at_ (Fwd 0))%nat -> (ready <= at_ (Bwd 0))%nat.
Proof using All.
  intros H.
  destruct (past (Fwd 0) (dconnect 0 ++ map (Snd (Fwd 0)) (le 4 (ld_count d 0)) ++ (if offline then [Rcv (Bwd 0) 1] ++ map (Snd (Fwd 0)) (ld_cipher d 0) else []) ++ [Rcv (Bwd 0) 1])
    (if online then map (Snd (Fwd 0)) (ld_query d 0) ++ map (Rcv (Bwd 0)) (ld_response d 0) else [])) as [_ Hr].
  - unfold dprog, dclient. cbn [Nat.eqb sender]. rewrite <- !app_assoc. reflexivity.
  - unfold off in H. destruct offline; sizes; lia.
  - specialize (Hr (Bwd 0) eq_refl). revert Hr. unfold ready. destruct offline; sizes; lia.
Qed.

(** *** A party *)
Lemma party_counts j : (S j <= P)%nat -> (0 < at_ (Fwd (S j)))%nat -> (4 <= at_ (Fwd j))%nat.
Proof using All.
  intros Hj H.
  destruct (past (Fwd (S j)) (dlisten j ++ dconnect (S j) ++ map (Rcv (Fwd j)) (le 4 (ld_count d j)))
    (map (Snd (Fwd (S j))) (le 4 (ld_count d (S j))) ++
     (if offline then [Rcv (Bwd (S j)) 1] ++ [Snd (Bwd j) 1] ++ map (Rcv (Fwd j)) (ld_cipher d j) ++ map (Snd (Fwd (S j))) (ld_cipher d (S j)) else []) ++
     ([Rcv (Bwd (S j)) 1] ++ [Snd (Bwd j) 1]) ++
     (if online then (map (Rcv (Fwd j)) (ld_query d j) ++ map (Snd (Fwd (S j))) (ld_query d (S j))) ++ map (Rcv (Bwd (S j))) (ld_response d (S j)) ++ map (Snd (Bwd j)) (ld_response d j) else []))) as [_ Hr].
  - cbn [sender]. rewrite (party_prog j Hj). unfold dparty. replace (S j - 1)%nat with j by lia. rewrite <- !app_assoc. reflexivity.
  - sizes. exact H.
  - specialize (Hr (Fwd j) eq_refl). revert Hr. sizes. lia.
Qed.
Lemma party_first_ready j : (S j <= P)%nat -> offline = true -> (1 <= at_ (Bwd j))%nat -> (4 <= at_ (Fwd j))%nat /\ (4 <= at_ (Fwd (S j)))%nat /\ (1 <= at_ (Bwd (S j)))%nat.
Proof using All.
  intros Hj Ho H.
  destruct (past (Bwd j) (dlisten j ++ dconnect (S j) ++ map (Rcv (Fwd j)) (le 4 (ld_count d j)) ++ map (Snd (Fwd (S j))) (le 4 (ld_count d (S j))) ++ [Rcv (Bwd (S j)) 1])
    ([Snd (Bwd j) 1] ++ map (Rcv (Fwd j)) (ld_cipher d j) ++ map (Snd (Fwd (S j))) (ld_cipher d (S j)) ++
     ([Rcv (Bwd (S j)) 1] ++ [Snd (Bwd j) 1]) ++
     (if online then (map (Rcv (Fwd j)) (ld_query d j) ++ map (Snd (Fwd (S j))) (ld_query d (S j))) ++ map (Rcv (Bwd (S j))) (ld_response d (S j)) ++ map (Snd (Bwd j)) (ld_response d j) else []))) as [Hs Hr].
  - cbn [sender]. rewrite (party_prog j Hj). unfold dparty. rewrite Ho. replace (S j - 1)%nat with j by lia. rewrite <- !app_assoc. reflexivity.
  - sizes. exact H.
  - pose proof (Hr (Fwd j) eq_refl) as H1. pose proof (Hs (Fwd (S j)) eq_refl) as H2. pose proof (Hr (Bwd (S j)) eq_refl) as H3.
    revert H1 H2 H3. sizes. lia.
Qed.
Lemma party_ciphers j : (S j <= P)%nat -> offline = true -> (4 < at_ (Fwd (S j)))%nat -> (4 + off j <= at_ (Fwd j))%nat.
Proof using All.
  intros Hj Ho H.
  destruct (past (Fwd (S j)) (dlisten j ++ dconnect (S j) ++ map (Rcv (Fwd j)) (le 4 (ld_count d j)) ++ map (Snd (Fwd (S j))) (le 4 (ld_count d (S j))) ++ [Rcv (Bwd (S j)) 1] ++
      [Snd (Bwd j) 1] ++ map (Rcv (Fwd j)) (ld_cipher d j))
    (map (Snd (Fwd (S j))) (ld_cipher d (S j)) ++
     ([Rcv (Bwd (S j)) 1] ++ [Snd (Bwd j) 1]) ++
     (if online then (map (Rcv (Fwd j)) (ld_query d j) ++ map (Snd (Fwd (S j))) (ld_query d (S j))) ++ map (Rcv (Bwd (S j))) (ld_response d (S j)) ++ map (Snd (Bwd j)) (ld_response d j) else []))) as [Hs Hr].
  - cbn [sender]. rewrite (party_prog j Hj). unfold dparty. rewrite Ho. replace (S j - 1)%nat with j by lia. rewrite <- !app_assoc. reflexivity.
  - sizes. exact H.
  - pose proof (Hr (Fwd j) eq_refl) as H1. revert H1. unfold off. rewrite Ho. sizes. lia.
Qed.
Lemma party_ready j : (S j <= P)%nat -> (ready <= at_ (Bwd j))%nat ->
  (4 + off j <= at_ (Fwd j))%nat /\ (4 + off (S j) <= at_ (Fwd (S j)))%nat /\ (ready <= at_ (Bwd (S j)))%nat.
Proof using All.
  intros Hj H.
  destruct (past (Bwd j) (dlisten j ++ dconnect (S j) ++ map (Rcv (Fwd j)) (le 4 (ld_count d j)) ++ map (Snd (Fwd (S j))) (le 4 (ld_count d (S j))) ++
     (if offline then [Rcv (Bwd (S j)) 1] ++ [Snd (Bwd j) 1] ++ map (Rcv (Fwd j)) (ld_cipher d j) ++ map (Snd (Fwd (S j))) (ld_cipher d (S j)) else []) ++ [Rcv (Bwd (S j)) 1])
    ([Snd (Bwd j) 1] ++
     (if online then (map (Rcv (Fwd j)) (ld_query d j) ++ map (Snd (Fwd (S j))) (ld_query d (S j))) ++ map (Rcv (Bwd (S j))) (ld_response d (S j)) ++ map (Snd (Bwd j)) (ld_response d j) else []))) as [Hs Hr].
  - cbn [sender]. rewrite (party_prog j Hj). unfold dparty. replace (S j - 1)%nat with j by lia. rewrite <- !app_assoc. reflexivity.
  - unfold ready in H. destruct offline; sizes; lia.
  - pose proof (Hr (Fwd j) eq_refl) as H1. pose proof (Hs (Fwd (S j)) eq_refl) as H2. pose proof (Hr (Bwd (S j)) eq_refl) as H3.
    revert H1 H2 H3. unfold ready, off. destruct offline; sizes; lia.
Qed.
Lemma party_queries j : (S j <= P)%nat -> (4 + off (S j) < at_ (Fwd (S j)))%nat -> (4 + off j + ons j <= at_ (Fwd j))%nat.
Proof using All.
  intros Hj H.
  destruct (past (Fwd (S j)) (dlisten j ++ dconnect (S j) ++ map (Rcv (Fwd j)) (le 4 (ld_count d j)) ++ map (Snd (Fwd (S j))) (le 4 (ld_count d (S j))) ++
     (if offline then [Rcv (Bwd (S j)) 1] ++ [Snd (Bwd j) 1] ++ map (Rcv (Fwd j)) (ld_cipher d j) ++ map (Snd (Fwd (S j))) (ld_cipher d (S j)) else []) ++ [Rcv (Bwd (S j)) 1] ++ [Snd (Bwd j) 1] ++
     (if online then map (Rcv (Fwd j)) (ld_query d j) else []))
     (if online then map (Snd (Fwd (S j))) (ld_query d (S j)) ++ map (Rcv (Bwd (S j))) (ld_response d (S j)) ++ map (Snd (Bwd j)) (ld_response d j) else [])) as [Hs Hr].
  - cbn [sender]. rewrite (party_prog j Hj). unfold dparty. replace (S j - 1)%nat with j by lia. destruct online; rewrite <- !app_assoc; reflexivity.
  - unfold off in H. destruct offline, online; sizes; lia.
  - pose proof (Hr (Fwd j) eq_refl) as H1. revert H1. unfold off, ons. destruct offline, online; sizes; lia.
Qed.
Lemma party_responses j : (S j <= P)%nat -> (ready < at_ (Bwd j))%nat ->
  (4 + off j + ons j <= at_ (Fwd j))%nat /\ (4 + off (S j) + ons (S j) <= at_ (Fwd (S j)))%nat /\ (ready + ans (S j) <= at_ (Bwd (S j)))%nat.
Proof using All.
  intros Hj H.
  destruct (past (Bwd j) (dlisten j ++ dconnect (S j) ++ map (Rcv (Fwd j)) (le 4 (ld_count d j)) ++ map (Snd (Fwd (S j))) (le 4 (ld_count d (S j))) ++
     (if offline then [Rcv (Bwd (S j)) 1] ++ [Snd (Bwd j) 1] ++ map (Rcv (Fwd j)) (ld_cipher d j) ++ map (Snd (Fwd (S j))) (ld_cipher d (S j)) else []) ++ [Rcv (Bwd (S j)) 1] ++ [Snd (Bwd j) 1] ++
     (if online then map (Rcv (Fwd j)) (ld_query d j) ++ map (Snd (Fwd (S j))) (ld_query d (S j)) ++ map (Rcv (Bwd (S j))) (ld_response d (S j)) else []))
     (if online then map (Snd (Bwd j)) (ld_response d j) else [])) as [Hs Hr].
  - cbn [sender]. rewrite (party_prog j Hj). unfold dparty. replace (S j - 1)%nat with j by lia. destruct online; rewrite <- !app_assoc; reflexivity.
  - unfold ready in H. destruct offline, online; sizes; lia.
  - pose proof (Hr (Fwd j) eq_refl) as H1. pose proof (Hs (Fwd (S j)) eq_refl) as H2. pose proof (Hr (Bwd (S j)) eq_refl) as H3.
    revert H1 H2 H3. unfold ready, off, ons, ans. destruct offline, online; sizes; lia.
Qed.

(** *** The backend *)
Lemma backend_first_ready : offline = true -> (1 <= at_ (Bwd P))%nat -> (4 <= at_ (Fwd P))%nat.
Proof using All.
  intros Ho H.
  destruct (past (Bwd P) (dlisten P ++ map (Rcv (Fwd P)) (le 4 (ld_count d P)))
    ([Snd (Bwd P) 1] ++ map (Rcv (Fwd P)) (ld_cipher d P) ++ [Snd (Bwd P) 1] ++
     (if online then map (Rcv (Fwd P)) (ld_query d P) ++ map (Snd (Bwd P)) (ld_response d P) else []))) as [Hs Hr].
  - cbn [sender]. rewrite backend_prog_. unfold dbackend. rewrite Ho. replace (S P - 1)%nat with P by lia. rewrite <- !app_assoc. reflexivity.
  - sizes. exact H.
  - pose proof (Hr (Fwd P) eq_refl) as H1. revert H1. sizes. lia.
Qed.
Lemma backend_ready : (ready <= at_ (Bwd P))%nat -> (4 + off P <= at_ (Fwd P))%nat.
Proof using All.
  intros H.
  destruct (past (Bwd P) (dlisten P ++ map (Rcv (Fwd P)) (le 4 (ld_count d P)) ++ (if offline then [Snd (Bwd P) 1] ++ map (Rcv (Fwd P)) (ld_cipher d P) else []))
    ([Snd (Bwd P) 1] ++ (if online then map (Rcv (Fwd P)) (ld_query d P) ++ map (Snd (Bwd P)) (ld_response d P) else []))) as [Hs Hr].
  - cbn [sender]. rewrite backend_prog_. unfold dbackend. replace (S P - 1)%nat with P by lia. rewrite <- !app_assoc. reflexivity.
  - unfold ready in H. destruct offline; sizes; lia.
  - pose proof (Hr (Fwd P) eq_refl) as H1. revert H1. unfold off. destruct offline; sizes; lia.
Qed.
Lemma backend_responses : (ready < at_ (Bwd P))%nat -> (4 + off P + ons P <= at_ (Fwd P))%nat.
Proof using All.
  intros H.
  destruct (past (Bwd P) (dlisten P ++ map (Rcv (Fwd P)) (le 4 (ld_count d P)) ++ (if offline then [Snd (Bwd P) 1] ++ map (Rcv (Fwd P)) (ld_cipher d P) else []) ++ [Snd (Bwd P) 1] ++
     (if online then map (Rcv (Fwd P)) (ld_query d P) else []))
    (if online then map (Snd (Bwd P)) (ld_response d P) else [])) as [Hs Hr].
  - cbn [sender]. rewrite backend_prog_. unfold dbackend. replace (S P - 1)%nat with P by lia. destruct online; rewrite <- !app_assoc; reflexivity.
  - unfold ready in H. destruct offline, online; sizes; lia.
  - pose proof (Hr (Fwd P) eq_refl) as H1. revert H1. unfold off, ons. destruct offline, online; sizes; lia.
Qed.

(** *** All links *)
Lemma all_allocated : offline = true -> (4 < at_ (Fwd 0))%nat -> forall j, (j <= P)%nat -> (4 <= at_ (Fwd j))%nat /\ (1 <= at_ (Bwd j))%nat.
Proof using All.
  intros Ho H.
  assert (B : forall j, (j <= P)%nat -> (1 <= at_ (Bwd j))%nat).
  { induction j as [|j IH]; intros Hj; [apply client_ciphers; assumption|]. apply party_first_ready; [exact Hj|exact Ho|apply IH; lia]. }
  intros j Hj. split; [|apply B; exact Hj]. destruct (Nat.eq_dec j P) as [->|Hne].
  - apply backend_first_ready; [exact Ho|apply B; lia].
  - apply (party_first_ready j); [lia|exact Ho|apply B; exact Hj].
Qed.
Lemma all_ready : (4 + off 0 < at_ (Fwd 0))%nat -> forall j, (j <= P)%nat -> (4 + off j <= at_ (Fwd j))%nat /\ (ready <= at_ (Bwd j))%nat.
Proof using All.
  intros H.
  assert (B : forall j, (j <= P)%nat -> (ready <= at_ (Bwd j))%nat).
  { induction j as [|j IH]; intros Hj; [apply client_queries; assumption|]. apply party_ready; [exact Hj|apply IH; lia]. }
  intros j Hj. split; [|apply B; exact Hj]. destruct (Nat.eq_dec j P) as [->|Hne].
  - apply backend_ready, B. lia.
  - apply (party_ready j); [lia|apply B; exact Hj].
Qed.
Lemma all_answered (Mono : forall j, (S j <= P)%nat -> (0 < ans j)%nat -> (0 < ans (S j))%nat) (Top : forall j, (j <= P)%nat -> (at_ (Bwd j) <= ready + ans j)%nat) :
  forall i j, (j <= i)%nat -> (i <= P)%nat -> (ready < at_ (Bwd j))%nat ->
    (4 + off i + ons i <= at_ (Fwd i))%nat /\ ((j < i)%nat -> (ready + ans i <= at_ (Bwd i))%nat).
Proof using All.
  intros i j Hji Hi H.
  assert (B : forall k, (j <= k)%nat -> (k <= P)%nat -> (ready < at_ (Bwd k))%nat /\ ((j < k)%nat -> (ready + ans k <= at_ (Bwd k))%nat)).
  { induction k as [|k IH]; intros Hk Hp; [replace j with 0%nat in * by lia; split; [exact H|lia]|].
    destruct (Nat.eq_dec j (S k)) as [<-|Hne]; [split; [exact H|lia]|].
    destruct (IH ltac:(lia) ltac:(lia)) as [Hb _]. destruct (party_responses k Hp Hb) as (_ & _ & X).
    pose proof (Top k ltac:(lia)). pose proof (Mono k Hp ltac:(lia)). lia. }
  destruct (B i Hji Hi) as [Hb Hf]. split; [|exact Hf]. destruct (Nat.eq_dec i P) as [->|Hne].
  - apply backend_responses, Hb.
  - apply (party_responses i); [lia|exact Hb].
Qed.
End Stages.

(** ** The numbers of a deployment *)
Lemma staged_of db c parties o offline online cap h : run_facts db c parties o -> wire_facts o ->
  (offline = true -> map (fun l => length l) (oc_ciphers o) = map (fun l => length l) (oc_queries o) /\
     forall j l, nth_error (oc_ciphers o) j = Some l -> Forall (fun x => length x = (124 * (S (length parties) - j))%nat) l) ->
  traced cap (gd_chain (length parties) (data_of o) offline online) h ->
  (forall ch, begins (h ch) (link_bytes (data_of o) offline online (length parties) ch)) ->
  staged (length (ct_keys c)) (map (noise_total (length db)) parties) offline (fun j => length (h (Fwd j))) (fun j => length (h (Bwd j))).
Proof.
  intros RF WF Hc (tr & R & Hh) Bg. set (n := length (ct_keys c)). set (noise := map (noise_total (length db)) parties).
  assert (LP : length noise = length parties) by apply map_length.
  pose proof (fun online ch => traffic_length db c parties o offline online ch RF WF Hc) as T. fold n noise in T.
  assert (Eo : forall j, (j <= length parties)%nat -> off (data_of o) offline j = link_ciphers n noise offline j).
  { intros j Hj. pose proof (T false (Fwd j)) as X. unfold traffic, link_bytes in X. rewrite LP in X. replace (j <=? length parties)%nat with true in X by lia.
    rewrite !app_length, length_le in X. unfold off, link_ciphers, link_queries. rewrite LP. destruct offline; cbn [length] in *; lia. }
  assert (Eq : forall j, (j <= length parties)%nat -> length (ld_query (data_of o) j) = (12 * link_queries n noise j)%nat).
  { intros j Hj. pose proof (T true (Fwd j)) as X. pose proof (T false (Fwd j)) as Y. unfold traffic, link_bytes in X, Y. rewrite LP in X, Y.
    replace (j <=? length parties)%nat with true in X, Y by lia. rewrite !app_length in X, Y. cbn [length] in Y. unfold link_queries. lia. }
  assert (Er : forall j, (j <= length parties)%nat -> length (ld_response (data_of o) j) = (52 * link_queries n noise j)%nat).
  { intros j Hj. pose proof (T true (Bwd j)) as X. unfold traffic, link_bytes in X. rewrite LP in X.
    replace (j <=? length parties)%nat with true in X by lia. rewrite !app_length in X. unfold link_queries. destruct offline; cbn [length] in X; lia. }
  assert (TopF : forall j, (j <= length parties)%nat -> (length (h (Fwd j)) <= 4 + off (data_of o) offline j + ons (data_of o) online j)%nat).
  { intros j Hj. destruct (Bg (Fwd j)) as (r & X). apply (f_equal (fun l => length l)) in X. cbn [link_bytes] in X. replace (j <=? length parties)%nat with true in X by lia.
    rewrite !app_length, length_le in X. unfold off, ons. destruct offline, online; cbn [length] in X; lia. }
  assert (TopB : forall j, (j <= length parties)%nat -> (length (h (Bwd j)) <= ready offline + ans (data_of o) online j)%nat).
  { intros j Hj. destruct (Bg (Bwd j)) as (r & X). apply (f_equal (fun l => length l)) in X. cbn [link_bytes] in X. replace (j <=? length parties)%nat with true in X by lia.
    rewrite !app_length in X. unfold ready, ans. destruct offline, online; cbn [length] in X; lia. }
  pose proof (fun j => f_equal (fun l => length l) (Hh (Fwd j))) as HF. pose proof (fun j => f_equal (fun l => length l) (Hh (Bwd j))) as HB. cbn beta in HF, HB.
  change (ready_bytes offline) with (ready offline).
  split; rewrite ?LP.
  - intros j Hj. rewrite !HF. apply (party_counts _ _ _ _ _ _ R). lia.
  - intros Ho. rewrite HF. intros H j Hj. rewrite HF, HB. apply (all_allocated _ _ _ _ _ _ R); assumption.
  - intros j Ho Hj. rewrite !HF, <- Eo by lia. apply (party_ciphers _ _ _ _ _ _ R); [lia|exact Ho].
  - rewrite <- Eo by lia. rewrite HF. intros H j Hj. rewrite HF, HB, <- Eo by lia. apply (all_ready _ _ _ _ _ _ R); assumption.
  - intros j Hj H. rewrite <- Eo in * by lia. pose proof (TopF (S j) ltac:(lia)) as TF. destruct online; [|unfold ons in TF; lia].
    rewrite HF in H. rewrite HF, <- Eq by lia. apply (party_queries _ _ _ _ _ _ R j); [lia|exact H].
  - intros j H i Hi. rewrite <- Eo by lia. pose proof (TopB j ltac:(lia)) as TB. change (ready_bytes offline) with (ready offline) in *.
    destruct online; [|unfold ans in TB; lia].
    rewrite HB in H. rewrite HF, HB, <- Eq, <- Er by lia. apply (all_answered _ _ _ _ _ _ R) with (j := j); try lia; [|intros k Hk; rewrite <- HB; apply TopB; exact Hk].
    intros k Hk. unfold ans. rewrite !Er by lia. unfold link_queries.
    enough (list_sum (firstn k noise) <= list_sum (firstn (S k) noise))%nat by lia.
    clear. revert k. induction noise as [|x l IH]; intros [|k]; cbn [firstn list_sum fold_right]; try lia. specialize (IH k). unfold list_sum in IH. cbn [firstn] in *. lia.
Qed.
