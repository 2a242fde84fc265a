(** What one server does in the exchanges with its siblings, out of what is known
    about all servers of a party and every order of arrival. *)
From Verif Require Import Base BaseProofs Incremental IncrementalProofs Wire WireProofs Additive AdditiveProofs Onion OnionProofs
  Shuffle Sizes State Database CipherBatch CipherBatchProofs Range Handlers Batch Party Chain Spec SharingProofs ShuffleProofs
  StateProofs ChainSpec OnlineProofs OfflineProofs OfflineParty ChainProofs ParShuffle ParShuffleProofs ParShuffleFacts Parallel ParChain
  ParSpec ParChainSpec ParMergeProofs ParForwardProofs ParBackwardProofs ParOnlineProofs ParPartyProofs PermFacts ParFacts
  ParSecretsProofs ParTagProofs ParStage ParParty ParChainProofs ParProcs ProcExchange.

Local Notation advance := OnlineProofs.advance.

(** ** Orders *)
Definition canon (N : nat) (tr : nat -> nat) : list nat := flat_map (fun s => repeat s (tr s)) (seq 0 N).

Lemma cnt_repeat s n x : cnt (repeat s n) x = if (s =? x)%nat then n else 0%nat.
Proof.
  induction n as [|n IH]; cbn [repeat count_occ]; [destruct (s =? x)%nat; reflexivity|].
  rewrite IH. destruct (Nat.eq_dec s x) as [->|H]; [rewrite Nat.eqb_refl; reflexivity|].
  destruct (Nat.eqb_spec s x); [contradiction|reflexivity].
Qed.

Lemma cnt_canon N tr s : (s < N)%nat -> cnt (canon N tr) s = tr s.
Proof.
  intros Hs. unfold canon.
  assert (G : forall n b, cnt (flat_map (fun s => repeat s (tr s)) (seq b n)) s =
     if (b <=? s)%nat && (s <? b + n)%nat then tr s else 0%nat).
  { induction n as [|n IH]; intros b; cbn [seq flat_map].
    - destruct (Nat.leb_spec b s), (Nat.ltb_spec s (b + 0)); cbn [andb count_occ]; try reflexivity; lia.
    - rewrite count_occ_app, cnt_repeat, IH.
      destruct (Nat.eqb_spec b s), (Nat.leb_spec (S b) s), (Nat.leb_spec b s), (Nat.ltb_spec s (S b + n)), (Nat.ltb_spec s (b + S n));
        cbn [andb]; subst; lia. }
  rewrite G. destruct (Nat.leb_spec 0 s), (Nat.ltb_spec s (0 + N)); cbn [andb]; try lia.
Qed.

Lemma in_canon N tr s : In s (canon N tr) -> (s < N)%nat.
Proof. intros H. apply in_flat_map in H. destruct H as (x & Hx & H). apply in_seq in Hx. apply repeat_spec in H. lia. Qed.

(** ** Logs *)
Lemma cnt_log {A} s (log : list (nat * A)) : cnt (map fst log) s = length (outgoing s log).
Proof.
  unfold outgoing. induction log as [|[u a] log IH]; cbn [map count_occ filter fst]; [reflexivity|].
  destruct (Nat.eq_dec u s) as [->|H]; [rewrite Nat.eqb_refl|destruct (Nat.eqb_spec u s); [contradiction|]]; cbn [map length]; rewrite IH; reflexivity.
Qed.

Lemma logs_equal {A} : forall l l' : list (nat * A), map fst l = map fst l' ->
  (forall s, In s (map fst l) -> outgoing s l = outgoing s l') -> l = l'.
Proof.
  induction l as [|[s x] l IH]; intros [|[s' x'] l'] Hf Ho; try discriminate; [reflexivity|].
  cbn [map fst] in Hf. injection Hf as <- Hf.
  pose proof (Ho s (or_introl eq_refl)) as H0. unfold outgoing in H0. cbn [filter fst] in H0. rewrite Nat.eqb_refl in H0.
  cbn [map snd] in H0. injection H0 as <- H0. f_equal. apply IH; [exact Hf|].
  intros u Hu. pose proof (Ho u (or_intror Hu)) as H. unfold outgoing in H |- *. cbn [filter fst] in H.
  destruct (s =? u)%nat; [cbn [map] in H; injection H as H; exact H|exact H].
Qed.

(** ** One server *)
Section Exchange.
  Context {M H : Type} (N i : nat) (sends : list (list (nat * M))) (wants : list nat) (total : Z).
  Context (handle : H -> nat * M -> res H) (h0 : H) (Q : H -> Prop).
  Notation comes s := (outgoing i (nth s sends [])).
  Context (Ls : length sends = N) (Hi : (i < N)%nat).
  Context (Hall : forall o, (forall s, In s o -> (s < N)%nat) -> (forall s, (s < N)%nat -> cnt o s = length (comes s)) ->
    exists log h, send_and_poll i wants total sends o = Ok log /\ fold_res handle log h0 = Ok h /\ Q h).

  Lemma exchange_wants : (forall t, In t (siblings_of N i) -> get wants t = Ok (length (comes t))) /\
    total = Z.of_nat (list_sum (map (fun t => length (comes t)) (siblings_of N i))).
  Proof using All.
    destruct (Hall (canon N (fun s => length (comes s)))) as (log & h & E & _ & _).
    { intros s. apply in_canon. } { intros s Hs. apply cnt_canon. exact Hs. }
    unfold send_and_poll in E.
    destruct (map_res _ (seq 0 (length sends))) as [boxes| | |] eqn:Em; try discriminate. cbn [bind] in E.
    pose proof (map_res_length _ _ _ Em) as Lb. rewrite seq_length, Ls in Lb.
    destruct (total =? _) eqn:Et; [|discriminate]. apply Z.eqb_eq in Et.
    apply merge_complete in E. destruct E as (_ & E).
    assert (Hbox : forall s, (s < N)%nat -> length (nth s boxes []) = length (comes s)).
    { intros s Hs. destruct (E s ltac:(lia)) as (Hc & _). rewrite <- Hc. apply cnt_canon. exact Hs. }
    split.
    - intros t Ht. apply in_siblings in Ht. destruct Ht as (Ht & Hne).
      destruct (map_res_nth _ _ _ t t Em) as (b & Hb & Nb); [rewrite Ls; apply nth_error_seq; exact Ht|].
      destruct (get_lt sends t) as (snt & Eg & Ns); [lia|]. rewrite Eg in Hb. cbn [bind] in Hb.
      destruct (Nat.eqb_spec t i); [contradiction|].
      specialize (Hbox t Ht). rewrite (nth_error_nth _ _ _ Nb), (nth_error_nth _ _ _ Ns) in Hbox.
      rewrite (nth_error_nth _ _ _ Ns).
      destruct (get wants t) as [w| | |]; try discriminate. cbn [bind] in Hb. unfold recv in Hb.
      destruct (Nat.ltb_spec (length (outgoing i snt)) w); [discriminate|]. inversion Hb; subst b.
      rewrite firstn_length in Hbox. f_equal. lia.
    - rewrite Et. f_equal. rewrite Lb. clear - Hbox. unfold siblings_of.
      assert (G : forall l, (forall s, In s l -> (s < N)%nat) ->
        list_sum (map (fun s => if (s =? i)%nat then 0%nat else length (nth s boxes [])) l) =
        list_sum (map (fun t => length (comes t)) (filter (fun t => negb (t =? i)%nat) l))).
      { induction l as [|s l IH]; intros Hl; [reflexivity|]. cbn [map filter]. 
        specialize (IH (fun x Hx => Hl x (or_intror Hx))).
        destruct (s =? i)%nat; cbn [negb map list_sum fold_right] in *; unfold list_sum in IH; rewrite IH; [reflexivity|].
        rewrite Hbox by (apply Hl; left; reflexivity). reflexivity. }
      apply G. intros s Hs. apply in_seq in Hs. lia.
  Qed.

  Lemma exchange_run log : Forall (fun m => (fst m < N)%nat) log -> (forall s, (s < N)%nat -> outgoing s log = comes s) ->
    exists h, fold_res handle log h0 = Ok h /\ Q h.
  Proof using All.
    intros Hf Ho. rewrite Forall_forall in Hf.
    assert (Hin : forall s, In s (map fst log) -> (s < N)%nat).
    { intros s Hs. apply in_map_iff in Hs. destruct Hs as (m & <- & Hm). exact (Hf m Hm). }
    destruct (Hall (map fst log)) as (log' & h & E & Ef & Hq).
    { exact Hin. } { intros s Hs. rewrite cnt_log, Ho by exact Hs. reflexivity. }
    assert (log' = log) as ->; [|exists h; auto].
    apply logs_equal.
    - clear - E. unfold send_and_poll in E. destruct (map_res _ _) as [boxes| | |]; try discriminate. cbn [bind] in E.
      destruct (total =? _); [|discriminate]. eapply merge_fst; exact E.
    - intros s Hs.
      assert (Hs' : (s < N)%nat).
      { apply Hin. replace (map fst log) with (map fst log'); [exact Hs|].
        clear - E. unfold send_and_poll in E. destruct (map_res _ _) as [boxes| | |]; try discriminate. cbn [bind] in E.
        destruct (total =? _); [|discriminate]. eapply merge_fst; exact E. }
      destruct (send_and_poll_streams i wants total sends _ _ E s ltac:(lia)) as (w & E1 & E2).
      rewrite cnt_log, Ho in E2 by exact Hs'. rewrite firstn_length in E2.
      unfold outgoing at 1. rewrite E1, firstn_all2 by lia. rewrite Ho by exact Hs'. reflexivity.
  Qed.
End Exchange.

(** One order for the server in question, some order for all others. *)
Definition around (N : nat) (traffic : nat -> nat -> nat) (t : nat) (o : list nat) : nat -> list nat :=
  fun u => if (u =? t)%nat then o else canon N (traffic u).
Lemma around_complete N traffic t o : (forall s, In s o -> (s < N)%nat) -> (forall s, (s < N)%nat -> cnt o s = traffic t s) ->
  complete N traffic (around N traffic t o).
Proof.
  intros H1 H2 u Hu. unfold around. destruct (Nat.eqb_spec u t) as [->|_]; [auto|]. split; [intros s; apply in_canon|].
  intros s Hs. apply cnt_canon. exact Hs.
Qed.
Lemma around_self N traffic t o : around N traffic t o t = o.
Proof. unfold around. rewrite Nat.eqb_refl. reflexivity. Qed.

(** ** Shuffling *)
Section Shuffle.
Variables (M counts : list nat) (N : nat) (noise : nat -> nat) (ls : nat -> lshuffler).
Hypothesis HM : par_map_ok M counts N.
Hypothesis HN : (2 <= N)%nat.
Hypothesis Hsum : Z.of_nat (sum counts) < 2 ^ 32.
Hypothesis Hls : forall t, (t < N)%nat -> ls_ok (ParForwardProofs.size counts N t) (ls t).
Notation tgt := (ParForwardProofs.tgt M counts).
Notation from := (ParForwardProofs.from M counts).
Notation size := (ParForwardProofs.size counts N).
Notation shuf := (ParForwardProofs.shuf M counts N noise ls).
Notation received := (ParForwardProofs.received M counts N).

(** What server s sends to whom. *)
Definition shuffle_sends {A} (ins : list (list A)) (s : nat) : list (nat * A) := combine (tgt s) (nth s ins []).

Lemma shuffle_routes {A} (ins : list (list A)) s : (s < N)%nat -> length (nth s ins []) = nth s counts 0%nat ->
  route (sh_ps (shuf s)) (nth s ins []) = Ok (shuffle_sends ins s).
Proof using All.
  intros Hs L. rewrite ParForwardProofs.route_spec; [reflexivity|]. cbn [ParForwardProofs.shuf sh_ps ps_spec ps_forward ps_forward_idx Nat.add].
  change (sect M counts s) with (tgt s). rewrite (ParForwardProofs.tgt_len M counts N noise ls HM HN Hsum Hls) by exact Hs. lia.
Qed.
Lemma sends_to {A} (ins : list (list A)) s : Forall (fun m => (fst m < N)%nat) (shuffle_sends ins s).
Proof using All.
  apply Forall_forall. intros [t x] Hx. apply in_combine_l in Hx. apply In_nth_error in Hx. destruct Hx as (j & Hj).
  cbn [fst]. eapply (ParForwardProofs.tgt_lt M counts N noise ls HM HN Hsum Hls). exact Hj.
Qed.
Lemma sends_items {A} (P : A -> Prop) (ins : list (list A)) s : Forall P (nth s ins []) -> Forall (fun m => P (snd m)) (shuffle_sends ins s).
Proof. intros F. rewrite Forall_forall in *. intros [t x] Hx. apply F. eapply in_combine_r. exact Hx. Qed.

Section Store.
Context {A B : Type} (R : B -> list A -> Prop) (okA : A -> Prop) (store : B -> nat -> A -> res B).
Hypothesis Hstore : forall b l i x, R b l -> (i < length l)%nat -> okA x -> exists b', store b i x = Ok b' /\ R b' (upd l i x).

Lemma shuffle_local (d : A) ins (empty : nat -> B) t : (t < N)%nat ->
  length ins = N -> (forall s, (s < N)%nat -> length (nth s ins []) = nth s counts 0%nat) ->
  (forall s y, In y (nth s ins []) -> okA y) -> (forall s, (s < N)%nat -> exists l, R (empty s) l /\ length l = size s) ->
  exists c, shuffle_counts (shuf t) N t (Z.of_nat (size t)) = Ok c /\
    (forall u, In u (siblings_of N t) -> get (fst c) u = Ok (length (outgoing t (shuffle_sends ins u)))) /\
    snd c = Z.of_nat (list_sum (map (fun u => length (outgoing t (shuffle_sends ins u))) (siblings_of N t))) /\
    forall log, Forall (fun m => (fst m < N)%nat) log -> (forall s, (s < N)%nat -> outgoing s log = outgoing t (shuffle_sends ins s)) ->
      exists h, fold_res (from_sibling store (shuf t)) log (repeat 0%nat N, empty t) = Ok h /\
        R (snd h) (pick d (received t ins) (ls_backward (ls t))).
Proof using All.
  intros Ht Li L Hok He.
  set (sends := map (shuffle_sends ins) (seq 0 N)).
  assert (Ns : forall s, (s < N)%nat -> nth s sends [] = shuffle_sends ins s).
  { intros s Hs. apply nth_error_nth. apply nth_error_map_seq. exact Hs. }
  assert (Lsd : length sends = N) by (unfold sends; rewrite map_length, seq_length; reflexivity).
  assert (Hlen : forall s, (s < N)%nat -> length (outgoing t (nth s sends [])) = from t s).
  { intros s Hs. rewrite Ns by exact Hs. apply (ParForwardProofs.stream_length M counts N noise ls HM HN Hsum Hls ins t s Hs (L s Hs)). }
  assert (Hany : forall o, (forall s, In s o -> (s < N)%nat) -> (forall s, (s < N)%nat -> cnt o s = length (outgoing t (nth s sends []))) ->
    exists c log h, shuffle_counts (shuf t) N t (Z.of_nat (size t)) = Ok c /\ send_and_poll t (fst c) (snd c) sends o = Ok log /\
      fold_res (from_sibling store (shuf t)) log (repeat 0%nat N, empty t) = Ok h /\ R (snd h) (pick d (received t ins) (ls_backward (ls t)))).
  { intros o Ho1 Ho2.
    destruct (ParForwardProofs.par_shuffle_spec M counts N noise ls HM HN Hsum Hls R okA store Hstore d ins (map empty (seq 0 N)) (around N from t o))
      as (outs & E & Lo & HR); auto.
    - rewrite map_length, seq_length. reflexivity.
    - intros s e Ne. assert (Hs : (s < N)%nat).
      { assert (Hx : (s < length (map empty (seq 0 N)))%nat) by (apply nth_error_Some; congruence). rewrite map_length, seq_length in Hx. exact Hx. }
      rewrite nth_error_map_seq in Ne by exact Hs. inversion Ne; subst e. apply He. exact Hs.
    - apply around_complete; [exact Ho1|]. intros s Hs. rewrite Ho2, Hlen by exact Hs. reflexivity.
    - unfold par_shuffle in E. rewrite map_length, seq_length in E.
      rewrite (map_res_seq _ (shuffle_sends ins)) in E.
      2:{ intros s Hs. rewrite get_map by exact Hs. cbn [bind]. unfold get. rewrite (nth_len ins N Li s Hs). cbn [bind].
          apply shuffle_routes; auto. }
      cbn [bind] in E. fold sends in E. destruct (map_res_nth _ _ _ t t E (nth_error_seq 0 N t Ht)) as (b & Eb & Nb).
      rewrite !get_map in Eb by exact Ht. cbn [bind] in Eb.
      destruct (shuffle_counts _ _ _ _) as [c| | |] eqn:Ec; try discriminate. cbn [bind] in Eb.
      rewrite around_self in Eb.
      destruct (send_and_poll _ _ _ _ _) as [log| | |] eqn:El; try discriminate. cbn [bind] in Eb.
      destruct (fold_res _ _ _) as [h| | |] eqn:Eh; try discriminate. cbn [bind] in Eb. inversion Eb; subst b.
      exists c, log, h. repeat split; auto. }
  destruct (Hany (canon N (fun s => length (outgoing t (nth s sends []))))) as (c & _ & _ & Ec & _).
  { intros s. apply in_canon. } { intros s Hs. apply cnt_canon. exact Hs. }
  assert (Hall : forall o, (forall s, In s o -> (s < N)%nat) -> (forall s, (s < N)%nat -> cnt o s = length (outgoing t (nth s sends []))) ->
    exists log h, send_and_poll t (fst c) (snd c) sends o = Ok log /\
      fold_res (from_sibling store (shuf t)) log (repeat 0%nat N, empty t) = Ok h /\ R (snd h) (pick d (received t ins) (ls_backward (ls t)))).
  { intros o Ho1 Ho2. destruct (Hany o Ho1 Ho2) as (c' & log & h & Ec' & H). rewrite Ec in Ec'. inversion Ec'; subst c'. exists log, h. exact H. }
  exists c. split; [exact Ec|].
  destruct (exchange_wants N t sends (fst c) (snd c) (from_sibling store (shuf t)) (repeat 0%nat N, empty t) _ Lsd Ht Hall) as (W1 & W2).
  split; [|split].
  - intros u Hu. rewrite (W1 u Hu). apply in_siblings in Hu. rewrite Ns by apply Hu. reflexivity.
  - rewrite W2. do 2 f_equal. apply map_ext_in. intros u Hu. apply in_siblings in Hu. rewrite Ns by apply Hu. reflexivity.
  - intros log Hf Hlog. apply (exchange_run N t sends (fst c) (snd c) _ _ _ Lsd Ht Hall log Hf).
    intros s Hs. rewrite Ns by exact Hs. apply Hlog. exact Hs.
Qed.
End Store.
End Shuffle.

(** ** Secrets *)
Lemma outgoing_each {A} t (x : A) l : NoDup l -> outgoing t (map (fun u => (u, x)) l) = if in_dec Nat.eq_dec t l then [x] else [].
Proof.
  unfold outgoing. induction l as [|u l IH]; intros ND; [reflexivity|]. inversion ND as [|? ? Hu ND']; subst. cbn [map filter fst]. specialize (IH ND').
  destruct (Nat.eqb_spec u t) as [->|Hne].
  - cbn [map snd]. rewrite IH. destruct (in_dec Nat.eq_dec t l); [contradiction|]. destruct (in_dec Nat.eq_dec t (t :: l)) as [|n0]; [reflexivity|].
    exfalso. apply n0. left. reflexivity.
  - rewrite IH. destruct (in_dec Nat.eq_dec t l) as [H|H], (in_dec Nat.eq_dec t (u :: l)) as [H'|H']; try reflexivity; exfalso.
    + apply H'. right. exact H.
    + destruct H' as [->|H']; auto.
Qed.

Section Secrets.
Variables (N : nat) (pack : Z * stored -> osecret) (store : qstate -> osecret -> res qstate) (iter : iteration) (st : nat -> qstate).
Variables (traffic : nat -> nat -> nat) (P : list qstate -> Prop).
Definition secret_sents (s : nat) : list (list (nat * osecret)) :=
  map (fun e => map (fun t => (t, pack e)) (siblings_of N s)) (iter s (qs_map (st s))).
Definition secret_count (s : nat) : Z := w32 (Z.of_nat (length (qs_map (st s)))).
Hypothesis Htr : forall t s, (t < N)%nat -> (s < N)%nat -> length (outgoing t (concat (secret_sents s))) = traffic t s.
Hypothesis Hall : forall order, complete N traffic order ->
  exists out, broadcast_secrets pack store iter (map st (seq 0 N)) order = Ok out /\ P out.

Lemma secret_counts_all : map (fun p => Z.to_nat (w32 (Z.of_nat (length (qs_map p))))) (map st (seq 0 N)) = map Z.to_nat (map secret_count (seq 0 N)).
Proof. rewrite !map_map. reflexivity. Qed.

Lemma secrets_local t : (t < N)%nat ->
  let counts := map secret_count (seq 0 N) in
  let total := sum32 (map (fun s => if (s =? t)%nat then 0 else nth s counts 0) (seq 0 N)) in
  (forall u, In u (siblings_of N t) -> get (map Z.to_nat counts) u = Ok (length (outgoing t (concat (secret_sents u))))) /\
  total = Z.of_nat (list_sum (map (fun u => length (outgoing t (concat (secret_sents u)))) (siblings_of N t))) /\
  forall log, Forall (fun m => (fst m < N)%nat) log -> (forall s, (s < N)%nat -> outgoing s log = outgoing t (concat (secret_sents s))) ->
    exists h, fold_res (fun p m => store p (snd m)) log (st t) = Ok h /\ exists out, nth_error out t = Some h /\ P out.
Proof using All.
  intros Ht counts total.
  set (sends := map (fun s => concat (secret_sents s)) (seq 0 N)).
  assert (Ns : forall s, (s < N)%nat -> nth s sends [] = concat (secret_sents s)).
  { intros s Hs. apply nth_error_nth. apply (nth_error_map_seq (fun s => concat (secret_sents s))). exact Hs. }
  assert (Lsd : length sends = N) by (unfold sends; rewrite map_length, seq_length; reflexivity).
  assert (Et : sum32 (map (fun s => if (s =? t)%nat then 0 else Z.of_nat (nth s (map Z.to_nat counts) 0%nat)) (seq 0 N)) = total).
  { unfold total. f_equal. apply map_ext_in. intros s Hs. apply in_seq in Hs. destruct (s =? t)%nat; [reflexivity|].
    change 0%nat with (Z.to_nat 0). rewrite map_nth. apply Z2Nat.id.
    unfold counts. rewrite (nth_error_nth _ _ _ (nth_error_map_seq secret_count N s ltac:(lia))). apply Z.mod_pos_bound. reflexivity. }
  assert (Hrun : forall o, (forall s, In s o -> (s < N)%nat) -> (forall s, (s < N)%nat -> cnt o s = length (outgoing t (nth s sends []))) ->
    exists log h, send_and_poll t (map Z.to_nat counts) total sends o = Ok log /\ fold_res (fun p m => store p (snd m)) log (st t) = Ok h /\
      exists out, nth_error out t = Some h /\ P out).
  { intros o Ho1 Ho2. destruct (Hall (around N traffic t o)) as (out & E & HP).
    { apply around_complete; [exact Ho1|]. intros s Hs. rewrite Ho2, Ns by exact Hs. apply Htr; assumption. }
    unfold broadcast_secrets in E. rewrite map_length, seq_length, secret_counts_all in E. fold counts in E.
    rewrite (map_res_seq _ (fun s => concat (secret_sents s))) in E.
    2:{ intros s Hs. rewrite get_map by exact Hs. cbn [bind]. unfold secret_sents. rewrite <- flat_map_concat_map. reflexivity. }
    cbn [bind] in E. fold sends in E. destruct (map_res_nth _ _ _ t t E (nth_error_seq 0 N t Ht)) as (h & Eb & Nb).
    rewrite get_map in Eb by exact Ht. cbn [bind] in Eb. rewrite Et, around_self in Eb.
    destruct (send_and_poll _ _ _ _ _) as [log| | |] eqn:El; try discriminate. cbn [bind] in Eb.
    exists log, h. split; [reflexivity|]. split; [exact Eb|]. exists out. auto. }
  destruct (exchange_wants N t sends _ total _ _ _ Lsd Ht Hrun) as (W1 & W2). split; [|split].
  - intros u Hu. rewrite (W1 u Hu). apply in_siblings in Hu. rewrite Ns by apply Hu. reflexivity.
  - rewrite W2. do 2 f_equal. apply map_ext_in. intros u Hu. apply in_siblings in Hu. rewrite Ns by apply Hu. reflexivity.
  - intros log Hf Hlog. apply (exchange_run N t sends _ total _ _ _ Lsd Ht Hrun log Hf). intros s Hs. rewrite Ns by exact Hs. apply Hlog. exact Hs.
Qed.

Lemma secret_stream t s : (t < N)%nat -> outgoing t (concat (secret_sents s)) = if (s =? t)%nat then [] else map pack (iter s (qs_map (st s))).
Proof using.
  intros Ht. unfold secret_sents. generalize (iter s (qs_map (st s))) as l. induction l as [|e l IH]; cbn [map concat].
  - destruct (s =? t)%nat; reflexivity.
  - rewrite outgoing_app, IH, outgoing_each by apply nodup_siblings. destruct (in_dec Nat.eq_dec t (siblings_of N s)) as [Hin|Hin]; rewrite in_siblings in Hin;
      destruct (Nat.eqb_spec s t) as [->|Hne]; try reflexivity; [tauto|]. exfalso. apply Hin. auto.
Qed.
Lemma secret_sents_to s : Forall (fun m => (fst m < N)%nat) (concat (secret_sents s)).
Proof using.
  unfold secret_sents. rewrite <- flat_map_concat_map. apply Forall_forall. intros m Hm. apply in_flat_map in Hm. destruct Hm as (e & _ & Hm).
  apply in_map_iff in Hm. destruct Hm as (t & <- & Hx). apply in_siblings in Hx. apply Hx.
Qed.
Lemma secret_sents_one s : Forall (fun ms => NoDup (map fst ms)) (secret_sents s).
Proof using.
  unfold secret_sents. apply Forall_map, Forall_forall. intros e _. rewrite map_map. cbn [fst]. rewrite map_id. apply nodup_siblings.
Qed.
Lemma secret_feeds s : feeds (fun (_ : unit) x => Ok (map (fun t => (t, pack x)) (siblings_of N s), tt)) tt (iter s (qs_map (st s))) (secret_sents s).
Proof using.
  unfold secret_sents. generalize (iter s (qs_map (st s))) as l. induction l as [|e l IH]; cbn [map]; [constructor|]. econstructor; [reflexivity|exact IH].
Qed.
End Secrets.

(** ** Items as messages *)
Lemma feeds_route {A} : forall (items : list A) p l, route p items = Ok l -> feeds next_shuffled p items (map (fun m => [m]) l).
Proof.
  induction items as [|x items IH]; intros p l E; cbn [route] in E; [inversion E; constructor|].
  destruct (ps_shuffle_one p) as [r| | |] eqn:Er; try discriminate. cbn [bind] in E.
  destruct (route (snd r) items) as [l'| | |] eqn:El; try discriminate. cbn [bind] in E. inversion E; subst l. cbn [map].
  econstructor; [|apply IH; exact El]. unfold next_shuffled. rewrite Er. reflexivity.
Qed.
Lemma feeds_route_back sh N : forall items index target end_ l, route_back sh N index target end_ items = Ok l ->
  feeds (next_deshuffled N sh) (index, target, end_) items (map (fun m => [m]) l).
Proof.
  induction items as [|x items IH]; intros index target end_ l E; cbn [route_back] in E; [inversion E; constructor|].
  destruct (seek sh N N index target end_) as [t| | |] eqn:Et; try discriminate. cbn [bind] in E.
  destruct (route_back sh N _ _ _ items) as [l'| | |] eqn:El; try discriminate. cbn [bind] in E. inversion E; subst l. cbn [map].
  econstructor; [|apply IH; exact El]. unfold next_deshuffled. rewrite Et. reflexivity.
Qed.
Lemma concat_single {A} (l : list A) : concat (map (fun m => [m]) l) = l.
Proof. induction l as [|x l IH]; [reflexivity|]. cbn. f_equal. exact IH. Qed.
Lemma nodup_single {A} (l : list (nat * A)) : Forall (fun ms => NoDup (map fst ms)) (map (fun m => [m]) l).
Proof. apply Forall_map, Forall_forall. intros m _. cbn. repeat constructor. intros []. Qed.

(** ** Online stage *)
Section Online.
Variables (db : list response) (N m : nat) (tb : tables) (rps : list pready) (noise : nat -> list item) (its : list (list item)).
Hypothesis Hdb : Forall wf_response db.
Hypothesis Hh : par_holds N tb rps noise its.
Hypothesis Oi : Forall (Forall (ok_item (length db) (S m))) its.
Hypothesis On : Forall (Forall (ok_item (length db) m)) (nexts N tb noise its).
Notation next := (nexts N tb noise its).
Variables (i : nat) (rp : pready).
Hypothesis Nrp : nth_error rps i = Some rp.

Definition query_batches : list (list query) := map (map q_of) (batches N noise its).
Definition query_sends : nat -> list (nat * query) := shuffle_sends (tb_M tb) (tb_counts tb) query_batches.
Definition response_sends (t : nat) : list (nat * list Z) :=
  combine (owners (tb_M tb) (tb_counts tb) N (tb_noise tb) t)
    (flat_map (fun s => sec (tb_M tb) (tb_counts tb) (tb_noise tb) t s (pick [] (map (answer db) (nth t next [])) (ls_forward (tb_ls tb t)))) (seq 0 N)).

Lemma server_lt : (i < N)%nat.
Proof using All. destruct Hh as (_ & (L & _) & _). rewrite <- L. apply nth_error_Some. congruence. Qed.

Lemma query_batch s : (s < N)%nat -> nth s query_batches [] = map q_of (nth s (batches N noise its) []).
Proof using All. intros Hs. unfold query_batches. apply (map_nth (map q_of) (batches N noise its) []). Qed.
Lemma query_batch_length s : (s < N)%nat -> length (nth s query_batches []) = nth s (tb_counts tb) 0%nat.
Proof using All.
  intros Hs. rewrite query_batch, map_length by exact Hs. destruct Hh as (HT & _ & Lits & _).
  apply (batches_length N tb noise its HT (hold_counts db N m tb rps noise its Hdb Hh Oi On) Lits s Hs).
Qed.

(** After collecting the queries. *)
Lemma collected : exists rps' rp', collect_queries rp (map q_of (nth i its [])) = Ok rp' /\ nth_error rps' i = Some rp' /\
  par_ok' N tb rps' (map (map q_of) its) /\ same_state rps rps' /\ bt_data (pr_queries rp') = nth i query_batches [].
Proof using All.
  pose proof server_lt as Hi.
  destruct (forward_items db N m tb rps noise its Hdb Hh Oi On (fun t => canon N (from (tb_M tb) (tb_counts tb) t))) as (rps' & E & Hok' & Hs).
  { intros t Ht. split; [intros s; apply in_canon|]. intros s Hs. apply cnt_canon. exact Hs. }
  destruct Hh as (HT & (Lr & Hok) & Lits & Hl & Hk).
  unfold par_forward in E. rewrite Lr in E.
  destruct (map_res _ (seq 0 N)) as [rps1| | |] eqn:Em; try discriminate. cbn [bind] in E.
  destruct (par_shuffle _ _ _ _ _ _) as [out| | |]; try discriminate. cbn [bind] in E. injection E as -> _.
  destruct (map_res_nth _ _ _ i i Em (nth_error_seq 0 N i Hi)) as (rp' & Ec & Nrp').
  unfold get in Ec. rewrite Nrp in Ec. cbn [bind] in Ec.
  rewrite nth_error_map, (nth_len its N Lits i Hi) in Ec. cbn [option_map bind] in Ec.
  exists rps', rp'. split; [exact Ec|]. split; [exact Nrp'|]. split; [exact Hok'|]. split; [exact Hs|].
  destruct (Hok i rp Nrp) as (H1 & H2 & H3 & H4 & H5 & H6 & H7 & H8). destruct (Hl i Hi) as (L1 & L2).
  destruct (collect_queries_spec rp (tb_noise tb i) (map q_of (nth i its [])) (map (fun it => q_of (advance it)) (nth i its [])) (map q_of (noise i)))
    as (rp2 & E2 & _ & _ & _ & _ & _ & _ & _ & F); auto.
  - rewrite map_length, L2. exact H5.
  - rewrite H6, map_length, L2. unfold inp. destruct HT as (_ & _ & _ & _ & Hn). specialize (Hn i Hi). lia.
  - specialize (Hk i rp Nrp). clear - Hk. induction Hk as [|it l H _ IH]; cbn [map]; constructor; [|exact IH]. eexists. apply handle_query_item. exact H.
  - rewrite Ec in E2. inversion E2; subst rp2. rewrite F, query_batch by exact Hi. rewrite batches_nth by exact Hi. rewrite map_app, map_map. reflexivity.
Qed.

Section Collected.
Variables (rps' : list pready) (rp' : pready).
Hypothesis Nrp' : nth_error rps' i = Some rp'.
Hypothesis Hok' : par_ok' N tb rps' (map (map q_of) its).
Hypothesis Hs : same_state rps rps'.
Notation sh := (shuf (tb_M tb) (tb_counts tb) N (tb_noise tb) (tb_ls tb) i).

Lemma query_exchange :
  pr_sh rp' = sh /\ pr_shuffled rp' = Z.of_nat (size (tb_counts tb) N i) /\
  route (sh_ps sh) (nth i query_batches []) = Ok (query_sends i) /\
  exists c, shuffle_counts sh N i (pr_shuffled rp') = Ok c /\
    (forall u, In u (siblings_of N i) -> get (fst c) u = Ok (length (outgoing i (query_sends u)))) /\
    snd c = Z.of_nat (list_sum (map (fun u => length (outgoing i (query_sends u))) (siblings_of N i))) /\
    forall log, Forall (fun m => (fst m < N)%nat) log -> (forall s, (s < N)%nat -> outgoing s log = outgoing i (query_sends s)) ->
      exists h, fold_res (from_sibling bt_set sh) log (repeat 0%nat N, bt_initialize zero_query (Z.to_nat (pr_shuffled rp'))) = Ok h /\
        bt_all (snd h) = map q_of (nth i next []).
Proof using All.
  pose proof server_lt as Hi. destruct Hh as (HT & _ & Lits & _). assert (HTc := HT). destruct HTc as (HM & HN & Hsum & Hls & Hnoise).
  destruct Hok' as (_ & Hok). destruct (Hok i rp' Nrp') as (H1 & H2 & H3 & H4 & H5).
  split; [exact H4|]. split; [exact H3|]. split; [apply (shuffle_routes _ _ N _ _ HM HN Hsum Hls); [exact Hi|apply query_batch_length; exact Hi]|].
  rewrite H3, Nat2Z.id.
  destruct (shuffle_local (tb_M tb) (tb_counts tb) N (tb_noise tb) (tb_ls tb) HM HN Hsum Hls (fun b l => bt_data b = l) (fun _ : query => True) bt_set bt_set_rep zero_query
    query_batches (fun s => bt_initialize zero_query (size (tb_counts tb) N s)) i Hi) as (c & Ec & W1 & W2 & Hlog).
  - unfold query_batches, batches. rewrite !map_length, seq_length. reflexivity.
  - exact query_batch_length.
  - auto.
  - intros s Hs'. eexists. split; [reflexivity|]. apply repeat_length.
  - exists c. split; [exact Ec|]. split; [exact W1|]. split; [exact W2|]. intros log L1 L2. destruct (Hlog log L1 L2) as (h & Eh & Hb).
    exists h. split; [exact Eh|]. unfold bt_all. rewrite Hb. rewrite nexts_nth by exact Hi. rewrite <- (pick_map q_of). f_equal.
    apply received_map. intros s Hs'. apply query_batch. exact Hs'.
Qed.

Lemma response_exchange :
  exists b e, collect_responses N rp' (map (answer db) (nth i next [])) = Ok b /\ target_end (pr_sh rp') 0 = Ok e /\
    route_back (pr_sh rp') N 0 0 e (bt_all b) = Ok (response_sends i) /\
  exists c, deshuffle_counts rp' N i = Ok c /\
    (forall u, In u (siblings_of N i) -> get (fst c) u = Ok (length (outgoing i (response_sends u)))) /\
    snd c = Z.of_nat (list_sum (map (fun u => length (outgoing i (response_sends u))) (siblings_of N i))) /\
    forall log, Forall (fun m => (fst m < N)%nat) log -> (forall s, (s < N)%nat -> outgoing s log = outgoing i (response_sends s)) ->
      exists h, fold_res (response_from rp') log (sh_ps (pr_sh rp'), bt_initialize zero_response (Z.to_nat (pr_input rp'))) = Ok h /\
        bt_all (snd h) = map (answer db) (nth i its []).
Proof using All.
  pose proof server_lt as Hi. assert (Hhc := Hh). destruct Hhc as (HT & _ & Lits & _). assert (HTc := HT). destruct HTc as (HM & HN & Hsum & Hls & Hnoise).
  assert (Hok := Hok'). destruct Hok as (Lr & Hok).
  assert (Hans : forall t, nth t (map (map (answer db)) next) [] = map (answer db) (nth t next [])) by (intros t; apply (map_nth (map (answer db)) next [])).
  assert (Hsend : forall t rpt, (t < N)%nat -> nth_error rps' t = Some rpt ->
    exists b e, collect_responses N rpt (map (answer db) (nth t next [])) = Ok b /\ target_end (pr_sh rpt) 0 = Ok e /\
      route_back (pr_sh rpt) N 0 0 e (bt_all b) = Ok (response_sends t)).
  { intros t rpt Ht Nt. destruct (Hok t rpt Nt) as (H1 & H2 & H3 & H4 & H5).
    assert (Ln : length (map (answer db) (nth t next [])) = size (tb_counts tb) N t).
    { rewrite map_length. apply (nexts_size N tb noise its HT (hold_counts db N m tb rps noise its Hdb Hh Oi On) Lits t Ht). }
    destruct (collect_responses_spec _ _ N (tb_noise tb) (tb_ls tb) HM HN Hsum Hls Hnoise rpt t (map (answer db) (nth t next [])) [] Ht Ln H4 H3) as (b & Eb & Db).
    exists b. eexists. split; [exact Eb|]. rewrite H4. split; [apply (target_end_spec _ _ N (tb_noise tb) (tb_ls tb) HM HN Hsum Hls Hnoise t 0); lia|].
    unfold bt_all. rewrite Db.
    apply (route_back_spec _ _ N (tb_noise tb) (tb_ls tb) HM HN Hsum Hls Hnoise t _ Ht 0 0).
    - cbn [Nat.add]. apply (all_sec_length _ _ N (tb_noise tb) (tb_ls tb) HM HN Hsum Hls Hnoise); [exact Ht|]. unfold pick. rewrite map_length. apply (Hls t Ht).
    - intros; lia.
    - reflexivity. }
  destruct (Hsend i rp' Hi Nrp') as (b & e & Eb & Ee & Er). exists b, e. split; [exact Eb|]. split; [exact Ee|]. split; [exact Er|].
  set (sends := map response_sends (seq 0 N)).
  assert (Ns : forall s, (s < N)%nat -> nth s sends [] = response_sends s).
  { intros s Hs'. apply nth_error_nth. apply nth_error_map_seq. exact Hs'. }
  assert (Lsd : length sends = N) by (unfold sends; rewrite map_length, seq_length; reflexivity).
  assert (Hlen : forall s, (s < N)%nat -> length (outgoing i (nth s sends [])) = back_traffic tb i s).
  { intros s Hs'. rewrite Ns by exact Hs'. unfold response_sends.
    assert (Lu : length (pick [] (map (answer db) (nth s next [])) (ls_forward (tb_ls tb s))) = size (tb_counts tb) N s).
    { unfold pick. rewrite map_length. apply (Hls s Hs'). }
    match goal with |- context [outgoing i (combine ?a ?c)] => change (outgoing i (combine a c)) with (addressed_to i a c) end.
    unfold owners. rewrite addressed_sections.
    - destruct (Nat.leb_spec 0 i), (Nat.ltb_spec i (0 + N)); cbn [andb]; try lia.
      apply (sec_length _ _ N (tb_noise tb) (tb_ls tb) HM HN Hsum Hls Hnoise); [exact Hs'|exact Hi|exact Lu].
    - intros u Hu. apply (sec_length _ _ N (tb_noise tb) (tb_ls tb) HM HN Hsum Hls Hnoise); [exact Hs'|lia|exact Lu]. }
  assert (Hany : forall o, (forall s, In s o -> (s < N)%nat) -> (forall s, (s < N)%nat -> cnt o s = length (outgoing i (nth s sends []))) ->
    exists c log h, deshuffle_counts rp' N i = Ok c /\ send_and_poll i (fst c) (snd c) sends o = Ok log /\
      fold_res (response_from rp') log (sh_ps (pr_sh rp'), bt_initialize zero_response (Z.to_nat (pr_input rp'))) = Ok h /\
      bt_all (snd h) = map (answer db) (nth i its [])).
  { intros o Ho1 Ho2.
    pose proof (backward_items db N m tb rps noise its Hdb Hh Oi On rps' (around N (back_traffic tb) i o) Hok' Hs) as E.
    unfold par_backward in E. rewrite Lr in E. rewrite (map_res_seq _ response_sends) in E.
    2:{ intros s Hs'. destruct (get_lt rps' s) as (rpt & Eg & Nt); [lia|]. rewrite Eg. cbn [bind].
        unfold get. rewrite (nth_error_nth' (map (map (answer db)) next) []) by (rewrite map_length, nexts_length; exact Hs').
        cbn [bind]. rewrite Hans. destruct (Hsend s rpt Hs' Nt) as (b' & e' & Eb' & Ee' & Er'). rewrite Eb'. cbn [bind]. rewrite Ee'. cbn [bind]. exact Er'. }
    cbn [bind] in E. fold sends in E.
    assert (Ho : complete N (back_traffic tb) (around N (back_traffic tb) i o)).
    { apply around_complete; [exact Ho1|]. intros s Hs'. rewrite Ho2, Hlen by exact Hs'. reflexivity. }
    specialize (E Ho). destruct (map_res_nth _ _ _ i i E (nth_error_seq 0 N i Hi)) as (r & Eb' & Nb).
    unfold get in Eb'. rewrite Nrp' in Eb'. cbn [bind] in Eb'.
    destruct (deshuffle_counts rp' N i) as [c| | |] eqn:Ec; try discriminate. cbn [bind] in Eb'. rewrite around_self in Eb'.
    destruct (send_and_poll _ _ _ _ _) as [log| | |] eqn:El; try discriminate. cbn [bind] in Eb'.
    destruct (fold_res _ _ _) as [h| | |] eqn:Eh; try discriminate. cbn [bind] in Eb'. inversion Eb'; subst r.
    exists c, log, h. split; [reflexivity|]. split; [exact El|]. split; [exact Eh|].
    rewrite nth_error_map, (nth_len its N Lits i Hi) in Nb. cbn [option_map] in Nb. congruence. }
  destruct (Hany (canon N (fun s => length (outgoing i (nth s sends []))))) as (c & _ & _ & Ec & _).
  { intros s. apply in_canon. } { intros s Hs'. apply cnt_canon. exact Hs'. }
  exists c. split; [exact Ec|].
  assert (Hall : forall o, (forall s, In s o -> (s < N)%nat) -> (forall s, (s < N)%nat -> cnt o s = length (outgoing i (nth s sends []))) ->
    exists log h, send_and_poll i (fst c) (snd c) sends o = Ok log /\
      fold_res (response_from rp') log (sh_ps (pr_sh rp'), bt_initialize zero_response (Z.to_nat (pr_input rp'))) = Ok h /\
      bt_all (snd h) = map (answer db) (nth i its [])).
  { intros o Ho1 Ho2. destruct (Hany o Ho1 Ho2) as (c' & log & h & Ec' & H). rewrite Ec in Ec'. inversion Ec'; subst c'. exists log, h. exact H. }
  destruct (exchange_wants N i sends (fst c) (snd c) _ _ _ Lsd Hi Hall) as (W1 & W2). split; [|split].
  - intros u Hu. rewrite (W1 u Hu). apply in_siblings in Hu. rewrite Ns by apply Hu. reflexivity.
  - rewrite W2. do 2 f_equal. apply map_ext_in. intros u Hu. apply in_siblings in Hu. rewrite Ns by apply Hu. reflexivity.
  - intros log Hf Hlog. apply (exchange_run N i sends (fst c) (snd c) _ _ _ Lsd Hi Hall log Hf). intros s Hs'. rewrite Ns by exact Hs'. apply Hlog. exact Hs'.
Qed.
End Collected.
End Online.
