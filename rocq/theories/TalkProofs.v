(** Processes against arbitrary peers. *)
From Verif Require Import Base BaseProofs Incremental Wire WireProofs Additive AdditiveProofs Onion Shuffle Sizes State Database CipherBatch
  Range Handlers Batch Party Chain Net Stream CipherBatchProofs SharingProofs StreamProofs Lts Procs ProcProofs Spec ChainSpec OnlineProofs OfflineProofs OfflineParty ChainProofs ProcChain ParChainSpec ParStage ParChainProofs ParProcs ParCrash CheckProofs TalkSpec.

(** [says p Q words]: whatever its system calls return, p sends the bytes
    [words], in this order, as far as it gets; a result a it returns satisfies
    [Q a] and is only returned with [Q]'s rest of the words left; it may abort or
    loop, but its behaviour is never undefined. *)
Fixpoint says {C A} (p : proc C A) (Q : A -> list (C * Z) -> Prop) (words : list (C * Z)) : Prop :=
  match p with
  | Ret a => Q a words
  | Crash w => w <> Undefined
  | Write c bs k => exists rest, words = map (pair c) bs ++ rest /\
      forall n, (1 <= n <= length bs)%nat -> says (k n) Q (map (pair c) (skipn n bs) ++ rest)
  | Read c n k => forall got, (length got <= n)%nat -> says (k got) Q words
  | Poll _ _ k => forall fs, says (k fs) Q words
  end.

Lemma says_bind {C A B} (p : proc C A) : forall (f : A -> proc C B) Q words,
  says p (fun a rest => says (f a) Q rest) words -> says (pbind p f) Q words.
Proof.
  induction p as [a|w|c bs k IH|c n k IH|block l k IH]; intros f Q words H; cbn [pbind says] in *; auto.
  destruct H as (rest & E & H). exists rest. split; [exact E|]. intros n Hn. apply IH. apply H. exact Hn.
Qed.
Lemma says_mono {C A} (p : proc C A) : forall (Q Q' : A -> list (C * Z) -> Prop) words,
  (forall a rest, Q a rest -> Q' a rest) -> says p Q words -> says p Q' words.
Proof.
  induction p as [a|w|c bs k IH|c n k IH|block l k IH]; intros Q Q' words HQ H; cbn [says] in *; eauto.
  destruct H as (rest & E & H). exists rest. split; [exact E|]. intros n Hn. eapply IH; eauto.
Qed.
Lemma says_lift {C A B} (r : res A) (f : A -> proc C B) Q words :
  r <> UB -> (forall a, r = Ok a -> says (f a) Q words) -> says (pbind (lift r) f) Q words.
Proof. intros U H. destruct r as [a| | |]; cbn; [apply H; reflexivity|discriminate|congruence|discriminate]. Qed.

(** A piece that only sends. *)
Definition only_sends {C X} (l : list (act C Z X)) (words : list (C * Z)) : Prop := l = map (fun x => Snd (fst x) (snd x)) words.
Lemma says_sends {C X A} est (p : proc C A) (l : list (act C Z X)) a : follows_on est p l a -> forall words rest (Q : A -> list (C * Z) -> Prop),
  only_sends l words -> Q a rest -> says p Q (words ++ rest).
Proof.
  intros F. induction F as [a|c bs k l a Hb Hk IH|c n bs k l a Hb Hs Hk IH]; intros words rest Q O HQ; unfold only_sends in *; cbn [says].
  - destruct words as [|x words]; [exact HQ|discriminate O].
  - assert (exists w2, words = map (pair c) bs ++ w2 /\ l = map (fun x => Snd (fst x) (snd x)) w2) as (w2 & -> & El).
    { clear - O. revert words O. induction bs as [|y bs IH]; intros words O; [exists words; auto|].
      destruct words as [|[c' y'] words]; [discriminate O|]. cbn in O. inversion O; subst. destruct (IH _ H2) as (w2 & -> & E).
      exists w2. auto. }
    exists (w2 ++ rest). rewrite <- app_assoc. split; [reflexivity|]. intros n Hn. rewrite app_assoc. apply (IH n Hn); [|exact HQ].
    rewrite map_app, El. f_equal. rewrite map_map. reflexivity.
  - destruct bs as [|y bs]; [cbn in Hb; lia|]. destruct words as [|x words]; discriminate O.
Qed.
Lemma only_sends_map {C X} (c : C) bs : only_sends (map (@Snd C Z X c) bs) (map (pair c) bs).
Proof. unfold only_sends. rewrite map_map. reflexivity. Qed.
Lemma says_sending {C X A} est (p : proc C A) c bs a rest (Q : A -> list (C * Z) -> Prop) :
  @follows_on C X A est p (map (Snd c) bs) a -> Q a rest -> says p Q (map (pair c) bs ++ rest).
Proof. intros F HQ. eapply says_sends; [exact F|apply only_sends_map|exact HQ]. Qed.

(** Exactly [size] bytes are read. *)
Lemma says_pread {C} (c : C) off size (Q : list Z -> list (C * Z) -> Prop) words : forall fuel m bytes,
  (off + size <= length m)%nat -> (bytes <= size)%nat -> (forall m', length m' = length m -> Q m' words) ->
  says (pread fuel c m off bytes size) Q words.
Proof.
  induction fuel as [|f IH]; intros m bytes Hm Hb HQ; cbn [pread]; destruct (Nat.ltb_spec bytes size) as [Hlt|Hge];
    try (cbn [says]; auto; discriminate).
  apply says_bind. unfold psys_read. destruct (size - bytes)%nat as [|n] eqn:En; [lia|]. cbn [says]. intros got Hg.
  apply says_lift.
  - unfold wr. destruct (Nat.leb_spec (off + bytes + length got) (length m)); [discriminate|lia].
  - intros m' E. apply wr_length in E. apply IH; [lia|lia|]. intros m2 L2. apply HQ. lia.
Qed.
Lemma says_wait {C} asserts (c : C) (Q : unit -> list (C * Z) -> Prop) words : Q tt words -> says (pwait_ready asserts c) Q words.
Proof.
  intros HQ. unfold pwait_ready. apply says_bind. apply says_pread; [cbn; lia|lia|]. intros m' _.
  destruct asserts; [|exact HQ]. destruct m' as [|x [|y m']]; cbn; try discriminate.
  destruct (x =? 1); cbn; [exact HQ|discriminate].
Qed.

(** Handling a list of messages. *)
Lemma fold_no_ub {S A} (handle : S -> A -> res S) (ok : A -> Prop) (I : nat -> S -> Prop) :
  (forall n s x, I (Datatypes.S n) s -> ok x -> handle s x <> UB /\ forall s', handle s x = Ok s' -> I n s') ->
  forall xs n s, (length xs <= n)%nat -> Forall ok xs -> I n s ->
    fold_res handle xs s <> UB /\ forall s', fold_res handle xs s = Ok s' -> I (n - length xs)%nat s'.
Proof.
  intros Step. induction xs as [|x xs IH]; intros n s Ln F Hs; cbn [fold_res length].
  - rewrite Nat.sub_0_r. split; [discriminate|]. intros s' E. inversion E; subst. exact Hs.
  - inversion F; subst. destruct n as [|n]; [cbn in Ln; lia|]. cbn in Ln. destruct (Step n s x Hs ltac:(assumption)) as [U H].
    destruct (handle s x) as [s1| | |] eqn:E; cbn [bind]; [|split; discriminate|congruence|split; discriminate].
    apply (IH n s1); [lia|assumption|apply H; reflexivity].
Qed.

Section Loop.
  Context {B Ch S : Type} (ops : bufops B) (C unit : nat) (R : B -> nat -> nat -> Prop) (L : buf_laws ops C unit R).
  Context (HC : (0 < C)%nat) (Hu : (0 < unit)%nat) (c : Ch).
  Context (handle : S -> list Z -> res S) (I : nat -> S -> Prop).
  Context (Step : forall n s x, I (Datatypes.S n) s -> length x = unit -> handle s x <> UB /\ forall s', handle s x = Ok s' -> I n s').

  Lemma says_read_each (Q : S -> list (Ch * Z) -> Prop) words : forall fuel b m left count s,
    R b 0%nat (length left) -> (length left < unit)%nat -> Z.of_nat count < 2 ^ 32 -> Z.of_nat unit < 2 ^ 32 ->
    (exists tail, m = left ++ tail) -> (C * unit <= length m)%nat -> I count s ->
    (forall s', I 0%nat s' -> Q s' words) ->
    says (pread_each ops fuel c handle count b m s) Q words.
  Proof using All.
    induction fuel as [|f IH]; intros b m left count s HR Hl Hc Hu2 (tail & Em) Hm Hs HQ; cbn [pread_each].
    - destruct (Nat.ltb_spec 0 count); cbn [says]; [discriminate|]. apply HQ. replace 0%nat with count by lia. exact Hs.
    - destruct (Nat.ltb_spec 0 count) as [Hc0|Hc0]; cbn [says]; [|apply HQ; replace 0%nat with count by lia; exact Hs].
      unfold pread_buf.
      rewrite (bl_capacity _ _ _ _ L _ _ _ HR), (bl_unit _ _ _ _ L _ _ _ HR), (bl_leftover _ _ _ _ L _ _ _ HR),
        (bl_tobuffer _ _ _ _ L _ _ _ HR).
      set (l := length left) in *.
      assert (Hcu : Z.of_nat (count * unit) < 2 ^ 64) by (rewrite Nat2Z.inj_mul; nia).
      assert (Hlc : (l < count * unit)%nat) by nia. assert (HlC : (l < C * unit)%nat) by nia.
      assert (w64 (Z.of_nat (count * unit) - Z.of_nat l) = Z.of_nat (count * unit - l)) as ->
        by (rewrite w64_id by (unfold u64; lia); lia).
      set (n := Z.to_nat _).
      assert (Hn : (0 < n /\ n <= C * unit - l /\ n <= count * unit - l)%nat).
      { unfold n. destruct (Z.ltb_spec (Z.of_nat (C * unit - l)) (Z.of_nat (count * unit - l))); lia. }
      clearbody n. apply says_bind. apply says_bind. unfold psys_read. destruct n as [|n]; [lia|]. cbn [says]. intros got Hg.
      assert (Lt : (length got <= length tail)%nat) by (rewrite Em, app_length in Hm; fold l in Hm; lia).
      assert (Ew : wr m (length left) got = Ok (left ++ got ++ skipn (length got) tail)).
      { rewrite Em. replace (left ++ tail) with (left ++ firstn (length got) tail ++ skipn (length got) tail) by (rewrite firstn_skipn; reflexivity).
        apply wr_mid. rewrite firstn_length. lia. }
      fold l in Ew. rewrite Ew. cbn [lift pbind says fst snd].
      set (m1 := left ++ got ++ skipn (length got) tail). set (data := left ++ got).
      assert (Em1 : m1 = data ++ skipn (length got) tail) by (unfold m1, data; apply app_assoc).
      assert (Lm1 : length m1 = length m) by (unfold m1; rewrite Em, !app_length, skipn_length; lia).
      assert (Ld : length data = (length got + l)%nat) by (unfold data; rewrite app_length; lia).
      pose proof (bl_update _ _ _ _ L _ _ _ (length got) HR) as HR1. fold l in HR1. rewrite <- Ld in HR1.
      destruct (deliver_spec ops C unit R L HC Hu _ m1 data _ Em1 ltac:(lia) HR1) as (offs & b2 & m2 & Eo & Ex & Ec & HR2 & Lm2 & (tail2 & Em2)).
      set (e := (length data / unit)%nat) in *. set (l2 := (length data mod unit)%nat) in *.
      assert (Hel : length data = (e * unit + l2)%nat) by (apply div_split; exact Hu).
      assert (Hlu : (l2 < unit)%nat) by (apply Nat.mod_upper_bound; lia).
      assert (Hec : (e <= count)%nat) by nia.
      rewrite Eo. cbn [lift pbind]. rewrite Ex. cbn [lift pbind].
      set (xs := map _ (seq 0 e)) in *.
      assert (Lx : length xs = e) by (unfold xs; rewrite map_length, seq_length; reflexivity).
      assert (Fx : Forall (fun x => length x = unit) xs).
      { unfold xs. apply Forall_map. apply Forall_forall. intros i Hi. apply in_seq in Hi. rewrite firstn_length, skipn_length. nia. }
      destruct (fold_no_ub handle _ I Step xs count s ltac:(lia) Fx Hs) as [U Hs'].
      apply says_lift; [exact U|]. intros s' Es. rewrite Ec. cbn [lift pbind fst snd]. rewrite Lx.
      apply (IH b2 m2 (skipn (e * unit) data)).
      + rewrite skipn_length. replace (length data - e * unit)%nat with l2 by lia. exact HR2.
      + rewrite skipn_length. lia.
      + lia.
      + exact Hu2.
      + exists tail2. exact Em2.
      + lia.
      + rewrite <- Lx. apply Hs'. exact Es.
      + exact HQ.
  Qed.
End Loop.

Lemma says_take_each {C S} (c : C) mem size n (handle : S -> list Z -> res S) (I : nat -> S -> Prop) s (Q : S -> list (C * Z) -> Prop) words :
  length mem = BUFFER_SIZE -> (0 < size <= BUFFER_SIZE)%nat -> Z.of_nat n < 2 ^ 32 ->
  (forall n s x, I (Datatypes.S n) s -> length x = size -> handle s x <> UB /\ forall s', handle s x = Ok s' -> I n s') ->
  I n s -> (forall s', I 0%nat s' -> Q s' words) -> says (take_each c mem size n handle s) Q words.
Proof.
  intros Hm Hs Hn Step Hi HQ. assert (Hs2 : Z.of_nat size < 2 ^ 32) by (unfold BUFFER_SIZE in Hs; lia).
  assert (Hs0 : (0 < size)%nat) by lia. destruct (cap_facts BUFFER_SIZE size Hs) as [HC Hcu].
  apply (says_read_each lb_ops _ _ _ (lb_laws (BUFFER_SIZE / size) size) HC Hs0 c handle I Step) with (left := []);
    try assumption; try reflexivity; cbn [fst snd messages length].
  - exists mem. reflexivity.
  - rewrite Hm. exact Hcu.
Qed.
Lemma says_take_ciphers {C S} (c : C) mem size n (handle : S -> list Z -> res S) (I : nat -> S -> Prop) s (Q : S -> list (C * Z) -> Prop) words :
  length mem = BUFFER_SIZE -> (0 < size <= BUFFER_SIZE)%nat -> Z.of_nat n < 2 ^ 32 ->
  (forall n s x, I (Datatypes.S n) s -> length x = size -> handle s x <> UB /\ forall s', handle s x = Ok s' -> I n s') ->
  I n s -> (forall s', I 0%nat s' -> Q s' words) -> says (take_ciphers c mem size n handle s) Q words.
Proof.
  intros Hm Hs Hn Step Hi HQ. assert (Hs2 : Z.of_nat size < 2 ^ 32) by (unfold BUFFER_SIZE in Hs; lia).
  assert (Hs0 : (0 < size)%nat) by lia. destruct (cap_facts BUFFER_SIZE size Hs) as [HC Hcu].
  apply (says_read_each cl_ops _ _ _ (cl_laws (BUFFER_SIZE / size) size Hs0) HC Hs0 c handle I Step) with (left := []);
    try assumption; try reflexivity; cbn [fst snd ciphers length].
  - apply cl_make_rel. exact Hs0.
  - exists mem. reflexivity.
  - rewrite Hm. exact Hcu.
Qed.

(** ** What [says] means *)
Lemma says_talk {C A} (p p' : proc C A) out : talk p out p' -> forall Q words, says p Q words ->
  exists rest, words = out ++ rest /\ says p' Q rest.
Proof.
  intros T. induction T as [p|c bs k n out p Hn T IH|c n k got out p Hg T IH|block l k fs out p T IH]; intros Q words H.
  - exists words. auto.
  - cbn [says] in H. destruct H as (rest & -> & H). destruct (IH _ _ (H n Hn)) as (r & E & Hr). exists r. split; [|exact Hr].
    rewrite <- (firstn_skipn n bs) at 1. rewrite map_app, <- !app_assoc. f_equal. exact E.
  - cbn [says] in H. apply IH. apply H. exact Hg.
  - cbn [says] in H. apply IH. apply H.
Qed.

Lemma talk_app {C A} (p p' p'' : proc C A) o o' : talk p o p' -> talk p' o' p'' -> talk p (o ++ o') p''.
Proof.
  intros T. revert p'' o'. induction T; intros p'' o' T'; [exact T'| | |]; try rewrite <- app_assoc; econstructor; eauto.
Qed.
Lemma talk_relabel {C C' A} (f : C -> C') (p0 q : proc C' A) out : talk p0 out q -> forall p : proc C A, p0 = relabel f p ->
  exists q' out', q = relabel f q' /\ out = map (fun x => (f (fst x), snd x)) out' /\ talk p out' q'.
Proof.
  intros T. induction T as [p0|c bs k n out p0 Hn T IH|c n k got out p0 Hg T IH|block l k fs out p0 T IH]; intros p E.
  - exists p, []. repeat split; [exact E|constructor].
  - destruct p; try discriminate E. cbn in E. inversion E; subst. destruct (IH _ eq_refl) as (q' & o' & -> & -> & T').
    exists q', (map (pair c0) (firstn n bs0) ++ o'). split; [reflexivity|]. split; [rewrite map_app, map_map; reflexivity|constructor; assumption].
  - destruct p; try discriminate E. cbn in E. inversion E; subst. destruct (IH _ eq_refl) as (q' & o' & -> & -> & T').
    exists q', o'. split; [reflexivity|]. split; [reflexivity|econstructor; eassumption].
  - destruct p; try discriminate E. cbn in E. inversion E; subst. destruct (IH _ eq_refl) as (q' & o' & -> & -> & T').
    exists q', o'. split; [reflexivity|]. split; [reflexivity|econstructor; eassumption].
Qed.

(** ** Networks: a process of an execution talks *)
Lemma talk_step {C} (eqb : C -> C -> bool) cap (s s' : net C ending) q p : proc_step eqb cap s q s' ->
  exists out, talk (nt_proc s p) out (nt_proc s' p).
Proof.
  intros St. destruct St; cbn [nt_proc]; unfold set_proc; destruct (Nat.eqb_spec p q) as [->|]; try (exists []; constructor); rewrite H.
  - eexists. apply talk_write; [eassumption|constructor].
  - eexists. eapply talk_read; [|constructor]. lia.
  - eexists. eapply talk_poll. constructor.
Qed.
Lemma talk_crashes cap s s' p : reach (crash_step cap) s s' -> exists out, talk (nt_proc (cn_net s) p) out (nt_proc (cn_net s') p).
Proof.
  intros [n H]. induction H as [s|n s s1 s2 _ (o1 & T1) St]; [exists []; constructor|].
  assert (exists o2, talk (nt_proc (cn_net s1) p) o2 (nt_proc (cn_net s2) p)) as (o2 & T2).
  { destruct St; cbn [cn_net nt_proc]; try (exists []; constructor).
    - eapply talk_step; eassumption.
    - unfold set_proc. destruct (Nat.eqb_spec p p0) as [->|]; [|exists []; constructor]. rewrite H0. exists [].
      apply talk_read with (got := []); [cbn; lia|constructor]. }
  exists (o1 ++ o2). eapply talk_app; eassumption.
Qed.
Lemma talk_par_crashes N cap s s' p : reach (par_crash_step N cap) s s' -> exists out, talk (nt_proc (pn_net s) p) out (nt_proc (pn_net s') p).
Proof.
  intros [n H]. induction H as [s|n s s1 s2 _ (o1 & T1) St]; [exists []; constructor|].
  assert (exists o2, talk (nt_proc (pn_net s1) p) o2 (nt_proc (pn_net s2) p)) as (o2 & T2).
  { destruct St; cbn [pn_net nt_proc]; try (exists []; constructor).
    - eapply talk_step; eassumption.
    - unfold set_proc. destruct (Nat.eqb_spec p p0) as [->|]; [|exists []; constructor]. rewrite H0. exists [].
      apply talk_read with (got := []); [cbn; lia|constructor].
    - unfold set_proc. destruct (Nat.eqb_spec p p0) as [->|]; [|exists []; constructor]. rewrite H0. exists [].
      eapply talk_poll. constructor. }
  exists (o1 ++ o2). eapply talk_app; eassumption.
Qed.

(** ** The client *)
Lemma for_no_fail {A} (f : nat -> A -> res A) (I : A -> Prop) hi : (forall i a, (i < hi)%nat -> I a -> exists a', f i a = Ok a' /\ I a') ->
  forall n i a, (i + n <= hi)%nat -> I a -> exists a', for_ n i f a = Ok a' /\ I a'.
Proof.
  intros H. induction n as [|n IH]; intros i a Hi Ha; cbn [for_]; [exists a; auto|].
  destruct (H i a ltac:(lia) Ha) as (a1 & E & H1). rewrite E. cbn [bind]. apply IH; [lia|exact H1].
Qed.
Lemma rd_ok m o n : (o + n <= length m)%nat -> exists x, rd m o n = Ok x.
Proof. intros H. unfold rd. rewrite (proj2 (Nat.leb_le _ _) H). eexists. reflexivity. Qed.
Lemma wr_ok m o bs : (o + length bs <= length m)%nat -> exists x, wr m o bs = Ok x.
Proof. intros H. unfold wr. rewrite (proj2 (Nat.leb_le _ _) H). eexists. reflexivity. Qed.
Lemma xor_inplace_total a s : length a = 52%nat -> length s = 52%nat -> exists x, xor_inplace a s = Ok x /\ length x = 52%nat.
Proof.
  intros La Ls. assert (exists x, xor_inplace a s = Ok x) as (x & E).
  { unfold xor_inplace, xor_mem. rewrite La, Ls. change (52 / 4)%nat with 13%nat.
    destruct (for_no_fail (xor_body 0 52 0) (fun m => length m = 104%nat) 13) with (n := 13%nat) (i := 0%nat) (a := a ++ s) as (m & E & _).
    - intros i m Hi Lm. unfold xor_body. destruct (rd_ok m (0 + 4 * i) 4 ltac:(lia)) as (u & ->). cbn [bind].
      destruct (rd_ok m (52 + 4 * i) 4 ltac:(lia)) as (v & ->). cbn [bind].
      destruct (wr_ok m (0 + 4 * i) (le 4 (Z.lxor (of_le u) (of_le v)))) as (w & Ew); [rewrite length_le; lia|].
      exists w. split; [exact Ew|]. apply wr_length in Ew. lia.
    - lia.
    - rewrite app_length. lia.
    - rewrite E. eexists. reflexivity. }
  exists x. split; [exact E|]. rewrite <- La. eapply xor_inplace_length. exact E.
Qed.
Lemma sig_loop_total l r : forall n i, (i + n <= length l)%nat -> (i + n <= length r)%nat -> exists e, sig_loop l r n i = Ok e.
Proof.
  induction n as [|n IH]; intros i Hl Hr; cbn [sig_loop]; [eexists; reflexivity|].
  unfold get. destruct (nth_error l i) as [a|] eqn:E1; [|apply nth_error_None in E1; lia].
  destruct (nth_error r i) as [a'|] eqn:E2; [|apply nth_error_None in E2; lia]. cbn [bind].
  destruct (a =? a'); cbn [negb]; [apply IH; lia|eexists; reflexivity].
Qed.
Lemma response_eqb_total l r : length (r_sig l) = 48%nat -> length (r_sig r) = 48%nat -> exists e, response_eqb l r = Ok e.
Proof.
  intros L R. unfold response_eqb. destruct (negb _); [eexists; reflexivity|]. apply sig_loop_total; unfold SIG_SIZE; lia.
Qed.

Section Client.
  Context (asserts : bool) (mem : nat -> list Z) (Hmem : forall i, length (mem i) = BUFFER_SIZE).
  Context (db : list response) (Hdb : Forall wf_response db).

  Lemma says_client_online c st items m : client_ready st items -> Forall (ok_item (length db) m) items -> map it_key items = ct_keys c ->
    Z.of_nat (length (ct_keys c)) < 2 ^ 32 ->
    says (pclient_online asserts mem db c st)
      (fun l rest => rest = [] /\ length l = length (ct_keys c) /\
         (asserts = true -> map Some l = map (fun k => nth_error db (Z.to_nat k)) (ct_keys c)))
      (map (pair (Fwd 0)) (concat (map enc_query (map q_of items)))).
  Proof using All.
    intros Cr Oi Ek Hn. pose proof (client_queries_spec st items Cr) as Eq. rewrite Ek in Eq.
    unfold client_queries in Eq. apply bind_Ok in Eq as ([q0 s0] & Eq & E). cbn [fst snd] in E.
    pose proof (f_equal (fun r => match r with Ok x => fst x | _ => [] end) E) as Eq0. cbn beta iota delta [fst] in Eq0. subst q0.
    pose proof (f_equal (fun r => match r with Ok x => snd x | _ => st end) E) as Es0. cbn beta iota delta [snd] in Es0. clear E.
    apply queries_as_fold in Eq.
    destruct (fo_send_messages (X := unit) (est := established) (Fwd 0) (mem 1%nat) query_size (fun st key => let* q := make_query st key in Ok (enc_query (fst q), snd q))
      _ _ _ _ (Hmem 1%nat) (proj1 message_sizes) Eq (queries_len _)) as (w1 & w2 & e1 & e2 & F1 & F2 & Q). cbn [fst snd] in *.
    unfold pclient_online. rewrite Q, map_app. apply says_bind. eapply says_sending; [exact F1|]. cbn [fst snd].
    rewrite <- (app_nil_r (map _ e2)). apply says_bind. eapply says_sending; [exact F2|]. apply says_bind. rewrite Es0.
    set (st' := cs_finish (load_times (length items) st)).
    apply says_take_each with (I := fun n s => let '(keys, l, sc) := s in exists done, ct_keys c = done ++ keys /\ length keys = n /\
      sc = load_times (length done) st' /\ length l = length done /\
      (asserts = true -> map Some l = map (fun k => nth_error db (Z.to_nat k)) done)).
    - apply Hmem.
    - apply message_sizes.
    - exact Hn.
    - intros n [[keys l] sc] x (done & Ed & Ln & -> & Ll & Hl) Lx. destruct keys as [|k keys]; [discriminate Ln|].
      assert (Hk : exists it, nth_error items (length done) = Some it /\ it_key it = k).
      { rewrite Ed in Ek. pose proof (f_equal (fun x => nth_error x (length done)) Ek) as E. cbn beta in E.
        rewrite nth_error_map, nth_error_app2, Nat.sub_diag in E by lia. destruct (nth_error items (length done)) as [it|]; [|discriminate E].
        exists it. inversion E. auto. }
      destruct Hk as (it & Ni & <-). destruct (Cr _ _ Ni) as [_ Pm]. specialize (Pm (length items)). fold st' in Pm.
      assert (Oit : ok_item (length db) m it) by (rewrite Forall_forall in Oi; apply Oi; eapply nth_error_In; exact Ni).
      destruct Oit as (_ & Fs & _ & Bk).
      assert (Wx : bytes 52 (xor_all (map o_preshare (it_secrets it)))).
      { apply bytes_xor_all. apply Forall_map. eapply Forall_impl; [|exact Fs]. intros s ((_ & _ & _ & _ & W) & _). exact W. }
      unfold client_reconstruct. change (cs_load_next (load_times (length done) st')) with (load_times (S (length done)) st').
      rewrite Pm. cbn [bind]. unfold additive_reconstruct.
      destruct (xor_inplace_total x _ Lx (proj1 Wx)) as (y & -> & Ly). cbn [bind fst snd get nth_error tl].
      assert (Nd : nth_error db (Z.to_nat (it_key it)) = Some (nth (Z.to_nat (it_key it)) db db_zero)) by (apply nth_error_nth'; lia).
      unfold db_lookup, get. rewrite Nd. cbn [bind].
      assert (Wr : wf_response (nth (Z.to_nat (it_key it)) db db_zero)) by (rewrite Forall_forall in Hdb; apply Hdb; eapply nth_error_In; exact Nd).
      assert (Ls : length (r_sig (dec_response y)) = 48%nat) by (unfold dec_response; cbn [r_sig]; rewrite skipn_length; lia).
      assert (Ls2 : length (r_sig (nth (Z.to_nat (it_key it)) db db_zero)) = 48%nat) by (destruct Wr as [_ [L _]]; exact L).
      destruct (response_eqb_total _ _ Ls Ls2) as (e & Ee). rewrite Ee. cbn [bind].
      assert (Next : forall e0, e0 = true \/ asserts = false -> e = e0 ->
        exists done0, ct_keys c = done0 ++ keys /\ length keys = n /\ load_times (S (length done)) st' = load_times (length done0) st' /\
          length (l ++ [dec_response y]) = length done0 /\
          (asserts = true -> map Some (l ++ [dec_response y]) = map (fun k => nth_error db (Z.to_nat k)) done0)).
      { intros e0 He0 ->. exists (done ++ [it_key it]). rewrite <- app_assoc, !app_length, Nat.add_1_r. cbn [length app]. rewrite Nat.add_1_r.
        split; [exact Ed|]. split; [cbn in Ln; lia|]. split; [reflexivity|]. split; [lia|]. intros Ha. rewrite !map_app, Hl by exact Ha. f_equal.
        cbn [map]. rewrite Nd. f_equal. f_equal. destruct He0 as [-> | He0]; [|congruence]. apply response_eqb_true; assumption. }
      destruct asserts.
      + destruct e; cbn [assert_ bind]; split; try discriminate. intros s' E. inversion E; subst. apply (Next true); auto.
      + cbn [bind]. split; [discriminate|]. intros s' E. inversion E; subst. apply (Next e); auto.
    - exists []. cbn [app length map]. repeat split.
    - intros [[keys l] sc] (done & Ed & Ln & _ & Ll & Hl). cbn [says fst snd]. split; [reflexivity|].
      destruct keys; [|discriminate Ln]. rewrite app_nil_r in Ed. rewrite Ed. split; [exact Ll|exact Hl].
  Qed.

  Lemma says_client_offline b id parties c cs st (Q : cstate -> list (chan * Z) -> Prop) rest :
    client_offline b asserts id parties (ct_pkeys c) (ct_rand c) (length (ct_keys c)) = Ok (cs, st) ->
    sized (client_out_size parties) cs -> (0 < client_out_size parties <= BUFFER_SIZE)%nat -> Q st rest ->
    says (pclient_offline b asserts id mem parties c) Q
      (map (pair (Fwd 0)) (le 4 (Z.of_nat (length (ct_keys c)))) ++ map (pair (Fwd 0)) (concat cs) ++ rest).
  Proof using Hmem.
    unfold client_offline. intros E L Hs HQ. apply bind_Ok in E as (st0 & E0 & E).
    rewrite (for_as_fold (fun i st => client_make_secret id (Z.of_nat (length (ct_keys c))) parties (ct_rand c) st i)
      (fun i m => onion_encrypt b asserts (rn_coins (ct_rand c) i) (rn_junk1 (ct_rand c) i) (rn_junk2 (ct_rand c) i) m 0 parties (ct_pkeys c))) in E.
    destruct (fo_send_ciphers (X := unit) (est := established) (Fwd 0) (mem 0%nat) (client_out_size parties) (fun st i =>
      let* m := client_make_secret id (Z.of_nat (length (ct_keys c))) parties (ct_rand c) st i in
      let* x := onion_encrypt b asserts (rn_coins (ct_rand c) i) (rn_junk1 (ct_rand c) i) (rn_junk2 (ct_rand c) i)
                  (fst m) 0 parties (ct_pkeys c) in
      Ok (x, snd m)) _ _ _ _ (Hmem 0%nat) Hs E L) as (w1 & w2 & e1 & e2 & F1 & F2 & Eq).
    unfold pclient_offline. apply says_bind. eapply says_sending; [apply (fo_count (X := unit) (est := established))|].
    apply says_bind. apply says_wait. rewrite E0. cbn [lift pbind]. rewrite Eq, map_app, <- app_assoc.
    apply says_bind. eapply says_sending; [exact F1|]. cbn [snd]. apply says_bind. eapply says_sending; [exact F2|].
    apply says_bind. apply says_wait. exact HQ.
  Qed.

  Lemma says_client_simulate parties c st (Q : cstate -> list (chan * Z) -> Prop) rest :
    client_simulate parties (length (ct_keys c)) = Ok st -> Q st rest ->
    says (pclient_simulate asserts parties c) Q (map (pair (Fwd 0)) (le 4 (Z.of_nat (length (ct_keys c)))) ++ rest).
  Proof.
    intros E HQ. unfold pclient_simulate. rewrite E. cbn [lift pbind]. apply says_bind.
    eapply says_sending; [apply (fo_count (X := unit) (est := established))|]. apply says_bind. apply says_wait. exact HQ.
  Qed.
End Client.

Lemma says_connect j (Q : unit -> list (chan * Z) -> Prop) rest : Q tt rest -> says (pconnect j) Q ((Con j, 1) :: rest).
Proof.
  intros HQ. unfold pconnect, psys_read, psys_send. cbn [pbind says]. intros got _. exists rest. split; [reflexivity|].
  intros n Hn. cbn [length] in Hn. replace n with 1%nat by lia. exact HQ.
Qed.

(** ** Logs *)
Lemma logged_talk {S C A} (step : S -> S -> Prop) (view : S -> proc C A) s out s' :
  logged step view s out s' -> talk (view s) out (view s').
Proof.
  intros L. induction L as [s|s out s1 w s2 _ T _ M]; [constructor|]. eapply talk_app; [exact T|].
  destruct M; try (rewrite <- (app_nil_r (map _ _))); econstructor; eauto; constructor.
Qed.
Lemma logged_exists {S C A} (step : S -> S -> Prop) (view : S -> proc C A) s s' :
  (forall s1 s2, step s1 s2 -> exists w, move (view s1) w (view s2)) -> reach step s s' -> exists out, logged step view s out s'.
Proof.
  intros H [n R]. induction R as [s|n s s1 s2 _ (out & L) St]; [exists []; constructor|].
  destruct (H _ _ St) as (w & M). exists (out ++ w). econstructor; eassumption.
Qed.
Lemma move_step {C} (eqb : C -> C -> bool) cap (s s' : net C ending) q p : proc_step eqb cap s q s' ->
  exists w, move (nt_proc s p) w (nt_proc s' p).
Proof.
  intros St. destruct St; cbn [nt_proc]; unfold set_proc; destruct (Nat.eqb_spec p q) as [->|]; try (exists []; constructor); rewrite H.
  - eexists. apply move_write. eassumption.
  - eexists. apply move_read. lia.
  - eexists. apply move_poll.
Qed.
Lemma move_crash cap s s' p : crash_step cap s s' -> exists w, move (nt_proc (cn_net s) p) w (nt_proc (cn_net s') p).
Proof.
  intros St. destruct St; cbn [cn_net nt_proc]; try (exists []; constructor).
  - eapply move_step; eassumption.
  - unfold set_proc. destruct (Nat.eqb_spec p p0) as [->|]; [|exists []; constructor]. rewrite H0. exists [].
    apply move_read with (got := []). cbn. lia.
Qed.
Lemma move_par_crash N cap s s' p : par_crash_step N cap s s' -> exists w, move (nt_proc (pn_net s) p) w (nt_proc (pn_net s') p).
Proof.
  intros St. destruct St; cbn [pn_net nt_proc]; try (exists []; constructor).
  - eapply move_step; eassumption.
  - unfold set_proc. destruct (Nat.eqb_spec p p0) as [->|]; [|exists []; constructor]. rewrite H0. exists [].
    apply move_read with (got := []). cbn. lia.
  - unfold set_proc. destruct (Nat.eqb_spec p p0) as [->|]; [|exists []; constructor]. rewrite H0. exists [].
    eapply move_poll.
Qed.

(** ** The whole client *)
Lemma client_says b asserts offline online mem db keys id c : sound_client b db keys id c ->
  (forall i, length (mem i) = BUFFER_SIZE) -> (offline = true -> asserts = true) ->
  exists ciphers queries, client_makes b offline online id (length keys) c ciphers queries /\
    says (pclient b asserts offline online (Z.of_nat id) mem (length keys) db c)
      (fun e rest => rest = [] /\ exists l, e = ClientEnd l /\ length l = (if online then length (ct_keys c) else 0%nat) /\
         (online = true -> asserts = true -> map Some l = map (fun k => nth_error db (Z.to_nat k)) (ct_keys c)))
      (client_words (length (ct_keys c)) ciphers queries).
Proof.
  intros [[Hdb Hr] Fk Ht [H1 H255] Hb Ek G] Hmem Ha. set (n := length (ct_keys c)) in *.
  assert (Hn : Z.of_nat n < 2 ^ 32) by lia.
  assert (Off : exists items cs st, (if offline then client_offline b true (Z.of_nat id) (length keys) (ct_pkeys c) (ct_rand c) n = Ok (cs, st)
      else cs = [] /\ client_simulate (length keys) n = Ok st) /\
    client_ready st items /\ Forall (ok_item (length db) (length keys)) items /\ map it_key items = ct_keys c /\
    forall (Q : cstate -> list (chan * Z) -> Prop) rest, Q st rest -> says (if offline then pclient_offline b asserts (Z.of_nat id) mem (length keys) c else pclient_simulate asserts (length keys) c) Q
      (map (pair (Fwd 0)) (le 4 (Z.of_nat n)) ++ map (pair (Fwd 0)) (concat cs) ++ rest)).
  { destruct offline.
    - rewrite (Ha eq_refl). destruct (client_offline_at b (length db) keys id (ct_rand c) (ct_keys c) Hb H255 G Hr Fk Ht) as (cs & st & E & Op & Cr).
      exists (gen_items (length keys) (ct_rand c) (id * n) (ct_keys c)), cs, st. rewrite Ek. split; [exact E|]. split; [exact Cr|].
      split; [apply gen_items_ok; try assumption; unfold n; lia|]. split; [apply gen_keys|]. intros Q rest HQ.
      destruct (SharingProofs.c11 (length keys) 0) as (A1 & A2 & _); [lia|lia|]. rewrite A2 in A1.
      apply (says_client_offline true mem Hmem b (Z.of_nat id) (length keys) c cs st Q rest).
      + rewrite Ek. exact E.
      + rewrite A1. clear - Op. induction Op as [|x it cs its Ox _ IH]; constructor; [|exact IH].
        apply OnionProofs.peels_length in Ox. lia.
      + rewrite A1. unfold BUFFER_SIZE. lia.
      + exact HQ.
    - destruct (client_simulate_spec (length db) (length keys) (ct_keys c) Hr Fk) as (st & E & Cr).
      exists (map (sim_item (length keys)) (ct_keys c)), [], st. split; [split; [reflexivity|exact E]|]. split; [exact Cr|].
      split; [|split; [rewrite map_map; apply map_id|]].
      + apply Forall_map. eapply Forall_impl; [|exact Fk]. intros k Hk. apply sim_item_ok; assumption.
      + intros Q rest HQ. cbn [concat map app]. apply (says_client_simulate asserts (length keys) c st); assumption. }
  destruct Off as (items & cs & st & Eoff & Cr & Oi & Kk & Hoff).
  exists cs, (if online then map q_of items else []). split.
  { exists st. split; [exact Eoff|]. destruct online; [|reflexivity]. eexists. rewrite <- Kk. apply client_queries_spec. exact Cr. }
  unfold client_words. unfold pclient. apply says_bind. apply says_connect. rewrite !map_app. apply says_bind. apply Hoff.
  apply says_bind. destruct online.
  - eapply says_mono; [|apply (says_client_online asserts mem Hmem db Hdb c st items (length keys)); assumption].
    intros l rest (-> & Ll & Hl). cbn [says]. split; [reflexivity|]. exists l. auto.
  - cbn [says map concat]. split; [reflexivity|]. exists []. repeat split. discriminate.
Qed.
