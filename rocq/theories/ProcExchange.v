(** The sending and polling loop of a server, run one system call at a time,
    obeys the rules for an exchange: whatever the kernel does, it ends with every
    message handled. *)
From Verif Require Import Base BaseProofs Incremental Wire Onion Sizes CipherBatchProofs Stream StreamProofs Parallel Net Procs ProcProofs ProcChain ProcNet ParProcs.

(** ** Rules for programs *)
Section Rules.
  Context {C X : Type} (eqb : C -> C -> bool) (from to : C -> nat).
  Context (D : X -> C -> list Z) (gas : X -> nat -> nat) (B : nat) (small : X -> bool).
  Context (eqb_spec : forall a b, eqb a b = true <-> a = b) (eof : C -> bool) (p : nat).
  Notation gst := (@gst C X).
  Notation obeys := (obeys eqb from to D gas B small eof p).
  Notation upf := (upf eqb).

  Lemma upf_same {A} (f : C -> A) c a : upf f c a c = a.
  Proof using eqb_spec. unfold ProcNet.upf. rewrite (proj2 (eqb_spec c c) eq_refl). reflexivity. Qed.
  Lemma upf_other {A} (f : C -> A) c a d : d <> c -> upf f c a d = f d.
  Proof using eqb_spec. intros H. unfold ProcNet.upf. destruct (eqb d c) eqn:E; [apply eqb_spec in E; contradiction|reflexivity]. Qed.

  Lemma ob_lift_bind {A A'} (Q : A' -> gst -> Prop) (r : res A) a (f : A -> proc C A') s :
    r = Ok a -> obeys Q (f a) s -> obeys Q (pbind (lift r) f) s.
  Proof. intros -> H. exact H. Qed.
  Lemma ob_fold {A S} (I : list A -> S -> gst -> Prop) (f : S -> A -> proc C S) :
    (forall a l s st, I (a :: l) s st -> obeys (I l) (f s a) st) ->
    forall l s st, I l s st -> obeys (I []) (pfold f l s) st.
  Proof.
    intros H. induction l as [|a l IH]; intros s st HI; cbn [pfold]; [constructor; exact HI|].
    eapply ob_bind; [apply H; exact HI|]. intros s' st'. apply IH.
  Qed.
  Lemma ob_assoc {V Y A} (Q : A -> gst -> Prop) (pr : proc C V) (g : V -> proc C Y) (h : Y -> proc C A) s :
    obeys Q (pbind pr (fun x => pbind (g x) h)) s -> obeys Q (pbind (pbind pr g) h) s.
  Proof.
    revert s. induction pr as [a|w|c0 b0 k IH|c0 n0 k IH|b0 l0 k IH]; intros s H; cbn [pbind] in *; try exact H.
    - inversion H; subst; [eapply ob_write|eapply ob_bwrite]; eauto.
    - inversion H; subst; [eapply ob_read|eapply ob_bread|eapply ob_tread]; eauto using sv_assoc.
    - inversion H; subst; eapply ob_poll; eauto.
  Qed.

  (** Sending all of a region of memory inside an exchange. *)
  Lemma ob_send {Q : unit -> gst -> Prop} c m off size x R w hot l : (off + size <= length m)%nat ->
    forall fuel sent W u g, (sent <= size)%nat -> (size - sent <= fuel)%nat -> (size - sent <= g)%nat ->
    W c = firstn (size - sent) (skipn (off + sent) m) ++ w ->
    (small x = true \/ (u c + (size - sent) <= B)%nat \/ forall d, R d = []) ->
    (forall W' u' g', W' c = w -> (forall d, d <> c -> W' d = W d) -> (u' c <= u c + (size - sent))%nat -> (size = sent -> u' c = u c) ->
       (forall d, d <> c -> u' d = u d) -> (g - (size - sent) <= g')%nat ->
       Q tt (In x R W' u' hot g' l)) ->
    obeys Q (psend fuel c m off sent size) (In x R W u hot g l).
  Proof using eqb_spec.
    intros Hm. induction fuel as [|f IH]; intros sent W u g Hs Hf Hg HW Hu HQ; cbn [psend].
    - rewrite (proj2 (Nat.ltb_ge sent size)) by lia. constructor. apply HQ; auto; try lia.
      rewrite HW. replace (size - sent)%nat with 0%nat by lia. reflexivity.
    - destruct (Nat.ltb_spec sent size) as [Lt|Lt].
      2: { constructor. apply HQ; auto; try lia. rewrite HW. replace (size - sent)%nat with 0%nat by lia. reflexivity. }
      apply (ob_lift_bind _ _ (firstn (size - sent) (skipn (off + sent) m))).
      { unfold rd. rewrite (proj2 (Nat.leb_le _ _)) by lia. reflexivity. }
      set (bs := firstn (size - sent) (skipn (off + sent) m)) in *.
      assert (Lb : length bs = (size - sent)%nat) by (unfold bs; rewrite firstn_length, skipn_length; lia).
      assert (Hb : bs <> []) by (intros E; rewrite E in Lb; cbn in Lb; lia).
      unfold psys_send. destruct bs as [|b0 bs'] eqn:Ebs; [contradiction|]. rewrite <- Ebs in *. cbn [pbind].
      destruct g as [|g]; [lia|].
      eapply ob_bwrite; [apply see_refl|exact Hb|exact HW|rewrite Lb; exact Hu|]. intros n Hn.
      apply IH; try lia.
      + rewrite upf_same. f_equal. rewrite Lb in Hn. unfold bs.
        replace (size - sent)%nat with (n + (size - (sent + n)))%nat by lia. rewrite <- firstn_skipn_comm, skipn_skipn'. do 2 f_equal. lia.
      + rewrite upf_same. rewrite Lb in Hn. destruct Hu as [Hu|[Hu|Hu]]; [left; exact Hu|right; left; lia|right; right; exact Hu].
      + intros W' u' g' H1 H2 H3 H3' H4 H5. apply HQ; try lia.
        * exact H1.
        * intros d Hd. rewrite H2 by exact Hd. apply upf_other. exact Hd.
        * rewrite upf_same in H3. lia.
        * intros d Hd. rewrite H4 by exact Hd. apply upf_other. exact Hd.
  Qed.
End Rules.

(** ** A logical buffer that receives bytes *)
Section Deliver.
  Context {Bf : Type} (ops : bufops Bf) (K unit : nat) (RB : Bf -> nat -> nat -> Prop).
  Context (L : buf_laws ops K unit RB) (HK : (0 < K)%nat) (Hu : (0 < unit)%nat).

  (** The read buffer holds the bytes [left] of an incomplete message. *)
  Definition keeps (r : Bf * list Z) (left : list Z) : Prop :=
    RB (fst r) 0%nat (length left) /\ (length left < unit)%nat /\ (exists tail, snd r = left ++ tail) /\ (K * unit <= length (snd r))%nat.

  Lemma deliver_round r left msgs bs j : keeps r left -> sized unit msgs -> left ++ bs = concat msgs ->
    (j <= length bs)%nat -> (j <= K * unit - length left)%nat ->
    let got := firstn j bs in let b1 := bo_update ops (fst r) (length got) in
    exists m1 offs b2 m2 e left2, wr (snd r) (bo_tobuffer ops (fst r)) got = Ok m1 /\ bo_elems ops b1 = Ok offs /\
      map_res (fun o => rd m1 o (bo_unit ops b1)) offs = Ok (firstn e msgs) /\ bo_clear ops b1 m1 = Ok (m2, b2) /\
      keeps (b2, m2) left2 /\ (e <= length msgs)%nat /\ left2 ++ skipn j bs = concat (skipn e msgs).
  Proof using All.
    destruct r as [b m]. intros (HR & Hl & (tail & Em) & Hm) Hs Hd Hj HjC got b1. cbn [fst snd] in *.
    set (l := length left) in *. set (count := length msgs).
    assert (Hlen : length (concat msgs) = (count * unit)%nat) by (apply sized_concat; exact Hs).
    assert (Lbs : length bs = (count * unit - length left)%nat) by (apply (f_equal (@length Z)) in Hd; rewrite app_length, Hlen in Hd; lia).
    fold l in Lbs.
    assert (Lg : length got = j) by (unfold got; rewrite firstn_length; lia).
    assert (Lt : (length got <= length tail)%nat) by (rewrite Em, app_length in Hm; fold l in Hm; lia).
    set (m1 := left ++ got ++ skipn (length got) tail). set (data := left ++ got).
    assert (Em1 : m1 = data ++ skipn (length got) tail) by (unfold m1, data; apply app_assoc).
    assert (Lm1 : length m1 = length m) by (unfold m1; rewrite Em, !app_length, skipn_length; lia).
    assert (Ld : length data = (length got + l)%nat) by (unfold data; rewrite app_length; lia).
    pose proof (bl_update _ _ _ _ L _ _ _ (length got) HR) as HR1. fold l in HR1. rewrite <- Ld in HR1.
    destruct (deliver_spec ops K unit RB L HK Hu _ m1 data _ Em1 ltac:(lia) HR1) as (offs & b2 & m2 & Eo & Ex & Ec & HR2 & Lm2 & (tail2 & Em2)).
    set (e := (length data / unit)%nat) in *. set (l2 := (length data mod unit)%nat) in *.
    assert (Hel : length data = (e * unit + l2)%nat) by (apply div_split; exact Hu).
    assert (Hlu : (l2 < unit)%nat) by (apply Nat.mod_upper_bound; lia).
    assert (Hec : (e <= count)%nat) by nia.
    assert (Hda : data ++ skipn j bs = concat msgs) by (unfold data, got; rewrite <- app_assoc, firstn_skipn; exact Hd).
    assert (Hdata : data = concat (firstn e msgs) ++ skipn (e * unit) data).
    { rewrite <- (firstn_skipn (e * unit) data) at 1. f_equal.
      assert (firstn (e * unit) (data ++ skipn j bs) = firstn (e * unit) (concat msgs)) as X by (rewrite Hda; reflexivity).
      rewrite firstn_app in X. replace (e * unit - length data)%nat with 0%nat in X by lia. cbn in X. rewrite app_nil_r in X. rewrite X.
      rewrite <- (firstn_skipn e msgs) at 1. rewrite concat_app.
      assert (length (concat (firstn e msgs)) = (e * unit)%nat) as Lc.
      { rewrite (sized_concat unit) by (apply sized_firstn; exact Hs). rewrite firstn_length. unfold count in *. nia. }
      rewrite <- Lc. apply firstn_exact. }
    assert (Hchunks : map (fun i => firstn unit (skipn (i * unit) data)) (seq 0 e) = firstn e msgs).
    { pose proof (chunks_concat K unit HK Hu (firstn e msgs) (skipn (e * unit) data) (sized_firstn unit msgs e Hs)) as X.
      rewrite firstn_length in X. replace (Nat.min e (length msgs)) with e in X by (unfold count in *; lia).
      rewrite <- Hdata in X. exact X. }
    rewrite Hchunks in Ex.
    assert (Ll : length (skipn (e * unit) data) = l2) by (rewrite skipn_length; lia).
    exists m1, offs, b2, m2, e, (skipn (e * unit) data). split; [|split; [exact Eo|split; [exact Ex|split; [exact Ec|split; [|split; [exact Hec|]]]]]].
    - rewrite (bl_tobuffer _ _ _ _ L _ _ _ HR). fold l. rewrite Em.
      replace (left ++ tail) with (left ++ firstn (length got) tail ++ skipn (length got) tail) by (rewrite firstn_skipn; reflexivity).
      apply wr_mid. rewrite firstn_length. lia.
    - split; [cbn [fst]; rewrite Ll; exact HR2|]. split; [lia|]. split; [exists tail2; exact Em2|cbn [snd]; lia].
    - assert (Hcm : concat msgs = concat (firstn e msgs) ++ concat (skipn e msgs)) by (rewrite <- concat_app, firstn_skipn; reflexivity).
      rewrite Hdata, Hcm, <- app_assoc in Hda. apply app_inv_head in Hda. exact Hda.
  Qed.
End Deliver.

(** ** Sums over the siblings *)
Lemma sum_upd (l : list nat) (f g : nat -> nat) t : NoDup l -> List.In t l -> (forall u, List.In u l -> u <> t -> f u = g u) ->
  (list_sum (map f l) + g t = list_sum (map g l) + f t)%nat.
Proof.
  induction 1 as [|a l Ha Hl IH]; intros Ht E; [destruct Ht|]. cbn [map list_sum fold_right]. change (fold_right Nat.add 0%nat) with list_sum.
  destruct Ht as [->|Ht].
  - assert (map f l = map g l) as ->. { apply map_ext_in. intros u Hu. apply E; [right; exact Hu|]. intros ->. contradiction. }
    cbn. change (fold_right Nat.add 0%nat) with list_sum. lia.
  - specialize (IH Ht (fun u Hu => E u (or_intror Hu))). assert (a <> t) by (intros ->; contradiction).
    rewrite (E a) by (try (left; reflexivity); assumption). cbn. change (fold_right Nat.add 0%nat) with list_sum. lia.
Qed.
Lemma sum_le (l : list nat) (f g : nat -> nat) : (forall u, List.In u l -> (f u <= g u)%nat) -> (list_sum (map f l) <= list_sum (map g l))%nat.
Proof.
  induction l as [|a l IH]; intros E; [apply le_n|]. cbn. change (fold_right Nat.add 0%nat) with list_sum.
  specialize (IH (fun u Hu => E u (or_intror Hu))). specialize (E a (or_introl eq_refl)). lia.
Qed.
Lemma sum_in (l : list nat) (f : nat -> nat) t : List.In t l -> (f t <= list_sum (map f l))%nat.
Proof.
  induction l as [|a l IH]; intros []; cbn; change (fold_right Nat.add 0%nat) with list_sum; [subst; lia|]. specialize (IH H). lia.
Qed.
Lemma sum_zero (l : list nat) (f : nat -> nat) : list_sum (map f l) = 0%nat -> forall t, List.In t l -> f t = 0%nat.
Proof. intros E t Ht. pose proof (sum_in l f t Ht). lia. Qed.

Lemma sum_const0 (l : list nat) : list_sum (map (fun _ => 0%nat) l) = 0%nat.
Proof. induction l; cbn; auto. Qed.

Lemma filter_filter' {A} (f g : A -> bool) l : filter f (filter g l) = filter (fun a => g a && f a) l.
Proof. induction l as [|a l IH]; [reflexivity|]. cbn. destruct (g a); cbn; [destruct (f a)|]; rewrite IH; reflexivity. Qed.

Lemma sum_pos (l : list nat) (f : nat -> nat) : list_sum (map f l) <> 0%nat -> exists t, List.In t l /\ f t <> 0%nat.
Proof.
  induction l as [|a l IH]; [contradiction|]. cbn. change (fold_right Nat.add 0%nat) with list_sum. intros E.
  destruct (Nat.eq_dec (f a) 0) as [e|e]; [|exists a; auto]. destruct IH as (t & Ht & Hf); [lia|]. exists t. auto.
Qed.

Lemma in_siblings N self t : List.In t (siblings_of N self) <-> (t < N)%nat /\ t <> self.
Proof.
  unfold siblings_of. rewrite filter_In, in_seq, negb_true_iff, Nat.eqb_neq. lia.
Qed.
Lemma nodup_siblings N self : NoDup (siblings_of N self).
Proof. apply NoDup_filter, seq_NoDup. Qed.

Lemma outgoing_app {A} t (a b : list (nat * A)) : outgoing t (a ++ b) = outgoing t a ++ outgoing t b.
Proof. unfold outgoing. rewrite filter_app, map_app. reflexivity. Qed.
Lemma outgoing_tag {A} s t (l : list A) : outgoing t (map (fun x => (s, x)) l) = if (s =? t)%nat then l else [].
Proof.
  unfold outgoing. destruct (Nat.eqb_spec s t) as [->|Hn].
  - induction l as [|a l IH]; [reflexivity|]. cbn. rewrite Nat.eqb_refl. cbn. f_equal. exact IH.
  - induction l as [|a l IH]; [reflexivity|]. cbn. rewrite (proj2 (Nat.eqb_neq s t) Hn). exact IH.
Qed.

(** [next] turns the items into the messages [sent], item by item. *)
Inductive feeds {A M P} (next : P -> A -> res (list (nat * M) * P)) : P -> list A -> list (list (nat * M)) -> Prop :=
| fe_nil : forall p, feeds next p [] []
| fe_cons : forall p a ms p' l sent, next p a = Ok (ms, p') -> feeds next p' l sent -> feeds next p (a :: l) (ms :: sent).
Lemma feeds_length {A M P} (next : P -> A -> res (list (nat * M) * P)) p l sent : feeds next p l sent -> length sent = length l.
Proof. induction 1; cbn; congruence. Qed.

Section Exchange.
  Context {C X : Type} (eqb : C -> C -> bool) (from to : C -> nat).
  Context (D : X -> C -> list Z) (gas : X -> nat -> nat) (B : nat) (small : X -> bool).
  Context (eqb_spec : forall a b, eqb a b = true <-> a = b) (eof : C -> bool) (p : nat) (x : X) (l : list (act C Z X)).
  Context {A Bf M P H : Type} (ops : bufops Bf) (K unit : nat) (RB : Bf -> nat -> nat -> Prop).
  Context (L : buf_laws ops K unit RB) (HK : (0 < K)%nat) (Hu : (0 < unit)%nat) (HB : (K * unit <= B)%nat).
  Context (Hunit : Z.of_nat unit < 2 ^ 32).
  Context (N self : nat) (tx rx : nat -> C) (enc : M -> list Z) (dec : list Z -> M) (wants : list nat).
  Context (next : P -> A -> res (list (nat * M) * P)) (handle : H -> nat * M -> res H) (h0 : H).
  Notation sibs := (siblings_of N self).
  Notation gst := (@gst C X).
  Notation obeys := (obeys eqb from to D gas B small eof p).
  Notation R0 := (R0 to D). Notation W0 := (W0 from D).
  Context (Htx : forall t t', List.In t sibs -> List.In t' sibs -> tx t = tx t' -> t = t').
  Context (Hrx : forall t t', List.In t sibs -> List.In t' sibs -> rx t = rx t' -> t = t').
  (** Messages to be handled, by source; messages sent, by item. *)
  Context (str : nat -> list M) (sent : list (list (nat * M))).
  Context (HW0 : forall t, List.In t sibs -> W0 x p (tx t) = concat (map enc (outgoing t (concat sent)))).
  Context (HW1 : forall c, W0 x p c <> [] -> exists t, List.In t sibs /\ c = tx t).
  Context (HR0 : forall t, List.In t sibs -> R0 x p (rx t) = concat (map enc (str t))).
  Context (HR1 : forall c, R0 x p c <> [] -> exists t, List.In t sibs /\ c = rx t).
  Context (Hself : str self = outgoing self (concat sent)).
  Context (Hown : (self < N)%nat).
  Context (Hto : Forall (fun m => (fst m < N)%nat) (concat sent)).
  Context (Hwants : forall t, List.In t sibs -> get wants t = Ok (length (str t))).
  Context (Henc : Forall (fun m => length (enc (snd m)) = unit) (concat sent)).
  Context (Hdec : forall t, List.In t sibs -> Forall (fun m => length (enc m) = unit /\ dec (enc m) = m) (str t)).
  Context (Hone : Forall (fun ms => NoDup (map fst ms)) sent).
  Context (Hsum : Z.of_nat (list_sum (map (fun t => length (str t)) sibs)) < 2 ^ 32).
  Context (Post : H -> Prop).
  (** Whatever the order in which the messages are handled, that works. *)
  Context (Hrun : forall log, Forall (fun e => (fst e < N)%nat) log -> (forall s, (s < N)%nat -> outgoing s log = str s) ->
    exists h, fold_res handle log h0 = Ok h /\ Post h).

  Notation sap := (@sap Bf P H).
  Notation holds := (holds K unit RB).
  Notation keeps := (keeps K unit RB).

  (** What is handled so far can be completed. *)
  Definition partial (log : list (nat * M)) : Prop :=
    Forall (fun e => (fst e < N)%nat) log /\ forall s, (s < N)%nat -> exists rest, str s = outgoing s log ++ rest.
  Lemma partial_ok log : partial log -> exists h, fold_res handle log h0 = Ok h.
  Proof using All.
    intros [HN Hp].
    assert (Hc : forall n, (n <= N)%nat -> exists ext, Forall (fun e => (fst e < N)%nat) ext /\
      forall s, (s < N)%nat -> if (s <? n)%nat then str s = outgoing s (log ++ ext) else outgoing s ext = []).
    { induction n as [|n IH]; intros Hn.
      - exists []. split; [constructor|]. intros s Hs. reflexivity.
      - destruct (IH ltac:(lia)) as (ext & He & Hx). destruct (Hp n ltac:(lia)) as [rest Hrest].
        exists (ext ++ map (fun y => (n, y)) rest). split.
        + apply Forall_app. split; [exact He|]. apply Forall_map. apply Forall_forall. intros; cbn. lia.
        + intros s Hs. specialize (Hx s Hs). rewrite app_assoc, !outgoing_app, outgoing_tag.
          destruct (Nat.ltb_spec s n) as [L1|L1].
          * rewrite (proj2 (Nat.ltb_lt s (S n))) by lia. rewrite (proj2 (Nat.eqb_neq n s)) by lia. rewrite app_nil_r, <- outgoing_app. exact Hx.
          * destruct (Nat.eqb_spec n s) as [<-|Hns].
            -- rewrite (proj2 (Nat.ltb_lt n (S n))) by lia. rewrite Hx, app_nil_r. exact Hrest.
            -- rewrite (proj2 (Nat.ltb_ge s (S n))) by lia. rewrite Hx. reflexivity. }
    destruct (Hc N (le_n N)) as (ext & He & Hx). destruct (Hrun (log ++ ext)) as (h & Eh & _).
    - apply Forall_app. split; assumption.
    - intros s Hs. specialize (Hx s Hs). rewrite (proj2 (Nat.ltb_lt s N) Hs) in Hx. symmetry. exact Hx.
    - rewrite fold_res_app in Eh. apply bind_Ok in Eh as (h1 & E1 & _). exists h1. exact E1.
  Qed.

  (** ** The invariant *)
  Record xinv (log fut : list (nat * M)) (pend : nat -> list M) (s : sap) (R W : C -> list Z) : Prop := {
    xi_acc : fold_res handle log h0 = Ok (sp_acc s);
    xi_log : Forall (fun e => (fst e < N)%nat) log;
    xi_fut : exists past, concat sent = past ++ fut;
    xi_own : outgoing self log ++ outgoing self fut = str self;
    xi_got : forall t, List.In t sibs -> outgoing t log = firstn (sp_got s t) (str t) /\ (sp_got s t <= length (str t))%nat;
    xi_w : forall t, List.In t sibs -> holds (sp_w s t) (map enc (pend t)) /\
      W (tx t) = concat (map enc (pend t)) ++ concat (map enc (outgoing t fut));
    xi_w0 : forall c, W c <> [] -> exists t, List.In t sibs /\ c = tx t;
    xi_r : forall t, List.In t sibs -> exists left, keeps (sp_r s t) left /\
      left ++ R (rx t) = concat (map enc (skipn (sp_got s t) (str t)));
    xi_r0 : forall c, R c <> [] -> exists t, List.In t sibs /\ c = rx t;
    xi_left : sp_left s = Z.of_nat (list_sum (map (fun t => length (str t) - sp_got s t)%nat sibs));
    xi_watch : sp_watch s = filter (fun t => (sp_got s t <? length (str t))%nat) sibs
  }.
  Definition need (R W : C -> list Z) : nat := list_sum (map (fun t => length (W (tx t)) + 2 * length (R (rx t)))%nat sibs).
  Definition reads_left (R : C -> list Z) : nat := list_sum (map (fun t => length (R (rx t))) sibs).

  (** Bytes remain to be read from a sibling exactly if messages do. *)
  Lemma unread log fut pend s R W t : xinv log fut pend s R W -> List.In t sibs -> (sp_got s t < length (str t))%nat <-> R (rx t) <> [].
  Proof using All.
    intros I Ht. destruct (xi_r _ _ _ _ _ _ I t Ht) as (left & (_ & Hl & _) & E). destruct (xi_got _ _ _ _ _ _ I t Ht) as [_ Hg].
    apply (f_equal (@length Z)) in E. rewrite app_length, (sized_concat unit), map_length, skipn_length in E.
    2: { apply Forall_map. specialize (Hdec t Ht). rewrite Forall_forall in *. intros m Hm. apply Hdec. rewrite <- (firstn_skipn (sp_got s t) (str t)). apply in_or_app. right. exact Hm. }
    split.
    - intros Hlt HR. rewrite HR in E. cbn in E. nia.
    - intros HR. destruct (Nat.eq_dec (sp_got s t) (length (str t))) as [e|]; [|lia]. rewrite e, Nat.sub_diag in E. cbn in E.
      destruct (R (rx t)); [contradiction|cbn in E; lia].
  Qed.
  Lemma left_zero log fut pend s R W : xinv log fut pend s R W -> sp_left s = 0 <-> forall c, R c = [].
  Proof using All.
    intros I. rewrite (xi_left _ _ _ _ _ _ I). split.
    - intros E c. destruct (R c) as [|z r] eqn:Ec; [reflexivity|]. destruct (xi_r0 _ _ _ _ _ _ I c) as (t & Ht & ->); [congruence|].
      pose proof (sum_zero _ _ ltac:(apply Nat2Z.inj; exact E) t Ht) as Hz. cbn beta in Hz.
      assert (R (rx t) <> []) as HR by congruence. apply (unread _ _ _ _ _ _ _ I Ht) in HR. lia.
    - intros HR. assert (list_sum (map (fun t => length (str t) - sp_got s t)%nat sibs) = 0%nat) as ->; [|reflexivity].
      enough (Hle : (list_sum (map (fun t => length (str t) - sp_got s t)%nat sibs) <= list_sum (map (fun _ => 0%nat) sibs))%nat).
      { rewrite sum_const0 in Hle. lia. }
      apply sum_le. intros t Ht. destruct (Nat.lt_ge_cases (sp_got s t) (length (str t))) as [Hlt|]; [|lia].
      apply (unread _ _ _ _ _ _ _ I Ht) in Hlt. rewrite HR in Hlt. contradiction.
  Qed.

  Lemma need_at R W t : List.In t sibs -> (length (W (tx t)) + 2 * length (R (rx t)) <= need R W)%nat.
  Proof using All. intros Ht. apply (sum_in sibs (fun t => length (W (tx t)) + 2 * length (R (rx t)))%nat t Ht). Qed.
  Lemma need_w R W W' t : List.In t sibs -> (forall d, d <> tx t -> W' d = W d) ->
    (need R W' + length (W (tx t)) = need R W + length (W' (tx t)))%nat.
  Proof using All.
    intros Ht E. unfold need.
    pose proof (sum_upd sibs (fun t => length (W' (tx t)) + 2 * length (R (rx t)))%nat (fun t => length (W (tx t)) + 2 * length (R (rx t)))%nat t
      (nodup_siblings N self) Ht) as Q. cbn beta in Q. rewrite <- (Nat.add_cancel_r _ _ (2 * length (R (rx t)))). rewrite <- !Nat.add_assoc.
    assert (Hx : forall u, List.In u sibs -> u <> t -> (length (W' (tx u)) + 2 * length (R (rx u)))%nat = (length (W (tx u)) + 2 * length (R (rx u)))%nat).
    { intros u Hu' Hn. rewrite E; [reflexivity|]. intros Ee. apply Hn. apply Htx; assumption. }
    specialize (Q Hx). lia.
  Qed.
  Lemma need_r R W R' t : List.In t sibs -> (forall d, d <> rx t -> R' d = R d) ->
    (need R' W + 2 * length (R (rx t)) = need R W + 2 * length (R' (rx t)))%nat.
  Proof using All.
    intros Ht E. unfold need.
    pose proof (sum_upd sibs (fun t => length (W (tx t)) + 2 * length (R' (rx t)))%nat (fun t => length (W (tx t)) + 2 * length (R (rx t)))%nat t
      (nodup_siblings N self) Ht) as Q. cbn beta in Q.
    assert (Hx : forall u, List.In u sibs -> u <> t -> (length (W (tx u)) + 2 * length (R' (rx u)))%nat = (length (W (tx u)) + 2 * length (R (rx u)))%nat).
    { intros u Hu' Hn. rewrite E; [reflexivity|]. intros Ee. apply Hn. apply Hrx; assumption. }
    specialize (Q Hx). lia.
  Qed.

  (** Flushing a buffer. *)
  Lemma ob_flush {Q : Bf * list Z -> gst -> Prop} t b m pend tail R W u hot g w :
    RB b (length pend) 0%nat -> sized unit pend -> m = concat pend ++ tail -> W (tx t) = concat pend ++ w ->
    ((forall d, R d = []) \/ (u (tx t) + length pend * unit <= B)%nat) -> (length pend * unit <= g)%nat ->
    (forall b' W' u' g', RB b' 0%nat 0%nat -> W' (tx t) = w -> (forall d, d <> tx t -> W' d = W d) ->
       (u' (tx t) <= u (tx t) + length pend * unit)%nat -> (pend = [] -> u' (tx t) = u (tx t)) -> (forall d, d <> tx t -> u' d = u d) ->
       (g <= g' + length pend * unit)%nat -> Q (b', m) (In x R W' u' hot g' l)) ->
    obeys Q (pflush ops (tx t) (b, m)) (In x R W u hot g l).
  Proof using All.
    intros HR Hs Em HW Hb Hg HQ. unfold pflush. cbn [fst snd].
    rewrite (bl_bytes _ _ _ _ L _ _ _ HR), (bl_tobuffer _ _ _ _ L _ _ _ HR).
    pose proof (sized_concat _ _ Hs) as Lc.
    destruct (bl_clear _ _ _ _ L _ _ _ m HR) as (b2 & HR2 & Ec).
    assert (Ec' : bo_clear ops b m = Ok (m, b2)) by (rewrite Ec; destruct (0 <? length pend)%nat; reflexivity).
    eapply ob_bind with (Q := fun _ s => obeys Q (do r <- lift (bo_clear ops b m); Ret (snd r, fst r)) s).
    2: { intros _ s' Hs'. exact Hs'. }
    apply (ob_send eqb from to D gas B small eqb_spec eof p (tx t) m 0 (length pend * unit) x R w hot l).
    - rewrite Em, app_length. lia.
    - lia.
    - lia.
    - lia.
    - rewrite Nat.sub_0_r. cbn [Nat.add skipn]. rewrite Em at 1. rewrite <- Lc, firstn_exact. exact HW.
    - rewrite Nat.sub_0_r. destruct Hb; [right; right; assumption|right; left; assumption].
    - rewrite Nat.sub_0_r. intros W' u' g' H1 H2 H3 H3' H4 H5. eapply ob_lift_bind; [exact Ec'|]. cbn [fst snd]. constructor. apply HQ; try assumption.
      + intros E. apply H3'. rewrite E. reflexivity.
      + lia.
  Qed.

  Definition J (R : C -> list Z) (u : C -> nat) (pend : nat -> list M) (n : nat -> nat) : Prop :=
    (forall d, R d = []) \/ forall t, List.In t sibs -> u (tx t) = 0%nat \/ (length (pend t) < n t)%nat.
  Lemma J_mono R u pend n n' : J R u pend n -> (forall t, (n t <= n' t)%nat) -> J R u pend n'.
  Proof. intros [Hj|Hj] Hn; [left; exact Hj|right]. intros t Ht. destruct (Hj t Ht); [left; assumption|right; specialize (Hn t); lia]. Qed.

  Lemma fut_tail m fut : (exists past, concat sent = past ++ m :: fut) -> exists past, concat sent = past ++ fut.
  Proof. intros [past E]. exists (past ++ [m]). rewrite <- app_assoc. exact E. Qed.
  Lemma fut_facts m fut : (exists past, concat sent = past ++ m :: fut) -> (fst m < N)%nat /\ length (enc (snd m)) = unit.
  Proof using All.
    intros [past E]. rewrite E in Hto, Henc. apply Forall_app in Hto as [_ Hto']. apply Forall_app in Henc as [_ Henc'].
    inversion Hto'; inversion Henc'; subst; auto.
  Qed.

  (** One message: handled, buffered or sent. *)
  Lemma ob_put {Q : sap -> gst -> Prop} s m fut log pend R W u hot g n extra :
    xinv log (m :: fut) pend s R W -> J R u pend n -> ((forall d, R d = []) \/ (n (fst m) < K)%nat) -> (need R W + extra <= g)%nat ->
    (forall log' pend' s' W' u' g', xinv log' fut pend' s' R W' -> sp_next s' = sp_next s -> sp_left s' = sp_left s ->
       J R u' pend' (fupd n (fst m) (S (n (fst m)))) -> (need R W' + extra <= g')%nat -> Q s' (In x R W' u' hot g' l)) ->
    obeys Q (psap_put ops N self tx enc handle s m) (In x R W u hot g l).
  Proof using All.
    intros I HJ Hn Hg HQ. destruct (fut_facts _ _ (xi_fut _ _ _ _ _ _ I)) as [Hm Lm]. destruct m as [t y]. cbn [fst snd] in *.
    unfold psap_put. cbn [fst snd]. destruct (Nat.eqb_spec t self) as [->|Hts].
    - (* an own message *)
      assert (Hp : partial (log ++ [(self, y)])).
      { split; [apply Forall_app; split; [apply (xi_log _ _ _ _ _ _ I)|constructor; [exact Hm|constructor]]|].
        intros s0 Hs0. rewrite outgoing_app. cbn. destruct (Nat.eqb_spec self s0) as [<-|Hs1].
        - pose proof (xi_own _ _ _ _ _ _ I) as E. unfold outgoing at 2 in E. cbn in E. rewrite Nat.eqb_refl in E. cbn in E.
          exists (outgoing self fut). rewrite <- E, <- app_assoc. reflexivity.
        - destruct (xi_got _ _ _ _ _ _ I s0) as [E _]; [apply in_siblings; auto|]. cbn. rewrite app_nil_r, E. exists (skipn (sp_got s s0) (str s0)).
          symmetry. apply firstn_skipn. }
      destruct (partial_ok _ Hp) as (h & Eh). pose proof Eh as Eh'. rewrite fold_res_app, (xi_acc _ _ _ _ _ _ I) in Eh. cbn [bind fold_res] in Eh.
      destruct (handle (sp_acc s) (self, y)) as [h1| | |] eqn:E1; try discriminate. cbn [bind] in Eh. injection Eh as ->.
      eapply ob_lift_bind; [reflexivity|]. constructor. apply (HQ (log ++ [(self, y)]) pend); try assumption; try reflexivity.
      + destruct I. constructor; cbn [sp_acc sp_set_acc sp_got sp_w sp_r sp_left sp_watch]; try assumption.
        * apply Hp.
        * eapply fut_tail. eassumption.
        * rewrite outgoing_app, <- app_assoc. unfold outgoing at 2. cbn. rewrite Nat.eqb_refl. cbn.
          unfold outgoing at 2 in xi_own0. cbn in xi_own0. rewrite Nat.eqb_refl in xi_own0. exact xi_own0.
        * intros t0 Ht0. destruct (xi_got0 t0 Ht0) as [Eg1 Eg2]. split; [|exact Eg2]. rewrite outgoing_app. unfold outgoing at 2. cbn.
          apply in_siblings in Ht0 as [_ Ht0]. rewrite (proj2 (Nat.eqb_neq self t0)) by congruence. cbn. rewrite app_nil_r. exact Eg1.
        * intros t0 Ht0. destruct (xi_w1 t0 Ht0) as [Hw1 Hw2]. split; [exact Hw1|]. rewrite Hw2. f_equal. unfold outgoing at 1. cbn.
          apply in_siblings in Ht0 as [_ Ht0]. rewrite (proj2 (Nat.eqb_neq self t0)) by congruence. reflexivity.
      + apply (J_mono _ _ _ n); [exact HJ|]. intros t. unfold fupd. destruct (Nat.eqb_spec t self); [subst; lia|lia].
    - (* a message for a sibling *)
      rewrite (proj2 (Nat.ltb_lt t N) Hm). assert (Ht : List.In t sibs) by (apply in_siblings; auto).
      destruct (xi_w _ _ _ _ _ _ I t Ht) as [Hh HWt]. unfold outgoing at 1 in HWt. cbn in HWt. rewrite Nat.eqb_refl in HWt. cbn in HWt.
      change (map snd (filter (fun e : nat * M => (fst e =? t)%nat) fut)) with (outgoing t fut) in HWt.
      destruct (sp_w s t) as [b m] eqn:Ew. destruct Hh as (HRb & Hp & Hps & (tail & Em) & Hmm). cbn [fst snd] in *. unfold psend_msg. cbn [fst snd].
      set (pd := map enc (pend t)) in *. set (v := enc y) in *.
      destruct (bl_push _ _ _ _ L _ _ _ m v HRb) as (b1 & HRb1 & Ep).
      pose proof (sized_concat _ _ Hps) as Lc.
      assert (Lt : (unit <= length tail)%nat) by (rewrite Em, app_length in Hmm; nia).
      set (m1 := concat pd ++ v ++ skipn unit tail).
      assert (Ep1 : bo_push ops b m v = Ok (m1, b1)).
      { rewrite Ep, rd_Ok by lia. cbn [bind skipn]. rewrite firstn_all2 by lia.
        assert (Et : m = concat pd ++ firstn unit tail ++ skipn unit tail) by (rewrite firstn_skipn; exact Em).
        rewrite Et, <- Lc, wr_mid by (rewrite firstn_length; lia). reflexivity. }
      assert (Em1 : m1 = concat (pd ++ [v]) ++ skipn unit tail) by (unfold m1; rewrite concat_app; cbn [concat]; rewrite app_nil_r, app_assoc; reflexivity).
      assert (Lm1 : length m1 = length m) by (unfold m1; rewrite Em, !app_length, skipn_length; lia).
      assert (Hps1 : sized unit (pd ++ [v])) by (apply Forall_app; split; [exact Hps|constructor; [exact Lm|constructor]]).
      assert (Lp1 : length (pd ++ [v]) = S (length pd)) by (rewrite app_length; cbn; lia).
      assert (HRb1' : RB b1 (length (pd ++ [v])) 0%nat) by (rewrite Lp1; exact HRb1).
      assert (Fl : bo_full ops b1 = (S (length pd) =? K)%nat) by exact (bl_full _ _ _ _ L _ _ _ HRb1).
      assert (Lpd : length pd = length (pend t)) by apply map_length.
      assert (HWt' : W (tx t) = concat (pd ++ [v]) ++ concat (map enc (outgoing t fut))).
      { rewrite HWt. fold v. rewrite concat_app. cbn [concat]. rewrite app_nil_r, <- app_assoc. reflexivity. }
      assert (Hng : (length (W (tx t)) <= need R W)%nat) by (pose proof (need_at R W t Ht); lia).
      assert (Lall : length (concat (pd ++ [v])) = (length (pd ++ [v]) * unit)%nat) by (apply sized_concat; exact Hps1).
      assert (Lwt : length (W (tx t)) = (length (pd ++ [v]) * unit + length (concat (map enc (outgoing t fut))))%nat) by (rewrite HWt', app_length; lia).
      (* the invariant, whatever has been written *)
      assert (Fin : forall b' (W' : C -> list Z) pend', RB b' (length (pend' t)) 0%nat -> holds (b', m1) (map enc (pend' t)) ->
        (forall d, d <> tx t -> W' d = W d) -> W' (tx t) = concat (map enc (pend' t)) ++ concat (map enc (outgoing t fut)) ->
        (forall r, r <> t -> pend' r = pend r) -> xinv log fut pend' (sp_set_w s t (b', m1)) R W').
      { intros b' W' pend' _ Hh' HWo HWs Hpe. destruct I. constructor; cbn [sp_acc sp_set_w sp_got sp_w sp_r sp_left sp_watch]; try assumption.
        - eapply fut_tail. eassumption.
        - unfold outgoing at 2 in xi_own0. cbn in xi_own0. rewrite (proj2 (Nat.eqb_neq t self) Hts) in xi_own0. exact xi_own0.
        - intros r Hr. unfold fupd. destruct (Nat.eqb_spec r t) as [->|Hrt]; [split; [exact Hh'|exact HWs]|].
          destruct (xi_w1 r Hr) as [Hw1 Hw2]. rewrite Hpe by exact Hrt. split; [exact Hw1|].
          rewrite HWo by (intros Ee; apply Hrt; apply Htx; assumption). rewrite Hw2. f_equal. unfold outgoing at 1. cbn.
          rewrite (proj2 (Nat.eqb_neq t r)) by congruence. reflexivity.
        - intros c Hc. destruct (eqb c (tx t)) eqn:Ec; [apply eqb_spec in Ec; exists t; auto|].
          apply xi_w2. rewrite <- HWo; [exact Hc|]. intros Ee. subst c. rewrite (proj2 (eqb_spec _ _) eq_refl) in Ec. discriminate. }
      destruct (Nat.eqb_spec (S (length pd)) K) as [Ef|Ef].
      + (* the buffer is full *)
        eapply ob_bind with (Q := fun w' st => Q (sp_set_w s t w') st); [|intros w' st Hw'; constructor; exact Hw'].
        eapply ob_lift_bind; [exact Ep1|]. cbn [fst snd]. rewrite Fl.
        apply (ob_flush t b1 m1 (pd ++ [v]) (skipn unit tail) R W u hot g (concat (map enc (outgoing t fut)))).
        * exact HRb1'.
        * exact Hps1.
        * exact Em1.
        * exact HWt'.
        * destruct HJ as [HJ|HJ]; [left; exact HJ|]. destruct Hn as [Hn|Hn]; [left; exact Hn|right].
          rewrite Lp1, Ef. destruct (HJ t Ht) as [H0|H0]; [rewrite H0; lia|]. lia.
        * lia.
        * intros b' W' u' g' HRb' HW1' HWo Hu1 _ Huo Hg'. set (pend' := fupd pend t []).
          assert (Ept : pend' t = []) by (unfold pend', fupd; rewrite Nat.eqb_refl; reflexivity).
          apply (HQ log pend'); try reflexivity.
          -- apply Fin.
             ++ rewrite Ept. exact HRb'.
             ++ rewrite Ept. cbn [map]. split; [exact HRb'|]. split; [exact HK|]. split; [constructor|]. split; [exists m1; reflexivity|cbn [snd]; lia].
             ++ exact HWo.
             ++ rewrite Ept. exact HW1'.
             ++ intros r Hr. unfold pend', fupd. rewrite (proj2 (Nat.eqb_neq r t) Hr). reflexivity.
          -- destruct HJ as [HJ|HJ]; [left; exact HJ|right]. intros r Hr. unfold pend', fupd. destruct (Nat.eqb_spec r t) as [->|Hrt].
             ++ right. cbn. lia.
             ++ rewrite Huo by (intros Ee; apply Hrt; apply Htx; assumption). apply HJ. exact Hr.
          -- pose proof (need_w R W W' t Ht HWo) as Hnw. rewrite HW1' in Hnw. lia.
      + (* it is not *)
        eapply ob_bind with (Q := fun w' st => Q (sp_set_w s t w') st); [|intros w' st Hw'; constructor; exact Hw'].
        eapply ob_lift_bind; [exact Ep1|]. cbn [fst snd]. rewrite Fl. constructor.
        set (pend' := fupd pend t (pend t ++ [y])).
        assert (Ept : pend' t = pend t ++ [y]) by (unfold pend', fupd; rewrite Nat.eqb_refl; reflexivity).
        assert (Emt : map enc (pend' t) = pd ++ [v]) by (rewrite Ept, map_app; reflexivity).
        apply (HQ log pend'); try reflexivity.
        * apply Fin; rewrite ?Emt.
          -- rewrite Ept, app_length, <- Lpd. cbn. rewrite Nat.add_1_r. exact HRb1.
          -- split; [exact HRb1'|]. split; [lia|]. split; [exact Hps1|]. split; [exists (skipn unit tail); exact Em1|cbn [snd]; lia].
          -- reflexivity.
          -- exact HWt'.
          -- intros r Hr. unfold pend', fupd. rewrite (proj2 (Nat.eqb_neq r t) Hr). reflexivity.
        * destruct HJ as [HJ|HJ]; [left; exact HJ|right]. intros r Hr. unfold pend', fupd. destruct (Nat.eqb_spec r t) as [->|Hrt]; [|apply HJ; exact Hr].
          rewrite app_length. cbn. destruct (HJ t Ht) as [H0|H0]; [left; exact H0|right; lia].
        * exact Hg.
  Qed.

  (** One item. *)
  Lemma xinv_next log fut pend s R W p' : xinv log fut pend s R W -> xinv log fut pend (sp_set_next s p') R W.
  Proof. intros []. constructor; assumption. Qed.
  Lemma ob_item {Q : sap -> gst -> Prop} s a items ms rest log pend R W u hot g n0 extra :
    feeds next (sp_next s) (a :: items) (ms :: rest) -> NoDup (map fst ms) ->
    xinv log (ms ++ concat rest) pend s R W -> J R u pend (fun _ => n0) -> ((forall d, R d = []) \/ (n0 < K)%nat) -> (need R W + extra <= g)%nat ->
    (forall log' pend' s' W' u' g', feeds next (sp_next s') items rest -> xinv log' (concat rest) pend' s' R W' -> sp_left s' = sp_left s ->
       J R u' pend' (fun _ => S n0) -> (need R W' + extra <= g')%nat -> Q s' (In x R W' u' hot g' l)) ->
    obeys Q (psap_item ops N self tx enc next handle s a) (In x R W u hot g l).
  Proof using All.
    intros F Hnd I HJ Hn Hg HQ. inversion F as [|? ? ? p' ? ? En F']; subst. unfold psap_item.
    eapply ob_lift_bind; [exact En|]. cbn [fst snd].
    eapply ob_mono.
    - apply (ob_fold eqb from to D gas B small eof p (fun ms' s' st => exists log' pend' W' u' g', st = In x R W' u' hot g' l /\
        xinv log' (ms' ++ concat rest) pend' s' R W' /\ sp_next s' = p' /\ sp_left s' = sp_left s /\ NoDup (map fst ms') /\
        J R u' pend' (fun t => if List.in_dec Nat.eq_dec t (map fst ms') then n0 else S n0) /\ (need R W' + extra <= g')%nat)).
      + intros m ms' s1 st (log1 & pend1 & W1 & u1 & g1 & -> & I1 & E1 & E2 & Hnd1 & HJ1 & Hg1). inversion Hnd1 as [|? ? Hni Hnd2]; subst.
        eapply ob_put; [exact I1|exact HJ1| |exact Hg1|].
        * cbn beta. destruct (in_dec Nat.eq_dec (fst m) (map fst (m :: ms'))) as [_|Hx]; [exact Hn|exfalso; apply Hx; left; reflexivity].
        * cbn beta. intros log' pend' s' W' u' g' I' E1' E2' HJ' Hg'. exists log', pend', W', u', g'. split; [reflexivity|]. split; [exact I'|].
          split; [congruence|]. split; [congruence|]. split; [exact Hnd2|]. split; [|exact Hg'].
          eapply J_mono; [exact HJ'|]. intros t. cbn beta. unfold fupd.
          destruct (in_dec Nat.eq_dec (fst m) (map fst (m :: ms'))) as [_|Hx]; [|exfalso; apply Hx; left; reflexivity].
          destruct (Nat.eqb_spec t (fst m)) as [->|Htm].
          -- destruct (in_dec Nat.eq_dec (fst m) (map fst ms')) as [Hx|_]; [contradiction|lia].
          -- destruct (in_dec Nat.eq_dec t (map fst (m :: ms'))) as [Hx|Hx], (in_dec Nat.eq_dec t (map fst ms')) as [Hy|Hy]; try lia.
             exfalso. apply Hx. right. exact Hy.
      + exists log, pend, W, u, g. split; [reflexivity|]. split; [apply xinv_next; exact I|]. split; [reflexivity|]. split; [reflexivity|].
        split; [exact Hnd|]. split; [|exact Hg]. eapply J_mono; [exact HJ|]. intros t. destruct (in_dec _ _ _); lia.
    - intros s' st (log' & pend' & W' & u' & g' & -> & I' & E1 & E2 & _ & HJ' & Hg'). cbn [app] in I'.
      eapply HQ; [rewrite E1; exact F'|exact I'|exact E2| |exact Hg']. eapply J_mono; [exact HJ'|]. intros t. cbn. lia.
  Qed.

  (** A burst of items. *)
  Lemma ob_burst {Q : sap -> gst -> Prop} : forall items s sents later log pend R W u hot g n0 extra,
    feeds next (sp_next s) (items ++ later) sents -> Forall (fun ms => NoDup (map fst ms)) sents ->
    xinv log (concat sents) pend s R W -> J R u pend (fun _ => n0) -> ((forall d, R d = []) \/ (n0 + length items <= K)%nat) -> (need R W + extra <= g)%nat ->
    (forall log' pend' s' sents' W' u' g', feeds next (sp_next s') later sents' -> Forall (fun ms => NoDup (map fst ms)) sents' ->
       xinv log' (concat sents') pend' s' R W' -> sp_left s' = sp_left s ->
       J R u' pend' (fun _ => (n0 + length items)%nat) -> (need R W' + extra <= g')%nat -> Q s' (In x R W' u' hot g' l)) ->
    obeys Q (pfold (psap_item ops N self tx enc next handle) items s) (In x R W u hot g l).
  Proof using All.
    induction items as [|a items IH]; intros s sents later log pend R W u hot g n0 extra F Hnd I HJ Hn Hg HQ; cbn [pfold].
    - constructor. eapply HQ; try eassumption; [reflexivity|]. eapply J_mono; [exact HJ|]. intros; cbn; lia.
    - cbn [app] in F. inversion F as [|? ? ms p' ? rest En F']; subst. inversion Hnd as [|? ? Hnd1 Hnd2]; subst.
      eapply ob_bind with (Q := fun s' st => obeys Q (pfold (psap_item ops N self tx enc next handle) items s') st); [|intros s' st Hs'; exact Hs'].
      cbn [length] in Hn, HQ. cbn [concat] in I.
      eapply (ob_item s a (items ++ later)); [exact F|exact Hnd1|exact I|exact HJ|destruct Hn; [left; assumption|right; lia]|exact Hg|].
      intros log' pend' s' W' u' g' F'' I' E2 HJ' Hg'.
      eapply IH; [exact F''|exact Hnd2|exact I'|exact HJ'|destruct Hn; [left; assumption|right; lia]|exact Hg'|].
      intros log2 pend2 s2 sents2 W2 u2 g2 F2 Hnd3 I2 E3 HJ2 Hg2. eapply HQ; try eassumption; [congruence|].
      eapply J_mono; [exact HJ2|]. intros t. cbn beta. cbn [length]. lia.
  Qed.

  Lemma map_fst_tag (t : nat) (ms : list M) : Forall (fun e => (fst e < N)%nat) (map (fun y => (t, y)) ms) <-> (ms = [] \/ (t < N)%nat).
  Proof.
    split.
    - destruct ms; [auto|]. intros F. inversion F; subst. right. assumption.
    - intros [->|Ht]; [constructor|]. apply Forall_map, Forall_forall. intros; exact Ht.
  Qed.

  (** A connection may end before all has been read. *)
  Definition lax : Prop := exists t, List.In t sibs /\ eof (rx t) = true.
  Context (Hlax : lax -> forall t, List.In t sibs -> eof (rx t) = true).

  (** Reading from a sibling. *)
  Lemma ob_take {Q : bool * sap -> gst -> Prop} t s log fut pend R W u hot g :
    xinv log fut pend s R W -> List.In t sibs -> (sp_got s t < length (str t))%nat -> List.In (rx t) hot ->
    (forall log' s' R' g', xinv log' fut pend s' R' W -> sp_next s' = sp_next s -> (length (R' (rx t)) <= length (R (rx t)))%nat ->
       (length (R' (rx t)) < length (R (rx t)) /\ g' = g \/ lax /\ g' = S (S g))%nat ->
       (forall d, d <> rx t -> R' d = R d) -> (forall r, r <> t -> sp_got s' r = sp_got s r) ->
       Q (true, s') (In x R' W u (filter (fun d => negb (eqb d (rx t))) hot) g' l)) ->
    obeys Q (psap_take ops rx dec wants handle s t) (In x R W u hot (S g) l).
  Proof using All.
    intros I Ht Hlt Hhot HQ. unfold psap_take. eapply ob_lift_bind; [apply Hwants; exact Ht|].
    rewrite (proj2 (Nat.ltb_lt 0 _)) by lia.
    destruct (xi_r _ _ _ _ _ _ I t Ht) as (left & Hk & Ed). set (rem := (length (str t) - sp_got s t)%nat).
    set (ms := skipn (sp_got s t) (str t)) in *.
    assert (Lms : length ms = rem) by (unfold ms; apply skipn_length).
    assert (Hms : Forall (fun m => length (enc m) = unit /\ dec (enc m) = m) ms).
    { specialize (Hdec t Ht). rewrite Forall_forall in *. intros m Hm. apply Hdec. rewrite <- (firstn_skipn (sp_got s t) (str t)). apply in_or_app. right. exact Hm. }
    set (msgs := map enc ms) in *.
    assert (Hsz : sized unit msgs) by (apply Forall_map; eapply Forall_impl; [|exact Hms]; intros m []; assumption).
    assert (Hr32 : Z.of_nat rem < 2 ^ 32).
    { pose proof (sum_in sibs (fun t => length (str t)) t Ht). cbn beta in *. lia. }
    unfold pread_buf. apply ob_assoc.
    destruct Hk as (HRb & Hl & Htail & HmK). set (b := fst (sp_r s t)) in *. set (m := snd (sp_r s t)) in *.
    rewrite (bl_capacity _ _ _ _ L _ _ _ HRb), (bl_unit _ _ _ _ L _ _ _ HRb), (bl_leftover _ _ _ _ L _ _ _ HRb).
    set (lf := length left) in *.
    assert (Hcu : Z.of_nat (rem * unit) < 2 ^ 64) by (rewrite Nat2Z.inj_mul; nia).
    assert (Hlc : (lf < rem * unit)%nat) by (unfold rem; nia). assert (HlC : (lf < K * unit)%nat) by nia.
    assert (w64 (Z.of_nat (rem * unit) - Z.of_nat lf) = Z.of_nat (rem * unit - lf)) as ->
      by (rewrite w64_id by (unfold u64; lia); lia).
    set (n := Z.to_nat _).
    assert (Hn : (0 < n /\ n <= K * unit - lf /\ n <= rem * unit - lf)%nat).
    { unfold n. destruct (Z.ltb_spec (Z.of_nat (K * unit - lf)) (Z.of_nat (rem * unit - lf))); lia. }
    clearbody n.
    assert (LR : length (R (rx t)) = (rem * unit - lf)%nat).
    { apply (f_equal (@length Z)) in Ed. rewrite app_length, (sized_concat unit _ Hsz) in Ed. unfold msgs in Ed. rewrite map_length, Lms in Ed. fold lf in Ed. lia. }
    unfold psys_read. destruct n as [|n']; [lia|]. cbn [pbind].
    eapply (ob_tread _ _ _ _ _ _ _ _ _ _ _ _ _ _ _ _ _ _ _ g (S (S g))); [apply see_refl|exact Hhot|lia|]. intros j Hj Hj0.
    destruct (deliver_round ops K unit RB L HK Hu (sp_r s t) left msgs (R (rx t)) j) as (m1 & offs & b2 & m2 & e & left2 & E1 & E2 & E3 & E4 & Hk2 & He & Ed2).
    { split; [exact HRb|]. split; [exact Hl|]. split; [exact Htail|exact HmK]. }
    { exact Hsz. } { exact Ed. } { lia. } { fold lf. lia. }
    fold b in E1, E2, E3, E4. fold m in E1.
    apply ob_assoc. eapply ob_lift_bind; [exact E1|]. cbn [pbind fst snd].
    eapply ob_lift_bind; [exact E2|]. eapply ob_lift_bind; [exact E3|].
    assert (Exs : map (fun z => (t, dec z)) (firstn e msgs) = map (fun y => (t, y)) (firstn e ms)).
    { unfold msgs. rewrite firstn_map, map_map. apply map_ext_in. intros y Hy. f_equal. rewrite Forall_forall in Hms. apply Hms.
      rewrite <- (firstn_skipn e ms). apply in_or_app. left. exact Hy. }
    rewrite Exs.
    assert (Lme : length (firstn e ms) = e) by (rewrite firstn_length; unfold msgs in He; rewrite map_length in He; lia).
    assert (Lxs : length (firstn e msgs) = e) by (rewrite firstn_length; lia). rewrite Lxs.
    assert (HtN : (t < N)%nat) by (apply in_siblings in Ht; tauto). assert (Hts : t <> self) by (apply in_siblings in Ht; tauto).
    destruct (xi_got _ _ _ _ _ _ I t Ht) as [Eg Hg].
    assert (Eg' : outgoing t (log ++ map (fun y => (t, y)) (firstn e ms)) = firstn (sp_got s t + e) (str t)).
    { rewrite outgoing_app, outgoing_tag, Nat.eqb_refl, Eg. unfold ms. rewrite <- (firstn_skipn (sp_got s t) (str t)) at 3.
      rewrite firstn_app, (firstn_length_le (str t)), (firstn_all2 (firstn (sp_got s t) (str t))) by (rewrite ?firstn_length; lia).
      f_equal. f_equal. lia. }
    assert (Hp : partial (log ++ map (fun y => (t, y)) (firstn e ms))).
    { split; [apply Forall_app; split; [apply (xi_log _ _ _ _ _ _ I)|apply map_fst_tag; right; exact HtN]|].
      intros s0 Hs0. destruct (Nat.eq_dec s0 t) as [->|Hn0].
      - rewrite Eg'. exists (skipn (sp_got s t + e) (str t)). symmetry. apply firstn_skipn.
      - rewrite outgoing_app, outgoing_tag, (proj2 (Nat.eqb_neq t s0)) by congruence. rewrite app_nil_r.
        destruct (Nat.eq_dec s0 self) as [->|Hn1].
        + exists (outgoing self fut). symmetry. apply (xi_own _ _ _ _ _ _ I).
        + destruct (xi_got _ _ _ _ _ _ I s0) as [E _]; [apply in_siblings; auto|]. rewrite E. exists (skipn (sp_got s s0) (str s0)). symmetry. apply firstn_skipn. }
    destruct (partial_ok _ Hp) as (h & Eh). pose proof Eh as Eh'. rewrite fold_res_app, (xi_acc _ _ _ _ _ _ I) in Eh'. cbn [bind] in Eh'.
    eapply ob_lift_bind; [exact Eh'|]. eapply ob_lift_bind; [exact E4|]. cbn [fst snd].
    assert (Hte : (sp_got s t + e <= length (str t))%nat) by (unfold msgs in He; rewrite map_length in He; unfold rem in Lms; lia).
    constructor. eapply HQ; cbn [sp_next sp_got].
    - assert (Upf : forall d, d <> rx t -> upf eqb R (rx t) (skipn j (R (rx t))) d = R d) by (intros d Hd; apply upf_other; assumption).
      constructor; cbn [sp_acc sp_got sp_w sp_r sp_left sp_watch].
      + exact Eh.
      + apply Hp.
      + apply (xi_fut _ _ _ _ _ _ I).
      + rewrite outgoing_app, outgoing_tag, (proj2 (Nat.eqb_neq t self) Hts), app_nil_r. apply (xi_own _ _ _ _ _ _ I).
      + intros r Hr. unfold fupd. destruct (Nat.eqb_spec r t) as [->|Hrt]; [split; [exact Eg'|exact Hte]|].
        rewrite outgoing_app, outgoing_tag, (proj2 (Nat.eqb_neq t r)) by congruence. rewrite app_nil_r. apply (xi_got _ _ _ _ _ _ I r Hr).
      + apply (xi_w _ _ _ _ _ _ I).
      + apply (xi_w0 _ _ _ _ _ _ I).
      + intros r Hr. unfold fupd. destruct (Nat.eqb_spec r t) as [->|Hrt].
        * exists left2. split; [exact Hk2|]. rewrite upf_same by exact eqb_spec. rewrite Ed2. unfold msgs, ms. rewrite skipn_map, skipn_skipn'. do 3 f_equal. lia.
        * rewrite Upf by (intros Ee; apply Hrt; apply Hrx; assumption). apply (xi_r _ _ _ _ _ _ I r Hr).
      + intros c Hc. destruct (eqb c (rx t)) eqn:Ec; [apply eqb_spec in Ec; exists t; auto|].
        apply (xi_r0 _ _ _ _ _ _ I). rewrite <- Upf; [exact Hc|]. intros Ee. subst c. rewrite (proj2 (eqb_spec _ _) eq_refl) in Ec. discriminate.
      + rewrite (xi_left _ _ _ _ _ _ I).
        pose proof (sum_upd sibs (fun r => length (str r) - fupd (sp_got s) t (sp_got s t + e)%nat r)%nat (fun r => length (str r) - sp_got s r)%nat t
          (nodup_siblings N self) Ht) as Qs. cbn beta in Qs.
        assert (Hx : forall r, List.In r sibs -> r <> t -> (length (str r) - fupd (sp_got s) t (sp_got s t + e)%nat r)%nat = (length (str r) - sp_got s r)%nat).
        { intros r _ Hr. unfold fupd. rewrite (proj2 (Nat.eqb_neq r t) Hr). reflexivity. }
        specialize (Qs Hx). unfold fupd at 2 in Qs. rewrite Nat.eqb_refl in Qs.
        pose proof (sum_le sibs (fun r => length (str r) - sp_got s r)%nat (fun r => length (str r)) ltac:(intros; cbn beta; lia)) as Hle.
        rewrite w32_id; unfold u32; lia.
      + rewrite (xi_watch _ _ _ _ _ _ I). destruct (Nat.eqb_spec (sp_got s t + e) (length (str t))) as [Ee|Ee].
        * rewrite filter_filter'. apply filter_ext_in. intros r Hr. unfold fupd. destruct (Nat.eqb_spec r t) as [->|Hrt].
          -- rewrite Ee, Nat.ltb_irrefl. apply andb_false_r.
          -- cbn. apply andb_true_r.
        * apply filter_ext_in. intros r Hr. unfold fupd. destruct (Nat.eqb_spec r t) as [->|Hrt]; [|reflexivity].
          rewrite (proj2 (Nat.ltb_lt _ _) Hlt). symmetry. apply Nat.ltb_lt. lia.
    - reflexivity.
    - rewrite upf_same by exact eqb_spec. rewrite skipn_length. lia.
    - rewrite upf_same by exact eqb_spec. rewrite skipn_length. destruct (Nat.eqb_spec j 0) as [E0|E0]; [right|left].
      + split; [|reflexivity]. exists t. auto.
      + split; [lia|reflexivity].
    - intros d Hd. apply upf_other; assumption.
    - intros r Hr. unfold fupd. rewrite (proj2 (Nat.eqb_neq r t) Hr). reflexivity.
  Qed.

  Lemma combine_flags (ts : list nat) fs t : List.In t (map fst (filter snd (combine ts fs))) -> List.In t ts.
  Proof. intros Ht. apply in_map_iff in Ht as ([a f] & <- & Ha). apply filter_In in Ha as [Ha _]. eapply in_combine_l. exact Ha. Qed.
  Lemma flagged_map (ts : list nat) : forall fs, flagged (map rx ts) fs = map rx (map fst (filter snd (combine ts fs))).
  Proof.
    unfold flagged. induction ts as [|t ts IH]; intros [|f fs]; try reflexivity. cbn. destruct f; cbn; rewrite IH; reflexivity.
  Qed.
  Lemma nodup_flags (ts : list nat) : NoDup ts -> forall fs, NoDup (map fst (filter snd (combine ts fs))).
  Proof.
    induction 1 as [|t ts Ht _ IH]; intros [|f fs]; cbn; try constructor. destruct f; cbn; [|apply IH]. constructor; [|apply IH].
    intros Hx. apply Ht. eapply combine_flags. exact Hx.
  Qed.
  Lemma flags_exist (ts : list nat) : forall fs, length fs = length ts -> existsb (fun f => f) fs = true -> map fst (filter snd (combine ts fs)) <> [].
  Proof.
    induction ts as [|t ts IH]; intros [|f fs] Hl He; try discriminate. cbn in *. destruct f; cbn; [discriminate|]. apply IH; [lia|exact He].
  Qed.
  Lemma flags_none (ts : list nat) : forall fs, existsb (fun f => f) fs = false -> map fst (filter snd (combine ts fs)) = [].
  Proof.
    induction ts as [|t ts IH]; intros [|f fs] He; try reflexivity. cbn in *. apply orb_false_iff in He as [-> He]. cbn. apply IH. exact He.
  Qed.

  Lemma reads_step R R' t : List.In t sibs -> (length (R' (rx t)) < length (R (rx t)))%nat -> (forall d, d <> rx t -> R' d = R d) ->
    (reads_left R' < reads_left R)%nat /\ (forall W, need R' W + 2 <= need R W)%nat.
  Proof using All.
    intros Ht Hl Ho. split.
    - unfold reads_left. pose proof (sum_upd sibs (fun r => length (R' (rx r))) (fun r => length (R (rx r))) t (nodup_siblings N self) Ht) as Qs.
      cbn beta in Qs. assert (Hx : forall r, List.In r sibs -> r <> t -> length (R' (rx r)) = length (R (rx r))).
      { intros r Hr Hn. rewrite Ho; [reflexivity|]. intros Ee. apply Hn. apply Hrx; assumption. }
      specialize (Qs Hx). lia.
    - intros W. pose proof (need_r R W R' t Ht Ho). lia.
  Qed.

  Lemma reads_step' R R' t : List.In t sibs -> (length (R' (rx t)) <= length (R (rx t)))%nat -> (forall d, d <> rx t -> R' d = R d) ->
    (reads_left R' <= reads_left R)%nat /\ (forall W, need R' W <= need R W)%nat.
  Proof using All.
    intros Ht Hl Ho. split.
    - unfold reads_left. pose proof (sum_upd sibs (fun r => length (R' (rx r))) (fun r => length (R (rx r))) t (nodup_siblings N self) Ht) as Qs.
      cbn beta in Qs. assert (Hx : forall r, List.In r sibs -> r <> t -> length (R' (rx r)) = length (R (rx r))).
      { intros r Hr Hn. rewrite Ho; [reflexivity|]. intros Ee. apply Hn. apply Hrx; assumption. }
      specialize (Qs Hx). lia.
    - intros W. pose proof (need_r R W R' t Ht Ho). lia.
  Qed.

  (** A poll and the reads that follow. *)
  Lemma ob_round {Q : bool * sap -> gst -> Prop} block s log fut pend R W u hot g extra :
    xinv log fut pend s R W -> (exists c, R c <> []) -> (block = true -> forall c, W c = []) -> (need R W + extra <= g)%nat ->
    (forall log' s' R' u' hot' g', xinv log' fut pend s' R' W -> sp_next s' = sp_next s -> (reads_left R' <= reads_left R)%nat ->
       (lax \/ (reads_left R' < reads_left R)%nat) -> (need R' W + extra <= g')%nat -> Q (true, s') (In x R' W u' hot' g' l)) ->
    (block = false -> forall g', (need R W + extra <= S g')%nat -> Q (false, s) (In x R W (fun _ => 0%nat) [] g' l)) ->
    obeys Q (psap_round ops rx dec wants handle block s) (In x R W u hot g l).
  Proof using All.
    intros I (c0 & Hc0) Hb Hg Q1 Q2. unfold psap_round.
    assert (Hg1 : (2 <= need R W)%nat).
    { destruct (xi_r0 _ _ _ _ _ _ I c0 Hc0) as (t & Ht & ->). pose proof (need_at R W t Ht). destruct (R (rx t)); [contradiction|]. cbn in *. lia. }
    destruct g as [|g]; [lia|]. cbn [pbind].
    assert (Hcs : forall c, List.In c (map rx (sp_watch s)) <-> R c <> []).
    { intros c. rewrite (xi_watch _ _ _ _ _ _ I), in_map_iff. split.
      - intros (t & <- & Ht). apply filter_In in Ht as [Ht Hlt]. apply Nat.ltb_lt in Hlt. apply (unread _ _ _ _ _ _ _ I Ht). exact Hlt.
      - intros HR. destruct (xi_r0 _ _ _ _ _ _ I c HR) as (t & Ht & ->). exists t. split; [reflexivity|]. apply filter_In. split; [exact Ht|].
        apply Nat.ltb_lt. apply (unread _ _ _ _ _ _ _ I Ht). exact HR. }
    eapply ob_poll; [apply see_refl|exact Hcs| |].
    { intros Eb. split; [apply Hb; exact Eb|]. intros En. apply Hcs in Hc0. rewrite En in Hc0. exact Hc0. }
    intros fs Lfs Hfs. rewrite map_length in Lfs. rewrite flagged_map. set (fl := map fst (filter snd (combine (sp_watch s) fs))).
    destruct (existsb (fun f => f) fs) eqn:Ex.
    - (* something is readable *)
      assert (Hfl : fl <> []) by (apply flags_exist; assumption).
      assert (Hnd : NoDup fl) by (apply nodup_flags; rewrite (xi_watch _ _ _ _ _ _ I); apply NoDup_filter, nodup_siblings).
      assert (Hsub : forall t, List.In t fl -> List.In t sibs /\ (sp_got s t < length (str t))%nat).
      { intros t Ht. apply combine_flags in Ht. rewrite (xi_watch _ _ _ _ _ _ I) in Ht. apply filter_In in Ht as [Ht Hlt]. split; [exact Ht|]. apply Nat.ltb_lt. exact Hlt. }
      clearbody fl. clear Lfs Hfs Ex fs.
      eapply ob_mono.
      + apply (ob_fold eqb from to D gas B small eof p (fun ts (r : bool * sap) st => exists log' R' u' hot' g', st = In x R' W u' hot' g' l /\
          xinv log' fut pend (snd r) R' W /\ sp_next (snd r) = sp_next s /\ NoDup ts /\
          (forall t, List.In t ts -> List.In t sibs /\ (sp_got (snd r) t < length (str t))%nat /\ List.In (rx t) hot') /\
          (if fst r then (reads_left R' <= reads_left R)%nat /\ (lax \/ (reads_left R' < reads_left R)%nat) /\ (need R' W + extra <= g')%nat else R' = R /\ (need R W + extra <= S g')%nat /\ ts <> []))).
        * intros t ts r st (log1 & R1 & u1 & hot1 & g1 & -> & I1 & E1 & Hnd1 & Ht1 & Hr1). inversion Hnd1 as [|? ? Hni Hnd2]; subst.
          destruct (Ht1 t (or_introl eq_refl)) as (Hts & Hlt & Hhot).
          assert (Hneed : (2 <= need R1 W)%nat).
          { apply (unread _ _ _ _ _ _ _ I1 Hts) in Hlt. pose proof (need_at R1 W t Hts). destruct (R1 (rx t)); [contradiction|]. cbn in *. lia. }
          destruct g1 as [|g1]. { destruct (fst r); [destruct Hr1 as (_ & _ & Hr1); lia|]. destruct Hr1 as (-> & Hr1 & _). lia. }
          eapply ob_bind with (Q := fun (r' : bool * sap) st => fst r' = true /\ exists log' R' u' hot' g', st = In x R' W u' hot' g' l /\
            xinv log' fut pend (snd r') R' W /\ sp_next (snd r') = sp_next s /\
            (forall t, List.In t ts -> List.In t sibs /\ (sp_got (snd r') t < length (str t))%nat /\ List.In (rx t) hot') /\
            (reads_left R' <= reads_left R)%nat /\ (lax \/ (reads_left R' < reads_left R)%nat) /\ (need R' W + extra <= g')%nat).
          -- eapply ob_take; [exact I1|exact Hts|exact Hlt|exact Hhot|]. intros log' s' R' g2 I' E' Hl0 Hl' Ho' Hg'. split; [reflexivity|].
             exists log', R', u1, (filter (fun d => negb (eqb d (rx t))) hot1), g2. split; [reflexivity|]. cbn [snd]. split; [exact I'|]. split; [congruence|].
             destruct (reads_step' R1 R' t Hts Hl0 Ho') as [Hs1 Hs2]. specialize (Hs2 W). split.
             ++ intros r' Hr'. destruct (Ht1 r' (or_intror Hr')) as (Ha & Hb' & Hc). split; [exact Ha|]. assert (r' <> t) by (intros ->; contradiction).
                rewrite Hg' by assumption. split; [exact Hb'|]. apply filter_In. split; [exact Hc|]. apply negb_true_iff.
                destruct (eqb (rx r') (rx t)) eqn:Ee; [|reflexivity]. apply eqb_spec in Ee. exfalso. apply H0. apply Hrx; assumption.
             ++ destruct Hl' as [[Hl' ->]|[Hl' ->]].
                ** destruct (reads_step R1 R' t Hts Hl' Ho') as [Hs3 Hs4]. specialize (Hs4 W).
                   destruct (fst r); [destruct Hr1 as (Hr1 & Hr2 & Hr3)|destruct Hr1 as (-> & Hr1 & _)]; (split; [lia|]); (split; [right; lia|lia]).
                ** destruct (fst r); [destruct Hr1 as (Hr1 & Hr2 & Hr3)|destruct Hr1 as (-> & Hr1 & _)]; (split; [lia|]); (split; [left; exact Hl'|lia]).
          -- intros [f s2] st (Ef & log' & R' & u' & hot' & g' & -> & I' & E' & Ht' & Hr' & Hrl & Hg'). cbn [fst snd] in *. subst f. constructor.
             exists log', R', u', hot', g'. cbn [fst snd]. split; [reflexivity|]. split; [exact I'|]. split; [exact E'|]. split; [exact Hnd2|]. split; [exact Ht'|].
             rewrite orb_true_r. auto.
        * exists log, R, u, (map rx fl), g. cbn [fst snd]. split; [reflexivity|]. split; [exact I|]. split; [reflexivity|]. split; [exact Hnd|]. split.
          -- intros t Ht. destruct (Hsub t Ht) as [Ha Hb']. split; [exact Ha|]. split; [exact Hb'|]. apply in_map. exact Ht.
          -- split; [reflexivity|]. split; [lia|exact Hfl].
      + intros [f s'] st (log' & R' & u' & hot' & g' & -> & I' & E' & _ & _ & Hr'). cbn [fst snd] in *. destruct f; [|destruct Hr' as (_ & _ & Hx); contradiction].
        destruct Hr' as (Ha & Hb' & Hc'). eapply Q1; eassumption.
    - (* nothing is *)
      assert (block = false) as Eb.
      { destruct block; [|reflexivity]. specialize (Hfs eq_refl). exfalso. assert (existsb (fun f => f) fs = true) by (apply existsb_exists; exists true; auto). congruence. }
      unfold fl. rewrite flags_none by exact Ex. cbn [map pfold]. constructor. apply Q2; [exact Eb|lia].
  Qed.

  Lemma some_left log fut pend s R W : xinv log fut pend s R W -> sp_left s <> 0 -> exists c, R c <> [].
  Proof using All.
    intros I Hl. rewrite (xi_left _ _ _ _ _ _ I) in Hl. destruct (sum_pos sibs (fun t => length (str t) - sp_got s t)%nat) as (t & Ht & Hp); [lia|].
    exists (rx t). apply (unread _ _ _ _ _ _ _ I Ht). lia.
  Qed.
  Lemma left_pos log fut pend s R W : xinv log fut pend s R W -> (0 <? sp_left s) = negb (sp_left s =? 0).
  Proof using All. intros I. rewrite (xi_left _ _ _ _ _ _ I). destruct (Z.ltb_spec 0 (Z.of_nat (list_sum (map (fun t => length (str t) - sp_got s t)%nat sibs)))); destruct (Z.eqb_spec (Z.of_nat (list_sum (map (fun t => length (str t) - sp_got s t)%nat sibs))) 0); cbn; lia. Qed.
  Lemma reads_pos R c : (exists t, List.In t sibs /\ c = rx t) -> R c <> [] -> (0 < reads_left R)%nat.
  Proof using All. intros (t & Ht & ->) Hc. pose proof (sum_in sibs (fun t => length (R (rx t))) t Ht) as Hs. cbn beta in Hs. unfold reads_left. destruct (R (rx t)); [contradiction|]. cbn in Hs. lia. Qed.

  Lemma ob_drain {Q : sap -> gst -> Prop} : forall fuel s log fut pend R W u hot g extra,
    xinv log fut pend s R W -> sp_left s <> 0 -> (lax \/ (reads_left R <= fuel)%nat) -> (need R W + S extra <= g)%nat ->
    (forall log' s' R' u' hot' g', xinv log' fut pend s' R' W -> sp_next s' = sp_next s -> J R' u' pend (fun _ => 0%nat) ->
       (reads_left R' <= reads_left R)%nat -> (need R' W + extra <= g')%nat -> Q s' (In x R' W u' hot' g' l)) ->
    obeys Q (psap_drain ops rx dec wants handle fuel s) (In x R W u hot g l).
  Proof using All.
    induction fuel as [|f IH]; intros s log fut pend R W u hot g extra I Hl Hf Hg HQ; cbn [psap_drain];
      pose proof (some_left _ _ _ _ _ _ I Hl) as Hne.
    - eapply ob_bind with (Q := fun r st => obeys Q (if fst r && (0 <? sp_left (snd r)) then Crash Spinning else Ret (snd r)) st);
        [|intros r st Hr; exact Hr].
      eapply (ob_round false); [exact I|exact Hne|discriminate|exact Hg| |].
      + intros log' s' R' u' hot' g' I' E' Hr0 Hr' Hg'. cbn [fst snd andb]. rewrite (left_pos _ _ _ _ _ _ I'). destruct (Z.eqb_spec (sp_left s') 0) as [E0|E0]; cbn [negb].
        * constructor. eapply HQ; [exact I'|exact E'| |lia|lia]. left. apply (left_zero _ _ _ _ _ _ I'). exact E0.
        * destruct (some_left _ _ _ _ _ _ I' E0) as (c & Hc). destruct (xi_r0 _ _ _ _ _ _ I' c Hc) as (t & Ht & ->).
          assert (La : lax). { destruct Hr' as [La|Hr']; [exact La|]. destruct Hf as [La|Hf]; [exact La|lia]. }
          eapply ob_spin; [exact (Hlax La t Ht)|apply see_refl|exact Hc].
      + intros _ g' Hg'. cbn [fst snd andb]. constructor. eapply HQ; [exact I|reflexivity| |lia|lia]. right. auto.
    - eapply ob_bind with (Q := fun r st => obeys Q (if fst r && (0 <? sp_left (snd r)) then psap_drain ops rx dec wants handle f (snd r) else Ret (snd r)) st);
        [|intros r st Hr; exact Hr].
      eapply (ob_round false); [exact I|exact Hne|discriminate|exact Hg| |].
      + intros log' s' R' u' hot' g' I' E' Hr0 Hr' Hg'. cbn [fst snd andb]. rewrite (left_pos _ _ _ _ _ _ I'). destruct (Z.eqb_spec (sp_left s') 0) as [E0|E0]; cbn [negb].
        * constructor. eapply HQ; [exact I'|exact E'| |lia|lia]. left. apply (left_zero _ _ _ _ _ _ I'). exact E0.
        * eapply IH; [exact I'|exact E0|destruct Hf as [Hf|Hf]; [left; exact Hf|destruct Hr' as [Hr'|Hr']; [left; exact Hr'|right; lia]]|exact Hg'|].
          intros log2 s2 R2 u2 hot2 g2 I2 E2 HJ2 Hr2 Hg2. eapply HQ; try eassumption; [congruence|lia].
      + intros _ g' Hg'. cbn [fst snd andb]. constructor. eapply HQ; [exact I|reflexivity| |lia|lia]. right. auto.
  Qed.

  Lemma ob_bursts {Q : sap -> gst -> Prop} dfuel : forall fuel items s sents log pend R W u hot g,
    feeds next (sp_next s) items sents -> Forall (fun ms => NoDup (map fst ms)) sents ->
    xinv log (concat sents) pend s R W -> J R u pend (fun _ => 0%nat) -> (length items <= fuel)%nat -> (lax \/ (reads_left R <= dfuel)%nat) ->
    (need R W + length items <= g)%nat ->
    (forall log' pend' s' R' W' u' hot' g', xinv log' [] pend' s' R' W' -> J R' u' pend' (fun _ => 0%nat) ->
       (reads_left R' <= reads_left R)%nat -> (need R' W' <= g')%nat -> Q s' (In x R' W' u' hot' g' l)) ->
    obeys Q (psap_bursts ops N self tx rx enc dec wants next handle fuel dfuel K items s) (In x R W u hot g l).
  Proof using All.
    induction fuel as [|f IH]; intros items s sents log pend R W u hot g F Hnd I HJ Hf Hd Hg HQ.
    - destruct items; [|cbn in Hf; lia]. cbn [psap_bursts]. constructor. inversion F; subst. eapply HQ; [exact I|exact HJ|lia|cbn in Hg; lia].
    - destruct items as [|a items0] eqn:Ei; [cbn [psap_bursts]; constructor; inversion F; subst; eapply HQ; [exact I|exact HJ|lia|cbn in Hg; lia]|].
      rewrite <- Ei in *. cbn [psap_bursts]. destruct items as [|a' i'] eqn:Ei2; [discriminate|]. rewrite <- Ei2 in *. clear Ei.
      assert (Hpos : (0 < length items)%nat) by (rewrite Ei2; cbn; lia).
      set (n := if sp_left s =? 0 then length items else K).
      assert (Hn1 : (1 <= n)%nat) by (unfold n; destruct (sp_left s =? 0); lia).
      assert (Hlen : (length (skipn n items) < length items)%nat) by (rewrite skipn_length; lia).
      assert (HRn : (forall d, R d = []) \/ (0 + length (firstn n items) <= K)%nat).
      { unfold n. destruct (Z.eqb_spec (sp_left s) 0) as [E0|E0]; [left; apply (left_zero _ _ _ _ _ _ I); exact E0|right]. rewrite firstn_length. lia. }
      eapply ob_bind with (Q := fun s1 st => obeys Q (do s2 <- (if sp_left s1 =? 0 then Ret s1 else psap_drain ops rx dec wants handle dfuel s1);
        psap_bursts ops N self tx rx enc dec wants next handle f dfuel K (skipn n items) s2) st); [|intros s1 st Hs1; exact Hs1].
      eapply (ob_burst (firstn n items) s sents (skipn n items)); [rewrite firstn_skipn; exact F|exact Hnd|exact I|exact HJ|exact HRn|exact Hg|].
      intros log1 pend1 s1 sents1 W1 u1 g1 F1 Hnd1 I1 El1 HJ1 Hg1.
      destruct (Z.eqb_spec (sp_left s1) 0) as [E0|E0].
      + cbn [pbind]. pose proof (proj1 (left_zero _ _ _ _ _ _ I1) E0) as HR. eapply IH; [exact F1|exact Hnd1|exact I1|left; exact HR|lia|exact Hd|lia|exact HQ].
      + eapply ob_bind with (Q := fun s2 st => obeys Q (psap_bursts ops N self tx rx enc dec wants next handle f dfuel K (skipn n items) s2) st); [|intros s2 st Hs2; exact Hs2].
        eapply (ob_drain _ _ _ _ _ _ _ _ _ _ (length (skipn n items))); [exact I1|exact E0|exact Hd|lia|].
        intros log2 s2 R2 u2 hot2 g2 I2 E2 HJ2 Hr2 Hg2. eapply IH; [rewrite E2; exact F1|exact Hnd1|exact I2|exact HJ2|lia|destruct Hd; [left; assumption|right; lia]|lia|].
        intros log3 pend3 s3 R3 W3 u3 hot3 g3 I3 HJ3 Hr3 Hg3. eapply HQ; [exact I3|exact HJ3|lia|exact Hg3].
  Qed.

  Lemma ob_flushes {Q : sap -> gst -> Prop} s log pend R W u hot g :
    xinv log [] pend s R W -> J R u pend (fun _ => 0%nat) -> (need R W <= g)%nat ->
    (forall pend' s' W' u' g', xinv log [] pend' s' R W' -> (forall c, W' c = []) -> (need R W' <= g')%nat -> Q s' (In x R W' u' hot g' l)) ->
    obeys Q (psap_flush ops N self tx s) (In x R W u hot g l).
  Proof using All.
    intros I HJ Hg HQ. unfold psap_flush. eapply ob_mono.
    - apply (ob_fold eqb from to D gas B small eof p (fun ts s' st => exists pend' W' u' g', st = In x R W' u' hot g' l /\
        xinv log [] pend' s' R W' /\ (need R W' <= g')%nat /\ NoDup ts /\ (forall t, List.In t ts -> List.In t sibs) /\
        (forall t, List.In t sibs -> ~ List.In t ts -> W' (tx t) = []) /\
        ((forall d, R d = []) \/ forall t, List.In t ts -> u' (tx t) = 0%nat))).
      + intros t ts s1 st (pend1 & W1 & u1 & g1 & -> & I1 & Hg1 & Hnd1 & Hts & HW1' & Hu1). inversion Hnd1 as [|? ? Hni Hnd2]; subst.
        assert (Ht : List.In t sibs) by (apply Hts; left; reflexivity).
        destruct (xi_w _ _ _ _ _ _ I1 t Ht) as [Hh HWt]. cbn [outgoing filter map concat] in HWt.
        destruct (sp_w s1 t) as [b m] eqn:Ew. destruct Hh as (HRb & Hp & Hps & (tail & Em) & Hmm). cbn [fst snd] in *.
        set (pd := map enc (pend1 t)) in *. pose proof (sized_concat _ _ Hps) as Lc.
        assert (Hng : (length (W1 (tx t)) <= need R W1)%nat) by (pose proof (need_at R W1 t Ht); lia).
        eapply ob_bind with (Q := fun w st => exists pend' W' u' g', st = In x R W' u' hot g' l /\
          xinv log [] pend' (sp_set_w s1 t w) R W' /\ (need R W' <= g')%nat /\ (forall t, List.In t sibs -> ~ List.In t ts -> W' (tx t) = []) /\
          ((forall d, R d = []) \/ forall t, List.In t ts -> u' (tx t) = 0%nat)).
        * unfold outgoing in HWt; cbn in HWt. eapply (ob_flush t b m pd tail R W1 u1 hot g1 []); [exact HRb|exact Hps|exact Em|exact HWt| | |].
          -- destruct Hu1 as [Hu1|Hu1]; [left; exact Hu1|right]. rewrite (Hu1 t) by (left; reflexivity). nia.
          -- rewrite HWt, app_nil_r, Lc in Hng. lia.
          -- intros b' W' u' g' HRb' HWt' HWo Hu' _ Huo Hg'. set (pend' := fupd pend1 t []).
             assert (Ept : pend' t = []) by (unfold pend', fupd; rewrite Nat.eqb_refl; reflexivity).
             exists pend', W', u', g'. split; [reflexivity|]. split; [|split; [|split]].
             ++ destruct I1. constructor; cbn [sp_acc sp_set_w sp_got sp_w sp_r sp_left sp_watch]; try assumption.
                ** intros r Hr. unfold fupd. destruct (Nat.eqb_spec r t) as [->|Hrt].
                   --- rewrite Ept. cbn [map]. split; [|rewrite HWt'; reflexivity].
                       split; [exact HRb'|]. split; [exact HK|]. split; [constructor|]. split; [exists m; reflexivity|cbn [snd]; lia].
                   --- unfold pend', fupd. rewrite (proj2 (Nat.eqb_neq r t) Hrt). rewrite HWo by (intros Ee; apply Hrt; apply Htx; assumption). apply xi_w1. exact Hr.
                ** intros c Hc. destruct (eqb c (tx t)) eqn:Ec; [apply eqb_spec in Ec; exists t; auto|].
                   apply xi_w2. rewrite <- HWo; [exact Hc|]. intros Ee. subst c. rewrite (proj2 (eqb_spec _ _) eq_refl) in Ec. discriminate.
             ++ pose proof (need_w R W1 W' t Ht HWo) as Hnw. rewrite HWt', HWt, app_nil_r, Lc in Hnw. cbn in Hnw. lia.
             ++ intros r Hr Hnr. destruct (Nat.eq_dec r t) as [->|Hrt]; [exact HWt'|]. rewrite HWo by (intros Ee; apply Hrt; apply Htx; assumption).
                apply HW1'; [exact Hr|]. intros [Ee|Hx]; [congruence|contradiction].
             ++ destruct Hu1 as [Hu1|Hu1]; [left; exact Hu1|right]. intros r Hr. rewrite Huo; [apply Hu1; right; exact Hr|].
                intros Ee. apply Htx in Ee; [subst; contradiction|apply Hts; right; exact Hr|exact Ht].
        * intros w st (pend' & W' & u' & g' & -> & I' & Hg' & HW' & Hu'). constructor. exists pend', W', u', g'.
          split; [reflexivity|]. split; [exact I'|]. split; [exact Hg'|]. split; [exact Hnd2|]. split; [intros; apply Hts; right; assumption|]. split; assumption.
      + exists pend, W, u, g. split; [reflexivity|]. split; [exact I|]. split; [exact Hg|]. split; [apply nodup_siblings|]. split; [auto|]. split; [intros; contradiction|].
        destruct HJ as [HJ|HJ]; [left; exact HJ|right]. intros t Ht. destruct (HJ t Ht); [assumption|lia].
    - intros s' st (pend' & W' & u' & g' & -> & I' & Hg' & _ & _ & HW' & _). eapply HQ; [exact I'| |exact Hg'].
      intros c. destruct (W' c) as [|z r] eqn:Ec; [reflexivity|]. destruct (xi_w0 _ _ _ _ _ _ I' c) as (t & Ht & ->); [congruence|]. rewrite HW' in Ec by auto. discriminate.
  Qed.

  Lemma ob_rest {Q : sap -> gst -> Prop} : forall fuel s log pend R W u hot g,
    xinv log [] pend s R W -> (forall c, W c = []) -> (lax \/ (reads_left R <= fuel)%nat) -> (need R W <= g)%nat ->
    (forall log' s' R' u' hot' g', xinv log' [] pend s' R' W -> (forall c, R' c = []) -> Q s' (In x R' W u' hot' g' l)) ->
    obeys Q (psap_rest ops rx dec wants handle fuel s) (In x R W u hot g l).
  Proof using All.
    induction fuel as [|f IH]; intros s log pend R W u hot g I HW Hf Hg HQ; cbn [psap_rest]; rewrite (left_pos _ _ _ _ _ _ I);
      (destruct (Z.eqb_spec (sp_left s) 0) as [E0|E0]; cbn [negb]; [constructor; eapply HQ; [exact I|]; apply (left_zero _ _ _ _ _ _ I); exact E0|]);
      pose proof (some_left _ _ _ _ _ _ I E0) as Hne.
    { destruct Hne as (c & Hc). destruct Hf as [Hf|Hf]; [|pose proof (reads_pos R c (xi_r0 _ _ _ _ _ _ I c Hc) Hc); lia].
      destruct (xi_r0 _ _ _ _ _ _ I c Hc) as (t & Ht & ->). eapply ob_spin; [exact (Hlax Hf t Ht)|apply see_refl|exact Hc]. }
    eapply ob_bind with (Q := fun r st => obeys Q (psap_rest ops rx dec wants handle f (snd r)) st); [|intros r st Hr; exact Hr].
    eapply (ob_round true); [exact I|exact Hne|intros _; exact HW| rewrite Nat.add_0_r; exact Hg | |discriminate].
    intros log' s' R' u' hot' g' I' E' Hr0 Hr' Hg'. cbn [snd]. eapply IH; [exact I'|exact HW| |lia|exact HQ].
    destruct Hf as [Hf|Hf]; [left; exact Hf|]. destruct Hr' as [Hr'|Hr']; [left; exact Hr'|right; lia].
  Qed.

  Lemma sum_nth (w : list nat) : forall n, (list_sum (map (fun t => nth t w 0%nat) (seq 0 n)) <= list_sum w)%nat.
  Proof.
    induction w as [|a w IH]; intros n.
    - assert (forall k l0, list_sum (map (fun t => nth t (@nil nat) 0%nat) (seq l0 k)) = 0%nat) as ->; [|apply le_n].
      induction k as [|k IHk]; intros l0; [reflexivity|]. cbn [seq map]. cbn. change (fold_right Nat.add 0%nat) with list_sum. rewrite IHk. destruct l0; reflexivity.
    - destruct n as [|n]; [cbn; lia|]. cbn [seq map]. rewrite <- seq_shift, map_map. cbn. change (fold_right Nat.add 0%nat) with list_sum. specialize (IH n). lia.
  Qed.
  Lemma sum_filter (f : nat -> nat) (g : nat -> bool) ts : (list_sum (map f (filter g ts)) <= list_sum (map f ts))%nat.
  Proof. induction ts as [|t ts IH]; [apply le_n|]. cbn. destruct (g t); cbn; change (fold_right Nat.add 0%nat) with list_sum; lia. Qed.

  (** The whole loop. *)
  Theorem ob_sap patience wbuf rbuf total items p0 :
    K = (BUFFER_SIZE / unit)%nat -> feeds next p0 items sent ->
    (forall t, RB (fst (wbuf t)) 0%nat 0%nat /\ (K * unit <= length (snd (wbuf t)))%nat) ->
    (forall t, RB (fst (rbuf t)) 0%nat 0%nat /\ (K * unit <= length (snd (rbuf t)))%nat) ->
    total = Z.of_nat (list_sum (map (fun t => length (str t)) sibs)) ->
    (list_sum (map (fun t => length (D x (tx t)) + 2 * length (D x (rx t)))%nat sibs) + length items <= gas x p)%nat ->
    obeys (fun h st => Post h /\ sees from to D gas p st (Out l))
      (psap ops N self tx rx enc dec wants next handle patience unit wbuf rbuf total items p0 h0) (Out (Loc x :: l)).
  Proof using All.
    intros EK F Hw Hr Et Hgas.
    apply (ob_sees eqb from to D gas B small eof p _ _ _ (In x (R0 x p) (W0 x p) (fun _ => 0%nat) [] (gas x p) l)).
    { intros a s1 [HP Hs] s0 Hs0. split; [exact HP|]. eapply sees_trans; eassumption. }
    { apply see_enter, see_refl. }
    unfold psap. rewrite <- EK. set (s0 := {| sp_next := p0 |}).
    assert (Ewt : forall t, List.In t sibs -> nth t wants 0%nat = length (str t)).
    { intros t Ht. specialize (Hwants t Ht). unfold get in Hwants. destruct (nth_error wants t) eqn:En; [|discriminate]. injection Hwants as <-. apply nth_error_nth. exact En. }
    assert (I : xinv [] (concat sent) (fun _ => []) s0 (R0 x p) (W0 x p)).
    { constructor; cbn [sp_acc s0 sp_got sp_w sp_r sp_left sp_watch].
      - reflexivity.
      - constructor.
      - exists []. reflexivity.
      - symmetry. exact Hself.
      - intros t Ht. split; [reflexivity|lia].
      - intros t Ht. split; [|apply HW0; exact Ht]. destruct (Hw t) as [Ha Hb]. cbn [map].
        split; [exact Ha|]. split; [exact HK|]. split; [constructor|]. split; [exists (snd (wbuf t)); reflexivity|exact Hb].
      - exact HW1.
      - intros t Ht. exists []. cbn [app skipn]. split; [|apply HR0; exact Ht]. destruct (Hr t) as [Ha Hb].
        split; [exact Ha|]. split; [exact Hu|]. split; [exists (snd (rbuf t)); reflexivity|exact Hb].
      - exact HR1.
      - rewrite Et. f_equal. f_equal. apply map_ext. intros t. lia.
      - unfold siblings_of. rewrite filter_filter'. apply filter_ext_in. intros t Ht. destruct (Nat.eqb_spec t self) as [->|Hts]; [reflexivity|]. cbn [negb andb].
        rewrite Ewt by (apply in_siblings; apply in_seq in Ht; lia). destruct (Nat.eqb_spec (length (str t)) 0) as [e|e]; [rewrite e; reflexivity|].
        symmetry. apply Nat.ltb_lt. lia. }
    assert (Hsz : forall t, List.In t sibs -> length (concat (map enc (str t))) = (length (str t) * unit)%nat).
    { intros t Ht. rewrite (sized_concat unit); [rewrite map_length; reflexivity|]. apply Forall_map. eapply Forall_impl; [|apply Hdec; exact Ht]. intros m []; assumption. }
    assert (Hfuel : (reads_left (R0 x p) <= list_sum wants * unit)%nat).
    { unfold reads_left. rewrite (map_ext_in _ (fun t => length (str t) * unit)%nat) by (intros t Ht; rewrite HR0, Hsz by exact Ht; reflexivity).
      assert (E : list_sum (map (fun t => length (str t) * unit)%nat sibs) = (list_sum (map (fun t => length (str t)) sibs) * unit)%nat).
      { clear. induction sibs as [|t ts IH]; [reflexivity|]. cbn. change (fold_right Nat.add 0%nat) with list_sum. rewrite IH. lia. }
      rewrite E. apply Nat.mul_le_mono_r. rewrite (map_ext_in _ (fun t => nth t wants 0%nat)) by (intros t Ht; symmetry; apply Ewt; exact Ht).
      etransitivity; [apply sum_filter|apply sum_nth]. }
    assert (Hneed : (need (R0 x p) (W0 x p) <= list_sum (map (fun t => length (D x (tx t)) + 2 * length (D x (rx t)))%nat sibs))%nat).
    { apply sum_le. intros t _. unfold ProcNet.R0, ProcNet.W0. destruct (to (rx t) =? p)%nat, (from (tx t) =? p)%nat; cbn [length]; lia. }
    eapply ob_bind with (Q := fun s1 st => obeys (fun h st => Post h /\ sees from to D gas p st (Out l))
      (do s2 <- psap_flush ops N self tx s1; do s3 <- psap_rest ops rx dec wants handle (patience + list_sum wants * unit) s2; Ret (sp_acc s3)) st); [|intros s1 st Hs1; exact Hs1].
    eapply (ob_bursts (patience + list_sum wants * unit) (length items) items s0 sent);
      [exact F|exact Hone|exact I|right; auto|lia|right; lia|lia|].
    intros log1 pend1 s1 R1 W1 u1 hot1 g1 I1 HJ1 Hr1 Hg1.
    eapply ob_bind with (Q := fun s2 st => obeys (fun h st => Post h /\ sees from to D gas p st (Out l))
      (do s3 <- psap_rest ops rx dec wants handle (patience + list_sum wants * unit) s2; Ret (sp_acc s3)) st); [|intros s2 st Hs2; exact Hs2].
    eapply ob_flushes; [exact I1|exact HJ1|exact Hg1|]. intros pend2 s2 W2 u2 g2 I2 HW2 Hg2.
    eapply ob_bind with (Q := fun s3 st => obeys (fun h st => Post h /\ sees from to D gas p st (Out l)) (Ret (sp_acc s3)) st); [|intros s3 st Hs3; exact Hs3].
    eapply ob_rest; [exact I2|exact HW2|right; lia|exact Hg2|]. intros log3 s3 R3 u3 hot3 g3 I3 HR3. constructor. split.
    - destruct (Hrun log3) as (h & Eh & HP); [apply (xi_log _ _ _ _ _ _ I3)| |].
      + intros t Ht. destruct (Nat.eq_dec t self) as [->|Hts].
        * pose proof (xi_own _ _ _ _ _ _ I3) as E. cbn in E. rewrite app_nil_r in E. exact E.
        * assert (Hti : List.In t sibs) by (apply in_siblings; auto). destruct (xi_got _ _ _ _ _ _ I3 t Hti) as [E Hle]. rewrite E.
          apply firstn_all2. destruct (Nat.lt_ge_cases (sp_got s3 t) (length (str t))) as [Hlt|]; [|lia].
          apply (unread _ _ _ _ _ _ _ I3 Hti) in Hlt. rewrite HR3 in Hlt. contradiction.
      + rewrite (xi_acc _ _ _ _ _ _ I3) in Eh. injection Eh as ->. exact HP.
    - apply see_leave; [exact HR3|exact HW2|apply see_refl].
  Qed.
End Exchange.
