(** Reasoning about dialogs with arbitrary peers. *)
From Verif Require Import Base BaseProofs Incremental Wire WireProofs Additive AdditiveProofs Onion Shuffle Sizes State Database CipherBatch
  Range Handlers Batch Party Chain Net Stream CipherBatchProofs SharingProofs StreamProofs Lts Procs ProcProofs Spec ChainSpec OnlineProofs OfflineProofs OfflineParty ChainProofs ProcChain
  PeerSpec PeerProofs TalkSpec TalkProofs MeetSpec.

(** ** A weakest precondition with histories *)
Section Does.
  Context {C : Type}.
  Notation hist := (list (C * Z)).
  (** [Safe]: what must hold of the bytes received and sent whenever bytes have
      been sent; [U]: what must hold when the behaviour is undefined. *)
  Context (Safe : hist -> hist -> Prop) (U : hist -> Prop).

  Fixpoint does {A} (p : proc C A) (I O : hist) (Q : A -> hist -> hist -> Prop) : Prop :=
    match p with
    | Ret a => Q a I O
    | Crash w => w = Undefined -> U I
    | Write c bs k => forall n, (1 <= n <= length bs)%nat ->
        Safe I (O ++ map (pair c) (firstn n bs)) /\ does (k n) I (O ++ map (pair c) (firstn n bs)) Q
    | Read c n k => forall got, (length got <= n)%nat -> Forall byte got -> does (k got) (I ++ map (pair c) got) O Q
    | Poll _ _ k => forall fs, does (k fs) I O Q
    end.

  Lemma does_bind {A B} (p : proc C A) : forall (f : A -> proc C B) I O Q,
    does p I O (fun a I' O' => does (f a) I' O' Q) -> does (pbind p f) I O Q.
  Proof.
    induction p as [a|w|c bs k IH|c n k IH|block l k IH]; intros f I O Q H; cbn [pbind does] in *; auto.
    intros n Hn. destruct (H n Hn) as [H1 H2]. split; [exact H1|]. apply IH. exact H2.
  Qed.
  Lemma does_lift {A B} (r : res A) (f : A -> proc C B) I O Q :
    (r = UB -> U I) -> (forall a, r = Ok a -> does (f a) I O Q) -> does (pbind (lift r) f) I O Q.
  Proof. intros Hu H. destruct r as [a| | |]; cbn; [apply H; reflexivity|discriminate|intros _; apply Hu; reflexivity|discriminate]. Qed.
  Lemma does_anything {A} (p : proc C A) : forall I O (Q : A -> hist -> hist -> Prop),
    (forall x O', Safe (I ++ x) O') -> (forall x, U (I ++ x)) -> (forall a x O', Q a (I ++ x) O') -> does p I O Q.
  Proof.
    induction p as [a|w|c bs k IH|c n k IH|block l k IH]; intros I O Q HS HU HQ; cbn [does].
    - rewrite <- (app_nil_r I). apply HQ.
    - intros _. rewrite <- (app_nil_r I). apply HU.
    - intros n Hn. split; [rewrite <- (app_nil_r I); apply HS|]. apply IH; assumption.
    - intros got _ _. apply IH; intros; rewrite <- app_assoc; auto.
    - intros fs. apply IH; assumption.
  Qed.

  (** A piece that only sends. *)
  Lemma does_sends {X A} est (p : proc C A) (l : list (act C Z X)) a : follows_on est p l a -> forall c bs I O (Q : A -> hist -> hist -> Prop),
    l = map (Snd c) bs -> (forall w, begins w bs -> Safe I (O ++ map (pair c) w)) -> Q a I (O ++ map (pair c) bs) -> does p I O Q.
  Proof.
    intros F. induction F as [a|c bs k l a Hb Hk IH|c n bs k l a Hb Hs Hk IH]; intros c0 bs0 I O Q El HS HQ; cbn [does].
    - destruct bs0; [|discriminate El]. cbn in HQ. rewrite app_nil_r in HQ. exact HQ.
    - assert (exists w2, bs0 = bs ++ w2 /\ l = map (Snd c0) w2 /\ c = c0) as (w2 & -> & -> & ->).
      { clear - El Hb. destruct bs as [|y bs]; [congruence|]. destruct bs0 as [|y0 bs0]; [discriminate El|]. cbn in El.
        inversion El; subst. clear El Hb. revert bs0 H2. induction bs as [|y bs IH]; intros bs0 H2; [exists bs0; auto|].
        destruct bs0 as [|y1 bs0]; [discriminate H2|]. cbn in H2. inversion H2; subst. destruct (IH _ H1) as (w2 & E & E2 & _).
        inversion E; subst. exists w2. auto. }
      intros n Hn. split.
      + apply HS. exists (skipn n bs ++ w2). rewrite app_assoc, firstn_skipn. reflexivity.
      + apply (IH n Hn c0 (skipn n bs ++ w2)).
        * rewrite map_app. reflexivity.
        * intros w (r & Ew). rewrite <- app_assoc, <- map_app. apply HS. exists r. rewrite <- app_assoc, <- Ew, app_assoc, firstn_skipn. reflexivity.
        * rewrite <- app_assoc, <- map_app, app_assoc, firstn_skipn. exact HQ.
    - destruct bs as [|y bs]; [cbn in Hb; lia|]. destruct bs0; discriminate El.
  Qed.

  (** Exactly [size] bytes are read. *)
  Lemma does_pread (c : C) size (Q : list Z -> hist -> hist -> Prop) O : forall fuel I (done tail : list Z),
    Forall byte done -> (length done + length tail = size)%nat ->
    (forall bs, bytes size (done ++ bs) -> Q (done ++ bs) (I ++ map (pair c) bs) O) ->
    does (pread fuel c (done ++ tail) 0 (length done) size) I O Q.
  Proof.
    induction fuel as [|f IH]; intros I done tail Fd L HQ; cbn [pread]; destruct (Nat.ltb_spec (length done) size) as [Hlt|Hge]; cbn [does]; try discriminate.
    - assert (tail = []) as -> by (destruct tail; [reflexivity|cbn in L; lia]).
      specialize (HQ []). rewrite !app_nil_r in *. apply HQ. split; [cbn in L; lia|exact Fd].
    - apply does_bind. unfold psys_read. destruct (size - length done)%nat as [|n] eqn:En; [lia|]. cbn [does]. intros got Hg Fg.
      apply does_lift.
      + unfold wr. rewrite app_length. destruct (Nat.leb_spec (0 + length done + length got) (length done + length tail)); [discriminate|lia].
      + intros m' E.
        assert (Ew : wr (done ++ tail) (length done) got = Ok (done ++ got ++ skipn (length got) tail)).
        { replace (done ++ tail) with (done ++ firstn (length got) tail ++ skipn (length got) tail) by (rewrite firstn_skipn; reflexivity).
          apply wr_mid. rewrite firstn_length. lia. }
        cbn [Nat.add] in E. rewrite Ew in E. inversion E; subst m'. rewrite app_assoc, <- app_length. apply IH.
        * apply Forall_app. auto.
        * rewrite app_length, skipn_length. lia.
        * intros bs Hb. rewrite <- !app_assoc, <- map_app in *. apply HQ. exact Hb.
    - assert (tail = []) as -> by (destruct tail; [reflexivity|cbn in L; lia]).
      specialize (HQ []). rewrite !app_nil_r in *. apply HQ. split; [cbn in L; lia|exact Fd].
  Qed.
  Lemma does_wait (c : C) (Q : unit -> hist -> hist -> Prop) I O : Q tt (I ++ [(c, 1)]) O -> does (pwait_ready true c) I O Q.
  Proof.
    intros HQ. unfold pwait_ready. apply does_bind. apply (does_pread c 1 _ O 1 I [] [0]); [constructor|reflexivity|].
    intros bs [L _]. cbn [app] in *. destruct bs as [|x [|y bs]]; cbn in L; try lia. cbn [map].
    destruct (x =? 1) eqn:E; cbn [assert_ lift does]; [|discriminate]. apply Z.eqb_eq in E. subst x. exact HQ.
  Qed.
  Lemma does_count (c : C) (Q : Z -> hist -> hist -> Prop) I O :
    (forall n, u32 n -> Q n (I ++ map (pair c) (le 4 n)) O) -> does (pread_count c) I O Q.
  Proof.
    intros HQ. unfold pread_count. apply does_bind. apply (does_pread c 4 _ O 4 I [] (repeat 0 4)); [constructor|reflexivity|].
    intros bs B. cbn [app does] in *. pose proof (le_of_le 4 bs B) as E. rewrite <- E at 2. apply HQ.
    pose proof (of_le_bound bs (proj2 B)) as Hb. rewrite (proj1 B) in Hb. exact Hb.
  Qed.
  Context (Mono : forall I O x, Safe I O -> Safe (I ++ x) O) (MonoU : forall I x, U I -> U (I ++ x)).

  Lemma does_dialog {A} (p p' : proc C A) ins outs : dialog p ins outs p' -> forall I O Q, does p I O Q -> Safe I O ->
    does p' (I ++ ins) (O ++ outs) Q /\ Safe (I ++ ins) (O ++ outs).
  Proof.
    intros D. induction D as [p|c bs k n ins outs p Hn D IH|c n k got ins outs p Hg Hb D IH|block l k fs ins outs p D IH]; intros I O Q H S0.
    - rewrite !app_nil_r. auto.
    - cbn [does] in H. destruct (H n Hn) as [H1 H2]. rewrite app_assoc. apply IH; assumption.
    - cbn [does] in H. rewrite app_assoc. apply IH; [apply H; assumption|]. apply Mono. exact S0.
    - cbn [does] in H. apply IH; auto.
  Qed.
End Does.

Lemma fold_res_app {A S} (f : S -> A -> res S) : forall l1 l2 s, fold_res f (l1 ++ l2) s = let* s' := fold_res f l1 s in fold_res f l2 s'.
Proof. induction l1 as [|a l1 IH]; intros l2 s; cbn; [reflexivity|]. destruct (f s a); cbn; auto. Qed.

Lemma concat_chunks u (d : list Z) : forall e, (e * u <= length d)%nat ->
  concat (map (fun i => firstn u (skipn (i * u) d)) (seq 0 e)) = firstn (e * u) d.
Proof.
  induction e as [|e IH]; intros H; [reflexivity|].
  rewrite seq_S, map_app, concat_app, IH by lia. cbn [map concat Nat.add]. rewrite app_nil_r.
  replace (S e * u)%nat with (e * u + u)%nat by lia.
  rewrite <- (firstn_skipn (e * u) d) at 3. rewrite firstn_app, firstn_firstn, firstn_length.
  replace (Nat.min (e * u + u) (e * u)) with (e * u)%nat by lia. f_equal. f_equal. lia.
Qed.

(** ** Loops of reads: whole messages, in order *)
Section Loop.
  Context {B Ch S : Type} (ops : bufops B) (C unit : nat) (R : B -> nat -> nat -> Prop) (L : buf_laws ops C unit R).
  Context (HC : (0 < C)%nat) (Hu : (0 < unit)%nat) (c : Ch) (handle : S -> list Z -> res S).
  Context (Safe : list (Ch * Z) -> list (Ch * Z) -> Prop) (U : list (Ch * Z) -> Prop) (MonoU : forall I x, U I -> U (I ++ x)).
  Context (I0 O : list (Ch * Z)) (s0 : S) (total : nat).
  Context (Bad : forall msgs, Forall (bytes unit) msgs -> (length msgs <= total)%nat -> fold_res handle msgs s0 = UB -> U (I0 ++ map (pair c) (concat msgs))).

  Lemma does_read_each (Q : S -> list (Ch * Z) -> list (Ch * Z) -> Prop) : forall fuel b m left count s msgs,
    R b 0%nat (length left) -> (length left < unit)%nat -> Z.of_nat count < 2 ^ 32 -> Z.of_nat unit < 2 ^ 32 ->
    (exists tail, m = left ++ tail) -> (C * unit <= length m)%nat ->
    Forall byte left -> Forall (bytes unit) msgs -> (length msgs + count = total)%nat -> fold_res handle msgs s0 = Ok s ->
    (count = 0 -> left = [])%nat ->
    (forall msgs s', Forall (bytes unit) msgs -> length msgs = total -> fold_res handle msgs s0 = Ok s' -> Q s' (I0 ++ map (pair c) (concat msgs)) O) ->
    does Safe U (pread_each ops fuel c handle count b m s) (I0 ++ map (pair c) (concat msgs ++ left)) O Q.
  Proof using All.
    induction fuel as [|f IH]; intros b m left count s msgs HR Hl Hc Hu2 (tail & Em) Hm Bl Bm Ht Es Hz HQ; cbn [pread_each].
    - destruct (Nat.ltb_spec 0 count); cbn [does]; [discriminate|]. rewrite (Hz ltac:(lia)), app_nil_r. apply HQ; [exact Bm|lia|exact Es].
    - destruct (Nat.ltb_spec 0 count) as [Hc0|Hc0]; cbn [does];
        [|rewrite (Hz ltac:(lia)), app_nil_r; apply HQ; [exact Bm|lia|exact Es]].
      unfold pread_buf.
      rewrite (bl_capacity _ _ _ _ L _ _ _ HR), (bl_unit _ _ _ _ L _ _ _ HR), (bl_leftover _ _ _ _ L _ _ _ HR),
        (bl_tobuffer _ _ _ _ L _ _ _ HR).
      set (l := length left) in *.
      assert (Hcu : Z.of_nat (count * unit) < 2 ^ 64) by (rewrite Nat2Z.inj_mul; nia).
      assert (Hlc : (l < count * unit)%nat) by nia. assert (HlC : (l < C * unit)%nat) by nia.
      assert (w64 (Z.of_nat (count * unit) - Z.of_nat l) = Z.of_nat (count * unit - l)) as ->
        by (rewrite w64_id by (unfold u64; lia); lia).
      set (n := Z.to_nat _).
      assert (Hn : (0 < n /\ n <= C * unit - l /\ n <= count * unit - l)%nat).
      { unfold n. destruct (Z.ltb_spec (Z.of_nat (C * unit - l)) (Z.of_nat (count * unit - l))); lia. }
      clearbody n. apply does_bind. apply does_bind. unfold psys_read. destruct n as [|n]; [lia|]. cbn [does]. intros got Hg Fg.
      assert (Lt : (length got <= length tail)%nat) by (rewrite Em, app_length in Hm; fold l in Hm; lia).
      assert (Ew : wr m (length left) got = Ok (left ++ got ++ skipn (length got) tail)).
      { rewrite Em. replace (left ++ tail) with (left ++ firstn (length got) tail ++ skipn (length got) tail) by (rewrite firstn_skipn; reflexivity).
        apply wr_mid. rewrite firstn_length. lia. }
      fold l in Ew. rewrite Ew. cbn [lift pbind does fst snd].
      rewrite <- app_assoc, <- map_app, <- app_assoc.
      set (m1 := left ++ got ++ skipn (length got) tail). set (data := left ++ got).
      assert (Em1 : m1 = data ++ skipn (length got) tail) by (unfold m1, data; apply app_assoc).
      assert (Lm1 : length m1 = length m) by (unfold m1; rewrite Em, !app_length, skipn_length; lia).
      assert (Ld : length data = (length got + l)%nat) by (unfold data; rewrite app_length; lia).
      assert (Bd : Forall byte data) by (apply Forall_app; auto).
      pose proof (bl_update _ _ _ _ L _ _ _ (length got) HR) as HR1. fold l in HR1. rewrite <- Ld in HR1.
      destruct (deliver_spec ops C unit R L HC Hu _ m1 data _ Em1 ltac:(lia) HR1) as (offs & b2 & m2 & Eo & Ex & Ec & HR2 & Lm2 & (tail2 & Em2)).
      set (e := (length data / unit)%nat) in *. set (l2 := (length data mod unit)%nat) in *.
      assert (Hel : length data = (e * unit + l2)%nat) by (apply div_split; exact Hu).
      assert (Hlu : (l2 < unit)%nat) by (apply Nat.mod_upper_bound; lia).
      assert (Hec : (e <= count)%nat) by nia.
      rewrite Eo. cbn [lift pbind]. rewrite Ex. cbn [lift pbind].
      set (xs := map _ (seq 0 e)) in *.
      assert (Lx : length xs = e) by (unfold xs; rewrite map_length, seq_length; reflexivity).
      assert (Fx : Forall (bytes unit) xs).
      { unfold xs. apply Forall_map. apply Forall_forall. intros i Hi. apply in_seq in Hi. split.
        - rewrite firstn_length, skipn_length. nia.
        - apply Forall_firstn. apply Forall_skipn. exact Bd. }
      assert (Ed : data = concat xs ++ skipn (e * unit) data).
      { rewrite <- (firstn_skipn (e * unit) data) at 1. f_equal. symmetry. apply concat_chunks. lia. }
      assert (Bmx : Forall (bytes unit) (msgs ++ xs)) by (apply Forall_app; auto).
      apply does_lift.
      + intros Eu. rewrite Ed, app_assoc, map_app, app_assoc. apply MonoU. rewrite <- concat_app. apply Bad; [exact Bmx|rewrite app_length; lia|].
        rewrite fold_res_app, Es. exact Eu.
      + intros s' Es'. rewrite Ec. cbn [lift pbind fst snd]. rewrite Lx.
        rewrite Ed, app_assoc, <- concat_app. apply (IH b2 m2 (skipn (e * unit) data)).
        * rewrite skipn_length. replace (length data - e * unit)%nat with l2 by lia. exact HR2.
        * rewrite skipn_length. lia.
        * lia.
        * exact Hu2.
        * exists tail2. exact Em2.
        * lia.
        * apply Forall_skipn. exact Bd.
        * exact Bmx.
        * rewrite app_length. lia.
        * rewrite fold_res_app, Es. exact Es'.
        * intros Z0. apply skipn_all2. assert (Ee : e = count) by lia. rewrite Ee. lia.
        * exact HQ.
  Qed.
End Loop.

Section Takes.
  Context {Ch S : Type} (c : Ch) (handle : S -> list Z -> res S).
  Context (Safe : list (Ch * Z) -> list (Ch * Z) -> Prop) (U : list (Ch * Z) -> Prop) (MonoU : forall I x, U I -> U (I ++ x)).
  Context (mem : list Z) (size n : nat) (s : S) (I O : list (Ch * Z)) (Q : S -> list (Ch * Z) -> list (Ch * Z) -> Prop).
  Context (Hm : length mem = BUFFER_SIZE) (Hs : (0 < size <= BUFFER_SIZE)%nat) (Hn : Z.of_nat n < 2 ^ 32).
  Context (Bad : forall msgs, Forall (bytes size) msgs -> (length msgs <= n)%nat -> fold_res handle msgs s = UB -> U (I ++ map (pair c) (concat msgs))).
  Context (Good : forall msgs s', Forall (bytes size) msgs -> length msgs = n -> fold_res handle msgs s = Ok s' -> Q s' (I ++ map (pair c) (concat msgs)) O).

  Lemma does_take_each : does Safe U (take_each c mem size n handle s) I O Q.
  Proof using All.
    assert (Hs2 : Z.of_nat size < 2 ^ 32) by (unfold BUFFER_SIZE in Hs; lia).
    assert (Hs0 : (0 < size)%nat) by lia. destruct (cap_facts BUFFER_SIZE size Hs) as [HC Hcu].
    replace I with (I ++ map (pair c) (concat [] ++ [])) by (cbn; apply app_nil_r).
    apply (does_read_each lb_ops _ _ _ (lb_laws (BUFFER_SIZE / size) size) HC Hs0 c handle Safe U MonoU I O s n Bad);
      try assumption; try reflexivity; cbn [fst snd messages length]; try constructor.
    - exists mem. reflexivity.
    - rewrite Hm. exact Hcu.
  Qed.
  Lemma does_take_ciphers : does Safe U (take_ciphers c mem size n handle s) I O Q.
  Proof using All.
    assert (Hs2 : Z.of_nat size < 2 ^ 32) by (unfold BUFFER_SIZE in Hs; lia).
    assert (Hs0 : (0 < size)%nat) by lia. destruct (cap_facts BUFFER_SIZE size Hs) as [HC Hcu].
    replace I with (I ++ map (pair c) (concat [] ++ [])) by (cbn; apply app_nil_r).
    apply (does_read_each cl_ops _ _ _ (cl_laws (BUFFER_SIZE / size) size Hs0) HC Hs0 c handle Safe U MonoU I O s n Bad);
      try assumption; try reflexivity; cbn [fst snd ciphers length]; try constructor.
    - apply cl_make_rel. exact Hs0.
    - exists mem. reflexivity.
    - rewrite Hm. exact Hcu.
  Qed.
End Takes.

(** ** Beginnings, and the bytes of a connection *)
Lemma begins_refl {A} (l : list A) : begins l l.
Proof. exists []. symmetry. apply app_nil_r. Qed.
Lemma begins_nil {A} (l : list A) : begins [] l.
Proof. exists l. reflexivity. Qed.
Lemma begins_more {A} (l m x : list A) : begins l m -> begins l (m ++ x).
Proof. intros (r & ->). exists (r ++ x). rewrite app_assoc. reflexivity. Qed.
Lemma begins_app {A} (x l m : list A) : begins l m -> begins (x ++ l) (x ++ m).
Proof. intros (r & ->). exists r. rewrite app_assoc. reflexivity. Qed.
Lemma begins_app_nil {A} (x l : list A) : begins x (x ++ l).
Proof. exists l. reflexivity. Qed.

Lemma chan_eqb_refl c : chan_eqb c c = true.
Proof. destruct c; cbn; apply Nat.eqb_refl. Qed.
Lemma on_app c l m : on c (l ++ m) = on c l ++ on c m.
Proof. unfold on. rewrite filter_app, map_app. reflexivity. Qed.
Lemma on_same c bs : on c (map (pair c) bs) = bs.
Proof. unfold on. induction bs as [|x bs IH]; cbn; [reflexivity|]. rewrite chan_eqb_refl. cbn. f_equal. exact IH. Qed.
Lemma on_other c d bs : chan_eqb c d = false -> on c (map (pair d) bs) = [].
Proof. intros E. unfold on. induction bs as [|x bs IH]; cbn; [reflexivity|]. rewrite E. exact IH. Qed.
