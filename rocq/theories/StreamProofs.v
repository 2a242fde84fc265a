(** Buffered reading and writing over fragmented byte streams. *)
From Verif Require Import Base BaseProofs Stream CipherBatchProofs.

Lemma div_split (a u : nat) : (0 < u)%nat -> a = (a / u * u + a mod u)%nat.
Proof. intros H. rewrite (Nat.mul_comm (a / u)). apply Nat.div_mod. lia. Qed.

(** What both kinds of logical buffers guarantee; the state is described by the
    number of whole units [e] and of leftover bytes [l]; [C] units fit. *)
Record buf_laws {B} (ops : bufops B) (C unit : nat) (R : B -> nat -> nat -> Prop) : Prop := {
  bl_unit : forall b e l, R b e l -> bo_unit ops b = unit;
  bl_leftover : forall b e l, R b e l -> bo_leftover ops b = l;
  bl_capacity : forall b e l, R b e l -> bo_capacity ops b = (C * unit - l)%nat;
  bl_tobuffer : forall b e l, R b e l -> bo_tobuffer ops b = l;
  bl_bytes : forall b e l, R b e l -> bo_bytes ops b = (e * unit)%nat;
  bl_size : forall b e l, R b e l -> bo_size ops b = e;
  bl_full : forall b e l, R b e l -> bo_full ops b = (e =? C)%nat;
  bl_elems : forall b e l, R b e l -> bo_elems ops b = Ok (map (fun i => i * unit)%nat (seq 0 e));
  bl_clear : forall b e l m, R b e l -> exists b', R b' 0%nat l /\
    bo_clear ops b m = let* m' := (if (0 <? e)%nat then memcpy_within m 0 (e * unit) l else Ok m) in Ok (m', b');
  bl_update : forall b e l n, R b e l -> R (bo_update ops b n) ((n + l) / unit)%nat ((n + l) mod unit)%nat;
  bl_push : forall b e l m v, R b e l -> exists b', R b' (S e) l /\
    bo_push ops b m v = let* u := rd v 0 unit in let* m' := wr m (e * unit) u in Ok (m', b')
}.

Definition lb_rel (C unit : nat) (b : lbuf) (e l : nat) : Prop :=
  b = {| lb_unit := unit; lb_capacity := C; lb_end := e; lb_leftover := l |}.
Definition cl_rel (C unit : nat) (b : cbuf) (e l : nat) : Prop :=
  b = {| cl_unit := unit; cl_capacity := C * unit; cl_end := e * unit; cl_leftover := l |}.

Lemma lb_laws C unit : buf_laws lb_ops C unit (lb_rel C unit).
Proof.
  constructor; unfold lb_rel; intros; subst; try reflexivity; eexists; (split; [reflexivity|]); cbn; reflexivity.
Qed.

Lemma cipher_offsets_spec unit : (0 < unit)%nat -> forall e fuel off, (e <= fuel)%nat ->
  cipher_offsets fuel off unit (off + e * unit) = Ok (map (fun i => off + i * unit)%nat (seq 0 e)).
Proof.
  intros Hu. induction e as [|e IH]; intros fuel off Hf.
  - cbn [Nat.mul seq map]. rewrite Nat.add_0_r. destruct fuel; cbn; rewrite Nat.eqb_refl; reflexivity.
  - destruct fuel as [|f]; [lia|]. cbn [cipher_offsets].
    assert ((off =? off + S e * unit)%nat = false) as -> by (apply Nat.eqb_neq; nia).
    replace (off + S e * unit)%nat with ((off + unit) + e * unit)%nat by lia.
    rewrite IH by lia. cbn [bind seq map]. rewrite Nat.mul_0_l, Nat.add_0_r. do 2 f_equal.
    rewrite <- seq_shift, map_map. apply map_ext. intros; lia.
Qed.

Lemma cl_laws C unit : (0 < unit)%nat -> buf_laws cl_ops C unit (cl_rel C unit).
Proof.
  intros Hu. constructor; unfold cl_rel; intros; subst; cbn -[Nat.modulo Nat.div]; try reflexivity.
  - rewrite Nat.div_mul by lia. reflexivity.
  - destruct (Nat.eqb_spec (e * unit) (C * unit)); destruct (Nat.eqb_spec e C); try reflexivity; try nia.
  - rewrite <- (Nat.add_0_l (e * unit)) at 2. rewrite cipher_offsets_spec by nia.
    f_equal.
  - eexists; split; [reflexivity|]. destruct e; cbn; [reflexivity|].
    destruct unit; [lia|reflexivity].
  - pose proof (Nat.div_mod (n + l) unit ltac:(lia)).
    assert ((n + l - (n + l) mod unit)%nat = ((n + l) / unit * unit)%nat) as ->; [|reflexivity].
    generalize dependent ((n + l) / unit)%nat. generalize ((n + l) mod unit)%nat. intros r q H. nia.
  - eexists; split; [reflexivity|]. rewrite Nat.add_comm. reflexivity.
Qed.

Lemma lb_make_rel sz unit : lb_rel (sz / unit) unit (lb_make sz unit) 0 0.
Proof. reflexivity. Qed.
Lemma cl_make_rel sz unit : (0 < unit)%nat -> cl_rel (sz / unit) unit (cl_make sz unit) 0 0.
Proof.
  intros Hu. unfold cl_rel, cl_make. assert ((sz - sz mod unit)%nat = (sz / unit * unit)%nat) as ->; [|reflexivity].
  rewrite (div_split sz unit Hu) at 1. apply Nat.add_sub.
Qed.

(** ** System calls *)
Lemma sys_read_spec k w n : kernel_ok k ->
  exists got w', sys_read k w n = Ok (got, w') /\ w_in w = got ++ w_in w' /\ w_out w' = w_out w /\
    (length got <= n)%nat /\ ((0 < n)%nat -> w_in w <> [] -> (0 < length got)%nat).
Proof.
  intros Hk. unfold sys_read. set (avail := Nat.min n (length (w_in w))).
  destruct (Nat.eqb_spec avail 0) as [Ha|Ha].
  - cbn. eexists [], _. split; [reflexivity|]. cbn. split; [reflexivity|]. split; [reflexivity|]. split; [lia|].
    intros Hn Hi. destruct (w_in w); [congruence|]. cbn in avail. lia.
  - specialize (Hk (w_calls w) avail ltac:(lia)). set (st := k (w_calls w) avail) in *.
    destruct (Z.ltb_spec st 0); [lia|]. eexists _, _. split; [reflexivity|]. cbn.
    rewrite firstn_skipn. split; [reflexivity|]. split; [reflexivity|]. rewrite firstn_length. split; lia.
Qed.

Lemma sys_send_spec k w b : kernel_ok k ->
  exists n w', sys_send k w b = Ok (n, w') /\ w_in w' = w_in w /\ w_out w' = w_out w ++ firstn n b /\
    (n <= length b)%nat /\ ((0 < length b)%nat -> (0 < n)%nat).
Proof.
  intros Hk. unfold sys_send. destruct (Nat.eqb_spec (length b) 0) as [Ha|Ha].
  - cbn. eexists 0%nat, _. split; [reflexivity|]. cbn. repeat split; lia.
  - specialize (Hk (w_calls w) (length b) ltac:(lia)). set (st := k (w_calls w) (length b)) in *.
    destruct (Z.ltb_spec st 0); [lia|]. eexists _, _. split; [reflexivity|]. cbn. repeat split; lia.
Qed.

Lemma firstn_skipn_app {A} (l : list A) a b : firstn a l ++ firstn b (skipn a l) = firstn (a + b) l.
Proof.
  revert l; induction a as [|a IH]; intros l; [reflexivity|]. destruct l; cbn; [rewrite firstn_nil; reflexivity|].
  f_equal. apply IH.
Qed.

Lemma send_all_spec k m off size : kernel_ok k -> (off + size <= length m)%nat ->
  forall fuel sent w, (sent <= size)%nat -> (size - sent <= fuel)%nat ->
  exists w', send_all k fuel w m off sent size = Ok w' /\ w_in w' = w_in w /\
    w_out w' = w_out w ++ firstn (size - sent) (skipn (off + sent) m).
Proof.
  intros Hk Hm. induction fuel as [|f IH]; intros sent w Hs Hf.
  - assert (sent = size) by lia. subst. exists w. cbn [send_all]. rewrite Nat.ltb_irrefl, Nat.sub_diag. cbn.
    rewrite app_nil_r. auto.
  - cbn [send_all]. destruct (Nat.ltb_spec sent size) as [L|L].
    + rewrite rd_Ok by lia. cbn [bind].
      destruct (sys_send_spec k w (firstn (size - sent) (skipn (off + sent) m)) Hk) as (n & w1 & E & I1 & O1 & N1 & N2).
      rewrite E. cbn [bind fst snd]. rewrite firstn_length, skipn_length in *.
      destruct (IH (sent + n)%nat w1 ltac:(lia) ltac:(lia)) as (w' & E' & I' & O').
      exists w'. split; [exact E'|]. split; [congruence|]. rewrite O', O1, <- app_assoc. f_equal.
      rewrite firstn_firstn. replace (Nat.min n (size - sent)) with n by lia.
      replace (off + (sent + n))%nat with (n + (off + sent))%nat by lia. rewrite <- (skipn_skipn' m n (off + sent)).
      rewrite firstn_skipn_app. f_equal. lia.
    + assert (sent = size) by lia. subst. exists w. rewrite Nat.sub_diag. cbn. rewrite app_nil_r. auto.
Qed.

(** Exact reads. *)
Lemma wr_len m off bs m' : wr m off bs = Ok m' -> length m' = length m.
Proof.
  unfold wr. destruct (Nat.leb_spec (off + length bs) (length m)); intros E; inversion E.
  rewrite !app_length, firstn_length, skipn_length. lia.
Qed.

Lemma read_exact_spec k off : kernel_ok k -> forall fuel pre done post (w : world) data rest,
  length pre = off -> w_in w = data ++ rest -> (length data <= length post)%nat -> (length data <= fuel)%nat ->
  exists w', read_exact k fuel w (pre ++ done ++ post) off (length done) (length done + length data) =
      Ok (pre ++ done ++ data ++ skipn (length data) post, w') /\
    w_in w' = rest /\ w_out w' = w_out w.
Proof.
  intros Hk. induction fuel as [|f IH]; intros pre done post w data rest Hp Hi Hl Hf.
  - destruct data; [|cbn in Hf; lia]. cbn [read_exact length]. rewrite Nat.add_0_r, Nat.ltb_irrefl. exists w. cbn. auto.
  - cbn [read_exact]. destruct (Nat.ltb_spec (length done) (length done + length data)) as [L|L].
    + replace (length done + length data - length done)%nat with (length data) by lia.
      destruct (sys_read_spec k w (length data) Hk) as (got & w1 & E & I1 & O1 & N1 & N2).
      rewrite E. cbn [bind fst snd].
      assert (Hg : (0 < length got)%nat). { apply N2; [lia|]. rewrite Hi. destruct data; [cbn in L; lia|discriminate]. }
      assert (exists data', data = got ++ data' /\ w_in w1 = data' ++ rest) as (data' & Ed & Ei).
      { exists (skipn (length got) data). rewrite Hi in I1.
        assert (firstn (length got) (data ++ rest) = got) as F by (rewrite I1; apply firstn_exact).
        rewrite firstn_app in F. replace (length got - length data)%nat with 0%nat in F by lia. cbn in F. rewrite app_nil_r in F.
        split; [rewrite <- F at 1; symmetry; apply firstn_skipn|].
        assert (skipn (length got) (data ++ rest) = w_in w1) as S by (rewrite I1; apply skipn_exact).
        rewrite skipn_app in S. replace (length got - length data)%nat with 0%nat in S by lia. cbn in S. congruence. }
      subst data. rewrite app_length in *.
      assert (Epost : pre ++ done ++ post = (pre ++ done) ++ firstn (length got) post ++ skipn (length got) post)
        by (rewrite firstn_skipn, app_assoc; reflexivity).
      rewrite Epost. rewrite <- Hp, <- app_length.
      rewrite wr_mid by (rewrite firstn_length; lia). cbn [bind].
      rewrite <- (app_length done got).
      replace ((pre ++ done) ++ got ++ skipn (length got) post) with (pre ++ (done ++ got) ++ skipn (length got) post)
        by (rewrite <- !app_assoc; reflexivity).
      replace (length done + (length got + length data'))%nat with (length (done ++ got) + length data')%nat by (rewrite app_length; lia).
      destruct (IH pre (done ++ got) (skipn (length got) post) w1 data' rest) as (w' & E' & I' & O'); try assumption.
      * rewrite skipn_length. lia.
      * lia.
      * rewrite Hp in *. exists w'. split; [|split; [exact I'|congruence]].
        rewrite E'. rewrite skipn_skipn', <- !app_assoc. rewrite (Nat.add_comm (length data')). reflexivity.
    + destruct data; [|cbn in L; lia]. exists w. cbn. auto.
Qed.

Lemma read_exact_short k off size : kernel_ok k -> forall fuel m bytes (w : world),
  (off + size <= length m)%nat -> (bytes + length (w_in w) < size)%nat ->
  read_exact k fuel w m off bytes size = NoFuel.
Proof.
  intros Hk. induction fuel as [|f IH]; intros m bytes w Hm Hs; cbn [read_exact];
    (destruct (Nat.ltb_spec bytes size); [|lia]); [reflexivity|].
  destruct (sys_read_spec k w (size - bytes) Hk) as (got & w1 & E & I1 & O1 & N1 & N2).
  rewrite E. cbn [bind fst snd]. rewrite I1, app_length in Hs.
  destruct (wr_Ok m (off + bytes) got ltac:(lia)) as (m' & Ew & Lm & _). rewrite Ew. cbn [bind].
  apply IH; lia.
Qed.

(** ** Batches *)
Section Laws.
  Context {B : Type} (ops : bufops B) (C unit : nat) (R : B -> nat -> nat -> Prop).
  Context (L : buf_laws ops C unit R) (k : kernel) (Hk : kernel_ok k) (HC : (0 < C)%nat) (Hu : (0 < unit)%nat).

  Lemma read_elems m : forall n, (n * unit <= length m)%nat ->
    map_res (fun o => rd m o unit) (map (fun i => i * unit)%nat (seq 0 n)) =
    Ok (map (fun i => firstn unit (skipn (i * unit) m)) (seq 0 n)).
  Proof.
    intros n Hn. rewrite <- (map_map (fun i => i * unit)%nat (fun o => firstn unit (skipn o m))).
    set (offs := map _ (seq 0 n)).
    assert (forall o, In o offs -> (o + unit <= length m)%nat) as Ho.
    { intros o Ho. apply in_map_iff in Ho. destruct Ho as (i & <- & Hi). apply in_seq in Hi. nia. }
    clearbody offs. induction offs as [|o offs IH]; [reflexivity|].
    cbn [map_res map]. rewrite rd_Ok by (apply Ho; left; reflexivity). cbn [bind].
    rewrite IH by (intros; apply Ho; right; assumption). reflexivity.
  Qed.

  Lemma chunks_concat : forall msgs tail, sized unit msgs ->
    map (fun i => firstn unit (skipn (i * unit) (concat msgs ++ tail))) (seq 0 (length msgs)) = msgs.
  Proof.
    induction msgs as [|x msgs IH]; intros tail Hs; [reflexivity|].
    inversion Hs as [|? ? Lx Hs']; subst x0 l. cbn [length seq map concat].
    rewrite Nat.mul_0_l. cbn [skipn]. f_equal.
    - rewrite <- app_assoc, <- Lx. apply firstn_exact.
    - rewrite <- seq_shift, map_map. transitivity (map (fun i => firstn unit (skipn (i * unit) (concat msgs ++ tail))) (seq 0 (length msgs))); [|exact (IH tail Hs')].
      apply map_ext. intros i.
      replace (S i * unit)%nat with (i * unit + unit)%nat by lia. rewrite <- skipn_skipn'.
      do 2 f_equal. rewrite <- app_assoc, <- Lx. apply skipn_exact.
  Qed.

  (** One iteration: [left] is in front of the memory, the stream continues it. *)
  Lemma read_buf_spec (w : world) count b m left : R b 0%nat (length left) -> (length left < unit)%nat ->
    (0 < count)%nat -> Z.of_nat count < 2 ^ 32 -> Z.of_nat unit < 2 ^ 32 ->
    (exists tail, m = left ++ tail) -> (C * unit <= length m)%nat ->
    exists got w1 b1 m1, read_buf ops k w count b m = Ok (b1, m1, w1) /\
      w_in w = got ++ w_in w1 /\ w_out w1 = w_out w /\
      (length left + length got <= count * unit)%nat /\
      (w_in w <> [] -> (0 < length got)%nat) /\
      R b1 ((length got + length left) / unit)%nat ((length got + length left) mod unit)%nat /\
      length m1 = length m /\ exists tail, m1 = (left ++ got) ++ tail.
  Proof.
    intros HR Hl Hc Hc2 Hu2 (tail & Em) Hm. unfold read_buf.
    rewrite (bl_capacity _ _ _ _ L _ _ _ HR), (bl_unit _ _ _ _ L _ _ _ HR), (bl_leftover _ _ _ _ L _ _ _ HR),
      (bl_tobuffer _ _ _ _ L _ _ _ HR).
    set (l := length left) in *.
    assert (Hcu : Z.of_nat (count * unit) < 2 ^ 64) by (rewrite Nat2Z.inj_mul; nia).
    assert (Hlc : (l < count * unit)%nat) by nia. assert (HlC : (l < C * unit)%nat) by nia.
    assert (w64 (Z.of_nat (count * unit) - Z.of_nat l) = Z.of_nat (count * unit - l)) as ->
      by (rewrite w64_id by (unfold u64; lia); lia).
    set (n := Z.to_nat _).
    assert (Hn : (0 < n /\ n <= C * unit - l /\ n <= count * unit - l)%nat).
    { unfold n. destruct (Z.ltb_spec (Z.of_nat (C * unit - l)) (Z.of_nat (count * unit - l))); lia. }
    unfold read_some. destruct (sys_read_spec k w n Hk) as (got & w1 & E & I1 & O1 & N1 & N2).
    rewrite E. cbn [bind fst snd]. rewrite Em.
    assert (Lt : (length got <= length tail)%nat) by (rewrite Em, app_length in Hm; fold l in Hm; lia).
    assert (Et : left ++ tail = left ++ firstn (length got) tail ++ skipn (length got) tail) by (rewrite firstn_skipn; reflexivity).
    rewrite Et. unfold l at 1. rewrite wr_mid by (rewrite firstn_length; lia). cbn [bind].
    exists got, w1, (bo_update ops b (length got)), (left ++ got ++ skipn (length got) tail).
    split; [reflexivity|]. split; [exact I1|]. split; [exact O1|]. split; [lia|]. split.
    - intros Hi. apply N2; [lia|exact Hi].
    - split; [exact (bl_update _ _ _ _ L _ _ _ _ HR)|]. split.
      + rewrite firstn_skipn. rewrite !app_length, skipn_length. lia.
      + exists (skipn (length got) tail). rewrite app_assoc. reflexivity.
  Qed.

  (** Delivering and clearing after an iteration. *)
  Lemma deliver_spec b1 m1 data tail : m1 = data ++ tail -> (C * unit <= length m1)%nat ->
    R b1 (length data / unit)%nat (length data mod unit)%nat ->
    exists offs b2 m2,
      bo_elems ops b1 = Ok offs /\
      map_res (fun o => rd m1 o (bo_unit ops b1)) offs =
        Ok (map (fun i => firstn unit (skipn (i * unit) data)) (seq 0 (length data / unit))) /\
      bo_clear ops b1 m1 = Ok (m2, b2) /\ R b2 0%nat (length data mod unit)%nat /\
      length m2 = length m1 /\
      exists tail2, m2 = skipn (length data / unit * unit) data ++ tail2.
  Proof.
    intros Em Hm HR. set (e := (length data / unit)%nat) in *. set (l := (length data mod unit)%nat) in *.
    assert (Hel : length data = (e * unit + l)%nat) by (apply div_split; exact Hu).
    assert (Hlu : (l < unit)%nat) by (apply Nat.mod_upper_bound; lia).
    rewrite (bl_unit _ _ _ _ L _ _ _ HR).
    destruct (bl_clear _ _ _ _ L _ _ _ m1 HR) as (b2 & HR2 & Ec).
    assert (exists m2, bo_clear ops b1 m1 = Ok (m2, b2) /\ length m2 = length m1 /\
              exists tail2, m2 = skipn (e * unit) data ++ tail2) as (m2 & Ec2 & Lm2 & Et2).
    { rewrite Ec. destruct (Nat.ltb_spec 0 e) as [He|He].
      + unfold memcpy_within. destruct (Nat.eqb_spec l 0) as [Hl0|Hl0].
        * cbn [bind]. exists m1. split; [reflexivity|]. split; [reflexivity|].
          exists m1. rewrite skipn_all2 by lia. reflexivity.
        * assert ((0 + l <=? e * unit)%nat = true) as -> by (apply Nat.leb_le; nia). cbn [orb].
          rewrite rd_Ok by (rewrite Em, app_length; lia). cbn [bind].
          set (x := firstn l (skipn (e * unit) m1)).
          assert (Ex : x = skipn (e * unit) data).
          { unfold x. rewrite Em, skipn_app, firstn_app, skipn_length.
            replace (l - (length data - e * unit))%nat with 0%nat by lia. cbn [firstn]. rewrite app_nil_r.
            apply firstn_all2. rewrite skipn_length. lia. }
          assert (Lx : length x = l) by (rewrite Ex, skipn_length; lia).
          destruct (wr_Ok m1 0 x) as (m2 & Ew & Lm2 & _); [rewrite Em, app_length; lia|].
          rewrite Ew. cbn [bind]. exists m2. split; [reflexivity|]. split; [exact Lm2|].
          unfold wr in Ew. destruct (0 + length x <=? length m1)%nat; inversion Ew. cbn [firstn app Nat.add].
          exists (skipn (length x) m1). rewrite <- Ex. reflexivity.
      + cbn [bind]. exists m1. split; [reflexivity|]. split; [reflexivity|].
        assert (e = 0%nat) as -> by lia. exists tail. cbn [Nat.mul skipn]. exact Em. }
    eexists _, b2, m2. split; [exact (bl_elems _ _ _ _ L _ _ _ HR)|]. split; [|auto].
    rewrite read_elems by (rewrite Em, app_length; lia). f_equal. apply map_ext_in. intros i Hi. apply in_seq in Hi.
    rewrite Em, skipn_app, firstn_app, skipn_length.
    replace (unit - (length data - i * unit))%nat with 0%nat by nia. cbn [firstn]. apply app_nil_r.
  Qed.

  Lemma skipn_sized msgs n : sized unit msgs -> skipn (n * unit) (concat msgs) = concat (skipn n msgs).
  Proof.
    intros Hs. revert n; induction Hs as [|x msgs Hx Hs IH]; intros n.
    - rewrite !skipn_nil. reflexivity.
    - destruct n; [reflexivity|]. cbn [concat skipn]. rewrite <- IH.
      replace (S n * unit)%nat with (n * unit + unit)%nat by lia. rewrite <- skipn_skipn'. f_equal.
      rewrite <- Hx. apply skipn_exact.
  Qed.
  Lemma sized_firstn msgs n : sized unit msgs -> sized unit (firstn n msgs).
  Proof. intros H. revert n; induction H; intros [|n]; cbn; try constructor; auto; apply IHForall. Qed.
  Lemma sized_skipn msgs n : sized unit msgs -> sized unit (skipn n msgs).
  Proof. intros H. revert n; induction H; intros [|n]; cbn; try constructor; auto; apply IHForall. Qed.

  Lemma read_batch_spec : forall fuel (w : world) b m left msgs rest,
    R b 0%nat (length left) -> (length left < unit)%nat ->
    Z.of_nat (length msgs) < 2 ^ 32 -> Z.of_nat unit < 2 ^ 32 ->
    (exists tail, m = left ++ tail) -> (C * unit <= length m)%nat ->
    sized unit msgs -> left ++ w_in w = concat msgs ++ rest -> (msgs = [] -> left = []) ->
    (length msgs * unit <= fuel + length left)%nat ->
    exists b' m' w', read_batch ops k fuel w (length msgs) b m = Ok (msgs, b', m', w') /\
      R b' 0%nat 0%nat /\ length m' = length m /\ w_in w' = rest /\ w_out w' = w_out w.
  Proof.
    induction fuel as [|f IH]; intros w b m left msgs rest HR Hl Hc Hu2 Hm Hmm Hs Hd H0 Hf.
    - destruct msgs as [|x msgs]; [|cbn in Hf; lia]. rewrite (H0 eq_refl) in *. cbn in Hd.
      exists b, m, w. cbn [read_batch length]. auto 10.
    - destruct msgs as [|x msgs0] eqn:Emsgs.
      { rewrite (H0 eq_refl) in *. cbn in Hd. exists b, m, w. cbn. auto 10. }
      rewrite <- Emsgs in *. set (count := length msgs) in *.
      assert (Hc0 : (0 < count)%nat) by (unfold count; rewrite Emsgs; cbn; lia).
      cbn [read_batch]. apply Nat.ltb_lt in Hc0 as Hc1. rewrite Hc1.
      destruct (read_buf_spec w count b m left HR Hl Hc0 Hc Hu2 Hm Hmm)
        as (got & w1 & b1 & m1 & E & I1 & O1 & N1 & N2 & HR1 & Lm1 & (tail & Em1)).
      rewrite E. cbn [bind].
      assert (Hlen : length (concat msgs) = (count * unit)%nat) by (apply sized_concat; exact Hs).
      assert (Hg : (0 < length got)%nat).
      { apply N2. intros Hi. rewrite Hi, app_nil_r in Hd.
        assert (length left = length (concat msgs ++ rest)) as X by (rewrite <- Hd; reflexivity). rewrite app_length, Hlen in X. nia. }
      set (data := left ++ got) in *.
      assert (Ld : length data = (length got + length left)%nat) by (unfold data; rewrite app_length; lia).
      rewrite <- Ld in HR1.
      destruct (deliver_spec b1 m1 data tail Em1 ltac:(lia) HR1) as (offs & b2 & m2 & Eo & Ex & Ec & HR2 & Lm2 & (tail2 & Em2)).
      rewrite Eo. cbn [bind]. rewrite Ex. cbn [bind]. rewrite Ec. cbn [bind fst snd].
      set (e := (length data / unit)%nat) in *. set (l := (length data mod unit)%nat) in *.
      assert (Hel : length data = (e * unit + l)%nat) by (apply div_split; exact Hu).
      assert (Hlu : (l < unit)%nat) by (apply Nat.mod_upper_bound; lia).
      assert (Hec : (e <= count)%nat) by nia.
      assert (Hda : data ++ w_in w1 = concat msgs ++ rest) by (unfold data; rewrite <- app_assoc, <- I1; exact Hd).
      assert (Hdata : data = concat (firstn e msgs) ++ skipn (e * unit) data).
      { rewrite <- (firstn_skipn (e * unit) data) at 1. f_equal.
        assert (firstn (e * unit) (data ++ w_in w1) = firstn (e * unit) (concat msgs ++ rest)) as X by (rewrite Hda; reflexivity).
        rewrite !firstn_app in X. replace (e * unit - length data)%nat with 0%nat in X by lia.
        replace (e * unit - length (concat msgs))%nat with 0%nat in X by nia. cbn in X. rewrite !app_nil_r in X. rewrite X.
        rewrite <- (firstn_skipn e msgs) at 1. rewrite concat_app.
        assert (length (concat (firstn e msgs)) = (e * unit)%nat) as Lc.
        { rewrite (sized_concat unit) by (apply sized_firstn; exact Hs). rewrite firstn_length. unfold count in *. nia. }
        rewrite <- Lc. apply firstn_exact. }
      assert (Hchunks : map (fun i => firstn unit (skipn (i * unit) data)) (seq 0 e) = firstn e msgs).
      { pose proof (chunks_concat (firstn e msgs) (skipn (e * unit) data) (sized_firstn msgs e Hs)) as X.
        rewrite firstn_length in X. replace (Nat.min e (length msgs)) with e in X by (unfold count in *; lia).
        rewrite <- Hdata in X. exact X. }
      rewrite Hchunks. rewrite firstn_length. replace (Nat.min e (length msgs)) with e by (unfold count in *; lia).
      assert (Hrem : (count - e)%nat = length (skipn e msgs)) by (rewrite skipn_length; reflexivity).
      rewrite Hrem.
      assert (Ll : length (skipn (e * unit) data) = l) by (rewrite skipn_length; lia).
      destruct (IH w1 b2 m2 (skipn (e * unit) data) (skipn e msgs) rest) as (b' & m' & w' & E' & HR' & Lm' & I' & O').
      + rewrite Ll. exact HR2.
      + lia.
      + rewrite skipn_length. unfold count in *. lia.
      + exact Hu2.
      + exists tail2. exact Em2.
      + lia.
      + apply sized_skipn. exact Hs.
      + rewrite Hdata in Hda. rewrite <- app_assoc in Hda.
        assert (Hcm : concat msgs = concat (firstn e msgs) ++ concat (skipn e msgs))
          by (rewrite <- concat_app, firstn_skipn; reflexivity).
        rewrite Hcm, <- app_assoc in Hda.
        assert (X : forall (a b c : list Z), a ++ b = a ++ c -> b = c) by (intros; eapply app_inv_head; eassumption).
        apply X in Hda. exact Hda.
      + intros He. assert (e = count) by (assert (length (skipn e msgs) = 0%nat) by (rewrite He; reflexivity); lia).
        assert (l = 0%nat) by nia. destruct (skipn (e * unit) data); [reflexivity|cbn in Ll; lia].
      + rewrite Ll, <- Hrem. nia.
      + exists b', m', w'. rewrite E'. cbn [bind]. rewrite firstn_skipn.
        split; [reflexivity|]. split; [exact HR'|]. split; [lia|]. split; [exact I'|]. congruence.
  Qed.

  Lemma read_batch_short : forall fuel (w : world) count b m left,
    R b 0%nat (length left) -> (length left < unit)%nat ->
    Z.of_nat count < 2 ^ 32 -> Z.of_nat unit < 2 ^ 32 ->
    (exists tail, m = left ++ tail) -> (C * unit <= length m)%nat ->
    (length left + length (w_in w) < count * unit)%nat ->
    read_batch ops k fuel w count b m = NoFuel.
  Proof.
    induction fuel as [|f IH]; intros w count b m left HR Hl Hc Hu2 Hm Hmm Hs.
    - cbn [read_batch]. destruct (Nat.ltb_spec 0 count); [reflexivity|]. nia.
    - assert (Hc0 : (0 < count)%nat) by nia.
      cbn [read_batch]. apply Nat.ltb_lt in Hc0 as Hc1. rewrite Hc1.
      destruct (read_buf_spec w count b m left HR Hl Hc0 Hc Hu2 Hm Hmm)
        as (got & w1 & b1 & m1 & E & I1 & O1 & N1 & N2 & HR1 & Lm1 & (tail & Em1)).
      rewrite E. cbn [bind]. set (data := left ++ got) in *.
      assert (Ld : length data = (length got + length left)%nat) by (unfold data; rewrite app_length; lia).
      rewrite <- Ld in HR1.
      destruct (deliver_spec b1 m1 data tail Em1 ltac:(lia) HR1) as (offs & b2 & m2 & Eo & Ex & Ec & HR2 & Lm2 & (tail2 & Em2)).
      rewrite Eo. cbn [bind]. rewrite Ex. cbn [bind]. rewrite Ec. cbn [bind fst snd].
      rewrite map_length, seq_length.
      set (e := (length data / unit)%nat) in *. set (l := (length data mod unit)%nat) in *.
      assert (Hel : length data = (e * unit + l)%nat) by (apply div_split; exact Hu).
      assert (Hlu : (l < unit)%nat) by (apply Nat.mod_upper_bound; lia).
      assert (Ll : length (skipn (e * unit) data) = l) by (rewrite skipn_length; lia).
      rewrite (IH w1 (count - e)%nat b2 m2 (skipn (e * unit) data)); [reflexivity|..].
      + rewrite Ll. exact HR2.
      + lia.
      + lia.
      + exact Hu2.
      + exists tail2. exact Em2.
      + lia.
      + rewrite Ll. rewrite I1, app_length in Hs. nia.
  Qed.

  (** ** Writing *)
  Lemma flush_spec (w : world) b m pending tail : R b (length pending) 0%nat -> sized unit pending ->
    m = concat pending ++ tail ->
    exists b' w', flush ops k w b m = Ok (b', m, w') /\ R b' 0%nat 0%nat /\ w_in w' = w_in w /\
      w_out w' = w_out w ++ concat pending.
  Proof.
    intros HR Hs Em. unfold flush.
    rewrite (bl_bytes _ _ _ _ L _ _ _ HR), (bl_tobuffer _ _ _ _ L _ _ _ HR).
    pose proof (sized_concat _ _ Hs) as Lc.
    destruct (send_all_spec k m 0 (length pending * unit) Hk) with (fuel := (length pending * unit)%nat) (sent := 0%nat) (w := w)
      as (w' & E & I' & O'); [rewrite Em, app_length; lia|lia|lia|].
    rewrite E. cbn [bind].
    destruct (bl_clear _ _ _ _ L _ _ _ m HR) as (b2 & HR2 & Ec). rewrite Ec.
    assert ((if (0 <? length pending)%nat then memcpy_within m 0 (length pending * unit) 0 else Ok m) = Ok m) as ->
      by (destruct (0 <? length pending)%nat; reflexivity).
    cbn [bind fst snd]. exists b2, w'. split; [reflexivity|]. split; [exact HR2|]. split; [exact I'|].
    rewrite O'. f_equal. rewrite Nat.sub_0_r. cbn [Nat.add skipn]. rewrite Em, <- Lc. apply firstn_exact.
  Qed.

  Lemma send_batch_spec (msgs : list (list Z)) : sized unit msgs -> forall (w : world) b m pending tail,
    R b (length pending) 0%nat -> (length pending < C)%nat -> sized unit pending ->
    m = concat pending ++ tail -> (C * unit <= length m)%nat ->
    exists b' m' w', send_batch ops k w b m msgs = Ok (b', m', w') /\ R b' 0%nat 0%nat /\ length m' = length m /\
      w_in w' = w_in w /\ w_out w' = w_out w ++ concat pending ++ concat msgs.
  Proof.
    unfold send_batch. induction 1 as [|v msgs Hv Hs IH]; intros w b m pending tail HR Hp Hps Em Hm.
    - cbn [fold_res bind]. destruct (flush_spec w b m pending tail HR Hps Em) as (b' & w' & E & HR' & I' & O').
      exists b', m, w'. cbn [concat]. rewrite app_nil_r. auto.
    - cbn [fold_res]. unfold send_msg at 1.
      destruct (bl_push _ _ _ _ L _ _ _ m v HR) as (b1 & HR1 & Ep). rewrite Ep.
      rewrite rd_Ok by lia. cbn [bind skipn]. rewrite firstn_all2 by lia.
      pose proof (sized_concat _ _ Hps) as Lc.
      assert (Lt : (unit <= length tail)%nat) by (rewrite Em, app_length in Hm; nia).
      assert (Et : m = concat pending ++ firstn unit tail ++ skipn unit tail) by (rewrite firstn_skipn; exact Em).
      rewrite Et, <- Lc, wr_mid by (rewrite firstn_length; lia). cbn [bind fst snd].
      rewrite (bl_full _ _ _ _ L _ _ _ HR1).
      set (m1 := concat pending ++ v ++ skipn unit tail).
      assert (Em1 : m1 = concat (pending ++ [v]) ++ skipn unit tail) by (unfold m1; rewrite concat_app; cbn [concat]; rewrite app_nil_r, app_assoc; reflexivity).
      assert (Lm1 : length m1 = length m) by (unfold m1; rewrite Em, !app_length, skipn_length; lia).
      assert (Hps1 : sized unit (pending ++ [v])) by (apply Forall_app; split; [exact Hps|constructor; [exact Hv|constructor]]).
      destruct (Nat.eqb_spec (S (length pending)) C) as [Ef|Ef].
      + destruct (flush_spec w b1 m1 (pending ++ [v]) (skipn unit tail)) as (b2 & w2 & E2 & HR2 & I2 & O2).
        * rewrite app_length. cbn [length]. rewrite Nat.add_1_r. exact HR1.
        * exact Hps1.
        * exact Em1.
        * fold m1. rewrite E2. cbn [bind].
          destruct (IH w2 b2 m1 [] m1) as (b' & m' & w' & E' & HR' & Lm' & I' & O'); try (cbn; assumption || lia || reflexivity).
          { constructor. }
          exists b', m', w'. split; [exact E'|]. split; [exact HR'|]. split; [rewrite <- Et; lia|]. split; [congruence|].
          rewrite O', O2. cbn [concat app]. rewrite concat_app. cbn [concat]. rewrite app_nil_r, <- !app_assoc. reflexivity.
      + cbn [bind].
        destruct (IH w b1 m1 (pending ++ [v]) (skipn unit tail)) as (b' & m' & w' & E' & HR' & Lm' & I' & O').
        * rewrite app_length. cbn [length]. rewrite Nat.add_1_r. exact HR1.
        * rewrite app_length. cbn [length]. lia.
        * exact Hps1.
        * exact Em1.
        * lia.
        * exists b', m', w'. fold m1. split; [exact E'|]. split; [exact HR'|]. split; [rewrite <- Et; lia|]. split; [exact I'|].
          rewrite O', concat_app. cbn [concat]. rewrite app_nil_r, <- !app_assoc. reflexivity.
  Qed.
End Laws.

(** ** Instances *)
Lemma cap_facts sz unit : (0 < unit <= sz)%nat -> (0 < sz / unit)%nat /\ (sz / unit * unit <= sz)%nat.
Proof.
  intros H. split; [apply Nat.div_str_pos; lia|]. rewrite (div_split sz unit ltac:(lia)) at 2. apply Nat.le_add_r.
Qed.

Lemma lb_send k w sz unit m msgs : kernel_ok k -> (0 < unit <= sz)%nat -> length m = sz -> sized unit msgs ->
  exists m' w', send_batch lb_ops k w (lb_make sz unit) m msgs = Ok (lb_make sz unit, m', w') /\
    length m' = sz /\ w_in w' = w_in w /\ w_out w' = w_out w ++ concat msgs.
Proof.
  intros Hk Hu Hm Hs. destruct (cap_facts sz unit Hu) as (HC & Hcu).
  destruct (send_batch_spec lb_ops _ _ _ (lb_laws (sz / unit) unit) k Hk HC ltac:(lia) msgs Hs w (lb_make sz unit) m [] m)
    as (b' & m' & w' & E & HR & Lm & I' & O'); try (reflexivity || exact HC || (rewrite Hm; exact Hcu) || constructor).
  - exists m', w'. rewrite HR in E. rewrite E. split; [reflexivity|]. split; [lia|]. auto.
Qed.
Lemma cl_send k w sz unit m msgs : kernel_ok k -> (0 < unit <= sz)%nat -> length m = sz -> sized unit msgs ->
  exists m' w', send_batch cl_ops k w (cl_make sz unit) m msgs = Ok (cl_make sz unit, m', w') /\
    length m' = sz /\ w_in w' = w_in w /\ w_out w' = w_out w ++ concat msgs.
Proof.
  intros Hk Hu Hm Hs. destruct (cap_facts sz unit Hu) as (HC & Hcu).
  destruct (send_batch_spec cl_ops _ _ _ (cl_laws (sz / unit) unit ltac:(lia)) k Hk HC ltac:(lia) msgs Hs w (cl_make sz unit) m [] m)
    as (b' & m' & w' & E & HR & Lm & I' & O'); try (reflexivity || exact HC || (rewrite Hm; exact Hcu) || constructor).
  - apply cl_make_rel. lia.
  - exists m', w'. assert (b' = cl_make sz unit) as -> by (rewrite HR; symmetry; apply cl_make_rel; lia). rewrite E.
    split; [reflexivity|]. split; [lia|]. auto.
Qed.

Lemma lb_read k fuel (w : world) sz unit m msgs rest : kernel_ok k -> (0 < unit <= sz)%nat -> Z.of_nat unit < 2 ^ 32 ->
  length m = sz -> sized unit msgs -> Z.of_nat (length msgs) < 2 ^ 32 -> (length msgs * unit <= fuel)%nat ->
  w_in w = concat msgs ++ rest ->
  exists m' w', read_batch lb_ops k fuel w (length msgs) (lb_make sz unit) m = Ok (msgs, lb_make sz unit, m', w') /\
    length m' = sz /\ w_in w' = rest /\ w_out w' = w_out w.
Proof.
  intros Hk Hu Hu2 Hm Hs Hc Hf Hi. destruct (cap_facts sz unit Hu) as (HC & Hcu).
  destruct (read_batch_spec lb_ops _ _ _ (lb_laws (sz / unit) unit) k Hk HC ltac:(lia) fuel w (lb_make sz unit) m [] msgs rest)
    as (b' & m' & w' & E & HR & Lm & I' & O'); try (reflexivity || assumption || (rewrite Hm; exact Hcu) || (cbn; lia)).
  - exists m. reflexivity.
  - exists m', w'. rewrite HR in E. rewrite E. split; [reflexivity|]. split; [lia|]. auto.
Qed.
Lemma cl_read k fuel (w : world) sz unit m msgs rest : kernel_ok k -> (0 < unit <= sz)%nat -> Z.of_nat unit < 2 ^ 32 ->
  length m = sz -> sized unit msgs -> Z.of_nat (length msgs) < 2 ^ 32 -> (length msgs * unit <= fuel)%nat ->
  w_in w = concat msgs ++ rest ->
  exists m' w', read_batch cl_ops k fuel w (length msgs) (cl_make sz unit) m = Ok (msgs, cl_make sz unit, m', w') /\
    length m' = sz /\ w_in w' = rest /\ w_out w' = w_out w.
Proof.
  intros Hk Hu Hu2 Hm Hs Hc Hf Hi. destruct (cap_facts sz unit Hu) as (HC & Hcu).
  destruct (read_batch_spec cl_ops _ _ _ (cl_laws (sz / unit) unit ltac:(lia)) k Hk HC ltac:(lia) fuel w (cl_make sz unit) m [] msgs rest)
    as (b' & m' & w' & E & HR & Lm & I' & O'); try (reflexivity || assumption || (rewrite Hm; exact Hcu) || (cbn; lia)).
  - apply cl_make_rel. lia.
  - exists m. reflexivity.
  - exists m', w'. assert (b' = cl_make sz unit) as -> by (rewrite HR; symmetry; apply cl_make_rel; lia). rewrite E.
    split; [reflexivity|]. split; [lia|]. auto.
Qed.

Lemma lb_read_short k fuel (w : world) sz unit m count : kernel_ok k -> (0 < unit <= sz)%nat -> Z.of_nat unit < 2 ^ 32 ->
  length m = sz -> Z.of_nat count < 2 ^ 32 -> (length (w_in w) < count * unit)%nat ->
  read_batch lb_ops k fuel w count (lb_make sz unit) m = NoFuel.
Proof.
  intros Hk Hu Hu2 Hm Hc Hi. destruct (cap_facts sz unit Hu) as (HC & Hcu).
  eapply (read_batch_short lb_ops _ _ _ (lb_laws (sz / unit) unit) k Hk HC ltac:(lia)) with (left := []);
    try (reflexivity || assumption || (rewrite Hm; exact Hcu) || (cbn; lia)).
  - exists m. reflexivity.
Qed.
Lemma cl_read_short k fuel (w : world) sz unit m count : kernel_ok k -> (0 < unit <= sz)%nat -> Z.of_nat unit < 2 ^ 32 ->
  length m = sz -> Z.of_nat count < 2 ^ 32 -> (length (w_in w) < count * unit)%nat ->
  read_batch cl_ops k fuel w count (cl_make sz unit) m = NoFuel.
Proof.
  intros Hk Hu Hu2 Hm Hc Hi. destruct (cap_facts sz unit Hu) as (HC & Hcu).
  eapply (read_batch_short cl_ops _ _ _ (cl_laws (sz / unit) unit ltac:(lia)) k Hk HC ltac:(lia)) with (left := []);
    try (reflexivity || assumption || (rewrite Hm; exact Hcu) || (cbn; lia)).
  - apply cl_make_rel. lia.
  - exists m. reflexivity.
Qed.

Lemma read_count_spec k fuel (w : world) n rest : kernel_ok k -> u32 n -> (4 <= fuel)%nat -> w_in w = le 4 n ++ rest ->
  exists w', read_count_ k fuel w = Ok (n, w') /\ w_in w' = rest /\ w_out w' = w_out w.
Proof.
  intros Hk Hn Hf Hi. unfold read_count_.
  destruct (read_exact_spec k 0 Hk fuel [] [] (repeat 0 4) w (le 4 n) rest) as (w' & E & I' & O'); try (reflexivity || assumption).
  rewrite length_le in E. cbn [app length Nat.add] in E. rewrite E. cbn [bind fst snd].
  exists w'. split; [|auto]. do 2 f_equal. cbn [skipn repeat]. rewrite app_nil_r. apply of_le_le_small. exact Hn.
Qed.
Lemma wait_ready_byte a k fuel (w : world) x rest : kernel_ok k -> (1 <= fuel)%nat -> w_in w = x :: rest ->
  if a && negb (x =? 1) then wait_ready a k fuel w = Abort
  else exists w', wait_ready a k fuel w = Ok w' /\ w_in w' = rest /\ w_out w' = w_out w.
Proof.
  intros Hk Hf Hi. unfold wait_ready.
  destruct (read_exact_spec k 0 Hk fuel [] [] [0] w [x] rest) as (w' & E & I' & O'); try (reflexivity || assumption).
  cbn [app length Nat.add skipn] in E. rewrite E. cbn. destruct a, (x =? 1); cbn; try reflexivity; exists w'; auto.
Qed.
Lemma wait_ready_spec a k fuel (w : world) rest : kernel_ok k -> (1 <= fuel)%nat -> w_in w = 1 :: rest ->
  exists w', wait_ready a k fuel w = Ok w' /\ w_in w' = rest /\ w_out w' = w_out w.
Proof.
  intros Hk Hf Hi. pose proof (wait_ready_byte a k fuel w 1 rest Hk Hf Hi) as H. cbn [Z.eqb Pos.eqb negb] in H.
  rewrite andb_false_r in H. exact H.
Qed.
Lemma wait_ready_short a k fuel (w : world) : kernel_ok k -> w_in w = [] -> wait_ready a k fuel w = NoFuel.
Proof.
  intros Hk Hi. unfold wait_ready. rewrite (read_exact_short k 0 1 Hk fuel [0] 0 w); [reflexivity|cbn; lia|rewrite Hi; cbn; lia].
Qed.
Lemma send_count_spec k (w : world) n : kernel_ok k ->
  exists w', send_count k w n = Ok w' /\ w_in w' = w_in w /\ w_out w' = w_out w ++ le 4 n.
Proof.
  intros Hk. unfold send_count. destruct (send_all_spec k (le 4 n) 0 4 Hk) with (fuel := 4%nat) (sent := 0%nat) (w := w) as (w' & E & I' & O').
  - rewrite length_le. lia.
  - lia.
  - lia.
  - exists w'. split; [exact E|]. split; [exact I'|]. rewrite O'. reflexivity.
Qed.
Lemma send_ready_spec k (w : world) : kernel_ok k ->
  exists w', send_ready k w = Ok w' /\ w_in w' = w_in w /\ w_out w' = w_out w ++ [1].
Proof.
  intros Hk. unfold send_ready. destruct (send_all_spec k [1] 0 1 Hk) with (fuel := 1%nat) (sent := 0%nat) (w := w) as (w' & E & I' & O');
    try (cbn; lia). exists w'. auto.
Qed.

Lemma c34_phases a k fuel (w : world) sz uc uq m ciphers queries n rest : kernel_ok k ->
  (0 < uc <= sz)%nat -> (0 < uq <= sz)%nat -> Z.of_nat sz < 2 ^ 32 ->
  length m = sz -> sized uc ciphers -> sized uq queries -> u32 n ->
  Z.of_nat (length ciphers) < 2 ^ 32 -> Z.of_nat (length queries) < 2 ^ 32 ->
  (length ciphers * uc <= fuel)%nat -> (length queries * uq <= fuel)%nat -> (4 <= fuel)%nat ->
  w_in w = concat ciphers ++ 1 :: concat queries ++ le 4 n ++ rest ->
  exists w', w_in w' = rest /\
   (let* (cs, _, m1, w1) := read_batch cl_ops k fuel w (length ciphers) (cl_make sz uc) m in
    let* w2 := wait_ready a k fuel w1 in
    let* (qs, _, m2, w3) := read_batch lb_ops k fuel w2 (length queries) (lb_make sz uq) m1 in
    let* (c, w4) := read_count_ k fuel w3 in
    Ok (cs, qs, c, w4)) = Ok (ciphers, queries, n, w').
Proof.
  intros Hk Huc Huq Hsz Hm Hsc Hsq Hn Hlc Hlq Hf1 Hf2 Hf3 Hi.
  destruct (cl_read k fuel w sz uc m ciphers _ Hk Huc ltac:(lia) Hm Hsc Hlc Hf1 Hi) as (m1 & w1 & E1 & L1 & I1 & O1).
  destruct (wait_ready_spec a k fuel w1 _ Hk ltac:(lia) I1) as (w2 & E2 & I2 & O2).
  destruct (lb_read k fuel w2 sz uq m1 queries _ Hk Huq ltac:(lia) L1 Hsq Hlq Hf2 I2) as (m2 & w3 & E3 & L3 & I3 & O3).
  destruct (read_count_spec k fuel w3 n rest Hk Hn Hf3 I3) as (w4 & E4 & I4 & O4).
  exists w4. split; [exact I4|]. rewrite E1. cbn [bind]. rewrite E2. cbn [bind]. rewrite E3. cbn [bind]. rewrite E4. reflexivity.
Qed.
