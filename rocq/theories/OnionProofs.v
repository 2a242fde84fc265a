(** Proofs about [Onion]. *)
From Verif Require Import Base BaseProofs Incremental Wire WireProofs Additive AdditiveProofs Onion.

Lemma Csz k : cipher_size k = (k * 124)%nat.
Proof. unfold cipher_size, SECRET_SIZE, SEALBYTES; lia. Qed.
Global Opaque cipher_size.

Lemma wf_osecret_enc s : wf_osecret s -> bytes 76 (enc_osecret s).
Proof.
  intros H. pose proof (osecret_roundtrip s H) as [L _]. split; [exact L|].
  destruct s as [t n [x y] p]. destruct H as (_ & _ & _ & _ & _ & Hb). cbn in Hb.
  unfold enc_osecret. cbn [o_tag o_next o_share o_preshare sx sy].
  repeat (apply Forall_app; split); auto using le_bytes.
Qed.

Lemma wr_exact m off bs : (off + length bs <= length m)%nat ->
  wr m off bs = Ok (firstn off m ++ bs ++ skipn (off + length bs) m).
Proof. intros H. unfold wr. apply Nat.leb_le in H. rewrite H. reflexivity. Qed.

(** What peeling a cipher layer by layer must show. *)
Fixpoint peels (b : sealbox) (keys : list (list Z * list Z)) (secrets : list osecret) (c : list Z) : Prop :=
  match keys, secrets with
  | [], [] => c = []
  | (pk, sk) :: ks, s :: ss =>
      length c = (124 * length keys)%nat /\
      exists c', onion_decrypt b true c (length keys) pk sk = Ok (s, c') /\
                 length c' = (124 * length ks)%nat /\ peels b ks ss c'
  | _, _ => False
  end.

Lemma peels_length b keys ss c : peels b keys ss c -> length c = (124 * length keys)%nat.
Proof.
  destruct keys as [|[pk sk] ks], ss as [|s ss]; cbn [peels]; try tauto.
  intros ->. reflexivity.
Qed.

Lemma decrypt_sealed b coin pk sk s rest c k :
  box_ok b pk sk -> wf_osecret s -> Forall byte rest ->
  length rest = cipher_size k ->
  box_seal b coin pk (enc_osecret s ++ rest) = Some c ->
  onion_decrypt b true c (S k) pk sk = Ok (s, rest).
Proof.
  intros Hb Hs Hr Hl Hc.
  destruct (wf_osecret_enc s Hs) as [Le Be].
  destruct (Hb coin (enc_osecret s ++ rest)) as (c' & E & Lc & Bc & Eo).
  { apply Forall_app; auto. }
  rewrite E in Hc. inversion Hc; subst c'. clear Hc.
  unfold onion_decrypt.
  assert (Lt : length c = cipher_size (S k)).
  { rewrite Lc, app_length, Le, Hl, !Csz. unfold SEALBYTES. lia. }
  destruct (Nat.ltb_spec (cipher_size (S k)) SEALBYTES) as [L|L].
  { rewrite Csz in L. unfold SEALBYTES in L. lia. }
  rewrite rd_Ok by lia. cbn [bind skipn]. rewrite firstn_all2 by lia. rewrite Eo.
  rewrite rd_Ok by (rewrite app_length, Le; unfold SECRET_SIZE; lia). cbn [bind skipn].
  unfold SECRET_SIZE.
  rewrite firstn_app_exact by exact Le. rewrite skipn_app_exact by exact Le.
  destruct (osecret_roundtrip s Hs) as [_ ->]. reflexivity.
Qed.

Lemma onion_loop_spec b coins secrets first total pkeys skeys :
  forall i inb outb,
  total = cipher_size (length secrets) ->
  (i <= length secrets)%nat ->
  (first + length secrets <= 256)%nat ->
  Forall wf_osecret secrets ->
  (forall k, (k < length secrets)%nat -> exists pk sk,
      nth_error pkeys (first + k) = Some pk /\ nth_error skeys (first + k) = Some sk /\ box_ok b pk sk) ->
  length inb = total -> length outb = total ->
  Forall byte (skipn (cipher_size i) inb) ->
  peels b (combine (skipn (first + i) pkeys) (firstn (length secrets - i) (skipn (first + i) skeys)))
        (skipn i secrets) (skipn (cipher_size i) inb) ->
  exists inb' outb',
    onion_loop b true coins secrets first total pkeys i inb outb (cipher_size i) = Ok (inb', outb', 0%nat) /\
    length inb' = total /\ Forall byte inb' /\
    peels b (combine (skipn first pkeys) (firstn (length secrets) (skipn first skeys))) secrets inb'.
Proof.
  induction i as [|i IH]; intros inb outb Htot Hi Hf Hw Hk Li Lo Hb Hp.
  - exists inb, outb. cbn [onion_loop].
    replace (cipher_size 0) with 0%nat in * by (rewrite !Csz; lia).
    cbn [skipn] in *. rewrite Nat.add_0_r, Nat.sub_0_r in Hp. repeat split; auto.
  - assert (Hi' : (i < length secrets)%nat) by lia.
    cbn [onion_loop].
    destruct (get_lt secrets i Hi') as (s & Es & Ns). rewrite Es. cbn [bind].
    assert (Ws : wf_osecret s).
    { rewrite Forall_forall in Hw. apply Hw. eapply nth_error_In; eauto. }
    destruct (wf_osecret_enc s Ws) as [Le Be].
    destruct (Hk i Hi') as (pk & sk & Np & Nk & Hbox).
    destruct (Nat.ltb_spec (cipher_size (S i)) SECRET_SIZE) as [L|_];
      [rewrite Csz in L; unfold SECRET_SIZE in L; lia|].
    set (off1 := (cipher_size (S i) - SECRET_SIZE)%nat).
    assert (Hoff1 : off1 = (124 * i + 48)%nat) by (unfold off1, SECRET_SIZE; rewrite !Csz; lia).
    assert (Htot' : (off1 + 76 <= total)%nat) by (rewrite Htot, Csz, Hoff1; lia).
    rewrite wr_exact by (rewrite Le; lia). cbn [bind].
    set (inb1 := firstn off1 inb ++ enc_osecret s ++ skipn (off1 + length (enc_osecret s)) inb).
    replace (Z.to_nat (w8 (Z.of_nat (first + i)))) with (first + i)%nat
      by (rewrite w8_id by (unfold u8; lia); lia).
    unfold get. rewrite Np. cbn [bind].
    set (rest := skipn (cipher_size (S i)) inb) in *.
    assert (Lrest : length rest = cipher_size (length secrets - S i)).
    { unfold rest. rewrite skipn_length, Li, Htot, !Csz. lia. }
    assert (Lin1 : length inb1 = total).
    { unfold inb1. rewrite !app_length, firstn_length, skipn_length, Le. lia. }
    rewrite rd_Ok by lia. cbn [bind].
    assert (Em : firstn (total - off1) (skipn off1 inb1) = enc_osecret s ++ rest).
    { unfold inb1. rewrite skipn_app_exact by (rewrite firstn_length; lia).
      rewrite firstn_all2.
      - f_equal. unfold rest. rewrite Le. f_equal. rewrite !Csz. lia.
      - rewrite app_length, skipn_length, Le. lia. }
    rewrite Em.
    destruct (Hbox (coins i) (enc_osecret s ++ rest)) as (c & Ec & Lc & Bc & Eo).
    { apply Forall_app; auto. }
    rewrite Ec.
    destruct (Nat.ltb_spec off1 SEALBYTES) as [L|_]; [unfold SEALBYTES in L; lia|].
    assert (Lc' : length c = cipher_size (length secrets - i)).
    { rewrite Lc, app_length, Le, Lrest, !Csz. unfold SEALBYTES. lia. }
    assert (Ho2 : (off1 - SEALBYTES)%nat = cipher_size i).
    { rewrite Csz. unfold SEALBYTES. lia. }
    rewrite Ho2.
    rewrite wr_exact by (rewrite Lc', Htot in *; rewrite !Csz in *; lia). cbn [bind].
    set (outb1 := firstn (cipher_size i) outb ++ c ++ skipn (cipher_size i + length c) outb).
    assert (So : skipn (cipher_size i) outb1 = c).
    { unfold outb1.
      rewrite skipn_app_exact by (rewrite firstn_length; rewrite Lo, Htot, !Csz; lia).
      rewrite skipn_all2 by (rewrite Lo, Lc', Htot, !Csz; lia). apply app_nil_r. }
    apply IH; auto; try lia.
    + unfold outb1. rewrite !app_length, firstn_length, skipn_length, Lo, Lc', Htot, !Csz. lia.
    + rewrite So. exact Bc.
    + rewrite So.
      (* one more layer *)
      assert (Sk : skipn i secrets = s :: skipn (S i) secrets).
      { clear - Ns. revert i Ns; induction secrets as [|a d IHd]; intros [|i] Ns; cbn in *; try discriminate.
        - inversion Ns; reflexivity.
        - apply IHd; auto. }
      assert (Sn : forall A (l : list A) n a, nth_error l n = Some a -> skipn n l = a :: skipn (S n) l).
      { clear. intros A l. induction l as [|x d IHd]; intros [|n] a Ns; cbn in *; try discriminate.
        - inversion Ns; reflexivity.
        - apply IHd; auto. }
      rewrite Sk, (Sn _ _ _ _ Np), (Sn _ _ _ _ Nk).
      replace (length secrets - i)%nat with (S (length secrets - S i)) by lia.
      cbn [firstn combine].
      replace (S (first + i)) with (first + S i)%nat by lia.
      set (ks := combine (skipn (first + S i) pkeys)
                   (firstn (length secrets - S i) (skipn (first + S i) skeys))) in *.
      assert (Lks : length ks = (length secrets - S i)%nat).
      { pose proof (peels_length _ _ _ _ Hp) as Q. rewrite Lrest, Csz in Q. lia. }
      cbn [peels length]. rewrite Lks. split; [rewrite Lc', Csz; lia|].
      exists rest. split; [|split; [rewrite Lrest, Csz; lia|exact Hp]].
      apply (decrypt_sealed b (coins i) pk sk s rest c); auto.
Qed.

(** [keys]: the key pairs of parties first, first+1, ... *)
Lemma onion_encrypt_spec b coins j1 j2 secrets first count pkeys skeys :
  (first + length secrets = count)%nat -> (count <= 255)%nat ->
  length pkeys = count -> length skeys = count ->
  Forall wf_osecret secrets ->
  (forall k pk sk, nth_error pkeys k = Some pk -> nth_error skeys k = Some sk -> box_ok b pk sk) ->
  exists c, onion_encrypt b true coins j1 j2 secrets first count pkeys = Ok c /\
    length c = (124 * length secrets)%nat /\ Forall byte c /\
    peels b (skipn first (combine pkeys skeys)) secrets c.
Proof.
  intros Hc Hcnt Lp Ls Hw Hk. unfold onion_encrypt.
  assert (Hp : Z.to_nat (w8 (Z.of_nat count - Z.of_nat first)) = length secrets).
  { rewrite w8_id by (unfold u8; lia). lia. }
  rewrite Hp.
  set (n := length secrets) in *.
  destruct (onion_loop_spec b coins secrets first (cipher_size n) pkeys skeys n
             (map j2 (seq 0 (cipher_size n))) (map j1 (seq 0 (cipher_size n))))
    as (inb' & outb' & E & L & B & P); auto; try lia.
  - fold n. intros k Hlt.
    destruct (nth_error pkeys (first + k)) as [pk|] eqn:E1; [|apply nth_error_None in E1; lia].
    destruct (nth_error skeys (first + k)) as [sk|] eqn:E2; [|apply nth_error_None in E2; lia].
    exists pk, sk. repeat split; auto. eapply Hk; eauto.
  - rewrite map_length, seq_length. reflexivity.
  - rewrite map_length, seq_length. reflexivity.
  - rewrite skipn_all2 by (rewrite map_length, seq_length; lia). constructor.
  - fold n. rewrite Nat.sub_diag. cbn [firstn].
    replace (combine (skipn (first + n) pkeys) []) with (@nil (list Z * list Z))
      by (destruct (skipn (first + n) pkeys); reflexivity).
    rewrite (skipn_all2 (n:=n) secrets) by (unfold n; lia).
    rewrite skipn_all2 by (rewrite map_length, seq_length; lia). reflexivity.
  - rewrite E. cbn [bind]. cbn [andb Nat.eqb negb].
    exists inb'. split; [reflexivity|]. split; [rewrite L, Csz; lia|].
    split; [exact B|]. fold n in P.
    rewrite (firstn_all2 (n:=n)) in P by (rewrite skipn_length; lia).
    replace (skipn first (combine pkeys skeys)) with (combine (skipn first pkeys) (skipn first skeys)); auto.
    clear. revert pkeys skeys. induction first as [|f IH]; intros [|p pk] [|s sk]; cbn; auto.
    destruct (skipn f pk); reflexivity.
Qed.

(** ** Without assertions *)

Lemma onion_loop_ndebug b coins secrets first total pkeys : forall i inb outb,
  total = cipher_size (length secrets) ->
  (i <= length secrets)%nat ->
  Forall wf_osecret secrets ->
  length inb = total -> length outb = total ->
  exists inb' outb',
    onion_loop b false coins secrets first total pkeys i inb outb (cipher_size i) = Ok (inb', outb', 0%nat) /\
    length inb' = total /\ length outb' = total /\
    (* the buffer holding party k's clear secret, k = i-1, i-2, ... *)
    (forall k s, (k < i)%nat -> nth_error secrets k = Some s ->
       firstn 76 (skipn (124 * k + 48) (if Nat.odd k then inb' else outb')) = enc_osecret s) /\
    (* bytes at or above the current offset never change again *)
    (forall j, (cipher_size i <= j)%nat ->
       nth_error (if Nat.even i then inb' else outb') j = nth_error inb j /\
       nth_error (if Nat.even i then outb' else inb') j = nth_error outb j).
Proof.
  induction i as [|i IH]; intros inb outb Htot Hi Hw Li Lo.
  - exists inb, outb. cbn [onion_loop]. rewrite !Csz. repeat split; auto. intros; lia.
  - assert (Hi' : (i < length secrets)%nat) by lia.
    cbn [onion_loop].
    destruct (get_lt secrets i Hi') as (s & Es & Ns). rewrite Es. cbn [bind].
    assert (Ws : wf_osecret s).
    { rewrite Forall_forall in Hw. apply Hw. eapply nth_error_In; eauto. }
    destruct (wf_osecret_enc s Ws) as [Le Be].
    destruct (Nat.ltb_spec (cipher_size (S i)) SECRET_SIZE) as [L|_];
      [rewrite Csz in L; unfold SECRET_SIZE in L; lia|].
    assert (Hoff1 : (cipher_size (S i) - SECRET_SIZE)%nat = (124 * i + 48)%nat)
      by (unfold SECRET_SIZE; rewrite !Csz; lia).
    rewrite Hoff1.
    destruct (wr_Ok inb (124 * i + 48) (enc_osecret s)) as (inb1 & E1 & L1 & N1).
    { rewrite Le, Li, Htot, !Csz. lia. }
    rewrite E1. cbn [bind].
    destruct (Nat.ltb_spec (124 * i + 48) SEALBYTES) as [L|_]; [unfold SEALBYTES in L; lia|].
    replace (124 * i + 48 - SEALBYTES)%nat with (cipher_size i) by (rewrite Csz; unfold SEALBYTES; lia).
    destruct (IH outb inb1) as (inb' & outb' & E & Li' & Lo' & Hs & Hh); auto; try lia.
    exists inb', outb'. split; [exact E|]. split; [exact Li'|]. split; [exact Lo'|].
    rewrite Le in N1.
    split.
    + intros k sk Hk Nk.
      destruct (Nat.eq_dec k i) as [->|Hne]; [|apply Hs; auto; lia].
      rewrite Ns in Nk. inversion Nk; subst sk.
      apply nth_error_ext. intros j.
      rewrite nth_error_firstn, nth_error_skipn.
      destruct (Nat.ltb_spec j 76) as [Hj|Hj].
      * rewrite <- Nat.negb_even.
        replace (if negb (Nat.even i) then inb' else outb') with (if Nat.even i then outb' else inb')
          by (destruct (Nat.even i); reflexivity).
        destruct (Hh (124 * i + 48 + j)%nat) as [_ ->]; [rewrite !Csz; lia|].
        rewrite N1.
        destruct (Nat.leb_spec (124 * i + 48) (124 * i + 48 + j)),
          (Nat.ltb_spec (124 * i + 48 + j) (124 * i + 48 + 76)); cbn [andb]; try lia.
        f_equal. lia.
      * symmetry. apply nth_error_None. lia.
    + intros j Hj. rewrite Csz in Hj.
      destruct (Hh j) as [H1 H2]; [rewrite !Csz; lia|].
      rewrite Nat.even_succ, <- Nat.negb_even.
      rewrite N1 in H2.
      destruct (Nat.leb_spec (124 * i + 48) j), (Nat.ltb_spec j (124 * i + 48 + 76));
        cbn [andb] in H2; try lia.
      destruct (Nat.even i); cbn [negb]; auto.
Qed.

Lemma onion_loop_ndebug_keys b b' coins coins' secrets first total pkeys pkeys' : forall i inb outb off,
  onion_loop b false coins secrets first total pkeys i inb outb off =
  onion_loop b' false coins' secrets first total pkeys' i inb outb off.
Proof.
  induction i as [|i IH]; intros inb outb off; cbn [onion_loop]; auto.
  destruct (get secrets i) as [s| | |]; cbn [bind]; auto.
  destruct (off <? SECRET_SIZE)%nat; auto.
  destruct (wr inb (off - SECRET_SIZE) (enc_osecret s)); cbn [bind]; auto.
  destruct (off - SECRET_SIZE <? SEALBYTES)%nat; auto.
Qed.

Lemma c12_ndebug b b' coins coins' j1 j2 secrets first count pkeys pkeys' :
  (first + length secrets = count)%nat -> (count <= 255)%nat -> Forall wf_osecret secrets ->
  exists c, onion_encrypt b false coins j1 j2 secrets first count pkeys = Ok c /\
    onion_encrypt b' false coins' j1 j2 secrets first count pkeys' = Ok c /\
    length c = (124 * length secrets)%nat /\
    (forall k s, Nat.odd k = true -> nth_error secrets k = Some s ->
       dec_osecret (firstn 76 (skipn (124 * k + 48) c)) = s).
Proof.
  intros Hc Hcnt Hw. unfold onion_encrypt.
  assert (Hp : Z.to_nat (w8 (Z.of_nat count - Z.of_nat first)) = length secrets).
  { rewrite w8_id by (unfold u8; lia). lia. }
  rewrite Hp. set (n := length secrets) in *.
  rewrite (onion_loop_ndebug_keys b' b coins' coins _ _ _ pkeys' pkeys).
  destruct (onion_loop_ndebug b coins secrets first (cipher_size n) pkeys n
             (map j2 (seq 0 (cipher_size n))) (map j1 (seq 0 (cipher_size n))))
    as (inb' & outb' & E & L & L' & H & _); auto;
    try (rewrite map_length, seq_length; reflexivity).
  rewrite E. cbn [bind andb]. exists inb'. split; [reflexivity|]. split; [reflexivity|]. split.
  - rewrite L, Csz. lia.
  - intros k s Ho Ns. specialize (H k s). rewrite Ho in H. rewrite H; auto.
    + apply osecret_roundtrip. rewrite Forall_forall in Hw. apply Hw. eapply nth_error_In; eauto.
    + unfold n. apply nth_error_Some. congruence.
Qed.

Lemma onion_loop_first_lost b coins s s' rest first total pkeys :
  length (enc_osecret s) = length (enc_osecret s') ->
  forall i inb outb off,
  (let* r := onion_loop b false coins (s :: rest) first total pkeys i inb outb off in
   Ok (fst (fst r), snd r)) =
  (let* r := onion_loop b false coins (s' :: rest) first total pkeys i inb outb off in
   Ok (fst (fst r), snd r)).
Proof.
  intros L. induction i as [|i IH]; intros inb outb off; cbn [onion_loop]; [reflexivity|].
  destruct i as [|i].
  - cbn [get nth_error bind].
    destruct (off <? SECRET_SIZE)%nat; [reflexivity|].
    unfold wr. rewrite L.
    destruct (off - SECRET_SIZE + length (enc_osecret s') <=? length inb)%nat; [|reflexivity].
    cbn [bind]. destruct (off - SECRET_SIZE <? SEALBYTES)%nat; reflexivity.
  - change (get (s :: rest) (S i)) with (get rest i). change (get (s' :: rest) (S i)) with (get rest i).
    unfold get.
    destruct (nth_error rest i) as [si|]; [|reflexivity]. cbn [bind].
    destruct (off <? SECRET_SIZE)%nat; [reflexivity|].
    destruct (wr inb (off - SECRET_SIZE) (enc_osecret si)) as [inb1| | |]; [|reflexivity..].
    cbn [bind]. destruct (off - SECRET_SIZE <? SEALBYTES)%nat; [reflexivity|]. apply IH.
Qed.

Lemma c12_first_lost b coins j1 j2 s s' rest first count pkeys :
  (first + S (length rest) = count)%nat -> (count <= 255)%nat ->
  Forall wf_osecret (s :: rest) -> wf_osecret s' ->
  onion_encrypt b false coins j1 j2 (s :: rest) first count pkeys =
  onion_encrypt b false coins j1 j2 (s' :: rest) first count pkeys.
Proof.
  intros _ _ Hw Hs'. inversion Hw as [|? ? Hs _]; subst.
  assert (L : length (enc_osecret s) = length (enc_osecret s')).
  { destruct (osecret_roundtrip s Hs) as [-> _]. destruct (osecret_roundtrip s' Hs') as [-> _]. reflexivity. }
  unfold onion_encrypt. set (parties := Z.to_nat _).
  pose proof (onion_loop_first_lost b coins s s' rest first (cipher_size parties) pkeys L parties
    (map j2 (seq 0 (cipher_size parties))) (map j1 (seq 0 (cipher_size parties))) (cipher_size parties)) as H.
  destruct (onion_loop b false coins (s :: rest) first (cipher_size parties) pkeys parties _ _ _) as [[[a1 a2] a3]| | |];
  destruct (onion_loop b false coins (s' :: rest) first (cipher_size parties) pkeys parties _ _ _) as [[[b1 b2] b3]| | |];
  cbn [bind fst snd andb] in *; congruence.
Qed.
