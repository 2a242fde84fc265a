(** Rules for the programs of servers with siblings: scripts with exchanges,
    counts and barriers between the siblings, the sending and polling loop, and
    the connections between the siblings. *)
From Verif Require Import Base BaseProofs Incremental Wire Onion Sizes CipherBatchProofs Stream StreamProofs Parallel Net Procs ProcProofs ProcChain ProcNet ParProcs ParCrash ProcExchange.

(** ** Channels and exchanges of a deployment *)
(** There is no channel from a server to itself. *)
Definition mto (N : nat) (c : mchan) : nat :=
  match c with
  | Link i c => (receiver c * N + i)%nat
  | Sib k s t | SLis k s t | SCon k s t => (k * N + (if (s =? t)%nat then S s else t))%nat
  end.

(** An exchange between the servers of entity [bk_k]; [bk_data s t]: what s
    sends to t. *)
Record blk := { bk_k : nat; bk_tag : nat; bk_data : nat -> nat -> list Z; bk_small : bool; bk_items : nat }.
Definition bdata (N : nat) (x : blk) (c : mchan) : list Z :=
  match c with
  | Sib k s t => if ((k =? bk_k x) && (s <? N) && (t <? N) && negb (s =? t))%nat then bk_data x s t else []
  | _ => []
  end.
Definition bmember (N : nat) (x : blk) (p : nat) : bool := (p / N =? bk_k x)%nat.
Definition bgas (N : nat) (x : blk) (p : nat) : nat :=
  (list_sum (map (fun s => list_sum (map (fun t => 2 * length (bk_data x s t))%nat (seq 0 N))) (seq 0 N)) +
   list_sum (map (fun s => list_sum (map (fun t => length (bk_data x s t))%nat (seq 0 N))) (seq 0 N)) + bk_items x)%nat.

Lemma chan_eqb_spec a b : chan_eqb a b = true <-> a = b.
Proof.
  destruct a, b; cbn; rewrite ?Nat.eqb_eq; split; intros H; try discriminate; try congruence.
Qed.
Lemma mchan_eqb_spec a b : mchan_eqb a b = true <-> a = b.
Proof.
  destruct a, b; cbn; rewrite ?andb_true_iff, ?Nat.eqb_eq, ?chan_eqb_spec; split; intros H; try discriminate;
    intuition congruence.
Qed.
Lemma mfrom_to N c : (0 < N)%nat -> mfrom N c <> mto N c.
Proof.
  intros HN. destruct c as [i c| | |]; cbn [mfrom mto].
  - destruct c; cbn; lia.
  - destruct (Nat.eqb_spec s t); lia.
  - destruct (Nat.eqb_spec s t); lia.
  - destruct (Nat.eqb_spec s t); lia.
Qed.
Lemma server_div N k i : (i < N)%nat -> ((k * N + i) / N = k)%nat.
Proof. intros H. rewrite Nat.div_add_l by lia. rewrite Nat.div_small by exact H. lia. Qed.
Lemma server_mod N k i : (i < N)%nat -> ((k * N + i) mod N = i)%nat.
Proof. intros H. rewrite Nat.add_comm, Nat.mod_add by lia. apply Nat.mod_small. exact H. Qed.
Lemma bdata_member N x c : bdata N x c <> [] -> bmember N x (mfrom N c) = true /\ bmember N x (mto N c) = true.
Proof.
  destruct c as [i c|k s t|k s t|k s t]; cbn [bdata]; try contradiction. destruct (_ && _ && _ && _)%bool eqn:E; [|contradiction]. intros _.
  rewrite !andb_true_iff, negb_true_iff, Nat.eqb_eq, !Nat.ltb_lt in E. destruct E as [[[-> Hs] Ht] Hn]. cbn [mfrom mto]. rewrite Hn.
  unfold bmember. rewrite !server_div by assumption. rewrite Nat.eqb_refl. auto.
Qed.

(** Connections may end early or not. *)
Definition mode (eof : mchan -> bool) : Prop := eof = (fun _ => false) \/ eof = mest.
Lemma mode_est eof : mode eof -> forall c, eof c = true -> mest c = true.
Proof. intros [->| ->] c H; [discriminate|exact H]. Qed.

(** ** Scripts with exchanges *)
Notation mact := (act mchan Z blk).
Section Obs.
  Context (N : nat) (p : nat).
  Notation obeys eof := (obeys mchan_eqb (mfrom N) (mto N) (bdata N) (bgas N) BUFFER_SIZE bk_small eof p).
  Notation sees := (sees (mfrom N) (mto N) (bdata N) (bgas N) p).

  (** The program does what the script [l] says and then returns a value in Q. *)
  Definition obs {A} (Q : A -> Prop) (pr : proc mchan A) (l : list mact) : Prop :=
    forall eof, mode eof -> forall rest, obeys eof (fun a st => Q a /\ sees st (Out rest)) pr (Out (l ++ rest)).

  Lemma obs_ext {A} (Q : A -> Prop) pr l l' : obs Q pr l -> l = l' -> obs Q pr l'.
  Proof. intros H <-. exact H. Qed.
  Lemma obs_mono {A} (Q Q' : A -> Prop) pr l : obs Q pr l -> (forall a, Q a -> Q' a) -> obs Q' pr l.
  Proof. intros H HQ eof Hm rest. eapply ob_mono; [apply H; exact Hm|]. intros a s [Ha Hs]. auto. Qed.
  Lemma obs_ret {A} (Q : A -> Prop) a : Q a -> obs Q (Ret a) [].
  Proof. intros H eof Hm rest. constructor. split; [exact H|apply see_refl]. Qed.
  Lemma closed_sees {A} (Q : A -> Prop) rest a s1 : Q a /\ sees s1 (Out rest) -> forall s0, sees s0 s1 -> Q a /\ sees s0 (Out rest).
  Proof. intros [HQ Hs] s0 H0. split; [exact HQ|]. eapply sees_trans; eassumption. Qed.
  Lemma obs_bind {A A'} (Q : A -> Prop) (Q' : A' -> Prop) pr f l l' :
    obs Q pr l -> (forall a, Q a -> obs Q' (f a) l') -> obs Q' (pbind pr f) (l ++ l').
  Proof.
    intros H Hf eof Hm rest. rewrite <- app_assoc. eapply ob_bind; [apply H; exact Hm|]. intros a s [Ha Hs].
    eapply ob_sees; [apply closed_sees|exact Hs|]. apply Hf; assumption.
  Qed.
  Lemma obs_lift_bind {A A'} (Q : A' -> Prop) (r : res A) a (f : A -> proc mchan A') l :
    r = Ok a -> obs Q (f a) l -> obs Q (pbind (lift r) f) l.
  Proof. intros -> H. exact H. Qed.
  Lemma obs_lift {A} (Q : A -> Prop) (r : res A) a : r = Ok a -> Q a -> obs Q (lift r) [].
  Proof. intros -> H. apply obs_ret. exact H. Qed.
  Lemma obs_follows {A} (pr : proc mchan A) l a : follows_on mest pr l a -> obs (eq a) pr l.
  Proof. intros F eof Hm rest. eapply ob_follows; [apply (mode_est eof Hm)|exact F|]. split; [reflexivity|apply see_refl]. Qed.
  Lemma obs_follows_bind {A A'} (Q : A' -> Prop) (pr : proc mchan A) f l l' a :
    follows_on mest pr l a -> obs Q (f a) l' -> obs Q (pbind pr f) (l ++ l').
  Proof. intros F H. eapply obs_bind; [eapply obs_follows; exact F|]. intros a' <-. exact H. Qed.
  Lemma obs_assoc {V Y A} (Q : A -> Prop) (pr : proc mchan V) (g : V -> proc mchan Y) (h : Y -> proc mchan A) l :
    obs Q (pbind pr (fun x => pbind (g x) h)) l -> obs Q (pbind (pbind pr g) h) l.
  Proof. intros H eof Hm rest. apply ob_assoc, H. exact Hm. Qed.
  (** An exchange without data. *)
  Lemma obs_skip {A} (Q : A -> Prop) pr x l : (forall c, bdata N x c = []) -> obs Q pr l -> obs Q pr (Loc x :: l).
  Proof.
    intros H0 H eof Hm rest. eapply ob_sees; [apply closed_sees| |apply H; exact Hm]. cbn [app]. apply see_enter. apply see_leave; [| |apply see_refl].
    - intros c. unfold R0. rewrite H0. destruct (_ =? _)%nat; reflexivity.
    - intros c. unfold W0. rewrite H0. destruct (_ =? _)%nat; reflexivity.
  Qed.
End Obs.

(** A program on other channels. *)
Definition relabelled {C C' X X'} (f : C -> C') (a : act C Z X) : list (act C' Z X') :=
  match a with Snd c v => [Snd (f c) v] | Rcv c v => [Rcv (f c) v] | Loc _ => [] end.
Lemma relabelled_snd {C C' X X'} (f : C -> C') c bs : flat_map (@relabelled C C' X X' f) (map (Snd c) bs) = map (Snd (f c)) bs.
Proof. induction bs as [|v bs IH]; [reflexivity|]. cbn. f_equal. exact IH. Qed.
Lemma relabelled_rcv {C C' X X'} (f : C -> C') c bs : flat_map (@relabelled C C' X X' f) (map (Rcv c) bs) = map (Rcv (f c)) bs.
Proof. induction bs as [|v bs IH]; [reflexivity|]. cbn. f_equal. exact IH. Qed.
Lemma sv_relabel {C C' A} (f : C -> C') c (pr : proc C A) : starved c pr -> starved (f c) (relabel f pr).
Proof. induction 1; cbn [relabel]; constructor; assumption. Qed.
Lemma fo_relabel {C C' X X' A} (f : C -> C') est est' (pr : proc C A) (l : list (act C Z X)) a : (forall c, est' (f c) = true -> est c = true) ->
  follows_on est pr l a -> @follows_on C' X' A est' (relabel f pr) (flat_map (relabelled f) l) a.
Proof.
  intros He. induction 1 as [a|c bs k l a Hb Hk IH|c n bs k l a Hb Hs Hk IH]; cbn [relabel flat_map].
  - constructor.
  - rewrite flat_map_app, relabelled_snd. constructor; [exact Hb|]. intros n Hn. specialize (IH n Hn). rewrite flat_map_app, relabelled_snd in IH. exact IH.
  - rewrite flat_map_app, relabelled_rcv. constructor; [exact Hb|intros E; apply sv_relabel, Hs, He, E|]. intros m Hm. specialize (IH m Hm). rewrite flat_map_app, relabelled_rcv in IH. exact IH.
Qed.

Lemma fo_link {A} i (pr : proc chan A) (l : list dact) a :
  follows_on established pr l a -> @follows_on mchan blk A mest (relabel (Link i) pr) (flat_map (relabelled (Link i)) l) a.
Proof. apply fo_relabel. intros c H. exact H. Qed.

(** ** The data of an exchange as seen by server i *)
Section Server.
  Context (N k i : nat) (Hi : (i < N)%nat).
  Notation p := (k * N + i)%nat.
  Notation sibs := (siblings_of N i).
  Context (eof : mchan -> bool) (Heof : mode eof).
  Notation obeys := (obeys mchan_eqb (mfrom N) (mto N) (bdata N) (bgas N) BUFFER_SIZE bk_small eof p).
  Notation sees := (sees (mfrom N) (mto N) (bdata N) (bgas N) p).
  Notation R0 := (R0 (mto N) (bdata N)). Notation W0 := (W0 (mfrom N) (bdata N)).
  Notation obs := (obs N p).
  Context (x : blk) (Hx : bk_k x = k).

  Lemma data_out t : List.In t sibs -> W0 x p (Sib k i t) = bk_data x i t.
  Proof using Hi Hx.
    rewrite in_siblings. intros [Ht Hn]. unfold ProcNet.W0. cbn [mfrom bdata]. rewrite Nat.eqb_refl, Hx, Nat.eqb_refl.
    rewrite (proj2 (Nat.ltb_lt i N) Hi), (proj2 (Nat.ltb_lt t N) Ht), (proj2 (Nat.eqb_neq i t)) by auto. reflexivity.
  Qed.
  Lemma data_in t : List.In t sibs -> R0 x p (Sib k t i) = bk_data x t i.
  Proof using Hi Hx.
    rewrite in_siblings. intros [Ht Hn]. unfold ProcNet.R0. cbn [mto bdata]. rewrite (proj2 (Nat.eqb_neq t i)) by auto. rewrite Nat.eqb_refl, Hx, Nat.eqb_refl.
    rewrite (proj2 (Nat.ltb_lt i N) Hi), (proj2 (Nat.ltb_lt t N) Ht). reflexivity.
  Qed.
  Lemma data_out_only c : W0 x p c <> [] -> exists t, List.In t sibs /\ c = Sib k i t.
  Proof using Hi Hx.
    unfold ProcNet.W0. destruct (Nat.eqb_spec (mfrom N c) p) as [E|E]; [|contradiction]. destruct c as [j c|k' s t|k' s t|k' s t]; cbn [bdata]; try contradiction.
    destruct (_ && _ && _ && _)%bool eqn:E'; [|contradiction]. intros _.
    rewrite !andb_true_iff, negb_true_iff, Nat.eqb_eq, !Nat.ltb_lt, Nat.eqb_neq, Hx in E'. destruct E' as [[[-> Hs] Ht] Hn]. cbn [mfrom] in E.
    assert (s = i) by lia. subst s. exists t. rewrite in_siblings. auto.
  Qed.
  Lemma data_in_only c : R0 x p c <> [] -> exists t, List.In t sibs /\ c = Sib k t i.
  Proof using Hi Hx.
    unfold ProcNet.R0. destruct (Nat.eqb_spec (mto N c) p) as [E|E]; [|contradiction]. destruct c as [j c|k' s t|k' s t|k' s t]; cbn [bdata]; try contradiction.
    destruct (_ && _ && _ && _)%bool eqn:E'; [|contradiction]. intros _.
    rewrite !andb_true_iff, negb_true_iff, Nat.eqb_eq, !Nat.ltb_lt, Nat.eqb_neq, Hx in E'. destruct E' as [[[-> Hs] Ht] Hn]. cbn [mto] in E.
    rewrite (proj2 (Nat.eqb_neq s t) Hn) in E. assert (t = i) by lia. subst t. exists s. rewrite in_siblings. auto.
  Qed.
  Lemma bdata_out t : List.In t sibs -> bdata N x (Sib k i t) = bk_data x i t.
  Proof using Hi Hx. intros Ht. rewrite <- (data_out t Ht). unfold ProcNet.W0. cbn [mfrom]. rewrite Nat.eqb_refl. reflexivity. Qed.
  Lemma bdata_in t : List.In t sibs -> bdata N x (Sib k t i) = bk_data x t i.
  Proof using Hi Hx.
    intros Ht. rewrite <- (data_in t Ht). unfold ProcNet.R0. cbn [mto]. apply in_siblings in Ht. rewrite (proj2 (Nat.eqb_neq t i)) by (apply Ht). rewrite Nat.eqb_refl. reflexivity.
  Qed.

  Lemma sum_filter (f : nat -> bool) (g : nat -> nat) l : (list_sum (map g (filter f l)) <= list_sum (map g l))%nat.
  Proof. induction l as [|a l IH]; [apply le_n|]. cbn. destruct (f a); cbn; change (fold_right Nat.add 0%nat) with list_sum; lia. Qed.
  Lemma sum_add (f g : nat -> nat) l : list_sum (map (fun t => f t + g t)%nat l) = (list_sum (map f l) + list_sum (map g l))%nat.
  Proof. induction l as [|a l IH]; [reflexivity|]. cbn. change (fold_right Nat.add 0%nat) with list_sum. lia. Qed.
  Lemma gas_enough : (list_sum (map (fun t => length (bk_data x i t) + 2 * length (bk_data x t i)) sibs) + bk_items x <= bgas N x p)%nat.
  Proof using Hi Hx.
    unfold bgas. apply Nat.add_le_mono_r. rewrite sum_add, Nat.add_comm. apply Nat.add_le_mono.
    - etransitivity; [apply sum_filter|]. apply sum_le. intros u _. apply (sum_in (seq 0 N) (fun t => 2 * length (bk_data x u t))%nat i).
      apply in_seq. lia.
    - etransitivity; [apply sum_filter|].
      apply (sum_in (seq 0 N) (fun s => list_sum (map (fun t => length (bk_data x s t)) (seq 0 N))) i). apply in_seq. lia.
  Qed.

  (** ** Exchanges that are written, then read *)
  Context (Hsm : bk_small x = true).
  Context (tx rx : nat -> mchan) (Etx : forall t, List.In t sibs -> tx t = Sib k i t) (Erx : forall t, List.In t sibs -> rx t = Sib k t i).

  Definition written (todo : list nat) (l : list mact) (st : gst) : Prop :=
    exists W u g, sees st (In x (R0 x p) W u [] g l) /\ (forall c, W c <> [] -> exists t, List.In t todo /\ c = Sib k i t) /\
      (forall t, List.In t todo -> W (Sib k i t) = bk_data x i t) /\
      (list_sum (map (fun t => length (bk_data x i t)) todo) + list_sum (map (fun t => length (bk_data x t i)) sibs) <= g)%nat.
  Lemma written_sees todo l st st' : written todo l st -> sees st' st -> written todo l st'.
  Proof. intros (W & u & g & Hs & H) H'. exists W, u, g. split; [eapply sees_trans; eassumption|exact H]. Qed.

  Lemma ob_writes (f : unit -> nat -> proc mchan unit) l :
    (forall s t, List.In t sibs -> f s t = psend (length (bk_data x i t)) (tx t) (bk_data x i t) 0 0 (length (bk_data x i t))) ->
    obeys (fun _ st => written [] l st) (pfold f sibs tt) (Out (Loc x :: l)).
  Proof using All.
    intros Hf.
    eapply ob_mono; [apply (ob_fold (S := unit) mchan_eqb (mfrom N) (mto N) (bdata N) (bgas N) BUFFER_SIZE bk_small eof p
      (fun todo _ st => NoDup todo /\ incl todo sibs /\ written todo l st) f)|intros a st (_ & _ & H); exact H].
    - intros t todo s1 st (Nd & Inc & (W & u & g & Hs & H1 & H2 & H3)). inversion Nd as [|? ? Ht Nd']; subst.
      rewrite (Hf s1 t (Inc t (or_introl eq_refl))).
      assert (Int : List.In t sibs) by (apply Inc; left; reflexivity). rewrite (Etx t Int).
      cbn [map list_sum fold_right] in H3. change (fold_right Nat.add 0%nat) with list_sum in H3.
      set (bs := bk_data x i t) in *.
      eapply (ob_sees _ _ _ _ _ _ _ _ _ _ _ _ (In x (R0 x p) W u [] g l)); [|exact Hs|].
      { intros a s2 (A1 & A2 & A3) s0 Hs0. split; [exact A1|]. split; [exact A2|]. eapply written_sees; eassumption. }
      apply (ob_send mchan_eqb (mfrom N) (mto N) (bdata N) (bgas N) BUFFER_SIZE bk_small mchan_eqb_spec eof p) with (w := []); rewrite ?Nat.sub_0_r; cbn [Nat.add skipn]; try lia.
      + rewrite firstn_all, app_nil_r. apply H2. left. reflexivity.
      + intros W' u' g' E1 E2 _ _ _ Eg. split; [exact Nd'|]. split; [intros z Hz; apply Inc; right; exact Hz|].
        exists W', u', g'. split; [apply see_refl|]. split; [|split].
        * intros c Hc. destruct (mchan_eqb c (Sib k i t)) eqn:Ec.
          { apply mchan_eqb_spec in Ec. subst c. rewrite E1 in Hc. contradiction. }
          assert (c <> Sib k i t) as Hn by (intros ->; rewrite (proj2 (mchan_eqb_spec _ _) eq_refl) in Ec; discriminate).
          rewrite (E2 c Hn) in Hc. destruct (H1 c Hc) as (t' & [->|Ht'] & ->); [contradiction|]. exists t'. auto.
        * intros t' Ht'. rewrite E2; [apply H2; right; exact Ht'|]. intros E. injection E as ->. contradiction.
        * lia.
    - split; [apply nodup_siblings|]. split; [apply incl_refl|].
      exists (W0 x p), (fun _ => 0%nat), (bgas N x p). split; [apply see_enter, see_refl|]. split; [apply data_out_only|]. split; [apply data_out|].
      etransitivity; [|apply gas_enough]. rewrite sum_add. rewrite (sum_add (fun t => length (bk_data x t i)) (fun t => length (bk_data x t i) + 0)%nat). lia.
  Qed.

  (** Reading exactly some bytes inside of such an exchange. *)
  Lemma ob_sread {Q : list Z -> gst -> Prop} c off W hot l : (forall d, W d = []) ->
    forall fuel pre done post data R u g, length pre = off -> (length data <= length post)%nat -> (length data <= fuel)%nat -> (length data <= g)%nat ->
    R c = data ->
    (forall R' hot' g', R' c = [] -> (forall d, d <> c -> R' d = R d) -> (g - length data <= g')%nat ->
       Q (pre ++ done ++ data ++ skipn (length data) post) (In x R' W u hot' g' l)) ->
    obeys Q (pread fuel c (pre ++ done ++ post) off (length done) (length done + length data)) (In x R W u hot g l).
  Proof using All.
    intros HW fuel. revert hot. induction fuel as [|f IH]; intros hot pre done post data R u g Hp Hl Hf Hg HR HQ; cbn [pread].
    - destruct data; [|cbn in Hf; lia]. rewrite Nat.add_0_r, Nat.ltb_irrefl. constructor. apply HQ; auto. lia.
    - destruct (Nat.ltb_spec (length done) (length done + length data)) as [L|L].
      2: { destruct data; [|cbn in L; lia]. constructor. apply HQ; auto. lia. }
      replace (length done + length data - length done)%nat with (length data) by lia.
      unfold psys_read. destruct (length data) as [|n] eqn:En; [lia|]. rewrite <- En in *. cbn [pbind].
      destruct g as [|g]; [lia|].
      eapply ob_bread; [apply see_refl|exact Hsm|exact HW|rewrite HR; lia| |].
      { intros _. rewrite wr_nil by (rewrite !app_length; lia). cbn [lift pbind length]. rewrite Nat.add_0_r.
        apply sv_pread; [rewrite !app_length; lia|lia]. }
      intros m Hm. rewrite HR.
      set (got := firstn m data). assert (Lg : length got = m) by (unfold got; rewrite firstn_length; lia).
      assert (Ed : data = got ++ skipn m data) by (symmetry; apply firstn_skipn).
      eapply ob_lift_bind.
      { replace (pre ++ done ++ post) with ((pre ++ done) ++ firstn (length got) post ++ skipn (length got) post)
          by (rewrite firstn_skipn, app_assoc; reflexivity).
        rewrite <- Hp, <- app_length. apply wr_mid. rewrite firstn_length. lia. }
      assert (Ld : length data = (length got + length (skipn m data))%nat) by (rewrite Ed at 1; apply app_length).
      assert (Ls : length (skipn m data) = (length data - m)%nat) by apply skipn_length.
      match goal with |- context [pread f c ?mm off ?d ?e] =>
        replace mm with (pre ++ (done ++ got) ++ skipn (length got) post) by (rewrite <- !app_assoc; reflexivity);
        replace d with (length (done ++ got)) by apply app_length;
        replace e with (length (done ++ got) + length (skipn m data))%nat by (rewrite app_length; lia) end.
      apply IH.
      + exact Hp.
      + rewrite !skipn_length. lia.
      + lia.
      + lia.
      + apply upf_same. exact mchan_eqb_spec.
      + intros R' hot' g' E1 E2 Eg.
        replace (pre ++ (done ++ got) ++ skipn m data ++ skipn (length (skipn m data)) (skipn (length got) post))
          with (pre ++ done ++ data ++ skipn (length data) post).
        * apply HQ; [exact E1| |lia]. intros d Hd. rewrite (E2 d Hd). apply upf_other; [exact mchan_eqb_spec|exact Hd].
        * rewrite skipn_skipn', (Nat.add_comm (length (skipn m data))), <- Ld. rewrite Ed at 1. rewrite <- !app_assoc. reflexivity.
  Qed.

  Definition reading (todo : list nat) (l : list mact) (st : gst) : Prop :=
    exists R W u hot g, sees st (In x R W u hot g l) /\ (forall c, W c = []) /\ (forall c, R c <> [] -> exists t, List.In t todo /\ c = Sib k t i) /\
      (forall t, List.In t todo -> R (Sib k t i) = bk_data x t i) /\ (list_sum (map (fun t => length (bk_data x t i)) todo) <= g)%nat.
  Lemma reading_sees todo l st st' : reading todo l st -> sees st' st -> reading todo l st'.
  Proof. intros (R & W & u & hot & g & Hs & H) H'. exists R, W, u, hot, g. split; [eapply sees_trans; eassumption|exact H]. Qed.
  Lemma written_reading l st : written [] l st -> reading sibs l st.
  Proof using Hi Hx.
    intros (W & u & g & Hs & H1 & H2 & H3). exists (R0 x p), W, u, [], g. split; [exact Hs|]. split.
    { intros c. destruct (W c) eqn:E; [reflexivity|]. destruct (H1 c) as (t & [] & _). congruence. }
    split; [apply data_in_only|]. split; [apply data_in|]. cbn in H3. exact H3.
  Qed.
  Lemma reading_done l st : reading [] l st -> sees st (Out l).
  Proof.
    intros (R & W & u & hot & g & Hs & HW & HR & _). eapply sees_trans; [exact Hs|]. apply see_leave; [|exact HW|apply see_refl].
    intros c. destruct (R c) eqn:E; [reflexivity|]. destruct (HR c) as (t & [] & _). congruence.
  Qed.
  Lemma ob_read_one t todo l m n st : reading (t :: todo) l st -> ~ List.In t todo -> List.In t sibs -> length (bk_data x t i) = n -> length m = n ->
    obeys (fun bs st => bs = bk_data x t i /\ reading todo l st) (pread n (rx t) m 0 0 n) st.
  Proof using All.
    intros (R & W & u & hot & g & Hs & HW & H1 & H2 & H3) Nt Int Ln Lm. rewrite (Erx t Int).
    cbn [map list_sum fold_right] in H3. change (fold_right Nat.add 0%nat) with list_sum in H3.
    eapply (ob_sees _ _ _ _ _ _ _ _ _ _ _ _ (In x R W u hot g l)); [|exact Hs|].
    { intros a s2 [A1 A2] s0 Hs0. split; [exact A1|]. eapply reading_sees; eassumption. }
    pose proof (@ob_sread (fun bs st => bs = bk_data x t i /\ reading todo l st) (Sib k t i) 0%nat W hot l HW n [] [] m (bk_data x t i) R u g) as O.
    cbn [app length Nat.add] in O. rewrite Ln in O. apply O; try lia; [apply H2; left; reflexivity|].
    intros R' hot' g' E1 E2 Eg. split; [rewrite skipn_all2, app_nil_r by lia; reflexivity|].
    exists R', W, u, hot', g'. split; [apply see_refl|]. split; [exact HW|]. split; [|split].
    - intros c Hc. destruct (mchan_eqb c (Sib k t i)) eqn:Ec.
      { apply mchan_eqb_spec in Ec. subst c. rewrite E1 in Hc. contradiction. }
      assert (c <> Sib k t i) as Hn by (intros ->; rewrite (proj2 (mchan_eqb_spec _ _) eq_refl) in Ec; discriminate).
      rewrite (E2 c Hn) in Hc. destruct (H1 c Hc) as (t' & [->|Ht'] & ->); [contradiction|]. exists t'. auto.
    - intros t' Ht'. rewrite E2; [apply H2; right; exact Ht'|]. intros E. injection E as ->. contradiction.
    - lia.
  Qed.

  (** Counts between the siblings. *)
  Lemma reads_counts (vals : nat -> Z) l own : own = vals i ->
    (forall t, List.In t sibs -> bk_data x t i = le 4 (vals t) /\ 0 <= vals t < 2 ^ 32) ->
    forall st, reading sibs l st ->
    obeys (fun r st => r = map vals (seq 0 N) /\ sees st (Out l)) (pread_counts N i rx own) st.
  Proof using All.
    intros Eo Hv st Hst. unfold pread_counts.
    assert (G : forall n, (n <= N)%nat -> forall st, reading (filter (fun t => negb (t =? i)%nat) (seq (N - n) n)) l st ->
      obeys (fun r st => r = map vals (seq 0 N) /\ sees st (Out l))
        (pfold (fun l t => do n <- (if (t =? i)%nat then Ret own else pread_count (rx t)); Ret (l ++ [n])) (seq (N - n) n) (map vals (seq 0 (N - n)))) st).
    - induction n as [|n IH]; intros Hn st1 Hr.
      + cbn [seq pfold]. constructor. rewrite Nat.sub_0_r. split; [reflexivity|]. apply reading_done. exact Hr.
      + cbn [seq pfold]. cbn [seq filter] in Hr. set (t := (N - S n)%nat) in *.
        assert (Es : map vals (seq 0 t) ++ [vals t] = map vals (seq 0 (N - n))).
        { replace (N - n)%nat with (S t) by (unfold t; lia). rewrite seq_S, map_app. reflexivity. }
        assert (Et : S t = (N - n)%nat) by (unfold t; lia).
        destruct (Nat.eqb_spec t i) as [E|E]; cbn [negb] in Hr.
        * cbn [pbind]. replace own with (vals t) at 1 by (rewrite E; symmetry; exact Eo). rewrite Es, Et. apply IH; [lia|]. rewrite <- Et. exact Hr.
        * assert (Int : List.In t sibs) by (apply in_siblings; lia). destruct (Hv t Int) as [Ed Hr2].
          unfold pread_count. apply ob_assoc. apply ob_assoc.
          eapply ob_bind; [apply ob_read_one; [exact Hr|rewrite filter_In, in_seq; lia|exact Int|rewrite Ed; apply length_le|reflexivity]|].
          intros bs st2 [-> Hr3]. cbn [pbind]. rewrite Ed, of_le_le_small by (cbn; lia).
          rewrite Es, Et. apply IH; [lia|]. rewrite <- Et. exact Hr3.
    - specialize (G N (le_n _) st). rewrite Nat.sub_diag in G. apply G. exact Hst.
  Qed.
End Server.

Section Counts.
  Context (N k i : nat) (Hi : (i < N)%nat).
  Notation p := (k * N + i)%nat.
  Notation sibs := (siblings_of N i).
  Notation obs := (obs N p).
  Context (x : blk) (Hx : bk_k x = k) (Hsm : bk_small x = true).
  Context (tx rx : nat -> mchan) (Etx : forall t, List.In t sibs -> tx t = Sib k i t) (Erx : forall t, List.In t sibs -> rx t = Sib k t i).
  Lemma obs_send_counts {A} (Q : A -> Prop) (f : nat -> res Z) (vals : nat -> nat -> Z) own l (kk : list Z -> proc mchan A) :
    (forall t, List.In t sibs -> f t = Ok (vals i t)) -> own = vals i i ->
    (forall s t, (s < N)%nat -> (t < N)%nat -> bk_data x s t = le 4 (vals s t) /\ 0 <= vals s t < 2 ^ 32) ->
    obs Q (kk (map (fun s => vals s i) (seq 0 N))) l ->
    obs Q (do _ <- psend_counts N i tx f; do r <- pread_counts N i rx own; kk r) (Loc x :: l).
  Proof using All.
    intros Hf Eo Hv Hk eof Hm rest. cbn [app].
    eapply ob_bind; [eapply (ob_writes N k i Hi eof Hm x Hx Hsm tx rx Etx Erx)|].
    { intros [] t Ht. rewrite (Hf t Ht). cbn [lift pbind]. unfold psend_count.
      apply in_siblings in Ht. destruct (Hv i t Hi (proj1 Ht)) as [-> _]. rewrite length_le. reflexivity. }
    intros a st Hw. eapply ob_bind; [eapply (reads_counts N k i Hi eof Hm x Hx Hsm tx rx Etx Erx (fun s => vals s i)); [exact Eo| |eapply written_reading; [exact Hi|exact Hx|exact Hw]]|].
    { intros t Ht. apply in_siblings in Ht. apply Hv; [apply Ht|exact Hi]. }
    intros r st' [-> Hs]. eapply ob_sees; [apply closed_sees|exact Hs|]. apply Hk. exact Hm.
  Qed.
  Lemma obs_broadcast_counts {A} (Q : A -> Prop) (vals : nat -> Z) own l (kk : list Z -> proc mchan A) :
    own = vals i ->
    (forall s t, (s < N)%nat -> (t < N)%nat -> bk_data x s t = le 4 (vals s) /\ 0 <= vals s < 2 ^ 32) ->
    obs Q (kk (map vals (seq 0 N))) l ->
    obs Q (do _ <- pbroadcast_count N i tx own; do r <- pread_counts N i rx own; kk r) (Loc x :: l).
  Proof using All.
    intros Eo Hv Hk. change (pbroadcast_count N i tx own) with (psend_counts N i tx (fun _ => Ok own)).
    apply (obs_send_counts Q (fun _ => Ok own) (fun s _ => vals s)); [intros; congruence|exact Eo|exact Hv|exact Hk].
  Qed.
  Lemma obs_barrier asserts : (forall s t, (s < N)%nat -> (t < N)%nat -> bk_data x s t = [1]) ->
    obs (fun _ => True) (pbarrier asserts N i tx rx) [Loc x].
  Proof using All.
    intros Hv eof Hm rest. cbn [app]. unfold pbarrier.
    eapply ob_bind; [eapply (ob_writes N k i Hi eof Hm x Hx Hsm tx rx Etx Erx)|].
    { intros [] t Ht. apply in_siblings in Ht. rewrite Hv by (try apply Ht; exact Hi). reflexivity. }
    intros [] st Hw. eapply written_reading in Hw; [|exact Hi|exact Hx].
    eapply ob_mono; [apply (ob_fold (S := unit) mchan_eqb (mfrom N) (mto N) (bdata N) (bgas N) BUFFER_SIZE bk_small eof p
      (fun todo _ st => NoDup todo /\ incl todo sibs /\ reading N k i x todo rest st))|intros a st' (_ & _ & H); split; [exact I|]; eapply reading_done; exact H].
    - intros t todo s1 st1 (Nd & Inc & Hr). apply NoDup_cons_iff in Nd as [Ht Nd']. assert (Int : List.In t sibs) by (apply Inc; left; reflexivity).
      assert (Ed : bk_data x t i = [1]) by (apply in_siblings in Int; apply Hv; [apply Int|exact Hi]).
      unfold pwait_ready. eapply ob_bind; [apply (ob_read_one N k i Hi eof Hm x Hx Hsm tx rx Etx Erx); [exact Hr|exact Ht|exact Int|rewrite Ed; reflexivity|reflexivity]|].
      intros bs st2 [-> Hr2]. rewrite Ed. cbn [Z.eqb Pos.eqb]. replace (if asserts then assert_ true else Ok tt) with (Ok tt) by (destruct asserts; reflexivity).
      constructor. split; [exact Nd'|]. split; [intros z Hz; apply Inc; right; exact Hz|exact Hr2].
    - split; [apply nodup_siblings|]. split; [apply incl_refl|exact Hw].
  Qed.
End Counts.

(** ** Sending and polling *)
Section Exchanges.
  Context (N k i : nat) (Hi : (i < N)%nat) (x : blk) (Hx : bk_k x = k).
  Context (tx rx : nat -> mchan) (Etx : forall t, List.In t (siblings_of N i) -> tx t = Sib k i t) (Erx : forall t, List.In t (siblings_of N i) -> rx t = Sib k t i).
  Notation sibs := (siblings_of N i).
  Context {A Bf M P H : Type} (ops : bufops Bf) (unit : nat) (RB : Bf -> nat -> nat -> Prop).
  Context (L : buf_laws ops (BUFFER_SIZE / unit) unit RB) (Hu : (0 < unit <= BUFFER_SIZE)%nat).
  Context (enc : M -> list Z) (dec : list Z -> M) (wants : list nat).
  Context (next : P -> A -> res (list (nat * M) * P)) (handle : H -> nat * M -> res H) (h0 : H).
  (** [sents s]: the messages of server s, by item. *)
  Context (sents : nat -> list (list (nat * M))).
  Context (Hdata : forall s t, (s < N)%nat -> (t < N)%nat -> s <> t -> bk_data x s t = concat (map enc (outgoing t (concat (sents s))))).
  Context (Hto : Forall (fun m => (fst m < N)%nat) (concat (sents i))).
  Context (Hcod : forall s, (s < N)%nat -> Forall (fun m => length (enc (snd m)) = unit /\ dec (enc (snd m)) = snd m) (concat (sents s))).
  Context (Hone : Forall (fun ms => NoDup (map fst ms)) (sents i)).
  Context (Hwants : forall t, List.In t sibs -> get wants t = Ok (length (outgoing i (concat (sents t))))).
  Context (Hsum : Z.of_nat (list_sum (map (fun t => length (outgoing i (concat (sents t)))) sibs)) < 2 ^ 32).
  Context (Post : H -> Prop).
  Context (Hrun : forall log, Forall (fun e => (fst e < N)%nat) log -> (forall s, (s < N)%nat -> outgoing s log = outgoing i (concat (sents s))) ->
    exists h, fold_res handle log h0 = Ok h /\ Post h).

  Lemma outgoing_forall {T} (Q : T -> Prop) t (l : list (nat * T)) : Forall (fun m => Q (snd m)) l -> Forall Q (outgoing t l).
  Proof.
    intros F. unfold outgoing. apply Forall_map. rewrite Forall_forall in *. intros m Hm. apply filter_In in Hm. apply F, Hm.
  Qed.

  Lemma obs_sap patience wbuf rbuf total items p0 :
    feeds next p0 items (sents i) -> (length items <= bk_items x)%nat ->
    (forall t, RB (fst (wbuf t)) 0%nat 0%nat /\ (BUFFER_SIZE <= length (snd (wbuf t)))%nat) ->
    (forall t, RB (fst (rbuf t)) 0%nat 0%nat /\ (BUFFER_SIZE <= length (snd (rbuf t)))%nat) ->
    total = Z.of_nat (list_sum (map (fun t => length (outgoing i (concat (sents t)))) sibs)) ->
    obs N (k * N + i) Post (psap ops N i tx rx enc dec wants next handle patience unit wbuf rbuf total items p0 h0) [Loc x].
  Proof using All.
    intros F Hit Hw Hr Et eof Hmo rest. cbn [app]. destruct (cap_facts BUFFER_SIZE unit Hu) as [HC Hcu].
    apply (ob_sap mchan_eqb (mfrom N) (mto N) (bdata N) (bgas N) BUFFER_SIZE bk_small mchan_eqb_spec eof (k * N + i) x rest ops (BUFFER_SIZE / unit) unit RB L HC
      ltac:(lia) Hcu ltac:(unfold BUFFER_SIZE in Hu; lia) N i tx rx enc dec wants next handle h0) with (str := fun s => outgoing i (concat (sents s))) (sent := sents i).
    - intros t t' Ht Ht'. rewrite (Etx t Ht), (Etx t' Ht'). congruence.
    - intros t t' Ht Ht'. rewrite (Erx t Ht), (Erx t' Ht'). congruence.
    - intros t Ht. rewrite (Etx t Ht), (data_out N k i Hi x Hx t Ht). apply in_siblings in Ht. apply Hdata; try apply Ht; try exact Hi. intros ->. apply Ht. reflexivity.
    - intros c Hc. destruct (data_out_only N k i Hi x Hx c Hc) as (t & Ht & ->). exists t. rewrite (Etx t Ht). auto.
    - intros t Ht. rewrite (Erx t Ht), (data_in N k i Hi x Hx t Ht). apply in_siblings in Ht. apply Hdata; try apply Ht; exact Hi.
    - intros c Hc. destruct (data_in_only N k i Hi x Hx c Hc) as (t & Ht & ->). exists t. rewrite (Erx t Ht). auto.
    - reflexivity.
    - exact Hi.
    - exact Hto.
    - exact Hwants.
    - eapply Forall_impl; [|apply (Hcod i Hi)]. intros m Hm. apply Hm.
    - intros t Ht. apply in_siblings in Ht. apply (outgoing_forall (fun m => length (enc m) = unit /\ dec (enc m) = m)). apply Hcod, Ht.
    - exact Hone.
    - exact Hsum.
    - exact Hrun.
    - intros [t0 [_ Et0]] t Ht. destruct Hmo as [->| ->]; [discriminate|]. rewrite (Erx t Ht). reflexivity.
    - reflexivity.
    - exact F.
    - intros t. destruct (Hw t) as [H1 H2]. split; [exact H1|lia].
    - intros t. destruct (Hr t) as [H1 H2]. split; [exact H1|lia].
    - exact Et.
    - etransitivity; [|apply (gas_enough N k i Hi x Hx)]. apply Nat.add_le_mono; [|exact Hit]. apply sum_le. intros t Ht.
      rewrite (Etx t Ht), (Erx t Ht), (bdata_out N k i Hi x Hx t Ht), (bdata_in N k i Hi x Hx t Ht). lia.
  Qed.
End Exchanges.

(** ** Batches of messages *)
Section Batches.
  Context (N p : nat).
  Notation obs := (obs N p).
  Lemma obs_send_messages {A S T} (Q : T -> Prop) c mem size (f : S -> A -> res (list Z * S)) l s out s' (kk : proc mchan T) sc :
    length mem = BUFFER_SIZE -> (0 < size <= BUFFER_SIZE)%nat ->
    fold_res (fun s a => let* x := f (snd s) a in Ok (fst s ++ [fst x], snd x)) l ([], s) = Ok (out, s') -> sized size out ->
    obs Q kk sc ->
    obs Q (do r <- psend_each lb_ops c f l s (messages size mem); do _ <- pflush lb_ops c (snd r); kk) (map (Snd c) (concat out) ++ sc).
  Proof.
    intros Hm Hs E F Hk. destruct (fo_send_messages (X := blk) (est := mest) c mem size f l s out s' Hm Hs E F) as (w1 & w2 & e1 & e2 & F1 & F2 & Ec).
    rewrite Ec, map_app, <- app_assoc. eapply obs_follows_bind; [exact F1|]. cbn [snd]. eapply obs_follows_bind; [exact F2|]. exact Hk.
  Qed.
  Lemma obs_send_ciphers {A S T} (Q : T -> Prop) c mem size (f : S -> A -> res (list Z * S)) l s out s' (kk : proc mchan T) sc :
    length mem = BUFFER_SIZE -> (0 < size <= BUFFER_SIZE)%nat ->
    fold_res (fun s a => let* x := f (snd s) a in Ok (fst s ++ [fst x], snd x)) l ([], s) = Ok (out, s') -> sized size out ->
    obs Q kk sc ->
    obs Q (do r <- psend_each cl_ops c f l s (ciphers size mem); do _ <- pflush cl_ops c (snd r); kk) (map (Snd c) (concat out) ++ sc).
  Proof.
    intros Hm Hs E F Hk. destruct (fo_send_ciphers (X := blk) (est := mest) c mem size f l s out s' Hm Hs E F) as (w1 & w2 & e1 & e2 & F1 & F2 & Ec).
    rewrite Ec, map_app, <- app_assoc. eapply obs_follows_bind; [exact F1|]. cbn [snd]. eapply obs_follows_bind; [exact F2|]. exact Hk.
  Qed.
End Batches.

(** ** Connecting to the siblings *)
Definition siblings_script (N k i : nat) (acc : list nat) : list mact :=
  map (fun t => Snd (SLis k i t) 1) (seq 0 i) ++ map (fun t => Rcv (SCon k t i) 1) acc ++ map (fun t => Rcv (Sib k t i) (Z.of_nat t)) acc ++
  flat_map (fun t => [Rcv (SLis k t i) 1; Snd (SCon k i t) 1; Snd (Sib k i t) (Z.of_nat i)]) (seq (S i) (N - S i)).
Lemma fo_pfold {C X A S} est (f : S -> A -> proc C S) (sc : A -> list (act C Z X)) (s : S) : forall l,
  (forall a, List.In a l -> follows_on est (f s a) (sc a) s) -> follows_on est (pfold f l s) (flat_map sc l) s.
Proof.
  induction l as [|a l IH]; intros H; cbn [pfold flat_map]; [constructor|]. eapply fo_bind; [apply H; left; reflexivity|]. apply IH. intros; apply H. right. assumption.
Qed.
Lemma flat_map_single {A B} (f : A -> B) l : flat_map (fun a => [f a]) l = map f l.
Proof. induction l; cbn; congruence. Qed.
Lemma set_seq N t : (t < N)%nat -> set_ (seq 0 N) t t = Ok (seq 0 N).
Proof.
  intros H. rewrite set_Ok by (rewrite seq_length; exact H). f_equal. apply nth_error_ext. intros j. rewrite nth_error_upd.
  destruct (Nat.eqb_spec t j) as [->|E]; [|reflexivity]. rewrite seq_length, (proj2 (Nat.ltb_lt j N) H). symmetry. rewrite nth_error_nth' with (d := 0%nat) by (rewrite seq_length; exact H).
  rewrite seq_nth by exact H. reflexivity.
Qed.
Lemma fo_siblings asserts N k i acc : (i < N)%nat -> (N <= 256)%nat -> Forall (fun t => (t < i)%nat) acc ->
  follows_on mest (psiblings asserts N k i acc) (siblings_script N k i acc) (seq 0 N).
Proof.
  intros Hi HN Ha. unfold psiblings, siblings_script. eapply fo_bind; [|eapply fo_bind; [|eapply fo_bind]].
  - rewrite <- flat_map_single. apply (fo_pfold _ _ _ tt). intros t Ht.
    apply (fo_sys_send (SLis k i t) [1] _ []); [discriminate|]. intros n Hn. cbn [length] in Hn. assert (n = 1%nat) as -> by lia. constructor.
  - rewrite <- flat_map_single. apply (fo_pfold _ _ _ tt). intros t Ht.
    apply (fo_sys_read (SCon k t i) 1 [1] _ []); [cbn; lia|discriminate|]. intros n Hn. assert (n = 1%nat) as -> by lia. constructor.
  - rewrite <- flat_map_single. apply (fo_pfold _ _ _ (seq 0 N)). intros t Ht. rewrite Forall_forall in Ha. specialize (Ha t Ht).
    eapply fo_ext; [eapply fo_bind; [apply (fo_pread_all (Sib k t i) (le 1 (Z.of_nat t)) [0] 1); [apply length_le|reflexivity]|]|rewrite app_nil_r].
    + cbn zeta. rewrite of_le_le_small by (cbn; lia). rewrite (proj2 (Z.ltb_lt _ _)) by lia.
      apply (fo_lift_bind _ tt); [destruct asserts; reflexivity|]. apply fo_lift. rewrite Nat2Z.id. apply set_seq. lia.
    + cbn [le map]. do 2 f_equal. apply Z.mod_small. lia.
  - apply fo_pfold. intros t Ht. apply in_seq in Ht.
    apply (fo_sys_read (SLis k t i) 1 [1] _ [Snd (SCon k i t) 1; Snd (Sib k i t) (Z.of_nat i)]); [cbn; lia|discriminate|]. intros n Hn. assert (n = 1%nat) as -> by lia.
    cbn [firstn skipn map app].
    apply (fo_sys_send (SCon k i t) [1] _ [Snd (Sib k i t) (Z.of_nat i)]); [discriminate|]. intros n Hn'. cbn [length] in Hn'. assert (n = 1%nat) as -> by lia.
    cbn [skipn map app].
    eapply fo_ext; [eapply fo_bind; [apply (fo_send_all (Sib k i t) (le 1 (Z.of_nat i)) 1); apply length_le|]|rewrite app_nil_r].
    + apply fo_lift. apply set_seq. lia.
    + cbn [le map]. do 2 f_equal. apply Z.mod_small. lia.
Qed.
