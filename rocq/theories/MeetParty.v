(** A party among arbitrary peers. *)
From Verif Require Import Base BaseProofs Incremental Wire WireProofs Additive AdditiveProofs Onion Shuffle Sizes State Database CipherBatch
  Range Handlers Batch Party Chain Net Stream CipherBatchProofs SharingProofs StreamProofs Lts Procs ProcProofs Spec ChainSpec ShuffleProofs OnlineProofs OfflineProofs OfflineParty ChainProofs ProcChain
  PeerSpec PeerProofs TalkSpec TalkProofs MeetSpec MeetProofs.

Lemma map_res_abort {A B} (f : A -> res B) : (forall a, f a <> Abort) -> forall l, map_res f l <> Abort.
Proof.
  intros H. induction l as [|a l IH]; cbn; [discriminate|]. specialize (H a). destruct (f a); cbn; try congruence.
  destruct (map_res f l); cbn; congruence.
Qed.
Lemma send_ciphers_abort ls k cb : send_ciphers ls k cb <> Abort.
Proof.
  apply map_res_abort. intros i. unfold ls_shuffle, get, cb_get_short, rd. destruct (nth_error _ i); cbn; [|discriminate].
  destruct (_ <=? _)%nat; discriminate.
Qed.
Lemma fold_map {A B S} (g : A -> B) (h : S -> B -> res S) : forall l s, fold_res (fun s m => h s (g m)) l s = fold_res h (map g l) s.
Proof. induction l as [|a l IH]; intros s; cbn; [reflexivity|]. destruct (h s (g a)); cbn; auto. Qed.

Lemma noise_back n N x : u32 x -> Z.of_nat (n + N) < 2 ^ 32 -> Z.of_nat (N + n) = w32 (Z.of_nat n + x) -> x = Z.of_nat N.
Proof. unfold u32, w32. intros. dlia. Qed.

Section Facts.
  Variables (b : sealbox) (rng : rng_t) (keys : list (list Z * list Z)) (rows j : nat) (cf : pconf) (n : nat).
  Hypothesis H : honest_party b rng keys rows j cf n.
  Notation N := (noise_total rows cf).
  Notation pk := (pf_pkey cf). Notation sk := (pf_skey cf).
  Notation size := (124 * (length keys - j))%nat.

  Lemma honest_facts ls : ls_initialize rng (pf_seed cf) (N + n) = Ok ls -> exists ncs nqs, length ncs = N /\ length nqs = N /\
    Forall (fun c => length c = (size - 124)%nat) ncs /\
    (forall cs, length cs = n -> Forall (bytes size) cs -> party_offline b true rng cf (Z.of_nat n) cs = Abort \/
       exists opens out rp, accepted b pk sk size n cs opens /\ ciphers_sent ls size n ncs opens out /\ sized (124 * (length keys - j - 1)) out /\
         party_offline b true rng cf (Z.of_nat n) cs = Ok (Z.of_nat (N + n), out, rp)) /\
    (forall cs opens out rp, accepted b pk sk size n cs opens -> party_offline b true rng cf (Z.of_nat n) cs = Ok (Z.of_nat (N + n), out, rp) ->
       forall qs, length qs = n ->
         ((exists q, In q qs /\ ~ In (q_tag q) (map (fun x => o_tag (fst x)) opens)) -> party_forward rp qs = UB) /\
         (forall secs, Forall2 (secret_of (map fst opens)) qs secs -> exists rp' out',
            party_forward rp qs = Ok (rp', out') /\ length out' = (length nqs + n)%nat /\
            (forall i t, ls_shuffle ls i = Ok t ->
               nth_error out' t = nth_error (nqs ++ map (fun x => handled (fst x) (snd x)) (combine qs secs)) i) /\
            forall resps, length resps = (N + n)%nat -> Forall (bytes 52) resps -> exists back,
              party_backward rp' resps = Ok back /\ sized 52 back /\ responses_sent ls n nqs secs resps back)).
  Proof using All.
    intros El. destruct (c60_party b rng keys rows j cf n H ls El) as (ncs & L1 & S1 & E).
    destruct (c61_party b rng keys rows j cf n H ls El) as (nqs & L2 & F). exists ncs, nqs.
    pose proof H as [G GK Hb Hsz [H255 Hk] [Hr1 Hr] Ht].
    destruct (ls_initialize_spec rng (pf_seed cf) (N + n) (gp_rng _ _ _ _ _ G)) as (ls' & El' & O); [lia|].
    rewrite El in El'. inversion El'; subst ls'. clear El'. fold (ls_ok (N + n) ls) in O.
    split; [exact L1|]. split; [exact L2|]. split; [eapply Forall_impl; [|exact S1]; cbn beta; intros; lia|]. split.
    - intros cs Lc Bc. destruct (E cs Lc Bc) as (E1 & E2).
      destruct (all_or_bad b pk sk cs) as [Hbad|(opens & Eo)]; [left; apply E1; exact Hbad|].
      destruct (E2 opens Eo) as (E3 & E4).
      destruct (ListDec.NoDup_dec Z.eq_dec (map (fun x => o_tag (fst x)) opens)) as [Nd|Nd]; [|left; apply E3; exact Nd].
      right. destruct (E4 Nd) as (out & rp & Ep & Lo & Ho). exists opens, out, rp.
      split; [constructor; assumption|]. enough (Sz : sized (124 * (length keys - j - 1)) out).
      { split; [|split; [exact Sz|exact Ep]]. split; [lia|]. split; [|exact Ho]. eapply Forall_impl; [|exact Sz]. cbn beta. intros; lia. }
      apply Forall_forall. intros x Hx. apply In_nth_error in Hx. destruct Hx as (i & Hi).
      assert (Hil : (i < N + n)%nat) by (rewrite <- Lo; apply nth_error_Some; congruence).
      destruct (get_lt (ls_forward ls) i) as (t & Et & _); [destruct O as (Lf & _); lia|].
      rewrite (Ho i t Et) in Hi. apply nth_error_In in Hi. apply in_app_or in Hi. destruct Hi as [Hi|Hi].
      + rewrite Forall_forall in S1. apply S1. exact Hi.
      + apply in_map_iff in Hi. destruct Hi as ([s inner] & <- & Hin). cbn [snd].
        assert (Hm : In (Some (s, inner)) (map (shows b pk sk) cs)) by (rewrite Eo; apply in_map; exact Hin).
        apply in_map_iff in Hm. destruct Hm as (c & Ec & Hc). rewrite Forall_forall in Bc.
        assert (En : as_party_id (Z.of_nat (pf_parties cf) - Z.of_nat (pf_party cf)) = S (length keys - j - 1)).
        { rewrite (gp_party _ _ _ _ _ G), (gp_parties _ _ _ _ _ G), as_party_id_sub by lia. lia. }
        apply (shows_inner b cf (length keys - j - 1) En Hsz c s inner); [|exact Ec].
        replace (S (length keys - j - 1)) with (length keys - j)%nat by lia. apply Bc. exact Hc.
    - intros cs opens out rp A Ep qs Lq. destruct A as [Lc Bc Eo Nd].
      destruct (F cs opens _ out rp Lc Bc Ep Eo qs Lq) as (F1 & F2). split; [exact F1|].
      intros secs Fs. destruct (F2 secs Fs) as (rp' & out' & E1 & E3 & E4 & E5). exists rp', out'. split; [exact E1|]. split; [lia|].
      split; [exact E4|]. intros resps Lr Br. destruct (E5 resps Lr Br) as (back & B1 & B2 & B3). exists back. split; [exact B1|].
      enough (Sb : sized 52 back).
      { split; [exact Sb|]. split; [lia|]. split; [exact Br|]. split; [exact B2|]. split; [exact Sb|]. rewrite L2. exact B3. }
      apply Forall_forall. intros x Hx. apply In_nth_error in Hx. destruct Hx as (i & Hi).
      assert (Hil : (i < n)%nat) by (rewrite <- B2; apply nth_error_Some; congruence).
      pose proof (Forall2_length' _ _ _ Fs) as Ls. destruct (nth_error secs i) as [s|] eqn:Es; [|apply nth_error_None in Es; lia].
      destruct (get_lt (ls_forward ls) (N + i)) as (t & Et & Nt); [destruct O as (Lf & _); lia|].
      pose proof (ls_forward_lt (N + n) ls t O (nth_error_In _ _ Nt)) as Htl.
      destruct (nth_error resps t) as [r|] eqn:Er; [|apply nth_error_None in Er; lia].
      rewrite (B3 i s t r Es Et Er) in Hi. inversion Hi; subst x. clear Hi.
      assert (Bm : bytes 52 (o_preshare s)).
      { assert (Hin : In s (map fst opens)).
        { apply nth_error_In in Es. clear -Fs Es. induction Fs as [|q s' ? ? [Hin _] Fs IH]; [contradiction|]. destruct Es as [->|Es]; auto. }
        apply in_map_iff in Hin. destruct Hin as ([s' inner] & <- & Hin). cbn [fst].
        assert (Hm : In (Some (s', inner)) (map (shows b pk sk) cs)) by (rewrite Eo; apply in_map; exact Hin).
        apply in_map_iff in Hm. destruct Hm as (c & Ec & Hc). rewrite Forall_forall in Bc.
        assert (En : as_party_id (Z.of_nat (pf_parties cf) - Z.of_nat (pf_party cf)) = S (length keys - j - 1)).
        { rewrite (gp_party _ _ _ _ _ G), (gp_parties _ _ _ _ _ G), as_party_id_sub by lia. lia. }
        apply (shows_inner b cf (length keys - j - 1) En Hsz c s' inner); [|exact Ec].
        replace (S (length keys - j - 1)) with (length keys - j)%nat by lia. apply Bc. exact Hc. }
      rewrite Forall_forall in Br. pose proof (Br r (nth_error_In _ _ Er)) as Brr.
      unfold xorl. rewrite map_length, combine_length. destruct Bm as [-> _], Brr as [-> _]. reflexivity.
  Qed.
End Facts.

Section Party.
  Variables (b : sealbox) (rng : rng_t) (keys : list (list Z * list Z)) (rows j : nat) (cf : pconf) (n : nat).
  Hypothesis H : honest_party b rng keys rows j cf n.
  Notation N := (noise_total rows cf).
  Notation pk := (pf_pkey cf). Notation sk := (pf_skey cf).
  Notation size := (124 * (length keys - j))%nat.
  Variables (ls : lshuffler) (ncs : list (list Z)) (nqs : list query) (online : bool) (mem : nat -> list Z).
  Hypothesis Hmem : forall i, length (mem i) = BUFFER_SIZE.
  Hypothesis El : ls_initialize rng (pf_seed cf) (N + n) = Ok ls.
  Hypothesis Lc : length ncs = N.
  Hypothesis Lq : length nqs = N.
  Notation takes := (accepted b pk sk size n).
  Hypothesis Off : forall cs, length cs = n -> Forall (bytes size) cs -> party_offline b true rng cf (Z.of_nat n) cs = Abort \/
       exists opens out rp, takes cs opens /\ ciphers_sent ls size n ncs opens out /\ sized (124 * (length keys - j - 1)) out /\
         party_offline b true rng cf (Z.of_nat n) cs = Ok (Z.of_nat (N + n), out, rp).
  Hypothesis On : forall cs opens out rp, takes cs opens -> party_offline b true rng cf (Z.of_nat n) cs = Ok (Z.of_nat (N + n), out, rp) ->
       forall qs, length qs = n ->
         ((exists q, In q qs /\ ~ In (q_tag q) (map (fun x => o_tag (fst x)) opens)) -> party_forward rp qs = UB) /\
         (forall secs, Forall2 (secret_of (map fst opens)) qs secs -> exists rp' out',
            party_forward rp qs = Ok (rp', out') /\ length out' = (length nqs + n)%nat /\
            (forall i t, ls_shuffle ls i = Ok t ->
               nth_error out' t = nth_error (nqs ++ map (fun x => handled (fst x) (snd x)) (combine qs secs)) i) /\
            forall resps, length resps = (N + n)%nat -> Forall (bytes 52) resps -> exists back,
              party_backward rp' resps = Ok back /\ sized 52 back /\ responses_sent ls n nqs secs resps back).

  Notation hist := (list (chan * Z)).
  Notation said := (party_said b pk sk ls size n ncs nqs online).
  Notation cin := (count_in n). Notation cout := (count_out n ncs).

  Definition own (O : hist) : Prop :=
    forall c x, List.In (c, x) O -> c = Fwd (S j) \/ c = Bwd j \/ ((c = Lis j \/ c = Con (S j)) /\ x = 1).
  Definition counted (I : hist) : Prop := forall n', announces (on (Fwd j) I) n' -> n' = Z.of_nat n.
  Definition PSafe (I O : hist) : Prop := counted I -> own O /\ said (on (Fwd j) I) (on (Bwd (S j)) I) (on (Fwd (S j)) O) (on (Bwd j) O).
  Definition PU (I : hist) : Prop := counted I -> online = true /\ unknown_tag b pk sk size n (on (Fwd j) I).

  Record at_ (prev next fwd back : list Z) (I O : hist) : Prop := {
    at_prev : on (Fwd j) I = prev; at_next : on (Bwd (S j)) I = next;
    at_fwd : on (Fwd (S j)) O = fwd; at_back : on (Bwd j) O = back; at_own : own O
  }.

  Lemma counted_less I x : counted (I ++ x) -> counted I.
  Proof using. intros C n' [U1 B]. apply C. split; [exact U1|]. rewrite on_app. apply begins_more. exact B. Qed.
  Lemma psafe_mono I O x : PSafe I O -> PSafe (I ++ x) O.
  Proof using.
    intros HS C. destruct (HS (counted_less _ _ C)) as [HO HS']. split; [exact HO|]. rewrite !on_app. clear -HS'.
    destruct HS'; eauto using party_said, begins_more.
  Qed.
  Lemma pu_mono I x : PU I -> PU (I ++ x).
  Proof using.
    intros HS C. destruct (HS (counted_less _ _ C)) as (E & cs & opens & raw & q & A & B & R). split; [exact E|].
    exists cs, opens, raw, q. split; [exact A|]. split; [|exact R]. rewrite on_app. apply begins_more. exact B.
  Qed.
  Lemma own_app O c w : own O -> c = Fwd (S j) \/ c = Bwd j -> own (O ++ map (pair c) w).
  Proof using.
    intros HO Hc c' x Hin. apply in_app_or in Hin. destruct Hin as [Hin|Hin]; [apply HO; exact Hin|].
    apply in_map_iff in Hin. destruct Hin as (y & E & _). inversion E; subst. tauto.
  Qed.

  Lemma neq_fb i k : chan_eqb (Fwd i) (Bwd k) = false. Proof using. reflexivity. Qed.
  Lemma neq_ff : chan_eqb (Fwd j) (Fwd (S j)) = false. Proof using. cbn. apply Nat.eqb_neq, Nat.neq_succ_diag_r. Qed.

  Lemma at_read_prev prev next fwd back I O bs : at_ prev next fwd back I O ->
    at_ (prev ++ bs) next fwd back (I ++ map (pair (Fwd j)) bs) O.
  Proof using. intros [<- <- <- <- Ho]. split; auto; rewrite on_app; [rewrite on_same|rewrite on_other, app_nil_r]; reflexivity. Qed.
  Lemma at_read_next prev next fwd back I O bs : at_ prev next fwd back I O ->
    at_ prev (next ++ bs) fwd back (I ++ map (pair (Bwd (S j))) bs) O.
  Proof using. intros [<- <- <- <- Ho]. split; auto; rewrite on_app; [rewrite on_other, app_nil_r|rewrite on_same]; reflexivity. Qed.
  Lemma at_send_fwd prev next fwd back I O bs : at_ prev next fwd back I O ->
    at_ prev next (fwd ++ bs) back I (O ++ map (pair (Fwd (S j))) bs).
  Proof using.
    intros [<- <- <- <- Ho]. split; auto; try (rewrite on_app; [rewrite on_same; reflexivity]).
    - rewrite on_app, on_other, app_nil_r; reflexivity.
    - apply own_app; auto.
  Qed.
  Lemma at_send_back prev next fwd back I O bs : at_ prev next fwd back I O ->
    at_ prev next fwd (back ++ bs) I (O ++ map (pair (Bwd j)) bs).
  Proof using.
    intros [<- <- <- <- Ho]. split; auto; try (rewrite on_app; [rewrite on_same; reflexivity]).
    - rewrite on_app, on_other, app_nil_r; reflexivity.
    - apply own_app; auto.
  Qed.
  Lemma at_safe prev next fwd back I O : at_ prev next fwd back I O -> said prev next fwd back -> PSafe I O.
  Proof using. intros [<- <- <- <- Ho] HS. split; auto. Qed.

  Notation dos := (does PSafe PU).
  Lemma send_fwd {X A} est (p : proc chan A) a bs prev next fwd back I O (Q : A -> hist -> hist -> Prop) :
    @follows_on chan X A est p (map (Snd (Fwd (S j))) bs) a -> at_ prev next fwd back I O ->
    (forall w, begins w bs -> said prev next (fwd ++ w) back) ->
    (forall O', at_ prev next (fwd ++ bs) back I O' -> Q a I O') -> dos p I O Q.
  Proof using.
    intros F A0 HS HQ. eapply (does_sends _ _ est p _ a F (Fwd (S j)) bs); [reflexivity| |].
    - intros w Hw. eapply at_safe; [apply at_send_fwd; exact A0|]. apply HS. exact Hw.
    - apply HQ. apply at_send_fwd. exact A0.
  Qed.
  Lemma send_back {X A} est (p : proc chan A) a bs prev next fwd back I O (Q : A -> hist -> hist -> Prop) :
    @follows_on chan X A est p (map (Snd (Bwd j)) bs) a -> at_ prev next fwd back I O ->
    (forall w, begins w bs -> said prev next fwd (back ++ w)) ->
    (forall O', at_ prev next fwd (back ++ bs) I O' -> Q a I O') -> dos p I O Q.
  Proof using.
    intros F A0 HS HQ. eapply (does_sends _ _ est p _ a F (Bwd j) bs); [reflexivity| |].
    - intros w Hw. eapply at_safe; [apply at_send_back; exact A0|]. apply HS. exact Hw.
    - apply HQ. apply at_send_back. exact A0.
  Qed.

  (** The peer has announced another number: nothing is claimed. *)
  Definition other (I : hist) : Prop := exists n', announces (on (Fwd j) I) n' /\ n' <> Z.of_nat n.
  Lemma other_more I x : other I -> other (I ++ x).
  Proof using. intros (n' & [U1 B] & Ne). exists n'. split; [|exact Ne]. split; [exact U1|]. rewrite on_app. apply begins_more. exact B. Qed.
  Lemma other_counted I : other I -> ~ counted I.
  Proof using. intros (n' & A & Ne) C. exact (Ne (C _ A)). Qed.
  Lemma does_other {A} (p : proc chan A) I O (Q : A -> hist -> hist -> Prop) : other I -> (forall a I' O', other I' -> Q a I' O') -> dos p I O Q.
  Proof using.
    intros Hot HQ. apply does_anything.
    - intros x O' C. destruct (other_counted (I ++ x)); [apply other_more; exact Hot|exact C].
    - intros x C. destruct (other_counted (I ++ x)); [apply other_more; exact Hot|exact C].
    - intros a x O'. apply HQ. apply other_more. exact Hot.
  Qed.

  Lemma cin_u32 : u32 (Z.of_nat n).
  Proof using H. destruct H as [_ _ _ _ _ _ Ht]. clear - Ht. unfold u32. lia. Qed.
  Lemma cout_eq : cout = le 4 (Z.of_nat (N + n)).
  Proof using Lc. unfold count_out. rewrite Lc. reflexivity. Qed.

  Lemma does_offline I O (Q : ready -> hist -> hist -> Prop) : at_ [] [] [] [] I O ->
    (forall rp I' O', other I' \/ (exists cs opens out, takes cs opens /\ ciphers_sent ls size n ncs opens out /\
       party_offline b true rng cf (Z.of_nat n) cs = Ok (Z.of_nat (N + n), out, rp) /\
       at_ (cin ++ concat cs) [1; 1] (cout ++ concat out) [1; 1] I' O') -> Q rp I' O') ->
    dos (pparty_offline b true rng mem (S j) cf) I O Q.
  Proof using All.
    intros A0 HQ. pose proof H as [G GK Hb Hsz [H255 Hk] [Hr1 Hr] Ht].
    destruct (create_noise_spec b rng keys rows j cf n G GK Hb H255 Hk Hr Ht)
      as (ns0 & cb & ns & ncs0 & gap & rest & E0 & E1 & R1 & B1 & B2 & Lr & Fn & Qn).
    set (noise := noise_items rows (length keys - j - 1) cf n) in *.
    assert (Lnoise : length noise = N) by apply noise_items_length.
    destruct (ls_initialize_spec rng (pf_seed cf) (N + n) (gp_rng _ _ _ _ _ G)) as (ls' & El' & Ol); [lia|].
    fold (ls_ok (N + n) ls') in Ol. rewrite El in El'. inversion El'. subst ls'. clear El'.
    destruct (noise_queries_spec rng keys rows j cf (N + n) ls noise (repeat no_item n) ns G Ol) as (qs & Eqs & _).
    { rewrite app_length, repeat_length, Lnoise. reflexivity. }
    { lia. }
    { apply noise_items_keys. }
    { exact Qn. }
    assert (Esh : shuffled_count (Z.of_nat n) (Z.of_nat N) = Z.of_nat (N + n)).
    { unfold shuffled_count. rewrite w32_id by (unfold u32; lia). lia. }
    pose proof (noise_samples_spec rng keys rows j cf G Hr1 ltac:(lia) ltac:(lia)) as Esm.
    set (rp0 := fun ins => {| rp_noise := Z.of_nat N; rp_input := Z.of_nat n; rp_shuffled := Z.of_nat (N + n); rp_state := ins;
       rp_shuffler := ls; rp_tags := bt_initialize 0 n; rp_queries := qs |}).
    assert (Poff : forall cs, length cs = n -> party_offline b true rng cf (Z.of_nat n) cs =
      let* cb1 := fold_res cb_push_long cs cb in
      let* ins := install_secrets b true cf (Z.of_nat n) cb1 (qs_initialize_state qs_new false) in
      let* out := send_ciphers ls (Z.of_nat (N + n)) (fst ins) in
      Ok (Z.of_nat (N + n), out, rp0 (snd ins))).
    { intros cs Lcs. unfold party_offline. rewrite (party_check_spec rng keys rows j cf G Hk). cbn [bind]. rewrite Esm. cbn [bind].
      rewrite Esh, !Nat2Z.id, E0. cbn [bind]. rewrite E1. cbn [bind fst snd]. unfold collect_ciphers. rewrite Nat2Z.id, recv_all by exact Lcs.
      cbn [bind]. destruct (fold_res cb_push_long cs cb); cbn [bind]; try reflexivity. rewrite El. cbn [bind].
      destruct (install_secrets _ _ _ _ _ _); cbn [bind]; try reflexivity. destruct (send_ciphers _ _ _); cbn [bind]; try reflexivity.
      rewrite Eqs. reflexivity. }
    destruct (SharingProofs.c11 (length keys) j) as (_ & A2 & A3 & _); [lia|lia|].
    rewrite <- (gp_party _ _ _ _ _ G), <- (gp_parties _ _ _ _ _ G) in A2, A3.
    assert (Si : party_in_size (pf_parties cf) (pf_party cf) = size).
    { rewrite A2, (gp_party _ _ _ _ _ G), (gp_parties _ _ _ _ _ G). reflexivity. }
    assert (So : party_out_size (pf_parties cf) (pf_party cf) = (124 * (length keys - j - 1))%nat).
    { rewrite (gp_party _ _ _ _ _ G), (gp_parties _ _ _ _ _ G) in *. lia. }
    unfold pparty_offline. replace (S j - 1)%nat with j by lia. rewrite Esm. cbn [lift pbind].
    apply does_bind. unfold pparty_counts. replace (S j - 1)%nat with j by lia. apply does_bind. apply does_count. intros n' U'.
    apply at_read_prev with (bs := le 4 n') in A0. cbn [app] in A0.
    destruct (Z.eq_dec n' (Z.of_nat n)) as [->|Ne].
    2:{ apply does_other; [|intros; apply does_other; [assumption|]; intros; apply HQ; left; assumption].
        exists n'. split; [|exact Ne]. split; [exact U'|]. rewrite (at_prev _ _ _ _ _ _ A0). apply begins_refl. }
    rewrite Esh. apply does_bind.
    eapply send_fwd; [apply (fo_count (X := unit) (est := established))|exact A0| |].
    { intros w Hw. apply said_count; [apply begins_refl|]. rewrite cout_eq. exact Hw. }
    clear A0. intros O1 A1. cbn [app] in A1. cbn [does]. fold cin in A1. rewrite <- cout_eq in A1. rewrite !Esh, !Nat2Z.id, E0. cbn [lift pbind].
    rewrite E1. cbn [lift pbind fst snd]. apply does_bind. apply does_wait.
    apply at_read_next with (bs := [1]) in A1. cbn [app map] in A1. apply does_bind.
    eapply send_back with (bs := [1]); [apply (fo_ready (X := unit) (est := established))|exact A1| |].
    { intros w Hw. apply said_ready; [apply begins_refl|apply begins_refl|exact Hw]. }
    clear A1. intros O2 A2'. cbn [app] in A2'. apply does_bind. rewrite Si.
    apply does_take_ciphers; [exact pu_mono|apply Hmem|unfold BUFFER_SIZE; lia|unfold u32 in *; lia| |].
    { intros msgs Bm Lm Eub. exfalso.
      assert (Bz : bytes size (repeat 0 size)).
      { split; [apply repeat_length|]. apply Forall_forall. intros x Hx. apply repeat_spec in Hx. subst x. unfold byte. lia. }
      set (cs := msgs ++ repeat (repeat 0 size) (n - length msgs)).
      assert (Lcs : length cs = n) by (unfold cs; rewrite app_length, repeat_length; lia).
      assert (Bcs : Forall (bytes size) cs).
      { apply Forall_app. split; [exact Bm|]. apply Forall_forall. intros x Hx. apply repeat_spec in Hx. subst x. exact Bz. }
      pose proof (Poff cs Lcs) as E. unfold cs in E at 2. rewrite fold_res_app, Eub in E. cbn [bind] in E.
      destruct (Off cs Lcs Bcs) as [E'|(? & ? & ? & _ & _ & _ & E')]; rewrite E' in E; discriminate. }
    intros cs cb1 Bcs Lcs Ecb. apply at_read_prev with (bs := concat cs) in A2'.
    rewrite El. cbn [lift pbind]. pose proof (Poff cs Lcs) as Ep. rewrite Ecb in Ep. cbn [bind] in Ep.
    apply does_lift.
    { intros Eub. exfalso. rewrite Eub in Ep. cbn [bind] in Ep.
      destruct (Off cs Lcs Bcs) as [E'|(? & ? & ? & _ & _ & _ & E')]; rewrite E' in Ep; discriminate. }
    intros ins Eins. rewrite Eins in Ep. cbn [bind] in Ep.
    destruct (Off cs Lcs Bcs) as [E'|(opens & out & rp & Tk & Cs & Sz & E')].
    { exfalso. rewrite E' in Ep. pose proof (send_ciphers_abort ls (Z.of_nat (N + n)) (fst ins)) as Na.
      destruct (send_ciphers ls (Z.of_nat (N + n)) (fst ins)); cbn [bind] in Ep; congruence. }
    rewrite E' in Ep. destruct (send_ciphers ls (Z.of_nat (N + n)) (fst ins)) as [out'| | |] eqn:Eo; cbn [bind] in Ep; try discriminate.
    inversion Ep; subst out' rp. clear Ep.
    unfold send_ciphers in Eo. rewrite Nat2Z.id in Eo. apply (map_as_fold _ _ []) in Eo. cbn [app] in Eo.
    destruct (fo_send_ciphers (X := unit) (est := established) (Fwd (S j)) (mem 1%nat) (party_out_size (pf_parties cf) (pf_party cf)) (fun _ i =>
      let* m := (let* idx := ls_shuffle ls i in cb_get_short (fst ins) idx) in
      Ok (m, tt)) _ _ _ _ (Hmem 1%nat) ltac:(rewrite So; unfold BUFFER_SIZE; lia) Eo ltac:(rewrite So; exact Sz)) as (w1 & w2 & e1 & e2 & F1 & F2 & Qe).
    assert (SC : forall w, begins w (concat out) -> said (cin ++ concat cs) [1] (cout ++ w) [1]).
    { intros w Hw. eapply said_ciphers; [exact Tk|exact Cs|apply begins_refl|apply begins_refl|apply begins_app; exact Hw]. }
    rewrite Qe in SC. apply does_bind. eapply send_fwd; [exact F1|exact A2'| |].
    { intros w Hw. apply SC. apply begins_more. exact Hw. }
    clear A2'. intros O3 A3'. cbn [fst snd]. apply does_bind. eapply send_fwd; [exact F2|exact A3'| |].
    { intros w Hw. rewrite <- app_assoc. apply SC. apply begins_app. exact Hw. }
    clear A3'. intros O4 A4. rewrite <- app_assoc, <- Qe in A4. rewrite Eqs. cbn [lift pbind].
    apply does_bind. apply does_wait. apply at_read_next with (bs := [1]) in A4. cbn [app map] in A4. apply does_bind.
    eapply send_back with (bs := [1]); [apply (fo_ready (X := unit) (est := established))|exact A4| |].
    { intros w Hw. eapply said_stored; [exact Tk|exact Cs|apply begins_refl|apply begins_refl|]. apply (begins_app [1]). exact Hw. }
    clear A4. intros O5 A5. cbn [does]. apply HQ. right. exists cs, opens, out. split; [exact Tk|]. split; [exact Cs|]. split; [exact E'|exact A5].
  Qed.

  Lemma all_known (opens : list (osecret * list Z)) : forall qs,
    (exists q, In q qs /\ ~ In (q_tag q) (map (fun x => o_tag (fst x)) opens)) \/ exists secs, Forall2 (secret_of (map fst opens)) qs secs.
  Proof using.
    clear. induction qs as [|q qs IH]; [right; exists []; constructor|].
    destruct (known_or_not (map fst opens) q) as [(s & Hs)|Hs].
    - destruct IH as [(q' & Hin & Hq)|(secs & Fs)]; [left; exists q'; split; [right; exact Hin|exact Hq]|].
      right. exists (s :: secs). constructor; assumption.
    - left. exists q. split; [left; reflexivity|]. rewrite map_map in Hs. exact Hs.
  Qed.

  Lemma does_online cs opens out rp I O (Q : unit -> hist -> hist -> Prop) : online = true ->
    takes cs opens -> ciphers_sent ls size n ncs opens out -> party_offline b true rng cf (Z.of_nat n) cs = Ok (Z.of_nat (N + n), out, rp) ->
    at_ (cin ++ concat cs) [1; 1] (cout ++ concat out) [1; 1] I O ->
    (forall raw secs qs resps answers I' O', queries_sent ls n nqs opens raw secs qs -> responses_sent ls n nqs secs resps answers ->
       at_ (cin ++ concat cs ++ concat raw) ([1; 1] ++ concat resps) (cout ++ concat out ++ concat (map enc_query qs)) ([1; 1] ++ concat answers) I' O' ->
       Q tt I' O') ->
    dos (do rp' <- pparty_forward mem (S j) rp; pparty_backward mem (S j) rp') I O Q.
  Proof using All.
    intros Eon Tk Cs Ep A0 HQ. pose proof H as [G GK Hb Hsz [H255 Hk] [Hr1 Hr] Ht].
    destruct (party_offline_counts _ _ _ _ _ _ _ _ _ Ep) as (Rs & Rn & Re).
    assert (Rn' : rp_noise rp = Z.of_nat N) by (apply (noise_back n N); assumption).
    assert (Rd : Z.to_nat (rp_shuffled rp - rp_noise rp) = n) by (rewrite Rs, Rn'; lia).
    pose proof (On cs opens out rp Tk Ep) as HOn.
    set (h := fun (s : nat * qstate * batch Z * batch query) q =>
      let '(read, p, tags, qs) := s in
      let* tags' := bt_push tags (q_tag q) in
      let* target := ls_shuffle (rp_shuffler rp) read in
      let* h := handle_query p q in
      let* qs' := bt_set qs target (fst h) in
      Ok (S read, snd h, tags', qs')).
    set (s0 := (Z.to_nat (rp_noise rp), rp_state rp, rp_tags rp, rp_queries rp)).
    assert (Pf : forall qs, length qs = n -> party_forward rp qs =
      let* r := fold_res h qs s0 in let '(_, p, tags, qs) := r in
      Ok ({| rp_noise := rp_noise rp; rp_input := rp_input rp; rp_shuffled := rp_shuffled rp; rp_state := p;
         rp_shuffler := rp_shuffler rp; rp_tags := tags; rp_queries := bt_initialize zero_query 0 |}, bt_all qs)).
    { intros qs Lqs. unfold party_forward. rewrite Rd, recv_all by exact Lqs. reflexivity. }
    apply does_bind. unfold pparty_forward. replace (S j - 1)%nat with j by lia. apply does_bind. rewrite Rd.
    apply does_take_each; [exact pu_mono|apply Hmem|apply message_sizes|lia| |].
    { intros msgs Bm Lm Eub C. split; [exact Eon|].
      change (fold_res (fun s m => h s (dec_query m)) msgs s0 = UB) in Eub. rewrite fold_map in Eub.
      destruct (all_known opens (map dec_query msgs)) as [(q & Hin & Hq)|(secs & Fs)].
      - apply in_map_iff in Hin. destruct Hin as (m & <- & Hin). exists cs, opens, msgs, m.
        split; [exact Tk|]. split; [|split; [exact Lm|split; [exact Bm|split; [exact Hin|exact Hq]]]].
        apply at_read_prev with (bs := concat msgs) in A0. rewrite (at_prev _ _ _ _ _ _ A0), app_assoc. apply begins_refl.
      - exfalso. destruct msgs as [|m0 msgs]; [discriminate Eub|].
        inversion Fs as [|? s ? secs' Hs Fs']; subst.
        set (qs := map dec_query (m0 :: msgs) ++ repeat (dec_query m0) (n - length (m0 :: msgs))).
        assert (Lqs : length qs = n) by (unfold qs; rewrite app_length, map_length, repeat_length; lia).
        destruct (HOn qs Lqs) as [_ K]. destruct (K ((s :: secs') ++ repeat s (n - length (m0 :: msgs)))) as (rp' & out' & E & _).
        { apply Forall2_app; [exact Fs|]. clear - Hs. induction (n - length (m0 :: msgs))%nat; cbn; constructor; auto. }
        rewrite (Pf qs Lqs) in E. unfold qs in E. rewrite fold_res_app, Eub in E. discriminate E. }
    intros raw [[[read p] tags] qb] Braw Lraw Efold.
    change (fold_res (fun s m => h s (dec_query m)) raw s0 = Ok (read, p, tags, qb)) in Efold. rewrite fold_map in Efold.
    apply at_read_prev with (bs := concat raw) in A0.
    assert (Lqr : length (map dec_query raw) = n) by (rewrite map_length; exact Lraw).
    destruct (HOn _ Lqr) as [K1 K2]. pose proof (Pf _ Lqr) as Ef. rewrite Efold in Ef. cbn [bind] in Ef.
    destruct (all_known opens (map dec_query raw)) as [Hbad|(secs & Fs)]; [rewrite (K1 Hbad) in Ef; discriminate Ef|].
    destruct (K2 secs Fs) as (rp' & qs & Ef' & Lqs & Hqs & HB). rewrite Ef in Ef'. inversion Ef'. subst qs.
    assert (QS : queries_sent ls n nqs opens raw secs (bt_all qb)) by (split; [exact Lraw|split; [exact Braw|split; [exact Fs|split; assumption]]]).
    destruct (fo_send_messages (X := unit) (est := established) (Fwd (S j)) (mem 3%nat) query_size (fun _ q => Ok (enc_query q, tt)) (bt_all qb) tt _ _
        (Hmem 3%nat) (proj1 message_sizes) (pure_as_fold enc_query (bt_all qb) []) (queries_len _)) as (w1 & w2 & e1 & e2 & F1 & F2 & Qe).
    cbn [app] in Qe. rewrite <- app_assoc in A0.
    assert (SQ : forall w, begins w (concat (map enc_query (bt_all qb))) -> said (cin ++ concat cs ++ concat raw) [1; 1] ((cout ++ concat out) ++ w) [1; 1]).
    { intros w Hw. eapply said_queries; [exact Eon|exact Tk|exact Cs|exact QS|apply begins_refl|apply begins_refl|].
      rewrite <- app_assoc. apply begins_app. apply begins_app. exact Hw. }
    rewrite Qe in SQ. apply does_bind. eapply send_fwd; [exact F1|exact A0| |].
    { intros w Hw. apply SQ. apply begins_more. exact Hw. }
    clear A0. intros O1 A1. cbn [fst snd]. apply does_bind. eapply send_fwd; [exact F2|exact A1| |].
    { intros w Hw. rewrite <- app_assoc. apply SQ. apply begins_app. exact Hw. }
    clear A1. intros O2 A2. rewrite <- app_assoc, <- Qe, <- app_assoc in A2. cbn [does].
    rewrite H1. clear Ef'.
    set (hb := fun (s : nat * batch (list Z)) (resp : list Z) =>
      let '(read, out) := s in
      let* target := ls_deshuffle (rp_shuffler rp') read in
      if (Z.of_nat target <? rp_noise rp') then Ok (S read, out)
      else
        let target_index := (target - Z.to_nat (rp_noise rp'))%nat in
        let* old := bt_get out target_index in
        let* tag := bt_get (rp_tags rp') target_index in
        let* v := handle_response (rp_state rp') tag resp old in
        let* out' := bt_set out target_index v in
        Ok (S read, out')).
    set (t0 := (0%nat, bt_initialize zero_response (Z.to_nat (rp_input rp')))).
    assert (Rs' : Z.to_nat (rp_shuffled rp') = (N + n)%nat) by (rewrite <- H1; cbn [rp_shuffled]; rewrite Rs; lia).
    assert (Pb : forall rs, length rs = (N + n)%nat -> party_backward rp' rs = let* r := fold_res hb rs t0 in Ok (bt_all (snd r))).
    { intros rs Lrs. unfold party_backward. rewrite Rs', recv_all by exact Lrs. reflexivity. }
    unfold pparty_backward. replace (S j - 1)%nat with j by lia. rewrite Rs'. apply does_bind.
    apply does_take_each; [exact pu_mono|apply Hmem|apply message_sizes|lia| |].
    { intros msgs Bm Lm Eub. exfalso. change (fold_res hb msgs t0 = UB) in Eub.
      assert (Bz : bytes 52 (repeat 0 52)).
      { split; [apply repeat_length|]. apply Forall_forall. intros x Hx. apply repeat_spec in Hx. subst x. unfold byte. lia. }
      set (rs := msgs ++ repeat (repeat 0 52) (N + n - length msgs)).
      assert (Lrs : length rs = (N + n)%nat) by (unfold rs; rewrite app_length, repeat_length; lia).
      assert (Brs : Forall (bytes 52) rs).
      { apply Forall_app. split; [exact Bm|]. apply Forall_forall. intros x Hx. apply repeat_spec in Hx. subst x. exact Bz. }
      destruct (HB rs Lrs Brs) as (back & E & _). rewrite (Pb rs Lrs) in E. unfold rs in E. rewrite fold_res_app, Eub in E. discriminate E. }
    intros resps r Br Lr Er. change (fold_res hb resps t0 = Ok r) in Er. apply at_read_next with (bs := concat resps) in A2.
    destruct (HB resps Lr Br) as (back & E & Sb & RS). rewrite (Pb resps Lr), Er in E. cbn [bind] in E. inversion E. subst back.
    pose proof (pure_as_fold (fun v => v) (bt_all (snd r)) []) as Epf. rewrite map_id in Epf. cbn [app] in Epf.
    destruct (fo_send_messages (X := unit) (est := established) (Bwd j) (mem 5%nat) response_size (fun _ v => Ok (v, tt)) (bt_all (snd r)) tt _ _
        (Hmem 5%nat) (proj2 message_sizes) Epf Sb) as (w3 & w4 & e3 & e4 & F3 & F4 & Qf).
    assert (SR : forall w, begins w (concat (bt_all (snd r))) ->
      said (cin ++ concat cs ++ concat raw) ([1; 1] ++ concat resps) (cout ++ concat out ++ concat (map enc_query (bt_all qb))) ([1; 1] ++ w)).
    { intros w Hw. eapply said_responses; [exact Eon|exact Tk|exact Cs|exact QS|exact RS|apply begins_refl|apply begins_refl|apply begins_app; exact Hw]. }
    rewrite Qf in SR. apply does_bind. eapply send_back; [exact F3|exact A2| |].
    { intros w Hw. apply SR. apply begins_more. exact Hw. }
    clear A2. intros O3 A3. cbn [fst snd]. apply does_bind. eapply send_back; [exact F4|exact A3| |].
    { intros w Hw. rewrite <- app_assoc. apply SR. apply begins_app. exact Hw. }
    clear A3. intros O4 A4. rewrite <- app_assoc, <- Qf in A4. cbn [does].
    exact (HQ raw secs (bt_all qb) resps (bt_all (snd r)) _ _ QS RS A4).
  Qed.

  Lemma does_party : dos (pparty b true rng true online mem (S j) cf) [] []
    (fun a I O => counted I -> a = PartyEnd /\
       party_finished b pk sk ls size n ncs nqs online (on (Fwd j) I) (on (Bwd (S j)) I) (on (Fwd (S j)) O) (on (Bwd j) O)).
  Proof using All.
    pose proof H as [G GK Hb Hsz [H255 Hk] [Hr1 Hr] Ht].
    unfold pparty. rewrite (party_check_spec rng keys rows j cf G Hk). cbn [lift pbind]. replace (S j - 1)%nat with j by lia.
    apply does_bind. unfold plisten. apply does_bind. unfold psys_send. cbn [does]. intros n1 Hn1. cbn [length] in Hn1.
    assert (n1 = 1%nat) as -> by lia. cbn [firstn map app]. split.
    { intros _. split; [|apply said_nothing]. intros c x [E|[]]. inversion E; subst. auto. }
    apply does_bind. unfold psys_read. cbn [does]. intros g1 _ _. cbn [does app].
    apply does_bind. unfold pconnect. apply does_bind. unfold psys_read. cbn [does]. intros g2 _ _. apply does_bind. unfold psys_send. cbn [does].
    intros n2 Hn2. cbn [length] in Hn2. assert (n2 = 1%nat) as -> by lia. cbn [firstn map app].
    assert (Ow : own [(Lis j, 1); (Con (S j), 1)]).
    { intros c x [E|[E|[]]]; inversion E; subst; auto. }
    assert (A0 : at_ [] [] [] [] (map (pair (Con j)) g1 ++ map (pair (Lis (S j))) g2) [(Lis j, 1); (Con (S j), 1)]).
    { split; [| |reflexivity|reflexivity|exact Ow]; rewrite on_app, !on_other; reflexivity. }
    split; [eapply at_safe; [exact A0|apply said_nothing]|].
    apply does_bind. apply does_offline; [exact A0|]. intros rp I O [Hot|(cs & opens & out & Tk & Cs & Ep & A1)].
    { apply does_other; [exact Hot|]. intros a I' O' Hot' C. destruct (other_counted _ Hot' C). }
    apply does_bind. remember online as onl eqn:Eon. destruct onl.
    - eapply does_online; [symmetry; exact Eon|exact Tk|exact Cs|exact Ep|exact A1|].
      intros raw secs qs resps answers I' O' QS RS A2 C. split; [reflexivity|]. destruct A2 as [-> -> -> -> _].
      eapply finished_online; eassumption.
    - cbn [does]. intros C. split; [reflexivity|]. destruct A1 as [-> -> -> -> _]. eapply finished_offline; eassumption.
  Qed.
End Party.

(** ** Amounts *)
Lemma concat_total {A} (m : nat) : forall l : list (list A), Forall (fun c => length c = m) l -> length (concat l) = (m * length l)%nat.
Proof. induction l as [|c l IH]; intros F; cbn [concat length]; [lia|]. inversion F; subst. rewrite app_length, IH by assumption. lia. Qed.
Lemma begins_length {A} (l m : list A) : begins l m -> (length l <= length m)%nat.
Proof. intros (r & ->). rewrite app_length. lia. Qed.
Lemma party_amounts : forall b pk sk ls size n fresh noise online prev next fwd back, length fresh = length noise ->
  let total := (length fresh + n)%nat in
  (party_said b pk sk ls size n fresh noise online prev next fwd back ->
     (length fwd <= 4 + (size - 124) * total + (if online then 12 * total else 0))%nat /\
     (length back <= 2 + (if online then 52 * n else 0))%nat) /\
  (party_finished b pk sk ls size n fresh noise online prev next fwd back ->
     length fwd = (4 + (size - 124) * total + (if online then 12 * total else 0))%nat /\
     length back = (2 + (if online then 52 * n else 0))%nat).
Proof.
  intros b pk sk ls size n fresh noise online prev next fwd back El total.
  assert (C : length (count_out n fresh) = 4%nat) by apply length_le.
  assert (A1 : forall opens out, ciphers_sent ls size n fresh opens out -> length (concat out) = ((size - 124) * total)%nat).
  { intros opens out (L & F & _). rewrite (concat_total (size - 124)); [rewrite L; reflexivity|]. eapply Forall_impl; [|exact F]. cbn beta. intros; lia. }
  assert (A2 : forall opens raw secs qs, queries_sent ls n noise opens raw secs qs -> length (concat (map enc_query qs)) = (12 * total)%nat).
  { intros opens raw secs qs (_ & _ & _ & L & _). rewrite (concat_total 12); [rewrite map_length, L; unfold total; lia|exact (queries_len qs)]. }
  assert (A3 : forall secs resps answers, responses_sent ls n noise secs resps answers -> length (concat answers) = (52 * n)%nat).
  { intros secs resps answers (_ & _ & L & F & _). rewrite (concat_total 52); [rewrite L; reflexivity|exact F]. }
  split; intros HS; destruct HS; subst;
    repeat match goal with
    | X : ciphers_sent _ _ _ _ _ _ |- _ => apply A1 in X
    | X : queries_sent _ _ _ _ _ _ _ |- _ => apply A2 in X
    | X : responses_sent _ _ _ _ _ _ |- _ => apply A3 in X
    | X : begins _ (_ ++ _) |- _ => apply begins_length in X
    | X : begins _ [1] |- _ => apply begins_length in X
    | X : begins _ [1; 1] |- _ => apply begins_length in X
    | X : begins _ (count_out _ _) |- _ => apply begins_length in X
    end; repeat rewrite app_length in *; cbn [length] in *; clear A1 A2 A3;
    generalize dependent ((size - 124) * total)%nat; intros; split; try destruct online; lia.
Qed.
