(** Proofs about storing and loading experiments. *)
From Coq Require Import String DecimalN DecimalPos DecimalZ.
From Verif Require Import Base Json JsonSpec JsonProofs JsonWrite Orchestrator OrchestratorProofs Stored StoredSpec.
Local Open Scope list_scope.
Local Open Scope Z_scope.

(** Integers *)
Definition digit_step (a c : Z) : Z := a * 10 + (c - 48).
Lemma uint_text_digits d : Forall digit (uint_text d).
Proof. induction d; cbn; constructor; try easy; unfold digit; lia. Qed.
Lemma uint_text_acc d : forall a, fold_left digit_step (uint_text d) (Z.pos a) = Z.pos (Pos.of_uint_acc d a).
Proof.
  induction d as [|d IH|d IH|d IH|d IH|d IH|d IH|d IH|d IH|d IH|d IH]; intro a; [easy|..]; cbn [uint_text fold_left Pos.of_uint_acc];
    rewrite <- IH; f_equal; unfold digit_step; lia.
Qed.
Lemma uint_text_value d : fold_left digit_step (uint_text d) 0 = Z.of_N (Pos.of_uint d).
Proof. induction d as [|d IH|d _|d _|d _|d _|d _|d _|d _|d _|d _]; [easy|exact IH|..]; apply uint_text_acc. Qed.
Lemma nat_value_digits t : Forall digit t -> nat_value t = Some (fold_left digit_step t 0).
Proof.
  intro F. unfold nat_value. replace (forallb is_digit t) with true; [easy|]. symmetry. apply forallb_forall.
  intros c I. apply is_digit_iff. rewrite Forall_forall in F. auto.
Qed.
Lemma reads_nat_digits t z : reads_nat t z -> Forall digit t /\ t <> [] /\ fold_left digit_step t 0 = z.
Proof.
  induction 1 as [c H|t z c _ (F & N & E) H]; [repeat split; [constructor; [exact H|constructor]|discriminate]|].
  split; [apply Forall_app; split; [easy|constructor; [exact H|constructor]]|]. split; [now destruct t|].
  rewrite fold_left_app, E. cbn [fold_left]. unfold digit_step. lia.
Qed.
Lemma digits_reads_nat t : Forall digit t -> t <> [] -> reads_nat t (fold_left digit_step t 0).
Proof.
  induction t as [|c t IH] using rev_ind; [easy|]. intros F _. apply Forall_app in F. destruct F as [F D]. inversion D as [|? ? H _]; subst.
  destruct t as [|x t]; [now constructor|]. rewrite fold_left_app. set (u := x :: t) in *. cbn [fold_left]. unfold digit_step at 1.
  replace (fold_left digit_step u 0 * 10 + (c - 48)) with (10 * fold_left digit_step u 0 + (c - 48)) by lia.
  constructor; [|easy]. apply IH; [easy|discriminate].
Qed.
Lemma int_value_reads t z : reads_int t z -> int_value t = Some z.
Proof.
  intros [u x H|u x H]; apply reads_nat_digits in H; destruct H as (F & N & <-).
  - destruct u as [|c u]; [easy|]. cbn [int_value]. pose proof (Forall_inv F) as D. unfold digit in D. replace (c =? 45) with false by lia.
    now apply nat_value_digits.
  - cbn [int_value]. change (45 =? 45) with true. cbv iota. now rewrite nat_value_digits.
Qed.
Lemma to_uint_text p : exists c r, uint_text (Pos.to_uint p) = c :: r /\ 49 <= c <= 57.
Proof.
  pose proof (DecimalN.Unsigned.to_of (N.to_uint (N.pos p))) as E. rewrite DecimalN.Unsigned.of_to in E.
  change (N.to_uint (N.pos p)) with (Pos.to_uint p) in E. unfold Decimal.unorm in E.
  destruct (Decimal.nzhead (Pos.to_uint p)) as [|d|d|d|d|d|d|d|d|d|d] eqn:H.
  - exfalso. pose proof (DecimalPos.Unsigned.of_to p) as Q. rewrite E in Q. discriminate.
  - exfalso. revert H. generalize (Pos.to_uint p). intro q. induction q; cbn; try discriminate. easy.
  - rewrite E; cbn; eexists _, _; split; [reflexivity|lia].
  - rewrite E; cbn; eexists _, _; split; [reflexivity|lia].
  - rewrite E; cbn; eexists _, _; split; [reflexivity|lia].
  - rewrite E; cbn; eexists _, _; split; [reflexivity|lia].
  - rewrite E; cbn; eexists _, _; split; [reflexivity|lia].
  - rewrite E; cbn; eexists _, _; split; [reflexivity|lia].
  - rewrite E; cbn; eexists _, _; split; [reflexivity|lia].
  - rewrite E; cbn; eexists _, _; split; [reflexivity|lia].
  - rewrite E; cbn; eexists _, _; split; [reflexivity|lia].
Qed.
Lemma pos_text_reads p : reads_nat (uint_text (Pos.to_uint p)) (Z.pos p).
Proof.
  destruct (to_uint_text p) as (c & r & E & _).
  pose proof (uint_text_value (Pos.to_uint p)) as V. rewrite DecimalPos.Unsigned.of_to in V. cbn [Z.of_N] in V. rewrite <- V.
  apply digits_reads_nat; [apply uint_text_digits|]. now rewrite E.
Qed.
Lemma int_text_reads z : reads_int (int_text z) z.
Proof.
  destruct z as [|p|p]; unfold int_text; cbn [Z.to_int].
  - constructor. apply (rn_one 48). lia.
  - constructor. apply pos_text_reads.
  - change (Z.neg p) with (- Z.pos p). apply ri_neg. apply pos_text_reads.
Qed.
Lemma int_text_literal z : literal (int_text z).
Proof.
  assert (forall p, int_part (uint_text (Pos.to_uint p))) as P.
  { intro p. destruct (to_uint_text p) as (c & r & E & H). rewrite E. right. exists c, r. split; [easy|]. split; [easy|].
    pose proof (uint_text_digits (Pos.to_uint p)) as F. rewrite E in F. now inversion F. }
  destruct z as [|p|p]; unfold int_text; cbn [Z.to_int].
  - exists [], [48], [], []. repeat split; auto; now left.
  - exists [], (uint_text (Pos.to_uint p)), [], []. rewrite !app_nil_r. repeat split; auto; now left.
  - exists [45], (uint_text (Pos.to_uint p)), [], []. rewrite !app_nil_r. repeat split; auto; now left.
Qed.

(** Members of objects *)
Lemma units_eqb_iff a b : units_eqb a b = true <-> a = b.
Proof. unfold units_eqb. destruct (list_eq_dec Z.eq_dec a b); split; congruence. Qed.
Lemma units_eqb_refl a : units_eqb a a = true.
Proof. now apply units_eqb_iff. Qed.
Lemma field_none k l : field k l = None <-> ~ List.In k (map fst l).
Proof.
  induction l as [|[k' v] l IH]; cbn; [tauto|]. destruct (field k l) as [w|].
  - split; [discriminate|]. intro N. exfalso. assert (Some w = None) as H by (apply IH; tauto). discriminate.
  - destruct (units_eqb k k') eqn:E.
    + apply units_eqb_iff in E. split; [discriminate|]. intro N. exfalso. apply N. left. congruence.
    + split; [|easy]. intros _ [H|H]; [|now apply (proj1 IH)]. subst. rewrite units_eqb_refl in E. discriminate.
Qed.
Lemma field_bound l k v : field (txt k) l = Some v <-> bound l k v.
Proof.
  unfold bound. induction l as [|[k' w] l IH]; cbn [field].
  - split; [discriminate|]. intros (l1 & l2 & E & _). destruct l1; discriminate.
  - destruct (field (txt k) l) as [x|] eqn:F.
    + split.
      * intro E. injection E as ->. destruct (proj1 IH eq_refl) as (l1 & l2 & -> & N). now exists ((k', w) :: l1), l2.
      * intros ([|m l1] & l2 & E & N).
        -- exfalso. cbn in E. injection E as -> -> ->. apply (proj2 (field_none _ _)) in N. congruence.
        -- injection E as <- ->. apply IH. now exists l1, l2.
    + destruct (units_eqb (txt k) k') eqn:E.
      * apply units_eqb_iff in E. subst k'. split.
        -- intro H. injection H as ->. exists [], l. split; [easy|]. now apply field_none.
        -- intros ([|m l1] & l2 & H & N); [cbn in H; now injection H as -> ->|]. injection H as <- ->.
           exfalso. assert (@None json = Some v) as X by (apply IH; now exists l1, l2). discriminate.
      * split; [discriminate|]. intros ([|m l1] & l2 & H & N).
        -- cbn in H. injection H as H _ _. subst k'. rewrite units_eqb_refl in E. discriminate.
        -- injection H as <- ->. exfalso. assert (@None json = Some v) as X by (apply IH; now exists l1, l2). discriminate.
Qed.
Lemma bound_field l k v : bound l k v -> field (txt k) l = Some v.
Proof. apply field_bound. Qed.
Lemma bound_here k v l : ~ List.In (txt k) (map fst l) -> bound ((txt k, v) :: l) k v.
Proof. intro N. now exists [], l. Qed.
Lemma bound_there k v m l : bound l k v -> bound (m :: l) k v.
Proof. intros (l1 & l2 & -> & N). now exists (m :: l1), l2. Qed.
Lemma int_field_bound l k z : bound_int l k z -> int_field k l = Some z.
Proof. intros (t & B & R). unfold int_field. rewrite (bound_field _ _ _ B). now apply int_value_reads. Qed.
Lemma nat_field_bound l k n : bound_int l k (Z.of_nat n) -> nat_field k l = Some n.
Proof. intro B. unfold nat_field. rewrite (int_field_bound _ _ _ B). replace (0 <=? Z.of_nat n) with true by lia. now rewrite Nat2Z.id. Qed.
Lemma double_field_bound c l k z : bound_double c l k z -> double_field c k l = Some z.
Proof. intros (t & B & <-). unfold double_field. now rewrite (bound_field _ _ _ B). Qed.
Lemma mode_field_bound c l k z : bound_mode c l k z -> exists t, string_field k l = Some t /\ co_mode_code c t = z.
Proof. intros (t & B & E). exists t. unfold string_field. now rewrite (bound_field _ _ _ B). Qed.

(** From a value to an experiment *)
Lemma type_text_inj k k' : units_eqb (type_text k) (type_text k') = true -> k = k'.
Proof. rewrite units_eqb_iff. destruct k, k'; try easy; discriminate. Qed.
Ltac fields := cbn [ds_kind ds_name ds_mode ds_clients ds_servers ds_table ds_parties ds_parallel ds_epsilon ds_delta ds_queries] in *.
Lemma from_json_describes c made v d : describes c v d -> made (ds_name d) = true ->
  exists d', from_json c made v = Loads d' /\ same_job d (sized d').
Proof.
  intros (l & -> & N & T & Tb & Q & K) M. unfold from_json. rewrite (bound_field _ _ _ T), (bound_field _ _ _ N), M.
  pose proof (int_field_bound _ _ _ Tb) as Etb. pose proof (int_field_bound _ _ _ Q) as Eq.
  destruct d as [k name mode cn sn table ps pr eps del qs]. fields. destruct k.
  - rewrite units_eqb_refl. destruct K as (Kc & Ks & Km & Kp & Kr & Ke & Kd).
    destruct (mode_field_bound _ _ _ _ Km) as (t & Em & <-).
    rewrite Em, (nat_field_bound _ _ _ Kc), (nat_field_bound _ _ _ Ks), Etb, (nat_field_bound _ _ _ Kp), (nat_field_bound _ _ _ Kr),
      (double_field_bound _ _ _ _ Ke), (double_field_bound _ _ _ _ Kd), Eq. eexists. split; [reflexivity|]. unfold same_job, sized; fields. cbn. tauto.
  - change (units_eqb (type_text Checklist) (type_text Dppir)) with false. rewrite units_eqb_refl. cbv iota.
    destruct K as ((-> & ->) & Km). destruct (mode_field_bound _ _ _ _ Km) as (t & Em & <-). rewrite Etb, Eq, Em. eexists. split; [reflexivity|].
    unfold same_job, sized; fields. cbn. tauto.
  - change (units_eqb (type_text Sealpir) (type_text Dppir)) with false. change (units_eqb (type_text Sealpir) (type_text Checklist)) with false.
    rewrite units_eqb_refl. cbv iota. destruct K as (-> & ->). rewrite Etb, Eq. eexists. split; [reflexivity|].
    unfold same_job, sized; fields. cbn. tauto.
Qed.
Lemma from_json_hopeless c made v : hopeless v -> from_json c made v = Throws.
Proof.
  intro H. destruct v as [| | | | |l]; try easy. unfold from_json.
  destruct (field (txt "experimentType") l) as [[| | |ty| |]|] eqn:T; try easy.
  destruct (field (txt "name_") l) as [[| | |name| |]|] eqn:N; try (now repeat match goal with |- context [if ?b then _ else _] => destruct b end).
  assert (forall k, units_eqb ty (type_text k) = false) as X.
  { intro k. destruct (units_eqb ty (type_text k)) eqn:E; [|easy]. apply units_eqb_iff in E. subst ty. exfalso. apply H.
    apply field_bound in T, N. now exists l, k, name. }
  now rewrite !X.
Qed.

(** From an experiment to a value *)
Lemma num_bound l k z : bound l k (num z) -> bound_int l k z.
Proof. intro B. exists (int_text z). split; [exact B|apply int_text_reads]. Qed.
Ltac find_member :=
  lazymatch goal with
  | |- bound (?m :: _) ?k ?v =>
      first [ apply bound_here; cbn [map fst List.In]; let H := fresh in intro H; vm_compute in H; intuition discriminate
            | apply bound_there; find_member ]
  end.
Definition settled (d : desc) : Prop := sized d = d.
Lemma to_json_describes c made d : storable c made d -> settled d -> describes c (to_json c d) d.
Proof.
  intros (U & M & St & Sq & Sc & Ss & K) Z. unfold settled in Z.
  destruct d as [k name mode cn sn table ps pr eps del qs]. unfold sized in Z. fields. unfold to_json. eexists. split; [reflexivity|]. fields.
  destruct k; cbn [app].
  - destruct K as ((Um & Em) & Sp & Sr & (Le & Ee) & (Ld & Ed)).
    split; [find_member|]. split; [find_member|]. split; [apply num_bound; find_member|]. split; [apply num_bound; find_member|].
    split; [apply num_bound; find_member|]. split; [apply num_bound; find_member|].
    split; [exists (co_mode_text c mode); split; [find_member|easy]|].
    split; [apply num_bound; find_member|]. split; [apply num_bound; find_member|].
    split; [exists (co_double_text c eps); split; [find_member|easy]|]. exists (co_double_text c del). split; [find_member|easy].
  - destruct K as (Um & Em). cbn in Z. injection Z as <- <-.
    split; [find_member|]. split; [find_member|]. split; [apply num_bound; find_member|]. split; [apply num_bound; find_member|].
    split; [easy|]. exists (co_mode_text c mode); split; [find_member|easy].
  - cbn in Z. injection Z as <- <-.
    split; [find_member|]. split; [find_member|]. split; [apply num_bound; find_member|]. split; [apply num_bound; find_member|]. easy.
Qed.
Lemma txt_units s : units (txt s).
Proof.
  unfold units, txt. apply Forall_map. apply Forall_forall. intros a _. pose proof (Ascii.nat_ascii_bounded a). lia.
Qed.
Lemma to_json_valid c made d : storable c made d -> valid (to_json c d).
Proof.
  intros (U & M & St & Sq & Sc & Ss & K). destruct d as [k name mode cn sn table ps pr eps del qs]. unfold to_json, num, type_text. fields.
  assert (forall z, valid (JNum (int_text z))) as I by (intro; constructor; apply int_text_literal).
  assert (forall s, valid (JStr (txt s))) as T by (intro; constructor; apply txt_units).
  apply ok_obj. destruct k; cbn [app];
    repeat (apply Forall_cons; [split; [apply txt_units|cbn [snd]; first [apply I|apply T|constructor; tauto]]|]); constructor.
Qed.
Lemma same_job_json c d d' : same_job d d' -> to_json c d' = to_json c d.
Proof.
  destruct d as [k name mode cn sn table ps pr eps del qs], d' as [k' name' mode' cn' sn' table' ps' pr' eps' del' qs'].
  unfold same_job, to_json. fields. intros (-> & -> & -> & -> & -> & -> & K). destruct k; cbn in K |- *.
  - now destruct K as (-> & -> & -> & -> & ->).
  - now subst.
  - easy.
Qed.

(** Loading arrays *)
Lemma load_described c made l ds : Forall2 (describes c) l ds -> Forall (fun d => made (ds_name d) = true) ds ->
  exists ds', load_elements c made None l = (map (fun d => NewExperiment d true) ds', Complete, None) /\ Forall2 same_job ds (map sized ds').
Proof.
  induction 1 as [|v d l ds D _ IH]; intro M; [exists []; split; [easy|constructor]|]. inversion M as [|? ? M1 M2]; subst.
  destruct (IH M2) as (ds' & E & F). destruct (from_json_describes _ _ _ _ D M1) as (d' & Ed & S).
  exists (d' :: ds'). cbn [load_elements]. rewrite Ed, E. split; [easy|]. cbn. now constructor.
Qed.
Lemma load_stopped c made l ds v rest : Forall2 (describes c) l ds -> Forall (fun d => made (ds_name d) = true) ds -> hopeless v ->
  exists ds', load_elements c made None (l ++ v :: rest) = (map (fun d => NewExperiment d true) ds', Stopped, None) /\
    Forall2 same_job ds (map sized ds').
Proof.
  intros F M H. revert M. induction F as [|x d l ds D _ IH]; intro M.
  - exists []. cbn. rewrite from_json_hopeless by easy. split; [easy|constructor].
  - inversion M as [|? ? M1 M2]; subst. destruct (IH M2) as (ds' & E & F). destruct (from_json_describes _ _ _ _ D M1) as (d' & Ed & S).
    exists (d' :: ds'). cbn [load_elements app]. rewrite Ed, E. split; [easy|]. cbn. now constructor.
Qed.
Lemma declined_iff a : declined a = true <-> no a.
Proof.
  unfold declined, no. rewrite orb_true_iff, !units_eqb_iff.
  set (f := fun c => if (65 <=? c) && (c <=? 90) then c + 32 else c).
  assert (forall c, f c = 110 <-> c = 110 \/ c = 78) as Fn by (intro c; unfold f; destruct ((65 <=? c) && (c <=? 90)) eqn:E; lia).
  assert (forall c, f c = 111 <-> c = 111 \/ c = 79) as Fo by (intro c; unfold f; destruct ((65 <=? c) && (c <=? 90)) eqn:E; lia).
  split.
  - intros [E|E].
    + destruct a as [|x [|y a]]; try discriminate. apply (f_equal (hd 0)) in E. cbn [map hd] in E. apply Fn in E. destruct E as [->| ->]; cbn; tauto.
    + destruct a as [|x [|y [|z a]]]; try discriminate. pose proof (f_equal (hd 0) E) as E1. pose proof (f_equal (fun l => hd 0 (tl l)) E) as E2.
      cbn [map hd tl] in E1, E2. apply Fn in E1. apply Fo in E2. destruct E1 as [->| ->], E2 as [->| ->]; cbn; tauto.
  - cbn. intro H. repeat (destruct H as [<-|H]; [first [left; reflexivity|right; reflexivity]|]). destruct H.
Qed.
Lemma load_asked c made l ds : Forall2 (describes c) l ds -> Forall (fun d => made (ds_name d) = true) ds ->
  forall answers rest, List.length answers = List.length ds ->
  exists ds' adds, load_elements c made (Some (answers ++ rest)) l =
      (map (fun p => NewExperiment (fst p) (snd p)) (combine ds' adds), Complete, Some rest) /\
    Forall2 same_job ds (map sized ds') /\ Forall2 (fun a add => add = false <-> no a) answers adds.
Proof.
  induction 1 as [|v d l ds D _ IH]; intros M answers rest L; [exists [], []; destruct answers; [|discriminate]; split; [easy|split; constructor]|].
  destruct answers as [|a answers]; [discriminate|]. inversion M as [|? ? M1 M2]; subst. injection L as L.
  destruct (IH M2 _ rest L) as (ds' & adds & E & F & A). destruct (from_json_describes _ _ _ _ D M1) as (d' & Ed & S).
  exists (d' :: ds'), (negb (declined a) :: adds). cbn [load_elements app]. rewrite Ed, E. split; [easy|]. split; [cbn; now constructor|].
  constructor; [|easy]. rewrite negb_false_iff. apply declined_iff.
Qed.

(** The orchestrator *)
Definition tidy (s : orch) : Prop := (forall e, List.In e (or_list s) -> (e < List.length (or_heap s))%nat) /\ Forall (fun x => settled (ex_desc x)) (or_heap s).
Lemma sized_settled d : settled (sized d).
Proof. unfold settled, sized. now destruct (ds_kind d). Qed.
Lemma tidy_start : tidy or_start.
Proof. split; [easy|constructor]. Qed.
Lemma assign_shape w k s : or_list (fst (assign_experiment w k s)) = or_list s /\
  exists e f, or_heap (fst (assign_experiment w k s)) = update e f (or_heap s) /\ forall x, ex_desc (f x) = ex_desc x.
Proof.
  assert (or_list s = or_list s /\ exists e f, or_heap s = update e f (or_heap s) /\ forall x, ex_desc (f x) = ex_desc x) as N.
  { split; [easy|]. exists 0%nat, (fun x => x). split; [|easy]. now destruct (or_heap s). }
  unfold assign_experiment. destruct k; cbn.
  - destruct (or_servers s) as [|e q]; [exact N|]. destruct (nth_error (or_heap s) e); [|exact N]. cbn. split; [easy|].
    exists e, (exp_assign w Server). easy.
  - destruct (or_clients s) as [|e q]; [exact N|]. destruct (nth_error (or_heap s) e) as [x|]; [|exact N].
    destruct (ready_for_clients x); [|exact N]. cbn. split; [easy|]. exists e, (exp_assign w Client). easy.
Qed.
Lemma handle_shape a s ev : 
  map ex_desc (or_heap (fst (handle a s ev))) =
    map ex_desc (or_heap s) ++ match ev with NewExperiment d _ => [sized d] | _ => [] end /\
  or_list (fst (handle a s ev)) =
    match ev with ClearExperiments => [] | NewExperiment _ true => or_list s ++ [List.length (or_heap s)] | _ => or_list s end.
Proof.
  destruct ev; cbn [handle fst]; rewrite ?app_nil_r; try easy.
  - destruct (nth_error (or_workers s) w) as [x|]; [|easy].
    pose proof (assign_shape w (wk_kind x) s) as (E & e & f & H & D). destruct (assign_experiment w (wk_kind x) s) as [s' [j|]]; cbn in *;
      rewrite E, H, update_map by easy; easy.
  - destruct (nth_error (or_workers s) w) as [x|]; [|easy]. destruct (wk_exp x) as [e|]; [|easy].
    destruct (nth_error (or_heap s) e) as [y|]; [|easy]. destruct (negb _); [easy|].
    destruct (ex_config y), (ds_kind (ex_desc y)); try easy. destruct (generate a keys (or_workers s) y); [|easy].
    cbn. rewrite update_map by easy. easy.
  - destruct (nth_error (or_workers s) w) as [x|]; easy.
  - destruct (nth_error (or_workers s) w) as [x|]; [|easy]. destruct (wk_exp x) as [e|]; [|easy].
    destruct (nth_error (or_heap s) e) as [y|]; [|easy]. destruct (result_file w (wk_kind x) y); [|easy]. cbn.
    rewrite update_map; [easy|]. intro z. unfold exp_finished. now destruct (wk_kind x).
  - unfold add_experiment. cbn. rewrite map_app. split; [easy|]. now destruct add.
  - destruct (existsb _ _); [|easy]. destruct (nth_error (or_heap s) e); easy.
Qed.
Lemma tidy_handle a s ev : tidy s -> tidy (fst (handle a s ev)).
Proof.
  intros [L D]. destruct (handle_shape a s ev) as [H E]. set (s' := fst (handle a s ev)) in *.
  assert (List.length (or_heap s') = List.length (or_heap s) + List.length (match ev with NewExperiment d _ => [sized d] | _ => [] end))%nat as N.
  { rewrite <- (map_length ex_desc (or_heap s')), H, app_length, map_length. easy. }
  split.
  - intros e I. rewrite E in I. rewrite N. destruct ev; cbn in I |- *; try (apply L in I; lia); [|easy].
    destruct add; [|apply L in I; lia]. apply in_app_or in I. destruct I as [I|[<-|[]]]; [apply L in I|]; lia.
  - apply (Forall_map ex_desc settled). rewrite H. apply Forall_app. split; [now apply Forall_map|].
    destruct ev; constructor; [|constructor]. apply sized_settled.
Qed.
Lemma tidy_serve a evs : forall s, tidy s -> tidy (fst (serve a s evs)).
Proof.
  induction evs as [|ev evs IH]; intros s T; [easy|]. cbn. pose proof (tidy_handle a s ev T) as T'.
  destruct (handle a s ev) as [s1 r]. specialize (IH s1 T'). now destruct (serve a s1 evs).
Qed.
Lemma tidy_step c made a s o : tidy (st_orch s) -> tidy (st_orch (step c made a s o)).
Proof.
  intro T. destruct o; cbn; [now apply tidy_handle|easy|now apply tidy_serve|apply tidy_start].
Qed.
Lemma tidy_run c made a ops : forall s, tidy (st_orch s) -> tidy (st_orch (run c made a s ops)).
Proof. induction ops as [|o ops IH]; intros s T; [easy|]. apply IH. now apply tidy_step. Qed.
Lemma tidy_reached c made a s : reached c made a s -> tidy (st_orch s).
Proof. intros (fs & ops & ->). apply tidy_run, tidy_start. Qed.
Lemma listed_settled s : tidy s -> Forall settled (listed s).
Proof.
  intros [L D]. apply Forall_forall. intros d I. apply in_flat_map in I. destruct I as (e & _ & I).
  destruct (nth_error (or_heap s) e) as [x|] eqn:E; [|easy]. destruct I as [<-|[]]. rewrite Forall_forall in D. apply D. eapply nth_error_In. exact E.
Qed.
Lemma new_sized d : new_experiment (sized d) = new_experiment d.
Proof. unfold new_experiment. now rewrite sized_settled. Qed.
Lemma flat_map_ext_in {A B} (f g : A -> list B) l : (forall a, List.In a l -> f a = g a) -> flat_map f l = flat_map g l.
Proof. induction l as [|a l IH]; intro H; [easy|]. cbn. rewrite H by now left. rewrite IH; [easy|]. intros. apply H. now right. Qed.
Lemma entered_serve a ds : forall s, tidy s -> entered (map sized ds) s (fst (serve a s (map (fun d => NewExperiment d true) ds))).
Proof.
  induction ds as [|d ds IH]; intros s T; [unfold entered; cbn; now rewrite !app_nil_r|].
  pose proof (tidy_handle a s (NewExperiment d true) T) as T1. cbn [map serve handle]. set (s1 := add_experiment d true s) in *.
  cbn [handle fst] in T1. fold s1 in T1. specialize (IH s1 T1).
  destruct (serve a s1 (map (fun d => NewExperiment d true) ds)) as [s2 h]. cbn [fst] in *.
  unfold entered in *. rewrite !map_length in *. destruct IH as (Ew & Eh & El & Ei & Ec & Es).
  assert (List.length (or_heap s1) = S (List.length (or_heap s))) as N by (unfold s1; cbn; rewrite app_length; cbn; lia).
  rewrite N in *. cbn [List.length seq combine filter map snd]. rewrite ?map_length in *.
  assert (listed s1 = listed s ++ [sized d]) as EL.
  { unfold listed at 1, s1. cbn. rewrite flat_map_app. f_equal.
    - apply flat_map_ext_in. intros e I. rewrite nth_error_app1 by now apply T. easy.
    - cbn. rewrite nth_error_app2, Nat.sub_diag by lia. easy. }
  split; [now rewrite Ew|]. split; [rewrite Eh; change (or_heap s1) with (or_heap s ++ [new_experiment d]); rewrite <- app_assoc, new_sized; easy|].
  split; [rewrite El, EL, <- app_assoc; easy|]. split; [rewrite Ei; unfold s1; cbn; now rewrite <- app_assoc|].
  split.
  - rewrite Ec. change (or_clients s1) with (if (0 <? ds_clients (sized d))%nat then or_clients s ++ [List.length (or_heap s)] else or_clients s).
    destruct (0 <? ds_clients (sized d))%nat; [now rewrite <- app_assoc|easy].
  - rewrite Es. change (or_servers s1) with (if (0 <? ds_servers (sized d))%nat then or_servers s ++ [List.length (or_heap s)] else or_servers s).
    destruct (0 <? ds_servers (sized d))%nat; [now rewrite <- app_assoc|easy].
Qed.

(** Files *)
Lemma read_write_same f t fs : read_file f (write_file f t fs) = Some t.
Proof.
  induction fs as [|[g u] fs IH]; cbn; [now rewrite units_eqb_refl|]. destruct (units_eqb f g) eqn:E; cbn; rewrite E; easy.
Qed.
Lemma read_write_other f g t fs : f <> g -> read_file f (write_file g t fs) = read_file f fs.
Proof.
  intro N. assert (units_eqb f g = false) as F by (destruct (units_eqb f g) eqn:E; [apply units_eqb_iff in E; easy|easy]).
  induction fs as [|[h u] fs IH]; cbn; [now rewrite F|]. destruct (units_eqb g h) eqn:E; cbn.
  - apply units_eqb_iff in E. subst h. now rewrite F.
  - destruct (units_eqb f h); easy.
Qed.
Lemma read_run c made a f ops : forall s, Forall (fun o => o <> Store f) ops ->
  read_file f (st_files (run c made a s ops)) = read_file f (st_files s).
Proof.
  induction ops as [|o ops IH]; intros s F; [easy|]. inversion F as [|? ? F1 F2]; subst. cbn. unfold run in IH. rewrite IH by easy.
  destruct o; cbn; try easy. apply read_write_other. congruence.
Qed.
Lemma store_parse c made s : Forall (storable c made) (listed s) -> tidy s -> 
  exists l, parse (store_text c s) = Some (JArr l) /\ Forall2 (describes c) l (listed s).
Proof.
  intros F T. exists (map (to_json c) (listed s)). split.
  - apply parse_exact. apply stringify_text. constructor. apply Forall_map. eapply Forall_impl; [|exact F]. intros d. apply to_json_valid.
  - pose proof (listed_settled _ T) as S. induction F as [|d l D _ IH]; [constructor|]. inversion S; subst. cbn. constructor; [|now apply IH].
    now apply (to_json_describes _ made).
Qed.
Lemma load_text c made a s f dir t l ds : tidy (st_orch s) -> f <> txt "*" -> read_file f (st_files s) = Some t -> json_text t (JArr l) ->
  Forall2 (describes c) l ds -> Forall (fun d => made (ds_name d) = true) ds ->
  exists ds', Forall2 same_job ds ds' /\ entered ds' (st_orch s) (st_orch (step c made a s (Load f dir))) /\
    st_files (step c made a s (Load f dir)) = st_files s.
Proof.
  intros T N R P D M. apply parse_exact in P. destruct (load_described _ _ _ _ D M) as (ds' & E & F).
  exists (map sized ds'). split; [easy|]. split; [|easy]. cbn [step st_orch].
  replace (units_eqb f (txt "*")) with false by (destruct (units_eqb f (txt "*")) eqn:X; [apply units_eqb_iff in X; easy|easy]).
  cbn [load_files]. rewrite R, P. cbn [iterate]. rewrite E. cbn [fst]. rewrite app_nil_r. now apply entered_serve.
Qed.
Lemma load_all c made fs names contents arrays dss :
  Forall2 (fun g t => read_file g fs = Some t) names contents -> Forall2 (fun t l => json_text t (JArr l)) contents arrays ->
  Forall2 (Forall2 (describes c)) arrays dss -> Forall (Forall (fun d => made (ds_name d) = true)) dss ->
  exists ds, load_files c made None fs names = (map (fun d => NewExperiment d true) ds, Complete) /\ Forall2 same_job (concat dss) (map sized ds).
Proof.
  intro R. revert arrays dss. induction R as [|f t names contents R _ IH]; intros arrays dss P D M.
  - inversion P; subst. inversion D; subst. exists []. split; [easy|constructor].
  - inversion P as [|? l ? arrays' P1 P2]; subst. inversion D as [|? ds1 ? dss' D1 D2]; subst. inversion M as [|? ? M1 M2]; subst.
    destruct (IH _ _ P2 D2 M2) as (ds & E & S). destruct (load_described _ _ _ _ D1 M1) as (ds' & E' & S').
    exists (ds' ++ ds). cbn [load_files]. apply parse_exact in P1. rewrite R, P1. cbn [iterate]. rewrite E', E.
    split; [now rewrite map_app|]. cbn [concat]. rewrite map_app. now apply Forall2_app.
Qed.
