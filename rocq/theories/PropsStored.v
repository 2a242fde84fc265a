(** C85: lists of experiments that are stored and loaded. *)
From Coq Require Import String.
From Verif Require Import Base Json JsonSpec JsonProofs JsonWrite Orchestrator Stored StoredSpec StoredProofs.
Local Open Scope list_scope.
Local Open Scope Z_scope.

(** JSON: the parser accepts exactly the texts of the grammar, with their value;
    what is written for a value is such a text for it, and UTF-8 can carry it. *)
Theorem C85_text : (forall t v, parse t = Some v <-> json_text t v) /\
  (forall v ind, valid v -> json_text (stringify ind v) v /\ paired (stringify ind v)).
Proof.
  split; [exact parse_exact|]. intros v ind H. split; [now apply stringify_text|now apply stringify_paired].
Qed.

(** What was stored last under a name comes back: in the same order, run alike,
    after everything else that is there, whatever happened in between. *)
Theorem C85_store_load c made a s f ops dir :
  reached c made a s -> Forall (storable c made) (listed (st_orch s)) -> f <> txt "*" -> Forall (fun o => o <> Store f) ops ->
  let s1 := run c made a (step c made a s (Store f)) ops in
  let s2 := step c made a s1 (Load f dir) in
  exists ds, Forall2 same_job (listed (st_orch s)) ds /\ entered ds (st_orch s1) (st_orch s2) /\ st_files s2 = st_files s1.
Proof.
  intros R F N O s1 s2. pose proof (tidy_reached _ _ _ _ R) as T. destruct (store_parse _ _ _ F T) as (l & P & D).
  apply (load_text _ _ _ _ _ _ (store_text c (st_orch s)) l); [apply tidy_run; exact T|exact N| |now apply parse_exact|exact D|].
  - unfold s1. rewrite read_run by exact O. apply read_write_same.
  - eapply Forall_impl; [|exact F]. unfold storable. tauto.
Qed.

(** Stored again by an orchestrator that has loaded nothing else, it is the same
    text. *)
Theorem C85_store_again c made a s f ops dir g :
  reached c made a s -> Forall (storable c made) (listed (st_orch s)) -> f <> txt "*" -> Forall (fun o => o <> Store f) ops ->
  let s1 := step c made a s (Store f) in
  let s2 := run c made a s1 (ops ++ [Restart; Load f dir; Store g]) in
  exists t, read_file f (st_files s1) = Some t /\ read_file g (st_files s2) = Some t.
Proof.
  intros R F N O s1 s2. exists (store_text c (st_orch s)). split; [apply read_write_same|].
  unfold s2, run. rewrite fold_left_app. fold (run c made a s1 ops). cbn [fold_left].
  set (s3 := step c made a (run c made a s1 ops) Restart).
  destruct (C85_store_load c made a s f (ops ++ [Restart]) dir R F N) as (ds & S & E & _).
  { apply Forall_app. split; [exact O|]. constructor; [discriminate|constructor]. }
  assert (run c made a (step c made a s (Store f)) (ops ++ [Restart]) = s3) as X by (unfold run; rewrite fold_left_app; reflexivity).
  rewrite X in E. destruct E as (_ & _ & L & _). change (step c made a ?x (Store g)) with {| st_orch := st_orch x; st_files := write_file g (store_text c (st_orch x)) (st_files x) |}.
  cbn [st_files]. rewrite read_write_same. f_equal. unfold store_text. rewrite L. change (listed (st_orch s3)) with (@nil desc). cbn [app].
  do 2 f_equal. clear -S. induction S as [|d d' l l' H _ IH]; [easy|]. cbn. now rewrite IH, (same_job_json _ _ _ H).
Qed.

(** Texts that were written by hand: blanks, order of members, repeated and other
    members and the way in which characters are written do not matter.  With "*"
    all the files are loaded. *)
Theorem C85_by_hand c made a s f dir (contents : list (list Z)) (arrays : list (list json)) (dss : list (list desc)) :
  reached c made a s ->
  Forall2 (fun g t => read_file g (st_files s) = Some t) (if units_eqb f (txt "*") then dir else [f]) contents ->
  Forall2 (fun t l => json_text t (JArr l)) contents arrays -> Forall2 (Forall2 (describes c)) arrays dss ->
  Forall (Forall (fun d => made (ds_name d) = true)) dss ->
  let s1 := step c made a s (Load f dir) in
  exists ds, Forall2 same_job (concat dss) ds /\ entered ds (st_orch s) (st_orch s1) /\ st_files s1 = st_files s.
Proof.
  intros R E P D M s1. pose proof (tidy_reached _ _ _ _ R) as T.
  destruct (load_all c made (st_files s) _ _ _ _ E P D M) as (ds & L & S). exists (map sized ds). split; [exact S|]. split; [|reflexivity].
  unfold s1. cbn [step st_orch]. rewrite L. cbn [fst]. now apply entered_serve.
Qed.

(** A file that is no JSON text changes nothing; from an array the experiments
    before the first element that describes none are loaded, and no others. *)
Theorem C85_stopped c made a s f dir t :
  reached c made a s -> f <> txt "*" -> read_file f (st_files s) = Some t ->
  let s1 := step c made a s (Load f dir) in
  ((forall v, ~ json_text t v) -> s1 = s) /\
  (forall l ds v rest, json_text t (JArr (l ++ v :: rest)) -> Forall2 (describes c) l ds -> Forall (fun d => made (ds_name d) = true) ds ->
     hopeless v -> exists ds', Forall2 same_job ds ds' /\ entered ds' (st_orch s) (st_orch s1) /\ st_files s1 = st_files s).
Proof.
  intros R N F s1. pose proof (tidy_reached _ _ _ _ R) as T. unfold s1. cbn [step].
  replace (units_eqb f (txt "*")) with false by (destruct (units_eqb f (txt "*")) eqn:X; [apply units_eqb_iff in X; easy|easy]).
  cbn [load_files]. rewrite F. split.
  - intro H. destruct (parse t) as [v|] eqn:P; [exfalso; apply (H v); now apply parse_exact|]. now destruct s.
  - intros l ds v rest P D M H. apply parse_exact in P. rewrite P. cbn [iterate].
    destruct (load_stopped _ _ _ _ _ rest D M H) as (ds' & E & S). rewrite E. exists (map sized ds'). split; [exact S|]. split; [|reflexivity].
    cbn [fst st_orch]. now apply entered_serve.
Qed.

(** loadi leaves out exactly the experiments for which the answer is no. *)
Theorem C85_asked c made fs f t l ds answers :
  read_file f fs = Some t -> json_text t (JArr l) -> Forall2 (describes c) l ds -> Forall (fun d => made (ds_name d) = true) ds ->
  List.length answers = List.length ds ->
  exists ds' adds,
    load_files c made (Some answers) fs [f] = (map (fun p => NewExperiment (fst p) (snd p)) (combine ds' adds), Complete) /\
    Forall2 same_job ds (map sized ds') /\ Forall2 (fun answer add => add = false <-> no answer) answers adds.
Proof.
  intros F P D M L. apply parse_exact in P. destruct (load_asked _ _ _ _ D M answers [] L) as (ds' & adds & E & S & A).
  exists ds', adds. cbn [load_files]. rewrite F, P. cbn [iterate]. rewrite app_nil_r in E. rewrite E. cbn. rewrite app_nil_r. easy.
Qed.

Print Assumptions C85_text.
Print Assumptions C85_store_load.
Print Assumptions C85_store_again.
Print Assumptions C85_by_hand.
Print Assumptions C85_stopped.
Print Assumptions C85_asked.

(** A coding: three modes, two doubles. *)
Definition ex_coding : coding := {|
  co_mode_text := fun m => if m =? 0 then txt "online" else if m =? 1 then txt "offline" else txt "all";
  co_mode_code := fun t => if units_eqb t (txt "online") then 0 else if units_eqb t (txt "offline") then 1 else 2;
  co_double_text := fun z => if z =? 4591870180066957722 then txt "0.1" else txt "0.000001";
  co_double_image := fun t => if units_eqb t (txt "0.1") then 4591870180066957722 else 4517329193108106637 |}.
(** The file experiments/orchestrator/stored/table2.json. *)
Definition table2 : string :=
"[
  {
    ""name_"": ""table2-100000-2-1-1000000-0.1-0.000001"",
    ""experimentType"": ""dppir"",
    ""clientsNum"": 1,
    ""serversNum"": 2,
    ""mode"": ""all"",
    ""parties"": 2,
    ""parallelism"": 1,
    ""epsilon"": 0.1,
    ""delta"": 0.000001,
    ""queries"": 1000000,
    ""tableSize"": 100000
  },
  {
    ""name_"": ""table2-100000-2-2-1000000-0.1-0.000001"",
    ""experimentType"": ""dppir"",
    ""clientsNum"": 2,
    ""serversNum"": 4,
    ""mode"": ""all"",
    ""parties"": 2,
    ""parallelism"": 2,
    ""epsilon"": 0.1,
    ""delta"": 0.000001,
    ""queries"": 500000,
    ""tableSize"": 100000
  },
  {
    ""name_"": ""table2-100000-2-4-1000000-0.1-0.000001"",
    ""experimentType"": ""dppir"",
    ""clientsNum"": 4,
    ""serversNum"": 8,
    ""mode"": ""all"",
    ""parties"": 2,
    ""parallelism"": 4,
    ""epsilon"": 0.1,
    ""delta"": 0.000001,
    ""queries"": 250000,
    ""tableSize"": 100000
  },
  {
    ""name_"": ""table2-100000-2-8-1000000-0.1-0.000001"",
    ""experimentType"": ""dppir"",
    ""clientsNum"": 8,
    ""serversNum"": 16,
    ""mode"": ""all"",
    ""parties"": 2,
    ""parallelism"": 8,
    ""epsilon"": 0.1,
    ""delta"": 0.000001,
    ""queries"": 125000,
    ""tableSize"": 100000
  }
]"%string.
Definition ex_naming (table : Z) (ps pr : nat) (batch eps del : Z) : list Z :=
  txt "table2-" ++ int_text table ++ txt "-" ++ int_text (Z.of_nat ps) ++ txt "-" ++ int_text (Z.of_nat pr) ++ txt "-" ++
  int_text batch ++ txt "-" ++ co_double_text ex_coding eps ++ txt "-" ++ co_double_text ex_coding del.
(** Sixteen servers and eight clients, and the command new with these answers. *)
Definition ex_workers : list event := repeat (Register Server [49]) 16 ++ repeat (Register Client [49]) 8.
Definition ex_new : list op :=
  map Request (ex_workers ++
    new_dppir (fst (serve true or_start ex_workers)) ex_naming 2 [100000] [2%nat] [1; 2; 4; 8]%nat [1000000] [4591870180066957722] [4517329193108106637]).
Definition ex_site : site := run ex_coding (fun _ => true) true {| st_orch := or_start; st_files := [] |} ex_new.
(** Storing the experiments so made writes that very file. *)
Example C85_example_file : st_files (step ex_coding (fun _ => true) true ex_site (Store (txt "table2"))) = [(txt "table2", txt table2)].
Proof. vm_compute. reflexivity. Qed.
Example C85_example_storable : Forall (storable ex_coding (fun _ => true)) (listed (st_orch ex_site)) /\ List.length (listed (st_orch ex_site)) = 4%nat.
Proof.
  split; [|vm_compute; reflexivity].
  set (l := listed (st_orch ex_site)). vm_compute in l. subst l.
  assert (forall z, Forall (fun c => 0 <= c < 65536) z <-> forallb (fun c => (0 <=? c) && (c <? 65536)) z = true) as U.
  { intro z. rewrite forallb_forall, Forall_forall. split; intros H x I; specialize (H x I); lia. }
  assert (literal (txt "0.1") /\ literal (txt "0.000001")) as [L1 L2].
  { split; [exists [], [48], (46 :: txt "1"), []|exists [], [48], (46 :: txt "000001"), []];
      (split; [reflexivity|]); (split; [now left|]); (split; [now left|]); (split; [|now left]); right; eexists; (split; [reflexivity|]);
      (split; [discriminate|]); unfold digit; vm_compute txt; repeat (constructor; [lia|]); constructor. }
  repeat (apply Forall_cons; [unfold storable, units, safe; cbn [ds_kind ds_name ds_mode ds_clients ds_servers ds_table ds_parties ds_parallel ds_epsilon ds_delta ds_queries];
    rewrite !U; repeat split; try reflexivity; assumption|]). constructor.
Qed.
(** So the four experiments are there again after a restart. *)
Example C85_example_load :
  listed (st_orch (run ex_coding (fun _ => true) true ex_site [Store (txt "table2"); Restart; Load (txt "table2") []])) = listed (st_orch ex_site).
Proof. vm_compute. reflexivity. Qed.
(** A text written by hand: another order of the members, other blanks and
    escapes, a member twice; after it an element without a type that is known. *)
Definition by_hand : list Z :=
  txt "[{""tableSize"":7,""queries"":1, ""name_"":""a-b"" ,
    ""note"":[1.5e3,null], ""experimentType"" : ""sealpir"",""queries"":20},{""experimentType"":""pir""}, 3]".
Definition by_hand_desc : desc :=
  {| ds_kind := Sealpir; ds_name := txt "a-b"; ds_mode := 0; ds_clients := 1; ds_servers := 0; ds_table := 7; ds_parties := 0; ds_parallel := 0;
     ds_epsilon := 0; ds_delta := 0; ds_queries := 20 |}.
Example C85_example_by_hand : exists v w, json_text by_hand (JArr [v; w; JNum (txt "3")]) /\ describes ex_coding v by_hand_desc /\ hopeless w.
Proof.
  eexists _, _. split; [apply parse_exact; vm_compute; reflexivity|]. split.
  - eexists. split; [reflexivity|].
    split; [apply field_bound; reflexivity|]. split; [apply field_bound; reflexivity|].
    split; [exists (txt "7"); split; [apply field_bound; reflexivity|constructor; apply (rn_one 55); lia]|].
    split; [exists (txt "20"); split; [apply field_bound; reflexivity|constructor; apply (rn_more [50] 2 48); [apply (rn_one 50); lia|lia]]|].
    cbn. easy.
  - intros (l & k & name & E & B & _). injection E as <-. apply bound_field in B. destruct k; discriminate B.
Qed.
(** An experiment that is stored and loaded where it has already run has the same
    name: its results replace the earlier ones. *)
Example C85_example_replaced :
  let d := by_hand_desc in
  let s := run ex_coding (fun _ => true) true {| st_orch := or_start; st_files := [] |}
    [Request (Register Client [49]); Request (NewExperiment d true); Request (Ping 0);
     Request (ReportDone 0 [1]); Store (txt "x"); Load (txt "x") []; Request (Ping 0)] in
  snd (handle true (st_orch s) (ReportDone 0 [2])) = RStored (txt "a-b") FSealpir [2] /\
  List.length (or_heap (st_orch s)) = 2%nat.
Proof. vm_compute. split; reflexivity. Qed.
