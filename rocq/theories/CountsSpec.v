(** Specification vocabulary for the privacy of the numbers of lookups in whole
    deployments. *)
From Coq Require Import Reals.
From Verif Require Import Base Sizes Handlers Party Parallel ParChain ChainSpec ParChainSpec Net Lts Procs ParProcs PrivacySpec.

(** How often each of the [rows] rows is among the looked-up keys. *)
Definition counts (rows : nat) (keys : list Z) : list nat :=
  map (fun k => count_occ Z.eq_dec keys (Z.of_nat k)) (seq 0 rows).

(** Expected value of [g] on [n] independent draws with probabilities [p] on
    0..m. *)
Fixpoint average (p : nat -> R) (m n : nat) (g : list nat -> R) : R :=
  match n with
  | O => g []
  | S n' => rsum (S m) (fun z => (p z * average p m n' (fun zs => g (z :: zs)))%R)
  end.

(** Such draws. *)
Definition drawn (m n : nat) (zs : list nat) : Prop := length zs = n /\ Forall (fun z => (z <= m)%nat) zs.

(** Two lists of keys of the same length that differ in at most [t] places. *)
Inductive differ : nat -> list Z -> list Z -> Prop :=
| differ_nil : differ 0 [] []
| differ_same : forall t x l l', differ t l l' -> differ t (x :: l) (x :: l')
| differ_other : forall t x y l l', differ t l l' -> differ (S t) (x :: l) (y :: l').

(** Party [h] adds [zs] fake queries for the rows; party [j] for another j adds
    [others j]. *)
Definition adds (h : nat) (others : nat -> nat -> nat) (rows : nat) (parties : list pconf) (zs : list nat) : Prop :=
  (h < length parties)%nat /\
  forall j cf k, nth_error parties j = Some cf -> (k < rows)%nat ->
    Z.to_nat (pf_samples cf k) = if (j =? h)%nat then nth k zs 0%nat else others j k.
(** The same for parties with N servers, each of which adds the fake queries for
    some of the rows. *)
Definition par_adds (h : nat) (others : nat -> nat -> nat) (N rows : nat) (parties : list (list sconf)) (zs : list nat) : Prop :=
  (h < length parties)%nat /\
  forall j confs k, nth_error parties j = Some confs -> (k < rows)%nat ->
    count_occ Z.eq_dec (party_noise_keys N rows confs) (Z.of_nat k) = if (j =? h)%nat then nth k zs 0%nat else others j k.

(** In some execution of a deployment with [P] parties the backend has looked up
    [keys] and returned. *)
Definition backend_saw (procs : nat -> proc chan ending) (P : nat) (keys : list Z) : Prop :=
  exists cap n s, (forall c, (1 <= cap c)%nat) /\ steps (net_step chan_eqb cap) n (net_start procs) s /\
    nt_proc s (S P) = Ret (BackendEnd keys).
(** The same for all servers of the backend together. *)
Definition servers_saw (N : nat) (procs : nat -> proc mchan ending) (P : nat) (keys : list Z) : Prop :=
  exists cap n s looked, (forall c, (1 <= cap c)%nat) /\ (forall e s t, (BUFFER_SIZE <= cap (Sib e s t))%nat) /\
    steps (net_step mchan_eqb cap) n (net_start procs) s /\
    (forall i, (i < N)%nat -> nt_proc s (S P * N + i) = Ret (BackendEnd (nth i looked []))) /\ length looked = N /\
    keys = concat looked.
