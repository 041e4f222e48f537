(** Properties C80 to C83: the start of fit, and repeated fits. *)
From Coq Require Import String Ascii.
From Coq Require Import List ZArith QArith Qcanon Bool Lia.
From Verif Require Import Py PyFacts MemModel MemSpec MemFacts3 MemFacts6 FitModel FitFacts.
Import ListNotations.
Open Scope string_scope.
Open Scope Z_scope.

(** ratings 1 to 5 of users 7 and 3, out of order *)
Definition f_row (rid u : Z) (i : string) (x : Z) : row :=
  mkRow rid [("user", VInt u); ("item", VStr i); ("interaction", VInt x)].
Definition f_ds : mem := mem_of_frame (mkFrame [("user", DInt); ("item", DObj); ("interaction", DInt)]
  [f_row 0 7 "b" 1; f_row 1 3 "a" 5; f_row 2 7 "a" 3; f_row 3 7 "c" 4]).
Definition f_empty : mem := mem_of_frame (mkFrame [("user", DInt); ("item", DObj); ("interaction", DInt)] []).
Lemma f_wf rs : incl rs (rows_of f_ds) ->
  wf_mem (mem_of_frame (mkFrame [("user", DInt); ("item", DObj); ("interaction", DInt)] rs)).
Proof.
  intros S. constructor.
  - constructor.
    + simpl. repeat constructor; simpl; intuition discriminate.
    + simpl. intuition discriminate.
    + simpl. intros r H. apply S in H. simpl in H. intuition; subst; reflexivity.
    + simpl. intros r c t Hr Hc. apply S in Hr. simpl in Hr. intuition; subst;
      match goal with H : (_, _) = (_, _) |- _ => injection H as <- <- end; eexists; split; reflexivity.
  - simpl. repeat constructor; simpl; intuition discriminate.
  - simpl. intros c. intuition.
Qed.

(** *** C80: fit(copy_dataset=True) raises, whatever the data set. *)
Theorem C80_copy_refuted : forall m, begin_fit m true = (m, Err AttributeError).
Proof. reflexivity. Qed.
Print Assumptions C80_copy_refuted.

(** Without a copy the data set given by the caller gets the two id columns; all
    other cells, the record ids and the order of the rows stay. *)
Theorem C80_without_copy_partial : forall m, Forall2 same_raw (rows_of m) (rows_of (fst (begin_fit m false))).
Proof.
  intros m. unfold begin_fit. destruct (assign_internal_ids m) as [m'|e] eqn:A; cbn [fst].
  - unfold assign_internal_ids in A. destruct (col_type m "user") as [tu|] eqn:U; [|discriminate].
    destruct (col_type m "item") as [ti|] eqn:T; [|discriminate].
    assert (E := assign_ok m tu ti U T). unfold assign_internal_ids in E. rewrite U, T in E.
    rewrite E in A. injection A as <-. apply assigned_same_raw.
  - induction (rows_of m); constructor; auto. split; auto.
Qed.
Print Assumptions C80_without_copy_partial.
Theorem C80_shared_refuted : exists m, ~ In "uid" (m_columns m) /\ In "uid" (m_columns (fst (begin_fit m false))).
Proof. exists f_ds. split; [simpl; intuition discriminate|vm_compute; tauto]. Qed.
Print Assumptions C80_shared_refuted.
Example C80_example : map (fun r => (cell r "uid", cell r "iid")) (rows_of (fst (begin_fit f_ds false))) =
  [(Some (VInt 0), Some (VInt 0)); (Some (VInt 1), Some (VInt 1)); (Some (VInt 0), Some (VInt 1)); (Some (VInt 0), Some (VInt 2))].
Proof. vm_compute. reflexivity. Qed.

(** *** C81: what fit stores about the training data.  Users and items are counted
    once each, the interactions are between the stored bounds, which are attained
    (a lowest interaction of 1 counts as 0).  The internal ids are 0, ..., number
    of users (items) - 1, all in use. *)
Theorem C81_statistics : forall m tu ti tx,
  wf_mem m -> col_type m "user" = Ok tu -> col_type m "item" = Ok ti ->
  col_type m "interaction" = Ok tx -> tx <> DObj -> In "interaction" (m_columns m) -> rows_of m <> [] ->
  exists m' info lo hi, begin_fit m false = (m', Ok info) /\
    fi_users info = n_distinct "user" m /\ fi_items info = n_distinct "item" m /\
    fi_rows info = length (rows_of m) /\ fi_min info = Some lo /\ fi_max info = Some hi /\
    (forall r v, In r (rows_of m) -> cell r "interaction" = Some v -> (num lo <= num v <= num hi)%Qc) /\
    (exists r v, In r (rows_of m) /\ cell r "interaction" = Some v /\ num v = num hi) /\
    (exists r v, In r (rows_of m) /\ cell r "interaction" = Some v /\
       num lo <> 1%Qc /\ (num v = num lo \/ num v = 1%Qc /\ num lo = 0%Qc)) /\
    (forall r, In r (rows_of m') -> exists u i,
       cell r "uid" = Some (VInt u) /\ 0 <= u < Z.of_nat (fi_users info) /\
       cell r "iid" = Some (VInt i) /\ 0 <= i < Z.of_nat (fi_items info)) /\
    (forall u, 0 <= u < Z.of_nat (fi_users info) -> exists r, In r (rows_of m') /\ cell r "uid" = Some (VInt u)) /\
    (forall i, 0 <= i < Z.of_nat (fi_items info) -> exists r, In r (rows_of m') /\ cell r "iid" = Some (VInt i)).
Proof.
  intros m tu ti tx W U T X N C NE.
  destruct (begin_ok m tu ti tx W U T X N C NE) as (info & lo & hi & B & E1 & E2 & E3 & E4 & E5 & H1 & H2 & r & v & H3 & H4 & H5).
  assert (Co := assigned_contig m tu ti tx W U T X N NE).
  exists (assigned m), info, lo, hi. rewrite E1, E2. repeat (split; [first [assumption | reflexivity]|]). split.
  - exists r, v. auto.
  - split; [|split; [apply (cg_uall _ _ _ Co)|apply (cg_iall _ _ _ Co)]].
    intros r' Hr'. destruct (cg_row _ _ _ Co r' Hr') as (u & i & A1 & A2 & A3 & A4 & _). exists u, i. auto.
Qed.
Print Assumptions C81_statistics.

(** The interaction vectors the models read have one entry per item (user). *)
Theorem C81_vector_sizes : forall m tu ti tx m' info,
  wf_mem m -> col_type m "user" = Ok tu -> col_type m "item" = Ok ti ->
  col_type m "interaction" = Ok tx -> tx <> DObj -> In "interaction" (m_columns m) -> m_cache m = None ->
  begin_fit m false = (m', Ok info) ->
  (forall u, 0 <= u < Z.of_nat (fi_users info) -> exists vec m2, user_vec m' u = (Ok vec, m2) /\ length vec = fi_items info) /\
  (forall i, 0 <= i < Z.of_nat (fi_items info) -> exists vec m2, item_vec m' i = (Ok vec, m2) /\ length vec = fi_users info).
Proof.
  intros m tu ti tx m' info W U T X N C Hc B.
  assert (NE : rows_of m <> []).
  { intros E. assert (Q := begin_empty m tu ti tx W U T X C E). rewrite B in Q. discriminate. }
  destruct (begin_ok m tu ti tx W U T X N C NE) as (info' & lo & hi & B' & E1 & E2 & _).
  rewrite B' in B. injection B as <- <-. rewrite E1, E2.
  destruct (vec_after_assign m tu ti tx W U T X N NE Hc) as (ma & A & V1 & V2).
  rewrite (assign_ok m tu ti U T) in A. injection A as <-. split.
  - intros u Hu. destruct (V1 u Hu) as (vec & m2 & E & L & _). eauto.
  - intros i Hi. destruct (V2 i Hi) as (vec & m2 & E & L & _). eauto.
Qed.
Print Assumptions C81_vector_sizes.

Example C81_example : wf_mem f_ds /\ col_type f_ds "interaction" = Ok DInt /\
  snd (begin_fit f_ds false) = Ok (mkInfo (Some (VInt 0)) (Some (VInt 5)) 2 3 4).
Proof. split; [apply (f_wf (rows_of f_ds)), incl_refl|]. split; [reflexivity|vm_compute; reflexivity]. Qed.

(** *** C82: no training data *)
Theorem C82_empty_raises : forall m tu ti tx,
  wf_mem m -> col_type m "user" = Ok tu -> col_type m "item" = Ok ti ->
  col_type m "interaction" = Ok tx -> In "interaction" (m_columns m) ->
  (rows_of m = [] <-> snd (begin_fit m false) = Err ZeroDivisionError) \/ tx = DObj.
Proof.
  intros m tu ti tx W U T X C.
  assert (D : tx = DObj \/ tx <> DObj) by (destruct tx; auto; right; discriminate).
  destruct D as [D|D]; [right; auto|]. left. split.
  - apply (begin_empty m tu ti tx W U T X C).
  - intros H. destruct (rows_of m) as [|r rs] eqn:E; auto. exfalso.
    destruct (begin_ok m tu ti tx W U T X D C) as (info & lo & hi & B & _); [rewrite E; discriminate|].
    rewrite B in H. discriminate.
Qed.
Print Assumptions C82_empty_raises.
Example C82_example : wf_mem f_empty /\ rows_of f_empty = [] /\ snd (begin_fit f_empty false) = Err ZeroDivisionError.
Proof. split; [apply f_wf; intros r []|]. split; reflexivity. Qed.

(** *** C83: fitting a model again *)
Open Scope nat_scope.

(** The first fit of each network updates each of its variables once per epoch. *)
Theorem C83_first_fit : all_updated cdae_network 0 /\ (forall l, all_updated (caser_network l) 0) /\
  forall a b, 1 <= a -> 1 <= b -> all_updated (dmf_network a b) 0.
Proof. split; [exact cdae_first|]. split; [exact caser_first|]. intros a b. apply dmf_all. Qed.
Print Assumptions C83_first_fit.

(** DMF can be fitted any number of times. *)
Theorem C83_dmf_again_partial : forall a b k, 1 <= a -> 1 <= b -> all_updated (dmf_network a b) k.
Proof. exact dmf_all. Qed.
Print Assumptions C83_dmf_again_partial.

(** When an epoch of a fit ends without an exception: every variable registered in
    this fit or an earlier one takes part in the loss, or belongs to a layer or
    network of which a variable does. *)
Theorem C83_when_partial : forall n k,
  snd (fit_updates n k) = None <->
  forall j e, j <= k -> In e (n_entries n j) ->
    match e with Tensor v => n_linked n k v = true | Group vs => vs = [] \/ exists v, In v vs /\ n_linked n k v = true end.
Proof.
  intros n k. unfold fit_updates. rewrite epoch_ok. unfold registered. rewrite Forall_concat, Forall_map, Forall_forall. split.
  - intros H j e Hj He. specialize (H j ltac:(apply in_seq; lia)). rewrite Forall_forall in H. exact (H e He).
  - intros H j Hj. apply Forall_forall. intros e He. apply in_seq in Hj. exact (H j e ltac:(lia) He).
Qed.
Print Assumptions C83_when_partial.

(** Every later fit of CDAE raises TypeError in its first epoch, before any
    variable is updated. *)
Theorem C83_cdae_again_refuted : forall k, 1 <= k -> fit_updates cdae_network k = ([], Some TypeError).
Proof. exact cdae_again. Qed.
Print Assumptions C83_cdae_again_refuted.
(** Every later fit of Caser raises ValueError in its first epoch; only variables
    of the first fit were updated. *)
Theorem C83_caser_again_refuted : forall l k, 1 <= k ->
  exists vs, fit_updates (caser_network l) k = (vs, Some ValueError) /\ forall v, In v vs -> fst v = 0.
Proof. exact caser_again. Qed.
Print Assumptions C83_caser_again_refuted.
(** A later fit of DMF still changes the networks of the earlier ones. *)
Theorem C83_stale_networks_refuted : exists a b k v, 1 <= a /\ 1 <= b /\ 1 <= k /\ fst v < k /\
  In v (fst (fit_updates (dmf_network a b) k)).
Proof. exists 2, 2, 1, (0, 2). repeat split; auto. vm_compute. tauto. Qed.
Print Assumptions C83_stale_networks_refuted.
Example C83_example : fit_updates (dmf_network 1 1) 1 =
  ([(0, 0); (0, 2); (1, 0); (1, 1); (1, 2); (1, 3)], None) /\ fst (fit_updates (caser_network 1) 1) =
  [(0, 0); (0, 2); (0, 4); (0, 6); (0, 8); (0, 10)] /\
  fit_updates cdae_network 0 = ([(0, 0); (0, 1); (0, 2); (0, 3); (0, 4)], None).
Proof. vm_compute. auto. Qed.
