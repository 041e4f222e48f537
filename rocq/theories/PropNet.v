(** Properties C84 to C90: what the neural recommenders train on and predict. *)
From Coq Require Import String Ascii.
From Coq Require Import List ZArith QArith Qreals Qcanon Bool Lia Reals Lra.
From Verif Require Import Py PyFacts MemModel MemSpec MemFacts3 MemFacts6 RankFacts KnnModel TrainModel TrainFacts3 FitModel FitFacts.
From Verif Require Import SampModel SampSpec SampFacts3 PropSamp PropFit NetModel NetFacts NetFacts2 NetFacts3.
Import ListNotations.
Open Scope string_scope.
Open Scope nat_scope.

(** *** C84: the loss of a batch compares every prediction with its own target. *)

(** the errors of every prediction against its own target *)
Definition own_errors {T A} (f : T -> T -> A) (desired predictions : list (list T)) : list A :=
  concat (zip (zip f) desired predictions).

(** DMF and Caser do. *)
Theorem C84_dmf : forall T A (f : T -> T -> A) d desired predictions,
  length desired = length predictions ->
  dmf_losses f d desired predictions = Some (zip f desired predictions).
Proof. intros. apply dmf_losses_ok. auto. Qed.
Print Assumptions C84_dmf.
Theorem C84_caser : forall T A (f : T -> T -> A) d n desired predictions,
  length desired = length predictions ->
  (forall l, In l desired -> length l = n) -> (forall l, In l predictions -> length l = n) ->
  caser_losses f d n desired predictions = Some (own_errors f desired predictions).
Proof. intros. apply caser_losses_ok; auto. Qed.
Print Assumptions C84_caser.

(** CDAE compares every reconstruction with the vector of every user of the batch. *)
Theorem C84_cdae_all_pairs : forall T A (f : T -> T -> A) d n desired predictions,
  length desired = length predictions ->
  (forall l, In l desired -> length l = n) -> (forall l, In l predictions -> length l = n) ->
  cdae_losses f d n desired predictions =
  Some (flat_map (fun p => flat_map (fun t => zip f t p) desired) predictions).
Proof. intros. apply cdae_losses_ok; auto. Qed.
Print Assumptions C84_cdae_all_pairs.

(** This is the mean of the own errors if all users of the batch have the same
    vector, in particular in batches of one. *)
Theorem C84_cdae_partial : forall (f : Qc -> Qc -> Qc) t predictions,
  t <> [] -> predictions <> [] -> (forall l, In l predictions -> length l = length t) ->
  loss_of (cdae_losses f 0%Qc (length t) (repeat t (length predictions)) predictions) =
  Some (mean_of (own_errors f (repeat t (length predictions)) predictions)).
Proof. exact cdae_same. Qed.
Print Assumptions C84_cdae_partial.

(** Otherwise, for the squared error, nothing is better than reconstructing the
    average of the batch for every user. *)
Theorem C84_cdae_average_refuted : forall n desired predictions,
  desired <> [] -> length desired = length predictions ->
  (forall l, In l desired -> length l = n) -> (forall l, In l predictions -> length l = n) ->
  exists best other,
    loss_of (cdae_losses sq_err 0%Qc n desired (repeat (mean_vector n desired) (length predictions))) = Some best /\
    loss_of (cdae_losses sq_err 0%Qc n desired predictions) = Some other /\ (best <= other)%Qc.
Proof. exact cdae_mean_best. Qed.
Print Assumptions C84_cdae_average_refuted.
(** Two users with different vectors: right reconstructions have loss 1/2, the
    average has 1/4. *)
Theorem C84_cdae_refuted : exists n desired best own,
  own_errors sq_err desired desired = [0; 0; 0; 0]%Qc /\
  loss_of (cdae_losses sq_err 0%Qc n desired desired) = Some own /\
  loss_of (cdae_losses sq_err 0%Qc n desired (repeat (mean_vector n desired) 2)) = Some best /\
  (0 < best)%Qc /\ (best < own)%Qc.
Proof.
  exists 2, [[1; 0]; [0; 1]]%Qc.
  assert (Q : forall a b : Qc, Qc_eq_bool a b = true -> a = b) by (intros; apply Qc_eq_bool_correct; auto).
  rewrite !cdae_losses_ok by (try reflexivity; simpl; intuition; subst; reflexivity).
  cbn [loss_of option_map]. do 2 eexists. split.
  { unfold own_errors, zip. cbn [combine map concat app fst snd].
    repeat (f_equal; [apply Q; vm_compute; reflexivity|]). reflexivity. }
  split; [reflexivity|]. split; [reflexivity|]. split; vm_compute; reflexivity.
Qed.
Print Assumptions C84_cdae_refuted.
(** Likewise for the default loss, the cross entropy: for one item that one of two
    users has, reconstructing 1/2 for both is better than being right. *)
Theorem C84_cross_entropy_refuted : exists right half,
  option_map mean_ofR (cdae_losses cross_entropy 0%R 1 [[1]; [0]]%R [[1]; [0]]%R) = Some right /\
  option_map mean_ofR (cdae_losses cross_entropy 0%R 1 [[1]; [0]]%R [[1 / 2]; [1 / 2]]%R) = Some half /\
  (half < right)%R.
Proof.
  rewrite !cdae_losses_ok by (try reflexivity; simpl; intuition; subst; reflexivity).
  cbn [option_map flat_map zip combine map fst snd app]. do 2 eexists. split; [reflexivity|]. split; [reflexivity|].
  unfold mean_ofR, zip. cbn [combine map fold_right length app fst snd]. rewrite !ce_half.
  assert (A := ce_right). assert (B := ce_right0). destruct ce_wrong as [D E].
  replace (INR 4) with 4%R by (simpl; ring). lra.
Qed.
Print Assumptions C84_cross_entropy_refuted.
Example C84_example : dmf_losses pair 0 [1; 2] [3; 4] = Some [(1, 3); (2, 4)] /\
  caser_losses pair 0 2 [[1; 2]; [3; 4]] [[5; 6]; [7; 8]] = Some [(1, 5); (2, 6); (3, 7); (4, 8)] /\
  cdae_losses pair 0 2 [[1; 2]; [3; 4]] [[5; 6]; [7; 8]] =
    Some [(1, 5); (2, 6); (3, 5); (4, 6); (1, 7); (2, 8); (3, 7); (4, 8)] /\
  cdae_losses pair 0 2 [[1; 2]] [[5; 6]] = Some [(1, 5); (2, 6)].
Proof. repeat split; vm_compute; reflexivity. Qed.

(** *** C85: Caser gives one score per sample and target or negative item for every
    L and T.  True for L up to n_h, the number of horizontal filters. *)
Theorem C85_scores_partial : forall L d n_v n_h T neg batch, 1 <= L <= n_h ->
  caser_shape L d n_v n_h (caser_input_size L n_v n_h) batch L (T + T * neg) =
  Ok [batch; length (caser_desired (Z.of_nat T) (Z.of_nat neg))].
Proof.
  intros L d n_v n_h T neg b H. rewrite caser_shape_ok by auto. unfold caser_desired.
  rewrite app_length, !repeat_length, <- Nat2Z.inj_mul, !Nat2Z.id. reflexivity.
Qed.
Print Assumptions C85_scores_partial.
(** For larger L, fit raises: max pooling over windows of n_h leaves more than one
    column. *)
Theorem C85_long_sequences_refuted : forall L d n_v n_h n batch after, n_h < L ->
  exists e, caser_shape L d n_v n_h n batch L after = Err e.
Proof. exact caser_shape_wide. Qed.
Print Assumptions C85_long_sequences_refuted.
Example C85_example : caser_shape 5 50 4 16 (caser_input_size 5 4 16) 64 5 (3 + 3 * 3) = Ok [64; 12] /\
  caser_shape 17 50 4 16 (caser_input_size 17 4 16) 64 17 12 = Err GenericException.
Proof. split; vm_compute; reflexivity. Qed.

(** *** C86: Caser ranks for every known user: for users with at least L records. *)
Theorem C86_rank_partial : forall L d n_v n_h n_items records, 1 <= L <= n_h -> L <= records ->
  caser_rank_shape L d n_v n_h n_items records = Ok [1; n_items].
Proof.
  intros L d n_v n_h n_items records H R. unfold caser_rank_shape. rewrite Nat.min_l by auto. apply caser_shape_ok. auto.
Qed.
Print Assumptions C86_rank_partial.
(** For users with fewer records it raises: the sequence is not padded. *)
Theorem C86_short_histories_refuted : forall L d n_v n_h n_items records, records < L ->
  exists e, caser_rank_shape L d n_v n_h n_items records = Err e.
Proof.
  intros L d n_v n_h n_items records R. unfold caser_rank_shape. rewrite Nat.min_r by lia. apply caser_shape_short. auto.
Qed.
Print Assumptions C86_short_histories_refuted.
Example C86_example : caser_rank_shape 5 50 4 16 1682 5 = Ok [1; 1682] /\ caser_rank_shape 5 50 4 16 1682 4 = Err GenericException.
Proof. split; vm_compute; reflexivity. Qed.

Open Scope Z_scope.

(** *** C87: a sample of Caser consists of L consecutive items of a user in the
    order of the sort column, the T next ones, and neg_ratio * T different items
    the user has not in the history; the desired values are 1 for the T and 0 for
    the others. *)
Theorem C87_samples : forall m L T neg t sort pick s ls n k l,
  coded m -> config_ok m (caser_args L T neg (thr_text t) sort) t -> sampler_ok pick -> 1 <= L ->
  ls_init m (caser_args L T neg (thr_text t) sort) = Ok ls -> sample_groups pick s n ls k = Ok l ->
  length l = n /\
  Forall (fun g => exists x, caser_input g = Ok x /\ caser_sample_ok m t sort L T neg x) l.
Proof. exact caser_batch. Qed.
Print Assumptions C87_samples.
Theorem C87_desired : forall m t sort L T neg uid before ids, 0 <= T -> 0 <= neg ->
  caser_sample_ok m t sort L T neg (uid, before, ids) ->
  length (caser_desired T neg) = length ids /\
  exists after negs, ids = (after ++ negs)%list /\
    caser_desired T neg = (map (fun _ => 1) after ++ map (fun _ => 0) negs)%list /\
    (forall i, In i after -> exists r, In r (rows_of m) /\ id_of "uid" r = Some uid /\ id_of "iid" r = Some i /\ above t r = true) /\
    (forall i, In i negs -> ~ exists r, In r (rows_of m) /\ id_of "uid" r = Some uid /\ id_of "iid" r = Some i /\ above t r = true).
Proof.
  intros m t sort L T neg uid before ids HT Hn [(uid' & b & after & negs & E & _ & La & Ln & _ & rs & front & p & q & back & H & Er & _ & Mq & N)].
  injection E as <- <- ->. assert (In_rs : forall r, In r rs <-> In r (rows_of m) /\ id_of "uid" r = Some uid /\ above t r = true).
  { intros r. assert (P : In r rs <-> In r (filter (fun r => match id_of "uid" r with Some z => z =? uid | None => false end && above t r) (rows_of m))).
    { unfold history, in_order in H. destruct sort.
      - destruct H as [P _]. split; intros I; [eapply Permutation.Permutation_in; [apply Permutation.Permutation_sym; exact P|exact I]|eapply Permutation.Permutation_in; eauto].
      - rewrite <- H. tauto. }
    rewrite P, filter_In, andb_true_iff. split.
    - intros [A [B D]]. split; auto. split; auto. destruct (id_of "uid" r) as [z|]; [|discriminate]. apply Z.eqb_eq in B. subst. auto.
    - intros [A [B D]]. split; auto. split; auto. rewrite B. apply Z.eqb_refl. }
  split.
  - unfold caser_desired. rewrite !app_length, !repeat_length. lia.
  - exists after, negs. split; auto. split.
    + unfold caser_desired. rewrite <- La, Z.mul_comm. rewrite <- La in Ln. rewrite <- Ln, !Nat2Z.id.
      clear. f_equal; [induction after|induction negs]; cbn; congruence.
    + split.
      * intros i Hi. apply (in_map Some) in Hi. rewrite <- Mq in Hi. apply in_map_iff in Hi. destruct Hi as [r [A B]].
        assert (R : In r rs) by (rewrite Er; rewrite !in_app_iff; auto). apply In_rs in R. destruct R as (R1 & R2 & R3). eauto 6.
      * intros i Hi [r (R1 & R2 & R3 & R4)]. destruct (N i Hi) as [_ N']. apply (N' r); auto. apply In_rs. auto.
Qed.
Print Assumptions C87_desired.
Example C87_example : exists ls g,
  config_ok s_ds (caser_args 2 1 2 (Some "2") (Some "timestamp")) (Some (LInt 2)) /\
  ls_init s_ds (caser_args 2 1 2 (Some "2") (Some "timestamp")) = Ok ls /\
  sample_groups s_pick (fun _ => 0%nat) 1 ls 0 = Ok [g] /\ caser_input g = Ok (0, [3; 0], [4; 1; 2]) /\
  caser_desired 1 2 = [1; 0; 0].
Proof.
  do 2 eexists. split; [|split; [vm_compute; reflexivity|split; [vm_compute; reflexivity|split; vm_compute; reflexivity]]].
  apply s_config; try reflexivity. exists DFloat. split; [discriminate|].
  apply lo_int; [simpl; intuition discriminate|discriminate|vm_compute; discriminate].
Qed.
(** The default sort column is "timestamp"; a data set without it is refused by
    fit, with the message of an assertion. *)
Theorem C87_sort_column_required : forall m L T neg thr c, ~ In c (m_columns m) ->
  ls_init m (caser_args L T neg thr (Some c)) = Err AssertionError.
Proof.
  intros m L T neg thr c N. unfold ls_init. destruct (ls_check m (caser_args L T neg thr (Some c))) eqn:E; auto.
  exfalso. apply check_inv in E. destruct E as [_ [E _]]. exact (N E).
Qed.
Print Assumptions C87_sort_column_required.

(** *** C88: the vector CDAE learns to reconstruct for a user has 1 exactly for the
    items the user has an interaction with, at or above the threshold.  True for
    positive thresholds and data with one row per user and item. *)
Definition single (m : mem) : Prop := forall u i r r' a b c,
  rows_of m = (a ++ r :: b ++ r' :: c)%list -> has_pair u i r = true -> has_pair u i r' = true -> False.
Theorem C88_desired_partial : forall m tu ti tx m' info thr u i,
  wf_mem m -> col_type m "user" = Ok tu -> col_type m "item" = Ok ti ->
  col_type m "interaction" = Ok tx -> tx <> DObj -> In "interaction" (m_columns m) -> m_cache m = None ->
  begin_fit m false = (m', Ok info) -> single m' -> (0 < thr)%Qc ->
  0 <= u < Z.of_nat (fi_users info) -> 0 <= i < Z.of_nat (fi_items info) ->
  exists vec m2 x, user_vec m' u = (Ok vec, m2) /\ nth_error (desired_vector thr vec) (Z.to_nat i) = Some x /\
    (x = 1 <-> exists r, In r (rows_of m') /\ has_pair u i r = true /\ (thr <= interaction_of r)%Qc) /\ (x = 0 \/ x = 1).
Proof.
  intros m tu ti tx m' info thr u i W U T X N C Hc B S P Hu Hi.
  assert (NE : rows_of m <> []).
  { intros E. assert (Q := begin_empty m tu ti tx W U T X C E). rewrite B in Q. discriminate. }
  destruct (begin_ok m tu ti tx W U T X N C NE) as (info' & lo & hi & B' & E1 & E2 & _).
  rewrite B' in B. injection B as <- <-. rewrite E1 in Hu. rewrite E2 in Hi.
  destruct (vec_after_assign m tu ti tx W U T X N NE Hc) as (ma & A & V1 & _).
  rewrite (assign_ok m tu ti U T) in A. injection A as <-.
  destruct (V1 u Hu) as (vec & m2 & E & V). destruct (desired_sum thr _ _ u vec i V Hi) as (x & E3 & D).
  exists vec, m2, x. split; auto. split; auto. split; [|destruct D as [[-> _]|[-> _]]; auto].
  destruct (pair_sum_single u i (rows_of (assigned m)) (S u i)) as [[Z0 F]|(r & R1 & R2 & R3 & R4)].
  - rewrite Z0 in D. split.
    + intros ->. destruct D as [[_ D]|[D _]]; [|discriminate]. exfalso. exact (Qclt_not_le _ _ P D).
    + intros (r & R1 & R2 & _). rewrite F in R2 by auto. discriminate.
  - rewrite R3 in D. split.
    + intros ->. destruct D as [[_ D]|[D _]]; [|discriminate]. eauto.
    + intros (r' & Q1 & Q2 & Q3). rewrite (R4 r' Q1 Q2) in Q3. destruct D as [[D _]|[_ D]]; auto.
      exfalso. exact (Qclt_not_le _ _ D Q3).
Qed.
Print Assumptions C88_desired_partial.
(** With several rows of a user and item their interactions are added. *)
Theorem C88_sums : forall thr rs p u vec i, user_vec_spec rs p u vec -> 0 <= i < Z.of_nat p ->
  exists x, nth_error (desired_vector thr vec) (Z.to_nat i) = Some x /\
    (x = 1 /\ (thr <= pair_sum u i rs)%Qc \/ x = 0 /\ (pair_sum u i rs < thr)%Qc).
Proof. exact desired_sum. Qed.
Print Assumptions C88_sums.
(** Two ratings of 2 count like one of 4. *)
Definition n_twice : mem := mem_of_frame (mkFrame [("user", DInt); ("item", DObj); ("interaction", DInt)]
  [f_row 0 7 "b" 2; f_row 1 3 "a" 5; f_row 2 7 "b" 2]).
Theorem C88_repeated_refuted : exists m thr vec,
  (forall r v, In r (rows_of m) -> cell r "user" = Some (VInt 7) -> cell r "interaction" = Some v -> (num v < thr)%Qc) /\
  fst (user_vec (fst (begin_fit m false)) 0) = Ok vec /\ desired_vector thr vec = [1; 0].
Proof.
  exists n_twice, (Qc_of_Z 4). eexists. split.
  - simpl. intros r v [<-|[<-|[<-|[]]]] E F; try discriminate; injection F as <-; vm_compute; reflexivity.
  - split; vm_compute; reflexivity.
Qed.
Print Assumptions C88_repeated_refuted.
(** A threshold of zero or less marks all items, with or without an interaction. *)
Theorem C88_zero_threshold_refuted : forall thr rs p u vec i, (thr <= 0)%Qc ->
  user_vec_spec rs p u vec -> 0 <= i < Z.of_nat p -> (forall r, In r rs -> has_pair u i r = false) ->
  nth_error (desired_vector thr vec) (Z.to_nat i) = Some 1.
Proof.
  intros thr rs p u vec i H V Hi N. destruct (desired_sum thr rs p u vec i V Hi) as (x & E & D). rewrite E.
  assert (Z0 : pair_sum u i rs = 0%Qc).
  { unfold pair_sum. assert (F : filter (has_pair u i) rs = []).
    { clear -N. induction rs as [|y rs IH]; auto. cbn [filter]. rewrite N by (left; auto). apply IH. intros; apply N; right; auto. }
    rewrite F. reflexivity. }
  rewrite Z0 in D. destruct D as [[-> _]|[_ D]]; auto. exfalso. exact (Qclt_not_le _ _ D H).
Qed.
Print Assumptions C88_zero_threshold_refuted.
(** The corrupted input: entries with a draw below the corruption level q are 0, the
    others are multiplied by 1 / (1 - q), so that the expected value is the entry. *)
Theorem C88_corrupted : forall q v draws, q <> 1%Qc -> length draws = length v ->
  exists l, corrupted q draws v = Ok l /\ length l = length v /\
    forall i x u, nth_error v i = Some x -> nth_error draws i = Some u ->
      exists y, nth_error l i = Some y /\
        ((u < q)%Qc /\ y = 0%Qc \/ (q <= u)%Qc /\ (y * (1 - q))%Qc = Qc_of_Z x).
Proof. intros q v draws Q. revert v draws. exact (corrupted_ok q Q). Qed.
Print Assumptions C88_corrupted.
(** Draws are below 1: a level of 1 erases everything and divides nothing by zero. *)
Theorem C88_everything_corrupted : forall v draws, length draws = length v -> Forall (fun u => (u < 1)%Qc) draws ->
  corrupted 1%Qc draws v = Ok (repeat 0%Qc (length v)).
Proof. exact corrupted_one. Qed.
Print Assumptions C88_everything_corrupted.
Lemma n_single : single (assigned f_ds).
Proof.
  intros u i r r' a b c E A B.
  assert (X : map (fun r => (cell r "uid", cell r "iid")) (rows_of (assigned f_ds)) =
    [(Some (VInt 0), Some (VInt 0)); (Some (VInt 1), Some (VInt 1)); (Some (VInt 0), Some (VInt 1)); (Some (VInt 0), Some (VInt 2))]) by (vm_compute; reflexivity).
  assert (D : NoDup (map (fun r => (cell r "uid", cell r "iid")) (rows_of (assigned f_ds)))).
  { rewrite X. repeat constructor; simpl; intuition congruence. }
  rewrite E, map_app in D. cbn [map] in D. rewrite map_app in D. cbn [map] in D. apply NoDup_remove in D. destruct D as [_ D].
  apply D. rewrite !in_app_iff. right. right. left.
  unfold has_pair in A, B. destruct (cell r "uid") as [[]|], (cell r "iid") as [[]|]; try discriminate.
  destruct (cell r' "uid") as [[]|], (cell r' "iid") as [[]|]; try discriminate.
  apply andb_true_iff in A, B. destruct A as [A1 A2], B as [B1 B2]. apply Z.eqb_eq in A1, A2, B1, B2. subst. reflexivity.
Qed.
Example C88_example : wf_mem f_ds /\ single (fst (begin_fit f_ds false)) /\
  exists vec l, fst (user_vec (fst (begin_fit f_ds false)) 0) = Ok vec /\ desired_vector (Qc_of_Z 3) vec = [0; 1; 1] /\
  corrupted (Q2Qc (1 # 5)) [Q2Qc (1 # 2); Q2Qc (1 # 10); Q2Qc (1 # 5)] [0; 1; 1] = Ok l /\ map this l = [0%Q; 0%Q; 5 # 4].
Proof.
  split; [apply (f_wf (rows_of f_ds)), incl_refl|]. split; [exact n_single|].
  do 2 eexists. split; [vm_compute; reflexivity|]. split; [vm_compute; reflexivity|]. split; [vm_compute; reflexivity|]. vm_compute. reflexivity.
Qed.

(** *** C89: the targets of DMF with its normalised cross entropy are in [0, 1].
    For data with a minimum of at most 0 (or of 1, which counts as 0) and a maximum
    of at least 0. *)
Theorem C89_targets_partial : forall m t lo hi x,
  coded m -> interaction_range m = Ok (lo, hi) -> (lo < hi)%Qc -> (lo <= 0)%Qc -> (0 <= hi)%Qc ->
  positive m t x \/ negative m x -> exists q, dmf_target (lo, hi) true x = Ok q /\ (0 <= q <= 1)%Qc.
Proof.
  intros m t lo hi x C R H L U [P|N].
  - eapply target_positive; eauto.
  - destruct (target_negative m lo hi R H x N) as (q & E & B & _). exists q. split; auto. apply B. auto.
Qed.
Print Assumptions C89_targets_partial.
(** The targets of observed pairs always are. *)
Theorem C89_positive_partial : forall m t lo hi x,
  coded m -> interaction_range m = Ok (lo, hi) -> (lo < hi)%Qc -> positive m t x ->
  exists q, dmf_target (lo, hi) true x = Ok q /\ (0 <= q <= 1)%Qc.
Proof. intros m t lo hi x C R H P. eapply target_positive; eauto. Qed.
Print Assumptions C89_positive_partial.
(** For any data with a larger minimum, 2 or 1/2 for instance, the target of every
    unobserved pair is negative. *)
Theorem C89_negative_refuted : forall m lo hi x,
  coded m -> interaction_range m = Ok (lo, hi) -> (0 < lo)%Qc -> (lo < hi)%Qc -> negative m x ->
  exists q, dmf_target (lo, hi) true x = Ok q /\ (q < 0)%Qc.
Proof. intros m lo hi x C R L H N. destruct (target_negative m lo hi R H x N) as (q & E & _ & B). eauto. Qed.
Print Assumptions C89_negative_refuted.
(** If all interactions have the same value (other than 1), standardising divides by
    zero. *)
Theorem C89_constant_refuted : forall lo u i v q, num_of v = Some q ->
  dmf_target (lo, lo) true (Some u, Some i, Some v) = Err ZeroDivisionError.
Proof.
  intros lo u i v q E. unfold dmf_target, num_value. cbn [snd]. rewrite E. cbn [bind]. unfold standardize. cbn [fst snd].
  destruct (Qc_eq_bool lo lo) eqn:X; auto. assert (Qc_eq_bool lo lo = true); [|congruence].
  unfold Qc_eq_bool. destruct (Qc_eq_dec lo lo); [reflexivity|contradiction].
Qed.
Print Assumptions C89_constant_refuted.
(** Without it, ratings are compared with predictions in [0, 1] as they are. *)
Theorem C89_raw_refuted : exists m t x q, coded m /\ positive m t x /\ (1 < q)%Qc /\ forall range, dmf_target range false x = Ok q.
Proof.
  exists s_ds, None, (Some 0, Some 0, Some (VFlt (Qc_of_Z 4))), (Qc_of_Z 4). split; [exact s_coded|]. split.
  - eexists (nth 0 (rows_of s_ds) (mkRow 0 [])), 0, 0, (VFlt (Qc_of_Z 4)), (VFlt (Qc_of_Z 4)).
    split; [left; reflexivity|]. repeat split.
  - split; [vm_compute; reflexivity|reflexivity].
Qed.
Print Assumptions C89_raw_refuted.
(** the range of the ratings 1 to 5 is [0, 5]; user 1 has not rated item 0 *)
Example C89_example : match interaction_range s_ds with Ok r => (this (fst r), this (snd r)) = (0%Q, 5%Q) | Err _ => False end /\
  negative s_ds (Some 1, Some 0, Some (VInt 0)) /\
  match dmf_target (0%Qc, Qc_of_Z 5) true (Some 0, Some 0, Some (VFlt (Qc_of_Z 4))) with Ok q => this q = (4 # 5) | Err _ => False end.
Proof.
  split; [vm_compute; reflexivity|]. split; [|vm_compute; reflexivity].
  exists 1, 0. split; [|split; [|reflexivity]].
  - unfold in_range. split; [lia|]. split; [lia|]. split; (eexists (nth 1 (rows_of s_ds) (mkRow 0 [])), _; split; [right; left; reflexivity|]; split; [vm_compute; reflexivity|lia]).
  - intros [r [Hr E]]. assert (F : forallb (fun r => negb (has_pair 1 0 r)) (rows_of s_ds) = true) by (vm_compute; reflexivity).
    rewrite forallb_forall in F. specialize (F r Hr). rewrite E in F. discriminate.
Qed.

(** *** C90: the predictions of DMF are between the bounds found by fit, for any
    weights. *)
Theorem C90_predictions : forall m tx,
  wf_mem m -> In "interaction" (m_columns m) -> col_type m "interaction" = Ok tx -> tx <> DObj -> rows_of m <> [] ->
  exists lo hi, interaction_range m = Ok (lo, hi) /\
    (exists r v, In r (rows_of m) /\ row_val r "interaction" = Some v /\ num v = hi) /\
    (lo = 0%Qc \/ exists r v, In r (rows_of m) /\ row_val r "interaction" = Some v /\ num v = lo) /\
    forall u v, (Q2R (this lo) <= dmf_prediction (Q2R (this lo)) (Q2R (this hi)) u v <= Q2R (this hi))%R.
Proof.
  intros m tx W C T N NE. destruct (interaction_range_ok m tx W C T N NE) as (lo & hi & R & L & _ & H1 & H2).
  exists lo, hi. split; auto. split; auto. split; auto. intros u v. apply prediction_range. apply Qle_Rle. exact L.
Qed.
Print Assumptions C90_predictions.
(** Since a minimum of 1 counts as 0, predictions can be below all ratings. *)
Theorem C90_below_refuted : exists m lo hi u v, interaction_range m = Ok (lo, hi) /\ length u = length v /\
  (forall r x, In r (rows_of m) -> cell r "interaction" = Some x -> (1 <= num x)%Qc) /\
  (dmf_prediction (Q2R (this lo)) (Q2R (this hi)) u v < 1)%R.
Proof.
  exists f_ds, 0%Qc, (Qc_of_Z 5), [1%R], [0%R]. split; [vm_compute; reflexivity|]. split; [reflexivity|]. split.
  - simpl. intros r v [<-|[<-|[<-|[<-|[]]]]] E; injection E as <-; vm_compute; discriminate.
  - assert (S : dmf_score [1%R] [0%R] = (/ 1000000)%R).
    { unfold dmf_score, l2_normalize, sumR. cbn [map combine fold_right fst snd].
      match goal with |- Rmax _ (?a / ?b * (0 / ?c) + 0)%R = _ => replace (a / b * (0 / c) + 0)%R with 0%R by (unfold Rdiv; ring) end.
      apply Rmax_left. lra. }
    unfold dmf_prediction. rewrite S. change (this 0%Qc) with (0 # 1)%Q. change (this (Qc_of_Z 5)) with (5 # 1)%Q.
    unfold Q2R. cbn [Qnum Qden]. rewrite !Rinv_1. lra.
Qed.
Print Assumptions C90_below_refuted.
(** The two networks must end in representations of the same size. *)
Theorem C90_factors : forall u i us is, dmf_factors u i = Ok (us, is) ->
  us <> [] /\ is <> [] /\ last us 0 = last is 0 /\ (u = Some us \/ u = None /\ us = [64; 32]) /\ (i = Some is \/ i = None /\ is = [64; 32]).
Proof.
  intros u i us is. unfold dmf_factors.
  destruct u as [[|a u]|], i as [[|b i]|]; intros H; try discriminate;
    match type of H with (if ?c then _ else _) = _ => destruct c eqn:E end; try discriminate;
    injection H as <- <-; apply Z.eqb_eq in E; repeat split; auto; discriminate.
Qed.
Print Assumptions C90_factors.
Example C90_example : dmf_factors (Some [10; 7]) (Some [7]) = Ok ([10; 7], [7]) /\ dmf_factors (Some [7; 10]) (Some [7]) = Err AssertionError /\
  dmf_factors (Some []) None = Err AssertionError /\ dmf_score [3; 4]%R [3; 4]%R = 1%R.
Proof.
  split; [reflexivity|]. split; [reflexivity|]. split; [reflexivity|].
  unfold dmf_score, l2_normalize, sumR. cbn [map combine fold_right fst snd].
  replace (3 * 3 + (4 * 4 + 0))%R with 25%R by ring. rewrite (Rmax_left 25) by lra.
  replace 25%R with (5 * 5)%R by ring. rewrite sqrt_square by lra.
  replace (3 / 5 * (3 / 5) + (4 / 5 * (4 / 5) + 0))%R with 1%R by field. apply Rmax_right. lra.
Qed.
