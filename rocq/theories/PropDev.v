(** Property C132: regression metrics of parts, as distances, and at another scale. *)
From Coq Require Import String Ascii.
From Coq Require Import List ZArith QArith Qcanon Reals Bool Lia Lra Permutation.
From Verif Require Import Py MemModel MemSpec RankModel MetricModel EvalModel EvalSpec PartSpec DevSpec DevFacts DevFacts2 PropEval.
From Verif Require PartFacts RecDbSpec4 PropRecDb4.
Import ListNotations.
Open Scope string_scope.
Open Scope R_scope.
Open Scope list_scope.

(** The values of two lists of predictions give the value of both together. *)
Theorem C132_together : forall a b a' b' x y n n',
  n = INR (length a) -> n' = INR (length a') ->
  (mse a b = Ok x -> mse a' b' = Ok y -> mse (a ++ a') (b ++ b') = Ok ((n * x + n' * y) / (n + n'))) /\
  (mae a b = Ok x -> mae a' b' = Ok y -> mae (a ++ a') (b ++ b') = Ok ((n * x + n' * y) / (n + n'))) /\
  (rmse a b = Ok x -> rmse a' b' = Ok y -> rmse (a ++ a') (b ++ b') = Ok (sqrt ((n * (x * x) + n' * (y * y)) / (n + n')))).
Proof. intros a b a' b' x y n n' -> ->. split; [|split]; [apply checked_parts|apply checked_parts|apply rmse_parts]. Qed.
Print Assumptions C132_together.

(** It is not outside of the two. *)
Theorem C132_averaging : Forall averaging [mkPM "MSE" mse; mkPM "RMSE" rmse; mkPM "MAE" mae].
Proof. repeat constructor; [apply mse_averaging|apply rmse_averaging|apply mae_averaging]. Qed.
Print Assumptions C132_averaging.

(** RMSE of both together is not the weighted mean of the RMSEs. *)
Theorem C132_rmse_together_refuted : exists a b a' b' x y z,
  rmse a b = Ok x /\ rmse a' b' = Ok y /\ rmse (a ++ a') (b ++ b') = Ok z /\
  z <> (INR (length a) * x + INR (length a') * y) / (INR (length a) + INR (length a')).
Proof.
  exists [0], [0], [0], [2], 0, 2, (sqrt 2). unfold rmse, mse, checked, mean. cbn.
  split; [|split; [|split]].
  - f_equal. replace ((_ + 0) / 1) with 0 by (unfold Rsqr; lra). apply sqrt_0.
  - f_equal. replace ((_ + 0) / 1) with (2 * 2) by (unfold Rsqr; lra). apply sqrt_square. lra.
  - f_equal. f_equal. unfold Rsqr. lra.
  - intros H. replace ((1 * 0 + 1 * 2) / (1 + 1)) with 1 in H by lra.
    assert (Q : sqrt 2 * sqrt 2 = 2) by (apply sqrt_sqrt; lra). rewrite H in Q. lra.
Qed.
Print Assumptions C132_rmse_together_refuted.

(** MAE and RMSE are distances: a detour is not shorter. *)
Theorem C132_triangle : forall a b c, length a = length b -> length b = length c -> a <> [] ->
  (exists x y z, mae a b = Ok x /\ mae b c = Ok y /\ mae a c = Ok z /\ z <= x + y) /\
  (exists x y z, rmse a b = Ok x /\ rmse b c = Ok y /\ rmse a c = Ok z /\ z <= x + y).
Proof. intros a b c L L' N. split; [apply mae_triangle|apply rmse_triangle]; auto. Qed.
Print Assumptions C132_triangle.
(** MSE is none. *)
Theorem C132_mse_triangle_refuted : exists a b c x y z,
  mse a b = Ok x /\ mse b c = Ok y /\ mse a c = Ok z /\ x + y < z.
Proof.
  exists [0], [1], [2], 1, 1, 4. unfold mse, checked, mean. cbn. unfold Rsqr.
  split; [f_equal; lra|]. split; [f_equal; lra|]. split; [f_equal; lra|]. lra.
Qed.
Print Assumptions C132_mse_triangle_refuted.

(** Ratings at another scale, or counted from another origin. *)
Theorem C132_scaled : forall k a b x r d, mse a b = Ok x -> rmse a b = Ok r -> mae a b = Ok d ->
  mse (map (Rmult k) a) (map (Rmult k) b) = Ok (k * k * x) /\
  rmse (map (Rmult k) a) (map (Rmult k) b) = Ok (Rabs k * r) /\
  mae (map (Rmult k) a) (map (Rmult k) b) = Ok (Rabs k * d).
Proof. exact scaled. Qed.
Print Assumptions C132_scaled.
Theorem C132_shifted : forall k a b x r d, mse a b = Ok x -> rmse a b = Ok r -> mae a b = Ok d ->
  mse (map (Rplus k) a) (map (Rplus k) b) = Ok x /\
  rmse (map (Rplus k) a) (map (Rplus k) b) = Ok r /\
  mae (map (Rplus k) a) (map (Rplus k) b) = Ok d.
Proof. exact shifted. Qed.
Print Assumptions C132_shifted.

(** Of all constant predictions the mean of the true values has the least MSE; another
    constant has the square of its distance from the mean on top. *)
Theorem C132_constant : forall a c v, a <> [] -> v = fold_right Rplus 0 a / INR (length a) ->
  exists x, mse a (map (fun _ => v) a) = Ok x /\ mse a (map (fun _ => c) a) = Ok (x + Rsqr (c - v)).
Proof. exact constant_predictions. Qed.
Print Assumptions C132_constant.

(** predictive_evaluation on test data, from its values on two parts of the data: the
    value of no metric is outside of the two; rounded values too. *)
Theorem C132_evaluation : forall md m m1 m2 a r1 r2,
  pe_data m -> blind md (p_skip a) m -> predicts md (p_skip a) m -> p_n a = None -> NoDup (map pm_name (p_metrics a)) ->
  (forall pm, In pm (p_metrics a) -> averaging pm /\ RecDbSpec4.orderless pm) -> parts m m1 m2 ->
  predictive_evaluation md m1 a = Ok r1 -> predictive_evaluation md m2 a = Ok r2 ->
  exists r, predictive_evaluation md m a = Ok r /\ map fst r = map pm_name (p_metrics a) /\
    forall s x, In (s, x) r -> exists x1 x2, In (s, x1) r1 /\ In (s, x2) r2 /\ between x1 x2 x.
Proof. exact evaluation_parts. Qed.
Print Assumptions C132_evaluation.

(** With a limit on the number of predictions the value can be outside of the two. *)
Definition d_model : model := mkModel e_train 6 (fun _ _ _ => Err TypeError) (fun _ _ _ _ => Err TypeError) (fun _ _ _ => Ok (Some (Qc_of_Z 0))).
Definition d_test : mem := e_mem [e_row 0 5 1 1; e_row 1 5 2 1; e_row 2 5 3 5; e_row 3 5 4 5].
Definition d_even : mem := e_mem [e_row 0 5 1 1; e_row 2 5 3 5].
Definition d_odd : mem := e_mem [e_row 1 5 2 1; e_row 3 5 4 5].
Definition d_args (n : option Z) : pe_args := mkPe false n true [mkPM "MAE" mae].
Lemma R_of_Z z : R_of (Qc_of_Z z) = IZR z.
Proof. unfold R_of, Qc_of_Z. cbn [this Q2Qc]. rewrite (Qreals.Qeq_eqR _ _ (Qred_correct (inject_Z z))). unfold Q2R, inject_Z. cbn. lra. Qed.
Lemma Rabs_Z z : Rabs (IZR z - 0) = IZR (Z.abs z).
Proof. rewrite Rminus_0_r. apply Rabs_Zabs. Qed.
Definition d_result (l : list Z) : res (list (string * R)) :=
  Ok [("MAE", round4 (mean (map (fun z => Rabs (R_of (Qc_of_Z z) - R_of (Qc_of_Z 0))) l)))].
Lemma d_value l v : fold_right Rplus 0 (map (fun z => IZR (Z.abs z)) l) = IZR v * INR (length l) -> l <> [] -> d_result l = Ok [("MAE", IZR v)].
Proof.
  intros H N. unfold d_result. do 3 f_equal. rewrite (map_ext _ (fun z => IZR (Z.abs z))) by (intros z; rewrite !R_of_Z; apply Rabs_Z).
  unfold mean. rewrite map_length, H. assert (P : INR (length l) <> 0) by (apply not_0_INR; destruct l; [congruence|discriminate]).
  replace (IZR v * INR (length l) / INR (length l)) with (IZR (v * 10000) / 10000) by (rewrite mult_IZR; field; auto).
  rewrite (proj2 (C49_rounding 0)), mult_IZR. field.
Qed.
Ltac d_eval l := transitivity (d_result l); [reflexivity|apply d_value; [cbn; lra|discriminate]].
Lemma d_parts : parts d_test d_even d_odd.
Proof. constructor; [|split; reflexivity|split; reflexivity]. cbn. apply perm_skip, perm_swap. Qed.
Theorem C132_limit_refuted : exists md m m1 m2 a x1 x2 x,
  parts m m1 m2 /\ predictive_evaluation md m1 a = Ok [("MAE", x1)] /\ predictive_evaluation md m2 a = Ok [("MAE", x2)] /\
  predictive_evaluation md m a = Ok [("MAE", x)] /\ ~ between x1 x2 x.
Proof.
  exists d_model, d_test, d_even, d_odd, (d_args (Some 2%Z)), 3, 3, 1. split; [exact d_parts|].
  split; [d_eval [1; 5]%Z|].
  split; [d_eval [1; 5]%Z|].
  split; [d_eval [1; 1]%Z|].
  unfold between. rewrite Rmin_left by lra. lra.
Qed.
Print Assumptions C132_limit_refuted.

(** *** Examples *)
Example C132_example_lists :
  mse [1; 2] [3; 2] = Ok 2 /\ mse [5] [0] = Ok 25 /\ mse [1; 2; 5] [3; 2; 0] = Ok ((2 * 2 + 1 * 25) / (2 + 1)) /\
  mae [1; 2] [3; 2] = Ok 1 /\ mae [5] [0] = Ok 5 /\ between 1 5 ((2 * 1 + 1 * 5) / (2 + 1)) /\
  mse (map (Rmult 2) [1; 2]) (map (Rmult 2) [3; 2]) = Ok (2 * 2 * 2).
Proof.
  unfold mse, mae, checked, mean. cbn. unfold Rsqr. repeat split; try (f_equal; lra).
  - f_equal. unfold Rabs. do 2 destruct Rcase_abs; lra.
  - f_equal. unfold Rabs. destruct Rcase_abs; lra.
  - rewrite Rmin_left; lra.
  - rewrite Rmax_right; lra.
Qed.

Example C132_example_evaluation : exists m1 m2 r1 r2,
  pe_data d_test /\ blind d_model true d_test /\ predicts d_model true d_test /\ parts d_test m1 m2 /\
  (forall pm, In pm (p_metrics (d_args None)) -> averaging pm /\ RecDbSpec4.orderless pm) /\
  predictive_evaluation d_model m1 (d_args None) = Ok r1 /\ predictive_evaluation d_model m2 (d_args None) = Ok r2 /\
  r1 = [("MAE", 1)] /\ r2 = [("MAE", 5)] /\ predictive_evaluation d_model d_test (d_args None) = Ok [("MAE", 3)].
Proof.
  exists (e_mem [e_row 0 5 1 1; e_row 1 5 2 1]), (e_mem [e_row 2 5 3 5; e_row 3 5 4 5]), [("MAE", 1)], [("MAE", 5)].
  split. { assert (I : int_data d_test) by e_rows. destruct I. constructor; auto. }
  split. { intros r u i u' i' _ _ _ _ _. reflexivity. }
  split. { intros r u i _ _ _. eexists. reflexivity. }
  split. { constructor; [apply Permutation_refl|split; reflexivity|split; reflexivity]. }
  split. { intros pm [<-|[]]. split; [apply mae_averaging|].
    pose proof PropRecDb4.C114_metrics_orderless as H. inversion_clear H as [|? ? _ H']. inversion_clear H' as [|? ? _ H]. inversion_clear H. auto. }
  split; [d_eval [1; 1]%Z|].
  split; [d_eval [5; 5]%Z|].
  split; [reflexivity|]. split; [reflexivity|].
  d_eval [1; 1; 5; 5]%Z.
Qed.
Example C132_example_distances :
  mae [0; 0] [1; 3] = Ok 2 /\ mae [1; 3] [4; 2] = Ok 2 /\ mae [0; 0] [4; 2] = Ok 3 /\
  (2 = fold_right Rplus 0 [1; 3] / INR (length [1; 3])) /\
  mse [1; 3] (map (fun _ => 2) [1; 3]) = Ok 1 /\ mse [1; 3] (map (fun _ => 5) [1; 3]) = Ok (1 + Rsqr (5 - 2)).
Proof.
  unfold mse, mae, checked, mean. cbn. unfold Rsqr. repeat split; try (f_equal; lra); try lra;
  f_equal; unfold Rabs; do 2 destruct Rcase_abs; lra.
Qed.
