(** Property C123: splitting, fitting and evaluating. *)
From Coq Require Import String Ascii.
From Coq Require Import List ZArith QArith Qcanon Reals Bool Lia Permutation.
From Verif Require Import Py PyFacts MemModel MemSpec MemFacts3 Conc ConcFacts RankModel RankSpec KnnModel KnnSpec MetricModel SplitModel SplitSpec SampModel.
From Verif Require Import EvalModel EvalSpec EvalFacts EvalFacts2 EvalFacts3 EvalFacts4 EvalFacts5 PipeSpec PipeFacts PropEval.
From Verif Require RankFacts RankFacts2 SplitFacts2 PropSplit.
Import ListNotations.
Open Scope string_scope.
Open Scope Z_scope.
Open Scope list_scope.

(** *** Splits whose test users are in the training data *)
Theorem C123_leave_k_out : forall fmul sample a m sched t train test,
  sample_ok sample -> int_data m -> NoDup (map r_rid (rows_of m)) -> (a_last a = true -> In (a_label a) (m_columns m)) ->
  leave_k_out fmul sample a m sched t = Done train test ->
  int_data train /\ int_data test /\ (length (rows_of train) <= length (rows_of m))%nat /\ users_within train test.
Proof.
  intros fmul sample a m sched t train test Hs D N Hl H.
  assert (U := int_data_users m D N).
  assert (W : users_within train test) by (intros r; eapply PropSplit.C19_test_users_are_in_train; eauto).
  destruct (SplitFacts2.lko_correct fmul sample Hs a m U Hl sched t train test H) as [(p & q & -> & -> & _) _].
  split; [apply (int_sub m p D)|]. split; [apply (int_sub m q D)|]. split; [apply (sub_short m p)|auto].
Qed.
Print Assumptions C123_leave_k_out.

Theorem C123_matrix_split : forall fmul su si a m sched t train test,
  sample_ok su -> sample_ok si -> int_data m -> NoDup (map r_rid (rows_of m)) ->
  matrix_split fmul su si a m sched t = Done train test ->
  int_data train /\ int_data test /\ (length (rows_of train) <= length (rows_of m))%nat /\ users_within train test.
Proof.
  intros fmul su si a m sched t train test Hu Hi D N H.
  assert (U := int_data_users m D N).
  destruct (PropSplit.C21_matrix_split_exact fmul su si a m DInt sched t train test Hu Hi U) as (us & is & _ & _ & S); auto.
  - apply (in_cols m D). simpl; auto.
  - apply D.
  - apply (in_small m D). simpl; auto.
  - assert (W : users_within train test) by (intros r; eapply PropSplit.C21_matrix_split_users_trainable; eauto).
    destruct S as [-> ->]. split; [apply (int_sub m _ D)|]. split; [apply (int_sub m _ D)|]. split; [apply (sub_short m)|auto].
Qed.
Print Assumptions C123_matrix_split.

(** *** A fitted recommender answers for the users it was trained on *)
Theorem C123_knn_answers : forall train tr c coo nb f n_items user,
  int_data train -> Z.of_nat (length (rows_of train)) <= 2 ^ 53 -> assign_internal_ids train = Ok tr ->
  fitted_with c train tr coo nb -> count_unique tr (Some ["iid"]) = Ok n_items -> known_user train user ->
  answers (recommender (knn_rank c tr nb) f tr n_items) user.
Proof.
  intros train tr c coo nb f n_items user D L A F N K. assert (T := int_trained train tr D L A).
  eapply good_answers; eauto. eapply knn_good; eauto. apply int_numeric; auto.
Qed.
Print Assumptions C123_knn_answers.
Theorem C123_predictor_answers : forall train tr g f n_items user,
  int_data train -> Z.of_nat (length (rows_of train)) <= 2 ^ 53 -> assign_internal_ids train = Ok tr ->
  never_raises g -> count_unique tr (Some ["iid"]) = Ok n_items -> known_user train user ->
  answers (recommender (rank_abc g tr) f tr n_items) user.
Proof.
  intros train tr g f n_items user D L A F N K. assert (T := int_trained train tr D L A).
  eapply good_answers; eauto. eapply rank_abc_good; eauto.
Qed.
Print Assumptions C123_predictor_answers.

(** *** The evaluations then count every test user *)
Theorem C123_recommendation_counts_all : forall train tr test impl f n_items a t rngs,
  int_data train -> Z.of_nat (length (rows_of train)) <= 2 ^ 53 -> assign_internal_ids train = Ok tr ->
  int_data test -> users_within train test ->
  (forall user, known_user train user -> answers (recommender impl f tr n_items) user) ->
  threshold_ok t -> r_thr a = lit_text t -> (forall s, rng_ok (rngs s)) ->
  rc_check a = Ok tt -> r_k a <> [] -> NoDup (map mc_name (r_metrics a)) -> NoDup (r_k a) ->
  let md := recommender impl f tr n_items in
  (forall sched, fair (r_threads a) sched -> exists t0 r, recommendation_evaluation md test a rngs sched t0 = EDone r) /\
  (forall sched t0 r, recommendation_evaluation md test a rngs sched t0 = EDone r ->
     exists cs, one_case_each md test a t cs /\ averages (r_metrics a) (r_k a) cs r).
Proof.
  intros train tr test impl f n_items a t rngs Dt L As D W An T ET Hg Hc Hk N1 N2 md.
  assert (Tr := int_trained train tr Dt L As).
  assert (Hi : int_recs md).
  { eapply recommender_int_recs; eauto. apply (in_small train Dt). simpl; auto. }
  assert (A : forall v, In v (column "user" (rows_of test)) -> answers md v).
  { intros v Hv. apply An. unfold column in Hv. apply in_flat_map in Hv. destruct Hv as (r & Hr & Hv).
    destruct (W r Hr) as (r' & Hr' & E). unfold known_user, column. apply in_flat_map. exists r'. split; auto. rewrite E. auto. }
  split.
  - intros sched Hf. eapply rec_returns; eauto.
  - intros sched t0 r H. destruct (recommendation_result md test a rngs t D T ET Hg Hi sched t0 r H) as (cs & F & ->).
    exists (evaluated_cases cs). split; [|apply table_averages; auto].
    unfold one_case_each. eapply one_each; eauto.
Qed.
Print Assumptions C123_recommendation_counts_all.

Theorem C123_ranking_loses_none : forall fmul train tr test impl f n_items a t rngs,
  int_data train -> Z.of_nat (length (rows_of train)) <= 2 ^ 53 -> assign_internal_ids train = Ok tr ->
  count_unique tr (Some ["iid"]) = Ok n_items -> int_data test -> users_within train test ->
  (forall user, known_user train user -> answers (recommender impl f tr n_items) user) ->
  threshold_ok t -> e_thr a = lit_text t -> (forall s, rng_ok (rngs s)) -> mul_nonneg fmul ->
  NoDup (map mc_name (e_metrics a)) -> NoDup (e_k a) ->
  let md := recommender impl f tr n_items in
  forall fuel sched t0 r, ranking_evaluation fmul fuel md false test a rngs sched t0 = EDone r ->
  exists cs, Forall2 (user_outcome fmul md false test a t) (first_users (e_users a) test) (map Ok cs) /\
    averages (e_metrics a) (e_k a) (evaluated_cases (map Ok cs)) r.
Proof.
  intros fmul train tr test impl f n_items a t rngs Dt L As N D W An T ET Hg Hf N1 N2 md fuel sched t0 r H.
  assert (Tr := int_trained train tr Dt L As).
  assert (Dm : int_data (md_ds md)).
  { cbn [md recommender md_ds]. rewrite (RankFacts.trained_assigned train tr DInt DInt Tr). apply int_assigned; auto. }
  assert (Hn : Z.of_nat (md_items md) <= 2 ^ 53).
  { cbn [md recommender md_items]. rewrite (RankFacts2.n_items_count train tr DInt DInt Tr _ N).
    assert (X := distinct_short "item" train). lia. }
  assert (Hc : re_check a = Ok tt).
  { unfold ranking_evaluation in H. destruct (re_check a) as [[]|e]; auto. discriminate. }
  destruct (ranking_result fmul md false test a t rngs D (fun _ _ => Dm) T ET Hg Hf Hn fuel sched t0 r H) as (cs & F & C & ->).
  assert (NE : Forall (fun x => exists c, x = Ok c) cs).
  { eapply (rank_no_err fmul md false test a t rngs fuel (first_users (e_users a) test)); eauto.
    - intros v. apply first_users_int; auto.
    - intros v Hv. apply An. eapply within_known; eauto. }
  assert (M : exists os, cs = map Ok os).
  { clear -NE. induction NE as [|x cs [c ->] _ [os ->]]; [exists []; auto|exists (c :: os); auto]. }
  destruct M as [os ->]. exists os. split; auto. apply table_averages; auto.
Qed.
Print Assumptions C123_ranking_loses_none.

(** *** Otherwise: a test user unknown to the recommender *)
(** with verbose=True (the default) one unknown test user with liked test items
    keeps recommendation_evaluation from ever returning *)
Theorem C123_unknown_user_hangs : forall train tr test impl f n_items a t rngs z,
  int_data train -> Z.of_nat (length (rows_of train)) <= 2 ^ 53 -> assign_internal_ids train = Ok tr -> int_data test ->
  threshold_ok t -> r_thr a = lit_text t -> (forall s, rng_ok (rngs s)) -> rc_check a = Ok tt -> r_verbose a = true ->
  In (VInt z) (first_users (r_users a) test) -> countable a test t (VInt z) = true -> ~ known_user train (VInt z) ->
  forall sched t0, recommendation_evaluation (recommender impl f tr n_items) test a rngs sched t0 = ERunning.
Proof.
  intros train tr test impl f n_items a t rngs z Dt L As D T ET Hg Hc V Hz C K sched t0.
  assert (Tr := int_trained train tr Dt L As).
  assert (Hi : int_recs (recommender impl f tr n_items)).
  { eapply recommender_int_recs; eauto. apply (in_small train Dt). simpl; auto. }
  destruct (raising_case (recommender impl f tr n_items) test a t rngs z D T ET Hg Hi Hc Hz C) as [e I].
  - intros n nov low. exists AssertionError. eapply unknown_raises; eauto.
  - eapply recommendation_hangs; eauto. apply test_users_first; auto.
Qed.
Print Assumptions C123_unknown_user_hangs.

(** *** Examples *)
(** users 5 and 6 with three rows each, user 7 with one: leave_k_out with k = 1
    holds out one row of users 5 and 6 *)
Definition p_data : mem := e_mem [e_row 0 5 1 5; e_row 1 5 2 4; e_row 2 5 3 5; e_row 3 6 1 4; e_row 4 6 3 5; e_row 5 6 4 4; e_row 6 7 2 5].
Lemma p_data_int : int_data p_data. Proof. e_rows. Qed.
Definition p_lko := mkLko (KInt 1) 0 false "timestamp" 0 2 true.
Definition p_train : mem := sub p_data (fun r => negb (mem_b Z.eqb (r_rid r) [0; 3])).
Definition p_test : mem := sub p_data (fun r => mem_b Z.eqb (r_rid r) [0; 3]).
(** a model that prefers items with a high internal id *)
Definition p_pred (u i : option Z) : res (option Qc) := match i with Some i => Ok (Some (Qc_of_Z i)) | None => Ok None end.
Definition p_args : rc_args := mkRc None [1; 2] None "3" true None 10 2 true [Recall].
Definition p_md : model := recommender (rank_abc p_pred (assigned p_train)) p_pred (assigned p_train) 3.
Lemma p_assign : assign_internal_ids p_train = Ok (assigned p_train). Proof. vm_compute. reflexivity. Qed.

Example C123_example :
  leave_k_out PropSplit.exact_mul PropSplit.first_n p_lko p_data PropSplit.turns 200 = Done p_train p_test /\
  first_users None p_test = [VInt 5; VInt 6] /\
  (forall user, known_user p_train user -> answers p_md user) /\
  (exists t0 r, recommendation_evaluation p_md p_test p_args (fun _ => e_rng) PropSplit.turns t0 = EDone r) /\
  (forall sched t0 r, recommendation_evaluation p_md p_test p_args (fun _ => e_rng) sched t0 = EDone r ->
     exists c5 c6, averages [Recall] [1; 2] [c5; c6] r /\ recommended p_md p_test p_args (LInt 3) 5 c5 /\ recommended p_md p_test p_args (LInt 3) 6 c6).
Proof.
  assert (S : leave_k_out PropSplit.exact_mul PropSplit.first_n p_lko p_data PropSplit.turns 200 = Done p_train p_test) by (vm_compute; reflexivity).
  assert (NR : NoDup (map r_rid (rows_of p_data))) by (simpl; repeat constructor; simpl; intuition discriminate).
  destruct (C123_leave_k_out PropSplit.exact_mul (@PropSplit.first_n Z) p_lko p_data PropSplit.turns 200%nat p_train p_test (PropSplit.first_n_ok Z) p_data_int NR ltac:(discriminate) S) as (D1 & D2 & _ & W).
  assert (L : Z.of_nat (length (rows_of p_train)) <= 2 ^ 53) by (vm_compute; discriminate).
  assert (A : forall user, known_user p_train user -> answers p_md user).
  { intros user K. apply (C123_predictor_answers p_train (assigned p_train) p_pred p_pred 3%nat user D1 L p_assign); auto.
    intros u i. eexists. reflexivity. }
  split; [exact S|]. split; [vm_compute; reflexivity|]. split; [exact A|].
  assert (N1 : NoDup (map mc_name (r_metrics p_args))) by (repeat constructor; simpl; tauto).
  assert (N2 : NoDup (r_k p_args)) by (repeat constructor; simpl; intuition discriminate).
  destruct (C123_recommendation_counts_all p_train (assigned p_train) p_test (rank_abc p_pred (assigned p_train)) p_pred 3%nat p_args (LInt 3) (fun _ => e_rng)
    D1 L p_assign D2 W A lit3_ok eq_refl (fun _ => e_rng_ok) eq_refl ltac:(discriminate) N1 N2) as [R1 R2].
  fold p_md in R1, R2. split; [apply R1; apply PropSplit.turns_fair|].
  intros sched t0 r H. destruct (R2 sched t0 r H) as (cs & O & V). unfold one_case_each in O.
  assert (E : filter (countable p_args p_test (LInt 3)) (first_users (r_users p_args) p_test) = [VInt 5; VInt 6]) by (vm_compute; reflexivity).
  rewrite E in O. clear - O V.
  inversion O as [|? c5 ? ? (z5 & E5 & O5) O']; subst. inversion O' as [|? c6 ? ? (z6 & E6 & O6) O'']; subst. inversion O''; subst.
  injection E5 as <-. injection E6 as <-. exists c5, c6. split; [exact V|]. split; [exact O5|exact O6].
Qed.

(** random_split: user 7 is in the test data only, and the default evaluation
    never returns *)
Definition q_data : mem := e_mem [e_row 0 7 2 5; e_row 1 5 2 4; e_row 2 5 3 5; e_row 3 6 1 4].
Theorem C123_random_split_refuted : exists m ratio seed train test tr,
  int_data m /\ NoDup (map r_rid (rows_of m)) /\ sample_range_ok PropSplit.first_idx /\
  random_split PropSplit.exact_mul PropSplit.first_idx ratio seed m = Ok (train, test) /\
  assign_internal_ids train = Ok tr /\
  rc_check p_args = Ok tt /\
  (forall n_items user, count_unique tr (Some ["iid"]) = Ok n_items -> known_user train user ->
     answers (recommender (rank_abc p_pred tr) p_pred tr n_items) user) /\
  forall n_items sched t0, recommendation_evaluation (recommender (rank_abc p_pred tr) p_pred tr n_items) test p_args (fun _ => e_rng) sched t0 = ERunning.
Proof.
  assert (D : int_data q_data) by e_rows.
  set (train := sub q_data (fun r => negb (mem_b Z.eqb (r_rid r) [0]))). set (test := sub q_data (fun r => mem_b Z.eqb (r_rid r) [0])).
  assert (Dt : int_data train) by (apply int_sub; auto). assert (De : int_data test) by (apply int_sub; auto).
  exists q_data, (Q2Qc (1 # 4)), 0, train, test, (assigned train).
  split; auto. split; [simpl; repeat constructor; simpl; intuition discriminate|]. split; [apply PropSplit.first_idx_ok|].
  split; [vm_compute; reflexivity|]. split; [vm_compute; reflexivity|]. split; [reflexivity|]. split.
  - intros n user N K. apply (C123_predictor_answers train (assigned train) p_pred p_pred n user); auto.
    + vm_compute; discriminate.
    + intros u i. eexists. reflexivity.
  - intros n sched t0. apply (C123_unknown_user_hangs train (assigned train) test _ _ _ p_args (LInt 3) (fun _ => e_rng) 7); auto.
    + vm_compute; discriminate.
    + apply lit3_ok.
    + intros _. apply e_rng_ok.
    + vm_compute. auto.
    + vm_compute. intuition discriminate.
Qed.
Print Assumptions C123_random_split_refuted.

(** the items of the test rows can be missing from the training data, for
    leave_k_out too: predict then raises unless errors are skipped, and returns
    None if they are *)
Theorem C123_test_items_refuted : exists m train test tr,
  int_data m /\ NoDup (map r_rid (rows_of m)) /\
  leave_k_out PropSplit.exact_mul PropSplit.first_n p_lko m PropSplit.turns 200 = Done train test /\
  assign_internal_ids train = Ok tr /\ rows_of test <> [] /\
  forall r u i, In r (rows_of test) -> cell r "user" = Some u -> cell r "item" = Some i ->
    predict p_pred true tr u i false = Err AssertionError /\ predict p_pred true tr u i true = Ok None.
Proof.
  exists p_data, p_train, p_test, (assigned p_train). split; [apply p_data_int|].
  split; [simpl; repeat constructor; simpl; intuition discriminate|]. split; [vm_compute; reflexivity|].
  split; [apply p_assign|]. split; [discriminate|]. intros r u i Hr Eu Ei.
  assert (X : r = e_row 0 5 1 5 \/ r = e_row 3 6 1 4) by (revert Hr; vm_compute; intuition).
  destruct X as [-> | ->]; injection Eu as <-; injection Ei as <-; vm_compute; auto.
Qed.
Print Assumptions C123_test_items_refuted.
