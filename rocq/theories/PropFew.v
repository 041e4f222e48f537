(** Property C135: an evaluation with fewer test users treats the first of them as the
    evaluation with all users does. *)
From Coq Require Import String Ascii.
From Coq Require Import List ZArith QArith Qcanon Reals Bool Lia Lra Permutation.
From Verif Require Import Py MemModel MemSpec Conc RankModel MetricModel SplitModel SampModel EvalModel EvalSpec EvalFacts EvalFacts5 FewFacts PropEval.
From Verif Require PropSplit.
Import ListNotations.
Open Scope string_scope.
Open Scope Z_scope.
Open Scope list_scope.

(** ranking_evaluation: there is one outcome per user, in the order of their first
    appearance in the test data, and a call with n_test_users = n averages the first n,
    for every n, number of steps and interleaving *)
Theorem C135_ranking : forall fmul fuel md train_ev mt a rngs sched0 t0 r0,
  int_data mt -> NoDup (map mc_name (e_metrics a)) -> NoDup (e_k a) ->
  ranking_evaluation fmul fuel md train_ev mt (with_users None a) rngs sched0 t0 = EDone r0 ->
  exists cs, length cs = length (appearing (column "user" (rows_of mt))) /\ forall n sched t r,
    ranking_evaluation fmul fuel md train_ev mt (with_users n a) rngs sched t = EDone r ->
    averages (e_metrics a) (e_k a) (evaluated_cases (first_of n cs)) r.
Proof.
  intros fmul fuel md tr mt a rngs sched0 t0 r0 D N1 N2 H.
  destruct (ranking_few _ _ _ _ _ _ _ _ _ _ _ H (test_users_first mt None D)) as (cs & L & F).
  exists cs. split; [exact L|]. intros n sched t r E. rewrite (F n sched t r E). apply table_averages; auto.
Qed.
Print Assumptions C135_ranking.

(** recommendation_evaluation likewise *)
Theorem C135_recommendation : forall md mt a rngs,
  int_data mt -> NoDup (map mc_name (r_metrics a)) -> NoDup (r_k a) ->
  exists cs, length cs = length (appearing (column "user" (rows_of mt))) /\ forall n sched t r,
    recommendation_evaluation md mt (with_rec_users n a) rngs sched t = EDone r ->
    averages (r_metrics a) (r_k a) (evaluated_cases (first_of n cs)) r.
Proof.
  intros md mt a rngs D N1 N2. destruct (recommendation_few md mt a rngs _ (test_users_first mt None D)) as (cs & L & F).
  exists cs. split; [exact L|]. intros n sched t r E. rewrite (F n sched t r E). apply table_averages; auto.
Qed.
Print Assumptions C135_recommendation.

(** a limit that is not below the number of users is no limit *)
Theorem C135_no_limit : forall fmul fuel md train_ev mt a rngs sched sched' t t' r r' n,
  int_data mt -> Z.of_nat (length (appearing (column "user" (rows_of mt)))) <= n ->
  ranking_evaluation fmul fuel md train_ev mt (with_users None a) rngs sched t = EDone r ->
  ranking_evaluation fmul fuel md train_ev mt (with_users (Some n) a) rngs sched' t' = EDone r' -> r' = r.
Proof.
  intros fmul fuel md tr mt a rngs sched sched' t t' r r' n D Hn H H'.
  destruct (ranking_few _ _ _ _ _ _ _ _ _ _ _ H (test_users_first mt None D)) as (cs & L & F).
  rewrite (F _ _ _ _ H), (F _ _ _ _ H'), first_of_all; [reflexivity|]. rewrite L. exact Hn.
Qed.
Print Assumptions C135_no_limit.
Theorem C135_recommendation_no_limit : forall md mt a rngs sched sched' t t' r r' n,
  int_data mt -> Z.of_nat (length (appearing (column "user" (rows_of mt)))) <= n ->
  recommendation_evaluation md mt (with_rec_users None a) rngs sched t = EDone r ->
  recommendation_evaluation md mt (with_rec_users (Some n) a) rngs sched' t' = EDone r' -> r' = r.
Proof.
  intros md mt a rngs sched sched' t t' r r' n D Hn H H'.
  destruct (recommendation_few md mt a rngs _ (test_users_first mt None D)) as (cs & L & F).
  rewrite (F _ _ _ _ H), (F _ _ _ _ H'), first_of_all; [reflexivity|]. rewrite L. exact Hn.
Qed.
Print Assumptions C135_recommendation_no_limit.

(** the call of C50 ([e_re] has no limit): with the first user only, HitRatio at 1 is 1
    and not 0.5; with a limit of three users nothing changes *)
Example C135_example : int_data e_test /\ with_users None e_re = e_re /\ length (appearing (column "user" (rows_of e_test))) = 3%nat /\
  exists t r t1 r1 t3, 
    ranking_evaluation PropSplit.exact_mul 20 e_model false e_test (with_users None e_re) (fun _ => e_rng) PropSplit.turns t = EDone r /\
    In (("HitRatio", 1), (5000 / 10000)%R) r /\
    ranking_evaluation PropSplit.exact_mul 20 e_model false e_test (with_users (Some 1) e_re) (fun _ => e_rng) PropSplit.turns t1 = EDone r1 /\
    In (("HitRatio", 1), (10000 / 10000)%R) r1 /\
    ranking_evaluation PropSplit.exact_mul 20 e_model false e_test (with_users (Some 3) e_re) (fun _ => e_rng) PropSplit.turns t3 = EDone r.
Proof.
  destruct e_re_ok as (D & Dtr & T & ET & Hg & Hf & Hn & N1 & N2). split; auto. split; [reflexivity|].
  assert (L3 : length (appearing (column "user" (rows_of e_test))) = 3%nat) by (vm_compute; reflexivity). split; auto.
  destruct C50_example as (t & r & E & V1 & _ & _).
  set (c5 := mkCase [VInt 1; VInt 2; VInt 3] [VInt 1] (Some (VInt 1)) [(VInt 1, 5%Q); (VInt 2, 0%Q); (VInt 3, 0%Q)]).
  set (c6 := mkCase [VInt 0; VInt 3; VInt 5] [VInt 3] (Some (VInt 3)) [(VInt 3, 5%Q); (VInt 5, 1%Q); (VInt 0, 0%Q)]).
  assert (X1 : rank_cases PropSplit.exact_mul 20 e_model false e_test (with_users (Some 1) e_re) (fun _ => e_rng) (first_users (Some 1) e_test) =
    Some [Ok (Some c5)]) by (vm_compute; reflexivity).
  assert (X3 : rank_cases PropSplit.exact_mul 20 e_model false e_test (with_users (Some 3) e_re) (fun _ => e_rng) (first_users (Some 3) e_test) =
    Some [Ok (Some c5); Ok (Some c6); Ok None]) by (vm_compute; reflexivity).
  destruct (run_returns (e_metrics e_re) (e_k e_re) (rank_task (e_metrics e_re) (e_k e_re)) (rank_task_sums _ _) 2 true
    [Ok (Some c5)] PropSplit.turns ltac:(discriminate) PropSplit.turns_fair ltac:(intros; apply rank_task_done)) as [t1 E1].
  destruct (run_returns (e_metrics e_re) (e_k e_re) (rank_task (e_metrics e_re) (e_k e_re)) (rank_task_sums _ _) 2 true
    [Ok (Some c5); Ok (Some c6); Ok None] PropSplit.turns ltac:(discriminate) PropSplit.turns_fair ltac:(intros; apply rank_task_done)) as [t3 E3].
  assert (R1 : ranking_evaluation PropSplit.exact_mul 20 e_model false e_test (with_users (Some 1) e_re) (fun _ => e_rng) PropSplit.turns t1 =
    EDone (table (e_metrics e_re) (e_k e_re) (evaluated_cases [Ok (Some c5)]))).
  { unfold ranking_evaluation. change (e_users (with_users (Some 1) e_re)) with (Some 1). rewrite (test_users_first e_test (Some 1) D).
    change (re_check (with_users (Some 1) e_re)) with (Ok tt). cbn [bind]. rewrite X1. exact E1. }
  assert (R3 : ranking_evaluation PropSplit.exact_mul 20 e_model false e_test (with_users (Some 3) e_re) (fun _ => e_rng) PropSplit.turns t3 =
    EDone (table (e_metrics e_re) (e_k e_re) (evaluated_cases [Ok (Some c5); Ok (Some c6); Ok None]))).
  { unfold ranking_evaluation. change (e_users (with_users (Some 3) e_re)) with (Some 3). rewrite (test_users_first e_test (Some 3) D).
    change (re_check (with_users (Some 3) e_re)) with (Ok tt). cbn [bind]. rewrite X3. exact E3. }
  exists t, r, t1. eexists. exists t3. split; [exact E|]. split; [exact V1|]. split; [exact R1|]. split.
  - set (cs := evaluated_cases _). replace (10000 / 10000)%R with (round4 (average (metric_values HitRatio 1 cs))).
    + apply (table_value (e_metrics e_re) (e_k e_re) cs HitRatio 1 N1 N2); simpl; auto.
    + replace (average (metric_values HitRatio 1 cs)) with (10000 / 10000)%R; [apply round4_exact|].
      change (metric_values HitRatio 1 cs) with [Q2R 1]. unfold average, sum, Q2R. cbn. field.
  - rewrite R3. f_equal. eapply (C135_no_limit _ _ _ _ _ e_re _ _ _ _ _ _ _ 3); [exact D|rewrite L3; lia|exact E|exact R3].
Qed.
(** recommendation_evaluation with and without a limit *)
Definition f_args (n : option Z) : rc_args := mkRc n [1; 2] None "3" false None 10 2 true [Recall].
Example C135_recommendation_example : forall n, n = None \/ n = Some 1 \/ n = Some 3 ->
  with_rec_users n (f_args None) = f_args n /\ exists t r, recommendation_evaluation e_model e_test (f_args n) (fun _ => e_rng) PropSplit.turns t = EDone r.
Proof.
  intros n Hn. split; [reflexivity|]. assert (D := e_test_int).
  apply (C53_recommendation_returns_partial e_model e_test (f_args n) (fun _ => e_rng) PropSplit.turns (first_users n e_test)).
  - destruct Hn as [->|[->| ->]]; reflexivity.
  - apply test_users_first, D.
  - intros _ x Hx. destruct x as [c|]; [eauto|]. exfalso. revert Hx.
    set (xs := rec_cases _ _ _ _ _). assert (B : forallb (fun x => match x with Ok _ => true | Err _ => false end) xs = true)
      by (destruct Hn as [->|[->| ->]]; vm_compute; reflexivity).
    rewrite forallb_forall in B. intros Hx. discriminate (B _ Hx).
  - apply PropSplit.turns_fair.
Qed.
