(** Property C134: results of the evaluation processes at different k. *)
From Coq Require Import String Ascii.
From Coq Require Import List ZArith QArith Qcanon Reals Bool Lia Lra Permutation.
From Verif Require Import Py MemModel MemSpec Conc RankModel MetricModel SplitModel SampModel EvalModel EvalSpec EvalFacts EvalFacts5 GrowSpec GrowFacts GrowFacts2 PropEval.
From Verif Require PropSplit AskFacts MetricFacts4.
Import ListNotations.
Open Scope string_scope.
Open Scope Z_scope.
Open Scope list_scope.

Theorem C134_ranking : forall fmul fuel md train_ev mt a rngs sched t r m k k',
  ranking_evaluation fmul fuel md train_ev mt a rngs sched t = EDone r ->
  NoDup (map mc_name (e_metrics a)) -> NoDup (e_k a) -> In m (e_metrics a) -> grows m ->
  In k (e_k a) -> In k' (e_k a) -> k <= k' -> grown m k k' r.
Proof.
  intros fmul fuel md tr mt a rngs sched t r m k k' H N1 N2 M G K K' L.
  destruct (ranking_table _ _ _ _ _ _ _ _ _ _ H) as (C & cs & ->). apply table_grow; auto. split; auto. apply (re_positive a C k K).
Qed.
Print Assumptions C134_ranking.
Theorem C134_recommendation : forall md mt a rngs sched t r m k k',
  recommendation_evaluation md mt a rngs sched t = EDone r ->
  NoDup (map mc_name (r_metrics a)) -> NoDup (r_k a) -> In m (r_metrics a) -> grows m ->
  In k (r_k a) -> In k' (r_k a) -> k <= k' -> grown m k k' r.
Proof.
  intros md mt a rngs sched t r m k k' H N1 N2 M G K K' L.
  destruct (recommendation_table _ _ _ _ _ _ _ H) as (C & cs & ->). apply table_grow; auto. split; auto. apply (AskFacts.rc_positive a C k K).
Qed.
Print Assumptions C134_recommendation.

(** which metrics these are *)
Theorem C134_metrics : Forall grows [HitRatio; Recall; ReciprocalRank].
Proof. repeat constructor; [exact hit_grows|exact recall_grows|exact rr_grows]. Qed.
Print Assumptions C134_metrics.

(** DCG too, if no interaction of the test data is negative and, in ranking_evaluation,
    rank returns only items it was asked for *)
Theorem C134_recommendation_dcg : forall md mt a t rngs sched t0 r s k k',
  int_data mt -> threshold_ok t -> r_thr a = lit_text t -> (forall s, rng_ok (rngs s)) -> int_recs md ->
  (forall x, In x (rows_of mt) -> (0 <= interaction_of x)%Qc) ->
  recommendation_evaluation md mt a rngs sched t0 = EDone r ->
  NoDup (map mc_name (r_metrics a)) -> NoDup (r_k a) -> In (DCG s) (r_metrics a) -> In k (r_k a) -> In k' (r_k a) -> k <= k' ->
  grown (DCG s) k k' r.
Proof. exact recommendation_dcg. Qed.
Print Assumptions C134_recommendation_dcg.
Theorem C134_ranking_dcg : forall fmul md train_ev mt a t rngs fuel sched t0 r s k k',
  int_data mt -> (e_gen a = true -> train_ev = false -> int_data (md_ds md)) -> threshold_ok t -> e_thr a = lit_text t ->
  (forall s, rng_ok (rngs s)) -> mul_nonneg fmul -> Z.of_nat (md_items md) <= 2 ^ 53 ->
  (forall x, In x (rows_of mt) -> (0 <= interaction_of x)%Qc) ->
  (forall u items novelty recs, md_rank md u items novelty = Ok recs -> incl recs items) ->
  ranking_evaluation fmul fuel md train_ev mt a rngs sched t0 = EDone r ->
  NoDup (map mc_name (e_metrics a)) -> NoDup (e_k a) -> In (DCG s) (e_metrics a) -> In k (e_k a) -> In k' (e_k a) -> k <= k' ->
  grown (DCG s) k k' r.
Proof. exact ranking_dcg. Qed.
Print Assumptions C134_ranking_dcg.
(** with a negative relevancy DCG can fall *)
Theorem C134_dcg_negative_refuted : exists c k k' x y, 0 < k <= k' /\
  mc_call (DCG false) c k = Ok x /\ mc_call (DCG false) c k' = Ok y /\ (y < x)%R.
Proof.
  exists (mkCase [VInt 1; VInt 2] [VInt 1] (Some (VInt 1)) [(VInt 1, 1%Q); (VInt 2, (-1 # 1)%Q)]), 1, 2. do 2 eexists.
  split; [lia|]. split; [reflexivity|]. split; [reflexivity|]. unfold gain.
  pose proof (MetricFacts4.log2_pos 1) as P. apply Rinv_0_lt_compat in P. unfold Q2R, Rdiv in *. cbn [Qnum Qden] in *.
  assert (H : (-1 * / 1 * / log2 (2 + INR 1) < 0)%R) by lra. lra.
Qed.
Print Assumptions C134_dcg_negative_refuted.

(** others fall: Precision and AveragePrecision with the next recommendation that is
    not relevant *)
Definition g_case : case := mkCase [VInt 1; VInt 2] [VInt 1; VInt 3] (Some (VInt 1)) [].
Theorem C134_precision_refuted : exists c k k' x y x' y', 0 < k <= k' /\
  mc_call Precision c k = Ok x /\ mc_call Precision c k' = Ok y /\ (y < x)%R /\
  mc_call AveragePrecision c k = Ok x' /\ mc_call AveragePrecision c k' = Ok y' /\ (y' < x')%R.
Proof.
  exists g_case, 1, 2. do 4 eexists. split; [lia|]. split; [vm_compute; reflexivity|]. split; [vm_compute; reflexivity|].
  split; [unfold Q2R; cbn; lra|]. split; [vm_compute; reflexivity|]. split; [vm_compute; reflexivity|]. unfold Q2R; cbn; lra.
Qed.
Print Assumptions C134_precision_refuted.

(** the evaluation of C50_example: HitRatio 0.5 at 1 and 1 at 2 *)
Example C134_example : exists t r,
  ranking_evaluation PropSplit.exact_mul 20 e_model false e_test e_re (fun _ => e_rng) PropSplit.turns t = EDone r /\
  In HitRatio (e_metrics e_re) /\ grows HitRatio /\ grown HitRatio 1 2 r /\ In (("HitRatio", 1), (5000 / 10000)%R) r /\ In (("HitRatio", 2), (10000 / 10000)%R) r.
Proof.
  destruct C50_example as (t & r & E & V1 & V2 & _). exists t, r. split; auto. split; [simpl; auto|]. split; [exact hit_grows|]. split; auto.
  destruct e_re_ok as (_ & _ & _ & _ & _ & _ & _ & M1 & M2).
  eapply (C134_ranking _ _ _ _ _ e_re); eauto; [simpl; auto|exact hit_grows|simpl; auto|simpl; auto|lia].
Qed.
(** test data of C50; 0 is recommended first and liked by nobody, then 1 *)
Definition g_args : rc_args := mkRc None [1; 2] None "3" false None 10 2 true [DCG false].
Example C134_dcg_example : int_data e_test /\ threshold_ok (LInt 3) /\ r_thr g_args = lit_text (LInt 3) /\ rng_ok e_rng /\ int_recs e_model /\
  (forall x, In x (rows_of e_test) -> (0 <= interaction_of x)%Qc) /\
  exists t r, recommendation_evaluation e_model e_test g_args (fun _ => e_rng) PropSplit.turns t = EDone r /\ grown (DCG false) 1 2 r.
Proof.
  assert (D := e_test_int). assert (I := proj1 C50_recommendation_example).
  assert (P : forall x, In x (rows_of e_test) -> (0 <= interaction_of x)%Qc).
  { intros x H. cbn in H. repeat (destruct H as [<-|H]; [vm_compute; discriminate|]). destruct H. }
  split; auto. split; [apply lit3_ok|]. split; [reflexivity|]. split; [apply e_rng_ok|]. split; auto. split; auto.
  destruct (C53_recommendation_returns_partial e_model e_test g_args (fun _ => e_rng) PropSplit.turns (first_users None e_test) eq_refl
    (test_users_first e_test None D)) as (t & r & H).
  - intros _ x Hx. destruct x as [c|]; [eauto|]. exfalso. revert Hx.
    set (xs := rec_cases _ _ _ _ _). assert (B : forallb (fun x => match x with Ok _ => true | Err _ => false end) xs = true) by (vm_compute; reflexivity).
    rewrite forallb_forall in B. intros Hx. discriminate (B _ Hx).
  - apply PropSplit.turns_fair.
  - exists t, r. split; auto. apply (C134_recommendation_dcg e_model e_test g_args (LInt 3) (fun _ => e_rng) PropSplit.turns t r false 1 2 D lit3_ok eq_refl (fun _ => e_rng_ok) I P H);
      try (simpl; auto; fail); try lia; repeat constructor; simpl; intuition discriminate.
Qed.
