(** Property C133: evaluations that ask for more metrics or k do not change the other values. *)
From Coq Require Import String Ascii.
From Coq Require Import List ZArith QArith Qcanon Reals Bool Lia Lra Permutation.
From Verif Require Import Py MemModel MemSpec Conc RankModel MetricModel SplitModel SampModel EvalModel EvalSpec EvalFacts EvalFacts5 AskSpec AskFacts PropEval.
From Verif Require PropSplit ViewSpec PropView.
Import ListNotations.
Open Scope string_scope.
Open Scope Z_scope.
Open Scope list_scope.

(** ranking_evaluation: a metric at k has the same value, whatever the other metrics
    and k, the number of threads and their interleaving *)
Theorem C133_ranking : forall fmul fuel md train_ev mt a a' rngs sched sched' t t' r r' m k,
  same_ranking a a' ->
  NoDup (map mc_name (e_metrics a)) -> NoDup (e_k a) -> NoDup (map mc_name (e_metrics a')) -> NoDup (e_k a') ->
  In m (e_metrics a) -> In k (e_k a) -> In m (e_metrics a') -> In k (e_k a') ->
  ranking_evaluation fmul fuel md train_ev mt a rngs sched t = EDone r ->
  ranking_evaluation fmul fuel md train_ev mt a' rngs sched' t' = EDone r' -> agree m k r r'.
Proof.
  intros fmul fuel md tr mt a a' rngs sched sched' t t' r r' m k S N1 N2 N3 N4 M1 K1 M2 K2 H1 H2.
  destruct (ranking_asked _ _ _ _ _ _ _ _ _ _ _ _ _ _ S H1 H2) as (cs & -> & ->). apply table_agree; auto.
Qed.
Print Assumptions C133_ranking.

(** recommendation_evaluation asks for max(k) recommendations, so other k may change
    them.  A metric at k that looks at the first k only has the same value. *)
Theorem C133_recommendation_partial : forall md mt a a' rngs sched sched' t t' r r' m k n n' us,
  cut_short md -> first_only m -> same_recommendation a a' -> max_list (r_k a) = Ok n -> max_list (r_k a') = Ok n' -> n' <= n ->
  NoDup (map mc_name (r_metrics a)) -> NoDup (r_k a) -> NoDup (map mc_name (r_metrics a')) -> NoDup (r_k a') ->
  In m (r_metrics a) -> In k (r_k a) -> In m (r_metrics a') -> In k (r_k a') ->
  test_users mt (r_users a) = Ok us -> (forall x, In x (rec_cases md mt a rngs us) -> exists c, x = Ok c) ->
  recommendation_evaluation md mt a rngs sched t = EDone r ->
  recommendation_evaluation md mt a' rngs sched' t' = EDone r' -> agree m k r r'.
Proof. exact recommendation_asked. Qed.
Print Assumptions C133_recommendation_partial.

(** predictive_evaluation: the values of a metric do not depend on the others *)
Theorem C133_predictive : forall md mt a a' r r' pm,
  pe_data mt -> blind md (p_skip a) mt -> predicts md (p_skip a) mt ->
  match p_n a with Some n => 0 < n | None => rows_of mt <> [] end ->
  p_n a' = p_n a -> p_skip a' = p_skip a -> p_count_none a' = p_count_none a ->
  NoDup (map pm_name (p_metrics a)) -> NoDup (map pm_name (p_metrics a')) -> In pm (p_metrics a) -> In pm (p_metrics a') ->
  predictive_evaluation md mt a = Ok r -> predictive_evaluation md mt a' = Ok r' ->
  exists v, In (pm_name pm, v) r /\ In (pm_name pm, v) r'.
Proof.
  intros md mt a a' r r' pm D B P Hn En Es Ec N N' I I' E E'.
  pose proof (proj1 (C49_predictive_evaluation md mt a D B P Hn N) r E) as F.
  assert (F' : Forall2 (fun m kv => fst kv = pm_name m /\ exists x, pm_call m
      (true_values (first_pairs (p_n a) (scored_pairs md (p_skip a) (p_count_none a) (rows_of mt))))
      (predictions (first_pairs (p_n a) (scored_pairs md (p_skip a) (p_count_none a) (rows_of mt)))) = Ok x /\ snd kv = round4 x) (p_metrics a') r').
  { rewrite <- En, <- Es, <- Ec. apply C49_predictive_evaluation; auto; rewrite ?Es, ?En; auto. }
  set (l := first_pairs _ _) in *. clearbody l.
  assert (X : forall ms r0, In pm ms -> Forall2 (fun m kv => fst kv = pm_name m /\ exists x, pm_call m (true_values l) (predictions l) = Ok x /\ snd kv = round4 x) ms r0 ->
    exists x, pm_call pm (true_values l) (predictions l) = Ok x /\ In (pm_name pm, round4 x) r0).
  { intros ms r0 H G. induction G as [|m [s v] ms r0 [Gs (x & Gx & Gv)] G IH]; [destruct H|]. cbn [fst snd] in *. subst s v.
    destruct H as [->|H]; [exists x; simpl; auto|]. destruct (IH H) as (y & Hy & Iy). exists y. simpl. auto. }
  destruct (X _ _ I F) as (x & Hx & J). destruct (X _ _ I' F') as (y & Hy & J'). assert (x = y) by congruence. subst. eauto.
Qed.
Print Assumptions C133_predictive.

(** all metrics of the library but NDCG *)
Theorem C133_metrics : Forall first_only [Precision; Recall; HitRatio; ReciprocalRank; AveragePrecision; DCG true; DCG false] /\
  forall beta, first_only (FScore beta).
Proof.
  split; [|exact fscore_first].
  repeat constructor; [apply precision_first|apply recall_first|apply hit_first|apply rr_first|apply ap_first|apply dcg_first|apply dcg_first].
Qed.
Print Assumptions C133_metrics.

(** all recommenders of the library *)
Lemma mapM_first {A B} (f : A -> res B) n : forall l r, mapM f l = Ok r -> mapM f (firstn n l) = Ok (firstn n r).
Proof.
  induction n as [|n IH]; intros l r E; [reflexivity|]. destruct l as [|x l]; [injection E as <-; reflexivity|]. cbn [mapM firstn] in *.
  destruct (f x) as [y|]; cbn [bind] in *; [|discriminate]. destruct (mapM f l) as [ys|] eqn:M; cbn [bind] in *; [|discriminate].
  injection E as <-. rewrite (IH l ys M). reflexivity.
Qed.
Theorem C133_recommenders : forall impl f m n_items, ViewSpec.of_library m n_items impl -> cut_short (recommender impl f m n_items).
Proof.
  intros impl f m ni H u n n' novelty low l L. cbn [recommender md_recommend].
  destruct (recommend impl true m ni u (Some n) novelty low) as [out|] eqn:E; cbn [bind]; [|discriminate]. intros N.
  assert (E' := PropView.C130_shorter m ni impl H true u (Some n) (Some n') novelty low out (proj2 L) E). cbn [ViewSpec.asked] in E'.
  rewrite E'. cbn [bind]. apply mapM_first. exact N.
Qed.
Print Assumptions C133_recommenders.

(** NDCG: the best order it compares with is that of all items recommended for any k.
    NDCG@1 is 1 with k=[1] and 0.8 with k=[1, 2]: the second recommendation is an item
    with a higher interaction. *)
Definition k_test : mem := e_mem [e_row 0 5 2 3; e_row 1 5 0 4; e_row 2 5 1 5].
Definition k_args (ks : list Z) : rc_args := mkRc None ks (Some 1) "3" false None 10 2 true [NDCG false; Precision].
Lemma k_test_int : int_data k_test. Proof. unfold k_test. e_rows. Qed.
Definition k_case (recs : list value) (rels : list (value * Q)) : res (option case) := Ok (Some (mkCase recs [VInt 2] (Some (VInt 2)) rels)).
Lemma e_model_cut : cut_short e_model.
Proof.
  intros u n n' novelty low l L. cbn [e_model md_recommend]. intros E. injection E as <-. rewrite firstn_firstn. do 2 f_equal. lia.
Qed.
Lemma k_cases : rec_cases e_model k_test (k_args [1]) (fun _ => e_rng) (first_users None k_test) = [k_case [VInt 0] [(VInt 2, 3%Q); (VInt 0, 4%Q)]] /\
  rec_cases e_model k_test (k_args [1; 2]) (fun _ => e_rng) (first_users None k_test) =
    [k_case [VInt 0; VInt 1] [(VInt 2, 3%Q); (VInt 0, 4%Q); (VInt 1, 5%Q)]].
Proof. split; vm_compute; reflexivity. Qed.
Lemma log2_2 : log2 (2 + INR 0) = 1%R.
Proof. unfold log2. cbn [INR]. rewrite Rplus_0_r. field. pose proof ln_lt_2. lra. Qed.
Lemma k_run ks xs : rc_check (k_args ks) = Ok tt -> NoDup ks -> In 1 ks ->
  rec_cases e_model k_test (k_args ks) (fun _ => e_rng) (first_users None k_test) = xs -> (forall x, In x xs -> exists c, x = Ok c) ->
  exists t r, recommendation_evaluation e_model k_test (k_args ks) (fun _ => e_rng) PropSplit.turns t = EDone r /\
    In (("NDCG", 1), round4 (average (metric_values (NDCG false) 1 (evaluated_cases xs)))) r.
Proof.
  intros C N K E A.
  destruct (C53_recommendation_returns_partial e_model k_test (k_args ks) (fun _ => e_rng) PropSplit.turns (first_users None k_test) C
    (test_users_first k_test None k_test_int)) as (t & r & H).
  - intros _ x Hx. rewrite E in Hx. auto.
  - apply PropSplit.turns_fair.
  - exists t, r. split; auto. unfold recommendation_evaluation in H. rewrite C in H. cbn [bind] in H.
    change (r_users (k_args ks)) with (@None Z) in H. rewrite (test_users_first k_test None k_test_int) in H. rewrite E in H.
    apply run_table in H; [|apply rec_task_sums]. subst r. apply (table_value _ _ _ (NDCG false)); auto; [|simpl; auto].
    repeat constructor; simpl; intuition discriminate.
Qed.
Theorem C133_ndcg_refuted : exists md mt a a' rngs sched t t' r r',
  cut_short md /\ same_recommendation a a' /\ In (NDCG false) (r_metrics a) /\ In (NDCG false) (r_metrics a') /\ In 1 (r_k a) /\ In 1 (r_k a') /\
  recommendation_evaluation md mt a rngs sched t = EDone r /\ recommendation_evaluation md mt a' rngs sched t' = EDone r' /\
  In (("NDCG", 1), (8000 / 10000)%R) r /\ In (("NDCG", 1), (10000 / 10000)%R) r'.
Proof.
  destruct k_cases as [C1 C2].
  destruct (k_run [1; 2] _ eq_refl ltac:(repeat constructor; simpl; intuition discriminate) ltac:(simpl; auto) C2) as (t & r & H & V).
  { intros x [<-|[]]. eexists. reflexivity. }
  destruct (k_run [1] _ eq_refl ltac:(repeat constructor; simpl; intuition discriminate) ltac:(simpl; auto) C1) as (t' & r' & H' & V').
  { intros x [<-|[]]. eexists. reflexivity. }
  exists e_model, k_test, (k_args [1; 2]), (k_args [1]), (fun _ => e_rng), PropSplit.turns, t, t', r, r'.
  split; [exact e_model_cut|]. split; [repeat split|]. do 4 (split; [simpl; auto|]). split; auto. split; auto.
  assert (X : forall recs rels x y, recs <> [] -> dcg_from false rels 0 (firstn 1 recs) = Ok x -> dcg_from false rels 0 (firstn 1 (best_order rels)) = Ok y -> y <> 0%R ->
    average (metric_values (NDCG false) 1 (evaluated_cases [k_case recs rels])) = (x / y)%R).
  { intros recs rels x y _ Ex Ey Ny. unfold evaluated_cases, k_case, metric_values. cbn [flat_map app NDCG mc_call c_recs c_rels].
    unfold ndcg, dcg, py_trunc, py_take. cbn [Z.leb Z.compare]. change (Z.to_nat 1) with 1%nat. rewrite Ex, Ey. cbn [bind].
    destruct (Req_EM_T y 0); [contradiction|]. cbn [app]. unfold average, EvalSpec.sum. cbn. field. auto. }
  split.
  - erewrite X in V; [| |reflexivity|reflexivity|].
    + match type of V with In (_, round4 ?v) _ => replace v with (8000 / 10000)%R in V; [rewrite round4_exact in V; exact V|] end.
      unfold gain. rewrite log2_2. unfold Q2R. cbn. field.
    + discriminate.
    + unfold gain. rewrite log2_2. unfold Q2R. cbn. lra.
  - erewrite X in V'; [| |reflexivity|reflexivity|].
    + match type of V' with In (_, round4 ?v) _ => replace v with (10000 / 10000)%R in V'; [rewrite round4_exact in V'; exact V'|] end.
      unfold gain. rewrite log2_2. unfold Q2R. cbn. field.
    + discriminate.
    + unfold gain. rewrite log2_2. unfold Q2R. cbn. lra.
Qed.
Print Assumptions C133_ndcg_refuted.

(** the evaluation of C50_example, and one with another metric and k *)
Example C133_example : exists a a', same_ranking a a' /\ e_k a = [1; 2] /\ e_k a' = [2; 7] /\
  map mc_name (e_metrics a) = ["Precision"; "HitRatio"; "ReciprocalRank"] /\ map mc_name (e_metrics a') = ["DCG"; "HitRatio"] /\
  NoDup (e_k a') /\ NoDup (map mc_name (e_metrics a')) /\
  exists t r t' r', ranking_evaluation PropSplit.exact_mul 20 e_model false e_test a (fun _ => e_rng) PropSplit.turns t = EDone r /\
    ranking_evaluation PropSplit.exact_mul 20 e_model false e_test a' (fun _ => e_rng) PropSplit.turns t' = EDone r' /\
    In (("HitRatio", 2), (10000 / 10000)%R) r /\ In (("HitRatio", 2), (10000 / 10000)%R) r'.
Proof.
  exists e_re, (mkRe None [2; 7] (Some 1) (Some (NInt 2)) true "3" false 10 2 false [DCG true; HitRatio]). set (a' := mkRe _ _ _ _ _ _ _ _ _ _ _).
  assert (N1 : NoDup (e_k a')) by (repeat constructor; simpl; intuition discriminate).
  assert (N2 : NoDup (map mc_name (e_metrics a'))) by (repeat constructor; simpl; intuition discriminate).
  split; [repeat split|]. do 4 (split; [reflexivity|]). split; auto. split; auto.
  destruct C50_example as (t & r & E & _ & V & _).
  assert (X : exists t' r', ranking_evaluation PropSplit.exact_mul 20 e_model false e_test a' (fun _ => e_rng) PropSplit.turns t' = EDone r').
  { destruct (rank_cases PropSplit.exact_mul 20 e_model false e_test a' (fun _ => e_rng) (first_users None e_test)) as [xs|] eqn:C; [|vm_compute in C; discriminate].
    destruct (run_returns (e_metrics a') (e_k a') (rank_task (e_metrics a') (e_k a')) (rank_task_sums _ _) 2 false xs
      PropSplit.turns ltac:(discriminate) (PropSplit.turns_fair) ltac:(intros; apply rank_task_done)) as [t' E'].
    exists t'. eexists. unfold ranking_evaluation. rewrite (test_users_first e_test (e_users a') e_test_int). change (re_check a') with (Ok tt). cbn [bind].
    change (first_users (e_users a') e_test) with (first_users None e_test). rewrite C. exact E'. }
  destruct X as (t' & r' & E'). exists t, r, t', r'. split; auto. split; auto. split; auto.
  destruct e_re_ok as (_ & _ & _ & _ & _ & _ & _ & M1 & M2).
  destruct (C133_ranking _ _ _ _ _ e_re a' _ _ _ _ _ _ _ HitRatio 2 ltac:(repeat split) M1 M2 N2 N1
    ltac:(simpl; auto) ltac:(simpl; auto) ltac:(simpl; auto) ltac:(simpl; auto) E E') as (v & A & B).
  apply A in V. subst v. apply B. reflexivity.
Qed.
(** Precision@1 with k=[1, 2] and with k=[1] *)
Example C133_recommendation_example : cut_short e_model /\ first_only Precision /\ same_recommendation (k_args [1; 2]) (k_args [1]) /\
  max_list (r_k (k_args [1; 2])) = Ok 2 /\ max_list (r_k (k_args [1])) = Ok 1 /\ test_users k_test (r_users (k_args [1; 2])) = Ok (first_users None k_test) /\
  (forall x, In x (rec_cases e_model k_test (k_args [1; 2]) (fun _ => e_rng) (first_users None k_test)) -> exists c, x = Ok c).
Proof.
  split; [exact e_model_cut|]. split; [exact precision_first|]. split; [repeat split|]. do 2 (split; [reflexivity|]).
  split; [exact (test_users_first k_test None k_test_int)|]. destruct k_cases as [_ ->]. intros x [<-|[]]. eexists. reflexivity.
Qed.
