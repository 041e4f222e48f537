(** Properties C49 to C53 and C69 to C71: the evaluation processes. *)
From Coq Require Import String Ascii.
From Coq Require Import List ZArith QArith Qcanon Reals Bool Lia Lra Permutation.
From Verif Require Import Py PyFacts MemModel MemSpec MemFacts3 Conc ConcFacts RankModel RankSpec MetricModel SplitModel SampModel.
From Verif Require Import EvalModel EvalSpec EvalFacts EvalFacts2 EvalFacts3 EvalFacts4 EvalFacts5.
From Verif Require PropSplit.
Import ListNotations.
Open Scope string_scope.
Open Scope Z_scope.

(** *** The data sets of the examples *)
Definition e_row (rid u i x : Z) : row := mkRow rid [("user", VInt u); ("item", VInt i); ("interaction", VInt x)].
Definition e_mem (rows : list row) : mem := mem_of_frame (mkFrame [("user", DInt); ("item", DInt); ("interaction", DInt)] rows).
Lemma e_int rows : NoDup (map r_rid rows) ->
  (forall r, In r rows -> exists rid u i x, r = e_row rid u i x /\ Z.abs u <= 2 ^ 53 /\ Z.abs i <= 2 ^ 53 /\ Z.abs x <= 2 ^ 53) ->
  int_data (e_mem rows).
Proof.
  intros N H. constructor.
  - constructor.
    + constructor.
      * simpl. repeat constructor; simpl; intuition discriminate.
      * simpl. intuition discriminate.
      * simpl. intros r Hr. destruct (H r Hr) as (rid & u & i & x & -> & _). reflexivity.
      * simpl. intros r c ty Hr Hc. destruct (H r Hr) as (rid & u & i & x & -> & _). simpl in Hc.
        intuition; match goal with E : (_, _) = (_, _) |- _ => injection E as <- <- end; eexists; split; reflexivity.
    + simpl. repeat constructor; simpl; intuition discriminate.
    + simpl. intros c. intuition.
  - intros c t Hc E. simpl in Hc. destruct Hc as [<-|[<-|[]]]; discriminate.
  - simpl. intros c Hc. intuition.
  - reflexivity.
  - reflexivity.
  - exists DInt. split; [reflexivity|discriminate].
  - intros c Hc r z Hr E. destruct (H r Hr) as (rid & u & i & x & -> & Hu & Hi & Hx). simpl in Hc.
    destruct Hc as [<-|[<-|[<-|[]]]]; unfold cell in E; simpl in E; injection E as <-; auto.
Qed.
Ltac e_rows := apply e_int; [simpl; repeat constructor; simpl; intuition discriminate |
  intros r Hr; simpl in Hr; intuition; subst; do 4 eexists; (split; [reflexivity|]); repeat split; vm_compute; discriminate].

(** training data: users 5, 6, 7; items 0 to 5 *)
Definition e_train : mem := e_mem [e_row 0 5 0 5; e_row 1 5 3 1; e_row 2 6 1 4; e_row 3 6 2 2; e_row 4 7 4 3; e_row 5 7 5 5].
(** test data: users 5 and 6, and 7 without a liked item *)
Definition e_test : mem := e_mem [e_row 0 5 1 5; e_row 1 5 4 4; e_row 2 6 3 5; e_row 3 6 5 1; e_row 4 7 0 1].
Lemma e_train_int : int_data e_train. Proof. e_rows. Qed.
Lemma e_test_int : int_data e_test. Proof. e_rows. Qed.

(** a model that ranks the items in ascending order and recommends 0, 1, ... *)
Definition e_model : model := mkModel e_train 6
  (fun _ items _ => Ok (sort_by (fun a b => match val_ltb b a with Some true => false | _ => true end) items))
  (fun _ n _ _ => Ok (firstn (Z.to_nat n) (map VInt [0; 1; 2; 3; 4; 5])))
  (fun u i _ => match i with VInt z => Ok (if z =? 4 then None else Some (Qc_of_Z z)) | VFlt _ => Ok None | VStr _ => Err ValueError end).
(** a generator that takes the first elements and counts up *)
Definition e_rng : rng := mkRng (fun _ k => seq 0 k) (fun _ k => seq 0 k) (fun k => k) (fun n => seq 0 n).
Lemma e_rng_ok : rng_ok e_rng.
Proof.
  constructor; intros; cbn [e_rng rg_pos rg_neg rg_shuffle]; [| |apply Permutation_refl];
    (split; [apply seq_length|]; split; [apply seq_NoDup|]; intros p Hp; apply in_seq in Hp; lia).
Qed.
Lemma e_rng_draws : draws_all e_rng.
Proof.
  intros n k z Hn Hz. cbn [e_rng rg_draw]. exists (Z.to_nat (z + n * Z.of_nat k)). split; [nia|].
  rewrite Z2Nat.id by nia. rewrite Z.mul_comm, Z.mod_add by lia. apply Z.mod_small. lia.
Qed.
Lemma lit3_ok : threshold_ok (LInt 3).
Proof. exists DInt. split; [discriminate|]. apply lo_int; [simpl; intuition discriminate|discriminate|vm_compute; discriminate]. Qed.
Lemma exact_nonneg : mul_nonneg PropSplit.exact_mul.
Proof.
  intros n q Hn Hq. unfold PropSplit.exact_mul, Qcle. change (0 <= Qred (this (Qc_of_Z n) * this q))%Q.
  rewrite Qred_correct, num_Z. apply Qmult_le_0_compat; [rewrite Zle_Qle in Hn; exact Hn|]. apply Qlt_le_weak. exact Hq.
Qed.

(** *** C49: predictive_evaluation *)
Theorem C49_predictive_evaluation : forall md mt a,
  pe_data mt -> blind md (p_skip a) mt -> predicts md (p_skip a) mt ->
  match p_n a with Some n => 0 < n | None => rows_of mt <> [] end ->
  NoDup (map pm_name (p_metrics a)) ->
  let l := first_pairs (p_n a) (scored_pairs md (p_skip a) (p_count_none a) (rows_of mt)) in
  (forall r, predictive_evaluation md mt a = Ok r ->
     Forall2 (fun m kv => fst kv = pm_name m /\ exists x, pm_call m (true_values l) (predictions l) = Ok x /\ snd kv = round4 x) (p_metrics a) r) /\
  ((forall m, In m (p_metrics a) -> exists x, pm_call m (true_values l) (predictions l) = Ok x) ->
     exists r, predictive_evaluation md mt a = Ok r).
Proof. intros md mt a D B P Hn N. exact (predictive_ok md mt a D B P Hn N). Qed.
Print Assumptions C49_predictive_evaluation.

(** recommenders meet the hypotheses with skip_errors=True (the default) if ids are
    of the same kind in training and test data *)
Theorem C49_recommenders : forall impl f m n mt,
  wf_mem mt -> In "user" (m_columns mt) -> In "item" (m_columns mt) -> id_match m mt "user" -> id_match m mt "item" ->
  blind (recommender impl f m n) true mt /\ predicts (recommender impl f m n) true mt.
Proof. intros. split; [apply recommender_blind|apply recommender_predicts]; auto. Qed.
Print Assumptions C49_recommenders.

(** rounding to four decimals *)
Theorem C49_rounding : forall x, (Rabs (round4 x - x) <= 1 / 20000)%R /\ forall z, round4 (IZR z / 10000) = (IZR z / 10000)%R.
Proof. intros x. split; [apply round4_close|apply round4_exact]. Qed.
Print Assumptions C49_rounding.

(** the first three predictable rows of the test data; no prediction for item 4 *)
Definition e_recommender : model :=
  recommender (rank_abc (fun _ _ => Ok None) e_train)
    (fun u i => match u, i with Some _, Some 4 => Ok None | Some u, Some i => Ok (Some (Qc_of_Z (u + i))) | _, _ => Ok None end) (assigned e_train) 6.
Definition e_pe : pe_args := mkPe false (Some 3) true [mkPM "RMSE" rmse; mkPM "MSE" mse].
Example C49_example :
  pe_data e_test /\ blind e_recommender true e_test /\ predicts e_recommender true e_test /\
  map (fun p => (this (fst p), this (snd p))) (first_pairs (Some 3) (scored_pairs e_recommender true false (rows_of e_test))) =
    [(2 # 1, 5 # 1); (2 # 1, 5 # 1); (6 # 1, 1 # 1)]%Q /\
  exists r, predictive_evaluation e_recommender e_test e_pe = Ok r /\ map fst r = ["RMSE"; "MSE"].
Proof.
  assert (D : pe_data e_test).
  { destruct e_test_int. constructor; auto. }
  assert (W := in_wf _ e_test_int).
  assert (H : blind e_recommender true e_test /\ predicts e_recommender true e_test).
  { apply C49_recommenders; auto; try (apply (in_cols _ e_test_int); simpl; auto); right; split; reflexivity. }
  destruct H as [B P]. split; auto. split; auto. split; auto. split; [vm_compute; reflexivity|].
  destruct (C49_predictive_evaluation e_recommender e_test e_pe D B P) as [F X].
  - reflexivity.
  - repeat constructor; simpl; intuition discriminate.
  - set (l := first_pairs _ _) in *. assert (L : length l = 3%nat) by (vm_compute; reflexivity).
    destruct X as [r E].
    + intros m Hm. unfold rmse, mse, checked, true_values, predictions in *.
      assert (C : length (map (fun p => R_of (snd p)) l) = length (map (fun p => R_of (fst p)) l)) by (rewrite !map_length; reflexivity).
      destruct l as [|p l']; [discriminate|].
      simpl in Hm. destruct Hm as [<-|[<-|[]]]; cbn [pm_call]; unfold rmse, mse, checked; rewrite C, Nat.eqb_refl; cbn; eauto.
    + exists r. split; auto. apply F in E. inversion E as [|? ? ? ? [E1 _] E2]; subst. inversion E2 as [|? ? ? ? [E3 _] E4]; subst. inversion E4; subst.
      cbn [map]. rewrite E1, E3. reflexivity.
Qed.

(** *** C50: the averages *)
(** [r] holds, for each metric and k, the average over the evaluated users for which
    the metric has a value *)
Definition averages (ms : list metric) (ks : list Z) (cs : list case) (r : list (mkey * R)) : Prop :=
  (forall m k, In m ms -> In k ks -> In ((mc_name m, k), round4 (average (metric_values m k cs))) r) /\
  (forall x v, In (x, v) r -> exists m, In m ms /\ fst x = mc_name m /\ In (snd x) ks) /\
  NoDup (map fst r).
Lemma table_averages ms ks cs : NoDup (map mc_name ms) -> NoDup ks -> averages ms ks cs (table ms ks cs).
Proof.
  intros N1 N2. split; [|split].
  - intros. apply table_value; auto.
  - intros x v. apply table_keys.
  - apply table_nodup.
Qed.

Theorem C50_ranking_averages : forall fmul md train_ev mt a t rngs,
  int_data mt -> (e_gen a = true -> train_ev = false -> int_data (md_ds md)) -> threshold_ok t -> e_thr a = lit_text t ->
  (forall s, rng_ok (rngs s)) -> mul_nonneg fmul -> Z.of_nat (md_items md) <= 2 ^ 53 ->
  NoDup (map mc_name (e_metrics a)) -> NoDup (e_k a) ->
  forall fuel sched t0 r, ranking_evaluation fmul fuel md train_ev mt a rngs sched t0 = EDone r ->
  exists cs, Forall2 (user_outcome fmul md train_ev mt a t) (first_users (e_users a) mt) cs /\
    averages (e_metrics a) (e_k a) (evaluated_cases cs) r.
Proof.
  intros fmul md train_ev mt a t rngs D Dtr T ET Hg Hf Hn N1 N2 fuel sched t0 r H.
  destruct (ranking_result fmul md train_ev mt a t rngs D Dtr T ET Hg Hf Hn fuel sched t0 r H) as (cs & F & _ & ->).
  exists cs. split; auto. apply table_averages; auto.
Qed.
Print Assumptions C50_ranking_averages.

Theorem C50_recommendation_averages : forall md mt a t rngs,
  int_data mt -> threshold_ok t -> r_thr a = lit_text t -> (forall s, rng_ok (rngs s)) -> int_recs md ->
  NoDup (map mc_name (r_metrics a)) -> NoDup (r_k a) ->
  forall sched t0 r, recommendation_evaluation md mt a rngs sched t0 = EDone r ->
  exists cs, Forall2 (rec_outcome md mt a t) (first_users (r_users a) mt) cs /\
    averages (r_metrics a) (r_k a) (evaluated_cases cs) r.
Proof.
  intros md mt a t rngs D T ET Hg Hi N1 N2 sched t0 r H.
  destruct (recommendation_result md mt a rngs t D T ET Hg Hi sched t0 r H) as (cs & F & ->).
  exists cs. split; auto. apply table_averages; auto.
Qed.
Print Assumptions C50_recommendation_averages.

(** trained recommenders return ids the process can look up *)
Theorem C50_recommender_ids : forall m0 m tu impl f n,
  trained_on m0 m tu DInt -> small_col m0 "item" -> int_recs (recommender impl f m n).
Proof. exact recommender_int_recs. Qed.
Print Assumptions C50_recommender_ids.

(** values between 0 and 1 if those of the metrics are, whatever the data *)
Theorem C50_values_in_unit :
  (forall fmul fuel md train_ev mt a rngs sched t r,
    (forall m c k v, In m (e_metrics a) -> In k (e_k a) -> mc_call m c k = Ok v -> (0 <= v <= 1)%R) ->
    ranking_evaluation fmul fuel md train_ev mt a rngs sched t = EDone r -> forall x v, In (x, v) r -> (0 <= v <= 1)%R) /\
  (forall md mt a rngs sched t r,
    (forall m c k v, In m (r_metrics a) -> In k (r_k a) -> mc_call m c k = Ok v -> (0 <= v <= 1)%R) ->
    recommendation_evaluation md mt a rngs sched t = EDone r -> forall x v, In (x, v) r -> (0 <= v <= 1)%R).
Proof.
  split.
  - intros fmul fuel md train_ev mt a rngs sched t r U. unfold ranking_evaluation.
    match goal with |- match ?ee with _ => _ end = _ -> _ => destruct ee as [us|] end; [|discriminate].
    destruct (rank_cases _ _ _ _ _ _ _ _) as [cs|]; [|discriminate].
    intros H. apply run_table in H; [|apply rank_task_sums]. subst r. apply table_unit. eauto.
  - intros md mt a rngs sched t r U. unfold recommendation_evaluation.
    match goal with |- match ?ee with _ => _ end = _ -> _ => destruct ee as [us|] end; [|discriminate].
    intros H. apply run_table in H; [|apply rec_task_sums]. subst r. apply table_unit. eauto.
Qed.
Print Assumptions C50_values_in_unit.

(** the result depends neither on the schedule nor on max_concurrent_threads and verbose *)
Theorem C50_schedule_independent : forall fmul fuel md train_ev mt a rngs threads verbose sched sched' t t' r r',
  ranking_evaluation fmul fuel md train_ev mt a rngs sched t = EDone r ->
  ranking_evaluation fmul fuel md train_ev mt
    (mkRe (e_users a) (e_k a) (e_npos a) (e_nneg a) (e_gen a) (e_thr a) (e_novelty a) (e_seed a) threads verbose (e_metrics a))
    rngs sched' t' = EDone r' -> r = r'.
Proof. exact ranking_deterministic. Qed.
Print Assumptions C50_schedule_independent.

Definition e_re : re_args :=
  mkRe None [1; 2] (Some 1) (Some (NInt 2)) true "3" false 10 2 true [Precision; HitRatio; ReciprocalRank].
Lemma e_re_ok : int_data e_test /\ (e_gen e_re = true -> false = false -> int_data (md_ds e_model)) /\ threshold_ok (LInt 3) /\
  e_thr e_re = lit_text (LInt 3) /\ (forall s : Z, rng_ok e_rng) /\ mul_nonneg PropSplit.exact_mul /\ Z.of_nat (md_items e_model) <= 2 ^ 53 /\
  NoDup (map mc_name (e_metrics e_re)) /\ NoDup (e_k e_re).
Proof.
  split; [apply e_test_int|]. split; [intros; apply e_train_int|]. split; [apply lit3_ok|]. split; [reflexivity|].
  split; [intros; apply e_rng_ok|]. split; [apply exact_nonneg|]. split; [vm_compute; discriminate|].
  split; repeat constructor; simpl; intuition discriminate.
Qed.
(** users 5 and 6 are ranked, 7 is skipped: the liked item is first for user 5 and
    second for user 6 *)
Example C50_example : exists t0 r, ranking_evaluation PropSplit.exact_mul 20 e_model false e_test e_re (fun _ => e_rng) PropSplit.turns t0 = EDone r /\
  In (("HitRatio", 1), (5000 / 10000)%R) r /\ In (("HitRatio", 2), (10000 / 10000)%R) r /\ In (("ReciprocalRank", 2), (7500 / 10000)%R) r.
Proof.
  destruct e_re_ok as (D & Dtr & T & ET & Hg & Hf & Hn & N1 & N2).
  assert (C : rank_cases PropSplit.exact_mul 20 e_model false e_test e_re (fun _ => e_rng) (first_users None e_test) =
    Some [Ok (Some (mkCase [VInt 1; VInt 2; VInt 3] [VInt 1] (Some (VInt 1)) [(VInt 1, 5%Q); (VInt 2, 0%Q); (VInt 3, 0%Q)]));
          Ok (Some (mkCase [VInt 0; VInt 3; VInt 5] [VInt 3] (Some (VInt 3)) [(VInt 3, 5%Q); (VInt 5, 1%Q); (VInt 0, 0%Q)])); Ok None]) by (vm_compute; reflexivity).
  destruct (run_returns (e_metrics e_re) (e_k e_re) (rank_task (e_metrics e_re) (e_k e_re)) (rank_task_sums _ _) 2 true
    [Ok (Some (mkCase [VInt 1; VInt 2; VInt 3] [VInt 1] (Some (VInt 1)) [(VInt 1, 5%Q); (VInt 2, 0%Q); (VInt 3, 0%Q)]));
     Ok (Some (mkCase [VInt 0; VInt 3; VInt 5] [VInt 3] (Some (VInt 3)) [(VInt 3, 5%Q); (VInt 5, 1%Q); (VInt 0, 0%Q)])); Ok None]
    PropSplit.turns ltac:(discriminate) PropSplit.turns_fair ltac:(intros; apply rank_task_done)) as [t0 E].
  exists t0. eexists. split; [|split; [|split]].
  - unfold ranking_evaluation. rewrite (test_users_first e_test (e_users e_re) D). change (re_check e_re) with (Ok tt). cbn [bind].
    change (first_users (e_users e_re) e_test) with (first_users None e_test). rewrite C. exact E.
  - set (cs := evaluated_cases _). replace (5000 / 10000)%R with (round4 (average (metric_values HitRatio 1 cs))).
    + apply (table_value (e_metrics e_re) (e_k e_re) cs HitRatio 1 N1 N2); simpl; auto.
    + replace (average (metric_values HitRatio 1 cs)) with (5000 / 10000)%R; [apply round4_exact|].
      change (metric_values HitRatio 1 cs) with [Q2R 1; Q2R 0]. unfold average, sum, Q2R. cbn. field.
  - set (cs := evaluated_cases _). replace (10000 / 10000)%R with (round4 (average (metric_values HitRatio 2 cs))).
    + apply (table_value (e_metrics e_re) (e_k e_re) cs HitRatio 2 N1 N2); simpl; auto.
    + replace (average (metric_values HitRatio 2 cs)) with (10000 / 10000)%R; [apply round4_exact|].
      change (metric_values HitRatio 2 cs) with [Q2R 1; Q2R 1]. unfold average, sum, Q2R. cbn. field.
  - set (cs := evaluated_cases _). replace (7500 / 10000)%R with (round4 (average (metric_values ReciprocalRank 2 cs))).
    + apply (table_value (e_metrics e_re) (e_k e_re) cs ReciprocalRank 2 N1 N2); simpl; auto.
    + replace (average (metric_values ReciprocalRank 2 cs)) with (7500 / 10000)%R; [apply round4_exact|].
      change (metric_values ReciprocalRank 2 cs) with [Q2R 1; Q2R (1 # 2)]. unfold average, sum, Q2R. cbn. field.
Qed.

(** recommendation_evaluation: user 5 likes item 1 of the recommended 0, 1; user 6
    none of them *)
Definition e_rc : rc_args := mkRc None [1; 2] None "3" false None 10 2 true [Recall; Precision].
Example C50_recommendation_example : int_recs e_model /\
  exists t0 r, recommendation_evaluation e_model e_test e_rc (fun _ => e_rng) PropSplit.turns t0 = EDone r /\
  In (("Recall", 2), (2500 / 10000)%R) r.
Proof.
  split.
  { intros u n novelty low recs. cbn [e_model md_recommend]. intros E. injection E as <-. apply Forall_forall. intros v Hv.
    apply firstn_incl in Hv. simpl in Hv. intuition; subst; eexists; (split; [reflexivity|vm_compute; discriminate]). }
  assert (C : rec_cases e_model e_test e_rc (fun _ => e_rng) (first_users None e_test) =
    [Ok (Some (mkCase [VInt 0; VInt 1] [VInt 1; VInt 4] (Some (VInt 4)) [(VInt 1, 5%Q); (VInt 4, 4%Q); (VInt 0, 0%Q)]));
     Ok (Some (mkCase [VInt 0; VInt 1] [VInt 3] (Some (VInt 3)) [(VInt 3, 5%Q); (VInt 0, 0%Q); (VInt 1, 0%Q)])); Ok None]) by (vm_compute; reflexivity).
  set (xs := rec_cases e_model e_test e_rc (fun _ => e_rng) (first_users None e_test)) in *.
  destruct (run_returns (r_metrics e_rc) (r_k e_rc) (rec_task (r_metrics e_rc) (r_k e_rc)) (rec_task_sums _ _) 2 true
    xs PropSplit.turns ltac:(discriminate) PropSplit.turns_fair) as [t0 E].
  { intros _ x Hx. rewrite C in Hx. simpl in Hx. intuition; subst; reflexivity. }
  exists t0. eexists. split.
  - unfold recommendation_evaluation. rewrite (test_users_first e_test (r_users e_rc) e_test_int). change (rc_check e_rc) with (Ok tt). cbn [bind].
    exact E.
  - rewrite C. set (cs := evaluated_cases _). replace (2500 / 10000)%R with (round4 (average (metric_values Recall 2 cs))).
    + apply (table_value (r_metrics e_rc) (r_k e_rc) cs Recall 2); simpl; auto; repeat constructor; simpl; intuition discriminate.
    + replace (average (metric_values Recall 2 cs)) with (2500 / 10000)%R; [apply round4_exact|].
      change (metric_values Recall 2 cs) with [Q2R (1 # 2); Q2R 0]. unfold average, sum, Q2R. cbn. field.
Qed.

(** *** C51: generated negatives *)

(** Each evaluated user gets n_neg_interactions negatives, of which the generated
    ones are distinct, different from the others and not among the user's liked
    items. *)
Theorem C51_generated_negatives_partial : forall fmul md train_ev mt a t,
  int_data mt -> (e_gen a = true -> train_ev = false -> int_data (md_ds md)) -> threshold_ok t -> e_thr a = lit_text t ->
  mul_nonneg fmul -> Z.of_nat (md_items md) <= 2 ^ 53 -> e_gen a = true ->
  forall fuel u g c, re_check a = Ok tt -> Z.abs u <= 2 ^ 53 -> rng_ok g ->
  rank_user fmul fuel md train_ev mt a (VInt u) g = Some (Ok (Some c)) ->
  exists nn P N G shuffled,
    e_nneg a = Some nn /\ md_rank md (VInt u) shuffled (e_novelty a) = Ok (c_recs c) /\
    (exists all, Permutation all shuffled /\ Forall2 same_value all (map item_of P ++ map item_of N ++ G)) /\
    (forall r, In r P -> In r (rows_for u mt) /\ liked t r = true) /\
    (forall r, In r N -> In r (rows_for u mt) /\ disliked t r = true) /\
    Z.of_nat (length N + length G) = neg_count fmul nn (length P) /\
    NoDup G /\ (forall g, In g G -> (exists z, g = VInt z /\ 0 <= z < Z.of_nat (md_items md)) /\
      ~ In g (liked_items md train_ev mt t u) /\ ~ In g (map item_of N)).
Proof.
  intros fmul md train_ev mt a t D Dtr T ET Hf Hn Gen fuel u g c C Hu Rg H.
  assert (exists nn, e_nneg a = Some nn) as [nn Enn].
  { unfold re_check in C. rewrite Gen in C. destruct (e_nneg a); eauto.
    repeat (match type of C with (if ?b then _ else _) = _ => destruct b; try discriminate end). }
  destruct (rank_user_spec fmul md train_ev mt a t u g D Dtr T ET Hu Rg Hf Hn C fuel _ H) as (z & Ez & P & N & G & all & sh & Ch & Neg & F & Perm & _ & Rk & _).
  injection Ez as <-. exists nn, P, N, G, sh. split; auto. split; auto. split; [eauto|].
  split; [|split; [|split; [|split]]].
  - intros r Hr. apply (chosen_incl _ _ _ _ Ch) in Hr. apply filter_In in Hr. exact Hr.
  - intros r Hr. apply (chosen_incl _ _ _ _ (no_some _ _ _ _ _ _ _ _ _ _ Neg nn Enn)) in Hr. apply filter_In in Hr. exact Hr.
  - apply (no_count _ _ _ _ _ _ _ _ _ _ Neg nn Enn Gen).
  - apply (no_nodup _ _ _ _ _ _ _ _ _ _ Neg).
  - apply (no_new _ _ _ _ _ _ _ _ _ _ Neg).
Qed.
Print Assumptions C51_generated_negatives_partial.

(** Generation ends if every number is drawn again and again. *)
Theorem C51_generation_terminates : forall fmul md train_ev mt a u g, draws_all g ->
  exists fuel x, forall fuel', (fuel <= fuel')%nat -> rank_user fmul fuel' md train_ev mt a u g = Some x.
Proof. exact rank_user_stop. Qed.
Print Assumptions C51_generation_terminates.

(** user 5 has positive 1 and the generated negatives 2 and 3 *)
Example C51_example : e_gen e_re = true /\ re_check e_re = Ok tt /\ rng_ok e_rng /\ draws_all e_rng /\
  option_map (fun x => match x with Ok (Some c) => (c_recs c, c_rel c) | _ => ([], []) end)
    (rank_user PropSplit.exact_mul 20 e_model false e_test e_re (VInt 5) e_rng) = Some ([VInt 1; VInt 2; VInt 3], [VInt 1]).
Proof. split; [reflexivity|]. split; [reflexivity|]. split; [apply e_rng_ok|]. split; [apply e_rng_draws|]. vm_compute. reflexivity. Qed.

(** As stated, "not among the user's observed items": refuted.  The user rated item 3
    with 1 in the training data; it is generated as an unobserved negative. *)
Definition observed (u : Z) (i : value) (m : mem) : Prop := In i (map item_of (rows_for u m)).
Theorem C51_observed_refuted : exists md mt a t u g c,
  int_data mt /\ int_data (md_ds md) /\ threshold_ok t /\ e_thr a = lit_text t /\ rng_ok g /\ draws_all g /\
  e_gen a = true /\ re_check a = Ok tt /\
  rank_user PropSplit.exact_mul 20 md false mt a (VInt u) g = Some (Ok (Some c)) /\
  exists i, In i (c_recs c) /\ ~ observed u i mt /\ observed u i (md_ds md).
Proof.
  exists e_model, e_test, e_re, (LInt 3), 5, e_rng. eexists.
  split; [apply e_test_int|]. split; [apply e_train_int|]. split; [apply lit3_ok|]. split; [reflexivity|].
  split; [apply e_rng_ok|]. split; [apply e_rng_draws|]. split; [reflexivity|]. split; [reflexivity|].
  split; [vm_compute; reflexivity|]. exists (VInt 3). split; [simpl; auto|]. split; vm_compute; intuition discriminate.
Qed.
Print Assumptions C51_observed_refuted.

(** Generated ids need not be items at all: internal ids are used as raw ids.  The
    items are 10, 20, 30; the "items" 0 and 1 are generated. *)
Definition u_train : mem := e_mem [e_row 0 5 10 5; e_row 1 6 20 4; e_row 2 6 30 5].
Definition u_test : mem := e_mem [e_row 0 5 30 5].
Definition u_model : model := mkModel u_train 3 (md_rank e_model) (md_recommend e_model) (md_predict e_model).
Theorem C51_unknown_items_refuted : exists md mt a t u g c,
  int_data mt /\ int_data (md_ds md) /\ threshold_ok t /\ e_thr a = lit_text t /\ rng_ok g /\ draws_all g /\
  e_gen a = true /\ re_check a = Ok tt /\ md_items md = length (appearing (column "item" (rows_of (md_ds md)))) /\
  rank_user PropSplit.exact_mul 20 md false mt a (VInt u) g = Some (Ok (Some c)) /\
  exists i, In i (c_recs c) /\ ~ In i (column "item" (rows_of mt)) /\ ~ In i (column "item" (rows_of (md_ds md))).
Proof.
  exists u_model, u_test, (mkRe None [1; 2] (Some 1) (Some (NInt 1)) true "3" false 10 2 true [Precision]), (LInt 3), 5, e_rng. eexists.
  split; [unfold u_test; e_rows|]. split; [cbn [u_model md_ds]; unfold u_train; e_rows|]. split; [apply lit3_ok|]. split; [reflexivity|].
  split; [apply e_rng_ok|]. split; [apply e_rng_draws|]. split; [reflexivity|]. split; [reflexivity|]. split; [vm_compute; reflexivity|].
  split; [vm_compute; reflexivity|]. exists (VInt 0). split; [simpl; auto|]. split; vm_compute; intuition discriminate.
Qed.
Print Assumptions C51_unknown_items_refuted.

(** *** C52: the item ReciprocalRank looks for *)

(** It is a chosen positive with the lowest interaction, in both processes. *)
Theorem C52_lowest_is_used_partial :
  (forall fmul md train_ev mt a t u g fuel c,
    int_data mt -> (e_gen a = true -> train_ev = false -> int_data (md_ds md)) -> threshold_ok t -> e_thr a = lit_text t ->
    rng_ok g -> mul_nonneg fmul -> Z.of_nat (md_items md) <= 2 ^ 53 -> re_check a = Ok tt -> Z.abs u <= 2 ^ 53 ->
    rank_user fmul fuel md train_ev mt a (VInt u) g = Some (Ok (Some c)) ->
    exists P, chosen (e_npos a) (filter (liked t) (rows_for u mt)) P /\ best_ok P (c_best c)) /\
  (forall md mt a t u g c,
    int_data mt -> threshold_ok t -> r_thr a = lit_text t -> rng_ok g -> int_recs md -> rc_check a = Ok tt -> Z.abs u <= 2 ^ 53 ->
    rec_user md mt a (VInt u) g = Ok (Some c) ->
    exists P, chosen (r_npos a) (filter (liked t) (rows_for u mt)) P /\ best_ok P (c_best c)).
Proof.
  split.
  - intros fmul md train_ev mt a t u g fuel c D Dtr T ET Rg Hf Hn C Hu H.
    destruct (rank_user_spec fmul md train_ev mt a t u g D Dtr T ET Hu Rg Hf Hn C fuel _ H) as (z & Ez & P & N & G & all & sh & Ch & _ & _ & _ & _ & _ & _ & B & _).
    injection Ez as <-. eauto.
  - intros md mt a t u g c D T ET Rg Hi C Hu H.
    assert (O := rec_user_spec md mt a t u g D T ET Hu Rg Hi C). rewrite H in O. destruct O as (z & Ez & P & n & Ch & _ & _ & _ & _ & B & _).
    injection Ez as <-. eauto.
Qed.
Print Assumptions C52_lowest_is_used_partial.

(** As stated (the highest interaction): refuted.  User 5 gave item 1 a 5 and item 4
    a 4; item 4 is looked for. *)
Theorem C52_highest_refuted : exists md mt a t u g c i r,
  int_data mt /\ threshold_ok t /\ e_thr a = lit_text t /\ rng_ok g /\ re_check a = Ok tt /\ e_npos a = None /\
  rank_user PropSplit.exact_mul 20 md true mt a (VInt u) g = Some (Ok (Some c)) /\ c_best c = Some i /\
  In r (rows_for u mt) /\ ~ same_value i (item_of r) /\
  forall r', In r' (rows_for u mt) -> same_value i (item_of r') -> (interaction_of r' < interaction_of r)%Qc.
Proof.
  exists e_model, e_test, (mkRe None [1; 2] None None false "3" false 10 2 true [ReciprocalRank]), (LInt 3), 5, e_rng. eexists. exists (VInt 4), (e_row 0 5 1 5).
  split; [apply e_test_int|]. split; [apply lit3_ok|]. split; [reflexivity|]. split; [apply e_rng_ok|]. split; [reflexivity|]. split; [reflexivity|].
  split; [vm_compute; reflexivity|]. split; [reflexivity|]. split; [vm_compute; auto|]. split; [vm_compute; discriminate|].
  intros r' Hr. vm_compute in Hr. destruct Hr as [<-|[<-|[]]]; [vm_compute; discriminate|]. intros _. vm_compute. reflexivity.
Qed.
Print Assumptions C52_highest_refuted.
Theorem C52_recommendation_highest_refuted : exists md mt a t u g c i r,
  int_data mt /\ threshold_ok t /\ r_thr a = lit_text t /\ rng_ok g /\ rc_check a = Ok tt /\ r_npos a = None /\
  rec_user md mt a (VInt u) g = Ok (Some c) /\ c_best c = Some i /\
  In r (rows_for u mt) /\ ~ same_value i (item_of r) /\
  forall r', In r' (rows_for u mt) -> same_value i (item_of r') -> (interaction_of r' < interaction_of r)%Qc.
Proof.
  exists e_model, e_test, e_rc, (LInt 3), 5, e_rng. eexists. exists (VInt 4), (e_row 0 5 1 5).
  split; [apply e_test_int|]. split; [apply lit3_ok|]. split; [reflexivity|]. split; [apply e_rng_ok|]. split; [reflexivity|]. split; [reflexivity|].
  split; [vm_compute; reflexivity|]. split; [reflexivity|]. split; [vm_compute; auto|]. split; [vm_compute; discriminate|].
  intros r' Hr. vm_compute in Hr. destruct Hr as [<-|[<-|[]]]; [vm_compute; discriminate|]. intros _. vm_compute. reflexivity.
Qed.
Print Assumptions C52_recommendation_highest_refuted.

(** *** C53: termination *)
Theorem C53_ranking_returns : forall fmul md train_ev mt a rngs sched,
  (forall s, draws_all (rngs s)) -> fair (e_threads a) sched ->
  (exists e, forall fuel t, ranking_evaluation fmul fuel md train_ev mt a rngs sched t = ERaised e) \/
  (exists fuel t r, forall fuel', (fuel <= fuel')%nat -> ranking_evaluation fmul fuel' md train_ev mt a rngs sched t = EDone r).
Proof. exact ranking_terminates. Qed.
Print Assumptions C53_ranking_returns.

(** a model whose rank and recommend always raise *)
Definition failing : model := mkModel e_train 6 (fun _ _ _ => Err ValueError) (fun _ _ _ _ => Err ValueError) (md_predict e_model).
Example C53_example : exists fuel t r, ranking_evaluation PropSplit.exact_mul fuel failing false e_test e_re (fun _ => e_rng) PropSplit.turns t = EDone r /\
  In (("HitRatio", 1), 0%R) r.
Proof.
  destruct (C53_ranking_returns PropSplit.exact_mul failing false e_test e_re (fun _ => e_rng) PropSplit.turns) as [[e H]|(fuel & t & r & H)].
  - intros; apply e_rng_draws.
  - apply PropSplit.turns_fair.
  - specialize (H 20%nat 0%nat). vm_compute in H. discriminate.
  - specialize (H (Nat.max 20 fuel) ltac:(lia)). exists (Nat.max 20 fuel), t, r. split; auto.
    destruct e_re_ok as (D & Dtr & T & ET & Hg & Hf & Hn & N1 & N2).
    destruct (ranking_result PropSplit.exact_mul failing false e_test e_re (LInt 3) (fun _ => e_rng) D Dtr T ET Hg Hf Hn _ _ _ _ H) as (cs & F & _ & ->).
    replace 0%R with (round4 (average (metric_values HitRatio 1 (evaluated_cases cs)))); [apply (table_value (e_metrics e_re) (e_k e_re) _ HitRatio 1 N1 N2); simpl; auto|].
    replace (evaluated_cases cs) with (@nil case); [apply round4_0|]. clear H. symmetry. induction F as [|u x us cs' (z & _ & O) F IH]; auto.
    destruct x as [[c|]|e]; cbn [evaluated_cases flat_map]; auto. destruct O as (P & N & G & all & sh & _ & _ & _ & _ & _ & O & _). discriminate.
Qed.

(** recommendation_evaluation returns if no user's task raises, or with verbose=False *)
Theorem C53_recommendation_returns_partial : forall md mt a rngs sched us,
  rc_check a = Ok tt -> test_users mt (r_users a) = Ok us ->
  (r_verbose a = true -> forall x, In x (rec_cases md mt a rngs us) -> exists c, x = Ok c) ->
  fair (r_threads a) sched -> exists t r, recommendation_evaluation md mt a rngs sched t = EDone r.
Proof. exact recommendation_terminates. Qed.
Print Assumptions C53_recommendation_returns_partial.
Example C53_recommendation_example : exists t r,
  recommendation_evaluation failing e_test (mkRc None [1; 2] None "3" false None 10 2 false [Recall]) (fun _ => e_rng) PropSplit.turns t = EDone r.
Proof.
  apply (C53_recommendation_returns_partial failing e_test _ (fun _ => e_rng) PropSplit.turns (first_users None e_test)).
  - reflexivity.
  - apply (test_users_first e_test None e_test_int).
  - discriminate.
  - apply PropSplit.turns_fair.
Qed.

(** With verbose=True and a failing user it never returns, for any schedule. *)
Theorem C53_recommendation_verbose_hangs : forall md mt a rngs sched us e,
  rc_check a = Ok tt -> test_users mt (r_users a) = Ok us -> r_verbose a = true ->
  In (Err e) (rec_cases md mt a rngs us) -> forall t, recommendation_evaluation md mt a rngs sched t = ERunning.
Proof. exact recommendation_hangs. Qed.
Print Assumptions C53_recommendation_verbose_hangs.
Theorem C53_recommendation_verbose_refuted : exists md mt a rngs, rc_check a = Ok tt /\ int_data mt /\
  forall sched t, recommendation_evaluation md mt a rngs sched t = ERunning.
Proof.
  exists failing, e_test, e_rc, (fun _ => e_rng). split; [reflexivity|]. split; [apply e_test_int|]. intros sched t.
  apply (C53_recommendation_verbose_hangs _ _ _ _ _ (first_users None e_test) ValueError); [reflexivity|apply (test_users_first e_test None e_test_int)|reflexivity|].
  vm_compute. auto.
Qed.
Print Assumptions C53_recommendation_verbose_refuted.

(** *** C69: text ids *)

(** As stated (text ids are evaluated like integer ids): refuted.  User "a" likes item
    1 in the test data and the model ranks the liked item first, yet HitRatio@1 is 0,
    and recommendation_evaluation does not return.  With user 5 in place of "a",
    HitRatio@1 is 1. *)
Definition t_row (rid : Z) (u : value) (i x : Z) : row := mkRow rid [("user", u); ("item", VInt i); ("interaction", VInt x)].
Definition t_mem (u : value) : mem :=
  mem_of_frame (mkFrame [("user", type_of u); ("item", DInt); ("interaction", DInt)] [t_row 0 u 1 5; t_row 1 u 2 1]).
Definition t_model (u : value) : model :=
  mkModel (t_mem u) 3 (fun _ items _ => Ok (sort_by (fun a b => match val_ltb b a with Some true => false | _ => true end) items))
    (fun _ _ _ _ => Ok [VInt 1]) (fun _ _ _ => Ok None).
Definition t_re : re_args := mkRe None [1] None None false "3" false 10 2 true [HitRatio].
Definition t_rc : rc_args := mkRc None [1] None "3" false None 10 2 true [HitRatio].

Lemma t_value (cs : list (res (option case))) u :
  rank_cases PropSplit.exact_mul 0 (t_model u) true (t_mem u) t_re (fun _ => e_rng) [u] = Some cs ->
  test_users (t_mem u) None = Ok [u] ->
  forall v, v = round4 (average (metric_values HitRatio 1 (evaluated_cases cs))) ->
  (forall sched t r, ranking_evaluation PropSplit.exact_mul 0 (t_model u) true (t_mem u) t_re (fun _ => e_rng) sched t = EDone r -> In (("HitRatio", 1), v) r) /\
  exists t r, ranking_evaluation PropSplit.exact_mul 0 (t_model u) true (t_mem u) t_re (fun _ => e_rng) PropSplit.turns t = EDone r.
Proof.
  intros C U v ->. unfold ranking_evaluation. change (re_check t_re) with (Ok tt). change (e_users t_re) with (@None Z). rewrite U. cbn [bind]. rewrite C. split.
  - intros sched t r H. apply run_table in H; [|apply rank_task_sums]. subst r.
    apply (table_value (e_metrics t_re) (e_k t_re) _ HitRatio 1); simpl; auto; repeat constructor; auto.
  - destruct (run_returns (e_metrics t_re) (e_k t_re) (rank_task (e_metrics t_re) (e_k t_re)) (rank_task_sums _ _) 2 true cs
      PropSplit.turns ltac:(discriminate) PropSplit.turns_fair ltac:(intros; apply rank_task_done)) as [t E]. eauto.
Qed.

Theorem C69_text_ids_refuted :
  wf_mem (t_mem (VStr "a")) /\ column "user" (rows_of (t_mem (VStr "a"))) = [VStr "a"; VStr "a"] /\
  (forall sched t r, ranking_evaluation PropSplit.exact_mul 0 (t_model (VStr "a")) true (t_mem (VStr "a")) t_re (fun _ => e_rng) sched t = EDone r -> In (("HitRatio", 1), 0%R) r) /\
  (exists t r, ranking_evaluation PropSplit.exact_mul 0 (t_model (VStr "a")) true (t_mem (VStr "a")) t_re (fun _ => e_rng) PropSplit.turns t = EDone r) /\
  (forall sched t, recommendation_evaluation (t_model (VStr "a")) (t_mem (VStr "a")) t_rc (fun _ => e_rng) sched t = ERunning) /\
  (forall sched t r, ranking_evaluation PropSplit.exact_mul 0 (t_model (VInt 5)) true (t_mem (VInt 5)) t_re (fun _ => e_rng) sched t = EDone r -> In (("HitRatio", 1), 1%R) r).
Proof.
  split; [|split; [reflexivity|]].
  - constructor.
    + constructor.
      * simpl. repeat constructor; simpl; intuition discriminate.
      * simpl. intuition discriminate.
      * simpl. intros r [<-|[<-|[]]]; reflexivity.
      * simpl. intros r c ty Hr Hc.
        intuition; subst; match goal with E : (_, _) = (_, _) |- _ => injection E as <- <- end; eexists; split; reflexivity.
    + simpl. repeat constructor; simpl; intuition discriminate.
    + simpl. intros c. intuition.
  - destruct (t_value [Err NameError] (VStr "a") ltac:(vm_compute; reflexivity) ltac:(vm_compute; reflexivity) 0%R (eq_sym round4_0)) as [H1 H2].
    split; auto. split; auto. split.
    + intros sched t. apply (C53_recommendation_verbose_hangs _ _ _ _ _ [VStr "a"] NameError); try reflexivity. vm_compute. auto.
    + destruct (t_value [Ok (Some (mkCase [VInt 1; VInt 2] [VInt 1] (Some (VInt 1)) [(VInt 1, 5%Q); (VInt 2, 1%Q)]))] (VInt 5)
        ltac:(vm_compute; reflexivity) ltac:(vm_compute; reflexivity) 1%R) as [H3 _]; auto.
      replace (average _) with (IZR 10000 / 10000)%R; [rewrite round4_exact; field|].
      change (metric_values HitRatio 1 _) with [Q2R 1]. unfold average, sum, Q2R. cbn. field.
Qed.
Print Assumptions C69_text_ids_refuted.

(** *** C70: HitRatio with a float interaction column *)

(** As stated (HitRatio@k is 1 if a liked item is among the first k): refuted.  The
    interactions are 5.0 and 1.0, so the test items are read as 10.0 and 20.0; the
    recommender returns 10, which HitRatio does not find but Recall does. *)
Definition f_row (rid u i x : Z) : row := mkRow rid [("user", VInt u); ("item", VInt i); ("interaction", VFlt (Qc_of_Z x))].
Definition f_mem : mem :=
  mem_of_frame (mkFrame [("user", DInt); ("item", DInt); ("interaction", DFloat)] [f_row 0 5 10 5; f_row 1 5 20 1]).
Definition f_score_of (_ i : option Z) : res (option Qc) := match i with Some 0 => Ok (Some (Qc_of_Z 5)) | _ => Ok (Some (Qc_of_Z 1)) end.
Definition f_model : model := recommender (rank_abc f_score_of (assigned f_mem)) f_score_of (assigned f_mem) 2.
Lemma f_int : int_data f_mem.
Proof.
  constructor.
  - constructor.
    + constructor.
      * simpl. repeat constructor; simpl; intuition discriminate.
      * simpl. intuition discriminate.
      * simpl. intros r [<-|[<-|[]]]; reflexivity.
      * simpl. intros r c ty Hr Hc.
        intuition; subst; match goal with E : (_, _) = (_, _) |- _ => injection E as <- <- end; eexists; split; reflexivity.
    + simpl. repeat constructor; simpl; intuition discriminate.
    + simpl. intros c. intuition.
  - intros c t Hc E. simpl in Hc. destruct Hc as [<-|[<-|[]]]; discriminate.
  - simpl. intros c Hc. intuition.
  - reflexivity.
  - reflexivity.
  - exists DFloat. split; [reflexivity|discriminate].
  - intros c Hc r z Hr E. simpl in Hr, Hc.
    intuition; subst; unfold cell in E; simpl in E; try discriminate; injection E as <-; vm_compute; discriminate.
Qed.
Theorem C70_float_ids_refuted : exists md mt a t u g c,
  int_data mt /\ trained_on mt (md_ds md) DInt DInt /\ threshold_ok t /\ e_thr a = lit_text t /\ rng_ok g /\ re_check a = Ok tt /\
  rank_user PropSplit.exact_mul 0 md true mt a (VInt u) g = Some (Ok (Some c)) /\
  hd_error (c_recs c) = Some (VInt 10) /\ map item_of (filter (liked t) (rows_for u mt)) = [VInt 10] /\
  recall (c_recs c) (Some 1) (Some (c_rel c)) = Ok 1%Q /\
  hit_ratio (c_recs c) (Some 1) (Some (c_rel c)) = Ok 0%Q.
Proof.
  exists f_model, f_mem, t_re, (LInt 3), 5, e_rng. eexists.
  split; [apply f_int|]. split.
  { constructor; try reflexivity; [apply (in_wf _ f_int)|discriminate|discriminate|vm_compute; discriminate]. }
  split; [apply lit3_ok|]. split; [reflexivity|]. split; [apply e_rng_ok|]. split; [reflexivity|].
  split; [vm_compute; reflexivity|]. split; [reflexivity|]. split; [vm_compute; reflexivity|]. split; vm_compute; reflexivity.
Qed.
Print Assumptions C70_float_ids_refuted.

(** *** C71: two metrics of one class *)

(** As stated (each metric given has its own result): refuted.  FScore(1) is 2/3 and
    FScore(2) is 5/6 for each user; the only result is 0.75 under FScore. *)
Definition c_re : re_args := mkRe None [2] (Some 1) (Some (NInt 2)) true "3" false 10 2 true [FScore 1; FScore 2].
Theorem C71_same_class_refuted :
  re_check c_re = Ok tt /\
  (forall sched t r, ranking_evaluation PropSplit.exact_mul 20 e_model false e_test c_re (fun _ => e_rng) sched t = EDone r ->
     r = [(("FScore", 2), (7500 / 10000)%R)]) /\
  (exists t r, ranking_evaluation PropSplit.exact_mul 20 e_model false e_test c_re (fun _ => e_rng) PropSplit.turns t = EDone r) /\
  exists cs, rank_cases PropSplit.exact_mul 20 e_model false e_test c_re (fun _ => e_rng) (first_users None e_test) = Some cs /\
    Forall (fun c => f_score 1 (c_recs c) (Some 2) (Some (c_rel c)) = Ok (4 # 6)%Q /\
                     f_score 2 (c_recs c) (Some 2) (Some (c_rel c)) = Ok (10 # 12)%Q) (evaluated_cases cs).
Proof.
  set (xs := [Ok (Some (mkCase [VInt 1; VInt 2; VInt 3] [VInt 1] (Some (VInt 1)) [(VInt 1, 5%Q); (VInt 2, 0%Q); (VInt 3, 0%Q)]));
          Ok (Some (mkCase [VInt 0; VInt 3; VInt 5] [VInt 3] (Some (VInt 3)) [(VInt 3, 5%Q); (VInt 5, 1%Q); (VInt 0, 0%Q)])); Ok None]).
  assert (C : rank_cases PropSplit.exact_mul 20 e_model false e_test c_re (fun _ => e_rng) (first_users None e_test) = Some xs) by (vm_compute; reflexivity).
  split; [reflexivity|]. unfold ranking_evaluation. rewrite (test_users_first e_test (e_users c_re) e_test_int). change (re_check c_re) with (Ok tt). cbn [bind].
  change (first_users (e_users c_re) e_test) with (first_users None e_test). rewrite C. split; [|split].
  - intros sched t r H. apply run_table in H; [|apply rank_task_sums]. subst r. unfold table.
    change (dedup EvalModel.key_eqb _) with [("FScore", 2)]. cbn [map]. do 2 f_equal.
    replace (average _) with (IZR 7500 / 10000)%R; [apply round4_exact|].
    change (flat_map _ _) with [Q2R (4 # 6); Q2R (10 # 12); Q2R (4 # 6); Q2R (10 # 12)]. unfold average, sum, Q2R. cbn. field.
  - destruct (run_returns (e_metrics c_re) (e_k c_re) (rank_task (e_metrics c_re) (e_k c_re)) (rank_task_sums _ _) 2 true xs
      PropSplit.turns ltac:(discriminate) PropSplit.turns_fair ltac:(intros; apply rank_task_done)) as [t E]. eauto.
  - exists xs. split; auto. cbn [evaluated_cases xs flat_map app]. repeat constructor; vm_compute; reflexivity.
Qed.
Print Assumptions C71_same_class_refuted.
