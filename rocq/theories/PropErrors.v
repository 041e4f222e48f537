(** Errors and boundary cases of the properties of training, prediction and
    evaluation (C34, C40, C50, C52). *)
From Coq Require Import String Ascii.
From Coq Require Import List ZArith QArith Qcanon Reals Qreals Bool Lia Lra Permutation.
From Verif Require Import Py PyFacts MemModel MemSpec MemFacts3 Conc RankModel RankSpec RankFacts3 MetricModel MetricSpec.
From Verif Require Import TrainModel TrainSpec TrainFacts SplitFacts3 EvalModel EvalSpec.
From Verif Require MetricFacts2 PropMem PropRank PropMetric PropSplit PropEval.
Import ListNotations.
Open Scope string_scope.
Open Scope Z_scope.

(** *** C34: the watched metric was reported, but never with a value *)
Theorem C34_no_values_raises : forall metric losses results called k,
  chosen_name metric (map fst results) k -> assoc String.eqb k results = Some [] ->
  max_compute metric losses results called = Invalid.
Proof.
  intros metric losses results called k C A. apply metric_names_chosen in C.
  assert (T : assoc String.eqb metric (translated [metric] results) = Some []).
  { unfold translated. rewrite (assoc_map_val String.eqb
      (fun k => match assoc String.eqb k results with Some l => l | None => [] end)).
    rewrite C, A. reflexivity. }
  unfold max_compute. destruct results as [|r0 rs]; [reflexivity|]. cbv zeta. rewrite T. reflexivity.
Qed.
Print Assumptions C34_no_values_raises.
Example C34_no_values_example : chosen_name "HR" ["P@5"; "HR@10"] "HR@10" /\
  max_compute "HR" [3%Q; 2%Q] [("P@5", [1%Q]); ("HR@10", [])] [5%nat] = Invalid /\
  max_compute "HR" [3%Q; 2%Q] [("P@5", [1%Q]); ("HR@10", [1%Q])] [5%nat] = Epoch 5.
Proof.
  split; [|vm_compute; auto].
  exists ["P@5"], []. split; [reflexivity|]. split; [|intros y []].
  right. split; [simpl; repeat split; discriminate|]. exists "10". reflexivity.
Qed.

(** *** C40: without skip_errors nothing is swallowed *)
Theorem C40_predict_raises : forall A (f : option Z -> option Z -> res (option A)) fitted m user v,
  predict f fitted m user v false <> Ok None /\
  (fitted = false -> forall skip, predict f fitted m user v skip = Err AssertionError) /\
  (forall u i, fitted = true -> user_to_uid m user = Ok (Some u) -> item_to_iid m v = Ok (Some i) ->
    (forall e, f (Some u) (Some i) = Err e -> predict f fitted m user v false = Err e) /\
    (f (Some u) (Some i) = Ok None -> predict f fitted m user v false = Err GenericException)).
Proof.
  intros A f fitted m user v. unfold predict. split; [|split].
  - destruct fitted; [|discriminate]. cbn [negb].
    destruct (user_to_uid m user) as [[u|]|]; cbn [bind]; try discriminate.
    destruct (item_to_iid m v) as [[i|]|]; cbn [bind]; try discriminate.
    destruct (f (Some u) (Some i)) as [[x|]|]; cbn [bind]; discriminate.
  - intros ->. reflexivity.
  - intros u i -> Hu Hi. rewrite Hu, Hi. cbn [bind negb]. split.
    + intros e ->. reflexivity.
    + intros ->. reflexivity.
Qed.
Print Assumptions C40_predict_raises.
(** user 7 and item a are known; the implementation fails or has no prediction *)
Example C40_predict_raises_example :
  user_to_uid PropRank.ex_trained (VInt 7) = Ok (Some 0) /\ item_to_iid PropRank.ex_trained (VStr "a") = Ok (Some 0) /\
  predict (fun _ _ => Err (A := option Qc) ZeroDivisionError) true PropRank.ex_trained (VInt 7) (VStr "a") false = Err ZeroDivisionError /\
  predict (fun _ _ => Ok (None (A := Qc))) true PropRank.ex_trained (VInt 7) (VStr "a") false = Err GenericException /\
  predict (fun _ _ => Ok (None (A := Qc))) true PropRank.ex_trained (VInt 7) (VStr "a") true = Ok None.
Proof. vm_compute. auto. Qed.

(** *** C50: arguments out of range *)
Definition not_positive (n : option Z) : Prop := exists z, n = Some z /\ z <= 0.
Theorem C50_bad_arguments_raise :
  (forall fmul fuel md train_ev mt a rngs sched t, (e_gen a = true -> e_nneg a <> None) ->
    not_positive (e_users a) \/ not_positive (e_npos a) \/ (exists k, In k (e_k a) /\ k <= 0) \/
    (exists z, e_nneg a = Some (NInt z) /\ z <= 0) \/ (exists q, e_nneg a = Some (NRatio q) /\ (q <= 0)%Qc) ->
    ranking_evaluation fmul fuel md train_ev mt a rngs sched t = ERaised AssertionError) /\
  (forall fmul fuel md train_ev mt a rngs sched t, e_gen a = true -> e_nneg a = None ->
    ~ not_positive (e_users a) -> ~ not_positive (e_npos a) ->
    ranking_evaluation fmul fuel md train_ev mt a rngs sched t = ERaised GenericException) /\
  (forall md mt a rngs sched t,
    not_positive (r_users a) \/ not_positive (r_npos a) \/ (exists k, In k (r_k a) /\ k <= 0) ->
    recommendation_evaluation md mt a rngs sched t = ERaised AssertionError).
Proof.
  assert (P1 : forall n, not_positive n -> positive_opt n = false).
  { intros n (z & -> & H). simpl. apply Z.ltb_ge. exact H. }
  assert (P2 : forall n, ~ not_positive n -> positive_opt n = true).
  { intros [z|] H; [|reflexivity]. simpl. apply Z.ltb_lt. destruct (Z_lt_ge_dec 0 z); auto.
    exfalso. apply H. exists z. split; [reflexivity|lia]. }
  assert (K : forall l : list Z, (exists k, In k l /\ k <= 0) -> forallb (fun k => 0 <? k) l = false).
  { intros l (k & Hk & H). destruct (forallb _ l) eqn:F; [|reflexivity].
    rewrite forallb_forall in F. apply F in Hk. apply Z.ltb_lt in Hk. lia. }
  split; [|split].
  - intros fmul fuel md train_ev mt a rngs sched t G H. unfold ranking_evaluation.
    assert (E : re_check a = Err AssertionError).
    { unfold re_check. destruct (positive_opt (e_users a)) eqn:E1; [|reflexivity].
      destruct (positive_opt (e_npos a)) eqn:E2; [|reflexivity]. cbn [negb].
      destruct H as [H|[H|[H|[(z & E & H)|(q & E & H)]]]].
      - apply P1 in H. congruence.
      - apply P1 in H. congruence.
      - match goal with |- (if negb ?x then _ else _) = _ => destruct x eqn:?; [|reflexivity] end. cbn [negb].
        replace (e_gen a && _) with false.
        + rewrite (K _ H). reflexivity.
        + destruct (e_gen a); [|reflexivity]. destruct (e_nneg a); [reflexivity|]. exfalso. apply G; reflexivity.
      - rewrite E. replace (0 <? z) with false by (symmetry; apply Z.ltb_ge; exact H). reflexivity.
      - rewrite E. replace (Qcltb 0 q) with false; [reflexivity|]. symmetry. apply not_true_iff_false. rewrite Qcltb_iff. apply Qcle_not_lt. exact H. }
    rewrite E. reflexivity.
  - intros fmul fuel md train_ev mt a rngs sched t G N H1 H2. unfold ranking_evaluation, re_check.
    rewrite (P2 _ H1), (P2 _ H2), N, G. reflexivity.
  - intros md mt a rngs sched t H. unfold recommendation_evaluation.
    assert (E : rc_check a = Err AssertionError).
    { unfold rc_check. destruct (positive_opt (r_users a)) eqn:E1; [|reflexivity].
      destruct (positive_opt (r_npos a)) eqn:E2; [|reflexivity]. cbn [negb].
      destruct H as [H|[H|H]]; [apply P1 in H; congruence|apply P1 in H; congruence|].
      rewrite (K _ H). reflexivity. }
    rewrite E. reflexivity.
Qed.
Print Assumptions C50_bad_arguments_raise.
Example C50_bad_arguments_example :
  ranking_evaluation PropSplit.exact_mul 20 PropEval.e_model false PropEval.e_test
    (mkRe None [1; 0] (Some 1) (Some (NInt 2)) true "3" false 10 2 true [HitRatio]) (fun _ => PropEval.e_rng) PropSplit.turns 0 = ERaised AssertionError /\
  recommendation_evaluation PropEval.e_model PropEval.e_test
    (mkRc None [1; 0] (Some 1) "3" false None 10 2 true [HitRatio]) (fun _ => PropEval.e_rng) PropSplit.turns 0 = ERaised AssertionError.
Proof. split; reflexivity. Qed.

(** *** C50: every user has a generator of their own *)

(** The task of the user at position i draws from Random(seed + i). *)
Lemma seeded_nth seed us : forall i u, nth_error us i = Some u -> nth_error (seeded_users seed us) i = Some (seed + Z.of_nat i, u).
Proof.
  unfold seeded_users. intros i u H.
  assert (G : forall (l : list value) s j u, nth_error l j = Some u ->
    nth_error (combine (map (fun i => seed + Z.of_nat i) (seq s (length l))) l) j = Some (seed + Z.of_nat (s + j), u)).
  { induction l as [|x l IH]; intros s [|j] w E; try discriminate.
    - cbn. injection E as ->. rewrite Nat.add_0_r. reflexivity.
    - cbn [length seq map combine nth_error]. rewrite (IH (Datatypes.S s) j w E). rewrite Nat.add_succ_r. reflexivity. }
  exact (G us 0%nat i u H).
Qed.
Lemma all_some_nth {A} (l : list (option A)) : forall xs i o, all_some l = Some xs -> nth_error l i = Some o ->
  exists x, o = Some x /\ nth_error xs i = Some x.
Proof.
  induction l as [|y l IH]; intros xs i o E H; [destruct i; discriminate|].
  cbn [all_some] in E. destruct y as [y|]; [|discriminate].
  destruct (all_some l) as [ys|] eqn:L; [|discriminate]. injection E as <-.
  destruct i as [|i]; cbn in H.
  - injection H as <-. exists y. auto.
  - exact (IH ys i o eq_refl H).
Qed.
Theorem C50_own_generator :
  (forall fmul fuel md train_ev mt a rngs us cs i u,
    rank_cases fmul fuel md train_ev mt a rngs us = Some cs -> nth_error us i = Some u ->
    exists x, nth_error cs i = Some x /\ rank_user fmul fuel md train_ev mt a u (rngs (e_seed a + Z.of_nat i)) = Some x) /\
  (forall md mt a rngs us i u, nth_error us i = Some u ->
    nth_error (rec_cases md mt a rngs us) i = Some (rec_user md mt a u (rngs (r_seed a + Z.of_nat i)))).
Proof.
  split.
  - intros fmul fuel md train_ev mt a rngs us cs i u E H. unfold rank_cases in E.
    pose proof (map_nth_error (fun p => rank_user fmul fuel md train_ev mt a (snd p) (rngs (fst p))) i _ (seeded_nth (e_seed a) us i u H)) as M.
    destruct (all_some_nth _ _ _ _ E M) as (x & X & N). exists x. auto.
  - intros md mt a rngs us i u H. unfold rec_cases.
    exact (map_nth_error (fun p => rec_user md mt a (snd p) (rngs (fst p))) i _ (seeded_nth (r_seed a) us i u H)).
Qed.
Print Assumptions C50_own_generator.
(** user 6 is the second user: the generator is that of seed 11 *)
Example C50_own_generator_example :
  nth_error (first_users None PropEval.e_test) 1 = Some (VInt 6) /\
  exists cs x, rank_cases PropSplit.exact_mul 20 PropEval.e_model false PropEval.e_test PropEval.e_re
    (fun s => if s =? 11 then mkRng (fun _ k => seq 0 k) (fun _ k => seq 0 k) (fun k => k + 2)%nat (fun n => seq 0 n) else PropEval.e_rng)
    (first_users None PropEval.e_test) = Some cs /\ nth_error cs 1 = Some (Ok (Some x)) /\ c_recs x = [VInt 2; VInt 3; VInt 5].
Proof. split; [vm_compute; reflexivity|]. do 2 eexists. split; [vm_compute; reflexivity|]. split; reflexivity. Qed.

(** *** C50: the recommenders in an evaluation leave out items they do not know *)
Theorem C50_unknown_items_left_out : forall m0 m tu ti,
  trained_on m0 m tu ti ->
  forall impl f n u items novelty, Forall (fun v => type_of v = ti) items ->
  md_rank (recommender impl f m n) u items novelty = md_rank (recommender impl f m n) u (known_only m0 items) novelty.
Proof.
  intros m0 m tu ti T impl f n u items novelty H. cbn [recommender md_rank].
  rewrite (proj1 (rank_unknown_items m0 m tu ti T impl true u items novelty None H)). reflexivity.
Qed.
Print Assumptions C50_unknown_items_left_out.
Example C50_unknown_items_example :
  known_only PropMem.ex [VStr "zz"; VStr "b"] = [VStr "b"] /\
  md_rank (recommender (rank_abc PropRank.ex_f PropRank.ex_trained) PropRank.ex_f PropRank.ex_trained 3) (VInt 9) [VStr "zz"; VStr "b"] false = Ok [VStr "b"].
Proof. split; vm_compute; reflexivity. Qed.

(** *** C52: what ReciprocalRank makes of the singled out item *)
Theorem C52_reciprocal_rank_of_best : forall c k,
  (forall x p, c_best c = Some x -> first_at x (firstn k (c_recs c)) p ->
     mc_call ReciprocalRank c (Z.of_nat k) = Ok (/ INR (p + 1))%R) /\
  ((forall x y, c_best c = Some x -> In y (firstn k (c_recs c)) -> ~ same_id x y) ->
     mc_call ReciprocalRank c (Z.of_nat k) = Ok 0%R).
Proof.
  intros c k. cbn [ReciprocalRank mc_call]. split.
  - intros x p -> F. destruct (PropMetric.C28_reciprocal_rank (c_recs c) (Some k) x) as [A _].
    specialize (A p F). cbn [karg option_map] in A. destruct A as (q & -> & A). cbn [in_R bind]. f_equal. rewrite (Qeq_eqR _ _ A). rewrite Q2R_div.
    + unfold Q2R at 1. cbn [Qnum Qden]. unfold inject_Z, Q2R. cbn [Qnum Qden]. rewrite <- INR_IZR_INZ. field.
      apply not_0_INR. lia.
    + unfold Qeq, inject_Z. cbn. lia.
  - intros H. destruct (c_best c) as [x|].
    + destruct (PropMetric.C28_reciprocal_rank (c_recs c) (Some k) x) as [_ B]. cbn [karg option_map] in B.
      rewrite B; [|intros y Hy; exact (H x y eq_refl Hy)]. cbn [in_R bind]. f_equal. unfold Q2R. cbn. field.
    + cbn [reciprocal_rank in_R bind]. f_equal. unfold Q2R. cbn. field.
Qed.
Print Assumptions C52_reciprocal_rank_of_best.
(** items 1 and 4 are relevant, 4 is singled out: the value is 1/3, not 1 *)
Example C52_reciprocal_rank_example :
  mc_call ReciprocalRank (mkCase (map VInt [1; 0; 4; 2]) (map VInt [1; 4]) (Some (VInt 4)) []) 3 = Ok (/ INR 3)%R.
Proof.
  apply (proj1 (C52_reciprocal_rank_of_best (mkCase (map VInt [1; 0; 4; 2]) (map VInt [1; 4]) (Some (VInt 4)) []) 3) (VInt 4) 2%nat); [reflexivity|].
  apply MetricFacts2.index_first. vm_compute. reflexivity.
Qed.
