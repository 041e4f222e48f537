(** Proofs about evaluations that ask for different metrics and k. *)
From Coq Require Import String Ascii.
From Coq Require Import List ZArith QArith Qcanon Reals Bool Lia Permutation.
From Verif Require Import Py PyFacts MemModel MemSpec MemFacts2 Conc RankModel MetricModel SampModel EvalModel EvalSpec EvalFacts EvalFacts2 EvalFacts3 EvalFacts4 EvalFacts5 AskSpec.
Import ListNotations.
Open Scope string_scope.
Open Scope Z_scope.
Open Scope list_scope.

Lemma table_agree ms ks ms' ks' cs cs' m k :
  NoDup (map mc_name ms) -> NoDup ks -> NoDup (map mc_name ms') -> NoDup ks' ->
  In m ms -> In k ks -> In m ms' -> In k ks' -> metric_values m k cs = metric_values m k cs' ->
  agree m k (table ms ks cs) (table ms' ks' cs').
Proof.
  intros N1 N2 N3 N4 M1 K1 M2 K2 E.
  assert (U : forall ms ks cs v, In ((mc_name m, k), v) (table ms ks cs) -> forall x, In ((mc_name m, k), x) (table ms ks cs) <-> x = v).
  { intros s q c v H x. split; [|intros ->; auto]. intros H'. pose proof (table_nodup s q c) as D. revert H H' D. generalize (table s q c). intros l.
    induction l as [|[y w] l IH]; [intros []|]. cbn [map fst]. intros H H' D. apply NoDup_cons_iff in D. destruct D as [D1 D2].
    destruct H as [H|H], H' as [H'|H'].
    - congruence.
    - injection H as -> ->. destruct D1. apply in_map_iff. eexists. split; [|exact H']. reflexivity.
    - injection H' as -> ->. destruct D1. apply in_map_iff. eexists. split; [|exact H]. reflexivity.
    - auto. }
  exists (round4 (average (metric_values m k cs))). split; apply U; [|rewrite E]; apply table_value; auto.
Qed.

Lemma ranking_asked fmul fuel md train_ev mt a a' rngs sched sched' t t' r r' :
  same_ranking a a' ->
  ranking_evaluation fmul fuel md train_ev mt a rngs sched t = EDone r ->
  ranking_evaluation fmul fuel md train_ev mt a' rngs sched' t' = EDone r' ->
  exists cs, r = table (e_metrics a) (e_k a) cs /\ r' = table (e_metrics a') (e_k a') cs.
Proof.
  destruct a as [us ks np nn gen thr nov seed th vb ms]. destruct a' as [us' ks' np' nn' gen' thr' nov' seed' th' vb' ms'].
  unfold same_ranking. cbn [e_users e_npos e_nneg e_gen e_thr e_novelty e_seed]. intros (-> & -> & -> & -> & -> & -> & ->).
  set (a := mkRe us ks np nn gen thr nov seed th vb ms). set (a' := mkRe us ks' np nn gen thr nov seed th' vb' ms').
  unfold ranking_evaluation. destruct (re_check a) as [[]|]; cbn [bind]; [|discriminate].
  destruct (re_check a') as [[]|]; cbn [bind]; [|intros _ H; discriminate H].
  change (e_users a') with (e_users a). destruct (test_users mt (e_users a)) as [uu|]; [|discriminate].
  change (rank_cases fmul fuel md train_ev mt a' rngs uu) with (rank_cases fmul fuel md train_ev mt a rngs uu).
  destruct (rank_cases _ _ _ _ _ _ _ _) as [cs|]; [|discriminate].
  intros H1 H2. apply run_table in H1; [|apply rank_task_sums]. apply run_table in H2; [|apply rank_task_sums].
  exists (evaluated_cases cs). auto.
Qed.

(** ** recommendation_evaluation *)
Lemma max_list_In l n : max_list l = Ok n -> forall k, In k l -> k <= n.
Proof.
  destruct l as [|x l]; [discriminate|]. cbn [max_list]. intros E. injection E as <-.
  assert (G : forall l x, x <= fold_left Z.max l x /\ forall k, In k l -> k <= fold_left Z.max l x).
  { clear. induction l as [|y l IH]; intros x; cbn [fold_left]; [split; [lia|intros k []]|].
    destruct (IH (Z.max x y)) as [A B]. split; [lia|]. intros k [->|H]; [lia|auto]. }
  destruct (G l x) as [A B]. intros k [->|H]; auto.
Qed.
Lemma dedup_acc_app {A} (eqb : A -> A -> bool) l l' : forall seen, exists seen',
  dedup_acc eqb seen (l ++ l') = dedup_acc eqb seen l ++ dedup_acc eqb seen' l'.
Proof.
  induction l as [|x l IH]; intros seen; [exists seen; reflexivity|]. cbn [app dedup_acc].
  destruct (mem_b eqb x seen); [apply IH|]. destruct (IH (x :: seen)) as [s E]. exists s. rewrite E. reflexivity.
Qed.
Lemma mapM_prefix {A B} (f : A -> res B) l l' r : mapM f (l ++ l') = Ok r -> exists r1 r2, mapM f l = Ok r1 /\ r = r1 ++ r2.
Proof.
  revert r. induction l as [|x l IH]; intros r E; [exists [], r; auto|]. cbn [app mapM] in *.
  destruct (f x) as [y|]; cbn [bind] in *; [|discriminate]. destruct (mapM f (l ++ l')) as [ys|]; cbn [bind] in *; [|discriminate].
  injection E as <-. destruct (IH _ eq_refl) as (r1 & r2 & -> & ->). exists (y :: r1), r2. auto.
Qed.
Lemma relevancies_prefix mu l l' rels : relevancies mu (l ++ l') = Ok rels ->
  exists r1 r2, relevancies mu l = Ok r1 /\ rels = r1 ++ r2.
Proof.
  unfold relevancies, dedup. destruct (dedup_acc_app val_eqb l l' []) as [s ->]. apply mapM_prefix.
Qed.
Lemma relevancies_cover mu l rels i : relevancies mu l = Ok rels -> In i l -> assoc val_eqb i rels <> None.
Proof.
  intros E H. unfold relevancies, dedup in E. destruct (dedup_acc_cover val_eqb val_eqb_refl i l [] H) as [y [Ey [Y|[]]]].
  revert rels E. induction (dedup_acc val_eqb [] l) as [|x d IH]; [destruct Y|]. intros rels E. cbn [mapM] in E.
  destruct (relevancy mu x) as [q|]; cbn [bind] in E; [|discriminate].
  destruct (mapM _ d) as [ys|]; cbn [bind] in E; [|discriminate]. injection E as <-. cbn [assoc].
  destruct Y as [->|Y]; [rewrite Ey; discriminate|]. destruct (val_eqb i x); [discriminate|]. auto.
Qed.

(** the case of a user with fewer recommendations *)
Definition cut_case (n : Z) (x x' : res (option case)) : Prop :=
  match x with
  | Ok None => x' = Ok None
  | Ok (Some c) => exists c', x' = Ok (Some c') /\ c_recs c' = firstn (Z.to_nat n) (c_recs c) /\ c_rel c' = c_rel c /\ c_best c' = c_best c /\
      (exists more, c_rels c = c_rels c' ++ more) /\ (forall i, In i (c_recs c') -> assoc val_eqb i (c_rels c') <> None)
  | Err _ => True
  end.
Lemma rec_user_cut md mt a a' n n' u g : cut_short md -> same_recommendation a a' ->
  max_list (r_k a) = Ok n -> max_list (r_k a') = Ok n' -> 0 < n' <= n ->
  cut_case n' (rec_user md mt a u g) (rec_user md mt a' u g).
Proof.
  intros C (_ & E2 & E3 & E4 & E5 & _) Hn Hn' L. unfold rec_user. rewrite E2, E3, E4, E5, Hn, Hn'. cbn [bind].
  destruct (select_user mt u) as [mu|]; cbn [bind cut_case]; auto.
  destruct (positives mu (r_thr a) (r_npos a) g) as [[[|p ps]|]|]; cbn [bind cut_case]; auto.
  destruct (md_recommend md u n (r_novelty a) (r_low a)) as [recs|] eqn:R; cbn [bind cut_case]; auto.
  rewrite (C _ _ _ _ _ _ L R). cbn [bind].
  destruct (relevancies mu (map fst (p :: ps) ++ recs)) as [rels|] eqn:Q; cbn [bind cut_case]; auto.
  rewrite <- (firstn_skipn (Z.to_nat n') recs), app_assoc in Q. destruct (relevancies_prefix _ _ _ _ Q) as (r1 & r2 & E & ->).
  rewrite E. cbn [bind]. eexists. split; [reflexivity|]. cbn [c_recs c_rel c_best c_rels].
  repeat split; eauto. intros i H. eapply relevancies_cover; eauto. apply in_or_app. auto.
Qed.
Lemma cut_values m k n xs xs' : first_only m -> 0 < k <= n -> Forall2 (cut_case n) xs xs' -> (forall x, In x xs -> exists c, x = Ok c) ->
  metric_values m k (evaluated_cases xs) = metric_values m k (evaluated_cases xs').
Proof.
  intros F L H. induction H as [|x x' xs xs' H _ IH]; intros A; [reflexivity|].
  assert (IH' := IH (fun y Hy => A y (or_intror Hy))). clear IH. unfold evaluated_cases, metric_values in *. cbn [flat_map]. rewrite !flat_map_app, IH'. f_equal.
  destruct (A x (or_introl eq_refl)) as [[c|] ->]; cbn [cut_case] in H.
  - destruct H as (c' & -> & H1 & H2 & H3 & H4 & H5). cbn [flat_map]. rewrite (F n c c' k L H1 H2 H3 H4 H5). reflexivity.
  - rewrite H. reflexivity.
Qed.
Lemma rc_positive a : rc_check a = Ok tt -> forall k, In k (r_k a) -> 0 < k.
Proof.
  unfold rc_check. destruct (negb (positive_opt (r_users a))); [discriminate|]. destruct (negb (positive_opt (r_npos a))); [discriminate|].
  destruct (forallb (fun k => 0 <? k) (r_k a)) eqn:E; cbn [negb]; [|discriminate]. intros _ k H. rewrite forallb_forall in E. specialize (E k H). apply Z.ltb_lt. auto.
Qed.
Lemma max_list_mem l n : max_list l = Ok n -> In n l.
Proof.
  destruct l as [|x l]; [discriminate|]. cbn [max_list]. intros E. injection E as <-. revert x.
  induction l as [|y l IH]; intros x; [simpl; auto|]. cbn [fold_left]. destruct (IH (Z.max x y)) as [H|H]; [|right; right; auto].
  destruct (Z.max_spec x y) as [[_ M]|[_ M]]; rewrite M in *; [right; left|left]; exact H.
Qed.
Lemma recommendation_asked md mt a a' rngs sched sched' t t' r r' m k n n' us :
  cut_short md -> first_only m -> same_recommendation a a' -> max_list (r_k a) = Ok n -> max_list (r_k a') = Ok n' -> n' <= n ->
  NoDup (map mc_name (r_metrics a)) -> NoDup (r_k a) -> NoDup (map mc_name (r_metrics a')) -> NoDup (r_k a') ->
  In m (r_metrics a) -> In k (r_k a) -> In m (r_metrics a') -> In k (r_k a') ->
  test_users mt (r_users a) = Ok us -> (forall x, In x (rec_cases md mt a rngs us) -> exists c, x = Ok c) ->
  recommendation_evaluation md mt a rngs sched t = EDone r ->
  recommendation_evaluation md mt a' rngs sched' t' = EDone r' -> agree m k r r'.
Proof.
  intros C F S Hn Hn' L N1 N2 N3 N4 M1 K1 M2 K2 Hu A.
  unfold recommendation_evaluation. assert (Eu : r_users a' = r_users a) by apply S. rewrite Eu, Hu.
  destruct (rc_check a) as [[]|] eqn:C1; cbn [bind]; [|discriminate].
  destruct (rc_check a') as [[]|] eqn:C2; cbn [bind]; [|intros _ H; discriminate H].
  intros H1 H2. apply run_table in H1; [|apply rec_task_sums]. apply run_table in H2; [|apply rec_task_sums]. subst r r'.
  apply table_agree; auto. apply (cut_values m k n'); auto.
  - split; [apply (rc_positive a' C2 k K2)|apply (max_list_In _ _ Hn' k K2)].
  - clear A. assert (P : 0 < n' <= n) by (split; [apply (rc_positive a' C2), max_list_mem; auto|auto]).
    unfold rec_cases. assert (Es : r_seed a' = r_seed a) by apply S. rewrite Es.
    induction (seeded_users (r_seed a) us) as [|p l IH]; constructor; auto. eapply rec_user_cut; eauto.
Qed.

(** ** metrics *)
Lemma trunc_first {A} k n (l : list A) : 0 < k <= n -> py_trunc (Some k) (firstn (Z.to_nat n) l) = py_trunc (Some k) l.
Proof.
  intros H. unfold py_trunc, py_take. destruct (Z.leb_spec 0 k); [|lia]. rewrite firstn_firstn. f_equal. lia.
Qed.
Lemma dcg_more strong rels more recs : (forall i, In i recs -> assoc val_eqb i rels <> None) ->
  forall i, dcg_from strong (rels ++ more) i recs = dcg_from strong rels i recs.
Proof.
  induction recs as [|x recs IH]; intros H i; [reflexivity|]. cbn [dcg_from].
  assert (E : assoc val_eqb x (rels ++ more) = assoc val_eqb x rels).
  { assert (N := H x (or_introl eq_refl)). clear -N. induction rels as [|[y w] rels IH]; [destruct N; reflexivity|]. cbn [app assoc] in *.
    destruct (val_eqb x y); auto. }
  rewrite E, IH; auto. intros j Hj. apply H. right. auto.
Qed.
Ltac first_k := intros n c c' k L H1 H2 H3 _ _; cbn [mc_call Precision Recall HitRatio FScore AveragePrecision ReciprocalRank]; rewrite H1; rewrite ?H2, ?H3.
Lemma precision_first : first_only Precision.
Proof. first_k. unfold precision. rewrite trunc_first by auto. reflexivity. Qed.
Lemma recall_first : first_only Recall.
Proof. first_k. unfold recall. rewrite trunc_first by auto. reflexivity. Qed.
Lemma hit_first : first_only HitRatio.
Proof. first_k. unfold hit_ratio. rewrite trunc_first by auto. reflexivity. Qed.
Lemma fscore_first b : first_only (FScore b).
Proof. first_k. unfold f_score, precision, recall. rewrite trunc_first by auto. reflexivity. Qed.
Lemma ap_first : first_only AveragePrecision.
Proof. first_k. unfold average_precision. rewrite trunc_first by auto. reflexivity. Qed.
Lemma rr_first : first_only ReciprocalRank.
Proof. first_k. unfold reciprocal_rank. rewrite trunc_first by auto. reflexivity. Qed.
Lemma dcg_first s : first_only (DCG s).
Proof.
  intros n c c' k L H1 H2 H3 [more H4] H5. cbn [DCG mc_call]. unfold dcg. rewrite H4. rewrite H1 in H5 |- *.
  rewrite trunc_first by auto. symmetry. apply dcg_more. intros i Hi. apply H5.
  unfold py_trunc, py_take in Hi. destruct (Z.leb_spec 0 k); [|lia].
  rewrite <- (firstn_skipn (Z.to_nat k) (firstn (Z.to_nat n) (c_recs c))). apply in_or_app. left.
  rewrite firstn_firstn. replace (Init.Nat.min (Z.to_nat k) (Z.to_nat n)) with (Z.to_nat k) by lia. auto.
Qed.
