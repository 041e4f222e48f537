(** Properties C25 to C32: the metrics. *)
From Coq Require Import String.
From Coq Require Import List ZArith QArith Qcanon Qreals Reals Bool Lia Permutation Sorted.
From Verif Require Import Py PyFacts MetricModel MetricSpec MetricFacts MetricFacts2 MetricFacts3 MetricFacts4 MetricFacts5 MetricFacts6.
Import ListNotations.
Open Scope string_scope.
Open Scope Z_scope.

Definition ints (l : list Z) : list value := map VInt l.
Lemma ints_distinct l : NoDup l -> distinct (ints l).
Proof.
  intros N. unfold distinct, ints. rewrite map_map. apply FinFun.Injective_map_NoDup; auto.
  intros x y E. simpl in E. assert (V : val_eqb (VInt x) (VInt y) = true) by (apply val_key; exact E).
  simpl in V. apply Z.eqb_eq in V. exact V.
Qed.
Ltac nodup := repeat (constructor; [simpl; intuition discriminate|]); constructor.

(** ** C25 *)
(** Recall and Precision: in [0, 1], and 0 exactly when nothing recommended is relevant. *)
Theorem C25_recall_is_proportion recs k rel : rel <> [] ->
  returns (recall recs (karg k) (Some rel)) (fun q =>
    (0 <= q /\ q <= 1)%Q /\ ((q == 0)%Q <-> forall x, In x (first_k k recs) -> ~ is_relevant rel x)).
Proof. exact (recall_range recs k rel). Qed.
Print Assumptions C25_recall_is_proportion.
Example C25_recall_ex : recall (ints [4; 2; 9; 2]) (karg (Some 2%nat)) (Some (ints [2; 9])) = Ok (1 / 2)%Q.
Proof. vm_compute. reflexivity. Qed.

Theorem C25_precision_is_proportion recs k rel : first_k k recs <> [] ->
  returns (precision recs (karg k) (Some rel)) (fun q =>
    (0 <= q /\ q <= 1)%Q /\ ((q == 0)%Q <-> forall x, In x (first_k k recs) -> ~ is_relevant rel x)).
Proof. exact (precision_range recs k rel). Qed.
Print Assumptions C25_precision_is_proportion.
Example C25_precision_ex :
  precision (ints [4; 2; 9; 2]) (karg (Some 3%nat)) (Some (ints [2; 9])) = Ok (2 / 3)%Q /\
  precision (ints [4; 2; 9; 2]) (karg None) (Some (ints [2; 9])) = Ok (2 / 4)%Q.
Proof. vm_compute. auto. Qed.

(** HitRatio is in [0, 1] for all ids; it is 0 exactly when nothing recommended is
    relevant if the ids are all ints or all texts. *)
Theorem C25_hit_ratio_is_proportion_partial recs k rel : rel <> [] ->
  returns (hit_ratio recs (karg k) (Some rel)) (fun q =>
    (0 <= q /\ q <= 1)%Q /\
    (one_kind (recs ++ rel) -> ((q == 0)%Q <-> forall x, In x (first_k k recs) -> ~ is_relevant rel x))).
Proof.
  intros H. destruct (hit_range recs k rel H) as (q & E & R & _). exists q. split; auto. split; auto.
  intros K. exact (hit_zero_kind recs k rel q H K E).
Qed.
Print Assumptions C25_hit_ratio_is_proportion_partial.

(** For other mixes it can be 0 although the item is relevant (1 and 1.0), and
    positive although it is not (1 and "1"). *)
Theorem C25_hit_ratio_mixed_ids_refuted :
  (exists recs rel, rel <> [] /\ (forall x, In x recs -> is_relevant rel x) /\ recs <> [] /\
     returns (hit_ratio recs None (Some rel)) (fun q => (q == 0)%Q) /\
     returns (recall recs None (Some rel)) (fun q => (q == 1)%Q)) /\
  (exists recs rel, rel <> [] /\ (forall x, In x recs -> ~ is_relevant rel x) /\
     returns (hit_ratio recs None (Some rel)) (fun q => (q == 1)%Q)).
Proof.
  split.
  - exists [VInt 1], [VFlt 1%Qc]. split; [discriminate|]. split.
    + intros x [<-|[]]. exists (VFlt 1%Qc). split; [simpl; auto|]. apply val_key. vm_compute. reflexivity.
    + split; [discriminate|]. split; eexists; (split; [vm_compute; reflexivity|reflexivity]).
  - exists [VInt 1], [VStr "1"]. split; [discriminate|]. split.
    + intros x [<-|[]] (y & [<-|[]] & E). discriminate E.
    + eexists; split; [vm_compute; reflexivity|reflexivity].
Qed.
Print Assumptions C25_hit_ratio_mixed_ids_refuted.

(** Recall@k and HitRatio@k do not decrease when k grows. *)
Theorem C25_monotone_in_k recs k k' rel : rel <> [] -> k_le k k' ->
  (exists q q', recall recs (karg k) (Some rel) = Ok q /\ recall recs (karg k') (Some rel) = Ok q' /\ (q <= q')%Q) /\
  (exists q q', hit_ratio recs (karg k) (Some rel) = Ok q /\ hit_ratio recs (karg k') (Some rel) = Ok q' /\ (q <= q')%Q).
Proof. intros H L. split; [apply recall_mono|apply hit_mono]; auto. Qed.
Print Assumptions C25_monotone_in_k.
Example C25_monotone_ex : k_le (Some 1%nat) (Some 3%nat) /\ k_le (Some 3%nat) None /\
  recall (ints [4; 2; 9; 2]) (karg (Some 1%nat)) (Some (ints [2; 9])) = Ok (0 / 2)%Q /\
  recall (ints [4; 2; 9; 2]) (karg (Some 3%nat)) (Some (ints [2; 9])) = Ok (2 / 2)%Q.
Proof. vm_compute. auto. Qed.

(** HitRatio is Recall for ids of one kind without repetitions in the relevant list. *)
Theorem C25_hit_ratio_is_recall_partial recs k rel : rel <> [] -> one_kind (recs ++ rel) -> distinct rel ->
  hit_ratio recs (karg k) (Some rel) = recall recs (karg k) (Some rel).
Proof. exact (hit_is_recall recs k rel). Qed.
Print Assumptions C25_hit_ratio_is_recall_partial.
Example C25_hit_ratio_ex :
  one_kind (ints [4; 2; 9; 2] ++ ints [2; 9]) /\ distinct (ints [2; 9]) /\
  hit_ratio (ints [4; 2; 9; 2]) (karg (Some 2%nat)) (Some (ints [2; 9])) = Ok (1 / 2)%Q.
Proof.
  split; [|split; [apply ints_distinct; nodup|vm_compute; reflexivity]].
  left. intros v Hv. simpl in Hv. intuition (subst; eexists; reflexivity).
Qed.

(** ** C26 *)
Definition all_recommended (recs : list value) (k : option nat) (rel : list value) : Prop :=
  forall y, In y rel -> exists x, In x (first_k k recs) /\ same_id x y.

Theorem C26_recall_one_partial recs k rel : rel <> [] -> all_recommended recs k rel -> distinct rel ->
  returns (recall recs (karg k) (Some rel)) (fun q => (q == 1)%Q).
Proof. intros H A D. exact (recall_full recs k rel H D A). Qed.
Print Assumptions C26_recall_one_partial.

Theorem C26_hit_ratio_one_partial recs k rel : rel <> [] -> all_recommended recs k rel -> one_kind (recs ++ rel) ->
  returns (hit_ratio recs (karg k) (Some rel)) (fun q => (q == 1)%Q).
Proof.
  intros H A K. apply hit_full; auto. intros y Hy. destruct (A y Hy) as (x & Hx & S). exists x. split; auto.
  apply (str_inj_kind _ x y K); auto; apply in_app_iff; auto. left. apply (first_k_incl k recs); auto.
Qed.
Print Assumptions C26_hit_ratio_one_partial.

(** Precision is 1 exactly when the first k are distinct and relevant. *)
Theorem C26_precision_one recs k rel : first_k k recs <> [] ->
  (distinct (first_k k recs) /\ forall x, In x (first_k k recs) -> is_relevant rel x) <->
  returns (precision recs (karg k) (Some rel)) (fun q => (q == 1)%Q).
Proof. exact (precision_full recs k rel). Qed.
Print Assumptions C26_precision_one.

(** With a repeated relevant item Recall stays below 1. *)
Theorem C26_recall_repeated_refuted : exists recs rel, rel <> [] /\ all_recommended recs None rel /\
  returns (recall recs None (Some rel)) (fun q => (q == 1 # 2)%Q).
Proof.
  exists (ints [1]), (ints [1; 1]). split; [discriminate|]. split.
  - intros y Hy. exists (VInt 1). split; [simpl; auto|]. simpl in Hy. destruct Hy as [<-|[<-|[]]]; reflexivity.
  - eexists. split; [vm_compute; reflexivity|reflexivity].
Qed.
Print Assumptions C26_recall_repeated_refuted.
Example C26_ex : all_recommended (ints [4; 2; 9; 2]) (Some 3%nat) (ints [2; 9]) /\ distinct (ints [2; 9]) /\
  recall (ints [4; 2; 9; 2]) (karg (Some 3%nat)) (Some (ints [2; 9])) = Ok (2 / 2)%Q /\
  distinct (first_k (Some 2%nat) (ints [9; 2; 2])) /\
  precision (ints [9; 2; 2]) (karg (Some 2%nat)) (Some (ints [2; 9])) = Ok (2 / 2)%Q.
Proof.
  split; [|split; [apply ints_distinct; nodup|split; [vm_compute; reflexivity|]]].
  - intros y Hy. exists y. split; [|reflexivity]. simpl in *. tauto.
  - split; [apply (ints_distinct [9; 2]); nodup|vm_compute; reflexivity].
Qed.

(** ** C27 *)
Theorem C27_f_score_between_partial beta recs k rel : rel <> [] ->
  (exists x, In x (first_k k recs) /\ is_relevant rel x) ->
  exists p r f, precision recs (karg k) (Some rel) = Ok p /\ recall recs (karg k) (Some rel) = Ok r /\
    f_score beta recs (karg k) (Some rel) = Ok f /\
    (0 < p /\ 0 < r /\ (p <= r -> p <= f /\ f <= r) /\ (r <= p -> r <= f /\ f <= p) /\ (p == r -> f == p))%Q.
Proof. exact (f_between beta recs k rel). Qed.
Print Assumptions C27_f_score_between_partial.
Example C27_ex : (exists x, In x (first_k (Some 3%nat) (ints [4; 2; 8])) /\ is_relevant (ints [2; 9]) x) /\
  returns (f_score 2 (ints [4; 2; 8]) (karg (Some 3%nat)) (Some (ints [2; 9]))) (fun f => (f == 5 # 11)%Q).
Proof.
  split.
  - exists (VInt 2). split; [simpl; auto|]. exists (VInt 2). split; [simpl; auto|reflexivity].
  - eexists. split; [vm_compute; reflexivity|reflexivity].
Qed.
(** the weight of beta: F is the weighted harmonic mean *)
Theorem C27_f_score_harmonic_partial beta recs k rel : rel <> [] ->
  (exists x, In x (first_k k recs) /\ is_relevant rel x) ->
  exists p r f, precision recs (karg k) (Some rel) = Ok p /\ recall recs (karg k) (Some rel) = Ok r /\
    f_score beta recs (karg k) (Some rel) = Ok f /\
    (0 < f /\ (1 + beta * beta) / f == 1 / p + beta * beta / r)%Q.
Proof. exact (f_harmonic beta recs k rel). Qed.
Print Assumptions C27_f_score_harmonic_partial.
(** When nothing recommended is relevant the call raises instead of returning 0. *)
Theorem C27_nothing_relevant_refuted beta recs k rel : rel <> [] -> first_k k recs <> [] ->
  (forall x, In x (first_k k recs) -> ~ is_relevant rel x) ->
  f_score beta recs (karg k) (Some rel) = Err ZeroDivisionError.
Proof.
  intros H N A. unfold f_score. rewrite precision_eq, recall_eq by auto. cbn [bind].
  apply no_common in A. rewrite A. unfold qdiv.
  match goal with |- (if ?b then _ else _) = _ => assert (E : b = true) end; [|rewrite E; reflexivity].
  apply Qeq_bool_iff. change (qn 0) with 0%Q. unfold Qdiv. rewrite !Qmult_0_l, Qmult_0_r. reflexivity.
Qed.
Print Assumptions C27_nothing_relevant_refuted.
Example C27_refuted_ex : f_score 1 (ints [4; 8]) None (Some (ints [2; 9])) = Err ZeroDivisionError.
Proof. vm_compute. reflexivity. Qed.

(** ** C28 *)
Theorem C28_reciprocal_rank recs k x :
  (forall p, first_at x (first_k k recs) p ->
     returns (reciprocal_rank recs (karg k) (Some x)) (fun q => (q == 1 / inject_Z (Z.of_nat (p + 1)))%Q)) /\
  ((forall y, In y (first_k k recs) -> ~ same_id x y) -> reciprocal_rank recs (karg k) (Some x) = Ok 0%Q).
Proof. split; [intros p; apply rr_found|apply rr_missing]. Qed.
Print Assumptions C28_reciprocal_rank.
Example C28_ex : first_at (VInt 9) (first_k (Some 4%nat) (ints [4; 2; 9; 9; 1])) 2 /\
  reciprocal_rank (ints [4; 2; 9; 9; 1]) (karg (Some 4%nat)) (Some (VInt 9)) = Ok (1 / 3)%Q /\
  reciprocal_rank (ints [4; 2; 9; 9; 1]) (karg (Some 2%nat)) (Some (VInt 9)) = Ok 0%Q.
Proof.
  split; [|vm_compute; auto]. apply index_first. vm_compute. reflexivity.
Qed.

(** ** C29 *)
Theorem C29_average_precision recs k rel : rel <> [] -> k <> Some 0%nat ->
  returns (average_precision recs (karg k) (Some rel)) (fun q =>
    (0 <= q /\ q <= 1)%Q /\
    ((q == 1)%Q <->
     (cap k (length rel) <= length recs)%nat /\ distinct (firstn (cap k (length rel)) recs) /\
     forall x, In x (firstn (cap k (length rel)) recs) -> is_relevant rel x)).
Proof. exact (ap_spec recs k rel). Qed.
Print Assumptions C29_average_precision.
Example C29_ex :
  returns (average_precision (ints [2; 4; 9; 2]) (karg (Some 4%nat)) (Some (ints [2; 9]))) (fun q => (q == 5 # 6)%Q) /\
  returns (average_precision (ints [2; 9; 4]) (karg (Some 3%nat)) (Some (ints [9; 2]))) (fun q => (q == 1)%Q).
Proof. split; eexists; (split; [vm_compute; reflexivity|reflexivity]). Qed.

(** ** C30 *)
Theorem C30_ndcg_range s rels recs k : dict rels -> (forall y q, In (y, q) rels -> (0 <= q)%Q) ->
  (exists y q, In (y, q) rels /\ (0 < q)%Q) -> distinct recs -> (forall x, In x recs -> exists q, rel_of rels x q) ->
  k <> Some 0%nat ->
  returns (ndcg s recs (karg k) (Some rels)) (fun x => (0 <= x <= 1)%R).
Proof. intros. apply ndcg_range; auto. Qed.
Print Assumptions C30_ndcg_range.

(** NDCG is 1 for a list ordered by decreasing relevancy that leaves out nothing
    better and is long enough: a full ordering of the dict, or its top k. *)
Theorem C30_ndcg_ideal s rels recs k : dict rels -> (forall y q, In (y, q) rels -> (0 <= q)%Q) ->
  (exists y q, In (y, q) rels /\ (0 < q)%Q) -> distinct recs -> (forall x, In x recs -> exists q, rel_of rels x q) ->
  k <> Some 0%nat ->
  by_relevancy rels recs -> (cap k (length rels) <= length recs)%nat ->
  (forall x y p q, In x recs -> In y (map fst rels) -> (forall z, In z recs -> ~ same_id z y) ->
     rel_of rels x p -> rel_of rels y q -> (q <= p)%Q) ->
  ndcg s recs (karg k) (Some rels) = Ok 1%R.
Proof. intros. apply ndcg_ideal; auto. Qed.
Print Assumptions C30_ndcg_ideal.

(** the values: DCG is the discounted sum of the relevancies, NDCG its quotient by
    the DCG of the relevancies in decreasing order *)
Theorem C30_dcg_value s rels recs qs k : dict rels -> Forall2 (rel_of rels) recs qs ->
  dcg s recs (karg k) (Some rels) = Ok (dcg_sum s 0 (first_k k qs)).
Proof. exact (dcg_value s rels recs qs k). Qed.
Print Assumptions C30_dcg_value.
Theorem C30_ndcg_value s rels recs qs ideal k :
  dict rels -> (forall y q, In (y, q) rels -> (0 <= q)%Q) -> (exists y q, In (y, q) rels /\ (0 < q)%Q) ->
  k <> Some 0%nat -> Forall2 (rel_of rels) recs qs ->
  Permutation (map snd rels) ideal -> StronglySorted (fun a b => (b <= a)%Q) ideal ->
  ndcg s recs (karg k) (Some rels) = Ok (dcg_sum s 0 (first_k k qs) / dcg_sum s 0 (first_k k ideal))%R.
Proof. exact (ndcg_value s rels recs qs ideal k). Qed.
Print Assumptions C30_ndcg_value.
(** an item without relevancy raises *)
Theorem C30_dcg_missing s rels recs k x : In x (first_k k recs) -> (forall q, ~ rel_of rels x q) ->
  exists e, dcg s recs (karg k) (Some rels) = Err e.
Proof. exact (dcg_missing s rels recs k x). Qed.
Print Assumptions C30_dcg_missing.

Definition n_rels : list (value * Q) := [(VInt 7, 1%Q); (VInt 8, 0%Q); (VInt 9, 3%Q)].
Lemma n_rel_of x q : rel_of n_rels x q ->
  (same_id x (VInt 7) /\ q = 1%Q) \/ (same_id x (VInt 8) /\ q = 0%Q) \/ (same_id x (VInt 9) /\ q = 3%Q).
Proof. intros (y & [E|[E|[E|[]]]] & S); injection E as <- <-; auto. Qed.
Definition n_recs : list value := ints [9; 7].
Example C30_ex :
  dict n_rels /\ (forall y q, In (y, q) n_rels -> (0 <= q)%Q) /\ (exists y q, In (y, q) n_rels /\ (0 < q)%Q) /\
  distinct n_recs /\ (forall x, In x n_recs -> exists q, rel_of n_rels x q) /\
  by_relevancy n_rels n_recs /\ (cap (Some 2%nat) (length n_rels) <= length n_recs)%nat /\
  (forall x y p q, In x n_recs -> In y (map fst n_rels) -> (forall z, In z n_recs -> ~ same_id z y) ->
     rel_of n_rels x p -> rel_of n_rels y q -> (q <= p)%Q).
Proof.
  assert (V : forall a b, same_id (VInt a) (VInt b) -> a = b).
  { intros a b E. assert (T : val_eqb (VInt a) (VInt b) = true) by (apply val_key; exact E). apply Z.eqb_eq. exact T. }
  split; [apply (ints_distinct [7; 8; 9]); nodup|]. split.
  { intros y q [E|[E|[E|[]]]]; injection E as <- <-; discriminate. }
  split; [exists (VInt 9), 3%Q; split; [simpl; auto|reflexivity]|].
  split; [apply (ints_distinct [9; 7]); nodup|]. split.
  { intros x [<-|[<-|[]]]; eexists; (eexists; split; [|reflexivity]); simpl; eauto. }
  split; [|split; [simpl; lia|]].
  - constructor; [repeat constructor|]. constructor; [|constructor]. intros p q Hp Hq.
    apply n_rel_of in Hp, Hq.
    destruct Hp as [[E ->]|[[E ->]|[E ->]]]; apply V in E; try discriminate;
    destruct Hq as [[F ->]|[[F ->]|[F ->]]]; apply V in F; try discriminate.
  - intros x y p q Hx Hy N Hp Hq. apply n_rel_of in Hq. destruct Hy as [<-|[<-|[<-|[]]]].
    + exfalso. apply (N (VInt 7)); [simpl; auto|reflexivity].
    + destruct Hq as [[F ->]|[[F ->]|[F ->]]]; apply V in F; try discriminate.
      destruct Hp as (z & Hz & _). destruct Hz as [E|[E|[E|[]]]]; injection E as <- <-; discriminate.
    + exfalso. apply (N (VInt 9)); [simpl; auto|reflexivity].
Qed.
(** repeating the best item takes NDCG above 1, which is why repetitions are excluded *)
Theorem C30_repetitions_exceed_one : returns (ndcg false (ints [9; 9; 9]) None (Some n_rels)) (fun x => (1 < x)%R).
Proof.
  assert (K : dict n_rels) by apply C30_ex.
  assert (P : (0 < wsum 0 [Q2R 3; Q2R 1; Q2R 0])%R /\ (wsum 0 [Q2R 3; Q2R 1; Q2R 0] < wsum 0 [Q2R 3; Q2R 3; Q2R 3])%R).
  { pose proof (disc_pos 0). pose proof (disc_pos 1). pose proof (disc_pos 2).
    assert (E3 : (Q2R 3 = 3)%R) by (unfold Q2R; simpl; Lra.lra). assert (E1 : (Q2R 1 = 1)%R) by (unfold Q2R; simpl; Lra.lra).
    assert (E0 : (Q2R 0 = 0)%R) by (unfold Q2R; simpl; Lra.lra).
    simpl. rewrite E3, E1, E0. split; Lra.lra. }
  destruct P as [P0 P1].
  assert (D1 : dcg false (ints [9; 9; 9]) None (Some n_rels) = Ok (wsum 0 [Q2R 3; Q2R 3; Q2R 3])).
  { apply (dcg_wsum false n_rels (ints [9; 9; 9]) [3%Q; 3%Q; 3%Q] None). repeat constructor. }
  assert (D2 : dcg false (best_order n_rels) None (Some n_rels) = Ok (wsum 0 [Q2R 3; Q2R 1; Q2R 0])).
  { apply (dcg_wsum false n_rels (best_order n_rels) [3%Q; 1%Q; 0%Q] None). repeat constructor. }
  unfold ndcg. rewrite D1, D2. cbn [bind]. destruct (Req_EM_T (wsum 0 [Q2R 3; Q2R 1; Q2R 0]) 0) as [Z|Z]; [Lra.lra|].
  eexists. split; [reflexivity|]. apply (Rmult_lt_reg_r (wsum 0 [Q2R 3; Q2R 1; Q2R 0])); auto.
  unfold Rdiv. rewrite Rmult_assoc, Rinv_l by Lra.lra. Lra.lra.
Qed.
Print Assumptions C30_repetitions_exceed_one.

(** ** C31 *)
(** Every ranking metric at k is the metric of any other list with the same first k items. *)
Theorem C31_only_first_k recs recs' k : first_k (Some k) recs = first_k (Some k) recs' ->
  let kk := karg (Some k) in
  (forall rel, hit_ratio recs kk rel = hit_ratio recs' kk rel) /\
  (forall rel, recall recs kk rel = recall recs' kk rel) /\
  (forall rel, precision recs kk rel = precision recs' kk rel) /\
  (forall beta rel, f_score beta recs kk rel = f_score beta recs' kk rel) /\
  (forall x, reciprocal_rank recs kk x = reciprocal_rank recs' kk x) /\
  (forall rel, average_precision recs kk rel = average_precision recs' kk rel) /\
  (forall s rels, dcg s recs kk rels = dcg s recs' kk rels) /\
  (forall s rels, ndcg s recs kk rels = ndcg s recs' kk rels).
Proof.
  intros H kk. assert (T : py_trunc kk recs = py_trunc kk recs') by (unfold kk; rewrite !trunc_karg; exact H).
  assert (Rc : forall rel, recall recs kk rel = recall recs' kk rel) by (intros; unfold recall; rewrite T; auto).
  assert (Pc : forall rel, precision recs kk rel = precision recs' kk rel) by (intros; unfold precision; rewrite T; auto).
  assert (Dc : forall s rels, dcg s recs kk rels = dcg s recs' kk rels) by (intros; unfold dcg; rewrite T; auto).
  split; [intros; unfold hit_ratio; rewrite T; auto|]. split; auto. split; auto.
  split; [intros; unfold f_score; rewrite Rc, Pc; auto|].
  split; [intros; unfold reciprocal_rank; rewrite T; auto|].
  split; [intros; unfold average_precision; rewrite T; auto|].
  split; auto. intros; unfold ndcg; rewrite Dc; auto.
Qed.
Print Assumptions C31_only_first_k.
Theorem C31_truncated_list k (recs : list value) : first_k (Some k) recs = first_k (Some k) (first_k (Some k) recs).
Proof. symmetry. apply first_k_idem. Qed.
Print Assumptions C31_truncated_list.
Example C31_ex : first_k (Some 2%nat) (ints [1; 2; 3; 4]) = first_k (Some 2%nat) (ints [1; 2; 5]).
Proof. reflexivity. Qed.

(** ** C32 *)
Theorem C32_regression_metrics a b : length a = length b -> a <> [] ->
  exists m r d, mse a b = Ok m /\ rmse a b = Ok r /\ mae a b = Ok d /\
    (0 <= m /\ 0 <= r /\ 0 <= d /\ (m = 0 <-> a = b) /\ (r = 0 <-> a = b) /\ (d = 0 <-> a = b) /\ d <= r /\ r * r = m)%R.
Proof. exact (reg_values a b). Qed.
Print Assumptions C32_regression_metrics.
Theorem C32_regression_symmetric a b : mse a b = mse b a /\ rmse a b = rmse b a /\ mae a b = mae b a.
Proof. exact (reg_sym a b). Qed.
Print Assumptions C32_regression_symmetric.
Theorem C32_regression_rejects a b : length a <> length b \/ a = [] ->
  mse a b = Err ValueError /\ rmse a b = Err ValueError /\ mae a b = Err ValueError.
Proof. exact (reg_bad a b). Qed.
Print Assumptions C32_regression_rejects.
Example C32_ex : length [1%R; 2%R; 5%R] = length [1%R; 4%R; 4%R] /\ [1%R; 2%R; 5%R] <> [] /\
  mae [1%R; 2%R; 5%R] [1%R; 4%R; 4%R] = Ok 1%R /\ mse [1%R; 2%R; 5%R] [1%R; 4%R; 4%R] = Ok (5 / 3)%R.
Proof.
  split; [reflexivity|]. split; [discriminate|]. unfold mae, mse, checked, mean, Rsqr. simpl.
  split; f_equal.
  - rewrite Rabs_pos_eq, (Rabs_left (2 - 4)), Rabs_pos_eq by Lra.lra. Lra.lra.
  - Lra.lra.
Qed.
