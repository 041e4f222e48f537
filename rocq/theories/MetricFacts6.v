(** Exact values of the F-score, DCG and NDCG. *)
From Coq Require Import String.
From Coq Require Import List ZArith QArith Qcanon Qreals Reals Bool Lia Lqa Lra Permutation Sorted.
From Verif Require Import Py PyFacts MetricModel MetricSpec MetricFacts MetricFacts2 MetricFacts4.
Import ListNotations.
Open Scope R_scope.

Lemma f_harmonic beta recs k rel : rel <> [] -> (exists x, In x (first_k k recs) /\ is_relevant rel x) ->
  exists p r f, precision recs (karg k) (Some rel) = Ok p /\ recall recs (karg k) (Some rel) = Ok r /\
    f_score beta recs (karg k) (Some rel) = Ok f /\
    (0 < f /\ (1 + beta * beta) / f == 1 / p + beta * beta / r)%Q.
Proof.
  intros H X. destruct (f_between beta recs k rel H X) as (p & r & f & Ep & Er & Ef & P0 & R0 & _).
  exists p, r, f. split; auto. split; auto. split; auto.
  assert (B : (0 <= beta * beta)%Q) by Lqa.nra.
  assert (Dn : (0 < beta * beta * p + r)%Q) by Lqa.nra.
  unfold f_score in Ef. rewrite Ep, Er in Ef. cbn [bind] in Ef. unfold qdiv in Ef.
  destruct (Qeq_bool (beta * beta * p + r) 0); [discriminate|]. injection Ef as <-.
  split.
  - apply Qlt_shift_div_l; auto. assert (0 < p * r)%Q by (apply Qmult_lt_0_compat; auto). Lqa.nra.
  - assert (N1 : ~ (p == 0)%Q) by (intros Z; Lqa.lra). assert (N2 : ~ (r == 0)%Q) by (intros Z; Lqa.lra).
    assert (N3 : ~ (1 + beta * beta == 0)%Q) by (intros Z; Lqa.lra).
    assert (N4 : ~ (beta * beta * p + r == 0)%Q) by (intros Z; Lqa.lra).
    field. auto.
Qed.

Lemma wsum_dcg_sum s qs : forall i, wsum i (map (gain s) qs) = dcg_sum s i qs.
Proof.
  induction qs as [|q qs IH]; intros i; simpl; auto. rewrite IH. f_equal.
  unfold disc, log2. change (gain_of s q) with (gain s q).
  assert (E : INR (i + 2) = 2 + INR i) by (rewrite plus_INR; simpl; lra). rewrite E.
  assert (L2 : 0 < ln 2) by (rewrite <- ln_1; apply ln_increasing; lra).
  assert (Li : 0 < ln (2 + INR i)) by (rewrite <- ln_1; apply ln_increasing; [lra|pose proof (pos_INR i); lra]).
  field. split; apply Rgt_not_eq; lra.
Qed.

Lemma rel_looked rels l qs : dict rels -> Forall2 (rel_of rels) l qs -> looked rels l qs.
Proof.
  intros K. induction 1 as [|x q l qs (y & Hy & S) _ IH]; constructor; auto.
  assert (A : assoc val_eqb x rels = assoc val_eqb y rels).
  { clear - S. induction rels as [|[z p] rels IH]; simpl; auto. assert (E : val_eqb x z = val_eqb y z).
    { apply eq_true_iff_eq. rewrite !val_key. unfold same_id in S. rewrite S. tauto. }
    rewrite E, IH. reflexivity. }
  rewrite A. apply assoc_own; auto.
Qed.

Lemma dcg_value s rels recs qs k : dict rels -> Forall2 (rel_of rels) recs qs ->
  dcg s recs (karg k) (Some rels) = Ok (dcg_sum s 0 (first_k k qs)).
Proof.
  intros K F. rewrite (dcg_wsum s rels recs qs k (rel_looked _ _ _ K F)).
  rewrite <- map_first_k, wsum_dcg_sum. reflexivity.
Qed.

Lemma dcg_missing s rels recs k x : In x (first_k k recs) -> (forall q, ~ rel_of rels x q) ->
  exists e, dcg s recs (karg k) (Some rels) = Err e.
Proof.
  intros I N. unfold dcg. rewrite trunc_karg. generalize 0%nat. revert I. generalize (first_k k recs).
  induction l as [|y l IH]; intros I i; [destruct I|]. simpl. destruct (assoc val_eqb y rels) as [q|] eqn:A.
  - destruct I as [->|I].
    + exfalso. destruct (assoc_split _ _ _ A) as (r1 & z & r2 & E & S). apply (N q). exists z. split; auto.
      rewrite E. apply in_app_iff. simpl; auto.
    + destruct (IH I (S i)) as [e ->]. exists e. reflexivity.
  - exists KeyError. reflexivity.
Qed.

Lemma ndcg_value s rels recs qs ideal k :
  dict rels -> (forall y q, In (y, q) rels -> (0 <= q)%Q) -> (exists y q, In (y, q) rels /\ (0 < q)%Q) ->
  k <> Some 0%nat -> Forall2 (rel_of rels) recs qs ->
  Permutation (map snd rels) ideal -> StronglySorted (fun a b => (b <= a)%Q) ideal ->
  ndcg s recs (karg k) (Some rels) = Ok (dcg_sum s 0 (first_k k qs) / dcg_sum s 0 (first_k k ideal)).
Proof.
  intros K Nn Pos Kp F P S. unfold ndcg. rewrite (dcg_value s rels recs qs k K F).
  rewrite (dcg_wsum s rels (best_order rels) _ k (best_looked rels K)). cbn [bind].
  pose proof (best_pos s rels k Nn Pos Kp) as BP.
  set (b := map (gain s) (map snd (sort_by (fun a b : value * Q => Qle_bool (snd b) (snd a)) rels))) in *.
  assert (E : b = map (gain s) ideal).
  { apply sorted_unique.
    - apply best_sorted.
    - clear - S. induction S as [|a l S IH A]; simpl; constructor; auto. rewrite Forall_forall in *.
      intros g Hg. apply in_map_iff in Hg. destruct Hg as (q & <- & Hq). apply Rle_ge, gain_mono. auto.
    - unfold b. apply Permutation_map. rewrite <- P. apply Permutation_map. apply Permutation_sym, sort_by_perm. }
  assert (W : wsum 0 (first_k k b) = dcg_sum s 0 (first_k k ideal)).
  { rewrite E, <- map_first_k. apply wsum_dcg_sum. }
  rewrite W in *. destruct (Req_EM_T (dcg_sum s 0 (first_k k ideal)) 0); [lra|reflexivity].
Qed.
