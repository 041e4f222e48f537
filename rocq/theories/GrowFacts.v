(** Proofs about values of a metric at different k. *)
From Coq Require Import String Ascii.
From Coq Require Import List ZArith QArith Qcanon Qreals Reals Bool Lia Lra Permutation.
From Verif Require Import Py PyFacts MemModel MemSpec Conc RankModel MetricModel SampModel EvalModel EvalSpec EvalFacts EvalFacts4 EvalFacts5 GrowSpec.
From Verif Require DevFacts MetricSpec MetricFacts PropMetric AskFacts.
Import ListNotations.
Open Scope string_scope.
Open Scope Z_scope.
Open Scope list_scope.

Lemma karg_Z k : 0 < k -> Some k = MetricSpec.karg (Some (Z.to_nat k)).
Proof. intros H. cbn. f_equal. lia. Qed.
Lemma nat_div_0 a : nat_div a 0 = Err ZeroDivisionError.
Proof. reflexivity. Qed.
Lemma recall_grows : grows Recall.
Proof.
  intros c k k' H. cbn [Recall mc_call]. destruct (c_rel c) as [|x rel] eqn:E.
  - unfold recall. cbn [length]. rewrite !nat_div_0. cbn. exact Logic.I.
  - rewrite (karg_Z k), (karg_Z k') by lia.
    destruct (PropMetric.C25_monotone_in_k (c_recs c) (Some (Z.to_nat k)) (Some (Z.to_nat k')) (x :: rel)) as [(q & q' & -> & -> & L) _];
      [discriminate|cbn; lia|]. cbn. apply Qle_Rle. auto.
Qed.
Lemma hit_grows : grows HitRatio.
Proof.
  intros c k k' H. cbn [HitRatio mc_call]. destruct (c_rel c) as [|x rel] eqn:E.
  - unfold hit_ratio. cbn [map]. change (length (dedup String.eqb [])) with 0%nat. rewrite !nat_div_0. cbn. exact Logic.I.
  - rewrite (karg_Z k), (karg_Z k') by lia.
    destruct (PropMetric.C25_monotone_in_k (c_recs c) (Some (Z.to_nat k)) (Some (Z.to_nat k')) (x :: rel)) as [_ (q & q' & -> & -> & L)];
      [discriminate|cbn; lia|]. cbn. apply Qle_Rle. auto.
Qed.
Lemma index_mem {A} (eqb : A -> A -> bool) x l : mem_b eqb x l = true -> exists p, index_of eqb x l = Some p.
Proof.
  induction l as [|y l IH]; cbn; [discriminate|]. destruct (eqb x y); cbn; [eauto|]. intros H. destruct (IH H) as [p ->]. cbn. eauto.
Qed.
Lemma index_app {A} (eqb : A -> A -> bool) x l l' : mem_b eqb x l = true ->
  mem_b eqb x (l ++ l') = true /\ index_of eqb x (l ++ l') = index_of eqb x l.
Proof.
  induction l as [|y l IH]; cbn; [discriminate|]. destruct (eqb x y); cbn; [auto|]. intros H. destruct (IH H) as [-> ->]. auto.
Qed.
Lemma unit_frac p : exists q, nat_div 1 (p + 1) = Ok q /\ (0 <= q)%Q.
Proof.
  unfold nat_div, qdiv. destruct (Qeq_bool (inject_Z (Z.of_nat (p + 1))) 0) eqn:E.
  - apply Qeq_bool_iff in E. unfold Qeq in E. cbn in E. lia.
  - eexists. split; [reflexivity|]. apply Qle_shift_div_l; [|unfold Qle; cbn; lia].
    change 0%Q with (inject_Z 0). rewrite <- Zlt_Qlt. lia.
Qed.
Lemma rr_grows : grows ReciprocalRank.
Proof.
  intros c k k' H. cbn [ReciprocalRank mc_call]. unfold reciprocal_rank. destruct (c_best c) as [x|]; [|cbn; lra].
  assert (E : exists rest, py_trunc (Some k') (c_recs c) = py_trunc (Some k) (c_recs c) ++ rest).
  { rewrite <- (AskFacts.trunc_first k k' (c_recs c) H). unfold py_trunc, py_take. destruct (Z.leb_spec 0 k), (Z.leb_spec 0 k'); try lia.
    exists (skipn (Z.to_nat k) (firstn (Z.to_nat k') (c_recs c))). rewrite firstn_skipn. reflexivity. }
  destruct E as [rest ->]. set (l := py_trunc (Some k) (c_recs c)). destruct (mem_b val_eqb x l) eqn:M.
  - destruct (index_app val_eqb x l rest M) as [-> ->]. destruct (index_mem val_eqb x l M) as [p ->].
    destruct (unit_frac p) as (q & -> & _). cbn. lra.
  - destruct (mem_b val_eqb x (l ++ rest)) eqn:M'; [|cbn; lra]. destruct (index_mem val_eqb x _ M') as [p ->].
    destruct (unit_frac p) as (q & -> & L). cbn. apply Qle_Rle. auto.
Qed.

Lemma values_grow m k k' cs : grows m -> 0 < k <= k' -> Forall2 Rle (metric_values m k cs) (metric_values m k' cs).
Proof.
  intros G H. unfold metric_values. induction cs as [|c cs IH]; cbn [flat_map]; [constructor|]. specialize (G c k k' H).
  destruct (mc_call m c k), (mc_call m c k'); try contradiction; cbn [app]; auto.
Qed.
Lemma average_grow l l' : Forall2 Rle l l' -> (average l <= average l')%R.
Proof.
  intros F. assert (L : length l = length l') by (clear -F; induction F; simpl; auto). assert (S : (EvalSpec.sum l <= EvalSpec.sum l')%R).
  { clear L. induction F as [|x y l l' H F IH]; cbn [EvalSpec.sum fold_right]; [lra|]. unfold EvalSpec.sum in IH. lra. }
  unfold average. destruct l as [|x l], l' as [|y l']; try discriminate; [lra|]. rewrite <- L.
  apply Rmult_le_compat_r; auto. left. apply Rinv_0_lt_compat. apply lt_0_INR. cbn. lia.
Qed.
Lemma table_grow ms ks cs m k k' : NoDup (map mc_name ms) -> NoDup ks -> In m ms -> In k ks -> In k' ks -> grows m -> 0 < k <= k' ->
  grown m k k' (table ms ks cs).
Proof.
  intros N1 N2 M K K' G H. eexists. eexists. split; [apply table_value; auto|]. split; [apply table_value; auto|].
  apply DevFacts.round4_mono, average_grow, values_grow; auto.
Qed.
Lemma re_positive a : re_check a = Ok tt -> forall k, In k (e_k a) -> 0 < k.
Proof.
  unfold re_check. repeat match goal with |- (if ?b then Err _ else _) = _ -> _ => destruct b eqn:?; [discriminate|] end.
  intros _ k H. match goal with E : negb (forallb _ _) = false |- _ => apply negb_false_iff in E; rewrite forallb_forall in E; specialize (E k H) end.
  apply Z.ltb_lt. auto.
Qed.
Lemma ranking_table fmul fuel md train_ev mt a rngs sched t r :
  ranking_evaluation fmul fuel md train_ev mt a rngs sched t = EDone r -> re_check a = Ok tt /\ exists cs, r = table (e_metrics a) (e_k a) cs.
Proof.
  unfold ranking_evaluation. destruct (re_check a) as [[]|]; cbn [bind]; [|discriminate]. destruct (test_users mt (e_users a)); [|discriminate].
  destruct (rank_cases _ _ _ _ _ _ _ _) as [cs|]; [|discriminate]. intros H. apply run_table in H; [|apply rank_task_sums]. eauto.
Qed.
Lemma recommendation_table md mt a rngs sched t r :
  recommendation_evaluation md mt a rngs sched t = EDone r -> rc_check a = Ok tt /\ exists cs, r = table (r_metrics a) (r_k a) cs.
Proof.
  unfold recommendation_evaluation. destruct (rc_check a) as [[]|]; cbn [bind]; [|discriminate]. destruct (test_users mt (r_users a)); [|discriminate].
  intros H. apply run_table in H; [|apply rec_task_sums]. eauto.
Qed.
