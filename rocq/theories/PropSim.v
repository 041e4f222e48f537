(** Properties C44 and C65 to C67: the similarity functions. *)
From Coq Require Import String Ascii.
From Coq Require Import List ZArith QArith Qcanon Qreals Reals Bool Lia Lra Sorted.
From Verif Require Import Py PyFacts MemModel MemSpec MemFacts3 RankModel RankSpec KnnModel KnnSpec KnnFacts KnnFacts2 SimModel SimSpec SimFacts SimFacts2 SimFacts3 SimFacts4.
From Verif Require Import PropMem.
Import ListNotations.
Open Scope R_scope.

(** *** The interactions of the examples *)
Definition zq (z : Z) : Qc := Qc_of_Z z.
Definition se (u i x : Z) : Z * Z * Qc := (u, i, zq x).
Lemma zq_R z : Q2R (this (zq z)) = IZR z.
Proof.
  unfold zq, Qc_of_Z, Q2Qc. cbn [this]. rewrite (Qreals.Qeq_eqR _ (inject_Z z) (Qred_correct _)). unfold Q2R, inject_Z. simpl. field.
Qed.
Ltac compute_row n es :=
  unfold csr_row; replace (csr_cols es) with n by (vm_compute; reflexivity);
  unfold stored_sum, Rsum; try unfold es; unfold se; cbn -[zq]; rewrite !zq_R, !Rplus_0_l; reflexivity.
(** users 0 and 1 rate the items 0 and 1 with 3 and 4, and 4 and 3; user 2 rates item 2 with 5 *)
Definition sx : list (Z * Z * Qc) := [se 0 0 3; se 0 1 4; se 1 0 4; se 1 1 3; se 2 2 5].
Lemma sx_indices : indices sx.
Proof. intros e H. simpl in H. intuition; subst; simpl; lia. Qed.
Lemma sx_row0 : csr_row sx 0 = [(0%Z, 3); (1%Z, 4)].
Proof. compute_row 3%nat sx. Qed.
Lemma sx_row1 : csr_row sx 1 = [(0%Z, 4); (1%Z, 3)].
Proof. compute_row 3%nat sx. Qed.
Lemma sx_profile0 : profile sx 0 [(0%Z, 3); (1%Z, 4)].
Proof. rewrite <- sx_row0. apply csr_row_profile, sx_indices. Qed.
Lemma sx_profile1 : profile sx 1 [(0%Z, 4); (1%Z, 3)].
Proof. rewrite <- sx_row1. apply csr_row_profile, sx_indices. Qed.
Lemma sx_present0 : present sx 0.
Proof. exists 0%Z, (zq 3). left. reflexivity. Qed.
Lemma sx_present1 : present sx 1.
Proof. exists 0%Z, (zq 4). right. right. left. reflexivity. Qed.
Lemma sx_common : common [(0%Z, 3); (1%Z, 4)] [(0%Z, 4); (1%Z, 3)] = [(3, 4); (4, 3)].
Proof. reflexivity. Qed.
Lemma sx_returns k : exists coo, sim_matrix_of k sx = Ok coo.
Proof.
  apply returns_iff; [apply sx_indices|discriminate|]. destruct k; auto.
  - exists 0%Z, 0%Z. split; [exists (zq 3); left; reflexivity|]. unfold interaction_sum. cbn -[zq]. rewrite !zq_R. lra.
  - exists 0%Z, 0%Z, 1%Z. split; [exists (zq 3); left; reflexivity|]. split; [exists (zq 4); right; left; reflexivity|].
    unfold interaction_sum. cbn -[zq]. rewrite !zq_R. lra.
Qed.
Lemma sqrt25 : sqrt 25 = 5.
Proof. replace 25 with (5 * 5) by lra. apply sqrt_square. lra. Qed.

(** *** C44: all similarity functions *)
Theorem C44_similarities_partial : forall k es coo, indices es -> sim_matrix_of k es = Ok coo ->
  NoDup (map fst coo) /\
  (forall i j s, In (i, j, s) coo <-> In (j, i, s) coo) /\
  (forall i j r, In (i, j, Num r) coo -> lowest k <= r <= 1) /\
  (forall i j r, In (i, j, Num r) coo -> exists r', In (i, i, Num r') coo /\ r <= r') /\
  (forall i j r, In (i, j, Num r) coo -> exists c, interacts es i c /\ interacts es j c).
Proof. exact matrix_good. Qed.
Print Assumptions C44_similarities_partial.

(** entries that are not numbers *)
Theorem C44_nan : forall k es coo i j, indices es -> sim_matrix_of k es = Ok coo -> In (i, j, Nan) coo ->
  k = Msd /\ is_spread es 0 \/
  k = Jaccard true /\ (forall c, interacts es i c -> interaction_sum es i c = 0) /\
                      (forall c, interacts es j c -> interaction_sum es j c = 0).
Proof. exact nan_cases. Qed.
Print Assumptions C44_nan.

(** the values *)
Theorem C44_cosine_cf_value : forall es, indices es -> forall u v, present es u -> present es v ->
  forall a b, profile es u a -> profile es v b -> forall coo s, sim_matrix_of CosineCf es = Ok coo ->
  (In (u, v, s) coo <-> exists r, s = Num r /\ dot (common a b) <> 0 /\ is_cosine (common a b) r).
Proof. exact entry_cosine_cf. Qed.
Print Assumptions C44_cosine_cf_value.
Example C44_cosine_cf_value_ex : exists coo, sim_matrix_of CosineCf sx = Ok coo /\ In (0%Z, 1%Z, Num (24 / 25)) coo.
Proof.
  destruct (sx_returns CosineCf) as [coo E]. exists coo. split; auto.
  apply (C44_cosine_cf_value sx sx_indices 0 1 sx_present0 sx_present1 _ _ sx_profile0 sx_profile1 coo _ E).
  rewrite sx_common. exists (24 / 25). split; auto. unfold is_cosine, dot, square1, square2. cbn [map total fst snd].
  split; [lra|]. split; [lra|]. split; [lra|].
  replace (3 * 3 + (4 * 4 + 0)) with 25 by lra. replace (4 * 4 + (3 * 3 + 0)) with 25 by lra. rewrite sqrt25. lra.
Qed.
(** users without a common item *)
Example C44_disjoint_ex : forall k coo r, sim_matrix_of k sx = Ok coo -> ~ In (0%Z, 2%Z, Num r) coo.
Proof.
  intros k coo r E H. destruct (C44_similarities_partial k sx coo sx_indices E) as [_ [_ [_ [_ D]]]].
  destruct (D _ _ _ H) as [c [[x Hx] [y Hy]]]. unfold sx, se in Hx, Hy. cbn [In] in Hx, Hy.
  repeat match goal with H : _ \/ _ |- _ => destruct H as [H|H] end; try contradiction; try congruence;
  match goal with H1 : _ = (0%Z, c, x), H2 : _ = (2%Z, c, y) |- _ =>
    assert (A : snd (fst (0%Z, c, x)) = snd (fst (2%Z, c, y))) by reflexivity; rewrite <- H1, <- H2 in A; discriminate end.
Qed.

Theorem C44_pearson_value : forall es, indices es -> forall u v, present es u -> present es v ->
  forall a b, profile es u a -> profile es v b -> forall coo s, sim_matrix_of Pearson es = Ok coo ->
  (In (u, v, s) coo <-> exists r m1 m2, s = Num r /\ is_avg (map fst (common a b)) m1 /\
     is_avg (map snd (common a b)) m2 /\ is_cosine (shifted (common a b) m1 m2) r).
Proof. exact entry_pearson. Qed.
Print Assumptions C44_pearson_value.
Lemma half_sq : sqrt (1 / 2) * sqrt (1 / 2) = 1 / 2.
Proof. apply sqrt_sqrt. lra. Qed.
Example C44_pearson_value_ex : exists coo, sim_matrix_of Pearson sx = Ok coo /\ In (0%Z, 1%Z, Num (-1)) coo.
Proof.
  destruct (sx_returns Pearson) as [coo E]. exists coo. split; auto.
  apply (C44_pearson_value sx sx_indices 0 1 sx_present0 sx_present1 _ _ sx_profile0 sx_profile1 coo _ E).
  rewrite sx_common. exists (-1), (7 / 2), (7 / 2). split; auto.
  unfold is_avg, is_cosine, shifted, dot, square1, square2. cbn [map total fst snd length INR].
  split; [split; [discriminate|lra]|]. split; [split; [discriminate|lra]|]. split; [lra|]. split; [lra|].
  replace ((3 - 7 / 2) * (3 - 7 / 2) + ((4 - 7 / 2) * (4 - 7 / 2) + 0)) with (1 / 2) by lra.
  replace ((4 - 7 / 2) * (4 - 7 / 2) + ((3 - 7 / 2) * (3 - 7 / 2) + 0)) with (1 / 2) by lra.
  rewrite half_sq. lra.
Qed.

Theorem C44_cosine_value : forall es, indices es -> forall u v, present es u -> present es v ->
  forall a b, profile es u a -> profile es v b -> forall coo s, sim_matrix_of Cosine es = Ok coo ->
  (In (u, v, s) coo <-> exists r, s = Num r /\ common a b <> [] /\
    ((square a = 0 \/ square b = 0) /\ r = 0 \/
     0 < square a /\ 0 < square b /\ r * (sqrt (square a) * sqrt (square b)) = dot (common a b))).
Proof. exact entry_cosine. Qed.
Print Assumptions C44_cosine_value.
Example C44_cosine_value_ex : exists coo, sim_matrix_of Cosine sx = Ok coo /\ In (0%Z, 1%Z, Num (24 / 25)) coo.
Proof.
  destruct (sx_returns Cosine) as [coo E]. exists coo. split; auto.
  apply (C44_cosine_value sx sx_indices 0 1 sx_present0 sx_present1 _ _ sx_profile0 sx_profile1 coo _ E).
  rewrite sx_common. exists (24 / 25). split; auto. split; [discriminate|]. right. unfold square, dot. cbn [map total fst snd].
  split; [lra|]. split; [lra|].
  replace (3 * 3 + (4 * 4 + 0)) with 25 by lra. replace (4 * 4 + (3 * 3 + 0)) with 25 by lra. rewrite sqrt25. lra.
Qed.

Theorem C44_jaccard_value : forall es, indices es -> forall u v, present es u -> present es v ->
  forall a b, profile es u a -> profile es v b -> forall coo s enough,
  (enough = false \/ (forall p, In p a -> snd p <> 0) /\ (forall p, In p b -> snd p <> 0)) ->
  sim_matrix_of (Jaccard enough) es = Ok coo ->
  (In (u, v, s) coo <-> exists r, s = Num r /\ common a b <> [] /\
     r * (INR (length a) + INR (length b) - INR (length (common a b))) = INR (length (common a b))).
Proof.
  intros es I u v Pu Pv a b Ha Hb coo s [] H.
  - destruct H as [H|[Za Zb]]; [discriminate|]. apply entry_jaccard_matrix; auto.
  - apply entry_jaccard_iter; auto.
Qed.
Print Assumptions C44_jaccard_value.
Example C44_jaccard_value_ex : exists coo, sim_matrix_of (Jaccard true) sx = Ok coo /\ In (0%Z, 1%Z, Num 1) coo.
Proof.
  destruct (sx_returns (Jaccard true)) as [coo E]. exists coo. split; auto.
  apply (C44_jaccard_value sx sx_indices 0 1 sx_present0 sx_present1 _ _ sx_profile0 sx_profile1 coo _ true); auto.
  - right. split; intros p H; simpl in H; intuition; subst; simpl in *; lra.
  - rewrite sx_common. exists 1. split; auto. split; [discriminate|]. simpl. lra.
Qed.

Theorem C44_msd_value : forall es, indices es -> forall u v, present es u -> present es v ->
  forall a b, profile es u a -> profile es v b -> forall coo s d, is_spread es d -> sim_matrix_of Msd es = Ok coo ->
  (d <> 0 -> (In (u, v, s) coo <-> exists r, s = Num r /\ common a b <> [] /\
     (1 - r) * (d * d * INR (length (common a b))) = total (map (fun p => (fst p - snd p) * (fst p - snd p)) (common a b)))) /\
  (d = 0 -> (In (u, v, s) coo <-> s = Nan /\ common a b <> [])).
Proof. exact entry_msd. Qed.
Print Assumptions C44_msd_value.
Lemma sx_spread : is_spread sx 5.
Proof.
  assert (V : forall u c, position sx u c -> 0 <= interaction_sum sx u c <= 5).
  { intros u c _. destruct (interacts_dec sx u c) as [[x Hx]|N]; [|rewrite interaction_sum_none by auto; lra].
    unfold sx, se in Hx. cbn [In] in Hx. repeat match goal with H : _ \/ _ |- _ => destruct H as [H|H] end; try contradiction;
    (assert (Q : fst (u, c, x) = fst (u, c, x)) by reflexivity; rewrite <- Hx in Q at 1; cbn [fst] in Q; injection Q as <- <-;
     unfold interaction_sum; cbn -[zq]; rewrite !zq_R; lra). }
  split.
  - intros u c u' c' H H'. apply V in H, H'. lra.
  - exists 2%Z, 2%Z, 0%Z, 2%Z.
    assert (A : exists e, In e sx /\ (2 <= fst (fst e))%Z) by (exists (se 2 2 5); split; [simpl; tauto|simpl; lia]).
    assert (B : exists e, In e sx /\ (2 <= snd (fst e))%Z) by (exists (se 2 2 5); split; [simpl; tauto|simpl; lia]).
    assert (A0 : exists e, In e sx /\ (0 <= fst (fst e))%Z) by (exists (se 2 2 5); split; [simpl; tauto|simpl; lia]).
    split; [split; [lia|split; [lia|split; auto]]|]. split; [split; [lia|split; [lia|split; auto]]|].
    unfold interaction_sum. cbn -[zq]. rewrite !zq_R. lra.
Qed.
Example C44_msd_value_ex : exists coo, sim_matrix_of Msd sx = Ok coo /\ In (0%Z, 1%Z, Num (24 / 25)) coo.
Proof.
  destruct (sx_returns Msd) as [coo E]. exists coo. split; auto.
  apply (proj1 (C44_msd_value sx sx_indices 0 1 sx_present0 sx_present1 _ _ sx_profile0 sx_profile1 coo _ 5 sx_spread E) ltac:(lra)).
  rewrite sx_common. exists (24 / 25). split; auto. split; [discriminate|]. simpl. lra.
Qed.

(** With a single value everywhere, the mean squared difference of an entity to
    itself is not a number, so nothing has a similarity. *)
Theorem C44_refuted : exists es coo, indices es /\ sim_matrix_of Msd es = Ok coo /\
  (exists u, present es u /\ In (u, u, Nan) coo) /\ forall i j r, ~ In (i, j, Num r) coo.
Proof.
  set (es := [se 0 0 3; se 1 0 3]). assert (I : indices es) by (intros e H; simpl in H; intuition; subst; simpl; lia).
  assert (Sp : is_spread es 0).
  { assert (V : forall u c, position es u c -> interaction_sum es u c = 3).
    { intros u c [Hu [Hc [[e [He Le]] [e' [He' Le']]]]]. simpl in He, He'.
      assert (c = 0%Z) by (intuition; subst; simpl in *; lia). assert (u = 0 \/ u = 1)%Z by (intuition; subst; simpl in *; lia).
      subst c. unfold interaction_sum, es. destruct H0 as [-> | ->]; cbn -[zq]; rewrite zq_R; lra. }
    split.
    - intros u c u' c' H H'. rewrite !V by auto. lra.
    - exists 0%Z, 0%Z, 0%Z, 0%Z. assert (P : position es 0 0).
      { split; [lia|]. split; [lia|]. split; exists (se 0 0 3); split; simpl; auto; lia. }
      split; auto. split; auto. lra. }
  destruct (proj2 (returns_iff Msd es I ltac:(discriminate)) ltac:(exact Logic.I)) as [coo E].
  assert (P0 : present es 0) by (exists 0%Z, (zq 3); left; reflexivity).
  assert (Q0 := csr_row_profile es 0 I). exists es, coo. split; auto. split; auto. split.
  - exists 0%Z. split; auto. apply (proj2 (C44_msd_value es I 0 0 P0 P0 _ _ Q0 Q0 coo Nan 0 Sp E) eq_refl). split; auto.
    rewrite <- merge_common by apply csr_row_sorted. rewrite merge_self.
    assert (N := profile_nonempty es 0 _ P0 Q0). destruct (csr_row es 0); [congruence|discriminate].
  - intros i j r H. destruct (C44_similarities_partial Msd es coo I E) as [_ [_ [_ [_ D]]]].
    destruct (D i j r H) as [c [Hi Hj]]. assert (Pi : present es i) by (exists c; auto). assert (Pj : present es j) by (exists c; auto).
    apply (proj2 (C44_msd_value es I i j Pi Pj _ _ (csr_row_profile es i I) (csr_row_profile es j I) coo (Num r) 0 Sp E) eq_refl) in H.
    destruct H as [H _]. discriminate.
Qed.
Print Assumptions C44_refuted.

(** *** C65: fit with every metric *)
(** When the similarity matrix is computed, and the exception otherwise. *)
Theorem C65_similarity_returns_partial : forall k es, indices es -> es <> [] ->
  ((exists coo, sim_matrix_of k es = Ok coo) <->
   match k with
   | CosineCf => exists u c, interacts es u c /\ interaction_sum es u c <> 0
   | Pearson => exists u c c', interacts es u c /\ interacts es u c' /\ interaction_sum es u c <> interaction_sum es u c'
   | _ => True
   end).
Proof. exact returns_iff. Qed.
Print Assumptions C65_similarity_returns_partial.
Theorem C65_similarity_error : forall k es e, sim_matrix_of k es = Err e -> e = ValueError.
Proof. exact err_value. Qed.
Print Assumptions C65_similarity_error.

(** Users that always give the same rating make fit fail. *)
Definition fit_data : mem := mem_of_frame (mkFrame [("user", DInt); ("item", DObj); ("interaction", DFloat)]
  [ex_row 0 7 "a" (Qc_of_Z 4); ex_row 1 7 "b" (Qc_of_Z 4); ex_row 2 5 "a" (Qc_of_Z 2); ex_row 3 5 "b" (Qc_of_Z 2)])%string.
Lemma fit_data_wf : wf_mem fit_data.
Proof.
  constructor.
  - constructor.
    + simpl. repeat constructor; simpl; intuition discriminate.
    + simpl. intuition discriminate.
    + simpl. intros r H. intuition; subst; reflexivity.
    + simpl. intros r c t Hr Hc. intuition; subst;
      match goal with H : (_, _) = (_, _) |- _ => injection H as <- <- end; eexists; split; reflexivity.
  - simpl. repeat constructor; simpl; intuition discriminate.
  - simpl. intros c. intuition.
Qed.
Lemma fit_data_trained : trained_on fit_data (assigned fit_data) DInt DObj.
Proof. constructor; try reflexivity; try discriminate; try apply fit_data_wf; vm_compute; discriminate. Qed.
Lemma fit_data_numeric : numeric fit_data.
Proof.
  split; [simpl; tauto|]. split.
  - intros r Hr. simpl in Hr. intuition; subst; do 2 eexists; split; reflexivity.
  - intros r z Hr. simpl in Hr. intuition; subst; discriminate.
Qed.
Lemma fit_data_obs : obs (assigned fit_data) = [se 0 0 4; se 0 1 4; se 1 0 2; se 1 1 2].
Proof. reflexivity. Qed.
Theorem C65_fit_refuted : exists m0 m, trained_on m0 m DInt DObj /\ numeric m0 /\
  forall c simf st, kn_user c = true ->
  (forall es e, sim_matrix_of Pearson es = Err e -> simf es = Err e) ->
  knn_fit c simf m st = Err ValueError.
Proof.
  exists fit_data, (assigned fit_data). split; [exact fit_data_trained|]. split; [exact fit_data_numeric|].
  intros c simf st U Hs. rewrite (knn_fit_eq _ _ _ _ fit_data_trained fit_data_numeric), fit_data_obs. unfold entity_first. rewrite U.
  set (es := [se 0 0 4; se 0 1 4; se 1 0 2; se 1 1 2]).
  replace (map _ es) with es by reflexivity.
  rewrite (Hs es ValueError); [reflexivity|].
  destruct (sim_matrix_of Pearson es) as [coo|e] eqn:E; [|rewrite (C65_similarity_error _ _ _ E); reflexivity].
  exfalso. assert (I : indices es) by (intros e H; simpl in H; intuition; subst; simpl; lia).
  destruct (proj1 (C65_similarity_returns_partial Pearson es I ltac:(discriminate)) (ex_intro _ coo E)) as [u [c1 [c2 [H1 [H2 N]]]]].
  assert (V : forall c, interacts es u c -> interaction_sum es u c = if Z.eqb u 0 then 4 else 2).
  { intros d [x Hx]. unfold es, se in Hx. cbn [In] in Hx.
    repeat match goal with H : _ \/ _ |- _ => destruct H as [H|H] end; try contradiction;
    (assert (A : fst (u, d, x) = fst (u, d, x)) by reflexivity; rewrite <- Hx in A at 1; cbn [fst] in A; injection A as <- <-;
     unfold interaction_sum; cbn -[zq]; rewrite zq_R; lra). }
  rewrite !V in N by auto. congruence.
Qed.
Print Assumptions C65_fit_refuted.

(** *** C66: adjusted cosine *)
Theorem C66_row_means_partial : forall es, indices es -> forall u v, present es u -> present es v ->
  forall a b, profile es u a -> profile es v b -> forall coo s, sim_matrix_of AdjustedCosine es = Ok coo ->
  (In (u, v, s) coo <-> exists r m1 m2, s = Num r /\ is_avg (map snd a) m1 /\ is_avg (map snd b) m2 /\
     (exists p, In p (common a b) /\ fst p <> m1 /\ snd p <> m2) /\
     r * (sqrt (square (minus a m1)) * sqrt (square (minus b m2))) = dot (shifted (common a b) m1 m2)).
Proof. exact entry_adjusted. Qed.
Print Assumptions C66_row_means_partial.
Example C66_row_means_ex : exists coo, sim_matrix_of AdjustedCosine sx = Ok coo /\ In (0%Z, 1%Z, Num (-1)) coo.
Proof.
  destruct (sx_returns AdjustedCosine) as [coo E]. exists coo. split; auto.
  apply (C66_row_means_partial sx sx_indices 0 1 sx_present0 sx_present1 _ _ sx_profile0 sx_profile1 coo _ E).
  rewrite sx_common. exists (-1), (7 / 2), (7 / 2). split; auto.
  unfold is_avg, square, minus, shifted, dot. cbn [map total fst snd length INR].
  split; [split; [discriminate|lra]|]. split; [split; [discriminate|lra]|].
  split; [exists (3, 4); simpl; split; auto; lra|].
  replace ((3 - 7 / 2) * (3 - 7 / 2) + ((4 - 7 / 2) * (4 - 7 / 2) + 0)) with (1 / 2) by lra.
  replace ((4 - 7 / 2) * (4 - 7 / 2) + ((3 - 7 / 2) * (3 - 7 / 2) + 0)) with (1 / 2) by lra.
  rewrite half_sq. lra.
Qed.
(** The documented version: the average of a column is subtracted from its values. *)
Definition column_avg (es : list (Z * Z * Qc)) (c : Z) (m : R) : Prop :=
  exists us, NoDup us /\ (forall u, In u us <-> interacts es u c) /\ is_avg (map (fun u => interaction_sum es u c) us) m.
Definition column_centred (es : list (Z * Z * Qc)) (u : Z) (a : srow) : Prop :=
  sorted_row a /\ (forall c, In c (map fst a) <-> interacts es u c) /\
  forall c y, In (c, y) a -> exists m, column_avg es c m /\ y = interaction_sum es u c - m.
Theorem C66_refuted : exists es coo u v a b, indices es /\ sim_matrix_of AdjustedCosine es = Ok coo /\
  column_centred es u a /\ column_centred es v b /\
  In (u, v, Num 1) coo /\ is_cosine (common a b) (-1).
Proof.
  set (es := [se 0 0 1; se 0 1 2; se 1 0 1; se 1 1 4]).
  assert (I : indices es) by (intros e H; simpl in H; intuition; subst; simpl; lia).
  destruct (proj2 (returns_iff AdjustedCosine es I ltac:(discriminate)) Logic.I) as [coo E].
  assert (R0 : csr_row es 0 = [(0%Z, 1); (1%Z, 2)]).
  { compute_row 2%nat es. }
  assert (R1 : csr_row es 1 = [(0%Z, 1); (1%Z, 4)]).
  { compute_row 2%nat es. }
  assert (S : forall u c, (u = 0 \/ u = 1)%Z -> (c = 0 \/ c = 1)%Z -> interacts es u c /\
     interaction_sum es u c = (if Z.eqb c 0 then 1 else if Z.eqb u 0 then 2 else 4)).
  { assert (In1 : forall u c x, In (se u c x) es -> interacts es u c) by (intros u c x H; exists (zq x); exact H).
    intros u c [-> | ->] [-> | ->]; (split; [|unfold interaction_sum; cbn -[zq]; rewrite zq_R; simpl; lra]).
    - apply (In1 0%Z 0%Z 1%Z). left. reflexivity.
    - apply (In1 0%Z 1%Z 2%Z). right. left. reflexivity.
    - apply (In1 1%Z 0%Z 1%Z). right. right. left. reflexivity.
    - apply (In1 1%Z 1%Z 4%Z). right. right. right. left. reflexivity. }
  assert (A : forall u c, interacts es u c -> (u = 0 \/ u = 1)%Z /\ (c = 0 \/ c = 1)%Z).
  { intros u c [x Hx]. unfold es, se in Hx. cbn [In] in Hx.
    repeat match goal with H : _ \/ _ |- _ => destruct H as [H|H] end; try contradiction;
    (assert (Q : fst (u, c, x) = fst (u, c, x)) by reflexivity; rewrite <- Hx in Q at 1; cbn [fst] in Q; injection Q as <- <-; auto). }
  assert (C : forall c, (c = 0 \/ c = 1)%Z -> column_avg es c (if Z.eqb c 0 then 1 else 3)).
  { intros c Hc. exists [0; 1]%Z. split; [repeat constructor; simpl; intuition discriminate|]. split.
    - intros u. simpl. split.
      + intros H. apply S; auto. intuition.
      + intros H. apply A in H. intuition.
    - split; [discriminate|]. cbn [map total length INR]. rewrite (proj2 (S 0%Z c (or_introl eq_refl) Hc)), (proj2 (S 1%Z c (or_intror eq_refl) Hc)).
      destruct Hc as [-> | ->]; simpl; lra. }
  assert (K : forall u x, (u = 0 \/ u = 1)%Z -> x = (if Z.eqb u 0 then -1 else 1) -> column_centred es u [(0%Z, 0); (1%Z, x)]).
  { intros u x Hu Hx. split; [repeat constructor|]. split.
    - intros c. simpl. split.
      + intros H. apply S; auto. intuition.
      + intros H. apply A in H. intuition.
    - intros c y [H|[H|[]]]; injection H as <- <-.
      + exists 1. split; [apply (C 0%Z); auto|]. rewrite (proj2 (S u 0%Z Hu (or_introl eq_refl))). simpl. lra.
      + exists 3. split; [apply (C 1%Z); auto|]. rewrite (proj2 (S u 1%Z Hu (or_intror eq_refl))). rewrite Hx. simpl.
        destruct Hu as [-> | ->]; simpl; lra. }
  exists es, coo, 0%Z, 1%Z, [(0%Z, 0); (1%Z, -1)], [(0%Z, 0); (1%Z, 1)]. split; auto. split; auto.
  split; [apply K; auto|]. split; [apply K; auto|]. split.
  - assert (P0 : present es 0) by (exists 0%Z; apply S; auto). assert (P1 : present es 1) by (exists 0%Z; apply S; auto).
    assert (Q0 := csr_row_profile es 0 I). assert (Q1 := csr_row_profile es 1 I). rewrite R0 in Q0. rewrite R1 in Q1.
    apply (C66_row_means_partial es I 0 1 P0 P1 _ _ Q0 Q1 coo _ E). exists 1, (3 / 2), (5 / 2). split; auto.
    assert (Cm : common [(0%Z, 1); (1%Z, 2)] [(0%Z, 1); (1%Z, 4)] = [(1, 1); (2, 4)]) by reflexivity. rewrite Cm.
    unfold is_avg, square, minus, shifted, dot. cbn [map total fst snd length INR].
    split; [split; [discriminate|lra]|]. split; [split; [discriminate|lra]|].
    split; [exists (1, 1); simpl; split; auto; lra|].
    replace ((1 - 3 / 2) * (1 - 3 / 2) + ((2 - 3 / 2) * (2 - 3 / 2) + 0)) with (1 / 2) by lra.
    replace ((1 - 5 / 2) * (1 - 5 / 2) + ((4 - 5 / 2) * (4 - 5 / 2) + 0)) with (3 * 3 * (1 / 2)) by lra.
    rewrite sqrt_mult by lra. rewrite (sqrt_square 3) by lra. pose proof half_sq. lra.
  - assert (Cm : common [(0%Z, 0); (1%Z, -1)] [(0%Z, 0); (1%Z, 1)] = [(0, 0); (-1, 1)]) by reflexivity. rewrite Cm.
    unfold is_cosine, square1, square2, dot. cbn [map total fst snd]. split; [lra|]. split; [lra|].
    replace (0 * 0 + (-1 * -1 + 0)) with 1 by lra. replace (0 * 0 + (1 * 1 + 0)) with 1 by lra. rewrite sqrt_1. lra.
Qed.
Print Assumptions C66_refuted.

(** *** C67: Jaccard with and without enough memory *)
Theorem C67_jaccard_same_partial : forall es, indices es -> forall u v, present es u -> present es v ->
  (forall c, interacts es u c -> interaction_sum es u c <> 0) -> (forall c, interacts es v c -> interaction_sum es v c <> 0) ->
  forall coo coo' s, sim_matrix_of (Jaccard true) es = Ok coo -> sim_matrix_of (Jaccard false) es = Ok coo' ->
  (In (u, v, s) coo <-> In (u, v, s) coo').
Proof.
  intros es I u v Pu Pv Zu Zv coo coo' s E E'.
  assert (Q : forall w, (forall c, interacts es w c -> interaction_sum es w c <> 0) -> forall p, In p (csr_row es w) -> snd p <> 0).
  { intros w Z [c y] H. apply (proj2 (csr_row_profile es w I)) in H. destruct H as [H ->]. apply Z. auto. }
  rewrite (C44_jaccard_value es I u v Pu Pv _ _ (csr_row_profile es u I) (csr_row_profile es v I) coo s true) by eauto.
  rewrite (C44_jaccard_value es I u v Pu Pv _ _ (csr_row_profile es u I) (csr_row_profile es v I) coo' s false) by auto. tauto.
Qed.
Print Assumptions C67_jaccard_same_partial.
Example C67_jaccard_same_ex : exists coo coo', sim_matrix_of (Jaccard true) sx = Ok coo /\ sim_matrix_of (Jaccard false) sx = Ok coo' /\
  In (0%Z, 1%Z, Num 1) coo /\ In (0%Z, 1%Z, Num 1) coo'.
Proof.
  destruct C44_jaccard_value_ex as [coo [E H]]. destruct (sx_returns (Jaccard false)) as [coo' E']. exists coo, coo'.
  split; auto. split; auto. split; auto.
  assert (Z : forall w a, profile sx w a -> (forall p, In p a -> snd p <> 0) -> forall c, interacts sx w c -> interaction_sum sx w c <> 0).
  { intros w a [_ P] Na c Hc. apply (Na (c, interaction_sum sx w c)). apply P. auto. }
  apply (C67_jaccard_same_partial sx sx_indices 0 1 sx_present0 sx_present1) with (coo := coo); auto.
  - apply (Z 0%Z _ sx_profile0). intros p Hp. simpl in Hp. intuition; subst; simpl in *; lra.
  - apply (Z 1%Z _ sx_profile1). intros p Hp. simpl in Hp. intuition; subst; simpl in *; lra.
Qed.
(** With an interaction of 0 the two versions differ. *)
Theorem C67_refuted : exists es coo coo' u v r, indices es /\
  sim_matrix_of (Jaccard true) es = Ok coo /\ sim_matrix_of (Jaccard false) es = Ok coo' /\
  In (u, v, Num r) coo' /\ forall r', ~ In (u, v, Num r') coo.
Proof.
  set (es := [se 0 0 0; se 0 1 2; se 1 0 3]).
  assert (I : indices es) by (intros e H; simpl in H; intuition; subst; simpl; lia).
  destruct (proj2 (returns_iff (Jaccard true) es I ltac:(discriminate)) Logic.I) as [coo E].
  destruct (proj2 (returns_iff (Jaccard false) es I ltac:(discriminate)) Logic.I) as [coo' E'].
  assert (R0 : csr_row es 0 = [(0%Z, 0); (1%Z, 2)]).
  { compute_row 2%nat es. }
  assert (R1 : csr_row es 1 = [(0%Z, 3)]).
  { compute_row 2%nat es. }
  assert (P0 : present es 0) by (exists 0%Z, (zq 0); left; reflexivity).
  assert (P1 : present es 1) by (exists 0%Z, (zq 3); right; right; left; reflexivity).
  assert (Q0 := csr_row_profile es 0 I). assert (Q1 := csr_row_profile es 1 I). rewrite R0 in Q0. rewrite R1 in Q1.
  exists es, coo, coo', 0%Z, 1%Z, (1 / 2). split; auto. split; auto. split; auto. split.
  - apply (C44_jaccard_value es I 0 1 P0 P1 _ _ Q0 Q1 coo' _ false); auto. exists (1 / 2). split; auto.
    split; [discriminate|]. simpl. lra.
  - intros r' H. destruct (sim_entry _ _ _ I E) as [rows [_ X]]. apply (X 0%Z 1%Z _ _ _ P0 P1 Q0 Q1) in H. cbn [pair_fn] in H.
    apply jaccard_matrix_iter in H. apply jaccard_iter_merge in H. destruct H as [r [_ [N _]]]. apply N.
    unfold nonzero. cbn [filter snd].
    assert (B0 : Req_b 0 0 = true) by (apply Req_b_true; auto). assert (B2 : Req_b 2 0 = false) by (apply Req_b_false; lra).
    assert (B3 : Req_b 3 0 = false) by (apply Req_b_false; lra). rewrite B0, B2, B3. reflexivity.
Qed.
Print Assumptions C67_refuted.
