(** Properties C41 to C43 and C45: the neighbourhood recommenders. *)
From Coq Require Import String Ascii.
From Coq Require Import List ZArith QArith Qcanon Bool Lia Permutation Sorted.
From Verif Require Import Py PyFacts MemModel MemSpec MemFacts3 RankModel RankSpec RankFacts RankFacts2 RankFacts3.
From Verif Require Import KnnModel KnnSpec KnnFacts KnnFacts2 KnnFacts3 KnnFacts4 KnnShrink.
From Verif Require Import PropMem.
Import ListNotations.
Open Scope string_scope.
Open Scope Z_scope.

(** *** The data set of the examples: users 7, 5, 9; items "a", "b", "c" *)
Definition kx : mem := mem_of_frame (mkFrame [("user", DInt); ("item", DObj); ("interaction", DFloat)]
  [ex_row 0 7 "a" (Qc_of_Z 1); ex_row 1 7 "b" (Qc_of_Z 3); ex_row 2 5 "a" (Qc_of_Z 2);
   ex_row 3 5 "b" (Qc_of_Z 4); ex_row 4 9 "b" (Qc_of_Z 5); ex_row 5 9 "c" q15]).
Lemma kx_wf : wf_mem kx.
Proof.
  constructor.
  - constructor.
    + simpl. repeat constructor; simpl; intuition discriminate.
    + simpl. intuition discriminate.
    + simpl. intros r H. intuition; subst; reflexivity.
    + simpl. intros r c t Hr Hc. intuition; subst;
      match goal with H : (_, _) = (_, _) |- _ => injection H as <- <- end; eexists; split; reflexivity.
  - simpl. repeat constructor; simpl; intuition discriminate.
  - simpl. intros c. intuition.
Qed.
Definition kx_trained : mem := assigned kx.
Lemma kx_trained_on : trained_on kx kx_trained DInt DObj.
Proof. constructor; try reflexivity; try discriminate; try apply kx_wf; vm_compute; discriminate. Qed.
Lemma kx_numeric : numeric kx.
Proof.
  split; [simpl; tauto|]. split.
  - intros r Hr. simpl in Hr. intuition; subst; do 2 eexists; split; reflexivity.
  - intros r z Hr. simpl in Hr. intuition; subst; discriminate.
Qed.
(** similarities 1/2 of the entities 0 and 1, 3/4 of 0 and 2, none of 1 and 2 *)
Definition half : Qc := Q2Qc (1 # 2).
Definition threeq : Qc := Q2Qc (3 # 4).
Definition kx_coo : list (Z * Z * Qc) :=
  [(0, 0, 1%Qc); (1, 0, half); (0, 1, half); (2, 0, threeq); (0, 2, threeq); (1, 1, 1%Qc); (2, 2, 1%Qc)].
Definition kx_user : knn := mkKnn true 2 1 true None false.
Definition kx_item : knn := mkKnn false 2 0 false (Some 1%Qc) true.
Lemma kx_sim_matrix : sim_matrix 3 kx_coo.
Proof.
  split.
  - unfold kx_coo. cbn [map fst]. repeat constructor; simpl; intuition discriminate.
  - intros a b s H. unfold kx_coo in H. cbn [In] in H.
    repeat match goal with H : _ \/ _ |- _ => destruct H as [H|H] end; try contradiction;
      match goal with H : (_, _, _) = (_, _, _) |- _ => assert (E : (fst (fst (a, b, s)), snd (fst (a, b, s))) = (a, b)) by reflexivity;
        rewrite <- H in E; cbn [fst snd] in E; injection E as <- <- end; simpl; lia.
Qed.
Definition fit_nbs (c : knn) (m : mem) : nbs :=
  match knn_fit c (fun _ => Ok kx_coo) m ([], []) with Ok (_, nb) => nb | Err _ => [] end.
Lemma kx_fitted c : c = kx_user \/ c = kx_item -> fitted_with c kx kx_trained kx_coo (fit_nbs c kx_trained).
Proof.
  intros H. split.
  - destruct H as [-> | ->]; exact kx_sim_matrix.
  - destruct (fit_returns kx kx_trained DInt DObj kx_trained_on kx_numeric c (fun _ => Ok kx_coo) kx_coo eq_refl)
      as [t [nb E]].
    + destruct H as [-> | ->]; exact kx_sim_matrix.
    + destruct H as [-> | ->]; intros h E; [discriminate|]. assert (h = 1%Qc) by (cbn in E; congruence). subst. discriminate.
    + exists (fun _ => Ok kx_coo), t. split; [reflexivity|]. unfold fit_nbs. rewrite E. reflexivity.
Qed.

(** scores as plain fractions, for the examples *)
Definition score_of (r : res (option Qc)) : option Q := match r with Ok (Some p) => Some (this p) | _ => None end.
Definition ranking_of (r : res (list (Qc * option value))) : list (Q * option value) :=
  match r with Ok l => map (fun p => (this (fst p), snd p)) l | Err _ => [] end.

(** *** C41 *)
Theorem C41_neighbours_best : forall m0 m tu ti,
  trained_on m0 m tu ti -> numeric m0 ->
  forall c coo nb, fitted_with c m0 m coo nb ->
  forall a, 0 <= a < Z.of_nat (n_entities c m0) ->
  exists l, neighbours nb a = Ok l /\ NoDup (map snd l) /\ Forall (fun p => (0 < fst p)%Qc) l /\
    best_of (fun b => 0 <= b < Z.of_nat (n_entities c m0) /\ b <> a)
      (fun b s => (0 < s)%Qc /\ similar c (entity_first c (obs m)) coo a b s) (Z.to_nat (kn_k c)) l.
Proof. exact fitted_neighbours. Qed.
Print Assumptions C41_neighbours_best.

(** fitting a new model returns *)
Theorem C41_fit_returns : forall m0 m tu ti,
  trained_on m0 m tu ti -> numeric m0 ->
  forall c simf coo, simf (entity_first c (obs m)) = Ok coo -> sim_matrix (n_entities c m0) coo ->
  (forall h, kn_shrink c = Some h -> (0 <= h)%Qc) ->
  exists t nb, knn_fit c simf m ([], []) = Ok (t, nb).
Proof. exact fit_returns. Qed.
Print Assumptions C41_fit_returns.

Example C41_example : fitted_with kx_user kx kx_trained kx_coo (fit_nbs kx_user kx_trained) /\
  n_entities kx_user kx = 3%nat /\
  neighbours (fit_nbs kx_user kx_trained) 0 = Ok [(threeq, 2); (half, 1)] /\
  neighbours (fit_nbs kx_user kx_trained) 1 = Ok [(half, 0)] /\
  in_common (obs kx_trained) 0 1 = 2%nat.
Proof. split; [apply kx_fitted; auto|]. vm_compute. auto. Qed.

(** The same model fitted a second time, on other data: similarities of the
    first data set are still there, so that a neighbour need not have anything
    in common with the user. *)
Definition kx2 : mem := mem_of_frame (mkFrame [("user", DInt); ("item", DObj); ("interaction", DFloat)]
  [ex_row 0 7 "a" (Qc_of_Z 1); ex_row 1 5 "b" (Qc_of_Z 4); ex_row 2 9 "c" q15]).
Lemma kx2_wf : wf_mem kx2.
Proof.
  constructor.
  - constructor.
    + simpl. repeat constructor; simpl; intuition discriminate.
    + simpl. intuition discriminate.
    + simpl. intros r H. intuition; subst; reflexivity.
    + simpl. intros r c t Hr Hc. intuition; subst;
      match goal with H : (_, _) = (_, _) |- _ => injection H as <- <- end; eexists; split; reflexivity.
  - simpl. repeat constructor; simpl; intuition discriminate.
  - simpl. intros c. intuition.
Qed.
Definition no_sims (n : nat) : list (Z * Z * Qc) := map (fun a => (a, a, 1%Qc)) (Zseq n).
Theorem C41_second_fit_refuted : exists c simf m0 m0' st st' l b,
  trained_on m0 (assigned m0) DInt DObj /\ trained_on m0' (assigned m0') DInt DObj /\
  knn_fit c simf (assigned m0) ([], []) = Ok st /\ knn_fit c simf (assigned m0') st = Ok st' /\
  neighbours (snd st') 0 = Ok l /\ In b (map snd l) /\
  in_common (entity_first c (obs (assigned m0'))) 0 b = 0%nat /\
  (forall coo s, simf (entity_first c (obs (assigned m0'))) = Ok coo ->
     ~ similar c (entity_first c (obs (assigned m0'))) coo 0 b s).
Proof.
  exists kx_user, (fun es => Ok (if (length es =? 6)%nat then kx_coo else no_sims 3)), kx, kx2.
  eexists. eexists. eexists. exists 2.
  split; [exact kx_trained_on|].
  split; [constructor; try reflexivity; try discriminate; try apply kx2_wf; vm_compute; discriminate|].
  split; [vm_compute; reflexivity|]. split; [vm_compute; reflexivity|]. split; [vm_compute; reflexivity|].
  split; [vm_compute; auto|]. split; [vm_compute; reflexivity|].
  intros coo s E [raw [H [G _]]]. assert (C : (1 <= Z.of_nat (in_common (entity_first kx_user (obs (assigned kx2))) 0 2))).
  { apply G. reflexivity. }
  vm_compute in C. apply C. reflexivity.
Qed.
Print Assumptions C41_second_fit_refuted.

(** *** C42 *)
Theorem C42_prediction_is_mean : forall m0 m tu ti,
  trained_on m0 m tu ti -> numeric m0 ->
  forall c coo nb user item, fitted_with c m0 m coo nb -> known_user m0 user -> known_item m0 item ->
  exists u i l, user_to_uid m user = Ok (Some u) /\ item_to_iid m item = Ok (Some i) /\
    neighbours nb (if kn_user c then u else i) = Ok l /\
    let k := if kn_user c then i else u in
    let g := says (entity_first c (obs m)) l k in
    (g <> [] -> exists p, predict (knn_predict c m nb) true m user item true = Ok (Some p) /\ is_mean (kn_weighted c) g p) /\
    (g = [] -> kn_avg c = false -> predict (knn_predict c m nb) true m user item true = Ok None) /\
    (g = [] -> kn_avg c = true -> exists p, predict (knn_predict c m nb) true m user item true = Ok (Some p) /\
       (p * Qc_of_Z (Z.of_nat (length (all_of c m k))) = total (all_of c m k))%Qc).
Proof. exact predict_mean. Qed.
Print Assumptions C42_prediction_is_mean.

Theorem C42_between_neighbours : forall m0 m tu ti,
  trained_on m0 m tu ti -> numeric m0 ->
  forall c coo nb user item skip p lo hi,
  fitted_with c m0 m coo nb -> known_user m0 user -> known_item m0 item ->
  predict (knn_predict c m nb) true m user item skip = Ok (Some p) -> kn_avg c = false ->
  (forall u i l b x, user_to_uid m user = Ok (Some u) -> item_to_iid m item = Ok (Some i) ->
     neighbours nb (if kn_user c then u else i) = Ok l -> In b (map snd l) ->
     first_obs (entity_first c (obs m)) b (if kn_user c then i else u) = Some x -> (lo <= x)%Qc /\ (x <= hi)%Qc) ->
  (lo <= p)%Qc /\ (p <= hi)%Qc.
Proof. exact predict_between. Qed.
Print Assumptions C42_between_neighbours.

(** with or without averages, a prediction is never outside the range of the data *)
Theorem C42_within_data : forall m0 m tu ti,
  trained_on m0 m tu ti -> numeric m0 ->
  forall c coo nb user item skip p lo hi,
  fitted_with c m0 m coo nb -> known_user m0 user -> known_item m0 item ->
  predict (knn_predict c m nb) true m user item skip = Ok (Some p) ->
  (forall r, In r (rows_of m0) -> (lo <= interaction_of r)%Qc /\ (interaction_of r <= hi)%Qc) ->
  (lo <= p)%Qc /\ (p <= hi)%Qc.
Proof. exact predict_within. Qed.
Print Assumptions C42_within_data.

Example C42_example :
  fitted_with kx_user kx kx_trained kx_coo (fit_nbs kx_user kx_trained) /\
  fitted_with kx_item kx kx_trained kx_coo (fit_nbs kx_item kx_trained) /\
  known_user kx (VInt 7) /\ known_item kx (VStr "b") /\ known_item kx (VStr "c") /\
  (* (3/4 * 5 + 1/2 * 4) / (5/4) *)
  score_of (predict (knn_predict kx_user kx_trained (fit_nbs kx_user kx_trained)) true kx_trained (VInt 7) (VStr "b") true)
    = Some (23 # 5)%Q /\
  says (obs kx_trained) [(threeq, 2); (half, 1)] 1 = [(Qc_of_Z 5, threeq); (Qc_of_Z 4, half)] /\
  predict (knn_predict kx_user kx_trained (fit_nbs kx_user kx_trained)) true kx_trained (VInt 5) (VStr "c") true = Ok None /\
  score_of (predict (knn_predict kx_item kx_trained (fit_nbs kx_item kx_trained)) true kx_trained (VInt 9) (VStr "b") true)
    = Some (13 # 4)%Q.
Proof.
  split; [apply kx_fitted; auto|]. split; [apply kx_fitted; auto|]. split; [vm_compute; auto|].
  split; [vm_compute; auto|]. split; [vm_compute; tauto|]. repeat split; vm_compute; reflexivity.
Qed.

(** *** C43 *)
(** ItemKNN: a ranking has the best predicted items, with their predictions *)
Theorem C43_item_knn_ranks_predictions : forall m0 m tu ti,
  trained_on m0 m tu ti -> numeric m0 ->
  forall c nb fitted user items novelty skip n out,
  kn_user c = false -> type_of user = tu -> Forall (fun v => type_of v = ti) items ->
  rank (knn_rank c m nb) fitted m user items novelty skip n = Ok out ->
  exists out', items_named out out' /\
    best_of (candidate m0 user novelty (fun v => In v items))
      (fun v s => predict (knn_predict c m nb) true m user v false = Ok (Some s))
      (match n with Some k => Z.to_nat k | None => count_known m0 items end) out'.
Proof. exact item_knn_rank. Qed.
Print Assumptions C43_item_knn_ranks_predictions.

Theorem C43_item_knn_recommends_predictions : forall m0 m tu ti,
  trained_on m0 m tu ti -> numeric m0 ->
  forall c nb fitted n_items user n novelty threshold out,
  kn_user c = false -> type_of user = tu -> count_unique m (Some ["iid"]) = Ok n_items ->
  recommend (knn_rank c m nb) fitted m n_items user n novelty threshold = Ok out ->
  exists out', items_named out out' /\
    best_of (candidate m0 user novelty (fun _ => True))
      (fun v s => predict (knn_predict c m nb) true m user v false = Ok (Some s) /\
                  forall t, threshold = Some t -> (t <= s)%Qc)
      (match n with Some k => Z.to_nat k | None => n_items end) out'.
Proof. exact item_knn_recommend. Qed.
Print Assumptions C43_item_knn_recommends_predictions.

(** UserKNN: the same without averages and without repeated pairs.  Both
    conditions are needed, see the refutations. *)
Theorem C43_user_knn_ranks_predictions_partial : forall m0 m tu ti,
  trained_on m0 m tu ti -> numeric m0 ->
  forall c nb fitted user items novelty skip n out,
  kn_user c = true -> no_repeats (obs m) -> kn_avg c = false ->
  type_of user = tu -> Forall (fun v => type_of v = ti) items ->
  rank (knn_rank c m nb) fitted m user items novelty skip n = Ok out ->
  exists out', items_named out out' /\
    best_of (candidate m0 user novelty (fun v => In v items))
      (fun v s => predict (knn_predict c m nb) true m user v false = Ok (Some s))
      (match n with Some k => Z.to_nat k | None => count_known m0 items end) out'.
Proof. exact user_knn_rank. Qed.
Print Assumptions C43_user_knn_ranks_predictions_partial.

Theorem C43_user_knn_recommends_predictions_partial : forall m0 m tu ti,
  trained_on m0 m tu ti -> numeric m0 ->
  forall c nb fitted n_items user n novelty threshold out,
  kn_user c = true -> no_repeats (obs m) -> kn_avg c = false ->
  type_of user = tu -> count_unique m (Some ["iid"]) = Ok n_items ->
  recommend (knn_rank c m nb) fitted m n_items user n novelty threshold = Ok out ->
  exists out', items_named out out' /\
    best_of (candidate m0 user novelty (fun _ => True))
      (fun v s => predict (knn_predict c m nb) true m user v false = Ok (Some s) /\
                  forall t, threshold = Some t -> (t <= s)%Qc)
      (match n with Some k => Z.to_nat k | None => n_items end) out'.
Proof. exact user_knn_recommend. Qed.
Print Assumptions C43_user_knn_recommends_predictions_partial.

(** with averages, what is ranked has its predicted score, but items may be missing *)
Theorem C43_user_knn_scores_partial : forall m0 m tu ti,
  trained_on m0 m tu ti -> numeric m0 ->
  forall c nb fitted user items novelty skip n out,
  kn_user c = true -> no_repeats (obs m) ->
  type_of user = tu -> Forall (fun v => type_of v = ti) items ->
  rank (knn_rank c m nb) fitted m user items novelty skip n = Ok out ->
  forall s o, In (s, o) out -> exists v, o = Some v /\ In v items /\ (novelty = true -> ~ interacted m0 user v) /\
    predict (knn_predict c m nb) true m user v false = Ok (Some s).
Proof. exact user_knn_scores. Qed.
Print Assumptions C43_user_knn_scores_partial.

(** rankings and recommendations are always returned to known users *)
Theorem C43_rank_returns : forall m0 m tu ti,
  trained_on m0 m tu ti -> numeric m0 ->
  forall c coo nb user items novelty n,
  fitted_with c m0 m coo nb -> known_user m0 user -> Forall (fun v => type_of v = ti) items ->
  (forall k, n = Some k -> k <= Z.of_nat (count_known m0 items)) ->
  exists out, rank (knn_rank c m nb) true m user items novelty true n = Ok out.
Proof. exact knn_rank_returns. Qed.
Print Assumptions C43_rank_returns.

Theorem C43_recommend_returns : forall m0 m tu ti,
  trained_on m0 m tu ti -> numeric m0 ->
  forall c coo nb n_items user n novelty threshold,
  fitted_with c m0 m coo nb -> known_user m0 user -> count_unique m (Some ["iid"]) = Ok n_items ->
  exists out, recommend (knn_rank c m nb) true m n_items user n novelty threshold = Ok out.
Proof. exact knn_recommend_returns. Qed.
Print Assumptions C43_recommend_returns.

Example C43_example : no_repeats (obs kx_trained) /\
  ranking_of (rank (knn_rank kx_user kx_trained (fit_nbs kx_user kx_trained)) true kx_trained (VInt 7) [VStr "c"; VStr "b"; VStr "a"] false true None)
    = [((23 # 5)%Q, Some (VStr "b")); ((2 # 1)%Q, Some (VStr "a")); ((3 # 2)%Q, Some (VStr "c"))] /\
  ranking_of (rank (knn_rank kx_item kx_trained (fit_nbs kx_item kx_trained)) true kx_trained (VInt 7) [VStr "c"; VStr "b"; VStr "a"] true true None)
    = [((2 # 1)%Q, Some (VStr "c"))].
Proof.
  split; [unfold no_repeats; vm_compute; repeat constructor; simpl; intuition discriminate|].
  split; vm_compute; reflexivity.
Qed.

(** UserKNN, a pair with two rows: predict uses the first, rank both *)
Definition kx3 : mem := mem_of_frame (mkFrame [("user", DInt); ("item", DObj); ("interaction", DFloat)]
  [ex_row 0 7 "a" (Qc_of_Z 1); ex_row 1 5 "b" (Qc_of_Z 2); ex_row 2 5 "b" (Qc_of_Z 4)]).
Lemma kx3_wf : wf_mem kx3.
Proof.
  constructor.
  - constructor.
    + simpl. repeat constructor; simpl; intuition discriminate.
    + simpl. intuition discriminate.
    + simpl. intros r H. intuition; subst; reflexivity.
    + simpl. intros r c t Hr Hc. intuition; subst;
      match goal with H : (_, _) = (_, _) |- _ => injection H as <- <- end; eexists; split; reflexivity.
  - simpl. repeat constructor; simpl; intuition discriminate.
  - simpl. intros c. intuition.
Qed.
Lemma kx3_numeric : numeric kx3.
Proof.
  split; [simpl; tauto|]. split.
  - intros r Hr. simpl in Hr. intuition; subst; do 2 eexists; split; reflexivity.
  - intros r z Hr. simpl in Hr. intuition; subst; discriminate.
Qed.
Definition kx3_coo : list (Z * Z * Qc) := [(1, 0, half); (0, 1, half)].
Lemma kx3_fitted c : kn_user c = true -> kn_shrink c = None -> exists nb, fitted_with c kx3 (assigned kx3) kx3_coo nb /\
  nb = match knn_fit c (fun _ => Ok kx3_coo) (assigned kx3) ([], []) with Ok (_, nb) => nb | Err _ => [] end.
Proof.
  intros U H.
  assert (S : sim_matrix (n_entities c kx3) kx3_coo).
  { unfold n_entities. rewrite U. split.
    - unfold kx3_coo. cbn [map fst]. repeat constructor; simpl; intuition discriminate.
    - intros a b s X. unfold kx3_coo in X. cbn [In] in X.
      repeat match goal with H : _ \/ _ |- _ => destruct H as [H|H] end; try contradiction;
        match goal with H : (_, _, _) = (_, _, _) |- _ => assert (E : (fst (fst (a, b, s)), snd (fst (a, b, s))) = (a, b)) by reflexivity;
          rewrite <- H in E; cbn [fst snd] in E; injection E as <- <- end; vm_compute; repeat split; try discriminate; reflexivity. }
  destruct (fit_returns kx3 (assigned kx3) DInt DObj) with (c := c) (simf := fun _ : list (Z * Z * Qc) => Ok kx3_coo) (coo := kx3_coo) as [t [nb E]];
    auto using kx3_numeric.
  - constructor; try reflexivity; try discriminate; try apply kx3_wf; vm_compute; discriminate.
  - intros h X. congruence.
  - exists nb. split; [|rewrite E; reflexivity]. split; auto. exists (fun _ => Ok kx3_coo), t. auto.
Qed.
Theorem C43_user_knn_repeats_refuted : exists c m0 coo nb user v s s',
  trained_on m0 (assigned m0) DInt DObj /\ numeric m0 /\ fitted_with c m0 (assigned m0) coo nb /\ kn_avg c = false /\
  kn_user c = true /\ known_user m0 user /\ known_item m0 v /\
  predict (knn_predict c (assigned m0) nb) true (assigned m0) user v false = Ok (Some s) /\
  rank (knn_rank c (assigned m0) nb) true (assigned m0) user [v] true false None = Ok [(s', Some v)] /\ s <> s'.
Proof.
  destruct (kx3_fitted (mkKnn true 2 0 true None false) eq_refl eq_refl) as [nb [F E]].
  exists (mkKnn true 2 0 true None false), kx3, kx3_coo, nb, (VInt 7), (VStr "b"). eexists. eexists.
  split; [constructor; try reflexivity; try discriminate; try apply kx3_wf; vm_compute; discriminate|].
  split; [exact kx3_numeric|]. split; [exact F|]. split; [reflexivity|]. split; [reflexivity|].
  split; [vm_compute; auto|]. split; [vm_compute; auto|]. rewrite E.
  split; [vm_compute; reflexivity|]. split; [vm_compute; reflexivity|].
  intros X. apply (f_equal this) in X. vm_compute in X. discriminate.
Qed.
Print Assumptions C43_user_knn_repeats_refuted.

(** UserKNN with averages: an item that no neighbour has an interaction with is
    predicted by its average, but never ranked. *)
Theorem C43_user_knn_averages_refuted : exists c m0 coo nb user v s,
  trained_on m0 (assigned m0) DInt DObj /\ numeric m0 /\ fitted_with c m0 (assigned m0) coo nb /\ kn_avg c = true /\
  kn_user c = true /\ known_user m0 user /\ known_item m0 v /\ no_repeats (obs (assigned m0)) /\
  predict (knn_predict c (assigned m0) nb) true (assigned m0) user v false = Ok (Some s) /\
  rank (knn_rank c (assigned m0) nb) true (assigned m0) user [v] true false None = Ok [].
Proof.
  set (c := mkKnn true 2 1 true None true).
  destruct (fit_returns kx kx_trained DInt DObj kx_trained_on kx_numeric c (fun _ => Ok kx_coo) kx_coo eq_refl kx_sim_matrix)
      as [t [nb E]]; [discriminate|].
  assert (N : nb = fit_nbs c kx_trained) by (unfold fit_nbs; rewrite E; reflexivity).
  exists c, kx, kx_coo, nb, (VInt 5), (VStr "c"). eexists.
  split; [exact kx_trained_on|]. split; [exact kx_numeric|].
  split; [split; [exact kx_sim_matrix|]; exists (fun _ => Ok kx_coo), t; auto|].
  split; [reflexivity|]. split; [reflexivity|]. split; [vm_compute; auto|]. split; [vm_compute; tauto|].
  split; [apply C43_example|]. rewrite N. split; vm_compute; reflexivity.
Qed.
Print Assumptions C43_user_knn_averages_refuted.

(** *** C45 *)
(** The similarity that a fit keeps for two entities is the entry of the matrix
    times n / (n + shrinkage + 1e-6), n the number of common items (users), and
    the order of the two does not matter. *)
Theorem C45_similarity_kept : forall m0 m tu ti,
  trained_on m0 m tu ti -> numeric m0 ->
  forall c simf coo t nb a b, simf (entity_first c (obs m)) = Ok coo -> NoDup (map fst coo) ->
  knn_fit c simf m ([], []) = Ok (t, nb) -> a <> b ->
  (forall s, similar c (entity_first c (obs m)) coo a b s -> get_sim t a b = s) /\
  ((forall s, ~ similar c (entity_first c (obs m)) coo a b s) -> get_sim t a b = 0%Qc) /\ get_sim t a b = get_sim t b a.
Proof. exact fit_sim. Qed.
Print Assumptions C45_similarity_kept.

Theorem C45_towards_zero : forall h, (0 <= h)%Qc -> forall co s, exists s', shrink (Some h) co s = Ok s' /\
  ((0 <= s)%Qc -> (0 <= s')%Qc /\ (s' <= s)%Qc) /\ ((s <= 0)%Qc -> (s <= s')%Qc /\ (s' <= 0)%Qc) /\
  ((0 < co)%nat -> (0 < s)%Qc -> (0 < s')%Qc /\ (s' < s)%Qc) /\
  ((0 < co)%nat -> (s < 0)%Qc -> (s < s')%Qc /\ (s' < 0)%Qc).
Proof. exact shrink_toward_zero. Qed.
Print Assumptions C45_towards_zero.

Theorem C45_monotone : forall h, (0 <= h)%Qc -> forall co co' s a b, (co <= co')%nat ->
  shrink (Some h) co s = Ok a -> shrink (Some h) co' s = Ok b ->
  ((0 <= s)%Qc -> (a <= b)%Qc) /\ ((s <= 0)%Qc -> (b <= a)%Qc).
Proof. exact shrink_monotone. Qed.
Print Assumptions C45_monotone.

Theorem C45_limit : forall h, (0 <= h)%Qc -> forall s eps, (0 < eps)%Qc ->
  exists n0, forall co s', (n0 <= co)%nat -> shrink (Some h) co s = Ok s' -> (- eps <= s - s')%Qc /\ (s - s' <= eps)%Qc.
Proof. exact shrink_limit. Qed.
Print Assumptions C45_limit.

Example C45_example : (exists s, shrink (Some 1%Qc) 2 half = Ok s /\ this s = (1000000 # 3000001)%Q) /\
  (exists s, shrink (Some (Qc_of_Z 100)) 0 threeq = Ok s /\ this s = 0%Q) /\ shrink None 3 threeq = Ok threeq.
Proof. split; [|split]; [eexists; split; vm_compute; reflexivity..|reflexivity]. Qed.

(** Nothing of this holds for a negative shrinkage, which is accepted. *)
Theorem C45_negative_shrinkage_refuted : exists h co s s', shrink (Some h) co s = Ok s' /\ (0 < s)%Qc /\ (s' < 0)%Qc /\ (s' < - s)%Qc.
Proof.
  exists (- Qc_of_Z 3)%Qc, 2%nat, half. eexists. split; [vm_compute; reflexivity|].
  split; [reflexivity|]. split; reflexivity.
Qed.
Print Assumptions C45_negative_shrinkage_refuted.
