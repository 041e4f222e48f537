(** C41 and C42 for models that are fitted more than once. *)
From Coq Require Import String Ascii.
From Coq Require Import List ZArith QArith Qcanon Bool Lia.
From Verif Require Import Py PyFacts MemModel MemSpec MemFacts3 RankModel RankSpec KnnModel KnnSpec KnnSpec2 KnnFacts5 PropKnn.
Import ListNotations.
Open Scope string_scope.
Open Scope Z_scope.

(** *** C41, after any number of fits: neighbours are the best by the similarities of
    the last fit that gave the two entities one. *)
Theorem C41_all_fits_partial : forall m0 m tu ti, trained_on m0 m tu ti -> numeric m0 ->
  forall c fits st simf coo st', fitted_times c fits st -> simf (entity_first c (obs m)) = Ok coo -> sim_matrix (n_entities c m0) coo ->
  knn_fit c simf m st = Ok st' ->
  forall a, 0 <= a < Z.of_nat (n_entities c m0) ->
  exists l, neighbours (snd st') a = Ok l /\
    best_of (fun b => 0 <= b < Z.of_nat (n_entities c m0) /\ b <> a)
      (fun b s => (0 < s)%Qc /\ remembered c ((entity_first c (obs m), coo) :: fits) a b s) (Z.to_nat (kn_k c)) l.
Proof. intros m0 m tu ti T Nm c fits st simf coo st' F S M E a B. exact (fits_best m0 m tu ti T Nm c fits st simf coo st' F S M E a B). Qed.
Print Assumptions C41_all_fits_partial.

(** If any two entities that were similar in an earlier fit have a similarity in the
    new data, too, then neighbours and predictions are those of a new model. *)
Theorem C41_again_partial : forall m0 m tu ti, trained_on m0 m tu ti -> numeric m0 ->
  forall c fits st simf coo st' nb, fitted_times c fits st -> simf (entity_first c (obs m)) = Ok coo -> sim_matrix (n_entities c m0) coo ->
  knn_fit c simf m st = Ok st' -> fitted_with c m0 m coo nb ->
  (forall a b s, 0 <= a < Z.of_nat (n_entities c m0) -> 0 <= b < Z.of_nat (n_entities c m0) -> a <> b -> (0 < s)%Qc ->
     remembered c fits a b s -> exists s', similar c (entity_first c (obs m)) coo a b s') ->
  (forall a, 0 <= a < Z.of_nat (n_entities c m0) -> neighbours (snd st') a = neighbours nb a) /\
  (forall user item skip_errors, type_of user = tu -> type_of item = ti ->
     predict (knn_predict c m (snd st')) true m user item skip_errors = predict (knn_predict c m nb) true m user item skip_errors).
Proof.
  intros m0 m tu ti T Nm c fits st simf coo st' nb F S M E W H.
  assert (G := fits_fresh m0 m tu ti T Nm c fits st simf coo st' F S M E H nb W). split; [exact G|].
  intros user item sk Tu Ti. exact (neighbours_predicts m0 m tu ti T Nm c nb (snd st') user item sk G Tu Ti).
Qed.
Print Assumptions C41_again_partial.

(** Fitting a model a second time on the same data changes nothing. *)
Theorem C41_same_data : forall m0 m tu ti, trained_on m0 m tu ti -> numeric m0 ->
  forall c simf coo st st', simf (entity_first c (obs m)) = Ok coo -> sim_matrix (n_entities c m0) coo ->
  knn_fit c simf m ([], []) = Ok st -> knn_fit c simf m st = Ok st' ->
  (forall a, 0 <= a < Z.of_nat (n_entities c m0) -> neighbours (snd st') a = neighbours (snd st) a) /\
  (forall user item skip_errors, type_of user = tu -> type_of item = ti ->
     predict (knn_predict c m (snd st')) true m user item skip_errors = predict (knn_predict c m (snd st)) true m user item skip_errors).
Proof.
  intros m0 m tu ti T Nm c simf coo st st' S M E1 E2.
  assert (F : fitted_times c [(entity_first c (obs m), coo)] st) by (eapply again; eauto using never).
  apply (C41_again_partial m0 m tu ti T Nm c _ st simf coo st' (snd st) F S M E2).
  - split; [exact M|]. exists simf, (fst st). split; [exact S|]. rewrite E1. destruct st; reflexivity.
  - intros a b s _ _ _ _ [H|[_ []]]. eauto.
Qed.
Print Assumptions C41_same_data.

(** [kx] after data in which nobody was similar, and twice. *)
Definition sim21 (es : list (Z * Z * Qc)) : res (list (Z * Z * Qc)) := Ok (if (length es =? 6)%nat then kx_coo else no_sims 3).
Definition fit21 (m : mem) (st : sims * nbs) : sims * nbs := match knn_fit kx_user sim21 m st with Ok st' => st' | Err _ => st end.
Definition nbs21 (st : sims * nbs) : list (Z * list (Q * Z)) := map (fun p => (fst p, map (fun q => (this (fst q), snd q)) (snd p))) (snd st).
Lemma kx2_trained_on : trained_on kx2 (assigned kx2) DInt DObj.
Proof. constructor; try reflexivity; try discriminate; try apply kx2_wf; vm_compute; discriminate. Qed.
Lemma kx2_numeric : numeric kx2.
Proof.
  split; [simpl; tauto|]. split.
  - intros r Hr. simpl in Hr. intuition; subst; do 2 eexists; split; reflexivity.
  - intros r z Hr. simpl in Hr. intuition; subst; discriminate.
Qed.
Lemma no_sims_matrix : sim_matrix 3 (no_sims 3).
Proof.
  split; [cbn; repeat constructor; simpl; intuition discriminate|].
  intros a b s H. unfold no_sims in H. apply in_map_iff in H. destruct H as (x & E & Hx). injection E as <- <- _. apply in_map_iff in Hx.
  destruct Hx as (k & <- & Hk). apply in_seq in Hk. lia.
Qed.
Lemma fit21_kx2 : fitted_times kx_user [(entity_first kx_user (obs (assigned kx2)), no_sims 3)] (fit21 (assigned kx2) ([], [])).
Proof. eapply (again kx_user [] ([], []) kx2 (assigned kx2) DInt DObj sim21); [constructor|exact kx2_trained_on|exact kx2_numeric|reflexivity|exact no_sims_matrix|vm_compute; reflexivity]. Qed.
(** The first data set leaves nothing to remember; the second fit gives the neighbours
    of a new model. *)
Example C41_again_example :
  fitted_times kx_user [(entity_first kx_user (obs (assigned kx2)), no_sims 3)] (fit21 (assigned kx2) ([], [])) /\
  knn_fit kx_user sim21 kx_trained (fit21 (assigned kx2) ([], [])) = Ok (fit21 kx_trained (fit21 (assigned kx2) ([], []))) /\
  (forall a b s, a <> b -> ~ remembered kx_user [(entity_first kx_user (obs (assigned kx2)), no_sims 3)] a b s) /\
  neighbours (snd (fit21 kx_trained (fit21 (assigned kx2) ([], [])))) 0 = Ok [(threeq, 2); (half, 1)] /\
  neighbours (snd (fit21 kx_trained (fit21 kx_trained (fit21 (assigned kx2) ([], []))))) 0 = Ok [(threeq, 2); (half, 1)].
Proof.
  split; [exact fit21_kx2|]. split; [vm_compute; reflexivity|]. split; [|split; vm_compute; reflexivity].
  intros a b s D [(raw & H & _)|[_ []]]. unfold no_sims in H. apply in_map_iff in H. destruct H as (x & E & _). injection E as E1 E2 _. lia.
Qed.
(** After [kx], users 0 and 2 of the other data set are still neighbours (C41_second_fit_refuted). *)
Example C41_all_fits_example :
  neighbours (snd (fit21 (assigned kx2) (fit21 kx_trained ([], [])))) 0 = Ok [(threeq, 2); (half, 1)] /\
  neighbours (snd (fit21 (assigned kx2) ([], []))) 0 = Ok [].
Proof. split; vm_compute; reflexivity. Qed.
