(** Vocabulary of repeated fits of the neighbourhood recommenders. *)
From Coq Require Import List ZArith QArith Qcanon.
From Verif Require Import Py MemModel MemSpec RankSpec KnnModel KnnSpec.
Import ListNotations.
Open Scope Z_scope.

(** The data of a fit, entities first, and the entries of its similarity matrix. *)
Definition fit_data : Type := list (Z * Z * Qc) * list (Z * Z * Qc).

(** The similarity of two entities in the last fit that gave them one; last fit first. *)
Fixpoint remembered (c : knn) (fits : list fit_data) (a b : Z) (s : Qc) : Prop :=
  match fits with
  | [] => False
  | (es, coo) :: older => similar c es coo a b s \/ ((forall s', ~ similar c es coo a b s') /\ remembered c older a b s)
  end.

(** [st] is what the model knows after the fits, last one first. *)
Inductive fitted_times (c : knn) : list fit_data -> sims * nbs -> Prop :=
| never : fitted_times c [] ([], [])
| again fits st m0 m tu ti simf coo st' : fitted_times c fits st ->
    trained_on m0 m tu ti -> numeric m0 -> simf (entity_first c (obs m)) = Ok coo -> sim_matrix (n_entities c m0) coo ->
    knn_fit c simf m st = Ok st' -> fitted_times c ((entity_first c (obs m), coo) :: fits) st'.
