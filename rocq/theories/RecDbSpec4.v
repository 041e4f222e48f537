(** Fitting a recommender and evaluating its predictions, on data sets in memory
    and on data sets in a database. *)
From Coq Require Import String Ascii.
From Coq Require Import List ZArith QArith Qcanon Reals Bool Permutation.
From Verif Require Import Py MemModel MemSpec RankModel KnnModel KnnSpec FitModel EvalModel DbModel TwinSpec
  RecDbModel RecDbModel2 RecDbModel4 RecDbSpec RecDbSpec2.
Import ListNotations.
Open Scope string_scope.

(** The recommenders that predict numbers: the neighbourhood recommenders with
    their parameters and similarity, and DMF with what its network computes after
    training and the vectors read during training. *)
Inductive learner :=
| Neighbours (c : knn) (simf : list (Z * Z * Qc) -> res (list (Z * Z * Qc)))
| Factors (net : list Qc -> list Qc -> Qc) (reads : list vread).

(** [mt]: the test data, None for the training data *)
Definition tested (m : mem) (mt : option mem) : mem := match mt with Some mt => mt | None => m end.
Definition mem_evaluate (L : learner) (m0 : mem) (mt : option mem) (a : pe_args) : res (list (string * R)) :=
  let '(m, r) := begin_fit m0 false in
  let test := tested m mt in
  f <- r ;;
  match L with
  | Neighbours c simf =>
      st <- knn_fit c simf m ([], []) ;;
      predictive_evaluation (recommender (knn_rank c m (snd st)) (knn_predict c m (snd st)) m (fi_items f)) test a
  | Factors net reads =>
      let p := dmf_predict net (snd (mem_reads m reads)) in
      predictive_evaluation (recommender (rank_abc p m) p m (fi_items f)) test a
  end.

(** [j]: the test data, None for the training data [i]; [lu], [li] limit the caches
    of vectors during training *)
Definition db_evaluate (inode : string -> nat) (ords : nat -> list trow -> list trow) (lu li : nat) (L : learner) (i : nat)
  (j : option nat) (a : pe_args) : P (list (string * R)) :=
  let test := match j with Some j => j | None => i end in
  pbind (db_begin_fit inode i false) (fun f =>
  match L with
  | Neighbours c simf =>
      pbind (db_knn_fit inode ords c simf f i ([], [])) (fun st =>
      db_predictive inode ords (db_predict inode (db_knn_predict inode ords c i (snd st)) true i) test a)
  | Factors net reads =>
      pbind (db_reads inode ords lu li i reads ([], [])) (fun _ =>
      db_predictive inode ords (db_predict inode (db_dmf_predict inode ords net i) true i) test a)
  end).

(** What the other theorems about these recommenders ask for. *)
Definition learns (m0 m : mem) (L : learner) : Prop :=
  match L with
  | Neighbours _ simf => no_repeats (obs m) /\ forall es es', Permutation es es' -> simf es = simf es'
  | Factors _ _ => n_distinct "user" m0 <> 1%nat
  end.

(** Test data: numbers as interactions, ids of the types of the training data, no
    integer beyond 2^53. *)
Definition test_data (m0 mt : mem) : Prop :=
  numeric mt /\ (forall c, In c ["user"; "item"] -> In c (m_columns mt) /\ col_type mt c = col_type m0 c /\ small_col mt c).
(** The test data in the program with the database and in the one with memory: the
    training data itself, or another data set. *)
Definition same_test (mb : mbook) (i : nat) (j : option nat) (mt : option mem) : Prop :=
  (j = None /\ mt = None) \/ (exists k m', j = Some k /\ k <> i /\ mt = Some m' /\ mb k = Some m').
(** Every row of the test data can be among the predictions. *)
Definition all_rows (mt : mem) (a : pe_args) : Prop :=
  match p_n a with Some n => (Z.of_nat (mem_len mt) <= n)%Z | None => True end.
(** A metric that does not look at the order of the predictions. *)
Definition orderless (pm : pmetric) : Prop :=
  forall l l' : list (R * R), Permutation l l' -> pm_call pm (map fst l) (map snd l) = pm_call pm (map fst l') (map snd l').
