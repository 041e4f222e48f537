(** Fitting a recommender and evaluating its rankings and recommendations, on data
    sets in memory and on data sets in a database. *)
From Coq Require Import String Ascii.
From Coq Require Import List ZArith QArith Qcanon Reals Bool Permutation.
From Verif Require Import Py MemModel MemSpec RankModel KnnModel KnnSpec FitModel EvalModel EvalSpec DbModel TwinSpec DbSplitSpec
  RecDbModel RecDbModel2 RecDbModel3 RecDbModel5 RecDbSpec RecDbSpec2 RecDbSpec3 RecDbSpec4.
Import ListNotations.
Open Scope string_scope.

(** The recommenders: the neighbourhood recommenders with their parameters and
    similarity, DMF and CDAE with what their network computes after training and the
    vectors read during training, and Caser. *)
Inductive ranker :=
| RNeighbours (c : knn) (simf : list (Z * Z * Qc) -> res (list (Z * Z * Qc)))
| RNetwork (k : network) (reads : list vread)
| RCaser (c : caser).

(** ** In memory.  The processes do not ask for predictions. *)
Definition mem_fit (L : ranker) (m0 : mem) : res model :=
  let '(m, r) := begin_fit m0 false in
  f <- r ;;
  match L with
  | RNeighbours c simf => st <- knn_fit c simf m ([], []) ;; Ok (recommender (knn_rank c m (snd st)) no_prediction m (fi_items f))
  | RNetwork k reads => Ok (recommender (net_rank k (snd (mem_reads m reads)) m (fi_items f)) no_prediction m (fi_items f))
  | RCaser c => Ok (recommender (rank_caser (caser_vec c m) m (fi_items f)) no_prediction m (fi_items f))
  end.
(** [mt]: the test data, None for the training data *)
Definition is_train {A} (t : option A) : bool := match t with None => true | Some _ => false end.
Definition mem_ranking (fmul : Z -> Qc -> Qc) (fuel : nat) (L : ranker) (m0 : mem) (mt : option mem) (a : re_args) (rngs : Z -> rng)
  (sched : nat -> option nat) (t : nat) : eoutcome :=
  match mem_fit L m0 with
  | Err e => ERaised e
  | Ok md => ranking_evaluation fmul fuel md (is_train mt) (tested (md_ds md) mt) a rngs sched t
  end.
Definition mem_recommendation (L : ranker) (m0 : mem) (mt : option mem) (a : rc_args) (rngs : Z -> rng)
  (sched : nat -> option nat) (t : nat) : eoutcome :=
  match mem_fit L m0 with
  | Err e => ERaised e
  | Ok md => recommendation_evaluation md (tested (md_ds md) mt) a rngs sched t
  end.

(** ** In a database: [i] is the training data, [j] the test data, None for the
    training data; [lu], [li] limit the caches of vectors during training. *)
Section Db.
Variable inode : string -> nat.
Variable ords : nat -> list trow -> list trow.
Variables (lu li : nat).
Definition db_fit (L : ranker) (i : nat) : P db_model :=
  pbind (db_begin_fit inode i false) (fun f =>
  match L with
  | RNeighbours c simf =>
      pbind (db_knn_fit inode ords c simf f i ([], [])) (fun st =>
      pret (Ok (db_recommender inode (db_knn_rank inode ords c i (snd st)) i (fi_items f))))
  | RNetwork k reads =>
      pbind (db_reads inode ords lu li i reads ([], [])) (fun _ =>
      pret (Ok (db_recommender inode (db_net_rank inode ords k i (fi_items f)) i (fi_items f))))
  | RCaser c => pret (Ok (db_recommender inode (db_rank_caser inode ords c i (fi_items f)) i (fi_items f)))
  end).
Definition db_ranking (fmul : Z -> Qc -> Qc) (fuel : nat) (L : ranker) (i : nat) (j : option nat) (a : re_args) (rngs : Z -> rng)
  (tsched : nat -> nat) (tt : nat) (sched : nat -> option nat) (t : nat) (s : nat * world) : (nat * world) * eoutcome :=
  match db_fit L i s with
  | (s1, Err e) => (s1, ERaised e)
  | (s1, Ok dm) =>
      db_ranking_evaluation inode ords fmul fuel dm (is_train j) (match j with Some j => j | None => i end) a rngs tsched tt sched t s1
  end.
Definition db_recommendation (L : ranker) (i : nat) (j : option nat) (a : rc_args) (rngs : Z -> rng)
  (tsched : nat -> nat) (tt : nat) (sched : nat -> option nat) (t : nat) (s : nat * world) : (nat * world) * eoutcome :=
  match db_fit L i s with
  | (s1, Err e) => (s1, ERaised e)
  | (s1, Ok dm) =>
      db_recommendation_evaluation inode ords dm (match j with Some j => j | None => i end) a rngs tsched tt sched t s1
  end.
End Db.

(** ** What is asked for *)

(** What the other theorems about these recommenders ask for, with the rows by
    record id. *)
Definition trains (m0 m : mem) (L : ranker) : Prop :=
  match L with
  | RNeighbours _ simf => no_repeats (obs m) /\ forall es es', Permutation es es' -> simf es = simf es'
  | RNetwork _ _ => n_distinct "user" m0 <> 1%nat
  | RCaser c => forall k, cs_sort c = Some k -> In k (m_columns m) -> small_col m k
  end.
(** Every task goes on again and again. *)
Definition fair (tsched : nat -> nat) : Prop := forall k t, exists t', (t <= t')%nat /\ tsched t' = k.
(** No data set had more than 5000 rows when its table was made
    (db_dataset.py:800-803). *)
Definition small_world (w : world) : Prop := forall n x, w_inst w n = Some x -> (i_before x <= 5000)%nat.

(** The arguments of the metrics, with numbers of the same value. *)
Record same_case (c c' : case) : Prop := {
  sc_recs : c_recs c = c_recs c';
  sc_rel : Forall2 same_value (c_rel c) (c_rel c');
  sc_best : match c_best c, c_best c' with Some v, Some v' => same_value v v' | None, None => True | _, _ => False end;
  sc_rels : Forall2 (fun p p' => same_value (fst p) (fst p') /\ snd p = snd p') (c_rels c) (c_rels c') }.
(** A metric that does not tell 3 from 3.0. *)
Definition blind_metric (m : metric) : Prop := forall c c' k, same_case c c' -> mc_call m c k = mc_call m c' k.
(** In memory, a row of a data set with a column of floats is read as floats. *)
Definition no_floats (m : mem) : Prop := forall c, In c (m_columns m) -> c <> "rid" -> col_type m c <> Ok DFloat.
