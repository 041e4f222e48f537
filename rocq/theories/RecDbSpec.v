(** Using a neighbourhood recommender: fit, then predictions, rankings and
    recommendations, on a data set in memory and on one in a database. *)
From Coq Require Import String Ascii.
From Coq Require Import List ZArith QArith Qcanon Bool.
From Verif Require Import Py MemModel RankModel KnnModel FitModel DbModel TwinSpec RecDbModel.
Import ListNotations.
Open Scope string_scope.

(** The statistics that fit stores; the bounds are numbers with the same value. *)
Definition same_info (f f' : fit_info) : Prop :=
  same_cell (fi_min f) (fi_min f') /\ same_cell (fi_max f) (fi_max f') /\
  fi_users f = fi_users f' /\ fi_items f = fi_items f' /\ fi_rows f = fi_rows f'.
Definition same_start (r r' : res fit_info) : Prop :=
  match r, r' with
  | Ok f, Ok f' => same_info f f'
  | Err e, Err e' => e = e'
  | _, _ => False
  end.

(** What is asked of a fitted recommender, with the arguments of predict, rank
    and recommend. *)
Inductive ask :=
| APredict (user item : value) (skip_errors : bool)
| ARank (user : value) (items : list value) (novelty skip_invalid : bool) (n : option Z)
| ARecommend (user : value) (n : option Z) (novelty : bool) (threshold : option Qc).
Inductive said :=
| SScore (s : option Qc)
| SList (l : list (Qc * option value)).
Definition score (r : res (option Qc)) : res said := s <- r ;; Ok (SScore s).
Definition ranked (r : res (list (Qc * option value))) : res said := l <- r ;; Ok (SList l).

(** In memory: [m] is the training data with internal ids. *)
Definition mem_ask (c : knn) (m : mem) (n_items : nat) (nb : nbs) (a : ask) : res said :=
  match a with
  | APredict u it sk => score (predict (knn_predict c m nb) true m u it sk)
  | ARank u items nov sk n => ranked (rank (knn_rank c m nb) true m u items nov sk n)
  | ARecommend u n nov th => ranked (recommend (knn_rank c m nb) true m n_items u n nov th)
  end.
Definition mem_run (c : knn) (simf : list (Z * Z * Qc) -> res (list (Z * Z * Qc))) (m0 : mem) (l : list ask) : res (list (res said)) :=
  let '(m, r) := begin_fit m0 false in
  f <- r ;;
  st <- knn_fit c simf m ([], []) ;;
  Ok (map (mem_ask c m (fi_items f) (snd st)) l).

(** In a database: every question is asked in the state the previous one left. *)
Section Db.
Variable inode : string -> nat.
Variable ords : nat -> list trow -> list trow.
Definition db_ask (c : knn) (i : nat) (n_items : nat) (nb : nbs) (a : ask) : P said :=
  match a with
  | APredict u it sk => pbind (db_predict inode (db_knn_predict inode ords c i nb) true i u it sk) (fun s => pret (Ok (SScore s)))
  | ARank u items nov sk n =>
      pbind (db_rank inode (db_knn_rank inode ords c i nb) true i u items nov sk n) (fun l => pret (Ok (SList l)))
  | ARecommend u n nov th =>
      pbind (db_recommend inode (db_knn_rank inode ords c i nb) true i n_items u n nov th) (fun l => pret (Ok (SList l)))
  end.
Fixpoint db_asks (c : knn) (i : nat) (n_items : nat) (nb : nbs) (l : list ask) : P (list (res said)) :=
  match l with
  | [] => pret (Ok [])
  | a :: l' => fun s => let '(s1, r) := db_ask c i n_items nb a s in
                        pbind (db_asks c i n_items nb l') (fun rs => pret (Ok (r :: rs))) s1
  end.
Definition db_run (c : knn) (simf : list (Z * Z * Qc) -> res (list (Z * Z * Qc))) (i : nat) (l : list ask) : P (list (res said)) :=
  pbind (db_begin_fit inode i false) (fun f =>
  pbind (db_knn_fit inode ords c simf f i ([], [])) (fun st =>
  db_asks c i (fi_items f) (snd st) l)).
End Db.

(** Raw ids of the type of their column, which is text or integer. *)
Definition raw_value (m : mem) (c : string) (v : value) : Prop := exists t, col_type m c = Ok t /\ t <> DFloat /\ type_of v = t.
Definition asks_ids (m0 : mem) (a : ask) : Prop :=
  match a with
  | APredict u it _ => raw_value m0 "user" u /\ raw_value m0 "item" it
  | ARank u items _ _ _ => raw_value m0 "user" u /\ Forall (raw_value m0 "item") items
  | ARecommend u _ _ _ => raw_value m0 "user" u
  end.
