(** Model of DRecPy/Evaluation/Metrics/ranking.py and regression.py.
    Definitions only.

    Item ids are [value]s compared with Python's [==] ([val_eqb]); int / int
    division gives an exact rational; DCG works on reals because of [2 ** rel]
    and [log2]. *)
From Coq Require Import String.
From Coq Require Import List ZArith QArith Qreals Reals Bool.
From Verif Require Import Py.
Import ListNotations.
Open Scope Z_scope.

(** a / b *)
Definition qdiv (a b : Q) : res Q := if Qeq_bool b 0 then Err ZeroDivisionError else Ok (a / b)%Q.
Definition nat_div (a b : nat) : res Q := qdiv (inject_Z (Z.of_nat a)) (inject_Z (Z.of_nat b)).

(** [len(set(a).intersection(set(b)))] *)
Definition n_common {A} (eqb : A -> A -> bool) (a b : list A) : nat :=
  length (filter (fun x => mem_b eqb x (dedup eqb b)) (dedup eqb a)).

(** ranking.py:109-114.  [None] for the relevant items gives 0 (line 109). *)
Definition hit_ratio (recs : list value) (k : option Z) (rel : option (list value)) : res Q :=
  match rel with
  | None => Ok 0%Q
  | Some rel =>
      let a := map str_of_value (py_trunc k recs) in
      let b := map str_of_value rel in
      nat_div (n_common String.eqb a b) (length (dedup String.eqb b))
  end.

(** ranking.py:131-136 *)
Definition reciprocal_rank (recs : list value) (k : option Z) (rel : option value) : res Q :=
  match rel with
  | None => Ok 0%Q
  | Some x =>
      let recs := py_trunc k recs in
      if mem_b val_eqb x recs then
        match index_of val_eqb x recs with
        | Some p => nat_div 1 (p + 1)
        | None => Err ValueError
        end
      else Ok 0%Q
  end.

(** ranking.py:153-157 *)
Definition recall (recs : list value) (k : option Z) (rel : option (list value)) : res Q :=
  match rel with
  | None => Ok 0%Q
  | Some rel => nat_div (n_common val_eqb (py_trunc k recs) rel) (length rel)
  end.

(** ranking.py:174-178 *)
Definition precision (recs : list value) (k : option Z) (rel : option (list value)) : res Q :=
  match rel with
  | None => Ok 0%Q
  | Some rel => nat_div (n_common val_eqb (py_trunc k recs) rel) (length (py_trunc k recs))
  end.

(** ranking.py:207-212 *)
Definition f_score (beta : Q) (recs : list value) (k : option Z) (rel : option (list value)) : res Q :=
  match rel with
  | None => Ok 0%Q
  | Some _ =>
      p <- precision recs k rel ;;
      r <- recall recs k rel ;;
      qdiv ((1 + beta * beta) * p * r) ((beta * beta * p) + r)
  end.

(** ranking.py:238-242: positions are 1-based; [i] is the position of the head of
    [todo] *)
Fixpoint ap_sum (recs rel : list value) (i : nat) (todo : list value) : res Q :=
  match todo with
  | [] => Ok 0%Q
  | r :: todo' =>
      x <- (if mem_b val_eqb r rel && negb (mem_b val_eqb r (py_take (Z.of_nat i - 1) recs))
            then precision recs (Some (Z.of_nat i)) (Some rel) else Ok 0%Q) ;;
      y <- ap_sum recs rel (S i) todo' ;;
      Ok (x + y)%Q
  end.
(** ranking.py:234-245 *)
Definition average_precision (recs : list value) (k : option Z) (rel : option (list value)) : res Q :=
  match rel with
  | None => Ok 0%Q
  | Some rel =>
      let recs := py_trunc k recs in
      s <- ap_sum recs rel 1 recs ;;
      match k with
      | None => qdiv s (inject_Z (Z.of_nat (length rel)))
      | Some k => qdiv s (inject_Z (Z.min (Z.of_nat (length rel)) k))
      end
  end.

(** ** DCG, over the reals *)
Definition log2 (x : R) : R := (ln x / ln 2)%R.
Definition gain (strong : bool) (rel : Q) : R := if strong then (Rpower 2 (Q2R rel) - 1)%R else Q2R rel.

(** ranking.py:46-53: [i] is the index of the head; a missing key raises *)
Fixpoint dcg_from (strong : bool) (rels : list (value * Q)) (i : nat) (recs : list value) : res R :=
  match recs with
  | [] => Ok 0%R
  | r :: recs' =>
      match assoc val_eqb r rels with
      | None => Err KeyError
      | Some rel =>
          s <- dcg_from strong rels (S i) recs' ;;
          Ok (gain strong rel / log2 (2 + INR i) + s)%R
      end
  end.
(** ranking.py:43-55; the sum is taken from the right *)
Definition dcg (strong : bool) (recs : list value) (k : option Z) (rels : option (list (value * Q))) : res R :=
  match rels with
  | None => Ok 0%R
  | Some rels => dcg_from strong rels 0 (py_trunc k recs)
  end.

(** ranking.py:86: sorted(keys, key=-relevancy), a stable sort *)
Definition best_order (rels : list (value * Q)) : list value :=
  map fst (sort_by (fun a b => Qle_bool (snd b) (snd a)) rels).

(** ranking.py:83-89 *)
Definition ndcg (strong : bool) (recs : list value) (k : option Z) (rels : option (list (value * Q))) : res R :=
  match rels with
  | None => Ok 0%R
  | Some _ =>
      c <- dcg strong recs k rels ;;
      b <- dcg strong (match rels with Some r => best_order r | None => [] end) k rels ;;
      if Req_EM_T b 0 then Err ZeroDivisionError else Ok (c / b)%R
  end.

(** ** regression.py on top of sklearn.metrics: lists of different lengths and
    empty lists are rejected with ValueError (sklearn's input validation) *)
Definition mean (l : list R) : R := (fold_right Rplus 0 l / INR (length l))%R.
Definition checked (f : R * R -> R) (y_true y_pred : list R) : res R :=
  if negb (Nat.eqb (length y_true) (length y_pred)) then Err ValueError else
  if Nat.eqb (length y_true) 0 then Err ValueError else
  Ok (mean (map f (combine y_true y_pred))).
(** regression.py:24-26 *)
Definition mse : list R -> list R -> res R := checked (fun p => Rsqr (fst p - snd p)).
(** regression.py:30-32 *)
Definition rmse (y_true y_pred : list R) : res R := x <- mse y_true y_pred ;; Ok (sqrt x).
(** regression.py:36-38 *)
Definition mae : list R -> list R -> res R := checked (fun p => Rabs (fst p - snd p)).
