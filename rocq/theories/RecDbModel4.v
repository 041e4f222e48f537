(** Model of DRecPy/Evaluation/Processes/predictive_evaluation.py with the test data
    and the training data in a database.  The counterpart for data sets in memory
    is in EvalModel.v.  Definitions only.

    The generator of the test rows is open while predictions are made; its rows are
    those the data set has when it is created.  Metric values are exact.  After an
    exception the generator is left open here, until the traceback is gone in the
    code. *)
From Coq Require Import String Ascii.
From Coq Require Import List ZArith QArith Qcanon Reals Bool.
From Verif Require Import Py MemModel EvalModel DbModel RecDbModel.
Import ListNotations.
Open Scope string_scope.
Open Scope Z_scope.

Section Run.
Variable inode : string -> nat.
Variable ords : nat -> list trow -> list trow.
Notation P := RecDbModel.P.
Local Notation "x <! m ;; k" := (pbind m (fun x => k)) (at level 61, m at next level, right associativity).

(** predictive_evaluation.py:48 *)
Definition triple_of (row : list (option value)) : res (value * value * Qc) :=
  v <- mapM filled row ;;
  match v with
  | [u; i; x] => match num_of x with Some q => Ok (u, i, q) | None => Err TypeError end
  | _ => Err TypeError
  end.

(** 46-60, see [pe_loop] *)
Fixpoint db_pe_loop (predict : value -> value -> P (option Qc)) (count_none : bool) (n made : Z)
  (rows : list (list (option value))) : P (list (Qc * Qc)) :=
  match rows with
  | [] => pret (Ok [])
  | row :: rows' =>
      t <! pret (triple_of row) ;;
      let '(u, i, x) := t in
      if n <=? made then pret (Ok []) else
      p <! predict u i ;;
      match p with
      | None =>
          if count_none then l <! db_pe_loop predict count_none n (made + 1) rows' ;; pret (Ok ((0%Qc, x) :: l))
          else db_pe_loop predict count_none n made rows'
      | Some q => l <! db_pe_loop predict count_none n (made + 1) rows' ;; pret (Ok ((q, x) :: l))
      end
  end.

(** 63: of pairs of a prediction and the true value *)
Definition metric_dict (metrics : list pmetric) (l : list (Qc * Qc)) : res (list (string * R)) :=
  let y_true := map (fun p => R_of (snd p)) l in
  let y_pred := map (fun p => R_of (fst p)) l in
  vs <- mapM (fun m => x <- pm_call m y_true y_pred ;; Ok (pm_name m, round4 x)) metrics ;;
  Ok (fold_left (fun d p => assoc_set String.eqb (fst p) (snd p) d) vs []).

(** 26-65; [j] is ds_test, or the training data if it is None (line 26).  The
    generator ends with its last row or when the function returns. *)
Definition db_predictive (predict : value -> value -> bool -> P (option Qc)) (j : nat) (a : pe_args) : P (list (string * R)) :=
  n <! (match p_n a with Some n => pret (Ok n) | None => len <! db (ds_len j) ;; pret (Ok (Z.of_nat len)) end) ;;
  if negb (0 <? n) then pret (Err AssertionError) else
  len <! db (ds_len j) ;;
  rows <! dbo ords (fun ord => values inode ord j (Some ["user"; "item"; "interaction"]) true) ;;
  l <! db_pe_loop (fun u i => predict u i (p_skip a)) (p_count_none a) (Z.min n (Z.of_nat len)) 0 rows ;;
  _ <! db close_generator ;;
  pret (metric_dict (p_metrics a) l).
End Run.
