(** Model of the base class of early stopping rules with any number of required metrics:
    DRecPy/Recommender/EarlyStopping/early_stopping_rule_abc.py:15-65.  Definitions only.

    [best] is the method _compute_best_epoch of the subclass.  Results are a dict of
    lists, as LossTracker makes them, so the checks of types (lines 35-36, 41-43) pass. *)
From Coq Require Import String Ascii.
From Coq Require Import List QArith Bool.
From Verif Require Import Py TrainModel.
Import ListNotations.
Open Scope string_scope.

(** 15-20: required_validation_metrics, or InvalidRequiredValidationMetricsException *)
Definition rule_init (required : option (list string)) : res (list string) :=
  match required with
  | None | Some [] => Err GenericException
  | Some l => Ok l
  end.

(** 35-65 *)
Definition rule_compute (best : list Q -> list (string * list Q) -> list nat -> computed) (required : list string)
    (losses : list Q) (results : list (string * list Q)) (called : list nat) : computed :=
  match results with
  | [] => Invalid
  | _ =>
    let names := map fst (metric_names required results) in
    if negb (forallb (fun m => mem_b String.eqb m names) required) then Invalid else
    let tr := translated required results in
    if negb (forallb (fun m => match assoc String.eqb m tr with Some (_ :: _) => true | _ => false end) required)
    then Invalid
    else best losses tr called
  end.
