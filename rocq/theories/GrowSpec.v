(** Specification vocabulary for values of a metric at different k. *)
From Coq Require Import String.
From Coq Require Import List ZArith Reals Bool.
From Verif Require Import Py MetricModel EvalModel.
Import ListNotations.
Open Scope Z_scope.

(** whether a metric has a value does not depend on k, and it does not fall with k *)
Definition grows (m : metric) : Prop :=
  forall c k k', 0 < k <= k' ->
    match mc_call m c k, mc_call m c k' with
    | Ok x, Ok y => (x <= y)%R
    | Err _, Err _ => True
    | _, _ => False
    end.

(** the values of a metric at k and k' in a result *)
Definition grown (m : metric) (k k' : Z) (r : list (mkey * R)) : Prop :=
  exists v v', In ((mc_name m, k), v) r /\ In ((mc_name m, k'), v') r /\ (v <= v')%R.
