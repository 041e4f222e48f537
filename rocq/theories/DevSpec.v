(** Specification vocabulary for regression metrics of parts of the predictions. *)
From Coq Require Import String.
From Coq Require Import List ZArith QArith Reals.
From Verif Require Import Py MetricModel EvalModel.
Import ListNotations.
Open Scope R_scope.

(** [z] is not outside of [x] and [y] *)
Definition between (x y z : R) : Prop := Rmin x y <= z <= Rmax x y.

(** a metric of two lists together is between those of the lists *)
Definition averaging (pm : pmetric) : Prop :=
  forall a b a' b' x y, pm_call pm a b = Ok x -> pm_call pm a' b' = Ok y ->
  exists z, pm_call pm (a ++ a') (b ++ b') = Ok z /\ between x y z.
