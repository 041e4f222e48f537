(** Vocabulary of the property of early stopping rules. *)
From Coq Require Import String Ascii.
From Coq Require Import List QArith Bool.
From Verif Require Import Py TrainSpec.
Import ListNotations.
Open Scope string_scope.

(** [k] reports the required metric [m]; suffixes count only if no required metric has one *)
Definition stands_for (required : list string) (m k : string) : Prop :=
  k = m \/ ((forall m', In m' required -> no_at m') /\ exists suffix, k = m ++ "@" ++ suffix).
(** [l] are the values of the last name that reports [m] *)
Definition last_values (required : list string) (results : list (string * list Q)) (m : string) (l : list Q) : Prop :=
  exists k before after, results = (before ++ (k, l) :: after)%list /\ stands_for required m k /\
    forall k' l', In (k', l') after -> ~ stands_for required m k'.

(** What one expects: the values reported under the name itself or, if there are none
    and it has no suffix, those of a name with a suffix *)
Definition own_values (results : list (string * list Q)) (m : string) (l : list Q) : Prop :=
  In (m, l) results \/
  ((forall l', ~ In (m, l') results) /\ no_at m /\ exists suffix, In (m ++ "@" ++ suffix, l) results).

(** Either all required metrics have a suffix or none has, and no two results report the same *)
Definition uniform (required : list string) : Prop :=
  (forall m, In m required -> no_at m) \/ (forall m, In m required -> ~ no_at m).
Definition unambiguous (required : list string) (results : list (string * list Q)) : Prop :=
  forall m k k', In m required -> In k (map fst results) -> In k' (map fst results) ->
    reported_as m k -> reported_as m k' -> k = k'.
