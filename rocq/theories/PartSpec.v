(** Specification vocabulary for comparing a data set with its parts. *)
From Coq Require Import String.
From Coq Require Import List ZArith QArith Qcanon Bool Permutation.
From Verif Require Import Py MemModel MemSpec.
Import ListNotations.
Open Scope string_scope.
Open Scope list_scope.

(** every record of [m] is in one of the other two, and they have nothing else *)
Record parts (m m1 m2 : mem) : Prop := {
  pt_rows : Permutation (rows_of m) (rows_of m1 ++ rows_of m2);
  pt_columns : m_columns m1 = m_columns m /\ m_columns m2 = m_columns m;
  pt_types : f_types (m_df m1) = f_types (m_df m) /\ f_types (m_df m2) = f_types (m_df m) }.

(** the comparison that holds exactly when another does not *)
Definition opposite (o : cmp) : cmp :=
  match o with Gt => Le | Ge => Lt | Le => Gt | Lt => Ge | Eq => Ne | Ne => Eq end.

(** the query [column op literal] *)
Definition asks (c : string) (o : cmp) (l : string) : string := (c ++ " " ++ op_text o ++ " " ++ l)%string.

(** the larger and the smaller of two numbers, of which some may be missing *)
Definition larger (a b : option Qc) : option Qc :=
  match a, b with
  | Some x, Some y => Some (if Qclt_le_dec x y then y else x)
  | Some x, None => Some x
  | None, b => b
  end.
Definition smaller (a b : option Qc) : option Qc :=
  match a, b with
  | Some x, Some y => Some (if Qclt_le_dec x y then x else y)
  | Some x, None => Some x
  | None, b => b
  end.
