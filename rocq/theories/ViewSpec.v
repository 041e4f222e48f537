(** Specification vocabulary for comparing the answers of rank and recommend to
    different questions. *)
From Coq Require Import String.
From Coq Require Import List ZArith QArith Qcanon Bool.
From Verif Require Import Py MemModel RankModel KnnModel.
Import ListNotations.
Open Scope Z_scope.

(** [l'] is what is left of [l] without the elements that are not in [P], in the
    same order *)
Inductive kept {A} (P : A -> Prop) : list A -> list A -> Prop :=
| kept_nil : kept P [] []
| kept_yes x l l' : P x -> kept P l l' -> kept P (x :: l) (x :: l')
| kept_no x l l' : ~ P x -> kept P l l' -> kept P (x :: l) l'.

(** The rankings of the library over the data [m]: classes with the _rank of the
    base class (DMF), CDAE, Caser, UserKNN and ItemKNN. *)
Inductive of_library (m : mem) (n_items : nat) : rank_impl -> Prop :=
| lib_abc f : of_library m n_items (rank_abc f m)
| lib_cdae vec : of_library m n_items (rank_cdae vec m n_items)
| lib_caser vec : of_library m n_items (rank_caser vec m n_items)
| lib_knn c t : of_library m n_items (knn_rank c m t).
(** all of them but Caser *)
Inductive not_caser (m : mem) (n_items : nat) : rank_impl -> Prop :=
| nc_abc f : not_caser m n_items (rank_abc f m)
| nc_cdae vec : not_caser m n_items (rank_cdae vec m n_items)
| nc_knn c t : not_caser m n_items (knn_rank c m t).

(** how many recommendations are asked for *)
Definition asked (n_items : nat) (n : option Z) : Z := match n with Some n => n | None => Z.of_nat n_items end.
