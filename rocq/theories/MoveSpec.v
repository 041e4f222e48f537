(** Specification vocabulary for lists of recommendations in which better items
    were moved up. *)
From Coq Require Import String.
From Coq Require Import List ZArith QArith Reals Bool.
From Verif Require Import Py MetricModel MetricSpec.
Import ListNotations.

(** [l'] is [l] after any number of exchanges of two neighbours, where each
    exchange puts an item that [better] allows in front of the other. *)
Inductive moved_up (better : value -> value -> Prop) : list value -> list value -> Prop :=
| moved_none l : moved_up better l l
| moved_one l1 x y l2 l' : better y x -> moved_up better (l1 ++ y :: x :: l2) l' ->
    moved_up better (l1 ++ x :: y :: l2) l'.

(** [y] is relevant and [x] is not *)
Definition more_relevant (rel : list value) (y x : value) : Prop := is_relevant rel y /\ ~ is_relevant rel x.
(** the dict gives [y] a relevancy at least as high as that of [x] *)
Definition rated_higher (rels : list (value * Q)) (y x : value) : Prop :=
  exists q p, rel_of rels y q /\ rel_of rels x p /\ (p <= q)%Q.

(** the second result is a value if the first is, and not a smaller one *)
Definition no_worse {A} (le : A -> A -> Prop) (a b : res A) : Prop :=
  forall v, a = Ok v -> exists v', b = Ok v' /\ le v v'.

(** [l] consists of the items of [good] and of [bad], each in their order *)
Inductive merge : list value -> list value -> list value -> Prop :=
| merge_nil : merge [] [] []
| merge_good y good bad l : merge good bad l -> merge (y :: good) bad (y :: l)
| merge_bad x good bad l : merge good bad l -> merge good (x :: bad) (x :: l).
