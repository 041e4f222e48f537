(** Specification vocabulary for the metrics. *)
From Coq Require Import String.
From Coq Require Import List ZArith QArith Qcanon Reals Bool Permutation Sorted.
From Verif Require Import Py MetricModel.
Import ListNotations.
Open Scope Z_scope.

(** Ids that Python's == identifies: 1 and 1.0 are the same id, "1" is another. *)
Definition id_key (v : value) : Qc + string :=
  match v with VInt z => inl (Qc_of_Z z) | VFlt q => inl q | VStr s => inr s end.
Definition same_id (x y : value) : Prop := id_key x = id_key y.
Definition is_relevant (rel : list value) (x : value) : Prop := exists y, In y rel /\ same_id x y.
Definition distinct (l : list value) : Prop := NoDup (map id_key l).
(** all ids are ints, or all are texts *)
Definition one_kind (l : list value) : Prop :=
  (forall v, In v l -> exists z, v = VInt z) \/ (forall v, In v l -> exists s, v = VStr s).

(** The truncation parameter: none, or a number of items. *)
Definition karg (k : option nat) : option Z := option_map Z.of_nat k.
Definition first_k {A} (k : option nat) (l : list A) : list A :=
  match k with None => l | Some n => firstn n l end.
Definition k_le (k k' : option nat) : Prop :=
  match k, k' with _, None => True | None, Some _ => False | Some n, Some n' => (n <= n')%nat end.
(** min(k, n) *)
Definition cap (k : option nat) (n : nat) : nat := match k with None => n | Some m => Nat.min n m end.

(** [p] is the position of the first element identified with [x] *)
Definition first_at (x : value) (l : list value) (p : nat) : Prop :=
  (exists y, nth_error l p = Some y /\ same_id x y) /\
  forall q y, (q < p)%nat -> nth_error l q = Some y -> ~ same_id x y.

(** a metric result that satisfies a predicate *)
Definition returns {A} (x : res A) (P : A -> Prop) : Prop := exists v, x = Ok v /\ P v.

(** ids ordered by decreasing relevancy in the dict [rels] *)
Definition rel_of (rels : list (value * Q)) (x : value) (q : Q) : Prop :=
  exists y, In (y, q) rels /\ same_id x y.
Definition by_relevancy (rels : list (value * Q)) (l : list value) : Prop :=
  StronglySorted (fun x y => forall p q, rel_of rels x p -> rel_of rels y q -> (q <= p)%Q) l.
(** keys of a dict are distinct *)
Definition dict (rels : list (value * Q)) : Prop := distinct (map fst rels).

(** the discounted cumulative gain of a list of relevancies: the item at position
    i (from 0) counts gain / log2 (i + 2) *)
Definition gain_of (strong : bool) (q : Q) : R := if strong then (Rpower 2 (Q2R q) - 1)%R else Q2R q.
Fixpoint dcg_sum (strong : bool) (i : nat) (qs : list Q) : R :=
  match qs with
  | [] => 0%R
  | q :: qs' => (gain_of strong q * ln 2 / ln (INR (i + 2)) + dcg_sum strong (S i) qs')%R
  end.
