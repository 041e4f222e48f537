(** Vocabulary of the properties of the similarity functions. *)
From Coq Require Import List ZArith QArith Qcanon Qreals Reals Bool Sorted.
From Verif Require Import Py SimModel.
Import ListNotations.
Open Scope R_scope.

(** columns in increasing order *)
Definition sorted_row (a : srow) : Prop := StronglySorted (fun p q => (fst p < fst q)%Z) a.

(** value stored in a column *)
Definition value_at (a : srow) (c : Z) : option R :=
  match find (fun p => Z.eqb (fst p) c) a with Some p => Some (snd p) | None => None end.
(** the values of two rows in the columns that both have *)
Definition common (a b : srow) : list (R * R) :=
  flat_map (fun p => match value_at b (fst p) with Some y => [(snd p, y)] | None => [] end) a.
Definition disjoint (a b : srow) : Prop := forall p q, In p a -> In q b -> fst p <> fst q.

Fixpoint total (l : list R) : R := match l with [] => 0 | x :: l' => x + total l' end.
Definition dot (l : list (R * R)) : R := total (map (fun p => fst p * snd p) l).
Definition square1 (l : list (R * R)) : R := total (map (fun p => fst p * fst p) l).
Definition square2 (l : list (R * R)) : R := total (map (fun p => snd p * snd p) l).
Definition square (a : srow) : R := total (map (fun p => snd p * snd p) a).
(** [s] is the cosine of the angle between the two vectors *)
Definition is_cosine (l : list (R * R)) (s : R) : Prop :=
  0 < square1 l /\ 0 < square2 l /\ s * (sqrt (square1 l) * sqrt (square2 l)) = dot l.
(** subtract the means [m1] and [m2] *)
Definition shifted (l : list (R * R)) (m1 m2 : R) : list (R * R) := map (fun p => (fst p - m1, snd p - m2)) l.
Definition is_avg (l : list R) (m : R) : Prop := l <> [] /\ m * INR (length l) = total l.

(** What is expected from a similarity with values from [lo] to 1, on rows
    that satisfy [P]. *)
Record good_similarity (P : srow -> Prop) (lo : R) (f : srow -> srow -> option num) : Prop := {
  gs_range : forall a b r, P a -> P b -> f a b = Some (Num r) -> lo <= r <= 1;
  gs_sym : forall a b, P a -> P b -> f a b = f b a;
  gs_self : forall a b r, P a -> P b -> f a b = Some (Num r) -> exists r', f a a = Some (Num r') /\ r <= r';
  gs_disjoint : forall a b, P a -> P b -> disjoint a b -> forall r, f a b <> Some (Num r) }.

(** a similarity matrix with the values of [f], one entry for every position that has one *)
Definition matrix_of (f : srow -> srow -> option num) (rows : list srow) (coo : list (Z * Z * num)) : Prop :=
  NoDup (map fst coo) /\
  forall i j s, In (i, j, s) coo <->
    exists a b, (0 <= i)%Z /\ (0 <= j)%Z /\ nth_error rows (Z.to_nat i) = Some a /\
                nth_error rows (Z.to_nat j) = Some b /\ f a b = Some s.

(** the sum of the interactions between [u] and [c] *)
Definition interaction_sum (es : list (Z * Z * Qc)) (u c : Z) : R :=
  total (map (fun e => Q2R (this (snd e))) (filter (fun e => (Z.eqb (fst (fst e)) u && Z.eqb (snd (fst e)) c)%bool) es)).
Definition interacts (es : list (Z * Z * Qc)) (u c : Z) : Prop := exists x, In (u, c, x) es.
(** [a] lists, for every column that [u] interacts with, the column and the sum *)
Definition profile (es : list (Z * Z * Qc)) (u : Z) (a : srow) : Prop :=
  sorted_row a /\ forall c y, In (c, y) a <-> interacts es u c /\ y = interaction_sum es u c.
(** internal ids *)
Definition indices (es : list (Z * Z * Qc)) : Prop := forall e, In e es -> (0 <= fst (fst e))%Z /\ (0 <= snd (fst e))%Z.
Definition present (es : list (Z * Z * Qc)) (u : Z) : Prop := exists c, interacts es u c.
(** a row from which [m] is subtracted *)
Definition minus (a : srow) (m : R) : srow := map (fun p => (fst p, snd p - m)) a.
(** the smallest value of each similarity *)
Definition lowest (k : metric) : R := match k with Jaccard _ | Msd => 0 | _ => -1 end.
(** the positions of the matrix of interactions; where there is no interaction the sum is 0 *)
Definition position (es : list (Z * Z * Qc)) (u c : Z) : Prop :=
  (0 <= u)%Z /\ (0 <= c)%Z /\ (exists e, In e es /\ (u <= fst (fst e))%Z) /\ (exists e, In e es /\ (c <= snd (fst e))%Z).
(** the largest difference of two positions *)
Definition is_spread (es : list (Z * Z * Qc)) (d : R) : Prop :=
  (forall u c u' c', position es u c -> position es u' c' -> interaction_sum es u c - interaction_sum es u' c' <= d) /\
  (exists u c u' c', position es u c /\ position es u' c' /\ interaction_sum es u c - interaction_sum es u' c' = d).
