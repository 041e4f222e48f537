(** Vocabulary of the properties of the neighbourhood recommenders. *)
From Coq Require Import String Ascii.
From Coq Require Import List ZArith QArith Qcanon Bool.
From Verif Require Import Py MemModel MemSpec RankModel RankSpec KnnModel.
Import ListNotations.
Open Scope string_scope.
Open Scope Z_scope.

(** Every row has a number as interaction, exact as a float64. *)
Definition numeric (m0 : mem) : Prop :=
  In "interaction" (m_columns m0) /\
  (forall r, In r (rows_of m0) -> exists v q, cell r "interaction" = Some v /\ num_of v = Some q) /\
  small_col m0 "interaction".

(** The training data by internal ids: (uid, iid, interaction), in row order. *)
Definition obs (m : mem) : list (Z * Z * Qc) :=
  flat_map (fun r => match cell r "uid", cell r "iid" with
                     | Some (VInt u), Some (VInt i) => [(u, i, interaction_of r)]
                     | _, _ => []
                     end) (rows_of m).

(** the same with the entities that are compared first *)
Definition entity_first (c : knn) (es : list (Z * Z * Qc)) : list (Z * Z * Qc) :=
  map (fun e => let '(u, i, x) := e in if kn_user c then (u, i, x) else (i, u, x)) es.

Definition has_obs (es : list (Z * Z * Qc)) (a i : Z) : bool :=
  existsb (fun e => (fst (fst e) =? a) && (snd (fst e) =? i)) es.
(** interaction of the first row of a pair *)
Definition first_obs (es : list (Z * Z * Qc)) (a i : Z) : option Qc :=
  match find (fun e => (fst (fst e) =? a) && (snd (fst e) =? i)) es with
  | Some e => Some (snd e)
  | None => None
  end.
(** at most one row for every pair *)
Definition no_repeats (es : list (Z * Z * Qc)) : Prop := NoDup (map fst es).

(** how many items (users) two users (items) have in common *)
Definition in_common (es : list (Z * Z * Qc)) (a b : Z) : nat :=
  length (filter (fun i => has_obs es a i && has_obs es b i) (nodup Z.eq_dec (map (fun e => snd (fst e)) es))).

(** entries of an n x n similarity matrix, at most one per position *)
Definition sim_matrix (n : nat) (coo : list (Z * Z * Qc)) : Prop :=
  NoDup (map fst coo) /\
  forall a b s, In (a, b, s) coo -> 0 <= a < Z.of_nat n /\ 0 <= b < Z.of_nat n.

(** The similarity of two entities: there is an entry for them, they have enough
    in common, and the entry is shrunk. *)
Definition similar (c : knn) (es coo : list (Z * Z * Qc)) (a b : Z) (s : Qc) : Prop :=
  exists raw, In (Z.max a b, Z.min a b, raw) coo /\
    (0 < kn_m c -> kn_m c <= Z.of_nat (in_common es a b)) /\
    match kn_shrink c with
    | None => s = raw
    | Some h => (s * (Qc_of_Z (Z.of_nat (in_common es a b)) + h + tiny) =
                 raw * Qc_of_Z (Z.of_nat (in_common es a b)))%Qc
    end.

(** number of entities *)
Definition n_entities (c : knn) (m0 : mem) : nat :=
  length (nodup value_eq_dec (column (if kn_user c then "user" else "item") (rows_of m0))).

(** sum of a list of numbers *)
Fixpoint total (l : list Qc) : Qc := match l with [] => 0 | x :: l' => x + total l' end%Qc.

(** What the neighbours say about an item (a user): the first interaction of each
    neighbour that has one, with the neighbour's similarity. *)
Definition says (es : list (Z * Z * Qc)) (l : list scored) (i : Z) : list (Qc * Qc) :=
  flat_map (fun p => match first_obs es (snd p) i with Some x => [(x, fst p)] | None => [] end) l.

(** (weighted) mean of (interaction, similarity) pairs *)
Definition is_mean (weighted : bool) (l : list (Qc * Qc)) (p : Qc) : Prop :=
  if weighted then (p * total (map snd l) = total (map (fun q => snd q * fst q) l))%Qc
  else (p * Qc_of_Z (Z.of_nat (length l)) = total (map fst l))%Qc.

(** [nb] holds the neighbours after the first fit of the model on [m], whose
    similarity function returned the entries [coo]. *)
Definition fitted_with (c : knn) (m0 m : mem) (coo : list (Z * Z * Qc)) (nb : nbs) : Prop :=
  sim_matrix (n_entities c m0) coo /\
  exists simf t, simf (entity_first c (obs m)) = Ok coo /\ knn_fit c simf m ([], []) = Ok (t, nb).

(** the interactions of an item (UserKNN) or of a user (ItemKNN) *)
Definition all_of (c : knn) (m : mem) (k : Z) : list Qc :=
  map snd (filter (fun e => snd (fst e) =? k) (entity_first c (obs m))).
