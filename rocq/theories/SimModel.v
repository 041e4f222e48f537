(** Model of the similarity functions: DRecPy/Recommender/Baseline/similarity.py.
    Definitions only.

    Numbers are reals, so that square roots are exact; an undefined quotient of
    numpy (0/0) is [Nan].  A row of a sparse matrix is the list of its stored
    (column, value) pairs with increasing columns, which is what scipy keeps in
    lil_matrix.rows / lil_matrix.data, so sorting it again and looking the value
    up by its position is left out. *)
From Coq Require Import List ZArith QArith Qcanon Qreals Reals Bool.
From Verif Require Import Py MemModel.
Import ListNotations.
Open Scope R_scope.

Inductive num := Nan | Num (x : R).
Definition srow := list (Z * R).

Definition Req_b (x y : R) : bool := if Req_EM_T x y then true else false.
Definition Rsum (l : list R) : R := fold_left Rplus l 0.

(** scipy: csr_matrix((data, (rows, cols))): the shape is inferred, values of
    the same position are added, and there is an error without any. *)
Definition max_index (l : list Z) : nat := fold_left Nat.max (map Z.to_nat l) 0%nat.
Definition stored (es : list (Z * Z * Qc)) (a c : Z) : bool :=
  existsb (fun e => (Z.eqb (fst (fst e)) a && Z.eqb (snd (fst e)) c)%bool) es.
Definition stored_sum (es : list (Z * Z * Qc)) (a c : Z) : R :=
  Rsum (map (fun e => Q2R (this (snd e)))
    (filter (fun e => (Z.eqb (fst (fst e)) a && Z.eqb (snd (fst e)) c)%bool) es)).
Definition csr_cols (es : list (Z * Z * Qc)) : nat := S (max_index (map (fun e => snd (fst e)) es)).
Definition csr_row (es : list (Z * Z * Qc)) (a : Z) : srow :=
  flat_map (fun c => if stored es a c then [(c, stored_sum es a c)] else []) (Zseq (csr_cols es)).
Definition csr (es : list (Z * Z * Qc)) : res (list srow) :=
  match es with
  | [] => Err ValueError
  | _ => Ok (map (csr_row es) (Zseq (S (max_index (map (fun e => fst (fst e)) es)))))
  end.

(** similarity.py:38-51, 97-107, 135-150, 189-202: the two counters that walk
    over the columns of two rows; the pairs of values in common columns *)
Fixpoint merge (a : srow) : srow -> list (R * R) :=
  match a with
  | [] => fun _ => []
  | (i, x) :: a' =>
      fix go (b : srow) : list (R * R) :=
        match b with
        | [] => []
        | (j, y) :: b' =>
            if (j <? i)%Z then go b' else
            if (i <? j)%Z then merge a' b else
            (x, y) :: merge a' b'
        end
  end.

(** the three sums and the quotient, similarity.py:47-54 and 157-165 *)
Definition numerator (l : list (R * R)) : R := Rsum (map (fun p => fst p * snd p) l).
Definition denominator_i (l : list (R * R)) : R := Rsum (map (fun p => fst p ^ 2) l).
Definition denominator_j (l : list (R * R)) : R := Rsum (map (fun p => snd p ^ 2) l).
Definition cos_of (l : list (R * R)) : R := numerator l / (sqrt (denominator_i l) * sqrt (denominator_j l)).

(** similarity.py:33-56, one pair of rows of cosine_sim_cf; None: no entry *)
Definition cosine_cf (a b : srow) : option num :=
  let l := merge a b in
  if Req_b (numerator l) 0 then None else Some (Num (cos_of l)).

(** similarity.py:131-167, one pair of rows of pearson_corr *)
Definition centre (l : list (R * R)) : list (R * R) :=
  let n := INR (length l) in
  let mi := Rsum (map fst l) / n in
  let mj := Rsum (map snd l) / n in
  map (fun p => (fst p - mi, snd p - mj)) l.
Definition pearson (a b : srow) : option num :=
  match merge a b with
  | [] => None
  | l =>
      let c := centre l in
      if (Req_b (denominator_i c) 0 || Req_b (denominator_j c) 0)%bool then None
      else Some (Num (cos_of c))
  end.

(** scipy: matrix.max() and matrix.min() count the positions that are not stored *)
Definition values_of (rows : list srow) : list R := map snd (concat rows).
Definition extreme (pick : R -> R -> R) (rows : list srow) (cols : nat) : R :=
  match values_of rows with
  | [] => 0
  | x :: l =>
      let e := fold_left pick l x in
      if (length (x :: l) =? length rows * cols)%nat then e else pick e 0
  end.

(** similarity.py:185-207, one pair of rows of msd; [d] is max_diff (176) *)
Definition msd_pair (d : R) (a b : srow) : option num :=
  match merge a b with
  | [] => None
  | l =>
      if Req_b d 0 then Some Nan
      else Some (Num (1 - Rsum (map (fun p => ((fst p - snd p) / d) ^ 2) l) / INR (length l)))
  end.

(** similarity.py:80-85, one position of matrix_jacc: stored zeros count as
    absent, 0/0 is nan, and csr_matrix drops zeros *)
Definition nonzero (a : srow) : srow := filter (fun p => negb (Req_b (snd p) 0)) a.
Definition jaccard_matrix (a b : srow) : option num :=
  let c := length (merge (nonzero a) (nonzero b)) in
  let d := (length (nonzero a) + length (nonzero b) - c)%nat in
  match d, c with
  | O, _ => Some Nan
  | _, O => None
  | _, _ => Some (Num (INR c / INR d))
  end.

(** similarity.py:87-114, one pair of rows of iterative_jacc: stored zeros count *)
Definition jaccard_iter (a b : srow) : option num :=
  let c := length (merge a b) in
  match c with
  | O => None
  | _ => Some (Num (INR c / INR (length a + length b - c)))
  end.

(** sklearn: cosine_similarity divides each row by its norm (rows of norm 0 stay
    as they are) and multiplies the sparse matrix with its transpose, which has
    an entry where two rows have a common column *)
Definition norm (a : srow) : R := sqrt (Rsum (map (fun p => snd p ^ 2) a)).
Definition normalise (a : srow) : srow :=
  if Req_b (norm a) 0 then a else map (fun p => (fst p, snd p / norm a)) a.
Definition cosine (a b : srow) : option num :=
  match merge (normalise a) (normalise b) with
  | [] => None
  | l => Some (Num (numerator l))
  end.

(** similarity.py:212-230, _subtract_row_mean on one row; the difference of two
    sparse matrices does not store zeros *)
Definition subtract_mean (a : srow) : srow :=
  let mean := Rsum (map snd a) / INR (length a) in
  nonzero (map (fun p => (fst p, snd p - mean)) a).
(** similarity.py:61-70, one position of adjusted_cosine_sim *)
Definition adjusted_cosine (a b : srow) : option num := cosine (subtract_mean a) (subtract_mean b).

(** similarity.py:33-58 and the like: the loops over i and j >= i; an empty
    result makes csr_matrix raise *)
Definition loop_entries (f : srow -> srow -> option num) (rows : list srow) : list (Z * Z * num) :=
  let n := length rows in
  flat_map (fun i => flat_map (fun j =>
    match f (nth i rows []) (nth j rows []) with
    | None => []
    | Some s =>
        if (i =? j)%nat then [(Z.of_nat i, Z.of_nat j, s)]
        else [(Z.of_nat i, Z.of_nat j, s); (Z.of_nat j, Z.of_nat i, s)]
    end) (seq i (n - i))) (seq 0 n).
Definition loop_matrix (f : srow -> srow -> option num) (rows : list srow) : res (list (Z * Z * num)) :=
  match loop_entries f rows with
  | [] => Err ValueError
  | es => Ok es
  end.
(** matrix products: every position *)
Definition product_matrix (f : srow -> srow -> option num) (rows : list srow) : res (list (Z * Z * num)) :=
  let n := length rows in
  Ok (flat_map (fun i => flat_map (fun j =>
    match f (nth i rows []) (nth j rows []) with
    | None => []
    | Some s => [(Z.of_nat i, Z.of_nat j, s)]
    end) (seq 0 n)) (seq 0 n)).

(** base_knn.py:44-57: the metrics by name; [enough] tells whether matrix_jacc
    found enough memory (similarity.py:116-119) *)
Inductive metric := AdjustedCosine | Cosine | CosineCf | Jaccard (enough : bool) | Msd | Pearson.
Definition sim_matrix_of (k : metric) (es : list (Z * Z * Qc)) : res (list (Z * Z * num)) :=
  rows <- csr es ;;
  match k with
  | AdjustedCosine => product_matrix adjusted_cosine rows
  | Cosine => product_matrix cosine rows
  | CosineCf => loop_matrix cosine_cf rows
  | Jaccard true => product_matrix jaccard_matrix rows
  | Jaccard false => loop_matrix jaccard_iter rows
  | Msd => loop_matrix (msd_pair (extreme Rmax rows (csr_cols es) - extreme Rmin rows (csr_cols es))) rows
  | Pearson => loop_matrix pearson rows
  end.
