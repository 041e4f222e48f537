(** Model of the parts of the neural recommenders that are written in this library:
    DRecPy/Recommender/cdae.py, dmf.py and caser.py.  Definitions only.

    TensorFlow is represented by its documented behaviour: broadcasting of
    elementwise operations, the shapes of layers and operations, l2_normalize.
    Numbers are exact (rationals or reals).  What a network computes from its
    weights is an arbitrary vector. *)
From Coq Require Import String Ascii.
From Coq Require Import List ZArith QArith Qcanon Bool Reals.
From Verif Require Import Py MemModel KnnModel TrainModel SampModel.
Import ListNotations.
Open Scope string_scope.
Open Scope nat_scope.

(** ** Tensors: a shape and the entry at every index *)
Record tensor (A : Type) := mkT { t_shape : list nat; t_at : list nat -> A }.
Arguments mkT {A}. Arguments t_shape {A}. Arguments t_at {A}.

(** Broadcasting: dimensions are aligned at the end (the lists are reversed here),
    a dimension 1 is stretched. *)
Fixpoint broadcast (s t : list nat) : option (list nat) :=
  match s, t with
  | [], _ => Some t
  | _, [] => Some s
  | a :: s', b :: t' =>
      match broadcast s' t' with
      | None => None
      | Some r => if a =? b then Some (a :: r) else if a =? 1 then Some (b :: r)
                  else if b =? 1 then Some (a :: r) else None
      end
  end.
(** the (reversed) index into the unstretched tensor *)
Fixpoint stretch (s idx : list nat) : list nat :=
  match s, idx with
  | a :: s', i :: idx' => (if a =? 1 then 0 else i) :: stretch s' idx'
  | _, _ => []
  end.
Definition elementwise {A B C} (f : A -> B -> C) (x : tensor A) (y : tensor B) : option (tensor C) :=
  match broadcast (rev (t_shape x)) (rev (t_shape y)) with
  | None => None
  | Some sh => Some (mkT (rev sh) (fun idx =>
      f (t_at x (rev (stretch (rev (t_shape x)) (rev idx)))) (t_at y (rev (stretch (rev (t_shape y)) (rev idx))))))
  end.
Fixpoint indices (s : list nat) : list (list nat) :=
  match s with
  | [] => [[]]
  | n :: s' => flat_map (fun i => map (cons i) (indices s')) (seq 0 n)
  end.
Definition entries {A} (x : tensor A) : list A := map (t_at x) (indices (t_shape x)).

(** ** Losses.  tf.losses.MeanSquaredError and BinaryCrossentropy apply a function
    of target and prediction elementwise, take the mean over the last axis and the
    mean of the result: altogether the mean of all entries.  Targets and
    predictions given as lists are converted to tensors; their shapes are not
    compared. *)
Definition losses {T A} (f : T -> T -> A) (targets predictions : tensor T) : option (list A) :=
  option_map entries (elementwise f targets predictions).

(** a list of numbers; a list of [n]-element lists; a list of 1 x [n] tensors *)
Definition vector {A} (d : A) (l : list A) : tensor A :=
  mkT [length l] (fun idx => nth (nth 0 idx 0) l d).
Definition matrix {A} (d : A) (n : nat) (rows : list (list A)) : tensor A :=
  mkT [length rows; n] (fun idx => nth (nth 1 idx 0) (nth (nth 0 idx 0) rows []) d).
Definition stacked {A} (d : A) (n : nat) (rows : list (list A)) : tensor A :=
  mkT [length rows; 1; n] (fun idx => nth (nth 2 idx 0) (nth (nth 0 idx 0) rows []) d).

(** cdae.py:50-57, 73-79: the desired vectors are lists of n_items numbers, each
    reconstruction is a tensor of shape (1, n_items) because the input was
    [input_vector] *)
Definition cdae_losses {T A} (f : T -> T -> A) (d : T) (n_items : nat) (desired predictions : list (list T)) : option (list A) :=
  losses f (matrix d n_items desired) (stacked d n_items predictions).
(** dmf.py:88-99: one prediction per sample *)
Definition dmf_losses {T A} (f : T -> T -> A) (d : T) (desired predictions : list T) : option (list A) :=
  losses f (vector d desired) (vector d predictions).
(** caser.py:86-95, 122-123: [n] predictions per sample *)
Definition caser_losses {T A} (f : T -> T -> A) (d : T) (n : nat) (desired predictions : list (list T)) : option (list A) :=
  losses f (matrix d n desired) (matrix d n predictions).

(** the squared error *)
Definition sq_err (t p : Qc) : Qc := ((p - t) * (p - t))%Qc.
Definition mean_of (l : list Qc) : Qc := (Qcsum l / Qc_of_Z (Z.of_nat (length l)))%Qc.
(** the cross entropy, computed with predictions clipped to [e, 1 - e] and e = 1e-7
    (a second 1e-7 inside the logarithms is left out) *)
Definition bce_eps : R := (/ 10000000)%R.
Definition clip (p : R) : R := Rmin (Rmax p bce_eps) (1 - bce_eps).
Definition cross_entropy (t p : R) : R := (- (t * ln (clip p) + (1 - t) * ln (1 - clip p)))%R.
Definition mean_ofR (l : list R) : R := (fold_right Rplus 0 l / INR (length l))%R.

(** ** CDAE *)

(** cdae.py:61-62, 69-70: 1 for x >= threshold *)
Definition desired_vector (threshold : Qc) (vec : list Qc) : list Z :=
  map (fun x => if Qcltb x threshold then 0%Z else 1%Z) vec.
(** cdae.py:63-64; [draws] are the results of rng.uniform(0, 1), one per item *)
Fixpoint corrupted (q : Qc) (draws : list Qc) (v : list Z) : res (list Qc) :=
  match v, draws with
  | [], _ => Ok []
  | x :: v', u :: draws' =>
      y <- (if Qcltb u q then Ok 0%Qc
            else if Qc_eq_bool (1 - q)%Qc 0%Qc then Err ZeroDivisionError else Ok (Qc_of_Z x / (1 - q))%Qc) ;;
      l <- corrupted q draws' v' ;; Ok (y :: l)
  | _ :: _, [] => Err IndexError
  end.

(** ** DMF *)

(** dmf.py:22-40: the factors, or the exception; None is the default *)
Definition dmf_factors (user_factors item_factors : option (list Z)) : res (list Z * list Z) :=
  let u := match user_factors with Some l => l | None => [64; 32]%Z end in
  let i := match item_factors with Some l => l | None => [64; 32]%Z end in
  match u, i with
  | [], _ | _, [] => Err AssertionError
  | _, _ => if (last u 0 =? last i 0)%Z then Ok (u, i) else Err AssertionError
  end.

(** dmf.py:64-69: the training targets of a batch *)
Definition dmf_target (range : Qc * Qc) (use_nce : bool) (x : triple) : res Qc :=
  match snd x with
  | None => Err TypeError
  | Some v => q <- num_value v ;; if use_nce then standardize range q else Ok q
  end.
Definition dmf_targets (range : Qc * Qc) (use_nce : bool) (batch : list triple) : res (list Qc) :=
  mapM (dmf_target range use_nce) batch.

(** dmf.py:92-95 and 101-106 (recommender_abc.py:467-469), for the representations
    [u] and [v] the two networks give *)
Definition sumR (l : list R) : R := fold_right Rplus 0%R l.
Definition l2_normalize (x : list R) : list R :=
  map (fun a => (a / sqrt (Rmax (sumR (map (fun b => b * b) x)) (/ 1000000000000)))%R) x.
Definition dmf_score (u v : list R) : R :=
  Rmax (/ 1000000) (sumR (map (fun p => (fst p * snd p)%R) (combine (l2_normalize u) (l2_normalize v)))).
Definition dmf_prediction (lo hi : R) (u v : list R) : R := (lo + (hi - lo) * dmf_score u v)%R.

(** ** Caser *)

(** caser.py:72-75 *)
Definition caser_args (L T neg_ratio : Z) (threshold : option string) (sort_column : option string) : ls_args :=
  mkLs ["uid"] neg_ratio (Some T) "iid" threshold sort_column L (Some L).

(** caser.py:79-82: one sample of a batch.  Negative ids are not converted by the
    code; here they are read like the others. *)
Definition caser_input (g : gsample) : res (Z * list Z * list Z) :=
  match g with
  | Seq _ => Err ValueError
  | Tri pos targets negs =>
      first <- match pos with [] => Err IndexError | r :: _ => Ok r end ;;
      u <- field first "uid" ;; uid <- int_value u ;;
      before <- mapM (fun r => v <- field r "iid" ;; int_value v) pos ;;
      after <- mapM (fun r => v <- field r "iid" ;; int_value v) targets ;;
      ns <- mapM int_value negs ;;
      Ok (uid, before, (after ++ ns)%list)
  end.
(** caser.py:92 *)
Definition caser_desired (T neg_ratio : Z) : list Z :=
  (repeat 1%Z (Z.to_nat T) ++ repeat 0%Z (Z.to_nat (T * neg_ratio)))%list.

(** Shapes.  An operation on unsuitable shapes raises; the class of the exception
    depends on the version of TensorFlow. *)
Definition shape := list nat.
Definition no_shape {A} : res A := Err GenericException.
(** Embedding(n, d) of ids *)
Definition embed (d : nat) (s : shape) : res shape := Ok (s ++ [d])%list.
(** Conv1D(filters, kernel_size), no padding *)
Definition conv1d (filters kernel : nat) (s : shape) : res shape :=
  match s with
  | [b; len; _] => if (kernel =? 0) || (len <? kernel) then no_shape else Ok [b; len - kernel + 1; filters]
  | _ => no_shape
  end.
(** tf.nn.max_pool1d(x, size, size, 'SAME') *)
Definition max_pool1d (size : nat) (s : shape) : res shape :=
  match s with
  | [b; len; c] => if size =? 0 then no_shape else Ok [b; (len + size - 1) / size; c]
  | _ => no_shape
  end.
(** tf.squeeze(x, 1) and tf.squeeze(x, 2) *)
Definition squeeze1 (s : shape) : res shape := match s with [b; 1; c] => Ok [b; c] | _ => no_shape end.
Definition squeeze2 (s : shape) : res shape := match s with [b; c; 1] => Ok [b; c] | _ => no_shape end.
(** tf.reshape(x, [b, -1]) *)
Definition flat (s : shape) : res shape := match s with [b; x; y] => Ok [b; x * y] | _ => no_shape end.
(** tf.concat(l, 1) of matrices *)
Fixpoint concat1 (l : list shape) : res shape :=
  match l with
  | [] => no_shape
  | [[b; x]] => Ok [b; x]
  | [b; x] :: l' => s <- concat1 l' ;;
      match s with [b'; y] => if b =? b' then Ok [b; x + y] else no_shape | _ => no_shape end
  | _ => no_shape
  end.
(** a dense layer of [d] units, built for inputs of size [n] *)
Definition dense_layer (n d : nat) (s : shape) : res shape :=
  match s with [b; x] => if x =? n then Ok [b; d] else no_shape | _ => no_shape end.

(** caser.py:97-120 for [b] users with [before] previous items each and [after]
    items to score; [n] is the input size dense_0 was built for *)
Definition caser_shape (L d n_v n_h n : nat) (b before after : nat) : res shape :=
  items <- embed d [b; before] ;;
  users <- embed d [b] ;;
  cv <- conv1d n_v L items ;;
  out_v <- flat cv ;;
  out_h <- mapM (fun i => c <- conv1d n_h (i + 1) items ;; p <- max_pool1d n_h c ;; squeeze1 p) (seq 0 L) ;;
  hs <- concat1 out_h ;;
  all <- concat1 [out_v; hs] ;;
  out <- dense_layer n d all ;;
  cc <- concat1 [out; users] ;;
  x <- match cc with [b; y] => Ok [b; 1; y] | _ => no_shape end ;;
  w <- embed (2 * d) [b; after] ;;
  bias <- embed 1 [b; after] ;;
  prod <- match broadcast (rev x) (rev w) with Some s => Ok (rev s) | None => no_shape end ;;
  sum <- match prod with [b; y; _] => Ok [b; y] | _ => no_shape end ;;
  bias' <- squeeze2 bias ;;
  match broadcast (rev sum) (rev bias') with Some s => Ok (rev s) | None => no_shape end.
(** dense_0 is built by the first call of fit, on [L] previous items *)
Definition caser_input_size (L n_v n_h : nat) : nat := n_v + L * n_h.
(** caser.py:129-137: scoring all items for a user with [records] records *)
Definition caser_rank_shape (L d n_v n_h n_items records : nat) : res shape :=
  caser_shape L d n_v n_h (caser_input_size L n_v n_h) 1 (Nat.min L records) n_items.
