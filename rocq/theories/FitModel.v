(** Model of the start of RecommenderABC.fit (DRecPy/Recommender/recommender_abc.py:
    133-157, 471-480) and of what a repeated fit registers and updates (188-205,
    266-282, 328-334).  Definitions only.

    TensorFlow is outside the model: which variables have a gradient is described
    by [linked] below, the size of an update by a function. *)
From Coq Require Import String Ascii.
From Coq Require Import List ZArith QArith Qcanon Bool.
From Verif Require Import Py MemModel.
Import ListNotations.
Open Scope string_scope.
Open Scope nat_scope.

(** ** recommender_abc.py:133-150 *)
Record fit_info := mkInfo {
  fi_min : option value;   (* self.min_interaction; None is NaN *)
  fi_max : option value;   (* self.max_interaction *)
  fi_users : nat;          (* self.n_users *)
  fi_items : nat;          (* self.n_items *)
  fi_rows : nat }.         (* self.n_rows *)

(** line 140: a minimum equal to 1 becomes 0; a text is not equal to 1 *)
Definition lowered (v : option value) : option value :=
  match v with
  | Some x => match num_of x with
              | Some q => if Qc_eq_bool q 1%Qc then Some (VInt 0) else v
              | None => v
              end
  | None => None
  end.

(** 139-146 *)
Definition statistics (m : mem) : res fit_info :=
  lo <- mem_min m "interaction" ;;
  hi <- mem_max m "interaction" ;;
  nu <- count_unique m (Some ["uid"]) ;;
  ni <- count_unique m (Some ["iid"]) ;;
  Ok (mkInfo (lowered lo) hi nu ni (mem_len m)).

(** 471-480: the log messages are not modelled, the division is; the values are
    computed whether or not anything is logged *)
Definition log_initial_info (i : fit_info) : res unit :=
  if fi_users i * fi_items i =? 0 then Err ZeroDivisionError else Ok tt.

(** 133-150 for a data set in memory: what the call leaves of the data set, and
    its result up to the call of _pre_fit.  Line 136 calls __copy__, which neither
    MemoryInteractionDataset nor its base class has; the method is called copy. *)
Definition begin_fit (m : mem) (copy_dataset : bool) : mem * res fit_info :=
  if copy_dataset then (m, Err AttributeError) else
  match assign_internal_ids m with
  | Err e => (m, Err e)
  | Ok m' => (m', i <- statistics m' ;; _ <- log_initial_info i ;; Ok i)
  end.

(** ** Registered variables over several fits *)

(** Variable [snd v] created by fit number [fst v] (counted from 0). *)
Definition var : Type := nat * nat.
Definition var_eqb (a b : var) : bool := (fst a =? fst b) && (snd a =? snd b).

(** 266-278: what a call of _register_trainable appends *)
Inductive entry :=
| Tensor (v : var)              (* a tf.Variable, to trainable_weights *)
| Group (vs : list var).        (* a layer or model with its trainable weights *)

(** 328-334 for one entry: the gradient of a tf.Variable outside the loss is None,
    and [zip(None, ...)] raises TypeError.  For a layer or model it is a list with
    None for every variable outside the loss; apply_gradients skips these and
    raises ValueError if none is left.  No variables: no update. *)
Definition updates_of (linked : var -> bool) (e : entry) : res (list var) :=
  match e with
  | Tensor v => if linked v then Ok [v] else Err TypeError
  | Group [] => Ok []
  | Group vs => match filter linked vs with [] => Err ValueError | l => Ok l end
  end.

(** The updates of one epoch in order, and the exception that ended them.
    193-195: tf.Variables first, then layers and models in order of registration
    (no model of the library registers both a layer and a model). *)
Fixpoint epoch_updates (linked : var -> bool) (es : list entry) : list var * option exn :=
  match es with
  | [] => ([], None)
  | e :: es' =>
      match updates_of linked e with
      | Err x => ([], Some x)
      | Ok l => let '(l', o) := epoch_updates linked es' in ((l ++ l')%list, o)
      end
  end.

(** The library's models: what _pre_fit of fit number [k] registers, and which
    variables the loss of fit number [k] depends on. *)
Record network := mkNetwork {
  n_entries : nat -> list entry;
  n_linked : nat -> var -> bool }.

(** 188-204 in fit number [k]: the lists of registered variables are created by the
    constructor (54-56) and never emptied, so every earlier fit's are still there.
    Same result in each of the epochs. *)
Definition registered (n : network) (k : nat) : list entry := concat (map (n_entries n) (seq 0 (S k))).
Definition fit_updates (n : network) (k : nat) : list var * option exn :=
  epoch_updates (n_linked n k) (registered n k).

Definition own (k : nat) (v : var) : bool := fst v =? k.

(** cdae.py:36-43: W, W_, V, b, b_; cdae.py:73-76, 81-82: the prediction and the
    regularisation use the current ones *)
Definition cdae_network : network :=
  mkNetwork (fun k => map (fun i => Tensor (k, i)) (seq 0 5)) own.

(** Weights of a chain of dense layers: kernel (even number) and bias (odd). *)
Definition dense (k start layers : nat) : list var := map (fun i => (k, start + i)) (seq 0 (2 * layers)).
(** recommender_abc.py:325-326: regularisation of every registered layer and
    model, the earlier ones included; only kernels and embeddings have one *)
Definition own_or_kernel (k : nat) (v : var) : bool := own k v || Nat.even (snd v).

(** dmf.py:47-60: two networks with [a] and [b] layers *)
Definition dmf_network (a b : nat) : network :=
  mkNetwork (fun k => [Group (dense k 0 a); Group (dense k (2 * a) b)]) own_or_kernel.

(** caser.py:46-70: two embeddings, the vertical and [l] horizontal convolutions,
    dense_0, dense_1_W, and dense_1_b, an embedding without regularisation *)
Definition caser_network (l : nat) : network :=
  mkNetwork (fun k =>
    ([Group [(k, 0)]; Group [(k, 2)]; Group [(k, 4); (k, 5)]] ++
     map (fun i => Group [(k, 6 + 2 * i); (k, 7 + 2 * i)]) (seq 0 l) ++
     [Group [(k, 6 + 2 * l); (k, 7 + 2 * l)]; Group [(k, 8 + 2 * l)]; Group [(k, 9 + 2 * l)]])%list)
    own_or_kernel.
