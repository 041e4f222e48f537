(** Model of the constructors of recommenders:
    DRecPy/Recommender/recommender_abc.py:54-95, cdae.py:25-32, dmf.py:22-42,
    caser.py:29-43, Baseline/base_knn.py:40-73, user_knn.py:16-18, item_knn.py:16-18.
    Definitions only.

    Class-specific arguments are given by keyword.  Of the arguments of the base class
    verbose and log_file are booleans and seed is an integer or None;
    interaction_threshold is stored unchecked and left out. *)
From Coq Require Import String Ascii.
From Coq Require Import List ZArith Bool.
From Verif Require Import Py LogModel SeedModel NetModel.
Import ListNotations.
Open Scope string_scope.
Open Scope list_scope.

Inductive cls := UserKNN | ItemKNN | CDAE | DMF | Caser.
(** self.__class__.__name__ *)
Definition class_name (c : cls) : string :=
  match c with UserKNN => "UserKNN" | ItemKNN => "ItemKNN" | CDAE => "CDAE" | DMF => "DMF" | Caser => "Caser" end.

(** Values of keyword arguments: None, a string, a list of integers, anything else *)
Inductive arg := ANone | AStr (s : string) | AList (l : list Z) | AOther (n : Z).
Definition kwds : Type := list (string * arg).
Record base := mkBase { b_verbose : bool; b_log_file : bool; b_seed : option Z }.

(** value == 'name' *)
Definition is_str (a : arg) (s : string) : bool := match a with AStr t => String.eqb t s | _ => false end.
Definition arg_or (kw : kwds) (name : string) (default : arg) : arg :=
  match assoc String.eqb name kw with Some a => a | None => default end.

(** the named parameters of the constructors; all others end up in **kwds, of which the
    base class reads its own *)
Definition params (c : cls) : list string :=
  match c with
  | UserKNN | ItemKNN => ["k"; "m"; "sim_metric"; "aggregation"; "shrinkage"; "use_averages"]
  | CDAE => ["hidden_factors"; "corruption_level"; "loss"]
  | DMF => ["user_factors"; "item_factors"; "use_nce"; "l2_norm_vectors"]
  | Caser => ["L"; "T"; "d"; "n_v"; "n_h"; "act_h"; "act_mlp"; "dropout_rate"; "sort_column"]
  end.

(** base_knn.py:44-57 and 59-64 *)
Definition knn_check (kw : kwds) : res unit :=
  let s := arg_or kw "sim_metric" (AStr "adjusted_cosine") in
  _ <- (if is_str s "adjusted_cosine" then Ok tt
        else if is_str s "cosine" then Ok tt
        else if is_str s "cosine_cf" then Ok tt
        else if is_str s "jaccard" then Ok tt
        else if is_str s "msd" then Ok tt
        else if is_str s "pearson" then Ok tt
        else Err GenericException) ;;
  let a := arg_or kw "aggregation" (AStr "weighted_mean") in
  if is_str a "mean" then Ok tt else if is_str a "weighted_mean" then Ok tt else Err GenericException.
(** cdae.py:30-32 *)
Definition cdae_check (kw : kwds) : res unit :=
  let l := arg_or kw "loss" (AStr "bce") in
  if is_str l "mse" then Ok tt else if is_str l "bce" then Ok tt else Err GenericException.
(** dmf.py:25-40: the types of the factors, then [dmf_factors] *)
Definition dmf_list (a : arg) : res (option (list Z)) :=
  match a with ANone => Ok None | AList l => Ok (Some l) | _ => Err AssertionError end.
Definition dmf_check (kw : kwds) : res unit :=
  u <- dmf_list (arg_or kw "user_factors" ANone) ;;
  i <- dmf_list (arg_or kw "item_factors" ANone) ;;
  _ <- dmf_factors u i ;; Ok tt.
Definition check (c : cls) (kw : kwds) : res unit :=
  match c with UserKNN | ItemKNN => knn_check kw | CDAE => cdae_check kw | DMF => dmf_check kw | Caser => Ok tt end.

(** A recommender: what it logs with, its seed, and the parameters it stores *)
Record object := mkObject { ob_class : cls; ob_log : recommender; ob_seed : option Z; ob_params : kwds }.

(** What the process shares: TensorFlow's generator, how often the operating system was
    asked for a seed, and the loggers with what they wrote *)
Record process := mkProcess { pr_tf : generator; pr_asked : nat; pr_logs : logs }.
Definition process0 : process := mkProcess (Entropy 0, 0) 2 no_logs.

(** recommender_abc.py:54-95 *)
Definition base_init (c : cls) (b : base) (now : string) (p : process) : recommender * process :=
  let asked := pr_asked p + asks (b_seed b) in
  let (r, g) := new_recommender (class_name c) now (b_verbose b) (b_log_file b) (pr_logs p) in
  (r, mkProcess (start (b_seed b) asked) (asked + asks (b_seed b)) g).
(** The base class is initialised first (cdae.py:26, dmf.py:23, caser.py:31,
    base_knn.py:42), then the arguments are checked *)
Definition construct (c : cls) (b : base) (kw : kwds) (now : string) (p : process) : res object * process :=
  let (r, p') := base_init c b now p in
  match check c kw with
  | Err e => (Err e, p')
  | Ok _ => (Ok (mkObject c r (b_seed b) (filter (fun x => mem_b String.eqb (fst x) (params c)) kw)), p')
  end.

(** A program constructs recommenders, catching what the constructors raise, has those it
    got say things, and draws numbers from TensorFlow (initial weights) *)
Inductive call :=
| Construct (c : cls) (b : base) (kw : kwds) (now : string)
| Tell (k : nat) (v : level) (msg : string) (log_console log_file : bool)
| Draw (n : nat).
Definition perform (s : list object * process) (x : call) : list object * process :=
  let (os, p) := s in
  match x with
  | Construct c b kw now =>
      match construct c b kw now p with
      | (Ok o, p') => (os ++ [o], p')
      | (Err _, p') => (os, p')
      end
  | Tell k v msg con file =>
      match nth_error os k with
      | Some o => (os, mkProcess (pr_tf p) (pr_asked p) (say (ob_log o) v msg con file (pr_logs p)))
      | None => s
      end
  | Draw n => (os, mkProcess (ahead (pr_tf p) n) (pr_asked p) (pr_logs p))
  end.
Definition perform_all (xs : list call) : list object * process := fold_left perform xs ([], process0).
