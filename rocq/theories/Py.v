(** Python prelude: the small part of the Python runtime, of numpy and of pandas
    that the modelled code relies on.  Definitions only, plus no proofs. *)
From Coq Require Import String Ascii Decimal DecimalString.
From Coq Require Import List ZArith QArith Qcanon Bool Lia.
Import ListNotations.
Open Scope Z_scope.

(** Python exceptions are values.  Only the class is kept, messages are not. *)
Inductive exn :=
| AssertionError | ValueError | TypeError | KeyError | IndexError
| ZeroDivisionError | NameError | UnboundLocalError | AttributeError
| FileNotFoundError | OperationalError | ProgrammingError | CsvError | NotImplementedError
| GenericException (* raise Exception(...) in DRecPy code *).

Inductive res (A : Type) := Ok (a : A) | Err (e : exn).
Arguments Ok {A} a.
Arguments Err {A} e.

Definition bind {A B} (x : res A) (f : A -> res B) : res B :=
  match x with Ok a => f a | Err e => Err e end.
Notation "x <- e ;; f" := (bind e (fun x => f)) (at level 61, e at next level, right associativity).

Definition is_ok {A} (x : res A) : bool := match x with Ok _ => true | Err _ => false end.

(** Run [f] on the elements from left to right, stop at the first exception. *)
Fixpoint mapM {A B} (f : A -> res B) (l : list A) : res (list B) :=
  match l with
  | [] => Ok []
  | a :: l' => b <- f a ;; bs <- mapM f l' ;; Ok (b :: bs)
  end.

(** Cell values.  [VInt] is a Python/numpy int, [VFlt] a float (taken to be an
    exact rational in canonical form: floating point rounding, NaN and the
    infinities are not modelled), [VStr] a str. *)
Inductive value := VInt (z : Z) | VFlt (q : Qc) | VStr (s : string).

(** numpy dtypes of a column as tested by the code: 'int', 'float', 'obj'. *)
Inductive dtype := DInt | DFloat | DObj.

Definition dtype_eqb (a b : dtype) : bool :=
  match a, b with DInt, DInt | DFloat, DFloat | DObj, DObj => true | _, _ => false end.

Definition Qc_of_Z (z : Z) : Qc := Q2Qc (inject_Z z).

Definition num_of (v : value) : option Qc :=
  match v with VInt z => Some (Qc_of_Z z) | VFlt q => Some q | VStr _ => None end.

(** Python [==] : numbers compare by value (1 == 1.0), str only equals str. *)
Definition val_eqb (a b : value) : bool :=
  match a, b with
  | VInt x, VInt y => Z.eqb x y
  | VStr s, VStr t => String.eqb s t
  | VStr _, _ | _, VStr _ => false
  | _, _ => match num_of a, num_of b with
            | Some x, Some y => Qc_eq_bool x y
            | _, _ => false
            end
  end.

(** Equality of two cells of the same (homogeneous) column. *)
Definition value_eqb (a b : value) : bool :=
  match a, b with
  | VInt x, VInt y => Z.eqb x y
  | VFlt x, VFlt y => Qc_eq_bool x y
  | VStr s, VStr t => String.eqb s t
  | _, _ => false
  end.

(** str order: code points, left to right. *)
Fixpoint string_ltb (s t : string) : bool :=
  match s, t with
  | _, EmptyString => false
  | EmptyString, String _ _ => true
  | String a s', String b t' =>
      let x := nat_of_ascii a in let y := nat_of_ascii b in
      if Nat.ltb x y then true else if Nat.ltb y x then false else string_ltb s' t'
  end.

Definition Qltb (x y : Q) : bool := negb (Qle_bool y x).
Definition Qcltb (x y : Qc) : bool := Qltb (this x) (this y).

(** Python [<] ; [None] is the TypeError of comparing str with a number. *)
Definition val_ltb (a b : value) : option bool :=
  match a, b with
  | VStr s, VStr t => Some (string_ltb s t)
  | VStr _, _ | _, VStr _ => None
  | _, _ => match num_of a, num_of b with
            | Some x, Some y => Some (Qcltb x y)
            | _, _ => None
            end
  end.

(** Round an integer to the nearest float64 (53 significant bits, ties to even);
    the result of int -> float64 conversion in Python and numpy (no overflow). *)
Definition f64_of_Z (z : Z) : Z :=
  let m := Z.abs z in
  if m <=? 2 ^ 53 then z
  else
    let e := Z.log2 m - 52 in
    let q := m / 2 ^ e in
    let r := m mod 2 ^ e in
    let half := 2 ^ (e - 1) in
    let q' := if (half <? r) || ((r =? half) && Z.odd q) then q + 1 else q in
    Z.sgn z * (q' * 2 ^ e).

(** [l[:k]] for a Python int [k] (negative [k] counts from the end). *)
Definition py_take {A} (k : Z) (l : list A) : list A :=
  if 0 <=? k then firstn (Z.to_nat k) l
  else firstn (length l - Z.to_nat (- k)) l.

(** [l[:k]] with [k = None] meaning no truncation. *)
Definition py_trunc {A} (k : option Z) (l : list A) : list A :=
  match k with None => l | Some k => py_take k l end.

Fixpoint mem_b {A} (eqb : A -> A -> bool) (x : A) (l : list A) : bool :=
  match l with [] => false | y :: l' => eqb x y || mem_b eqb x l' end.

(** Distinct elements in order of first occurrence: insertion order of a dict,
    pandas' [unique()], and (as a set) Python's [set(l)]. *)
Fixpoint dedup_acc {A} (eqb : A -> A -> bool) (seen l : list A) : list A :=
  match l with
  | [] => []
  | x :: l' => if mem_b eqb x seen then dedup_acc eqb seen l'
               else x :: dedup_acc eqb (x :: seen) l'
  end.
Definition dedup {A} (eqb : A -> A -> bool) (l : list A) : list A := dedup_acc eqb [] l.

(** [l.index(x)] *)
Fixpoint index_of {A} (eqb : A -> A -> bool) (x : A) (l : list A) : option nat :=
  match l with
  | [] => None
  | y :: l' => if eqb x y then Some 0%nat
               else match index_of eqb x l' with Some n => Some (S n) | None => None end
  end.

(** dict lookup in an association list. *)
Fixpoint assoc {A B} (eqb : A -> A -> bool) (k : A) (l : list (A * B)) : option B :=
  match l with
  | [] => None
  | (k', v) :: l' => if eqb k k' then Some v else assoc eqb k l'
  end.

(** [d[k] = v]: overwrite in place or append. *)
Fixpoint assoc_set {A B} (eqb : A -> A -> bool) (k : A) (v : B) (l : list (A * B)) : list (A * B) :=
  match l with
  | [] => [(k, v)]
  | (k', v') :: l' => if eqb k k' then (k', v) :: l' else (k', v') :: assoc_set eqb k v l'
  end.

Fixpoint list_eqb {A} (eqb : A -> A -> bool) (l m : list A) : bool :=
  match l, m with
  | [], [] => true
  | x :: l', y :: m' => eqb x y && list_eqb eqb l' m'
  | _, _ => false
  end.

Definition opt_eqb {A} (eqb : A -> A -> bool) (a b : option A) : bool :=
  match a, b with Some x, Some y => eqb x y | None, None => true | _, _ => false end.

(** [l.remove(x)]: removes the first occurrence. *)
Fixpoint remove_first {A} (eqb : A -> A -> bool) (x : A) (l : list A) : list A :=
  match l with
  | [] => []
  | y :: l' => if eqb x y then l' else y :: remove_first eqb x l'
  end.

(** ** str: printing and parsing of ints, [split], [strip] *)

Definition str_of_Z (z : Z) : string := NilZero.string_of_int (Z.to_int z).

(** [int(s)] for the decimal notations with an optional minus sign (the forms
    with '+', '_' or surrounding blanks are not modelled: reported as None). *)
Definition Z_of_str (s : string) : option Z :=
  match NilZero.int_of_string s with Some i => Some (Z.of_int i) | None => None end.

Fixpoint split_on (sep : ascii) (s : string) : list string :=
  match s with
  | EmptyString => [EmptyString]
  | String a s' =>
      if Ascii.eqb a sep then EmptyString :: split_on sep s'
      else match split_on sep s' with
           | [] => [String a EmptyString]
           | w :: ws => String a w :: ws
           end
  end.

Definition is_space (a : ascii) : bool :=
  Ascii.eqb a " " || (let n := nat_of_ascii a in (Nat.leb 9 n && Nat.leb n 13)).

Fixpoint lstrip (s : string) : string :=
  match s with
  | EmptyString => EmptyString
  | String a s' => if is_space a then lstrip s' else s
  end.

Fixpoint rstrip (s : string) : string :=
  match s with
  | EmptyString => EmptyString
  | String a s' => match rstrip s' with
                   | EmptyString => if is_space a then EmptyString else String a EmptyString
                   | t => String a t
                   end
  end.

Definition strip (s : string) : string := rstrip (lstrip s).

Fixpoint str_len (s : string) : nat :=
  match s with EmptyString => O | String _ s' => S (str_len s') end.

(** Digits only, at least one. *)
Definition nat_lit (s : string) : option Z :=
  match NilZero.uint_of_string s with Some u => Some (Z.of_uint u) | None => None end.

Definition pow10 (z : Z) : Q :=
  if 0 <=? z then inject_Z (10 ^ z) else Qinv (inject_Z (10 ^ (- z))).

(** unsigned decimal literal: "12", "12.5", with an optional exponent part. *)
Definition mantissa (s : string) : option Q :=
  match split_on "." s with
  | [a] => match nat_lit a with Some z => Some (inject_Z (f64_of_Z z)) | None => None end
  | [a; b] =>
      match nat_lit (a ++ b)%string with
      | Some z => Some (inject_Z z * pow10 (- Z.of_nat (str_len b)))%Q
      | None => None
      end
  | _ => None
  end.

Definition unsigned_float (s : string) : option Q :=
  match split_on "e" s with
  | [m] => mantissa m
  | [m; x] => match mantissa m, Z_of_str x with
              | Some q, Some e => Some (q * pow10 e)%Q
              | _, _ => None
              end
  | _ => None
  end.

(** [float(s)] for decimal literals with an optional minus sign.  Integers are
    rounded to float64, other literals are taken exactly; 'nan', 'inf', '+',
    '_' and blanks are not modelled (None = ValueError). *)
Definition float_of_str (s : string) : option Qc :=
  match s with
  | String a s' =>
      if Ascii.eqb a "-"
      then match unsigned_float s' with Some q => Some (Q2Qc (- q)) | None => None end
      else match unsigned_float s with Some q => Some (Q2Qc q) | None => None end
  | EmptyString => None
  end.

(** [str(x)] of a float: only floats with an integer value ("3.0") are printed
    as Python does, other floats are printed as a fraction (not modelled). *)
Definition str_of_flt (q : Qc) : string :=
  match Qden (this q) with
  | xH => (str_of_Z (Qnum (this q)) ++ ".0")%string
  | d => (str_of_Z (Qnum (this q)) ++ "/" ++ str_of_Z (Zpos d))%string
  end.

Definition str_of_value (v : value) : string :=
  match v with VInt z => str_of_Z z | VFlt q => str_of_flt q | VStr s => s end.

(** ** Sorting *)

(** Stable insertion sort by a "comes before or equal" test. *)
Fixpoint insert_by {A} (leb : A -> A -> bool) (x : A) (l : list A) : list A :=
  match l with
  | [] => [x]
  | y :: l' => if leb x y then x :: l else y :: insert_by leb x l'
  end.
Fixpoint sort_by {A} (leb : A -> A -> bool) (l : list A) : list A :=
  match l with [] => [] | x :: l' => insert_by leb x (sort_by leb l') end.

(** [heapq.nlargest(n, l)] = [sorted(l, reverse=True)[:n]] (CPython documents
    the equivalence); [geb x y] is [x >= y]. *)
Definition nlargest {A} (geb : A -> A -> bool) (n : nat) (l : list A) : list A :=
  firstn n (sort_by geb l).

Definition Qsum (l : list Q) : Q := fold_left Qplus l 0%Q.

(** Every character of a str satisfies [P]. *)
Fixpoint str_all (P : ascii -> Prop) (s : string) : Prop :=
  match s with EmptyString => True | String a s' => P a /\ str_all P s' end.
