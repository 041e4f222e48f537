(** Small specification vocabulary for the data set properties: what a query
    text means, independent of how the code evaluates it. *)
From Coq Require Import String Ascii.
From Coq Require Import List ZArith QArith Qcanon Bool.
From Verif Require Import Py MemModel.
Import ListNotations.
Open Scope string_scope.
Open Scope Z_scope.

(** A literal of a query: an integer, a decimal number "a.b" or a quoted text. *)
Inductive slit := LInt (z : Z) | LDec (neg : bool) (a b : string) | LText (s : string).
Record scond := mkCond { sc_col : string; sc_op : cmp; sc_lit : slit }.

Definition op_text (o : cmp) : string :=
  match o with Gt => ">" | Ge => ">=" | Le => "<=" | Lt => "<" | Eq => "==" | Ne => "!=" end.
Definition lit_text (l : slit) : string :=
  match l with
  | LInt z => str_of_Z z
  | LDec neg a b => (if neg then "-" else "") ++ a ++ "." ++ b
  | LText s => "'" ++ s ++ "'"
  end.
Definition cond_text (c : scond) : string :=
  sc_col c ++ " " ++ op_text (sc_op c) ++ " " ++ lit_text (sc_lit c).

(** "c1 op1 v1, c2 op2 v2, ..." *)
Fixpoint query_text (cs : list scond) : string :=
  match cs with
  | [] => ""
  | [c] => cond_text c
  | c :: cs' => cond_text c ++ ", " ++ query_text cs'
  end.

(** The six comparison operators in terms of a three-way comparison. *)
Definition op_holds (o : cmp) (c : comparison) : bool :=
  match o, c with
  | Gt, Datatypes.Gt => true
  | Ge, (Datatypes.Gt | Datatypes.Eq) => true
  | Le, (Datatypes.Lt | Datatypes.Eq) => true
  | Lt, Datatypes.Lt => true
  | Eq, Datatypes.Eq => true
  | Ne, (Datatypes.Lt | Datatypes.Gt) => true
  | _, _ => false
  end.

(** Digits as a number. *)
Definition digit (a : ascii) : option Z :=
  let n := Z.of_nat (nat_of_ascii a) - 48 in
  if (0 <=? n) && (n <=? 9) then Some n else None.
Fixpoint digits_from (acc : Z) (s : string) : Z :=
  match s with
  | EmptyString => acc
  | String a s' => digits_from (10 * acc + match digit a with Some d => d | None => 0 end) s'
  end.
Fixpoint all_digits (s : string) : bool :=
  match s with
  | EmptyString => true
  | String a s' => match digit a with Some _ => all_digits s' | None => false end
  end.

(** The number (or text) a literal denotes. *)
Definition lit_num (l : slit) : option Qc :=
  match l with
  | LInt z => Some (Qc_of_Z z)
  | LDec neg a b =>
      let x := (inject_Z (digits_from 0 (a ++ b)) / inject_Z (10 ^ Z.of_nat (str_len b)))%Q in
      Some (Q2Qc (if neg then - x else x)%Q)
  | LText _ => None
  end.

(** The value of a row in a column, the record id included. *)
Definition row_val (r : row) (c : string) : option value :=
  if String.eqb c "rid" then Some (VInt (r_rid r)) else cell r c.

(** Does a row satisfy a condition?  Numbers compare as numbers, texts
    lexicographically. *)
Definition sat1 (c : scond) (r : row) : bool :=
  match row_val r (sc_col c), sc_lit c with
  | Some (VStr s), LText t => op_holds (sc_op c) (String.compare s t)
  | Some (VInt z), l => match lit_num l with
                        | Some q => op_holds (sc_op c) (Qc_of_Z z ?= q)%Qc
                        | None => false
                        end
  | Some (VFlt x), l => match lit_num l with
                        | Some q => op_holds (sc_op c) (x ?= q)%Qc
                        | None => false
                        end
  | _, _ => false
  end.
Definition sat (cs : list scond) (r : row) : bool := forallb (fun c => sat1 c r) cs.

(** Decidable equality of cells. *)
Definition value_eq_dec (a b : value) : {a = b} + {a <> b}.
Proof. decide equality; [apply Z.eq_dec|apply Qc_eq_dec|apply string_dec]. Defined.

(** The cells of a column in row order. *)
Definition column (c : string) (rs : list row) : list value :=
  flat_map (fun r => match cell r c with Some v => [v] | None => [] end) rs.

(** [to_int]/[to_raw] number the distinct elements of [ids] by first appearance:
    0, 1, 2, ...; [known v] delimits the raw ids one may ask about. *)
Record numbering (to_int : value -> res (option Z)) (to_raw : Z -> res (option value))
                 (known : value -> Prop) (ids : list value) : Prop := {
  nb_first : forall p v, nth_error ids p = Some v -> ~ In v (firstn p ids) ->
     to_int v = Ok (Some (Z.of_nat (length (nodup value_eq_dec (firstn p ids)))));
  nb_inverse : forall v k, known v -> (to_int v = Ok (Some k) <-> to_raw k = Ok (Some v));
  nb_onto : forall k, 0 <= k < Z.of_nat (length (nodup value_eq_dec ids)) <->
     exists v, to_raw k = Ok (Some v) /\ In v ids;
  nb_unknown_raw : forall v, known v -> ~ In v ids -> to_int v = Ok None;
  nb_unknown_int : forall k, ~ 0 <= k < Z.of_nat (length (nodup value_eq_dec ids)) -> to_raw k = Ok None }.

(** The interaction of a row as a number (0 when it is not one). *)
Definition interaction_of (r : row) : Qc :=
  match cell r "interaction" with
  | Some (VInt z) => Qc_of_Z z
  | Some (VFlt q) => q
  | _ => 0%Qc
  end.
Definition has_pair (u i : Z) (r : row) : bool :=
  match cell r "uid", cell r "iid" with
  | Some (VInt u'), Some (VInt i') => (u' =? u) && (i' =? i)
  | _, _ => false
  end.
(** Sum of the interactions of the rows with internal ids (u, i). *)
Definition pair_sum (u i : Z) (rs : list row) : Qc :=
  fold_right Qcplus 0%Qc (map interaction_of (filter (has_pair u i) rs)).

(** Same cell up to the int / float distinction. *)
Definition same_value (a b : value) : Prop :=
  match a, b with
  | VStr s, VStr t => s = t
  | VStr _, _ | _, VStr _ => False
  | _, _ => num_of a = num_of b
  end.

(** ** Which data sets and queries the theorems speak about *)

(** Every row has exactly the columns of the frame, with cells of their dtype. *)
Record wf_frame (f : frame) : Prop := {
  wf_names : NoDup (map fst (f_types f));
  wf_norid : ~ In "rid" (map fst (f_types f));
  wf_keys : forall r, In r (f_rows f) -> map fst (r_cells r) = map fst (f_types f);
  wf_typed : forall r c t, In r (f_rows f) -> In (c, t) (f_types f) ->
             exists v, cell r c = Some v /\ type_of v = t }.

(** The data set lists exactly the columns of its frame, and rid. *)
Record wf_mem (m : mem) : Prop := {
  wf_df : wf_frame (m_df m);
  wf_cols_nodup : NoDup (m_columns m);
  wf_cols : forall c, In c (m_columns m) <-> c = "rid" \/ In c (map fst (f_types (m_df m))) }.

(** internal id columns are integers *)
Definition id_types (m : mem) : Prop :=
  forall c t, In c ["uid"; "iid"] -> assoc String.eqb c (f_types (m_df m)) = Some t -> t = DInt.

(** Column names without spaces and commas; texts also without quotes. *)
Definition plain_char (a : ascii) : Prop := is_space a = false /\ a <> ","%char.
Definition plain (s : string) : Prop := s <> "" /\ str_all plain_char s.
Definition plain_text (s : string) : Prop := str_all (fun a => plain_char a /\ a <> "'"%char /\ a <> """"%char) s.

(** Literals the code accepts for a column of dtype [t]: integers for the id
    columns, integers up to 2^53 and decimal numbers for numeric columns, quoted
    texts for text columns. *)
Inductive lit_ok (c : string) (t : dtype) : slit -> Prop :=
| lo_id z : In c ["iid"; "uid"; "rid"] -> lit_ok c t (LInt z)
| lo_int z : ~ In c ["iid"; "uid"; "rid"] -> t <> DObj -> Z.abs z <= 2 ^ 53 -> lit_ok c t (LInt z)
| lo_dec n a b : ~ In c ["iid"; "uid"; "rid"] -> t <> DObj -> all_digits a = true ->
    all_digits b = true -> (a ++ b) <> "" -> lit_ok c t (LDec n a b)
| lo_text s : ~ In c ["iid"; "uid"; "rid"] -> t = DObj -> plain_text s -> lit_ok c t (LText s).

(** the integers of the column are exactly representable as float64 *)
Definition small_col (m : mem) (c : string) : Prop :=
  forall r z, In r (rows_of m) -> cell r c = Some (VInt z) -> Z.abs z <= 2 ^ 53.

(** A condition the code accepts: known column, literal of the right kind. *)
Definition cond_ok (m : mem) (c : scond) : Prop :=
  In (sc_col c) (m_columns m) /\ plain (sc_col c) /\ small_col m (sc_col c) /\
  (exists t, col_type m (sc_col c) = Ok t /\ lit_ok (sc_col c) t (sc_lit c)).

(** raw id columns are compared directly *)
Definition direct (m : mem) (c : scond) : Prop :=
  m_ids m = true -> In (sc_col c) ["user"; "item"] ->
  assoc String.eqb (sc_col c) (f_types (m_df m)) = Some DInt.

Definition eq_op (o : cmp) : Prop := o = Eq \/ o = Ne.
(** A condition on a raw id column of text type uses == or != only. *)
Definition raw_ok (m : mem) (c : scond) : Prop :=
  In (sc_col c) ["user"; "item"] -> col_type m (sc_col c) = Ok DInt \/
    (col_type m (sc_col c) = Ok DObj /\ eq_op (sc_op c)).

(** Two rows with the same cells in the given columns. *)
Definition agree (cs : list string) (r r' : row) : Prop := forall c, In c cs -> cell r c = cell r' c.

(** The number in a cell. *)
Definition num (v : value) : Qc := match num_of v with Some q => q | None => 0%Qc end.

(** rows equal up to the internal id cells *)
Definition same_raw (r r' : row) : Prop :=
  r_rid r' = r_rid r /\ forall c, c <> "uid" -> c <> "iid" -> cell r' c = cell r c.

(** The row belongs to the integer user [u]. *)
Definition user_is (u : Z) (r : row) : bool :=
  match cell r "user" with Some (VInt z) => z =? u | _ => false end.

(** what a reader expects of the vectors of a data set with [n] users, [p] items *)
Definition user_vec_spec (rs : list row) (p : nat) (u : Z) (vec : list Qc) : Prop :=
  length vec = p /\ forall i, 0 <= i < Z.of_nat p -> nth_error vec (Z.to_nat i) = Some (pair_sum u i rs).
Definition item_vec_spec (rs : list row) (n : nat) (i : Z) (vec : list Qc) : Prop :=
  length vec = n /\ forall u, 0 <= u < Z.of_nat n -> nth_error vec (Z.to_nat u) = Some (pair_sum u i rs).

(** number of distinct values of a column *)
Definition n_distinct (c : string) (m : mem) : nat := length (nodup value_eq_dec (column c (rows_of m))).

(** Histories of reads and of apply on the interactions *)
Inductive vop := ReadU (u : Z) | ReadI (i : Z) | MapInteraction (f : value -> res value).
Definition vstep (m : mem) (o : vop) : mem :=
  match o with
  | ReadU u => snd (user_vec m u)
  | ReadI i => snd (item_vec m i)
  | MapInteraction f => snd (apply_col m "interaction" f)
  end.
Definition vrun (m : mem) (os : list vop) : mem := fold_left vstep os m.

(** the function applied to the interactions returns numbers *)
Definition vop_ok (o : vop) : Prop :=
  match o with MapInteraction f => forall v v', f v = Ok v' -> num_of v' <> None | _ => True end.

(** columns other than the record id and the internal ids *)
Definition not_id (c : string) : bool := negb (mem_b String.eqb c ["rid"; "uid"; "iid"]).
