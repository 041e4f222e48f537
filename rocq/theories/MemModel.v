(** Model of the in-memory data set: DRecPy/Dataset/mem_dataset.py and the
    concrete methods of DRecPy/Dataset/dataset_abc.py.  Definitions only. *)
From Coq Require Import String Ascii.
From Coq Require Import List ZArith QArith Qcanon Bool.
From Verif Require Import Py.
Import ListNotations.
Open Scope string_scope.
Open Scope Z_scope.

(** A pandas row: its index label (the record id, rid) and its cells by column
    name.  Simplification: one dtype per column, homogeneous cells. *)
Record row := mkRow { r_rid : Z; r_cells : list (string * value) }.
Definition cell (r : row) (c : string) : option value := assoc String.eqb c (r_cells r).

(** A pandas DataFrame: columns with their dtype, rows in order. *)
Record frame := mkFrame { f_types : list (string * dtype); f_rows : list row }.

(** scipy csr_matrix built from (data, (rows, cols)): entries at the same
    position add up (the documented behaviour of the COO constructor). *)
Record matrix := mkMatrix { mx_rows : nat; mx_cols : nat; mx_entries : list (Z * Z * Qc) }.

(** mem_dataset.py:11-25, the attributes of MemoryInteractionDataset.  The dicts
    _user_mapping etc. are association lists; None is represented by []. *)
Record mem := mkMem {
  m_columns : list string;
  m_df : frame;
  m_ids : bool;                       (* has_internal_ids *)
  m_umap : list (value * Z);          (* _user_mapping *)
  m_uinv : list (Z * value);          (* _user_mapping_inv *)
  m_imap : list (value * Z);          (* _item_mapping *)
  m_iinv : list (Z * value);          (* _item_mapping_inv *)
  m_cache : option matrix;            (* _cached_interaction_matrix *)
  m_tcache : option matrix            (* _cached_trans_interaction_matrix *)
}.

Definition set_df (m : mem) (f : frame) : mem :=
  mkMem (m_columns m) f (m_ids m) (m_umap m) (m_uinv m) (m_imap m) (m_iinv m) (m_cache m) (m_tcache m).
Definition set_columns (m : mem) (cs : list string) : mem :=
  mkMem cs (m_df m) (m_ids m) (m_umap m) (m_uinv m) (m_imap m) (m_iinv m) (m_cache m) (m_tcache m).
Definition set_caches (m : mem) (c t : option matrix) : mem :=
  mkMem (m_columns m) (m_df m) (m_ids m) (m_umap m) (m_uinv m) (m_imap m) (m_iinv m) c t.

Definition rows_of (m : mem) : list row := f_rows (m_df m).
Definition set_rows (m : mem) (rs : list row) : mem := set_df m (mkFrame (f_types (m_df m)) rs).

(** A data set over a frame with the three required columns, before any internal
    id is assigned: mem_dataset.py:11-77 for the case columns=None and default
    labels (read_df).  Constructor details (csv parsing, label renaming, NaN
    filling) are not modelled here. *)
Definition mem_of_frame (f : frame) : mem :=
  mkMem (map fst (f_types f) ++ ["rid"]) f false [] [] [] [] None None.

(** mem_dataset.py:79-80 *)
Definition mem_len (m : mem) : nat := length (rows_of m).

(** mem_dataset.py:365-382: the copy shares the frame and drops the caches. *)
Definition mem_copy (m : mem) : mem := set_caches m None None.

(** dataset_abc.py:334-337 *)
Definition col_in (m : mem) (c : string) : bool := mem_b String.eqb c (m_columns m).
Definition validate_column (m : mem) (c : string) : res unit :=
  if col_in m c then Ok tt else Err AssertionError.

(** dataset_abc.py:339-346; [None] is columns=None. *)
Definition handle_columns (m : mem) (cs : option (list string)) : res (list string) :=
  match cs with
  | None => Ok (m_columns m)
  | Some cs => if forallb (col_in m) cs then Ok cs else Err AssertionError
  end.

(** ** Queries: mem_dataset.py:385-478 *)

Inductive cmp := Gt | Ge | Le | Lt | Eq | Ne.

(** mem_dataset.py:438-469, the operator names *)
Definition cmp_of_str (s : string) : option cmp :=
  if String.eqb s ">" then Some Gt
  else if String.eqb s ">=" then Some Ge
  else if String.eqb s "<=" then Some Le
  else if String.eqb s "<" then Some Lt
  else if String.eqb s "==" then Some Eq
  else if String.eqb s "!=" then Some Ne
  else None.

(** mem_dataset.py:391-399: a segment has exactly three parts. *)
Definition parse_segment (seg : string) : res (string * string * string) :=
  match split_on " " (strip seg) with
  | [c; o; v] => Ok (c, o, v)
  | _ => Err GenericException
  end.

(** mem_dataset.py:416, [eval(value)]: only str literals without escapes and
    decimal number literals are modelled, anything else is a name that does not
    resolve (NameError). *)
Definition eval_lit (s : string) : res value :=
  match split_on "'" s with
  | [a; b; c] => if String.eqb a "" && String.eqb c "" then Ok (VStr b) else Err NameError
  | _ =>
    match split_on """" s with
    | [a; b; c] => if String.eqb a "" && String.eqb c "" then Ok (VStr b) else Err NameError
    | _ => match Z_of_str s with
           | Some z => Ok (VInt z)
           | None => match float_of_str s with Some q => Ok (VFlt q) | None => Err NameError end
           end
    end
  end.

(** dtype of a column, KeyError if the frame lacks it (mem_dataset.py:405-408).
    The index (rid) has an integer dtype. *)
Definition col_type (m : mem) (c : string) : res dtype :=
  if String.eqb c "rid" then Ok DInt
  else match assoc String.eqb c (f_types (m_df m)) with Some t => Ok t | None => Err KeyError end.

(** mem_dataset.py:264-274 and 281-291; the argument is the raw id as given. *)
Definition to_internal (has_ids : bool) (ty : res dtype) (mapping : list (value * Z)) (v : value)
  : res (option Z) :=
  if negb has_ids then Err AssertionError else
  t <- ty ;;
  match t with
  | DInt =>
      match v with
      | VInt z => Ok (assoc val_eqb (VInt z) mapping)
      | VFlt q => Ok (assoc val_eqb (VInt (Z.quot (Qnum (this q)) (Zpos (Qden (this q))))) mapping)
      | VStr s => match Z_of_str s with
                  | Some z => Ok (assoc val_eqb (VInt z) mapping)
                  | None => Err GenericException
                  end
      end
  | _ => Ok (assoc val_eqb (VStr (str_of_value v)) mapping)
  end.
Definition user_to_uid (m : mem) (v : value) : res (option Z) :=
  to_internal (m_ids m) (col_type m "user") (m_umap m) v.
Definition item_to_iid (m : mem) (v : value) : res (option Z) :=
  to_internal (m_ids m) (col_type m "item") (m_imap m) v.

(** mem_dataset.py:276-279, 293-296 *)
Definition uid_to_user (m : mem) (u : Z) : res (option value) :=
  if m_ids m then Ok (assoc Z.eqb u (m_uinv m)) else Err AssertionError.
Definition iid_to_item (m : mem) (i : Z) : res (option value) :=
  if m_ids m then Ok (assoc Z.eqb i (m_iinv m)) else Err AssertionError.

(** Comparison of one cell with the literal, as numpy does it elementwise
    (mem_dataset.py:438-467).  An integer cell compared with a float literal is
    first converted to float64.  [None] literal (unknown raw id) only supports
    equality. *)
Definition coerce (v lit : value) : value :=
  match v, lit with
  | VInt z, VFlt _ => VFlt (Qc_of_Z (f64_of_Z z))
  | _, _ => v
  end.

Definition cmp_vals (op : cmp) (v : value) (lit : option value) : res bool :=
  match lit with
  | None => match op with Eq => Ok false | Ne => Ok true | _ => Err TypeError end
  | Some l =>
      let v := coerce v l in
      match op with
      | Eq => Ok (val_eqb v l)
      | Ne => Ok (negb (val_eqb v l))
      | Lt => match val_ltb v l with Some b => Ok b | None => Err TypeError end
      | Ge => match val_ltb v l with Some b => Ok (negb b) | None => Err TypeError end
      | Gt => match val_ltb l v with Some b => Ok b | None => Err TypeError end
      | Le => match val_ltb l v with Some b => Ok (negb b) | None => Err TypeError end
      end
  end.

(** mem_dataset.py:433-436, the array of values of a column *)
Definition row_value (c : string) (r : row) : res value :=
  if String.eqb c "rid" then Ok (VInt (r_rid r))
  else match cell r c with Some v => Ok v | None => Err KeyError end.

(** mem_dataset.py:410-423, value parsing by dtype *)
Definition parse_value (c : string) (t : dtype) (s : string) : res value :=
  if mem_b String.eqb c ["iid"; "uid"; "rid"] then
    match Z_of_str s with Some z => Ok (VInt z) | None => Err ValueError end
  else
    match t with
    | DInt | DFloat => match float_of_str s with Some q => Ok (VFlt q) | None => Err GenericException end
    | DObj => eval_lit s
    end.

(** mem_dataset.py:425-431, raw ids of non-integer type are searched by internal
    id.  Result: column to look at and literal. *)
Definition redirect (m : mem) (c : string) (t : dtype) (v : value) : res (string * option value) :=
  if String.eqb c "user" && m_ids m && negb (dtype_eqb t DInt) then
    u <- user_to_uid m v ;; Ok ("uid", match u with Some z => Some (VInt z) | None => None end)
  else if String.eqb c "item" && m_ids m && negb (dtype_eqb t DInt) then
    i <- item_to_iid m v ;; Ok ("iid", match i with Some z => Some (VInt z) | None => None end)
  else Ok (c, Some v).

(** One segment: the boolean mask over the rows (mem_dataset.py:401-469). *)
Definition segment_mask (m : mem) (seg : string) : res (list bool) :=
  cov <- parse_segment seg ;;
  let '(c, o, s) := cov in
  if negb (col_in m c) then Err AssertionError else
  t <- col_type m c ;;
  v <- parse_value c t s ;;
  cl <- redirect m c t v ;;
  let '(c', l) := cl in
  _ <- col_type m c' ;;
  vals <- mapM (row_value c') (rows_of m) ;;
  match cmp_of_str o with
  | None => Err GenericException
  | Some op => mapM (fun x => cmp_vals op x l) vals
  end.

Definition mask_and (a b : list bool) : list bool := map (fun p => fst p && snd p)%bool (combine a b).

(** mem_dataset.py:391-469, [condition_vector &= ...] over the segments *)
Fixpoint segments_mask (m : mem) (acc : list bool) (segs : list string) : res (list bool) :=
  match segs with
  | [] => Ok acc
  | s :: segs' => b <- segment_mask m s ;; segments_mask m (mask_and acc b) segs'
  end.

Definition query_mask (m : mem) (q : string) : res (list bool) :=
  match split_on "," q with
  | [] => Ok (map (fun _ => true) (rows_of m))
  | s :: segs => b <- segment_mask m s ;; segments_mask m b segs
  end.

Definition mask_filter {A} (mask : list bool) (l : list A) : list A :=
  map snd (filter fst (combine mask l)).

(** mem_dataset.py:471-478, [self._df[condition_vector]] *)
Definition apply_query (m : mem) (q : string) : res frame :=
  mask <- query_mask m q ;;
  Ok (mkFrame (f_types (m_df m)) (mask_filter mask (rows_of m))).

(** mem_dataset.py:82-86, copy=True.  On an error nothing is returned. *)
Definition select (m : mem) (q : string) : res mem :=
  f <- apply_query (mem_copy m) q ;; Ok (set_df (mem_copy m) f).

(** mem_dataset.py:82-86, copy=False: the receiver itself changes (its caches
    are kept). *)
Definition select_inplace (m : mem) (q : string) : res mem :=
  f <- apply_query m q ;; Ok (set_df m f).

(** ** Reading rows *)

(** [self._df[df_columns].values]: numpy gives the array one common dtype; if
    all columns are numeric and one is float, ints become floats. *)
Definition common_type (ts : list dtype) : dtype :=
  if existsb (dtype_eqb DObj) ts then DObj
  else if existsb (dtype_eqb DFloat) ts then DFloat else DInt.
Definition upcast (t : dtype) (v : value) : value :=
  match t, v with DFloat, VInt z => VFlt (Qc_of_Z (f64_of_Z z)) | _, _ => v end.

Definition df_columns (cs : list string) : list string :=
  filter (fun c => negb (String.eqb c "rid")) cs.

(** mem_dataset.py:248-249: one record as a list, cells in the order of [cs]. *)
Definition row_record (t : dtype) (cs : list string) (r : row) : res (list value) :=
  mapM (fun c => v <- row_value c r ;;
                 Ok (if String.eqb c "rid" then v else upcast t v)) cs.

(** mem_dataset.py:242-253 with to_list=True.  A record with one column is a
    scalar in Python, here it stays a one element list. *)
Definition values (m : mem) (cs : option (list string)) : res (list (list value)) :=
  cs <- handle_columns m cs ;;
  ts <- mapM (col_type m) (df_columns (m_columns m)) ;;
  mapM (row_record (common_type ts) cs) (rows_of m).

(** mem_dataset.py:252-253, to_list=False: dicts *)
Definition values_dict (m : mem) (cs : option (list string)) : res (list (list (string * value))) :=
  cols <- handle_columns m cs ;;
  vs <- values m cs ;;
  Ok (map (fun v => combine cols v) vs).

(** mem_dataset.py:88-99 (list form), None if no row matches *)
Definition select_one (m : mem) (q : string) (cs : option (list string)) : res (option (list value)) :=
  cs <- handle_columns m cs ;;
  f <- apply_query m q ;;
  match f_rows f with
  | [] => Ok None
  | r :: _ =>
      ts <- mapM (col_type m) (df_columns (m_columns m)) ;;
      v <- row_record (common_type ts) cs r ;; Ok (Some v)
  end.

(** dataset_abc.py:112-122 *)
Definition exists_q (m : mem) (q : string) : res bool :=
  r <- select_one m q None ;; Ok (match r with None => false | Some _ => true end).

(** ** drop, unique, max, min *)

(** mem_dataset.py:255-262, copy=True and copy=False differ in the caches only *)
Definition drop_rows (ids : list Z) (keep : bool) (rs : list row) : list row :=
  filter (fun r => if keep then mem_b Z.eqb (r_rid r) ids
                   else negb (mem_b Z.eqb (r_rid r) ids)) rs.
Definition drop_inplace (m : mem) (ids : list Z) (keep : bool) : mem :=
  set_rows m (drop_rows ids keep (rows_of m)).
Definition drop (m : mem) (ids : list Z) (keep : bool) : mem := drop_inplace (mem_copy m) ids keep.

(** The cells of a row in the given columns. *)
Definition row_key (cs : list string) (r : row) : list (option value) := map (cell r) cs.
Definition key_eqb : list (option value) -> list (option value) -> bool :=
  list_eqb (opt_eqb value_eqb).

(** pandas drop_duplicates(subset=cs): keep the first row of each key. *)
Fixpoint drop_duplicates_acc (cs : list string) (seen : list (list (option value))) (rs : list row) : list row :=
  match rs with
  | [] => []
  | r :: rs' => if mem_b key_eqb (row_key cs r) seen then drop_duplicates_acc cs seen rs'
                else r :: drop_duplicates_acc cs (row_key cs r :: seen) rs'
  end.
Definition drop_duplicates cs rs := drop_duplicates_acc cs [] rs.

(** [df[cs]]: projection on columns. *)
Definition project_row (cs : list string) (r : row) : row :=
  mkRow (r_rid r) (flat_map (fun c => match cell r c with Some v => [(c, v)] | None => [] end) cs).
Definition project_types (cs : list string) (ts : list (string * dtype)) : list (string * dtype) :=
  flat_map (fun c => match assoc String.eqb c ts with Some t => [(c, t)] | None => [] end) cs.

(** mem_dataset.py:220-230.  [unique_inplace] is copy=False.  An empty subset
    makes pandas raise. *)
Definition unique_inplace (m : mem) (cs : option (list string)) : res mem :=
  cs <- handle_columns m cs ;;
  let cs := if mem_b String.eqb "rid" cs then cs else app cs ["rid"] in
  let dcs := df_columns cs in
  match dcs with
  | [] => Err ValueError
  | _ =>
    _ <- mapM (col_type m) dcs ;;
    let f := mkFrame (project_types dcs (f_types (m_df m)))
                     (map (project_row dcs) (drop_duplicates dcs (rows_of m))) in
    Ok (set_columns (set_df m f) cs)
  end.
Definition unique (m : mem) (cs : option (list string)) : res mem := unique_inplace (mem_copy m) cs.

(** dataset_abc.py:139-148 *)
Definition count_unique (m : mem) (cs : option (list string)) : res nat :=
  u <- unique m cs ;; Ok (mem_len u).

(** mem_dataset.py:232-240, [Series.max()] / [min()].  An empty column gives NaN
    in pandas, here None. *)
Fixpoint extremum (better : value -> value -> option bool) (best : value) (l : list value) : res value :=
  match l with
  | [] => Ok best
  | v :: l' => match better v best with
               | Some true => extremum better v l'
               | Some false => extremum better best l'
               | None => Err TypeError
               end
  end.
Definition col_extremum (better : value -> value -> option bool) (m : mem) (c : string) : res (option value) :=
  _ <- validate_column m c ;;
  _ <- col_type m c ;;
  vs <- mapM (row_value c) (rows_of m) ;;
  match vs with
  | [] => Ok None
  | v :: vs' => x <- extremum better v vs' ;; Ok (Some x)
  end.
Definition mem_max := col_extremum (fun a b => val_ltb b a).
Definition mem_min := col_extremum val_ltb.

(** ** Internal ids: mem_dataset.py:309-337 *)

(** [Series.unique()]: distinct cells in order of appearance. *)
Definition distinct_col (c : string) (rs : list row) : list value :=
  dedup value_eqb (flat_map (fun r => match cell r c with Some v => [v] | None => [] end) rs).

Definition Zseq (n : nat) : list Z := map Z.of_nat (seq 0 n).

(** mem_dataset.py:318-319: dict((cat, code)) and its inverse *)
Definition mapping_of (cats : list value) : list (value * Z) := combine cats (Zseq (length cats)).
Definition mapping_inv_of (cats : list value) : list (Z * value) := combine (Zseq (length cats)) cats.

(** pd.Categorical codes: position of the cell in the categories. *)
Definition code_of (cats : list value) (v : value) : Z :=
  match index_of value_eqb v cats with Some n => Z.of_nat n | None => -1 end.

Definition set_cell (c : string) (v : value) (r : row) : row :=
  mkRow (r_rid r) (assoc_set String.eqb c v (r_cells r)).
Definition code_row (cats : list value) (raw internal : string) (r : row) : row :=
  match cell r raw with
  | Some v => set_cell internal (VInt (code_of cats v)) r
  | None => r
  end.

Definition add_column (m : mem) (c : string) : list string :=
  if mem_b String.eqb c (m_columns m) then m_columns m else app (m_columns m) [c].

(** mem_dataset.py:312-319 / 321-328 for one kind of id *)
Definition assign_frame (raw internal : string) (f : frame) : frame :=
  mkFrame (assoc_set String.eqb internal DInt (f_types f))
          (map (code_row (distinct_col raw (f_rows f)) raw internal) (f_rows f)).

Definition assign_internal_ids (m : mem) : res mem :=
  _ <- col_type m "user" ;;
  _ <- col_type m "item" ;;
  let users := distinct_col "user" (rows_of m) in
  let items := distinct_col "item" (rows_of m) in
  let f := assign_frame "item" "iid" (assign_frame "user" "uid" (m_df m)) in
  let m1 := set_columns m (add_column m "uid") in
  let cols := add_column m1 "iid" in
  Ok (mkMem cols f true (mapping_of users) (mapping_inv_of users)
            (mapping_of items) (mapping_inv_of items) (m_cache m) (m_tcache m)).

(** mem_dataset.py:332-337 *)
Definition drop_cells (cs : list string) (r : row) : row :=
  mkRow (r_rid r) (filter (fun p => negb (mem_b String.eqb (fst p) cs)) (r_cells r)).
Definition remove_internal_ids (m : mem) : res mem :=
  let m0 := mkMem (m_columns m) (m_df m) false (m_umap m) (m_uinv m) (m_imap m) (m_iinv m)
                  (m_cache m) (m_tcache m) in
  if mem_b String.eqb "uid" (m_columns m) then
    _ <- col_type m "uid" ;;
    _ <- col_type m "iid" ;;
    if negb (mem_b String.eqb "iid" (m_columns m)) then Err ValueError else
    let f := mkFrame (filter (fun p => negb (mem_b String.eqb (fst p) ["uid"; "iid"])) (f_types (m_df m)))
                     (map (drop_cells ["uid"; "iid"]) (rows_of m)) in
    Ok (set_columns (set_df m0 f)
          (remove_first String.eqb "iid" (remove_first String.eqb "uid" (m_columns m))))
  else Ok m0.

(** ** Interaction matrix: mem_dataset.py:165-218, 480-498 *)

Definition num_cell (r : row) (c : string) : option Qc :=
  match cell r c with Some v => num_of v | None => None end.
Definition int_cell (r : row) (c : string) : option Z :=
  match cell r c with Some (VInt z) => Some z | _ => None end.

(** csr_matrix((data, (rows, cols)), shape): indices outside the shape raise. *)
Definition csr (nr nc : nat) (es : list (Z * Z * Qc)) : res matrix :=
  if (Nat.ltb 0 nr && Nat.ltb 0 nc &&
      forallb (fun e => (fst (fst e) <? Z.of_nat nr) && (snd (fst e) <? Z.of_nat nc))%bool es)%bool
  then Ok (mkMatrix nr nc es) else Err ValueError.

(** A row of a matrix as a dense vector; entries add up. *)
Definition mx_at (mx : matrix) (i j : Z) : Qc :=
  fold_right (fun e s => if (fst (fst e) =? i) && (snd (fst e) =? j) then (snd e + s)%Qc else s)
             0%Qc (mx_entries mx).
Definition mx_row (mx : matrix) (i : Z) : res (list Qc) :=
  if (0 <=? i) && (i <? Z.of_nat (mx_rows mx))
  then Ok (map (fun j => mx_at mx i j) (Zseq (mx_cols mx))) else Err IndexError.
Definition mx_transpose (mx : matrix) : matrix :=
  mkMatrix (mx_cols mx) (mx_rows mx) (map (fun e => (snd (fst e), fst (fst e), snd e)) (mx_entries mx)).

(** the (col, interaction) pairs of the rows whose [idcol] is [i]
    (mem_dataset.py:181-187, 209-215, 489-493) *)
Definition segment_entries (m : mem) (idcol colcol : string) (i : Z) (at_row : Z) : res (list (Z * Z * Qc)) :=
  mapM (fun r => match int_cell r colcol, num_cell r "interaction" with
                 | Some c, Some q => Ok (at_row, c, q)
                 | _, _ => Err ValueError
                 end)
       (filter (fun r => match int_cell r idcol with Some z => z =? i | None => false end) (rows_of m)).

(** mem_dataset.py:480-498; returns both caches *)
Definition build_matrix (m : mem) : res (matrix * matrix) :=
  if negb (m_ids m) then Err AssertionError else
  n_uids <- count_unique m (Some ["uid"]) ;;
  segs <- mapM (fun u => segment_entries m "uid" "iid" u u) (Zseq n_uids) ;;
  n_iids <- count_unique m (Some ["iid"]) ;;
  mx <- csr n_uids n_iids (concat segs) ;;
  Ok (mx, mx_transpose mx).

(** csr_matrix(0): a 1 x 1 zero matrix, the "did not fit in memory" mark. *)
Definition csr_zero : matrix := mkMatrix 1 1 [].

(** mem_dataset.py:165-190.  Returns the vector and the data set with its caches
    updated.  A MemoryError can only come from the shape test of line 170
    (running out of memory is not modelled). *)
Definition user_vec (m : mem) (uid : Z) : res (list Qc) * mem :=
  if negb (m_ids m) then (Err AssertionError, m) else
  match uid_to_user m uid with
  | Ok (Some _) =>
    match m_cache m with
    | Some mx =>
        if Nat.leb (mx_rows mx) 1 then
          (* MemoryError branch, lines 177-190 *)
          let m' := set_caches m (Some csr_zero) (m_tcache m) in
          (es <- segment_entries m' "uid" "iid" uid 0 ;;
           mx <- csr 1 (length (drop_duplicates ["iid"] (rows_of m'))) es ;;
           mx_row mx 0, m')
        else (mx_row mx uid, m)
    | None =>
        match build_matrix m with
        | Ok (mx, tmx) => (mx_row mx uid, set_caches m (Some mx) (Some tmx))
        | Err e => (Err e, m)
        end
    end
  | Ok None => (Err AssertionError, m)
  | Err e => (Err e, m)
  end.

(** mem_dataset.py:192-218 *)
Definition item_vec (m : mem) (iid : Z) : res (list Qc) * mem :=
  if negb (m_ids m) then (Err AssertionError, m) else
  match iid_to_item m iid with
  | Ok (Some _) =>
    match m_cache m with
    | Some mx =>
        if Nat.leb (mx_rows mx) 1 then
          (* MemoryError branch, lines 204-218: the column index is iid *)
          let m' := set_caches m (Some csr_zero) (m_tcache m) in
          (es <- segment_entries m' "iid" "iid" iid 0 ;;
           mx <- csr 1 (length (drop_duplicates ["uid"] (rows_of m'))) es ;;
           mx_row mx 0, m')
        else
          match m_tcache m with
          | Some tmx => (mx_row tmx iid, m)
          | None => (Err TypeError, m)
          end
    | None =>
        match build_matrix m with
        | Ok (mx, tmx) => (mx_row tmx iid, set_caches m (Some mx) (Some tmx))
        | Err e => (Err e, m)
        end
    end
  | Ok None => (Err AssertionError, m)
  | Err e => (Err e, m)
  end.

(** ** apply: mem_dataset.py:339-360.  [f] may raise.  The new dtype is the type
    of the results (int, float or str; other types are rejected by the code and
    cannot be expressed here). *)
Definition type_of (v : value) : dtype :=
  match v with VInt _ => DInt | VFlt _ => DFloat | VStr _ => DObj end.
Definition read_only : list string := ["rid"; "uid"; "iid"; "user"; "item"].
Definition apply_row (c : string) (f : value -> res value) (r : row) : res row :=
  match cell r c with
  | Some v => v' <- f v ;; Ok (set_cell c v' r)
  | None => Err KeyError
  end.
(** Returns the outcome and the receiver afterwards: when rebuilding the matrix
    fails (line 357) the exception is raised after the column was replaced. *)
Definition apply_col (m : mem) (c : string) (f : value -> res value) : res unit * mem :=
  match validate_column m c with
  | Err e => (Err e, m)
  | Ok _ =>
  if mem_b String.eqb c read_only then (Err GenericException, m) else
  match rows_of m with
  | [] => (Err GenericException, m)      (* values[0] raises IndexError, line 346 *)
  | _ =>
    match col_type m c, mapM (apply_row c f) (rows_of m) with
    | Ok _, Ok rs =>
        let t := common_type (map (fun r => match cell r c with Some v => type_of v | None => DObj end) rs) in
        let m' := set_df m (mkFrame (assoc_set String.eqb c t (f_types (m_df m)))
                                    (map (fun r => match cell r c with
                                                   | Some v => set_cell c (upcast t v) r
                                                   | None => r end) rs)) in
        match String.eqb c "interaction", m_cache m' with
        | true, Some _ =>
            let m0 := set_caches m' None None in
            match build_matrix m0 with
            | Ok (mx, tmx) => (Ok tt, set_caches m' (Some mx) (Some tmx))
            | Err _ => (Err GenericException, m0)
            end
        | _, _ => (Ok tt, m')
        end
    | _, _ => (Err GenericException, m)
    end
  end
  end.

(** ** save: mem_dataset.py:298-307.  The lines written, as cells; [columns] is
    accepted and ignored by the code. *)
Definition save_columns (m : mem) (columns : option (list string)) : list string :=
  remove_first String.eqb "iid" (remove_first String.eqb "uid"
    (remove_first String.eqb "rid" (m_columns m))).
Definition save_lines (m : mem) (columns : option (list string)) : res (list (list value)) :=
  mapM (fun r => mapM (fun c => row_value c r) (save_columns m columns)) (rows_of m).
