(** Model of reading and writing csv files: DRecPy/Dataset/db_dataset.py:384-446
    and 612-704, DRecPy/Dataset/mem_dataset.py:11-77 and 298-308.  Definitions
    only.

    A text file is a string in which newlines have already been translated
    ("\r\n" to "\n"), as Python's text mode does; encodings, the field size
    limit of the csv module and NUL characters are not modelled. *)
From Coq Require Import String Ascii.
From Coq Require Import List ZArith QArith Qcanon Bool.
From Verif Require Import Py MemModel DbModel.
Import ListNotations.
Open Scope string_scope.
Open Scope Z_scope.

Definition nl : ascii := "010"%char.
Definition cr : ascii := "013"%char.
Definition quote : ascii := """"%char.

(** Iterating over an open file: the lines with their newline. *)
Fixpoint lines (s : string) : list string :=
  match s with
  | EmptyString => []
  | String a s' =>
      if Ascii.eqb a nl then String a "" :: lines s'
      else match lines s' with [] => [String a ""] | l :: ls => String a l :: ls end
  end.

(** ** csv.reader, default dialect with a given delimiter (CPython Modules/_csv.c,
    parse_process_char and Reader_iternext) *)
Inductive cstate := StartRecord | StartField | InField | InQuoted | QuoteInQuoted | EatCrnl.
Record csv := mkCsv { c_state : cstate; c_field : string; c_fields : list string }.
Definition csv_init : csv := mkCsv StartRecord "" [].
Definition save_field (p : csv) (st : cstate) : csv := mkCsv st "" (c_fields p ++ [c_field p])%list.
Definition add_char (p : csv) (c : ascii) (st : cstate) : csv := mkCsv st (c_field p ++ String c "") (c_fields p).
Definition is_newline (c : ascii) : bool := (Ascii.eqb c nl || Ascii.eqb c cr)%bool.
Definition start_field (d : ascii) (p : csv) (c : ascii) : csv :=
  if is_newline c then save_field p EatCrnl
  else if Ascii.eqb c quote then mkCsv InQuoted (c_field p) (c_fields p)
  else if Ascii.eqb c d then save_field p StartField
  else add_char p c InField.
Definition feed (d : ascii) (p : csv) (c : ascii) : res csv :=
  match c_state p with
  | StartRecord => if is_newline c then Ok (mkCsv EatCrnl (c_field p) (c_fields p)) else Ok (start_field d p c)
  | StartField => Ok (start_field d p c)
  | InField => if is_newline c then Ok (save_field p EatCrnl)
               else if Ascii.eqb c d then Ok (save_field p StartField)
               else Ok (add_char p c InField)
  | InQuoted => if Ascii.eqb c quote then Ok (mkCsv QuoteInQuoted (c_field p) (c_fields p))
                else Ok (add_char p c InQuoted)
  | QuoteInQuoted => if Ascii.eqb c quote then Ok (add_char p c InQuoted)
                     else if Ascii.eqb c d then Ok (save_field p StartField)
                     else if is_newline c then Ok (save_field p EatCrnl)
                     else Ok (add_char p c InField)
  | EatCrnl => if is_newline c then Ok p else Err CsvError
  end.
Fixpoint feed_line (d : ascii) (p : csv) (s : string) : res csv :=
  match s with
  | EmptyString => Ok p
  | String c s' => p' <- feed d p c ;; feed_line d p' s'
  end.
(** the end-of-line mark the reader feeds after every line *)
Definition end_line (p : csv) : csv :=
  match c_state p with
  | StartRecord | InQuoted => p
  | StartField | InField | QuoteInQuoted => save_field p StartRecord
  | EatCrnl => mkCsv StartRecord (c_field p) (c_fields p)
  end.
(** All records of an iterable of lines; a quoted field that is still open at
    the end of the input is closed there. *)
Fixpoint records (d : ascii) (p : csv) (ls : list string) : res (list (list string)) :=
  match ls with
  | [] => match c_state p with InQuoted => Ok [(c_fields p ++ [c_field p])%list] | _ => Ok [] end
  | l :: ls' =>
      p1 <- feed_line d p l ;;
      let p2 := end_line p1 in
      match c_state p2 with
      | StartRecord => rest <- records d csv_init ls' ;; Ok (c_fields p2 :: rest)
      | _ => records d p2 ls'
      end
  end.
Definition reader (d : ascii) (ls : list string) : res (list (list string)) := records d csv_init ls.

(** ** Import into a database: db_dataset.py:612-704 *)

(** [s.replace(old, new)], [old] not empty; [skip] characters of a match are
    still to be left out. *)
Fixpoint replace_go (old new : string) (skip : nat) (s : string) : string :=
  match s with
  | EmptyString => EmptyString
  | String a s' =>
      match skip with
      | S k => replace_go old new k s'
      | O => if prefix_b old s then new ++ replace_go old new (pred (str_len old)) s'
             else String a (replace_go old new 0 s')
      end
  end.
Definition replace (old new s : string) : string := replace_go old new 0 s.

(** 655-660: the delimiter given to csv.reader and what is done to each line
    before; csv.reader refuses an empty delimiter. *)
Definition delimiter_of (delim : string) : res (ascii * (string -> string)) :=
  match delim with
  | EmptyString => Err TypeError
  | String d EmptyString => Ok (d, fun l => l)
  | _ => Ok (","%char, replace delim ",")
  end.

(** 706-722 *)
Definition infer_type (v : string) : dtype :=
  match (if contains "." v then None else Z_of_str v) with
  | Some _ => DInt
  | None => match float_of_str v with Some _ => DFloat | None => DObj end
  end.

(** 663-671: the line the column types are taken from *)
Definition first_line (has_header : bool) (ls : list string) : option string :=
  if has_header then match ls with _ :: l :: _ => Some l | _ => None end else match ls with l :: _ => Some l | [] => None end.

(** Columns of the file; None is a column that is skipped. *)
Fixpoint somes {A} (l : list (option A)) : list A :=
  match l with [] => [] | Some a :: l' => a :: somes l' | None :: l' => somes l' end.
(** 614-623 *)
Fixpoint infer_types (cols : list (option string)) (fields : list string) : list (option string * dtype) :=
  match cols, fields with
  | c :: cs, v :: fs => (c, infer_type v) :: infer_types cs fs
  | _, _ => []
  end.
Fixpoint named {B} (l : list (option string * B)) : list (string * B) :=
  match l with [] => [] | (Some c, b) :: l' => (c, b) :: named l' | (None, _) :: l' => named l' end.
(** 902-926 for this table: a skipped column becomes a column called "None"
    (which the model leaves out, nothing reads it), a second one makes CREATE
    TABLE fail, as does a name given twice. *)
Definition skipped {B} (l : list (option string * B)) : nat :=
  length (filter (fun p => match fst p with None => true | Some _ => false end) l).
Fixpoint dup_b (l : list string) : bool :=
  match l with [] => false | c :: l' => (mem_b String.eqb c l' || dup_b l')%bool end.
Definition table_of (cols : list (option string)) (fields : list string) : res (list (string * dtype)) :=
  let tys := infer_types cols fields in
  let names := somes cols in
  let types := (("rid", DInt) :: named tys)%list in
  if negb (forallb (fun c => in_cols c ("rid" :: names)%list) required) then Err AssertionError else
  if negb (forallb (fun c => match assoc String.eqb c types with Some _ => true | None => false end) names) then Err KeyError else
  if (Nat.eqb (skipped tys) 0 && negb (Nat.eqb (length names) (length cols)))%bool then Err KeyError else
  if (Nat.ltb 1 (length cols - length names) || dup_b names)%bool then Err OperationalError else
  Ok types.

(** 625-652: one chunk.  [n] is the number of rows read before. *)
Fixpoint record (cols : list (option string)) (fields : list string) : res (list value) :=
  match fields, cols with
  | v :: fs, None :: cs => record cs fs
  | v :: fs, Some c :: cs =>
      x <- (if String.eqb c "interaction"
            then match float_of_str v with Some q => Ok (VFlt q) | None => Err ValueError end
            else Ok (VStr v)) ;;
      r <- record cs fs ;; Ok (x :: r)
  | _, _ => Ok []
  end.
(** a record bound to the columns of the INSERT *)
Definition row_of (names : list string) (r : list value) (rid : Z) : trow :=
  (combine names (map Some r) ++ [("rid", Some (VInt rid))])%list.
Fixpoint numbered (names : list string) (n : Z) (rs : list (list value)) : list trow :=
  match rs with [] => [] | r :: rs' => row_of names r n :: numbered names (n + 1) rs' end.
Definition segment (d : ascii) (cols : list (option string)) (n : Z) (ls : list string) : res (list trow) :=
  rows <- reader d ls ;;
  match mapM (record cols) rows with
  | Err _ => Err GenericException
  | Ok rs => if forallb (fun r => Nat.eqb (length r) (length (somes cols))) rs
             then Ok (numbered (somes cols) n rs) else Err ProgrammingError
  end.
(** 688-698: lines are read [size] at a time; [acc] is the chunk being filled.
    A size of zero never flushes a chunk. *)
Fixpoint chunks (size : nat) (acc : list string) (ls : list string) : list (list string) :=
  match ls with
  | [] => match acc with [] => [] | _ => [acc] end
  | l :: ls' => let acc' := (acc ++ [l])%list in
                if Nat.eqb (length acc') size then acc' :: chunks size [] ls' else chunks size acc' ls'
  end.
Fixpoint segments (d : ascii) (cols : list (option string)) (n : Z) (cs : list (list string)) : res (list trow) :=
  match cs with
  | [] => Ok []
  | c :: cs' => r <- segment d cols n c ;; rest <- segments d cols (n + Z.of_nat (length r)) cs' ;; Ok (r ++ rest)%list
  end.
(** 653-704: column types and rows of the new table.  [cols] are the columns of
    the file (the argument of InteractionDataset, which adds 'rid':
    dataset_factory.py:19-25), not containing 'rid'. *)
Definition csv_table (text delim : string) (has_header : bool) (cols : list (option string)) (size : nat)
  : res (list (string * dtype) * list trow) :=
  match first_line has_header (lines text) with
  | None => Err TypeError
  | Some l =>
      dr <- delimiter_of delim ;;
      rs <- reader (fst dr) [snd dr l] ;;
      types <- table_of cols (hd [] rs) ;;
      rows <- segments (fst dr) cols 0 (chunks size [] (map (snd dr) (if has_header then tl (lines text) else lines text))) ;;
      Ok (types, rows)
  end.
(** dataset_factory.py:19-36 with in_memory=False *)
Definition csv_columns (cols : list (option string)) : list string := (somes cols ++ ["rid"])%list.
Definition import_csv (inode : string -> nat) (p text delim : string) (has_header : bool) (cols : list (option string))
  (size : nat) : M nat :=
  if (in_cols "uid" (somes cols) || in_cols "iid" (somes cols))%bool then raise GenericException else
  t <~ lift (csv_table text delim has_header cols size) ;;
  create inode p (csv_columns cols) (fst t) (snd t).

(** ** Saving a database data set as csv: db_dataset.py:433-446 *)
Section Save.
Variable show : Qc -> string.      (* str(x) of a float *)
Definition show_value (v : value) : string :=
  match v with VInt z => str_of_Z z | VFlt q => show q | VStr s => s end.
Definition show_cell (o : option value) : string := match o with Some v => show_value v | None => "" end.
Fixpoint chars (s : string) : list string :=
  match s with EmptyString => [] | String a s' => String a "" :: chars s' end.
(** One line.  A record of one column is a bare value (851-857), which the join
    then iterates over. *)
Definition csv_line (row : list (option value)) : res string :=
  match row with
  | [Some (VStr s)] => Ok (String.concat "," (chars s) ++ String nl "")
  | [_] => Err TypeError
  | _ => Ok (String.concat "," (map show_cell row) ++ String nl "")
  end.
Definition strip_ids (cs : list string) : list string :=
  remove_first String.eqb "iid" (remove_first String.eqb "uid" (remove_first String.eqb "rid" cs)).
(** The text of the file and, when the caller passed a list of columns, what
    that list contains after the call. *)
Definition save_csv (inode : string -> nat) (ord : list trow -> list trow) (i : nat) (columns : option (list string)) (header : bool)
  : M (string * option (list string)) :=
  x <~ self i ;;
  cs <~ lift (DbModel.handle_columns x columns) ;;
  let cs' := strip_ids cs in
  rows <~ values inode ord i (Some cs') false ;;
  ls <~ lift (mapM csv_line rows) ;;
  ret ((if header then String.concat "," cs' ++ String nl "" else "") ++ String.concat "" ls,
       option_map (fun _ => cs') columns).

(** ** The in-memory data set: mem_dataset.py:298-308 *)

(** pandas' to_csv writes fields as csv.writer does with QUOTE_MINIMAL: a field
    with a separator, a quote or a newline is quoted, its quotes are doubled. *)
Fixpoint has_char (q : ascii) (s : string) : bool :=
  match s with EmptyString => false | String a s' => (Ascii.eqb a q || has_char q s')%bool end.
Fixpoint double_quotes (s : string) : string :=
  match s with
  | EmptyString => EmptyString
  | String a s' => if Ascii.eqb a quote then String quote (String quote (double_quotes s')) else String a (double_quotes s')
  end.
Definition quoted (s : string) : string := String quote (double_quotes s ++ String quote "").
Definition csv_field (s : string) : string :=
  if (has_char "," s || has_char quote s || has_char nl s)%bool then quoted s else s.
Definition written_line (fields : list string) : string :=
  match fields with
  | [f] => (if String.eqb f "" then quoted f else csv_field f) ++ String nl ""
  | _ => String.concat "," (map csv_field fields) ++ String nl ""
  end.
(** [columns] is not used by the code. *)
Definition mem_save (m : mem) (columns : option (list string)) (header : bool) : res string :=
  let cs := strip_ids (m_columns m) in
  rows <- mapM (fun r => mapM (fun c => match cell r c with Some v => Ok (show_value v) | None => Err KeyError end) cs) (rows_of m) ;;
  Ok ((if header then written_line cs else "") ++ String.concat "" (map written_line rows)).
End Save.

(** ** Reading a csv file into memory: pandas' read_csv, mem_dataset.py:27-77

    The tokenizer follows the rules of csv.reader, but leaves out blank lines.  A
    column of integers is read as int, one of numbers as float, any other (and
    one without rows) as text; the texts of [na_texts] are missing values, which
    are allowed in float and text columns.  Columns of True/False, integers
    outside int64 and records with another number of fields than columns are not
    modelled (the last are reported as GenericException). *)
Definition na_texts : list string :=
  [""; "#N/A"; "#N/A N/A"; "#NA"; "-1.#IND"; "-1.#QNAN"; "-NaN"; "-nan"; "1.#IND"; "1.#QNAN"; "<NA>"; "N/A"; "NA"; "NULL"; "NaN"; "n/a"; "nan"; "null"].
Definition is_na (s : string) : bool := mem_b String.eqb s na_texts.
Definition is_int (s : string) : bool := match Z_of_str s with Some _ => true | None => false end.
Definition is_num (s : string) : bool := match float_of_str s with Some _ => true | None => false end.
Definition column_type (l : list string) : dtype :=
  if match l with [] => true | _ => false end then DObj
  else if forallb is_int l then DInt
  else if forallb (fun s => (is_na s || is_num s)%bool) l then DFloat
  else DObj.
(** None is NaN; the constructor replaces it in text columns (71-75). *)
Definition read_cell (t : dtype) (s : string) : option value :=
  match t with
  | DInt => option_map VInt (Z_of_str s)
  | DFloat => if is_na s then None else option_map VFlt (float_of_str s)
  | DObj => Some (VStr (if is_na s then "" else s))
  end.
(** 27-38 *)
Definition column_texts (k : nat) (rows : list (list string)) : list string := map (fun r => nth k r "") rows.
Definition typed_columns (cols : list (option string)) (rows : list (list string)) : list (string * (nat * dtype)) :=
  named (combine cols (map (fun k => (k, column_type (column_texts k rows))) (seq 0 (length cols)))).
Definition read_csv_mem (text : string) (d : ascii) (has_header : bool) (cols : list (option string))
  : res (list (string * dtype) * list (list (string * option value))) :=
  rows0 <- reader d (if has_header then tl (lines text) else lines text) ;;
  let rows := filter (fun r => negb (match r with [] => true | _ => false end)) rows0 in
  if negb (forallb (fun r => Nat.eqb (length r) (length cols)) rows) then Err GenericException else
  let tys := typed_columns cols rows in
  if negb (forallb (fun c => in_cols c (map fst tys)) ["user"; "item"; "interaction"]) then Err GenericException else
  Ok (map (fun p => (fst p, snd (snd p))) tys,
      map (fun r => map (fun p => (fst p, read_cell (snd (snd p)) (nth (fst (snd p)) r ""))) tys) rows).
