(** Specification vocabulary for csv files: what a file contains, which rows a
    reader should find in it, and which tables survive a round trip. *)
From Coq Require Import String Ascii.
From Coq Require Import List ZArith QArith Qcanon Bool.
From Verif Require Import Py PyFacts MemModel DbModel.
Import ListNotations.
Open Scope string_scope.
Open Scope Z_scope.

Definition newline : ascii := "010"%char.
Definition return_char : ascii := "013"%char.
Definition quote_char : ascii := """"%char.

(** ** Files *)

(** A text with its quotes doubled. *)
Inductive escaped : string -> string -> Prop :=
| esc_end : escaped "" ""
| esc_char c v t : c <> quote_char -> escaped v t -> escaped (String c v) (String c t)
| esc_quote v t : escaped v t -> escaped (String quote_char v) (String quote_char (String quote_char t)).

(** [t] is a way to write the field [v]: as it is, or in quotes. *)
Inductive field_text (d : ascii) : string -> string -> Prop :=
| raw_field v : str_no d v -> str_no quote_char v -> str_no newline v -> str_no return_char v -> field_text d v v
| quoted_field v t : escaped v t -> field_text d (String quote_char (t ++ String quote_char "")) v.

(** [t] is a way to write a record; a blank line is not. *)
Definition record_text (d : ascii) (t : string) (fields : list string) : Prop :=
  t <> "" /\ exists ts, t = String.concat (String d "") ts /\ Forall2 (field_text d) ts fields.

(** A delimiter that is not a quote or the end of a line. *)
Definition delimiter_ok (d : ascii) : Prop := d <> quote_char /\ d <> newline /\ d <> return_char.

Definition with_newline (t : string) : string := t ++ String newline "".
(** [text] is the text of a file with a header (if [has_header]) and the records
    [rows]; the newline at the very end may be missing. *)
Definition csv_file (d : ascii) (has_header : bool) (rows : list (list string)) (text : string) : Prop :=
  exists h ts, Forall2 (record_text d) ts rows /\ (if has_header then str_no newline h else h = "") /\
    let full := (if has_header then with_newline h else "") ++ String.concat "" (map with_newline ts) in
    text = full \/ with_newline text = full.

(** ** What a data set read from a file should contain *)

(** The named columns; None is a column to be skipped. *)
Fixpoint named_columns (cols : list (option string)) : list string :=
  match cols with [] => [] | Some c :: l => c :: named_columns l | None :: l => named_columns l end.
(** the field of column [c] of a record *)
Fixpoint field_of (cols : list (option string)) (fields : list string) (c : string) : option string :=
  match cols, fields with
  | o :: cols', f :: fields' =>
      match o with
      | Some c' => if String.eqb c' c then Some f else field_of cols' fields' c
      | None => field_of cols' fields' c
      end
  | _, _ => None
  end.
(** the value given to the database for it: interactions as floats, anything else as text *)
Definition given (c f : string) : option value :=
  if String.eqb c "interaction" then option_map VFlt (float_of_str f) else Some (VStr f).
(** A record that has all the columns, and a number as interaction. *)
Definition usable (cols : list (option string)) (fields : list string) : Prop :=
  forall c, In c (named_columns cols) -> exists f v, field_of cols fields c = Some f /\ given c f = Some v.
(** The row of the nth record. *)
Definition line_row (cols : list (option string)) (n : nat) (fields : list string) : trow :=
  (map (fun c => (c, match field_of cols fields c with Some f => given c f | None => None end)) (named_columns cols)
   ++ [("rid", Some (VInt (Z.of_nat n)))])%list.
Definition file_rows (cols : list (option string)) (rows : list (list string)) : list trow :=
  map (fun p => line_row cols (fst p) (snd p)) (combine (seq 0 (length rows)) rows).
(** The type of a column, from a text in it. *)
Definition text_type (s : string) : dtype :=
  match Z_of_str s, float_of_str s with Some _, _ => DInt | None, Some _ => DFloat | None, None => DObj end.
Definition types_from (cols : list (option string)) (fields : list string) (types : list (string * dtype)) : Prop :=
  assoc String.eqb "rid" types = Some DInt /\
  (forall c f, In c (named_columns cols) -> field_of cols fields c = Some f -> assoc String.eqb c types = Some (text_type f)) /\
  (forall c t, assoc String.eqb c types = Some t -> c = "rid" \/ In c (named_columns cols)).

(** Columns InteractionDataset accepts for an import into a database. *)
Definition columns_ok (cols : list (option string)) : Prop :=
  incl ["user"; "item"; "interaction"] (named_columns cols) /\ NoDup (named_columns cols) /\
  ~ In "rid" (named_columns cols) /\ (length cols <= S (length (named_columns cols)))%nat.

(** A file whose fields are separated by a longer text; fields are written as
    they are. *)
Definition split_field (delim f : string) : Prop :=
  match delim with String a _ => str_no a f | EmptyString => False end /\
  str_no ","%char f /\ str_no quote_char f /\ str_no newline f /\ str_no return_char f.
Definition split_file (delim : string) (has_header : bool) (rows : list (list string)) (text : string) : Prop :=
  exists h, (if has_header then str_no newline h else h = "") /\
    Forall (fun fields => String.concat delim fields <> "" /\ Forall (split_field delim) fields) rows /\
    let full := (if has_header then with_newline h else "") ++ String.concat "" (map (fun r => with_newline (String.concat delim r)) rows) in
    text = full \/ with_newline text = full.

(** such a text: two characters or more, no newline *)
Definition long_delimiter (delim : string) : Prop :=
  exists a b s, delim = String a (String b s) /\ str_no newline delim.

(** ** Round trips *)

(** A text a reader takes for what it is without quotes. *)
Definition clean (s : string) : Prop :=
  str_no ","%char s /\ str_no quote_char s /\ str_no newline s /\ str_no return_char s.
(** [show] is str() of floats: it reads back as the same float and not as an
    integer. *)
Definition prints (show : Qc -> string) (q : Qc) : Prop :=
  clean (show q) /\ float_of_str (show q) = Some q /\ Z_of_str (show q) = None.
(** A value of column [c] that survives: integers up to 2^53 as interactions,
    floats, texts that do not look like numbers. *)
Definition survives (show : Qc -> string) (c : string) (v : value) : Prop :=
  match v with
  | VInt z => c = "interaction" -> Z.abs z <= 2 ^ 53
  | VFlt q => prints show q
  | VStr s => c <> "interaction" /\ clean s /\ text_type s = DObj
  end.
(** All cells of the columns [ns] survive, and a column has one type. *)
Definition all_survive (show : Qc -> string) (ns : list string) (rows : list trow) : Prop :=
  forall c, In c ns -> exists t, forall row, In row rows -> exists v, tcell row c = Some v /\ type_of v = t /\ survives show c v.

(** The columns that are written: all but the ids. *)
Definition written_columns (l : list string) : list string :=
  filter (fun c => negb (existsb (String.eqb c) ["rid"; "uid"; "iid"])) l.

(** A column of an in-memory data set survives: texts may contain anything but
    carriage returns, but not look like missing values, and one of them must not
    look like a number. *)
Definition missing_texts : list string :=
  ["#N/A"; "#N/A N/A"; "#NA"; "-1.#IND"; "-1.#QNAN"; "-NaN"; "-nan"; "1.#IND"; "1.#QNAN"; "<NA>"; "N/A"; "NA"; "NULL"; "NaN"; "n/a"; "nan"; "null"].
Definition column_survives (show : Qc -> string) (t : dtype) (l : list value) : Prop :=
  match t with
  | DInt => forall v, In v l -> exists z, v = VInt z
  | DFloat => forall v, In v l -> exists q, v = VFlt q /\ prints show q
  | DObj => (forall v, In v l -> exists s, v = VStr s /\ str_no return_char s /\ ~ In s missing_texts) /\
            (l = [] \/ exists s, In (VStr s) l /\ s <> "" /\ text_type s = DObj)
  end.
