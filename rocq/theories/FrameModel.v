(** Model of MemoryInteractionDataset.__init__ (DRecPy/Dataset/mem_dataset.py:11-77)
    and InteractionsDatasetFactory.read_df (DRecPy/Dataset/dataset_factory.py:45-59):
    data sets made from a pandas DataFrame.  Definitions only.

    Column names are texts and different from each other, the index is of
    integers.  A cell is None if it is missing (NaN).  *)
From Coq Require Import String Ascii.
From Coq Require Import List ZArith QArith Qcanon Bool.
From Verif Require Import Py MemModel.
Import ListNotations.
Open Scope string_scope.
Open Scope Z_scope.

Record drow := mkDrow { dr_index : Z; dr_cells : list (string * option value) }.
Record dframe := mkDframe { df_types : list (string * dtype); df_rows : list drow }.

(** [l[k] = x]: in place, or at the end *)
Fixpoint put {A} (k : string) (x : A) (l : list (string * A)) : list (string * A) :=
  match l with
  | [] => [(k, x)]
  | p :: l' => if String.eqb (fst p) k then (k, x) :: l' else p :: put k x l'
  end.
Definition dcell (r : drow) (c : string) : option value :=
  match assoc String.eqb c (dr_cells r) with Some o => o | None => None end.

(** mem_dataset.py:42-44: [df[c] = df[src]]; KeyError for a missing column becomes
    an Exception (45-49) *)
Definition set_column (c src : string) (d : dframe) : res dframe :=
  match assoc String.eqb src (df_types d) with
  | None => Err GenericException
  | Some t => Ok (mkDframe (put c t (df_types d))
                    (map (fun r => mkDrow (dr_index r) (put c (dcell r src) (dr_cells r))) (df_rows d)))
  end.

(** A label argument.  Lines 54, 58 and 62 compare with "is not", the identity of
    objects: [l_same] says if a text equal to the literal is that object (it is for
    the defaults, and for literals in other modules in CPython). *)
Record label := mkLabel { l_text : string; l_same : bool }.
Definition is_not (l : label) (literal : string) : bool := negb (String.eqb (l_text l) literal && l_same l).

(** list.remove *)
Definition list_remove (c : string) (l : list string) : res (list string) :=
  if mem_b String.eqb c l then Ok (remove_first String.eqb c l) else Err ValueError.
Definition without_label (l : label) (literal : string) (cols : list string) : res (list string) :=
  if is_not l literal then list_remove (l_text l) cols else Ok cols.

(** 51-64 *)
Definition columns_of (columns : option (list string)) (lu li lx : label) (d : dframe) : res (list string) :=
  match columns with
  | Some cs => Ok cs
  | None =>
      c1 <- without_label lu "user" (map fst (df_types d) ++ ["rid"])%list ;;
      c2 <- without_label li "item" c1 ;;
      without_label lx "interaction" c2
  end.

(** 66-69 *)
Definition keep_columns (cols : list string) (d : dframe) : dframe :=
  let k {A} (l : list (string * A)) := filter (fun p => mem_b String.eqb (fst p) cols) l in
  mkDframe (k (df_types d)) (map (fun r => mkDrow (dr_index r) (k (dr_cells r))) (df_rows d)).

(** 71-75: missing values in columns of texts *)
Definition fill (types : list (string * dtype)) (p : string * option value) : string * option value :=
  match assoc String.eqb (fst p) types, snd p with
  | Some DObj, None => (fst p, Some (VStr ""))
  | _, _ => p
  end.
Definition fill_missing (d : dframe) : dframe :=
  mkDframe (df_types d) (map (fun r => mkDrow (dr_index r) (map (fill (df_types d)) (dr_cells r))) (df_rows d)).

(** 40-77 for a given frame: self.columns and self._df *)
Definition construct (columns : option (list string)) (lu li lx : label) (d : dframe) : res (list string * dframe) :=
  d1 <- set_column "user" (l_text lu) d ;;
  d2 <- set_column "item" (l_text li) d1 ;;
  d3 <- set_column "interaction" (l_text lx) d2 ;;
  cols <- columns_of columns lu li lx d3 ;;
  Ok (cols, fill_missing (keep_columns cols d3)).

(** dataset_factory.py:45-59; the frame is copied first, so that of the caller
    does not change *)
Definition read_df (d : dframe) (lu li lx : label) : res (list string * dframe) := construct None lu li lx d.

(** The data set of MemModel, if no value is missing *)
Definition whole_row (r : drow) : option row :=
  option_map (mkRow (dr_index r))
    (fold_right (fun p acc => match snd p, acc with Some v, Some l => Some ((fst p, v) :: l) | _, _ => None end) (Some []) (dr_cells r)).
Definition data_set (x : list string * dframe) : option mem :=
  option_map (fun rs => mkMem (fst x) (mkFrame (df_types (snd x)) rs) false [] [] [] [] None None)
    (fold_right (fun r acc => match whole_row r, acc with Some w, Some l => Some (w :: l) | _, _ => None end) (Some []) (df_rows (snd x))).

(** dataset_factory.py:18-43: which implementation loads the data, or the
    exception; [memory_error]: loading in memory runs out of memory *)
Inductive kind := InMemory | InDatabase.
Definition suffix_of (suffix s : string) : bool :=
  let n := String.length s in let k := String.length suffix in
  (k <=? n)%nat && String.eqb (String.substring (n - k) k s) suffix.
Definition factory (path : string) (columns : option (list string)) (in_memory memory_error : bool) : res (kind * option (list string)) :=
  let is_db := suffix_of ".sqlite" path in
  match columns with
  | None => if is_db then Ok (InDatabase, None) else Err GenericException
  | Some cs =>
      if mem_b String.eqb "uid" cs then Err GenericException else
      if mem_b String.eqb "iid" cs then Err GenericException else
      let cs' := Some (cs ++ ["rid"])%list in
      if in_memory && negb is_db then Ok (if memory_error then InDatabase else InMemory, cs') else Ok (InDatabase, cs')
  end.
