(** Vocabulary of the comparison of the two kinds of data sets: the same calls on
    data sets in memory (MemModel.v) and on data sets in a database (DbModel.v). *)
From Coq Require Import String Ascii.
From Coq Require Import List ZArith QArith Qcanon Bool Permutation Sorted.
From Verif Require Import Py MemModel MemSpec DbModel DbSpec.
Import ListNotations.
Open Scope string_scope.
Open Scope Z_scope.

(** a row in memory as a row of a table with the columns [cs] *)
Definition as_trow (cs : list string) (r : row) : trow := map (fun c => (c, row_val r c)) cs.

(** The data set [d] of a database and the data set [m] in memory hold the same
    data.  SQLite does not order rows; in memory they are in the order of their
    record ids. *)
Record twin (d : ds) (m : mem) : Prop := {
  tw_wf : wf_mem m;
  tw_cache : m_cache m = None;
  tw_cols : d_cols d = m_columns m;
  tw_ids : d_ids d = m_ids m;
  tw_types : exists ts, d_types d = Some ts /\
     forall c t, In c (m_columns m) -> col_type m c = Ok t -> assoc String.eqb c ts = Some t;
  tw_idtypes : id_types m;
  tw_rows : Permutation (d_rows d) (map (as_trow (m_columns m)) (rows_of m));
  tw_order : StronglySorted Z.lt (map r_rid (rows_of m)) }.

(** ** The calls on data sets in memory *)

(** The data sets a program holds, by the name it gives them. *)
Definition mbook := nat -> option mem.
Definition no_mbook : mbook := fun _ => None.
Definition mnote (mb : mbook) (i : nat) (m : option mem) : mbook := fun j => if Nat.eqb j i then m else mb j.

(** A data set made of rows of cells (mem_dataset.py:11-77, see [mem_of_frame]). *)
Definition memory_row (cs : list string) (row : trow) : MemModel.row :=
  mkRow (rid_of row)
        (flat_map (fun c => match tcell row c with Some v => [(c, v)] | None => [] end) (df_columns cs)).
Definition memory_of (cols : list string) (types : list (string * dtype)) (rows : list trow) : mem :=
  mkMem cols (mkFrame (project_types (df_columns cols) types) (map (memory_row cols) rows)) false [] [] [] [] None None.

(** a new data set under the name [n], or the receiver itself *)
Definition placed (mb : mbook) (n i : nat) (cp : bool) (r : res mem) : mbook * res out :=
  match r with
  | Ok m => if cp then (mnote mb n (Some m), Ok (ADs n)) else (mnote mb i (Some m), Ok (ADs i))
  | Err e => (mb, Err e)
  end.
Definition answer {A} (mb : mbook) (f : A -> out) (r : res A) : mbook * res out :=
  (mb, match r with Ok a => Ok (f a) | Err e => Err e end).
Definition cells_of (l : list (list value)) : list (list (option value)) := map (map (@Some value)) l.

(** The calls of [DbSpec.op] on the data sets of [mb]; a new one gets the name [n].
    Files and generators of rows do not exist here. *)
Definition mem_exec (mb : mbook) (n : nat) (o : op) : mbook * res out :=
  let on i (k : mem -> mbook * res out) := match mb i with Some m => k m | None => (mb, Err KeyError) end in
  match o with
  | OCreate _ cols types rows => (mnote mb n (Some (memory_of cols types rows)), Ok (ADs n))
  | OLoad _ => (mb, Err FileNotFoundError)
  | OCopy i => on i (fun m => placed mb n i true (Ok (mem_copy m)))
  | OSelect i cs cp => on i (fun m => placed mb n i cp ((if cp then MemModel.select else select_inplace) m (query_text cs)))
  | ODrop i rids cp keep => on i (fun m => placed mb n i cp (Ok ((if cp then MemModel.drop else drop_inplace) m rids keep)))
  | OUnique i columns cp => on i (fun m => placed mb n i cp ((if cp then MemModel.unique else unique_inplace) m columns))
  | OAssign i => on i (fun m => match assign_internal_ids m with
                                | Ok m' => (mnote mb i (Some m'), Ok AUnit)
                                | Err e => (mb, Err e)
                                end)
  | ORemove i => on i (fun m => match remove_internal_ids m with
                                | Ok m' => (mnote mb i (Some m'), Ok AUnit)
                                | Err e => (mb, Err e)
                                end)
  | OApply i c f => on i (fun m => let '(r, m') := MemModel.apply_col m c f in
                                   (mnote mb i (Some m'), match r with Ok _ => Ok AUnit | Err e => Err e end))
  | OSave _ _ => (mb, Err KeyError)
  | OClose i => (mnote mb i None, Ok AUnit)
  | OValues i columns | OGenerator i columns => on i (fun m => answer mb (fun l => ARows (cells_of l)) (MemModel.values m columns))
  | OCloseGenerator => (mb, Ok AUnit)
  | OSelectOne i cs columns =>
      on i (fun m => answer mb (fun o => ARow (option_map (map (@Some value)) o)) (MemModel.select_one m (query_text cs) columns))
  | OLen i => on i (fun m => (mb, Ok (ANum (mem_len m))))
  | OCountUnique i columns => on i (fun m => answer mb ANum (MemModel.count_unique m columns))
  | OMax i c => on i (fun m => answer mb AVal (mem_max m c))
  | OMin i c => on i (fun m => answer mb AVal (mem_min m c))
  end.

(** ** Same answers *)

(** Numbers are compared by value: data sets in memory return 3.0 for 3 as soon as
    some column holds floats. *)
Definition same_cell (a b : option value) : Prop :=
  match a, b with None, None => True | Some x, Some y => same_value x y | _, _ => False end.
(** Rows in any order. *)
Definition alike (a b : out) : Prop :=
  match a, b with
  | AUnit, AUnit => True
  | ADs i, ADs j => i = j
  | ARows x, ARows y => exists y', Permutation y y' /\ Forall2 (Forall2 same_cell) x y'
  | ARow None, ARow None => True
  | ARow (Some x), ARow (Some y) => Forall2 same_cell x y
  | ANum n, ANum k => n = k
  | AVal x, AVal y => same_cell x y
  | _, _ => False
  end.
(** the name of the data set a call returned *)
Definition name_of (a : out) : nat := match a with ADs j => j | _ => 0%nat end.

(** ** Calls that mean the same for both *)

(** No integer of the data is beyond 2^53. *)
Definition small (m : mem) : Prop := forall c, small_col m c.
(** A condition on a raw id column, with internal ids assigned: integer ids, or
    texts with == and != as long as the column of internal ids is there. *)
Definition internal (raw : string) : string := if String.eqb raw "user" then "uid" else "iid".
Definition raw_fits (m : mem) (c : scond) : Prop :=
  m_ids m = true -> In (sc_col c) ["user"; "item"] ->
  col_type m (sc_col c) = Ok DInt \/
  (col_type m (sc_col c) = Ok DObj /\ eq_op (sc_op c) /\ In (internal (sc_col c)) (m_columns m)).
Definition queried (m : mem) (cs : list scond) : Prop := Forall (cond_ok m) cs /\ Forall (raw_fits m) cs.

Definition fits (mb : mbook) (o : op) : Prop :=
  match o with
  | OCreate p cols types rows =>
      In "rid" cols /\ incl (df_columns cols) (map fst types) /\ assoc String.eqb "rid" types = Some DInt /\
      StronglySorted Z.lt (map rid_of rows) /\
      forall row c t, In row rows -> In c (df_columns cols) -> assoc String.eqb c types = Some t ->
        exists v, tcell row c = Some v /\ type_of v = t
  | OLoad _ | OSave _ _ => False
  | OSelect i cs _ => exists m, mb i = Some m /\ queried m cs
  | OSelectOne i cs columns =>
      exists m, mb i = Some m /\ queried m cs /\ small m /\
        (match columns with Some l => incl l (m_columns m) | None => True end) /\
        (length (filter (sat cs) (rows_of m)) <= 1)%nat
  | OUnique i columns _ | OCountUnique i columns =>
      exists m cs, mb i = Some m /\ columns = Some cs /\ incl cs (m_columns m) /\ ~ In "rid" cs
  | OValues i columns | OGenerator i columns =>
      exists m, mb i = Some m /\ small m /\ (match columns with Some l => incl l (m_columns m) | None => True end)
  | OMax i c | OMin i c =>
      exists m t, mb i = Some m /\ In c (m_columns m) /\ col_type m c = Ok t /\ t <> DObj /\ rows_of m <> []
  | OApply i c f =>
      exists m, mb i = Some m /\ In c (m_columns m) /\ ~ In c read_only /\ rows_of m <> [] /\
        forall r v, In r (rows_of m) -> cell r c = Some v -> exists v', f v = Ok v'
  | _ => True
  end.

(** The same program run on both, every call of which was correct use and returned
    on the database. *)
Inductive both (inode : string -> nat) : world -> book -> mbook -> Prop :=
| BStart fs : files_ok fs -> both inode (start fs) no_book no_mbook
| BCall w b mb ord o w' a : both inode w b mb -> (forall l, Permutation (ord l) l) -> safe inode w b o -> fits mb o ->
    exec inode ord o w = (w', Ok a) ->
    both inode w' (effect inode w b o (Ok a)) (fst (mem_exec mb (name_of a) o)).
