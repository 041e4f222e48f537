(** Model of the database data set: DRecPy/Dataset/db_dataset.py.  Definitions
    only.  The csv import is in CsvModel.v.

    SQLite is modelled by an abstract syntax of the statements the code builds
    and an evaluator for them.  Simplifications: one process and one thread, so
    no locking errors; a statement sees the changes of every earlier statement
    (commits are not modelled); column names are not SQL keywords and do not
    contain blanks or quotes; integers are unbounded; indexes only affect the
    order in which rows are read, which is a parameter of the operations that
    depend on it. *)
From Coq Require Import String Ascii.
From Coq Require Import List ZArith QArith Qcanon Bool.
From Verif Require Import Py MemModel.
Import ListNotations.
Open Scope string_scope.
Open Scope Z_scope.

Definition in_cols (c : string) (cs : list string) : bool := mem_b String.eqb c cs.

(** ** Tables *)

(** A stored row: every column of the table with its value, None for NULL. *)
Definition trow := list (string * option value).
Definition tcell (r : trow) (c : string) : option value :=
  match assoc String.eqb c r with Some v => v | None => None end.

(** The record id of a row, the INTEGER PRIMARY KEY column. *)
Definition rid_of (r : trow) : Z := match tcell r "rid" with Some (VInt z) => z | _ => 0 end.

(** A table: its columns with their declared types, and its rows. *)
Record table := mkTable { tb_types : list (string * dtype); tb_rows : list trow }.
Definition tb_cols (t : table) : list string := map fst (tb_types t).

Definition proj (cs : list string) (r : trow) : trow := map (fun c => (c, tcell r c)) cs.

(** Column affinity of SQLite: how a value is stored in a column declared
    INTEGER, REAL or TEXT (https://www.sqlite.org/datatype3.html, section 3). *)
Definition int_if_integral (q : Qc) : value :=
  match Qden (this q) with xH => VInt (Qnum (this q)) | _ => VFlt q end.
Definition affine (t : dtype) (v : value) : value :=
  match t with
  | DInt => match v with
            | VInt _ => v
            | VFlt q => int_if_integral q
            | VStr s => match Z_of_str s with
                        | Some z => VInt z
                        | None => match float_of_str s with Some q => int_if_integral q | None => v end
                        end
            end
  | DFloat => match v with
              | VInt z => VFlt (Qc_of_Z (f64_of_Z z))
              | VFlt _ => v
              | VStr s => match float_of_str s with Some q => VFlt q | None => v end
              end
  | DObj => VStr (str_of_value v)
  end.

(** The row stored by INSERT INTO t (cols) VALUES (vals). *)
Definition store (types : list (string * dtype)) (r : trow) : trow :=
  map (fun ct => (fst ct, option_map (affine (snd ct)) (tcell r (fst ct)))) types.

(** ** Queries *)

(** Conditions of a WHERE clause: db_dataset.py:755-760, 325-328, 242-248.
    [WMin cs] is [rid IN (SELECT MIN(rid) FROM (source) GROUP BY cs)]. *)
Inductive wcond :=
| WCmp (c : string) (op : cmp) (v : value)
| WIn (rids : list Z)
| WNotIn (rids : list Z)
| WMin (cs : list string).

(** A source of rows: a table or a sub-select. *)
Inductive src :=
| STab (t : string)
| SSub (cs : list string) (from : src) (w : list wcond).

(** A state query: SELECT cols FROM (from) WHERE w. *)
Record sel := mkSel { q_cols : list string; q_from : src; q_where : list wcond }.
Definition src_of (q : sel) : src := SSub (q_cols q) (q_from q) (q_where q).

(** SQLite's order: numbers by value, before texts.  NULL compares to nothing. *)
Definition sql_ltb (a b : value) : bool :=
  match val_ltb a b with
  | Some x => x
  | None => match a with VStr _ => false | _ => true end
  end.
Definition sql_op (op : cmp) (a b : value) : bool :=
  match op with
  | Eq => val_eqb a b
  | Ne => negb (val_eqb a b)
  | Lt => sql_ltb a b
  | Gt => sql_ltb b a
  | Le => negb (sql_ltb b a)
  | Ge => negb (sql_ltb a b)
  end.
Definition sql_cmp (op : cmp) (a b : option value) : bool :=
  match a, b with Some x, Some y => sql_op op x y | _, _ => false end.
Definition cell_eqb (a b : option value) : bool := opt_eqb val_eqb a b.

(** SQL identifiers ignore the case of ASCII letters. *)
Definition lower (a : ascii) : ascii :=
  let n := nat_of_ascii a in
  if (Nat.leb 65 n && Nat.leb n 90)%bool then ascii_of_nat (n + 32) else a.
Fixpoint ci_eqb (a b : string) : bool :=
  match a, b with
  | EmptyString, EmptyString => true
  | String x a', String y b' => (Ascii.eqb (lower x) (lower y) && ci_eqb a' b')%bool
  | _, _ => false
  end.
(** The column a name stands for; a table also answers to its rowid names. *)
Definition resolve (istab : bool) (cs : list string) (s : string) : option string :=
  match find (ci_eqb s) cs with
  | Some c => Some c
  | None => if (istab && existsb (ci_eqb s) ["rowid"; "oid"; "_rowid_"])%bool then Some "rid" else None
  end.
(** Text literals are written between double quotes (db_dataset.py:749); SQLite
    reads a double-quoted name that names a column as that column. *)
Definition operand (istab : bool) (cs : list string) (r : trow) (v : value) : option value :=
  match v with
  | VStr s => match resolve istab cs s with Some c => tcell r c | None => Some v end
  | _ => Some v
  end.

Definition same_group (cs : list string) (a b : trow) : bool :=
  forallb (fun c => cell_eqb (tcell a c) (tcell b c)) cs.
Definition min_rid (r : trow) (l : list trow) : Z := fold_left Z.min (map rid_of l) (rid_of r).
(** SELECT MIN(rid) FROM rows GROUP BY cs, listed once per row *)
Definition group_mins (cs : list string) (rows : list trow) : list Z :=
  map (fun r => min_rid r (filter (same_group cs r) rows)) rows.

Definition wholds (istab : bool) (cs : list string) (rows : list trow) (r : trow) (c : wcond) : bool :=
  match c with
  | WCmp col op v => sql_cmp op (tcell r col) (operand istab cs r v)
  | WIn l => mem_b Z.eqb (rid_of r) l
  | WNotIn l => negb (mem_b Z.eqb (rid_of r) l)
  | WMin l => mem_b Z.eqb (rid_of r) (group_mins l rows)
  end.
Definition subset_b (a b : list string) : bool := forallb (fun c => in_cols c b) a.
Definition is_nil {A} (l : list A) : bool := match l with [] => true | _ => false end.
(** Names a condition needs; an empty column list is a syntax error. *)
Definition wcond_ok (cs : list string) (c : wcond) : bool :=
  match c with
  | WCmp col _ _ => in_cols col cs
  | WIn _ | WNotIn _ => in_cols "rid" cs
  | WMin l => (negb (is_nil l) && subset_b l cs && in_cols "rid" cs)%bool
  end.
Definition is_tab (s : src) : bool := match s with STab _ => true | SSub _ _ _ => false end.

(** The columns and rows of a source; a missing table or column is an
    OperationalError ("no such table", "no such column", "syntax error"). *)
Fixpoint eval (ts : string -> option table) (s : src) : res (list string * list trow) :=
  match s with
  | STab t => match ts t with Some tb => Ok (tb_cols tb, tb_rows tb) | None => Err OperationalError end
  | SSub cs from w =>
      match eval ts from with
      | Ok (fcs, rows) =>
          if (negb (is_nil cs) && subset_b cs fcs && forallb (wcond_ok fcs) w)%bool
          then Ok (cs, map (proj cs)
                         (filter (fun r => forallb (wholds (is_tab from) fcs rows r) w) rows))
          else Err OperationalError
      | Err e => Err e
      end
  end.

(** ** Data sets and the state they share *)

(** db_dataset.py:29-71, the attributes of one data set.  [i_state] None is the
    empty state query. *)
Record inst := mkInst {
  i_path : string;                       (* _db_path *)
  i_table : string;                      (* _active_table *)
  i_cols : list string;                  (* columns *)
  i_types : option (list (string * dtype));   (* _col_types *)
  i_state : option sel;                  (* _state_query *)
  i_n : nat;                             (* _n_rows *)
  i_before : nat;                        (* _n_rows_before_opt *)
  i_queries : nat;                       (* _queries_wo_optimize *)
  i_direct : nat;                        (* _n_direct_interactions *)
  i_ids : bool;                          (* has_internal_ids *)
  i_ucache : list (Z * list Qc)          (* _user_interaction_vec_cache *)
}.

Definition set_state (x : inst) (s : option sel) : inst :=
  mkInst (i_path x) (i_table x) (i_cols x) (i_types x) s (i_n x) (i_before x) (i_queries x) (i_direct x) (i_ids x) (i_ucache x).
Definition set_table (x : inst) (t : string) : inst :=
  mkInst (i_path x) t (i_cols x) (i_types x) (i_state x) (i_n x) (i_before x) (i_queries x) (i_direct x) (i_ids x) (i_ucache x).
Definition set_cols (x : inst) (cs : list string) : inst :=
  mkInst (i_path x) (i_table x) cs (i_types x) (i_state x) (i_n x) (i_before x) (i_queries x) (i_direct x) (i_ids x) (i_ucache x).
Definition set_types (x : inst) (t : option (list (string * dtype))) : inst :=
  mkInst (i_path x) (i_table x) (i_cols x) t (i_state x) (i_n x) (i_before x) (i_queries x) (i_direct x) (i_ids x) (i_ucache x).
Definition set_counts (x : inst) (n before queries direct : nat) : inst :=
  mkInst (i_path x) (i_table x) (i_cols x) (i_types x) (i_state x) n before queries direct (i_ids x) (i_ucache x).
Definition set_ids (x : inst) (b : bool) : inst :=
  mkInst (i_path x) (i_table x) (i_cols x) (i_types x) (i_state x) (i_n x) (i_before x) (i_queries x) (i_direct x) b (i_ucache x).
Definition set_ucache (x : inst) (l : list (Z * list Qc)) : inst :=
  mkInst (i_path x) (i_table x) (i_cols x) (i_types x) (i_state x) (i_n x) (i_before x) (i_queries x) (i_direct x) (i_ids x) l.

(** Everything the data sets of a process share: the database files, the live
    data sets by object id, and the class attributes of db_dataset.py:19-21.
    Files are found through [inode], because two paths may name one file. *)
Record world := mkWorld {
  w_file : nat -> option (string -> option table);
  w_inst : nat -> option inst;
  w_dbs : string -> option (list nat);             (* _shared_db_instances *)
  w_tabs : string -> string -> option (list nat);  (* _shared_db_table_instances *)
  w_open : nat;                                    (* len(_open_value_generators) *)
  w_next : nat;                                    (* the next object id *)
  w_fresh : nat                                    (* the next random table name *)
}.

Definition set_files (w : world) f : world :=
  mkWorld f (w_inst w) (w_dbs w) (w_tabs w) (w_open w) (w_next w) (w_fresh w).
Definition set_insts (w : world) f : world :=
  mkWorld (w_file w) f (w_dbs w) (w_tabs w) (w_open w) (w_next w) (w_fresh w).
Definition set_dbs (w : world) f : world :=
  mkWorld (w_file w) (w_inst w) f (w_tabs w) (w_open w) (w_next w) (w_fresh w).
Definition set_tabs (w : world) f : world :=
  mkWorld (w_file w) (w_inst w) (w_dbs w) f (w_open w) (w_next w) (w_fresh w).
Definition set_open (w : world) n : world :=
  mkWorld (w_file w) (w_inst w) (w_dbs w) (w_tabs w) n (w_next w) (w_fresh w).
Definition set_next (w : world) n : world :=
  mkWorld (w_file w) (w_inst w) (w_dbs w) (w_tabs w) (w_open w) n (w_fresh w).
Definition set_fresh (w : world) n : world :=
  mkWorld (w_file w) (w_inst w) (w_dbs w) (w_tabs w) (w_open w) (w_next w) n.

Definition upd_nat {B} (f : nat -> B) (k : nat) (v : B) : nat -> B :=
  fun x => if Nat.eqb x k then v else f x.
Definition upd_str {B} (f : string -> B) (k : string) (v : B) : string -> B :=
  fun x => if String.eqb x k then v else f x.
Definition upd_tab (f : string -> string -> option (list nat)) (p t : string) (v : option (list nat)) :=
  fun p' t' => if (String.eqb p' p && String.eqb t' t)%bool then v else f p' t'.
Definition no_tables : string -> option table := fun _ => None.

(** Computations on the shared state that may raise; the changes made before an
    exception stay. *)
Definition M (A : Type) := world -> world * res A.
Definition ret {A} (a : A) : M A := fun w => (w, Ok a).
Definition raise {A} (e : exn) : M A := fun w => (w, Err e).
Definition lift {A} (r : res A) : M A := fun w => (w, r).
Definition andthen {A B} (m : M A) (f : A -> M B) : M B :=
  fun w => match m w with (w', Ok a) => f a w' | (w', Err e) => (w', Err e) end.
Definition modify (f : world -> world) : M unit := fun w => (f w, Ok tt).
Notation "x <~ m ;; k" := (andthen m (fun x => k)) (at level 61, m at next level, right associativity).

Definition self (i : nat) : M inst :=
  fun w => match w_inst w i with Some x => (w, Ok x) | None => (w, Err NameError) end.
Definition put (i : nat) (x : inst) : M unit :=
  modify (fun w => set_insts w (upd_nat (w_inst w) i (Some x))).

(** Python sets of object ids *)
Definition set_add (i : nat) (l : list nat) : list nat := if mem_b Nat.eqb i l then l else i :: l.
Definition set_remove (i : nat) (l : list nat) : list nat := filter (fun j => negb (Nat.eqb j i)) l.

(** The nth random table name, [f'interactions_{str(random.random()).split(".")[1]}'];
    random names are assumed not to collide. *)
Definition tname (n : nat) : string := ("interactions_" ++ str_of_Z (Z.of_nat n))%string.
Definition main_table : string := "interactions".

Section Db.
Variable inode : string -> nat.   (* which file a path names *)

Definition tables (w : world) (p : string) : string -> option table :=
  match w_file w (inode p) with Some f => f | None => no_tables end.
Definition set_tables (w : world) (p : string) (ts : string -> option table) : world :=
  set_files w (upd_nat (w_file w) (inode p) (Some ts)).
Definition query (x : inst) (s : src) : M (list string * list trow) :=
  fun w => (w, eval (tables w (i_path x)) s).

(** db_dataset.py:779-782 *)
Definition curr_source (x : inst) : src :=
  match i_state x with Some q => src_of q | None => STab (i_table x) end.

(** db_dataset.py:764-777 *)
Definition new_state (x : inst) (conds : list wcond) : sel :=
  match i_state x with
  | Some q => mkSel (q_cols q) (q_from q) (q_where q ++ conds)%list
  | None => mkSel (i_cols x) (STab (i_table x)) conds
  end.

(** db_dataset.py:902-926: the table a data set builds; the columns rid, uid and
    iid come first. *)
Definition required : list string := ["rid"; "user"; "item"; "interaction"].
Definition id_cols : list string := ["rid"; "uid"; "iid"].
Definition build_types (x : inst) : res (list (string * dtype)) :=
  if negb (forallb (fun c => in_cols c (i_cols x)) required) then Err AssertionError else
  others <- mapM (fun c => match i_types x with
                           | None => Err TypeError
                           | Some ts => match assoc String.eqb c ts with
                                        | Some t => Ok (c, t)
                                        | None => Err KeyError
                                        end
                           end)
                 (filter (fun c => negb (in_cols c id_cols)) (i_cols x)) ;;
  Ok (map (fun c => (c, DInt)) id_cols ++ others)%list.

(** INSERT of rows into a new table: the primary key must be unique (sqlite3
    raises IntegrityError, here OperationalError). *)
Fixpoint nodup_b (l : list Z) : bool :=
  match l with [] => true | z :: l' => (negb (mem_b Z.eqb z l') && nodup_b l')%bool end.
Definition fill (types : list (string * dtype)) (rows : list trow) : res table :=
  let rs := map (store types) rows in
  if nodup_b (map rid_of rs) then Ok (mkTable types rs) else Err OperationalError.

(** Bookkeeping when a data set moves to a table of its own (842-846, 553-558):
    the old set loses the id, the new one has only it. *)
Definition move_to (i : nat) (x : inst) (name : string) (tb : table) : M unit :=
  _ <~ modify (fun w => set_tables w (i_path x) (upd_str (tables w (i_path x)) name (Some tb))) ;;
  l <~ (fun w => (w, match w_tabs w (i_path x) (i_table x) with
                     | Some l => if mem_b Nat.eqb i l then Ok l else Err KeyError
                     | None => Err KeyError
                     end)) ;;
  _ <~ modify (fun w => set_tabs w (upd_tab (upd_tab (w_tabs w) (i_path x) (i_table x) (Some (set_remove i l)))
                                            (i_path x) name (Some [i]))) ;;
  put i (set_state (set_table x name) None).

(** A new random table name. *)
Definition fresh_name : M string := fun w => (set_fresh w (S (w_fresh w)), Ok (tname (w_fresh w))).

(** db_dataset.py:807-849 *)
Definition optimize (i : nat) (skip_empty : bool) : M unit :=
  x0 <~ self i ;;
  let x := set_counts x0 (i_n x0) (i_before x0) 0 0 in
  _ <~ put i x ;;
  n_open <~ (fun w => (w, Ok (w_open w))) ;;
  match i_state x, skip_empty with
  | None, true => ret tt
  | st, _ =>
    if Nat.ltb 0 n_open then ret tt else
    users <~ (fun w => (w, match w_tabs w (i_path x) (i_table x) with Some l => Ok l | None => Err KeyError end)) ;;
    if Nat.eqb (length users) 1 then
      _ <~ match st with
           | Some q =>
               keep <~ query x (SSub ["rid"] (src_of q) []) ;;
               let rids := map rid_of (snd keep) in
               modify (fun w => match tables w (i_path x) (i_table x) with
                                | Some tb => set_tables w (i_path x)
                                    (upd_str (tables w (i_path x)) (i_table x)
                                       (Some (mkTable (tb_types tb)
                                                (filter (fun r => mem_b Z.eqb (rid_of r) rids) (tb_rows tb)))))
                                | None => w
                                end)
           | None => ret tt
           end ;;
      put i (set_state x None)
    else
      name <~ fresh_name ;;
      types <~ lift (build_types x) ;;
      rows <~ query x (SSub (i_cols x) (curr_source x) []) ;;
      tb <~ lift (fill types (snd rows)) ;;
      move_to i x name tb
  end.

(** db_dataset.py:784-790 *)
Definition record_interaction (i : nat) : M unit :=
  x <~ self i ;;
  _ <~ put i (set_counts x (i_n x) (i_before x) (i_queries x) (S (i_direct x))) ;;
  n_open <~ (fun w => (w, Ok (w_open w))) ;;
  if (Nat.leb 4 (S (i_direct x)) && Nat.eqb n_open 0)%bool then optimize i true else ret tt.

(** db_dataset.py:792-805; the test n / before < 0.8 is exact here *)
Definition worth_it (n before queries n_open : nat) : bool :=
  (Nat.ltb 0 before && Nat.ltb 0 n && Nat.leb 3 queries && (5 * Z.of_nat n <? 4 * Z.of_nat before)
   && (5000 <=? Z.of_nat before - Z.of_nat n) && Nat.eqb n_open 0)%bool.
Definition update_state (i : nat) (q : sel) : M unit :=
  x0 <~ self i ;;
  let x := set_counts x0 (i_n x0) (i_before x0) (S (i_queries x0)) (i_direct x0) in
  _ <~ put i x ;;
  r <~ query x (src_of q) ;;
  let n := length (snd r) in
  let y := set_state (set_counts x n (i_before x) (i_queries x) (i_direct x)) (Some q) in
  _ <~ put i y ;;
  n_open <~ (fun w => (w, Ok (w_open w))) ;;
  if worth_it n (i_before y) (i_queries y) n_open then
    _ <~ put i (set_counts y n n (i_queries y) (i_direct y)) ;;
    optimize i true
  else ret tt.

(** ** Opening and copying *)

(** The end of the constructor, db_dataset.py:61-71: registers the new object. *)
Definition registered (l : option (list nat)) (n : nat) : option (list nat) :=
  Some (set_add n (match l with Some s => s | None => [] end)).
Definition register (x : inst) : M nat := fun w =>
  let n := w_next w in
  (set_next (set_tabs (set_dbs (set_insts w (upd_nat (w_inst w) n (Some x)))
                               (upd_str (w_dbs w) (i_path x) (registered (w_dbs w (i_path x)) n)))
                      (upd_tab (w_tabs w) (i_path x) (i_table x) (registered (w_tabs w (i_path x) (i_table x)) n)))
            (S n), Ok n).

(** The constructor on a path ending in .sqlite, db_dataset.py:29-71, 606-610, 859-870:
    the file must exist and the table must be readable.  [columns] are the
    columns of the table interactions except uid and iid. *)
Definition file_exists (p : string) : M unit := fun w =>
  match w_file w (inode p) with Some _ => (w, Ok tt) | None => (w, Err FileNotFoundError) end.
Definition open_db (p t : string) : M (list string * nat) :=
  _ <~ file_exists p ;;
  r <~ (fun w => (w, eval (tables w p) (STab t))) ;;
  cols <~ (fun w => (w, Ok (match tables w p main_table with
                            | Some tb => filter (fun c => negb (in_cols c ["uid"; "iid"])) (tb_cols tb)
                            | None => []
                            end))) ;;
  ret (cols, length (snd r)).
Definition load (p : string) : M nat :=
  cn <~ open_db p main_table ;;
  register (mkInst p main_table (fst cn) None None (snd cn) (snd cn) 0 0 false []).

(** db_dataset.py:565-579 *)
Definition copy (i : nat) : M nat :=
  x <~ self i ;;
  _ <~ open_db (i_path x) (i_table x) ;;
  register (mkInst (i_path x) (i_table x) (i_cols x) (i_types x) (i_state x) (i_n x) (i_before x)
                   (i_queries x) 0 (i_ids x) []).

(** A new temporary database with one table, as the csv import builds it
    (668-704); [p] is the new file. *)
Definition create (p : string) (cols : list string) (types : list (string * dtype)) (rows : list trow) : M nat :=
  let x := mkInst p main_table cols (Some types) None (length rows) (length rows) 0 0 false [] in
  tys <~ lift (build_types x) ;;
  tb <~ lift (fill tys rows) ;;
  _ <~ modify (fun w => set_tables w p (upd_str no_tables main_table (Some tb))) ;;
  register x.

(** db_dataset.py:581-600.  [.tmp.] in the path marks a temporary file. *)
Fixpoint prefix_b (a b : string) : bool :=
  match a, b with
  | EmptyString, _ => true
  | String x a', String y b' => (Ascii.eqb x y && prefix_b a' b')%bool
  | _, _ => false
  end.
Fixpoint contains (a b : string) : bool :=
  (prefix_b a b || match b with EmptyString => false | String _ b' => contains a b' end)%bool.
Definition is_temp (p : string) : bool := contains ".tmp." p.
Definition close_obj (i : nat) (x : inst) : M unit :=
  let p := i_path x in
  let t := i_table x in
  _ <~ (fun w => match w_tabs w p t with
                 | None => (w, Ok tt)
                 | Some l =>
                     if negb (mem_b Nat.eqb i l) then (w, Err KeyError) else
                     match set_remove i l with
                     | [] => let w' := set_tabs w (upd_tab (w_tabs w) p t None) in
                             if Nat.eqb (w_open w) 0 then
                               match tables w p t with
                               | Some _ => (set_tables w' p (upd_str (tables w p) t None), Ok tt)
                               | None => (w', Err OperationalError)
                               end
                             else (w', Ok tt)
                     | l' => (set_tabs w (upd_tab (w_tabs w) p t (Some l')), Ok tt)
                     end
                 end) ;;
  _ <~ (fun w => match w_dbs w p with
                 | None => (w, Ok tt)
                 | Some l =>
                     if negb (mem_b Nat.eqb i l) then (w, Err KeyError) else
                     match set_remove i l with
                     | [] => let w' := set_dbs w (upd_str (w_dbs w) p None) in
                             if is_temp p then
                               match w_file w (inode p) with
                               | Some _ => (set_files w' (upd_nat (w_file w) (inode p) None), Ok tt)
                               | None => (w', Err FileNotFoundError)
                               end
                             else (w', Ok tt)
                     | l' => (set_dbs w (upd_str (w_dbs w) p (Some l')), Ok tt)
                     end
                 end) ;;
  modify (fun w => set_insts w (upd_nat (w_inst w) i None)).
Definition close (i : nat) : M unit := x <~ self i ;; close_obj i x.

(** ** Queries *)

(** db_dataset.py:723-762 *)
Fixpoint has_dquote (s : string) : bool :=
  match s with EmptyString => false | String a s' => (Ascii.eqb a """" || has_dquote s')%bool end.
Definition check_value (types : option (list (string * dtype))) (c : string) (v : value) : res value :=
  match types with
  | None => Err TypeError                      (* None is not subscriptable, line 741 *)
  | Some ts =>
    match assoc String.eqb c ts with
    | None => Err KeyError
    | Some DInt => match v with VStr _ => Err GenericException | _ => Ok v end
    | Some DFloat => match v with
                     | VInt z => Ok (VFlt (Qc_of_Z (f64_of_Z z)))
                     | VFlt _ => Ok v
                     | VStr s => match float_of_str s with Some q => Ok (VFlt q) | None => Err GenericException end
                     end
    | Some DObj => match v with
                   | VStr s => if has_dquote s then Err OperationalError else Ok v
                   | _ => Err TypeError
                   end
    end
  end.
Definition parse_cond (x : inst) (seg : string) : res wcond :=
  match split_on " " (strip seg) with
  | [c; o; s] =>
      if negb (in_cols c (i_cols x)) then Err AssertionError else
      match cmp_of_str o with
      | None => Err GenericException
      | Some op => v <- eval_lit s ;;
                   v' <- check_value (i_types x) c v ;;
                   Ok (WCmp c op v')
      end
  | _ => Err ValueError
  end.
Definition parse_query (x : inst) (q : string) : res (list wcond) := mapM (parse_cond x) (split_on "," q).

(** The data set an operation works on: itself, or a copy; making a copy counts
    as an interaction with the original (select, drop, unique). *)
Definition target (i : nat) (cp : bool) : M nat := if cp then copy i else ret i.
Definition touched (i : nat) (cp : bool) : M unit := if cp then record_interaction i else ret tt.

(** db_dataset.py:81-89 *)
Definition select (i : nat) (q : string) (cp : bool) : M nat :=
  j <~ target i cp ;;
  _ <~ touched i cp ;;
  y <~ self j ;;
  conds <~ lift (parse_query y q) ;;
  _ <~ update_state j (new_state y conds) ;;
  ret j.

(** db_dataset.py:319-330 *)
Definition drop (i : nat) (rids : list Z) (cp keep : bool) : M nat :=
  j <~ target i cp ;;
  _ <~ touched i cp ;;
  y <~ self j ;;
  _ <~ update_state j (mkSel (i_cols y) (curr_source y) [if keep then WIn rids else WNotIn rids]) ;;
  ret j.

(** dataset_abc.py:340-347; a column list is shared with the caller, None gives
    a fresh list. *)
Definition handle_columns (x : inst) (columns : option (list string)) : res (list string) :=
  let cs := match columns with Some l => l | None => i_cols x end in
  if forallb (fun c => in_cols c (i_cols x)) cs then Ok cs else Err AssertionError.

(** db_dataset.py:234-252.  The second component is the caller's list after the
    call: lines 237 and 249 make it the [columns] of the result and append to it. *)
Definition unique (i : nat) (columns : option (list string)) (cp : bool) : M (nat * option (list string)) :=
  x <~ self i ;;
  cs <~ lift (handle_columns x columns) ;;
  j <~ target i cp ;;
  y0 <~ self j ;;
  _ <~ put j (set_cols y0 cs) ;;
  _ <~ touched i cp ;;
  y <~ self j ;;
  let cs' := if in_cols "rid" cs then cs else (cs ++ ["rid"])%list in
  _ <~ put j (set_cols y cs') ;;
  _ <~ update_state j (mkSel cs' (curr_source y) [WMin cs]) ;;
  ret (j, option_map (fun _ => cs') columns).

(** ** Reads *)

(** Rows read from a cursor: the values in the order of the query's columns. *)
Definition row_values (r : trow) : list (option value) := map snd r.
(** db_dataset.py:851-857: columns are matched to values by position *)
Definition zip_row (x : inst) (r : trow) : trow := combine (i_cols x) (row_values r).
Definition record_of (x : inst) (cs : list string) (r : trow) : trow :=
  filter (fun p => in_cols (fst p) cs) (zip_row x r).
Definition list_record (x : inst) (cs : list string) (r : trow) : res (list (option value)) :=
  mapM (fun c => match assoc String.eqb c (record_of x cs r) with Some v => Ok v | None => Err KeyError end) cs.

(** db_dataset.py:278-317, read to the end, as lists; [ord] is the order in
    which SQLite returns the rows.  With [leave_open] the generator is created
    but not exhausted. *)
Definition state_rows (i : nat) : M (list trow) :=
  x <~ self i ;;
  r <~ query x (src_of (new_state x [])) ;;
  ret (snd r).
Definition values (ord : list trow -> list trow) (i : nat) (columns : option (list string)) (leave_open : bool)
  : M (list (list (option value))) :=
  _ <~ record_interaction i ;;
  x <~ self i ;;
  cs <~ lift (handle_columns x columns) ;;
  rows <~ state_rows i ;;
  _ <~ modify (fun w => if leave_open then set_open w (S (w_open w)) else w) ;;
  lift (mapM (list_record x cs) (ord rows)).
(** A generator that is exhausted, closed or collected. *)
Definition close_generator : M unit := modify (fun w => set_open w (pred (w_open w))).

(** db_dataset.py:91-103 *)
Definition select_one (ord : list trow -> list trow) (i : nat) (q : string) (columns : option (list string))
  : M (option (list (option value))) :=
  _ <~ record_interaction i ;;
  x <~ self i ;;
  conds <~ lift (parse_query x q) ;;
  cs <~ lift (handle_columns x columns) ;;
  r <~ query x (src_of (new_state x conds)) ;;
  match ord (snd r) with
  | [] => ret None
  | row :: _ => v <~ lift (list_record x cs row) ;; ret (Some v)
  end.

(** db_dataset.py:74-79: the cached count *)
Definition ds_len (i : nat) : M nat := x <~ self i ;; ret (i_n x).

(** db_dataset.py:254-260 *)
Definition distinct_rows (cs : list string) (rows : list trow) : list (list (option value)) :=
  dedup (list_eqb cell_eqb) (map (fun r => map (tcell r) cs) rows).
Definition count_unique (i : nat) (columns : option (list string)) : M nat :=
  _ <~ record_interaction i ;;
  x <~ self i ;;
  cs <~ lift (handle_columns x columns) ;;
  r <~ query x (SSub cs (curr_source x) []) ;;
  ret (length (distinct_rows cs (snd r))).

(** db_dataset.py:262-276: NULLs are ignored; no value gives None *)
Fixpoint best (better : value -> value -> bool) (acc : option value) (l : list (option value)) : option value :=
  match l with
  | [] => acc
  | None :: l' => best better acc l'
  | Some v :: l' => best better (match acc with
                                 | None => Some v
                                 | Some a => if better v a then Some v else acc
                                 end) l'
  end.
Definition extremum (better : value -> value -> bool) (i : nat) (c : string) : M (option value) :=
  _ <~ record_interaction i ;;
  x <~ self i ;;
  _ <~ lift (handle_columns x (Some [c])) ;;
  r <~ query x (SSub [c] (curr_source x) []) ;;
  ret (best better None (map (fun row => tcell row c) (snd r))).
Definition db_max := extremum (fun a b => sql_ltb b a).
Definition db_min := extremum sql_ltb.

(** ** Internal ids *)

(** db_dataset.py:332-382: the active table is asked, not the state *)
Definition lookup (x : inst) (key out : string) (v : value) : M (option value) :=
  r <~ query x (STab (i_table x)) ;;
  if (in_cols key (fst r) && in_cols out (fst r))%bool then
    ret (match find (fun row => cell_eqb (tcell row key) (Some v)) (snd r) with
         | Some row => tcell row out
         | None => None
         end)
  else raise OperationalError.
Definition raw_to_id (raw id : string) (i : nat) (v : value) : M (option value) :=
  x <~ self i ;;
  if negb (i_ids x) then raise AssertionError else
  key <~ lift (match i_types x with
               | None => Err TypeError
               | Some ts => match assoc String.eqb raw ts with
                            | None => Err KeyError
                            | Some DInt => match v with
                                           | VInt _ => Ok v
                                           | VFlt q => Ok (VInt (Z.quot (Qnum (this q)) (Zpos (Qden (this q)))))
                                           | VStr s => match Z_of_str s with
                                                       | Some z => Ok (VInt z)
                                                       | None => Err GenericException
                                                       end
                                           end
                            | Some DFloat => Ok (affine DFloat v)   (* the text of str(v); = gives it the column's affinity *)
                            | Some DObj => Ok (VStr (str_of_value v))
                            end
               end) ;;
  lookup x raw id key.
Definition id_to_raw (raw id : string) (i : nat) (z : Z) : M (option value) :=
  x <~ self i ;;
  if negb (i_ids x) then raise AssertionError else lookup x id raw (VInt z).
Definition db_user_to_uid := raw_to_id "user" "uid".
Definition db_item_to_iid := raw_to_id "item" "iid".
Definition db_uid_to_user := id_to_raw "user" "uid".
Definition db_iid_to_item := id_to_raw "item" "iid".

(** db_dataset.py:454-480 for one kind of id: the distinct raw ids in record id
    order are numbered, and every row with that raw id is updated; rows whose
    raw id is NULL match no [WHERE user = ?]. *)
Definition by_rid (rows : list trow) : list trow := sort_by (fun a b => rid_of a <=? rid_of b) rows.
Definition distinct_raw (raw : string) (rows : list trow) : list (option value) :=
  dedup cell_eqb (map (fun r => tcell r raw) (by_rid rows)).
Definition set_tcell (c : string) (v : option value) (r : trow) : trow :=
  map (fun p => if String.eqb (fst p) c then (c, v) else p) r.
Definition number_row (raw id : string) (ids : list (option value)) (r : trow) : trow :=
  match tcell r raw with
  | None => r
  | Some v => match index_of cell_eqb (Some v) ids with
              | Some n => set_tcell id (Some (VInt (Z.of_nat n))) r
              | None => r
              end
  end.
Definition number_rows (raw id : string) (rows : list trow) : list trow :=
  map (number_row raw id (distinct_raw raw rows)) rows.
Definition number_table (raw id : string) (tb : table) : table :=
  mkTable (tb_types tb) (number_rows raw id (tb_rows tb)).
Definition add_col (c : string) (cs : list string) : list string :=
  if in_cols c cs then cs else (cs ++ [c])%list.

(** one kind of id: columns, types, then the table *)
Definition assign_one (raw id : string) (i : nat) : M unit :=
  x <~ self i ;;
  let x1 := set_cols x (add_col id (i_cols x)) in
  _ <~ put i x1 ;;
  match i_types x1 with
  | None => raise TypeError                    (* line 456 / 470 *)
  | Some ts =>
      _ <~ put i (set_types x1 (Some (assoc_set String.eqb id DInt ts))) ;;
      _ <~ query x1 (SSub [raw; "rid"; id] (STab (i_table x1)) []) ;;
      modify (fun w => match tables w (i_path x1) (i_table x1) with
                       | Some tb => set_tables w (i_path x1)
                                      (upd_str (tables w (i_path x1)) (i_table x1) (Some (number_table raw id tb)))
                       | None => w
                       end)
  end.
(** db_dataset.py:444-486; the id indexes are left out *)
Definition assign_ids (i : nat) : M unit :=
  _ <~ optimize i true ;;
  _ <~ assign_one "user" "uid" i ;;
  _ <~ assign_one "item" "iid" i ;;
  x <~ self i ;;
  put i (set_ids x true).

(** db_dataset.py:488-493 *)
Definition remove_ids (i : nat) : M unit :=
  x <~ self i ;;
  let x1 := set_ids x false in
  if in_cols "uid" (i_cols x1) then
    let cs := remove_first String.eqb "uid" (i_cols x1) in
    _ <~ put i (set_cols x1 cs) ;;
    if in_cols "iid" cs then put i (set_cols x1 (remove_first String.eqb "iid" cs)) else raise ValueError
  else put i x1.

(** ** apply: db_dataset.py:495-563 *)

(** every exception inside the try block becomes a plain Exception (line 562) *)
Definition guarded {A} (m : M A) : M A :=
  fun w => match m w with (w', Err _) => (w', Err GenericException) | r => r end.
Definition call (f : value -> res value) (v : option value) : res value :=
  match v with Some x => f x | None => Err TypeError end.

(** The update loop of lines 519-522: rows already updated stay updated when
    the function raises. *)
Fixpoint update_rows (f : value -> res value) (c : string) (t : dtype) (todo : list (Z * option value)) (tb : table)
  : table * res unit :=
  match todo with
  | [] => (tb, Ok tt)
  | (rid, v) :: todo' =>
      match call f v with
      | Err e => (tb, Err e)
      | Ok v' =>
          update_rows f c t todo'
            (mkTable (tb_types tb)
               (map (fun r => if rid_of r =? rid then set_tcell c (Some (affine t v')) r else r) (tb_rows tb)))
      end
  end.
Definition col_affinity (tb : table) (c : string) : dtype :=
  match assoc String.eqb c (tb_types tb) with Some t => t | None => DObj end.
Definition pick_cell (r : trow) (c : string) : res (option value) :=
  match assoc String.eqb c r with Some v => Ok v | None => Err KeyError end.

(** lines 509-524: the type of the column stays *)
Definition apply_same (ord : list trow -> list trow) (i : nat) (c : string) (f : value -> res value) : M unit :=
  _ <~ optimize i false ;;
  x <~ self i ;;
  rows <~ state_rows i ;;
  todo <~ lift (mapM (fun r => v <- pick_cell (zip_row x r) c ;;
                               z <- pick_cell (zip_row x r) "rid" ;;
                               match z with Some (VInt n) => Ok (n, v) | _ => Err KeyError end) (ord rows)) ;;
  fun w => match tables w (i_path x) (i_table x) with
           | None => (w, Err OperationalError)
           | Some tb =>
               if negb (in_cols c (tb_cols tb)) then (w, Err OperationalError) else
               let '(tb', r) := update_rows f c (col_affinity tb c) todo tb in
               (set_tables w (i_path x) (upd_str (tables w (i_path x)) (i_table x) (Some tb')), r)
           end.
(** lines 525-558: the type changes, the rows go to a new table *)
Definition apply_cell (f : value -> res value) (c : string) (r : trow) : res trow :=
  mapM (fun p => if String.eqb (fst p) c then v <- call f (snd p) ;; Ok (fst p, Some v) else Ok p) r.
Definition apply_retyped (ord : list trow -> list trow) (i : nat) (c : string) (f : value -> res value) (t : dtype)
  : M unit :=
  rows <~ state_rows i ;;
  x0 <~ self i ;;
  let x := set_types x0 (match i_types x0 with Some ts => Some (assoc_set String.eqb c t ts) | None => None end) in
  _ <~ put i x ;;
  name <~ fresh_name ;;
  types <~ lift (build_types x) ;;
  _ <~ modify (fun w => set_tables w (i_path x) (upd_str (tables w (i_path x)) name (Some (mkTable types [])))) ;;
  rs <~ lift (mapM (fun r => apply_cell f c (zip_row x r)) (ord rows)) ;;
  tb <~ lift (fill types rs) ;;
  move_to i x name tb.
Definition apply_col (ord : list trow -> list trow) (i : nat) (c : string) (f : value -> res value) : M unit :=
  x0 <~ self i ;;
  if negb (in_cols c (i_cols x0)) then raise AssertionError else
  if in_cols c ["rid"; "uid"; "iid"; "user"; "item"] then raise GenericException else
  guarded (
    _ <~ record_interaction i ;;
    x <~ self i ;;
    rows <~ state_rows i ;;
    v <~ lift (match ord rows with
               | [] => Err GenericException               (* StopIteration, line 503 *)
               | r :: _ => v <- pick_cell (zip_row x r) c ;; call f v
               end) ;;
    match i_types x with
    | None => raise TypeError                              (* line 509 *)
    | Some ts =>
        match assoc String.eqb c ts with
        | None => raise KeyError
        | Some t => if dtype_eqb (type_of v) t then apply_same ord i c f
                    else apply_retyped ord i c f (type_of v)
        end
    end).

(** ** save to a .sqlite path: db_dataset.py:384-430, 879-900.  Saving to the
    data set's own path is only modelled up to its checks and errors: a data set
    with a path of its own was loaded from it and has no column types, so
    [build_types] raises. *)
Definition renumber (rows : list (list (option value))) (cs : list string) : list trow :=
  map (fun p => (combine cs (snd p) ++ [("rid", Some (VInt (fst p)))])%list)
      (combine (map Z.of_nat (seq 0 (length rows))) rows).
Definition save_db (ord : list trow -> list trow) (i : nat) (path : string) : M unit :=
  x <~ self i ;;
  if (String.eqb path "" && is_temp (i_path x))%bool then raise GenericException else
  let path := if String.eqb path "" then i_path x else path in
  used <~ (fun w => (w, Ok (match w_dbs w path with Some l => length l | None => 0%nat end))) ;;
  if (if String.eqb path (i_path x) then Nat.ltb 1 used else Nat.ltb 0 used) then raise GenericException else
  types <~ lift (build_types x) ;;
  let cs := remove_first String.eqb "rid" (i_cols x) in
  rows <~ values ord i (Some (cs ++ ["rid"])%list) false ;;
  tb <~ lift (fill types (renumber (map (fun r => firstn (length cs) r) rows) cs)) ;;
  modify (fun w => set_tables w path (upd_str no_tables main_table (Some tb))).

(** ** Interaction vectors: db_dataset.py:105-129.  The dense vector of a user;
    entries at one position add up, as in csr_matrix. *)
Definition dense (n : nat) (es : list (Z * Qc)) : list Qc :=
  map (fun k => fold_right (fun e s => if fst e =? Z.of_nat k then (snd e + s)%Qc else s) 0%Qc es) (seq 0 n).
Definition vec_entry (r : list (option value)) : res (Z * Qc) :=
  match r with
  | [Some (VInt k); Some v] => match num_of v with Some q => Ok (k, q) | None => Err ValueError end
  | _ => Err TypeError
  end.
Definition user_vec (ord : list trow -> list trow) (i : nat) (uid : Z) : M (list Qc) :=
  x <~ self i ;;
  if negb (i_ids x) then raise AssertionError else
  u <~ db_uid_to_user i uid ;;
  match u with
  | None => raise AssertionError
  | Some _ =>
    match assoc Z.eqb uid (i_ucache x) with
    | Some v => ret v
    | None =>
        m <~ db_max i "iid" ;;
        j <~ select i ("uid == " ++ str_of_Z uid) true ;;
        rows <~ values ord j (Some ["iid"; "interaction"]) false ;;
        es <~ lift (mapM vec_entry rows) ;;
        match m with
        | Some (VInt k) =>
            if forallb (fun e => (fst e <=? k) && (0 <=? fst e))%bool es then
              let v := dense (Z.to_nat (k + 1)) es in
              y <~ self i ;;
              _ <~ put i (set_ucache y ((uid, v) :: (if Nat.ltb 1000 (length (i_ucache y)) then [] else i_ucache y))) ;;
              ret v
            else raise ValueError
        | _ => raise TypeError
        end
    end
  end.
End Db.
