(** Specification vocabulary for the database data sets: a data set is its
    columns and its rows, an operation is what it does to them.  Nothing here
    refers to tables, state queries or materialisation, except where a
    condition of use has to. *)
From Coq Require Import String Ascii.
From Coq Require Import List ZArith QArith Qcanon Bool Permutation.
From Verif Require Import Py MemModel MemSpec DbModel.
Import ListNotations.
Open Scope string_scope.
Open Scope Z_scope.

(** ** Conditions *)

(** SQLite's order of the values that are not NULL: numbers by value, then texts. *)
Definition key := (Qc + string)%type.
Definition key_of (v : value) : key :=
  match v with VInt z => inl (Qc_of_Z z) | VFlt q => inl q | VStr s => inr s end.
Definition lit_key (l : slit) : key :=
  match l with
  | LText s => inr s
  | _ => inl (match lit_num l with Some q => q | None => 0%Qc end)
  end.
Definition key_compare (a b : key) : comparison :=
  match a, b with
  | inl p, inl q => (p ?= q)%Qc
  | inl _, inr _ => Datatypes.Lt
  | inr _, inl _ => Datatypes.Gt
  | inr s, inr t => String.compare s t
  end.

(** A condition on a row; NULL satisfies none. *)
Definition holds (row : trow) (c : scond) : bool :=
  match tcell row (sc_col c) with
  | None => false
  | Some v => op_holds (sc_op c) (key_compare (key_of v) (lit_key (sc_lit c)))
  end.

(** ** Data sets as values *)
Record ds := mkDs {
  d_cols : list string;
  d_types : option (list (string * dtype));   (* unknown for a data set read from a .sqlite file *)
  d_ids : bool;                               (* internal ids assigned *)
  d_rows : list trow }.

Definition opt_value_dec (a b : option value) : {a = b} + {a <> b}.
Proof. decide equality. apply value_eq_dec. Defined.
Definition cells_dec (a b : list (option value)) : {a = b} + {a <> b} := list_eq_dec opt_value_dec a b.

(** the columns an argument [columns] asks for *)
Definition asked (d : ds) (columns : option (list string)) : list string :=
  match columns with Some l => l | None => d_cols d end.
Definition cells (cs : list string) (row : trow) : list (option value) := map (tcell row) cs.

(** every column the builder of a table needs is there, with a type *)
Definition complete (d : ds) : Prop :=
  incl ["rid"; "user"; "item"; "interaction"] (d_cols d) /\
  exists ts, d_types d = Some ts /\
    forall c, In c (d_cols d) -> ~ In c ["rid"; "uid"; "iid"] -> exists t, assoc String.eqb c ts = Some t.

(** Rows of [drop] *)
Definition listed (rids : list Z) (row : trow) : bool := existsb (Z.eqb (rid_of row)) rids.

(** Rows of [unique]: no row with the same cells has a smaller record id. *)
Definition same_cells (cs : list string) (a b : trow) : bool :=
  if cells_dec (cells cs a) (cells cs b) then true else false.
Definition first_of_group (cs : list string) (rows : list trow) (row : trow) : bool :=
  negb (existsb (fun r => (same_cells cs r row && (rid_of r <? rid_of row))%bool) rows).
Definition plus_rid (cs : list string) : list string :=
  if existsb (String.eqb "rid") cs then cs else (cs ++ ["rid"])%list.

(** Internal ids: the distinct raw ids are numbered in the order of the record
    id of their first row. *)
Definition cell_is (c : string) (v : option value) (row : trow) : bool :=
  if opt_value_dec (tcell row c) v then true else false.
(** [row] comes before every row whose cell in [c] is [v] *)
Definition before_all (c : string) (v : option value) (rows : list trow) (row : trow) : bool :=
  forallb (fun r => (negb (cell_is c v r) || (rid_of row <? rid_of r))%bool) rows.
Definition rank (c : string) (rows : list trow) (v : option value) : Z :=
  Z.of_nat (length (nodup opt_value_dec (map (fun r => tcell r c) (filter (before_all c v rows) rows)))).
Definition plus (c : string) (cs : list string) : list string :=
  if existsb (String.eqb c) cs then cs else (cs ++ [c])%list.
Definition with_ids (rows : list trow) (cs : list string) (row : trow) : trow :=
  map (fun c => (c, if String.eqb c "uid" then Some (VInt (rank "user" rows (tcell row "user")))
                    else if String.eqb c "iid" then Some (VInt (rank "item" rows (tcell row "item")))
                    else tcell row c)) cs.
Definition type_as (c : string) (t : dtype) (ts : list (string * dtype)) : list (string * dtype) :=
  assoc_set String.eqb c t ts.
Definition assigned (d : ds) : ds :=
  let cs := plus "iid" (plus "uid" (d_cols d)) in
  mkDs cs (option_map (fun ts => type_as "iid" DInt (type_as "uid" DInt ts)) (d_types d)) true
       (map (with_ids (d_rows d) cs) (d_rows d)).
Definition without_ids (cs : list string) : list string :=
  filter (fun c => negb (String.eqb c "uid" || String.eqb c "iid")%bool) cs.

(** A raw id of the type of its column. *)
Definition fits_column (t : dtype) (v : value) : Prop :=
  match t with DInt => exists z, v = VInt z | DFloat => exists q, v = VFlt q | DObj => exists s, v = VStr s end.
Definition raw_pair (raw id : string) : Prop := raw = "user" /\ id = "uid" \/ raw = "item" /\ id = "iid".

(** the columns that come from the user's data *)
Definition names (cs : list string) : list string := filter (fun c => negb (existsb (String.eqb c) ["rid"; "uid"; "iid"])) cs.

(** apply: the cells of one column *)
Definition mapped (f : value -> res value) (c : string) (row : trow) : trow :=
  map (fun p => if String.eqb (fst p) c
                then match snd p with
                     | Some v => match f v with Ok v' => (c, Some v') | Err _ => p end
                     | None => p
                     end
                else p) row.
(** the type of the results, that of the first row *)
Definition result_type (f : value -> res value) (c : string) (rows : list trow) : dtype :=
  match rows with
  | row :: _ => match tcell row c with
                | Some v => match f v with Ok v' => type_of v' | Err _ => DObj end
                | None => DObj
                end
  | [] => DObj
  end.
Definition defined_on (f : value -> res value) (c : string) (rows : list trow) : Prop :=
  forall row, In row rows -> exists v v', tcell row c = Some v /\ f v = Ok v'.

(** extreme cells of a column; NULLs are ignored *)
Definition extreme (after : comparison) (c : string) (rows : list trow) (o : option value) : Prop :=
  match o with
  | None => forall row, In row rows -> tcell row c = None
  | Some v => (exists row, In row rows /\ tcell row c = Some v) /\
              forall row v', In row rows -> tcell row c = Some v' -> key_compare (key_of v') (key_of v) <> after
  end.

(** ** Interaction vectors *)
Definition number (v : option value) : Qc := match v with Some (VInt z) => Qc_of_Z z | Some (VFlt q) => q | _ => 0%Qc end.
Definition number_is (z : Z) (v : option value) : bool :=
  match v with Some (VInt a) => a =? z | Some (VFlt q) => Qc_eq_bool q (Qc_of_Z z) | _ => false end.
Definition sum (l : list Qc) : Qc := fold_right Qcplus 0%Qc l.
(** the interactions of user [uid] with item [iid], added up *)
Definition interaction_of (rows : list trow) (uid iid : Z) : Qc :=
  sum (map (fun row => number (tcell row "interaction"))
           (filter (fun row => (number_is uid (tcell row "uid") && number_is iid (tcell row "iid"))%bool) rows)).

(** ** Operations *)
Inductive op :=
| OCreate (p : string) (cols : list string) (types : list (string * dtype)) (rows : list trow)
| OLoad (p : string)
| OCopy (i : nat)
| OSelect (i : nat) (cs : list scond) (cp : bool)
| ODrop (i : nat) (rids : list Z) (cp keep : bool)
| OUnique (i : nat) (columns : option (list string)) (cp : bool)
| OAssign (i : nat)
| ORemove (i : nat)
| OApply (i : nat) (c : string) (f : value -> res value)
| OSave (i : nat) (p : string)
| OClose (i : nat)
| OValues (i : nat) (columns : option (list string))
| OGenerator (i : nat) (columns : option (list string))   (* values_list, not read to the end *)
| OCloseGenerator
| OSelectOne (i : nat) (cs : list scond) (columns : option (list string))
| OLen (i : nat)
| OCountUnique (i : nat) (columns : option (list string))
| OMax (i : nat) (c : string)
| OMin (i : nat) (c : string).

(** what a call returns *)
Inductive out :=
| AUnit | ADs (i : nat) | ARows (rows : list (list (option value))) | ARow (row : option (list (option value)))
| ANum (n : nat) | AVal (v : option value).

Section Spec.
Variable inode : string -> nat.

Definition amap {A} (f : A -> out) (m : M A) : M out := andthen m (fun a => ret (f a)).

(** The calls of the library; [ord] is the order in which SQLite returns rows. *)
Definition order := list trow -> list trow.
Definition exec (ord : order) (o : op) : M out :=
  match o with
  | OCreate p cols types rows => amap ADs (create inode p cols types rows)
  | OLoad p => amap ADs (load inode p)
  | OCopy i => amap ADs (copy inode i)
  | OSelect i cs cp => amap ADs (select inode i (query_text cs) cp)
  | ODrop i rids cp keep => amap ADs (drop inode i rids cp keep)
  | OUnique i columns cp => amap (fun a => ADs (fst a)) (unique inode i columns cp)
  | OAssign i => amap (fun _ => AUnit) (assign_ids inode i)
  | ORemove i => amap (fun _ => AUnit) (remove_ids i)
  | OApply i c f => amap (fun _ => AUnit) (apply_col inode ord i c f)
  | OSave i p => amap (fun _ => AUnit) (save_db inode ord i p)
  | OClose i => amap (fun _ => AUnit) (close inode i)
  | OValues i columns => amap ARows (values inode ord i columns false)
  | OGenerator i columns => amap ARows (values inode ord i columns true)
  | OCloseGenerator => amap (fun _ => AUnit) close_generator
  | OSelectOne i cs columns => amap ARow (select_one inode ord i (query_text cs) columns)
  | OLen i => amap ANum (ds_len i)
  | OCountUnique i columns => amap ANum (count_unique inode i columns)
  | OMax i c => amap AVal (db_max inode i c)
  | OMin i c => amap AVal (db_min inode i c)
  end.

(** The data sets a program holds, by object id. *)
Definition book := nat -> option ds.
Definition no_book : book := fun _ => None.
Definition note (b : book) (i : nat) (d : option ds) : book := fun j => if Nat.eqb j i then d else b j.

(** Where the result of an operation with an argument [copy] goes: the new data
    set when it copies (nowhere when the call raises), the data set itself when
    it works in place. *)
Definition result (b : book) (i : nat) (cp : bool) (r : res out) (d : ds) : book :=
  if cp then match r with Ok (ADs j) => note b j (Some d) | _ => b end else note b i (Some d).

(** the rows of the table interactions in the file at [p] *)
Definition stored (w : world) (p : string) : ds :=
  match tables inode w p main_table with
  | Some tb => let cs := without_ids (tb_cols tb) in mkDs cs None false (map (proj cs) (tb_rows tb))
  | None => mkDs [] None false []
  end.
(** the rows of a new table *)
Definition imported (cols : list string) (types : list (string * dtype)) (rows : list trow) : ds :=
  mkDs cols (Some types) false
    (map (fun row => map (fun c => (c, option_map (affine (match assoc String.eqb c types with
                                                           | Some t => if existsb (String.eqb c) ["rid"; "uid"; "iid"] then DInt else t
                                                           | None => DInt
                                                           end)) (tcell row c))) cols) rows).

(** The effect of a call that returned or raised [r]. *)
Definition effect (w : world) (b : book) (o : op) (r : res out) : book :=
  match o with
  | OCreate p cols types rows => match r with Ok (ADs j) => note b j (Some (imported cols types rows)) | _ => b end
  | OLoad p => match r with Ok (ADs j) => note b j (Some (stored w p)) | _ => b end
  | OCopy i => match b i with Some d => result b i true r d | None => b end
  | OSelect i cs cp =>
      match b i with
      | Some d => result b i cp r (mkDs (d_cols d) (d_types d) (d_ids d)
                                        (filter (fun row => forallb (holds row) cs) (d_rows d)))
      | None => b
      end
  | ODrop i rids cp keep =>
      match b i with
      | Some d => result b i cp r (mkDs (d_cols d) (d_types d) (d_ids d)
                                        (filter (fun row => if keep then listed rids row else negb (listed rids row)) (d_rows d)))
      | None => b
      end
  | OUnique i columns cp =>
      match b i with
      | Some d =>
          let cs := asked d columns in
          if forallb (fun c => existsb (String.eqb c) (d_cols d)) cs
          then result b i cp r (mkDs (plus_rid cs) (d_types d) (d_ids d)
                                     (map (proj (plus_rid cs)) (filter (first_of_group cs (d_rows d)) (d_rows d))))
          else b
      | None => b
      end
  | OAssign i => match r, b i with Ok _, Some d => note b i (Some (assigned d)) | _, _ => b end
  | ORemove i =>
      match b i with
      | Some d => note b i (Some (let cs := without_ids (d_cols d) in
                                  mkDs cs (d_types d) false (map (proj cs) (d_rows d))))
      | None => b
      end
  | OApply i c f =>
      match b i with
      | Some d =>
          if (negb (existsb (String.eqb c) (d_cols d)) || existsb (String.eqb c) ["rid"; "uid"; "iid"; "user"; "item"])%bool then b else
          match r with
          | Ok _ => note b i (Some (mkDs (d_cols d) (option_map (type_as c (result_type f c (d_rows d))) (d_types d)) (d_ids d)
                                         (map (mapped f c) (d_rows d))))
          | Err _ => note b i None      (* some rows may have been changed *)
          end
      | None => b
      end
  | OClose i => note b i None
  | _ => b
  end.

(** ** Conditions of use *)

(** A literal for a column of type [t]. *)
Definition lit_fits (t : dtype) (l : slit) : Prop :=
  match t, l with
  | DInt, LInt _ => True
  | DFloat, LInt z => Z.abs z <= 2 ^ 53
  | (DInt | DFloat), LDec _ a b => all_digits a = true /\ all_digits b = true /\ (a ++ b) <> ""
  | DObj, LText s => plain_text s
  | _, _ => False
  end.
Definition cond_fits (d : ds) (c : scond) : Prop :=
  In (sc_col c) (d_cols d) /\ plain (sc_col c) /\
  exists ts t, d_types d = Some ts /\ assoc String.eqb (sc_col c) ts = Some t /\ lit_fits t (sc_lit c).

(** A text of a condition does not name a column (or the rowid) of the table the
    data set reads: SQLite takes a name in double quotes for the column. *)
Definition no_name (w : world) (i : nat) (c : scond) : Prop :=
  match sc_lit c, w_inst w i with
  | LText s, Some x =>
      (forall tb n, tables inode w (i_path x) (i_table x) = Some tb -> In n (tb_cols tb) -> ci_eqb s n = false) /\
      existsb (ci_eqb s) ["rowid"; "oid"; "_rowid_"] = false
  | _, _ => True
  end.
Definition query_fits (w : world) (i : nat) (d : ds) (cs : list scond) : Prop :=
  cs <> [] /\ Forall (cond_fits d) cs /\ Forall (no_name w i) cs.

(** Other data sets on the same table do not use internal ids. *)
Fixpoint mentions (ns : list string) (s : src) : bool :=
  match s with
  | STab _ => false
  | SSub _ from cs =>
      (mentions ns from ||
       existsb (fun c => match c with
                         | WCmp col _ v => (existsb (String.eqb col) ns ||
                                            match v with VStr t => existsb (fun n => ci_eqb t n) ns | _ => false end)%bool
                         | WMin l => existsb (fun c => existsb (String.eqb c) ns) l
                         | _ => false
                         end) cs)%bool
  end.
Definition no_sharing (w : world) (i : nat) : Prop :=
  forall x, w_inst w i = Some x -> i_state x = None ->
  forall j y, j <> i -> w_inst w j = Some y -> i_path y = i_path x -> i_table y = i_table x ->
    mentions ["uid"; "iid"] (curr_source y) = false /\ ~ In "uid" (i_cols y) /\ ~ In "iid" (i_cols y).

(** The file at [p] is not the file of a live data set. *)
Definition unused (w : world) (p : string) : Prop :=
  forall j y, w_inst w j = Some y -> inode (i_path y) <> inode p.
(** Data sets on the file at [p] were opened under that path. *)
Definition one_name (w : world) (p : string) : Prop :=
  forall j y, w_inst w j = Some y -> inode (i_path y) = inode p -> i_path y = p.

Definition no_null (c : string) (rows : list trow) : Prop := forall row, In row rows -> tcell row c <> None.

Definition safe (w : world) (b : book) (o : op) : Prop :=
  match o with
  | OCreate p cols types rows =>
      unused w p /\ NoDup cols /\ (forall c t, In c ["rid"; "uid"; "iid"] -> assoc String.eqb c types = Some t -> t = DInt) /\
      (forall row, In row rows -> exists z, tcell row "rid" = Some (VInt z))
  | OLoad p => one_name w p
  | OCopy i | ODrop i _ _ _ | OValues i _ | OGenerator i _ | OLen i | OMax i _ | OMin i _ => b i <> None
  | OSelect i cs _ | OSelectOne i cs _ => exists d, b i = Some d /\ query_fits w i d cs
  | OUnique i columns _ | OCountUnique i columns =>
      exists d, b i = Some d /\ NoDup (asked d columns) /\ asked d columns <> []
  | OAssign i =>
      w_open w = 0%nat /\ no_sharing w i /\
      exists d, b i = Some d /\ d_types d <> None /\ incl ["user"; "item"] (d_cols d) /\
                no_null "user" (d_rows d) /\ no_null "item" (d_rows d)
  | ORemove i =>
      exists d l, b i = Some d /\ (In "uid" (d_cols d) <-> In "iid" (d_cols d)) /\
                d_cols d = (without_ids (d_cols d) ++ l)%list
  | OApply i c f =>
      w_open w = 0%nat /\ exists d, b i = Some d /\
        forall row v v', In row (d_rows d) -> tcell row c = Some v -> f v = Ok v' -> type_of v' = result_type f c (d_rows d)
  | OSave i p => b i <> None /\ p <> "" /\ unused w p
  | OClose i => w_inst w i <> None
  | OCloseGenerator => True
  end.

(** ** Right answers *)

(** No select, drop or unique of the data set is waiting to be materialised. *)
Definition at_rest (w : world) (i : nat) : Prop := exists x, w_inst w i = Some x /\ i_state x = None.

(** The calls that have to succeed. *)
Definition must_succeed (w : world) (b : book) (o : op) : Prop :=
  match o with
  | OCreate p cols types rows => complete (imported cols types rows) /\ NoDup (map rid_of rows)
  | OLoad p => tables inode w p main_table <> None
  | OCopy i | OLen i | ORemove i | OClose i => True
  | OCloseGenerator => True
  | OSelect i _ _ | ODrop i _ _ _ | OAssign i | OSave i _ => exists d, b i = Some d /\ complete d
  | OUnique i columns _ =>
      exists d, b i = Some d /\ complete d /\ incl (asked d columns) (d_cols d) /\
                incl ["rid"; "user"; "item"; "interaction"] (plus_rid (asked d columns))
  | OApply i c f =>
      exists d, b i = Some d /\ complete d /\ In c (d_cols d) /\ ~ In c ["rid"; "uid"; "iid"; "user"; "item"] /\
                d_rows d <> [] /\ defined_on f c (d_rows d)
  | OValues i columns | OGenerator i columns | OSelectOne i _ columns | OCountUnique i columns =>
      exists d, b i = Some d /\ (complete d \/ at_rest w i) /\ incl (asked d columns) (d_cols d)
  | OMax i c | OMin i c => exists d, b i = Some d /\ (complete d \/ at_rest w i) /\ In c (d_cols d)
  end.

(** The answer of a read on a data set. *)
Definition right_answer (d : ds) (o : op) (a : out) : Prop :=
  match o with
  | OValues _ columns | OGenerator _ columns =>
      exists rows, a = ARows rows /\ Permutation rows (map (cells (asked d columns)) (d_rows d))
  | OSelectOne _ cs columns =>
      exists row, a = ARow row /\
        match row with
        | None => forall r, In r (d_rows d) -> forallb (holds r) cs = false
        | Some v => exists r, In r (d_rows d) /\ forallb (holds r) cs = true /\ v = cells (asked d columns) r
        end
  | OLen _ => a = ANum (length (d_rows d))
  | OCountUnique _ columns => a = ANum (length (nodup cells_dec (map (cells (asked d columns)) (d_rows d))))
  | OMax _ c => exists v, a = AVal v /\ extreme Datatypes.Gt c (d_rows d) v
  | OMin _ c => exists v, a = AVal v /\ extreme Datatypes.Lt c (d_rows d) v
  | _ => True
  end.
Definition subject (o : op) : option nat :=
  match o with
  | OCreate _ _ _ _ | OLoad _ | OCloseGenerator => None
  | OCopy i | OSelect i _ _ | ODrop i _ _ _ | OUnique i _ _ | OAssign i | ORemove i | OApply i _ _ | OSave i _
  | OClose i | OValues i _ | OGenerator i _ | OSelectOne i _ _ | OLen i | OCountUnique i _ | OMax i _ | OMin i _ => Some i
  end.
(** Does the call give a new data set? *)
Definition fresh_result (o : op) : bool :=
  match o with
  | OCreate _ _ _ _ | OLoad _ | OCopy _ => true
  | OSelect _ _ cp | ODrop _ _ cp _ | OUnique _ _ cp => cp
  | _ => false
  end.
Definition answered (w : world) (b : book) (o : op) (r : res out) : Prop :=
  match r with
  | Err _ => ~ must_succeed w b o
  | Ok a => (forall i d, subject o = Some i -> b i = Some d -> right_answer d o a) /\
            (if fresh_result o then exists j, a = ADs j /\ b j = None
             else forall j, a = ADs j -> subject o = Some j)
  end.

(** A history: every call with the order in which SQLite returned rows. *)
Definition history := list (order * op).

(** A history is used correctly / answered correctly when every call is, in the
    state the calls before it lead to. *)
Fixpoint all_safe (w : world) (b : book) (h : history) : Prop :=
  match h with
  | [] => True
  | (ord, o) :: h' => (forall l, Permutation (ord l) l) /\ safe w b o /\
                      let '(w', r) := exec ord o w in all_safe w' (effect w b o r) h'
  end.
Fixpoint all_answered (w : world) (b : book) (h : history) : Prop :=
  match h with
  | [] => True
  | (ord, o) :: h' => let '(w', r) := exec ord o w in answered w b o r /\ all_answered w' (effect w b o r) h'
  end.
Fixpoint after (w : world) (b : book) (h : history) : world * book :=
  match h with
  | [] => (w, b)
  | (ord, o) :: h' => let '(w', r) := exec ord o w in after w' (effect w b o r) h'
  end.

(** A table SQLite can hold: every row has the columns of the table, cells have
    the affinity of their column, rid is the primary key and rid, uid, iid are
    INTEGER columns. *)
Record table_ok (tb : table) : Prop := {
  t_cols : NoDup (tb_cols tb);
  t_ids : forall c, In c ["rid"; "uid"; "iid"] -> assoc String.eqb c (tb_types tb) = Some DInt;
  t_rows : forall row, In row (tb_rows tb) -> map fst row = tb_cols tb;
  t_rid : forall row, In row (tb_rows tb) -> exists z, tcell row "rid" = Some (VInt z);
  t_key : NoDup (map rid_of (tb_rows tb));
  t_cells : forall row c t v, In row (tb_rows tb) -> assoc String.eqb c (tb_types tb) = Some t ->
     tcell row c = Some v -> affine t v = v }.
(** Files on disk; the random names of later tables are not taken. *)
Definition files_ok (fs : nat -> option (string -> option table)) : Prop :=
  forall n f, fs n = Some f -> (forall t tb, f t = Some tb -> table_ok tb) /\ forall k, f (tname k) = None.

(** A process that has not opened any data set yet; [fs] are the files on disk. *)
Definition start (fs : nat -> option (string -> option table)) : world :=
  mkWorld fs (fun _ => None) (fun _ => None) (fun _ _ => None) 0 0 0.
End Spec.
