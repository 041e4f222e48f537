(** Specification vocabulary for the files of the library: which paths are
    listed as temporary, and what calls of the built-in data sets should return
    in every history of calls and crashes. *)
From Coq Require Import String Ascii.
From Coq Require Import List ZArith QArith Qcanon Bool.
From Verif Require Import Py PyFacts MemModel MemSpec DbModel CsvModel CsvSpec Conc SplitModel FileModel.
Import ListNotations.
Open Scope string_scope.
Open Scope Z_scope.

(** ** Temporary files *)
Inductive tcall := Register (p : string) | Unregister (p : string).
Definition tpath (c : tcall) : string := match c with Register p | Unregister p => p end.
Definition tprog (c : tcall) : prog unit := match c with Register p => register_temp p | Unregister p => unregister_temp p end.
(** The paths listed after a history of calls, in the order of registration. *)
Definition list_after (l : list string) (c : tcall) : list string :=
  match c with
  | Register p => (l ++ [p])%list
  | Unregister p => filter (fun q => negb (String.eqb q p)) l
  end.
Definition listed_paths (h : list tcall) : list string := fold_left list_after h [].
(** the disk after the calls, whatever they returned or raised *)
Definition after_calls (d : disk) (h : list tcall) : disk := fold_left (fun d c => fst (complete_run (tprog c) d)) h d.

(** A path on one line. *)
Definition one_line (p : string) : Prop := str_no newline p /\ str_no return_char p.
(** A path that neither begins nor ends with a blank. *)
Definition blanks : list ascii :=
  [" "%char; "009"%char; "010"%char; "011"%char; "012"%char; "013"%char; "028"%char; "029"%char; "030"%char; "031"%char].
Definition trimmed (p : string) : Prop :=
  (forall a s, p = String a s -> ~ In a blanks) /\ (forall a s, p = s ++ String a "" -> ~ In a blanks).

(** ** Built-in data sets *)

(** Two data sets with the same rows, in the same order, in the columns [cs];
    record ids may differ. *)
Definition same_rows (cs : list string) (m m' : mem) : Prop :=
  map (fun r => map (cell r) cs) (rows_of m) = map (fun r => map (cell r) cs) (rows_of m').

Inductive call := CTrain | CTest | CFull.
(** What happened to a call. *)
Inductive event :=
| Returned (c : call) (r : res mem)
| Killed (c : call) (hurt : option string).     (* the file whose writing was interrupted *)

Section Histories.
Variable show : Qc -> string.
Variable unzip : string -> option (list (string * string)).
Variable arrange : list string -> list string.
Variable read_full : string -> res mem.
Variable fmul : Z -> Qc -> Qc.
Variable sample : Z -> list Z -> nat -> list Z.
Variable g : config.
Variable data : string.          (* what the server sends *)

Definition prog_of (c : call) (net : option string) (sched : nat -> option nat) (steps : nat) : prog mem :=
  match c with
  | CTrain => get_train show unzip arrange read_full fmul sample g net sched steps
  | CTest => get_test show unzip arrange read_full fmul sample g net sched steps
  | CFull => get_full unzip arrange read_full g net
  end.
(** The server answers or not; [online] says that it does. *)
Definition answer (online : bool) (net : option string) : Prop := net = Some data \/ (online = false /\ net = None).
Inductive happens (online : bool) (d : disk) : event -> disk -> Prop :=
| happens_return c net sched steps d' r : answer online net ->
    complete_run (prog_of c net sched steps) d = (d', Some r) -> happens online d (Returned c r) d'
| happens_kill c net sched steps n cut hurt d' : answer online net ->
    killed (prog_of c net sched steps) n cut d = Some (hurt, d') -> happens online d (Killed c hurt) d'.
Inductive history (online : bool) (d : disk) : list event -> disk -> Prop :=
| history_nil : history online d [] d
| history_cons e d1 es d2 : happens online d e d1 -> history online d1 es d2 -> history online d (e :: es) d2.

(** A folder is listed in any order. *)
Definition any_order (arr : list string -> list string) : Prop := forall l x, In x (arr l) <-> In x l.

(** The archive holds the files [members] (names and texts). *)
Definition unpacks (members : list (string * string)) : Prop :=
  if g_unzip g
  then exists f, g_folder g = Some f /\ unzip data = Some (map (fun m => (f ++ "/" ++ fst m, snd m)) members)
  else members = [(g_full g, data)].
Definition names_ok (members : list (string * string)) : Prop :=
  NoDup (map fst members) /\
  forall x, In x (map fst members) -> str_no "/" x /\ x <> "tmp.zip" /\ x <> g_name g ++ "_train.gen" /\ x <> g_name g ++ "_test.gen".

(** Nothing is stored for the data set. *)
Definition nothing_stored (d : disk) : Prop :=
  is_dir d (g_name g) = false /\ forall x, contents d (g_name g ++ "/" ++ x) = None.

(** The files whose contents the calls return. *)
Definition important (members : list (string * string)) (p : string) : Prop :=
  exists x, p = g_name g ++ "/" ++ x /\
    (In x (map fst members) \/ x = g_name g ++ "_train.gen" \/ x = g_name g ++ "_test.gen").
(** No important file was cut by a kill. *)
Definition harmless (members : list (string * string)) (e : event) : Prop :=
  match e with Killed _ (Some p) => ~ important members p | _ => True end.
Definition no_kill (e : event) : Prop := match e with Killed _ _ => False | _ => True end.

(** The right data: a member of the archive, or a part of the split. *)
Definition stored_file (members : list (string * string)) (x : string) (m : mem) : Prop :=
  exists t, In (x, t) members /\ read_full t = Ok m.
Definition right_data (members : list (string * string)) (train test : mem) (c : call) (m : mem) : Prop :=
  match c with
  | CFull => stored_file members (g_full g) m
  | CTrain => match g_train g with Some f => stored_file members f m | None => same_rows (g_columns g) m train end
  | CTest => match g_test g with Some f => stored_file members f m | None => same_rows (g_columns g) m test end
  end.
Definition right (members : list (string * string)) (train test : mem) (e : event) : Prop :=
  match e with Returned c (Ok m) => right_data members train test c m | _ => True end.
Definition succeeded (e : event) : Prop := match e with Returned _ (Err _) => False | _ => True end.

(** Every file that is asked for is in the archive and can be read. *)
Definition readable_files (members : list (string * string)) : Prop :=
  forall x, x = g_full g \/ Some x = g_train g \/ Some x = g_test g -> exists m, stored_file members x m.

(** A part of the split that survives being saved: see CsvSpec. *)
Definition part_survives (m : mem) : Prop :=
  m_columns m = (g_columns g ++ ["rid"])%list /\
  (forall r c, In r (rows_of m) -> In c (g_columns g) -> cell r c <> None) /\
  forall c, In c (g_columns g) -> exists t, forall l, map Some l = map (fun r => cell r c) (rows_of m) -> column_survives show t l.
Definition columns_fit : Prop :=
  NoDup (g_columns g) /\ incl ["user"; "item"; "interaction"] (g_columns g) /\
  ~ In "rid" (g_columns g) /\ ~ In "uid" (g_columns g) /\ ~ In "iid" (g_columns g).
End Histories.
