(** Object-level model of several in-memory data sets that share frames:
    DRecPy/Dataset/mem_dataset.py with Python references made explicit.
    DataFrames and column lists are heap objects; an instance holds references.
    An in-place write to an object is seen by every instance holding it.
    Definitions only. *)
From Coq Require Import String Ascii.
From Coq Require Import List ZArith QArith Qcanon Bool.
From Verif Require Import Py MemModel.
Import ListNotations.
Open Scope string_scope.
Open Scope Z_scope.

(** A MemoryInteractionDataset object.  The mapping dicts are never written in
    place by the code (318-319, 327-328 bind new dicts), so they are values. *)
Record inst := mkInst {
  i_cols : nat;                      (* reference to the list self.columns *)
  i_df : nat;                        (* reference to the DataFrame self._df *)
  i_ids : bool;
  i_umap : list (value * Z); i_uinv : list (Z * value);
  i_imap : list (value * Z); i_iinv : list (Z * value);
  i_cache : option matrix; i_tcache : option matrix }.

Record world := mkWorld { w_frames : list frame; w_cols : list (list string); w_insts : list inst }.

Definition no_frame : frame := mkFrame [] [].
Definition no_inst : inst := mkInst 0 0 false [] [] [] [] None None.
Definition df_of (w : world) (x : inst) : frame := nth (i_df x) (w_frames w) no_frame.
Definition cols_of (w : world) (x : inst) : list string := nth (i_cols x) (w_cols w) [].

(** What the instance shows: the value-level data set of MemModel. *)
Definition view_of (w : world) (x : inst) : mem :=
  mkMem (cols_of w x) (df_of w x) (i_ids x) (i_umap x) (i_uinv x) (i_imap x) (i_iinv x) (i_cache x) (i_tcache x).
Definition views (w : world) : list mem := map (view_of w) (w_insts w).

Fixpoint upd {A} (n : nat) (a : A) (l : list A) {struct l} : list A :=
  match l, n with
  | [], _ => []
  | _ :: l', O => a :: l'
  | x :: l', S n' => x :: upd n' a l'
  end.

Definition get (w : world) (i : nat) : inst := nth i (w_insts w) no_inst.
Definition put (w : world) (i : nat) (x : inst) : world :=
  mkWorld (w_frames w) (w_cols w) (upd i x (w_insts w)).

(** [x._df = <new frame>]: pandas operations that return a new frame. *)
Definition new_df (w : world) (i : nat) (f : frame) : world :=
  let x := get w i in
  mkWorld (w_frames w ++ [f]) (w_cols w)
    (upd i (mkInst (i_cols x) (length (w_frames w)) (i_ids x) (i_umap x) (i_uinv x) (i_imap x) (i_iinv x)
                   (i_cache x) (i_tcache x)) (w_insts w)).
(** [x._df[c] = ...]: writes into the frame object. *)
Definition write_df (w : world) (i : nat) (f : frame) : world :=
  mkWorld (upd (i_df (get w i)) f (w_frames w)) (w_cols w) (w_insts w).
(** [x.columns.append(c)], [x.columns.remove(c)]: writes into the list object. *)
Definition write_cols (w : world) (i : nat) (cs : list string) : world :=
  mkWorld (w_frames w) (upd (i_cols (get w i)) cs (w_cols w)) (w_insts w).
(** [x.columns = <new list>] *)
Definition new_cols (w : world) (i : nat) (cs : list string) : world :=
  let x := get w i in
  mkWorld (w_frames w) (w_cols w ++ [cs])
    (upd i (mkInst (length (w_cols w)) (i_df x) (i_ids x) (i_umap x) (i_uinv x) (i_imap x) (i_iinv x)
                   (i_cache x) (i_tcache x)) (w_insts w)).
Definition put_caches (w : world) (i : nat) (c t : option matrix) : world :=
  let x := get w i in
  put w i (mkInst (i_cols x) (i_df x) (i_ids x) (i_umap x) (i_uinv x) (i_imap x) (i_iinv x) c t).
Definition put_ids (w : world) (i : nat) (b : bool) : world :=
  let x := get w i in
  put w i (mkInst (i_cols x) (i_df x) b (i_umap x) (i_uinv x) (i_imap x) (i_iinv x) (i_cache x) (i_tcache x)).
Definition put_umaps (w : world) (i : nat) (a : list (value * Z)) (b : list (Z * value)) : world :=
  let x := get w i in
  put w i (mkInst (i_cols x) (i_df x) (i_ids x) a b (i_imap x) (i_iinv x) (i_cache x) (i_tcache x)).
Definition put_imaps (w : world) (i : nat) (a : list (value * Z)) (b : list (Z * value)) : world :=
  let x := get w i in
  put w i (mkInst (i_cols x) (i_df x) (i_ids x) (i_umap x) (i_uinv x) a b (i_cache x) (i_tcache x)).

(** mem_dataset.py:365-382: the copy shares the frame object, its column list is
    a new list.  The copy is appended to the instances. *)
Definition h_copy (w : world) (i : nat) : world :=
  let x := get w i in
  mkWorld (w_frames w) (w_cols w ++ [cols_of w x])
    (w_insts w ++ [mkInst (length (w_cols w)) (i_df x) (i_ids x) (i_umap x) (i_uinv x) (i_imap x) (i_iinv x) None None]).

(** Operations of a history.  [copy] is the keyword of the method. *)
Inductive hop :=
| HCopy
| HSelect (q : string) (copy : bool)
| HDrop (ids : list Z) (keep copy : bool)
| HUnique (cs : option (list string)) (copy : bool)
| HAssign
| HRemove
| HApply (c : string) (f : value -> res value)
| HUserVec (u : Z)
| HItemVec (i : Z).

(** mem_dataset.py:83, 224, 256: the receiver, or a new copy of it *)
Definition target (w : world) (i : nat) (copy : bool) : world * nat :=
  if copy then (h_copy w i, length (w_insts w)) else (w, i).

(** mem_dataset.py:82-86.  If the query fails the copy is never returned; it is
    not registered here. *)
Definition h_select (w : world) (i : nat) (q : string) (copy : bool) : world :=
  let '(w1, j) := target w i copy in
  match apply_query (view_of w1 (get w1 j)) q with
  | Ok f => new_df w1 j f
  | Err _ => w
  end.

(** mem_dataset.py:255-262 *)
Definition h_drop (w : world) (i : nat) (ids : list Z) (keep copy : bool) : world :=
  let '(w1, j) := target w i copy in
  let f := df_of w1 (get w1 j) in
  new_df w1 j (mkFrame (f_types f) (drop_rows ids keep (f_rows f))).

(** mem_dataset.py:220-230: [columns] is a fresh list (line 221 copies it) *)
Definition h_unique (w : world) (i : nat) (cs : option (list string)) (copy : bool) : world :=
  let '(w1, j) := target w i copy in
  match unique_inplace (view_of w1 (get w1 j)) cs with
  | Ok m => new_cols (new_df w1 j (m_df m)) j (m_columns m)
  | Err _ => w
  end.

(** mem_dataset.py:309-330.  The frame is cloned first (310), then written in
    place (316, 325); the column list is written in place (312, 321).  A missing
    user or item column raises KeyError in the middle. *)
Definition h_assign (w : world) (i : nat) : world :=
  let m := view_of w (get w i) in
  let w1 := new_df w i (m_df m) in
  let w2 := write_cols w1 i (add_column (view_of w1 (get w1 i)) "uid") in
  match col_type m "user" with
  | Err _ => w2
  | Ok _ =>
    let users := distinct_col "user" (rows_of m) in
    let w3 := write_df w2 i (assign_frame "user" "uid" (df_of w2 (get w2 i))) in
    let w4 := put_umaps w3 i (mapping_of users) (mapping_inv_of users) in
    let w5 := write_cols w4 i (add_column (view_of w4 (get w4 i)) "iid") in
    match col_type m "item" with
    | Err _ => w5
    | Ok _ =>
      let items := distinct_col "item" (rows_of m) in
      let w6 := write_df w5 i (assign_frame "item" "iid" (df_of w5 (get w5 i))) in
      let w7 := put_imaps w6 i (mapping_of items) (mapping_inv_of items) in
      put_ids w7 i true
    end
  end.

(** mem_dataset.py:332-337: [drop(columns=...)] returns a new frame, the column
    list is written in place *)
Definition h_remove (w : world) (i : nat) : world :=
  let w1 := put_ids w i false in
  match remove_internal_ids (view_of w1 (get w1 i)) with
  | Ok m => if mem_b String.eqb "uid" (cols_of w (get w i))
            then write_cols (new_df w1 i (m_df m)) i (m_columns m) else w1
  | Err _ => w1
  end.

(** mem_dataset.py:339-360: the frame is cloned (350), then written (351) *)
Definition h_apply (w : world) (i : nat) (c : string) (f : value -> res value) : world :=
  let m := view_of w (get w i) in
  let m' := snd (apply_col m c f) in
  match mapM (apply_row c f) (rows_of m) with
  | Ok _ => let w1 := new_df w i (m_df m) in
            let w2 := write_df w1 i (m_df m') in
            put_caches w2 i (m_cache m') (m_tcache m')
  | Err _ => w
  end.

(** mem_dataset.py:165-218: only the caches change *)
Definition h_uvec (w : world) (i : nat) (u : Z) : world :=
  let m := snd (user_vec (view_of w (get w i)) u) in put_caches w i (m_cache m) (m_tcache m).
Definition h_ivec (w : world) (i : nat) (u : Z) : world :=
  let m := snd (item_vec (view_of w (get w i)) u) in put_caches w i (m_cache m) (m_tcache m).

(** One call on the instance number [i]; calls on instances that do not exist do
    nothing. *)
Definition hstep (w : world) (c : nat * hop) : world :=
  let '(i, o) := c in
  if Nat.ltb i (length (w_insts w)) then
    match o with
    | HCopy => h_copy w i
    | HSelect q cp => h_select w i q cp
    | HDrop ids keep cp => h_drop w i ids keep cp
    | HUnique cs cp => h_unique w i cs cp
    | HAssign => h_assign w i
    | HRemove => h_remove w i
    | HApply c f => h_apply w i c f
    | HUserVec u => h_uvec w i u
    | HItemVec u => h_ivec w i u
    end
  else w.
Definition hrun (w : world) (cs : list (nat * hop)) : world := fold_left hstep cs w.

(** Program start: one data set. *)
Definition w_init (m : mem) : world :=
  mkWorld [m_df m] [m_columns m]
    [mkInst 0 0 (m_ids m) (m_umap m) (m_uinv m) (m_imap m) (m_iinv m) (m_cache m) (m_tcache m)].
