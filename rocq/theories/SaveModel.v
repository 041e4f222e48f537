(** Model of saving and loading recommenders: RecommenderABC.save and load
    (DRecPy/Recommender/recommender_abc.py:503-524), and of the attributes that a
    recommender holds after its constructor and after calls of fit (133-157;
    dmf.py:46-62, cdae.py:34-45, caser.py:45-76, base_knn.py:72-73;
    point_sampler.py:32-44, list_sampler.py:60-71).  Definitions only.

    joblib is outside the model.  Trusted: dump opens the file for writing before
    it pickles; pickling goes through all objects that can be reached, keeps which
    of them are the same, and raises TypeError at a generator or at a connection
    to a database (open or closed); functions and loggers are stored by name
    (Python 3.7 or later); load of a complete file gives new objects. *)
From Coq Require Import String Ascii.
From Coq Require Import List ZArith Bool.
From Verif Require Import Py MemModel FitModel.
Import ListNotations.
Open Scope string_scope.
Open Scope nat_scope.
Open Scope list_scope.

(** The classes: the neighbourhood models have no sampler *)
Inductive kind := Knn | Dmf | Cdae | Caser.

(** A data set object: rows in memory, or a connection to a database
    (db_dataset.py:38, 869: _conn; close, 581-600, keeps the attribute) *)
Inductive dset := InMem (m : mem) | InDb (table : nat).

(** The attribute _sampler.  A PointSampler holds its data set and two generators
    (point_sampler.py:36-44), a ListSampler its data set, lists and numbers
    (list_sampler.py:60-71). *)
Inductive sampler := PointOn (d : nat) | ListOn (d : nat).
(** dmf.py:62, cdae.py:45, caser.py:72-76 *)
Definition sampler_of (k : kind) (d : nat) : option sampler :=
  match k with
  | Knn => None
  | Dmf | Cdae => Some (PointOn d)
  | Caser => Some (ListOn d)
  end.

Section Save.
(** All other attributes of a recommender: numbers, texts, lists, dicts, arrays,
    and TensorFlow's objects.  [storable] says whether they can be pickled. *)
Variable V : Type.
Variable storable : V -> bool.

(** A recommender; data sets are objects, named by their number *)
Record robj := mkRec {
  r_kind : kind;
  r_state : V;
  r_data : option nat;          (* interaction_dataset *)
  r_sampler : option sampler }. (* _sampler, absent before the first fit *)

(** What a file of a saved recommender holds.  The sampler's data set is the one of
    the recommender unless a fit ended between lines 133 and the new sampler. *)
Inductive saved_sampler := NoSampler | OnSame | OnOther (m : mem).
Record saved := mkSaved {
  s_kind : kind;
  s_state : V;
  s_data : option mem;
  s_sampler : saved_sampler }.
(** [Broken]: the part that was written before an exception; [Other]: any other file *)
Inductive file := Saved (x : saved) | Broken | Other.

Record world := mkWorld {
  w_data : list dset;
  w_recs : list robj;
  w_files : string -> option file }.
Definition empty_world : world := mkWorld [] [] (fun _ => None).

Definition set_nth {A} (n : nat) (x : A) (l : list A) : list A :=
  firstn n l ++ match skipn n l with [] => [] | _ :: t => x :: t end.
Definition set_file (p : string) (f : option file) (w : world) : world :=
  mkWorld (w_data w) (w_recs w) (fun q => if String.eqb q p then f else w_files w q).

(** Pickling a data set object (no class of the library defines __getstate__) *)
Definition pickle_data (w : world) (d : nat) : res mem :=
  match nth_error (w_data w) d with
  | Some (InMem m) => Ok m
  | Some (InDb _) => Err TypeError
  | None => Err KeyError        (* no such object *)
  end.
(** Pickling a recommender: its attributes, in turn *)
Definition pickle (w : world) (r : robj) : res saved :=
  if storable (r_state r) then
    dm <- match r_data r with None => Ok None | Some d => m <- pickle_data w d ;; Ok (Some m) end ;;
    match r_sampler r with
    | None => Ok (mkSaved (r_kind r) (r_state r) dm NoSampler)
    | Some (PointOn _) => Err TypeError
    | Some (ListOn d) =>
        if match r_data r with Some d' => d =? d' | None => false end
        then Ok (mkSaved (r_kind r) (r_state r) dm OnSame)
        else m <- pickle_data w d ;; Ok (mkSaved (r_kind r) (r_state r) dm (OnOther m))
    end
  else Err TypeError.

(** 503-512 *)
Definition save (i : nat) (p : string) (w : world) : world * res unit :=
  match nth_error (w_recs w) i with
  | None => (w, Err KeyError)          (* no such object *)
  | Some r => match pickle w r with
              | Ok x => (set_file p (Some (Saved x)) w, Ok tt)
              | Err e => (set_file p (Some Broken) w, Err e)
              end
  end.

(** 514-524: the number of the new recommender *)
Definition load (p : string) (w : world) : world * res nat :=
  match w_files w p with
  | None => (w, Err FileNotFoundError)
  | Some Broken | Some Other => (w, Err GenericException)
  | Some (Saved x) =>
      let n := length (w_data w) in
      let '(ds, a) := match s_data x with None => ([], None) | Some m => ([InMem m], Some n) end in
      let '(ds', s) := match s_sampler x with
                       | NoSampler => ([], None)
                       | OnSame => ([], option_map ListOn a)
                       | OnOther m => ([InMem m], Some (ListOn (n + length ds)))
                       end in
      (mkWorld (w_data w ++ ds ++ ds') (w_recs w ++ [mkRec (s_kind x) (s_state x) a s]) (w_files w),
       Ok (length (w_recs w)))
  end.

(** fit (133-264) of recommender [i] on data set [d].  133: the data set is kept;
    135-137 and 138-150 as in FitModel.begin_fit, in memory; a database is changed
    behind its connection.  _pre_fit makes the sampler last.  [v] are the other
    attributes afterwards; [reach] says whether _pre_fit returns (if it is called),
    whatever happens later. *)
Definition reaches_sampler (x : dset) (copy reach : bool) : bool :=
  match x with
  | InMem m => match snd (begin_fit m copy) with Ok _ => reach | Err _ => false end
  | InDb _ => if copy then false else reach
  end.
Definition fit (i d : nat) (copy : bool) (v : V) (reach : bool) (w : world) : world :=
  match nth_error (w_recs w) i, nth_error (w_data w) d with
  | Some r, Some x =>
      let x' := match x with InMem m => InMem (fst (begin_fit m copy)) | InDb t => InDb t end in
      let s := if reaches_sampler x copy reach
               then match sampler_of (r_kind r) d with Some s => Some s | None => r_sampler r end
               else r_sampler r in
      mkWorld (set_nth d x' (w_data w)) (set_nth i (mkRec (r_kind r) v (Some d) s) (w_recs w)) (w_files w)
  | _, _ => w
  end.

(** Anything else that changes the rows of a data set in memory (apply, select and
    drop with copy=False, ...) *)
Definition change (d : nat) (m : mem) (w : world) : world :=
  match nth_error (w_data w) d with
  | Some (InMem _) => mkWorld (set_nth d (InMem m) (w_data w)) (w_recs w) (w_files w)
  | _ => w
  end.

(** What a program can do; an exception of a call is caught *)
Inductive op :=
| NewData (x : dset)
| NewRec (k : kind) (v : V)                  (* constructors: no data set, no sampler *)
| Fit (i d : nat) (copy : bool) (v : V) (reach : bool)
| Change (d : nat) (m : mem)
| SaveTo (i : nat) (p : string)
| LoadFrom (p : string)
| WriteFile (p : string) (f : option file).  (* written or deleted by others *)
Definition step (w : world) (o : op) : world :=
  match o with
  | NewData x => mkWorld (w_data w ++ [x]) (w_recs w) (w_files w)
  | NewRec k v => mkWorld (w_data w) (w_recs w ++ [mkRec k v None None]) (w_files w)
  | Fit i d copy v reach => fit i d copy v reach w
  | Change d m => change d m w
  | SaveTo i p => fst (save i p w)
  | LoadFrom p => fst (load p w)
  | WriteFile p f => set_file p f w
  end.
Definition run (ops : list op) (w : world) : world := fold_left step ops w.
End Save.

Arguments mkRec {V}. Arguments r_kind {V}. Arguments r_state {V}. Arguments r_data {V}. Arguments r_sampler {V}.
Arguments mkSaved {V}. Arguments s_kind {V}. Arguments s_state {V}. Arguments s_data {V}. Arguments s_sampler {V}.
Arguments Saved {V}. Arguments Broken {V}. Arguments Other {V}.
Arguments mkWorld {V}. Arguments w_data {V}. Arguments w_recs {V}. Arguments w_files {V}. Arguments empty_world {V}.
Arguments set_file {V}. Arguments pickle_data {V}. Arguments pickle {V}. Arguments save {V}. Arguments load {V}.
Arguments fit {V}. Arguments change {V}.
Arguments NewData {V}. Arguments NewRec {V}. Arguments Fit {V}. Arguments Change {V}. Arguments SaveTo {V}.
Arguments LoadFrom {V}. Arguments WriteFile {V}. Arguments step {V}. Arguments run {V}.
