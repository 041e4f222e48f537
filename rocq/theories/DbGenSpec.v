(** Vocabulary of the properties of the generators of database data sets. *)
From Coq Require Import String Ascii.
From Coq Require Import List ZArith QArith Qcanon Bool Permutation.
From Verif Require Import Py MemModel MemSpec DbModel DbSpec SampModel DbGenModel.
Import ListNotations.
Open Scope string_scope.
Open Scope Z_scope.

(** the column is there, as a column of integers *)
Definition id_column (d : ds) (c : string) : Prop :=
  In c (d_cols d) /\ exists ts, d_types d = Some ts /\ assoc String.eqb c ts = Some DInt.
(** A data set with internal ids: every row has both. *)
Record numbered (d : ds) : Prop := {
  nb_uid : id_column d "uid";
  nb_iid : id_column d "iid";
  nb_rows : forall row, In row (d_rows d) -> exists u i,
      tcell row "uid" = Some (VInt u) /\ tcell row "iid" = Some (VInt i) /\ 0 <= u /\ 0 <= i }.

(** the rows that satisfy conditions, as a data set *)
Definition restricted (d : ds) (cs : list scond) : ds :=
  mkDs (d_cols d) (d_types d) (d_ids d) (filter (fun row => forallb (holds row) cs) (d_rows d)).
Definition below (l : slit) : list scond := [mkCond "interaction" Lt l].
Definition at_least (l : slit) : list scond := [mkCond "interaction" Ge l].
(** a threshold given as a number *)
Definition threshold_fits (d : ds) (t : option slit) : Prop :=
  match t with None => True | Some l => (forall s, l <> LText s) /\ cond_fits d (mkCond "interaction" Lt l) end.
Definition thr_text (t : option slit) : option string := option_map lit_text t.

(** some row has the pair of ids *)
Definition observed (d : ds) (u i : Z) : Prop :=
  exists row, In row (d_rows d) /\ tcell row "uid" = Some (VInt u) /\ tcell row "iid" = Some (VInt i).
(** both ids are at most the largest one in the data *)
Definition in_range (d : ds) (u i : Z) : Prop :=
  0 <= u /\ 0 <= i /\
  (exists row z, In row (d_rows d) /\ tcell row "uid" = Some (VInt z) /\ u <= z) /\
  (exists row z, In row (d_rows d) /\ tcell row "iid" = Some (VInt z) /\ i <= z).
(** the pair of a row *)
Definition pair_of (row : trow) : pair := (tcell row "uid", tcell row "iid").
(** What the generator of pairs may yield: a pair without a row, or the pair of a
    row below the threshold. *)
Definition null_pair (d : ds) (t : option slit) (p : pair) : Prop :=
  (exists u i, p = (Some (VInt u), Some (VInt i)) /\ in_range d u i /\ ~ observed d u i) \/
  (exists l row, t = Some l /\ In row (d_rows d) /\ forallb (holds row) (below l) = true /\ p = pair_of row).

(** A sampled triple: (uid, iid, 0) for a null pair, or the ids and the
    interaction of a row at or above the threshold. *)
Definition positive_row (d : ds) (t : option slit) (row : trow) : Prop :=
  In row (d_rows d) /\ match t with None => True | Some l => forallb (holds row) (at_least l) = true end.
Definition sampled (d : ds) (t : option slit) (neg draw : Qc) (x : dbtriple) : Prop :=
  ((1 < (neg + 1) * draw)%Qc -> exists p, null_pair d t p /\ x = (fst p, snd p, Some (VInt 0))) /\
  (~ (1 < (neg + 1) * draw)%Qc -> exists row, positive_row d t row /\
       x = (tcell row "uid", tcell row "iid", tcell row "interaction")).

(** the data set a generator draws from *)
Definition owner (g : rgen) : option nat := match g with RNew j | RAt j _ _ => Some j | REnd => None end.

(** ** Programs that use data sets and generators, in any order

    [reaches w b]: some program leads to the shared state [w] and, in the
    specification, to the data sets [b].  The private copies the generators make
    are entered in the book too. *)
Section Reach.
Variable inode : string -> nat.

(** the copy made by the first pull of a generator of pairs *)
Definition noted (b : book) (g g' : ngen) (t : option slit) : book :=
  match g, g', t with
  | NNew i _, NAt _ _ _ (Some (j, _)) _, Some l =>
      match b i with Some d => note b j (Some (restricted d (below l))) | None => b end
  | _, _, _ => b
  end.
(** a generator of pairs on a data set [d] *)
Definition null_fits (b : book) (g : ngen) (t : option slit) : Prop :=
  match g with
  | NNew i txt => txt = thr_text t /\ exists d, b i = Some d /\ threshold_fits d t
  | NAt i _ _ neg _ => b i <> None /\ match neg with None => True | Some (j, g) => b j <> None /\ exists m k, g = RAt j m k end
  | NEnd => True
  end.

Inductive reaches : world -> book -> Prop :=
| Starts fs : files_ok fs -> reaches (start fs) no_book
| Calls w b ord o w' r : reaches w b -> (forall l, Permutation (ord l) l) -> safe inode w b o ->
    exec inode ord o w = (w', r) -> reaches w' (effect inode w b o r)
| Makes w b i d cs w' j : reaches w b -> b i = Some d -> query_fits inode w i d cs -> Forall (fun c => forall s, sc_lit c <> LText s) cs ->
    random_generator inode i (Some (query_text cs)) w = (w', Ok (RNew j)) -> reaches w' (note b j (Some (restricted d cs)))
| Draws w b fuel ord s g w' o g' : reaches w b -> (forall l, Permutation (ord l) l) ->
    (forall j, owner g = Some j -> b j <> None) ->
    rand_next inode fuel ord s g w = (w', Some (o, g')) -> reaches w' b
| Pairs w b fuel ord s s2 g t w' o g' : reaches w b -> (forall l, Permutation (ord l) l) -> null_fits b g t ->
    null_next inode fuel ord s s2 g w = (w', Some (o, g')) -> reaches w' (noted b g g' t).
End Reach.
