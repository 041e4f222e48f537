(** Vocabulary for the list sampler on a data set in a database. *)
From Coq Require Import String Ascii.
From Coq Require Import List ZArith QArith Qcanon Bool.
From Verif Require Import Py MemModel MemSpec SampModel SampSpec FitModel NetModel DbModel DbSpec RecDbModel RecDbModel6.
Import ListNotations.
Open Scope string_scope.
Open Scope Z_scope.
Open Scope list_scope.

(** the records of a sample, and its negatives *)
Definition records (g : db_gsample) : list trow := match g with DSeq pos => pos | DTri pos tg _ => pos ++ tg end.
(** the dict of a row *)
Definition dict_of (d : ds) (row : trow) : trow := map (fun c => (c, tcell row c)) (d_cols d).
(** the row reaches the threshold *)
Definition reaches_thr (t : option slit) (row : trow) : bool :=
  match t with None => true | Some l => holds row (mkCond "interaction" Ge l) end.

(** Group columns are distinct columns of integers, none of them NULL; rid has a
    type, as after reading a file (db_dataset.py:619). *)
Record int_groups (d : ds) (cs : list string) : Prop := {
  ig_some : cs <> [];
  ig_nodup : NoDup cs;
  ig_plain : Forall plain cs;
  ig_cols : incl cs (d_cols d);
  ig_types : exists ts, d_types d = Some ts /\ forall c, In c ("rid" :: cs) -> assoc String.eqb c ts = Some DInt;
  ig_cells : forall row c, In row (d_rows d) -> In c cs -> exists z, tcell row c = Some (VInt z) }.
(** the threshold is a number for the column of the interactions *)
Definition thr_fits (d : ds) (a : ls_args) (t : option slit) : Prop :=
  l_thr a = thr_text t /\
  match t with None => True | Some l => cond_fits d (mkCond "interaction" Ge l) /\ (forall x, l <> LText x) end.

(** a sample needs more than one record *)
Definition needs_two (a : ls_args) : Prop :=
  2 <= l_min a \/ exists t, l_targets a = Some t /\ 2 <= l_min a + t.

(** the arguments the constructor takes for a data set *)
Record takes (d : ds) (a : ls_args) : Prop := {
  tk_ids : d_ids d = true;
  tk_targets : forall t, l_targets a = Some t -> 0 < t /\ In (l_negcol a) (d_cols d);
  tk_sort : forall c, l_sort a = Some c -> In c (d_cols d);
  tk_max : forall m, l_max a = Some m -> l_min a <= m }.
(** [pick] gives as many elements of the list as it is asked for *)
Definition picks (pick : nat -> list (option value) -> nat -> list (option value)) : Prop :=
  forall k l n, (n <= length l)%nat -> length (pick k l n) = n /\ incl (pick k l n) l.

(** A sampler, and a call of sample_group_records(n) on it. *)
Definition db_sampled (inode : string -> nat) (ords : nat -> list trow -> list trow) (pick : nat -> list (option value) -> nat -> list (option value))
  (rnd : nat -> nat) (i : nat) (a : ls_args) (n : nat) : RecDbModel.P (list db_gsample) :=
  pbind (db_ls_init inode ords i a) (fun ls => pbind (db_sample_groups inode ords pick rnd n ls 0) (fun x => pret (Ok (fst x)))).
Definition mem_sampled (pick : nat -> list value -> nat -> list value) (rnd : nat -> nat) (m : mem) (a : ls_args) (n : nat) : res (list gsample) :=
  ls <- ls_init m a ;; sample_groups pick rnd n ls 0.
(** The first batch of fit of Caser in memory. *)
Definition mem_first_batch (pick : nat -> list value -> nat -> list value) (rnd : nat -> nat) (L T neg_ratio : Z) (threshold sort_column : option string)
  (batch_size : nat) (m0 : mem) : res (list gsample) :=
  let '(m, r) := begin_fit m0 false in _ <- r ;; mem_sampled pick rnd m (caser_args L T neg_ratio threshold sort_column) batch_size.
