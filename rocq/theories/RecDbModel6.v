(** Model of DRecPy/Sampler/list_sampler.py on a data set in a database, and of
    training Caser there (DRecPy/Recommender/recommender_abc.py:133-190,
    caser.py:72-84).  The counterparts for data sets in memory are in SampModel.v
    and NetModel.v, and so are the arguments.  Definitions only.

    A record is a dict of all columns; a cell may be NULL.  The selections of a
    round are closed at its end (in the code, when those of the next round take
    their place or the method returns). *)
From Coq Require Import String Ascii.
From Coq Require Import List ZArith QArith Qcanon Bool.
From Verif Require Import Py MemModel KnnModel FitModel SampModel NetModel DbModel RecDbModel.
Import ListNotations.
Open Scope string_scope.
Open Scope Z_scope.

(** list_sampler.py:62-73.  The group columns are the list object that was passed,
    as it is after the constructor: [unique] appends to it (db_dataset.py:237, 249). *)
Record db_lsampler := mkDbLs {
  dl_ds : nat; dl_args : ls_args; dl_uniq : list (list (option value)); dl_negs : list (option value) }.
Definition with_groups (a : ls_args) (cs : list string) : ls_args :=
  mkLs cs (l_neg a) (l_targets a) (l_negcol a) (l_thr a) (l_sort a) (l_min a) (l_max a).

(** what one sample is, see [gsample] *)
Inductive db_gsample := DSeq (pos : list trow) | DTri (pos targets : list trow) (negs : list (option value)).

(** the asserts of list_sampler.py:36-60, see [ls_check] *)
Definition db_ls_check (x : inst) (a : ls_args) : bool :=
  i_ids x &&
  match l_targets a with Some t => (0 <? t) && in_cols (l_negcol a) (i_cols x) | None => true end &&
  match l_sort a with Some c => in_cols c (i_cols x) | None => true end &&
  match l_max a with Some m => l_min a <=? m | None => true end.

(** str of a cell *)
Definition str_of_cell (v : option value) : string := match v with Some v => str_of_value v | None => "None" end.
(** list_sampler.py:97-98; zip stops at the shorter list *)
Definition cell_query (cols : list string) (g : list (option value)) : string :=
  String.concat "," (map (fun p => fst p ++ " == " ++ str_of_cell (snd p)) (combine cols g)).

(** list_sampler.py:114-115: stable sort by the sort column; None cannot be
    compared *)
Definition trow_leb (c : string) (a b : trow) : bool :=
  match tcell a c, tcell b c with
  | Some x, Some y => match val_ltb y x with Some true => false | _ => true end
  | _, _ => true
  end.
Definition sort_trows (a : ls_args) (l : list trow) : res (list trow) :=
  match l_sort a with
  | None => Ok l
  | Some c =>
      if (1 <? Z.of_nat (length l)) && existsb (fun r => match tcell r c with None => true | _ => false end) l
      then Err TypeError else Ok (sort_by (trow_leb c) l)
  end.
(** list_sampler.py:130 *)
Definition db_eligible (ls : db_lsampler) (all : list trow) : list (option value) :=
  filter (fun v => negb (mem_b cell_eqb v (map (fun r => tcell r (l_negcol (dl_args ls))) all))) (dl_negs ls).

Section Run.
Variable inode : string -> nat.
Variable ords : nat -> list trow -> list trow.
(** see [padding] and [attempt] in SampModel.v *)
Variable pick : nat -> list (option value) -> nat -> list (option value).
Variable s : nat -> nat.
Notation P := RecDbModel.P.
Local Notation "x <! m ;; k" := (pbind m (fun x => k)) (at level 61, m at next level, right associativity).

(** [ds.values_list(columns, to_list=True)], NULLs included *)
Definition db_cells (i : nat) (columns : option (list string)) : P (list (list (option value))) :=
  dbo ords (fun ord => values inode ord i columns false).

(** list_sampler.py:34-73; negative_ids_col is a string, which [unique] and
    [values_list] put into a list of their own *)
Definition db_ls_init (i : nat) (a : ls_args) : P db_lsampler :=
  x <! db (self i) ;;
  if negb (db_ls_check x a) then pret (Err AssertionError) else
  u <! db (unique inode i (Some (l_groups a)) true) ;;
  let cs := match snd u with Some l => l | None => l_groups a end in
  gs <! db_cells (fst u) (Some cs) ;;
  _ <! db (close inode (fst u)) ;;
  v <! db (unique inode i (Some [l_negcol a]) true) ;;
  ns <! db_cells (fst v) (Some [l_negcol a]) ;;
  _ <! db (close inode (fst v)) ;;
  pret (Ok (mkDbLs i (with_groups a cs) gs (dedup cell_eqb (concat ns)))).

(** list_sampler.py:114-149, for the [n] positive records [recs] of a group *)
Definition db_window (ls : db_lsampler) (k : nat) (n : Z) (recs : list trow) : res (option db_gsample) :=
  let a := dl_args ls in
  all <- sort_trows a recs ;;
  p <- padding s a n (k + 1) ;;
  let pos := match p, l_max a with Some p, Some mx => slice p (p + mx) all | _, _ => all end in
  match l_targets a with
  | None => Ok (Some (DSeq pos))
  | Some t =>
      let el := db_eligible ls all in
      let '(tg, pos') :=
        match p, l_max a with
        | Some p, Some mx => (slice (p + mx) (p + mx + t) all, pos)
        | _, _ => (skipn (Z.to_nat t) pos, firstn (Z.to_nat t) pos)
        end in
      let nn := l_neg a * Z.of_nat (length tg) in
      if Z.of_nat (length el) <? nn then Ok None else
      if nn <? 0 then Err ValueError else
      Ok (Some (DTri pos' tg (pick (k + 2) el (Z.to_nat nn))))
  end.
(** the data sets of a round *)
Fixpoint close_these (l : list nat) : P unit :=
  match l with [] => pret (Ok tt) | j :: l' => _ <! db (close inode j) ;; close_these l' end.
(** list_sampler.py:99-103: the positive records of a group, and the data sets
    that hold them and the group *)
Definition db_group (ls : db_lsampler) (g : list (option value)) : P (nat * list nat) :=
  j <! db (select inode (dl_ds ls) (cell_query (l_groups (dl_args ls)) g) true) ;;
  match l_thr (dl_args ls) with
  | None => pret (Ok (j, [j]))
  | Some t => jp <! db (select inode j ("interaction >= " ++ t) true) ;; pret (Ok (jp, [jp; j]))
  end.
(** One round of the while loop (list_sampler.py:92-149), see [attempt] *)
Definition db_attempt (ls : db_lsampler) (k : nat) : P (option db_gsample) :=
  let a := dl_args ls in
  g <! pret (choice s k (dl_uniq ls)) ;;
  h <! db_group ls g ;;
  len <! db (ds_len (fst h)) ;;
  let n := Z.of_nat len in
  if (n <? l_min a) || match l_targets a with Some t => n <? l_min a + t | None => false end
  then _ <! close_these (snd h) ;; pret (Ok None)
  else
    x <! db (self (fst h)) ;;
    vs <! db_cells (fst h) None ;;
    o <! pret (db_window ls k n (map (combine (i_cols x)) vs)) ;;
    _ <! close_these (snd h) ;;
    pret (Ok o).

(** the while loop: at most 21 rounds, see [tries] *)
Fixpoint db_tries (left : nat) (ls : db_lsampler) (k : nat) : P (db_gsample * nat) :=
  x <! db_attempt ls k ;;
  match x with
  | Some g => pret (Ok (g, (k + 3)%nat))
  | None => match left with O => pret (Err GenericException) | S l => db_tries l ls (k + 3) end
  end.
(** list_sampler.py:75-151, see [sample_groups]; the position in the stream is
    kept for the next call *)
Fixpoint db_sample_groups (n : nat) (ls : db_lsampler) (k : nat) : P (list db_gsample * nat) :=
  match n with
  | O => pret (Ok ([], k))
  | S n' => x <! db_tries 20 ls k ;;
            l <! db_sample_groups n' ls (snd x) ;;
            pret (Ok (fst x :: fst l, snd l))
  end.

(** ** Caser *)

(** recommender_abc.py:180-181, the batches of [epochs] epochs; the network works
    on a batch without the data set *)
Fixpoint db_batches (epochs batch_size : nat) (ls : db_lsampler) (k : nat) : P (list (list db_gsample)) :=
  match epochs with
  | O => pret (Ok [])
  | S e => x <! db_sample_groups batch_size ls k ;;
           l <! db_batches e batch_size ls (snd x) ;;
           pret (Ok (fst x :: l))
  end.
(** recommender_abc.py:133-181 with caser.py:72-84 *)
Definition db_caser_fit (copy_dataset : bool) (L T neg_ratio : Z) (threshold : option string) (sort_column : option string)
  (epochs batch_size : nat) (i : nat) : P (list (list db_gsample)) :=
  _ <! db_begin_fit inode i copy_dataset ;;
  ls <! db_ls_init i (caser_args L T neg_ratio threshold sort_column) ;;
  db_batches epochs batch_size ls 0.
End Run.
