(** Vocabulary of the sampler properties. *)
From Coq Require Import String Ascii.
From Coq Require Import List ZArith QArith Qcanon Bool Permutation Sorted.
From Verif Require Import Py MemModel MemSpec KnnSpec SampModel.
Import ListNotations.
Open Scope string_scope.
Open Scope Z_scope.

(** A data set with internal ids and numeric interactions.  The last clause: the
    columns are listed in the order of the frame, as in every data set that was
    read from a file and got its ids assigned. *)
Record coded (m : mem) : Prop := {
  cd_wf : wf_mem m;
  cd_types : id_types m;
  cd_on : m_ids m = true;
  cd_uid : In "uid" (m_columns m);
  cd_iid : In "iid" (m_columns m);
  cd_rows : forall r, In r (rows_of m) -> exists u i,
      cell r "uid" = Some (VInt u) /\ cell r "iid" = Some (VInt i) /\
      0 <= u <= 2 ^ 53 /\ 0 <= i <= 2 ^ 53;
  cd_num : numeric m;
  cd_order : filter (fun c => negb (String.eqb c "rid")) (m_columns m) = map fst (f_types (m_df m)) }.

(** some row has the pair of internal ids *)
Definition observed (m : mem) (u i : Z) : Prop := exists r, In r (rows_of m) /\ has_pair u i r = true.
(** both ids are at most the largest one in the data *)
Definition in_range (m : mem) (u i : Z) : Prop :=
  0 <= u /\ 0 <= i /\
  (exists r z, In r (rows_of m) /\ cell r "uid" = Some (VInt z) /\ u <= z) /\
  (exists r z, In r (rows_of m) /\ cell r "iid" = Some (VInt z) /\ i <= z).

(** A threshold given by the user (a number), and its text. *)
Definition thr_text (t : option slit) : option string := option_map lit_text t.
Definition thr_ok (t : option slit) : Prop :=
  match t with None => True | Some l => exists ty, ty <> DObj /\ lit_ok "interaction" ty l end.
Definition above (t : option slit) (r : row) : bool :=
  match t with None => true | Some l => sat1 (mkCond "interaction" Ge l) r end.

(** A positive sample: a row of the data at or above the threshold, with its own
    interaction value. *)
Definition positive (m : mem) (t : option slit) (x : triple) : Prop :=
  exists r u i v y, In r (rows_of m) /\ above t r = true /\
    cell r "uid" = Some (VInt u) /\ cell r "iid" = Some (VInt i) /\ cell r "interaction" = Some y /\
    same_value v y /\ x = (Some u, Some i, Some v).
(** A negative sample: a pair without a row, labelled 0. *)
Definition negative (m : mem) (x : triple) : Prop :=
  exists u i, in_range m u i /\ ~ observed m u i /\ x = (Some u, Some i, Some (VInt 0)).

(** The label of a draw from [0, neg_ratio + 1): negative if above 1. *)
Definition label_negative (neg : Qc) (x : Qc) : Prop := (1 < (neg + 1) * x)%Qc.
Definition labelled (m : mem) (neg : Qc) (t : option slit) (draw : Qc) (x : triple) : Prop :=
  (label_negative neg draw -> negative m x) /\ (~ label_negative neg draw -> positive m t x).

(** [n] consecutive entries of a stream *)
Definition segment {A} (s : nat -> A) (k n : nat) : list A := map s (seq k n).

(** What a call of sample(n) owes its caller, for the draws it consumes; a list of
    calls consumes one stretch of the stream after the other. *)
Fixpoint calls_ok (m : mem) (neg : Qc) (t : option slit) (s : nat -> Qc) (k : nat)
    (ns : list nat) (outs : list (res (list triple))) : Prop :=
  match ns, outs with
  | [], [] => True
  | n :: ns', o :: outs' =>
      (exists l, o = Ok l /\ Forall2 (labelled m neg t) (segment s k n) l) /\
      calls_ok m neg t s (k + n) ns' outs'
  | _, _ => False
  end.

(** ** List sampler *)

(** the record shows the row in every column *)
Definition shows (m : mem) (r : row) (rec : record) : Prop :=
  map fst rec = m_columns m /\
  Forall (fun p => exists y, row_val r (fst p) = Some y /\ same_value (snd p) y) rec.

(** the rows of the group: the given values in the group columns *)
Definition in_group (cols : list string) (g : list value) (r : row) : bool :=
  forallb (fun p => match row_val r (fst p) with Some v => val_eqb v (snd p) | None => false end) (combine cols g).

(** value [x] sorts before value [y] or equal *)
Definition val_le (x y : value) : Prop := val_ltb y x <> Some true.
Definition sort_key (c : string) (r : row) (v : value) : bool :=
  match row_val r c with Some x => val_eqb x v | None => false end.

(** [out] is [l] in the order of the sort column; rows with equal keys keep their
    order. *)
Definition in_order (sort : option string) (l out : list row) : Prop :=
  match sort with
  | None => out = l
  | Some c => Permutation l out /\
      StronglySorted (fun r r' => forall x y, row_val r c = Some x -> row_val r' c = Some y -> val_le x y) out /\
      forall v, filter (fun r => sort_key c r v) out = filter (fun r => sort_key c r v) l
  end.

(** The sequence of positive rows of a group of the data. *)
Definition sequence (m : mem) (a : ls_args) (t : option slit) (rs : list row) : Prop :=
  exists g r, In r (rows_of m) /\ Forall2 (fun c v => row_val r c = Some v) (l_groups a) g /\
    in_order (l_sort a) (filter (fun r => in_group (l_groups a) g r && above t r) (rows_of m)) rs.

(** [negs] are [n] distinct ids that occur in the data but not in the rows [rs] *)
Definition unobserved_ids (m : mem) (col : string) (rs : list row) (n : Z) (negs : list value) : Prop :=
  Z.of_nat (length negs) = n /\ NoDup negs /\
  forall v, In v negs -> In v (column col (rows_of m)) /\ ~ In v (column col rs).

(** random.sample(set, n): n distinct elements, if there are as many *)
Definition sampler_ok (pick : nat -> list value -> nat -> list value) : Prop :=
  forall k l n, NoDup l -> (n <= length l)%nat ->
    length (pick k l n) = n /\ NoDup (pick k l n) /\ incl (pick k l n) l.

(** configuration: group columns and the id column hold integers (internal ids,
    integer raw ids), every integer is exact as a float64 *)
Record config_ok (m : mem) (a : ls_args) (t : option slit) : Prop := {
  co_text : l_thr a = thr_text t;
  co_thr : thr_ok t;
  co_some : l_groups a <> [];
  co_nodup : NoDup (l_groups a);
  co_int : forall c, In c (l_groups a) -> In c (m_columns m) /\ c <> "rid" /\ plain c /\ col_type m c = Ok DInt;
  co_negcol : l_negcol a <> "rid" /\ In (l_negcol a) (m_columns m) /\ col_type m (l_negcol a) = Ok DInt;
  co_small : forall c, small_col m c }.

(** more rows than a sample may have positives *)
Definition full (a : ls_args) (rs : list row) : bool :=
  match l_max a with Some mx => mx <? Z.of_nat (length rs) | None => false end.

(** One sample: a window of the sequence of a group, with enough rows.  With
    targets, these are the rows right after the positives, and the negatives are
    [neg_ratio] ids per target that the sequence does not contain. *)
Definition sample_ok (m : mem) (a : ls_args) (t : option slit) (g : gsample) : Prop :=
  exists rs, sequence m a t rs /\
  match g, l_targets a with
  | Seq pos, None => exists before mid after, rs = (before ++ mid ++ after)%list /\ Forall2 (shows m) mid pos /\
      l_min a <= Z.of_nat (length pos) /\
      Z.of_nat (length pos) = match l_max a with Some mx => Z.min mx (Z.of_nat (length rs)) | None => Z.of_nat (length rs) end
  | Tri pos tg negs, Some n =>
      unobserved_ids m (l_negcol a) rs (l_neg a * Z.of_nat (length tg)) negs /\
      l_min a + n <= Z.of_nat (length rs) /\
      exists before p q after, rs = (before ++ p ++ q ++ after)%list /\ Forall2 (shows m) p pos /\ Forall2 (shows m) q tg /\
      if full a rs then Some (Z.of_nat (length pos)) = l_max a /\ Z.of_nat (length tg) = n
      else Z.of_nat (length pos) = n /\ Z.of_nat (length tg) = Z.of_nat (length rs) - n
  | _, _ => False
  end.
