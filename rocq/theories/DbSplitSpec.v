(** Vocabulary of the properties of the splits of database data sets. *)
From Coq Require Import String Ascii.
From Coq Require Import List ZArith QArith Qcanon Bool Permutation Sorted.
From Verif Require Import Py MemModel MemSpec DbModel DbSpec SampModel DbGenModel DbGenSpec SplitModel SplitSpec DbSplitModel.
Import ListNotations.
Open Scope string_scope.
Open Scope Z_scope.

(** some rows of a data set, as a data set *)
Definition part (d : ds) (p : trow -> bool) : ds := mkDs (d_cols d) (d_types d) (d_ids d) (filter p (d_rows d)).

(** the rows of a user *)
Definition of_user (z : Z) (row : trow) : bool := match tcell row "user" with Some (VInt u) => u =? z | _ => false end.
Definition count_of (z : Z) (d : ds) : Z := Z.of_nat (length (filter (of_user z) (d_rows d))).

(** A data set with all its columns whose users are integers. *)
Record user_ints (d : ds) : Prop := {
  ui_complete : complete d;
  ui_type : exists ts, d_types d = Some ts /\ assoc String.eqb "user" ts = Some DInt;
  ui_rows : forall row, In row (d_rows d) -> exists z, tcell row "user" = Some (VInt z) }.

(** [train] and [test] hold rows of [d], none is in both. *)
Definition apart (d train test : ds) : Prop :=
  exists p q, train = part d p /\ test = part d q /\ forall row, In row (d_rows d) -> (p row && q row)%bool = false.
(** [train] and [test] hold the rows of [d], each in exactly one of them. *)
Definition parted (d train test : ds) : Prop :=
  exists p, test = part d p /\ train = part d (fun row => negb (p row)).

(** leave-k-out, as for data sets in memory *)
Definition lko_counts (k_of : Z -> Z) (minimum : Z) (d train test : ds) : Prop :=
  forall z, count_of z test = held_out k_of minimum (count_of z d) /\
            count_of z train = (if count_of z d <? minimum then 0 else count_of z d - count_of z test).

(** the time of a row, when it is a number *)
Definition stamp_of (label : string) (row : trow) : Qc := number (tcell row label).
(** every row has a number there, and later records of a user do not have a smaller one *)
Definition by_time (label : string) (d : ds) : Prop :=
  (forall row, In row (d_rows d) -> (exists z, tcell row label = Some (VInt z)) \/ exists q, tcell row label = Some (VFlt q)) /\
  forall r r', In r (d_rows d) -> In r' (d_rows d) -> tcell r "user" = tcell r' "user" -> rid_of r < rid_of r' ->
    (stamp_of label r <= stamp_of label r')%Qc.
Definition latest_kept (label : string) (train test : ds) : Prop :=
  forall r r', In r (d_rows test) -> In r' (d_rows train) -> tcell r "user" = tcell r' "user" ->
    (stamp_of label r' <= stamp_of label r)%Qc.

(** matrix split: given the drawn users and items, the rows that go to the test set *)
Definition user_no (row : trow) : Z := match tcell row "user" with Some (VInt z) => z | _ => 0 end.
Definition drawn_cell (c : string) (vs : list (option value)) (row : trow) : bool :=
  if in_dec opt_value_dec (tcell row c) vs then true else false.
Definition to_test (minimum : Z) (users items : list (option value)) (d : ds) (row : trow) : bool :=
  ((minimum <=? count_of (user_no row) d) && drawn_cell "user" users row && drawn_cell "item" items row &&
   existsb (fun r => (of_user (user_no row) r && negb (drawn_cell "item" items r))%bool) (d_rows d))%bool.
Definition matrix_parts (minimum : Z) (users items : list (option value)) (d train test : ds) : Prop :=
  test = part d (to_test minimum users items d) /\
  train = part d (fun row => ((minimum <=? count_of (user_no row) d) && negb (to_test minimum users items d row))%bool).
(** [n] distinct values of column [c] *)
Definition drawn_from (c : string) (d : ds) (n : Z) (vs : list (option value)) : Prop :=
  Z.of_nat (length vs) = n /\ NoDup vs /\ forall v, In v vs -> exists row, In row (d_rows d) /\ tcell row c = v.
(** the number of distinct values of a column *)
Definition distinct (c : string) (d : ds) : Z := Z.of_nat (length (nodup opt_value_dec (map (fun row => tcell row c) (d_rows d)))).

(** ** The state a split leaves *)
Section Leaves.
Variable inode : string -> nat.
(** The only new data sets are [tr] and [te], everything else is as before the
    call: no other data set changed, no other object is left and no generator
    is left open. *)
Definition leaves (w : world) (b : book) (w' : world) (tr te : nat) (train test : ds) : Prop :=
  exists b', reaches inode w' b' /\ b tr = None /\ b te = None /\ tr <> te /\
    b' tr = Some train /\ b' te = Some test /\
    (forall j, j <> tr -> j <> te -> b' j = b j) /\
    (forall j, j <> tr -> j <> te -> w_inst w j = None -> w_inst w' j = None) /\
    w_open w' = w_open w.
End Leaves.

(** ** Schedules *)

(** every order SQLite uses gives all the rows *)
Definition fair_orders (ords : nat -> list trow -> list trow) : Prop := forall t l, Permutation (ords t l) l.
(** rows come by record id *)
Definition sorting (ord : list trow -> list trow) : Prop :=
  forall l, StronglySorted (fun a b => rid_of a <= rid_of b) (ord l).
(** no thread is left out for ever *)
Definition fair_threads (sched : nat -> option nat) : Prop := forall e n, exists t, (n <= t)%nat /\ sched t = e.
