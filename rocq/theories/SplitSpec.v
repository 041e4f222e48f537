(** Specification vocabulary for the splits. *)
From Coq Require Import String Ascii.
From Coq Require Import List ZArith QArith Qcanon Qround Bool Permutation.
From Verif Require Import Py MemModel MemSpec Conc SplitModel.
Import ListNotations.
Open Scope string_scope.
Open Scope Z_scope.

(** documented contract of random.sample: n elements at distinct positions *)
Definition sample_ok {A} (f : Z -> list A -> nat -> list A) : Prop :=
  forall seed l n, (n <= length l)%nat ->
    length (f seed l n) = n /\ exists rest, Permutation l (f seed l n ++ rest).
Definition sample_range_ok (f : Z -> Z -> nat -> list Z) : Prop :=
  forall seed n k, (Z.of_nat k <= n) ->
    length (f seed n k) = k /\ NoDup (f seed n k) /\ forall i, In i (f seed n k) -> 0 <= i < n.

(** the product of a row count and a ratio in (0, 1] is between 0 and the count
    (rounding to float64 is monotone and keeps the integers up to 2^53) *)
Definition fmul_ok (fmul : Z -> Qc -> Qc) : Prop :=
  forall n r, 0 <= n <= 2 ^ 53 -> (0 < r)%Qc -> (r <= 1)%Qc -> (0 <= fmul n r)%Qc /\ (fmul n r <= Qc_of_Z n)%Qc.

(** data sets with integer users up to 2^53 and distinct record ids *)
Record int_users (m : mem) : Prop := {
  iu_wf : wf_mem m;
  iu_ids : id_types m;
  iu_col : In "user" (m_columns m);
  iu_type : col_type m "user" = Ok DInt;
  iu_small : small_col m "user";
  iu_rids : NoDup (map r_rid (rows_of m)) }.

(** number of rows of a user *)
Definition user_count (u : Z) (m : mem) : Z := Z.of_nat (length (filter (user_is u) (rows_of m))).

(** [a] and [b] hold rows of [m], unchanged and in order, no row is in both, and
    everything else about them is as in a copy of [m] *)
Definition disjoint_parts (m a b : mem) : Prop :=
  exists p q : row -> bool,
    a = set_rows (mem_copy m) (filter p (rows_of m)) /\
    b = set_rows (mem_copy m) (filter q (rows_of m)) /\
    forall r, In r (rows_of m) -> p r && q r = false.

(** leave-k-out: [k_of n] rows are asked for a user with n rows *)
Definition held_out (k_of : Z -> Z) (minimum n : Z) : Z :=
  if (minimum <=? n) && (0 <? k_of n) && (k_of n <? n) then k_of n else 0.
Definition lko_spec (k_of : Z -> Z) (minimum : Z) (m train test : mem) : Prop :=
  disjoint_parts m train test /\
  forall u, user_count u test = held_out k_of minimum (user_count u m) /\
            user_count u train = (if user_count u m <? minimum then 0
                                  else user_count u m - user_count u test).

(** the item of the row is one of [items] *)
Definition item_in (items : list value) (r : row) : bool :=
  match cell r "item" with Some v => mem_b value_eqb v items | None => false end.

(** the number in the timestamp column of a row *)
Definition stamp (label : string) (r : row) : Qc :=
  match row_val r label with Some v => num v | None => 0%Qc end.
(** the rows of each user are listed by time *)
Definition in_time_order (label : string) (m : mem) : Prop :=
  forall p q r r', (p < q)%nat -> nth_error (rows_of m) p = Some r -> nth_error (rows_of m) q = Some r' ->
    cell r "user" = cell r' "user" -> (stamp label r <= stamp label r')%Qc.
(** no training row of a user is later than a test row of that user *)
Definition test_is_latest (label : string) (train test : mem) : Prop :=
  forall r r', In r (rows_of test) -> In r' (rows_of train) -> cell r "user" = cell r' "user" ->
    (stamp label r' <= stamp label r)%Qc.

(** matrix split: which rows go to the test set, given the drawn users and items *)
Definition user_of (r : row) : Z := match cell r "user" with Some (VInt z) => z | _ => 0 end.
Definition ms_test (minimum : Z) (users items : list value) (m : mem) (r : row) : bool :=
  (minimum <=? user_count (user_of r) m) && mem_b value_eqb (VInt (user_of r)) users && item_in items r &&
  existsb (fun r' => user_is (user_of r) r' && negb (item_in items r')) (rows_of m).
Definition matrix_spec (minimum : Z) (users items : list value) (m train test : mem) : Prop :=
  test = set_rows (mem_copy m) (filter (ms_test minimum users items m) (rows_of m)) /\
  train = set_rows (mem_copy m)
    (filter (fun r => (minimum <=? user_count (user_of r) m) && negb (ms_test minimum users items m r)) (rows_of m)).
(** a draw of [n] distinct values of column [c] *)
Definition drawn (c : string) (m : mem) (n : Z) (vs : list value) : Prop :=
  Z.of_nat (length vs) = n /\ NoDup vs /\ forall v, In v vs -> In v (column c (rows_of m)).

(** [test] and [train] hold the rows of [m], each row in exactly one of them,
    unchanged and in order *)
Definition partition_of (m train test : mem) : Prop :=
  exists p : row -> bool,
    test = set_rows (mem_copy m) (filter p (rows_of m)) /\
    train = set_rows (mem_copy m) (filter (fun r => negb (p r)) (rows_of m)).
