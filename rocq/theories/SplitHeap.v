(** The calls a split makes on the data set it splits, in the object-level model
    of MemHeap.v. *)
From Coq Require Import String Ascii.
From Coq Require Import List ZArith QArith Qcanon Bool.
From Verif Require Import Py MemModel MemHeap.
Import ListNotations.
Open Scope string_scope.
Open Scope Z_scope.

(** leave_k_out.py:56-58 (unique), 101/109 (one select per user, in the order
    [users] in which the workers get to them), 93-94 (the two drops).
    Everything else the function calls only reads. *)
Definition lko_calls (users : list value) (rem test : list Z) : list hop :=
  HUnique (Some ["user"]) true ::
  (map (fun u => HSelect ("user == " ++ str_of_value u) true) users ++
   [HDrop test true true; HDrop (rem ++ test) false true])%list.
(** matrix_split.py:43-47, 89, 80-81 *)
Definition ms_calls (users : list value) (rem test : list Z) : list hop :=
  HUnique (Some ["user"]) true :: HUnique (Some ["item"]) true ::
  (map (fun u => HSelect ("user == " ++ str_of_value u) true) users ++
   [HDrop test true true; HDrop (rem ++ test) false true])%list.
(** random_split.py:49-50 *)
Definition rs_calls (test : list Z) : list hop := [HDrop test true true; HDrop test false true].

(** the source and the two results, after the split and after any later calls on
    other data sets *)
Definition split_keeps (m0 : mem) (history : list (nat * hop)) (i : nat) (calls : list hop) (train test : mem) : Prop :=
  let w := hrun (hrun (w_init m0) history) (map (pair i) calls) in
  exists jtest jtrain,
    jtest <> jtrain /\ jtest <> i /\ jtrain <> i /\
    nth_error (views w) jtest = Some test /\ nth_error (views w) jtrain = Some train /\
    (forall j x, nth_error (views (hrun (w_init m0) history)) j = Some x -> nth_error (views w) j = Some x) /\
    (forall more j x, Forall (fun call => fst call <> j) more -> nth_error (views w) j = Some x ->
       nth_error (views (hrun w more)) j = Some x).
