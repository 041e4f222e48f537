(** Model of DRecPy/Evaluation/Splits: random_split.py, leave_k_out.py,
    matrix_split.py, on in-memory data sets.  Definitions only.

    External behaviour is passed as arguments:
    - [fmul n k]: the float product [n * k] of an int and a float;
    - [sample seed l n]: random.Random(seed).sample(l, n). *)
From Coq Require Import String Ascii.
From Coq Require Import List ZArith QArith Qcanon Qround Bool.
From Verif Require Import Py MemModel Conc.
Import ListNotations.
Open Scope string_scope.
Open Scope Z_scope.

(** Shared variables of a split: 0 = train_rids_to_rem, 1 = test_rids,
    2 = n_tasks_done (leave_k_out.py:8-11, 63-66; matrix_split.py:8-11, 57-60). *)
Inductive cellv := CList (l : list Z) | CNum (z : Z).
Definition extend (xs : list Z) (v : cellv) : cellv :=
  match v with CList l => CList (l ++ xs) | _ => v end.
Definition incr (v : cellv) : cellv := match v with CNum z => CNum (z + 1) | _ => v end.
Definition as_list (v : cellv) : list Z := match v with CList l => l | CNum _ => [] end.
Definition as_num (v : cellv) : Z := match v with CNum z => z | CList _ => 0 end.

Definition init_shared : nat -> cellv :=
  fun l => match l with 0%nat | 1%nat => CList [] | _ => CNum 0 end.

Definition rem_section (xs : list Z) : section cellv := mkSec 0%nat (Some (extend xs)).
Definition test_section (xs : list Z) : section cellv := mkSec 1%nat (Some (extend xs)).
Definition test_lock_only : section cellv := mkSec 1%nat None.
Definition rem_lock_only : section cellv := mkSec 0%nat None.
Definition done_section : section cellv := mkSec 2%nat (Some incr).

(** [ds.values_list('rid', to_list=True)] *)
Definition rid_list (m : mem) : res (list Z) :=
  vs <- values m (Some ["rid"]) ;;
  mapM (fun v => match v with [VInt z] => Ok z | _ => Err TypeError end) vs.

(** [ds.unique(c).values(c, to_list=True)] *)
Definition distinct_values (m : mem) (c : string) : res (list value) :=
  u <- unique m (Some [c]) ;;
  vs <- values u (Some [c]) ;;
  mapM (fun v => match v with [x] => Ok x | _ => Err TypeError end) vs.

(** leave_k_out.py:101, 109 and matrix_split.py:89: select(f'user == {user}') *)
Definition user_rows (m : mem) (u : value) : res mem := select m ("user == " ++ str_of_value u).

(** leave_k_out.py:122-128.  The heap of (timestamp, rid) pairs is kept as an
    ascending list: heappush inserts, heapreplace removes the smallest pair and
    inserts.  (The order inside heapq's list only changes the order of test_rids.) *)
Definition stamp_leb (a b : value * Z) : bool :=
  match val_ltb (fst a) (fst b) with
  | Some true => true
  | _ => val_eqb (fst a) (fst b) && (snd a <=? snd b)
  end.
Definition heap_step (k : Z) (h : list (value * Z)) (x : value * Z) : list (value * Z) :=
  if Z.of_nat (length h) <? k then insert_by stamp_leb x h else insert_by stamp_leb x (tl h).
Definition last_rids (k : Z) (xs : list (value * Z)) : list Z :=
  map snd (fold_left (heap_step k) xs []).

(** [ds.values_list(['rid', label], to_list=True)] as (timestamp, rid) pairs *)
Definition stamps (m : mem) (label : string) : res (list (value * Z)) :=
  vs <- values m (Some ["rid"; label]) ;;
  mapM (fun v => match v with [VInt z; t] => Ok (t, z) | _ => Err TypeError end) vs.

Section LeaveKOut.
Variable fmul : Z -> Qc -> Qc.
Variable sample : Z -> list Z -> nat -> list Z.

(** The argument k: an int or a float (leave_k_out.py:50). *)
Inductive karg := KInt (z : Z) | KRatio (q : Qc).

Record lko_args := mkLko {
  a_k : karg;
  a_min : Z;                (* min_user_interactions *)
  a_last : bool;            (* last_timestamps *)
  a_label : string;         (* timestamp_label *)
  a_seed : Z;
  a_threads : nat;          (* max_concurrent_threads *)
  a_verbose : bool }.

(** leave_k_out.py:99-111: number of test rows asked for a user with n rows;
    [int(x)] of a positive float is its floor. *)
Definition lko_count (k : karg) (n : Z) : Z :=
  match k with KInt z => z | KRatio q => Qfloor (this (fmul n q)) end.

(** leave_k_out.py:114-135: the blocks executed for one user.  A raised exception
    ends the task. *)
Definition lko_user (a : lko_args) (seed : Z) (mu : mem) : list (section cellv) :=
  let n := Z.of_nat (mem_len mu) in
  let k := lko_count (a_k a) n in
  if n <? a_min a then
    match rid_list mu with
    | Ok rids => [rem_section rids; done_section]
    | Err _ => [rem_lock_only]
    end
  else if (k <? n) && (0 <? k) then
    if a_last a then
      match stamps mu (a_label a) with
      | Ok xs => [test_section (last_rids k xs); done_section]
      | Err _ => []
      end
    else
      match rid_list mu with
      | Ok rids => [test_section (sample seed rids (Z.to_nat k)); done_section]
      | Err _ => []
      end
  else [done_section].

Definition lko_task (a : lko_args) (m : mem) (p : Z * value) : list (section cellv) :=
  match user_rows m (snd p) with Ok mu => lko_user a (fst p) mu | Err _ => [] end.

(** leave_k_out.py:67-68: the first user gets seed + 1, the next seed + 2, ... *)
Definition seeded (seed : Z) (us : list value) : list (Z * value) :=
  combine (map (fun i => seed + 1 + Z.of_nat i) (seq 0 (length us))) us.

(** leave_k_out.py:47-79: checks and creation of the tasks *)
Definition lko_tasks (a : lko_args) (m : mem) : res (list (list (section cellv))) :=
  if negb (match a_k a with KInt z => 0 <? z | KRatio q => Qcltb 0 q end) then Err AssertionError else
  if Nat.eqb (a_threads a) 0 then Err AssertionError else
  if match a_k a with KInt _ => false | KRatio q => negb (Qcltb q 1) end then Err GenericException else
  us <- distinct_values m "user" ;;
  Ok (map (lko_task a m) (seeded (a_seed a) us)).
End LeaveKOut.

(** leave_k_out.py:81-89, matrix_split.py:68-76: the loop ends when
    n_tasks_done >= n_tasks *)
Definition enough (n_tasks : nat) (s : nat -> cellv) : bool := Z.of_nat n_tasks <=? as_num (s 2%nat).

(** leave_k_out.py:93-96, matrix_split.py:80-83 *)
Definition split_sets (m : mem) (s : nat -> cellv) : mem * mem :=
  let test := as_list (s 1%nat) in
  let rem := as_list (s 0%nat) in
  (drop m (rem ++ test) false, drop m test true).

(** A call after [t] steps of a schedule: an exception, still running, or the
    pair (train, test). *)
Inductive outcome := Raised (e : exn) | Running | Done (train test : mem).

Definition run_split (threads : nat) (verbose : bool) (m : mem)
  (tasks : res (list (list (section cellv)))) (sched : nat -> option nat) (t : nat) : outcome :=
  match tasks with
  | Err e => Raised e
  | Ok ts =>
      let x := wrun (enough (length ts)) sched t
                 (mkWorld (start threads init_shared ts) (if verbose then Polling else Joining)) in
      match w_main x with
      | Returned => let r := split_sets m (shared (w_pool x)) in Done (fst r) (snd r)
      | _ => Running
      end
  end.

Definition leave_k_out fmul sample (a : lko_args) (m : mem) : (nat -> option nat) -> nat -> outcome :=
  run_split (a_threads a) (a_verbose a) m (lko_tasks fmul sample a m).

(** ** matrix_split.py *)
Section MatrixSplit.
Variable fmul : Z -> Qc -> Qc.
(** one generator, two draws: users first, then items (matrix_split.py:42-49) *)
Variables sample_users sample_items : Z -> list value -> nat -> list value.

Record ms_args := mkMs {
  b_uratio : Qc; b_iratio : Qc; b_min : Z; b_seed : Z; b_threads : nat; b_verbose : bool }.

(** random.sample raises ValueError when the sample is larger than the population *)
Definition draw (f : Z -> list value -> nat -> list value) (seed : Z) (l : list value) (n : Z) : res (list value) :=
  if (0 <=? n) && (n <=? Z.of_nat (length l)) then Ok (f seed l (Z.to_nat n)) else Err ValueError.

(** [ds.values(['rid', 'item'], to_list=True)] *)
Definition rid_items (m : mem) : res (list (Z * value)) :=
  vs <- values m (Some ["rid"; "item"]) ;;
  mapM (fun v => match v with [VInt z; i] => Ok (z, i) | _ => Err TypeError end) vs.

(** matrix_split.py:86-106 *)
Definition ms_user (minimum : Z) (test_items test_users : list value) (u : value) (mu : mem) : list (section cellv) :=
  let n := Z.of_nat (mem_len mu) in
  if n <? minimum then
    match rid_list mu with
    | Ok rids => [rem_section rids; done_section]
    | Err _ => [rem_lock_only]
    end
  else if mem_b val_eqb u test_users then
    match rid_items mu with
    | Ok xs =>
        let to_test := map fst (filter (fun x => mem_b val_eqb (snd x) test_items) xs) in
        (map (fun _ => test_lock_only) xs ++
         (if (length to_test <? mem_len mu)%nat then [test_section to_test] else []) ++ [done_section])%list
    | Err _ => []
    end
  else [done_section].

Definition ms_task (minimum : Z) (test_items test_users : list value) (m : mem) (u : value) : list (section cellv) :=
  match user_rows m u with Ok mu => ms_user minimum test_items test_users u mu | Err _ => [] end.

(** matrix_split.py:38-65 *)
Definition ms_samples (a : ms_args) (m : mem) : res (list value * list value * list value) :=
  if negb (Qcltb 0 (b_uratio a) && negb (Qcltb 1 (b_uratio a))) then Err AssertionError else
  if negb (Qcltb 0 (b_iratio a) && negb (Qcltb 1 (b_iratio a))) then Err AssertionError else
  if Nat.eqb (b_threads a) 0 then Err AssertionError else
  us <- distinct_values m "user" ;;
  tu <- draw sample_users (b_seed a) us (Qfloor (this (fmul (Z.of_nat (length us)) (b_uratio a)))) ;;
  is <- distinct_values m "item" ;;
  ti <- draw sample_items (b_seed a) is (Qfloor (this (fmul (Z.of_nat (length is)) (b_iratio a)))) ;;
  Ok (us, tu, ti).
Definition ms_tasks (a : ms_args) (m : mem) : res (list (list (section cellv))) :=
  x <- ms_samples a m ;;
  let '(us, tu, ti) := x in
  Ok (map (ms_task (b_min a) ti tu m) us).

Definition matrix_split (a : ms_args) (m : mem) : (nat -> option nat) -> nat -> outcome :=
  run_split (b_threads a) (b_verbose a) m (ms_tasks a m).
End MatrixSplit.

(** ** random_split.py *)
Section RandomSplit.
Variable fmul : Z -> Qc -> Qc.
Variable sample_idx : Z -> Z -> nat -> list Z.   (* Random(seed).sample(range(0, n), k) *)

(** random_split.py:42-47: walk over (idx, rid) pairs with the sorted indices *)
Fixpoint pick (idx : Z) (rids : list Z) (idxs : list Z) : list Z :=
  match rids, idxs with
  | r :: rids', i :: idxs' =>
      if idx =? i
      then r :: match idxs' with [] => [] | _ => pick (idx + 1) rids' idxs' end
      else pick (idx + 1) rids' idxs
  | _, _ => []
  end.

(** random_split.py:25-52; returns (train, test) *)
Definition random_split (ratio : Qc) (seed : Z) (m : mem) : res (mem * mem) :=
  if negb (Qcltb 0 ratio && Qcltb ratio 1) then Err AssertionError else
  let n := Z.of_nat (mem_len m) in
  let k := Qfloor (this (fmul n ratio)) in
  if negb ((0 <=? k) && (k <=? n)) then Err ValueError else
  let idxs := sort_by Z.leb (sample_idx seed n (Z.to_nat k)) in
  if Nat.eqb (length idxs) 0 then Err AssertionError else
  rids <- rid_list m ;;
  let test_rids := pick 0 rids idxs in
  Ok (drop m test_rids false, drop m test_rids true).
End RandomSplit.
