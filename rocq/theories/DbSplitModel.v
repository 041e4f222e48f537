(** Model of DRecPy/Evaluation/Splits on database data sets: random_split.py,
    leave_k_out.py, matrix_split.py.  Definitions only.

    The calls on data sets are those of DbModel.v; a call is one step, the calls
    of different threads alternate in any order.  A read of a data set is two
    steps, because the number of open value generators decides what other calls
    do: opening and reading the generator, and closing it.  The blocks protected
    by locks (Conc.v) are one step each here.  The data sets that go out of scope
    are closed (dataset_abc.py:331-333): those of a task when it ends, those of
    the main thread when the split returns.  The main thread creates the tasks
    while workers already run; here all tasks exist from the start, so every
    real schedule is among the modelled ones.

    External behaviour is passed as arguments, as in SplitModel.v. *)
From Coq Require Import String Ascii.
From Coq Require Import List ZArith QArith Qcanon Qround Bool.
From Verif Require Import Py MemModel DbModel SplitModel.
Import ListNotations.
Open Scope string_scope.
Open Scope Z_scope.

(** What a task does with the rows of its user: nothing, or read columns and
    compute the records to remove and the records to test from the rows read. *)
Inductive plan :=
| PNothing
| PRead (cols : list string) (use : list (list (option value)) -> res (list Z * list Z)).

Definition one_rid (r : list (option value)) : res Z :=
  match r with [Some (VInt z)] => Ok z | _ => Err TypeError end.
Definition remove_rids (rows : list (list (option value))) : res (list Z * list Z) :=
  rids <- mapM one_rid rows ;; Ok (rids, []).

(** leave_k_out.py:99-132 *)
Definition sample_rids (sample : Z -> list Z -> nat -> list Z) (seed : Z) (k : Z) (rows : list (list (option value)))
  : res (list Z * list Z) :=
  rids <- mapM one_rid rows ;; Ok ([], sample seed rids (Z.to_nat k)).
(** Comparing None with a time is a TypeError. *)
Definition one_stamp (r : list (option value)) : res (value * Z) :=
  match r with [Some (VInt z); Some t] => Ok (t, z) | _ => Err TypeError end.
Definition latest_rids (k : Z) (rows : list (list (option value))) : res (list Z * list Z) :=
  xs <- mapM one_stamp rows ;; Ok ([], last_rids k xs).
Definition lko_plan (fmul : Z -> Qc -> Qc) (sample : Z -> list Z -> nat -> list Z) (a : lko_args)
  (seed : Z) (u : option value) (len : nat) : plan :=
  let n := Z.of_nat len in
  let k := lko_count fmul (a_k a) n in
  if n <? a_min a then PRead ["rid"] remove_rids
  else if (k <? n) && (0 <? k) then
    if a_last a then PRead ["rid"; a_label a] (latest_rids k) else PRead ["rid"] (sample_rids sample seed k)
  else PNothing.

(** matrix_split.py:86-103.  None in a set of values: [item in test_items_set]. *)
Definition omem (v : option value) (l : list (option value)) : bool := mem_b cell_eqb v l.
Definition one_item (r : list (option value)) : res (Z * option value) :=
  match r with [Some (VInt z); i] => Ok (z, i) | _ => Err TypeError end.
Definition item_rids (items : list (option value)) (len : nat) (rows : list (list (option value))) : res (list Z * list Z) :=
  xs <- mapM one_item rows ;;
  let to_test := map fst (filter (fun x => omem (snd x) items) xs) in
  Ok ([], if Nat.ltb (length to_test) len then to_test else []).
Definition ms_plan (minimum : Z) (users items : list (option value)) (seed : Z) (u : option value) (len : nat) : plan :=
  if Z.of_nat len <? minimum then PRead ["rid"] remove_rids
  else if omem u users then PRead ["rid"; "item"] (item_rids items len)
  else PNothing.

(** ** Tasks *)

(** A task of the pool, by its next step. *)
Inductive task :=
| Waiting (seed : Z) (u : option value)                  (* select the rows of the user *)
| Holding (seed : Z) (u : option value) (j : nat)        (* user_rows_ds is j: look at its length, read it *)
| Reading (j : nat) (r : res (list Z * list Z))          (* the generator is open, the rows are read *)
| Adding (j : nat) (rem test : list Z)                   (* extend the shared lists *)
| Counting (j : nat)                                     (* n_tasks_done += 1 *)
| Leaving (j : nat) (ok : bool)                          (* user_rows_ds goes out of scope *)
| Ended
| Failed.                                                (* apply_async drops the exception *)

(** The main thread: reading the users while it creates the tasks (leave_k_out.py:66-77),
    waiting for n_tasks_done (81-89), waiting for the pool (91), returned. *)
Inductive main := Submitting | Polling | Joining | Returned (r : res (nat * nat)).

Record prog := mkProg {
  g_world : world; g_tasks : list task; g_rem : list Z; g_test : list Z; g_done : nat; g_main : main }.
Definition set_nth_task (k : nat) (t : task) (l : list task) : list task := Conc.set_nth k t l.
Definition over (t : task) : bool := match t with Ended | Failed => true | _ => false end.

(** f'user == {user}' *)
Definition user_text (u : option value) : string := match u with Some v => str_of_value v | None => "None" end.

Section DbSplit.
Variable inode : string -> nat.
Variable pl : Z -> option value -> nat -> plan.
Variable i : nat.                       (* the data set that is split *)
Variable temps : list nat.              (* the data sets the main thread closes when it returns *)
Variable verbose : bool.

(** One step of a task: the new shared state, the next state of the task, what
    is added to train_rids_to_rem, test_rids and n_tasks_done. *)
Definition task_step (ord : list trow -> list trow) (t : task) (w : world) : world * task * list Z * list Z * nat :=
  match t with
  | Waiting seed u =>
      match select inode i ("user == " ++ user_text u) true w with
      | (w', Ok j) => (w', Holding seed u j, [], [], 0%nat)
      | (w', Err _) => (w', Failed, [], [], 0%nat)
      end
  | Holding seed u j =>
      match ds_len j w with
      | (w', Ok n) =>
          match pl seed u n with
          | PNothing => (w', Counting j, [], [], 0%nat)
          | PRead cols use =>
              match values inode ord j (Some cols) true w' with
              | (w'', Ok rows) => (w'', Reading j (use rows), [], [], 0%nat)
              | (w'', Err _) => (w'', Leaving j false, [], [], 0%nat)
              end
          end
      | (w', Err _) => (w', Leaving j false, [], [], 0%nat)
      end
  | Reading j r =>
      let w' := fst (close_generator w) in
      match r with
      | Ok (rem, test) => (w', Adding j rem test, [], [], 0%nat)
      | Err _ => (w', Leaving j false, [], [], 0%nat)
      end
  | Adding j rem test => (w, Counting j, rem, test, 0%nat)
  | Counting j => (w, Leaving j true, [], [], 1%nat)
  | Leaving j ok => (fst (close inode j w), if ok then Ended else Failed, [], [], 0%nat)
  | Ended => (w, Ended, [], [], 0%nat)
  | Failed => (w, Failed, [], [], 0%nat)
  end.

(** leave_k_out.py:93-96, matrix_split.py:80-83, and the end of the scope *)
Fixpoint close_all (l : list nat) : M unit :=
  match l with
  | [] => ret tt
  | j :: l' => fun w => match close inode j w with (w', _) => close_all l' w' end
  end.
Definition finish (rem test : list Z) : M (nat * nat) :=
  te <~ drop inode i test true true ;;
  tr <~ drop inode i (rem ++ test) true false ;;
  _ <~ close_all temps ;;
  ret (tr, te).

Definition main_step (g : prog) : prog :=
  match g_main g with
  | Submitting => mkProg (fst (close_generator (g_world g))) (g_tasks g) (g_rem g) (g_test g) (g_done g)
                         (if verbose then Polling else Joining)
  | Polling => if Nat.leb (length (g_tasks g)) (g_done g)
               then mkProg (g_world g) (g_tasks g) (g_rem g) (g_test g) (g_done g) Joining else g
  | Joining => if forallb over (g_tasks g) then
                 let '(w, r) := finish (g_rem g) (g_test g) (g_world g) in
                 mkProg w (g_tasks g) (g_rem g) (g_test g) (g_done g) (Returned r)
               else g
  | Returned _ => g
  end.

(** A schedule: at each time the main thread ([None]) or a task, with the order
    in which SQLite returns the rows of a query at that time. *)
Definition prog_step (ord : list trow -> list trow) (e : option nat) (g : prog) : prog :=
  match e with
  | None => main_step g
  | Some k =>
      match nth_error (g_tasks g) k with
      | None => g
      | Some t =>
          match g_main g with
          | Returned _ => g
          | _ => let '(w, t', rem, test, n) := task_step ord t (g_world g) in
                 mkProg w (set_nth_task k t' (g_tasks g)) (g_rem g ++ rem) (g_test g ++ test) (g_done g + n) (g_main g)
          end
      end
  end.
Fixpoint prog_run (sched : nat -> option nat) (ords : nat -> list trow -> list trow) (t : nat) (g : prog) : prog :=
  match t with
  | O => g
  | S t' => prog_step (ords t') (sched t') (prog_run sched ords t' g)
  end.
End DbSplit.

(** The state of a call after [t] steps of its schedule. *)
Inductive dboutcome := DbRaised (e : exn) | DbRunning | DbDone (train test : nat).
Definition outcome_of (g : prog) : world * dboutcome :=
  (g_world g, match g_main g with
              | Returned (Ok (train, test)) => DbDone train test
              | Returned (Err e) => DbRaised e
              | _ => DbRunning
              end).

Section Calls.
Variable inode : string -> nat.
Variable fmul : Z -> Qc -> Qc.

(** [ds.values(c, to_list=True)] of one column *)
Definition one_cell (r : list (option value)) : res (option value) :=
  match r with [v] => Ok v | _ => Err TypeError end.
Definition numbered_from (seed : Z) (us : list (option value)) : list task :=
  map (fun p => Waiting (seed + 1 + Z.of_nat (fst p)) (snd p)) (combine (seq 0 (length us)) us).

(** leave_k_out.py:47-96 *)
Definition db_leave_k_out (sample : Z -> list Z -> nat -> list Z) (a : lko_args) (i : nat) (ord0 : list trow -> list trow)
  (sched : nat -> option nat) (ords : nat -> list trow -> list trow) (t : nat) (w : world) : world * dboutcome :=
  if negb (match a_k a with KInt z => 0 <? z | KRatio q => Qcltb 0 q end) then (w, DbRaised AssertionError) else
  if Nat.eqb (a_threads a) 0 then (w, DbRaised AssertionError) else
  if match a_k a with KInt _ => false | KRatio q => negb (Qcltb q 1) end then (w, DbRaised GenericException) else
  match (u <~ unique inode i (Some ["user"]) true ;;
         rows <~ values inode ord0 (fst u) (Some ["user"]) true ;;
         us <~ lift (mapM one_cell rows) ;;
         ret (fst u, us)) w with
  | (w', Err e) => (w', DbRaised e)
  | (w', Ok (uds, us)) =>
      outcome_of (prog_run inode (lko_plan fmul sample a) i [uds] (a_verbose a) sched ords t
                    (mkProg w' (numbered_from (a_seed a) us) [] [] 0 Submitting))
  end.

(** matrix_split.py:38-83 *)
Definition odraw (f : Z -> list (option value) -> nat -> list (option value)) (seed : Z) (l : list (option value)) (n : Z)
  : res (list (option value)) :=
  if (0 <=? n) && (n <=? Z.of_nat (length l)) then Ok (f seed l (Z.to_nat n)) else Err ValueError.
Definition db_matrix_split (sample_users sample_items : Z -> list (option value) -> nat -> list (option value)) (a : ms_args)
  (i : nat) (ord0 ord1 : list trow -> list trow) (sched : nat -> option nat) (ords : nat -> list trow -> list trow) (t : nat)
  (w : world) : world * dboutcome :=
  if negb (Qcltb 0 (b_uratio a) && negb (Qcltb 1 (b_uratio a))) then (w, DbRaised AssertionError) else
  if negb (Qcltb 0 (b_iratio a) && negb (Qcltb 1 (b_iratio a))) then (w, DbRaised AssertionError) else
  if Nat.eqb (b_threads a) 0 then (w, DbRaised AssertionError) else
  match (u <~ unique inode i (Some ["user"]) true ;;
         rows <~ values inode ord0 (fst u) (Some ["user"]) false ;;
         us <~ lift (mapM one_cell rows) ;;
         tu <~ lift (odraw sample_users (b_seed a) us (Qfloor (this (fmul (Z.of_nat (length us)) (b_uratio a))))) ;;
         v <~ unique inode i (Some ["item"]) true ;;
         irows <~ values inode ord1 (fst v) (Some ["item"]) false ;;
         is <~ lift (mapM one_cell irows) ;;
         n <~ ds_len (fst v) ;;
         ti <~ lift (odraw sample_items (b_seed a) is (Qfloor (this (fmul (Z.of_nat n) (b_iratio a))))) ;;
         ret (fst u, fst v, us, tu, ti)) w with
  | (w', Err e) => (w', DbRaised e)
  | (w', Ok (uds, ids, us, tu, ti)) =>
      outcome_of (prog_run inode (ms_plan (b_min a) tu ti) i [uds; ids] (b_verbose a) sched ords t
                    (mkProg w' (map (Waiting 0) us) [] [] 0 (if b_verbose a then Polling else Joining)))
  end.

(** random_split.py:25-52.  The loop stops at the last test record, so the
    generator is still open while the two results are made. *)
Definition db_random_split (sample_idx : Z -> Z -> nat -> list Z) (ratio : Qc) (seed : Z) (i : nat)
  (ord : list trow -> list trow) : M (nat * nat) :=
  if negb (Qcltb 0 ratio && Qcltb ratio 1) then raise AssertionError else
  len <~ ds_len i ;;
  let n := Z.of_nat len in
  let k := Qfloor (this (fmul n ratio)) in
  if negb ((0 <=? k) && (k <=? n)) then raise ValueError else
  let idxs := sort_by Z.leb (sample_idx seed n (Z.to_nat k)) in
  if Nat.eqb (length idxs) 0 then raise AssertionError else
  rows <~ values inode ord i (Some ["rid"]) true ;;
  rids <~ lift (mapM one_rid rows) ;;
  let test_rids := pick 0 rids idxs in
  te <~ drop inode i test_rids true true ;;
  tr <~ drop inode i test_rids true false ;;
  _ <~ close_generator ;;
  ret (tr, te).
End Calls.
