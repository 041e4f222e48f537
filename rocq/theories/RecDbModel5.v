(** Model of DRecPy/Evaluation/Processes/ranking_evaluation.py and
    recommendation_evaluation.py with the test data and the training data in a
    database.  The counterparts for data sets in memory are in EvalModel.v, and so
    are the arguments, the generators of random numbers and the sums of metric
    values.  Definitions only.

    The tasks of the users run in threads: a call on a data set is a step, as are
    rank and recommend of the model and reading the distinct items of a data set,
    and the steps of all tasks are interleaved in any order.  The metric part of the tasks is that of EvalModel.v, and is run
    after their work on the data sets: the two parts share nothing.  A data set
    that is not referred to any more is closed; after an exception it is left open
    here, until the traceback is gone in the code. *)
From Coq Require Import String Ascii.
From Coq Require Import List ZArith QArith Qcanon Reals Bool.
From Verif Require Import Py MemModel RankModel EvalModel DbModel RecDbModel.
Import ListNotations.
Open Scope string_scope.
Open Scope Z_scope.

(** ** Tasks *)

(** What a task ends with, see [rank_user]: None if it is still generating
    negatives. *)
Definition verdict : Type := option (res (option case)).
(** A task that has ended, or its next step. *)
Inductive task := Ended (x : verdict) | Next (f : nat * world -> (nat * world) * task).
(** a call and what comes after it; an exception ends the task *)
Definition call {A} (p : P A) (k : A -> task) : task :=
  Next (fun s => let '(s', r) := p s in (s', match r with Ok a => k a | Err e => Ended (Some (Err e)) end)).

(** The threads: the state and the tasks; in step [t] of a schedule the task with
    the number [sched t] goes on, if it has not ended. *)
Definition pool : Type := (nat * world) * list task.
Fixpoint replace {A} (k : nat) (x : A) (l : list A) : list A :=
  match l, k with
  | [], _ => []
  | _ :: l', O => x :: l'
  | y :: l', S k' => y :: replace k' x l'
  end.
Definition go_on (k : nat) (c : pool) : pool :=
  match nth_error (snd c) k with
  | Some (Next f) => let '(s, p) := f (fst c) in (s, replace k p (snd c))
  | _ => c
  end.
Fixpoint pool_run (sched : nat -> nat) (t : nat) (c : pool) : pool :=
  match t with O => c | S t' => go_on (sched t') (pool_run sched t' c) end.
Definition ended (p : task) : option verdict := match p with Ended x => Some x | Next _ => None end.

Section Run.
Variable inode : string -> nat.
Variable ords : nat -> list trow -> list trow.
Variable fmul : Z -> Qc -> Qc.   (* the float product of an int and a float *)
Notation P := RecDbModel.P.
Local Notation "x <! m ;; k" := (pbind m (fun x => k)) (at level 61, m at next level, right associativity).

(** What the processes use of a model trained on data set [dm_ds], see [model]. *)
Record db_model := mkDbModel {
  dm_ds : nat;
  dm_items : nat;
  dm_rank : value -> list value -> bool -> P (list value);
  dm_recommend : value -> Z -> bool -> option Qc -> P (list value) }.
(** see [recommender] *)
Definition db_recommender (impl : db_rank_impl) (i n_items : nat) : db_model :=
  mkDbModel i n_items
    (fun u items novelty => l <! db_rank inode impl true i u items novelty true None ;; pret (named l))
    (fun u n novelty thr => l <! db_recommend inode impl true i n_items u (Some n) novelty thr ;; pret (named l)).

(** ** Calls *)

(** [ds.values_list(['item', 'interaction'])] *)
Definition db_pairs (j : nat) : P (list (value * Qc)) :=
  vs <! db_values inode ords j ["item"; "interaction"] ;;
  pret (mapM (fun v => match v with
                       | [i; x] => match num_of x with Some q => Ok (i, q) | None => Err TypeError end
                       | _ => Err TypeError
                       end) vs).
(** [ds.values_list(['item'], to_list=True)] *)
Definition db_items (j : nat) : P (list value) :=
  vs <! db_values inode ords j ["item"] ;;
  pret (mapM (fun v => match v with [i] => Ok i | _ => Err TypeError end) vs).
(** [user_ds.select_one(f'item == {item}', ['interaction'], to_list=True) or 0] *)
Definition db_relevancy (ju : nat) (item : value) : P Q :=
  o <! db_one inode ords ju ("item == " ++ str_of_value item) ["interaction"] ;;
  pret (match o with
        | None => Ok 0%Q
        | Some [x] => match num_of x with Some q => Ok (this q) | None => Err ValueError end
        | Some _ => Err TypeError
        end).
(** the data sets a task still refers to are closed when it returns *)
Fixpoint leave (l : list nat) (x : verdict) : task :=
  match l with
  | [] => Ended x
  | j :: l' => call (db (close inode j)) (fun _ => leave l' x)
  end.
(** ranking_evaluation.py:223-224, recommendation_evaluation.py:166-167: the dict, a
    call for every item *)
Fixpoint each_relevancy (ju : nat) (items : list value) (d : list (value * Q)) (k : list (value * Q) -> task) : task :=
  match items with
  | [] => k d
  | x :: items' => call (db_relevancy ju x) (fun q => each_relevancy ju items' (assoc_set val_eqb x q d) k)
  end.
(** [set(ds.unique('item').values_list('item', to_list=True))]; the data set of the
    distinct items is known to nobody else, all of this is one step *)
Definition db_distinct (j : nat) : P (list value) :=
  u <! db (unique inode j (Some ["item"]) true) ;;
  vs <! db_items (fst u) ;;
  _ <! db (close inode (fst u)) ;;
  pret (Ok (dedup val_eqb vs)).

(** ranking_evaluation.py:170-180, recommendation_evaluation.py:144-156, see
    [positives]; [held]: the data sets of the task *)
Definition db_positives (held : list nat) (jp : nat) (npos : option Z) (g : rng) (k : list (value * Qc) -> task) : task :=
  match npos with
  | None => call (db_pairs jp) k
  | Some n =>
      call (db (ds_len jp)) (fun len =>
      if Z.of_nat len <? n then leave held (Some (Ok None))
      else call (db_pairs jp) (fun ps => k (at_positions ps (rg_pos g (length ps) (Z.to_nat n)))))
  end.

(** ** ranking_evaluation.py *)

(** 193-202, see [blacklist]; the training rows are another data set of the task *)
Definition db_blacklist (dm : db_model) (train_ev : bool) (jp : nat) (u : value) (thr : string) (k : list nat -> list value -> task) : task :=
  if train_ev then call (db_distinct jp) (fun a => k [] a)
  else
    call (db (select inode (dm_ds dm) ("user == " ++ str_of_value u ++ ", interaction >= " ++ thr) true)) (fun jt =>
    call (db_distinct jt) (fun a =>
    call (db_distinct jp) (fun b => k [jt] (dedup val_eqb (a ++ b)%list)))).
(** 184-213, see [negatives] *)
Definition db_negatives (fuel : nat) (dm : db_model) (train_ev : bool) (a : re_args) (held : list nat) (jp jn : nat) (u : value) (n_pos : nat)
  (g : rng) (k : list nat -> list value -> task) : task :=
  call (db_items jn) (fun ns =>
  match e_nneg a with
  | None => k held ns
  | Some nn =>
      call (db (ds_len jn)) (fun len =>
      let n := neg_count fmul nn n_pos in
      let have := at_positions ns (rg_neg g (length ns) (Z.to_nat (Z.min n (Z.of_nat len)))) in
      if (Z.of_nat (length have) <? n) && e_gen a then
        db_blacklist dm train_ev jp u (e_thr a) (fun more black =>
        let held := (more ++ held)%list in
        if Z.of_nat (dm_items dm) - Z.of_nat (length black) <? n then leave held (Some (Ok None))
        else match gen_negs fuel (dm_items dm) black n (rg_draw g) 0 have with
             | None => Ended None
             | Some (Err e) => Ended (Some (Err e))
             | Some (Ok l) => k held l
             end)
      else k held have)
  end).
(** 167-224, see [rank_user] *)
Definition db_rank_user (fuel : nat) (dm : db_model) (train_ev : bool) (j : nat) (a : re_args) (u : value) (g : rng) : task :=
  call (db (select inode j ("user == " ++ str_of_value u) true)) (fun ju =>
  call (db (select inode ju ("interaction >= " ++ e_thr a) true)) (fun jp =>
  db_positives [jp; ju] jp (e_npos a) g (fun ps =>
  call (db (select inode ju ("interaction < " ++ e_thr a) true)) (fun jn =>
  db_negatives fuel dm train_ev a [jn; jp; ju] jp jn u (length ps) g (fun held ns =>
  match (map fst ps ++ ns)%list with
  | [] => leave held (Some (Ok None))
  | items =>
      let all := at_positions items (rg_shuffle g (length items)) in
      call (dm_rank dm u all (e_novelty a)) (fun recs =>
      each_relevancy ju all [] (fun rels =>
      leave held (Some (Ok (Some (mkCase recs (map fst ps) (best_item ps) rels))))))
  end))))).

(** ** recommendation_evaluation.py:141-167, see [rec_user] *)
Definition db_rec_user (dm : db_model) (j : nat) (a : rc_args) (u : value) (g : rng) : task :=
  call (db (select inode j ("user == " ++ str_of_value u) true)) (fun ju =>
  call (db (select inode ju ("interaction >= " ++ r_thr a) true)) (fun jp =>
  db_positives [jp; ju] jp (r_npos a) g (fun ps =>
  match ps with
  | [] => leave [jp; ju] (Some (Ok None))
  | _ =>
      call (n <! pret (max_list (r_k a)) ;; dm_recommend dm u n (r_novelty a) (r_low a)) (fun recs =>
      each_relevancy ju (dedup val_eqb (map fst ps ++ recs)%list) [] (fun rels =>
      leave [jp; ju] (Some (Ok (Some (mkCase recs (map fst ps) (best_item ps) rels))))))
  end))).

(** ** Both processes *)

(** ranking_evaluation.py:95-103, recommendation_evaluation.py:82-90: the data set of
    the users, the users, and a generator that is open *)
Definition db_test_users (j : nat) (n : option Z) : P (nat * list value) :=
  u <! db (unique inode j (Some ["user"]) true) ;;
  len <! db (ds_len (fst u)) ;;
  rows <! dbo ords (fun ord => values inode ord (fst u) (Some ["user"]) true) ;;
  us <! pret (mapM (fun row => v <- mapM filled row ;; match v with [x] => Ok x | _ => Err TypeError end) rows) ;;
  pret (Ok (fst u, firstn (Z.to_nat (match n with None => Z.of_nat len | Some n => Z.min n (Z.of_nat len) end)) us)).
(** 108-116, 130: a task for every user; the generator ends while they run (or is
    abandoned), the data set of the users when the process returns.  None: tasks
    are running after [t] steps. *)
Definition main_thread : task := call (db close_generator) (fun _ => Ended (Some (Ok None))).
Definition db_cases (j : nat) (n : option Z) (seed : Z) (task_of : Z -> value -> task) (sched : nat -> nat) (t : nat)
  (s : nat * world) : (nat * world) * option (res (list (res (option case)))) :=
  match db_test_users j n s with
  | (s1, Err e) => (s1, Some (Err e))
  | (s1, Ok (ju, us)) =>
      let '(s2, ts) := pool_run sched t (s1, main_thread :: map (fun p => task_of (fst p) (snd p)) (seeded_users seed us)) in
      match all_some (map ended ts) with
      | Some (_ :: xs) =>
          match all_some xs with
          | Some cs => let '(s3, r) := db (close inode ju) s2 in (s3, Some (_ <- r ;; Ok cs))
          | None => (s2, None)
          end
      | _ => (s2, None)
      end
  end.
(** see [run_eval] *)
Definition db_outcome (threads : nat) (verbose : bool) (ms : list metric) (ks : list Z) (sections : res (option case) -> list (Conc.section evar))
  (sched : nat -> option nat) (t : nat) (x : option (res (list (res (option case))))) : eoutcome :=
  match x with
  | None => ERunning
  | Some (Err e) => ERaised e
  | Some (Ok cs) => run_eval threads verbose ms ks (Ok (map sections cs)) sched t
  end.

(** [tsched], [tt]: the steps of the tasks on the data sets; [sched], [t]: those of
    the metric part *)
Definition db_ranking_evaluation (fuel : nat) (dm : db_model) (train_ev : bool) (j : nat) (a : re_args) (rngs : Z -> rng)
  (tsched : nat -> nat) (tt : nat) (sched : nat -> option nat) (t : nat) (s : nat * world) : (nat * world) * eoutcome :=
  match re_check a with
  | Err e => (s, ERaised e)
  | Ok _ =>
      let '(s', x) := db_cases j (e_users a) (e_seed a) (fun seed u => db_rank_user fuel dm train_ev j a u (rngs seed)) tsched tt s in
      (s', db_outcome (e_threads a) (e_verbose a) (e_metrics a) (e_k a) (rank_task (e_metrics a) (e_k a)) sched t x)
  end.
Definition db_recommendation_evaluation (dm : db_model) (j : nat) (a : rc_args) (rngs : Z -> rng)
  (tsched : nat -> nat) (tt : nat) (sched : nat -> option nat) (t : nat) (s : nat * world) : (nat * world) * eoutcome :=
  match rc_check a with
  | Err e => (s, ERaised e)
  | Ok _ =>
      let '(s', x) := db_cases j (r_users a) (r_seed a) (fun seed u => db_rec_user dm j a u (rngs seed)) tsched tt s in
      (s', db_outcome (r_threads a) (r_verbose a) (r_metrics a) (r_k a) (rec_task (r_metrics a) (r_k a)) sched t x)
  end.
End Run.
