(** Thread pool with lock protected shared variables: the concurrency used by
    DRecPy/Evaluation/Splits/*.py and DRecPy/Evaluation/Processes/*.py.
    Definitions only. *)
From Coq Require Import List ZArith Bool.
Import ListNotations.

Section Pool.
Variable V : Type.   (* values of the shared variables *)

(** A block [with lock: x = f(x)] (e.g. leave_k_out.py:119-120, 127-128, 131-132,
    134-135).  Lock and variable have the same number: every shared variable of
    the modelled code has its own lock.  [None]: the block only reads data that
    never changes (matrix_split.py:97-99). *)
Record section := mkSec { sec_lock : nat; sec_upd : option (V -> V) }.

(** What a worker does inside a block: the read and the write of the variable are
    separate steps. *)
Inductive phase := Outside | Inside | Loaded (v : V) | Stored.

(** A worker of multiprocessing.pool.ThreadPool: idle, or running a task whose
    remaining blocks are given.  Everything a task does outside the blocks only
    touches data that no other task writes, so it is not a step of its own.  A
    task that raises ends early: its list of blocks stops there (apply_async
    drops the exception, and [with] releases the lock). *)
Inductive worker := Idle | Run (secs : list section) (ph : phase).

Record pool := mkPool {
  shared : nat -> V;
  holder : nat -> option nat;          (* who holds a lock *)
  workers : list worker;
  queue : list (list section)          (* tasks not yet taken *)
}.

Definition upd {A} (f : nat -> A) (k : nat) (v : A) : nat -> A := fun i => if Nat.eqb i k then v else f i.
Fixpoint set_nth {A} (n : nat) (x : A) (l : list A) : list A :=
  match n, l with
  | _, [] => []
  | O, _ :: l' => x :: l'
  | S n', y :: l' => y :: set_nth n' x l'
  end.

Definition set_worker (w : nat) (x : worker) (p : pool) : pool :=
  mkPool (shared p) (holder p) (set_nth w x (workers p)) (queue p).

(** One step of worker [w]; a worker that waits for a lock, or idles with an
    empty queue, does nothing. *)
Definition step (w : nat) (p : pool) : pool :=
  match nth_error (workers p) w with
  | None => p
  | Some Idle =>
      match queue p with
      | [] => p
      | t :: q => mkPool (shared p) (holder p) (set_nth w (Run t Outside) (workers p)) q
      end
  | Some (Run [] _) => set_worker w Idle p
  | Some (Run (s :: ss) Outside) =>
      match holder p (sec_lock s) with
      | Some _ => p
      | None => mkPool (shared p) (upd (holder p) (sec_lock s) (Some w))
                       (set_nth w (Run (s :: ss) Inside) (workers p)) (queue p)
      end
  | Some (Run (s :: ss) Inside) =>
      match sec_upd s with
      | None => set_worker w (Run (s :: ss) Stored) p
      | Some _ => set_worker w (Run (s :: ss) (Loaded (shared p (sec_lock s)))) p
      end
  | Some (Run (s :: ss) (Loaded v)) =>
      match sec_upd s with
      | None => set_worker w (Run (s :: ss) Stored) p
      | Some f => mkPool (upd (shared p) (sec_lock s) (f v)) (holder p)
                         (set_nth w (Run (s :: ss) Stored) (workers p)) (queue p)
      end
  | Some (Run (s :: ss) Stored) =>
      mkPool (shared p) (upd (holder p) (sec_lock s) None)
             (set_nth w (Run ss Outside) (workers p)) (queue p)
  end.

(** [pool.join()] returns when this holds. *)
Definition idle (x : worker) : bool := match x with Idle => true | _ => false end.
Definition finished (p : pool) : bool :=
  match queue p with [] => forallb idle (workers p) | _ => false end.

(** ThreadPool(processes=n) after every task was submitted. *)
Definition start (n : nat) (init : nat -> V) (tasks : list (list section)) : pool :=
  mkPool init (fun _ => None) (repeat Idle n) tasks.

(** The calling thread: with verbose=True it polls a counter until it has
    reached the number of tasks (leave_k_out.py:81-89), then joins the pool. *)
Inductive main_state := Polling | Joining | Returned.
Record world := mkWorld { w_pool : pool; w_main : main_state }.

Definition main_step (enough : (nat -> V) -> bool) (x : world) : world :=
  match w_main x with
  | Polling => if enough (shared (w_pool x)) then mkWorld (w_pool x) Joining else x
  | Joining => if finished (w_pool x) then mkWorld (w_pool x) Returned else x
  | Returned => x
  end.

(** A schedule: at each time either the calling thread ([None]) or a worker. *)
Definition wstep (enough : (nat -> V) -> bool) (a : option nat) (x : world) : world :=
  match a with
  | None => main_step enough x
  | Some w => mkWorld (step w (w_pool x)) (w_main x)
  end.

Fixpoint wrun (enough : (nat -> V) -> bool) (sched : nat -> option nat) (n : nat) (x : world) : world :=
  match n with
  | O => x
  | S n' => wstep enough (sched n') (wrun enough sched n' x)
  end.

(** Every thread gets a turn again and again. *)
Definition fair (n_workers : nat) (sched : nat -> option nat) : Prop :=
  forall a, match a with None => True | Some w => (w < n_workers)%nat end ->
  forall t, exists t', (t <= t')%nat /\ sched t' = a.
End Pool.

Arguments mkSec {V}. Arguments sec_lock {V}. Arguments sec_upd {V}.
Arguments Outside {V}. Arguments Inside {V}. Arguments Loaded {V}. Arguments Stored {V}.
Arguments Idle {V}. Arguments Run {V}. Arguments mkPool {V}. Arguments shared {V}.
Arguments holder {V}. Arguments workers {V}. Arguments queue {V}. Arguments set_worker {V}.
Arguments step {V}. Arguments idle {V}. Arguments finished {V}. Arguments start {V}.
Arguments mkWorld {V}. Arguments w_pool {V}. Arguments w_main {V}.
Arguments main_step {V}. Arguments wstep {V}. Arguments wrun {V}.
