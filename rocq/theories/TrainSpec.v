(** Specification vocabulary for training. *)
From Coq Require Import String Ascii.
From Coq Require Import List ZArith QArith Qcanon Bool.
From Verif Require Import Py MemModel TrainModel.
Import ListNotations.
Open Scope string_scope.
Open Scope nat_scope.

(** ** Loss tracker *)
Inductive track_op := TAdd (loss : Q) | TReset | TResult (name : string) (v : Q) (epoch : nat).
Definition track_step (t : tracker) (o : track_op) : tracker :=
  match o with
  | TAdd l => add_epoch_loss l t
  | TReset => reset_epoch_losses t
  | TResult n v e => add_callback_result n v e t
  end.
Definition track_run (ops : list track_op) : tracker := fold_left track_step ops new_tracker.
(** the losses added after the last reset *)
Fixpoint losses_since (acc : list Q) (ops : list track_op) : list Q :=
  match ops with
  | [] => acc
  | TAdd l :: ops' => losses_since (acc ++ [l])%list ops'
  | TReset :: ops' => losses_since [] ops'
  | TResult _ _ _ :: ops' => losses_since acc ops'
  end.
Definition total (l : list Q) : Q := fold_right Qplus 0%Q l.
Definition qmean (l : list Q) : Q := (total l / inject_Z (Z.of_nat (length l)))%Q.

(** ** Early stopping *)

(** the metric requested as [m] is reported as [k]: with an '@' in [m] the names
    are equal, otherwise [k] may have a suffix '@...' *)
Definition no_at (s : string) : Prop := str_all (fun a => a <> "@"%char) s.
Definition reported_as (m k : string) : Prop := k = m \/ (no_at m /\ exists suffix, k = m ++ "@" ++ suffix).
(** [k] is the last name that reports [m] *)
Definition chosen_name (m : string) (names : list string) (k : string) : Prop :=
  exists l1 l2, names = (l1 ++ k :: l2)%list /\ reported_as m k /\ forall k', In k' l2 -> ~ reported_as m k'.
(** [b] is the first epoch of [called] with the maximal value *)
Definition first_best (called : list nat) (val : nat -> Q) (b : nat) : Prop :=
  exists l1 l2, called = (l1 ++ b :: l2)%list /\ (forall e, In e l1 -> (val e < val b)%Q) /\
                (forall e, In e l2 -> (val e <= val b)%Q).

(** ** The run of a training, described without fit *)
Section Run.
Variable W : Type.
Variable cfg : config W.
Variable s0 : store W.

(** the weights at the end of epoch [e] *)
Fixpoint weights_after (e : nat) : store W :=
  match e with O => s0 | S e' => fst (c_train cfg e (weights_after e')) end.
Definition loss_of (e : nat) : Q := snd (c_train cfg e (weights_after (e - 1))).
(** the epochs after which the callback is called, when [n] epochs are run *)
Definition called_epochs (n : nat) : list nat :=
  (if c_verbose cfg then [0] else []) ++ filter (fun e => e mod c_cb_freq cfg =? 0) (seq 1 n).
(** a callback that always reports the metrics [names] *)
Definition reports (cb : nat -> store W -> list (string * Q)) (names : list string) : Prop :=
  forall e s, map fst (cb e s) = names.
Definition metric_at (cb : nat -> store W -> list (string * Q)) (k : string) (e : nat) : Q :=
  match assoc String.eqb k (cb e (weights_after e)) with Some v => v | None => 0%Q end.
(** what the rule is given after [n] epochs *)
Definition history (cb : nat -> store W -> list (string * Q)) (names : list string) (n : nat) :
  list Q * list (string * list Q) * list nat :=
  (map loss_of (seq 1 n),
   match called_epochs n with
   | [] => []
   | es => map (fun k => (k, map (metric_at cb k) es)) names
   end,
   called_epochs n).
(** the rule picks epoch [b] after [n] epochs *)
Definition picks (r : rule) (cb : nat -> store W -> list (string * Q)) (names : list string) (n b : nat) : Prop :=
  let '(l, res, called) := history cb names n in r_compute r l res called = Epoch b.
End Run.
Arguments weights_after {W}. Arguments loss_of {W}. Arguments called_epochs {W}. Arguments reports {W}.
Arguments metric_at {W}. Arguments history {W}. Arguments picks {W}.
