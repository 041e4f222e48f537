(** Vocabulary of the property of log files: what a program made and said. *)
From Coq Require Import String Ascii.
From Coq Require Import List Bool.
From Verif Require Import LogModel.
Import ListNotations.
Open Scope string_scope.

(** A recommender that was made: name of the class, time, verbose, log_file. *)
Definition made : Type := string * string * bool * bool.
Definition made_by (es : list event) : list made :=
  flat_map (fun e => match e with New c now v f => [(c, now, v, f)] | Say _ _ _ _ _ => [] end) es.

(** What the event number [i] of a program is to write, given the lines for the
    recommender that speaks and the recommenders made before. *)
Definition at_event (lines : list made -> nat -> made -> level -> string -> bool -> bool -> list line) (es : list event) (i : nat) : list line :=
  match nth_error es i with
  | Some (Say k v msg con file) =>
      let ms := made_by (firstn i es) in
      match nth_error ms k with Some m => lines ms k m v msg con file | None => [] end
  | _ => []
  end.
Definition over_events (lines : list made -> nat -> made -> level -> string -> bool -> bool -> list line) (es : list event) : list line :=
  flat_map (at_event lines es) (seq 0 (length es)).

(** On the console: the message of a verbose recommender, unless it is for the file only. *)
Definition on_console (ms : list made) (k : nat) (m : made) (v : level) (msg : string) (con file : bool) : list line :=
  let '(c, _, verbose, _) := m in if verbose && con then [(v, c ++ "_CLOGGER", msg)] else [].

(** In the log file of recommender [k0]: its messages. *)
Definition own (k0 : nat) (ms : list made) (k : nat) (m : made) (v : level) (msg : string) (con file : bool) : list line :=
  let '(c, _, verbose, has_file) := m in
  if Nat.eqb k k0 && verbose && has_file && file then [(v, c ++ "_FLOGGER", msg)] else [].

(** Recommenders made with a log file at [path], of the given class *)
Definition writers (ms : list made) (c path : string) : list made :=
  filter (fun m => let '(c', now, _, f) := m in f && String.eqb c' c && String.eqb ("drecpy_" ++ now ++ "_" ++ c' ++ ".log") path) ms.
(** The message once for each recommender of the class made before that has this file,
    whoever of the class says it. *)
Definition shared (path : string) (ms : list made) (k : nat) (m : made) (v : level) (msg : string) (con file : bool) : list line :=
  let '(c, _, verbose, has_file) := m in
  if verbose && has_file && file then repeat (v, c ++ "_FLOGGER", msg) (length (writers ms c path)) else [].

(** Times have the format of strftime("%Y-%m-%d_%H-%M-%S"). *)
Definition times_ok (es : list event) : Prop := Forall (fun m => let '(_, now, _, _) := m in String.length now = 19%nat) (made_by es).
