(** Model of the loggers of recommenders: DRecPy/Recommender/recommender_abc.py.
    Definitions only.

    The logging module keeps one logger per name for the life of the process.  A logger
    has a list of handlers and hands each message to all of them.  Messages are of level
    INFO and above, which all loggers and handlers here let through, and propagation is
    off.  A line is the level, the name of the logger and the message; its time is left
    out.  Files are opened for appending and written through at once; the working
    directory does not change, and nobody else writes to the files. *)
From Coq Require Import String Ascii.
From Coq Require Import List Bool.
From Verif Require Import Py.
Import ListNotations.
Open Scope string_scope.

Inductive level := Info | Warning | Error.
Definition line : Type := level * string * string.
(** StreamHandler (on stderr) or FileHandler with the path of its file *)
Inductive handler := Console | ToFile (path : string).

(** the loggers of the process, and what was written *)
Record logs := mkLogs {
  lg_loggers : list (string * list handler);
  lg_console : list line;
  lg_files : list (string * list line) }.
Definition no_logs : logs := mkLogs [] [] [].

(** logging.getLogger(name).handlers *)
Definition handlers (g : logs) (name : string) : list handler :=
  match assoc String.eqb name (lg_loggers g) with Some l => l | None => [] end.
Definition set_handlers (name : string) (l : list handler) (g : logs) : logs :=
  mkLogs (assoc_set String.eqb name l (lg_loggers g)) (lg_console g) (lg_files g).
Definition contents (g : logs) (path : string) : list line :=
  match assoc String.eqb path (lg_files g) with Some l => l | None => [] end.
Definition emit (x : line) (g : logs) (h : handler) : logs :=
  match h with
  | Console => mkLogs (lg_loggers g) (lg_console g ++ [x])%list (lg_files g)
  | ToFile p => mkLogs (lg_loggers g) (lg_console g) (assoc_set String.eqb p (contents g p ++ [x])%list (lg_files g))
  end.
(** logger.info, logger.warning, logger.error *)
Definition log_to (name : string) (v : level) (msg : string) (g : logs) : logs :=
  fold_left (emit (v, name, msg)) (handlers g name) g.

(** recommender_abc.py:81: the name of the logger for the console *)
Definition console_logger (cls : string) : string := cls ++ "_CLOGGER".
(** recommender_abc.py:92 *)
Definition file_logger (cls : string) : string := cls ++ "_FLOGGER".
(** recommender_abc.py:89; [now] is the formatted time *)
Definition log_path (now cls : string) : string := "drecpy_" ++ now ++ "_" ++ cls ++ ".log".

(** what a recommender knows about logging *)
Record recommender := mkRecommender {
  rl_class : string;
  rl_verbose : bool;
  rl_file : bool }.

(** recommender_abc.py:77-95, the loggers in __init__; [cls] is the name of the class *)
Definition new_recommender (cls now : string) (verbose log_file : bool) (g : logs) : recommender * logs :=
  let g := set_handlers (console_logger cls) [] g in
  let g := set_handlers (console_logger cls) (handlers g (console_logger cls) ++ [Console])%list g in
  if log_file then
    let g := mkLogs (lg_loggers g) (lg_console g) (assoc_set String.eqb (log_path now cls) (contents g (log_path now cls)) (lg_files g)) in
    let g := set_handlers (file_logger cls) (handlers g (file_logger cls) ++ [ToFile (log_path now cls)])%list g in
    (mkRecommender cls verbose true, g)
  else (mkRecommender cls verbose false, g).

(** recommender_abc.py:482-501, _info, _warn and _error *)
Definition say (r : recommender) (v : level) (msg : string) (log_console log_file : bool) (g : logs) : logs :=
  if negb (rl_verbose r) then g else
  let g := if log_console then log_to (console_logger (rl_class r)) v msg g else g in
  if rl_file r && log_file then log_to (file_logger (rl_class r)) v msg g else g.

(** A program makes recommenders and has them say things; recommenders are numbered as
    they are made. *)
Inductive event :=
| New (cls now : string) (verbose log_file : bool)
| Say (r : nat) (v : level) (msg : string) (log_console log_file : bool).
Definition step (e : event) (s : list recommender * logs) : list recommender * logs :=
  let (rs, g) := s in
  match e with
  | New cls now verbose log_file => let (r, g') := new_recommender cls now verbose log_file g in (rs ++ [r], g')%list
  | Say k v msg con file => match nth_error rs k with Some r => (rs, say r v msg con file g) | None => s end
  end.
Definition run_events (es : list event) (s : list recommender * logs) : list recommender * logs :=
  fold_left (fun s e => step e s) es s.
