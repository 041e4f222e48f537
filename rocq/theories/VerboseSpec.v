(** Vocabulary of the properties about the argument verbose of a recommender. *)
From Coq Require Import String Ascii.
From Coq Require Import List ZArith QArith Bool.
From Verif Require Import TrainModel TrainSpec.
Import ListNotations.

(** the same training with verbose set to [v], and with another callback function *)
Definition with_verbose {W} (v : bool) (cfg : config W) : config W :=
  mkConfig (c_cells cfg) (c_epochs cfg) v (c_callback cfg) (c_cb_freq cfg) (c_rule cfg) (c_es_freq cfg) (c_train cfg).
Definition with_callback {W} (cb : option (nat -> store W -> list (string * Q))) (cfg : config W) : config W :=
  mkConfig (c_cells cfg) (c_epochs cfg) (c_verbose cfg) cb (c_cb_freq cfg) (c_rule cfg) (c_es_freq cfg) (c_train cfg).

(** the epochs after which the callback function is to be called *)
Definition due {W} (cfg : config W) (e : nat) : Prop :=
  1 <= e <= c_epochs cfg /\ exists q, e = q * c_cb_freq cfg.
