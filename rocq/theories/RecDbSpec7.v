(** Vocabulary of the batches of DMF and CDAE on data sets in a database. *)
From Coq Require Import String Ascii.
From Coq Require Import List ZArith QArith Qcanon Bool.
From Verif Require Import Py MemModel MemSpec KnnSpec RecDbModel7.
Import ListNotations.
Open Scope string_scope.
Open Scope Z_scope.

(** Training data as [obs m]: the (user, item, interaction) of the rows, by internal
    ids.  There are [nu] users and [np] items. *)

(** at or above the threshold, and below it *)
Definition reaches_threshold (t : option slit) (x : Qc) : Prop :=
  match t with None => True | Some l => forall th, lit_num l = Some th -> (th <= x)%Qc end.
Definition misses_threshold (t : option slit) (x : Qc) : Prop :=
  match t with None => False | Some l => exists th, lit_num l = Some th /\ (x < th)%Qc end.

(** A sample for the draw of its label: an observation at or above the threshold, or
    the value 0 for a pair that was not observed or observed below the threshold. *)
Definition negative_pair (es : list (Z * Z * Qc)) (nu np : nat) (t : option slit) (u k : Z) : Prop :=
  0 <= u < Z.of_nat nu /\ 0 <= k < Z.of_nat np /\
  ((forall x, ~ In (u, k, x) es) \/ (exists x, In (u, k, x) es /\ misses_threshold t x)).
Definition right_sample (es : list (Z * Z * Qc)) (nu np : nat) (t : option slit) (neg draw : Qc) (x : Z * Z * Qc) : Prop :=
  let '(u, k, v) := x in
  ((1 < (neg + 1) * draw)%Qc -> v = 0%Qc /\ negative_pair es nu np t u k) /\
  (~ (1 < (neg + 1) * draw)%Qc -> In (u, k, v) es /\ reaches_threshold t v).

(** The range of the interactions, where a smallest value of 1 counts as 0. *)
Definition right_range (es : list (Z * Z * Qc)) (lo hi : Qc) : Prop :=
  (exists a, In a (map snd es) /\ (forall x, In x (map snd es) -> (a <= x)%Qc) /\ (a = 1%Qc -> lo = 0%Qc) /\ (a <> 1%Qc -> lo = a)) /\
  In hi (map snd es) /\ (forall x, In x (map snd es) -> (x <= hi)%Qc).
(** The value DMF is trained towards. *)
Definition right_target (es : list (Z * Z * Qc)) (use_nce : bool) (v y : Qc) : Prop :=
  if use_nce then exists lo hi, right_range es lo hi /\ lo <> hi /\ y = ((v - lo) / (hi - lo))%Qc else y = v.

(** The vectors of the users and the items of a batch. *)
Definition user_row (rs : list row) (np : nat) (x : Z * Z * Qc) (vec : list Qc) : Prop := user_vec_spec rs np (fst (fst x)) vec.
Definition item_row (rs : list row) (nu : nat) (x : Z * Z * Qc) (vec : list Qc) : Prop := item_vec_spec rs nu (snd (fst x)) vec.

(** A batch of [n] samples; [draws] are the draws of their labels. *)
Definition samples_for (es : list (Z * Z * Qc)) (nu np : nat) (t : option slit) (neg : Qc) (draws : list Qc) (xs : list (Z * Z * Qc)) : Prop :=
  Forall2 (right_sample es nu np t neg) draws xs.
Definition right_batch (m : mem) (nu np : nat) (t : option slit) (neg : Qc) (use_nce : bool) (draws : list Qc) (b : dmf_batch) : Prop :=
  exists xs, samples_for (obs m) nu np t neg draws xs /\
    Forall2 (user_row (rows_of m) np) xs (bt_users b) /\
    Forall2 (item_row (rows_of m) nu) xs (bt_items b) /\
    Forall2 (fun x y => right_target (obs m) use_nce (snd x) y) xs (bt_desired b).

(** What CDAE is trained on for user [u]: the items with a sum at or above the
    threshold, and the same list with entries set to 0 where the draw is below
    [q] and scaled by 1 / (1 - q) elsewhere. *)
Definition right_inputs (rs : list row) (np : nat) (th q : Qc) (draw : nat -> Qc) (u : Z) (c : cdae_sample) : Prop :=
  cs_user c = u /\ length (cs_desired c) = np /\ length (cs_input c) = np /\
  forall k, (k < np)%nat -> exists y,
    nth_error (cs_desired c) k = Some y /\
    ((th <= pair_sum u (Z.of_nat k) rs)%Qc -> y = 1) /\ (~ (th <= pair_sum u (Z.of_nat k) rs)%Qc -> y = 0) /\
    nth_error (cs_input c) k = Some (if Qcltb (draw k) q then 0 else Qc_of_Z y / (1 - q))%Qc.
(** The samples of an epoch; the first one takes the draws from number [k0] on, the
    next one the [np] draws after those, and so on. *)
Definition right_cdae (m : mem) (nu np : nat) (l : slit) (th neg q : Qc) (rnd : nat -> Qc) (k0 : nat) (draws : list Qc) (cs : list cdae_sample) : Prop :=
  exists xs, samples_for (obs m) nu np (Some l) neg draws xs /\ length cs = length xs /\
    forall j x c, nth_error xs j = Some x -> nth_error cs j = Some c ->
      right_inputs (rows_of m) np th q (fun k => rnd (k0 + j * np + k)%nat) (fst (fst x)) c.
