(** Model of the training loop: DRecPy/Evaluation/loss_tracker.py,
    DRecPy/Recommender/EarlyStopping/*.py and RecommenderABC.fit of
    DRecPy/Recommender/recommender_abc.py (lines 97-264, 336-352, 463-469).
    Definitions only.

    Losses and metric values are exact rationals.  Gradient computation, samplers
    and predictions are one external function per epoch ([train]). *)
From Coq Require Import String Ascii.
From Coq Require Import List ZArith QArith Qcanon Bool.
From Verif Require Import Py MemModel.
Import ListNotations.
Open Scope string_scope.
Open Scope nat_scope.

(** ** loss_tracker.py:10-50 *)
Record tracker := mkTracker {
  t_losses : list Q;                    (* epoch_losses *)
  t_avg : Q;                            (* curr_avg_epoch_loss *)
  t_results : list (string * list Q);   (* epoch_callback_results, a dict *)
  t_called : list nat }.                (* called_epochs *)
(** 10-14 *)
Definition new_tracker : tracker := mkTracker [] 0%Q [] [].
(** 16-23 *)
Definition add_epoch_loss (loss : Q) (t : tracker) : tracker :=
  let losses := (t_losses t ++ [loss])%list in
  mkTracker losses (t_avg t + (loss - t_avg t) / inject_Z (Z.of_nat (length losses)))%Q (t_results t) (t_called t).
(** 33-36 *)
Definition reset_epoch_losses (t : tracker) : tracker := mkTracker [] 0%Q (t_results t) (t_called t).
(** 38-50 *)
Definition last_lt (l : list nat) (e : nat) : bool :=
  match rev l with [] => true | x :: _ => x <? e end.
Definition add_callback_result (name : string) (result : Q) (epoch : nat) (t : tracker) : tracker :=
  let old := match assoc String.eqb name (t_results t) with Some l => l | None => [] end in
  mkTracker (t_losses t) (t_avg t)
    (assoc_set String.eqb name (old ++ [result])%list (t_results t))
    (if last_lt (t_called t) epoch then t_called t ++ [epoch] else t_called t)%list.
(** [for metric in ret: add_epoch_callback_result(metric, ret[metric], epoch)]
    (recommender_abc.py:183-184, 218-221) *)
Definition add_all (ret : list (string * Q)) (epoch : nat) (t : tracker) : tracker :=
  fold_left (fun t p => add_callback_result (fst p) (snd p) epoch t) ret t.

(** ** Early stopping rules *)

(** What rule.compute does: a best epoch, the InvalidEpochValidationResultsException
    that fit handles, or another exception. *)
Inductive computed := Epoch (b : nat) | Invalid | Fails (e : exn).
Record rule := mkRule {
  r_compute : list Q -> list (string * list Q) -> list nat -> computed;
  r_stop : nat -> nat -> nat -> bool }.

(** [s.split("@")[0]] and ["@" in s] (early_stopping_rule_abc.py:45-49) *)
Definition trim_at (s : string) : string := hd "" (split_on "@" s).
Definition has_at (s : string) : bool := 1 <? length (split_on "@" s).

(** early_stopping_rule_abc.py:45-49: dict comprehension, later keys win *)
Definition metric_names (required : list string) (results : list (string * list Q)) : list (string * string) :=
  fold_left (fun d k => assoc_set String.eqb (if existsb has_at required then k else trim_at k) k d)
            (map fst results) [].
(** early_stopping_rule_abc.py:56-57 *)
Definition translated (required : list string) (results : list (string * list Q)) : list (string * list Q) :=
  map (fun p => (fst p, match assoc String.eqb (snd p) results with Some l => l | None => [] end))
      (metric_names required results).

(** max_validation_value_rule.py:19-25: index of the first maximum *)
Fixpoint best_index (i best : nat) (bestv : Q) (l : list Q) : nat :=
  match l with
  | [] => best
  | v :: l' => if Qltb bestv v then best_index (S i) i v l' else best_index (S i) best bestv l'
  end.
(** max_validation_value_rule.py:18-27 *)
Definition max_best_epoch (metric : string) (results : list (string * list Q)) (called : list nat) : computed :=
  match assoc String.eqb metric results with
  | None => Fails KeyError
  | Some [] => Fails IndexError
  | Some (v :: l) =>
      match nth_error called (best_index 0 0 v (v :: l)) with
      | Some e => Epoch e
      | None => Fails IndexError
      end
  end.
(** early_stopping_rule_abc.py:35-65 with required_validation_metrics = [metric] *)
Definition max_compute (metric : string) (losses : list Q) (results : list (string * list Q)) (called : list nat)
  : computed :=
  match results with
  | [] => Invalid
  | _ =>
    let tr := translated [metric] results in
    match assoc String.eqb metric tr with
    | None => Invalid
    | Some [] => Invalid
    | Some _ => max_best_epoch metric tr called
    end
  end.
(** max_validation_value_rule.py:29-30 *)
Definition max_rule (metric : string) : rule := mkRule (max_compute metric) (fun _ _ _ => false).

(** ** fit *)
Section Fit.
Variable W : Type.    (* the value of one trainable variable *)

(** A registered trainable variable is a cell: a tf.Variable registered itself
    (trainable_weights), or a variable that belongs to a registered layer or
    model (recommender_abc.py:266-278). *)
Inductive kind := Tensor | InLayer.
Definition store := nat -> W.
(** An entry of epoch_weights: deepcopy stores the value (338), the layers'
    trainable_weights are the variables themselves (339-340). *)
Inductive saved := SVal (w : W) | SRef (c : nat).
Definition snapshot := list saved.

Record config := mkConfig {
  c_cells : list (nat * kind);
  c_epochs : nat;
  c_verbose : bool;
  c_callback : option (nat -> store -> list (string * Q));   (* epoch_callback_fn *)
  c_cb_freq : nat;
  c_rule : option rule;
  c_es_freq : nat;
  c_train : nat -> store -> store * Q }.   (* one epoch: new weights and loss *)

(** local variables of fit and the attributes it changes *)
Record fstate := mkF {
  f_store : store;
  f_snaps : list snapshot;         (* self.epoch_weights *)
  f_tracker : tracker;
  f_best : option nat;             (* early_stopping_best_epoch *)
  f_e : option nat }.              (* the variable e: None when unbound *)

(** recommender_abc.py:336-341 *)
Definition take_snapshot (cells : list (nat * kind)) (s : store) : snapshot :=
  map (fun c => match snd c with Tensor => SVal (s (fst c)) | InLayer => SRef (fst c) end) cells.
Definition read (s : store) (x : saved) : W := match x with SVal w => w | SRef c => s c end.
Definition set_cell (s : store) (c : nat) (w : W) : store := fun i => if i =? c then w else s i.
(** recommender_abc.py:345-350 *)
Fixpoint assign_all (s : store) (cells : list (nat * kind)) (snap : snapshot) : store :=
  match cells, snap with
  | c :: cells', x :: snap' => assign_all (set_cell s (fst c) (read s x)) cells' snap'
  | _, _ => s
  end.
(** recommender_abc.py:344: epoch_weights[epoch-1]; index -1 is the last entry *)
Definition snapshot_at (snaps : list snapshot) (epoch : nat) : res snapshot :=
  match (match epoch with O => hd_error (rev snaps) | S i => nth_error snaps i end) with
  | Some x => Ok x
  | None => Err IndexError
  end.

Variable cfg : config.

(** recommender_abc.py:210 and 224: e % freq *)
Definition divides (freq e : nat) : res bool :=
  match freq with O => Err ZeroDivisionError | _ => Ok (e mod freq =? 0) end.

(** recommender_abc.py:207-222: the part that tracks losses and callbacks *)
Definition track (e : nat) (loss : Q) (s : store) (t : tracker) : res tracker :=
  match c_verbose cfg, c_rule cfg with
  | false, None => Ok t
  | _, _ =>
      let t := add_epoch_loss loss t in
      match c_callback cfg with
      | None => Ok t
      | Some cb => d <- divides (c_cb_freq cfg) e ;;
                   Ok (if d : bool then add_all (cb e s) e t else t)
      end
  end.

(** recommender_abc.py:225-232 and 242-251: compute the rule; [as e] unbinds e
    after the handler *)
Definition compute_rule (r : rule) (f : fstate) : res fstate :=
  let t := f_tracker f in
  match r_compute r (t_losses t) (t_results t) (t_called t) with
  | Epoch b => Ok (mkF (f_store f) (f_snaps f) t (Some b) (f_e f))
  | Invalid => Ok (mkF (f_store f) (f_snaps f) t (f_best f) None)
  | Fails x => Err x
  end.
(** recommender_abc.py:229: does this epoch end the loop? *)
Definition stops (r : rule) (e : nat) (f : fstate) : bool :=
  match r_compute r (t_losses (f_tracker f)) (t_results (f_tracker f)) (t_called (f_tracker f)) with
  | Epoch b => r_stop r e b (c_epochs cfg)
  | _ => false
  end.

(** recommender_abc.py:190-239, one epoch; the flag is [break] *)
Definition epoch_step (e : nat) (f : fstate) : res (fstate * bool) :=
  let '(s, loss) := c_train cfg e (f_store f) in
  t <- track e loss s (f_tracker f) ;;
  let f1 := mkF s (f_snaps f ++ [take_snapshot (c_cells cfg) s]) t (f_best f) (Some e) in
  match c_rule cfg with
  | None => Ok (f1, false)
  | Some r =>
      d <- divides (c_es_freq cfg) e ;;
      if d : bool then f2 <- compute_rule r f1 ;; Ok (f2, stops r e f1) else Ok (f1, false)
  end.
(** recommender_abc.py:189, over the list of epochs *)
Fixpoint epochs_loop (es : list nat) (f : fstate) : res fstate :=
  match es with
  | [] => Ok f
  | e :: es' => x <- epoch_step e f ;;
                let '(f', brk) := x in
                if brk : bool then Ok f' else epochs_loop es' f'
  end.

(** recommender_abc.py:241-251 *)
Definition after_loop (f : fstate) : res fstate :=
  match c_rule cfg with
  | None => Ok f
  | Some r =>
      match f_e f with
      | None => Err UnboundLocalError
      | Some e => d <- divides (c_es_freq cfg) e ;;
                  if d : bool then Ok f else compute_rule r f
      end
  end.
(** recommender_abc.py:253-256 *)
Definition maybe_revert (f : fstate) : res fstate :=
  match f_best f with
  | None => Ok f
  | Some b =>
      if b =? c_epochs cfg then Ok f else
      snap <- snapshot_at (f_snaps f) b ;;
      Ok (mkF (assign_all (f_store f) (c_cells cfg) snap) (f_snaps f) (f_tracker f) (f_best f) (f_e f))
  end.
(** recommender_abc.py:258-262 and loss_tracker.py:80-90: the graph raises if a
    metric has not one value per called epoch *)
Definition display (f : fstate) : res unit :=
  if c_verbose cfg then
    if forallb (fun p => length (snd p) =? length (t_called (f_tracker f))) (t_results (f_tracker f))
    then Ok tt else Err GenericException
  else Ok tt.

(** recommender_abc.py:168-264 after _pre_fit: [s] are the initial weights,
    [snaps] the attribute epoch_weights left by earlier calls of fit. *)
Definition fit (s : store) (snaps : list snapshot) : res fstate :=
  let t0 := match c_verbose cfg, c_callback cfg with
            | true, Some cb => add_all (cb 0 s) 0 new_tracker
            | _, _ => new_tracker
            end in
  match c_cells cfg with
  | [] => Ok (mkF s snaps new_tracker None None)      (* 159-163 *)
  | _ =>
    f <- epochs_loop (seq 1 (c_epochs cfg)) (mkF s snaps t0 None None) ;;
    f <- after_loop f ;;
    f <- maybe_revert f ;;
    _ <- display f ;;
    Ok f
  end.
End Fit.

Arguments mkConfig {W}. Arguments c_cells {W}. Arguments c_epochs {W}. Arguments c_verbose {W}.
Arguments c_callback {W}. Arguments c_cb_freq {W}. Arguments c_rule {W}. Arguments c_es_freq {W}. Arguments c_train {W}.
Arguments mkF {W}. Arguments f_store {W}. Arguments f_snaps {W}. Arguments f_tracker {W}. Arguments f_best {W}. Arguments f_e {W}.
Arguments SVal {W}. Arguments SRef {W}. Arguments take_snapshot {W}. Arguments read {W}. Arguments set_cell {W}.
Arguments assign_all {W}. Arguments snapshot_at {W}. Arguments track {W}. Arguments compute_rule {W}.
Arguments stops {W}. Arguments epoch_step {W}. Arguments epochs_loop {W}. Arguments after_loop {W}.
Arguments maybe_revert {W}. Arguments display {W}. Arguments fit {W}.

(** ** Standardisation *)

(** recommender_abc.py:140-142: the interaction range of the training data; a
    minimum of 1 is replaced by 0 *)
Definition interaction_range (m : mem) : res (Qc * Qc) :=
  lo <- mem_min m "interaction" ;;
  hi <- mem_max m "interaction" ;;
  match lo, hi with
  | Some lo, Some hi =>
      match num_of lo, num_of hi with
      | Some a, Some b => Ok ((if Qc_eq_bool a 1%Qc then 0%Qc else a), b)
      | _, _ => Err TypeError
      end
  | _, _ => Err TypeError
  end.
(** recommender_abc.py:463-465; a zero range divides by zero (numpy gives nan or
    inf, Python floats raise) *)
Definition standardize (r : Qc * Qc) (v : Qc) : res Qc :=
  if Qc_eq_bool (snd r) (fst r) then Err ZeroDivisionError else Ok ((v - fst r) / (snd r - fst r))%Qc.
(** recommender_abc.py:467-469 *)
Definition rescale (r : Qc * Qc) (v : Qc) : Qc := (fst r + (snd r - fst r) * v)%Qc.
