(** Model of DRecPy/Evaluation/Processes: predictive_evaluation.py,
    ranking_evaluation.py, recommendation_evaluation.py, on in-memory data sets.
    Definitions only.

    Left out: progress bars, log messages and the plot.  Metric values are reals;
    sums, quotients and round are exact. *)
From Coq Require Import String Ascii.
From Coq Require Import List ZArith QArith Qcanon Qround Qreals Reals Bool.
From Verif Require Import Py MemModel RankModel MetricModel SplitModel SampModel Conc.
Import ListNotations.
Open Scope string_scope.
Open Scope Z_scope.

Definition R_of (q : Qc) : R := Q2R (this q).

(** round(x, 4): the nearest multiple of 1/10000, ties to even *)
Definition nearest (y : R) : Z :=
  let f := Int_part y in
  let d := (y - IZR f)%R in
  if Rlt_dec d (1/2) then f else if Rlt_dec (1/2) d then f + 1 else if Z.even f then f else f + 1.
Definition round4 (x : R) : R := (IZR (nearest (x * 10000)) / 10000)%R.

(** What the processes use of a model: interaction_dataset, n_items and the
    methods rank, recommend and predict (with the item ids of their results). *)
Record model := mkModel {
  md_ds : mem;
  md_items : nat;
  md_rank : value -> list value -> bool -> res (list value);
  md_recommend : value -> Z -> bool -> option Qc -> res (list value);
  md_predict : value -> value -> bool -> res (option Qc) }.

(** The item ids of a ranking: [[item for _, item in ...]]. *)
Definition named (l : list (Qc * option value)) : res (list value) :=
  mapM (fun p => match snd p with Some v => Ok v | None => Err TypeError end) l.
(** The calls made on a fitted recommender with training data [m]
    (ranking_evaluation.py:222, recommendation_evaluation.py:164-165,
    predictive_evaluation.py:51). *)
Definition recommender (impl : rank_impl) (f : option Z -> option Z -> res (option Qc)) (m : mem) (n_items : nat) : model :=
  mkModel m n_items
    (fun u items novelty => l <- rank impl true m u items novelty true None ;; named l)
    (fun u n novelty thr => l <- recommend impl true m n_items u (Some n) novelty thr ;; named l)
    (fun u i skip => predict f true m u i skip).

(** ** predictive_evaluation.py *)

(** regression metrics with their name (Metrics/metric_abc.py:14: the class name) *)
Record pmetric := mkPM { pm_name : string; pm_call : list R -> list R -> res R }.

Record pe_args := mkPe {
  p_count_none : bool; p_n : option Z; p_skip : bool; p_metrics : list pmetric }.

(** [ds_test.values(['user', 'item', 'interaction'], to_list=True)] (lines 41, 44) *)
Definition triples (m : mem) : res (list (value * value * Qc)) :=
  vs <- values m (Some ["user"; "item"; "interaction"]) ;;
  mapM (fun v => match v with
                 | [u; i; x] => match num_of x with Some q => Ok (u, i, q) | None => Err TypeError end
                 | _ => Err TypeError
                 end) vs.

(** predictive_evaluation.py:46-60: the lists y_pred, y_true as pairs; [made] is
    num_predictions_made *)
Fixpoint pe_loop (predict : value -> value -> res (option Qc)) (count_none : bool) (n made : Z)
  (rows : list (value * value * Qc)) : res (list (Qc * Qc)) :=
  match rows with
  | [] => Ok []
  | (u, i, x) :: rows' =>
      if n <=? made then Ok [] else
      p <- predict u i ;;
      match p with
      | None =>
          if count_none then l <- pe_loop predict count_none n (made + 1) rows' ;; Ok ((0%Qc, x) :: l)
          else pe_loop predict count_none n made rows'
      | Some q => l <- pe_loop predict count_none n (made + 1) rows' ;; Ok ((q, x) :: l)
      end
  end.

(** predictive_evaluation.py:26-65.  [mt]: ds_test, or the training data if it is
    None (line 26). *)
Definition predictive_evaluation (md : model) (mt : mem) (a : pe_args) : res (list (string * R)) :=
  let len := Z.of_nat (mem_len mt) in
  let n := match p_n a with Some n => n | None => len end in
  if negb (0 <? n) then Err AssertionError else
  let n := Z.min n len in
  rows <- triples mt ;;
  l <- pe_loop (fun u i => md_predict md u i (p_skip a)) (p_count_none a) n 0 rows ;;
  let y_true := map (fun p => R_of (snd p)) l in
  let y_pred := map (fun p => R_of (fst p)) l in
  vs <- mapM (fun m => x <- pm_call m y_true y_pred ;; Ok (pm_name m, round4 x)) (p_metrics a) ;;
  Ok (fold_left (fun d p => assoc_set String.eqb (fst p) (snd p) d) vs []).

(** ** Ranking metrics as the processes call them *)

(** The arguments prepared for one user: recommendations, relevant_recommendations,
    relevant_recommendation, relevancies (ranking_evaluation.py:229-242). *)
Record case := mkCase {
  c_recs : list value; c_rel : list value; c_best : option value; c_rels : list (value * Q) }.
Record metric := mkMetric { mc_name : string; mc_call : case -> Z -> res R }.

(** the name and the value of a metric of Metrics/ranking.py *)
Definition in_R (x : res Q) : res R := q <- x ;; Ok (Q2R q).
Definition Precision := mkMetric "Precision" (fun c k => in_R (precision (c_recs c) (Some k) (Some (c_rel c)))).
Definition Recall := mkMetric "Recall" (fun c k => in_R (recall (c_recs c) (Some k) (Some (c_rel c)))).
Definition HitRatio := mkMetric "HitRatio" (fun c k => in_R (hit_ratio (c_recs c) (Some k) (Some (c_rel c)))).
Definition ReciprocalRank := mkMetric "ReciprocalRank" (fun c k => in_R (reciprocal_rank (c_recs c) (Some k) (c_best c))).
Definition FScore (beta : Q) := mkMetric "FScore" (fun c k => in_R (f_score beta (c_recs c) (Some k) (Some (c_rel c)))).
Definition AveragePrecision := mkMetric "AveragePrecision" (fun c k => in_R (average_precision (c_recs c) (Some k) (Some (c_rel c)))).
Definition DCG (strong : bool) := mkMetric "DCG" (fun c k => dcg strong (c_recs c) (Some k) (Some (c_rels c))).
Definition NDCG (strong : bool) := mkMetric "NDCG" (fun c k => ndcg strong (c_recs c) (Some k) (Some (c_rels c))).

(** metric_sums: (name, k) -> [sum, count] (ranking_evaluation.py:92) *)
Definition mkey : Type := string * Z.
Definition key_eqb (x y : mkey) : bool := String.eqb (fst x) (fst y) && (snd x =? snd y).
Definition sums : Type := list (mkey * (R * Z)).
Definition grid (ms : list metric) (ks : list Z) : list (metric * Z) :=
  flat_map (fun m => map (fun k => (m, k)) ks) ms.
Definition init_sums (ms : list metric) (ks : list Z) : sums :=
  map (fun x => (x, (0%R, 0))) (dedup key_eqb (map (fun p => (mc_name (fst p), snd p)) (grid ms ks))).

(** ranking_evaluation.py:243-246: a failing metric adds nothing *)
Definition add1 (c : case) (s : sums) (p : metric * Z) : sums :=
  match mc_call (fst p) c (snd p) with
  | Ok v => map (fun e => if key_eqb (fst e) (mc_name (fst p), snd p)
                          then (fst e, ((fst (snd e) + v)%R, snd (snd e) + 1)) else e) s
  | Err _ => s
  end.
(** ranking_evaluation.py:228-246, recommendation_evaluation.py:171-189 *)
Definition add_case (ms : list metric) (ks : list Z) (c : case) (s : sums) : sums :=
  fold_left (add1 c) (grid ms ks) s.

(** ranking_evaluation.py:132-133, recommendation_evaluation.py:119-120; the key is
    the text name@k in Python *)
Definition results (s : sums) : list (mkey * R) :=
  map (fun e => (fst e, if 0 <? snd (snd e) then round4 (fst (snd e) / IZR (snd (snd e))) else 0%R)) s.

(** ** The shared variables: 0 = metric_sums (metric_lock), 1 = n_tasks_done
    (n_tasks_lock) *)
Inductive evar := ESums (s : sums) | ENum (z : Z).
Definition on_sums (f : sums -> sums) (v : evar) : evar := match v with ESums s => ESums (f s) | _ => v end.
Definition bump (v : evar) : evar := match v with ENum z => ENum (z + 1) | _ => v end.
Definition einit (ms : list metric) (ks : list Z) : nat -> evar :=
  fun l => match l with 0%nat => ESums (init_sums ms ks) | _ => ENum 0 end.
Definition case_block (ms : list metric) (ks : list Z) (c : case) : section evar := mkSec 0%nat (Some (on_sums (add_case ms ks c))).
Definition done_block : section evar := mkSec 1%nat (Some bump).
(** ranking_evaluation.py:123-128: the loop ends when n_tasks_done = n_tasks, or
    is greater *)
Definition all_done (n : nat) (s : nat -> evar) : bool :=
  match s 1%nat with ENum z => Z.of_nat n <=? z | _ => false end.

(** A call after [t] steps of a schedule *)
Inductive eoutcome := ERaised (e : exn) | ERunning | EDone (r : list (mkey * R)).
Definition run_eval (threads : nat) (verbose : bool) (ms : list metric) (ks : list Z)
  (tasks : res (list (list (section evar)))) (sched : nat -> option nat) (t : nat) : eoutcome :=
  match tasks with
  | Err e => ERaised e
  | Ok ts =>
      let x := wrun (all_done (length ts)) sched t
                 (mkWorld (start threads (einit ms ks) ts) (if verbose then Polling else Joining)) in
      match w_main x with
      | Returned => match shared (w_pool x) 0%nat with ESums s => EDone (results s) | _ => ERunning end
      | _ => ERunning
      end
  end.

(** ** What both processes do for a user *)

(** The generator random.Random(seed) of one user, by what its calls return:
    positions chosen by sample(l, n) from a list of a given length (lines 176, 190),
    the stream behind randint (211), the order given by shuffle (219).  Every
    behaviour of the generator is covered. *)
Record rng := mkRng {
  rg_pos : nat -> nat -> list nat;
  rg_neg : nat -> nat -> list nat;
  rg_draw : nat -> nat;
  rg_shuffle : nat -> list nat }.
(** the elements at the given positions *)
Definition at_positions {A} (l : list A) (ps : list nat) : list A :=
  flat_map (fun p => match nth_error l p with Some x => [x] | None => [] end) ps.

(** [ds.values_list(['item', 'interaction'])] *)
Definition item_pairs (m : mem) : res (list (value * Qc)) :=
  vs <- values m (Some ["item"; "interaction"]) ;;
  mapM (fun v => match v with
                 | [i; x] => match num_of x with Some q => Ok (i, q) | None => Err TypeError end
                 | _ => Err TypeError
                 end) vs.
(** [ds.values_list(['item'], to_list=True)] *)
Definition item_list (m : mem) : res (list value) :=
  vs <- values m (Some ["item"]) ;;
  mapM (fun v => match v with [i] => Ok i | _ => Err TypeError end) vs.

(** [max(l, key=lambda p: -p['interaction'])['item']] (178-179): the first pair
    with the largest key *)
Fixpoint max_by {A} (key : A -> Qc) (best : A) (l : list A) : A :=
  match l with
  | [] => best
  | x :: l' => max_by key (if Qcltb (key best) (key x) then x else best) l'
  end.
Definition best_item (l : list (value * Qc)) : option value :=
  match l with
  | [] => None
  | p :: l' => Some (fst (max_by (fun q => (- snd q)%Qc) p l'))
  end.

(** [user_ds.select_one(f'item == {item}', ['interaction'], to_list=True) or 0] *)
Definition relevancy (mu : mem) (item : value) : res Q :=
  o <- select_one mu ("item == " ++ str_of_value item) (Some ["interaction"]) ;;
  match o with
  | None => Ok 0%Q
  | Some [x] => match num_of x with Some q => Ok (this q) | None => Err ValueError end
  | Some _ => Err TypeError
  end.
(** a dict over the items: equal items (as Python compares them) are one key *)
Definition relevancies (mu : mem) (items : list value) : res (list (value * Q)) :=
  mapM (fun i => q <- relevancy mu i ;; Ok (i, q)) (dedup val_eqb items).

(** lines 167-180 of ranking_evaluation.py, 141-156 of recommendation_evaluation.py:
    the user's rows, and the positives (None: too few, the user is skipped) *)
Definition select_user (mt : mem) (u : value) : res mem := select mt ("user == " ++ str_of_value u).
Definition positives (mu : mem) (thr : string) (npos : option Z) (g : rng) : res (option (list (value * Qc))) :=
  mp <- select mu ("interaction >= " ++ thr) ;;
  ps <- item_pairs mp ;;
  match npos with
  | None => Ok (Some ps)
  | Some n =>
      if Z.of_nat (mem_len mp) <? n then Ok None
      else Ok (Some (at_positions ps (rg_pos g (length ps) (Z.to_nat n))))
  end.

(** ** ranking_evaluation.py *)
Section Ranking.
Variable fmul : Z -> Qc -> Qc.   (* the float product of an int and a float *)

(** n_neg_interactions: an int or a float *)
Inductive narg := NInt (z : Z) | NRatio (q : Qc).

Record re_args := mkRe {
  e_users : option Z;        (* n_test_users *)
  e_k : list Z;
  e_npos : option Z;
  e_nneg : option narg;
  e_gen : bool;              (* generate_negative_pairs *)
  e_thr : string;            (* text of interaction_threshold *)
  e_novelty : bool;
  e_seed : Z;
  e_threads : nat;
  e_verbose : bool;
  e_metrics : list metric }.

(** ranking_evaluation.py:187-188; int() of a positive float is its floor *)
Definition neg_count (n : narg) (n_pos : nat) : Z :=
  match n with NInt z => z | NRatio q => Qfloor (this (fmul (Z.of_nat n_pos) q)) end.

(** ranking_evaluation.py:193-202: the user's positive items in training and test data *)
Definition blacklist (md : model) (train_ev : bool) (mp : mem) (u : value) (thr : string) : res (list value) :=
  if train_ev then distinct_values mp "item"
  else
    mtr <- select (md_ds md) ("user == " ++ str_of_value u ++ ", interaction >= " ++ thr) ;;
    a <- distinct_values mtr "item" ;;
    b <- distinct_values mp "item" ;;
    Ok (dedup val_eqb (a ++ b)).

(** ranking_evaluation.py:210-213; [None]: still looping after [fuel] rounds *)
Fixpoint gen_negs (fuel : nat) (n_items : nat) (black : list value) (need : Z) (s : nat -> nat) (k : nat)
  (have : list value) : option (res (list value)) :=
  if need <=? Z.of_nat (length have) then Some (Ok have) else
  match fuel with
  | O => None
  | S fuel' =>
      match randint s k 0 (Z.of_nat n_items - 1) with
      | Err e => Some (Err e)
      | Ok x =>
          if mem_b val_eqb (VInt x) black || mem_b val_eqb (VInt x) have
          then gen_negs fuel' n_items black need s (S k) have
          else gen_negs fuel' n_items black need s (S k) (have ++ [VInt x])
      end
  end.

(** ranking_evaluation.py:183-213: the negatives (None inside: skip the user) *)
Definition negatives (fuel : nat) (md : model) (train_ev : bool) (a : re_args) (mu mp : mem) (u : value) (n_pos : nat)
  (g : rng) : option (res (option (list value))) :=
  match (mn <- select mu ("interaction < " ++ e_thr a) ;; item_list mn) with
  | Err e => Some (Err e)
  | Ok ns =>
      match e_nneg a with
      | None => Some (Ok (Some ns))
      | Some nn =>
          let n := neg_count nn n_pos in
          let have := at_positions ns (rg_neg g (length ns) (Z.to_nat (Z.min n (Z.of_nat (length ns))))) in
          if (Z.of_nat (length have) <? n) && e_gen a then
            match blacklist md train_ev mp u (e_thr a) with
            | Err e => Some (Err e)
            | Ok black =>
                if Z.of_nat (md_items md) - Z.of_nat (length black) <? n then Some (Ok None)
                else match gen_negs fuel (md_items md) black n (rg_draw g) 0 have with
                     | None => None
                     | Some (Err e) => Some (Err e)
                     | Some (Ok l) => Some (Ok (Some l))
                     end
            end
          else Some (Ok (Some have))
      end
  end.

(** ranking_evaluation.py:167-224.  [Ok None]: skipped; [None]: still generating
    negatives. *)
Definition rank_user (fuel : nat) (md : model) (train_ev : bool) (mt : mem) (a : re_args) (u : value) (g : rng)
  : option (res (option case)) :=
  match (mu <- select_user mt u ;;
         mp <- select mu ("interaction >= " ++ e_thr a) ;;
         ps <- positives mu (e_thr a) (e_npos a) g ;; Ok (mu, mp, ps)) with
  | Err e => Some (Err e)
  | Ok (_, _, None) => Some (Ok None)
  | Ok (mu, mp, Some ps) =>
      match negatives fuel md train_ev a mu mp u (length ps) g with
      | None => None
      | Some (Err e) => Some (Err e)
      | Some (Ok None) => Some (Ok None)
      | Some (Ok (Some ns)) =>
          let items := map fst ps ++ ns in
          match items with
          | [] => Some (Ok None)
          | _ =>
              let all := at_positions items (rg_shuffle g (length items)) in
              Some (recs <- md_rank md u all (e_novelty a) ;;
                    rels <- relevancies mu all ;;
                    Ok (Some (mkCase recs (map fst ps) (best_item ps) rels)))
          end
      end
  end%list.

(** ranking_evaluation.py:149-160: whatever happens, the task is counted *)
Definition rank_task (ms : list metric) (ks : list Z) (x : res (option case)) : list (section evar) :=
  match x with
  | Ok (Some c) => [case_block ms ks c; done_block]
  | _ => [done_block]
  end.

(** ranking_evaluation.py:63-116: checks, and the users with their generators.
    [rngs seed] is random.Random(seed). *)
Definition test_users (mt : mem) (n : option Z) : res (list value) :=
  us <- distinct_values mt "user" ;;
  Ok (match n with None => us | Some n => firstn (Z.to_nat n) us end).
Definition positive_opt (n : option Z) : bool := match n with None => true | Some n => 0 <? n end.
Definition re_check (a : re_args) : res unit :=
  if negb (positive_opt (e_users a)) then Err AssertionError else
  if negb (positive_opt (e_npos a)) then Err AssertionError else
  if negb (match e_nneg a with None => true | Some (NInt z) => 0 <? z | Some (NRatio q) => Qcltb 0 q end) then Err AssertionError else
  if e_gen a && (match e_nneg a with None => true | _ => false end) then Err GenericException else
  if negb (forallb (fun k => 0 <? k) (e_k a)) then Err AssertionError else
  if Nat.eqb (e_threads a) 0 then Err ValueError else Ok tt.

Fixpoint all_some {A} (l : list (option A)) : option (list A) :=
  match l with
  | [] => Some []
  | None :: _ => None
  | Some x :: l' => match all_some l' with Some xs => Some (x :: xs) | None => None end
  end.
Definition seeded_users (seed : Z) (us : list value) : list (Z * value) :=
  combine (map (fun i => seed + Z.of_nat i) (seq 0 (length us))) us.
(** what the tasks of the users compute; [None]: some task is still generating *)
Definition rank_cases (fuel : nat) (md : model) (train_ev : bool) (mt : mem) (a : re_args) (rngs : Z -> rng)
  (us : list value) : option (list (res (option case))) :=
  all_some (map (fun p => rank_user fuel md train_ev mt a (snd p) (rngs (fst p))) (seeded_users (e_seed a) us)).

Definition ranking_evaluation (fuel : nat) (md : model) (train_ev : bool) (mt : mem) (a : re_args) (rngs : Z -> rng)
  (sched : nat -> option nat) (t : nat) : eoutcome :=
  match (_ <- re_check a ;; test_users mt (e_users a)) with
  | Err e => ERaised e
  | Ok us =>
      match rank_cases fuel md train_ev mt a rngs us with
      | None => ERunning
      | Some cs => run_eval (e_threads a) (e_verbose a) (e_metrics a) (e_k a)
                     (Ok (map (rank_task (e_metrics a) (e_k a)) cs)) sched t
      end
  end.
End Ranking.

(** ** recommendation_evaluation.py *)
Record rc_args := mkRc {
  r_users : option Z; r_k : list Z; r_npos : option Z; r_thr : string; r_novelty : bool;
  r_low : option Qc;         (* ignore_low_predictions_threshold *)
  r_seed : Z; r_threads : nat; r_verbose : bool; r_metrics : list metric }.

(** [max(k)]: ValueError for an empty list *)
Definition max_list (l : list Z) : res Z :=
  match l with [] => Err ValueError | k :: l' => Ok (fold_left Z.max l' k) end.

(** recommendation_evaluation.py:141-167.  The dict of line 166 is filled from a
    set, in some order. *)
Definition rec_user (md : model) (mt : mem) (a : rc_args) (u : value) (g : rng) : res (option case) :=
  mu <- select_user mt u ;;
  ps <- positives mu (r_thr a) (r_npos a) g ;;
  match ps with
  | None | Some [] => Ok None
  | Some ps =>
      n <- max_list (r_k a) ;;
      recs <- md_recommend md u n (r_novelty a) (r_low a) ;;
      rels <- relevancies mu (map fst ps ++ recs)%list ;;
      Ok (Some (mkCase recs (map fst ps) (best_item ps) rels))
  end.

(** recommendation_evaluation.py:136-192: an exception ends the task before it is
    counted *)
Definition rec_task (ms : list metric) (ks : list Z) (x : res (option case)) : list (section evar) :=
  match x with
  | Ok (Some c) => [case_block ms ks c; done_block]
  | Ok None => [done_block]
  | Err _ => []
  end.

(** recommendation_evaluation.py:58-103 *)
Definition rc_check (a : rc_args) : res unit :=
  if negb (positive_opt (r_users a)) then Err AssertionError else
  if negb (positive_opt (r_npos a)) then Err AssertionError else
  if negb (forallb (fun k => 0 <? k) (r_k a)) then Err AssertionError else
  if Nat.eqb (r_threads a) 0 then Err ValueError else Ok tt.
Definition rec_cases (md : model) (mt : mem) (a : rc_args) (rngs : Z -> rng) (us : list value) : list (res (option case)) :=
  map (fun p => rec_user md mt a (snd p) (rngs (fst p))) (seeded_users (r_seed a) us).

Definition recommendation_evaluation (md : model) (mt : mem) (a : rc_args) (rngs : Z -> rng)
  (sched : nat -> option nat) (t : nat) : eoutcome :=
  match (_ <- rc_check a ;; test_users mt (r_users a)) with
  | Err e => ERaised e
  | Ok us => run_eval (r_threads a) (r_verbose a) (r_metrics a) (r_k a)
               (Ok (map (rec_task (r_metrics a) (r_k a)) (rec_cases md mt a rngs us))) sched t
  end.
