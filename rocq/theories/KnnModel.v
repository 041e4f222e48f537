(** Model of the neighbourhood recommenders: DRecPy/Recommender/Baseline/base_knn.py,
    user_knn.py, item_knn.py and aggregation.py.  Definitions only.

    Interactions and similarities are exact rationals (a finite float is one);
    rounding in sums, products and quotients is left out, and so is nan.  The
    similarity function is an external function from the entries of the matrix
    to the entries of the similarity matrix (see SimModel.v for the functions
    of similarity.py). *)
From Coq Require Import String Ascii.
From Coq Require Import List ZArith QArith Qcanon Qround Bool.
From Verif Require Import Py MemModel RankModel.
Import ListNotations.
Open Scope string_scope.
Open Scope Z_scope.

(** base_knn.py:40-70: the parameters; [kn_user] distinguishes UserKNN
    (self.type == 'user') from ItemKNN *)
Record knn := mkKnn {
  kn_user : bool;
  kn_k : Z;
  kn_m : Z;
  kn_weighted : bool;
  kn_shrink : option Qc;
  kn_avg : bool }.

(** The numbers in a record.  Ids may have become floats, see [upcast]. *)
Definition num_value (v : value) : res Qc :=
  match num_of v with Some q => Ok q | None => Err TypeError end.
Definition int_value (v : value) : res Z :=
  match num_of v with Some q => Ok (Qfloor (this q)) | None => Err TypeError end.

(** user_knn.py:24-29, item_knn.py:24-29: one (uid, iid, interaction) per record *)
Definition entry_of (v : list value) : res (Z * Z * Qc) :=
  match v with
  | [u; i; x] => u <- int_value u ;; i <- int_value i ;; x <- num_value x ;; Ok (u, i, x)
  | _ => Err KeyError
  end.
Definition knn_entries (m : mem) : res (list (Z * Z * Qc)) :=
  vs <- values m (Some ["uid"; "iid"; "interaction"]) ;;
  mapM entry_of vs.
(** item_knn.py:37: rows of the matrix are items *)
Definition flip (e : Z * Z * Qc) : Z * Z * Qc := let '(u, i, x) := e in (i, u, x).
Definition oriented (c : knn) (es : list (Z * Z * Qc)) : list (Z * Z * Qc) :=
  if kn_user c then es else map flip es.

(** user_rated_items[a], item_rated_users[a] (user_knn.py:31-34) *)
Definition rated_set (es : list (Z * Z * Qc)) (a : Z) : list Z :=
  dedup Z.eqb (map (fun e => snd (fst e)) (filter (fun e => fst (fst e) =? a) es)).
Definition has_row (es : list (Z * Z * Qc)) (a : Z) : bool := existsb (fun e => fst (fst e) =? a) es.
Definition co_ratings (es : list (Z * Z * Qc)) (a b : Z) : nat :=
  length (filter (fun i => mem_b Z.eqb i (rated_set es b)) (rated_set es a)).

(** 1e-6 *)
Definition tiny : Qc := Q2Qc (1 # 1000000).
(** user_knn.py:50-51, item_knn.py:50-51 *)
Definition shrink (h : option Qc) (co : nat) (s : Qc) : res Qc :=
  match h with
  | None => Ok s
  | Some h =>
      let n := Qc_of_Z (Z.of_nat co) in
      let d := (n + h + tiny)%Qc in
      if Qc_eq_bool d 0 then Err ZeroDivisionError else Ok (s * (n / d))%Qc
  end.

(** self._similarities: a dict of dicts *)
Definition sims : Type := list (Z * list (Z * Qc)).
(** user_knn.py:39-51, item_knn.py:39-51: one entry of the similarity matrix *)
Definition add_sim (c : knn) (es : list (Z * Z * Qc)) (t : sims) (e : Z * Z * Qc) : res sims :=
  let '(a, b, s) := e in
  if a <=? b then Ok t else
  if negb (has_row es a && has_row es b) then Err KeyError else
  let co := co_ratings es a b in
  if (0 <? kn_m c) && (Z.of_nat co <? kn_m c) then Ok t else
  s' <- shrink (kn_shrink c) co s ;;
  let old := match assoc Z.eqb a t with Some r => r | None => [] end in
  Ok (assoc_set Z.eqb a (assoc_set Z.eqb b s' old) t).
Fixpoint add_sims (c : knn) (es : list (Z * Z * Qc)) (t : sims) (coo : list (Z * Z * Qc)) : res sims :=
  match coo with
  | [] => Ok t
  | e :: coo' => t' <- add_sim c es t e ;; add_sims c es t' coo'
  end.

(** base_knn.py:125-131, _get_sim *)
Definition get_sim (t : sims) (a b : Z) : Qc :=
  match assoc Z.eqb (Z.max a b) t with
  | None => 0%Qc
  | Some r => match assoc Z.eqb (Z.min a b) r with Some s => s | None => 0%Qc end
  end.

(** user_knn.py:55-58, item_knn.py:55-58: the neighbours of one entity;
    [n] is self.n_users or self.n_items *)
Definition neighbours_of (c : knn) (t : sims) (n : nat) (a : Z) : list scored :=
  top (kn_k c) (filter (fun p => Qcltb 0 (fst p))
    (map (fun b => (get_sim t a b, b)) (filter (fun b => negb (b =? a)) (Zseq n)))).
(** self._neighbours: a dict *)
Definition nbs : Type := list (Z * list scored).

(** base_knn.py:75-80, _pre_fit; the distinct ids come from
    unique('uid').values('uid', to_list=True).  Neither dict is emptied, so
    [st] is what an earlier fit left ([] and [] in a new model, base_knn.py:72-73). *)
Definition knn_fit (c : knn) (simf : list (Z * Z * Qc) -> res (list (Z * Z * Qc))) (m : mem) (st : sims * nbs)
  : res (sims * nbs) :=
  es <- knn_entries m ;;
  let es := oriented c es in
  coo <- simf es ;;
  t <- add_sims c es (fst st) coo ;;
  let col := if kn_user c then "uid" else "iid" in
  n <- count_unique m (Some [col]) ;;
  mu <- unique m (Some [col]) ;;
  vs <- values mu (Some [col]) ;;
  ids <- mapM int_value (concat vs) ;;
  Ok (t, fold_left (fun d a => assoc_set Z.eqb a (neighbours_of c t n a) d) ids (snd st)).

(** ** aggregation.py *)
Definition Qcsum (l : list Qc) : Qc := fold_left Qcplus l 0%Qc.
(** aggregation.py:1-11 *)
Definition mean (l : list (Qc * Qc)) : option Qc :=
  match l with
  | [] => None
  | _ => Some (Qcsum (map fst l) / Qc_of_Z (Z.of_nat (length l)))%Qc
  end.
(** aggregation.py:14-25; pairs (interaction, similarity) *)
Definition weighted_mean (l : list (Qc * Qc)) : option Qc :=
  let w := Qcsum (map snd l) in
  if Qcltb 0 w then Some (Qcsum (map (fun p => (snd p * fst p)%Qc) l) / w)%Qc else None.
Definition aggregate (c : knn) (l : list (Qc * Qc)) : option Qc :=
  if kn_weighted c then weighted_mean l else mean l.

(** user_knn.py:60-62, item_knn.py:60-62: the record is a dict of which only
    'interaction' is read *)
Definition get_interaction (m : mem) (uid iid : Z) : res (option Qc) :=
  r <- select_one m ("uid == " ++ str_of_Z uid ++ ", iid == " ++ str_of_Z iid) (Some ["interaction"]) ;;
  match r with
  | None => Ok None
  | Some [v] => x <- num_value v ;; Ok (Some x)
  | Some _ => Err KeyError
  end.

(** user_knn.py:64-67 (column "iid"), item_knn.py:64-67 (column "uid") *)
Definition predict_default (m : mem) (col : string) (k : Z) : res Qc :=
  mi <- select m (col ++ " == " ++ str_of_Z k) ;;
  vs <- values mi (Some ["interaction"]) ;;
  xs <- mapM num_value (concat vs) ;;
  if (mem_len mi =? 0)%nat then Err ZeroDivisionError
  else Ok (Qcsum xs / Qc_of_Z (Z.of_nat (mem_len mi)))%Qc.

Definition neighbours (t : nbs) (a : Z) : res (list scored) :=
  match assoc Z.eqb a t with Some l => Ok l | None => Err KeyError end.

(** base_knn.py:97-102: (interaction, similarity) of the neighbours for which
    [get] finds an interaction *)
Definition gather (get : Z -> res (option Qc)) (l : list scored) : res (list (Qc * Qc)) :=
  xs <- mapM (fun p => x <- get (snd p) ;; Ok (x, fst p)) l ;;
  Ok (flat_map (fun p => match fst p with Some x => [(x, snd p)] | None => [] end) xs).

(** base_knn.py:104-107 *)
Definition conclude (c : knn) (default : res Qc) (l : list (Qc * Qc)) : res (option Qc) :=
  match l with
  | [] => if kn_avg c then d <- default ;; Ok (Some d) else Ok (aggregate c [])
  | _ => Ok (aggregate c l)
  end.

(** base_knn.py:94-107, _predict *)
Definition knn_predict (c : knn) (m : mem) (t : nbs) (uid iid : option Z) : res (option Qc) :=
  match uid, iid with
  | Some u, Some i =>
      l <- neighbours t (if kn_user c then u else i) ;;
      g <- gather (fun b => if kn_user c then get_interaction m b i else get_interaction m u b) l ;;
      conclude c (if kn_user c then predict_default m "iid" i else predict_default m "uid" u) g
  | _, _ => Ok None
  end.

(** user_knn.py:70-73, item_knn.py:70-73 *)
Definition knn_candidates (m : mem) (uid : Z) (iids : list Z) (novelty : bool) : res (list Z) :=
  if novelty then rated <- rated_iids m uid ;; Ok (set_minus iids rated) else Ok (dedup Z.eqb iids).

(** pairs (prediction, iid) without the None predictions *)
Definition present (l : list (option Qc * Z)) : list scored :=
  flat_map (fun p => match fst p with Some s => [(s, snd p)] | None => [] end) l.

(** item_knn.py:69-96, _rank.  [user_ds.select_one(f'iid == {neighbour}', 'interaction')]
    is only asked for a neighbour the user has interacted with. *)
Definition item_rank (c : knn) (m : mem) (t : nbs) : rank_impl :=
  fun uid iids n novelty =>
  cands <- knn_candidates m uid iids novelty ;;
  user_ds <- select m ("uid == " ++ str_of_Z uid) ;;
  seen <- rated_iids m uid ;;
  ps <- mapM (fun i =>
    l <- neighbours t i ;;
    g <- gather (fun b =>
           if negb (mem_b val_eqb (VInt b) seen) then Ok None else
           r <- select_one user_ds ("iid == " ++ str_of_Z b) (Some ["interaction"]) ;;
           match r with
           | None => Ok None
           | Some [v] => x <- num_value v ;; Ok (Some x)
           | Some _ => Err KeyError
           end) l ;;
    p <- conclude c (predict_default m "uid" uid) g ;;
    Ok (p, i)) cands ;;
  Ok (top n (present ps)).

(** user_knn.py:79-83: tmp_iid_info, a dict from items to the interactions and
    similarities of neighbours, filled in order *)
Definition add_info (cands : list Z) (s : Qc) (t : list (Z * list (Qc * Qc))) (e : Z * Qc) : list (Z * list (Qc * Qc)) :=
  let '(i, x) := e in
  if negb (mem_b Z.eqb i cands) then t else
  let old := match assoc Z.eqb i t with Some l => l | None => [] end in
  assoc_set Z.eqb i (old ++ [(x, s)])%list t.
Definition pair_of (v : list value) : res (Z * Qc) :=
  match v with [i; x] => i <- int_value i ;; x <- num_value x ;; Ok (i, x) | _ => Err KeyError end.
Fixpoint user_info (m : mem) (cands : list Z) (t : list (Z * list (Qc * Qc))) (l : list scored)
  : res (list (Z * list (Qc * Qc))) :=
  match l with
  | [] => Ok t
  | (s, b) :: l' =>
      mb <- select m ("uid == " ++ str_of_Z b) ;;
      vs <- values mb (Some ["iid"; "interaction"]) ;;
      rs <- mapM pair_of vs ;;
      user_info m cands (fold_left (add_info cands s) rs t) l'
  end.

(** user_knn.py:69-95, _rank *)
Definition user_rank (c : knn) (m : mem) (t : nbs) : rank_impl :=
  fun uid iids n novelty =>
  cands <- knn_candidates m uid iids novelty ;;
  l <- neighbours t uid ;;
  info <- user_info m cands [] l ;;
  ps <- mapM (fun p => r <- conclude c (predict_default m "iid" (fst p)) (snd p) ;; Ok (r, fst p)) info ;;
  Ok (top n (present ps)).

Definition knn_rank (c : knn) (m : mem) (t : nbs) : rank_impl :=
  if kn_user c then user_rank c m t else item_rank c m t.
