(** Model of prediction, ranking and recommendation:
    DRecPy/Recommender/recommender_abc.py:354-461 and the overrides of _predict
    and _rank in DRecPy/Recommender/cdae.py:84-103 and caser.py:125-146.
    Definitions only.

    Scores are exact rationals (finite floats; nan is left out).  What a model
    computes for a pair is an external function that may raise or return None.
    Python sets are lists without duplicates; the order in which a set is
    iterated only matters for which of several exceptions is raised. *)
From Coq Require Import String Ascii.
From Coq Require Import List ZArith QArith Qcanon Bool.
From Verif Require Import Py MemModel.
Import ListNotations.
Open Scope string_scope.
Open Scope Z_scope.

(** recommender_abc.py:354-384, predict.  [fitted] is self.fitted, [f] is
    _predict on internal ids (None for an unknown id). *)
Definition predict {A} (f : option Z -> option Z -> res (option A)) (fitted : bool) (m : mem)
  (user item : value) (skip_errors : bool) : res (option A) :=
  if negb fitted then Err AssertionError else
  _ <- (if skip_errors then Ok tt else
        u <- user_to_uid m user ;; match u with Some _ => Ok tt | None => Err AssertionError end) ;;
  _ <- (if skip_errors then Ok tt else
        i <- item_to_iid m item ;; match i with Some _ => Ok tt | None => Err AssertionError end) ;;
  match (uid <- user_to_uid m user ;;
         iid <- item_to_iid m item ;;
         p <- f uid iid ;;
         match p with None => Err GenericException | Some x => Ok x end) with
  | Ok x => Ok (Some x)
  | Err e => if skip_errors then Ok None else Err e
  end.

(** (score, iid) tuples and Python's >= on them *)
Definition scored : Type := Qc * Z.
Definition scored_geb (x y : scored) : bool :=
  if Qcltb (fst y) (fst x) then true
  else if Qcltb (fst x) (fst y) then false else snd y <=? snd x.
(** [heapq.nlargest(n, l)]; nothing for n <= 0 *)
Definition top (n : Z) (l : list scored) : list scored := nlargest scored_geb (Z.to_nat n) l.

(** [select(f'uid == {uid}').values_list('iid', to_list=True)]
    (recommender_abc.py:457) *)
Definition rated_iids (m : mem) (uid : Z) : res (list value) :=
  mu <- select m ("uid == " ++ str_of_Z uid) ;;
  vs <- values mu (Some ["iid"]) ;;
  Ok (concat vs).
(** [set(iids).difference(set(rated))]; in a set 1 and 1.0 are the same *)
Definition set_minus (iids : list Z) (rated : list value) : list Z :=
  filter (fun i => negb (mem_b val_eqb (VInt i) rated)) (dedup Z.eqb iids).

(** What a recommender has as _rank: uid, iids, n, novelty *)
Definition rank_impl : Type := Z -> list Z -> Z -> bool -> res (list scored).

(** recommender_abc.py:460, the (prediction, iid) pairs that are not None *)
Definition pred_list (f : option Z -> option Z -> res (option Qc)) (uid : Z) (iids : list Z) : res (list scored) :=
  ps <- mapM (fun i => p <- f (Some uid) (Some i) ;; Ok (p, i)) iids ;;
  Ok (flat_map (fun p => match fst p with Some s => [(s, snd p)] | None => [] end) ps).

(** recommender_abc.py:454-461 *)
Definition rank_abc (f : option Z -> option Z -> res (option Qc)) (m : mem) : rank_impl :=
  fun uid iids n novelty =>
  iids <- (if novelty then rated <- rated_iids m uid ;; Ok (set_minus iids rated) else Ok iids) ;;
  ps <- pred_list f uid iids ;;
  Ok (top n ps).

(** recommender_abc.py:439-445: internal ids of the known items *)
Fixpoint known_iids (m : mem) (skip_invalid : bool) (items : list value) : res (list Z) :=
  match items with
  | [] => Ok []
  | v :: items' =>
      i <- item_to_iid m v ;;
      match i with
      | Some i => is <- known_iids m skip_invalid items' ;; Ok (i :: is)
      | None => if skip_invalid then known_iids m skip_invalid items' else Err GenericException
      end
  end.

(** recommender_abc.py:411, 452: raw ids in the result *)
Definition with_items (m : mem) (l : list scored) : res (list (Qc * option value)) :=
  mapM (fun p => w <- iid_to_item m (snd p) ;; Ok (fst p, w)) l.

(** recommender_abc.py:421-452, rank; [n] is the keyword argument, if given *)
Definition rank (impl : rank_impl) (fitted : bool) (m : mem) (user : value) (items : list value)
  (novelty skip_invalid : bool) (n : option Z) : res (list (Qc * option value)) :=
  if negb fitted then Err AssertionError else
  u <- user_to_uid m user ;;
  match u with
  | None => Err AssertionError
  | Some uid =>
      iids <- known_iids m skip_invalid items ;;
      let n := match n with Some n => n | None => Z.of_nat (length iids) end in
      if negb (n <=? Z.of_nat (length iids)) then Err AssertionError else
      l <- impl uid iids n novelty ;;
      with_items m l
  end.

(** recommender_abc.py:413-419, _recommend; [n_items] is self.n_items *)
Definition recommend_int (impl : rank_impl) (n_items : nat) (uid n : Z) (novelty : bool) (threshold : option Qc)
  : res (list scored) :=
  l <- impl uid (Zseq n_items) n novelty ;;
  Ok (match threshold with None => l | Some t => filter (fun x => negb (Qcltb (fst x) t)) l end).

(** recommender_abc.py:391-411, recommend *)
Definition recommend (impl : rank_impl) (fitted : bool) (m : mem) (n_items : nat) (user : value)
  (n : option Z) (novelty : bool) (threshold : option Qc) : res (list (Qc * option value)) :=
  if negb fitted then Err AssertionError else
  u <- user_to_uid m user ;;
  match u with
  | None => Err AssertionError
  | Some uid =>
      let n := match n with Some n => n | None => Z.of_nat n_items end in
      l <- recommend_int impl n_items uid n novelty threshold ;;
      with_items m l
  end.

(** ** CDAE.  [vec uid] is the reconstructed vector of the user, one score per
    internal item id (cdae.py:64-68). *)

(** cdae.py:84-88; the result is one score or, without an item, the whole vector *)
Definition predict_cdae (vec : Z -> res (list Qc)) (uid iid : option Z) : res (option (Qc + list Qc)) :=
  match uid with
  | None => Ok None
  | Some u =>
      v <- vec u ;;
      match iid with
      | None => Ok (Some (inr v))
      | Some i => match nth_error v (Z.to_nat i) with
                  | Some s => Ok (Some (inl s))
                  | None => Err IndexError
                  end
      end
  end.

(** cdae.py:93-100 *)
Definition cdae_candidates (m : mem) (uid : Z) (iids : list Z) (novelty : bool) : res (list Z) :=
  if novelty then
    mu <- select m ("uid == " ++ str_of_Z uid) ;;
    if (mem_len mu <? length iids)%nat then
      vs <- values mu (Some ["iid"]) ;; Ok (set_minus iids (concat vs))
    else
      bs <- mapM (fun i => b <- exists_q mu ("iid == " ++ str_of_Z i) ;; Ok (i, b)) iids ;;
      Ok (dedup Z.eqb (map fst (filter (fun p => negb (snd p)) bs)))
  else Ok (dedup Z.eqb iids).

(** [zip(predictions, range(n_items))] restricted to a set of items
    (cdae.py:102) *)
Definition picked (v : list Qc) (n_items : nat) (cands : list Z) : list scored :=
  filter (fun p => mem_b Z.eqb (snd p) cands) (combine v (Zseq n_items)).

(** cdae.py:90-103 *)
Definition rank_cdae (vec : Z -> res (list Qc)) (m : mem) (n_items : nat) : rank_impl :=
  fun uid iids n novelty =>
  v <- vec uid ;;
  cands <- cdae_candidates m uid iids novelty ;;
  Ok (top n (picked v n_items cands)).

(** ** Caser.  [vec uid] stands for caser.py:131-138: one score per internal item
    id, computed from the last records of the user. *)

(** caser.py:128-146; without novelty the requested items are not looked at *)
Definition rank_caser (vec : Z -> res (list Qc)) (m : mem) (n_items : nat) : rank_impl :=
  fun uid iids n novelty =>
  rated <- rated_iids m uid ;;
  v <- vec uid ;;
  if novelty then
    let novel := filter (fun i => negb (mem_b val_eqb (VInt i) rated)) iids in
    Ok (top n (picked v n_items novel))
  else Ok (top n (combine v (Zseq n_items))).
