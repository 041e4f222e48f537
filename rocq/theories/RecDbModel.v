(** Model of the neighbourhood recommenders trained on a data set in a database:
    DRecPy/Recommender/recommender_abc.py:133-150, 354-461, 471-480 and
    Baseline/base_knn.py, user_knn.py, item_knn.py, with every access to
    self.interaction_dataset a call of DbModel.v.  The counterparts for data sets
    in memory are in FitModel.v, KnnModel.v and RankModel.v.  Definitions only.

    Every read of rows takes the next element of [ords], the orders in which
    SQLite returns rows.  A data set that is not referred to any more is closed
    (dataset_abc.py:331-332, __del__); after an exception it is
    left open here, until the traceback is gone in the code. *)
From Coq Require Import String Ascii.
From Coq Require Import List ZArith QArith Qcanon Bool.
From Verif Require Import Py MemModel RankModel KnnModel FitModel DbModel.
Import ListNotations.
Open Scope string_scope.
Open Scope Z_scope.

Section Run.
Variable inode : string -> nat.
Variable ords : nat -> list trow -> list trow.

(** ** Programs: the number of reads so far, and the shared state *)
Definition P (A : Type) : Type := nat * world -> (nat * world) * res A.
Definition pret {A} (r : res A) : P A := fun s => (s, r).
Definition pbind {A B} (p : P A) (f : A -> P B) : P B :=
  fun s => match p s with
           | (s', Ok a) => f a s'
           | (s', Err e) => (s', Err e)
           end.
(** a call that returns no rows *)
Definition db {A} (m : M A) : P A := fun s => let '(w, r) := m (snd s) in ((fst s, w), r).
(** a read *)
Definition dbo {A} (m : (list trow -> list trow) -> M A) : P A :=
  fun s => let '(w, r) := m (ords (fst s)) (snd s) in ((S (fst s), w), r).
Local Notation "x <! m ;; k" := (pbind m (fun x => k)) (at level 61, m at next level, right associativity).
Fixpoint pmap {A B} (f : A -> P B) (l : list A) : P (list B) :=
  match l with
  | [] => pret (Ok [])
  | a :: l' => b <! f a ;; bs <! pmap f l' ;; pret (Ok (b :: bs))
  end.

(** a NULL cannot be computed with *)
Definition filled (v : option value) : res value := match v with Some v => Ok v | None => Err TypeError end.
(** values_list(columns, to_list=True) *)
Definition db_values (i : nat) (columns : list string) : P (list (list value)) :=
  rows <! dbo (fun ord => values inode ord i (Some columns) false) ;;
  pret (mapM (mapM filled) rows).
(** a loop over values(columns, to_list=True): the generator is open until its
    last row (db_dataset.py:278-317) *)
Definition db_each (i : nat) (columns : list string) : P (list (list value)) :=
  rows <! dbo (fun ord => values inode ord i (Some columns) true) ;;
  _ <! db close_generator ;;
  pret (mapM (mapM filled) rows).
(** select_one(query, columns, to_list=True) *)
Definition db_one (i : nat) (q : string) (columns : list string) : P (option (list value)) :=
  r <! dbo (fun ord => select_one inode ord i q (Some columns)) ;;
  pret (match r with None => Ok None | Some l => v <- mapM filled l ;; Ok (Some v) end).
(** user_to_uid and item_to_iid; an id is a number *)
Definition db_id (m : M (option value)) : P (option Z) :=
  o <! db m ;;
  pret (match o with None => Ok None | Some v => z <- int_value v ;; Ok (Some z) end).

(** ** recommender_abc.py:133-150 *)

(** 139-146 *)
Definition db_statistics (i : nat) : P fit_info :=
  lo <! db (db_min inode i "interaction") ;;
  hi <! db (db_max inode i "interaction") ;;
  nu <! db (count_unique inode i (Some ["uid"])) ;;
  ni <! db (count_unique inode i (Some ["iid"])) ;;
  n <! db (ds_len i) ;;
  pret (Ok (mkInfo (lowered lo) hi nu ni n)).
(** 133-150; DatabaseInteractionDataset has no __copy__ either *)
Definition db_begin_fit (i : nat) (copy_dataset : bool) : P fit_info :=
  if copy_dataset then pret (Err AttributeError) else
  _ <! db (assign_ids inode i) ;;
  f <! db_statistics i ;;
  _ <! pret (log_initial_info f) ;;
  pret (Ok f).

(** ** Fitting *)

(** user_knn.py:24-34, item_knn.py:24-34: of the records only these columns are
    looked at, see [knn_entries] *)
Definition db_entries (i : nat) : P (list (Z * Z * Qc)) :=
  vs <! db_each i ["uid"; "iid"; "interaction"] ;;
  pret (mapM entry_of vs).
(** base_knn.py:75-80, see [knn_fit]; [f] has the counts stored by [db_begin_fit].
    The data set of the distinct ids lives as long as the generator
    (user_knn.py:53-54). *)
Definition db_knn_fit (c : knn) (simf : list (Z * Z * Qc) -> res (list (Z * Z * Qc))) (f : fit_info) (i : nat)
  (st : sims * nbs) : P (sims * nbs) :=
  es <! db_entries i ;;
  let es := oriented c es in
  coo <! pret (simf es) ;;
  t <! pret (add_sims c es (fst st) coo) ;;
  let col := if kn_user c then "uid" else "iid" in
  let n := if kn_user c then fi_users f else fi_items f in
  u <! db (unique inode i (Some [col]) true) ;;
  vs <! db_each (fst u) [col] ;;
  _ <! db (close inode (fst u)) ;;
  ids <! pret (mapM int_value (concat vs)) ;;
  pret (Ok (t, fold_left (fun d a => assoc_set Z.eqb a (neighbours_of c t n a) d) ids (snd st))).

(** ** Prediction *)

(** the record that was found, of which only 'interaction' is looked at *)
Definition found (r : option (list value)) : res (option Qc) :=
  match r with
  | None => Ok None
  | Some [v] => x <- num_value v ;; Ok (Some x)
  | Some _ => Err KeyError
  end.
(** user_knn.py:60-62, item_knn.py:60-62 *)
Definition db_get_interaction (i : nat) (uid iid : Z) : P (option Qc) :=
  r <! db_one i ("uid == " ++ str_of_Z uid ++ ", iid == " ++ str_of_Z iid) ["interaction"] ;;
  pret (found r).
(** user_knn.py:64-67, item_knn.py:64-67 *)
Definition db_predict_default (i : nat) (col : string) (k : Z) : P Qc :=
  j <! db (select inode i (col ++ " == " ++ str_of_Z k) true) ;;
  vs <! db_values j ["interaction"] ;;
  n <! db (ds_len j) ;;
  _ <! db (close inode j) ;;
  xs <! pret (mapM num_value (concat vs)) ;;
  pret (if (n =? 0)%nat then Err ZeroDivisionError else Ok (Qcsum xs / Qc_of_Z (Z.of_nat n))%Qc).
(** base_knn.py:97-102 *)
Definition db_gather (get : Z -> P (option Qc)) (l : list scored) : P (list (Qc * Qc)) :=
  xs <! pmap (fun p => x <! get (snd p) ;; pret (Ok (x, fst p))) l ;;
  pret (Ok (flat_map (fun p => match fst p with Some x => [(x, snd p)] | None => [] end) xs)).
(** base_knn.py:104-107 *)
Definition db_conclude (c : knn) (default : P Qc) (l : list (Qc * Qc)) : P (option Qc) :=
  match l with
  | [] => if kn_avg c then d <! default ;; pret (Ok (Some d)) else pret (Ok (aggregate c []))
  | _ => pret (Ok (aggregate c l))
  end.
(** base_knn.py:94-107 *)
Definition db_knn_predict (c : knn) (i : nat) (t : nbs) (uid iid : option Z) : P (option Qc) :=
  match uid, iid with
  | Some u, Some it =>
      l <! pret (neighbours t (if kn_user c then u else it)) ;;
      g <! db_gather (fun b => if kn_user c then db_get_interaction i b it else db_get_interaction i u b) l ;;
      db_conclude c (if kn_user c then db_predict_default i "iid" it else db_predict_default i "uid" u) g
  | _, _ => pret (Ok None)
  end.
(** recommender_abc.py:354-384 *)
Definition db_predict {A} (f : option Z -> option Z -> P (option A)) (fitted : bool) (i : nat) (user item : value) (skip_errors : bool)
  : P (option A) :=
  if negb fitted then pret (Err AssertionError) else
  _ <! (if skip_errors then pret (Ok tt) else
        u <! db_id (db_user_to_uid inode i user) ;; pret (match u with Some _ => Ok tt | None => Err AssertionError end)) ;;
  _ <! (if skip_errors then pret (Ok tt) else
        it <! db_id (db_item_to_iid inode i item) ;; pret (match it with Some _ => Ok tt | None => Err AssertionError end)) ;;
  fun s => match (uid <! db_id (db_user_to_uid inode i user) ;;
                  iid <! db_id (db_item_to_iid inode i item) ;;
                  p <! f uid iid ;;
                  pret (match p with None => Err GenericException | Some x => Ok x end)) s with
           | (s', Ok x) => (s', Ok (Some x))
           | (s', Err e) => (s', if skip_errors then Ok None else Err e)
           end.

(** ** Ranking *)

(** user_knn.py:72, item_knn.py:72, recommender_abc.py:457 *)
Definition db_rated_iids (i : nat) (uid : Z) : P (list value) :=
  j <! db (select inode i ("uid == " ++ str_of_Z uid) true) ;;
  vs <! db_values j ["iid"] ;;
  _ <! db (close inode j) ;;
  pret (Ok (concat vs)).
(** user_knn.py:70-73, item_knn.py:70-73 *)
Definition db_candidates (i : nat) (uid : Z) (iids : list Z) (novelty : bool) : P (list Z) :=
  if novelty then rated <! db_rated_iids i uid ;; pret (Ok (set_minus iids rated)) else pret (Ok (dedup Z.eqb iids)).

Definition db_rank_impl : Type := Z -> list Z -> Z -> bool -> P (list scored).

(** item_knn.py:69-96; user_ds lives until the method returns *)
Definition db_item_rank (c : knn) (i : nat) (t : nbs) : db_rank_impl :=
  fun uid iids n novelty =>
  cands <! db_candidates i uid iids novelty ;;
  j <! db (select inode i ("uid == " ++ str_of_Z uid) true) ;;
  vs <! db_values j ["iid"] ;;
  ps <! pmap (fun it =>
    l <! pret (neighbours t it) ;;
    g <! db_gather (fun b =>
           if negb (mem_b val_eqb (VInt b) (concat vs)) then pret (Ok None) else
           r <! db_one j ("iid == " ++ str_of_Z b) ["interaction"] ;; pret (found r)) l ;;
    p <! db_conclude c (db_predict_default i "uid" uid) g ;;
    pret (Ok (p, it))) cands ;;
  _ <! db (close inode j) ;;
  pret (Ok (top n (present ps))).

(** user_knn.py:78-84; the records of a neighbour live until the variable holds
    those of the next one: [last] is the data set it holds *)
Definition drop_last (last : option nat) : P unit :=
  match last with Some j => db (close inode j) | None => pret (Ok tt) end.
Fixpoint db_user_info (i : nat) (cands : list Z) (t : list (Z * list (Qc * Qc))) (last : option nat) (l : list scored)
  : P (list (Z * list (Qc * Qc)) * option nat) :=
  match l with
  | [] => pret (Ok (t, last))
  | (s, b) :: l' =>
      j <! db (select inode i ("uid == " ++ str_of_Z b) true) ;;
      _ <! drop_last last ;;
      vs <! db_each j ["iid"; "interaction"] ;;
      rs <! pret (mapM pair_of vs) ;;
      db_user_info i cands (fold_left (add_info cands s) rs t) (Some j) l'
  end.
(** user_knn.py:69-95 *)
Definition db_user_rank (c : knn) (i : nat) (t : nbs) : db_rank_impl :=
  fun uid iids n novelty =>
  cands <! db_candidates i uid iids novelty ;;
  l <! pret (neighbours t uid) ;;
  info <! db_user_info i cands [] None l ;;
  ps <! pmap (fun p => r <! db_conclude c (db_predict_default i "iid" (fst p)) (snd p) ;; pret (Ok (r, fst p))) (fst info) ;;
  _ <! drop_last (snd info) ;;
  pret (Ok (top n (present ps))).
Definition db_knn_rank (c : knn) (i : nat) (t : nbs) : db_rank_impl :=
  if kn_user c then db_user_rank c i t else db_item_rank c i t.

(** recommender_abc.py:439-445 *)
Fixpoint db_known_iids (i : nat) (skip_invalid : bool) (items : list value) : P (list Z) :=
  match items with
  | [] => pret (Ok [])
  | v :: items' =>
      it <! db_id (db_item_to_iid inode i v) ;;
      match it with
      | Some it => is <! db_known_iids i skip_invalid items' ;; pret (Ok (it :: is))
      | None => if skip_invalid then db_known_iids i skip_invalid items' else pret (Err GenericException)
      end
  end.
(** recommender_abc.py:411, 452 *)
Definition db_with_items (i : nat) (l : list scored) : P (list (Qc * option value)) :=
  pmap (fun p => v <! db (db_iid_to_item inode i (snd p)) ;; pret (Ok (fst p, v))) l.
(** recommender_abc.py:421-452 *)
Definition db_rank (impl : db_rank_impl) (fitted : bool) (i : nat) (user : value) (items : list value)
  (novelty skip_invalid : bool) (n : option Z) : P (list (Qc * option value)) :=
  if negb fitted then pret (Err AssertionError) else
  u <! db_id (db_user_to_uid inode i user) ;;
  match u with
  | None => pret (Err AssertionError)
  | Some _ =>
      u <! db_id (db_user_to_uid inode i user) ;;
      match u with
      | None => pret (Err TypeError)
      | Some uid =>
          iids <! db_known_iids i skip_invalid items ;;
          let n := match n with Some n => n | None => Z.of_nat (length iids) end in
          if negb (n <=? Z.of_nat (length iids)) then pret (Err AssertionError) else
          l <! impl uid iids n novelty ;;
          db_with_items i l
      end
  end.
(** recommender_abc.py:391-419; [n_items] is self.n_items *)
Definition db_recommend (impl : db_rank_impl) (fitted : bool) (i : nat) (n_items : nat) (user : value)
  (n : option Z) (novelty : bool) (threshold : option Qc) : P (list (Qc * option value)) :=
  if negb fitted then pret (Err AssertionError) else
  u <! db_id (db_user_to_uid inode i user) ;;
  match u with
  | None => pret (Err AssertionError)
  | Some _ =>
      let n := match n with Some n => n | None => Z.of_nat n_items end in
      u <! db_id (db_user_to_uid inode i user) ;;
      match u with
      | None => pret (Err TypeError)
      | Some uid =>
          l <! impl uid (Zseq n_items) n novelty ;;
          db_with_items i (match threshold with None => l | Some t => filter (fun x => negb (Qcltb (fst x) t)) l end)
      end
  end.
End Run.
