(** Model of training DMF and CDAE on a data set in a database: the batches
    (DRecPy/Recommender/recommender_abc.py:133-190, dmf.py:45-86, cdae.py:32-65).
    The counterparts in memory are in NetModel.v.  Definitions only.

    Each sample has an order of rows of its own.  What the networks do with a
    batch does not use the data set.  The data set starts with no vector in its
    caches.  The vectors of DMF are those before l2_normalize. *)
From Coq Require Import String Ascii.
From Coq Require Import List ZArith QArith Qcanon Bool.
From Verif Require Import Py MemModel KnnModel TrainModel SampModel FitModel NetModel DbModel DbGenModel RecDbModel RecDbModel2.
Import ListNotations.
Open Scope string_scope.
Open Scope Z_scope.

(** Programs that may not return, see [DbGenModel.F]. *)
Definition T (A : Type) := nat * world -> (nat * world) * option (res A).
Definition tbind {A B} (m : T A) (f : A -> T B) : T B :=
  fun s => match m s with
           | (s', Some (Ok a)) => f a s'
           | (s', Some (Err e)) => (s', Some (Err e))
           | (s', None) => (s', None)
           end.
Definition step {A} (p : RecDbModel.P A) : T A := fun s => let '(s', r) := p s in (s', Some r).
Definition tret {A} (r : res A) : T A := fun s => (s, Some r).
Local Notation "x <! m ;; k" := (pbind m (fun x => k)) (at level 61, m at next level, right associativity).
Local Notation "x <? m ;; k" := (tbind m (fun x => k)) (at level 61, m at next level, right associativity).

(** recommender_abc.py:139-141, 463-465 *)
Definition info_range (f : fit_info) : res (Qc * Qc) :=
  match fi_min f, fi_max f with
  | Some lo, Some hi =>
      match num_of lo, num_of hi with Some a, Some b => Ok (a, b) | _, _ => Err TypeError end
  | _, _ => Err TypeError
  end.
(** dmf.py:69 *)
Definition db_target (f : fit_info) (use_nce : bool) (x : dbtriple) : res Qc :=
  match snd x with
  | None => Err TypeError
  | Some v =>
      q <- num_value v ;;
      if use_nce then r <- info_range f ;; standardize r q else Ok q
  end.
(** an id of a sample; vectors of None are refused (db_dataset.py:107, 133) *)
Definition cell_id (c : option value) : res Z := match c with Some (VInt z) => Ok z | _ => Err AssertionError end.

(** a batch of DMF, dmf.py:73 *)
Record dmf_batch := mkDmfBatch { bt_users : list (list Qc); bt_items : list (list Qc); bt_desired : list Qc }.
(** what CDAE trains on for one sample: the user, the input and the target *)
Record cdae_sample := mkCdaeSample { cs_user : Z; cs_input : list Qc; cs_desired : list Z }.

Section Run.
Variable inode : string -> nat.
Variable ords : nat -> list trow -> list trow.
(** of the sampler *)
Variables (fuel : nat) (neg : Qc) (dr : dbdraws).
(** limits of the caches of vectors *)
Variables (lu li : nat).

(** point_sampler.py:45-62 *)
Definition db_point (p : dbpoint) : T (dbtriple * dbpoint) :=
  fun s =>
  match db_sample inode 1 fuel (ords (fst s)) neg dr p (snd s) with
  | (w, None) => ((S (fst s), w), None)
  | (w, Some (Err e, _)) => ((S (fst s), w), Some (Err e))
  | (w, Some (Ok [], _)) => ((S (fst s), w), Some (Err IndexError))
  | (w, Some (Ok (x :: _), p')) => ((S (fst s), w), Some (Ok (x, p')))
  end.
Fixpoint db_points (n : nat) (p : dbpoint) : T (list dbtriple * dbpoint) :=
  match n with
  | O => tret (Ok ([], p))
  | S n' => x <? db_point p ;;
            l <? db_points n' (snd x) ;;
            tret (Ok (fst x :: fst l, snd l))
  end.

(** dmf.py:76, 77 *)
Fixpoint db_user_vecs (i : nat) (ids : list (option value)) (c : vec_caches) : P (list (list Qc) * vec_caches) :=
  match ids with
  | [] => pret (Ok ([], c))
  | u :: ids' => z <! pret (cell_id u) ;;
                 v <! db_user_cached inode ords lu i z c ;;
                 l <! db_user_vecs i ids' (snd v) ;;
                 pret (Ok (fst v :: fst l, snd l))
  end.
Fixpoint db_item_vecs (i : nat) (ids : list (option value)) (c : vec_caches) : P (list (list Qc) * vec_caches) :=
  match ids with
  | [] => pret (Ok ([], c))
  | u :: ids' => z <! pret (cell_id u) ;;
                 v <! db_item_cached inode ords li i z c ;;
                 l <! db_item_vecs i ids' (snd v) ;;
                 pret (Ok (fst v :: fst l, snd l))
  end.

(** dmf.py:64-73 *)
Definition db_dmf_batch (f : fit_info) (use_nce : bool) (batch_size : nat) (i : nat) (st : dbpoint * vec_caches)
  : T (dmf_batch * (dbpoint * vec_caches)) :=
  x <? db_points batch_size (fst st) ;;
  ys <? tret (mapM (db_target f use_nce) (fst x)) ;;
  us <? step (db_user_vecs i (map (fun t => fst (fst t)) (fst x)) (snd st)) ;;
  vs <? step (db_item_vecs i (map (fun t => snd (fst t)) (fst x)) (snd us)) ;;
  tret (Ok (mkDmfBatch (fst us) (fst vs) ys, (snd x, snd vs))).
Fixpoint db_dmf_batches (epochs : nat) (f : fit_info) (use_nce : bool) (batch_size : nat) (i : nat) (st : dbpoint * vec_caches) : T (list dmf_batch) :=
  match epochs with
  | O => tret (Ok [])
  | S e => x <? db_dmf_batch f use_nce batch_size i st ;;
           l <? db_dmf_batches e f use_nce batch_size i (snd x) ;;
           tret (Ok (fst x :: l))
  end.
(** recommender_abc.py:133-190 with dmf.py:45-73 *)
Definition db_dmf_fit (copy_dataset use_nce : bool) (threshold : option string) (epochs batch_size : nat) (i : nat) : T (list dmf_batch) :=
  f <? step (db_begin_fit inode i copy_dataset) ;;
  p <? step (db (db_point_init inode i threshold)) ;;
  db_dmf_batches epochs f use_nce batch_size i (p, ([], [])).

(** cdae.py:59-65; [threshold] is the number, [rnd] the generator of the
    recommender and [k] its position.  None cannot be compared. *)
Definition cdae_inputs (threshold : option Qc) (q : Qc) (rnd : nat -> Qc) (k : nat) (u : Z) (vec : list Qc) : res cdae_sample :=
  match threshold, vec with
  | None, _ :: _ => Err TypeError
  | None, [] => Ok (mkCdaeSample u [] [])
  | Some th, _ =>
      let d := desired_vector th vec in
      x <- corrupted q (map rnd (seq k (length d))) d ;;
      Ok (mkCdaeSample u x d)
  end.
(** cdae.py:50-57 *)
Fixpoint db_cdae_samples (threshold : option Qc) (q : Qc) (rnd : nat -> Qc) (i : nat) (ids : list (option value)) (c : vec_caches) (k : nat)
  : P (list cdae_sample * (vec_caches * nat)) :=
  match ids with
  | [] => pret (Ok ([], (c, k)))
  | u :: ids' => z <! pret (cell_id u) ;;
                 v <! db_user_cached inode ords lu i z c ;;
                 x <! pret (cdae_inputs threshold q rnd k z (fst v)) ;;
                 l <! db_cdae_samples threshold q rnd i ids' (snd v) (k + length (fst v)) ;;
                 pret (Ok (x :: fst l, snd l))
  end.
Fixpoint db_cdae_batches (epochs : nat) (threshold : option Qc) (q : Qc) (rnd : nat -> Qc) (batch_size : nat) (i : nat)
  (p : dbpoint) (c : vec_caches) (k : nat) : T (list (list cdae_sample)) :=
  match epochs with
  | O => tret (Ok [])
  | S e => x <? db_points batch_size p ;;
           y <? step (db_cdae_samples threshold q rnd i (map (fun t => fst (fst t)) (fst x)) c k) ;;
           l <? db_cdae_batches e threshold q rnd batch_size i (snd x) (fst (snd y)) (snd (snd y)) ;;
           tret (Ok (fst y :: l))
  end.
(** recommender_abc.py:133-190 with cdae.py:32-65; [threshold] has the number and
    its text *)
Definition db_cdae_fit (copy_dataset : bool) (threshold : option (string * Qc)) (q : Qc) (rnd : nat -> Qc) (epochs batch_size : nat) (i : nat)
  : T (list (list cdae_sample)) :=
  _ <? step (db_begin_fit inode i copy_dataset) ;;
  p <? step (db (db_point_init inode i (option_map fst threshold))) ;;
  db_cdae_batches epochs (option_map snd threshold) q rnd batch_size i p ([], []) 0.
End Run.
