(** Interaction vectors, and using DMF or CDAE, on a data set in memory and on one
    in a database. *)
From Coq Require Import String Ascii.
From Coq Require Import List ZArith QArith Qcanon Bool.
From Verif Require Import Py MemModel MemSpec RankModel KnnModel FitModel DbModel TwinSpec RecDbModel RecDbModel2 RecDbSpec.
Import ListNotations.
Open Scope string_scope.

(** ** A sequence of reads of vectors.  A read that raises leaves the caches as
    they were. *)
Inductive vread := VUser (uid : Z) | VItem (iid : Z).
Definition mem_read (m : mem) (v : vread) : res (list Qc) * mem :=
  match v with VUser u => MemModel.user_vec m u | VItem k => MemModel.item_vec m k end.
Fixpoint mem_reads (m : mem) (l : list vread) : list (res (list Qc)) * mem :=
  match l with
  | [] => ([], m)
  | v :: l' => let '(r, m1) := mem_read m v in let '(rs, m2) := mem_reads m1 l' in (r :: rs, m2)
  end.

Section Db.
Variable inode : string -> nat.
Variable ords : nat -> list trow -> list trow.
(** [lu] and [li] are the limits of the two caches (the arguments
    user_vec_cache_limit and item_vec_cache_limit, or their defaults) *)
Variables (lu li : nat).
Definition db_read (i : nat) (v : vread) (c : vec_caches) : P (list Qc * vec_caches) :=
  match v with VUser u => db_user_cached inode ords lu i u c | VItem k => db_item_cached inode ords li i k c end.
Fixpoint db_reads (i : nat) (l : list vread) (c : vec_caches) : P (list (res (list Qc))) :=
  match l with
  | [] => pret (Ok [])
  | v :: l' => fun s =>
      let '(s1, r) := db_read i v c s in
      let '(r, c1) := match r with Ok (vec, c1) => (Ok vec, c1) | Err e => (Err e, c) end in
      pbind (db_reads i l' c1) (fun rs => pret (Ok (r :: rs))) s1
  end.
(** fit up to the first use of the data set by the recommender, then the reads *)
Definition db_read_run (i : nat) (l : list vread) : P (list (res (list Qc))) :=
  pbind (db_begin_fit inode i false) (fun _ => db_reads i l ([], [])).
End Db.
Definition mem_read_run (m0 : mem) (l : list vread) : res (list (res (list Qc))) :=
  let '(m, r) := begin_fit m0 false in _ <- r ;; Ok (fst (mem_reads m l)).

(** What a read has to return: the interactions added up, for an id that is in the
    data. *)
Definition right_vec (m0 m : mem) (v : vread) (r : res (list Qc)) : Prop :=
  match v with
  | VUser u => ((0 <= u < Z.of_nat (n_distinct "user" m0))%Z -> exists vec, r = Ok vec /\ user_vec_spec (rows_of m) (n_distinct "item" m0) u vec) /\
               (~ (0 <= u < Z.of_nat (n_distinct "user" m0))%Z -> r = Err AssertionError)
  | VItem k => ((0 <= k < Z.of_nat (n_distinct "item" m0))%Z -> exists vec, r = Ok vec /\ item_vec_spec (rows_of m) (n_distinct "user" m0) k vec) /\
               (~ (0 <= k < Z.of_nat (n_distinct "item" m0))%Z -> r = Err AssertionError)
  end.

(** ** Questions to DMF and CDAE.  In memory [m] is the training data with internal
    ids and [v] is [m] after some reads of vectors. *)
Definition net_score {A} (r : res (option A)) (f : A -> Qc + list Qc) : res (option (Qc + list Qc) + list (Qc * option value)) :=
  s <- r ;; Ok (inl (option_map f s)).
Definition net_list (r : res (list (Qc * option value))) : res (option (Qc + list Qc) + list (Qc * option value)) :=
  l <- r ;; Ok (inr l).
Definition net_rank (k : network) (v m : mem) (n_items : nat) : rank_impl :=
  match k with
  | Dmf net => rank_abc (dmf_predict net v) m
  | Cdae th net => rank_cdae (cdae_vec th net v) m n_items
  end.
Definition net_ask (k : network) (v m : mem) (n_items : nat) (a : ask) : res (option (Qc + list Qc) + list (Qc * option value)) :=
  match a with
  | APredict u it sk =>
      match k with
      | Dmf net => net_score (predict (dmf_predict net v) true m u it sk) inl
      | Cdae th net => net_score (predict (predict_cdae (cdae_vec th net v)) true m u it sk) (fun x => x)
      end
  | ARank u items nov sk n => net_list (rank (net_rank k v m n_items) true m u items nov sk n)
  | ARecommend u n nov th => net_list (recommend (net_rank k v m n_items) true m n_items u n nov th)
  end.
(** fit, some reads of vectors (training), then the questions *)
Definition net_run (k : network) (m0 : mem) (reads : list vread) (l : list ask) : res (list (res (option (Qc + list Qc) + list (Qc * option value)))) :=
  let '(m, r) := begin_fit m0 false in
  f <- r ;; Ok (map (net_ask k (snd (mem_reads m reads)) m (fi_items f)) l).

Section DbNet.
Variable inode : string -> nat.
Variable ords : nat -> list trow -> list trow.
Definition db_net_rank (k : network) (i n_items : nat) : db_rank_impl :=
  match k with
  | Dmf net => db_rank_abc inode ords (db_dmf_predict inode ords net i) i
  | Cdae th net => db_rank_cdae inode ords (db_cdae_vec inode ords th net i) i n_items
  end.
Definition db_net_ask (k : network) (i n_items : nat) (a : ask) : P (option (Qc + list Qc) + list (Qc * option value)) :=
  match a with
  | APredict u it sk =>
      match k with
      | Dmf net => pbind (db_predict inode (db_dmf_predict inode ords net i) true i u it sk) (fun s => pret (Ok (inl (option_map inl s))))
      | Cdae th net => pbind (db_predict inode (db_predict_cdae (db_cdae_vec inode ords th net i)) true i u it sk) (fun s => pret (Ok (inl s)))
      end
  | ARank u items nov sk n =>
      pbind (db_rank inode (db_net_rank k i n_items) true i u items nov sk n) (fun l => pret (Ok (inr l)))
  | ARecommend u n nov th =>
      pbind (db_recommend inode (db_net_rank k i n_items) true i n_items u n nov th) (fun l => pret (Ok (inr l)))
  end.
Fixpoint db_net_asks (k : network) (i n_items : nat) (l : list ask) : P (list (res (option (Qc + list Qc) + list (Qc * option value)))) :=
  match l with
  | [] => pret (Ok [])
  | a :: l' => fun s => let '(s1, r) := db_net_ask k i n_items a s in
                        pbind (db_net_asks k i n_items l') (fun rs => pret (Ok (r :: rs))) s1
  end.
(** [lu], [li] limit the caches during training *)
Definition db_net_run (lu li : nat) (k : network) (i : nat) (reads : list vread) (l : list ask)
  : P (list (res (option (Qc + list Qc) + list (Qc * option value)))) :=
  pbind (db_begin_fit inode i false) (fun f =>
  pbind (db_reads inode ords lu li i reads ([], [])) (fun _ =>
  db_net_asks k i (fi_items f) l)).
End DbNet.
