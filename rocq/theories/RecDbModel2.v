(** Model of what DMF and CDAE read from the data set they are trained on, in
    memory and in a database: DRecPy/Recommender/dmf.py:65-104, cdae.py:60-103,
    recommender_abc.py:454-461, Dataset/db_dataset.py:105-155.  Definitions only.

    The networks are arbitrary functions of the vectors they are given.  In the
    rankings the cache of vectors is left out: C111 is about what it holds. *)
From Coq Require Import String Ascii.
From Coq Require Import List ZArith QArith Qcanon Bool.
From Verif Require Import Py MemModel RankModel KnnModel FitModel NetModel DbModel RecDbModel.
Import ListNotations.
Open Scope string_scope.
Open Scope Z_scope.

(** The two networks of DMF (dmf.py:88-96, with the rescaling of 104) and the
    autoencoder of CDAE, which also has an embedding of the user
    (cdae.py:71-75). *)
Inductive network :=
| Dmf (net : list Qc -> list Qc -> Qc)
| Cdae (threshold : Qc) (net : Z -> list Z -> list Qc).

(** ** In memory.  The vectors are read from [m]; that the first read fills the
    cache of [m] is in MemModel.v. *)

(** dmf.py:71-86, 98-104 *)
Definition dmf_predict (net : list Qc -> list Qc -> Qc) (m : mem) (uid iid : option Z) : res (option Qc) :=
  match uid, iid with
  | Some u, Some it =>
      let '(ru, m1) := MemModel.user_vec m u in
      vu <- ru ;;
      vi <- fst (MemModel.item_vec m1 it) ;;
      Ok (Some (net vu vi))
  | _, _ => Err AssertionError
  end.
(** cdae.py:65-69 *)
Definition cdae_vec (threshold : Qc) (net : Z -> list Z -> list Qc) (m : mem) (uid : Z) : res (list Qc) :=
  v <- fst (MemModel.user_vec m uid) ;;
  Ok (net uid (desired_vector threshold v)).

(** ** In a database *)
Section Run.
Variable inode : string -> nat.
Variable ords : nat -> list trow -> list trow.
Notation P := RecDbModel.P.
Local Notation "x <! m ;; k" := (pbind m (fun x => k)) (at level 61, m at next level, right associativity).

(** db_dataset.py:106-107, 132-133: [back] is uid_to_user or iid_to_item *)
Definition db_known (back : Z -> M (option value)) (i : nat) (k : Z) : P unit :=
  x <! db (self i) ;;
  if negb (i_ids x) then pret (Err AssertionError) else
  u <! db (back k) ;;
  pret (match u with None => Err AssertionError | Some _ => Ok tt end).
(** 115-125, 141-151: [id] and [other] are the two id columns.  The data set of the
    rows lives as long as the generator. *)
Definition db_compute (id other : string) (i : nat) (k : Z) : P (list Qc) :=
  top <! db (db_max inode i other) ;;
  j <! db (select inode i (id ++ " == " ++ str_of_Z k) true) ;;
  vs <! db_each inode ords j [other; "interaction"] ;;
  _ <! db (close inode j) ;;
  es <! pret (mapM pair_of vs) ;;
  pret (match top with
        | Some (VInt t) =>
            if forallb (fun e => (fst e <=? t) && (0 <=? fst e))%bool es then Ok (dense (Z.to_nat (t + 1)) es) else Err ValueError
        | _ => Err TypeError
        end).
(** 105-155, a vector that is not in the cache *)
Definition db_user_vector (i : nat) (uid : Z) : P (list Qc) :=
  _ <! db_known (db_uid_to_user inode i) i uid ;; db_compute "uid" "iid" i uid.
Definition db_item_vector (i : nat) (iid : Z) : P (list Qc) :=
  _ <! db_known (db_iid_to_item inode i) i iid ;; db_compute "iid" "uid" i iid.
(** 109-113, 127: with the cache, which is emptied when it has more than [limit]
    vectors *)
Definition db_cached (limit : nat) (compute : Z -> P (list Qc)) (k : Z) (cache : list (Z * list Qc)) : P (list Qc * list (Z * list Qc)) :=
  match assoc Z.eqb k cache with
  | Some v => pret (Ok (v, cache))
  | None => v <! compute k ;; pret (Ok (v, (k, v) :: (if (limit <? length cache)%nat then [] else cache)))
  end.
Definition vec_caches : Type := list (Z * list Qc) * list (Z * list Qc).
Definition db_user_cached (limit : nat) (i : nat) (uid : Z) (c : vec_caches) : P (list Qc * vec_caches) :=
  _ <! db_known (db_uid_to_user inode i) i uid ;;
  r <! db_cached limit (db_compute "uid" "iid" i) uid (fst c) ;;
  pret (Ok (fst r, (snd r, snd c))).
Definition db_item_cached (limit : nat) (i : nat) (iid : Z) (c : vec_caches) : P (list Qc * vec_caches) :=
  _ <! db_known (db_iid_to_item inode i) i iid ;;
  r <! db_cached limit (db_compute "iid" "uid" i) iid (snd c) ;;
  pret (Ok (fst r, (fst c, snd r))).

(** dmf.py:71-86, 98-104 *)
Definition db_dmf_predict (net : list Qc -> list Qc -> Qc) (i : nat) (uid iid : option Z) : P (option Qc) :=
  match uid, iid with
  | Some u, Some it =>
      vu <! db_user_vector i u ;;
      vi <! db_item_vector i it ;;
      pret (Ok (Some (net vu vi)))
  | _, _ => pret (Err AssertionError)
  end.
(** cdae.py:65-69 *)
Definition db_cdae_vec (threshold : Qc) (net : Z -> list Z -> list Qc) (i : nat) (uid : Z) : P (list Qc) :=
  v <! db_user_vector i uid ;;
  pret (Ok (net uid (desired_vector threshold v))).
(** cdae.py:84-88 *)
Definition db_predict_cdae (vec : Z -> P (list Qc)) (uid iid : option Z) : P (option (Qc + list Qc)) :=
  match uid with
  | None => pret (Ok None)
  | Some u =>
      v <! vec u ;;
      pret (match iid with
            | None => Ok (Some (inr v))
            | Some it => match nth_error v (Z.to_nat it) with
                         | Some s => Ok (Some (inl s))
                         | None => Err IndexError
                         end
            end)
  end.

(** recommender_abc.py:454-461 *)
Definition db_rank_abc (f : option Z -> option Z -> P (option Qc)) (i : nat) : db_rank_impl :=
  fun uid iids n novelty =>
  iids <! (if novelty then rated <! db_rated_iids inode ords i uid ;; pret (Ok (set_minus iids rated)) else pret (Ok iids)) ;;
  ps <! pmap (fun it => p <! f (Some uid) (Some it) ;; pret (Ok (p, it))) iids ;;
  pret (Ok (top n (flat_map (fun p => match fst p with Some s => [(s, snd p)] | None => [] end) ps))).
(** cdae.py:93-100; exists is select_one (dataset_abc.py:108-118) *)
Definition db_cdae_candidates (i : nat) (uid : Z) (iids : list Z) (novelty : bool) : P (list Z) :=
  if novelty then
    j <! db (select inode i ("uid == " ++ str_of_Z uid) true) ;;
    n <! db (ds_len j) ;;
    cands <! (if (n <? length iids)%nat then vs <! db_values inode ords j ["iid"] ;; pret (Ok (set_minus iids (concat vs)))
              else
                bs <! pmap (fun it => r <! dbo ords (fun ord => select_one inode ord j ("iid == " ++ str_of_Z it) None) ;;
                                      pret (Ok (it, match r with Some _ => true | None => false end))) iids ;;
                pret (Ok (dedup Z.eqb (map fst (filter (fun p => negb (snd p)) bs))))) ;;
    _ <! db (close inode j) ;;
    pret (Ok cands)
  else pret (Ok (dedup Z.eqb iids)).
(** cdae.py:90-103 *)
Definition db_rank_cdae (vec : Z -> P (list Qc)) (i : nat) (n_items : nat) : db_rank_impl :=
  fun uid iids n novelty =>
  v <! vec uid ;;
  cands <! db_cdae_candidates i uid iids novelty ;;
  pret (Ok (top n (picked v n_items cands))).
End Run.
