(** What independence of data sets means: a list of separate values, where a
    call changes the entry it is made on, or appends a new entry, and never
    touches another one. *)
From Coq Require Import String Ascii.
From Coq Require Import List ZArith QArith Qcanon Bool.
From Verif Require Import Py MemModel MemHeap.
Import ListNotations.
Open Scope string_scope.
Open Scope Z_scope.

(** The value after an in-place call.  A failing assignment of internal ids stops
    in the middle. *)
Definition assign_result (m : mem) : mem :=
  match assign_internal_ids m with
  | Ok m' => m'
  | Err _ =>
      match col_type m "user" with
      | Err _ => set_columns m (add_column m "uid")
      | Ok _ =>
          let users := distinct_col "user" (rows_of m) in
          let m1 := set_columns m (add_column m "uid") in
          mkMem (add_column m1 "iid") (assign_frame "user" "uid" (m_df m)) (m_ids m)
                (mapping_of users) (mapping_inv_of users) (m_imap m) (m_iinv m) (m_cache m) (m_tcache m)
      end
  end.
Definition remove_result (m : mem) : mem :=
  match remove_internal_ids m with
  | Ok m' => m'
  | Err _ => mkMem (m_columns m) (m_df m) false (m_umap m) (m_uinv m) (m_imap m) (m_iinv m) (m_cache m) (m_tcache m)
  end.

(** The effect of a call on the value [m]: a new value for the receiver and
    possibly a new data set. *)
Definition effect (m : mem) (o : hop) : mem * option mem :=
  let returned (r : res mem) := match r with Ok x => Some x | Err _ => None end in
  let in_place (r : res mem) := match r with Ok x => x | Err _ => m end in
  match o with
  | HCopy => (m, Some (mem_copy m))
  | HSelect q true => (m, returned (select m q))
  | HSelect q false => (in_place (select_inplace m q), None)
  | HDrop ids keep true => (m, Some (drop m ids keep))
  | HDrop ids keep false => (drop_inplace m ids keep, None)
  | HUnique cs true => (m, returned (unique m cs))
  | HUnique cs false => (in_place (unique_inplace m cs), None)
  | HAssign => (assign_result m, None)
  | HRemove => (remove_result m, None)
  | HApply c f => (snd (apply_col m c f), None)
  | HUserVec u => (snd (user_vec m u), None)
  | HItemVec u => (snd (item_vec m u), None)
  end.

(** Replace entry [i], append the new data set if there is one. *)
Definition sstep (ms : list mem) (c : nat * hop) : list mem :=
  match nth_error ms (fst c) with
  | None => ms
  | Some m => let (m', new) := effect m (snd c) in
              (firstn (fst c) ms ++ m' :: skipn (S (fst c)) ms ++
               match new with Some x => [x] | None => [] end)%list
  end.
Definition srun (ms : list mem) (cs : list (nat * hop)) : list mem := fold_left sstep cs ms.
