(** Model of what Caser reads from the data set it is trained on, in memory and in
    a database: DRecPy/Recommender/caser.py:125-146.  Definitions only.

    The network is an arbitrary function of the user and their last items, which
    may raise (see NetModel.caser_rank_shape). *)
From Coq Require Import String Ascii.
From Coq Require Import List ZArith QArith Qcanon Bool.
From Verif Require Import Py MemModel RankModel KnnModel FitModel DbModel RecDbModel.
Import ListNotations.
Open Scope string_scope.
Open Scope Z_scope.

(** caser.py:29-42 and the trained network *)
Record caser := mkCaser { cs_sort : option string; cs_L : nat; cs_net : Z -> list Z -> res (list Qc) }.

(** caser.py:129-132: of the records only the sort column, if the data set has
    it, and iid are looked at *)
Definition sorts (c : caser) (columns : list string) : bool :=
  match cs_sort c with Some k => mem_b String.eqb k columns | None => false end.
Definition looked_at (c : caser) (columns : list string) : list string :=
  match cs_sort c with
  | Some k => if mem_b String.eqb k columns then [k; "iid"] else ["iid"]
  | None => ["iid"]
  end.
(** 132: list.sort is stable *)
Definition key_leb (a b : list value) : bool :=
  match a, b with
  | x :: _, y :: _ => match val_ltb y x with Some true => false | _ => true end
  | _, _ => true
  end.
(** 134 *)
Definition last_cell (v : list value) : res Z := match rev v with x :: _ => int_value x | [] => Err KeyError end.
Definition user_history (sorted : bool) (vs : list (list value)) : res (list Z) :=
  mapM last_cell (if sorted then sort_by key_leb vs else vs).
(** 137: l[-L:], all of l for L = 0 *)
Definition suffix (L : nat) (l : list Z) : list Z := match L with O => l | S _ => skipn (length l - L) l end.

(** caser.py:129-134 in memory *)
Definition history (c : caser) (m : mem) (uid : Z) : res (list Z) :=
  mu <- MemModel.select m ("uid == " ++ str_of_Z uid) ;;
  vs <- MemModel.values mu (Some (looked_at c (m_columns m))) ;;
  user_history (sorts c (m_columns m)) vs.
(** caser.py:136-137, see [rank_caser] *)
Definition caser_vec (c : caser) (m : mem) (uid : Z) : res (list Qc) :=
  h <- history c m uid ;; cs_net c uid (suffix (cs_L c) h).

(** ** In a database *)
Section Run.
Variable inode : string -> nat.
Variable ords : nat -> list trow -> list trow.
Notation P := RecDbModel.P.
Local Notation "x <! m ;; k" := (pbind m (fun x => k)) (at level 61, m at next level, right associativity).

(** caser.py:129-134; the selection is closed when its rows were read *)
Definition db_history (c : caser) (i : nat) (uid : Z) : P (list Z) :=
  x <! db (self i) ;;
  j <! db (select inode i ("uid == " ++ str_of_Z uid) true) ;;
  vs <! db_values inode ords j (looked_at c (i_cols x)) ;;
  _ <! db (close inode j) ;;
  pret (user_history (sorts c (i_cols x)) vs).
(** caser.py:128-146 *)
Definition db_rank_caser (c : caser) (i n_items : nat) : db_rank_impl :=
  fun uid iids n novelty =>
  h <! db_history c i uid ;;
  v <! pret (cs_net c uid (suffix (cs_L c) h)) ;;
  pret (Ok (if novelty then top n (picked v n_items (filter (fun k => negb (mem_b Z.eqb k h)) iids))
            else top n (combine v (Zseq n_items)))).
End Run.
