(** Using Caser on a data set in memory and on one in a database. *)
From Coq Require Import String Ascii.
From Coq Require Import List ZArith QArith Qcanon Bool.
From Verif Require Import Py MemModel MemSpec RankModel KnnModel FitModel DbModel TwinSpec RecDbModel RecDbModel2 RecDbModel3 RecDbSpec RecDbSpec2.
Import ListNotations.
Open Scope string_scope.

(** No two records of a user have the same value in the column [k]. *)
Definition distinct_keys (m : mem) (k : string) : Prop :=
  forall r r' x y, In r (rows_of m) -> In r' (rows_of m) -> r_rid r <> r_rid r' -> cell r "uid" = cell r' "uid" ->
    row_val r k = Some x -> row_val r' k = Some y -> val_eqb x y = false.

(** Point predictions are refused (caser.py:125-126). *)
Definition no_prediction (uid iid : option Z) : res (option Qc) := Err NotImplementedError.
Definition answer : Type := (option (Qc + list Qc) + list (Qc * option value)).
(** [m] is the training data with internal ids *)
Definition caser_ask (c : caser) (m : mem) (n_items : nat) (a : ask) : res answer :=
  let impl := rank_caser (caser_vec c m) m n_items in
  match a with
  | APredict u it sk => net_score (predict no_prediction true m u it sk) inl
  | ARank u items nov sk n => net_list (rank impl true m u items nov sk n)
  | ARecommend u n nov th => net_list (recommend impl true m n_items u n nov th)
  end.
(** the start of fit, then the questions *)
Definition caser_run (c : caser) (m0 : mem) (l : list ask) : res (list (res answer)) :=
  let '(m, r) := begin_fit m0 false in f <- r ;; Ok (map (caser_ask c m (fi_items f)) l).

Section Db.
Variable inode : string -> nat.
Variable ords : nat -> list trow -> list trow.
Definition db_caser_ask (c : caser) (i n_items : nat) (a : ask) : P answer :=
  let impl := db_rank_caser inode ords c i n_items in
  match a with
  | APredict u it sk => pbind (db_predict inode (fun x y => pret (no_prediction x y)) true i u it sk) (fun s => pret (Ok (inl (option_map inl s))))
  | ARank u items nov sk n => pbind (db_rank inode impl true i u items nov sk n) (fun l => pret (Ok (inr l)))
  | ARecommend u n nov th => pbind (db_recommend inode impl true i n_items u n nov th) (fun l => pret (Ok (inr l)))
  end.
Fixpoint db_caser_asks (c : caser) (i n_items : nat) (l : list ask) : P (list (res answer)) :=
  match l with
  | [] => pret (Ok [])
  | a :: l' => fun s => let '(s1, r) := db_caser_ask c i n_items a s in
                        pbind (db_caser_asks c i n_items l') (fun rs => pret (Ok (r :: rs))) s1
  end.
Definition db_caser_run (c : caser) (i : nat) (l : list ask) : P (list (res answer)) :=
  pbind (db_begin_fit inode i false) (fun f => db_caser_asks c i (fi_items f) l).
End Db.
