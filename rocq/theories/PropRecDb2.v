(** C111, C112: interaction vectors, DMF and CDAE on a data set in a database.

    [both], [ords] and the data of the examples are those of PropRecDb.v.
    [db_read_run], [mem_read_run], [db_net_run], [net_run] (RecDbSpec2.v): the start
    of fit, then reads of vectors, then questions to the recommender. *)
From Coq Require Import String Ascii.
From Coq Require Import List ZArith QArith Qcanon Bool Permutation Lia.
From Verif Require Import Py PyFacts MemModel MemSpec RankModel RankSpec KnnModel KnnSpec FitModel
  DbModel DbSpec DbFacts7 DbFacts8 DbFacts13 DbFacts15 DbCheck DbExamples DbGenSpec TwinSpec TwinFacts5 TwinCheck PropTwin
  RecDbModel RecDbModel2 RecDbSpec RecDbSpec2 RecDbFacts2 RecDbFacts6 RecDbFacts8 PropRecDb.
Import ListNotations.
Open Scope string_scope.
Open Scope Z_scope.
Open Scope list_scope.

(** *** C111.  A vector read from a database holds, for every user or item, the sum of
    the interactions of the pair, however many vectors were read before and
    whatever the limits of the caches are; an unknown id is an AssertionError. *)
Theorem C111_database_vectors : forall inode ords w b mb i m0 m tu ti lu li l n s rs,
  both inode w b mb -> mb i = Some m0 -> trained_on m0 m tu ti -> numeric m0 -> safe inode w b (OAssign i) ->
  (forall k rows, Permutation (ords k rows) rows) ->
  db_read_run inode ords lu li i l (n, w) = (s, Ok rs) -> Forall2 (right_vec m0 m) l rs.
Proof.
  intros inode ords w b mb i m0 m tu ti lu li l n s rs B Hi T Nm Sf Po E.
  destruct (the_twin inode w b mb i m0 B Hi Nm Sf) as (d & Hb & Tw & Cd).
  exact (db_vectors inode ords Po w b i d m0 m tu ti (both_reaches _ _ _ _ B) Sf Hb Tw T Nm Cd lu li l n s rs E).
Qed.
Print Assumptions C111_database_vectors.

(** In memory the same reads return the same vectors, unless there is just one user. *)
Theorem C111_same_vectors_partial : forall inode ords w b mb i m0 m tu ti lu li l n,
  both inode w b mb -> mb i = Some m0 -> trained_on m0 m tu ti -> numeric m0 -> safe inode w b (OAssign i) ->
  (forall k rows, Permutation (ords k rows) rows) -> n_distinct "user" m0 <> 1%nat ->
  exists n' w', db_read_run inode ords lu li i l (n, w) = ((n', w'), mem_read_run m0 l).
Proof.
  intros inode ords w b mb i m0 m tu ti lu li l n B Hi T Nm Sf Po N1.
  destruct (the_twin inode w b mb i m0 B Hi Nm Sf) as (d & Hb & Tw & Cd).
  destruct (read_run_same inode ords Po w b i d m0 m tu ti (both_reaches _ _ _ _ B) Sf Hb Tw T Nm Cd N1 lu li l n) as ([n' w'] & b' & E & _).
  exists n', w'. exact E.
Qed.
Print Assumptions C111_same_vectors_partial.

Definition vecs9 (r : res (list (res (list Qc)))) : res (list (res (list Q))) :=
  l <- r ;; Ok (map (fun r => v <- r ;; Ok (map this v)) l).
(** ** [rows8]: user 2 has item 2 twice, with 4 and 1.  The caches hold at most one
    vector more than their limit, 0. *)
Definition reads9 : list vread := [VUser 2; VItem 2; VUser 7; VUser 0; VUser 2; VItem 0; VItem (-1); VItem 2].
Example C111_example : facts7 rows8 /\ (forall k rows, Permutation (ords7 k rows) rows) /\ n_distinct "user" (mem7 rows8) <> 1%nat /\
  vecs9 (snd (db_read_run disk ords7 0 0 0 reads9 (0%nat, dbs [new7 rows8]))) =
    Ok [Ok [1; 0; 5]; Ok [0; 0; 5]; Err AssertionError; Ok [3; 5; 0]; Ok [1; 0; 5]; Ok [3; 2; 1]; Err AssertionError; Ok [0; 0; 5]]%Q /\
  vecs9 (mem_read_run (mem7 rows8) reads9) = vecs9 (snd (db_read_run disk ords7 0 0 0 reads9 (0%nat, dbs [new7 rows8]))).
Proof. split; [exact facts7_rows8|]. split; [exact ords7_ok|]. split; [vm_compute; discriminate|]. split; vm_compute; reflexivity. Qed.

(** With one user the cached matrix in memory has one row, which is taken for the
    mark that there was no room for it, and the vectors of the items are computed
    with the item as the column. *)
Definition rows9 : list trow := [row6 0 "b" 7 3; row6 1 "b" 8 4].
Lemma facts7_rows9 : facts7 rows9. Proof. by_facts7. Qed.
Theorem C111_one_user_refuted : ~ (forall inode ords w b mb i m0 m tu ti lu li l n,
  both inode w b mb -> mb i = Some m0 -> trained_on m0 m tu ti -> numeric m0 -> safe inode w b (OAssign i) ->
  (forall k rows, Permutation (ords k rows) rows) ->
  exists n' w', db_read_run inode ords lu li i l (n, w) = ((n', w'), mem_read_run m0 l)).
Proof.
  intro H. destruct facts7_rows9 as (B & Hi & T & Nm & Sf).
  destruct (H disk ords7 _ _ _ 0%nat _ _ _ _ 9%nat 9%nat [VUser 0; VItem 1] 0%nat B Hi T Nm Sf ords7_ok) as (n' & w' & E).
  apply (f_equal (fun p => vecs9 (snd p))) in E. cbn [snd] in E. vm_compute in E. discriminate.
Qed.
Print Assumptions C111_one_user_refuted.
Example C111_one_user_example : facts7 rows9 /\
  vecs9 (snd (db_read_run disk ords7 9 9 0 [VUser 0; VItem 1] (0%nat, dbs [new7 rows9]))) = Ok [Ok [3; 4]; Ok [4]]%Q /\
  vecs9 (mem_read_run (mem7 rows9) [VUser 0; VItem 1]) = Ok [Ok [3; 4]%Q; Err ValueError].
Proof. split; [exact facts7_rows9|]. split; vm_compute; reflexivity. Qed.

(** *** C112.  Predictions, rankings and recommendations of DMF and CDAE, whatever the
    networks compute, after any reads of vectors during training: as in memory,
    exceptions included, also with several rows for a user and an item. *)
Theorem C112_same_answers_partial : forall inode ords w b mb i m0 m tu ti lu li k reads l n,
  both inode w b mb -> mb i = Some m0 -> trained_on m0 m tu ti -> numeric m0 -> safe inode w b (OAssign i) ->
  (forall k rows, Permutation (ords k rows) rows) -> n_distinct "user" m0 <> 1%nat -> Forall (asks_ids m0) l ->
  exists n' w', db_net_run inode ords lu li k i reads l (n, w) = ((n', w'), net_run k m0 reads l).
Proof.
  intros inode ords w b mb i m0 m tu ti lu li k reads l n B Hi T Nm Sf Po N1 Hl.
  destruct (the_twin inode w b mb i m0 B Hi Nm Sf) as (d & Hb & Tw & Cd).
  destruct (net_run_same inode ords Po w b i d m0 m tu ti (both_reaches _ _ _ _ B) Sf Hb Tw T Nm Cd N1 lu li k reads l n Hl) as ([n' w'] & b' & E & _).
  exists n', w'. exact E.
Qed.
Print Assumptions C112_same_answers_partial.

(** The data set has the internal ids afterwards, the others are as they were. *)
Theorem C112_data_kept_partial : forall inode ords w b mb i m0 m tu ti lu li k reads l n s r,
  both inode w b mb -> mb i = Some m0 -> trained_on m0 m tu ti -> numeric m0 -> safe inode w b (OAssign i) ->
  (forall k rows, Permutation (ords k rows) rows) -> n_distinct "user" m0 <> 1%nat -> Forall (asks_ids m0) l ->
  db_net_run inode ords lu li k i reads l (n, w) = (s, r) ->
  exists b', reaches inode (snd s) b' /\ (forall j, j <> i -> b j <> None -> b' j = b j) /\ exists d, b' i = Some d /\ twin d m.
Proof.
  intros inode ords w b mb i m0 m tu ti lu li k reads l n s r B Hi T Nm Sf Po N1 Hl Er.
  destruct (the_twin inode w b mb i m0 B Hi Nm Sf) as (d & Hb & Tw0 & Cd).
  destruct (net_run_same inode ords Po w b i d m0 m tu ti (both_reaches _ _ _ _ B) Sf Hb Tw0 T Nm Cd N1 lu li k reads l n Hl) as (s' & b' & E & F & X).
  rewrite E in Er. injection Er as <- _. destruct F as ((b1 & Eb & R) & Hb' & _). exists b1. split; [exact R|]. split.
  - intros j N Hj. rewrite Eb. exact (extends_note b i d b' X j N Hj).
  - exists (assigned d). split; [rewrite Eb; exact Hb'|exact (RecDbFacts6.Tw inode w b i d m0 m tu ti Sf Hb Tw0 T)].
Qed.
Print Assumptions C112_data_kept_partial.

(** the product of the vectors of the user and the item, entry by entry; as many
    scores as items, from the items the user has *)
Fixpoint dot9 (a b : list Qc) : Qc := match a, b with x :: a', y :: b' => (x * y + dot9 a' b')%Qc | _, _ => 0%Qc end.
Definition dmf9 : network := Dmf dot9.
Definition cdae9 : network := Cdae (Qc_of_Z 2) (fun u v => map (fun x => Qc_of_Z (2 * x + u)) v).
Definition told9 (r : res (option (Qc + list Qc) + list (Qc * option value))) : res (list (Q * option value)) :=
  match r with
  | Ok (inl (Some (inl s))) => Ok [(this s, None)]
  | Ok (inl (Some (inr l))) => Ok (map (fun s => (this s, None)) l)
  | Ok (inl None) => Ok []
  | Ok (inr l) => Ok (map (fun p => (this (fst p), snd p)) l)
  | Err e => Err e
  end.
Definition told_all (r : res (list (res (option (Qc + list Qc) + list (Qc * option value))))) : res (list (res (list (Q * option value)))) :=
  l <- r ;; Ok (map told9 l).
Definition hypotheses9 : Prop :=
  facts7 rows8 /\ (forall k rows, Permutation (ords7 k rows) rows) /\ n_distinct "user" (mem7 rows8) <> 1%nat /\ Forall (asks_ids (mem7 rows8)) asks7.
Lemma hypotheses9_ok : hypotheses9.
Proof. split; [exact facts7_rows8|]. split; [exact ords7_ok|]. split; [vm_compute; discriminate|]. apply asks7_ok; vm_compute; reflexivity. Qed.
Example C112_dmf_example : hypotheses9 /\
  told_all (snd (db_net_run disk ords7 0 0 dmf9 0 reads9 asks7 (0%nat, dbs [new7 rows8]))) =
    Ok [Ok [(0%Q, None)]; Err AssertionError; Ok [];
        Ok [(35%Q, Some (VInt 8)); (19%Q, Some (VInt 7)); (0%Q, Some (VInt 9))]; Ok [(0%Q, Some (VInt 9))]] /\
  told_all (net_run dmf9 (mem7 rows8) reads9 asks7) = told_all (snd (db_net_run disk ords7 0 0 dmf9 0 reads9 asks7 (0%nat, dbs [new7 rows8]))).
Proof. split; [exact hypotheses9_ok|]. split; vm_compute; reflexivity. Qed.
Example C112_cdae_example : hypotheses9 /\
  told_all (snd (db_net_run disk ords7 0 0 cdae9 0 reads9 asks7 (0%nat, dbs [new7 rows8]))) =
    Ok [Ok [(1%Q, None)]; Err AssertionError; Ok [];
        Ok [(2%Q, Some (VInt 8)); (2%Q, Some (VInt 7)); (0%Q, Some (VInt 9))]; Ok [(0%Q, Some (VInt 9))]] /\
  told_all (net_run cdae9 (mem7 rows8) reads9 asks7) = told_all (snd (db_net_run disk ords7 0 0 cdae9 0 reads9 asks7 (0%nat, dbs [new7 rows8]))).
Proof. split; [exact hypotheses9_ok|]. split; vm_compute; reflexivity. Qed.
Example C112_data_kept_example : hypotheses9 /\
  (rows <- snd (values disk asis 0 (Some ["user"; "uid"; "iid"; "interaction"]) false
                 (snd (fst (db_net_run disk ords7 0 0 cdae9 0 reads9 asks7 (0%nat, dbs [new7 rows8]))))) ;; Ok (firstn 2 rows)) =
    Ok [[Some (VStr "b"); Some (VInt 0); Some (VInt 0); Some (VInt 3)]; [Some (VStr "a"); Some (VInt 1); Some (VInt 1); Some (VInt 4)]].
Proof. split; [exact hypotheses9_ok|]. vm_compute. reflexivity. Qed.

(** With one user DMF cannot predict in memory once a vector was read. *)
Theorem C112_one_user_refuted : ~ (forall inode ords w b mb i m0 m tu ti lu li k reads l n,
  both inode w b mb -> mb i = Some m0 -> trained_on m0 m tu ti -> numeric m0 -> safe inode w b (OAssign i) ->
  (forall k rows, Permutation (ords k rows) rows) -> Forall (asks_ids m0) l ->
  exists n' w', db_net_run inode ords lu li k i reads l (n, w) = ((n', w'), net_run k m0 reads l)).
Proof.
  intro H. destruct facts7_rows9 as (B & Hi & T & Nm & Sf).
  assert (A : Forall (asks_ids (mem7 rows9)) [APredict (VStr "b") (VInt 8) false]).
  { constructor; [|constructor]. split; [exists DObj|exists DInt]; (split; [vm_compute; reflexivity|split; [discriminate|reflexivity]]). }
  destruct (H disk ords7 _ _ _ 0%nat _ _ _ _ 9%nat 9%nat dmf9 [] _ 0%nat B Hi T Nm Sf ords7_ok A) as (n' & w' & E).
  apply (f_equal (fun p => told_all (snd p))) in E. cbn [snd] in E. vm_compute in E. discriminate.
Qed.
Print Assumptions C112_one_user_refuted.
Example C112_one_user_example : facts7 rows9 /\
  told_all (snd (db_net_run disk ords7 9 9 dmf9 0 [] [APredict (VStr "b") (VInt 8) false] (0%nat, dbs [new7 rows9]))) = Ok [Ok [(12%Q, None)]] /\
  told_all (net_run dmf9 (mem7 rows9) [] [APredict (VStr "b") (VInt 8) false]) = Ok [Err ValueError].
Proof. split; [exact facts7_rows9|]. split; vm_compute; reflexivity. Qed.
