(** C113: Caser on a data set in a database.

    [both], [ords] and the data of the examples are those of PropRecDb.v;
    [db_caser_run], [caser_run] (RecDbSpec3.v): the start of fit, then questions to
    the recommender.  [sorting ord] (DbSplitSpec.v): [ord] returns the rows by
    record id. *)
From Coq Require Import String Ascii.
From Coq Require Import List ZArith QArith Qcanon Bool Permutation Lia.
From Verif Require Import Py PyFacts MemModel MemSpec RankModel RankSpec KnnModel KnnSpec FitModel
  DbModel DbSpec DbFacts7 DbFacts8 DbFacts13 DbFacts15 DbCheck DbExamples DbGenSpec TwinSpec TwinFacts5 TwinCheck PropTwin
  RecDbModel RecDbModel3 RecDbSpec RecDbSpec3 RecDbFacts2 RecDbFacts6 RecDbFacts9 DbSplitSpec PropDbSplit PropRecDb PropRecDb2.
Import ListNotations.
Open Scope string_scope.
Open Scope Z_scope.
Open Scope list_scope.

(** *** The column the records are sorted by is there, holds no integers beyond 2^53,
    and no two records of a user have the same value in it: whatever the network
    computes and in whatever order SQLite returns the rows, everything that is
    asked is answered as in memory, exceptions included. *)
Theorem C113_same_answers_partial : forall inode ords w b mb i m0 m tu ti c k l n,
  both inode w b mb -> mb i = Some m0 -> trained_on m0 m tu ti -> numeric m0 -> safe inode w b (OAssign i) ->
  (forall k rows, Permutation (ords k rows) rows) ->
  cs_sort c = Some k -> In k (m_columns m) -> small_col m k -> distinct_keys m k -> Forall (asks_ids m0) l ->
  exists n' w', db_caser_run inode ords c i l (n, w) = ((n', w'), caser_run c m0 l).
Proof.
  intros inode ords w b mb i m0 m tu ti c k l n B Hi T Nm Sf Po Ek Ik Sk Dk Hl.
  destruct (the_twin inode w b mb i m0 B Hi Nm Sf) as (d & Hb & Tw & Cd).
  assert (O : times_ok m c \/ file_order ords m c) by (left; exists k; auto).
  destruct (caser_run_same inode ords Po w b i d m0 m tu ti (both_reaches _ _ _ _ B) Sf Hb Tw T Nm Cd c O l n Hl) as ([n' w'] & b' & E & _).
  exists n', w'. exact E.
Qed.
Print Assumptions C113_same_answers_partial.

(** *** The same without a column to sort by, or with equal values in it, when SQLite
    returns the rows by record id. *)
Theorem C113_by_record_id_partial : forall inode ords w b mb i m0 m tu ti c l n,
  both inode w b mb -> mb i = Some m0 -> trained_on m0 m tu ti -> numeric m0 -> safe inode w b (OAssign i) ->
  (forall k rows, Permutation (ords k rows) rows) -> (forall t, sorting (ords t)) ->
  (forall k, cs_sort c = Some k -> In k (m_columns m) -> small_col m k) -> Forall (asks_ids m0) l ->
  exists n' w', db_caser_run inode ords c i l (n, w) = ((n', w'), caser_run c m0 l).
Proof.
  intros inode ords w b mb i m0 m tu ti c l n B Hi T Nm Sf Po So Sk Hl.
  destruct (the_twin inode w b mb i m0 B Hi Nm Sf) as (d & Hb & Tw & Cd).
  assert (O : times_ok m c \/ file_order ords m c) by (right; split; auto).
  destruct (caser_run_same inode ords Po w b i d m0 m tu ti (both_reaches _ _ _ _ B) Sf Hb Tw T Nm Cd c O l n Hl) as ([n' w'] & b' & E & _).
  exists n', w'. exact E.
Qed.
Print Assumptions C113_by_record_id_partial.

(** The data set has the internal ids afterwards, the others are as they were. *)
Theorem C113_data_kept_partial : forall inode ords w b mb i m0 m tu ti c l n s r,
  both inode w b mb -> mb i = Some m0 -> trained_on m0 m tu ti -> numeric m0 -> safe inode w b (OAssign i) ->
  (forall k rows, Permutation (ords k rows) rows) ->
  (forall k, cs_sort c = Some k -> In k (m_columns m) -> small_col m k) ->
  ((exists k, cs_sort c = Some k /\ In k (m_columns m) /\ distinct_keys m k) \/ (forall t, sorting (ords t))) ->
  Forall (asks_ids m0) l -> db_caser_run inode ords c i l (n, w) = (s, r) ->
  exists b', reaches inode (snd s) b' /\ (forall j, j <> i -> b j <> None -> b' j = b j) /\ exists d, b' i = Some d /\ twin d m.
Proof.
  intros inode ords w b mb i m0 m tu ti c l n s r B Hi T Nm Sf Po Sk Od Hl Er.
  destruct (the_twin inode w b mb i m0 B Hi Nm Sf) as (d & Hb & Tw0 & Cd).
  assert (O : times_ok m c \/ file_order ords m c) by (destruct Od as [(k & E & I & D)|So]; [left; exists k; auto|right; split; auto]).
  destruct (caser_run_same inode ords Po w b i d m0 m tu ti (both_reaches _ _ _ _ B) Sf Hb Tw0 T Nm Cd c O l n Hl) as (s' & b' & E & F & X).
  rewrite E in Er. injection Er as <- _. destruct F as ((b1 & Eb & R) & Hb' & _). exists b1. split; [exact R|]. split.
  - intros j N Hj. rewrite Eb. exact (extends_note b i d b' X j N Hj).
  - exists (assigned d). split; [rewrite Eb; exact Hb'|exact (RecDbFacts6.Tw inode w b i d m0 m tu ti Sf Hb Tw0 T)].
Qed.
Print Assumptions C113_data_kept_partial.

(** *** Concrete sessions.  The network returns three scores that depend on the order
    of the last two items; the records are sorted by their interaction. *)
Definition net10 (uid : Z) (l : list Z) : res (list Qc) :=
  if (length l =? 2)%nat then Ok (map (fun j => Qc_of_Z ((100 * uid + fold_left (fun a x => 3 * a + x + 1) l 1) mod (j + 5))) [0; 1; 2]) else Err ValueError.
Definition caser10 (k : option string) : caser := mkCaser k 2 net10.
Definition distinctb (m : mem) (k : string) : bool :=
  forallb (fun r => forallb (fun r' => orb (r_rid r =? r_rid r') (orb (negb (match cell r "uid", cell r' "uid" with Some (VInt a), Some (VInt b) => a =? b | _, _ => true end))
    (match row_val r k, row_val r' k with Some x, Some y => negb (val_eqb x y) | _, _ => true end))) (rows_of m)) (rows_of m).
Lemma distinctb_ok m k : distinctb m k = true -> distinct_keys m k.
Proof.
  unfold distinctb, distinct_keys. intros H r r' x y Hr Hr' N U Ex Ey. rewrite forallb_forall in H. specialize (H r Hr). cbv beta in H.
  rewrite forallb_forall in H. specialize (H r' Hr'). cbv beta in H. rewrite Ex, Ey in H. destruct (r_rid r =? r_rid r') eqn:E; [apply Z.eqb_eq in E; contradiction|].
  cbn [orb] in H. rewrite U in H. destruct (val_eqb x y); [|reflexivity]. destruct (cell r' "uid") as [[z|q|t]|]; cbn [negb orb] in H; try discriminate.
  rewrite Z.eqb_refl in H. discriminate.
Qed.
Definition smallb (m : mem) (k : string) : bool :=
  forallb (fun r => match cell r k with Some (VInt z) => Z.abs z <=? 2 ^ 53 | _ => true end) (rows_of m).
Lemma smallb_ok m k : smallb m k = true -> small_col m k.
Proof.
  unfold smallb. intros H r z Hr E. rewrite forallb_forall in H. specialize (H r Hr). cbv beta in H. rewrite E in H. apply Z.leb_le. exact H.
Qed.
Definition hypotheses10 (rows : list trow) (k : string) : Prop :=
  facts7 rows /\ (forall k rows, Permutation (ords7 k rows) rows) /\ In k (m_columns (trained7 rows)) /\ small_col (trained7 rows) k /\
  Forall (asks_ids (mem7 rows)) asks7.
Ltac by_hypotheses10 facts := split; [exact facts|split; [exact ords7_ok|split; [apply inb_ok; vm_compute; reflexivity|
  split; [apply smallb_ok; vm_compute; reflexivity|apply asks7_ok; vm_compute; reflexivity]]]].
(** in [rows7] the interactions of a user are different *)
Example C113_example : hypotheses10 rows7 "interaction" /\ distinct_keys (trained7 rows7) "interaction" /\
  told_all (snd (db_caser_run disk ords7 (caser10 (Some "interaction")) 0 asks7 (0%nat, dbs [new7 rows7]))) =
    Ok [Err NotImplementedError; Err AssertionError; Ok [];
        Ok [(4%Q, Some (VInt 7)); (2%Q, Some (VInt 8)); (0%Q, Some (VInt 9))]; Ok [(0%Q, Some (VInt 9))]] /\
  told_all (caser_run (caser10 (Some "interaction")) (mem7 rows7) asks7) =
    told_all (snd (db_caser_run disk ords7 (caser10 (Some "interaction")) 0 asks7 (0%nat, dbs [new7 rows7]))).
Proof.
  split; [by_hypotheses10 facts7_rows7|]. split; [apply distinctb_ok; vm_compute; reflexivity|].
  split; [|vm_compute; reflexivity]. vm_compute. reflexivity.
Qed.
(** equal interactions: [sorting] orders *)
Definition rows10 : list trow :=
  [row6 0 "b" 7 3; row6 1 "a" 8 4; row6 2 "b" 8 3; row6 3 "c" 7 1; row6 5 "a" 7 2; row6 6 "c" 9 4].
Lemma facts7_rows10 : facts7 rows10. Proof. by_facts7. Qed.
Definition ask10 : list ask := [ARank (VStr "b") [VInt 9; VInt 8; VInt 7] false true None; ARecommend (VStr "b") None true None].
Lemma ask10_ok rows : col_type (mem7 rows) "user" = Ok DObj -> col_type (mem7 rows) "item" = Ok DInt -> Forall (asks_ids (mem7 rows)) ask10.
Proof. intros Cu Ci. pose proof (asks7_ok rows Cu Ci) as H. unfold asks7 in H. do 3 apply Forall_inv_tail in H. exact H. Qed.
Example C113_by_record_id_example : hypotheses10 rows10 "interaction" /\ (forall t : nat, sorting ((fun _ => by_id) t)) /\ ~ distinct_keys (trained7 rows10) "interaction" /\
  told_all (snd (db_caser_run disk (fun _ => by_id) (caser10 (Some "interaction")) 0 asks7 (0%nat, dbs [new7 rows10]))) =
    Ok [Err NotImplementedError; Err AssertionError; Ok [];
        Ok [(4%Q, Some (VInt 7)); (2%Q, Some (VInt 8)); (0%Q, Some (VInt 9))]; Ok [(0%Q, Some (VInt 9))]] /\
  told_all (caser_run (caser10 (Some "interaction")) (mem7 rows10) asks7) =
    told_all (snd (db_caser_run disk (fun _ => by_id) (caser10 (Some "interaction")) 0 asks7 (0%nat, dbs [new7 rows10]))) /\
  told_all (snd (db_caser_run disk (fun _ => by_id) (caser10 None) 0 ask10 (0%nat, dbs [new7 rows7]))) =
    told_all (caser_run (caser10 None) (mem7 rows7) ask10).
Proof.
  split; [by_hypotheses10 facts7_rows10|]. split; [intros _; exact by_id_sorts|]. split.
  { intro D. set (rs := rows_of (trained7 rows10)). vm_compute in rs.
    assert (I0 : In (nth 0 rs (mkRow 0 [])) (rows_of (trained7 rows10))) by (vm_compute; auto).
    assert (I2 : In (nth 2 rs (mkRow 0 [])) (rows_of (trained7 rows10))) by (vm_compute; auto 6).
    pose proof (D _ _ (VInt 3) (VInt 3) I0 I2 ltac:(vm_compute; discriminate) eq_refl eq_refl eq_refl) as X. vm_compute in X. discriminate. }
  split; [vm_compute; reflexivity|]. split; vm_compute; reflexivity.
Qed.
Example C113_data_kept_example : hypotheses10 rows7 "interaction" /\ distinct_keys (trained7 rows7) "interaction" /\
  (rows <- snd (values disk asis 0 (Some ["user"; "uid"; "iid"; "interaction"]) false
                 (snd (fst (db_caser_run disk ords7 (caser10 (Some "interaction")) 0 asks7 (0%nat, dbs [new7 rows7]))))) ;; Ok (firstn 2 rows)) =
    Ok [[Some (VStr "b"); Some (VInt 0); Some (VInt 0); Some (VInt 3)]; [Some (VStr "a"); Some (VInt 1); Some (VInt 1); Some (VInt 4)]].
Proof. split; [by_hypotheses10 facts7_rows7|]. split; [apply distinctb_ok; vm_compute; reflexivity|]. vm_compute. reflexivity. Qed.

(** *** Without a column to sort by, the order of the rows decides which items are
    the last ones, and in which order. *)
Theorem C113_no_order_refuted : ~ (forall inode ords w b mb i m0 m tu ti c l n,
  both inode w b mb -> mb i = Some m0 -> trained_on m0 m tu ti -> numeric m0 -> safe inode w b (OAssign i) ->
  (forall k rows, Permutation (ords k rows) rows) ->
  (forall k, cs_sort c = Some k -> In k (m_columns m) -> small_col m k /\ distinct_keys m k) -> Forall (asks_ids m0) l ->
  exists n' w', db_caser_run inode ords c i l (n, w) = ((n', w'), caser_run c m0 l)).
Proof.
  intro H. destruct facts7_rows7 as (B & Hi & T & Nm & Sf).
  destruct (H disk (fun _ => @rev trow) _ _ _ 0%nat _ _ _ _ (caser10 None) ask10 0%nat B Hi T Nm Sf (fun _ l => Permutation_sym (Permutation_rev l)) ltac:(discriminate)
    (ask10_ok rows7 ltac:(vm_compute; reflexivity) ltac:(vm_compute; reflexivity))) as (n' & w' & E).
  apply (f_equal (fun p => told_all (snd p))) in E. cbn [snd] in E. vm_compute in E. discriminate.
Qed.
Print Assumptions C113_no_order_refuted.
Example C113_no_order_example : facts7 rows7 /\ Forall (asks_ids (mem7 rows7)) ask10 /\
  told_all (snd (db_caser_run disk (fun _ => @rev trow) (caser10 None) 0 ask10 (0%nat, dbs [new7 rows7]))) =
    Ok [Ok [(4%Q, Some (VInt 8)); (2%Q, Some (VInt 9)); (1%Q, Some (VInt 7))]; Ok [(2%Q, Some (VInt 9))]] /\
  told_all (caser_run (caser10 None) (mem7 rows7) ask10) =
    Ok [Ok [(4%Q, Some (VInt 7)); (2%Q, Some (VInt 8)); (0%Q, Some (VInt 9))]; Ok [(0%Q, Some (VInt 9))]].
Proof. split; [exact facts7_rows7|]. split; [apply ask10_ok; vm_compute; reflexivity|]. split; vm_compute; reflexivity. Qed.

(** *** Equal values in the column: the same. *)
Theorem C113_ties_refuted : ~ (forall inode ords w b mb i m0 m tu ti c k l n,
  both inode w b mb -> mb i = Some m0 -> trained_on m0 m tu ti -> numeric m0 -> safe inode w b (OAssign i) ->
  (forall k rows, Permutation (ords k rows) rows) ->
  cs_sort c = Some k -> In k (m_columns m) -> small_col m k -> Forall (asks_ids m0) l ->
  exists n' w', db_caser_run inode ords c i l (n, w) = ((n', w'), caser_run c m0 l)).
Proof.
  intro H. destruct facts7_rows10 as (B & Hi & T & Nm & Sf).
  destruct (H disk (fun _ => @rev trow) _ _ _ 0%nat _ _ _ _ (caser10 (Some "interaction")) "interaction" ask10 0%nat B Hi T Nm Sf (fun _ l => Permutation_sym (Permutation_rev l)) eq_refl
    ltac:(apply inb_ok; vm_compute; reflexivity) (smallb_ok (trained7 rows10) "interaction" ltac:(vm_compute; reflexivity))
    (ask10_ok rows10 ltac:(vm_compute; reflexivity) ltac:(vm_compute; reflexivity))) as (n' & w' & E).
  apply (f_equal (fun p => told_all (snd p))) in E. cbn [snd] in E. vm_compute in E. discriminate.
Qed.
Print Assumptions C113_ties_refuted.
Example C113_ties_example : hypotheses10 rows10 "interaction" /\ Forall (asks_ids (mem7 rows10)) ask10 /\
  told_all (snd (db_caser_run disk (fun _ => @rev trow) (caser10 (Some "interaction")) 0 ask10 (0%nat, dbs [new7 rows10]))) =
    Ok [Ok [(4%Q, Some (VInt 8)); (2%Q, Some (VInt 9)); (1%Q, Some (VInt 7))]; Ok [(2%Q, Some (VInt 9))]] /\
  told_all (caser_run (caser10 (Some "interaction")) (mem7 rows10) ask10) =
    Ok [Ok [(4%Q, Some (VInt 7)); (2%Q, Some (VInt 8)); (0%Q, Some (VInt 9))]; Ok [(0%Q, Some (VInt 9))]].
Proof. split; [by_hypotheses10 facts7_rows10|]. split; [apply ask10_ok; vm_compute; reflexivity|]. split; vm_compute; reflexivity. Qed.

(** *** Timestamps beyond 2^53.  All columns are numbers and the interactions are
    floats, so the records in memory are read as float64 and two timestamps
    become equal; in the database they are different. *)
Definition cols11 : list string := ["user"; "item"; "interaction"; "time"; "rid"].
Definition types11 : list (string * dtype) := [("rid", DInt); ("user", DInt); ("item", DInt); ("interaction", DFloat); ("time", DInt)].
Definition row11 (rid u i : Z) (x : Qc) (t : Z) : trow :=
  [("user", Some (VInt u)); ("item", Some (VInt i)); ("interaction", Some (VFlt x)); ("time", Some (VInt t)); ("rid", Some (VInt rid))].
Definition new11 : op := OCreate "db.tmp.sqlite" cols11 types11
  [row11 0 1 7 (Qc_of_Z 1) (2 ^ 53 + 1); row11 1 1 8 (Qc_of_Z 1 / Qc_of_Z 2)%Qc (2 ^ 53); row11 2 2 9 (Qc_of_Z 1) 3].
Definition mem11 : mem := match mems [new11] 0%nat with Some m => m | None => mem_of_frame (mkFrame [] []) end.
Definition trained11 : mem := match assign_internal_ids mem11 with Ok m => m | Err _ => mem11 end.
Definition facts11 : Prop :=
  both disk (dbs [new11]) (datas [new11]) (mems [new11]) /\ mems [new11] 0%nat = Some mem11 /\
  trained_on mem11 trained11 DInt DInt /\ numeric mem11 /\ safe disk (dbs [new11]) (datas [new11]) (OAssign 0).
Definition numericb11 (m : mem) : bool :=
  forallb (fun r => match cell r "interaction" with Some (VFlt _) => true | _ => false end) (rows_of m).
Lemma numericb11_ok m : In "interaction" (m_columns m) -> numericb11 m = true -> numeric m.
Proof.
  unfold numericb11. rewrite forallb_forall. intros C H. split; [exact C|]. split.
  - intros r Hr. specialize (H r Hr). destruct (cell r "interaction") as [[z|q|t]|]; try discriminate. exists (VFlt q), q. auto.
  - intros r z Hr E. specialize (H r Hr). cbv beta in H. rewrite E in H. discriminate.
Qed.
Lemma facts11_ok : facts11.
Proof.
  assert (D : done [new11] = true) by (vm_compute; reflexivity). assert (Hm : mems [new11] 0%nat = Some mem11) by (vm_compute; reflexivity).
  pose proof (done_ok _ D) as Bo. split; [exact Bo|]. split; [exact Hm|]. destruct (both_inv _ _ _ _ Bo) as [I Tw].
  split; [|split; [apply numericb11_ok; [apply inb_ok|]; vm_compute; reflexivity|apply safeb_ok; first [exact I|vm_compute; reflexivity]]].
  destruct (twins_mem _ _ _ _ Tw Hm) as (d & _ & T & _). constructor; try (vm_compute; reflexivity); try discriminate. 1: exact (tw_wf _ _ T).
  all: vm_compute; discriminate.
Qed.
Definition ask11 : list ask := [ARank (VInt 1) [VInt 9; VInt 8; VInt 7] false true None].
Lemma ask11_ok : Forall (asks_ids mem11) ask11.
Proof.
  repeat constructor; exists DInt; (split; [vm_compute; reflexivity|split; [discriminate|reflexivity]]).
Qed.
Theorem C113_big_times_refuted : ~ (forall inode ords w b mb i m0 m tu ti c k l n,
  both inode w b mb -> mb i = Some m0 -> trained_on m0 m tu ti -> numeric m0 -> safe inode w b (OAssign i) ->
  (forall k rows, Permutation (ords k rows) rows) -> (forall t, sorting (ords t)) ->
  cs_sort c = Some k -> In k (m_columns m) -> distinct_keys m k -> Forall (asks_ids m0) l ->
  exists n' w', db_caser_run inode ords c i l (n, w) = ((n', w'), caser_run c m0 l)).
Proof.
  intro H. destruct facts11_ok as (B & Hi & T & Nm & Sf).
  destruct (H disk (fun _ => by_id) _ _ _ 0%nat _ _ _ _ (caser10 (Some "time")) "time" ask11 0%nat B Hi T Nm Sf (fun _ => by_id_ok) (fun _ => by_id_sorts) eq_refl
    ltac:(apply inb_ok; vm_compute; reflexivity) (distinctb_ok trained11 "time" ltac:(vm_compute; reflexivity)) ask11_ok) as (n' & w' & E).
  apply (f_equal (fun p => told_all (snd p))) in E. cbn [snd] in E. vm_compute in E. discriminate.
Qed.
Print Assumptions C113_big_times_refuted.
Example C113_big_times_example : facts11 /\ distinct_keys trained11 "time" /\ Forall (asks_ids mem11) ask11 /\
  told_all (snd (db_caser_run disk (fun _ => by_id) (caser10 (Some "time")) 0 ask11 (0%nat, dbs [new11]))) =
    Ok [Ok [(4%Q, Some (VInt 8)); (2%Q, Some (VInt 9)); (1%Q, Some (VInt 7))]] /\
  told_all (caser_run (caser10 (Some "time")) mem11 ask11) = Ok [Ok [(4%Q, Some (VInt 7)); (2%Q, Some (VInt 8)); (0%Q, Some (VInt 9))]].
Proof. split; [exact facts11_ok|]. split; [apply distinctb_ok; vm_compute; reflexivity|]. split; [exact ask11_ok|]. split; vm_compute; reflexivity. Qed.
