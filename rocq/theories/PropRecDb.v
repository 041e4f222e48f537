(** C109, C110: the neighbourhood recommenders trained on a data set in a database.

    [both inode w b mb] (TwinSpec.v): the same program was run on data sets in
    memory, now [mb], and in databases, now in the state [w]; see PropTwin.v.
    [ords] are the orders in which SQLite returns the rows of one query after the
    other; any orders will do.
    [db_begin_fit], [db_run] (RecDbModel.v, RecDbSpec.v): fit and what is asked
    afterwards, on the data set [i] in the database. *)
From Coq Require Import String Ascii.
From Coq Require Import List ZArith QArith Qcanon Bool Permutation Lia.
From Verif Require Import Py PyFacts MemModel MemSpec MemFacts MemFacts4 RankModel RankSpec RankFacts KnnModel KnnSpec FitModel SimModel SimFacts5
  DbModel DbSpec DbFacts7 DbFacts8 DbFacts13 DbFacts15 DbCheck DbExamples DbGenSpec TwinSpec TwinFacts5 TwinFacts6 TwinCheck PropTwin
  RecDbModel RecDbSpec RecDbFacts RecDbFacts2 RecDbFacts3 RecDbFacts4 RecDbFacts5 RecDbFacts6.
Import ListNotations.
Open Scope string_scope.
Open Scope Z_scope.
Open Scope list_scope.

Lemma both_reaches inode w b mb : both inode w b mb -> reaches inode w b.
Proof.
  induction 1 as [fs F|w b mb ord o w' a H IH P Sf Ft E]; [apply Starts; exact F|].
  exact (Calls inode _ _ _ _ _ _ IH P Sf E).
Qed.
Lemma twin_complete d m : twin d m -> In "user" (m_columns m) -> In "item" (m_columns m) -> In "interaction" (m_columns m) -> complete d.
Proof.
  intros Tw Iu Ii Ix. split.
  - rewrite (tw_cols _ _ Tw). intros c [<-|[<-|[<-|[<-|[]]]]]; auto. apply (wf_cols _ (tw_wf _ _ Tw)). auto.
  - destruct (tw_types _ _ Tw) as (ts & Ts & Ty). exists ts. split; [auto|]. intros c Hc _. rewrite (tw_cols _ _ Tw) in Hc.
    destruct (col_type_ok m c (tw_wf _ _ Tw) Hc) as [t Ht]. exists t. auto.
Qed.
Section Uses.
Variables (inode : string -> nat) (w : world) (b : book) (mb : mbook) (i : nat) (m0 : mem).
Hypothesis B : both inode w b mb.
Hypothesis Hi : mb i = Some m0.
Hypothesis Nm : numeric m0.
Hypothesis Sf : safe inode w b (OAssign i).
Lemma the_twin : exists d, b i = Some d /\ twin d m0 /\ complete d.
Proof.
  destruct (both_inv inode w b mb B) as [_ Tw]. destruct (twins_mem _ _ _ _ Tw Hi) as (d & Hb & T & _). exists d. split; [auto|]. split; [auto|].
  destruct (cols_in inode w b i d m0 Sf Hb T) as [Iu Ii]. apply (twin_complete d m0); auto. apply Nm.
Qed.
End Uses.

(** *** C109: fit starts in the same way.  The statistics it stores are those of the
    same data set in memory, and it raises when and what it raises there. *)
Theorem C109_same_start : forall inode w b mb i m0 m tu ti n copy_dataset,
  both inode w b mb -> mb i = Some m0 -> trained_on m0 m tu ti -> numeric m0 -> safe inode w b (OAssign i) ->
  same_start (snd (db_begin_fit inode i copy_dataset (n, w))) (snd (begin_fit m0 copy_dataset)).
Proof.
  intros inode w b mb i m0 m tu ti n [|] B Hi T Nm Sf; [reflexivity|].
  destruct (the_twin inode w b mb i m0 B Hi Nm Sf) as (d & Hb & Tw & Cd).
  destruct (begin_runs inode w b i d m0 m tu ti (both_reaches _ _ _ _ B) Sf Hb Tw T Nm Cd n) as (s' & b' & r & E & _ & _ & r' & E' & S & _).
  rewrite E, E'. exact S.
Qed.
Print Assumptions C109_same_start.

(** *** C110: predictions, rankings and recommendations.  With one row per user and
    item and a similarity that does not look at the order of the rows, everything
    that is asked is answered as in memory, exceptions included.  The internal ids
    are in the data set afterwards, other data sets are as they were. *)
Theorem C110_same_answers_partial : forall inode ords w b mb i m0 m tu ti c simf l n,
  both inode w b mb -> mb i = Some m0 -> trained_on m0 m tu ti -> numeric m0 -> safe inode w b (OAssign i) ->
  (forall k rows, Permutation (ords k rows) rows) ->
  no_repeats (obs m) -> (forall es es', Permutation es es' -> simf es = simf es') -> Forall (asks_ids m0) l ->
  exists n' w', db_run inode ords c simf i l (n, w) = ((n', w'), mem_run c simf m0 l).
Proof.
  intros inode ords w b mb i m0 m tu ti c simf l n B Hi T Nm Sf Po Nr Ps Hl.
  destruct (the_twin inode w b mb i m0 B Hi Nm Sf) as (d & Hb & Tw & Cd).
  destruct (run_same inode ords Po w b i d m0 m tu ti (both_reaches _ _ _ _ B) Sf Hb Tw T Nm Cd c simf l n Nr Ps Hl) as ([n' w'] & b' & E & _).
  exists n', w'. exact E.
Qed.
Print Assumptions C110_same_answers_partial.

Theorem C110_data_kept_partial : forall inode ords w b mb i m0 m tu ti c simf l n s r,
  both inode w b mb -> mb i = Some m0 -> trained_on m0 m tu ti -> numeric m0 -> safe inode w b (OAssign i) ->
  (forall k rows, Permutation (ords k rows) rows) ->
  no_repeats (obs m) -> (forall es es', Permutation es es' -> simf es = simf es') -> Forall (asks_ids m0) l ->
  db_run inode ords c simf i l (n, w) = (s, r) ->
  exists b', reaches inode (snd s) b' /\ (forall j, j <> i -> b j <> None -> b' j = b j) /\ exists d, b' i = Some d /\ twin d m.
Proof.
  intros inode ords w b mb i m0 m tu ti c simf l n s r B Hi T Nm Sf Po Nr Ps Hl Er.
  destruct (the_twin inode w b mb i m0 B Hi Nm Sf) as (d & Hb & Tw0 & Cd).
  destruct (run_same inode ords Po w b i d m0 m tu ti (both_reaches _ _ _ _ B) Sf Hb Tw0 T Nm Cd c simf l n Nr Ps Hl) as (s' & b' & E & F & X).
  rewrite E in Er. injection Er as <- _. destruct F as ((b1 & Eb & R) & Hb' & _). exists b1. split; [exact R|]. split.
  - intros j N Hj. rewrite Eb. exact (extends_note b i d b' X j N Hj).
  - exists (assigned d). split; [rewrite Eb; exact Hb'|exact (RecDbFacts6.Tw inode w b i d m0 m tu ti Sf Hb Tw0 T)].
Qed.
Print Assumptions C110_data_kept_partial.

(** The similarities of the library do not look at the order of the rows. *)
Theorem C110_similarity_order : forall k es es', Permutation es es' -> sim_matrix_of k es = sim_matrix_of k es'.
Proof. exact sim_matrix_perm. Qed.
Print Assumptions C110_similarity_order.
Example C110_similarity_order_example : forall k,
  sim_matrix_of k [(0, 0, Qc_of_Z 1); (1, 0, Qc_of_Z 2)] = sim_matrix_of k [(1, 0, Qc_of_Z 2); (0, 0, Qc_of_Z 1)].
Proof. intro k. apply C110_similarity_order. apply perm_swap. Qed.

(** *** Concrete sessions: three users, three items *)
Definition new7 (rows : list trow) : op := OCreate "db.tmp.sqlite" cols6 types6 rows.
Definition rows7 : list trow :=
  [row6 0 "b" 7 3; row6 1 "a" 8 4; row6 2 "b" 8 5; row6 3 "c" 7 1; row6 5 "a" 7 2; row6 6 "c" 9 4].
(** the last row again, with another interaction *)
Definition rows8 : list trow := rows7 ++ [row6 8 "c" 9 1].
Definition mem7 (rows : list trow) : mem := match mems [new7 rows] 0%nat with Some m => m | None => mem_of_frame (mkFrame [] []) end.
Definition trained7 (rows : list trow) : mem := match assign_internal_ids (mem7 rows) with Ok m => m | Err _ => mem7 rows end.
(** a quarter for everything in common *)
Definition sim7 (es : list (Z * Z * Qc)) : res (list (Z * Z * Qc)) :=
  Ok (flat_map (fun a => map (fun b => (a, b, (Qc_of_Z (Z.of_nat (in_common es a b)) / Qc_of_Z 4)%Qc)) [0; 1; 2]) [0; 1; 2]).
Lemma sim7_perm es es' : Permutation es es' -> sim7 es = sim7 es'.
Proof. intro P. unfold sim7. cbn [flat_map map]. rewrite !(in_common_perm es es' _ _ P). reflexivity. Qed.
(** every other query returns its rows backwards *)
Definition ords7 (k : nat) (rows : list trow) : list trow := if Nat.even k then rev rows else rows.
Lemma ords7_ok k rows : Permutation (ords7 k rows) rows.
Proof. unfold ords7. destruct (Nat.even k); [apply Permutation_sym, Permutation_rev|apply Permutation_refl]. Qed.
Definition user7 : knn := mkKnn true 2 1 true None false.
Definition item7 : knn := mkKnn false 2 1 false (Some (Qc_of_Z 1)) true.
Definition asks7 : list ask :=
  [APredict (VStr "a") (VInt 9) false; APredict (VStr "z") (VInt 9) false; APredict (VStr "z") (VInt 9) true;
   ARank (VStr "b") [VInt 9; VInt 8; VInt 7] false true None; ARecommend (VStr "b") None true None].

Definition facts7 (rows : list trow) : Prop :=
  both disk (dbs [new7 rows]) (datas [new7 rows]) (mems [new7 rows]) /\ mems [new7 rows] 0%nat = Some (mem7 rows) /\
  trained_on (mem7 rows) (trained7 rows) DObj DInt /\ numeric (mem7 rows) /\ safe disk (dbs [new7 rows]) (datas [new7 rows]) (OAssign 0).
Definition numericb7 (m : mem) : bool :=
  forallb (fun r => match cell r "interaction" with Some (VInt z) => Z.abs z <=? 2 ^ 53 | _ => false end) (rows_of m).
Lemma numericb7_ok m : In "interaction" (m_columns m) -> numericb7 m = true -> numeric m.
Proof.
  unfold numericb7. rewrite forallb_forall. intros C H. split; [exact C|]. split.
  - intros r Hr. specialize (H r Hr). destruct (cell r "interaction") as [[z|q|t]|]; try discriminate. exists (VInt z), (Qc_of_Z z). auto.
  - intros r z Hr E. specialize (H r Hr). cbv beta in H. rewrite E in H. apply Z.leb_le. exact H.
Qed.
Lemma facts7_ok rows : done [new7 rows] = true -> mems [new7 rows] 0%nat = Some (mem7 rows) ->
  col_type (mem7 rows) "user" = Ok DObj -> col_type (mem7 rows) "item" = Ok DInt -> assign_internal_ids (mem7 rows) = Ok (trained7 rows) ->
  Z.of_nat (length (rows_of (mem7 rows))) <= 2 ^ 53 -> inb "interaction" (m_columns (mem7 rows)) = true -> numericb7 (mem7 rows) = true ->
  safeb disk (dbs [new7 rows]) (datas [new7 rows]) (OAssign 0) = true -> facts7 rows.
Proof.
  intros A B C D E F G H K. pose proof (done_ok _ A) as Bo. split; [exact Bo|]. split; [exact B|].
  destruct (both_inv _ _ _ _ Bo) as [I Tw]. split; [|split; [apply numericb7_ok; [apply inb_ok|]; auto|apply safeb_ok; auto]].
  destruct (twins_mem _ _ _ _ Tw B) as (d & _ & T & _). constructor; auto; try discriminate. exact (tw_wf _ _ T).
Qed.
Ltac by_facts7 := apply facts7_ok; try (vm_compute; reflexivity); try (vm_compute; discriminate).
Lemma facts7_rows7 : facts7 rows7. Proof. by_facts7. Qed.
Lemma facts7_rows8 : facts7 rows8. Proof. by_facts7. Qed.

(** answers with plain fractions *)
Definition said7 (r : res said) : res (list (Q * option value)) :=
  match r with
  | Ok (SScore (Some s)) => Ok [(this s, None)]
  | Ok (SScore None) => Ok []
  | Ok (SList l) => Ok (map (fun p => (this (fst p), snd p)) l)
  | Err e => Err e
  end.
Definition said_all (r : res (list (res said))) : res (list (res (list (Q * option value)))) := l <- r ;; Ok (map said7 l).

Definition info7 (f : fit_info) : option value * option value * nat * nat * nat := (fi_min f, fi_max f, fi_users f, fi_items f, fi_rows f).
Example C109_example : facts7 rows8 /\
  (f <- snd (db_begin_fit disk 0 false (0%nat, dbs [new7 rows8])) ;; Ok (info7 f)) = Ok (Some (VInt 0), Some (VInt 5), 3%nat, 3%nat, 7%nat) /\
  (f <- snd (begin_fit (mem7 rows8) false) ;; Ok (info7 f)) = Ok (Some (VInt 0), Some (VInt 5), 3%nat, 3%nat, 7%nat).
Proof. split; [exact facts7_rows8|]. split; vm_compute; reflexivity. Qed.

Definition hypotheses7 : Prop :=
  facts7 rows7 /\ no_repeats (obs (trained7 rows7)) /\ (forall k rows, Permutation (ords7 k rows) rows) /\
  (forall es es', Permutation es es' -> sim7 es = sim7 es') /\ Forall (asks_ids (mem7 rows7)) asks7.
Fixpoint nodupb (l : list (Z * Z)) : bool :=
  match l with [] => true | x :: l' => (negb (existsb (fun y => (fst x =? fst y) && (snd x =? snd y))%bool l') && nodupb l')%bool end.
Lemma nodupb_ok l : nodupb l = true -> NoDup l.
Proof.
  induction l as [|[a b] l IH]; cbn [nodupb]; [constructor|]. rewrite andb_true_iff, negb_true_iff. intros [A B]. constructor; [|auto].
  intro H. apply not_true_iff_false in A. apply A, existsb_exists. exists (a, b). split; [exact H|]. cbn [fst snd]. rewrite !Z.eqb_refl. reflexivity.
Qed.
Lemma asks7_ok rows : col_type (mem7 rows) "user" = Ok DObj -> col_type (mem7 rows) "item" = Ok DInt -> Forall (asks_ids (mem7 rows)) asks7.
Proof.
  intros Cu Ci. assert (U : forall s, raw_value (mem7 rows) "user" (VStr s)) by (intro s; exists DObj; split; [exact Cu|split; [discriminate|reflexivity]]).
  assert (It : forall z, raw_value (mem7 rows) "item" (VInt z)) by (intro z; exists DInt; split; [exact Ci|split; [discriminate|reflexivity]]).
  unfold asks7. repeat (apply Forall_cons; [cbn [asks_ids]; repeat split; auto; try apply U; repeat constructor; apply It|]). apply Forall_nil.
Qed.
Lemma hypotheses7_ok : hypotheses7.
Proof.
  split; [exact facts7_rows7|]. split; [apply nodupb_ok; vm_compute; reflexivity|]. split; [exact ords7_ok|]. split; [exact sim7_perm|].
  apply asks7_ok; vm_compute; reflexivity.
Qed.
Example C110_user_example : hypotheses7 /\
  said_all (snd (db_run disk ords7 user7 sim7 0 asks7 (0%nat, dbs [new7 rows7]))) =
    Ok [Ok [(4%Q, None)]; Err AssertionError; Ok [];
        Ok [(4%Q, Some (VInt 9)); (4%Q, Some (VInt 8)); (5 # 3, Some (VInt 7))]; Ok [(4%Q, Some (VInt 9))]] /\
  said_all (mem_run user7 sim7 (mem7 rows7) asks7) = said_all (snd (db_run disk ords7 user7 sim7 0 asks7 (0%nat, dbs [new7 rows7]))).
Proof. split; [apply hypotheses7_ok|]. split; vm_compute; reflexivity. Qed.
Example C110_item_example : hypotheses7 /\
  said_all (snd (db_run disk ords7 item7 sim7 0 asks7 (0%nat, dbs [new7 rows7]))) =
    Ok [Ok [(2%Q, None)]; Err AssertionError; Ok [];
        Ok [(5%Q, Some (VInt 7)); (3%Q, Some (VInt 9)); (3%Q, Some (VInt 8))]; Ok [(3%Q, Some (VInt 9))]] /\
  said_all (mem_run item7 sim7 (mem7 rows7) asks7) = said_all (snd (db_run disk ords7 item7 sim7 0 asks7 (0%nat, dbs [new7 rows7]))).
Proof. split; [apply hypotheses7_ok|]. split; vm_compute; reflexivity. Qed.
Example C110_data_kept_example : hypotheses7 /\
  (rows <- snd (values disk asis 0 (Some ["user"; "uid"; "iid"; "interaction"]) false
                 (snd (fst (db_run disk ords7 user7 sim7 0 asks7 (0%nat, dbs [new7 rows7]))))) ;; Ok (firstn 2 rows)) =
    Ok [[Some (VStr "b"); Some (VInt 0); Some (VInt 0); Some (VInt 3)]; [Some (VStr "a"); Some (VInt 1); Some (VInt 1); Some (VInt 4)]].
Proof. split; [apply hypotheses7_ok|]. vm_compute. reflexivity. Qed.

(** With a user and an item in two rows SQLite decides which one counts. *)
Theorem C110_repeats_refuted : ~ (forall inode ords w b mb i m0 m tu ti c simf l n,
  both inode w b mb -> mb i = Some m0 -> trained_on m0 m tu ti -> numeric m0 -> safe inode w b (OAssign i) ->
  (forall k rows, Permutation (ords k rows) rows) ->
  (forall es es', Permutation es es' -> simf es = simf es') -> Forall (asks_ids m0) l ->
  exists n' w', db_run inode ords c simf i l (n, w) = ((n', w'), mem_run c simf m0 l)).
Proof.
  intro H. destruct facts7_rows8 as (B & Hi & T & Nm & Sf).
  destruct (H disk (fun _ l => rev l) _ _ _ 0%nat _ _ _ _ user7 sim7 asks7 0%nat B Hi T Nm Sf
    (fun _ l => Permutation_sym (Permutation_rev l)) sim7_perm (asks7_ok rows8 eq_refl eq_refl)) as (n' & w' & E).
  apply (f_equal (fun p => said_all (snd p))) in E. cbn [snd] in E. vm_compute in E. discriminate.
Qed.
Print Assumptions C110_repeats_refuted.
