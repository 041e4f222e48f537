(** C114: predictive evaluation of recommenders trained on a data set in a database.

    [both], [ords] and the data of the examples are those of PropRecDb.v.
    [db_evaluate], [mem_evaluate] (RecDbSpec4.v): fit of a neighbourhood recommender
    or DMF, then predictive_evaluation with the given test data. *)
From Coq Require Import String Ascii.
From Coq Require Import List ZArith QArith Qcanon Reals Bool Permutation Lia Lra.
From Verif Require Import Py PyFacts MemModel MemSpec RankModel RankSpec KnnModel KnnSpec FitModel MetricModel EvalModel
  DbModel DbSpec DbFacts7 DbFacts8 DbFacts13 DbFacts15 DbCheck DbExamples DbGenSpec TwinSpec TwinFacts5 TwinCheck PropTwin
  RecDbModel RecDbModel2 RecDbModel4 RecDbSpec RecDbSpec2 RecDbSpec4 RecDbFacts2 RecDbFacts6 RecDbFacts10 DbSplitSpec PropDbSplit PropRecDb PropRecDb2 PropRecDb3.
Import ListNotations.
Open Scope string_scope.
Open Scope Z_scope.
Open Scope list_scope.

Section Uses.
Variables (inode : string -> nat) (ords : nat -> list trow -> list trow) (w : world) (b : book) (mb : mbook) (i : nat) (m0 m : mem) (tu ti : dtype)
  (lu li : nat) (L : learner) (j : option nat) (mt : option mem) (a : pe_args) (n : nat).
Hypothesis B : both inode w b mb.
Hypothesis Hi : mb i = Some m0.
Hypothesis T : trained_on m0 m tu ti.
Hypothesis Nm : numeric m0.
Hypothesis Sf : safe inode w b (OAssign i).
Hypothesis Po : forall k rows, Permutation (ords k rows) rows.
Hypothesis HL : learns m0 m L.
Hypothesis Hj : same_test mb i j mt.
Hypothesis Dt : test_data m0 (tested m mt).
Lemma session : exists s' b' r d, db_evaluate inode ords lu li L i j a (n, w) = (s', r) /\ b i = Some d /\ twin d m0 /\
  fine inode i (assigned d) (snd s') b' /\ extends (note b i (Some (assigned d))) b' /\
  (r = mem_evaluate L m0 mt a \/ exists p' rs, (forall u it, exists p, p' u it true = Ok p) /\ Permutation rs (rows_of (tested m mt)) /\ ((forall k, sorting (ords k)) -> rs = rows_of (tested m mt)) /\
     r = evaluated p' a rs /\ mem_evaluate L m0 mt a = evaluated p' a (rows_of (tested m mt))).
Proof.
  destruct (the_twin inode w b mb i m0 B Hi Nm Sf) as (d & Hb & Tw & Cd).
  assert (X : exists dt, note b i (Some (assigned d)) (match j with Some j => j | None => i end) = Some dt /\ complete dt /\ twin dt (tested m mt)).
  { pose proof (RecDbFacts6.Tw inode w b i d m0 m tu ti Sf Hb Tw T) as Tm.
    destruct Hj as [[-> ->]|(k & m' & -> & Nk & -> & Hk)]; cbn [tested] in *.
    - exists (assigned d). split; [apply note_same|]. split; [apply (RecDbFacts6.Cd inode d Cd)|exact Tm].
    - destruct (both_inv inode w b mb B) as [_ Tws]. destruct (twins_mem _ _ _ _ Tws Hk) as (dk & Hbk & Tk & _). exists dk.
      rewrite note_other by exact Nk. split; [exact Hbk|]. split; [|exact Tk].
      destruct Dt as [(Ix & _) H]. apply (twin_complete dk m' Tk); [apply (H "user")|apply (H "item")|exact Ix]; cbn; auto. }
  destruct X as (dt & Ht & Ct & Tt).
  destruct (evaluate_runs inode ords Po w b i d m0 m tu ti (both_reaches _ _ _ _ B) Sf Hb Tw T Nm Cd j mt dt Ht Ct Tt Dt a L HL lu li n) as (s' & b' & r & E & F & X & R).
  exists s', b', r, d. auto 10.
Qed.
End Uses.

(** *** Every row of the test data is predicted, errors are skipped and the metrics do not
    look at the order of the predictions: in whatever order SQLite returns the
    rows, the result is that of the same evaluation in memory, exceptions
    included. *)
Theorem C114_same_results_partial : forall inode ords w b mb i m0 m tu ti lu li L j mt a n,
  both inode w b mb -> mb i = Some m0 -> trained_on m0 m tu ti -> numeric m0 -> safe inode w b (OAssign i) ->
  (forall k rows, Permutation (ords k rows) rows) -> learns m0 m L -> same_test mb i j mt -> test_data m0 (tested m mt) ->
  all_rows (tested m mt) a -> Forall orderless (p_metrics a) -> p_skip a = true ->
  exists n' w', db_evaluate inode ords lu li L i j a (n, w) = ((n', w'), mem_evaluate L m0 mt a).
Proof.
  intros inode ords w b mb i m0 m tu ti lu li L j mt a n B Hi T Nm Sf Po HL Hj Dt Al Om Sk.
  destruct (session inode ords w b mb i m0 m tu ti lu li L j mt a n B Hi T Nm Sf Po HL Hj Dt) as ([n' w'] & b' & r & d & E & _ & _ & _ & _ & R).
  exists n', w'. rewrite E. f_equal. destruct R as [->|(p' & rs & Hp & Pr & _ & -> & ->)]; [auto|].
  apply (evaluated_skip p' a (tested m mt)); auto. unfold mem_len. apply Permutation_length, Pr.
Qed.
Print Assumptions C114_same_results_partial.

(** *** Without skipping errors: one of them returns a result exactly when the other one
    does, and it is the same result. *)
Theorem C114_same_successes_partial : forall inode ords w b mb i m0 m tu ti lu li L j mt a n x,
  both inode w b mb -> mb i = Some m0 -> trained_on m0 m tu ti -> numeric m0 -> safe inode w b (OAssign i) ->
  (forall k rows, Permutation (ords k rows) rows) -> learns m0 m L -> same_test mb i j mt -> test_data m0 (tested m mt) ->
  all_rows (tested m mt) a -> Forall orderless (p_metrics a) ->
  (snd (db_evaluate inode ords lu li L i j a (n, w)) = Ok x <-> mem_evaluate L m0 mt a = Ok x).
Proof.
  intros inode ords w b mb i m0 m tu ti lu li L j mt a n x B Hi T Nm Sf Po HL Hj Dt Al Om.
  destruct (session inode ords w b mb i m0 m tu ti lu li L j mt a n B Hi T Nm Sf Po HL Hj Dt) as (s' & b' & r & d & E & _ & _ & _ & _ & R).
  rewrite E. cbn [snd]. destruct R as [->|(p' & rs & _ & Pr & _ & -> & ->)]; [tauto|].
  split; apply (evaluated_perm p' a (tested m mt)); auto; [apply Permutation_length, Pr|apply Permutation_sym, Pr].
Qed.
Print Assumptions C114_same_successes_partial.

(** *** Rows by record id: the same result for any number of predictions and any
    metrics, the exception included. *)
Theorem C114_by_record_id_partial : forall inode ords w b mb i m0 m tu ti lu li L j mt a n,
  both inode w b mb -> mb i = Some m0 -> trained_on m0 m tu ti -> numeric m0 -> safe inode w b (OAssign i) ->
  (forall k rows, Permutation (ords k rows) rows) -> (forall k, sorting (ords k)) ->
  learns m0 m L -> same_test mb i j mt -> test_data m0 (tested m mt) ->
  exists n' w', db_evaluate inode ords lu li L i j a (n, w) = ((n', w'), mem_evaluate L m0 mt a).
Proof.
  intros inode ords w b mb i m0 m tu ti lu li L j mt a n B Hi T Nm Sf Po So HL Hj Dt.
  destruct (session inode ords w b mb i m0 m tu ti lu li L j mt a n B Hi T Nm Sf Po HL Hj Dt) as ([n' w'] & b' & r & d & E & _ & _ & _ & _ & R).
  exists n', w'. rewrite E. f_equal. destruct R as [->|(p' & rs & _ & _ & Er & -> & ->)]; [auto|]. rewrite (Er So). reflexivity.
Qed.
Print Assumptions C114_by_record_id_partial.

(** The training data has the internal ids afterwards; the test data and all other
    data sets are as they were. *)
Theorem C114_data_kept_partial : forall inode ords w b mb i m0 m tu ti lu li L j mt a n s r,
  both inode w b mb -> mb i = Some m0 -> trained_on m0 m tu ti -> numeric m0 -> safe inode w b (OAssign i) ->
  (forall k rows, Permutation (ords k rows) rows) -> learns m0 m L -> same_test mb i j mt -> test_data m0 (tested m mt) ->
  db_evaluate inode ords lu li L i j a (n, w) = (s, r) ->
  exists b', reaches inode (snd s) b' /\ (forall j, j <> i -> b j <> None -> b' j = b j) /\ exists d, b' i = Some d /\ twin d m.
Proof.
  intros inode ords w b mb i m0 m tu ti lu li L j mt a n s r B Hi T Nm Sf Po HL Hj Dt Er.
  destruct (session inode ords w b mb i m0 m tu ti lu li L j mt a n B Hi T Nm Sf Po HL Hj Dt) as (s' & b' & r' & d & E & Hb & Tw0 & F & X & _).
  rewrite E in Er. injection Er as <- _. destruct F as ((b1 & Eb & R) & Hb' & _). exists b1. split; [exact R|]. split.
  - intros k N Hk. rewrite Eb. exact (extends_note b i d b' X k N Hk).
  - exists (assigned d). split; [rewrite Eb; exact Hb'|exact (RecDbFacts6.Tw inode w b i d m0 m tu ti Sf Hb Tw0 T)].
Qed.
Print Assumptions C114_data_kept_partial.

(** The metrics of the library do not look at the order. *)
Theorem C114_metrics_orderless : Forall orderless [mkPM "MSE" mse; mkPM "RMSE" rmse; mkPM "MAE" mae].
Proof.
  repeat constructor; intros l l' P; cbn [pm_call]; [|unfold rmse|]; try (apply checked_orderless; exact P).
  unfold mse. rewrite (checked_orderless _ l l' P). reflexivity.
Qed.
Print Assumptions C114_metrics_orderless.
Example C114_metrics_orderless_example : mse [1; 2; 3]%R [5; 6; 8]%R = mse [3; 1; 2]%R [8; 5; 6]%R.
Proof.
  pose proof (Forall_inv C114_metrics_orderless [(1, 5); (2, 6); (3, 8)]%R [(3, 8); (1, 5); (2, 6)]%R) as H. apply H.
  apply Permutation_sym. eapply Permutation_trans; [apply perm_swap|]. apply perm_skip, perm_swap.
Qed.

(** *** Concrete evaluations.  Test data with an unknown user and an unknown item; the
    result for any metric [f], from the true values and the predictions. *)
Definition rows12 : list trow :=
  [row6 0 "a" 9 4; row6 1 "z" 7 2; row6 2 "c" 8 3; row6 4 "b" 5 1; row6 7 "b" 7 3].
Definition p12 (rows test : list trow) : list op := [new7 rows; OCreate "test.tmp.sqlite" cols6 types6 test].
Definition at12 (rows test : list trow) (k : nat) : mem := match mems (p12 rows test) k with Some m => m | None => mem_of_frame (mkFrame [] []) end.
Definition trained12 (rows test : list trow) : mem := match assign_internal_ids (at12 rows test 0) with Ok m => m | Err _ => at12 rows test 0 end.
Definition facts12 (rows test : list trow) : Prop :=
  both disk (dbs (p12 rows test)) (datas (p12 rows test)) (mems (p12 rows test)) /\ mems (p12 rows test) 0%nat = Some (at12 rows test 0) /\
  trained_on (at12 rows test 0) (trained12 rows test) DObj DInt /\ numeric (at12 rows test 0) /\ safe disk (dbs (p12 rows test)) (datas (p12 rows test)) (OAssign 0) /\
  same_test (mems (p12 rows test)) 0 (Some 1%nat) (Some (at12 rows test 1)) /\ test_data (at12 rows test 0) (at12 rows test 1) /\ test_data (at12 rows test 0) (trained12 rows test).
Lemma test_data_ok m0 mt : inb "interaction" (m_columns mt) = true -> numericb7 mt = true -> inb "user" (m_columns mt) = true -> inb "item" (m_columns mt) = true ->
  col_type mt "user" = col_type m0 "user" -> col_type mt "item" = col_type m0 "item" -> smallb mt "user" = true -> smallb mt "item" = true -> test_data m0 mt.
Proof.
  intros A B C D E F G H. split; [apply numericb7_ok; [apply inb_ok|]; auto|]. intros c [<-|[<-|[]]]; (split; [apply inb_ok; auto|]); (split; [auto|apply smallb_ok; auto]).
Qed.
Lemma facts12_ok rows test : done (p12 rows test) = true -> mems (p12 rows test) 0%nat = Some (at12 rows test 0) -> mems (p12 rows test) 1%nat = Some (at12 rows test 1) ->
  col_type (at12 rows test 0) "user" = Ok DObj -> col_type (at12 rows test 0) "item" = Ok DInt -> assign_internal_ids (at12 rows test 0) = Ok (trained12 rows test) ->
  Z.of_nat (length (rows_of (at12 rows test 0))) <= 2 ^ 53 -> inb "interaction" (m_columns (at12 rows test 0)) = true -> numericb7 (at12 rows test 0) = true ->
  safeb disk (dbs (p12 rows test)) (datas (p12 rows test)) (OAssign 0) = true -> test_data (at12 rows test 0) (at12 rows test 1) -> test_data (at12 rows test 0) (trained12 rows test) -> facts12 rows test.
Proof.
  intros A B B1 C D E F G H K T1 T2. pose proof (done_ok _ A) as Bo. split; [exact Bo|]. split; [exact B|].
  destruct (both_inv _ _ _ _ Bo) as [I Tw]. split; [|split; [apply numericb7_ok; [apply inb_ok|]; auto|split; [apply safeb_ok; auto|]]].
  - destruct (twins_mem _ _ _ _ Tw B) as (d & _ & T & _). constructor; auto; try discriminate. exact (tw_wf _ _ T).
  - split; [|auto]. right. exists 1%nat, (at12 rows test 1). auto.
Qed.
Ltac by_facts12 := apply facts12_ok;
  match goal with
  | |- test_data _ _ => apply test_data_ok; vm_compute; reflexivity
  | |- (_ <= _)%Z => vm_compute; discriminate
  | |- _ => vm_compute; reflexivity
  end.
Lemma facts12_rows7 : facts12 rows7 rows12. Proof. by_facts12. Qed.
Lemma facts12_rows8 : facts12 rows8 rows12. Proof. by_facts12. Qed.

Definition args12 (cn sk : bool) (n : option Z) (f : list R -> list R -> res R) : pe_args := mkPe cn n sk [mkPM "M" f].
Definition user12 : learner := Neighbours user7 sim7.
Definition dmf12 : learner := Factors dot9 reads9.
Definition ints (l : list Z) : list R := map (fun z => R_of (Qc_of_Z z)) l.
Definition hypotheses12 : Prop :=
  facts12 rows7 rows12 /\ facts12 rows8 rows12 /\ (forall k rows, Permutation (ords7 k rows) rows) /\ learns (at12 rows7 rows12 0) (trained12 rows7 rows12) user12 /\ learns (at12 rows8 rows12 0) (trained12 rows8 rows12) dmf12.
Definition frac (a b : Z) : Qc := (Qc_of_Z a / Qc_of_Z b)%Qc.
Lemma hypotheses12_ok : hypotheses12.
Proof.
  split; [exact facts12_rows7|]. split; [exact facts12_rows8|]. split; [exact ords7_ok|]. split.
  - split; [apply nodupb_ok; vm_compute; reflexivity|exact sim7_perm].
  - vm_compute. discriminate.
Qed.
(** the value of [f] for these pairs of a prediction and a true value *)
Definition num12 (l : list (Qc * Qc)) (f : list R -> list R -> res R) : res (list (string * R)) :=
  metric_dict [mkPM "M" f] l.
Example C114_same_results_example : hypotheses12 /\ forall f,
  snd (db_evaluate disk ords7 0 0 user12 0 (Some 1%nat) (args12 true true None f) (0%nat, dbs (p12 rows7 rows12))) =
    num12 [(frac 5 3, frac 3 1); (0%Qc, frac 1 1); (frac 9 2, frac 3 1); (0%Qc, frac 2 1); (frac 4 1, frac 4 1)] f /\
  mem_evaluate user12 (at12 rows7 rows12 0) (Some (at12 rows7 rows12 1)) (args12 true true None f) =
    num12 [(frac 4 1, frac 4 1); (0%Qc, frac 2 1); (frac 9 2, frac 3 1); (0%Qc, frac 1 1); (frac 5 3, frac 3 1)] f.
Proof. split; [exact hypotheses12_ok|]. intro f. split; vm_compute; reflexivity. Qed.
Example C114_same_successes_example : hypotheses12 /\ forall f,
  snd (db_evaluate disk ords7 0 0 dmf12 0 None (args12 false false None f) (0%nat, dbs (p12 rows8 rows12))) =
    num12 [(frac 25 1, frac 1 1); (frac 25 1, frac 4 1); (frac 14 1, frac 2 1); (frac 8 1, frac 1 1); (frac 35 1, frac 5 1); (frac 26 1, frac 4 1); (frac 19 1, frac 3 1)] f /\
  mem_evaluate dmf12 (at12 rows8 rows12 0) None (args12 false false None f) =
    num12 [(frac 19 1, frac 3 1); (frac 26 1, frac 4 1); (frac 35 1, frac 5 1); (frac 8 1, frac 1 1); (frac 14 1, frac 2 1); (frac 25 1, frac 4 1); (frac 25 1, frac 1 1)] f.
Proof. split; [exact hypotheses12_ok|]. intro f. split; vm_compute; reflexivity. Qed.
Example C114_by_record_id_example : hypotheses12 /\ (forall k : nat, sorting ((fun _ => by_id) k)) /\ forall f,
  snd (db_evaluate disk (fun _ => by_id) 0 0 user12 0 (Some 1%nat) (args12 false true (Some 2) f) (0%nat, dbs (p12 rows7 rows12))) =
    num12 [(frac 4 1, frac 4 1); (frac 9 2, frac 3 1)] f /\
  mem_evaluate user12 (at12 rows7 rows12 0) (Some (at12 rows7 rows12 1)) (args12 false true (Some 2) f) =
    num12 [(frac 4 1, frac 4 1); (frac 9 2, frac 3 1)] f.
Proof. split; [exact hypotheses12_ok|]. split; [intros _; exact by_id_sorts|]. intro f. split; vm_compute; reflexivity. Qed.
Example C114_data_kept_example : hypotheses12 /\
  let w := snd (fst (db_evaluate disk ords7 0 0 user12 0 (Some 1%nat) (mkPe true None true []) (0%nat, dbs (p12 rows7 rows12)))) in
  (rows <- snd (values disk asis 0 (Some ["user"; "uid"; "iid"; "interaction"]) false w) ;; Ok (firstn 2 rows)) =
    Ok [[Some (VStr "b"); Some (VInt 0); Some (VInt 0); Some (VInt 3)]; [Some (VStr "a"); Some (VInt 1); Some (VInt 1); Some (VInt 4)]] /\
  (rows <- snd (values disk asis 1 (Some ["user"; "item"; "interaction"]) false w) ;; Ok (firstn 2 rows)) =
    Ok [[Some (VStr "a"); Some (VInt 9); Some (VInt 4)]; [Some (VStr "z"); Some (VInt 7); Some (VInt 2)]].
Proof. split; [exact hypotheses12_ok|]. split; vm_compute; reflexivity. Qed.

(** *** Fewer predictions than rows: which rows are predicted depends on their order,
    and so does whether there is a result. *)
Definition rev12 (k : nat) (rows : list trow) : list trow := rev rows.
Lemma rev12_ok k rows : Permutation (rev12 k rows) rows.
Proof. apply Permutation_sym, Permutation_rev. Qed.
Theorem C114_cut_refuted : ~ (forall inode ords w b mb i m0 m tu ti lu li L j mt a n x,
  both inode w b mb -> mb i = Some m0 -> trained_on m0 m tu ti -> numeric m0 -> safe inode w b (OAssign i) ->
  (forall k rows, Permutation (ords k rows) rows) -> learns m0 m L -> same_test mb i j mt -> test_data m0 (tested m mt) ->
  Forall orderless (p_metrics a) ->
  (snd (db_evaluate inode ords lu li L i j a (n, w)) = Ok x <-> mem_evaluate L m0 mt a = Ok x)).
Proof.
  intro H. destruct facts12_rows7 as (B & Hi & T & Nm & Sf & _ & _ & Dt). destruct hypotheses12_ok as (_ & _ & _ & HL & _).
  pose proof (H disk rev12 _ _ _ 0%nat _ _ _ _ 0%nat 0%nat user12 None None (mkPe false (Some 3) false []) 0%nat [] B Hi T Nm Sf rev12_ok HL
    (or_introl (conj eq_refl eq_refl)) Dt (Forall_nil _)) as E.
  destruct E as [_ E]. specialize (E ltac:(vm_compute; reflexivity)). vm_compute in E. discriminate.
Qed.
Print Assumptions C114_cut_refuted.
Example C114_cut_example : facts12 rows7 rows12 /\ learns (at12 rows7 rows12 0) (trained12 rows7 rows12) user12 /\
  snd (db_evaluate disk rev12 0 0 user12 0 None (mkPe false (Some 3) false []) (0%nat, dbs (p12 rows7 rows12))) = Err GenericException /\
  (forall f, mem_evaluate user12 (at12 rows7 rows12 0) None (args12 false false (Some 3) f) = num12 [(frac 5 3, frac 3 1); (frac 5 1, frac 4 1); (frac 4 1, frac 5 1)] f).
Proof. split; [exact facts12_rows7|]. split; [apply hypotheses12_ok|]. split; [vm_compute; reflexivity|intro f; vm_compute; reflexivity]. Qed.

(** *** Without skipping errors, the order of the rows decides which exception is
    raised: for the unknown user of the first row, or for the pair without a
    prediction of the second one. *)
Definition rows13 : list trow := [row6 0 "z" 7 2; row6 1 "c" 9 3].
Lemma facts12_rows13 : facts12 rows7 rows13. Proof. by_facts12. Qed.
Lemma learns13 : learns (at12 rows7 rows13 0) (trained12 rows7 rows13) user12.
Proof. split; [apply nodupb_ok; vm_compute; reflexivity|exact sim7_perm]. Qed.
Theorem C114_which_exception_refuted : ~ (forall inode ords w b mb i m0 m tu ti lu li L j mt a n,
  both inode w b mb -> mb i = Some m0 -> trained_on m0 m tu ti -> numeric m0 -> safe inode w b (OAssign i) ->
  (forall k rows, Permutation (ords k rows) rows) -> learns m0 m L -> same_test mb i j mt -> test_data m0 (tested m mt) ->
  all_rows (tested m mt) a -> Forall orderless (p_metrics a) ->
  snd (db_evaluate inode ords lu li L i j a (n, w)) = mem_evaluate L m0 mt a).
Proof.
  intro H. destruct facts12_rows13 as (B & Hi & T & Nm & Sf & St & Dt & _).
  pose proof (H disk rev12 _ _ _ 0%nat _ _ _ _ 0%nat 0%nat user12 (Some 1%nat) _ (mkPe false None false []) 0%nat B Hi T Nm Sf rev12_ok learns13
    St Dt Logic.I (Forall_nil _)) as E.
  vm_compute in E. discriminate.
Qed.
Print Assumptions C114_which_exception_refuted.
Example C114_which_exception_example : facts12 rows7 rows13 /\ learns (at12 rows7 rows13 0) (trained12 rows7 rows13) user12 /\
  snd (db_evaluate disk rev12 0 0 user12 0 (Some 1%nat) (mkPe false None false []) (0%nat, dbs (p12 rows7 rows13))) = Err GenericException /\
  mem_evaluate user12 (at12 rows7 rows13 0) (Some (at12 rows7 rows13 1)) (mkPe false None false []) = Err AssertionError.
Proof. split; [exact facts12_rows13|]. split; [exact learns13|]. split; vm_compute; reflexivity. Qed.

(** *** A metric that looks at the first row. *)
Definition first13 (y_true y_pred : list R) : res R := if Req_EM_T (hd 0%R y_true) 4 then Ok 0%R else Err ValueError.
Theorem C114_metric_refuted : ~ (forall inode ords w b mb i m0 m tu ti lu li L j mt a n,
  both inode w b mb -> mb i = Some m0 -> trained_on m0 m tu ti -> numeric m0 -> safe inode w b (OAssign i) ->
  (forall k rows, Permutation (ords k rows) rows) -> learns m0 m L -> same_test mb i j mt -> test_data m0 (tested m mt) ->
  all_rows (tested m mt) a -> p_skip a = true ->
  snd (db_evaluate inode ords lu li L i j a (n, w)) = mem_evaluate L m0 mt a).
Proof.
  intro H. destruct facts12_rows7 as (B & Hi & T & Nm & Sf & St & Dt & _). destruct hypotheses12_ok as (_ & _ & Po & HL & _).
  pose proof (H disk ords7 _ _ _ 0%nat _ _ _ _ 0%nat 0%nat user12 (Some 1%nat) _ (args12 true true None first13) 0%nat B Hi T Nm Sf Po HL
    St Dt Logic.I eq_refl) as E.
  destruct (proj2 C114_same_results_example first13) as [E1 E2]. rewrite E1, E2 in E. unfold num12, metric_dict, first13 in E. cbn [map hd fst snd mapM pm_call pm_name] in E.
  replace (R_of (frac 3 1)) with 3%R in E by (unfold R_of, frac, Q2R; vm_compute (this _); cbn; lra).
  replace (R_of (frac 4 1)) with 4%R in E by (unfold R_of, frac, Q2R; vm_compute (this _); cbn; lra).
  destruct (Req_EM_T 3 4) as [e|_]; [lra|]. destruct (Req_EM_T 4 4) as [_|c]; [discriminate E|]. apply c. reflexivity.
Qed.
Print Assumptions C114_metric_refuted.
Example C114_metric_example : hypotheses12 /\ forall f,
  snd (db_evaluate disk ords7 0 0 user12 0 (Some 1%nat) (args12 false true None f) (0%nat, dbs (p12 rows7 rows12))) =
    num12 [(frac 5 3, frac 3 1); (frac 9 2, frac 3 1); (frac 4 1, frac 4 1)] f /\
  mem_evaluate user12 (at12 rows7 rows12 0) (Some (at12 rows7 rows12 1)) (args12 false true None f) =
    num12 [(frac 4 1, frac 4 1); (frac 9 2, frac 3 1); (frac 5 3, frac 3 1)] f.
Proof. split; [exact hypotheses12_ok|]. intro f. split; vm_compute; reflexivity. Qed.

(** *** Integers beyond 2^53 in a data set of numbers with a column of floats: in memory
    the ids of a test row are rounded, and the user is unknown. *)
Definition new14 : op := OCreate "db.tmp.sqlite" cols11 types11
  [row11 0 (2 ^ 53 + 1) 7 (Qc_of_Z 1) 1; row11 1 (2 ^ 53 + 1) 8 (Qc_of_Z 1 / Qc_of_Z 2)%Qc 2; row11 2 2 9 (Qc_of_Z 1) 3].
Definition mem14 : mem := match mems [new14] 0%nat with Some m => m | None => mem_of_frame (mkFrame [] []) end.
Definition trained14 : mem := match assign_internal_ids mem14 with Ok m => m | Err _ => mem14 end.
Definition facts14 : Prop :=
  both disk (dbs [new14]) (datas [new14]) (mems [new14]) /\ mems [new14] 0%nat = Some mem14 /\
  trained_on mem14 trained14 DInt DInt /\ numeric mem14 /\ safe disk (dbs [new14]) (datas [new14]) (OAssign 0) /\
  numeric trained14 /\ (forall c, In c ["user"; "item"] -> In c (m_columns trained14) /\ col_type trained14 c = col_type mem14 c).
Lemma facts14_ok : facts14.
Proof.
  assert (D : done [new14] = true) by (vm_compute; reflexivity). assert (Hm : mems [new14] 0%nat = Some mem14) by (vm_compute; reflexivity).
  pose proof (done_ok _ D) as Bo. split; [exact Bo|]. split; [exact Hm|].
  destruct (both_inv _ _ _ _ Bo) as [I Tw]. split; [|split; [apply numericb11_ok; [apply inb_ok|]; vm_compute; reflexivity|split; [apply safeb_ok; first [exact I|vm_compute; reflexivity]|]]].
  - destruct (twins_mem _ _ _ _ Tw Hm) as (d & _ & T & _). constructor; try (vm_compute; reflexivity); try (vm_compute; discriminate). exact (tw_wf _ _ T).
  - split; [apply numericb11_ok; [apply inb_ok|]; vm_compute; reflexivity|]. intros c [<-|[<-|[]]]; (split; [apply inb_ok|]; vm_compute; reflexivity).
Qed.
Theorem C114_big_ids_refuted : ~ (forall inode ords w b mb i m0 m tu ti lu li L j mt a n,
  both inode w b mb -> mb i = Some m0 -> trained_on m0 m tu ti -> numeric m0 -> safe inode w b (OAssign i) ->
  (forall k rows, Permutation (ords k rows) rows) -> (forall k, sorting (ords k)) -> learns m0 m L -> same_test mb i j mt ->
  numeric (tested m mt) -> (forall c, In c ["user"; "item"] -> In c (m_columns (tested m mt)) /\ col_type (tested m mt) c = col_type m0 c) ->
  all_rows (tested m mt) a -> Forall orderless (p_metrics a) ->
  snd (db_evaluate inode ords lu li L i j a (n, w)) = mem_evaluate L m0 mt a).
Proof.
  intro H. destruct facts14_ok as (B & Hi & T & Nm & Sf & Nt & Ct).
  pose proof (H disk (fun _ => by_id) _ _ _ 0%nat _ _ _ _ 0%nat 0%nat dmf12 None None (mkPe false None false []) 0%nat B Hi T Nm Sf (fun _ => by_id_ok) (fun _ => by_id_sorts)
    ltac:(vm_compute; discriminate) (or_introl (conj eq_refl eq_refl)) Nt Ct Logic.I (Forall_nil _)) as E.
  vm_compute in E. discriminate.
Qed.
Print Assumptions C114_big_ids_refuted.
Example C114_big_ids_example : facts14 /\ learns mem14 trained14 dmf12 /\
  (forall f, snd (db_evaluate disk (fun _ => by_id) 0 0 dmf12 0 None (args12 false false None f) (0%nat, dbs [new14])) =
    num12 [(frac 1 1, frac 1 1); (frac 1 2, frac 1 2); (0%Qc, frac 1 1)] f) /\
  mem_evaluate dmf12 mem14 None (mkPe false None false []) = Err AssertionError.
Proof. split; [exact facts14_ok|]. split; [vm_compute; discriminate|]. split; [intro f|]; vm_compute; reflexivity. Qed.
