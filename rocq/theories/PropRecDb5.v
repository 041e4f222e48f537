(** C116: ranking and recommendation evaluation of recommenders trained on a data set
    in a database.

    [both], [ords] and the data of the examples are those of PropRecDb.v.
    [db_ranking], [mem_ranking], [db_recommendation], [mem_recommendation]
    (RecDbSpec5.v): fit of a recommender, then the process with the given test data.
    The tasks of the users take turns as [tsched] says; after [tt] steps the process
    is still running or has an outcome. *)
From Coq Require Import String Ascii.
From Coq Require Import List ZArith QArith Qcanon Reals Bool Permutation Lia Lra.
From Verif Require Import Py PyFacts MemModel MemSpec RankModel RankSpec KnnModel KnnSpec FitModel MetricModel EvalModel EvalSpec
  DbModel DbSpec DbFacts7 DbFacts8 DbFacts13 DbFacts15 DbCheck DbExamples DbGenSpec TwinSpec TwinFacts5 TwinCheck PropTwin
  RecDbModel RecDbModel2 RecDbModel3 RecDbModel4 RecDbModel5 RecDbSpec RecDbSpec2 RecDbSpec3 RecDbSpec4 RecDbSpec5 RecDbFacts2 RecDbFacts6
  RecDbFacts14 RecDbFacts15 DbSplitSpec DbSplitFacts11 PropDbSplit PropRecDb PropRecDb2 PropRecDb3 PropRecDb4.
From Verif Require Import MemFacts4 PropSplit PropEval.
Import ListNotations.
Open Scope string_scope.
Open Scope Z_scope.
Open Scope list_scope.

Section Uses.
Variables (inode : string -> nat) (ords : nat -> list trow -> list trow) (w : world) (b : book) (mb : mbook) (i : nat) (m0 m : mem)
  (lu li : nat) (L : ranker) (j : option nat) (mt : option mem) (t : slit) (n : nat).
Hypothesis B : both inode w b mb.
Hypothesis Hi : mb i = Some m0.
Hypothesis T : trained_on m0 m DInt DInt.
Hypothesis Nm : KnnSpec.numeric m0.
Hypothesis Sf : safe inode w b (OAssign i).
Hypothesis Po : forall k rows, Permutation (ords k rows) rows.
Hypothesis So : forall k, sorting (ords k).
Hypothesis Sw : small_world w.
Hypothesis HL : trains m0 m L.
Hypothesis D : int_data m.
Hypothesis Hj : same_test mb i j mt.
Hypothesis Dt : int_data (tested m mt).
Hypothesis Ht : threshold_ok t.

Lemma tests : exists d dt, b i = Some d /\ twin d m0 /\ complete d /\ note b i (Some (assigned d)) (match j with Some j => j | None => i end) = Some dt /\ complete dt /\
  twin dt (tested m mt) /\ is_train j = is_train mt.
Proof.
  destruct (the_twin inode w b mb i m0 B Hi Nm Sf) as (d & Hb & Tw & Cd). exists d.
  pose proof (RecDbFacts6.Tw inode w b i d m0 m DInt DInt Sf Hb Tw T) as Tm.
  destruct Hj as [[-> ->]|(k & m' & -> & Nk & -> & Hk)]; cbn [tested is_train] in *.
  - exists (assigned d). split; [auto|]. split; [auto|]. split; [auto|]. split; [apply note_same|]. split; [apply (RecDbFacts6.Cd inode d Cd)|auto].
  - destruct (both_inv inode w b mb B) as [_ Tws]. destruct (twins_mem _ _ _ _ Tws Hk) as (dk & Hbk & Tk & _). exists dk.
    split; [auto|]. split; [auto|]. split; [auto|]. rewrite note_other by exact Nk. split; [exact Hbk|]. split; [|auto].
    apply (twin_complete dk m' Tk); apply (EvalSpec.in_cols _ Dt); cbn; auto.
Qed.

Lemma ranking_session fmul fuel a rngs tsched sched u : e_thr a = lit_text t -> Forall blind_metric (e_metrics a) \/ no_floats (tested m mt) ->
  let mem := mem_ranking fmul fuel L m0 mt a rngs sched u in
  exists d, b i = Some d /\ twin d m0 /\
  (forall tt, exists s' x b', db_ranking inode ords lu li fmul fuel L i j a rngs tsched tt sched u (n, w) = (s', x) /\ fine inode i (assigned d) (snd s') b' /\ extends (note b i (Some (assigned d))) b' /\ (x = ERunning \/ x = mem)) /\
  (fair tsched -> exists T, forall tt, (T <= tt)%nat -> snd (db_ranking inode ords lu li fmul fuel L i j a rngs tsched tt sched u (n, w)) = mem).
Proof.
  intros Et Bl mem. destruct tests as (d & dt & Hb & Tw & Cd & Hd & Ct & Tt & Jt). exists d. split; [auto|]. split; [auto|].
  apply (ranking_run inode ords Po So w b i d m0 m (both_reaches _ _ _ _ B) Sf Hb Tw T Nm Cd D Sw j mt dt Hd Ct Tt Dt Jt lu li L t HL Ht fmul fuel a rngs tsched sched u n Et Bl).
Qed.
Lemma recommendation_session a rngs tsched sched u : r_thr a = lit_text t -> Forall blind_metric (r_metrics a) \/ no_floats (tested m mt) ->
  let mem := mem_recommendation L m0 mt a rngs sched u in
  exists d, b i = Some d /\ twin d m0 /\
  (forall tt, exists s' x b', db_recommendation inode ords lu li L i j a rngs tsched tt sched u (n, w) = (s', x) /\ fine inode i (assigned d) (snd s') b' /\ extends (note b i (Some (assigned d))) b' /\ (x = ERunning \/ x = mem)) /\
  (fair tsched -> exists T, forall tt, (T <= tt)%nat -> snd (db_recommendation inode ords lu li L i j a rngs tsched tt sched u (n, w)) = mem).
Proof.
  intros Et Bl mem. destruct tests as (d & dt & Hb & Tw & Cd & Hd & Ct & Tt & Jt). exists d. split; [auto|]. split; [auto|].
  apply (recommendation_run inode ords Po So w b i d m0 m (both_reaches _ _ _ _ B) Sf Hb Tw T Nm Cd D Sw j mt dt Hd Ct Tt Dt lu li L t HL Ht a rngs tsched sched u n Et Bl).
Qed.
End Uses.

(** *** Ranking evaluation.  However the tasks take turns, the process is running or has
    the outcome of the same evaluation in memory, an exception included; it gets
    there if every task goes on again and again.  The metrics do not tell 3 from
    3.0, or there are no columns of floats in the test data. *)
Theorem C116_ranking_partial : forall inode ords w b mb i m0 m lu li L j mt t n fmul fuel a rngs tsched sched u,
  both inode w b mb -> mb i = Some m0 -> trained_on m0 m DInt DInt -> KnnSpec.numeric m0 -> safe inode w b (OAssign i) ->
  (forall k rows, Permutation (ords k rows) rows) -> (forall k, sorting (ords k)) -> small_world w -> trains m0 m L -> int_data m ->
  same_test mb i j mt -> int_data (tested m mt) -> threshold_ok t -> e_thr a = lit_text t ->
  Forall blind_metric (e_metrics a) \/ no_floats (tested m mt) ->
  let in_db tt := snd (db_ranking inode ords lu li fmul fuel L i j a rngs tsched tt sched u (n, w)) in
  let in_memory := mem_ranking fmul fuel L m0 mt a rngs sched u in
  (forall tt, in_db tt = ERunning \/ in_db tt = in_memory) /\ (fair tsched -> exists T, forall tt, (T <= tt)%nat -> in_db tt = in_memory).
Proof.
  intros inode ords w b mb i m0 m lu li L j mt t n fmul fuel a rngs tsched sched u B Hi T Nm Sf Po So Sw HL D Hj Dt Ht Et Bl in_db in_memory.
  destruct (ranking_session inode ords w b mb i m0 m lu li L j mt t n B Hi T Nm Sf Po So Sw HL D Hj Dt Ht fmul fuel a rngs tsched sched u Et Bl) as (d & _ & _ & R1 & R2).
  split; [|exact R2]. intro tt. destruct (R1 tt) as (s' & x & b' & E & _ & _ & X). unfold in_db. rewrite E. exact X.
Qed.
Print Assumptions C116_ranking_partial.

(** *** Recommendation evaluation *)
Theorem C116_recommendation_partial : forall inode ords w b mb i m0 m lu li L j mt t n a rngs tsched sched u,
  both inode w b mb -> mb i = Some m0 -> trained_on m0 m DInt DInt -> KnnSpec.numeric m0 -> safe inode w b (OAssign i) ->
  (forall k rows, Permutation (ords k rows) rows) -> (forall k, sorting (ords k)) -> small_world w -> trains m0 m L -> int_data m ->
  same_test mb i j mt -> int_data (tested m mt) -> threshold_ok t -> r_thr a = lit_text t ->
  Forall blind_metric (r_metrics a) \/ no_floats (tested m mt) ->
  let in_db tt := snd (db_recommendation inode ords lu li L i j a rngs tsched tt sched u (n, w)) in
  let in_memory := mem_recommendation L m0 mt a rngs sched u in
  (forall tt, in_db tt = ERunning \/ in_db tt = in_memory) /\ (fair tsched -> exists T, forall tt, (T <= tt)%nat -> in_db tt = in_memory).
Proof.
  intros inode ords w b mb i m0 m lu li L j mt t n a rngs tsched sched u B Hi T Nm Sf Po So Sw HL D Hj Dt Ht Et Bl in_db in_memory.
  destruct (recommendation_session inode ords w b mb i m0 m lu li L j mt t n B Hi T Nm Sf Po So Sw HL D Hj Dt Ht a rngs tsched sched u Et Bl) as (d & _ & _ & R1 & R2).
  split; [|exact R2]. intro tt. destruct (R1 tt) as (s' & x & b' & E & _ & _ & X). unfold in_db. rewrite E. exact X.
Qed.
Print Assumptions C116_recommendation_partial.

(** *** The data: at any moment of an evaluation, the training data has the internal
    ids, the test data and all other data sets are as they were. *)
Theorem C116_data_kept_partial : forall inode ords w b mb i m0 m lu li L j mt t n,
  both inode w b mb -> mb i = Some m0 -> trained_on m0 m DInt DInt -> KnnSpec.numeric m0 -> safe inode w b (OAssign i) ->
  (forall k rows, Permutation (ords k rows) rows) -> (forall k, sorting (ords k)) -> small_world w -> trains m0 m L -> int_data m ->
  same_test mb i j mt -> int_data (tested m mt) -> threshold_ok t ->
  let kept s := exists b', reaches inode (snd s) b' /\ (forall j, j <> i -> b j <> None -> b' j = b j) /\ exists d, b' i = Some d /\ twin d m in
  (forall fmul fuel a rngs tsched tt sched u, e_thr a = lit_text t -> Forall blind_metric (e_metrics a) \/ no_floats (tested m mt) ->
     kept (fst (db_ranking inode ords lu li fmul fuel L i j a rngs tsched tt sched u (n, w)))) /\
  (forall a rngs tsched tt sched u, r_thr a = lit_text t -> Forall blind_metric (r_metrics a) \/ no_floats (tested m mt) ->
     kept (fst (db_recommendation inode ords lu li L i j a rngs tsched tt sched u (n, w)))).
Proof.
  intros inode ords w b mb i m0 m lu li L j mt t n B Hi T Nm Sf Po So Sw HL D Hj Dt Ht kept.
  assert (K : forall d s' b', b i = Some d -> twin d m0 -> fine inode i (assigned d) (snd s') b' -> extends (note b i (Some (assigned d))) b' -> kept s').
  { intros d s' b' Hb Tw0 F X. destruct F as ((b1 & Eb & R) & Hb' & _). exists b1. split; [exact R|]. split.
    - intros k N Hk. rewrite Eb. exact (extends_note b i d b' X k N Hk).
    - exists (assigned d). split; [rewrite Eb; exact Hb'|exact (RecDbFacts6.Tw inode w b i d m0 m DInt DInt Sf Hb Tw0 T)]. }
  split.
  - intros fmul fuel a rngs tsched tt sched u Et Bl.
    destruct (ranking_session inode ords w b mb i m0 m lu li L j mt t n B Hi T Nm Sf Po So Sw HL D Hj Dt Ht fmul fuel a rngs tsched sched u Et Bl) as (d & Hb & Tw & R1 & _).
    destruct (R1 tt) as (s' & x & b' & E & F & X & _). rewrite E. exact (K d s' b' Hb Tw F X).
  - intros a rngs tsched tt sched u Et Bl.
    destruct (recommendation_session inode ords w b mb i m0 m lu li L j mt t n B Hi T Nm Sf Po So Sw HL D Hj Dt Ht a rngs tsched sched u Et Bl) as (d & Hb & Tw & R1 & _).
    destruct (R1 tt) as (s' & x & b' & E & F & X & _). rewrite E. exact (K d s' b' Hb Tw F X).
Qed.
Print Assumptions C116_data_kept_partial.

(** *** The metrics of the library that do not tell 3 from 3.0: all but HitRatio. *)
Lemma same_common l r r' : Forall2 same_value r r' -> n_common val_eqb l r = n_common val_eqb l r'.
Proof.
  intro F. unfold n_common. f_equal. apply filter_ext. intro x.
  assert (G : Forall2 same_value (dedup val_eqb r) (dedup val_eqb r')).
  { unfold dedup. assert (S : Forall2 same_value [] []) by constructor. revert S. generalize (@nil value) at 1 3. generalize (@nil value).
    induction F as [|a c r r' H F IH]; intros s' s S; cbn [dedup_acc]; [constructor|]. rewrite (same_mem a c s s' H S).
    destruct (mem_b val_eqb c s'); [auto|]. constructor; [exact H|]. apply IH. constructor; [exact H|exact S]. }
  apply same_mem; [apply same_value_refl|exact G].
Qed.
Lemma same_precision l k r r' : Forall2 same_value r r' -> precision l k (Some r) = precision l k (Some r').
Proof. intro F. unfold precision. rewrite (same_common _ r r' F). reflexivity. Qed.
Lemma same_recall l k r r' : Forall2 same_value r r' -> recall l k (Some r) = recall l k (Some r').
Proof. intro F. unfold recall. rewrite (same_common _ r r' F), (F2_len _ _ _ F). reflexivity. Qed.
Lemma same_index x x' l : same_value x x' -> index_of val_eqb x l = index_of val_eqb x' l.
Proof. intro S. induction l as [|y l IH]; [auto|]. cbn [index_of]. rewrite IH, (same_eqb x x' y y S (same_value_refl _)). reflexivity. Qed.
Lemma same_ap l r r' : Forall2 same_value r r' -> forall todo p, ap_sum l r p todo = ap_sum l r' p todo.
Proof.
  intro F. induction todo as [|x todo IH]; intro p; [auto|]. cbn [ap_sum]. rewrite IH, (same_mem x x r r' (same_value_refl _) F), (same_precision l _ r r' F). reflexivity.
Qed.
Local Notation rel2 := (Forall2 (fun p p' : value * Q => same_value (fst p) (fst p') /\ snd p = snd p')).
Lemma same_assoc x x' r r' : same_value x x' -> rel2 r r' -> assoc val_eqb x r = assoc val_eqb x' r'.
Proof.
  intros S F. induction F as [|[y q] [y' q'] r r' [H E] _ IH]; [auto|]. cbn [assoc fst snd] in *. rewrite IH, (same_eqb x x' y y' S H), E. reflexivity.
Qed.
Lemma same_dcg_from strong r r' : rel2 r r' -> forall l l' p, Forall2 same_value l l' -> dcg_from strong r p l = dcg_from strong r' p l'.
Proof.
  intros F l l' p G. revert p. induction G as [|x x' l l' S _ IH]; intro p; [auto|]. cbn [dcg_from]. rewrite IH, (same_assoc x x' r r' S F). reflexivity.
Qed.
Lemma trunc_F2 {A C} (R : A -> C -> Prop) k l l' : Forall2 R l l' -> Forall2 R (py_trunc k l) (py_trunc k l').
Proof.
  intro F. destruct k as [k|]; [|exact F]. unfold py_trunc, py_take. rewrite (F2_len _ _ _ F).
  assert (X : forall n, Forall2 R (firstn n l) (firstn n l')).
  { clear - F. induction F as [|a c l l' H _ IH]; intro n; [destruct n; constructor|]. destruct n; cbn [firstn]; constructor; auto. }
  repeat match goal with |- context [if ?c then _ else _] => destruct c end; auto.
Qed.
Lemma same_dcg strong l l' k r r' : rel2 r r' -> Forall2 same_value l l' -> dcg strong l k (Some r) = dcg strong l' k (Some r').
Proof. intros F G. unfold dcg. apply same_dcg_from; [exact F|apply trunc_F2; exact G]. Qed.
Lemma same_refl l : Forall2 same_value l l.
Proof. induction l; constructor; auto. apply same_value_refl. Qed.
Lemma same_insert (p p' : value * Q) r r' : same_value (fst p) (fst p') /\ snd p = snd p' -> rel2 r r' ->
  rel2 (insert_by (fun a b => Qle_bool (snd b) (snd a)) p r) (insert_by (fun a b => Qle_bool (snd b) (snd a)) p' r').
Proof.
  intros H F. induction F as [|q q' r r' G F IH]; cbn [insert_by]; [constructor; [exact H|constructor]|]. rewrite (proj2 H), (proj2 G).
  destruct (Qle_bool _ _); constructor; auto. 
Qed.
Lemma same_best_order r r' : rel2 r r' -> Forall2 same_value (best_order r) (best_order r').
Proof.
  intro F. unfold best_order. assert (G : rel2 (sort_by (fun a b => Qle_bool (snd b) (snd a)) r) (sort_by (fun a b => Qle_bool (snd b) (snd a)) r')).
  { induction F as [|p p' r r' H F IH]; cbn [sort_by]; [constructor|]. apply same_insert; auto. }
  induction G as [|p p' x y [H _] _ IH]; cbn [map]; constructor; auto.
Qed.
Theorem C116_metrics_blind : forall beta strong,
  Forall blind_metric [Precision; Recall; ReciprocalRank; FScore beta; AveragePrecision; DCG strong; NDCG strong].
Proof.
  intros beta strong.
  assert (H : forall k c c', same_case c c' -> Forall (fun m => mc_call m c k = mc_call m c' k) [Precision; Recall; ReciprocalRank; FScore beta; AveragePrecision; DCG strong; NDCG strong]).
  { intros k c c' [E1 E2 E3 E4]. pose proof (same_precision (c_recs c') (Some k) _ _ E2) as Ep. pose proof (same_recall (c_recs c') (Some k) _ _ E2) as Er.
    pose proof (same_dcg strong (c_recs c') (c_recs c') (Some k) _ _ E4 (same_refl _)) as Ed.
    repeat constructor; cbn [mc_call Precision Recall ReciprocalRank FScore AveragePrecision DCG NDCG]; rewrite E1.
    - rewrite Ep. reflexivity.
    - rewrite Er. reflexivity.
    - destruct (c_best c) as [x|], (c_best c') as [x'|]; try contradiction; [|reflexivity]. unfold reciprocal_rank.
      rewrite (same_mem x x' _ _ E3 (same_refl _)), (same_index x x' _ E3). reflexivity.
    - unfold f_score. rewrite Ep, Er. reflexivity.
    - unfold average_precision. rewrite (same_ap (py_trunc (Some k) (c_recs c')) _ _ E2), (F2_len _ _ _ E2). reflexivity.
    - exact Ed.
    - unfold ndcg. rewrite Ed, (same_dcg strong _ _ (Some k) _ _ E4 (same_best_order _ _ E4)). reflexivity. }
  apply Forall_forall. intros m Hm c c' k S. specialize (H k c c' S). rewrite Forall_forall in H. exact (H m Hm).
Qed.
Print Assumptions C116_metrics_blind.
(** DCG of a dict with floats as keys, and with ints *)
Example C116_metrics_blind_example : forall strong,
  mc_call (DCG strong) (mkCase [VInt 3; VInt 5] [] None [(VFlt (Qc_of_Z 5), 2%Q); (VFlt (Qc_of_Z 3), 1%Q)]) 2 =
  mc_call (DCG strong) (mkCase [VInt 3; VInt 5] [] None [(VInt 5, 2%Q); (VInt 3, 1%Q)]) 2.
Proof.
  intro strong. pose proof (C116_metrics_blind 1%Q strong) as H. rewrite Forall_forall in H. apply (H (DCG strong)); [cbn; auto 10|].
  constructor; cbn [c_recs c_rel c_best c_rels]; [reflexivity|constructor|exact Logic.I|]. repeat constructor.
Qed.

(** *** Concrete evaluations: three users, five items *)
Definition types15 : list (string * dtype) := [("rid", DInt); ("user", DInt); ("item", DInt); ("interaction", DInt)].
Definition row15 (rid u i x : Z) : trow := [("user", Some (VInt u)); ("item", Some (VInt i)); ("interaction", Some (VInt x)); ("rid", Some (VInt rid))].
Definition rows15 : list trow := [row15 0 5 7 3; row15 1 6 8 4; row15 2 5 8 5; row15 3 9 7 1; row15 5 6 7 2; row15 6 9 9 4; row15 7 6 10 1; row15 8 5 11 4; row15 9 9 11 2].
Definition test15 : list trow := [row15 0 9 7 4; row15 1 5 9 5; row15 2 5 8 1; row15 4 6 9 1; row15 7 9 8 5].
Definition p15 : list op := [OCreate "db.tmp.sqlite" cols6 types15 rows15; OCreate "test.tmp.sqlite" cols6 types15 test15].
Definition at15 (p : list op) (k : nat) : mem := match mems p k with Some m => m | None => mem_of_frame (mkFrame [] []) end.
Definition trained15 (p : list op) : mem := match assign_internal_ids (at15 p 0) with Ok m => m | Err _ => at15 p 0 end.
Definition numberb (m : mem) (c : string) : bool := match col_type m c with Ok DInt => true | Ok DFloat => true | _ => false end.
Definition intb (t : option dtype) : bool := match t with Some DInt | None => true | _ => false end.
Definition int_datab (m : mem) : bool :=
  (match col_type m "user", col_type m "item" with Ok DInt, Ok DInt => true | _, _ => false end && numberb m "interaction" &&
   intb (assoc String.eqb "uid" (f_types (m_df m))) && intb (assoc String.eqb "iid" (f_types (m_df m))) &&
   forallb (fun c => inb c (m_columns m) && smallb m c) ["user"; "item"; "interaction"])%bool.
Lemma int_datab_ok m : wf_mem m -> int_datab m = true -> int_data m.
Proof.
  intros W H. unfold int_datab in H. rewrite !andb_true_iff, forallb_forall in H. destruct H as [[[[H1 H2] H3] H4] H5].
  assert (H6 : forall c, In c ["user"; "item"; "interaction"] -> In c (m_columns m) /\ small_col m c).
  { intros c Hc. specialize (H5 c Hc). apply andb_true_iff in H5. destruct H5. split; [apply inb_ok|apply smallb_ok]; auto. }
  destruct (col_type m "user") as [[]|] eqn:E1; try discriminate. destruct (col_type m "item") as [[]|] eqn:E2; try discriminate. constructor; auto.
  - intros c t [<-|[<-|[]]] E; [rewrite E in H3|rewrite E in H4]; destruct t; auto; discriminate.
  - intros c Hc. apply H6. exact Hc.
  - unfold numberb in H2. destruct (col_type m "interaction") as [[]|]; try discriminate; eexists; (split; [reflexivity|discriminate]).
  - intros c Hc. apply H6. exact Hc.
Qed.
Definition numericb15 (m : mem) : bool :=
  forallb (fun r => match cell r "interaction" with Some (VInt z) => Z.abs z <=? 2 ^ 53 | Some (VFlt _) => true | _ => false end) (rows_of m).
Lemma numericb15_ok m : In "interaction" (m_columns m) -> numericb15 m = true -> KnnSpec.numeric m.
Proof.
  unfold numericb15. rewrite forallb_forall. intros C H. split; [exact C|]. split.
  - intros r Hr. specialize (H r Hr). destruct (cell r "interaction") as [[z|q|t]|]; try discriminate; [exists (VInt z), (Qc_of_Z z)|exists (VFlt q), q]; auto.
  - intros r z Hr E. specialize (H r Hr). cbv beta in H. rewrite E in H. apply Z.leb_le. exact H.
Qed.
(** the training data is data set 0, the test data is data set 1 *)
Definition facts15 (p : list op) : Prop :=
  both disk (dbs p) (datas p) (mems p) /\ mems p 0%nat = Some (at15 p 0) /\ trained_on (at15 p 0) (trained15 p) DInt DInt /\ KnnSpec.numeric (at15 p 0) /\
  safe disk (dbs p) (datas p) (OAssign 0) /\ int_data (trained15 p) /\ same_test (mems p) 0 (Some 1%nat) (Some (at15 p 1)) /\ int_data (tested (trained15 p) (Some (at15 p 1))).
Lemma facts15_ok p : done p = true -> mems p 0%nat = Some (at15 p 0) -> mems p 1%nat = Some (at15 p 1) -> assign_internal_ids (at15 p 0) = Ok (trained15 p) ->
  Z.of_nat (length (rows_of (at15 p 0))) <= 2 ^ 53 -> numericb15 (at15 p 0) = true -> safeb disk (dbs p) (datas p) (OAssign 0) = true ->
  int_datab (at15 p 0) = true -> int_datab (trained15 p) = true -> int_datab (at15 p 1) = true -> facts15 p.
Proof.
  intros A H0 H1 E Z Nb Sb I0 I1 I2. pose proof (done_ok _ A) as Bo. destruct (both_inv _ _ _ _ Bo) as [I Tw].
  destruct (twins_mem _ _ _ _ Tw H0) as (d & _ & T0 & _). destruct (twins_mem _ _ _ _ Tw H1) as (d1 & _ & T1 & _).
  pose proof (int_datab_ok _ (tw_wf _ _ T0) I0) as D0.
  assert (T : trained_on (at15 p 0) (trained15 p) DInt DInt) by (constructor; auto; try discriminate; [exact (tw_wf _ _ T0)|apply D0|apply D0]).
  split; [exact Bo|]. split; [exact H0|]. split; [exact T|]. split; [apply numericb15_ok; [apply (EvalSpec.in_cols _ D0); cbn; auto|exact Nb]|].
  split; [apply safeb_ok; auto|]. split; [|split].
  - apply int_datab_ok; [|exact I1]. rewrite (RecDbFacts6.Em _ _ _ _ T). apply (RankFacts.wf_assigned _ DInt DInt); [apply (tw_wf _ _ T0)|apply D0|apply D0].
  - right. exists 1%nat, (at15 p 1). auto.
  - cbn [tested]. apply int_datab_ok; [exact (tw_wf _ _ T1)|exact I2].
Qed.
Lemma p15_ok : facts15 p15.
Proof. apply facts15_ok; try (vm_compute; reflexivity). vm_compute. discriminate. Qed.
Lemma p15_small : small_world (dbs p15).
Proof. intros n x H. destruct n as [|[|n]]; vm_compute in H; [| |discriminate H]; injection H as <-; cbn [i_before]; lia. Qed.
Lemma p15_floats : no_floats (tested (trained15 p15) (Some (at15 p15 1))).
Proof. cbn [tested]. intros c Hc N E. vm_compute in Hc. destruct Hc as [<-|[<-|[<-|[<-|[]]]]]; vm_compute in E; try discriminate E. Qed.
(** the tasks take turns: first task 0, then 0, 1, 2, then 0 to 4, ... *)
Definition turns15 (t : nat) : nat := (t - Nat.sqrt t * Nat.sqrt t)%nat.
Lemma turns15_fair : RecDbSpec5.fair turns15.
Proof.
  intros k t. set (n := Nat.max k t). exists (n * n + k)%nat. unfold turns15. assert (E : Nat.sqrt (n * n + k) = n) by (apply Nat.sqrt_unique; lia).
  rewrite E. nia.
Qed.
Definition user15 : ranker := RNeighbours user7 sim7.
Lemma user15_ok : trains (at15 p15 0) (trained15 p15) user15.
Proof. split; [apply nodupb_ok; vm_compute; reflexivity|exact sim7_perm]. Qed.
Definition hypotheses15 : Prop :=
  facts15 p15 /\ small_world (dbs p15) /\ no_floats (tested (trained15 p15) (Some (at15 p15 1))) /\ RecDbSpec5.fair turns15 /\ trains (at15 p15 0) (trained15 p15) user15 /\
  threshold_ok (LInt 3) /\ forall k : nat, sorting ((fun _ => by_id) k).
Lemma hypotheses15_ok : hypotheses15.
Proof.
  split; [exact p15_ok|]. split; [exact p15_small|]. split; [exact p15_floats|]. split; [exact turns15_fair|]. split; [exact user15_ok|]. split; [exact lit3_ok|]. intro; exact by_id_sorts.
Qed.

(** What the metrics are asked with, in the order of the users. *)
Definition re15 (users : option Z) (ms : list metric) : re_args := mkRe users [1; 2] (Some 1) (Some (NInt 1)) true "3" false 10 2 true ms.
Definition rc15 (users : option Z) (ms : list metric) : rc_args := mkRc users [1; 2] None "3" false None 10 2 true ms.
Definition rank_cases15 (ords : nat -> list trow -> list trow) (L : ranker) (p : list op) (tt : nat) : option (res (list (res (option case)))) :=
  match db_fit disk ords 9 9 L 0 (0%nat, dbs p) with
  | (s, Ok dm) => snd (db_cases disk ords 1 None 10 (fun _ u => db_rank_user disk ords exact_mul 20 dm false 1 (re15 None []) u e_rng) turns15 tt s)
  | (_, Err e) => Some (Err e)
  end.
Definition rec_cases15 (ords : nat -> list trow -> list trow) (L : ranker) (p : list op) (tt : nat) : option (res (list (res (option case)))) :=
  match db_fit disk ords 9 9 L 0 (0%nat, dbs p) with
  | (s, Ok dm) => snd (db_cases disk ords 1 None 10 (fun _ u => db_rec_user disk ords dm 1 (rc15 None []) u e_rng) turns15 tt s)
  | (_, Err e) => Some (Err e)
  end.
(** the whole evaluation *)
Definition ranking15 (ords : nat -> list trow -> list trow) (L : ranker) (p : list op) (a : re_args) (tt u : nat) : (nat * world) * eoutcome :=
  db_ranking disk ords 9 9 exact_mul 20 L 0 (Some 1%nat) a (fun _ => e_rng) turns15 tt turns u (0%nat, dbs p).
Definition mem_ranking15 (L : ranker) (p : list op) (a : re_args) (u : nat) : eoutcome :=
  mem_ranking exact_mul 20 L (at15 p 0) (Some (at15 p 1)) a (fun _ => e_rng) turns u.
Definition recommendation15 (ords : nat -> list trow -> list trow) (L : ranker) (p : list op) (a : rc_args) (tt u : nat) : (nat * world) * eoutcome :=
  db_recommendation disk ords 9 9 L 0 (Some 1%nat) a (fun _ => e_rng) turns15 tt turns u (0%nat, dbs p).
Definition mem_recommendation15 (L : ranker) (p : list op) (a : rc_args) (u : nat) : eoutcome :=
  mem_recommendation L (at15 p 0) (Some (at15 p 1)) a (fun _ => e_rng) turns u.
Lemma ranking15_is ords L p a tt u : ranking15 ords L p a tt u =
  db_ranking disk ords 9 9 exact_mul 20 L 0 (Some 1%nat) a (fun _ => e_rng) turns15 tt turns u (0%nat, dbs p).
Proof. reflexivity. Qed.
Lemma mem_ranking15_is L p a u : mem_ranking15 L p a u = mem_ranking exact_mul 20 L (at15 p 0) (Some (at15 p 1)) a (fun _ => e_rng) turns u.
Proof. reflexivity. Qed.
(** any function of the recommendations as a metric *)
Definition metric15 (f : list value -> R) : metric := mkMetric "M" (fun c _ => Ok (f (c_recs c))).
Definition values15 (f : list value -> R) (l l' : list value) : eoutcome :=
  let v := round4 ((0 + f l + f l') / IZR 2) in EDone [(("M", 1), v); (("M", 2), v)].
Example C116_ranking_example : hypotheses15 /\
  rank_cases15 (fun _ => by_id) user15 p15 400 =
    Some (Ok [Ok (Some (mkCase [VInt 7] [VInt 7] (Some (VInt 7)) [(VInt 7, 4%Q); (VInt 0, 0%Q)]));
              Ok (Some (mkCase [VInt 9; VInt 8] [VInt 9] (Some (VInt 9)) [(VInt 9, 5%Q); (VInt 8, 1%Q)])); Ok None]) /\
  forall f, snd (ranking15 (fun _ => by_id) user15 p15 (re15 None [metric15 f]) 100 200) = ERunning /\
    snd (ranking15 (fun _ => by_id) user15 p15 (re15 None [metric15 f]) 400 200) = values15 f [VInt 7] [VInt 9; VInt 8] /\
    mem_ranking15 user15 p15 (re15 None [metric15 f]) 200 = values15 f [VInt 7] [VInt 9; VInt 8].
Proof. split; [exact hypotheses15_ok|]. split; [vm_compute; reflexivity|]. intro f. repeat split; vm_compute; reflexivity. Qed.
Example C116_recommendation_example : hypotheses15 /\
  rec_cases15 (fun _ => by_id) user15 p15 400 =
    Some (Ok [Ok (Some (mkCase [VInt 8; VInt 11] [VInt 7; VInt 8] (Some (VInt 7)) [(VInt 7, 4%Q); (VInt 8, 5%Q); (VInt 11, 0%Q)]));
              Ok (Some (mkCase [VInt 9; VInt 8] [VInt 9] (Some (VInt 9)) [(VInt 9, 5%Q); (VInt 8, 1%Q)])); Ok None]) /\
  forall f, snd (recommendation15 (fun _ => by_id) user15 p15 (rc15 None [metric15 f]) 40 200) = ERunning /\
    snd (recommendation15 (fun _ => by_id) user15 p15 (rc15 None [metric15 f]) 400 200) = values15 f [VInt 8; VInt 11] [VInt 9; VInt 8] /\
    mem_recommendation15 user15 p15 (rc15 None [metric15 f]) 200 = values15 f [VInt 8; VInt 11] [VInt 9; VInt 8].
Proof. split; [exact hypotheses15_ok|]. split; [vm_compute; reflexivity|]. intro f. repeat split; vm_compute; reflexivity. Qed.
(** in the middle of an evaluation and at its end *)
Example C116_data_kept_example : hypotheses15 /\ forall tt, In tt [100; 400]%nat ->
  let w := snd (fst (ranking15 (fun _ => by_id) user15 p15 (re15 None [HitRatio]) tt 200)) in
  (rows <- snd (values disk asis 1 (Some ["user"; "item"; "interaction"]) false w) ;; Ok (firstn 2 rows)) =
    Ok [[Some (VInt 9); Some (VInt 7); Some (VInt 4)]; [Some (VInt 5); Some (VInt 9); Some (VInt 5)]] /\
  (rows <- snd (values disk asis 0 (Some ["uid"; "iid"; "interaction"]) false w) ;; Ok (firstn 2 rows)) =
    Ok [[Some (VInt 0); Some (VInt 0); Some (VInt 3)]; [Some (VInt 1); Some (VInt 1); Some (VInt 4)]].
Proof. split; [exact hypotheses15_ok|]. intros tt [<-|[<-|[]]]; split; vm_compute; reflexivity. Qed.

(** *** HitRatio and a column of floats: in memory the items of the test data are read as
    floats, and "7.0" is not among the recommendations. *)
Definition types16 : list (string * dtype) := [("rid", DInt); ("user", DInt); ("item", DInt); ("interaction", DFloat)].
Definition row16 (rid u i x : Z) : trow := [("user", Some (VInt u)); ("item", Some (VInt i)); ("interaction", Some (VFlt (Qc_of_Z x))); ("rid", Some (VInt rid))].
Definition p16 : list op := [OCreate "db.tmp.sqlite" cols6 types15 rows15; OCreate "test.tmp.sqlite" cols6 types16 [row16 0 9 7 4; row16 1 5 9 5; row16 2 5 8 1]].
Lemma p16_ok : facts15 p16.
Proof. apply facts15_ok; try (vm_compute; reflexivity). vm_compute. discriminate. Qed.
Lemma p16_small : small_world (dbs p16).
Proof. intros n x H. destruct n as [|[|n]]; vm_compute in H; [| |discriminate H]; injection H as <-; cbn [i_before]; lia. Qed.
Lemma user16_ok : trains (at15 p16 0) (trained15 p16) user15.
Proof. split; [apply nodupb_ok; vm_compute; reflexivity|exact sim7_perm]. Qed.
Definition hits16 (x : R) : eoutcome := EDone [(("HitRatio", 1), x); (("HitRatio", 2), x)].
Lemma round4_one : round4 ((0 + Q2R 1 + Q2R 1) / IZR 2) = 1%R.
Proof. replace ((0 + Q2R 1 + Q2R 1) / IZR 2)%R with (IZR 10000 / 10000)%R by (unfold Q2R; cbn; field). rewrite EvalFacts.round4_exact. field. Qed.
Lemma round4_none : round4 ((0 + Q2R 0 + Q2R 0) / IZR 2) = 0%R.
Proof. replace ((0 + Q2R 0 + Q2R 0) / IZR 2)%R with 0%R by (unfold Q2R; cbn; field). exact EvalFacts.round4_0. Qed.
Lemma hits16_ok : snd (ranking15 (fun _ => by_id) user15 p16 (re15 None [HitRatio]) 400 60) = hits16 1 /\
  mem_ranking15 user15 p16 (re15 None [HitRatio]) 60 = hits16 0.
Proof.
  split; [transitivity (hits16 (round4 ((0 + Q2R 1 + Q2R 1) / IZR 2))); [vm_compute; reflexivity|rewrite round4_one; reflexivity]|].
  transitivity (hits16 (round4 ((0 + Q2R 0 + Q2R 0) / IZR 2))); [vm_compute; reflexivity|rewrite round4_none; reflexivity].
Qed.
Theorem C116_hit_ratio_refuted : ~ (forall inode ords w b mb i m0 m lu li L j mt t n fmul fuel a rngs tsched sched u tt,
  both inode w b mb -> mb i = Some m0 -> trained_on m0 m DInt DInt -> KnnSpec.numeric m0 -> safe inode w b (OAssign i) ->
  (forall k rows, Permutation (ords k rows) rows) -> (forall k, sorting (ords k)) -> small_world w -> trains m0 m L -> int_data m ->
  same_test mb i j mt -> int_data (tested m mt) -> threshold_ok t -> e_thr a = lit_text t ->
  snd (db_ranking inode ords lu li fmul fuel L i j a rngs tsched tt sched u (n, w)) = ERunning \/
  snd (db_ranking inode ords lu li fmul fuel L i j a rngs tsched tt sched u (n, w)) = mem_ranking fmul fuel L m0 mt a rngs sched u).
Proof.
  intro H. destruct p16_ok as (B & Hi & T & Nm & Sf & D & St & Dt).
  pose proof (H disk (fun _ => by_id) _ _ _ 0%nat _ _ 9%nat 9%nat user15 _ _ (LInt 3) 0%nat exact_mul 20%nat (re15 None [HitRatio]) (fun _ => e_rng) turns15 turns 60%nat 400%nat
    B Hi T Nm Sf (fun _ => by_id_ok) (fun _ => by_id_sorts) p16_small user16_ok D St Dt lit3_ok eq_refl) as E.
  destruct hits16_ok as [E1 E2]. rewrite ranking15_is in E1. rewrite mem_ranking15_is in E2. rewrite E1, E2 in E. destruct E as [E|E]; [discriminate E|].
  injection E as E _. lra.
Qed.
Print Assumptions C116_hit_ratio_refuted.
Example C116_hit_ratio_example : facts15 p16 /\ small_world (dbs p16) /\ trains (at15 p16 0) (trained15 p16) user15 /\
  snd (ranking15 (fun _ => by_id) user15 p16 (re15 None [HitRatio]) 400 60) = hits16 1 /\ mem_ranking15 user15 p16 (re15 None [HitRatio]) 60 = hits16 0.
Proof. split; [exact p16_ok|]. split; [exact p16_small|]. split; [exact user16_ok|exact hits16_ok]. Qed.

(** *** Other orders of the rows: the users are evaluated in another order, so with a
    limit on their number these are other users. *)
Definition out15 (x : R) : eoutcome := EDone [(("M", 1), x); (("M", 2), x)].
Lemma order15_ok f : snd (ranking15 rev12 user15 p15 (re15 (Some 1) [metric15 f]) 400 60) = out15 0 /\
  mem_ranking15 user15 p15 (re15 (Some 1) [metric15 f]) 60 = out15 (round4 ((0 + f [VInt 7]) / IZR 1)).
Proof. split; vm_compute; reflexivity. Qed.
Theorem C116_order_refuted : ~ (forall inode ords w b mb i m0 m lu li L j mt t n fmul fuel a rngs tsched sched u tt,
  both inode w b mb -> mb i = Some m0 -> trained_on m0 m DInt DInt -> KnnSpec.numeric m0 -> safe inode w b (OAssign i) ->
  (forall k rows, Permutation (ords k rows) rows) -> small_world w -> trains m0 m L -> int_data m ->
  same_test mb i j mt -> int_data (tested m mt) -> threshold_ok t -> e_thr a = lit_text t -> Forall blind_metric (e_metrics a) -> no_floats (tested m mt) ->
  snd (db_ranking inode ords lu li fmul fuel L i j a rngs tsched tt sched u (n, w)) = ERunning \/
  snd (db_ranking inode ords lu li fmul fuel L i j a rngs tsched tt sched u (n, w)) = mem_ranking fmul fuel L m0 mt a rngs sched u).
Proof.
  intro H. destruct hypotheses15_ok as ((B & Hi & T & Nm & Sf & D & St & Dt) & Sw & Nf & _ & HL & Ht & _).
  set (f := fun _ : list value => 1%R).
  assert (Bl : Forall blind_metric [metric15 f]) by (constructor; [|constructor]; intros c c' k S; cbn [mc_call metric15]; rewrite (sc_recs _ _ S); reflexivity).
  pose proof (H disk rev12 _ _ _ 0%nat _ _ 9%nat 9%nat user15 _ _ (LInt 3) 0%nat exact_mul 20%nat (re15 (Some 1) [metric15 f]) (fun _ => e_rng) turns15 turns 60%nat 400%nat
    B Hi T Nm Sf rev12_ok Sw HL D St Dt Ht eq_refl Bl Nf) as E.
  destruct (order15_ok f) as [E1 E2]. rewrite ranking15_is in E1. rewrite mem_ranking15_is in E2. rewrite E1, E2 in E. destruct E as [E|E]; [discriminate E|].
  injection E as E _. unfold f in E. replace ((0 + 1) / IZR 1)%R with (IZR 10000 / 10000)%R in E by field. rewrite EvalFacts.round4_exact in E. lra.
Qed.
Print Assumptions C116_order_refuted.
Example C116_order_example : hypotheses15 /\ (forall k rows, Permutation (rev12 k rows) rows) /\ forall f,
  snd (ranking15 rev12 user15 p15 (re15 (Some 1) [metric15 f]) 400 60) = out15 0 /\
  mem_ranking15 user15 p15 (re15 (Some 1) [metric15 f]) 60 = out15 (round4 ((0 + f [VInt 7]) / IZR 1)).
Proof. split; [exact hypotheses15_ok|]. split; [exact rev12_ok|exact order15_ok]. Qed.

(** *** Test data with more than 5000 rows, two selections before: the data set of its
    users should get a table of its own, and that raises, with any model. *)
Theorem C116_large : forall inode ords dm j a a' tr fmul fuel rngs tsched t sched u n w b d,
  reaches inode w b -> b j = Some d -> complete d -> too_large w j "user" d ->
  (re_check a = Ok tt -> snd (db_ranking_evaluation inode ords fmul fuel dm tr j a rngs tsched t sched u (n, w)) = ERaised AssertionError) /\
  (rc_check a' = Ok tt -> snd (db_recommendation_evaluation inode ords dm j a' rngs tsched t sched u (n, w)) = ERaised AssertionError).
Proof.
  intros inode ords dm j a a' tr fmul fuel rngs tsched t sched u n w b d R Hb Cm Tl.
  destruct (unique_raises inode w b j d "user" R Hb) as [w' E]; [apply Cm; cbn; auto|discriminate|exact Tl|].
  assert (U : forall k, db_test_users inode ords j k (n, w) = ((n, w'), Err AssertionError)).
  { intro k. unfold db_test_users, pbind, db. cbn [fst snd]. rewrite E. reflexivity. }
  split; intro C; [unfold db_ranking_evaluation|unfold db_recommendation_evaluation]; rewrite C; unfold db_cases; rewrite U; reflexivity.
Qed.
Print Assumptions C116_large.
Theorem C116_large_refuted : exists d, reaches disk w_big b_big /\ b_big 0%nat = Some d /\ user_ints d /\
  forall ords dm tr fmul fuel rngs tsched t sched u n ms,
    snd (db_ranking_evaluation disk ords fmul fuel dm tr 0 (re15 None ms) rngs tsched t sched u (n, w_big)) = ERaised AssertionError /\
    snd (db_recommendation_evaluation disk ords dm 0 (rc15 None ms) rngs tsched t sched u (n, w_big)) = ERaised AssertionError.
Proof.
  pose proof big_reached as R. pose proof big_third as T. pose proof big_users as U.
  generalize dependent b_big. generalize dependent w_big. intros w T bk R U. destruct (bk 0%nat) as [d|] eqn:Hb; [|discriminate].
  destruct (third_too_large w bk d R Hb U T) as [Ui Tl].
  exists d. split; [exact R|]. split; [reflexivity|]. split; [exact Ui|]. intros ords dm tr fmul fuel rngs tsched t sched u n ms.
  destruct (C116_large disk ords dm 0%nat (re15 None ms) (rc15 None ms) tr fmul fuel rngs tsched t sched u n w bk d R Hb (ui_complete d Ui) Tl) as [H1 H2].
  split; [apply H1|apply H2]; reflexivity.
Qed.
Print Assumptions C116_large_refuted.
