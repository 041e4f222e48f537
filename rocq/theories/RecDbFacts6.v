(** The neighbourhood recommenders on a data set in a database and on the same
    data set in memory: the start of fit, and a whole session. *)
From Coq Require Import String Ascii.
From Coq Require Import List ZArith QArith Qcanon Bool Permutation Sorted Lia.
From Verif Require Import Py PyFacts MemModel MemSpec MemFacts MemFacts2 MemFacts3 MemFacts4 MemFacts5 RankModel RankSpec RankFacts RankFacts2 KnnModel KnnSpec KnnFacts KnnFacts2 KnnFacts3 FitModel
  DbModel DbFacts DbSpec DbFacts3 DbFacts7 DbFacts12 DbFacts13 DbFacts14 DbFacts15 DbFacts16 DbFacts18 SampModel DbGenModel DbGenSpec DbGenFacts DbGenFacts2
  DbSplitModel DbSplitSpec DbSplitFacts DbSplitFacts3 DbSplitFacts6 TwinSpec TwinFacts TwinFacts3 TwinFacts5 TwinFacts6 RecDbModel RecDbFacts RecDbFacts2 RecDbFacts3 RecDbFacts4 RecDbFacts5 RecDbSpec.
Import ListNotations.
Open Scope string_scope.
Open Scope Z_scope.
Open Scope list_scope.

Lemma lowered_same a b : same_cell a b -> same_cell (lowered a) (lowered b).
Proof.
  destruct a as [a|], b as [b|]; cbn [same_cell lowered]; auto; try tauto. intro H.
  assert (N : num_of a = num_of b) by (destruct a, b; cbn in *; auto; contradiction). rewrite N.
  destruct (num_of b) as [q|]; [|exact H]. destruct (Qc_eq_bool q 1); [|exact H]. reflexivity.
Qed.

Section Stats.
Variable inode : string -> nat.
Variables (i : nat) (d : ds) (m0 m : mem) (tu ti : dtype).
Hypothesis T : trained_on m0 m tu ti.
Hypothesis Nm : numeric m0.
Hypothesis Tw : twin d m.
Hypothesis Cd : complete d.
Local Notation cs := (m_columns m).
Local Notation runs := (runs inode i d).
Local Notation rdy := (rec_ready d m0 m tu ti T Nm Tw Cd).

Lemma rows_len : length (d_rows d) = mem_len m.
Proof. rewrite (Permutation_length (tw_rows _ _ Tw)), map_length. reflexivity. Qed.
Lemma number_type r : In r (rows_of m) -> exists t, col_type m "interaction" = Ok t /\ t <> DObj.
Proof.
  intro Hr. pose proof (has_interaction m0 m tu ti T Nm) as Ix. destruct (col_type_ok m "interaction" (tw_wf _ _ Tw) Ix) as [t Ht]. exists t. split; [auto|].
  intros ->. destruct (wf_cell m r "interaction" DObj (tw_wf _ _ Tw) Hr (col_type_assoc m "interaction" DObj ltac:(discriminate) Ht)) as (v & Ev & Tv).
  destruct (KnnFacts.good m0 m tu ti T Nm r Hr) as (_ & _ & v' & Ev' & Q). rewrite Ev in Ev'. injection Ev' as <-. destruct v; cbn in *; discriminate.
Qed.
Lemma counted c : In c ["uid"; "iid"] -> MemModel.count_unique m (Some [c]) = Ok (length (nodup cells_dec (map (cells [c]) (d_rows d)))).
Proof.
  intro Hc. apply (twin_count d m Tw); [|destruct Hc as [<-|[<-|[]]]; intros [X|[]]; discriminate|discriminate].
  destruct (trained_cols m0 m tu ti T) as [Cu Ci]. intros x [<-|[]]. destruct Hc as [<-|[<-|[]]]; auto.
Qed.
Lemma stats_runs b : runs b (db_statistics inode i) (fun b' r => extends b b' /\ exists f f', r = Ok f /\ statistics m = Ok f' /\ same_info f f').
Proof.
  unfold db_statistics, statistics. rewrite !counted by (cbn; auto).
  eapply runs_bind; [apply (min_runs inode i d rdy b)| |intros b' e (_ & v & X & _); discriminate].
  cbn beta. intros b1 lo0 (X1 & lo & E & Xlo). injection E as ->.
  eapply runs_bind; [apply (max_runs inode i d rdy b1)| |intros b' e (_ & v & X & _); discriminate].
  cbn beta. intros b2 hi0 (X2 & hi & E & Xhi). injection E as ->.
  eapply runs_bind; [apply (count_runs inode i d rdy b2 "uid"); apply (rec_cols d m0 m tu ti T Nm Tw Cd); cbn; auto| |intros b' e (_ & X); discriminate].
  cbn beta. intros b3 nu (X3 & E). apply ok_same in E. subst nu.
  eapply runs_bind; [apply (count_runs inode i d rdy b3 "iid"); apply (rec_cols d m0 m tu ti T Nm Tw Cd); cbn; auto| |intros b' e (_ & X); discriminate].
  cbn beta. intros b4 ni (X4 & E). apply ok_same in E. subst ni. apply runs_book. intro Hb4.
  eapply runs_bind; [apply (len_runs inode i d b4 i d Hb4)| |intros b' e (_ & X); discriminate].
  cbn beta. intros b5 n (X5 & E). apply ok_same in E. subst n. apply runs_ret.
  split; [eapply extends_trans; [exact X1|]; eapply extends_trans; [exact X2|]; eapply extends_trans; [exact X3|]; eapply extends_trans; eauto|].
  assert (Ex : exists lo' hi', mem_min m "interaction" = Ok lo' /\ same_cell lo lo' /\ mem_max m "interaction" = Ok hi' /\ same_cell hi hi').
  { pose proof (has_interaction m0 m tu ti T Nm) as Ix. destruct (rows_of m) as [|r rs] eqn:Er.
    - assert (Ed : d_rows d = []). { pose proof (tw_rows _ _ Tw) as Pr. rewrite Er in Pr. cbn [map] in Pr. apply Permutation_sym, Permutation_nil in Pr. auto. }
      assert (lo = None). { destruct lo as [v|]; [|auto]. destruct Xlo as ((row & Hr & _) & _). rewrite Ed in Hr. destruct Hr. }
      assert (hi = None). { destruct hi as [v|]; [|auto]. destruct Xhi as ((row & Hr & _) & _). rewrite Ed in Hr. destruct Hr. }
      subst. destruct (col_type_ok m "interaction" (tw_wf _ _ Tw) Ix) as [t Ht]. exists None, None.
      unfold mem_min, mem_max, col_extremum. rewrite Ht, Er. unfold validate_column. rewrite (proj2 (col_in_iff m "interaction") Ix). cbn [bind mapM same_cell]. auto.
    - assert (Hr : In r (rows_of m)) by (rewrite Er; left; auto). destruct (number_type r Hr) as (t & Ht & Nt).
      assert (Ne : rows_of m <> []) by (rewrite Er; discriminate).
      destruct (twin_min d m Tw "interaction" t lo Ix Ht Nt Ne Xlo) as (lo' & E1 & S1).
      destruct (twin_max d m Tw "interaction" t hi Ix Ht Nt Ne Xhi) as (hi' & E2 & S2). eauto 10. }
  destruct Ex as (lo' & hi' & -> & S1 & -> & S2). cbn [bind]. eexists. eexists. split; [reflexivity|]. split; [reflexivity|].
  unfold same_info. cbn [fi_min fi_max fi_users fi_items fi_rows]. split; [apply lowered_same; auto|]. split; [auto|]. rewrite rows_len. auto.
Qed.
Lemma stats_counts f : statistics m = Ok f -> fi_users f = n_distinct "user" m0 /\ fi_items f = n_distinct "item" m0.
Proof.
  unfold statistics. intro E. destruct (mem_min m "interaction"); cbn [bind] in E; [|discriminate]. destruct (mem_max m "interaction"); cbn [bind] in E; [|discriminate].
  destruct (entities_ok m0 m tu ti T Nm "uid" "user") as [Eu _]; [auto|]. destruct (entities_ok m0 m tu ti T Nm "iid" "item") as [Ei _]; [auto|].
  rewrite Eu, Ei in E. cbn [bind] in E. injection E as <-. auto.
Qed.
End Stats.

Section Start.
Variable inode : string -> nat.
Variable ords : nat -> list trow -> list trow.
Hypothesis Po : forall k, permuting (ords k).
Variables (w0 : world) (b0 : book) (i : nat) (d0 : ds) (m0 m : mem) (tu ti : dtype).
Hypothesis R0 : reaches inode w0 b0.
Hypothesis S0 : safe inode w0 b0 (OAssign i).
Hypothesis H0 : b0 i = Some d0.
Hypothesis Tw0 : twin d0 m0.
Hypothesis T : trained_on m0 m tu ti.
Hypothesis Nm : numeric m0.
Hypothesis Cd0 : complete d0.
Local Notation d := (assigned d0).
Local Notation fine := (fine inode i d).
Local Notation runs := (runs inode i d).
Local Notation gives := (gives inode i d).

Lemma cols_in : In "user" (m_columns m0) /\ In "item" (m_columns m0).
Proof. exact (cols_ui inode w0 b0 i d0 m0 S0 H0 Tw0). Qed.
Lemma Em : m = MemFacts3.assigned m0.
Proof. apply (trained_assigned m0 m tu ti T). Qed.
Lemma Tw : twin d m.
Proof. rewrite Em. destruct cols_in as [Iu Ii]. apply (twin_assign d0 m0 Tw0 tu ti (tr_user _ _ _ _ T) (tr_item _ _ _ _ T) Iu Ii). Qed.
Lemma Cd : complete d.
Proof. apply assigned_complete; auto. Qed.

(** the database after the call of assign_internal_ids *)
Lemma start_fine : exists w1, assign_ids inode i w0 = (w1, Ok tt) /\ fine w1 (note b0 i (Some d)).
Proof.
  assert (Pi : permuting (fun l => l)) by (intro; auto). destruct (exec inode (fun l => l) (OAssign i) w0) as [w1 r] eqn:E.
  pose proof (answer_of inode _ _ _ _ _ _ (reaches_inv _ _ _ R0) Pi S0 E) as A.
  pose proof (Calls inode _ _ _ _ _ _ R0 Pi S0 E) as R1.
  destruct r as [a|e]; [|destruct A; exists d0; auto]. cbn [effect] in R1. rewrite H0 in R1.
  pose proof E as E'. cbn [exec] in E'. apply amap_inv in E'. destruct E' as ([[]|e] & E1 & Er); [|discriminate]. exists w1. split; [exact E1|].
  split; [exists (note b0 i (Some d)); split; [auto|exact R1]|]. split; [apply note_same|].
  pose proof (inv_ds _ _ _ (reaches_inv _ _ _ R0) i d0 H0) as Sh. destruct (shows_inst inode w0 i d0 Sh) as (x & H & C & Ty & Di & P).
  assert (Zq : zq w1 i) by (eapply assign_zq; [|exact E1]; congruence).
  assert (Yn : exists y, w_inst w1 i = Some y /\ i_state y = None) by (exact (assign_rests inode w0 b0 i d0 w1 (reaches_inv _ _ _ R0) S0 H0 E1)).
  destruct Yn as (y & Hy & Sy). destruct Zq as (y' & Hy' & Qy). assert (y' = y) by congruence. subst y'. exists y. auto.
Qed.

Lemma extends_note b : extends (note b0 i (Some d)) b -> forall j, j <> i -> b0 j <> None -> b j = b0 j.
Proof. intros X j N Hj. rewrite X; rewrite note_other; auto. Qed.

Lemma begin_runs n : exists s' b' r, db_begin_fit inode i false (n, w0) = (s', r) /\ fine (snd s') b' /\ extends (note b0 i (Some d)) b' /\
  exists r', begin_fit m0 false = (m, r') /\ same_start r r' /\ (forall f, r = Ok f -> statistics m = r').
Proof.
  destruct start_fine as (w1 & E1 & F1).
  destruct (stats_runs inode i d m0 m tu ti T Nm Tw Cd (note b0 i (Some d)) (n, w1) F1) as (s' & r & b' & E & F' & X & f & f' & -> & Es & Sf).
  assert (L : log_initial_info f = log_initial_info f').
  { unfold log_initial_info. destruct Sf as (_ & _ & -> & -> & _). reflexivity. }
  exists s', b', (_ <- log_initial_info f ;; Ok f). split.
  - unfold db_begin_fit. cbn [negb]. unfold pbind at 1, db at 1. cbn [snd fst]. rewrite E1. unfold pbind at 1. rewrite E. unfold pbind, pret.
    destruct (log_initial_info f) as [[]|e]; reflexivity.
  - split; [exact F'|]. split; [exact X|]. exists (_ <- log_initial_info f' ;; Ok f'). split.
    + unfold begin_fit. rewrite (tr_assign _ _ _ _ T), Es. cbn [bind]. reflexivity.
    + rewrite L. destruct (log_initial_info f') as [[]|e]; cbn [bind same_start]; split; auto; intros; congruence.
Qed.

(** ** A session *)
Section Session.
Hypothesis Nr : no_repeats (obs m).
Variables (c : knn) (ni : nat) (nb nb' : nbs).
Hypothesis Nb : forall a, assoc Z.eqb a nb = assoc Z.eqb a nb'.

Lemma ask_gives a b : asks_ids m0 a -> gives b (db_ask inode ords c i ni nb a) (mem_ask c m ni nb' a).
Proof.
  pose proof (reaches_inv _ _ _ R0) as I0.
  assert (Pp : forall b x y, gives b (db_knn_predict inode ords c i nb x y) (knn_predict c m nb' x y)).
  { intros b' x y. rewrite <- (knn_predict_ext m c nb nb' x y Nb). apply (predict_runs inode ords Po i d m0 m tu ti T Nm Tw Cd Nr). }
  assert (Pr : forall b u iids n nov, gives b (db_knn_rank inode ords c i nb u iids n nov) (knn_rank c m nb' u iids n nov)).
  { intros b' u iids n nov. rewrite <- (knn_rank_ext m0 m tu ti T Nm c nb nb' u iids n nov Nb). apply (rank_runs inode ords Po i d m0 m tu ti T Nm Tw Cd Nr). }
  rewrite Em in Pp, Pr |- *.
  destruct a as [u it sk|u items nov sk n|u n nov th]; cbn [db_ask mem_ask asks_ids].
  - intros [Ru Ri]. apply gives_bind; [|intros; apply gives_ret]. apply (predict_gives inode w0 b0 i d0 m0 I0 S0 H0 Tw0); auto.
  - intros [Ru Ri]. rewrite Forall_forall in Ri. apply gives_bind; [|intros; apply gives_ret]. apply (rank_gives inode w0 b0 i d0 m0 I0 S0 H0 Tw0); auto.
  - intros Ru. apply gives_bind; [|intros; apply gives_ret]. apply (recommend_gives inode w0 b0 i d0 m0 I0 S0 H0 Tw0); auto.
Qed.
Lemma asks_give l : Forall (asks_ids m0) l -> forall b, gives b (db_asks inode ords c i ni nb l) (Ok (map (mem_ask c m ni nb') l)).
Proof.
  induction 1 as [|a l Ha _ IH]; intro b; [apply gives_ret|]. cbn [db_asks map]. intros s F.
  destruct (ask_gives a b Ha s F) as (s1 & r & b1 & E & F1 & X1 & ->). rewrite E.
  destruct (IH b1 s1 F1) as (s2 & r2 & b2 & E2 & F2 & X2 & ->).
  exists s2. eexists. exists b2. split; [unfold pbind; rewrite E2; unfold pret; reflexivity|]. split; [exact F2|]. split; [eapply extends_trans; eauto|auto].
Qed.
End Session.

Lemma run_same c simf l n : no_repeats (obs m) -> (forall es es', Permutation es es' -> simf es = simf es') -> Forall (asks_ids m0) l ->
  exists s' b', db_run inode ords c simf i l (n, w0) = (s', mem_run c simf m0 l) /\ fine (snd s') b' /\ extends (note b0 i (Some d)) b'.
Proof.
  intros Nr Ps Hl. destruct (begin_runs n) as (s1 & b1 & r & E1 & F1 & X1 & r' & Em0 & Sr & Rst).
  unfold db_run, mem_run. rewrite Em0. unfold pbind at 1. rewrite E1. destruct r as [f|e], r' as [f'|e']; cbn [same_start] in Sr; try contradiction.
  2:{ subst e'. exists s1, b1. auto. }
  cbn [bind]. specialize (Rst f eq_refl). destruct (stats_counts m0 m tu ti T Nm f' Rst) as [Cu Ci]. destruct Sr as (_ & _ & Su & Si & _).
  assert (Hf : (if kn_user c then fi_users f else fi_items f) = n_entities c m0) by (unfold n_distinct in *; unfold n_entities; destruct (kn_user c); congruence).
  destruct (fit_runs inode ords Po i d m0 m tu ti T Nm Tw Cd c simf f ([], []) b1 Ps Hf s1 F1) as (s2 & r2 & b2 & E2 & F2 & X2 & Sf).
  unfold pbind at 1. rewrite E2. destruct r2 as [[t nb]|e], (knn_fit c simf m ([], [])) as [[t' nb']|e']; cbn [same_fit] in Sf; try contradiction.
  2:{ subst e'. exists s2, b2. cbn [bind]. split; [auto|]. split; [auto|]. eapply extends_trans; eauto. }
  destruct Sf as [-> Nb]. cbn [bind snd]. rewrite <- Si.
  destruct (asks_give Nr c (fi_items f) nb nb' Nb l Hl b2 s2 F2) as (s3 & r3 & b3 & E3 & F3 & X3 & ->).
  exists s3, b3. rewrite E3. split; [auto|]. split; [auto|]. eapply extends_trans; [|exact X3]. eapply extends_trans; eauto.
Qed.
End Start.
