(** The neighbourhood recommenders on a data set in a database and on the same
    data set in memory: fitting. *)
From Coq Require Import String Ascii.
From Coq Require Import List ZArith QArith Qcanon Bool Permutation Sorted Lia.
From Verif Require Import Py PyFacts MemModel MemSpec MemFacts MemFacts2 MemFacts3 MemFacts4 MemFacts5 RankModel RankSpec RankFacts RankFacts2 KnnModel KnnSpec KnnFacts KnnFacts2 KnnFacts3 FitModel
  DbModel DbFacts DbSpec DbFacts3 DbFacts7 DbFacts12 DbFacts13 DbFacts14 DbFacts15 DbFacts16 DbFacts18 SampModel DbGenModel DbGenSpec DbGenFacts DbGenFacts2
  DbSplitModel DbSplitSpec DbSplitFacts DbSplitFacts3 DbSplitFacts6 TwinSpec TwinFacts TwinFacts3 TwinFacts5 TwinFacts6 RecDbModel RecDbFacts RecDbFacts2 RecDbFacts3 RecDbFacts4.
Import ListNotations.
Open Scope string_scope.
Open Scope Z_scope.
Open Scope list_scope.

(** The same similarities, and the same neighbours of everybody. *)
Definition same_fit (r r' : res (sims * nbs)) : Prop :=
  match r, r' with
  | Ok (t, nb), Ok (t', nb') => t = t' /\ forall a, assoc Z.eqb a nb = assoc Z.eqb a nb'
  | Err e, Err e' => e = e'
  | _, _ => False
  end.

Section Rec.
Variable inode : string -> nat.
Variable ords : nat -> list trow -> list trow.
Hypothesis Po : forall k, permuting (ords k).
Variables (i : nat) (d : ds) (m0 m : mem) (tu ti : dtype).
Hypothesis T : trained_on m0 m tu ti.
Hypothesis Nm : numeric m0.
Hypothesis Tw : twin d m.
Hypothesis Cd : complete d.
Local Notation cs := (m_columns m).
Local Notation fine := (fine inode i d).
Local Notation runs := (runs inode i d).
Local Notation gives := (gives inode i d).
Local Notation rdy := (rec_ready d m0 m tu ti T Nm Tw Cd).

(** ** The distinct ids *)
Lemma ids_runs {A} b c (k : list Z -> P A) Q : c = "uid" \/ c = "iid" ->
  (forall b' ids, extends b b' -> (forall z, In z ids <-> In z (map (t_col c) (obs m))) -> runs b' (k ids) Q) ->
  runs b (pbind (db (unique inode i (Some [c]) true)) (fun u =>
          pbind (db_each inode ords (fst u) [c]) (fun vs =>
          pbind (db (close inode (fst u))) (fun _ =>
          pbind (pret (mapM int_value (concat vs))) k)))) Q.
Proof.
  intros Hc Hk [n w] ((b0 & Eb & R) & Hb & C). cbn [snd] in *. assert (Hb0 : b0 i = Some d) by (rewrite Eb; auto).
  assert (Ic : In c (d_cols d)) by (apply (rec_cols d m0 m tu ti T Nm Tw Cd); destruct Hc as [-> | ->]; cbn; auto).
  assert (Nc : c <> "rid") by (destruct Hc as [-> | ->]; discriminate).
  assert (Sq : stays_query w i c d).
  { intros x Hx. destruct C as (y & Hy & _ & Q0). assert (x = y) by congruence. subst y. rewrite Q0. unfold worth_it.
    change (Nat.leb 3 1) with false. rewrite !andb_false_r. reflexivity. }
  destruct (unique_ready inode w b0 i d c R Hb0 Cd Ic Nc Sq) as (w1 & j & E1 & _ & z & Hz & Dz).
  destruct (unique_call inode w b0 i d c w1 _ R Hb0 Ic Nc E1) as (Fr & R1 & _). cbn [fst] in *.
  pose proof (unique_calm inode i _ w w1 _ (inv_base _ _ _ (reaches_inv _ _ _ R)) C E1) as C1.
  set (dj := col_ds d c) in *. assert (Nj : j <> i) by congruence.
  destruct (values_few inode (ords n) w1 _ j dj z [c] true (Po n) R1 (note_same _ _ _) Hz) as (w2 & vs & E2); [lia| |].
  { intros ? [<-|[]]. left. auto. }
  destruct (values_read inode _ _ _ _ _ _ _ _ _ (Po n) (reaches_inv _ _ _ R1) (note_same _ _ _) E2) as (l & Pl & -> & _). cbn [asked] in *.
  assert (Ex : exec inode (ords n) (OGenerator j (Some [c])) w1 = (w2, Ok (ARows (map (cells [c]) l)))).
  { cbn [exec]. unfold amap, andthen. rewrite E2. reflexivity. }
  assert (Sf : safe inode w1 (note b0 j (Some dj)) (OGenerator j (Some [c]))) by (cbn; rewrite note_same; discriminate).
  pose proof (Calls inode _ _ _ _ _ _ R1 (Po n) Sf Ex) as R2. cbn [effect] in R2.
  pose proof (read_other inode (ords n) (OGenerator j (Some [c])) i j _ _ _ eq_refl eq_refl Nj C1 Ex) as C2.
  assert (F2 : fine w2 (note b j (Some dj))).
  { split; [exists (note b0 j (Some dj)); split; [|exact R2]; intro x; unfold note; destruct (Nat.eqb x j); auto|].
    split; [rewrite note_other; auto|exact C2]. }
  destruct (generator_fine inode i d w2 _ F2) as (w3 & E3 & F3).
  assert (Full : forall row, In row (d_rows dj) -> forall c', In c' [c] -> tcell row c' <> None).
  { intros row Hr c' [<-|[]]. unfold dj, col_ds in Hr. cbn [d_rows] in Hr. apply in_map_iff in Hr. destruct Hr as (row0 & <- & Hr).
    rewrite proj_cell. apply filter_In in Hr. destruct Hr as [Hr _]. apply (rec_full d rdy row0 Hr). destruct Hc as [-> | ->]; cbn; auto. }
  destruct (filled_rows [c] (d_rows dj) (map (cells [c]) l) Full (Permutation_map _ Pl)) as (l2 & Pl2 & Em).
  assert (Ei : mapM int_value (concat (map (fun row => map (fun c => match tcell row c with Some v => v | None => VInt 0 end) [c]) l2)) = Ok (map (zcell c) l2)).
  { etransitivity; [apply f_equal, (concat_single (sure c))|]. rewrite mapM_map. apply mapM_all. intros row Hr.
    apply (Permutation_in _ Pl2) in Hr. unfold dj, col_ds in Hr. cbn [d_rows] in Hr. apply in_map_iff in Hr. destruct Hr as (row0 & <- & Hr).
    apply filter_In in Hr. destruct Hr as [Hr _]. pose proof (int_id c d row0 rdy Hr Hc) as Es.
    unfold sure in *. unfold zcell. rewrite proj_cell. destruct (tcell row0 c) as [v|]; [|apply int_value_int]. rewrite Es. apply int_value_int. }
  assert (Mem : forall x, In x (map (zcell c) l2) <-> In x (map (t_col c) (obs m))).
  { intro x. destruct (book_rows inode _ _ _ _ R Hb0) as (N & _). pose proof (firsts_cells inode d c N) as (_ & Fc).
    assert (Zr : forall row, In row (d_rows d) -> t_col c (dtri row) = zcell c row).
    { intros row _. unfold t_col, t_u, t_i, dtri. destruct Hc as [-> | ->]; reflexivity. }
    rewrite in_map_iff. split.
    - intros (row & <- & Hr). apply (Permutation_in _ Pl2) in Hr. unfold dj, col_ds in Hr. cbn [d_rows] in Hr. apply in_map_iff in Hr.
      destruct Hr as (row0 & <- & Hr). apply filter_In in Hr. destruct Hr as [Hr _].
      apply in_map_iff. exists (dtri row0). split; [|apply (obs_row d m0 m tu ti T Nm Tw row0 Hr)].
      rewrite (Zr row0 Hr). unfold zcell. rewrite proj_cell. reflexivity.
    - intro H. apply in_map_iff in H. destruct H as (e & <- & He). destruct (row_of d m0 m tu ti T Nm Tw e He) as (row & Hr & <-).
      assert (X : In (tcell row c) (map (fun r => tcell r c) (filter (first_of_group [c] (d_rows d)) (d_rows d)))) by (apply Fc; eauto).
      apply in_map_iff in X. destruct X as (row1 & Ec & H1). exists (proj [c; "rid"] row1). split.
      + rewrite (Zr row Hr). unfold zcell. rewrite proj_cell, Ec. reflexivity.
      + apply (Permutation_in _ (Permutation_sym Pl2)). unfold dj, col_ds. cbn [d_rows]. apply in_map. exact H1. }
  destruct (close_runs inode i d (note b j (Some dj)) j dj (note_same _ _ _) Nj (S n, w3) F3) as (s4 & r4 & b4 & E4 & F4 & -> & ->).
  assert (X4 : extends b (note (note b j (Some dj)) j None)).
  { apply (ext_close b j dj); [rewrite <- Eb; exact Fr|apply extends_refl]. }
  destruct (Hk _ (map (zcell c) l2) X4 Mem s4 F4) as (s5 & r5 & b5 & E5 & F5 & Q5).
  exists s5, r5, b5. split; [|auto]. unfold pbind at 1, db at 1. cbn [snd fst]. rewrite E1. cbn [fst].
  unfold pbind at 1, db_each, pbind at 1, dbo. cbn [snd fst]. rewrite E2. unfold pbind at 1, db at 1. cbn [snd fst]. rewrite E3. unfold pret at 1. rewrite Em.
  unfold pbind at 1. rewrite E4. unfold pbind at 1, pret at 1. rewrite Ei. exact E5.
Qed.

(** ** Fitting *)
Lemma entity_first_perm c es es' : Permutation es es' -> Permutation (entity_first c es) (entity_first c es').
Proof. apply Permutation_map. Qed.
Lemma fit_runs c simf f st b : (forall es es', Permutation es es' -> simf es = simf es') ->
  (if kn_user c then fi_users f else fi_items f) = n_entities c m0 ->
  runs b (db_knn_fit inode ords c simf f i st) (fun b' r => extends b b' /\ same_fit r (knn_fit c simf m st)).
Proof.
  intros Ps Hf. rewrite (knn_fit_eq m0 m tu ti T Nm). unfold db_knn_fit.
  eapply runs_bind; [apply (entries_runs inode ords Po i d m0 m tu ti T Nm Tw Cd)| |intros b' e (_ & es & X & _); discriminate].
  cbn beta. intros b1 es0 (X1 & es & E & Pe). apply ok_same in E. subst es0. rewrite oriented_first. pose proof (entity_first_perm c _ _ Pe) as Pe'.
  rewrite (Ps _ _ Pe').
  destruct (simf (entity_first c (obs m))) as [coo|e]; cbn [bind].
  2:{ apply (runs_bind inode i d b1 _ _ (fun b' r => b' = b1 /\ r = Err e)); [apply runs_ret; auto|intros ? ? (_ & Y); discriminate|].
      intros b' e' (-> & Y). injection Y as ->. split; [auto|reflexivity]. }
  eapply (runs_bind inode i d b1 _ _ (fun b' r => b' = b1 /\ r = Ok coo)); [apply runs_ret; auto| |intros ? ? (_ & Y); discriminate].
  intros b' coo' (-> & Y). apply ok_same in Y. subst coo'. rewrite (add_sims_perm c _ _ coo Pe').
  destruct (add_sims c (entity_first c (obs m)) (fst st) coo) as [t|e]; cbn [bind].
  2:{ apply (runs_bind inode i d b1 _ _ (fun b' r => b' = b1 /\ r = Err e)); [apply runs_ret; auto|intros ? ? (_ & Y); discriminate|].
      intros b' e' (-> & Y). injection Y as ->. split; [auto|reflexivity]. }
  eapply (runs_bind inode i d b1 _ _ (fun b' r => b' = b1 /\ r = Ok t)); [apply runs_ret; auto| |intros ? ? (_ & Y); discriminate].
  intros b' t' (-> & Y). apply ok_same in Y. subst t'. cbv zeta. rewrite Hf. fold (ent_col c).
  assert (Hc : ent_col c = "uid" \/ ent_col c = "iid") by (destruct (ent_col_ok c) as [[H _]|[H _]]; auto).
  destruct (unique_ids m0 m tu ti T Nm (ent_col c) Hc) as (mu & vs & ids & -> & E2 & E3 & E4). cbn [bind]. rewrite E2. cbn [bind]. rewrite E3. cbn [bind].
  apply (ids_runs b1 (ent_col c) _ _ Hc). intros b2 ids' X2 Mm. apply runs_ret. split; [eapply extends_trans; eauto|].
  cbn [same_fit]. split; [auto|]. intro a. rewrite !assoc_fold_set.
  destruct (in_dec Z.eq_dec a ids) as [Ha|Ha], (in_dec Z.eq_dec a ids') as [Ha'|Ha']; auto; exfalso.
  - apply Ha'. apply Mm, E4, Ha.
  - apply Ha. apply E4, Mm, Ha'.
Qed.

(** ** Only the neighbours of everybody matter *)
Lemma neighbours_ext (nb nb' : nbs) : (forall a, assoc Z.eqb a nb = assoc Z.eqb a nb') -> forall a, neighbours nb a = neighbours nb' a.
Proof. intros H a. unfold neighbours. rewrite H. auto. Qed.
Lemma knn_predict_ext c (nb nb' : nbs) u k : (forall a, assoc Z.eqb a nb = assoc Z.eqb a nb') -> knn_predict c m nb u k = knn_predict c m nb' u k.
Proof. intros H. unfold knn_predict. destruct u, k; auto. rewrite (neighbours_ext _ _ H). auto. Qed.
Lemma knn_rank_ext c (nb nb' : nbs) u iids n nov : (forall a, assoc Z.eqb a nb = assoc Z.eqb a nb') -> knn_rank c m nb u iids n nov = knn_rank c m nb' u iids n nov.
Proof.
  intros H. unfold knn_rank. destruct (kn_user c).
  - unfold user_rank. destruct (knn_candidates m u iids nov); cbn [bind]; [|auto]. rewrite (neighbours_ext _ _ H). auto.
  - rewrite !(item_rank_form m0 m tu ti T Nm). destruct (knn_candidates m u iids nov); cbn [bind]; [|auto].
    rewrite (mapM_ext_in _ (item_score m c nb' u)); [auto|]. intros k _. unfold item_score. rewrite (neighbours_ext _ _ H). auto.
Qed.
End Rec.
