(** DMF and CDAE on a data set in a database and on the same data set in memory. *)
From Coq Require Import String Ascii.
From Coq Require Import List ZArith QArith Qcanon Bool Permutation Sorted Lia.
From Verif Require Import Py PyFacts MemModel MemSpec MemFacts MemFacts2 MemFacts3 MemFacts4 MemFacts5 MemFacts6 MemFacts7 RankModel RankSpec RankFacts RankFacts2 KnnModel KnnSpec KnnFacts KnnFacts2 KnnFacts3 FitModel NetModel
  DbModel DbFacts DbSpec DbFacts3 DbFacts7 DbFacts12 DbFacts13 DbFacts14 DbFacts15 DbFacts16 DbFacts17 SampModel DbGenModel DbGenSpec DbGenFacts DbGenFacts2
  DbSplitModel DbSplitSpec DbSplitFacts DbSplitFacts3 DbSplitFacts6 TwinSpec TwinFacts TwinFacts5 TwinFacts6 RecDbModel RecDbModel2 RecDbFacts RecDbFacts2 RecDbFacts3 RecDbFacts4 RecDbFacts6 RecDbFacts7 RecDbSpec RecDbSpec2.
Import ListNotations.
Open Scope string_scope.
Open Scope Z_scope.
Open Scope list_scope.

Section Back.
Variable inode : string -> nat.
Variables (w0 : world) (b0 : book) (i : nat) (d0 : ds) (m0 : mem).
Hypothesis I0 : Inv inode w0 b0.
Hypothesis S0 : safe inode w0 b0 (OAssign i).
Hypothesis H0 : b0 i = Some d0.
Hypothesis Tw0 : twin d0 m0.
Local Notation d := (assigned d0).
Local Notation m := (MemFacts3.assigned m0).
Lemma back_user_gives b z : gives inode i d b (db (db_uid_to_user inode i z)) (uid_to_user m z).
Proof.
  destruct (cols_ui inode w0 b0 i d0 m0 S0 H0 Tw0) as [Ii _]. rewrite uid_to_user_assigned. intros [n w] F. cbn [snd] in F. eexists (n, w), _, b. split; [|split; [exact F|split; [apply extends_refl|reflexivity]]].
  unfold db. cbn [snd fst]. destruct (fine_inv inode i d0 w b F) as (b' & Iv & Hb & Ar).
  destruct (lookups_at inode w0 b0 i d0 w b' "user" "uid" I0 S0 H0 Iv Hb Ar (or_introl (conj eq_refl eq_refl))) as (_ & U2 & U3).
  destruct (lookup_id d0 m0 Tw0 "user" z Ii ltac:(discriminate)) as [(row & v & Hr & Ev & Rk & ->)|[H ->]].
  - subst z. unfold db_uid_to_user. rewrite (U2 row v Hr Ev). auto.
  - unfold db_uid_to_user. rewrite (U3 z H). auto.
Qed.
End Back.

Section Net.
Variable inode : string -> nat.
Variable ords : nat -> list trow -> list trow.
Hypothesis Po : forall k, permuting (ords k).
Variables (i : nat) (d : ds) (m0 m : mem) (tu ti : dtype).
Hypothesis T : trained_on m0 m tu ti.
Hypothesis Nm : numeric m0.
Hypothesis Tw : twin d m.
Hypothesis Cm : complete d.
Hypothesis N1 : n_distinct "user" m0 <> 1%nat.
Local Notation runs := (runs inode i d).
Local Notation gives := (gives inode i d).
Local Notation sub := (sub d).
Local Notation rdy := (rec_ready d m0 m tu ti T Nm Tw Cm).
Local Notation srdy := (sub_ready inode d m0 m tu ti T Nm Tw Cm).
Hypothesis Ub : forall b k, gives b (db (db_uid_to_user inode i k)) (uid_to_user m k).
Hypothesis Ib : forall b k, gives b (db (db_iid_to_item inode i k)) (iid_to_item m k).
Variable v : mem.
Hypothesis Rv : read_state m0 m v.

Lemma dmf_gives net b x y : gives b (db_dmf_predict inode ords net i x y) (dmf_predict net v x y).
Proof.
  unfold db_dmf_predict, dmf_predict. destruct x as [u|], y as [k|]; try apply gives_ret.
  destruct (user_read d m0 m tu ti T Nm Tw N1 v u Rv) as [Eu R1]. destruct (MemModel.user_vec v u) as [ru m1]. cbn [fst snd] in Eu, R1. subst ru.
  apply gives_bind; [apply (user_vector_gives inode ords Po i d m0 m tu ti T Nm Tw Cm Ub)|]. intros b1 vu _ _.
  rewrite (proj1 (item_read d m0 m tu ti T Nm Tw N1 m1 k R1)).
  apply gives_bind; [apply (item_vector_gives inode ords Po i d m0 m tu ti T Nm Tw Cm Ib)|]. intros; apply gives_ret.
Qed.
Lemma vec_gives th net b u : gives b (db_cdae_vec inode ords th net i u) (cdae_vec th net v u).
Proof.
  unfold db_cdae_vec, cdae_vec. rewrite (proj1 (user_read d m0 m tu ti T Nm Tw N1 v u Rv)).
  apply gives_bind; [apply (user_vector_gives inode ords Po i d m0 m tu ti T Nm Tw Cm Ub)|]. intros; apply gives_ret.
Qed.
Lemma cdae_gives th net b x y : gives b (db_predict_cdae (db_cdae_vec inode ords th net i) x y) (predict_cdae (cdae_vec th net v) x y).
Proof.
  unfold db_predict_cdae, predict_cdae. destruct x as [u|]; [|apply gives_ret]. apply gives_bind; [apply vec_gives|]. intros; apply gives_ret.
Qed.
Lemma abc_gives f f' b u iids n nov : (forall b x y, gives b (f x y) (f' x y)) -> gives b (db_rank_abc inode ords f i u iids n nov) (rank_abc f' m u iids n nov).
Proof.
  intro H. unfold db_rank_abc, rank_abc. apply gives_bind.
  - destruct nov; [|apply gives_ret]. destruct (rated_spec m0 m tu ti T u) as (seen & -> & S). cbn [bind].
    eapply (gives_then inode i d b _ _ _ _ (rated_runs inode ords Po i d m0 m tu ti T Nm Tw Cm b u)); [intros e (l & X & _); discriminate|].
    intros b1 l _ (l' & E & K). apply ok_same in E. subst l'. replace (set_minus iids seen) with (set_minus iids l); [apply gives_ret|].
    unfold set_minus. apply filter_ext. intro k. f_equal. apply eq_true_iff_eq. rewrite K, S. tauto.
  - intros b1 l _ _. unfold pred_list.
    assert (E : forall r : res (list (option Qc * Z)), (ps <- (ps <- r ;; Ok (flat_map (fun p => match fst p with Some s => [(s, snd p)] | None => [] end) ps)) ;; Ok (top n ps)) =
      (ps <- r ;; Ok (top n (flat_map (fun p => match fst p with Some s => [(s, snd p)] | None => [] end) ps)))) by (intros [x|e]; reflexivity).
    rewrite E. apply gives_bind; [|intros; apply gives_ret]. apply gives_map. intros b2 k _ _. apply gives_bind; [apply H|]. intros; apply gives_ret.
Qed.

(** *** the candidates of CDAE *)
Definition met (u k : Z) : bool := has_obs (obs m) u k.
Lemma met_pair u k : met u k = true <-> pair_in m u k.
Proof.
  unfold met, has_obs. rewrite existsb_exists. split.
  - intros (e & He & X). rewrite (obs_map m0 m tu ti T Nm) in He. apply in_map_iff in He. destruct He as (r & <- & Hr).
    rewrite andb_true_iff, !Z.eqb_eq in X. destruct X as [<- <-]. destruct (KnnFacts.good m0 m tu ti T Nm r Hr) as (Eu & Ei & _). exists r. auto.
  - intros (r & Hr & Eu & Ei). destruct (KnnFacts.good m0 m tu ti T Nm r Hr) as (Eu' & Ei' & _). exists (tri r).
    split; [rewrite (obs_map m0 m tu ti T Nm); apply in_map; exact Hr|]. rewrite andb_true_iff, !Z.eqb_eq. unfold t_u, t_i in *. split; congruence.
Qed.
Lemma mem_exists u mu k : MemModel.select m ("uid == " ++ str_of_Z u)%string = Ok mu -> exists_q mu ("iid == " ++ str_of_Z k)%string = Ok (met u k).
Proof.
  intro E. destruct (user_rows_ok m0 m tu ti T u) as (mu' & S & Wu & Iu & Cu & Ru). rewrite S in E. apply ok_same in E. subst mu'.
  assert (X := select_int_exact mu "iid" k Wu Iu ltac:(simpl; auto)
           ltac:(rewrite Cu; apply (trained_cols m0 m tu ti T))
           ltac:(intros r z Hr E; rewrite Ru in Hr; apply filter_In in Hr; destruct Hr as [Hr _];
                 exact (trained_small _ _ _ _ T "iid" (or_intror eq_refl) r z Hr E))).
  change ("iid" ++ " == " ++ str_of_Z k)%string with ("iid == " ++ str_of_Z k)%string in X.
  rewrite (exists_iff mu _ _ Wu X). f_equal. apply eq_true_iff_eq. rewrite met_pair.
  unfold mem_len. change (rows_of (set_rows (mem_copy mu) (filter (int_is "iid" k) (rows_of mu)))) with (filter (int_is "iid" k) (rows_of mu)).
  rewrite negb_true_iff, Nat.eqb_neq, Ru. split.
  - intros N. destruct (filter (int_is "iid" k) (filter (int_is "uid" u) (rows_of m))) as [|r l] eqn:E; [simpl in N; lia|].
    assert (H : In r (r :: l)) by (simpl; auto). rewrite <- E in H.
    apply filter_In in H. destruct H as [H H2]. apply filter_In in H. destruct H as [H H1].
    exists r. split; auto. unfold int_is in *.
    destruct (cell r "uid") as [[z| |]|]; try discriminate. destruct (cell r "iid") as [[z'| |]|]; try discriminate.
    apply Z.eqb_eq in H1, H2. subst. auto.
  - intros [r [Hr [E1 E2]]].
    assert (H : In r (filter (int_is "iid" k) (filter (int_is "uid" u) (rows_of m)))).
    { apply filter_In. split; [apply filter_In; split; auto|]; unfold int_is; rewrite ?E1, ?E2; apply Z.eqb_refl. }
    destruct (filter (int_is "iid" k) (filter (int_is "uid" u) (rows_of m))); [contradiction|]. simpl. lia.
Qed.
Lemma exists_runs b j u k : b j = Some (sub "uid" u) ->
  gives b (pbind (dbo ords (fun ord => select_one inode ord j ("iid == " ++ str_of_Z k)%string None)) (fun r => pret (Ok (k, match r with Some _ => true | None => false end)))) (Ok (k, met u k)).
Proof.
  intros Hb s F. pose proof (srdy "uid" u) as R.
  destruct (read_step inode i d (ords (fst s)) (OSelectOne j [is_id "iid" k] None) j (sub "uid" u) (snd s) b) as (w' & a & E & F' & A); auto.
  - intros b0 H0. split.
    + exists (sub "uid" u). split; [auto|]. split; [discriminate|]. split; [constructor; [apply id_fits; [exact R|auto]|constructor]|]. constructor; [exact Logic.I|constructor].
    + exists (sub "uid" u). split; [auto|]. split; [left; apply R|]. cbn [asked]. apply incl_refl.
  - cbn [exec] in E. apply amap_inv in E. destruct E as ([n|e] & E & Er); [|discriminate]. injection Er as ->.
    change (query_text [is_id "iid" k]) with ("iid == " ++ str_of_Z k)%string in E.
    destruct A as (row & X & A). injection X as <-.
    eexists. eexists. exists b. split; [unfold pbind, dbo; rewrite E; unfold pret; reflexivity|]. split; [exact F'|].
    split; [apply extends_refl|]. do 2 f_equal. symmetry.
    assert (Sp : Permutation (map dtri (d_rows (sub "uid" u))) (filter (is_c "uid" u) (obs m))) by (apply (sub_rows d m0 m tu ti T Nm Tw Cm); auto).
    destruct n as [l|].
    + destruct A as (r & Hr & Hh & _). cbn [forallb] in Hh. rewrite (id_holds _ _ _ r R (or_intror eq_refl) Hr), andb_true_r in Hh.
      assert (Hin : In (dtri r) (filter (is_c "uid" u) (obs m))) by (apply (Permutation_in _ Sp), in_map, Hr). apply filter_In in Hin. destruct Hin as [Hin Hu].
      unfold met, has_obs. apply existsb_exists. exists (dtri r). split; [exact Hin|]. apply andb_true_iff. split; [exact Hu|exact Hh].
    + apply not_true_is_false. intro Y. unfold met, has_obs in Y. apply existsb_exists in Y. destruct Y as (e & He & Y). apply andb_true_iff in Y. destruct Y as [Yu Yk].
      assert (Hin : In e (filter (is_c "uid" u) (obs m))) by (apply filter_In; auto). apply (Permutation_in _ (Permutation_sym Sp)) in Hin. apply in_map_iff in Hin.
      destruct Hin as (r & <- & Hr). specialize (A r Hr). cbn [forallb] in A. rewrite (id_holds _ _ _ r R (or_intror eq_refl) Hr), andb_true_r in A. cbn [dtri fst snd] in Yk. congruence.
Qed.
Lemma sub_length u mu : MemModel.select m ("uid == " ++ str_of_Z u)%string = Ok mu -> length (d_rows (sub "uid" u)) = mem_len mu.
Proof.
  intro E. destruct (user_rows_ok m0 m tu ti T u) as (mu' & S & Wu & Iu & Cu & Ru). rewrite S in E. apply ok_same in E. subst mu'.
  unfold mem_len. rewrite Ru. rewrite <- (map_length dtri), (Permutation_length (sub_rows d m0 m tu ti T Nm Tw Cm "uid" u (or_introl eq_refl))).
  rewrite (obs_map m0 m tu ti T Nm). unfold is_c. cbn [String.eqb Ascii.eqb Bool.eqb].
  assert (G : forall r, In r (rows_of m) -> In r (rows_of m)) by auto. revert G. generalize (rows_of m) at 1 3 4.
  induction l as [|r l IH]; intro G; [auto|]. cbn [map filter]. destruct (KnnFacts.good m0 m tu ti T Nm r (G r (or_introl eq_refl))) as (Eu & _).
  unfold is_u at 1, int_is at 1. rewrite Eu. destruct (t_u (tri r) =? u); cbn [length]; rewrite IH by (intros; apply G; right; auto); auto.
Qed.
Lemma cdae_candidates_gives b u iids nov : gives b (db_cdae_candidates inode ords i u iids nov) (cdae_candidates m u iids nov).
Proof.
  unfold db_cdae_candidates, cdae_candidates. destruct nov; [|apply gives_ret].
  destruct (user_rows_ok m0 m tu ti T u) as (mu & S & _). 
  assert (Er : exists seen, MemModel.values mu (Some ["iid"]) = Ok seen /\ forall k, mem_b val_eqb (VInt k) (concat seen) = true <-> pair_in m u k).
  { destruct (rated_spec m0 m tu ti T u) as (l & R & K). unfold rated_iids in R. rewrite S in R. cbn [bind] in R.
    destruct (MemModel.values mu (Some ["iid"])) as [vs|]; cbn [bind] in R; [|discriminate]. apply ok_same in R. subst l. eauto. }
  rewrite S. cbn [bind]. apply runs_book. intro Hb.
  eapply runs_bind; [apply (select_runs inode i d rdy b "uid" u (or_introl eq_refl))| |intros b' e (j & X & _); discriminate].
  cbn beta. intros b1 j0 (j & Ej & Fr & ->). apply ok_same in Ej. subst j0. fold (sub "uid" u). assert (Nj : j <> i) by congruence.
  eapply runs_bind; [apply (len_runs inode i d _ j (sub "uid" u)); apply note_same| |intros b' e (_ & X); discriminate].
  cbn beta. intros b2 n (X2 & E2). apply ok_same in E2. subst n. rewrite (sub_length u mu S).
  eapply (runs_bind inode i d b2 _ _ (fun b' r => extends b2 b' /\ exists c, r = Ok c /\ 
    (if (mem_len mu <? length iids)%nat then vs <- MemModel.values mu (Some ["iid"]) ;; Ok (set_minus iids (concat vs)) else
      bs <- mapM (fun k => x <- exists_q mu ("iid == " ++ str_of_Z k)%string ;; Ok (k, x)) iids ;; Ok (dedup Z.eqb (map fst (filter (fun p => negb (snd p)) bs)))) = Ok c)).
  - destruct (mem_len mu <? length iids)%nat.
    + destruct Er as (seen & -> & Ks). cbn [bind].
      eapply runs_bind; [apply (rated_runs_at inode ords Po i d m0 m tu ti T Nm Tw Cm b2 j u); eapply ext_at; eauto| |intros b' e (_ & l & X & _); discriminate].
      cbn beta. intros b3 vs (X3 & vs' & E & K). apply ok_same in E. subst vs'. apply runs_ret. split; [exact X3|]. eexists. split; [reflexivity|].
      f_equal. unfold set_minus. apply filter_ext. intro k. f_equal. apply eq_true_iff_eq. rewrite K, Ks. tauto.
    + assert (Eb : mapM (fun k => x <- exists_q mu ("iid == " ++ str_of_Z k)%string ;; Ok (k, x)) iids = Ok (map (fun k => (k, met u k)) iids)).
      { apply mapM_all. intros k _. rewrite (mem_exists u mu k S). reflexivity. }
      rewrite Eb. cbn [bind].
      eapply runs_bind; [apply (gives_map inode i d _ (fun k => Ok (k, met u k)) iids b2)| |].
      * intros b3 k X3 _. apply exists_runs. eapply ext_at. eapply extends_trans; eauto.
      * cbn beta. intros b3 bs (X3 & E3). rewrite (mapM_all _ (fun k => (k, met u k))) in E3 by auto. apply ok_same in E3. subst bs. apply runs_ret. split; [exact X3|]. eauto.
      * cbn beta. intros b3 e (X3 & E3). rewrite (mapM_all _ (fun k => (k, met u k))) in E3 by auto. discriminate.
  - cbn beta. intros b3 c (X3 & c' & E & ->). apply ok_same in E. subst c'. pose proof (extends_trans _ _ _ X2 X3) as X23.
    eapply runs_bind; [apply (close_runs inode i d b3 j (sub "uid" u) (ext_at _ _ _ _ X23) Nj)| |intros b' e (X & _); discriminate].
    cbn beta. intros b4 _u (_ & ->). apply runs_ret. split; [eapply ext_close; eauto|auto].
  - intros b' e (_ & c & X & _). discriminate.
Qed.
Lemma net_rank_gives k ni b u iids n nov : gives b (db_net_rank inode ords k i ni u iids n nov) (net_rank k v m ni u iids n nov).
Proof.
  destruct k as [net|th net]; cbn [db_net_rank net_rank].
  - apply abc_gives. intros. apply dmf_gives.
  - unfold db_rank_cdae, rank_cdae. apply gives_bind; [apply vec_gives|]. intros b1 vec _ _. apply gives_bind; [apply cdae_candidates_gives|]. intros; apply gives_ret.
Qed.
End Net.

Section Start.
Variable inode : string -> nat.
Variable ords : nat -> list trow -> list trow.
Hypothesis Po : forall k, permuting (ords k).
Variables (w0 : world) (b0 : book) (i : nat) (d0 : ds) (m0 m : mem) (tu ti : dtype).
Hypothesis R0 : reaches inode w0 b0.
Hypothesis S0 : safe inode w0 b0 (OAssign i).
Hypothesis H0 : b0 i = Some d0.
Hypothesis Tw0 : twin d0 m0.
Hypothesis T : trained_on m0 m tu ti.
Hypothesis Nm : numeric m0.
Hypothesis Cd0 : complete d0.
Local Notation d := (assigned d0).
Local Notation fine := (fine inode i d).
Local Notation gives := (gives inode i d).
Local Notation Em := (RecDbFacts6.Em m0 m tu ti T).
Local Notation Tw := (RecDbFacts6.Tw inode w0 b0 i d0 m0 m tu ti S0 H0 Tw0 T).
Local Notation Cd := (RecDbFacts6.Cd inode d0 Cd0).

Lemma user_back b z : gives b (db (db_uid_to_user inode i z)) (uid_to_user m z).
Proof. rewrite Em. apply (back_user_gives inode w0 b0 i d0 m0 (reaches_inv _ _ _ R0) S0 H0 Tw0). Qed.
Lemma item_back b z : gives b (db (db_iid_to_item inode i z)) (iid_to_item m z).
Proof. rewrite Em. apply (back_gives inode w0 b0 i d0 m0 (reaches_inv _ _ _ R0) S0 H0 Tw0). Qed.
(** with any number of users *)
Lemma read_right x : right_vec m0 m x (one_read m0 m x).
Proof.
  assert (Sp : forall (f : Z -> Qc) n, length (map f (Zseq n)) = n /\ forall k, 0 <= k < Z.of_nat n -> nth_error (map f (Zseq n)) (Z.to_nat k) = Some (f k)).
  { intros f n. split; [unfold Zseq; rewrite !map_length, seq_length; auto|]. intros k Hk. rewrite nth_error_map, nth_error_Zseq by exact Hk. reflexivity. }
  assert (Ne : forall c k, 0 <= k < Z.of_nat (n_distinct c m0) -> rows_of m0 <> []).
  { intros c k Hk Y. rewrite n_distinct_length, Y in Hk. cbn in Hk. lia. }
  destruct x as [u|k]; cbn [right_vec one_read]; unfold mem_user, mem_item; split; intro H.
  - destruct (cg_uinv _ _ _ (trained_contig d m0 m tu ti T Nm Tw (Ne _ _ H)) u H) as [v ->]. eexists. split; [reflexivity|].
    destruct (Sp (fun k => pair_obs (obs m) u k) (n_distinct "item" m0)) as [L K]. split; [exact L|]. intros k Hk. rewrite (pair_sum_obs m0 m tu ti T Nm). apply (K k Hk).
  - destruct (uid_to_user m u) as [[v|]|e] eqn:E; [|auto|].
    + destruct H. eapply range_user; eauto.
    + rewrite Em, uid_to_user_assigned in E. discriminate.
  - destruct (cg_iinv _ _ _ (trained_contig d m0 m tu ti T Nm Tw (Ne _ _ H)) k H) as [v ->]. eexists. split; [reflexivity|].
    destruct (Sp (fun u => pair_obs (obs m) u k) (n_distinct "user" m0)) as [L K]. split; [exact L|]. intros u Hu. rewrite (pair_sum_obs m0 m tu ti T Nm). apply (K u Hu).
  - destruct (iid_to_item m k) as [[v|]|e] eqn:E; [|auto|].
    + destruct H. eapply range_item; eauto.
    + rewrite Em, iid_to_item_assigned in E. discriminate.
Qed.
Lemma db_vectors lu li l n s rs : db_read_run inode ords lu li i l (n, w0) = (s, Ok rs) -> Forall2 (right_vec m0 m) l rs.
Proof.
  destruct (begin_runs inode w0 b0 i d0 m0 m tu ti R0 S0 H0 Tw0 T Nm Cd0 n) as (s1 & b1 & r & E1 & F1 & _).
  unfold db_read_run. unfold pbind at 1. rewrite E1. destruct r as [f|e]; [|discriminate].
  destruct (reads_db inode ords Po i d m0 m tu ti T Nm Tw Cd user_back item_back lu li l b1 ([], []) ltac:(intros k x Y; discriminate) ltac:(intros k x Y; discriminate) s1 F1) as (s2 & r2 & b2 & E2 & _ & _ & ->).
  rewrite E2. intro E. apply (f_equal snd), ok_same in E. subst rs. clear - T Nm Tw0 S0 H0. induction l as [|x l IH]; constructor; [apply read_right|exact IH].
Qed.

Section Two.
Hypothesis N1 : n_distinct "user" m0 <> 1%nat.
Lemma start_reads lu li l b : gives b (db_reads inode ords lu li i l ([], [])) (Ok (fst (mem_reads m l))).
Proof.
  rewrite (proj1 (reads_mem d m0 m tu ti T Nm Tw N1 l m (read_start d m0 m tu ti T Tw))).
  apply (reads_db inode ords Po i d m0 m tu ti T Nm Tw Cd user_back item_back); intros k x Y; discriminate.
Qed.
Lemma read_run_same lu li l n : exists s' b', db_read_run inode ords lu li i l (n, w0) = (s', mem_read_run m0 l) /\ fine (snd s') b' /\ extends (note b0 i (Some d)) b'.
Proof.
  destruct (begin_runs inode w0 b0 i d0 m0 m tu ti R0 S0 H0 Tw0 T Nm Cd0 n) as (s1 & b1 & r & E1 & F1 & X1 & r' & Em0 & Sr & _).
  unfold db_read_run, mem_read_run. rewrite Em0. unfold pbind at 1. rewrite E1. destruct r as [f|e], r' as [f'|e']; cbn [same_start] in Sr; try contradiction.
  2:{ subst e'. exists s1, b1. auto. }
  cbn [bind]. destruct (start_reads lu li l b1 s1 F1) as (s2 & r2 & b2 & E2 & F2 & X2 & ->).
  exists s2, b2. rewrite E2. split; [auto|]. split; [auto|]. eapply extends_trans; eauto.
Qed.
Lemma net_ask_gives k ni v a b : read_state m0 m v -> asks_ids m0 a -> gives b (db_net_ask inode ords k i ni a) (net_ask k v m ni a).
Proof.
  intro Rv. pose proof (reaches_inv _ _ _ R0) as I0.
  assert (Pd : forall net b x y, gives b (db_dmf_predict inode ords net i x y) (dmf_predict net v x y)).
  { intros. apply (dmf_gives inode ords Po i d m0 m tu ti T Nm Tw Cd N1 user_back item_back v Rv). }
  assert (Pc : forall th net b x y, gives b (db_predict_cdae (db_cdae_vec inode ords th net i) x y) (predict_cdae (cdae_vec th net v) x y)).
  { intros. apply (cdae_gives inode ords Po i d m0 m tu ti T Nm Tw Cd N1 user_back v Rv). }
  assert (Pr : forall b u iids n nov, gives b (db_net_rank inode ords k i ni u iids n nov) (net_rank k v m ni u iids n nov)).
  { intros. apply (net_rank_gives inode ords Po i d m0 m tu ti T Nm Tw Cd N1 user_back item_back v Rv). }
  assert (Pm : forall u, raw_value m0 "user" u -> raw_id m0 "user" u) by auto.
  destruct a as [u it sk|u items nov sk n|u n nov th]; cbn [db_net_ask net_ask asks_ids].
  - intros [Ru Ri]. destruct k as [net|th net]; unfold net_score.
    + apply gives_bind; [|intros; apply gives_ret]. rewrite Em. apply (predict_gives inode w0 b0 i d0 m0 I0 S0 H0 Tw0); auto.
    + apply gives_bind; [|intros b1 [x|] _ _; apply gives_ret]. rewrite Em. apply (predict_gives inode w0 b0 i d0 m0 I0 S0 H0 Tw0); auto.
  - intros [Ru Ri]. rewrite Forall_forall in Ri. apply gives_bind; [|intros; apply gives_ret]. 
    pose proof (rank_gives inode w0 b0 i d0 m0 I0 S0 H0 Tw0 _ _ true u items nov sk n b Ru Ri Pr) as G. rewrite <- Em in G. exact G.
  - intros Ru. apply gives_bind; [|intros; apply gives_ret].
    pose proof (recommend_gives inode w0 b0 i d0 m0 I0 S0 H0 Tw0 _ _ true ni u n nov th b Ru Pr) as G. rewrite <- Em in G. exact G.
Qed.
Lemma net_asks_give k ni v l : read_state m0 m v -> Forall (asks_ids m0) l -> forall b, gives b (db_net_asks inode ords k i ni l) (Ok (map (net_ask k v m ni) l)).
Proof.
  intro Rv. induction 1 as [|a l Ha _ IH]; intro b; [apply gives_ret|]. cbn [db_net_asks map]. intros s F.
  destruct (net_ask_gives k ni v a b Rv Ha s F) as (s1 & r & b1 & E & F1 & X1 & ->). rewrite E.
  destruct (IH b1 s1 F1) as (s2 & r2 & b2 & E2 & F2 & X2 & ->).
  exists s2. eexists. exists b2. split; [unfold pbind; rewrite E2; unfold pret; reflexivity|]. split; [exact F2|]. split; [eapply extends_trans; eauto|auto].
Qed.
Lemma net_run_same lu li k reads l n : Forall (asks_ids m0) l ->
  exists s' b', db_net_run inode ords lu li k i reads l (n, w0) = (s', net_run k m0 reads l) /\ fine (snd s') b' /\ extends (note b0 i (Some d)) b'.
Proof.
  intro Hl. destruct (begin_runs inode w0 b0 i d0 m0 m tu ti R0 S0 H0 Tw0 T Nm Cd0 n) as (s1 & b1 & r & E1 & F1 & X1 & r' & Em0 & Sr & _).
  unfold db_net_run, net_run. rewrite Em0. unfold pbind at 1. rewrite E1. destruct r as [f|e], r' as [f'|e']; cbn [same_start] in Sr; try contradiction.
  2:{ subst e'. exists s1, b1. auto. }
  cbn [bind]. destruct Sr as (_ & _ & _ & Si & _). destruct (start_reads lu li reads b1 s1 F1) as (s2 & r2 & b2 & E2 & F2 & X2 & ->).
  unfold pbind. rewrite E2. rewrite <- Si.
  destruct (net_asks_give k (fi_items f) (snd (mem_reads m reads)) l (proj2 (reads_mem d m0 m tu ti T Nm Tw N1 reads m (read_start d m0 m tu ti T Tw))) Hl b2 s2 F2) as (s3 & r3 & b3 & E3 & F3 & X3 & ->).
  exists s3, b3. rewrite E3. split; [auto|]. split; [auto|]. eapply extends_trans; [|exact X3]. eapply extends_trans; eauto.
Qed.
End Two.
End Start.
