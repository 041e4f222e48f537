(** The neighbourhood recommenders on a data set in a database and on the same
    data set in memory: fitting, predictions and rankings by internal ids. *)
From Coq Require Import String Ascii.
From Coq Require Import List ZArith QArith Qcanon Bool Permutation Sorted Lia.
From Verif Require Import Py PyFacts MemModel MemSpec MemFacts MemFacts2 MemFacts4 RankModel RankSpec RankFacts RankFacts2 KnnModel KnnSpec KnnFacts KnnFacts2 KnnFacts3 FitModel
  DbModel DbFacts DbSpec DbFacts3 DbFacts7 DbFacts12 DbFacts13 DbFacts14 DbFacts15 SampModel DbGenModel DbGenSpec DbGenFacts DbGenFacts2
  DbSplitModel DbSplitSpec DbSplitFacts DbSplitFacts3 DbSplitFacts6 TwinSpec TwinFacts TwinFacts5 RecDbModel RecDbFacts RecDbFacts2.
Import ListNotations.
Open Scope string_scope.
Open Scope Z_scope.
Open Scope list_scope.

(** ** Lists that are the same up to their order *)
Lemma has_row_perm es es' a : Permutation es es' -> has_row es a = has_row es' a.
Proof.
  intro P. apply eq_true_iff_eq. rewrite !has_row_In. split; apply Permutation_in; apply Permutation_map; [exact P|apply Permutation_sym; exact P].
Qed.
Lemma existsb_perm {A} (f : A -> bool) l l' : Permutation l l' -> existsb f l = existsb f l'.
Proof.
  intro P. apply eq_true_iff_eq. rewrite !existsb_exists. split; intros (x & H & K); exists x; (split; [|exact K]).
  - eapply Permutation_in; eauto.
  - eapply Permutation_in; [apply Permutation_sym; exact P|exact H].
Qed.
Lemma in_common_perm es es' a b : Permutation es es' -> in_common es a b = in_common es' a b.
Proof.
  intro P. unfold in_common. apply Permutation_length.
  assert (F : forall x, (has_obs es a x && has_obs es b x) = (has_obs es' a x && has_obs es' b x)).
  { intro x. unfold has_obs. rewrite (existsb_perm _ _ _ P), (existsb_perm _ _ _ P). reflexivity. }
  rewrite (filter_ext _ _ F). apply NoDup_Permutation; [apply NoDup_filter, NoDup_nodup|apply NoDup_filter, NoDup_nodup|].
  intro x. rewrite !filter_In, !nodup_In. split; intros [H K]; (split; [|exact K]); (eapply Permutation_in; [|exact H]); apply Permutation_map; [exact P|apply Permutation_sym; exact P].
Qed.
Lemma add_sims_perm c es es' coo : Permutation es es' -> forall t, add_sims c es t coo = add_sims c es' t coo.
Proof.
  intro P. induction coo as [|[[a b] s] coo IH]; intro t; [auto|]. cbn [add_sims]. 
  assert (E : add_sim c es t (a, b, s) = add_sim c es' t (a, b, s)).
  { unfold add_sim. rewrite !co_ratings_common, (in_common_perm _ _ a b P), (has_row_perm _ _ a P), (has_row_perm _ _ b P). reflexivity. }
  rewrite E. destruct (add_sim c es' t (a, b, s)); cbn [bind]; auto.
Qed.
Lemma total_perm l l' : Permutation l l' -> total l = total l'.
Proof. induction 1; cbn [total]; [auto|congruence|ring|congruence]. Qed.
Lemma Qcsum_perm l l' : Permutation l l' -> Qcsum l = Qcsum l'.
Proof. intro P. rewrite !Qcsum_total. apply total_perm. exact P. Qed.
Lemma filter_perm {A} (f : A -> bool) l l' : Permutation l l' -> Permutation (filter f l) (filter f l').
Proof.
  induction 1; cbn [filter]; [constructor|destruct (f x); [constructor|]; auto|destruct (f x), (f y); try apply Permutation_refl; apply perm_swap|eapply Permutation_trans; eauto].
Qed.
Lemma flat_map_perm {A B} (f : A -> list B) l l' : Permutation l l' -> Permutation (flat_map f l) (flat_map f l').
Proof.
  induction 1; cbn [flat_map]; [constructor|apply Permutation_app_head; auto|rewrite !app_assoc; apply Permutation_app_tail, Permutation_app_comm|eapply Permutation_trans; eauto].
Qed.
(** at most one row per pair *)
Lemma no_repeats_first es u k x : no_repeats es -> In (u, k, x) es -> first_obs es u k = Some x.
Proof.
  intros N H. unfold first_obs. destruct (find _ es) as [[[a b] y]|] eqn:E.
  - apply find_some in E. destruct E as [Hy E]. cbn [fst snd] in *. rewrite andb_true_iff, !Z.eqb_eq in E. destruct E as [-> ->].
    f_equal. cbn. unfold no_repeats in N. clear - N H Hy. induction es as [|e es IH]; [destruct H|]. cbn [map] in N. inversion N as [|? ? N1 N2]; subst.
    destruct H as [->|H], Hy as [Ey|Hy]; [congruence| | |auto].
    + exfalso. apply N1. apply in_map_iff. exists (u, k, y). auto.
    + exfalso. apply N1. subst e. apply in_map_iff. exists (u, k, x). auto.
  - exfalso. pose proof (find_none _ _ E _ H) as X. cbn [fst snd] in X. rewrite !Z.eqb_refl in X. discriminate.
Qed.
Lemma assoc_full_perm info info' : full info -> full info' -> (forall k, getl info k = getl info' k) -> Permutation info info'.
Proof.
  intros F F' G. apply NoDup_Permutation.
  - destruct F as [N _]. apply NoDup_map_inv in N. exact N.
  - destruct F' as [N _]. apply NoDup_map_inv in N. exact N.
  - intros [k l]. rewrite (getl_In _ _ _ F), (getl_In _ _ _ F'), G. tauto.
Qed.

Section Rec.
Variable inode : string -> nat.
Variable ords : nat -> list trow -> list trow.
Hypothesis Po : forall k, permuting (ords k).
Variables (i : nat) (d : ds) (m0 m : mem) (tu ti : dtype).
Hypothesis T : trained_on m0 m tu ti.
Hypothesis Nm : numeric m0.
Hypothesis Tw : twin d m.
Hypothesis Cd : complete d.
Local Notation cs := (m_columns m).
Local Notation fine := (fine inode i d).
Local Notation runs := (runs inode i d).
Local Notation gives := (gives inode i d).

Lemma dtri_as r : In r (rows_of m) -> dtri (as_trow cs r) = tri r /\
  tcell (as_trow cs r) "uid" = Some (VInt (t_u (tri r))) /\ tcell (as_trow cs r) "iid" = Some (VInt (t_i (tri r))) /\
  exists v, tcell (as_trow cs r) "interaction" = Some v /\ num_of v = Some (snd (tri r)).
Proof.
  intro Hr. destruct (KnnFacts.good m0 m tu ti T Nm r Hr) as (Eu & Ei & v & Ev & Q). destruct (trained_cols m0 m tu ti T) as [Cu Ci].
  pose proof (has_interaction m0 m tu ti T Nm) as Cx.
  assert (Cell : forall c, In c cs -> c <> "rid" -> tcell (as_trow cs r) c = cell r c).
  { intros c Ic Nc. rewrite (tcell_as cs r c Ic). unfold row_val. destruct (String.eqb_spec c "rid"); [contradiction|auto]. }
  assert (X : tcell (as_trow cs r) "uid" = Some (VInt (t_u (tri r)))) by (rewrite Cell; [exact Eu|exact Cu|discriminate]).
  assert (Y : tcell (as_trow cs r) "iid" = Some (VInt (t_i (tri r)))) by (rewrite Cell; [exact Ei|exact Ci|discriminate]).
  assert (Z : tcell (as_trow cs r) "interaction" = Some v) by (rewrite Cell; [exact Ev|exact Cx|discriminate]).
  split; [|eauto]. unfold dtri, zcell, qcell. rewrite X, Y, Z, Q. destruct (tri r) as [[a b] x]. reflexivity.
Qed.
Lemma rec_rows row : In row (d_rows d) -> exists r, In r (rows_of m) /\ row = as_trow cs r.
Proof. intro H. apply (twin_row d m Tw) in H. destruct H as (r & Hr & ->). eauto. Qed.
Lemma rec_ready : ready d.
Proof.
  split.
  - exact Cd.
  - rewrite (tw_cols _ _ Tw). destruct (trained_cols m0 m tu ti T) as [Cu Ci]. intros ? [<-|[<-|[]]]; auto.
  - destruct (tw_types _ _ Tw) as (ts & Ts & Ty). exists ts. split; [auto|]. destruct (trained_cols m0 m tu ti T) as [Cu Ci].
    assert (G : forall c, In c ["uid"; "iid"] -> In c cs -> assoc String.eqb c ts = Some DInt).
    { intros c Hc Ic. destruct (col_type_ok m c (tw_wf _ _ Tw) Ic) as [t Ht]. rewrite (Ty c t Ic Ht). f_equal.
      apply (trained_id_types m0 m tu ti T c t Hc). apply col_type_assoc; [|exact Ht]. intros ->. destruct Hc as [X|[X|[]]]; discriminate. }
    split; apply G; cbn; auto.
  - intros row Hr. destruct (rec_rows row Hr) as (r & Hr0 & ->). destruct (dtri_as r Hr0) as (E & X & Y & v & Z & Q).
    assert (zcell "uid" (as_trow cs r) = t_u (tri r)) by (unfold zcell; rewrite X; auto).
    assert (zcell "iid" (as_trow cs r) = t_i (tri r)) by (unfold zcell; rewrite Y; auto).
    assert (qcell (as_trow cs r) = snd (tri r)) by (unfold qcell; rewrite Z, Q; auto).
    split; [congruence|]. split; [congruence|]. exists v. split; [auto|congruence].
Qed.
Lemma obs_perm : Permutation (map dtri (d_rows d)) (obs m).
Proof.
  rewrite (obs_map m0 m tu ti T Nm). eapply Permutation_trans; [apply Permutation_map, (tw_rows _ _ Tw)|]. rewrite map_map.
  rewrite (map_ext_in (fun r => dtri (as_trow cs r)) tri); [apply Permutation_refl|]. intros r Hr. apply (proj1 (dtri_as r Hr)).
Qed.

Lemma rec_cols c : In c ["uid"; "iid"; "interaction"] -> In c (d_cols d).
Proof.
  intros [<-|[<-|[<-|[]]]].
  - apply (rd_cols d rec_ready). cbn. auto.
  - apply (rd_cols d rec_ready). cbn. auto.
  - destruct Cd as [Ic _]. apply Ic. cbn. auto.
Qed.
Lemma rec_full d' : ready d' -> forall row, In row (d_rows d') -> forall c, In c ["uid"; "iid"; "interaction"] -> tcell row c <> None.
Proof.
  intros R row Hr c Hc. destruct (rd_rows d' R row Hr) as (Eu & Ei & v & Ev & _). destruct Hc as [<-|[<-|[<-|[]]]]; congruence.
Qed.
(** the cells of a row, as the recommender reads them *)
Definition sure (c : string) (row : trow) : value := match tcell row c with Some v => v | None => VInt 0 end.
Lemma int_id c d' row : ready d' -> In row (d_rows d') -> c = "uid" \/ c = "iid" -> sure c row = VInt (zcell c row).
Proof. intros R Hr Hc. destruct (rd_rows d' R row Hr) as (Eu & Ei & _). unfold sure. destruct Hc as [-> | ->]; [rewrite Eu|rewrite Ei]; auto. Qed.
Lemma int_value_int z : int_value (VInt z) = Ok z.
Proof. apply int_value_same. reflexivity. Qed.
Lemma read_num d' row : ready d' -> In row (d_rows d') -> num_value (sure "interaction" row) = Ok (qcell row).
Proof. intros R Hr. destruct (rd_rows d' R row Hr) as (_ & _ & v & Ev & Q). unfold sure, num_value. rewrite Ev, Q. auto. Qed.

Lemma runs_book {A} b (p : P A) Q : (b i = Some d -> runs b p Q) -> runs b p Q.
Proof. intros H s F. exact (H (proj1 (proj2 F)) s F). Qed.

Lemma entries_runs b : runs b (db_entries inode ords i) (fun b' r => extends b b' /\ exists es, r = Ok es /\ Permutation es (obs m)).
Proof.
  apply runs_book. intro Hb. unfold db_entries. eapply runs_bind.
  - apply (each_runs inode ords Po i d b i d); [exact Hb|exact Cd| |].
    + intros c Hc. apply rec_cols. exact Hc.
    + intros row Hr c Hc. exact (rec_full d rec_ready row Hr c Hc).
  - cbn beta. intros b' vs (X & l & Pl & E). injection E as ->. apply runs_ret. split; [exact X|]. exists (map dtri l). split.
    + rewrite mapM_map. apply mapM_all. intros row Hr. pose proof (Permutation_in _ Pl Hr) as Hr'. cbn [map]. fold (sure "uid" row) (sure "iid" row) (sure "interaction" row).
      unfold entry_of. rewrite (int_id "uid" d row rec_ready Hr') by auto. rewrite (int_id "iid" d row rec_ready Hr') by auto.
      rewrite !int_value_int. cbn [bind]. rewrite (read_num d row rec_ready Hr'). reflexivity.
    + eapply Permutation_trans; [apply Permutation_map, Pl|apply obs_perm].
  - intros b' e (_ & l & _ & E). discriminate.
Qed.

(** ** The rows of one user or item *)
Definition sub (c : string) (k : Z) : ds := restricted d [is_id c k].
Definition is_c (c : string) (k : Z) (e : Z * Z * Qc) : bool := if String.eqb c "uid" then is_u k e else is_i k e.
Lemma sub_ready c k : ready (sub c k).
Proof. apply (ready_part d); [apply rec_ready|auto|auto|]. unfold sub, restricted. cbn [d_rows]. intros x Hx. apply filter_In in Hx. tauto. Qed.
Lemma filter_map_eq {A B} (f : A -> B) (P : B -> bool) l : map f (filter (fun x => P (f x)) l) = filter P (map f l).
Proof. induction l as [|a l IH]; [auto|]. cbn [filter map]. destruct (P (f a)); cbn [map]; congruence. Qed.
Lemma sub_rows c k : c = "uid" \/ c = "iid" -> Permutation (map dtri (d_rows (sub c k))) (filter (is_c c k) (obs m)).
Proof.
  intro Hc. unfold sub, restricted. cbn [d_rows].
  rewrite (filter_ext_in (fun row => forallb (holds row) [is_id c k]) (fun row => is_c c k (dtri row))).
  - rewrite filter_map_eq. apply filter_perm, obs_perm.
  - intros row Hr. cbn [forallb]. rewrite andb_true_r, (id_holds d c k row rec_ready Hc Hr). unfold is_c, is_u, is_i, t_u, t_i, dtri. cbn [fst snd].
    destruct Hc as [-> | ->]; reflexivity.
Qed.

Lemma ok_same {A} (x y : A) : Ok x = Ok y -> x = y.
Proof. intro H. injection H as ->. auto. Qed.
Lemma concat_single {A B} (g : A -> B) (l : list A) : concat (map (fun x => [g x]) l) = map g l.
Proof. induction l as [|a l IH]; [auto|]. cbn [map concat app]. congruence. Qed.

Lemma ext_note b j e : b j = None -> extends b (note b j (Some e)).
Proof. intros H x Hx. apply note_other. congruence. Qed.
Lemma ext_close b j e b1 : b j = None -> extends (note b j (Some e)) b1 -> extends b (note b1 j None).
Proof.
  intros H X x Hx. assert (N : x <> j) by congruence. rewrite note_other by auto. rewrite X; rewrite note_other; auto.
Qed.
Lemma ext_at b j e b1 : extends (note b j (Some e)) b1 -> b1 j = Some e.
Proof. intro X. rewrite X; rewrite note_same; [auto|discriminate]. Qed.

Definition default_of (xs : list Qc) : res Qc :=
  if (length xs =? 0)%nat then Err ZeroDivisionError else Ok (Qcsum xs / Qc_of_Z (Z.of_nat (length xs)))%Qc.
Lemma default_runs b c k : c = "uid" \/ c = "iid" -> gives b (db_predict_default inode ords i c k) (predict_default m c k).
Proof.
  intro Hc. apply runs_book. intro Hb. unfold db_predict_default.
  assert (Ed : predict_default m c k = default_of (map snd (filter (is_c c k) (obs m)))).
  { rewrite (predict_default_ok m0 m tu ti T Nm c k Hc). cbv zeta. unfold is_c. destruct Hc as [-> | ->]; reflexivity. }
  rewrite Ed. eapply runs_bind; [apply (select_runs inode i d rec_ready b c k Hc)| |intros b' e (j & X & _); discriminate].
  cbn beta. intros b1 j0 (j & Ej & Fr & ->). apply ok_same in Ej; subst. fold (sub c k).
  assert (Nj : j <> i) by congruence.
  eapply runs_bind.
  - apply (values_runs inode ords Po i d _ j (sub c k) ["interaction"]); [apply note_same|apply sub_ready| |].
    + intros x [<-|[]]. apply rec_cols. cbn. auto.
    + intros row Hr x [<-|[]]. apply (rec_full _ (sub_ready c k) row Hr). cbn. auto.
  - cbn beta. intros b2 vs (X2 & l & Pl & E). apply ok_same in E; subst.
    eapply runs_bind; [apply (len_runs inode i d b2 j (sub c k) (ext_at _ _ _ _ X2))| |intros b' e (_ & X); discriminate].
    cbn beta. intros b3 n (X3 & E3). apply ok_same in E3; subst. pose proof (extends_trans _ _ _ X2 X3) as X23.
    eapply runs_bind; [apply (close_runs inode i d b3 j (sub c k) (ext_at _ _ _ _ X23) Nj)| |intros b' e (X & _); discriminate].
    cbn beta. intros b4 _u (_ & ->).
    assert (Em : mapM num_value (concat (map (fun row => map (fun c0 => match tcell row c0 with Some v => v | None => VInt 0 end) ["interaction"]) l)) = Ok (map qcell l)).
    { assert (G : forall row, In row l -> num_value (sure "interaction" row) = Ok (qcell row)).
      { intros row Hr. apply (read_num (sub c k)); [apply sub_ready|]. eapply Permutation_in; eauto. }
      etransitivity; [apply f_equal, (concat_single (sure "interaction"))|]. rewrite mapM_map. apply mapM_all. exact G. }
    rewrite Em. eapply runs_bind; [apply (runs_ret inode i d _ _ (fun b' r => b' = note b3 j None /\ r = Ok (map qcell l))); auto| |intros b' e (_ & X); discriminate].
    cbn beta. intros b5 xs (-> & E5). apply ok_same in E5; subst. apply runs_ret. split; [eapply ext_close; eauto|].
    assert (Px : Permutation (map qcell l) (map snd (filter (is_c c k) (obs m)))).
    { eapply Permutation_trans; [|apply Permutation_map, (sub_rows c k Hc)]. rewrite map_map. apply Permutation_map. exact Pl. }
    unfold default_of. rewrite <- (Permutation_length Px), (Qcsum_perm _ _ Px). rewrite map_length, (Permutation_length Pl). reflexivity.
  - intros b' e (_ & l & _ & X). discriminate.
Qed.

(** ** One row *)
Section Single.
Hypothesis Nr : no_repeats (obs m).

Lemma obs_row row : In row (d_rows d) -> In (dtri row) (obs m).
Proof. intro H. apply (Permutation_in _ obs_perm). apply in_map. exact H. Qed.
Lemma row_of e : In e (obs m) -> exists row, In row (d_rows d) /\ dtri row = e.
Proof. intro H. apply (Permutation_in _ (Permutation_sym obs_perm)) in H. apply in_map_iff in H. destruct H as (row & E & Hr). eauto. Qed.

(** what select_one finds for a user and an item *)
Lemma found_first d' l u k r : found_as d' l r -> incl (d_rows d') (d_rows d) ->
  (forall row, In row (d_rows d) -> (zcell "uid" row = u /\ zcell "iid" row = k) <-> (In row (d_rows d') /\ forallb (holds row) l = true)) ->
  exists o, r = Ok o /\ found o = Ok (first_obs (obs m) u k).
Proof.
  intros [[-> H]|(row & v & -> & Hr & Hh & Q)] Ir K.
  - exists None. split; [auto|]. cbn [found]. f_equal. symmetry. apply first_obs_None. apply not_true_is_false. intro X.
    unfold has_obs in X. apply existsb_exists in X. destruct X as (e & He & X). rewrite andb_true_iff, !Z.eqb_eq in X. destruct (row_of e He) as (row & Hr & <-).
    cbn [dtri fst snd] in X. destruct (K row Hr) as [K1 _]. destruct (K1 X) as [K2 K3]. rewrite H in K3; [discriminate|auto].
  - exists (Some [v]). split; [auto|]. cbn [found]. unfold num_value. rewrite Q. cbn [bind]. f_equal. symmetry.
    apply no_repeats_first; [exact Nr|]. pose proof (Ir _ Hr) as Hd. destruct (K row Hd) as [_ K2]. destruct (K2 (conj Hr Hh)) as [<- <-]. apply (obs_row row Hd).
Qed.
Lemma interaction_runs b u k : gives b (db_get_interaction inode ords i u k) (get_interaction m u k).
Proof.
  apply runs_book. intro Hb. rewrite (get_interaction_ok m0 m tu ti T Nm). unfold db_get_interaction.
  assert (Tx : ("uid == " ++ str_of_Z u ++ ", iid == " ++ str_of_Z k)%string = query_text [is_id "uid" u; is_id "iid" k]).
  { unfold query_text, cond_text, is_id. cbn [sc_col sc_op sc_lit op_text lit_text].
    change ("uid" ++ " " ++ "==" ++ " " ++ str_of_Z u)%string with ("uid == " ++ str_of_Z u)%string. rewrite append_assoc. reflexivity. }
  rewrite Tx. eapply runs_bind.
  - apply (one_runs inode ords Po i d b i d [is_id "uid" u; is_id "iid" k]); [exact Hb|apply rec_ready|discriminate| |].
    + apply Forall_cons; [apply id_fits; [apply rec_ready|auto]|]. apply Forall_cons; [apply id_fits; [apply rec_ready|auto]|]. apply Forall_nil.
    + intros c [<-|[<-|[]]]; eexists; reflexivity.
  - cbn beta. intros b' r (X & F). apply runs_ret. split; [exact X|].
    destruct (found_first d _ u k _ F (incl_refl _)) as (o & Eo & Ef); [|apply ok_same in Eo; subst; exact Ef].
    intros row Hr. cbn [forallb]. rewrite !(id_holds d _ _ row rec_ready) by auto. rewrite andb_true_r, andb_true_iff, !Z.eqb_eq. tauto.
  - intros b' e (_ & [[X _]|(? & ? & X & _)]); discriminate.
Qed.
Lemma sub_one_runs b j u k : b j = Some (sub "uid" u) ->
  gives b (pbind (db_one inode ords j ("iid == " ++ str_of_Z k)%string ["interaction"]) (fun r => pret (found r))) (Ok (first_obs (obs m) u k)).
Proof.
  intro Hb. change ("iid == " ++ str_of_Z k)%string with (query_text [is_id "iid" k]). eapply runs_bind.
  - apply (one_runs inode ords Po i d b j (sub "uid" u) [is_id "iid" k]); [exact Hb|apply sub_ready|discriminate| |].
    + apply Forall_cons; [apply id_fits; [apply sub_ready|auto]|]. apply Forall_nil.
    + intros c [<-|[]]; eexists; reflexivity.
  - cbn beta. intros b' r (X & F). apply runs_ret. split; [exact X|].
    destruct (found_first (sub "uid" u) _ u k _ F) as (o & Eo & Ef); [| |apply ok_same in Eo; subst; exact Ef].
    + intros x Hx. unfold sub, restricted in Hx. cbn [d_rows] in Hx. apply filter_In in Hx. tauto.
    + intros row Hr. unfold sub, restricted. cbn [d_rows]. rewrite filter_In. cbn [forallb]. rewrite !(id_holds d _ _ row rec_ready) by auto.
      rewrite !andb_true_r, !Z.eqb_eq. tauto.
  - intros b' e (_ & [[X _]|(? & ? & X & _)]); discriminate.
Qed.

(** ** Predictions *)
Lemma gather_runs (get : Z -> P (option Qc)) (f : Z -> res (option Qc)) l b : (forall b' k, extends b b' -> gives b' (get k) (f k)) ->
  gives b (db_gather get l) (gather f l).
Proof.
  intro H. unfold db_gather, gather. apply gives_bind.
  - apply gives_map. intros b' p X _. apply gives_bind; [apply H; exact X|]. intros b2 x _ _. apply gives_ret.
  - intros b' xs _ _. apply gives_ret.
Qed.
Lemma conclude_runs c (p : P Qc) (r : res Qc) l b : gives b p r -> gives b (db_conclude c p l) (conclude c r l).
Proof.
  intro H. unfold db_conclude, conclude. destruct l; [|apply gives_ret]. destruct (kn_avg c); [|apply gives_ret].
  apply gives_bind; [exact H|]. intros b' x _ _. apply gives_ret.
Qed.
Lemma predict_runs c nb uid iid b : gives b (db_knn_predict inode ords c i nb uid iid) (knn_predict c m nb uid iid).
Proof.
  unfold db_knn_predict, knn_predict. destruct uid as [u|]; [|apply gives_ret]. destruct iid as [k|]; [|apply gives_ret].
  apply gives_bind; [apply gives_ret|]. intros b1 l _ _. apply gives_bind.
  - apply gather_runs. intros b2 x _. destruct (kn_user c); apply interaction_runs.
  - intros b2 g _ _. apply conclude_runs. destruct (kn_user c); apply default_runs; auto.
Qed.

(** ** Rankings *)
Lemma rated_runs_at b j u : b j = Some (sub "uid" u) ->
  runs b (db_values inode ords j ["iid"]) (fun b' r => extends b b' /\ exists vs, r = Ok vs /\
    forall k, mem_b val_eqb (VInt k) (concat vs) = true <-> pair_in m u k).
Proof.
  intro Hb. eapply runs_weaken.
  - apply (values_runs inode ords Po i d _ j (sub "uid" u) ["iid"]); [exact Hb|apply sub_ready| |].
    + intros x [<-|[]]. apply rec_cols. cbn. auto.
    + intros row Hr x [<-|[]]. apply (rec_full _ (sub_ready "uid" u) row Hr). cbn. auto.
  - cbn beta. intros b' r (X & l & Pl & ->). split; [exact X|]. eexists. split; [reflexivity|]. intro k.
    assert (Ec : concat (map (fun row => map (fun c0 => match tcell row c0 with Some v => v | None => VInt 0 end) ["iid"]) l) = map (fun row => VInt (zcell "iid" row)) l).
    { assert (G : forall row, In row l -> sure "iid" row = VInt (zcell "iid" row)).
      { intros row Hr. apply (int_id "iid" (sub "uid" u)); [apply sub_ready|eapply Permutation_in; eauto|auto]. }
      etransitivity; [apply (concat_single (sure "iid"))|]. apply map_ext_in. exact G. }
    rewrite Ec. unfold pair_in. rewrite mem_b_exists. split.
    + intros (v & Hv & E). apply in_map_iff in Hv. destruct Hv as (row & <- & Hr). cbn [val_eqb] in E. apply Z.eqb_eq in E.
      apply (Permutation_in _ Pl) in Hr. unfold sub, restricted in Hr. cbn [d_rows] in Hr. apply filter_In in Hr. destruct Hr as [Hr Hh].
      cbn [forallb] in Hh. rewrite (id_holds d _ _ row rec_ready) in Hh by auto. rewrite andb_true_r, Z.eqb_eq in Hh.
      destruct (rec_rows row Hr) as (r & Hr0 & ->). exists r. split; [exact Hr0|]. destruct (KnnFacts.good m0 m tu ti T Nm r Hr0) as (Eu & Ei & _).
      destruct (dtri_as r Hr0) as (Ed & _). unfold dtri in Ed. rewrite <- Ed in Eu, Ei. cbn [t_u t_i fst snd] in Eu, Ei. subst. auto.
    + intros (r & Hr0 & Eu & Ei). destruct (dtri_as r Hr0) as (_ & X1 & X2 & _). destruct (KnnFacts.good m0 m tu ti T Nm r Hr0) as (Eu' & Ei' & _).
      exists (VInt k). split; [|cbn [val_eqb]; apply Z.eqb_refl]. apply in_map_iff. exists (as_trow cs r). split.
      * unfold zcell. rewrite X2. congruence.
      * apply (Permutation_in _ (Permutation_sym Pl)). unfold sub, restricted. cbn [d_rows]. apply filter_In. 
        assert (Hd : In (as_trow cs r) (d_rows d)) by (apply (twin_row d m Tw); eauto). split; [exact Hd|].
        cbn [forallb]. rewrite (id_holds d _ _ _ rec_ready) by auto. rewrite andb_true_r, Z.eqb_eq. unfold zcell. rewrite X1. congruence.
Qed.
Lemma rated_runs b u : runs b (db_rated_iids inode ords i u) (fun b' r => extends b b' /\ exists l, r = Ok l /\
    forall k, mem_b val_eqb (VInt k) l = true <-> pair_in m u k).
Proof.
  apply runs_book. intro Hb. unfold db_rated_iids.
  eapply runs_bind; [apply (select_runs inode i d rec_ready b "uid" u (or_introl eq_refl))| |intros b' e (j & X & _); discriminate].
  cbn beta. intros b1 j0 (j & Ej & Fr & ->). apply ok_same in Ej; subst. fold (sub "uid" u). assert (Nj : j <> i) by congruence.
  eapply runs_bind; [apply (rated_runs_at _ j u); apply note_same| |intros b' e (_ & l & X & _); discriminate].
  cbn beta. intros b2 vs (X2 & vs' & E & K). apply ok_same in E; subst.
  eapply runs_bind; [apply (close_runs inode i d b2 j (sub "uid" u) (ext_at _ _ _ _ X2) Nj)| |intros b' e (X & _); discriminate].
  cbn beta. intros b4 _u (_ & ->). apply runs_ret. split; [eapply ext_close; eauto|]. eauto.
Qed.
Lemma candidates_runs b u iids nov : gives b (db_candidates inode ords i u iids nov) (knn_candidates m u iids nov).
Proof.
  unfold db_candidates, knn_candidates. destruct nov; [|apply gives_ret]. destruct (rated_spec m0 m tu ti T u) as (seen & -> & S). cbn [bind].
  eapply runs_bind; [apply rated_runs| |intros b' e (_ & l & X & _); discriminate].
  cbn beta. intros b1 l (X & l' & E & K). apply ok_same in E; subst. apply runs_ret. split; [exact X|]. f_equal. unfold set_minus. apply filter_ext. intro k.
  f_equal. apply eq_true_iff_eq. rewrite K, S. tauto.
Qed.
End Single.
End Rec.
