(** Proofs about splitting, fitting and evaluating. *)
From Coq Require Import String Ascii.
From Coq Require Import List ZArith QArith Qcanon Qround Reals Bool Lia Permutation Sorted.
From Verif Require Import Py PyFacts MemModel MemSpec MemFacts MemFacts2 MemFacts3 MemFacts4 MemFacts5 MemFacts6 MemFacts7.
From Verif Require Import RankModel RankSpec RankFacts RankFacts2 RankFacts3 KnnModel KnnSpec KnnFacts KnnFacts2 KnnFacts3 KnnFacts4.
From Verif Require Import Conc ConcFacts SplitModel SplitSpec SampModel EvalModel EvalSpec EvalFacts EvalFacts2 EvalFacts3 EvalFacts4 EvalFacts5.
From Verif Require Import PipeSpec.
Import ListNotations.
Open Scope string_scope.
Open Scope Z_scope.
Open Scope list_scope.

(** ** rankings only hold ids they were given *)
Lemma top_In n ps p : In p (top n ps) -> In p ps.
Proof. intros H. destruct p as [s i]. apply (bo_sound _ _ _ _ (top_best n ps) s i H). Qed.
Lemma present_In ps p : In p (present ps) -> exists s, In (Some s, snd p) ps.
Proof.
  unfold present. rewrite in_flat_map. intros ([o i] & H & E). cbn [fst snd] in E. destruct o as [s|]; [|destruct E].
  destruct E as [<-|[]]. eauto.
Qed.
Lemma set_minus_incl iids rated i : In i (set_minus iids rated) -> In i iids.
Proof. unfold set_minus. rewrite filter_In. intros [H _]. apply (proj1 (dedup_In _ reflects_Z _ _)) in H. auto. Qed.

Lemma rank_abc_given f m u iids n nov l : rank_abc f m u iids n nov = Ok l -> forall p, In p l -> In (snd p) iids.
Proof.
  unfold rank_abc. intros H p Hp.
  assert (X : exists is, (forall i, In i is -> In i iids) /\ (ps <- pred_list f u is ;; Ok (top n ps)) = Ok l).
  { destruct nov.
    - destruct (rated_iids m u) as [rated|]; cbn [bind] in H; [|discriminate]. exists (set_minus iids rated). split; auto.
      intros i. apply set_minus_incl.
    - cbn [bind] in H. eauto. }
  destruct X as (is & S & E). apply S. unfold pred_list in E.
  destruct (mapM _ is) as [ps|] eqn:M; cbn [bind] in E; [|discriminate]. injection E as <-. apply top_In in Hp.
  apply in_flat_map in Hp. destruct Hp as ([o i] & Ho & Hp). cbn [fst snd] in Hp. destruct o as [s|]; [|destruct Hp].
  destruct Hp as [<-|[]]. cbn [snd]. destruct (mapM_In _ _ _ _ M Ho) as (j & Hj & E).
  destruct (f (Some u) (Some j)); cbn [bind] in E; [|discriminate]. injection E as _ <-. auto.
Qed.

Lemma candidates_given m u iids nov cands : knn_candidates m u iids nov = Ok cands -> forall i, In i cands -> In i iids.
Proof.
  unfold knn_candidates. destruct nov.
  - destruct (rated_iids m u); cbn [bind]; [|discriminate]. intros H. injection H as <-. intros i. apply set_minus_incl.
  - intros H. injection H as <-. intros i Hi. apply (proj1 (dedup_In _ reflects_Z _ _)) in Hi. auto.
Qed.
Lemma item_rank_given c m t u iids n nov l : item_rank c m t u iids n nov = Ok l -> forall p, In p l -> In (snd p) iids.
Proof.
  unfold item_rank. destruct (knn_candidates m u iids nov) as [cands|] eqn:C; cbn [bind]; [|discriminate].
  destruct (select m _) as [ud|]; cbn [bind]; [|discriminate]. destruct (rated_iids m u) as [seen|]; cbn [bind]; [|discriminate].
  destruct (mapM _ cands) as [ps|] eqn:M; cbn [bind]; [|discriminate]. intros H p Hp. injection H as <-.
  apply top_In, present_In in Hp. destruct Hp as [s Hp]. destruct (mapM_In _ _ _ _ M Hp) as (j & Hj & E).
  destruct (neighbours t j); cbn [bind] in E; [|discriminate]. destruct (gather _ _); cbn [bind] in E; [|discriminate].
  destruct (conclude _ _ _); cbn [bind] in E; [|discriminate]. injection E as _ ->. eapply candidates_given; eauto.
Qed.

Lemma assoc_set_keys {B} (k : Z) (v : B) t j : In j (map fst (assoc_set Z.eqb k v t)) -> j = k \/ In j (map fst t).
Proof.
  induction t as [|[k' v'] t IH]; cbn [assoc_set map fst].
  - intros [<-|[]]; auto.
  - destruct (k =? k') eqn:E; cbn [map fst].
    + apply Z.eqb_eq in E. subst. intros [<-|H]; auto. simpl; auto.
    + intros [<-|H]; [simpl; auto|]. destruct (IH H); simpl; auto.
Qed.
Lemma add_info_keys cands s rs : forall t, (forall j, In j (map fst t) -> In j cands) ->
  forall j, In j (map fst (fold_left (add_info cands s) rs t)) -> In j cands.
Proof.
  induction rs as [|[i x] rs IH]; intros t H; cbn [fold_left]; auto. apply IH. intros j. unfold add_info.
  destruct (mem_b Z.eqb i cands) eqn:M; cbn [negb]; auto. intros Hj. apply assoc_set_keys in Hj. destruct Hj as [->|Hj]; auto.
  apply mem_b_exists in M. destruct M as (k & Hk & E). apply Z.eqb_eq in E. subst. auto.
Qed.
Lemma user_info_keys m cands l : forall t info, (forall j, In j (map fst t) -> In j cands) -> user_info m cands t l = Ok info ->
  forall j, In j (map fst info) -> In j cands.
Proof.
  induction l as [|[s b] l IH]; intros t info H; cbn [user_info].
  - intros E. injection E as <-. auto.
  - destruct (select m _) as [mb|]; cbn [bind]; [|discriminate]. destruct (values mb _) as [vs|]; cbn [bind]; [|discriminate].
    destruct (mapM pair_of vs) as [rs|]; cbn [bind]; [|discriminate]. apply IH. apply add_info_keys. auto.
Qed.
Lemma user_rank_given c m t u iids n nov l : user_rank c m t u iids n nov = Ok l -> forall p, In p l -> In (snd p) iids.
Proof.
  unfold user_rank. destruct (knn_candidates m u iids nov) as [cands|] eqn:C; cbn [bind]; [|discriminate].
  destruct (neighbours t u) as [nb|]; cbn [bind]; [|discriminate]. destruct (user_info m cands [] nb) as [info|] eqn:I; cbn [bind]; [|discriminate].
  destruct (mapM _ info) as [ps|] eqn:M; cbn [bind]; [|discriminate]. intros H p Hp. injection H as <-.
  apply top_In, present_In in Hp. destruct Hp as [s Hp]. destruct (mapM_In _ _ _ _ M Hp) as (j & Hj & E).
  destruct (conclude _ _ _); cbn [bind] in E; [|discriminate]. injection E as _ <-. eapply candidates_given; eauto.
  eapply user_info_keys; [|exact I|apply in_map; eauto]. intros i [].
Qed.
Lemma knn_rank_given c m t u iids n nov l : knn_rank c m t u iids n nov = Ok l -> forall p, In p l -> In (snd p) iids.
Proof. unfold knn_rank. destruct (kn_user c); [apply user_rank_given|apply item_rank_given]. Qed.

(** ** a fitted recommender answers for its users *)
Definition good (m0 m : mem) (impl : rank_impl) : Prop :=
  forall user u iids n nov, known_user m0 user -> user_to_uid m user = Ok (Some u) ->
    (forall i, In i iids -> 0 <= i < Z.of_nat (n_distinct "item" m0)) ->
    exists l, impl u iids n nov = Ok l /\ forall p, In p l -> In (snd p) iids.

Section Served.
Variables (m0 m : mem) (tu : dtype).
Hypothesis T : trained_on m0 m tu DInt.

Lemma rank_abc_good f : never_raises f -> good m0 m (rank_abc f m).
Proof.
  intros F user u iids n nov _ _ _. destruct (rank_abc_total m0 m tu DInt T f u iids n nov F) as [l E].
  exists l. split; auto. eapply rank_abc_given; eauto.
Qed.
Lemma knn_good c coo nb : numeric m0 -> fitted_with c m0 m coo nb -> good m0 m (knn_rank c m nb).
Proof.
  intros Nm F user u iids n nov K U R. destruct (entities_ok m0 m tu DInt T Nm "iid" "item" (or_intror (conj eq_refl eq_refl))) as [_ En].
  destruct (knn_rank_total m0 m tu DInt T Nm c coo nb u iids n nov F) as [l E].
  - eapply user_in_obs; eauto.
  - intros i Hi. apply En. auto.
  - exists l. split; auto. eapply knn_rank_given; eauto.
Qed.

Lemma named_total l : (forall p : RankModel.scored, In p l -> 0 <= snd p < Z.of_nat (n_distinct "item" m0)) ->
  exists out, (o <- with_items m l ;; named o) = Ok out.
Proof.
  unfold with_items, named. induction l as [|p l IH]; intros H; [cbn; eauto|].
  destruct (iid_in_range m0 m tu DInt T (snd p) (H p (or_introl eq_refl))) as [v E].
  destruct IH as [out IH]; [intros; apply H; simpl; auto|]. cbn [mapM]. rewrite E. cbn [bind].
  match type of IH with bind ?x _ = _ => destruct x as [o|] end; cbn [bind] in IH |- *; [|discriminate].
  cbn [mapM snd bind]. rewrite IH. cbn [bind]. eauto.
Qed.

Lemma item_type : col_type m "item" = Ok DInt.
Proof. rewrite (trained_assigned m0 m tu DInt T), col_type_assigned by discriminate. apply T. Qed.
Lemma int_iid v : int_id v -> exists z, item_to_iid m v = item_to_iid m (VInt z).
Proof.
  intros (z & S & _). exists z. unfold item_to_iid, to_internal. destruct (negb (m_ids m)); auto.
  rewrite item_type. cbn [bind]. destruct v as [y|q|s]; cbn [same_value] in S; try contradiction.
  - cbn [num_of] in S. assert (E : Qc_of_Z y = Qc_of_Z z) by congruence. apply Qc_of_Z_inj in E. congruence.
  - cbn [num_of] in S. assert (E : q = Qc_of_Z z) by congruence. rewrite E, num_Z. cbn [inject_Z Qnum Qden].
    rewrite Z.quot_1_r. reflexivity.
Qed.
Lemma known_ints items : Forall int_id items -> exists iids, known_iids m true items = Ok iids /\
  forall i, In i iids -> 0 <= i < Z.of_nat (n_distinct "item" m0).
Proof.
  induction 1 as [|v items Hv _ (iids & IH & R)]; cbn [known_iids].
  - exists []. split; auto. intros i [].
  - destruct (int_iid v Hv) as [z E]. rewrite E. destruct (item_to_iid m (VInt z)) as [[k|]|e] eqn:K.
    + cbn [bind]. rewrite IH. cbn [bind]. exists (k :: iids). split; auto. intros i [<-|Hi]; auto.
      apply (item_iid m0 m tu DInt T (VInt z) k eq_refl) in K. eapply iid_range; eauto.
    + cbn [bind]. eauto.
    + exfalso. destruct (in_dec value_eq_dec (VInt z) (column "item" (rows_of m0))) as [I|I].
      * destruct (known_item_iid m0 m tu DInt T _ I) as [_ [k [E' _]]]. congruence.
      * rewrite (unknown_item_iid m0 m tu DInt T (VInt z) eq_refl I) in K. discriminate.
Qed.

Lemma good_answers impl f n_items user : good m0 m impl -> count_unique m (Some ["iid"]) = Ok n_items ->
  known_user m0 user -> answers (recommender impl f m n_items) user.
Proof.
  intros G N K. destruct (known_user_uid m0 m tu DInt T user K) as [_ [u U]]. split.
  - intros n nov low. cbn [recommender md_recommend]. unfold recommend, recommend_int. cbn [negb]. rewrite U. cbn [bind].
    apply (n_items_count m0 m tu DInt T) in N. subst n_items.
    assert (Z0 : forall i, In i (Zseq (n_distinct "item" m0)) -> 0 <= i < Z.of_nat (n_distinct "item" m0)) by (intros i; apply Zseq_In).
    destruct (G user u (Zseq (n_distinct "item" m0)) n nov K U Z0) as (l & E & I). rewrite E. cbn [bind].
    apply named_total. intros p Hp. apply Z0, I. destruct low; auto. apply filter_In in Hp. tauto.
  - intros items nov Hi. cbn [recommender md_rank]. unfold rank. cbn [negb]. rewrite U. cbn [bind].
    destruct (known_ints items Hi) as (iids & E & R). rewrite E. cbn [bind]. rewrite Z.leb_refl. cbn [negb].
    destruct (G user u iids (Z.of_nat (length iids)) nov K U R) as (l & E' & I). rewrite E'. cbn [bind].
    apply named_total. intros p Hp. apply R, I. auto.
Qed.
End Served.

(** ** the evaluations *)
Lemma rank_user_err fmul md train_ev mt a t u g fuel e : int_data mt -> (e_gen a = true -> train_ev = false -> int_data (md_ds md)) ->
  threshold_ok t -> e_thr a = lit_text t -> Z.abs u <= 2 ^ 53 -> rng_ok g -> mul_nonneg fmul -> Z.of_nat (md_items md) <= 2 ^ 53 ->
  re_check a = Ok tt -> rank_user fmul fuel md train_ev mt a (VInt u) g = Some (Err e) ->
  exists items, Forall int_id items /\ md_rank md (VInt u) items (e_novelty a) = Err e.
Proof.
  intros D Dtr T ET Hu Hg Hf Hn Hc. unfold rank_user. rewrite (select_user_ok mt D u Hu). cbn [bind].
  rewrite ET, (select_liked _ (Dmu mt u D) t T). cbn [bind].
  destruct (positives_ok mt t u g D T Hg (e_npos a) (check_pos a Hc)) as [(n & En & L & ->)|(tt & P & -> & Ch)]; cbn [bind]; [discriminate|].
  rewrite map_length.
  assert (HP : forall r, In r P -> In r (rows_of mt)) by (intros r Hr; apply (likes_in mt t u); eapply chosen_incl; eauto).
  destruct (negatives fmul fuel md train_ev a _ _ (VInt u) (length P) g) as [y|] eqn:En; [|discriminate].
  apply (negatives_spec fmul md train_ev mt a t u g D Dtr T ET Hu Hg Hf Hc) in En.
  destruct En as [(N & G & ns & -> & Ok' & F & HN)|(-> & nn & E1 & E2 & Lt)]; [|discriminate].
  rewrite map_map. cbn [fst]. set (items := (map (fun r => upcast tt (item_of r)) P ++ ns)%list).
  assert (FI : Forall2 same_value items (map item_of P ++ map item_of N ++ G)) by (apply Forall2_app; [apply (same_items mt D)|]; auto).
  assert (II : Forall int_id items).
  { eapply int_ids_same; [exact FI|]. rewrite !Forall_app. split; [apply (rows_ids mt D); auto|]. split; [apply (rows_ids mt D); auto|].
    apply Forall_forall. intros v Hv. destruct (no_new _ _ _ _ _ _ _ _ _ _ Ok' v Hv) as [[z [-> Hz]] _].
    exists z. split; [reflexivity|]. lia. }
  destruct items as [|i0 its]; [discriminate|]. intros H. injection H as H.
  change (S (length its)) with (length (i0 :: its)) in H. set (all := i0 :: its) in *.
  set (shuffled := at_positions all (rg_shuffle g (length all))) in *.
  assert (Pm : Permutation all shuffled) by (symmetry; apply at_perm; apply Hg).
  assert (IS : Forall int_id shuffled) by (apply (Permutation_Forall Pm); auto).
  exists shuffled. split; auto.
  destruct (md_rank md (VInt u) shuffled (e_novelty a)) as [recs|e'] eqn:Er; cbn [bind] in H; [|congruence].
  destruct (relevancies_user mt u shuffled D IS) as [rels [Erel _]].
  change (sub mt (user_is u)) with (sub mt (user_is u)) in H. rewrite Erel in H. discriminate.
Qed.

Lemma first_users_in m n v : In v (first_users n m) -> exists r, In r (rows_of m) /\ cell r "user" = Some v.
Proof.
  intros H. assert (I : In v (column "user" (rows_of m))).
  { apply appearing_incl. unfold first_users in H. destruct n; auto. eapply firstn_incl; eauto. }
  unfold column in I. apply in_flat_map in I. destruct I as (r & Hr & I). exists r. split; auto.
  destruct (cell r "user") as [w|]; [|destruct I]. destruct I as [<-|[]]. reflexivity.
Qed.
Lemma within_known train test v n : users_within train test -> In v (first_users n test) -> known_user train v.
Proof.
  intros W H. destruct (first_users_in _ _ _ H) as (r & Hr & E). destruct (W r Hr) as (r' & Hr' & E').
  unfold known_user, column. apply in_flat_map. exists r'. split; auto. rewrite E', E. simpl; auto.
Qed.

(** the tasks of a model that answers for all test users *)
Section Tasks.
Variables (md : model) (mt : mem).
Hypothesis D : int_data mt.
Hypothesis A : forall v, In v (column "user" (rows_of mt)) -> answers md v.

Lemma first_answers n v : In v (first_users n mt) -> answers md v.
Proof.
  intros H. apply A. destruct (first_users_in _ _ _ H) as (r & Hr & E). unfold column. apply in_flat_map. exists r. split; auto.
  rewrite E. simpl; auto.
Qed.

Section Rec.
Variables (a : rc_args) (t : slit) (rngs : Z -> rng).
Hypothesis T : threshold_ok t.
Hypothesis ET : r_thr a = lit_text t.
Hypothesis Hg : forall s, rng_ok (rngs s).
Hypothesis Hi : int_recs md.
Hypothesis Hc : rc_check a = Ok tt.
Hypothesis Hk : r_k a <> [].

Lemma rec_no_err u x : In u (first_users (r_users a) mt) -> rec_outcome md mt a t u x -> exists c, x = Ok c.
Proof.
  intros Hu (z & -> & O). destruct x as [c|e]; [eauto|]. exfalso. destruct O as [O|(n & _ & E)]; [auto|].
  destruct (first_answers _ _ Hu) as [R _]. destruct (R n (r_novelty a) (r_low a)) as [recs E']. congruence.
Qed.
Lemma rec_cases_outcome us : (forall v, In v us -> exists u, v = VInt u /\ Z.abs u <= 2 ^ 53) ->
  Forall2 (rec_outcome md mt a t) us (rec_cases md mt a rngs us).
Proof.
  intros Hu. rewrite <- (seeded_snd (r_seed a) us) at 1. unfold rec_cases.
  assert (I : forall p, In p (seeded_users (r_seed a) us) -> In (snd p) us).
  { intros [s v] Hp. apply in_combine_r in Hp. exact Hp. }
  apply EvalFacts5.Forall2_map_l. induction (seeded_users (r_seed a) us) as [|p l IH]; constructor.
  - destruct (Hu _ (I p (or_introl eq_refl))) as [u [Ev Su]]. rewrite Ev. apply rec_user_spec; auto.
  - apply IH. intros; apply I; simpl; auto.
Qed.
Lemma rec_returns sched : fair (r_threads a) sched -> exists t0 r, recommendation_evaluation md mt a rngs sched t0 = EDone r.
Proof.
  intros Hf. apply (recommendation_terminates md mt a rngs sched (first_users (r_users a) mt)); auto.
  - apply test_users_first; auto.
  - intros _ x Hx.
    assert (F := rec_cases_outcome (first_users (r_users a) mt) (fun v => first_users_int mt (r_users a) v D)).
    destruct (Forall2_in_r _ _ _ _ F Hx) as (u & Hu & O). eapply rec_no_err; eauto.
Qed.

Lemma outcome_countable u x : In u (first_users (r_users a) mt) -> rec_outcome md mt a t u x ->
  (exists c z, x = Ok (Some c) /\ u = VInt z /\ recommended md mt a t z c /\ countable a mt t u = true) \/
  (x = Ok None /\ countable a mt t u = false).
Proof.
  intros Hu O. destruct (rec_no_err u x Hu O) as [c ->]. destruct O as (z & -> & O). destruct c as [c|].
  - left. exists c, z. split; auto. split; auto. split; auto. cbn [countable].
    destruct O as (P & n & Ch & NP & _). assert (X := rc_pos a Hc).
    destruct (r_npos a) as [k|]; cbn [chosen] in Ch.
    + destruct Ch as [L [rest Pm]]. apply Permutation_length in Pm. rewrite app_length in Pm. rewrite Pm.
      assert (P0 := X k eq_refl). apply andb_true_iff. split; [apply Z.ltb_lt|apply Z.leb_le]; lia.
    + rewrite <- Ch. destruct P; [congruence|]. reflexivity.
  - right. split; auto. cbn [countable]. destruct O as [->|(n & -> & L)]; auto. apply andb_false_iff. right. apply Z.leb_gt. auto.
Qed.
Lemma one_each us cs : (forall u, In u us -> In u (first_users (r_users a) mt)) -> Forall2 (rec_outcome md mt a t) us cs ->
  Forall2 (fun u c => exists z, u = VInt z /\ recommended md mt a t z c) (filter (countable a mt t) us) (evaluated_cases cs).
Proof.
  intros S F. induction F as [|u x us cs O F IH]; [constructor|]. cbn [filter evaluated_cases flat_map].
  specialize (IH (fun v Hv => S v (or_intror Hv))). unfold evaluated_cases in IH.
  destruct (outcome_countable u x (S u (or_introl eq_refl)) O) as [(c & z & -> & E & R & ->)|[-> ->]].
  - cbn [app]. constructor; eauto.
  - exact IH.
Qed.
End Rec.
End Tasks.

(** ** the training data after fit *)
Lemma add_column_in m c d : In d (m_columns m) -> In d (add_column m c).
Proof. unfold add_column. intros H. destruct (mem_b _ _ _); auto. apply in_app_iff. auto. Qed.
Lemma int_assigned m : int_data m -> int_data (assigned m).
Proof.
  intros D. assert (N : forall c, In c ["user"; "item"; "interaction"] -> c <> "uid" /\ c <> "iid").
  { intros c Hc. simpl in Hc. intuition (subst; discriminate). }
  constructor.
  - exact (RankFacts.wf_assigned m DInt DInt (in_wf m D) (in_user m D) (in_item m D)).
  - apply id_types_assigned.
  - intros c Hc. apply (add_column_in (set_columns m (add_column m "uid")) "iid"), (add_column_in m "uid"), (in_cols m D). auto.
  - rewrite col_type_assigned by discriminate. apply D.
  - rewrite col_type_assigned by discriminate. apply D.
  - rewrite col_type_assigned by discriminate. apply D.
  - intros c Hc r z Hr E. rewrite assigned_rows in Hr. apply in_map_iff in Hr. destruct Hr as (r0 & <- & Hr).
    destruct (N c Hc). rewrite coded_row_other in E by auto. eapply (in_small m D c Hc r0); eauto.
Qed.
Lemma int_numeric m : int_data m -> numeric m.
Proof.
  intros D. split; [apply (in_cols m D); simpl; auto|]. split; [|apply (in_small m D); simpl; auto].
  intros r Hr. destruct (in_value m D) as [ty [Ty Ny]].
  destruct (wf_cell m r "interaction" ty (in_wf m D) Hr (col_type_assoc m "interaction" ty ltac:(discriminate) Ty)) as [v [E Tv]].
  destruct v; cbn [type_of] in Tv; [| |congruence]; do 2 eexists; split; eauto; reflexivity.
Qed.
Lemma int_trained m tr : int_data m -> Z.of_nat (length (rows_of m)) <= 2 ^ 53 -> assign_internal_ids m = Ok tr -> trained_on m tr DInt DInt.
Proof. intros D L A. constructor; auto; try apply D; discriminate. Qed.
Lemma nodup_short {A} (dec : forall x y : A, {x = y} + {x <> y}) l : (length (nodup dec l) <= length l)%nat.
Proof. induction l as [|x l IH]; cbn [nodup length]; auto. destruct (in_dec dec x l); cbn [length]; lia. Qed.
Lemma column_short c rs : (length (column c rs) <= length rs)%nat.
Proof.
  unfold column. induction rs as [|r rs IH]; auto. cbn [flat_map length]. rewrite app_length.
  destruct (cell r c); cbn [length]; lia.
Qed.
Lemma distinct_short c m : (n_distinct c m <= length (rows_of m))%nat.
Proof. unfold n_distinct. etransitivity; [apply nodup_short|apply column_short]. Qed.

(** ** the ranking evaluation loses no user to an error *)
Lemma rank_no_err fmul md train_ev mt a t rngs fuel us cs : int_data mt -> (e_gen a = true -> train_ev = false -> int_data (md_ds md)) ->
  threshold_ok t -> e_thr a = lit_text t -> (forall s, rng_ok (rngs s)) -> mul_nonneg fmul -> Z.of_nat (md_items md) <= 2 ^ 53 ->
  re_check a = Ok tt -> (forall v, In v us -> exists u, v = VInt u /\ Z.abs u <= 2 ^ 53) -> (forall v, In v us -> answers md v) ->
  rank_cases fmul fuel md train_ev mt a rngs us = Some cs -> Forall (fun x => exists c, x = Ok c) cs.
Proof.
  intros D Dtr T ET Hg Hf Hn Hc Hu A H. unfold rank_cases in H. apply all_some_map in H.
  assert (I : forall p, In p (seeded_users (e_seed a) us) -> In (snd p) us).
  { intros [s v] Hp. apply in_combine_r in Hp. exact Hp. }
  induction H as [|p x l ys E _ IH]; constructor.
  - assert (Hp := I p (or_introl eq_refl)). destruct x as [c|e]; [eauto|]. exfalso.
    destruct (Hu _ Hp) as [u [Ev Su]]. destruct (A _ Hp) as [_ R]. rewrite Ev in E, R.
    destruct (rank_user_err fmul md train_ev mt a t u (rngs (fst p)) fuel e) as (items & Fi & Er); auto.
    destruct (R items (e_novelty a) Fi) as [recs Er']. congruence.
  - apply IH. intros; apply I; simpl; auto.
Qed.

(** ** the parts of a split *)
Lemma int_data_users m : int_data m -> NoDup (map r_rid (rows_of m)) -> int_users m.
Proof.
  intros D N. constructor; auto; [apply D|apply D|apply (in_cols m D)|apply D|apply (in_small m D)]; simpl; auto.
Qed.
Lemma sub_short m p : (length (rows_of (sub m p)) <= length (rows_of m))%nat.
Proof. rewrite sub_rows. induction (rows_of m) as [|r l IH]; auto. cbn [filter]. destruct (p r); cbn [length]; lia. Qed.

(** ** a user for whom recommend raises *)
Lemma raising_case md mt a t rngs z : int_data mt -> threshold_ok t -> r_thr a = lit_text t -> (forall s, rng_ok (rngs s)) -> int_recs md ->
  rc_check a = Ok tt -> In (VInt z) (first_users (r_users a) mt) -> countable a mt t (VInt z) = true ->
  (forall n novelty low, exists e, md_recommend md (VInt z) n novelty low = Err e) ->
  exists e, In (Err e) (rec_cases md mt a rngs (first_users (r_users a) mt)).
Proof.
  intros D T ET Hg Hi Hc Hz C R.
  assert (F := rec_cases_outcome md mt D a t rngs T ET Hg Hi Hc (first_users (r_users a) mt) (fun v => first_users_int mt (r_users a) v D)).
  assert (X : exists x, In x (rec_cases md mt a rngs (first_users (r_users a) mt)) /\ rec_outcome md mt a t (VInt z) x).
  { clear -F Hz. induction F as [|u x us cs O F IH]; [destruct Hz|]. destruct Hz as [->|Hz]; [exists x; simpl; auto|].
    destruct (IH Hz) as (y & Hy & Oy). exists y. simpl; auto. }
  destruct X as (x & Hx & z' & Ez & O). injection Ez as <-. destruct x as [[c|]|e].
  - exfalso. destruct O as (P & n & _ & _ & _ & E & _). destruct (R n (r_novelty a) (r_low a)) as [e E']. congruence.
  - exfalso. cbn [countable] in C. apply andb_true_iff in C. destruct C as [C1 C2]. destruct O as [E|(k & E & L)].
    + rewrite E in C1. discriminate.
    + rewrite E in C2. apply Z.leb_le in C2. lia.
  - eauto.
Qed.
Lemma unknown_raises m0 m tu impl f n user : trained_on m0 m tu DInt -> type_of user = tu -> ~ known_user m0 user ->
  forall k novelty low, md_recommend (recommender impl f m n) user k novelty low = Err AssertionError.
Proof.
  intros T Y K k nov low. cbn [recommender md_recommend]. unfold recommend. cbn [negb].
  rewrite (unknown_user_uid m0 m tu DInt T user Y K). reflexivity.
Qed.
