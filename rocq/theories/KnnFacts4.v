(** Proofs about the neighbourhood recommenders: final statements. *)
From Coq Require Import String Ascii.
From Coq Require Import List ZArith QArith Qcanon Qround Bool Lia Permutation Sorted.
From Verif Require Import Py PyFacts MemModel MemSpec MemFacts MemFacts2 MemFacts3 MemFacts4 MemFacts5 MemFacts6 MemFacts7.
From Verif Require Import RankModel RankSpec RankFacts RankFacts2 RankFacts3 KnnModel KnnSpec KnnFacts KnnFacts2 KnnFacts3.
Import ListNotations.
Open Scope string_scope.
Open Scope Z_scope.

Section Final.
Variables (m0 m : mem) (tu ti : dtype).
Hypothesis T : trained_on m0 m tu ti.
Hypothesis Nm : numeric m0.

Lemma user_in_obs user u : known_user m0 user -> user_to_uid m user = Ok (Some u) -> In u (map t_u (obs m)).
Proof.
  intros K U. unfold known_user, column in K. apply in_flat_map in K. destruct K as [r0 [H0 C]].
  destruct (cell r0 "user") as [w|] eqn:Ew; simpl in C; [|contradiction]. destruct C as [->|[]].
  destruct (trained_row_back m0 m tu ti T r0 H0) as [r [Hr [_ [FU _]]]].
  destruct (FU user Ew) as [k [E1 E2]]. rewrite U in E1. injection E1 as <-.
  rewrite (obs_map m0 m tu ti T Nm), map_map. apply in_map_iff. exists r. split; auto.
  destruct (good m0 m tu ti T Nm r Hr) as [G _]. congruence.
Qed.
Lemma item_in_obs item i : known_item m0 item -> item_to_iid m item = Ok (Some i) -> In i (map t_i (obs m)).
Proof.
  intros K U. unfold known_item, column in K. apply in_flat_map in K. destruct K as [r0 [H0 C]].
  destruct (cell r0 "item") as [w|] eqn:Ew; simpl in C; [|contradiction]. destruct C as [->|[]].
  destruct (trained_row_back m0 m tu ti T r0 H0) as [r [Hr [_ [_ FI]]]].
  destruct (FI item Ew) as [k [E1 E2]]. rewrite U in E1. injection E1 as <-.
  rewrite (obs_map m0 m tu ti T Nm), map_map. apply in_map_iff. exists r. split; auto.
  destruct (good m0 m tu ti T Nm r Hr) as [_ [G _]]. congruence.
Qed.

Lemma known_ids c user item : known_user m0 user -> known_item m0 item ->
  exists u i, user_to_uid m user = Ok (Some u) /\ item_to_iid m item = Ok (Some i) /\
    0 <= self c u i < Z.of_nat (n_entities c m0) /\ all_of c m (other c u i) <> [].
Proof.
  intros Ku Ki. destruct (known_user_uid m0 m tu ti T user Ku) as [_ [u U]].
  destruct (known_item_iid m0 m tu ti T item Ki) as [_ [i [I _]]].
  exists u, i. split; auto. split; auto.
  assert (Hu := user_in_obs user u Ku U). assert (Hi := item_in_obs item i Ki I).
  destruct (entities_ok m0 m tu ti T Nm _ _ (ent_col_ok c)) as [_ K]. rewrite <- n_entities_eq in K. split.
  - apply K. unfold self, ent_col, t_col. destruct (kn_user c); auto.
  - unfold all_of, other, entity_first. intros E.
    assert (X : exists e, In e (map (fun e : Z * Z * Qc => let '(u0, i0, x) := e in if kn_user c then (u0, i0, x) else (i0, u0, x)) (obs m)) /\
                          snd (fst e) = (if kn_user c then i else u)).
    { destruct (kn_user c); [apply in_map_iff in Hi; destruct Hi as [[[a b] x] [E1 E2]]|apply in_map_iff in Hu; destruct Hu as [[[a b] x] [E1 E2]]].
      - exists (a, b, x). split; auto. apply in_map_iff. exists (a, b, x). auto.
      - exists (b, a, x). split; auto. apply in_map_iff. exists (a, b, x). auto. }
    destruct X as [e [X1 X2]].
    assert (Y : In (snd e) (map snd (filter (fun e0 : Z * Z * Qc => snd (fst e0) =? (if kn_user c then i else u))
       (map (fun e : Z * Z * Qc => let '(u0, i0, x) := e in if kn_user c then (u0, i0, x) else (i0, u0, x)) (obs m))))).
    { apply in_map. apply filter_In. split; auto. apply Z.eqb_eq. auto. }
    rewrite E in Y. contradiction.
Qed.

Lemma fitted_neighbours c coo nb : fitted_with c m0 m coo nb -> forall a, 0 <= a < Z.of_nat (n_entities c m0) ->
  exists l, neighbours nb a = Ok l /\ NoDup (map snd l) /\ Forall (fun p => (0 < fst p)%Qc) l /\
    best_of (fun b => 0 <= b < Z.of_nat (n_entities c m0) /\ b <> a)
      (fun b s => (0 < s)%Qc /\ similar c (entity_first c (obs m)) coo a b s) (Z.to_nat (kn_k c)) l.
Proof.
  intros [[N _] [simf [t [S F]]]] a B. destruct (fit_best m0 m tu ti T Nm c simf coo t nb S N F a B) as [l [L [ND BO]]].
  exists l. split; auto. split; auto. split; auto. apply Forall_forall. intros [s b] H.
  apply (bo_sound _ _ _ _ BO) in H. tauto.
Qed.

Lemma predict_skip A (f : option Z -> option Z -> res (option A)) user item u i o :
  user_to_uid m user = Ok (Some u) -> item_to_iid m item = Ok (Some i) -> f (Some u) (Some i) = Ok o ->
  predict f true m user item true = Ok o.
Proof.
  intros U I F. unfold predict. cbn [negb bind]. rewrite U, I. cbn [bind]. rewrite F. cbn [bind]. destruct o; reflexivity.
Qed.
Lemma predict_some A (f : option Z -> option Z -> res (option A)) fitted user item skip u i x :
  user_to_uid m user = Ok (Some u) -> item_to_iid m item = Ok (Some i) ->
  predict f fitted m user item skip = Ok (Some x) -> f (Some u) (Some i) = Ok (Some x).
Proof.
  intros U I. unfold predict. destruct fitted; [|discriminate]. cbn [negb].
  destruct skip; cbn [bind]; rewrite U, I; cbn [bind]; destruct (f (Some u) (Some i)) as [[y|]|]; cbn [bind]; congruence.
Qed.

Lemma predict_mean c coo nb user item : fitted_with c m0 m coo nb -> known_user m0 user -> known_item m0 item ->
  exists u i l, user_to_uid m user = Ok (Some u) /\ item_to_iid m item = Ok (Some i) /\
    neighbours nb (if kn_user c then u else i) = Ok l /\
    let k := if kn_user c then i else u in
    let g := says (entity_first c (obs m)) l k in
    (g <> [] -> exists p, predict (knn_predict c m nb) true m user item true = Ok (Some p) /\ is_mean (kn_weighted c) g p) /\
    (g = [] -> kn_avg c = false -> predict (knn_predict c m nb) true m user item true = Ok None) /\
    (g = [] -> kn_avg c = true -> exists p, predict (knn_predict c m nb) true m user item true = Ok (Some p) /\
       (p * Qc_of_Z (Z.of_nat (length (all_of c m k))) = total (all_of c m k))%Qc).
Proof.
  intros F Ku Ki. destruct (known_ids c user item Ku Ki) as [u [i [U [I [B O]]]]].
  destruct (fitted_neighbours c coo nb F _ B) as [l [L [_ [P _]]]]. exists u, i, l. split; auto. split; auto. split; auto.
  cbv zeta. change (if kn_user c then i else u) with (other c u i).
  assert (E := knn_predict_eq m0 m tu ti T Nm c nb u i). rewrite L in E. cbn [bind] in E.
  change (others m c u i) with (all_of c m (other c u i)) in E.
  assert (SP := says_pos (entity_first c (obs m)) l (other c u i) P).
  destruct (says (entity_first c (obs m)) l (other c u i)) as [|x g] eqn:G.
  - split; [congruence|]. split; intros _ A; rewrite A in E.
    + eapply predict_skip; eauto.
    + destruct (length (all_of c m (other c u i)) =? 0)%nat eqn:Z0.
      { apply Nat.eqb_eq in Z0. destruct (all_of c m (other c u i)); [congruence|discriminate]. }
      eexists. split; [eapply predict_skip; eauto|]. rewrite Qcsum_total. field. apply pos_ne, len_nonzero. auto.
  - split; [|split; discriminate]. intros _.
    destruct (aggregate_mean c (x :: g)) as [p [A1 A2]]; [discriminate|auto|]. rewrite A1 in E.
    exists p. split; auto. eapply predict_skip; eauto.
Qed.

Lemma predict_between c coo nb user item skip p lo hi : fitted_with c m0 m coo nb -> known_user m0 user -> known_item m0 item ->
  predict (knn_predict c m nb) true m user item skip = Ok (Some p) -> kn_avg c = false ->
  (forall u i l b x, user_to_uid m user = Ok (Some u) -> item_to_iid m item = Ok (Some i) ->
     neighbours nb (if kn_user c then u else i) = Ok l -> In b (map snd l) ->
     first_obs (entity_first c (obs m)) b (if kn_user c then i else u) = Some x -> (lo <= x)%Qc /\ (x <= hi)%Qc) ->
  (lo <= p)%Qc /\ (p <= hi)%Qc.
Proof.
  intros F Ku Ki Hp Ha H. destruct (known_ids c user item Ku Ki) as [u [i [U [I [B O]]]]].
  destruct (fitted_neighbours c coo nb F _ B) as [l [L [_ [P _]]]].
  apply (predict_some _ _ _ _ _ _ u i) in Hp; auto.
  rewrite (knn_predict_eq m0 m tu ti T Nm), L in Hp. cbn [bind] in Hp. rewrite Ha in Hp.
  assert (SP := says_pos (entity_first c (obs m)) l (other c u i) P).
  assert (SF := says_fst (entity_first c (obs m)) l (other c u i)).
  destruct (says (entity_first c (obs m)) l (other c u i)) as [|x g]; [discriminate|].
  destruct (aggregate_mean c (x :: g)) as [p' [A1 A2]]; [discriminate|auto|].
  assert (p' = p) by congruence. subst p'. eapply is_mean_between; eauto; [discriminate|].
  apply Forall_forall. intros q Hq. destruct (SF q Hq) as [b [Hb Eb]]. eapply H; eauto.
Qed.

Lemma obs_bound lo hi : (forall r, In r (rows_of m0) -> (lo <= interaction_of r)%Qc /\ (interaction_of r <= hi)%Qc) ->
  forall e, In e (obs m) -> (lo <= snd e)%Qc /\ (snd e <= hi)%Qc.
Proof.
  intros H e He. rewrite (obs_map m0 m tu ti T Nm) in He. apply in_map_iff in He. destruct He as [r [<- Hr]].
  destruct (trained_row m0 m tu ti T r Hr) as [r0 [u [i [a [b [H0 [_ [_ [_ [_ [_ [_ [E1 [E2 [_ [_ E3]]]]]]]]]]]]]]]].
  assert (X : snd (tri r) = interaction_of r0) by (unfold tri, interaction_of; cbn [snd]; rewrite E3; reflexivity).
  rewrite X. exact (H r0 H0).
Qed.
Lemma entity_bound c lo hi : (forall e, In e (obs m) -> (lo <= snd e)%Qc /\ (snd e <= hi)%Qc) ->
  forall e, In e (entity_first c (obs m)) -> (lo <= snd e)%Qc /\ (snd e <= hi)%Qc.
Proof.
  intros H e He. unfold entity_first in He. apply in_map_iff in He. destruct He as [[[a b] x] [<- Hr]].
  apply H in Hr. destruct (kn_user c); exact Hr.
Qed.

Lemma predict_within c coo nb user item skip p lo hi : fitted_with c m0 m coo nb -> known_user m0 user -> known_item m0 item ->
  predict (knn_predict c m nb) true m user item skip = Ok (Some p) ->
  (forall r, In r (rows_of m0) -> (lo <= interaction_of r)%Qc /\ (interaction_of r <= hi)%Qc) ->
  (lo <= p)%Qc /\ (p <= hi)%Qc.
Proof.
  intros F Ku Ki Hp H0. assert (H := entity_bound c lo hi (obs_bound lo hi H0)). clear H0.
  destruct (known_ids c user item Ku Ki) as [u [i [U [I [B O]]]]].
  destruct (fitted_neighbours c coo nb F _ B) as [l [L [_ [P _]]]].
  apply (predict_some _ _ _ _ _ _ u i) in Hp; auto.
  rewrite (knn_predict_eq m0 m tu ti T Nm), L in Hp. cbn [bind] in Hp.
  change (others m c u i) with (all_of c m (other c u i)) in Hp.
  assert (SP := says_pos (entity_first c (obs m)) l (other c u i) P).
  assert (SF := says_fst (entity_first c (obs m)) l (other c u i)).
  destruct (says (entity_first c (obs m)) l (other c u i)) as [|x g].
  - destruct (kn_avg c); [|discriminate].
    destruct (length (all_of c m (other c u i)) =? 0)%nat; [discriminate|].
    assert (p = (Qcsum (all_of c m (other c u i)) / Qc_of_Z (Z.of_nat (length (all_of c m (other c u i)))))%Qc) by congruence.
    apply (is_mean_between false (map (fun x => (x, 1%Qc)) (all_of c m (other c u i)))).
    + destruct (all_of c m (other c u i)); [congruence|discriminate].
    + apply Forall_forall. intros q Hq. apply in_map_iff in Hq. destruct Hq as [x [<- _]]. reflexivity.
    + unfold is_mean. rewrite map_length, map_map. cbn [fst]. rewrite map_id. subst p. rewrite Qcsum_total. field.
      apply pos_ne, len_nonzero. auto.
    + apply Forall_forall. intros q Hq. apply in_map_iff in Hq. destruct Hq as [x [<- Hx]]. cbn [fst].
      unfold all_of in Hx. apply in_map_iff in Hx. destruct Hx as [e [<- He]]. apply filter_In in He. apply H. tauto.
  - destruct (aggregate_mean c (x :: g)) as [p' [A1 A2]]; [discriminate|auto|].
    assert (p' = p) by congruence. subst p'. eapply is_mean_between; eauto; [discriminate|].
    apply Forall_forall. intros q Hq. destruct (SF q Hq) as [b [_ Eb]]. apply first_obs_In in Eb. apply H in Eb. exact Eb.
Qed.

(** ** rankings *)
Lemma item_knn_rank c nb fitted user items nov skip n out : kn_user c = false ->
  type_of user = tu -> Forall (fun v => type_of v = ti) items ->
  rank (knn_rank c m nb) fitted m user items nov skip n = Ok out ->
  exists out', items_named out out' /\
    best_of (candidate m0 user nov (fun v => In v items))
      (fun v s => predict (knn_predict c m nb) true m user v false = Ok (Some s))
      (match n with Some k => Z.to_nat k | None => count_known m0 items end) out'.
Proof.
  intros Hi Yu Yi H. unfold knn_rank in H. rewrite Hi in H.
  destruct (rank_best m0 m tu ti T _ _ nov fitted user items skip n out (item_rank_ok m0 m tu ti T Nm c nb nov Hi) Yu Yi H)
    as [out' [N B]].
  exists out'. split; auto. eapply best_of_ext; [|exact B]. intros v s. rewrite predict_iff. tauto.
Qed.

Lemma user_knn_rank c nb fitted user items nov skip n out : kn_user c = true -> no_repeats (obs m) -> kn_avg c = false ->
  type_of user = tu -> Forall (fun v => type_of v = ti) items ->
  rank (knn_rank c m nb) fitted m user items nov skip n = Ok out ->
  exists out', items_named out out' /\
    best_of (candidate m0 user nov (fun v => In v items))
      (fun v s => predict (knn_predict c m nb) true m user v false = Ok (Some s))
      (match n with Some k => Z.to_nat k | None => count_known m0 items end) out'.
Proof.
  intros Hu R Ha Yu Yi H. unfold knn_rank in H. rewrite Hu in H.
  destruct (rank_best m0 m tu ti T _ _ nov fitted user items skip n out (user_rank_ok m0 m tu ti T Nm c nb nov Hu R Ha) Yu Yi H)
    as [out' [N B]].
  exists out'. split; auto. eapply best_of_ext; [|exact B]. intros v s. rewrite predict_iff. tauto.
Qed.

Lemma known_iids_In skip items iids : Forall (fun v => type_of v = ti) items -> known_iids m skip items = Ok iids ->
  forall i v, In i iids -> iid_to_item m i = Ok (Some v) -> In v items.
Proof.
  revert iids. induction items as [|w items IH]; intros iids Y K i v Hi E; cbn [known_iids] in K.
  - injection K as <-. contradiction.
  - assert (Y1 := Forall_inv Y). assert (Y2 := Forall_inv_tail Y). destruct (item_to_iid m w) as [[j|]|] eqn:J; cbn [bind] in K; try discriminate.
    + destruct (known_iids m skip items) as [is|] eqn:K'; cbn [bind] in K; [|discriminate]. injection K as <-.
      destruct Hi as [->|Hi]; [|right; eapply IH; eauto]. left.
      apply (item_iid m0 m tu ti T w i) in J; [congruence|auto].
    + destruct skip; [|discriminate]. right. eapply IH; eauto.
Qed.

Lemma user_knn_scores c nb fitted user items nov skip n out : kn_user c = true -> no_repeats (obs m) ->
  type_of user = tu -> Forall (fun v => type_of v = ti) items ->
  rank (knn_rank c m nb) fitted m user items nov skip n = Ok out ->
  forall s o, In (s, o) out -> exists v, o = Some v /\ In v items /\ (nov = true -> ~ interacted m0 user v) /\
    predict (knn_predict c m nb) true m user v false = Ok (Some s).
Proof.
  intros Hu R Yu Yi H s o Ho. unfold knn_rank in H. rewrite Hu in H. unfold rank in H.
  destruct (negb fitted); [discriminate|].
  destruct (user_to_uid m user) as [[u|]|] eqn:U; cbn [bind] in H; try discriminate.
  destruct (known_iids m skip items) as [iids|] eqn:K; cbn [bind] in H; [|discriminate].
  set (n' := match n with Some k => k | None => Z.of_nat (length iids) end) in H.
  destruct (negb (n' <=? Z.of_nat (length iids))); [discriminate|].
  destruct (user_rank c m nb u iids n' nov) as [l|] eqn:L; cbn [bind] in H; [|discriminate].
  unfold with_items in H. apply mapM_Forall2 in H. destruct (Forall2_in_r _ _ _ _ H Ho) as [[s' i] [Hi E]].
  cbn [fst snd] in E. destruct (iid_to_item m i) as [w|] eqn:W; cbn [bind] in E; [|discriminate]. injection E as -> ->.
  destruct (user_rank_sound m0 m tu ti T Nm c nb u iids n' nov l Hu R L s i Hi) as [I1 [I2 I3]].
  assert (V : exists v, iid_to_item m i = Ok (Some v)).
  { clear -K I1 T Yi. revert iids K I1. induction items as [|w items IH]; intros iids K Hi; cbn [known_iids] in K.
    - injection K as <-. contradiction.
    - assert (Y1 := Forall_inv Yi). assert (Y2 := Forall_inv_tail Yi). destruct (item_to_iid m w) as [[j|]|] eqn:J; cbn [bind] in K; try discriminate.
      + destruct (known_iids m skip items) as [is|] eqn:K'; cbn [bind] in K; [|discriminate]. injection K as <-.
        destruct Hi as [->|Hi]; [|eapply IH; eauto]. exists w. apply (item_iid m0 m tu ti T w i); auto.
      + destruct skip; [|discriminate]. eapply IH; eauto. }
  destruct V as [v V]. rewrite V in W. injection W as <-. exists v. split; auto.
  split; [eapply known_iids_In; eauto|]. split.
  - intros Hn Hx. apply (I2 Hn). apply (pair_interacted m0 m tu ti T user v u i); auto.
  - apply predict_iff. exists u, i. split; auto. split; auto.
    apply (item_iid m0 m tu ti T v i); auto. eapply iid_to_item_known; eauto.
Qed.

Lemma item_knn_recommend c nb fitted ni user n nov thr out : kn_user c = false ->
  type_of user = tu -> count_unique m (Some ["iid"]) = Ok ni ->
  recommend (knn_rank c m nb) fitted m ni user n nov thr = Ok out ->
  exists out', items_named out out' /\
    best_of (candidate m0 user nov (fun _ => True))
      (fun v s => predict (knn_predict c m nb) true m user v false = Ok (Some s) /\ forall t, thr = Some t -> (t <= s)%Qc)
      (match n with Some k => Z.to_nat k | None => ni end) out'.
Proof.
  intros Hi Yu N H. unfold knn_rank in H. rewrite Hi in H.
  destruct (recommend_best m0 m tu ti T _ _ nov fitted ni user n thr out (item_rank_ok m0 m tu ti T Nm c nb nov Hi) Yu N H)
    as [out' [N' B]].
  exists out'. split; auto. eapply best_of_ext; [|exact B]. intros v s. rewrite predict_iff. tauto.
Qed.
Lemma user_knn_recommend c nb fitted ni user n nov thr out : kn_user c = true -> no_repeats (obs m) -> kn_avg c = false ->
  type_of user = tu -> count_unique m (Some ["iid"]) = Ok ni ->
  recommend (knn_rank c m nb) fitted m ni user n nov thr = Ok out ->
  exists out', items_named out out' /\
    best_of (candidate m0 user nov (fun _ => True))
      (fun v s => predict (knn_predict c m nb) true m user v false = Ok (Some s) /\ forall t, thr = Some t -> (t <= s)%Qc)
      (match n with Some k => Z.to_nat k | None => ni end) out'.
Proof.
  intros Hu R Ha Yu N H. unfold knn_rank in H. rewrite Hu in H.
  destruct (recommend_best m0 m tu ti T _ _ nov fitted ni user n thr out (user_rank_ok m0 m tu ti T Nm c nb nov Hu R Ha) Yu N H)
    as [out' [N' B]].
  exists out'. split; auto. eapply best_of_ext; [|exact B]. intros v s. rewrite predict_iff. tauto.
Qed.

(** ** a result is always returned *)
Lemma entity_range c k : In k (map (if kn_user c then t_u else t_i) (obs m)) -> 0 <= k < Z.of_nat (n_entities c m0).
Proof.
  destruct (entities_ok m0 m tu ti T Nm _ _ (ent_col_ok c)) as [_ K]. rewrite <- n_entities_eq in K. intros H. apply K.
  unfold ent_col, t_col. destruct (kn_user c); auto.
Qed.

Lemma knn_predict_total c coo nb u i : fitted_with c m0 m coo nb -> In u (map t_u (obs m)) -> In i (map t_i (obs m)) ->
  exists o, knn_predict c m nb (Some u) (Some i) = Ok o.
Proof.
  intros F Hu Hi. assert (B : 0 <= self c u i < Z.of_nat (n_entities c m0)).
  { apply entity_range. unfold self. destruct (kn_user c); auto. }
  destruct (fitted_neighbours c coo nb F _ B) as [l [L _]].
  rewrite (knn_predict_eq m0 m tu ti T Nm), L. cbn [bind].
  destruct (says (entity_first c (obs m)) l (other c u i)); [|eauto]. destruct (kn_avg c); [|eauto].
  destruct (length (others m c u i) =? 0)%nat eqn:Z0; [|eauto]. exfalso. apply Nat.eqb_eq in Z0.
  assert (X : exists e, In e (entity_first c (obs m)) /\ snd (fst e) = other c u i).
  { unfold other, entity_first. destruct (kn_user c).
    - apply in_map_iff in Hi. destruct Hi as [[[a b] x] [E1 E2]]. exists (a, b, x). split; auto.
      apply in_map_iff. exists (a, b, x). auto.
    - apply in_map_iff in Hu. destruct Hu as [[[a b] x] [E1 E2]]. exists (b, a, x). split; auto.
      apply in_map_iff. exists (a, b, x). auto. }
  destruct X as [e [X1 X2]]. change (others m c u i) with (all_of c m (other c u i)) in Z0. unfold all_of in Z0.
  rewrite map_length in Z0. apply length_zero_iff_nil in Z0.
  assert (Y : In e (filter (fun e => snd (fst e) =? other c u i) (entity_first c (obs m)))).
  { apply filter_In. split; auto. apply Z.eqb_eq. auto. }
  rewrite Z0 in Y. contradiction.
Qed.

Lemma knn_rank_total c coo nb u iids n nov : fitted_with c m0 m coo nb -> In u (map t_u (obs m)) ->
  (forall i, In i iids -> In i (map t_i (obs m))) -> exists l, knn_rank c m nb u iids n nov = Ok l.
Proof.
  intros F Hu Hi. unfold knn_rank. destruct (kn_user c) eqn:C.
  - assert (B : 0 <= u < Z.of_nat (n_entities c m0)) by (apply entity_range; rewrite C; auto).
    destruct (fitted_neighbours c coo nb F _ B) as [l [L _]]. eapply user_rank_total; eauto.
  - rewrite (item_rank_eq m0 m tu ti T Nm) by auto. unfold rank_abc.
    assert (H : forall i, In i (dedup Z.eqb iids) -> exists o, knn_predict c m nb (Some u) (Some i) = Ok o).
    { intros i H. apply (proj1 (dedup_In _ reflects_Z _ _)) in H. eapply knn_predict_total; eauto. }
    destruct nov.
    + destruct (rated_spec m0 m tu ti T u) as [rated [R _]]. rewrite R. cbn [bind].
      destruct (pred_list_total (knn_predict c m nb) u (set_minus (dedup Z.eqb iids) rated)) as [ps P].
      { intros i X. apply (set_minus_In m0 m tu ti T u rated) in X; auto. apply H. tauto. }
      rewrite P. cbn [bind]. eauto.
    + cbn [bind]. destruct (pred_list_total (knn_predict c m nb) u (dedup Z.eqb iids)) as [ps P]; auto.
      rewrite P. cbn [bind]. eauto.
Qed.

Lemma known_iids_obs items : Forall (fun v => type_of v = ti) items -> forall iids, known_iids m true items = Ok iids ->
  forall i, In i iids -> In i (map t_i (obs m)).
Proof.
  induction items as [|w items IH]; intros Y iids K i Hi; cbn [known_iids] in K.
  - injection K as <-. contradiction.
  - assert (Y1 := Forall_inv Y). assert (Y2 := Forall_inv_tail Y).
    destruct (item_to_iid m w) as [[j|]|] eqn:J; cbn [bind] in K; try discriminate.
    + destruct (known_iids m true items) as [is|] eqn:K'; cbn [bind] in K; [|discriminate]. injection K as <-.
      destruct Hi as [->|Hi]; [|eapply IH; eauto]. apply (item_in_obs w); auto.
      apply (item_iid m0 m tu ti T w i Y1) in J. eapply iid_to_item_known; eauto.
    + eapply IH; eauto.
Qed.

Lemma knn_rank_returns c coo nb user items nov n : fitted_with c m0 m coo nb -> known_user m0 user ->
  Forall (fun v => type_of v = ti) items -> (forall k, n = Some k -> k <= Z.of_nat (count_known m0 items)) ->
  exists out, rank (knn_rank c m nb) true m user items nov true n = Ok out.
Proof.
  intros F K Y N. unfold rank. cbn [negb]. destruct (known_user_uid m0 m tu ti T user K) as [_ [u U]]. rewrite U. cbn [bind].
  destruct (known_iids_total m0 m tu ti T items Y) as [iids E]. rewrite E. cbn [bind].
  assert (L := Forall2_len _ _ _ (known_iids_ok m0 m tu ti T true items iids Y E)).
  change (length (filter (known_b m0) items)) with (count_known m0 items) in L. rewrite <- L.
  set (n' := match n with Some k => k | None => Z.of_nat (count_known m0 items) end).
  assert (B : (n' <=? Z.of_nat (count_known m0 items)) = true).
  { apply Z.leb_le. unfold n'. destruct n; [auto|lia]. }
  rewrite B. cbn [negb]. destruct (knn_rank_total c coo nb u iids n' nov F) as [l R].
  - eapply user_in_obs; eauto.
  - eapply known_iids_obs; eauto.
  - rewrite R. cbn [bind]. eapply with_items_total; eauto.
Qed.

Lemma knn_recommend_returns c coo nb ni user n nov thr : fitted_with c m0 m coo nb -> known_user m0 user ->
  count_unique m (Some ["iid"]) = Ok ni ->
  exists out, recommend (knn_rank c m nb) true m ni user n nov thr = Ok out.
Proof.
  intros F K N. unfold recommend, recommend_int. cbn [negb].
  destruct (known_user_uid m0 m tu ti T user K) as [_ [u U]]. rewrite U. cbn [bind].
  destruct (knn_rank_total c coo nb u (Zseq ni) (match n with Some k => k | None => Z.of_nat ni end) nov F) as [l R].
  - eapply user_in_obs; eauto.
  - intros i Hi. apply Zseq_In in Hi. apply (n_items_count m0 m tu ti T) in N. subst ni.
    destruct (entities_ok m0 m tu ti T Nm "iid" "item") as [_ X]; auto. apply X in Hi. exact Hi.
  - rewrite R. cbn [bind]. eapply with_items_total; eauto.
Qed.

(** ** similarities kept by a fit *)
Lemma fit_sim c simf coo t nb a b : simf (entity_first c (obs m)) = Ok coo -> NoDup (map fst coo) ->
  knn_fit c simf m ([], []) = Ok (t, nb) -> a <> b ->
  (forall s, similar c (entity_first c (obs m)) coo a b s -> get_sim t a b = s) /\
  ((forall s, ~ similar c (entity_first c (obs m)) coo a b s) -> get_sim t a b = 0%Qc) /\ get_sim t a b = get_sim t b a.
Proof.
  intros S N F Nab. destruct (fit_neighbours m0 m tu ti T Nm c simf coo t nb S N F) as [E _].
  assert (X := table_similar c _ coo t N E a b). rewrite !get_sim_lookup. split; [|split].
  - intros s H. apply X in H; auto. rewrite H. reflexivity.
  - intros H. destruct (lookup t (Z.max a b) (Z.min a b)) as [s|] eqn:L; auto. exfalso. apply (H s), X; auto.
  - rewrite Z.max_comm, Z.min_comm. reflexivity.
Qed.
End Final.
