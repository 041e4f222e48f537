(** Proofs about repeated fits of the neighbourhood recommenders. *)
From Coq Require Import String Ascii.
From Coq Require Import List ZArith QArith Qcanon Qround Bool Lia Permutation Sorted.
From Verif Require Import Py PyFacts MemModel MemSpec MemFacts MemFacts2 MemFacts3 MemFacts4 MemFacts5 MemFacts6 MemFacts7.
From Verif Require Import RankModel RankSpec RankFacts RankFacts2 RankFacts3 KnnModel KnnSpec KnnFacts KnnFacts2 KnnFacts3 KnnFacts4 KnnSpec2.
Import ListNotations.
Open Scope string_scope.
Open Scope Z_scope.

Lemma table_again c es coo t t' : NoDup (map fst coo) -> add_sims c es t coo = Ok t' ->
  forall a b s, a <> b -> (lookup t' (Z.max a b) (Z.min a b) = Some s <->
    similar c es coo a b s \/ ((forall s', ~ similar c es coo a b s') /\ lookup t (Z.max a b) (Z.min a b) = Some s)).
Proof.
  intros N H a b s Nab. rewrite (add_sims_ok c es coo t t' N H).
  assert (P := passes_spec c es (Z.max a b) (Z.min a b)). rewrite in_common_maxmin in P.
  assert (L : Z.min a b < Z.max a b) by lia.
  assert (A : forall s, (exists raw, In (Z.max a b, Z.min a b, raw) coo /\ passes c es (Z.max a b) (Z.min a b) = true /\
                   shrink (kn_shrink c) (co_ratings es (Z.max a b) (Z.min a b)) raw = Ok s) <-> similar c es coo a b s).
  { intro s0. unfold similar. split.
    - intros [raw [Hr [Hp Hs]]]. exists raw. split; auto. split; [apply P; auto|].
      assert (E := proj1 (shrink_eq _ _ _ _ _ Hs) Hs). rewrite co_ratings_common, in_common_maxmin in E. exact E.
    - intros [raw [Hr [Hm Hs]]]. exists raw. split; auto.
      assert (Hp : passes c es (Z.max a b) (Z.min a b) = true) by (apply P; auto). split; auto.
      destruct (add_sims_shrink c es coo t t' H _ _ _ Hr Hp) as [s1 Es].
      apply (proj2 (shrink_eq _ _ _ _ s0 Es)). rewrite co_ratings_common, in_common_maxmin. exact Hs. }
  rewrite A. split; (intros [X|[X Y]]; [left; exact X|right]; split; auto).
  - intros s' Hs. apply A in Hs. destruct Hs as [raw [Hr [Hp _]]]. rewrite (X raw Hr) in Hp. discriminate.
  - intros raw Hr. destruct (passes c es (Z.max a b) (Z.min a b)) eqn:Hp; [|reflexivity]. exfalso.
    destruct (add_sims_shrink c es coo t t' H _ _ _ Hr Hp) as [s1 Es]. apply (X s1), A. eauto.
Qed.

(** the neighbours by any table *)
Lemma neighbours_by c t n a (R : Z -> Qc -> Prop) : (forall b s, a <> b -> (lookup t (Z.max a b) (Z.min a b) = Some s <-> R b s)) ->
  best_of (fun b => 0 <= b < Z.of_nat n /\ b <> a) (fun b s => (0 < s)%Qc /\ R b s) (Z.to_nat (kn_k c)) (neighbours_of c t n a).
Proof.
  intros H. unfold neighbours_of. set (l := filter _ (map _ _)).
  assert (G : forall b s, In (s, b) l <-> (0 <= b < Z.of_nat n /\ b <> a) /\ (0 < s)%Qc /\ R b s).
  { intros b s. unfold l. rewrite filter_In, in_map_iff. cbn [fst].
    assert (K : forall b', (exists x, (get_sim t a x, x) = (s, b') /\ In x (filter (fun b => negb (b =? a)) (Zseq n))) <->
                           get_sim t a b' = s /\ (0 <= b' < Z.of_nat n /\ b' <> a)).
    { intros b'. split.
      - intros [x [E1 E2]]. injection E1 as E1 ->. rewrite filter_In, Zseq_In, negb_true_iff, Z.eqb_neq in E2. auto.
      - intros [E1 E2]. exists b'. split; [congruence|]. rewrite filter_In, Zseq_In, negb_true_iff, Z.eqb_neq. auto. }
    rewrite K. rewrite get_sim_lookup.
    assert (X : forall s', (0 < s')%Qc -> (match lookup t (Z.max a b) (Z.min a b) with Some s0 => s0 | None => 0%Qc end = s' <->
                 lookup t (Z.max a b) (Z.min a b) = Some s')).
    { intros s' P. destruct (lookup t (Z.max a b) (Z.min a b)); split; try congruence. intros <-. discriminate P. }
    split.
    - intros [[E B] P]. apply Qcltb_true in P. split; auto. split; auto.
      apply H; [destruct B; congruence|]. apply X; auto.
    - intros [B [P S]]. apply H in S; [|destruct B; congruence].
      split; [|apply Qcltb_lt; auto]. split; auto. apply X; auto. }
  eapply best_of_ext; [|apply top_best]. intros b s. rewrite G. split; [tauto|].
  intros [B C]. split; auto. apply in_map_iff. exists (s, b). split; auto. apply G. auto.
Qed.

(** two tables with the same positive similarities *)
Lemma neighbours_same c t t' n a :
  (forall b, 0 <= b < Z.of_nat n -> b <> a -> (0 < get_sim t a b \/ 0 < get_sim t' a b)%Qc -> get_sim t a b = get_sim t' a b) ->
  neighbours_of c t n a = neighbours_of c t' n a.
Proof.
  intro H. unfold neighbours_of. f_equal.
  assert (K : forall l, (forall b, In b l -> 0 <= b < Z.of_nat n /\ b <> a) ->
    filter (fun p : scored => Qcltb 0 (fst p)) (map (fun b => (get_sim t a b, b)) l) = filter (fun p : scored => Qcltb 0 (fst p)) (map (fun b => (get_sim t' a b, b)) l)).
  { induction l as [|b l IH]; intro Hl; [reflexivity|]. cbn [map filter fst]. destruct (Hl b (or_introl eq_refl)) as [B1 B2].
    assert (E := IH (fun x Hx => Hl x (or_intror Hx))).
    destruct (Qcltb 0 (get_sim t a b)) eqn:P1.
    - apply Qcltb_true in P1. assert (X := H b B1 B2 (or_introl P1)). rewrite <- X, (Qcltb_lt _ _ P1), E. reflexivity.
    - destruct (Qcltb 0 (get_sim t' a b)) eqn:P2; [|exact E]. exfalso. apply Qcltb_true in P2. assert (X := H b B1 B2 (or_intror P2)).
      rewrite X, (Qcltb_lt _ _ P2) in P1. discriminate. }
  apply K. intros b Hb. apply filter_In in Hb. destruct Hb as [Hb N]. apply Zseq_In in Hb. apply negb_true_iff, Z.eqb_neq in N. auto.
Qed.

Section Again.
Variables (m0 m : mem) (tu ti : dtype).
Hypothesis T : trained_on m0 m tu ti.
Hypothesis Nm : numeric m0.

Lemma fit_again c simf coo st t nb : simf (entity_first c (obs m)) = Ok coo -> knn_fit c simf m st = Ok (t, nb) ->
  add_sims c (entity_first c (obs m)) (fst st) coo = Ok t /\
  forall a, 0 <= a < Z.of_nat (n_entities c m0) -> neighbours nb a = Ok (neighbours_of c t (n_entities c m0) a).
Proof.
  intros S. rewrite (knn_fit_eq m0 m tu ti T Nm), S. cbn [bind].
  destruct (add_sims c (entity_first c (obs m)) (fst st) coo) as [t'|] eqn:E; cbn [bind]; [|discriminate].
  destruct (unique_ids m0 m tu ti T Nm (ent_col c)) as [mu [vs [ids [E1 [E2 [E3 E4]]]]]].
  { destruct (ent_col_ok c) as [[H _]|[H _]]; auto. }
  rewrite E1. cbn [bind]. rewrite E2. cbn [bind]. rewrite E3. cbn [bind]. intros H. injection H as <- <-.
  split; auto. intros a B. unfold neighbours. rewrite assoc_fold_set.
  destruct (entities_ok m0 m tu ti T Nm _ _ (ent_col_ok c)) as [_ K]. rewrite <- n_entities_eq in K.
  destruct (in_dec Z.eq_dec a ids) as [H|H]; [reflexivity|]. exfalso. apply H, E4, K. exact B.
Qed.
End Again.

Lemma table_over c fits st : fitted_times c fits st -> forall a b s, a <> b -> (lookup (fst st) (Z.max a b) (Z.min a b) = Some s <-> remembered c fits a b s).
Proof.
  intro F. induction F as [|fits st m0 m tu ti simf coo st' F IH T Nm S [N R] E]; intros a b s D.
  - cbn. split; [discriminate|intros []].
  - destruct st' as [t nb]. destruct (fit_again m0 m tu ti T Nm c simf coo st t nb S E) as [A _]. cbn [fst remembered].
    rewrite (table_again c _ coo (fst st) t N A a b s D), (IH a b s D). reflexivity.
Qed.

Section Over.
Variables (m0 m : mem) (tu ti : dtype).
Hypothesis T : trained_on m0 m tu ti.
Hypothesis Nm : numeric m0.
Variables (c : knn) (fits : list fit_data) (st : sims * nbs) (simf : list (Z * Z * Qc) -> res (list (Z * Z * Qc))) (coo : list (Z * Z * Qc)) (st' : sims * nbs).
Hypothesis F : fitted_times c fits st.
Hypothesis Sf : simf (entity_first c (obs m)) = Ok coo.
Hypothesis Sm : sim_matrix (n_entities c m0) coo.
Hypothesis E : knn_fit c simf m st = Ok st'.

Lemma fits_best a : 0 <= a < Z.of_nat (n_entities c m0) -> exists l, neighbours (snd st') a = Ok l /\
  best_of (fun b => 0 <= b < Z.of_nat (n_entities c m0) /\ b <> a)
    (fun b s => (0 < s)%Qc /\ remembered c ((entity_first c (obs m), coo) :: fits) a b s) (Z.to_nat (kn_k c)) l.
Proof.
  intro B. destruct st' as [t nb] eqn:Es. destruct (fit_again m0 m tu ti T Nm c simf coo st t nb Sf E) as [_ G]. cbn [snd].
  exists (neighbours_of c t (n_entities c m0) a). split; [exact (G a B)|]. apply neighbours_by. intros b s D.
  apply (table_over c _ (t, nb)); [|exact D]. eapply again; eauto.
Qed.

(** nothing is remembered of the fits before *)
Hypothesis New : forall a b s, 0 <= a < Z.of_nat (n_entities c m0) -> 0 <= b < Z.of_nat (n_entities c m0) -> a <> b -> (0 < s)%Qc ->
  remembered c fits a b s -> exists s', similar c (entity_first c (obs m)) coo a b s'.

Lemma fits_fresh nb : fitted_with c m0 m coo nb -> forall a, 0 <= a < Z.of_nat (n_entities c m0) -> neighbours (snd st') a = neighbours nb a.
Proof.
  intros [_ (simf2 & t2 & S2 & E2)] a B. destruct st' as [t nb'] eqn:Es.
  destruct (fit_again m0 m tu ti T Nm c simf coo st t nb' Sf E) as [A G].
  destruct (fit_again m0 m tu ti T Nm c simf2 coo ([], []) t2 nb S2 E2) as [A2 G2]. cbn [snd fst] in *.
  rewrite (G a B), (G2 a B). f_equal. apply neighbours_same. intros b Bb D P. assert (D' : a <> b) by congruence.
  assert (X := table_again c _ coo (fst st) t (proj1 Sm) A a b). assert (Y := table_again c _ coo [] t2 (proj1 Sm) A2 a b).
  rewrite !get_sim_lookup in *.
  assert (Q : forall s, lookup t2 (Z.max a b) (Z.min a b) = Some s -> lookup t (Z.max a b) (Z.min a b) = Some s).
  { intros s L. apply X; [exact D'|]. left. apply Y in L; [|exact D']. destruct L as [L|[_ L]]; [exact L|discriminate]. }
  destruct (lookup t2 (Z.max a b) (Z.min a b)) as [s2|] eqn:L2; [rewrite (Q s2 eq_refl); reflexivity|].
  destruct (lookup t (Z.max a b) (Z.min a b)) as [s|] eqn:L; [|reflexivity].
  destruct P as [P|P]; [|discriminate P]. exfalso. destruct (proj1 (X s D') eq_refl) as [L3|[L1 L3]].
  - discriminate (proj2 (Y s D') (or_introl L3)).
  - apply (table_over c fits st F) in L3; [|exact D']. destruct (New a b s B Bb D' P L3) as [s' H]. exact (L1 s' H).
Qed.
End Over.

Lemma neighbours_predict c m nb nb' u i : neighbours nb' (if kn_user c then u else i) = neighbours nb (if kn_user c then u else i) ->
  knn_predict c m nb' (Some u) (Some i) = knn_predict c m nb (Some u) (Some i).
Proof. intro H. cbn [knn_predict]. rewrite H. reflexivity. Qed.
Lemma neighbours_predicts m0 m tu ti (T : trained_on m0 m tu ti) (Nm : numeric m0) c nb nb' user item skip :
  (forall a, 0 <= a < Z.of_nat (n_entities c m0) -> neighbours nb' a = neighbours nb a) -> type_of user = tu -> type_of item = ti ->
  predict (knn_predict c m nb') true m user item skip = predict (knn_predict c m nb) true m user item skip.
Proof.
  intros H Tu Ti. unfold predict. cbn [negb].
  assert (G : forall uid iid, user_to_uid m user = Ok uid -> item_to_iid m item = Ok iid -> knn_predict c m nb' uid iid = knn_predict c m nb uid iid).
  { intros [u|] [i|] Eu Ei; try reflexivity.
    destruct (in_dec value_eq_dec user (column "user" (rows_of m0))) as [Ku|Ku].
    2:{ rewrite (unknown_user_uid m0 m tu ti T user Tu Ku) in Eu. discriminate. }
    destruct (in_dec value_eq_dec item (column "item" (rows_of m0))) as [Ki|Ki].
    2:{ rewrite (unknown_item_iid m0 m tu ti T item Ti Ki) in Ei. discriminate. }
    apply neighbours_predict. apply H. destruct (known_ids m0 m tu ti T Nm c user item Ku Ki) as (u' & i' & Eu' & Ei' & B & _).
    rewrite Eu in Eu'. rewrite Ei in Ei'. injection Eu' as <-. injection Ei' as <-. exact B. }
  destruct (user_to_uid m user) as [uid|e] eqn:Eu; cbn [bind]; [|reflexivity].
  destruct (item_to_iid m item) as [iid|e] eqn:Ei; cbn [bind]; [|reflexivity].
  rewrite (G uid iid eq_refl eq_refl). reflexivity.
Qed.
