(** Proofs about the neighbourhood recommenders: similarities and neighbours. *)
From Coq Require Import String Ascii.
From Coq Require Import List ZArith QArith Qcanon Qround Bool Lia Permutation Sorted.
From Verif Require Import Py PyFacts MemModel MemSpec MemFacts MemFacts2 MemFacts3 MemFacts4 MemFacts5 MemFacts6 MemFacts7.
From Verif Require Import RankModel RankSpec RankFacts RankFacts2 KnnModel KnnSpec KnnFacts.
Import ListNotations.
Open Scope string_scope.
Open Scope Z_scope.

Lemma Qc_of_Z_le a b : a <= b <-> (Qc_of_Z a <= Qc_of_Z b)%Qc.
Proof. rewrite Qcle_alt, Qc_of_Z_compare. split; auto. Qed.
Lemma Qc_of_Z_nonneg a : 0 <= a -> (0 <= Qc_of_Z a)%Qc.
Proof. apply (Qc_of_Z_le 0 a). Qed.
Lemma Qc_of_Z_pos a : 0 < a -> (0 < Qc_of_Z a)%Qc.
Proof.
  intros H. change 0%Qc with (Qc_of_Z 0). rewrite Qclt_alt, Qc_of_Z_compare. apply Z.compare_lt_iff. exact H.
Qed.

Lemma Qcltb_lt x y : (x < y)%Qc -> Qcltb x y = true.
Proof.
  intros H. destruct (Qcltb x y) eqn:E; auto. apply Qcltb_false in E. exfalso. apply (Qclt_not_le _ _ H). exact E.
Qed.
Lemma NoDup_app_l {A} (l l' : list A) : NoDup (l ++ l') -> NoDup l.
Proof.
  induction l as [|x l IH]; simpl; intros N; [constructor|]. inversion N; subst. constructor; auto.
  intros H. apply H1. apply in_app_iff. auto.
Qed.

(** ** common ratings *)
Lemma rated_set_In es a i : In i (rated_set es a) <-> has_obs es a i = true.
Proof.
  unfold rated_set, has_obs. rewrite (dedup_In _ reflects_Z), in_map_iff, existsb_exists. split.
  - intros [e [E H]]. apply filter_In in H. exists e. rewrite andb_true_iff, !Z.eqb_eq. rewrite Z.eqb_eq in H. tauto.
  - intros [e [H E]]. rewrite andb_true_iff, !Z.eqb_eq in E. exists e. rewrite filter_In, Z.eqb_eq. tauto.
Qed.

Lemma co_ratings_common es a b : co_ratings es a b = in_common es a b.
Proof.
  unfold co_ratings, in_common. apply Permutation_length, NoDup_Permutation.
  - apply NoDup_filter. apply dedup_NoDup, reflects_Z.
  - apply NoDup_filter, NoDup_nodup.
  - intros i. rewrite !filter_In, (mem_b_In _ reflects_Z), !rated_set_In, nodup_In, andb_true_iff. split; [|tauto].
    intros [H1 H2]. split; auto. unfold has_obs in H1. apply existsb_exists in H1. destruct H1 as [e [H E]].
    rewrite andb_true_iff, !Z.eqb_eq in E. apply in_map_iff. exists e. tauto.
Qed.
Lemma in_common_sym es a b : in_common es a b = in_common es b a.
Proof. unfold in_common. f_equal. apply filter_ext. intros i. apply andb_comm. Qed.
Lemma in_common_maxmin es a b : in_common es (Z.max a b) (Z.min a b) = in_common es a b.
Proof.
  destruct (Z.le_ge_cases a b).
  - rewrite Z.max_r, Z.min_l by lia. apply in_common_sym.
  - rewrite Z.max_l, Z.min_r by lia. reflexivity.
Qed.

(** ** the table of similarities *)
Definition lookup (t : sims) (a b : Z) : option Qc :=
  match assoc Z.eqb a t with None => None | Some r => assoc Z.eqb b r end.

Lemma get_sim_lookup t a b : get_sim t a b = match lookup t (Z.max a b) (Z.min a b) with Some s => s | None => 0%Qc end.
Proof. unfold get_sim, lookup. destruct (assoc Z.eqb (Z.max a b) t); reflexivity. Qed.

Definition passes (c : knn) (es : list (Z * Z * Qc)) (a b : Z) : bool :=
  (b <? a) && negb ((0 <? kn_m c) && (Z.of_nat (co_ratings es a b) <? kn_m c)).

Lemma add_sim_ok c es t a b s t' : add_sim c es t (a, b, s) = Ok t' ->
  if passes c es a b then exists s', shrink (kn_shrink c) (co_ratings es a b) s = Ok s' /\
      forall x y, lookup t' x y = if (x =? a) && (y =? b) then Some s' else lookup t x y
  else t' = t.
Proof.
  unfold add_sim, passes. destruct (Z.leb_spec a b) as [L|L].
  - destruct (Z.ltb_spec b a); [lia|]. cbn [andb]. congruence.
  - destruct (Z.ltb_spec b a); [|lia]. cbn [andb]. destruct (negb (has_row es a && has_row es b)); [discriminate|].
    destruct ((0 <? kn_m c) && (Z.of_nat (co_ratings es a b) <? kn_m c)); cbn [negb]; [congruence|].
    destruct (shrink (kn_shrink c) (co_ratings es a b) s) as [s'|]; cbn [bind]; [|discriminate].
    intros E. injection E as <-. exists s'. split; auto. intros x y. unfold lookup.
    destruct (Z.eqb_spec x a) as [->|Nx]; cbn [andb].
    + rewrite (assoc_set_same _ reflects_Z). destruct (Z.eqb_spec y b) as [->|Ny].
      * apply (assoc_set_same _ reflects_Z).
      * rewrite (assoc_set_other _ reflects_Z) by auto. destruct (assoc Z.eqb a t); reflexivity.
    + rewrite (assoc_set_other _ reflects_Z) by auto. reflexivity.
Qed.

Lemma add_sims_ok c es coo : forall t t', NoDup (map fst coo) -> add_sims c es t coo = Ok t' ->
  forall a b s, lookup t' a b = Some s <->
    (exists raw, In (a, b, raw) coo /\ passes c es a b = true /\ shrink (kn_shrink c) (co_ratings es a b) raw = Ok s) \/
    ((forall raw, In (a, b, raw) coo -> passes c es a b = false) /\ lookup t a b = Some s).
Proof.
  induction coo as [|[[x y] r] coo IH]; intros t t' N H a b s.
  - simpl in H. injection H as <-. split; [intros H; right; split; [intros ? []|auto]|].
    intros [[raw [[] _]]|[_ H]]; auto.
  - cbn [add_sims] in H. destruct (add_sim c es t (x, y, r)) as [t1|] eqn:E; cbn [bind] in H; [|discriminate].
    inversion N as [|? ? N1 N2]; subst. rewrite (IH t1 t' N2 H a b s). apply add_sim_ok in E.
    assert (NN : forall raw, In (x, y, raw) coo -> False).
    { intros raw Hr. apply N1. cbn [fst map]. change (x, y) with (fst (x, y, raw)). apply in_map. exact Hr. }
    destruct (passes c es x y) eqn:P.
    + destruct E as [s' [Es L]]. rewrite L. split.
      * intros [[raw [Hr [Hp Hs]]]|[Hn Hl]].
        -- left. exists raw. simpl. auto.
        -- destruct (Z.eqb_spec a x) as [->|Nx]; destruct (Z.eqb_spec b y) as [->|Ny]; cbn [andb] in Hl.
           ++ left. exists r. injection Hl as <-. simpl. auto.
           ++ right. split; auto. intros raw [Hr|Hr]; [congruence|eauto].
           ++ right. split; auto. intros raw [Hr|Hr]; [congruence|eauto].
           ++ right. split; auto. intros raw [Hr|Hr]; [congruence|eauto].
      * intros [[raw [[Hr|Hr] [Hp Hs]]]|[Hn Hl]].
        -- right. injection Hr as -> -> ->. split; [intros raw' Hr'; exfalso; eauto|].
           rewrite !Z.eqb_refl. cbn [andb]. congruence.
        -- left. exists raw. auto.
        -- right. split; [intros; eapply Hn; simpl; eauto|].
           destruct (Z.eqb_spec a x) as [->|Nx]; destruct (Z.eqb_spec b y) as [->|Ny]; cbn [andb]; auto.
           rewrite (Hn r) in P by (simpl; auto). discriminate.
    + subst t1. split.
      * intros [[raw [Hr [Hp Hs]]]|[Hn Hl]].
        -- left. exists raw. simpl. auto.
        -- right. split; auto. intros raw [Hr|Hr]; [congruence|eauto].
      * intros [[raw [[Hr|Hr] [Hp Hs]]]|[Hn Hl]].
        -- congruence.
        -- left. exists raw. auto.
        -- right. split; auto. intros; eapply Hn; simpl; eauto.
Qed.

Lemma add_sims_shrink c es coo : forall t t', add_sims c es t coo = Ok t' ->
  forall a b raw, In (a, b, raw) coo -> passes c es a b = true ->
  exists s, shrink (kn_shrink c) (co_ratings es a b) raw = Ok s.
Proof.
  induction coo as [|[[x y] r] coo IH]; intros t t' H a b raw Hr P; [contradiction|].
  cbn [add_sims] in H. destruct (add_sim c es t (x, y, r)) as [t1|] eqn:E; cbn [bind] in H; [|discriminate].
  destruct Hr as [Hr|Hr]; [|eapply IH; eauto]. injection Hr as -> -> ->. apply add_sim_ok in E. rewrite P in E.
  destruct E as [s' [Es _]]. eauto.
Qed.

Lemma Qc_eq_bool_false x y : Qc_eq_bool x y = false -> x <> y.
Proof. unfold Qc_eq_bool. destruct (Qc_eq_dec x y); [discriminate|auto]. Qed.

(** shrinking, as an equation *)
Lemma shrink_eq h co raw s0 s : shrink h co raw = Ok s0 ->
  (shrink h co raw = Ok s <->
   match h with
   | None => s = raw
   | Some h => (s * (Qc_of_Z (Z.of_nat co) + h + tiny) = raw * Qc_of_Z (Z.of_nat co))%Qc
   end).
Proof.
  unfold shrink. destruct h as [h|]; [|split; congruence].
  destruct (Qc_eq_bool (Qc_of_Z (Z.of_nat co) + h + tiny) 0) eqn:E; [discriminate|]. intros _.
  apply Qc_eq_bool_false in E.
  set (n := Qc_of_Z (Z.of_nat co)) in *. set (d := (n + h + tiny)%Qc) in *. clearbody n d. split.
  - intros H. assert (s = (raw * (n / d))%Qc) by congruence. subst. field. exact E.
  - intros H. f_equal. replace s with ((s * d) / d)%Qc by (field; exact E). rewrite H. field. exact E.
Qed.

Lemma passes_spec c es a b : passes c es a b = true <->
  b < a /\ (0 < kn_m c -> kn_m c <= Z.of_nat (in_common es a b)).
Proof.
  unfold passes. rewrite co_ratings_common.
  destruct (Z.ltb_spec b a), (Z.ltb_spec 0 (kn_m c)), (Z.ltb_spec (Z.of_nat (in_common es a b)) (kn_m c)); simpl;
    split; intros; try discriminate; try lia; auto.
Qed.

Lemma table_similar c es coo t : NoDup (map fst coo) -> add_sims c es [] coo = Ok t ->
  forall a b s, a <> b -> (lookup t (Z.max a b) (Z.min a b) = Some s <-> similar c es coo a b s).
Proof.
  intros N H a b s Nab. rewrite (add_sims_ok c es coo [] t N H).
  assert (P := passes_spec c es (Z.max a b) (Z.min a b)). rewrite in_common_maxmin in P.
  assert (L : Z.min a b < Z.max a b) by lia. unfold similar. split.
  - intros [[raw [Hr [Hp Hs]]]|[_ Hl]]; [|discriminate]. exists raw. split; auto. split; [apply P; auto|].
    assert (E := proj1 (shrink_eq _ _ _ _ _ Hs) Hs). rewrite co_ratings_common, in_common_maxmin in E. exact E.
  - intros [raw [Hr [Hm Hs]]]. left. exists raw. split; auto.
    assert (Hp : passes c es (Z.max a b) (Z.min a b) = true) by (apply P; auto). split; auto.
    destruct (add_sims_shrink c es coo [] t H _ _ _ Hr Hp) as [s0 Es].
    apply (proj2 (shrink_eq _ _ _ _ s Es)). rewrite co_ratings_common, in_common_maxmin. exact Hs.
Qed.

Lemma add_sims_total c es coo : (forall a b s, In (a, b, s) coo -> has_row es a = true /\ has_row es b = true) ->
  (forall h, kn_shrink c = Some h -> (0 <= h)%Qc) -> forall t, exists t', add_sims c es t coo = Ok t'.
Proof.
  intros H Hh. induction coo as [|[[a b] s] coo IH]; intros t; [eexists; reflexivity|].
  cbn [add_sims].
  assert (E : exists t1, add_sim c es t (a, b, s) = Ok t1).
  { unfold add_sim. destruct (H a b s (or_introl eq_refl)) as [-> ->]. cbn [andb negb].
    destruct (a <=? b); [eauto|]. destruct ((0 <? kn_m c) && _); [eauto|].
    assert (S : exists s', shrink (kn_shrink c) (co_ratings es a b) s = Ok s').
    { unfold shrink. destruct (kn_shrink c) as [h|]; [|eauto]. specialize (Hh h eq_refl).
      destruct (Qc_eq_bool (Qc_of_Z (Z.of_nat (co_ratings es a b)) + h + tiny) 0) eqn:E; [exfalso|eauto].
      apply Qc_eq_bool_correct in E.
      assert (0 < Qc_of_Z (Z.of_nat (co_ratings es a b)) + h + tiny)%Qc.
      { apply Qclt_le_trans with tiny; [reflexivity|].
        replace tiny with (0 + tiny)%Qc at 1 by ring. apply Qcplus_le_compat; [|apply Qcle_refl].
        replace 0%Qc with (0 + 0)%Qc by ring. apply Qcplus_le_compat; auto.
        apply Qc_of_Z_nonneg. lia. }
      rewrite E in H0. discriminate. }
    destruct S as [s' ->]. cbn [bind]. eauto. }
  destruct E as [t1 ->]. cbn [bind]. apply IH. intros; eapply H; simpl; eauto.
Qed.

(** ** fitting *)
Section Fit.
Variables (m0 m : mem) (tu ti : dtype).
Hypothesis T : trained_on m0 m tu ti.
Hypothesis Nm : numeric m0.

Lemma entities_ok c raw : (c = "uid" /\ raw = "user") \/ (c = "iid" /\ raw = "item") ->
  count_unique m (Some [c]) = Ok (n_distinct raw m0) /\
  forall k, In k (map (t_col c) (obs m)) <-> 0 <= k < Z.of_nat (n_distinct raw m0).
Proof.
  intros Hc.
  assert (Hu : c = "uid" \/ c = "iid") by intuition.
  destruct (trained_cols m0 m tu ti T) as [Cu Ci]. assert (W := trained_wf m0 m tu ti T).
  assert (Hin : In c (m_columns m)) by (destruct Hu as [-> | ->]; auto).
  assert (Nr : c <> "rid") by (destruct Hu as [-> | ->]; discriminate).
  assert (CT := col_type_ok m c W Hin).
  rewrite (count_unique_one m c Hin Nr CT).
  assert (M := trained_assigned m0 m tu ti T).
  rewrite (obs_map m0 m tu ti T Nm), map_map.
  destruct (rows_of m0) as [|r0 rs0] eqn:R0.
  - assert (R : rows_of m = []) by (rewrite M, assigned_rows, R0; reflexivity).
    unfold n_distinct, column. rewrite R, R0. simpl. split; auto. intros k. split; [tauto|lia].
  - assert (H0 : In r0 (rows_of m0)) by (rewrite R0; simpl; auto).
    destruct Nm as [Ic [Nv _]].
    destruct (col_type_ok m0 "interaction" (tr_wf _ _ _ _ T) Ic) as [tx Tx].
    assert (tx <> DObj).
    { intros ->. destruct (Nv r0 H0) as [v [q [E1 E2]]].
      destruct (wf_cell m0 r0 "interaction" DObj (tr_wf _ _ _ _ T) H0) as [w [E3 E4]].
      { apply col_type_assoc; auto. discriminate. }
      rewrite E1 in E3. injection E3 as <-. destruct v; discriminate. }
    assert (C := assigned_contig m0 tu ti tx (tr_wf _ _ _ _ T) (tr_user _ _ _ _ T) (tr_item _ _ _ _ T) Tx H).
    rewrite <- M in C. destruct C as [_ _ _ _ _ _ _ CR CU CI _ _]; [rewrite R0; discriminate|].
    assert (G : forall r, In r (rows_of m) -> exists u, cell r c = Some (VInt u) /\ 0 <= u < Z.of_nat (n_distinct raw m0)).
    { intros r Hr. destruct (CR r Hr) as [u [i [E1 [B1 [E2 [B2 _]]]]]].
      destruct Hc as [[-> ->]|[-> ->]]; eauto. }
    assert (A : forall u, 0 <= u < Z.of_nat (n_distinct raw m0) -> exists r, In r (rows_of m) /\ cell r c = Some (VInt u)).
    { destruct Hc as [[-> ->]|[-> ->]]; auto. }
    assert (V : forall r, In r (rows_of m) -> cell r c = Some (VInt (t_col c (tri r)))).
    { intros r Hr. destruct (good m0 m tu ti T Nm r Hr) as [E1 [E2 _]]. destruct Hu as [-> | ->]; auto. }
    split; [f_equal; apply keys_count; auto|].
    intros k. rewrite in_map_iff. split.
    + intros [r [<- Hr]]. destruct (G r Hr) as [u [E B]]. rewrite (V r Hr) in E. injection E as ->. exact B.
    + intros B. destruct (A k B) as [r [Hr E]]. exists r. split; auto. rewrite (V r Hr) in E. congruence.
Qed.

Definition ent_col (c : knn) : string := if kn_user c then "uid" else "iid".
Lemma ent_col_ok c : (ent_col c = "uid" /\ (if kn_user c then "user" else "item") = "user") \/
                     (ent_col c = "iid" /\ (if kn_user c then "user" else "item") = "item").
Proof. unfold ent_col. destruct (kn_user c); auto. Qed.

Lemma oriented_first c es : oriented c es = entity_first c es.
Proof.
  unfold oriented, entity_first. destruct (kn_user c).
  - rewrite (map_ext _ (fun e => e)) by (intros [[? ?] ?]; reflexivity). symmetry. apply map_id.
  - reflexivity.
Qed.
Lemma entity_ids c es : map t_u (entity_first c es) = map (t_col (ent_col c)) es.
Proof.
  unfold entity_first, ent_col. rewrite map_map. apply map_ext. intros [[u i] x]. destruct (kn_user c); reflexivity.
Qed.
Lemma has_row_In es a : has_row es a = true <-> In a (map t_u es).
Proof.
  unfold has_row. rewrite existsb_exists, in_map_iff. split; intros [e [H1 H2]]; exists e; rewrite Z.eqb_eq in *; auto.
Qed.

Lemma Zseq_In n k : In k (Zseq n) <-> 0 <= k < Z.of_nat n.
Proof.
  unfold Zseq. rewrite in_map_iff. split.
  - intros [i [<- H]]. apply in_seq in H. lia.
  - intros H. exists (Z.to_nat k). split; [lia|]. apply in_seq. lia.
Qed.

Lemma neighbours_best c coo t n a : NoDup (map fst coo) -> add_sims c (entity_first c (obs m)) [] coo = Ok t ->
  best_of (fun b => 0 <= b < Z.of_nat n /\ b <> a)
    (fun b s => (0 < s)%Qc /\ similar c (entity_first c (obs m)) coo a b s) (Z.to_nat (kn_k c)) (neighbours_of c t n a) /\
  NoDup (map snd (neighbours_of c t n a)).
Proof.
  intros N H. unfold neighbours_of. set (l := filter _ (map _ _)).
  assert (G : forall b s, In (s, b) l <-> (0 <= b < Z.of_nat n /\ b <> a) /\
                          (0 < s)%Qc /\ similar c (entity_first c (obs m)) coo a b s).
  { intros b s. unfold l. rewrite filter_In, in_map_iff. cbn [fst].
    assert (K : forall b', (exists x, (get_sim t a x, x) = (s, b') /\ In x (filter (fun b => negb (b =? a)) (Zseq n))) <->
                           get_sim t a b' = s /\ (0 <= b' < Z.of_nat n /\ b' <> a)).
    { intros b'. split.
      - intros [x [E1 E2]]. injection E1 as E1 ->. rewrite filter_In, Zseq_In, negb_true_iff, Z.eqb_neq in E2. auto.
      - intros [E1 E2]. exists b'. split; [congruence|]. rewrite filter_In, Zseq_In, negb_true_iff, Z.eqb_neq. auto. }
    rewrite K. rewrite get_sim_lookup.
    assert (X : forall s', (0 < s')%Qc -> (match lookup t (Z.max a b) (Z.min a b) with Some s0 => s0 | None => 0%Qc end = s' <->
                 lookup t (Z.max a b) (Z.min a b) = Some s')).
    { intros s' P. destruct (lookup t (Z.max a b) (Z.min a b)); split; try congruence. intros <-. discriminate P. }
    split.
    - intros [[E B] P]. apply Qcltb_true in P. split; auto. split; auto.
      apply (table_similar c _ coo t N H); [destruct B; congruence|]. apply X; auto.
    - intros [B [P S]]. apply (table_similar c _ coo t N H) in S; [|destruct B; congruence].
      split; [|apply Qcltb_lt; auto]. split; auto. apply X; auto. }
  split.
  - eapply best_of_ext; [|apply top_best]. intros b s. rewrite G. split; [tauto|].
    intros [B C]. split; auto. apply in_map_iff. exists (s, b). split; auto. apply G. auto.
  - unfold top. destruct (nlargest_spec scored_geb scored_geb_total scored_geb_trans (Z.to_nat (kn_k c)) l) as [rest [P _]].
    assert (ND : NoDup (map snd l)).
    { unfold l. clear. set (f := filter (fun b => negb (b =? a)) (Zseq n)).
      assert (Nf : NoDup f) by (apply NoDup_filter, Zseq_NoDup). clearbody f.
      induction f as [|x f IH]; [constructor|]. inversion Nf; subst. cbn [map filter fst].
      destruct (Qcltb 0 (get_sim t a x)); [|auto]. cbn [map snd]. constructor; auto.
      intros E. apply in_map_iff in E. destruct E as [[s y] [E1 E2]]. cbn in E1. subst y. apply filter_In in E2.
      destruct E2 as [E2 _]. apply in_map_iff in E2. destruct E2 as [y [E3 E4]]. injection E3 as _ ->. auto. }
    apply (Permutation_map snd) in P. apply (Permutation_NoDup P) in ND. rewrite map_app in ND.
    exact (NoDup_app_l _ _ ND).
Qed.

Lemma assoc_fold_set (f : Z -> list scored) ids : forall d a,
  assoc Z.eqb a (fold_left (fun d a => assoc_set Z.eqb a (f a) d) ids d) = if in_dec Z.eq_dec a ids then Some (f a) else assoc Z.eqb a d.
Proof.
  induction ids as [|x ids IH]; intros d a; [reflexivity|]. cbn [fold_left]. rewrite IH.
  destruct (in_dec Z.eq_dec a ids) as [H|H]; destruct (in_dec Z.eq_dec a (x :: ids)) as [H'|H']; auto.
  - exfalso. apply H'. simpl. auto.
  - destruct H' as [->|H']; [|contradiction]. apply (assoc_set_same _ reflects_Z).
  - apply (assoc_set_other _ reflects_Z). intros ->. apply H'. simpl. auto.
Qed.

Lemma n_entities_eq c : n_entities c m0 = n_distinct (if kn_user c then "user" else "item") m0.
Proof. reflexivity. Qed.

Lemma knn_fit_eq c simf st : knn_fit c simf m st =
  (coo <- simf (entity_first c (obs m)) ;;
   t <- add_sims c (entity_first c (obs m)) (fst st) coo ;;
   mu <- unique m (Some [ent_col c]) ;;
   vs <- values mu (Some [ent_col c]) ;;
   ids <- mapM int_value (concat vs) ;;
   Ok (t, fold_left (fun d a => assoc_set Z.eqb a (neighbours_of c t (n_entities c m0) a) d) ids (snd st))).
Proof.
  unfold knn_fit. rewrite (knn_entries_ok m0 m tu ti T Nm). cbn [bind]. rewrite oriented_first.
  destruct (simf (entity_first c (obs m))) as [coo|]; cbn [bind]; auto.
  destruct (add_sims c (entity_first c (obs m)) (fst st) coo) as [t|]; cbn [bind]; auto.
  destruct (entities_ok _ _ (ent_col_ok c)) as [E _]. fold (ent_col c). rewrite E. reflexivity.
Qed.

Lemma fit_neighbours c simf coo t nb : simf (entity_first c (obs m)) = Ok coo -> NoDup (map fst coo) ->
  knn_fit c simf m ([], []) = Ok (t, nb) ->
  add_sims c (entity_first c (obs m)) [] coo = Ok t /\
  forall a, neighbours nb a = if (0 <=? a) && (a <? Z.of_nat (n_entities c m0))
                              then Ok (neighbours_of c t (n_entities c m0) a) else Err KeyError.
Proof.
  intros S N. rewrite knn_fit_eq, S. cbn [bind fst snd].
  destruct (add_sims c (entity_first c (obs m)) [] coo) as [t'|] eqn:E; cbn [bind]; [|discriminate].
  destruct (unique_ids m0 m tu ti T Nm (ent_col c)) as [mu [vs [ids [E1 [E2 [E3 E4]]]]]].
  { destruct (ent_col_ok c) as [[H _]|[H _]]; auto. }
  rewrite E1. cbn [bind]. rewrite E2. cbn [bind]. rewrite E3. cbn [bind]. intros H. injection H as <- <-.
  split; auto. intros a. unfold neighbours. rewrite assoc_fold_set.
  destruct (entities_ok _ _ (ent_col_ok c)) as [_ K]. rewrite <- n_entities_eq in K.
  destruct (in_dec Z.eq_dec a ids) as [H|H].
  - apply E4, K in H. destruct (Z.leb_spec 0 a), (Z.ltb_spec a (Z.of_nat (n_entities c m0))); try lia. reflexivity.
  - destruct (Z.leb_spec 0 a), (Z.ltb_spec a (Z.of_nat (n_entities c m0))); try reflexivity.
    exfalso. apply H, E4, K. lia.
Qed.

Lemma fit_best c simf coo t nb : simf (entity_first c (obs m)) = Ok coo -> NoDup (map fst coo) ->
  knn_fit c simf m ([], []) = Ok (t, nb) ->
  forall a, 0 <= a < Z.of_nat (n_entities c m0) -> exists l, neighbours nb a = Ok l /\ NoDup (map snd l) /\
    best_of (fun b => 0 <= b < Z.of_nat (n_entities c m0) /\ b <> a)
      (fun b s => (0 < s)%Qc /\ similar c (entity_first c (obs m)) coo a b s) (Z.to_nat (kn_k c)) l.
Proof.
  intros S N F a B. destruct (fit_neighbours c simf coo t nb S N F) as [E G]. rewrite G.
  destruct (Z.leb_spec 0 a), (Z.ltb_spec a (Z.of_nat (n_entities c m0))); try lia. cbn [andb].
  eexists. split; [reflexivity|]. destruct (neighbours_best c coo t (n_entities c m0) a N E). auto.
Qed.

Lemma fit_returns c simf coo : simf (entity_first c (obs m)) = Ok coo -> sim_matrix (n_entities c m0) coo ->
  (forall h, kn_shrink c = Some h -> (0 <= h)%Qc) ->
  exists t nb, knn_fit c simf m ([], []) = Ok (t, nb).
Proof.
  intros S [N R] Hh. rewrite knn_fit_eq, S. cbn [bind fst snd].
  destruct (entities_ok _ _ (ent_col_ok c)) as [_ K]. rewrite <- n_entities_eq in K.
  destruct (add_sims_total c (entity_first c (obs m)) coo) with (t := @nil (Z * list (Z * Qc))) as [t E]; auto.
  { intros a b s H. apply R in H. rewrite !has_row_In, !entity_ids. split; apply K; tauto. }
  rewrite E. cbn [bind].
  destruct (unique_ids m0 m tu ti T Nm (ent_col c)) as [mu [vs [ids [E1 [E2 [E3 E4]]]]]].
  { destruct (ent_col_ok c) as [[H _]|[H _]]; auto. }
  rewrite E1. cbn [bind]. rewrite E2. cbn [bind]. rewrite E3. cbn [bind]. eauto.
Qed.
End Fit.
