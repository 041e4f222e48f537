(** Proofs about the neighbourhood recommenders: what they read from the data set. *)
From Coq Require Import String Ascii.
From Coq Require Import List ZArith QArith Qcanon Qround Bool Lia Permutation Sorted.
From Verif Require Import Py PyFacts MemModel MemSpec MemFacts MemFacts2 MemFacts3 MemFacts4 MemFacts5 MemFacts6 MemFacts7.
From Verif Require Import RankModel RankSpec RankFacts RankFacts2 KnnModel KnnSpec.
Import ListNotations.
Open Scope string_scope.
Open Scope Z_scope.

Lemma mapM_Forall2_map {A B C} (f : B -> res C) (g : A -> C) rs vs :
  Forall2 (fun r v => f v = Ok (g r)) rs vs -> mapM f vs = Ok (map g rs).
Proof. induction 1 as [|r v rs vs H F IH]; simpl; auto. rewrite H. cbn [bind]. rewrite IH. reflexivity. Qed.

Lemma this_of_Z z : Qeq (this (Qc_of_Z z)) (inject_Z z).
Proof. exact (Qred_correct (inject_Z z)). Qed.
Lemma floor_of_Z z : Qfloor (this (Qc_of_Z z)) = z.
Proof. rewrite (Qfloor_comp _ _ (this_of_Z z)). apply Qfloor_Z. Qed.

Lemma int_value_same x z : same_value x (VInt z) -> int_value x = Ok z.
Proof.
  unfold same_value, int_value. destruct x as [a|q|s]; cbn [num_of]; intros H; try contradiction.
  - apply some_num in H. subst. rewrite floor_of_Z. reflexivity.
  - assert (q = Qc_of_Z z) by congruence. subst. rewrite floor_of_Z. reflexivity.
Qed.
Lemma num_value_same x y q : same_value x y -> num_of y = Some q -> num_value x = Ok q.
Proof.
  unfold same_value, num_value. intros S E. destruct y as [z|q'|s]; cbn [num_of] in E; try discriminate;
    destruct x as [z'|q''|s']; try contradiction; cbn [num_of] in *; congruence.
Qed.

(** a row as (uid, iid, interaction) *)
Definition tri (r : row) : Z * Z * Qc :=
  (match cell r "uid" with Some (VInt u) => u | _ => 0 end,
   match cell r "iid" with Some (VInt i) => i | _ => 0 end,
   interaction_of r).
Definition t_u (e : Z * Z * Qc) : Z := fst (fst e).
Definition t_i (e : Z * Z * Qc) : Z := snd (fst e).

Section Knn.
Variables (m0 m : mem) (tu ti : dtype).
Hypothesis T : trained_on m0 m tu ti.
Hypothesis Nm : numeric m0.

Lemma good r : In r (rows_of m) ->
  cell r "uid" = Some (VInt (t_u (tri r))) /\ cell r "iid" = Some (VInt (t_i (tri r))) /\
  exists v, cell r "interaction" = Some v /\ num_of v = Some (snd (tri r)).
Proof.
  intros H. destruct (trained_row m0 m tu ti T r H) as [r0 [u [i [a [b [H0 [_ [_ [_ [_ [_ [_ [E1 [E2 [_ [_ E3]]]]]]]]]]]]]]]].
  unfold tri, t_u, t_i. cbn [fst snd]. rewrite E1, E2. split; auto. split; auto.
  destruct Nm as [_ [N _]]. destruct (N r0 H0) as [v [q [C Q]]]. rewrite <- E3 in C. exists v. split; auto.
  unfold interaction_of. rewrite C. destruct v; simpl in *; congruence.
Qed.

Lemma obs_map : obs m = map tri (rows_of m).
Proof.
  unfold obs. assert (G : forall r, In r (rows_of m) -> In r (rows_of m)) by auto. revert G.
  generalize (rows_of m) at 1 3 4. induction l as [|r l IH]; intros G; auto. cbn [flat_map map].
  destruct (good r) as [E1 [E2 _]]; [apply G; simpl; auto|]. rewrite E1, E2. rewrite IH by (intros; apply G; simpl; auto).
  reflexivity.
Qed.

Lemma has_interaction : In "interaction" (m_columns m).
Proof.
  rewrite (trained_assigned m0 m tu ti T). destruct Nm as [H _].
  unfold assigned. cbn [m_columns]. rewrite !add_column_In. cbn [m_columns]. rewrite ?add_column_In. right. change (m_columns (set_columns m0 (add_column m0 "uid"))) with (add_column m0 "uid"). rewrite add_column_In. auto.
Qed.

Lemma small_interaction : small_col m "interaction".
Proof.
  intros r z H E. destruct (trained_row m0 m tu ti T r H) as [r0 [u [i [a [b [H0 [_ [_ [_ [_ [_ [_ [E1 [E2 [_ [_ E3]]]]]]]]]]]]]]]].
  destruct Nm as [_ [_ S]]. apply (S r0 z H0). congruence.
Qed.

Definition knn_col (c : string) : Prop := c = "uid" \/ c = "iid" \/ c = "interaction".

Lemma knn_col_ok c : knn_col c -> In c (m_columns m) /\ small_col m c.
Proof.
  destruct (trained_cols m0 m tu ti T) as [Cu Ci].
  intros [-> | [-> | ->]]; split; auto using has_interaction, small_interaction; apply (trained_small m0 m tu ti T); auto.
Qed.

(** reading columns of the selected rows *)
Lemma values_filter q P cs mu : select m q = Ok mu -> rows_of mu = filter P (rows_of m) -> m_columns mu = m_columns m ->
  Forall knn_col cs ->
  exists vs, values mu (Some cs) = Ok vs /\
    Forall2 (fun r v => Forall2 (fun c x => exists y, row_val r c = Some y /\ same_value x y) cs v) (filter P (rows_of m)) vs.
Proof.
  intros S R C F. rewrite Forall_forall in F. destruct (values_ok mu cs) as [vs [V [_ G]]].
  - eapply wf_select; [apply (trained_wf m0 m tu ti T)|exact S].
  - intros c Hc. rewrite C. apply knn_col_ok. auto.
  - intros c Hc r z Hr E. rewrite R in Hr. apply filter_In in Hr. destruct Hr as [Hr _].
    destruct (knn_col_ok c (F c Hc)) as [_ S']. exact (S' r z Hr E).
  - exists vs. split; auto. rewrite <- R. auto.
Qed.

Lemma row_val_other r c : c <> "rid" -> row_val r c = cell r c.
Proof. intros N. unfold row_val. apply String.eqb_neq in N. rewrite N. reflexivity. Qed.

Lemma read_uid r x : In r (rows_of m) -> (exists y, row_val r "uid" = Some y /\ same_value x y) -> int_value x = Ok (t_u (tri r)).
Proof.
  intros H [y [E S]]. destruct (good r H) as [E1 _]. rewrite row_val_other in E by discriminate.
  rewrite E1 in E. injection E as <-. apply int_value_same. auto.
Qed.
Lemma read_iid r x : In r (rows_of m) -> (exists y, row_val r "iid" = Some y /\ same_value x y) -> int_value x = Ok (t_i (tri r)).
Proof.
  intros H [y [E S]]. destruct (good r H) as [_ [E1 _]]. rewrite row_val_other in E by discriminate.
  rewrite E1 in E. injection E as <-. apply int_value_same. auto.
Qed.
Lemma read_int r x : In r (rows_of m) -> (exists y, row_val r "interaction" = Some y /\ same_value x y) -> num_value x = Ok (snd (tri r)).
Proof.
  intros H [y [E S]]. destruct (good r H) as [_ [_ [v [E1 N]]]]. rewrite row_val_other in E by discriminate.
  rewrite E1 in E. injection E as <-. eapply num_value_same; eauto.
Qed.

Lemma Forall2_impl_in {A B} (P Q : A -> B -> Prop) l l' : (forall x y, In x l -> P x y -> Q x y) ->
  Forall2 P l l' -> Forall2 Q l l'.
Proof.
  intros H F. induction F as [|x y l l' G F IH]; constructor; [apply H; simpl; auto|]. apply IH. intros; apply H; simpl; auto.
Qed.

Ltac inv2 H := inversion H; clear H; subst.

Lemma knn_entries_ok : knn_entries m = Ok (obs m).
Proof.
  unfold knn_entries. destruct (values_ok m ["uid"; "iid"; "interaction"]) as [vs [V [_ F]]].
  - apply (trained_wf m0 m tu ti T).
  - intros c Hc. apply knn_col_ok. unfold knn_col. simpl in Hc. intuition.
  - intros c Hc. apply knn_col_ok. unfold knn_col. simpl in Hc. intuition.
  - rewrite V. cbn [bind]. rewrite obs_map. apply mapM_Forall2_map.
    eapply Forall2_impl_in; [|exact F]. intros r v Hr H. cbv beta in H.
    inversion H as [|? a ? v1 Ha H1]; subst. inversion H1 as [|? b ? v2 Hb H2]; subst.
    inversion H2 as [|? c ? v3 Hc H3]; subst. inversion H3; subst.
    unfold entry_of. rewrite (read_uid r a Hr Ha). cbn [bind]. rewrite (read_iid r b Hr Hb). cbn [bind].
    rewrite (read_int r c Hr Hc). cbn [bind]. destruct (tri r) as [[? ?] ?]; reflexivity.
Qed.

Definition is_u (k : Z) (e : Z * Z * Qc) : bool := t_u e =? k.
Definition is_i (k : Z) (e : Z * Z * Qc) : bool := t_i e =? k.

Lemma filter_map_tri P Q : (forall r, In r (rows_of m) -> P r = Q (tri r)) ->
  map tri (filter P (rows_of m)) = filter Q (obs m).
Proof.
  intros H. rewrite obs_map. assert (G : forall r, In r (rows_of m) -> In r (rows_of m)) by auto. revert G.
  generalize (rows_of m) at 1 3 4. induction l as [|r l IH]; intros G; auto. cbn [filter map].
  rewrite (H r) by (apply G; simpl; auto). destruct (Q (tri r)); cbn [map]; rewrite IH by (intros; apply G; simpl; auto); auto.
Qed.
Lemma int_is_u k r : In r (rows_of m) -> int_is "uid" k r = is_u k (tri r).
Proof. intros H. destruct (good r H) as [E _]. unfold int_is. rewrite E. reflexivity. Qed.
Lemma int_is_i k r : In r (rows_of m) -> int_is "iid" k r = is_i k (tri r).
Proof. intros H. destruct (good r H) as [_ [E _]]. unfold int_is. rewrite E. reflexivity. Qed.

Lemma sel c k : c = "uid" \/ c = "iid" ->
  select m (c ++ " == " ++ str_of_Z k) = Ok (set_rows (mem_copy m) (filter (int_is c k) (rows_of m))).
Proof.
  intros H. destruct (trained_cols m0 m tu ti T) as [Cu Ci].
  apply select_int_exact; [apply (trained_wf m0 m tu ti T)|apply (trained_id_types m0 m tu ti T)|simpl; intuition| |
    apply (trained_small m0 m tu ti T); auto].
  destruct H as [-> | ->]; auto.
Qed.

Lemma sel2 u i :
  select m ("uid == " ++ str_of_Z u ++ ", iid == " ++ str_of_Z i) =
  Ok (set_rows (mem_copy m) (filter (fun r => int_is "uid" u r && int_is "iid" i r) (rows_of m))).
Proof.
  destruct (trained_cols m0 m tu ti T) as [Cu Ci]. assert (W := trained_wf m0 m tu ti T).
  assert (I := trained_id_types m0 m tu ti T).
  assert (OK : forall c k, c = "uid" \/ c = "iid" -> cond_ok m (mkCond c Eq (LInt k)) /\ direct m (mkCond c Eq (LInt k))).
  { intros c k Hc. assert (Hin : In c (m_columns m)) by (destruct Hc as [-> | ->]; auto).
    assert (Nr : c <> "rid") by (destruct Hc as [-> | ->]; discriminate).
    destruct (col_type_ok m c W Hin) as [t Tt].
    assert (A : assoc String.eqb c (f_types (m_df m)) = Some t) by (apply col_type_assoc; auto).
    assert (t = DInt) by (eapply I; eauto; simpl; intuition). subst t.
    split.
    - split; auto. cbn [sc_col sc_lit]. split; [split|].
      + intros ->. intuition discriminate.
      + destruct Hc as [-> | ->]; simpl; unfold plain_char; repeat split; discriminate.
      + split; [apply (trained_small m0 m tu ti T); auto|]. exists DInt. split; auto. apply lo_id. simpl; intuition.
    - intros _ Hu. cbn [sc_col] in Hu. destruct Hc as [-> | ->]; simpl in Hu; intuition congruence. }
  destruct (OK "uid" u (or_introl eq_refl)) as [O1 D1]. destruct (OK "iid" i (or_intror eq_refl)) as [O2 D2].
  destruct (select_exact m [mkCond "uid" Eq (LInt u); mkCond "iid" Eq (LInt i)]) as [H _]; auto.
  - discriminate.
  - match type of H with select m ?q = _ => replace q with ("uid == " ++ str_of_Z u ++ ", iid == " ++ str_of_Z i) in H end.
    2:{ unfold query_text, cond_text. cbn [sc_col sc_op sc_lit op_text lit_text].
        change ("uid == " ++ str_of_Z u ++ ", iid == " ++ str_of_Z i) with
               ("uid == " ++ (str_of_Z u ++ ", iid == " ++ str_of_Z i)).
        change ("uid" ++ " " ++ "==" ++ " " ++ str_of_Z u) with ("uid == " ++ str_of_Z u).
        rewrite append_assoc. reflexivity. }
    rewrite H. f_equal. f_equal. apply filter_ext_in. intros r Hr.
    destruct (good r Hr) as [E1 [E2 _]].
    unfold sat, sat1, int_is. cbn [forallb sc_col sc_lit sc_op lit_num].
    rewrite !row_val_other by discriminate. rewrite E1, E2. cbn. rewrite andb_true_r, !Qc_of_Z_compare, !Z.eqb_compare.
    destruct (t_u (tri r) ?= u), (t_i (tri r) ?= i); reflexivity.
Qed.

(** ** single reads *)
Lemma find_filter {A} (P : A -> bool) l : find P l = hd_error (filter P l).
Proof. induction l as [|x l IH]; simpl; auto. destruct (P x); auto. Qed.

Lemma concat_single {A} (vs : list (list A)) (P : A -> Prop) : Forall (fun v => exists x, v = [x] /\ P x) vs ->
  Forall P (concat vs).
Proof. induction 1 as [|v vs [x [-> H]] F IH]; simpl; constructor; auto. Qed.

Lemma one_interaction (P : row -> bool) vs :
  Forall2 (fun r v => Forall2 (fun c x => exists y, row_val r c = Some y /\ same_value x y) ["interaction"] v)
    (filter P (rows_of m)) vs ->
  mapM num_value (concat vs) = Ok (map (fun r => snd (tri r)) (filter P (rows_of m))) /\
  forall v, hd_error vs = Some v -> exists x r, v = [x] /\ hd_error (filter P (rows_of m)) = Some r /\ num_value x = Ok (snd (tri r)).
Proof.
  assert (G : forall r, In r (filter P (rows_of m)) -> In r (rows_of m)) by (intros r H; apply filter_In in H; tauto).
  revert vs G. generalize (filter P (rows_of m)). induction l as [|r l IH]; intros vs G F.
  - inversion F; subst. split; [reflexivity|discriminate].
  - inversion F as [|? v ? vs' Hv F']; subst.
    inversion Hv as [|? x ? v' Hx Hn]; subst. inversion Hn; subst.
    assert (E := read_int r x (G r (or_introl eq_refl)) Hx).
    destruct (IH vs' (fun r H => G r (or_intror H)) F') as [IH1 _]. split.
    + cbn [concat app mapM map]. rewrite E. cbn [bind]. rewrite IH1. reflexivity.
    + intros v H. injection H as <-. exists x, r. auto.
Qed.

Lemma get_interaction_ok u i : get_interaction m u i = Ok (first_obs (obs m) u i).
Proof.
  unfold get_interaction.
  assert (S := sel2 u i).
  destruct (values_filter _ (fun r => int_is "uid" u r && int_is "iid" i r) ["interaction"] _ S eq_refl eq_refl) as [vs [V F]].
  { constructor; [right; right; reflexivity|constructor]. }
  rewrite (select_one_first m _ _ _ _ S V). cbn [bind].
  destruct (one_interaction _ vs F) as [_ H].
  unfold first_obs. rewrite find_filter.
  rewrite <- (filter_map_tri (fun r => int_is "uid" u r && int_is "iid" i r)).
  2:{ intros r Hr. rewrite int_is_u, int_is_i by auto. reflexivity. }
  destruct vs as [|v vs].
  - apply Forall2_len in F. destruct (filter (fun r => int_is "uid" u r && int_is "iid" i r) (rows_of m)); [reflexivity|discriminate].
  - destruct (H v eq_refl) as [x [r [-> [E N]]]]. cbn [hd_error]. rewrite N. cbn [bind].
    destruct (filter (fun r => int_is "uid" u r && int_is "iid" i r) (rows_of m)) as [|r' l]; [discriminate|].
    injection E as ->. reflexivity.
Qed.

Lemma predict_default_ok c k : c = "uid" \/ c = "iid" ->
  predict_default m c k =
  (let xs := map snd (filter (if String.eqb c "uid" then is_u k else is_i k) (obs m)) in
   if (length xs =? 0)%nat then Err ZeroDivisionError else Ok (Qcsum xs / Qc_of_Z (Z.of_nat (length xs)))%Qc).
Proof.
  intros Hc. unfold predict_default. assert (S := sel c k Hc). rewrite S. cbn [bind].
  destruct (values_filter _ (int_is c k) ["interaction"] _ S eq_refl eq_refl) as [vs [V F]].
  { constructor; [right; right; reflexivity|constructor]. }
  rewrite V. cbn [bind]. destruct (one_interaction _ vs F) as [H _]. rewrite H. cbn [bind].
  rewrite <- (filter_map_tri (int_is c k)).
  2:{ intros r Hr. destruct Hc as [-> | ->]; [apply int_is_u|apply int_is_i]; auto. }
  unfold mem_len. change (rows_of (set_rows (mem_copy m) (filter (int_is c k) (rows_of m)))) with (filter (int_is c k) (rows_of m)).
  rewrite map_map, map_length. reflexivity.
Qed.

Lemma user_records_ok b : exists mb vs, select m ("uid == " ++ str_of_Z b) = Ok mb /\
  values mb (Some ["iid"; "interaction"]) = Ok vs /\
  mapM pair_of vs = Ok (map (fun e => (t_i e, snd e)) (filter (is_u b) (obs m))).
Proof.
  assert (S := sel "uid" b (or_introl eq_refl)).
  destruct (values_filter _ (int_is "uid" b) ["iid"; "interaction"] _ S eq_refl eq_refl) as [vs [V F]].
  { constructor; [right; left; reflexivity|]. constructor; [right; right; reflexivity|constructor]. }
  eexists. exists vs. split; [exact S|]. split; [exact V|].
  rewrite <- (filter_map_tri (int_is "uid" b)) by (intros; apply int_is_u; auto). rewrite map_map.
  apply mapM_Forall2_map. eapply Forall2_impl_in; [|exact F]. intros r v Hr H. cbv beta in H.
  apply filter_In in Hr. destruct Hr as [Hr _].
  inversion H as [|? a ? v1 Ha H1]; subst. inversion H1 as [|? x ? v2 Hb H2]; subst. inversion H2; subst.
  unfold pair_of. rewrite (read_iid r a Hr Ha). cbn [bind]. rewrite (read_int r x Hr Hb). reflexivity.
Qed.

Lemma filter_filter {A} (P Q : A -> bool) l : filter P (filter Q l) = filter (fun x => Q x && P x) l.
Proof. induction l as [|x l IH]; simpl; auto. destruct (Q x); simpl; [destruct (P x); congruence|auto]. Qed.

Lemma user_ds_ok u : exists ds, select m ("uid == " ++ str_of_Z u) = Ok ds /\
  forall b, (r <- select_one ds ("iid == " ++ str_of_Z b) (Some ["interaction"]) ;;
             match r with
             | None => Ok None
             | Some [v] => x <- num_value v ;; Ok (Some x)
             | Some _ => Err KeyError
             end) = Ok (first_obs (obs m) u b).
Proof.
  assert (S := sel "uid" u (or_introl eq_refl)).
  exists (set_rows (mem_copy m) (filter (int_is "uid" u) (rows_of m))). split; [exact S|]. intros b.
  set (ds := set_rows (mem_copy m) (filter (int_is "uid" u) (rows_of m))) in *.
  assert (W : wf_mem ds) by (eapply wf_select; [apply (trained_wf m0 m tu ti T)|exact S]).
  assert (Sub : forall r, In r (rows_of ds) -> In r (rows_of m)).
  { intros r H. unfold ds in H. change (In r (filter (int_is "uid" u) (rows_of m))) in H. apply filter_In in H. tauto. }
  assert (S2 : select ds ("iid == " ++ str_of_Z b) =
    Ok (set_rows (mem_copy ds) (filter (int_is "iid" b) (rows_of ds)))).
  { apply (select_int_exact ds "iid" b); auto.
    - exact (trained_id_types m0 m tu ti T).
    - simpl; auto.
    - exact (proj2 (trained_cols m0 m tu ti T)).
    - intros r z H E. exact (trained_small m0 m tu ti T "iid" (or_intror eq_refl) r z (Sub r H) E). }
  destruct (values_ok (set_rows (mem_copy ds) (filter (int_is "iid" b) (rows_of ds))) ["interaction"]) as [vs [V [_ F]]].
  { eapply wf_select; [exact W|exact S2]. }
  { intros c [<-|[]]. exact has_interaction. }
  { intros c [<-|[]] r z H E. change (In r (filter (int_is "iid" b) (rows_of ds))) in H. apply filter_In in H.
    exact (small_interaction r z (Sub r (proj1 H)) E). }
  rewrite (select_one_first ds _ _ _ _ S2 V). cbn [bind].
  change (rows_of (set_rows (mem_copy ds) (filter (int_is "iid" b) (rows_of ds)))) with
    (filter (int_is "iid" b) (filter (int_is "uid" u) (rows_of m))) in F.
  rewrite filter_filter in F.
  destruct (one_interaction _ vs F) as [_ H].
  unfold first_obs. rewrite find_filter.
  rewrite <- (filter_map_tri (fun r => int_is "uid" u r && int_is "iid" b r)).
  2:{ intros r Hr. rewrite int_is_u, int_is_i by auto. reflexivity. }
  destruct vs as [|v vs].
  - apply Forall2_len in F. destruct (filter (fun r => int_is "uid" u r && int_is "iid" b r) (rows_of m)); [reflexivity|discriminate].
  - destruct (H v eq_refl) as [x [r [-> [E N]]]]. cbn [hd_error]. rewrite N. cbn [bind].
    destruct (filter (fun r => int_is "uid" u r && int_is "iid" b r) (rows_of m)) as [|r' l]; [discriminate|].
    injection E as ->. reflexivity.
Qed.

(** ** the distinct ids of a column *)
Lemma drop_duplicates_cover cs rs : forall seen r, In r rs -> mem_b key_eqb (row_key cs r) seen = false ->
  exists r', In r' (drop_duplicates_acc cs seen rs) /\ row_key cs r' = row_key cs r.
Proof.
  induction rs as [|r0 rs IH]; intros seen r H N; [contradiction|]. cbn [drop_duplicates_acc]. destruct H as [->|H].
  - rewrite N. exists r. split; [left|]; reflexivity.
  - destruct (mem_b key_eqb (row_key cs r0) seen) eqn:E; [apply IH; auto|].
    destruct (mem_b key_eqb (row_key cs r) (row_key cs r0 :: seen)) eqn:E2.
    + exists r0. split; [left; reflexivity|]. simpl in E2. rewrite N, orb_false_r in E2.
      assert (R := reflects_key). symmetry. apply R. exact E2.
    + destruct (IH _ r H E2) as [r' [H1 H2]]. exists r'. split; [right; auto|auto].
Qed.
Lemma drop_duplicates_sub cs rs : forall seen r, In r (drop_duplicates_acc cs seen rs) -> In r rs.
Proof.
  induction rs as [|r0 rs IH]; intros seen r H; [contradiction|]. cbn [drop_duplicates_acc] in H.
  destruct (mem_b key_eqb (row_key cs r0) seen); [right; eapply IH; eauto|].
  destruct H as [->|H]; [left; auto|right; eapply IH; eauto].
Qed.

Definition t_col (c : string) (e : Z * Z * Qc) : Z := if String.eqb c "uid" then t_u e else t_i e.

Lemma unique_ids c : c = "uid" \/ c = "iid" ->
  exists mu vs ids, unique m (Some [c]) = Ok mu /\ values mu (Some [c]) = Ok vs /\ mapM int_value (concat vs) = Ok ids /\
    (forall k, In k ids <-> In k (map (t_col c) (obs m))).
Proof.
  intros Hc. destruct (trained_cols m0 m tu ti T) as [Cu Ci]. assert (W := trained_wf m0 m tu ti T).
  assert (Hin : In c (m_columns m)) by (destruct Hc as [-> | ->]; auto).
  assert (Nr : c <> "rid") by (destruct Hc as [-> | ->]; discriminate).
  destruct (col_type_ok m c W Hin) as [t Tt].
  assert (A : assoc String.eqb c (f_types (m_df m)) = Some t) by (apply col_type_assoc; auto).
  assert (t = DInt) by (eapply (trained_id_types m0 m tu ti T); eauto; simpl; intuition). subst t.
  assert (U : unique m (Some [c]) = Ok (set_columns (set_df (mem_copy m)
     (mkFrame (project_types [c] (f_types (m_df m))) (map (project_row [c]) (drop_duplicates [c] (rows_of m)))))
     ([c] ++ ["rid"]))).
  { apply unique_ok; auto; [discriminate|simpl; intuition|intros d [<-|[]]; auto]. }
  set (mu := set_columns _ _) in U.
  assert (G : forall r, In r (drop_duplicates [c] (rows_of m)) -> cell r c = Some (VInt (t_col c (tri r)))).
  { intros r H. apply drop_duplicates_sub in H. destruct (good r H) as [E1 [E2 _]]. destruct Hc as [-> | ->]; auto. }
  assert (V : values mu (Some [c]) = Ok (map (fun r => [VInt (t_col c (tri r))]) (drop_duplicates [c] (rows_of m)))).
  { unfold values, handle_columns. rewrite (forallb_col_in mu) by (intros d [<-|[]]; left; reflexivity). cbn [bind].
    change (m_columns mu) with [c; "rid"]. unfold df_columns. cbn [filter].
    assert (N2 := Nr). apply String.eqb_neq in N2. rewrite N2. change (String.eqb "rid" "rid") with true. cbn [negb mapM].
    assert (CT : col_type mu c = Ok DInt).
    { unfold col_type. rewrite N2. change (f_types (m_df mu)) with (project_types [c] (f_types (m_df m))).
      unfold project_types. cbn [flat_map]. rewrite A. cbn [app]. cbn [assoc]. rewrite String.eqb_refl. reflexivity. }
    rewrite CT. cbn [bind]. change (rows_of mu) with (map (project_row [c]) (drop_duplicates [c] (rows_of m))).
    revert G. generalize (drop_duplicates [c] (rows_of m)). induction l as [|r l IH]; intros G; auto.
    cbn [map mapM]. rewrite IH by (intros; apply G; simpl; auto).
    unfold row_record. cbn [mapM]. unfold row_value. rewrite N2. unfold project_row, cell at 1. cbn [r_cells flat_map].
    rewrite (G r) by (simpl; auto). cbn [app assoc]. rewrite String.eqb_refl. cbn [bind]. reflexivity. }
  exists mu. eexists. exists (map (fun r => t_col c (tri r)) (drop_duplicates [c] (rows_of m))).
  split; [exact U|]. split; [exact V|]. split.
  - clear. generalize (drop_duplicates [c] (rows_of m)). induction l as [|r l IH]; auto.
    cbn [map concat app mapM]. rewrite (int_value_same (VInt (t_col c (tri r))) _ eq_refl). cbn [bind]. rewrite IH. reflexivity.
  - intros k. rewrite obs_map, map_map, !in_map_iff. split.
    + intros [r [E H]]. exists r. split; auto. eapply drop_duplicates_sub; eauto.
    + intros [r [E H]]. destruct (drop_duplicates_cover [c] (rows_of m) [] r H eq_refl) as [r' [H1 H2]].
      exists r'. split; auto. subst k. unfold row_key in H2. cbn [map] in H2.
      assert (G1 := G r' H1). assert (G2 : cell r c = Some (VInt (t_col c (tri r)))).
      { destruct (good r H) as [E1 [E2 _]]. destruct Hc as [-> | ->]; auto. }
      congruence.
Qed.
End Knn.
