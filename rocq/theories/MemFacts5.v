(** Final lemmas for the properties of the in-memory data set (C08 to C12). *)
From Coq Require Import String Ascii.
From Coq Require Import List ZArith QArith Qcanon Bool Lia Permutation Sorted.
From Verif Require Import Py PyFacts MemModel MemSpec MemFacts MemFacts2 MemFacts3 MemFacts4.
Import ListNotations.
Open Scope string_scope.
Open Scope Z_scope.

(** ** C08 *)
Lemma remove_first_app_new l c : ~ In c l -> remove_first String.eqb c (l ++ [c])%list = l.
Proof.
  induction l as [|x l IH]; simpl.
  - rewrite String.eqb_refl. reflexivity.
  - intros H. destruct (String.eqb c x) eqn:E.
    + apply String.eqb_eq in E. subst. tauto.
    + rewrite IH by tauto. reflexivity.
Qed.

Lemma remove_first_app_old l c d : In c l -> remove_first String.eqb c (l ++ d)%list = (remove_first String.eqb c l ++ d)%list.
Proof.
  induction l as [|x l IH]; simpl; [tauto|].
  intros H. destruct (String.eqb c x) eqn:E; auto.
  apply String.eqb_neq in E. destruct H as [H|H]; [congruence|]. rewrite IH by auto. reflexivity.
Qed.

Lemma add_column_new m c : ~ In c (m_columns m) -> add_column m c = (m_columns m ++ [c])%list.
Proof.
  intros H. unfold add_column. apply (mem_b_false _ reflects_string) in H. rewrite H. reflexivity.
Qed.
Lemma add_column_old m c : In c (m_columns m) -> add_column m c = m_columns m.
Proof.
  intros H. unfold add_column. apply (mem_b_In _ reflects_string) in H. rewrite H. reflexivity.
Qed.

Lemma assigned_columns m : ~ In "uid" (m_columns m) -> ~ In "iid" (m_columns m) ->
  m_columns (assigned m) = ((m_columns m ++ ["uid"]) ++ ["iid"])%list.
Proof.
  intros H1 H2. unfold assigned. cbn [m_columns]. rewrite (add_column_new m) by auto.
  rewrite add_column_new; [reflexivity|]. cbn. rewrite in_app_iff. simpl. intros [H|[H|[]]]; [auto|discriminate].
Qed.

Lemma assigned_types m : f_types (m_df (assigned m)) =
  assoc_set String.eqb "iid" DInt (assoc_set String.eqb "uid" DInt (f_types (m_df m))).
Proof. reflexivity. Qed.

Lemma filter_types_assigned l : ~ In "uid" (map fst l) -> ~ In "iid" (map fst l) ->
  filter (fun p => negb (mem_b String.eqb (fst p) ["uid"; "iid"]))
    (assoc_set String.eqb "iid" DInt (assoc_set String.eqb "uid" DInt l)) = l.
Proof.
  intros H1 H2. rewrite (assoc_set_fresh_keys l) by auto. rewrite assoc_set_fresh_keys.
  - rewrite <- app_assoc, filter_app.
    rewrite (filter_id _ l); [cbn; apply app_nil_r|].
    intros p Hp. rewrite negb_true_iff, (mem_b_false _ reflects_string).
    intros [E|[E|[]]]; [apply H1|apply H2]; apply in_map_iff; exists p; auto.
  - rewrite map_app, in_app_iff. simpl. intros [H|[H|[]]]; [auto|discriminate].
Qed.

Lemma remove_assigned m : wf_mem m -> ~ In "uid" (m_columns m) -> ~ In "iid" (m_columns m) ->
  exists m2, remove_internal_ids (assigned m) = Ok m2 /\ m_columns m2 = m_columns m /\ m_df m2 = m_df m /\ m_ids m2 = false.
Proof.
  intros W Hu Hi. unfold remove_internal_ids. rewrite assigned_columns by auto.
  assert (E1 : mem_b String.eqb "uid" ((m_columns m ++ ["uid"]) ++ ["iid"])%list = true).
  { apply (mem_b_In _ reflects_string). rewrite !in_app_iff. simpl. tauto. }
  assert (E2 : mem_b String.eqb "iid" ((m_columns m ++ ["uid"]) ++ ["iid"])%list = true).
  { apply (mem_b_In _ reflects_string). rewrite !in_app_iff. simpl. tauto. }
  rewrite E1, E2.
  assert (Fu : ~ In "uid" (map fst (f_types (m_df m)))) by (intros X; apply Hu, (wf_cols _ W); auto).
  assert (Fi : ~ In "iid" (map fst (f_types (m_df m)))) by (intros X; apply Hi, (wf_cols _ W); auto).
  assert (T1 : col_type (assigned m) "uid" = Ok DInt).
  { unfold col_type. rewrite assigned_types. cbn [String.eqb].
    rewrite (assoc_set_other _ reflects_string) by discriminate.
    rewrite (assoc_set_same _ reflects_string). reflexivity. }
  assert (T2 : col_type (assigned m) "iid" = Ok DInt).
  { unfold col_type. rewrite assigned_types.
    rewrite (assoc_set_same _ reflects_string). reflexivity. }
  rewrite T1, T2. cbn [bind negb]. eexists. split; [reflexivity|].
  cbn [m_columns set_columns set_df m_df m_ids]. split; [|split; [|reflexivity]].
  - rewrite (remove_first_app_old (m_columns m ++ ["uid"])%list "uid" ["iid"]) by (apply in_app_iff; simpl; tauto).
    rewrite (remove_first_app_new (m_columns m) "uid") by auto. apply remove_first_app_new; auto.
  - rewrite assigned_types, filter_types_assigned by auto.
    rewrite assigned_rows, map_map.
    rewrite (map_ext_in _ (fun r => r)).
    + rewrite map_id. unfold rows_of. destruct (m_df m); reflexivity.
    + intros r Hr. apply drop_coded_row; rewrite (wf_keys _ (wf_df _ W) r Hr); auto.
Qed.

Lemma assoc_set_present {B} (l : list (string * B)) c v : assoc String.eqb c l = Some v ->
  NoDup (map fst l) -> assoc_set String.eqb c v l = l.
Proof.
  induction l as [|[k w] l IH]; simpl; [discriminate|].
  destruct (String.eqb c k) eqn:E.
  - apply String.eqb_eq in E. intros H _. congruence.
  - intros H N. inversion N; subst. rewrite IH; auto.
Qed.

Lemma set_cell_present r c v : cell r c = Some v -> NoDup (map fst (r_cells r)) -> set_cell c v r = r.
Proof.
  intros H N. unfold set_cell. rewrite assoc_set_present by auto. destruct r; reflexivity.
Qed.

Lemma set_cell_NoDup c v r : NoDup (map fst (r_cells r)) -> NoDup (map fst (r_cells (set_cell c v r))).
Proof.
  unfold set_cell. simpl. generalize (r_cells r). intros l N.
  destruct (in_dec string_dec c (map fst l)) as [I|I].
  - assert (X : map fst (assoc_set String.eqb c v l) = map fst l).
    { clear N. induction l as [|[k w] l IH]; simpl in *; [contradiction|].
      destruct (String.eqb c k) eqn:E; simpl.
      - apply String.eqb_eq in E; subst; reflexivity.
      - f_equal. apply IH. apply String.eqb_neq in E. destruct I; [congruence|auto]. }
    rewrite X. exact N.
  - rewrite assoc_set_fresh_keys by auto. rewrite map_app. simpl.
    apply NoDup_rev in N. rewrite <- (rev_involutive (map fst l ++ [c])%list).
    apply NoDup_rev. rewrite rev_app_distr. simpl. constructor; auto. rewrite <- in_rev. exact I.
Qed.

Lemma code_row_NoDup cats a b r : NoDup (map fst (r_cells r)) -> NoDup (map fst (r_cells (code_row cats a b r))).
Proof. intros N. unfold code_row. destruct (cell r a); auto. apply set_cell_NoDup; auto. Qed.

Lemma code_row_present cats raw int r v : NoDup (map fst (r_cells r)) ->
  cell r raw = Some v -> cell r int = Some (VInt (code_of cats v)) -> code_row cats raw int r = r.
Proof. intros N H1 H2. unfold code_row. rewrite H1. apply set_cell_present; auto. Qed.

Lemma assigned_distinct m c : c <> "uid" -> c <> "iid" ->
  distinct_col c (rows_of (assigned m)) = distinct_col c (rows_of m).
Proof.
  intros H1 H2. rewrite assigned_rows. apply distinct_col_ext. intros r _. apply coded_row_other; auto.
Qed.

Lemma coded_row_again m r tu ti : wf_mem m -> In r (rows_of m) -> 
  col_type m "user" = Ok tu -> col_type m "item" = Ok ti ->
  coded_row (assigned m) (coded_row m r) = coded_row m r.
Proof.
  intros W Hr Tu Ti.
  assert (N : NoDup (map fst (r_cells r))).
  { rewrite (wf_keys _ (wf_df _ W) r Hr). apply (wf_names _ (wf_df _ W)). }
  assert (N2 : NoDup (map fst (r_cells (coded_row m r)))) by (apply code_row_NoDup, code_row_NoDup; auto).
  destruct (wf_cell m r "user" tu W Hr (col_type_assoc m "user" tu ltac:(discriminate) Tu)) as [u [Eu _]].
  destruct (wf_cell m r "item" ti W Hr (col_type_assoc m "item" ti ltac:(discriminate) Ti)) as [i [Ei _]].
  unfold coded_row at 1. rewrite !assigned_distinct by discriminate.
  rewrite (code_row_present _ "user" "uid" _ u); auto.
  - rewrite (code_row_present _ "item" "iid" _ i); auto.
    + rewrite coded_row_other by discriminate. exact Ei.
    + apply coded_row_iid; auto.
  - rewrite coded_row_other by discriminate. exact Eu.
  - apply coded_row_uid; auto.
Qed.

Lemma assoc_set_keys_NoDup {B} (l : list (string * B)) c v : NoDup (map fst l) ->
  NoDup (map fst (assoc_set String.eqb c v l)).
Proof.
  intros N. destruct (in_dec string_dec c (map fst l)) as [I|I].
  - assert (X : map fst (assoc_set String.eqb c v l) = map fst l).
    { clear N. induction l as [|[k w] l IH]; simpl in *; [contradiction|].
      destruct (String.eqb c k) eqn:E; simpl.
      - apply String.eqb_eq in E; subst; reflexivity.
      - f_equal. apply IH. apply String.eqb_neq in E. destruct I; [congruence|auto]. }
    rewrite X. exact N.
  - rewrite assoc_set_fresh_keys by auto. rewrite map_app. simpl.
    apply NoDup_rev in N. rewrite <- (rev_involutive (map fst l ++ [c])%list).
    apply NoDup_rev. rewrite rev_app_distr. simpl. constructor; auto. rewrite <- in_rev. exact I.
Qed.

Lemma assign_twice m tu ti : wf_mem m -> col_type m "user" = Ok tu -> col_type m "item" = Ok ti ->
  assign_internal_ids (assigned m) = Ok (assigned m).
Proof.
  intros W Tu Ti. rewrite (assign_ok (assigned m) tu ti).
  2-3: rewrite col_type_assigned by discriminate; auto.
  f_equal. unfold assigned at 1. rewrite !assigned_distinct by discriminate.
  assert (C : add_column (set_columns (assigned m) (add_column (assigned m) "uid")) "iid" = m_columns (assigned m)).
  { assert (Iu : In "uid" (m_columns (assigned m))).
    { unfold assigned, add_column. cbn.
      repeat match goal with |- context [if ?b then _ else _] => destruct b eqn:? end;
      repeat rewrite in_app_iff; cbn; auto.
      - apply (mem_b_In _ reflects_string) in Heqb0. exact Heqb0.
      - left. apply (mem_b_In _ reflects_string) in Heqb0. exact Heqb0. }
    assert (Ii : In "iid" (m_columns (assigned m))).
    { unfold assigned. cbn [m_columns]. unfold add_column at 1.
      destruct (mem_b String.eqb "iid" _) eqn:E.
      - apply (mem_b_In _ reflects_string) in E. exact E.
      - apply in_app_iff. simpl. auto. }
    rewrite (add_column_old (assigned m) "uid" Iu).
    rewrite add_column_old; [reflexivity|]. exact Ii. }
  rewrite C.
  assert (F : assign_frame "item" "iid" (assign_frame "user" "uid" (m_df (assigned m))) = m_df (assigned m)).
  { assert (R : f_rows (assign_frame "item" "iid" (assign_frame "user" "uid" (m_df (assigned m)))) = rows_of (assigned m)).
    { change (f_rows (assign_frame "item" "iid" (assign_frame "user" "uid" (m_df (assigned m)))))
        with (rows_of (assigned (assigned m))).
      rewrite assigned_rows, assigned_rows, map_map. apply map_ext_in. intros r Hr.
      eapply coded_row_again; eauto. }
    assert (T : f_types (assign_frame "item" "iid" (assign_frame "user" "uid" (m_df (assigned m)))) = f_types (m_df (assigned m))).
    { change (assoc_set String.eqb "iid" DInt (assoc_set String.eqb "uid" DInt (f_types (m_df (assigned m)))) = f_types (m_df (assigned m))).
      assert (ND : NoDup (map fst (f_types (m_df (assigned m))))).
      { rewrite assigned_types. apply assoc_set_keys_NoDup, assoc_set_keys_NoDup, (wf_names _ (wf_df _ W)). }
      rewrite (assoc_set_present (f_types (m_df (assigned m))) "uid").
      - apply assoc_set_present; auto. rewrite assigned_types. apply (assoc_set_same _ reflects_string).
      - rewrite assigned_types, (assoc_set_other _ reflects_string) by discriminate.
        apply (assoc_set_same _ reflects_string).
      - exact ND. }
    unfold rows_of in R. destruct (assign_frame "item" "iid" (assign_frame "user" "uid" (m_df (assigned m)))) as [a b].
    destruct (m_df (assigned m)) as [a' b']. simpl in *. congruence. }
  rewrite F. reflexivity.
Qed.

(** ** C09 *)
Lemma row_value_coded m r c : c <> "uid" -> c <> "iid" -> row_value c (coded_row m r) = row_value c r.
Proof.
  intros H1 H2. unfold row_value. rewrite coded_row_rid, coded_row_other by auto. reflexivity.
Qed.

Lemma mapM_ext_in {A B} (f g : A -> res B) l : (forall a, In a l -> f a = g a) -> mapM f l = mapM g l.
Proof.
  induction l as [|a l IH]; simpl; auto. intros H. rewrite H by auto. rewrite IH by auto. reflexivity.
Qed.

Lemma segment_mask_assigned m s k : m_ids m = false ->
  ~ In "uid" (m_columns m) -> ~ In "iid" (m_columns m) ->
  col_type m "user" = Ok DInt -> col_type m "item" = Ok DInt ->
  segment_mask m s = Ok k -> segment_mask (assigned m) s = Ok k.
Proof.
  intros Hid Hu Hi Tu Ti. unfold segment_mask.
  destruct (parse_segment s) as [[[c o] v]|]; cbn [bind]; [|discriminate].
  destruct (col_in m c) eqn:C; cbn [negb]; [|discriminate].
  assert (Cin := C). apply col_in_iff in Cin.
  assert (Ncu : c <> "uid") by (intros ->; contradiction).
  assert (Nci : c <> "iid") by (intros ->; contradiction).
  assert (C' : col_in (assigned m) c = true).
  { apply col_in_iff. rewrite assigned_columns by auto. rewrite !in_app_iff. auto. }
  rewrite C'. cbn [negb]. rewrite col_type_assigned by auto.
  destruct (col_type m c) as [t|] eqn:T; cbn [bind]; [|discriminate].
  destruct (parse_value c t v) as [w|]; cbn [bind]; [|discriminate].
  assert (R1 : redirect m c t w = Ok (c, Some w)).
  { unfold redirect. rewrite Hid, !andb_false_r. reflexivity. }
  assert (R2 : redirect (assigned m) c t w = Ok (c, Some w)).
  { unfold redirect. destruct (String.eqb c "user") eqn:E1.
    - apply String.eqb_eq in E1. subst c. assert (t = DInt) by congruence. subst t. reflexivity.
    - destruct (String.eqb c "item") eqn:E2; [|reflexivity].
      apply String.eqb_eq in E2. subst c. assert (t = DInt) by congruence. subst t. reflexivity. }
  rewrite R1, R2. cbn [bind]. rewrite col_type_assigned by auto. rewrite T. cbn [bind].
  rewrite assigned_rows, mapM_map. rewrite (mapM_ext_in (fun a => row_value c (coded_row m a)) (row_value c)); auto.
  intros r _. apply row_value_coded; auto.
Qed.

Lemma segments_mask_assigned m segs : m_ids m = false ->
  ~ In "uid" (m_columns m) -> ~ In "iid" (m_columns m) ->
  col_type m "user" = Ok DInt -> col_type m "item" = Ok DInt -> forall acc k,
  segments_mask m acc segs = Ok k -> segments_mask (assigned m) acc segs = Ok k.
Proof.
  intros Hid Hu Hi Tu Ti. induction segs as [|s segs IH]; intros acc k; cbn [segments_mask]; auto.
  destruct (segment_mask m s) as [b|] eqn:E; cbn [bind]; [|discriminate].
  rewrite (segment_mask_assigned m s b) by auto. cbn [bind]. apply IH.
Qed.

Lemma query_mask_assigned m q k : m_ids m = false ->
  ~ In "uid" (m_columns m) -> ~ In "iid" (m_columns m) ->
  col_type m "user" = Ok DInt -> col_type m "item" = Ok DInt ->
  query_mask m q = Ok k -> query_mask (assigned m) q = Ok k.
Proof.
  intros Hid Hu Hi Tu Ti. unfold query_mask. destruct (split_on "," q) as [|s segs].
  - rewrite assigned_rows, map_map. auto.
  - destruct (segment_mask m s) as [b|] eqn:E; cbn [bind]; [|discriminate].
    rewrite (segment_mask_assigned m s b) by auto. cbn [bind]. apply segments_mask_assigned; auto.
Qed.

Lemma mask_filter_map_f {A B} (f : A -> B) k l : mask_filter k (map f l) = map f (mask_filter k l).
Proof.
  unfold mask_filter. revert k; induction l as [|a l IH]; intros [|b k]; simpl; auto.
  destruct b; simpl; rewrite IH; reflexivity.
Qed.


Lemma coded_same_raw m l : Forall2 same_raw l (map (coded_row m) l).
Proof.
  apply Forall2_map_self. intros r _. split; [apply coded_row_rid|].
  intros; apply coded_row_other; auto.
Qed.

Lemma segments_mask_copy m segs : forall acc, segments_mask (mem_copy m) acc segs = segments_mask m acc segs.
Proof.
  induction segs as [|s segs IH]; intros acc; cbn [segments_mask]; auto.
  change (segment_mask (mem_copy m) s) with (segment_mask m s).
  destruct (segment_mask m s); cbn [bind]; auto.
Qed.
Lemma query_mask_copy m q : query_mask (mem_copy m) q = query_mask m q.
Proof.
  unfold query_mask. destruct (split_on "," q); auto.
  change (segment_mask (mem_copy m) s) with (segment_mask m s).
  destruct (segment_mask m s); cbn [bind]; auto using segments_mask_copy.
Qed.

Lemma select_assigned_int m q m1 : m_ids m = false ->
  ~ In "uid" (m_columns m) -> ~ In "iid" (m_columns m) ->
  col_type m "user" = Ok DInt -> col_type m "item" = Ok DInt ->
  select m q = Ok m1 ->
  exists ma m2, assign_internal_ids m = Ok ma /\ select ma q = Ok m2 /\
    Forall2 same_raw (rows_of m1) (rows_of m2).
Proof.
  intros Hid Hu Hi Tu Ti H. exists (assigned m).
  rewrite select_mask, query_mask_copy in H.
  destruct (query_mask m q) as [k|] eqn:E; cbn [bind] in H; [|discriminate]. injection H as <-.
  assert (E2 := query_mask_assigned m q k Hid Hu Hi Tu Ti E).
  eexists. split; [eapply assign_ok; eauto|]. split.
  - rewrite select_mask, query_mask_copy, E2. reflexivity.
  - cbn [rows_of set_rows set_df m_df f_rows]. unfold rows_of at 2. 
    change (f_rows (m_df (assigned m))) with (rows_of (assigned m)).
    rewrite assigned_rows, mask_filter_map_f. apply coded_same_raw.
Qed.


Lemma code_of_inj cats u v : In u cats -> In v cats -> code_of cats u = code_of cats v -> u = v.
Proof.
  intros Hu Hv. unfold code_of.
  destruct (index_of_In _ reflects_value _ _ Hu) as [n E]. destruct (index_of_In _ reflects_value _ _ Hv) as [k F].
  rewrite E, F. intros H. apply Nat2Z.inj in H. subst k.
  apply (index_of_Some _ reflects_value) in E. apply (index_of_Some _ reflects_value) in F.
  destruct E as [E _]. destruct F as [F _]. congruence.
Qed.

Lemma code_cmp o cats v s : eq_op o -> In (VStr v) cats ->
  cmp_vals o (VInt (code_of cats (VStr v)))
    (match option_map Z.of_nat (index_of value_eqb (VStr s) cats) with Some z => Some (VInt z) | None => None end)
  = Ok (op_holds o (String.compare v s)).
Proof.
  intros Ho Hv.
  assert (X : op_holds Eq (String.compare v s) = String.eqb v s).
  { rewrite string_eqb_compare. destruct (String.compare v s); reflexivity. }
  assert (Y : op_holds Ne (String.compare v s) = negb (String.eqb v s)).
  { rewrite string_eqb_compare. destruct (String.compare v s); reflexivity. }
  destruct (index_of value_eqb (VStr s) cats) as [n|] eqn:E; simpl option_map; cbv iota.
  - assert (Z1 : (code_of cats (VStr v) =? Z.of_nat n) = String.eqb v s).
    { rewrite <- (code_of_index cats (VStr s) n E). apply eq_true_iff_eq.
      rewrite Z.eqb_eq, String.eqb_eq. split.
      - intros H. apply code_of_inj in H; [congruence|auto|].
        apply (index_of_Some _ reflects_value) in E. destruct E as [E _]. eapply nth_error_In; eauto.
      - intros ->. reflexivity. }
    destruct Ho as [-> | ->]; unfold cmp_vals; cbn [coerce val_eqb]; rewrite Z1, ?X, ?Y; reflexivity.
  - assert (N : String.eqb v s = false).
    { apply String.eqb_neq. intros ->. apply (index_of_None _ reflects_value) in E. contradiction. }
    destruct Ho as [-> | ->]; unfold cmp_vals; rewrite ?X, ?Y, N; reflexivity.
Qed.

Lemma row_val_cell r c v : c <> "rid" -> cell r c = Some v -> row_val r c = Some v.
Proof. intros N E. unfold row_val. apply String.eqb_neq in N. rewrite N. exact E. Qed.
Lemma row_val_or_cell r c v : c <> "rid" -> cell r c = Some v -> row_val_or c r = v.
Proof. intros N E. unfold row_val_or. rewrite (row_val_cell r c v); auto. Qed.


Lemma segment_mask_assigned_cond m c : wf_mem m -> m_ids m = false ->
  ~ In "uid" (m_columns m) -> ~ In "iid" (m_columns m) ->
  id_types m -> cond_ok m c -> raw_ok m c ->
  segment_mask (assigned m) (cond_text c) = Ok (map (sat1 c) (rows_of m)).
Proof.
  intros W Hid Hu Hi HI Hc HR.
  assert (Hc' := Hc). destruct Hc' as [Hin [Pc [S [t [T L]]]]].
  assert (Ncu : sc_col c <> "uid") by (intros E; rewrite E in *; contradiction).
  assert (Nci : sc_col c <> "iid") by (intros E; rewrite E in *; contradiction).
  assert (D : direct m c) by (intros X; congruence).
  assert (Cin : col_in (assigned m) (sc_col c) = true).
  { apply col_in_iff. rewrite assigned_columns by auto. rewrite !in_app_iff. auto. }
  unfold segment_mask, cond_text.
  rewrite parse_segment_cond by (auto; eapply lit_plain; eauto). cbn [bind].
  rewrite Cin. cbn [negb].
  rewrite col_type_assigned, T by auto. cbn [bind]. rewrite (parse_value_ok _ _ _ L). cbn [bind].
  assert (G : redirect (assigned m) (sc_col c) t (lit_value (sc_col c) (sc_lit c)) =
              Ok (sc_col c, Some (lit_value (sc_col c) (sc_lit c))) ->
     (cl <- redirect (assigned m) (sc_col c) t (lit_value (sc_col c) (sc_lit c)) ;;
      let '(c', l) := cl in
      _ <- col_type (assigned m) c' ;;
      vals <- mapM (row_value c') (rows_of (assigned m)) ;;
      match cmp_of_str (op_text (sc_op c)) with
      | Some op => mapM (fun x => cmp_vals op x l) vals
      | None => Err GenericException
      end) = Ok (map (sat1 c) (rows_of m))).
  { intros ->. cbn [bind]. rewrite col_type_assigned, T by auto. cbn [bind].
    rewrite assigned_rows, mapM_map.
    rewrite (mapM_ext_in (fun a => row_value (sc_col c) (coded_row m a)) (row_value (sc_col c))) by (intros; apply row_value_coded; auto).
    rewrite (column_values m _ t W T). cbn [bind]. rewrite cmp_of_str_text.
    rewrite mapM_map. apply mapM_Ok. intros r Hr. eapply cmp_sat; eauto.
    intros X. eapply id_types_col; eauto. }
  destruct (in_dec string_dec (sc_col c) ["user"; "item"]) as [Raw|NRaw].
  2: { apply G. unfold redirect. destruct (String.eqb (sc_col c) "user") eqn:E1.
       - apply String.eqb_eq in E1. exfalso. apply NRaw. rewrite E1. simpl; auto.
       - destruct (String.eqb (sc_col c) "item") eqn:E2; [|reflexivity].
         apply String.eqb_eq in E2. exfalso. apply NRaw. rewrite E2. simpl; auto. }
  destruct (HR Raw) as [Ti|[To Ho]].
  { apply G. rewrite T in Ti. injection Ti as ->. unfold redirect. cbn [dtype_eqb negb].
    rewrite !andb_false_r. reflexivity. }
  rewrite T in To. injection To as ->.
  assert (LT : exists s, sc_lit c = LText s).
  { inversion L as [z X|z X X1|n a b X X1|s X X1 X2]; subst.
    - exfalso. simpl in X, Raw. destruct Raw as [R|[R|[]]]; rewrite <- R in X; intuition discriminate.
    - congruence.
    - congruence.
    - eauto. }
  destruct LT as [s Es].
  assert (U : sc_col c = "user" \/ sc_col c = "item") by (simpl in Raw; intuition).
  destruct U as [U|U].
  - rewrite U, Es in *. cbn [lit_value].
    unfold redirect. cbn [String.eqb Ascii.eqb Bool.eqb andb m_ids assigned negb dtype_eqb].
    rewrite (user_to_uid_assigned m DObj) by (auto; discriminate). cbn [bind].
    assert (T1 : col_type (assigned m) "uid" = Ok DInt).
    { unfold col_type. rewrite assigned_types. cbn [String.eqb].
      rewrite (assoc_set_other _ reflects_string) by discriminate.
      rewrite (assoc_set_same _ reflects_string). reflexivity. }
    rewrite T1. cbn [bind]. rewrite assigned_rows, mapM_map.
    assert (X : forall r, In r (rows_of m) -> exists v, cell r "user" = Some (VStr v) /\ In (VStr v) (distinct_col "user" (rows_of m))).
    { intros r Hr. destruct (wf_cell m r "user" DObj W Hr (col_type_assoc m "user" DObj ltac:(discriminate) T)) as [u [E1 E2]].
      destruct u; try discriminate. exists s0. split; auto. apply distinct_col_In. eauto. }
    rewrite (mapM_Ok _ (fun r => VInt (code_of (distinct_col "user" (rows_of m)) (row_val_or "user" r)))).
    2: { intros r Hr. destruct (X r Hr) as [v [E _]]. 
         rewrite (row_val_or_cell r "user" _ ltac:(discriminate) E). apply row_value_val, row_val_cell; [discriminate|].
         apply (coded_row_uid m r _ E). }
    cbn [bind]. rewrite cmp_of_str_text, mapM_map. apply mapM_Ok. intros r Hr.
    destruct (X r Hr) as [v [E I]]. rewrite (row_val_or_cell r "user" _ ltac:(discriminate) E).
    rewrite code_cmp by auto. f_equal. unfold sat1. rewrite U, Es, (row_val_cell r "user" _ ltac:(discriminate) E). reflexivity.
  - rewrite U, Es in *. cbn [lit_value].
    unfold redirect. cbn [String.eqb Ascii.eqb Bool.eqb andb m_ids assigned negb dtype_eqb].
    rewrite (item_to_iid_assigned m DObj) by (auto; discriminate). cbn [bind].
    assert (T1 : col_type (assigned m) "iid" = Ok DInt).
    { unfold col_type. rewrite assigned_types. 
      rewrite (assoc_set_same _ reflects_string). reflexivity. }
    rewrite T1. cbn [bind]. rewrite assigned_rows, mapM_map.
    assert (X : forall r, In r (rows_of m) -> exists v, cell r "item" = Some (VStr v) /\ In (VStr v) (distinct_col "item" (rows_of m))).
    { intros r Hr. destruct (wf_cell m r "item" DObj W Hr (col_type_assoc m "item" DObj ltac:(discriminate) T)) as [u [E1 E2]].
      destruct u; try discriminate. exists s0. split; auto. apply distinct_col_In. eauto. }
    rewrite (mapM_Ok _ (fun r => VInt (code_of (distinct_col "item" (rows_of m)) (row_val_or "item" r)))).
    2: { intros r Hr. destruct (X r Hr) as [v [E _]]. 
         rewrite (row_val_or_cell r "item" _ ltac:(discriminate) E). apply row_value_val, row_val_cell; [discriminate|].
         apply (coded_row_iid m r _ E). }
    cbn [bind]. rewrite cmp_of_str_text, mapM_map. apply mapM_Ok. intros r Hr.
    destruct (X r Hr) as [v [E I]]. rewrite (row_val_or_cell r "item" _ ltac:(discriminate) E).
    rewrite code_cmp by auto. f_equal. unfold sat1. rewrite U, Es, (row_val_cell r "item" _ ltac:(discriminate) E). reflexivity.
Qed.

Lemma segments_mask_assigned_conds m cs : wf_mem m -> m_ids m = false ->
  ~ In "uid" (m_columns m) -> ~ In "iid" (m_columns m) -> id_types m ->
  Forall (cond_ok m) cs -> Forall (raw_ok m) cs -> forall acc,
  segments_mask (assigned m) (map acc (rows_of m)) (map (fun d => String " " (cond_text d)) cs)
  = Ok (map (fun r => acc r && sat cs r)%bool (rows_of m)).
Proof.
  intros W Hid Hu Hi I. induction cs as [|c cs IH]; intros F D acc; cbn [map segments_mask].
  - f_equal. apply map_ext. intros r. simpl. rewrite andb_true_r. reflexivity.
  - inversion F; inversion D; subst. rewrite segment_mask_space, segment_mask_assigned_cond by auto.
    cbn [bind]. rewrite mask_and_map, IH by auto. f_equal. apply map_ext. intros r.
    unfold sat. simpl. rewrite andb_assoc. reflexivity.
Qed.

Lemma select_assigned_conds m cs tu ti : wf_mem m -> m_ids m = false ->
  ~ In "uid" (m_columns m) -> ~ In "iid" (m_columns m) -> id_types m ->
  col_type m "user" = Ok tu -> col_type m "item" = Ok ti ->
  cs <> [] -> Forall (cond_ok m) cs -> Forall (raw_ok m) cs ->
  exists m1 ma m2, select m (query_text cs) = Ok m1 /\ assign_internal_ids m = Ok ma /\
    select ma (query_text cs) = Ok m2 /\
    rows_of m1 = filter (sat cs) (rows_of m) /\ Forall2 same_raw (rows_of m1) (rows_of m2).
Proof.
  intros W Hid Hu Hi I Tu Ti N F D.
  assert (Dm : Forall (direct m) cs).
  { apply Forall_forall. intros c _ X. congruence. }
  destruct (select_exact m cs W I N F Dm) as [S1 _].
  eexists. exists (assigned m).
  exists (set_rows (mem_copy (assigned m)) (mask_filter (map (sat cs) (rows_of m)) (rows_of (assigned m)))).
  split; [exact S1|]. split; [eapply assign_ok; eauto|].
  split.
  - rewrite select_mask, query_mask_copy. unfold query_mask.
    destruct cs as [|c cs]; [contradiction|]. rewrite (split_query m) by auto.
    inversion F; inversion D; subst. rewrite segment_mask_assigned_cond by auto. cbn [bind].
    rewrite segments_mask_assigned_conds by auto. cbn [bind]. reflexivity.
  - cbn [rows_of set_rows set_df m_df f_rows]. split; [reflexivity|].
    change (f_rows (m_df (assigned m))) with (rows_of (assigned m)).
    rewrite assigned_rows, mask_filter_map_f.
    rewrite mask_filter_map. apply coded_same_raw.
Qed.


Lemma sat_user u r : (exists z, cell r "user" = Some (VInt z)) -> sat [mkCond "user" Eq (LInt u)] r = user_is u r.
Proof.
  intros [z E]. unfold sat, sat1, user_is. cbn [forallb sc_col sc_op sc_lit lit_num].
  rewrite (row_val_cell r "user" _ ltac:(discriminate) E), E.
  rewrite andb_true_r.
  rewrite Qc_of_Z_compare, Z.eqb_compare. destruct (z ?= u); reflexivity.
Qed.

Lemma select_user_exact m u : wf_mem m -> id_types m -> In "user" (m_columns m) ->
  col_type m "user" = Ok DInt -> small_col m "user" -> Z.abs u <= 2 ^ 53 ->
  select m ("user == " ++ str_of_Z u) = Ok (set_rows (mem_copy m) (filter (user_is u) (rows_of m))).
Proof.
  intros W I Hin T S Hu.
  assert (A : assoc String.eqb "user" (f_types (m_df m)) = Some DInt).
  { apply col_type_assoc; auto. discriminate. }
  destruct (select_exact m [mkCond "user" Eq (LInt u)]) as [H _]; auto.
  - discriminate.
  - constructor; auto. split; auto. cbn [sc_col sc_lit]. split; [split; [discriminate|]|].
    + simpl. unfold plain_char. repeat split; discriminate.
    + split; auto. exists DInt. split; auto. apply lo_int; auto.
      * simpl. intuition discriminate.
      * discriminate.
  - constructor; auto. intros _ _. exact A.
  - change (query_text [mkCond "user" Eq (LInt u)]) with ("user == " ++ str_of_Z u) in H.
    rewrite H. f_equal. f_equal. apply filter_ext_in. intros r Hr. apply sat_user.
    destruct (wf_cell m r "user" DInt W Hr A) as [v [E1 E2]]. destruct v; try discriminate. eauto.
Qed.
