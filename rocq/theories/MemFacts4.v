(** Final lemmas for the properties of the in-memory data set (C01 to C10). *)
From Coq Require Import String Ascii.
From Coq Require Import List ZArith QArith Qcanon Bool Lia Permutation Sorted.
From Verif Require Import Py PyFacts MemModel MemSpec MemFacts MemFacts2 MemFacts3.
Import ListNotations.
Open Scope string_scope.
Open Scope Z_scope.

(** ** C01 *)
Lemma wf_copy m : wf_mem m -> wf_mem (mem_copy m).
Proof. intros [A B C]. constructor; auto. Qed.

Lemma select_exact m cs : wf_mem m -> id_types m -> cs <> [] ->
  Forall (cond_ok m) cs -> Forall (direct m) cs ->
  select m (query_text cs) = Ok (set_rows (mem_copy m) (filter (sat cs) (rows_of m))) /\
  select_inplace m (query_text cs) = Ok (set_rows m (filter (sat cs) (rows_of m))).
Proof.
  intros W I N F D. split.
  - unfold select. rewrite apply_query_conds; auto using wf_copy.
  - unfold select_inplace. rewrite apply_query_conds; auto.
Qed.

(** ** C05 *)
Lemma col_types_ok m cs : wf_mem m -> (forall c, In c cs -> In c (m_columns m)) ->
  exists ts, mapM (col_type m) cs = Ok ts.
Proof.
  intros W H. induction cs as [|c cs IH]; simpl; [eauto|].
  destruct (col_type_ok m c W) as [t T]; [apply H; simpl; auto|]. rewrite T. simpl.
  destruct IH as [ts Ts]. { intros; apply H; simpl; auto. } rewrite Ts. simpl. eauto.
Qed.

Lemma forallb_col_in m cs : (forall c, In c cs -> In c (m_columns m)) -> forallb (col_in m) cs = true.
Proof. intros H. apply forallb_forall. intros c Hc. apply col_in_iff. auto. Qed.

Lemma df_columns_id cs : ~ In "rid" cs -> df_columns cs = cs.
Proof.
  intros H. unfold df_columns. apply filter_id. intros c Hc. rewrite negb_true_iff.
  apply String.eqb_neq. intros ->. contradiction.
Qed.

Lemma unique_ok m cs : wf_mem m -> cs <> [] -> ~ In "rid" cs ->
  (forall c, In c cs -> In c (m_columns m)) ->
  unique m (Some cs) = Ok (set_columns (set_df (mem_copy m)
     (mkFrame (project_types cs (f_types (m_df m))) (map (project_row cs) (drop_duplicates cs (rows_of m)))))
     (cs ++ ["rid"])).
Proof.
  intros W N R H. unfold unique, unique_inplace, handle_columns.
  rewrite (forallb_col_in (mem_copy m)) by auto. cbn [bind].
  assert (E : mem_b String.eqb "rid" cs = false) by (apply (mem_b_false _ reflects_string); auto).
  rewrite E.
  assert (D : df_columns (cs ++ ["rid"]) = cs).
  { unfold df_columns. rewrite filter_app. simpl. rewrite app_nil_r. apply df_columns_id; auto. }
  rewrite D. destruct cs as [|c cs]; [contradiction|].
  destruct (col_types_ok (mem_copy m) (c :: cs) (wf_copy m W)) as [ts Ts]; auto.
  rewrite Ts. cbn [bind]. reflexivity.
Qed.

Definition first_positions (cs : list string) (rs : list row) : list nat :=
  map fst (filter (no_earlier cs rs) (combine (seq 0 (length rs)) rs)).

Lemma combine_seq_In {A} (l : list A) k p x :
  In (p, x) (combine (seq k (length l)) l) <-> (k <= p)%nat /\ nth_error l (p - k) = Some x.
Proof.
  revert k p; induction l as [|a l IH]; intros k p; simpl.
  - split; [tauto|]. intros [_ H]. destruct (p - k)%nat; discriminate.
  - rewrite IH. split.
    + intros [H|[H1 H2]].
      * injection H as <- <-. split; auto. rewrite Nat.sub_diag. reflexivity.
      * split; [lia|]. replace (p - k)%nat with (S (p - S k)) by lia. exact H2.
    + intros [H1 H2]. destruct (p - k)%nat eqn:E.
      * left. simpl in H2. injection H2 as ->. f_equal. lia.
      * right. split; [lia|]. replace (p - S k)%nat with n by lia. exact H2.
Qed.

Lemma filter_combine_seq_sorted {A} (f : nat * A -> bool) (l : list A) k :
  StronglySorted lt (map fst (filter f (combine (seq k (length l)) l))) /\
  forall p, In p (map fst (filter f (combine (seq k (length l)) l))) -> (k <= p)%nat.
Proof.
  revert k; induction l as [|a l IH]; intros k; simpl.
  - split; [constructor|tauto].
  - destruct (IH (S k)) as [IH1 IH2]. destruct (f (k, a)); simpl.
    + split.
      * constructor; auto. apply Forall_forall. intros p Hp. apply IH2 in Hp. lia.
      * intros p [<-|Hp]; auto. apply IH2 in Hp. lia.
    + split; auto. intros p Hp. apply IH2 in Hp. lia.
Qed.

Lemma in_firstn_nth {A} (l : list A) p x : In x (firstn p l) <-> exists q, (q < p)%nat /\ nth_error l q = Some x.
Proof.
  revert p; induction l as [|a l IH]; intros p; simpl.
  - destruct p; simpl; split; try tauto; intros [q [_ H]]; destruct q; discriminate.
  - destruct p; simpl.
    + split; [tauto|]. intros [q [H _]]. lia.
    + rewrite IH. split.
      * intros [<-|[q [H1 H2]]]; [exists 0%nat; split; [lia|reflexivity]|exists (S q); split; [lia|exact H2]].
      * intros [[|q] [H1 H2]]; [left; simpl in H2; congruence|right; exists q; split; [lia|exact H2]].
Qed.


Lemma row_key_agree cs r r' : row_key cs r = row_key cs r' <-> agree cs r r'.
Proof.
  unfold row_key, agree. induction cs as [|c cs IH]; simpl.
  - split; [intros _ ? []|reflexivity].
  - split.
    + intros H d [<-|Hd]; [congruence|]. apply IH; auto. congruence.
    + intros H. rewrite (H c) by auto. f_equal. apply IH. auto.
Qed.

Lemma first_positions_spec cs rs p : In p (first_positions cs rs) <->
  exists r, nth_error rs p = Some r /\
    forall q r', (q < p)%nat -> nth_error rs q = Some r' -> ~ agree cs r r'.
Proof.
  unfold first_positions. rewrite in_map_iff. split.
  - intros [[q r] [E H]]. simpl in E. subst q. apply filter_In in H. destruct H as [H1 H2].
    apply combine_seq_In in H1. destruct H1 as [_ H1]. rewrite Nat.sub_0_r in H1.
    exists r. split; auto. intros q r' Hq Hr' A.
    unfold no_earlier in H2. simpl in H2. rewrite negb_true_iff in H2.
    assert (existsb (same_key cs r) (firstn p rs) = true); [|congruence].
    apply existsb_exists. exists r'. split; [apply in_firstn_nth; eauto|].
    apply same_key_iff. apply row_key_agree. exact A.
  - intros [r [H1 H2]]. exists (p, r). split; auto. apply filter_In. split.
    + apply combine_seq_In. rewrite Nat.sub_0_r. split; [lia|auto].
    + unfold no_earlier. simpl. rewrite negb_true_iff.
      destruct (existsb (same_key cs r) (firstn p rs)) eqn:E; auto.
      apply existsb_exists in E. destruct E as [r' [E1 E2]].
      apply in_firstn_nth in E1. destruct E1 as [q [Q1 Q2]]. exfalso. apply (H2 q r' Q1 Q2).
      apply row_key_agree. apply same_key_iff. exact E2.
Qed.

Lemma drop_duplicates_first cs rs : 
  map (fun p => nth_error rs p) (first_positions cs rs) = map Some (drop_duplicates cs rs).
Proof.
  rewrite drop_duplicates_positions. unfold first_positions. rewrite !map_map.
  apply map_ext_in. intros [p r] H. apply filter_In in H. destruct H as [H _].
  apply combine_seq_In in H. destruct H as [_ H]. rewrite Nat.sub_0_r in H. exact H.
Qed.

Lemma Forall2_map_r {A B C} (R : A -> C -> Prop) (f : B -> C) l1 l2 :
  Forall2 (fun a b => R a (f b)) l1 l2 -> Forall2 R l1 (map f l2).
Proof. induction 1; simpl; constructor; auto. Qed.

Lemma Forall2_of_map {A B C} (f : A -> C) (g : B -> C) l1 l2 :
  map f l1 = map g l2 -> Forall2 (fun a b => f a = g b) l1 l2.
Proof.
  revert l2; induction l1; intros [|b l2]; simpl; intros H; try discriminate; constructor; try congruence.
  apply IHl1. congruence.
Qed.

Lemma Forall2_impl {A B} (R S : A -> B -> Prop) l1 l2 :
  (forall a b, R a b -> S a b) -> Forall2 R l1 l2 -> Forall2 S l1 l2.
Proof. intros H; induction 1; constructor; auto. Qed.

Lemma unique_spec m cs : wf_mem m -> cs <> [] -> NoDup cs -> ~ In "rid" cs ->
  (forall c, In c cs -> In c (m_columns m)) ->
  exists m' ps, unique m (Some cs) = Ok m' /\ m_columns m' = (cs ++ ["rid"])%list /\
    StronglySorted lt ps /\
    (forall p, In p ps <-> exists r, nth_error (rows_of m) p = Some r /\
        forall q r', (q < p)%nat -> nth_error (rows_of m) q = Some r' -> ~ agree cs r r') /\
    Forall2 (fun p r' => exists r, nth_error (rows_of m) p = Some r /\ r_rid r' = r_rid r /\ agree cs r' r)
      ps (rows_of m') /\
    count_unique m (Some cs) = Ok (length ps).
Proof.
  intros W N ND R H. eexists. exists (first_positions cs (rows_of m)).
  split; [apply unique_ok; auto|]. split; [reflexivity|].
  split; [apply filter_combine_seq_sorted|].
  split; [apply first_positions_spec|].
  split.
  - unfold set_columns, rows_of at 2. cbn. apply Forall2_map_r.
    eapply Forall2_impl; [|apply (Forall2_of_map (fun p => nth_error (rows_of m) p) Some), drop_duplicates_first].
    intros p r Hr. exists r. split; auto. split; [reflexivity|].
    intros c Hc. apply project_cell; auto.
  - unfold count_unique. rewrite unique_ok by auto. cbn [bind]. f_equal.
    unfold mem_len, rows_of at 1. cbn. rewrite map_length.
    rewrite drop_duplicates_positions. unfold first_positions. rewrite !map_length. reflexivity.
Qed.


Lemma val_ltb_num a b x : num_of a <> None -> num_of b <> None -> val_ltb a b = x ->
  x = Some (Qcltb (num a) (num b)).
Proof. destruct a, b; simpl; intros; try congruence; subst; reflexivity. Qed.

Lemma Qcltb_true x y : Qcltb x y = true -> (x < y)%Qc.
Proof. rewrite Qcltb_compare. destruct (x ?= y)%Qc eqn:E; try discriminate. intros _. apply Qclt_alt; auto. Qed.
Lemma Qcltb_false x y : Qcltb x y = false -> (y <= x)%Qc.
Proof.
  rewrite Qcltb_compare. destruct (x ?= y)%Qc eqn:E; try discriminate; intros _.
  - apply Qceq_alt in E. subst. apply Qcle_refl.
  - apply Qcgt_alt in E. apply Qclt_le_weak; auto.
Qed.

Lemma extremum_num (better : value -> value -> option bool) (rank : value -> Qc) l : 
  (forall a b, num_of a <> None -> num_of b <> None -> better a b = Some true /\ (rank b < rank a)%Qc \/
               better a b = Some false /\ (rank a <= rank b)%Qc) ->
  forall best, Forall (fun v => num_of v <> None) (best :: l) ->
  exists x, extremum better best l = Ok x /\ In x (best :: l) /\
    forall y, In y (best :: l) -> (rank y <= rank x)%Qc.
Proof.
  intros HB. induction l as [|v l IH]; intros best F.
  - simpl. exists best. split; auto. split; auto. intros y [<-|[]]. apply Qcle_refl.
  - inversion F as [|? ? F1 F2]; subst. inversion F2 as [|? ? F3 F4]; subst.
    simpl. destruct (HB v best F3 F1) as [[E L]|[E L]]; rewrite E.
    + destruct (IH v F2) as [x [E1 [E2 E3]]]. exists x. split; auto. split; [simpl in E2; destruct E2; auto|].
      intros y [<-|Hy]; [|apply E3; exact Hy].
      apply Qcle_trans with (rank v); [apply Qclt_le_weak; auto|]. apply E3; simpl; auto.
    + destruct (IH best) as [x [E1 [E2 E3]]]; [constructor; auto|].
      exists x. split; auto. split; [simpl in E2; destruct E2; auto|].
      intros y [<-|[<-|Hy]]; [apply E3; simpl; auto| |apply E3; simpl; auto].
      apply Qcle_trans with (rank best); auto. apply E3; simpl; auto.
Qed.

Lemma type_num v t : type_of v = t -> t <> DObj -> num_of v <> None.
Proof. destruct v; simpl; intros; congruence. Qed.

Lemma row_val_or_in m c t v : wf_mem m -> col_type m c = Ok t ->
  In v (map (row_val_or c) (rows_of m)) -> type_of v = t /\ exists r, In r (rows_of m) /\ row_val r c = Some v.
Proof.
  intros W T H. apply in_map_iff in H. destruct H as [r [E H]].
  destruct (wf_row_val m c t r W T H) as [w [E1 E2]]. unfold row_val_or in E. rewrite E1 in E. subst w.
  split; auto. exists r. auto.
Qed.

Lemma col_extremum_ok better rank m c t : wf_mem m -> In c (m_columns m) ->
  col_type m c = Ok t -> t <> DObj -> rows_of m <> [] ->
  (forall a b, num_of a <> None -> num_of b <> None -> better a b = Some true /\ (rank b < rank a)%Qc \/
               better a b = Some false /\ (rank a <= rank b)%Qc) ->
  exists v r, col_extremum better m c = Ok (Some v) /\ In r (rows_of m) /\ row_val r c = Some v /\
    forall r' v', In r' (rows_of m) -> row_val r' c = Some v' -> (rank v' <= rank v)%Qc.
Proof.
  intros W Hc T Nt NE HB. unfold col_extremum, validate_column.
  apply col_in_iff in Hc. rewrite Hc. cbn [bind]. rewrite T. cbn [bind].
  rewrite (column_values m c t W T). cbn [bind].
  assert (X : forall v, In v (map (row_val_or c) (rows_of m)) ->
            num_of v <> None /\ exists r, In r (rows_of m) /\ row_val r c = Some v).
  { intros v Hv. destruct (row_val_or_in m c t v W T Hv) as [Y1 Y2]. split; auto. eapply type_num; eauto. }
  assert (Y : forall r v, In r (rows_of m) -> row_val r c = Some v -> In v (map (row_val_or c) (rows_of m))).
  { intros r v Hr E. apply in_map_iff. exists r. split; auto. unfold row_val_or. rewrite E. reflexivity. }
  destruct (map (row_val_or c) (rows_of m)) as [|v vs] eqn:M.
  - destruct (rows_of m); [contradiction|discriminate].
  - destruct (extremum_num better rank vs HB v) as [x [E1 [E2 E3]]].
    { apply Forall_forall. intros y Hy. apply X; auto. }
    rewrite E1. cbn [bind]. destruct (X x E2) as [_ [r [R1 R2]]].
    exists x, r. repeat split; auto. intros r' v' Hr' E. apply E3. eapply Y; eauto.
Qed.

Lemma max_spec m c t : wf_mem m -> In c (m_columns m) -> col_type m c = Ok t -> t <> DObj -> rows_of m <> [] ->
  exists v r, mem_max m c = Ok (Some v) /\ In r (rows_of m) /\ row_val r c = Some v /\
    forall r' v', In r' (rows_of m) -> row_val r' c = Some v' -> (num v' <= num v)%Qc.
Proof.
  intros W Hc T Nt NE. apply (col_extremum_ok _ num m c t); auto.
  intros a b Ha Hb. rewrite (val_ltb_num b a _ Hb Ha eq_refl).
  destruct (Qcltb (num b) (num a)) eqn:E; [left|right]; split; auto using Qcltb_true, Qcltb_false.
Qed.

Lemma Qcopp_lt a b : (a < b)%Qc -> (- b < - a)%Qc.
Proof. intros H. apply Qclt_minus_iff in H. apply Qclt_minus_iff.
  replace (- a + - - b)%Qc with (b + - a)%Qc; auto. ring. Qed.

Lemma min_spec m c t : wf_mem m -> In c (m_columns m) -> col_type m c = Ok t -> t <> DObj -> rows_of m <> [] ->
  exists v r, mem_min m c = Ok (Some v) /\ In r (rows_of m) /\ row_val r c = Some v /\
    forall r' v', In r' (rows_of m) -> row_val r' c = Some v' -> (num v <= num v')%Qc.
Proof.
  intros W Hc T Nt NE.
  destruct (col_extremum_ok val_ltb (fun v => - num v)%Qc m c t) as [v [r [H1 [H2 [H3 H4]]]]]; auto.
  - intros a b Ha Hb. rewrite (val_ltb_num a b _ Ha Hb eq_refl).
    destruct (Qcltb (num a) (num b)) eqn:E; [left|right]; split; auto.
    + apply Qcopp_lt, Qcltb_true; auto.
    + apply Qcopp_le_compat, Qcltb_false; auto.
  - exists v, r. repeat split; auto. intros r' v' Hr' E. specialize (H4 r' v' Hr' E).
    apply Qcopp_le_compat in H4. rewrite !Qcopp_involutive in H4. exact H4.
Qed.

(** ** C07 *)
Lemma column_app c l1 l2 : column c (l1 ++ l2) = (column c l1 ++ column c l2)%list.
Proof. apply flat_map_app. Qed.

Lemma numbering_dedup (to_int : value -> res (option Z)) (to_raw : Z -> res (option value)) (known : value -> Prop) ids :
  (forall v, In v ids -> known v) ->
  (forall v, known v -> to_int v = Ok (option_map Z.of_nat (index_of value_eqb v (dedup value_eqb ids)))) ->
  (forall k, to_raw k = Ok (if 0 <=? k then nth_error (dedup value_eqb ids) (Z.to_nat k) else None)) ->
  numbering to_int to_raw known ids.
Proof.
  intros HK HI HR.
  assert (ND : NoDup (dedup value_eqb ids)) by (apply dedup_NoDup, reflects_value).
  constructor.
  - intros p v Hp Hf. rewrite HI by (apply HK; eapply nth_error_In; eauto).
    apply nth_error_split in Hp as [l1 [l2 [E L]]].
    assert (F : firstn p ids = l1).
    { rewrite E, <- L, firstn_app, firstn_all, Nat.sub_diag. simpl. apply app_nil_r. }
    rewrite F in *. rewrite E. rewrite (index_of_dedup_first _ reflects_value) by auto. simpl.
    rewrite dedup_length_nodup. reflexivity.
  - intros v k Hv. rewrite HI, HR by auto. split.
    + destruct (index_of value_eqb v (dedup value_eqb ids)) as [n|] eqn:E; simpl; [|discriminate].
      intros H. injection H as <-.
      assert (LE : (0 <=? Z.of_nat n) = true) by (apply Z.leb_le; lia). rewrite LE, Nat2Z.id.
      f_equal. apply (index_of_Some _ reflects_value) in E. apply E.
    + intros H. destruct (0 <=? k) eqn:LE; [|discriminate]. apply Z.leb_le in LE.
      injection H as H. rewrite (index_of_nth _ reflects_value _ (Z.to_nat k) _ ND H). simpl.
      rewrite Z2Nat.id by auto. reflexivity.
  - intros k. rewrite HR, <- dedup_length_nodup. split.
    + intros [H1 H2]. assert (LE : 0 <=? k = true) by (apply Z.leb_le; auto). rewrite LE.
      destruct (nth_error (dedup value_eqb ids) (Z.to_nat k)) as [v|] eqn:E.
      * exists v. split; auto. apply nth_error_In in E. rewrite (dedup_In _ reflects_value) in E. exact E.
      * apply nth_error_None in E. lia.
    + intros [v [H _]]. destruct (0 <=? k) eqn:LE; [|discriminate]. apply Z.leb_le in LE.
      injection H as H. assert (nth_error (dedup value_eqb ids) (Z.to_nat k) <> None) by congruence.
      apply nth_error_Some in H0. lia.
  - intros v Hv N. rewrite HI by auto.
    destruct (index_of value_eqb v (dedup value_eqb ids)) eqn:E; auto. exfalso. apply N.
    apply (index_of_Some _ reflects_value) in E. destruct E as [E _]. apply nth_error_In in E.
    rewrite (dedup_In _ reflects_value) in E. exact E.
  - intros k Hk. rewrite HR. rewrite <- dedup_length_nodup in Hk.
    destruct (0 <=? k) eqn:LE; auto. apply Z.leb_le in LE. f_equal. apply nth_error_None. lia.
Qed.

Lemma column_types m c t : wf_mem m -> assoc String.eqb c (f_types (m_df m)) = Some t ->
  forall v, In v (column c (rows_of m)) -> type_of v = t.
Proof.
  intros W H v Hv. apply (distinct_types m c t W H). rewrite distinct_column.
  apply (dedup_In _ reflects_value). exact Hv.
Qed.

Lemma col_type_assoc m c t : c <> "rid" -> col_type m c = Ok t -> assoc String.eqb c (f_types (m_df m)) = Some t.
Proof.
  intros N. unfold col_type. destruct (String.eqb c "rid") eqn:E; [apply String.eqb_eq in E; congruence|].
  destruct (assoc String.eqb c (f_types (m_df m))); congruence.
Qed.

Lemma Forall2_map_self {A B} (R : A -> B -> Prop) (f : A -> B) l :
  (forall a, In a l -> R a (f a)) -> Forall2 R l (map f l).
Proof. induction l; simpl; intros H; constructor; auto. Qed.

Lemma assign_spec m tu ti : wf_mem m -> col_type m "user" = Ok tu -> col_type m "item" = Ok ti ->
  tu <> DFloat -> ti <> DFloat ->
  exists m', assign_internal_ids m = Ok m' /\
    numbering (user_to_uid m') (uid_to_user m') (fun v => type_of v = tu) (column "user" (rows_of m)) /\
    numbering (item_to_iid m') (iid_to_item m') (fun v => type_of v = ti) (column "item" (rows_of m)) /\
    Forall2 (fun r r' => r_rid r' = r_rid r /\
               (forall c, c <> "uid" -> c <> "iid" -> cell r' c = cell r c) /\
               (exists u k, cell r "user" = Some u /\ user_to_uid m' u = Ok (Some k) /\ cell r' "uid" = Some (VInt k)) /\
               (exists i k, cell r "item" = Some i /\ item_to_iid m' i = Ok (Some k) /\ cell r' "iid" = Some (VInt k)))
      (rows_of m) (rows_of m').
Proof.
  intros W Tu Ti Nu Ni. exists (assigned m). split; [eapply assign_ok; eauto|].
  assert (Au := col_type_assoc m "user" tu ltac:(discriminate) Tu).
  assert (Ai := col_type_assoc m "item" ti ltac:(discriminate) Ti).
  split; [|split].
  - apply numbering_dedup.
    + apply column_types; auto.
    + intros v Hv. rewrite <- distinct_column. apply (user_to_uid_assigned m tu); auto.
    + intros k. rewrite <- distinct_column. apply uid_to_user_assigned.
  - apply numbering_dedup.
    + apply column_types; auto.
    + intros v Hv. rewrite <- distinct_column. apply (item_to_iid_assigned m ti); auto.
    + intros k. rewrite <- distinct_column. apply iid_to_item_assigned.
  - rewrite assigned_rows. apply Forall2_map_self. intros r Hr.
    split; [apply coded_row_rid|]. split; [intros; apply coded_row_other; auto|]. split.
    + destruct (wf_cell m r "user" tu W Hr Au) as [u [E Tv]].
      assert (I : In u (distinct_col "user" (rows_of m))) by (apply distinct_col_In; eauto).
      destruct (index_of_In _ reflects_value _ _ I) as [n X].
      exists u, (Z.of_nat n). split; auto. split.
      * rewrite (user_to_uid_assigned m tu); auto. rewrite X. reflexivity.
      * rewrite (coded_row_uid m r u E), (code_of_index _ _ _ X). reflexivity.
    + destruct (wf_cell m r "item" ti W Hr Ai) as [u [E Tv]].
      assert (I : In u (distinct_col "item" (rows_of m))) by (apply distinct_col_In; eauto).
      destruct (index_of_In _ reflects_value _ _ I) as [n X].
      exists u, (Z.of_nat n). split; auto. split.
      * rewrite (item_to_iid_assigned m ti); auto. rewrite X. reflexivity.
      * rewrite (coded_row_iid m r u E), (code_of_index _ _ _ X). reflexivity.
Qed.
