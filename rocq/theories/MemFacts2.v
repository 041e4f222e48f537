(** Proofs about composition of queries, drop, unique and extrema. *)
From Coq Require Import String Ascii.
From Coq Require Import List ZArith QArith Qcanon Bool Lia Permutation.
From Verif Require Import Py PyFacts MemModel MemSpec MemFacts.
Import ListNotations.
Open Scope string_scope.
Open Scope Z_scope.

(** ** Masks *)
Lemma mask_filter_cons {A} b k (a : A) l :
  mask_filter (b :: k) (a :: l) = if b then a :: mask_filter k l else mask_filter k l.
Proof. unfold mask_filter. simpl. destruct b; reflexivity. Qed.
Lemma mask_filter_nil_l {A} (l : list A) : mask_filter [] l = [].
Proof. reflexivity. Qed.
Lemma mask_filter_nil_r {A} k : mask_filter k (@nil A) = [].
Proof. destruct k; reflexivity. Qed.

Lemma mapM_mask_filter {A B} (f : A -> res B) k l bs :
  mapM f l = Ok bs -> mapM f (mask_filter k l) = Ok (mask_filter k bs).
Proof.
  intros H. apply mapM_inv in H. revert k. induction H as [|a b l bs Hab F IH]; intros k.
  - rewrite !mask_filter_nil_r. reflexivity.
  - destruct k as [|x k]; [reflexivity|]. rewrite !mask_filter_cons.
    destruct x; auto. simpl. rewrite Hab. simpl. rewrite IH. reflexivity.
Qed.

Lemma mask_and_cons x y a b : mask_and (x :: a) (y :: b) = (x && y)%bool :: mask_and a b.
Proof. reflexivity. Qed.

Lemma mask_and_nil_r a : mask_and a [] = [].
Proof. destruct a; reflexivity. Qed.

Lemma mask_and_comm a b : mask_and a b = mask_and b a.
Proof.
  revert b; induction a as [|x a IH]; intros [|y b]; try reflexivity.
  rewrite !mask_and_cons, IH, andb_comm. reflexivity.
Qed.

Lemma mask_and_assoc a b c : mask_and a (mask_and b c) = mask_and (mask_and a b) c.
Proof.
  revert b c; induction a as [|x a IH]; intros [|y b] [|z c]; try reflexivity.
  rewrite !mask_and_cons, IH, andb_assoc. reflexivity.
Qed.

Lemma mask_and_length a b : length (mask_and a b) = Nat.min (length a) (length b).
Proof. unfold mask_and. rewrite map_length, combine_length. reflexivity. Qed.

Lemma mask_filter_and k a b : mask_filter k (mask_and a b) = mask_and (mask_filter k a) (mask_filter k b).
Proof.
  revert a b; induction k as [|x k IH]; intros [|y a] [|z b]; try reflexivity.
  - change (mask_and (y :: a) []) with (@nil bool).
    rewrite !mask_filter_nil_r, mask_and_nil_r. reflexivity.
  - rewrite mask_and_cons, !mask_filter_cons. destruct x; auto.
    rewrite mask_and_cons, IH. reflexivity.
Qed.

Lemma mask_filter_filter {A} k1 k2 (l : list A) : length k1 = length k2 ->
  mask_filter (mask_filter k1 k2) (mask_filter k1 l) = mask_filter (mask_and k1 k2) l.
Proof.
  revert k2 l; induction k1 as [|x k1 IH]; intros [|y k2] l H; try discriminate; [reflexivity|].
  simpl in H. destruct l as [|a l].
  - rewrite !mask_filter_nil_r. reflexivity.
  - rewrite mask_and_cons, !mask_filter_cons. destruct x; simpl andb.
    + rewrite mask_filter_cons. rewrite IH by lia. reflexivity.
    + apply IH. lia.
Qed.

Lemma mask_filter_In {A} k (l : list A) x : In x (mask_filter k l) -> In x l.
Proof.
  revert l; induction k as [|b k IH]; intros [|a l]; auto; try (simpl; tauto).
  rewrite mask_filter_cons. destruct b; simpl; intuition.
Qed.

(** ** Segments on a filtered data set *)
Lemma segment_mask_length m s mask : segment_mask m s = Ok mask -> length mask = length (rows_of m).
Proof.
  unfold segment_mask. destruct (parse_segment s) as [[[c o] v]|]; simpl; [|discriminate].
  destruct (col_in m c); simpl; [|discriminate].
  destruct (col_type m c); simpl; [|discriminate].
  destruct (parse_value c a v); simpl; [|discriminate].
  destruct (redirect m c a a0) as [[c' l]|]; simpl; [|discriminate].
  destruct (col_type m c'); simpl; [|discriminate].
  destruct (mapM (row_value c') (rows_of m)) eqn:E; simpl; [|discriminate].
  destruct (cmp_of_str o); [|discriminate].
  intros H. apply mapM_length in H. apply mapM_length in E. congruence.
Qed.

Lemma segment_mask_filter m s k mask :
  segment_mask m s = Ok mask ->
  segment_mask (set_rows m (mask_filter k (rows_of m))) s = Ok (mask_filter k mask).
Proof.
  unfold segment_mask. destruct (parse_segment s) as [[[c o] v]|]; simpl; [|discriminate].
  change (col_in (set_rows m (mask_filter k (rows_of m))) c) with (col_in m c).
  destruct (col_in m c); simpl; [|discriminate].
  change (col_type (set_rows m (mask_filter k (rows_of m))) c) with (col_type m c).
  destruct (col_type m c); simpl; [|discriminate].
  destruct (parse_value c a v); simpl; [|discriminate].
  change (redirect (set_rows m (mask_filter k (rows_of m))) c a a0) with (redirect m c a a0).
  destruct (redirect m c a a0) as [[c' l]|]; simpl; [|discriminate].
  change (col_type (set_rows m (mask_filter k (rows_of m))) c') with (col_type m c').
  destruct (col_type m c'); simpl; [|discriminate].
  change (rows_of (set_rows m (mask_filter k (rows_of m)))) with (mask_filter k (rows_of m)).
  destruct (mapM (row_value c') (rows_of m)) eqn:E; simpl; [|discriminate].
  rewrite (mapM_mask_filter _ k _ _ E). simpl.
  destruct (cmp_of_str o); [|discriminate].
  intros H. apply mapM_mask_filter. exact H.
Qed.

Lemma segments_mask_and m a segs :
  forall b r, segments_mask m b segs = Ok r -> segments_mask m (mask_and a b) segs = Ok (mask_and a r).
Proof.
  induction segs as [|s segs IH]; simpl; intros b r H.
  - injection H as <-. reflexivity.
  - destruct (segment_mask m s); simpl in *; [|discriminate].
    rewrite <- mask_and_assoc. apply IH. exact H.
Qed.

Lemma segments_mask_app m segs1 segs2 : forall acc,
  segments_mask m acc (segs1 ++ segs2)%list =
  (r <- segments_mask m acc segs1 ;; segments_mask m r segs2).
Proof.
  induction segs1 as [|s segs1 IH]; intros acc; simpl; auto.
  destruct (segment_mask m s); simpl; auto.
Qed.

Lemma segments_mask_filter m k segs : forall acc r,
  segments_mask m acc segs = Ok r ->
  segments_mask (set_rows m (mask_filter k (rows_of m))) (mask_filter k acc) segs = Ok (mask_filter k r).
Proof.
  induction segs as [|s segs IH]; simpl; intros acc r H.
  - injection H as <-. reflexivity.
  - destruct (segment_mask m s) eqn:E; simpl in *; [|discriminate].
    rewrite (segment_mask_filter m s k _ E). simpl. rewrite <- mask_filter_and. apply IH. exact H.
Qed.

Lemma segments_mask_length m segs : forall acc r, segments_mask m acc segs = Ok r ->
  length acc = length (rows_of m) -> length r = length (rows_of m).
Proof.
  induction segs as [|s segs IH]; simpl; intros acc r H L.
  - injection H as <-. exact L.
  - destruct (segment_mask m s) eqn:E; simpl in *; [|discriminate].
    apply segment_mask_length in E. eapply IH; eauto. rewrite mask_and_length. lia.
Qed.

Lemma split_on_nonnil c s : split_on c s <> [].
Proof.
  induction s as [|a s IH]; simpl; [discriminate|].
  destruct (Ascii.eqb a c); [discriminate|]. destruct (split_on c s); [contradiction|discriminate].
Qed.

Lemma split_on_concat c s t : split_on c (s ++ String c t) = (split_on c s ++ split_on c t)%list.
Proof.
  induction s as [|a s IH]; simpl.
  - rewrite Ascii.eqb_refl. reflexivity.
  - destruct (Ascii.eqb a c); simpl; [rewrite IH; reflexivity|].
    rewrite IH. assert (N := split_on_nonnil c s). destruct (split_on c s); [contradiction|reflexivity].
Qed.

Lemma query_mask_length m q k : query_mask m q = Ok k -> length k = length (rows_of m).
Proof.
  unfold query_mask. destruct (split_on "," q) as [|s segs] eqn:E.
  - intros H; injection H as <-. apply map_length.
  - destruct (segment_mask m s) eqn:F; simpl; [|discriminate]. intros H.
    eapply segments_mask_length; eauto. eapply segment_mask_length; eauto.
Qed.

Lemma query_mask_filter m q k mask : query_mask m q = Ok mask ->
  query_mask (set_rows m (mask_filter k (rows_of m))) q = Ok (mask_filter k mask).
Proof.
  unfold query_mask. assert (N := split_on_nonnil "," q).
  destruct (split_on "," q) as [|s segs]; [contradiction|].
  destruct (segment_mask m s) eqn:F; simpl; [|discriminate]. intros H.
  rewrite (segment_mask_filter m s k _ F). simpl. apply segments_mask_filter. exact H.
Qed.

Lemma query_mask_app m q1 q2 k1 k2 : query_mask m q1 = Ok k1 -> query_mask m q2 = Ok k2 ->
  query_mask m (q1 ++ "," ++ q2) = Ok (mask_and k1 k2).
Proof.
  unfold query_mask. change (q1 ++ "," ++ q2) with (q1 ++ String "," q2). rewrite split_on_concat.
  assert (N1 := split_on_nonnil "," q1). assert (N2 := split_on_nonnil "," q2).
  destruct (split_on "," q1) as [|s1 g1]; [contradiction|].
  destruct (split_on "," q2) as [|s2 g2]; [contradiction|]. simpl.
  destruct (segment_mask m s1) as [b1|] eqn:E1; simpl; [|discriminate].
  destruct (segment_mask m s2) as [b2|] eqn:E2; simpl; [|discriminate].
  intros H1 H2. rewrite segments_mask_app, H1. simpl. rewrite E2. simpl.
  apply segments_mask_and. exact H2.
Qed.

(** ** Composition of selections *)
Lemma set_df_rows m rs : set_df m (mkFrame (f_types (m_df m)) rs) = set_rows m rs.
Proof. reflexivity. Qed.

Lemma select_mask m q : select m q =
  (k <- query_mask (mem_copy m) q ;; Ok (set_rows (mem_copy m) (mask_filter k (rows_of m)))).
Proof. unfold select, apply_query. destruct (query_mask (mem_copy m) q); reflexivity. Qed.

Lemma select_compose m q1 q2 m1 m2 :
  select m q1 = Ok m1 -> select m q2 = Ok m2 ->
  exists m12, select m1 q2 = Ok m12 /\ select m (q1 ++ "," ++ q2) = Ok m12.
Proof.
  rewrite !select_mask.
  destruct (query_mask (mem_copy m) q1) as [k1|] eqn:E1; cbn [bind]; [|discriminate].
  destruct (query_mask (mem_copy m) q2) as [k2|] eqn:E2; cbn [bind]; [|discriminate].
  intros H1 _. injection H1 as <-.
  assert (L1 := query_mask_length _ _ _ E1). assert (L2 := query_mask_length _ _ _ E2).
  rewrite (query_mask_app _ _ _ _ _ E1 E2). cbn [bind].
  eexists; split; [|reflexivity].
  change (mem_copy (set_rows (mem_copy m) (mask_filter k1 (rows_of m))))
    with (set_rows (mem_copy m) (mask_filter k1 (rows_of (mem_copy m)))).
  rewrite (query_mask_filter _ _ k1 _ E2). cbn [bind].
  f_equal. unfold set_rows, set_df. simpl. f_equal. f_equal.
  change (rows_of (mem_copy m)) with (rows_of m).
  apply mask_filter_filter. congruence.
Qed.

Lemma select_commute m q1 q2 m1 m2 :
  select m q1 = Ok m1 -> select m q2 = Ok m2 ->
  exists m12, select m1 q2 = Ok m12 /\ select m2 q1 = Ok m12.
Proof.
  intros H1 H2.
  destruct (select_compose m q1 q2 m1 m2 H1 H2) as [a [A1 A2]].
  destruct (select_compose m q2 q1 m2 m1 H2 H1) as [b [B1 B2]].
  exists a. split; auto. rewrite B1. f_equal.
  rewrite select_mask in *.
  destruct (query_mask (mem_copy m) q1) as [k1|] eqn:E1; cbn [bind] in *; [|discriminate].
  destruct (query_mask (mem_copy m) q2) as [k2|] eqn:E2; cbn [bind] in *; [|discriminate].
  rewrite (query_mask_app _ _ _ _ _ E1 E2) in A2. rewrite (query_mask_app _ _ _ _ _ E2 E1) in B2.
  cbn [bind] in *. rewrite mask_and_comm in B2. congruence.
Qed.

(** ** drop *)
Lemma drop_partition ids rs :
  Permutation rs (drop_rows ids true rs ++ drop_rows ids false rs)%list.
Proof.
  unfold drop_rows. induction rs as [|r rs IH]; simpl; auto.
  destruct (mem_b Z.eqb (r_rid r) ids); simpl.
  - constructor. exact IH.
  - apply Permutation_cons_app. exact IH.
Qed.

Lemma drop_keep_In ids rs r : In r (drop_rows ids true rs) <-> In r rs /\ In (r_rid r) ids.
Proof. unfold drop_rows. rewrite filter_In, (mem_b_In _ reflects_Z). tauto. Qed.
Lemma drop_nokeep_In ids rs r : In r (drop_rows ids false rs) <-> In r rs /\ ~ In (r_rid r) ids.
Proof. unfold drop_rows. rewrite filter_In, negb_true_iff, (mem_b_false _ reflects_Z). tauto. Qed.

(** ** drop_duplicates *)
Definition same_key (cs : list string) (r r' : row) : bool :=
  forallb (fun c => opt_eqb value_eqb (cell r c) (cell r' c)) cs.

Lemma reflects_key : reflects key_eqb.
Proof. apply list_eqb_reflects, opt_eqb_reflects, reflects_value. Qed.

Lemma same_key_iff cs r r' : same_key cs r r' = true <-> row_key cs r = row_key cs r'.
Proof.
  unfold same_key, row_key. induction cs as [|c cs IH]; simpl; [tauto|].
  rewrite andb_true_iff, IH, (opt_eqb_reflects _ reflects_value _ _). split.
  - intros [-> ->]. reflexivity.
  - intros H. injection H as H1 H2. auto.
Qed.

Definition no_earlier (cs : list string) (all : list row) (p : nat * row) : bool :=
  negb (existsb (same_key cs (snd p)) (firstn (fst p) all)).

Lemma drop_duplicates_acc_positions cs all : forall rs pre seen,
  all = (pre ++ rs)%list ->
  (forall k, In k seen <-> In k (map (row_key cs) pre)) ->
  drop_duplicates_acc cs seen rs =
  map snd (filter (no_earlier cs all) (combine (seq (length pre) (length rs)) rs)).
Proof.
  induction rs as [|r rs IH]; intros pre seen Hall Hseen; simpl; auto.
  assert (F : firstn (length pre) all = pre).
  { rewrite Hall. rewrite firstn_app, firstn_all, Nat.sub_diag. simpl. apply app_nil_r. }
  assert (E : no_earlier cs all (length pre, r) = negb (mem_b key_eqb (row_key cs r) seen)).
  { unfold no_earlier. simpl fst. simpl snd. rewrite F. f_equal.
    apply eq_true_iff_eq. rewrite existsb_exists, (mem_b_In _ reflects_key), Hseen, in_map_iff.
    split.
    - intros [x [H1 H2]]. apply same_key_iff in H2. exists x; auto.
    - intros [x [H1 H2]]. exists x. split; auto. apply same_key_iff. auto. }
  rewrite E.
  assert (Hall' : all = ((pre ++ [r]) ++ rs)%list) by (rewrite <- app_assoc; exact Hall).
  assert (Ln : length (pre ++ [r])%list = S (length pre)) by (rewrite app_length; simpl; lia).
  destruct (mem_b key_eqb (row_key cs r) seen) eqn:M; simpl.
  - rewrite <- Ln. apply IH; auto.
    intros k. rewrite Hseen, map_app, in_app_iff. simpl. split; auto.
    intros [H|[H|[]]]; auto. subst k. apply Hseen. apply (mem_b_In _ reflects_key). exact M.
  - f_equal. rewrite <- Ln. apply IH; auto.
    intros k. rewrite map_app, in_app_iff. simpl. rewrite Hseen. tauto.
Qed.

Lemma drop_duplicates_positions cs rs :
  drop_duplicates cs rs = map snd (filter (no_earlier cs rs) (combine (seq 0 (length rs)) rs)).
Proof.
  unfold drop_duplicates. apply (drop_duplicates_acc_positions cs rs rs []); auto.
  simpl. tauto.
Qed.

Lemma drop_duplicates_keys cs rs :
  map (row_key cs) (drop_duplicates cs rs) = dedup key_eqb (map (row_key cs) rs).
Proof.
  unfold drop_duplicates, dedup. generalize (@nil (list (option value))).
  induction rs as [|r rs IH]; intros seen; simpl; auto.
  destruct (mem_b key_eqb (row_key cs r) seen); simpl; congruence.
Qed.

Lemma drop_duplicates_incl cs rs r : In r (drop_duplicates cs rs) -> In r rs.
Proof.
  unfold drop_duplicates. generalize (@nil (list (option value))).
  induction rs as [|x rs IH]; intros seen; simpl; auto.
  destruct (mem_b key_eqb (row_key cs x) seen); simpl; intros H.
  - right. eapply IH; eauto.
  - destruct H; [auto|right; eapply IH; eauto].
Qed.

Lemma project_cell cs r c : In c cs -> NoDup cs -> cell (project_row cs r) c = cell r c.
Proof.
  unfold project_row, cell at 1. simpl. intros Hin N.
  induction cs as [|d cs IH]; [contradiction|]. inversion N; subst. simpl.
  destruct Hin as [->|Hin].
  - destruct (cell r c) as [v|] eqn:E; simpl; [rewrite String.eqb_refl; reflexivity|].
    clear - H1. induction cs as [|e cs IH]; simpl; auto. simpl in H1.
    destruct (cell r e); simpl; [|apply IH; tauto].
    destruct (String.eqb c e) eqn:F; [apply String.eqb_eq in F; subst; tauto|]. apply IH; tauto.
  - destruct (cell r d) as [v|] eqn:E; simpl; [|apply IH; auto].
    destruct (String.eqb c d) eqn:F; [apply String.eqb_eq in F; subst; contradiction|]. apply IH; auto.
Qed.

Lemma project_key cs r : NoDup cs -> row_key cs (project_row cs r) = row_key cs r.
Proof.
  intros N. unfold row_key. apply map_ext_in. intros c Hc. apply project_cell; auto.
Qed.

(** ** Extrema *)
Lemma extremum_spec (better : value -> value -> option bool) (rank : value -> Qc) :
  (forall a b, better a b = Some true -> Qclt (rank b) (rank a)) ->
  (forall a b, better a b = Some false -> Qcle (rank a) (rank b)) ->
  forall l best x, extremum better best l = Ok x ->
    In x (best :: l) /\ forall y, In y (best :: l) -> Qcle (rank y) (rank x).
Proof.
  intros H1 H2. induction l as [|v l IH]; intros best x; simpl.
  - intros H; injection H as <-. split; auto. intros y [<-|[]]. apply Qcle_refl.
  - destruct (better v best) as [[|]|] eqn:E; [| |discriminate]; intros H.
    + destruct (IH v x H) as [I J]. split.
      * simpl in I. destruct I; auto.
      * intros y [<-|[<-|Hy]].
        -- apply H1 in E. apply Qclt_le_weak in E. eapply Qcle_trans; [exact E|]. apply J; simpl; auto.
        -- apply J; simpl; auto.
        -- apply J; simpl; auto.
    + destruct (IH best x H) as [I J]. split.
      * simpl in I. destruct I; auto.
      * intros y [<-|[<-|Hy]].
        -- apply J; simpl; auto.
        -- apply H2 in E. eapply Qcle_trans; [exact E|]. apply J; simpl; auto.
        -- apply J; simpl; auto.
Qed.
