(** Final lemmas for the properties of the in-memory data set (C11 to C15). *)
From Coq Require Import String Ascii.
From Coq Require Import List ZArith QArith Qcanon Bool Lia Permutation Sorted.
From Verif Require Import Py PyFacts MemModel MemSpec MemFacts MemFacts2 MemFacts3 MemFacts4 MemFacts5.
Import ListNotations.
Open Scope string_scope.
Open Scope Z_scope.

(** ** Data sets with gap-free internal ids *)
Record contig (m : mem) (n p : nat) : Prop := {
  cg_ids : m_ids m = true;
  cg_n : (0 < n)%nat;
  cg_p : (0 < p)%nat;
  cg_ucol : In "uid" (m_columns m);
  cg_icol : In "iid" (m_columns m);
  cg_ut : exists t, col_type m "uid" = Ok t;
  cg_it : exists t, col_type m "iid" = Ok t;
  cg_row : forall r, In r (rows_of m) -> exists u i,
     cell r "uid" = Some (VInt u) /\ 0 <= u < Z.of_nat n /\
     cell r "iid" = Some (VInt i) /\ 0 <= i < Z.of_nat p /\
     (exists v, cell r "interaction" = Some v /\ num_of v <> None);
  cg_uall : forall u, 0 <= u < Z.of_nat n -> exists r, In r (rows_of m) /\ cell r "uid" = Some (VInt u);
  cg_iall : forall i, 0 <= i < Z.of_nat p -> exists r, In r (rows_of m) /\ cell r "iid" = Some (VInt i);
  cg_uinv : forall u, 0 <= u < Z.of_nat n -> exists v, uid_to_user m u = Ok (Some v);
  cg_iinv : forall i, 0 <= i < Z.of_nat p -> exists v, iid_to_item m i = Ok (Some v) }.

Lemma count_unique_one m c : In c (m_columns m) -> c <> "rid" -> (exists t, col_type m c = Ok t) ->
  count_unique m (Some [c]) = Ok (length (dedup key_eqb (map (row_key [c]) (rows_of m)))).
Proof.
  intros H N [t T]. unfold count_unique, unique, unique_inplace, handle_columns.
  cbn [forallb]. unfold col_in. apply (mem_b_In _ reflects_string) in H.
  change (m_columns (mem_copy m)) with (m_columns m). rewrite H. cbn [andb bind].
  assert (E : mem_b String.eqb "rid" [c] = false).
  { apply (mem_b_false _ reflects_string). simpl. intuition. }
  rewrite E. cbn [app]. apply String.eqb_neq in N.
  unfold df_columns. cbn [filter]. rewrite N. cbn [negb].
  change (String.eqb "rid" "rid") with true. cbn [negb mapM].
  change (col_type (mem_copy m) c) with (col_type m c). rewrite T. cbn [bind]. f_equal.
  unfold mem_len, rows_of. cbn. rewrite map_length.
  rewrite <- drop_duplicates_keys, map_length. reflexivity.
Qed.

Lemma keys_count (c : string) (rs : list row) (n : nat) :
  (forall r, In r rs -> exists u, cell r c = Some (VInt u) /\ 0 <= u < Z.of_nat n) ->
  (forall u, 0 <= u < Z.of_nat n -> exists r, In r rs /\ cell r c = Some (VInt u)) ->
  length (dedup key_eqb (map (row_key [c]) rs)) = n.
Proof.
  intros H1 H2. rewrite <- (Zseq_length n), <- (map_length (fun z => [Some (VInt z)]) (Zseq n)).
  apply Permutation_length, NoDup_Permutation.
  - apply dedup_NoDup, reflects_key.
  - apply FinFun.Injective_map_NoDup; [intros a b E; congruence|].
    unfold Zseq. apply FinFun.Injective_map_NoDup; [intros a b E; lia|apply seq_NoDup].
  - intros k. rewrite (dedup_In _ reflects_key), !in_map_iff. split.
    + intros [r [<- Hr]]. destruct (H1 r Hr) as [u [E B]]. exists u. unfold row_key. simpl. rewrite E.
      split; auto. apply Zseq_In; auto.
    + intros [u [<- Hu]]. apply Zseq_In in Hu. destruct (H2 u Hu) as [r [Hr E]].
      exists r. split; auto. unfold row_key. simpl. rewrite E. reflexivity.
Qed.

Lemma contig_count_u m n p : contig m n p -> count_unique m (Some ["uid"]) = Ok n.
Proof.
  intros C. rewrite count_unique_one; [|apply (cg_ucol _ _ _ C)|discriminate|apply (cg_ut _ _ _ C)].
  f_equal. apply keys_count.
  - intros r Hr. destruct (cg_row _ _ _ C r Hr) as [u [i [E [B _]]]]. eauto.
  - apply (cg_uall _ _ _ C).
Qed.
Lemma contig_count_i m n p : contig m n p -> count_unique m (Some ["iid"]) = Ok p.
Proof.
  intros C. rewrite count_unique_one; [|apply (cg_icol _ _ _ C)|discriminate|apply (cg_it _ _ _ C)].
  f_equal. apply keys_count.
  - intros r Hr. destruct (cg_row _ _ _ C r Hr) as [u [i [E [B [E2 [B2 _]]]]]]. eauto.
  - apply (cg_iall _ _ _ C).
Qed.

Definition has_int (c : string) (u : Z) (r : row) : bool :=
  match int_cell r c with Some z => z =? u | None => false end.
Definition iid_or (r : row) : Z := match int_cell r "iid" with Some z => z | None => 0 end.

Lemma segment_entries_ok m n p u a : contig m n p ->
  segment_entries m "uid" "iid" u a =
  Ok (map (fun r => (a, iid_or r, interaction_of r)) (filter (has_int "uid" u) (rows_of m))).
Proof.
  intros C. unfold segment_entries. apply mapM_Ok. intros r Hr. apply filter_In in Hr. destruct Hr as [Hr _].
  destruct (cg_row _ _ _ C r Hr) as [u' [i [E [B [E2 [B2 [v [E3 E4]]]]]]]].
  unfold int_cell, num_cell, iid_or, interaction_of, int_cell. rewrite E2, E3.
  destruct v; simpl in *; [reflexivity|reflexivity|congruence].
Qed.

Definition at_entries (es : list (Z * Z * Qc)) (i j : Z) : Qc :=
  fold_right (fun e s => if (fst (fst e) =? i) && (snd (fst e) =? j) then (snd e + s)%Qc else s) 0%Qc es.

Lemma at_app es1 es2 i j : at_entries (es1 ++ es2) i j = (at_entries es1 i j + at_entries es2 i j)%Qc.
Proof.
  unfold at_entries. induction es1 as [|e es1 IH]; simpl; [ring|].
  destruct (_ && _); rewrite IH; [ring|reflexivity].
Qed.

Lemma at_zero es i j : (forall e, In e es -> fst (fst e) <> i) -> at_entries es i j = 0%Qc.
Proof.
  unfold at_entries. induction es as [|e es IH]; simpl; auto. intros H.
  assert (N : (fst (fst e) =? i) = false) by (apply Z.eqb_neq, H; auto). rewrite N. simpl. auto.
Qed.

Lemma at_concat (seg : Z -> list (Z * Z * Qc)) us u j : NoDup us ->
  (forall v e, In e (seg v) -> fst (fst e) = v) ->
  at_entries (concat (map seg us)) u j = if in_dec Z.eq_dec u us then at_entries (seg u) u j else 0%Qc.
Proof.
  intros N H. induction us as [|v us IH]; simpl; auto. inversion N; subst.
  rewrite at_app, IH by auto. destruct (Z.eq_dec v u) as [->|D].
  - destruct (in_dec Z.eq_dec u us); [contradiction|]. ring.
  - rewrite at_zero. 2: { intros e He. rewrite (H v e He). auto. }
    destruct (in_dec Z.eq_dec u us); ring.
Qed.

Lemma at_seg (rs : list row) u j : 
  (forall r, In r rs -> exists a b, cell r "uid" = Some (VInt a) /\ cell r "iid" = Some (VInt b)) ->
  at_entries (map (fun r => (u, iid_or r, interaction_of r)) (filter (has_int "uid" u) rs)) u j = pair_sum u j rs.
Proof.
  unfold pair_sum. induction rs as [|r rs IH]; simpl; auto. intros H.
  destruct (H r (or_introl eq_refl)) as [a [b [E1 E2]]].
  assert (IH' := IH (fun r Hr => H r (or_intror Hr))). 
  unfold has_int at 1, has_pair at 1, int_cell at 1. rewrite E1, E2.
  destruct (a =? u) eqn:Ea; simpl.
  - unfold at_entries in *. simpl. rewrite Z.eqb_refl. unfold iid_or at 1, int_cell at 1. rewrite E2. simpl.
    destruct (b =? j); simpl; rewrite IH'; reflexivity.
  - exact IH'.
Qed.

Lemma Zseq_NoDup n : NoDup (Zseq n).
Proof. unfold Zseq. apply FinFun.Injective_map_NoDup; [intros a b E; lia|apply seq_NoDup]. Qed.

Lemma contig_pair m n p : contig m n p ->
  forall r, In r (rows_of m) -> exists a b, cell r "uid" = Some (VInt a) /\ cell r "iid" = Some (VInt b).
Proof.
  intros C r Hr. destruct (cg_row _ _ _ C r Hr) as [u [i [E [B [E2 [B2 _]]]]]]. eauto.
Qed.

Lemma build_matrix_ok m n p : contig m n p ->
  exists mx, build_matrix m = Ok (mx, mx_transpose mx) /\ mx_rows mx = n /\ mx_cols mx = p /\
    forall u i, 0 <= u < Z.of_nat n -> mx_at mx u i = pair_sum u i (rows_of m).
Proof.
  intros C. unfold build_matrix. rewrite (cg_ids _ _ _ C). cbn [negb].
  rewrite (contig_count_u m n p C). cbn [bind].
  set (seg := fun u => map (fun r => (u, iid_or r, interaction_of r)) (filter (has_int "uid" u) (rows_of m))).
  rewrite (mapM_Ok _ seg). 2: { intros u _. apply (segment_entries_ok m n p); auto. }
  cbn [bind]. rewrite (contig_count_i m n p C). cbn [bind].
  unfold csr.
  assert (B : forallb (fun e => (fst (fst e) <? Z.of_nat n) && (snd (fst e) <? Z.of_nat p)) (concat (map seg (Zseq n))) = true).
  { apply forallb_forall. intros e He. apply in_concat in He. destruct He as [es [H1 H2]].
    apply in_map_iff in H1. destruct H1 as [u [<- Hu]]. apply Zseq_In in Hu.
    unfold seg in H2. apply in_map_iff in H2. destruct H2 as [r [<- Hr]]. apply filter_In in Hr.
    destruct Hr as [Hr _]. destruct (cg_row _ _ _ C r Hr) as [u' [i [E [_ [E2 [B2 _]]]]]].
    simpl. unfold iid_or, int_cell. rewrite E2. apply andb_true_iff. split; apply Z.ltb_lt; lia. }
  rewrite B.
  assert (Ln : Nat.ltb 0 n = true) by (apply Nat.ltb_lt, (cg_n _ _ _ C)).
  assert (Lp : Nat.ltb 0 p = true) by (apply Nat.ltb_lt, (cg_p _ _ _ C)).
  rewrite Ln, Lp. cbn [andb bind]. eexists. split; [reflexivity|]. split; [reflexivity|]. split; [reflexivity|].
  intros u i Hu. change (at_entries (concat (map seg (Zseq n))) u i = pair_sum u i (rows_of m)).
  rewrite at_concat.
  - destruct (in_dec Z.eq_dec u (Zseq n)) as [_|X]; [|exfalso; apply X, Zseq_In; auto].
    apply at_seg. apply (contig_pair m n p C).
  - apply Zseq_NoDup.
  - intros v e He. unfold seg in He. apply in_map_iff in He. destruct He as [r [<- _]]. reflexivity.
Qed.

Lemma mx_at_transpose mx i j : mx_at (mx_transpose mx) j i = mx_at mx i j.
Proof.
  unfold mx_at, mx_transpose. simpl. induction (mx_entries mx) as [|e es IH]; simpl; auto.
  rewrite andb_comm. destruct (_ && _); rewrite IH; reflexivity.
Qed.


Lemma nth_error_Zseq n z : 0 <= z < Z.of_nat n -> nth_error (Zseq n) (Z.to_nat z) = Some z.
Proof.
  intros H. unfold Zseq. rewrite nth_error_map.
  assert (E : nth_error (seq 0 n) (Z.to_nat z) = Some (Z.to_nat z)).
  { rewrite (nth_error_nth' _ 0%nat) by (rewrite seq_length; lia). rewrite seq_nth by lia. reflexivity. }
  rewrite E. simpl. f_equal. lia.
Qed.

Lemma mx_row_user m n p mx u : 
  (mx_rows mx = n /\ mx_cols mx = p /\ forall u i, 0 <= u < Z.of_nat n -> mx_at mx u i = pair_sum u i (rows_of m)) ->
  0 <= u < Z.of_nat n -> exists vec, mx_row mx u = Ok vec /\ user_vec_spec (rows_of m) p u vec.
Proof.
  intros [A [B D]] Hu. unfold mx_row. rewrite A, B.
  assert (E : (0 <=? u) && (u <? Z.of_nat n) = true).
  { apply andb_true_iff; split; [apply Z.leb_le|apply Z.ltb_lt]; lia. }
  rewrite E. eexists. split; [reflexivity|]. split; [rewrite map_length; apply Zseq_length|].
  intros i Hi. rewrite nth_error_map, nth_error_Zseq by auto. simpl. f_equal. apply D; auto.
Qed.
Lemma mx_row_item m n p mx i : 
  (mx_rows mx = n /\ mx_cols mx = p /\ forall u i, 0 <= u < Z.of_nat n -> mx_at mx u i = pair_sum u i (rows_of m)) ->
  0 <= i < Z.of_nat p -> exists vec, mx_row (mx_transpose mx) i = Ok vec /\ item_vec_spec (rows_of m) n i vec.
Proof.
  intros [A [B D]] Hu. unfold mx_row. simpl mx_rows. simpl mx_cols. rewrite A, B.
  assert (E : (0 <=? i) && (i <? Z.of_nat p) = true).
  { apply andb_true_iff; split; [apply Z.leb_le|apply Z.ltb_lt]; lia. }
  rewrite E. eexists. split; [reflexivity|]. split; [rewrite map_length; apply Zseq_length|].
  intros u Hi. rewrite nth_error_map, nth_error_Zseq by auto. simpl. f_equal.
  rewrite mx_at_transpose. apply D; auto.
Qed.

Lemma user_vec_fresh m n p u : contig m n p -> m_cache m = None -> 0 <= u < Z.of_nat n ->
  exists vec m', user_vec m u = (Ok vec, m') /\ user_vec_spec (rows_of m) p u vec.
Proof.
  intros C Hc Hu. unfold user_vec. rewrite (cg_ids _ _ _ C). cbn [negb].
  destruct (cg_uinv _ _ _ C u Hu) as [v E]. rewrite E, Hc.
  destruct (build_matrix_ok m n p C) as [mx [Eb S]]. rewrite Eb.
  destruct (mx_row_user m n p mx u S Hu) as [vec [Ev Sv]]. rewrite Ev. eauto.
Qed.
Lemma item_vec_fresh m n p i : contig m n p -> m_cache m = None -> 0 <= i < Z.of_nat p ->
  exists vec m', item_vec m i = (Ok vec, m') /\ item_vec_spec (rows_of m) n i vec.
Proof.
  intros C Hc Hu. unfold item_vec. rewrite (cg_ids _ _ _ C). cbn [negb].
  destruct (cg_iinv _ _ _ C i Hu) as [v E]. rewrite E, Hc.
  destruct (build_matrix_ok m n p C) as [mx [Eb S]]. rewrite Eb.
  destruct (mx_row_item m n p mx i S Hu) as [vec [Ev Sv]]. rewrite Ev. eauto.
Qed.


Lemma n_distinct_length c m : n_distinct c m = length (distinct_col c (rows_of m)).
Proof. unfold n_distinct. rewrite <- dedup_length_nodup. reflexivity. Qed.

Lemma distinct_pos c m r v : In r (rows_of m) -> cell r c = Some v -> (0 < n_distinct c m)%nat.
Proof.
  intros H1 H2. rewrite n_distinct_length.
  assert (In v (distinct_col c (rows_of m))) by (apply distinct_col_In; eauto).
  destruct (distinct_col c (rows_of m)); [contradiction|simpl; lia].
Qed.

Lemma code_range cats v : In v cats -> 0 <= code_of cats v < Z.of_nat (length cats).
Proof.
  intros H. destruct (index_of_In _ reflects_value _ _ H) as [n E].
  rewrite (code_of_index _ _ _ E). apply (index_of_Some _ reflects_value) in E. lia.
Qed.

Lemma code_onto cats k : NoDup cats -> 0 <= k < Z.of_nat (length cats) -> exists v, In v cats /\ code_of cats v = k.
Proof.
  intros N H. destruct (nth_error cats (Z.to_nat k)) as [v|] eqn:E.
  - exists v. split; [eapply nth_error_In; eauto|].
    rewrite (code_of_index _ _ (Z.to_nat k)); [lia|]. apply (index_of_nth _ reflects_value); auto.
  - apply nth_error_None in E. lia.
Qed.

Lemma assigned_has_cols m : In "uid" (m_columns (assigned m)) /\ In "iid" (m_columns (assigned m)).
Proof.
  split.
  - unfold assigned, add_column. cbn.
    repeat match goal with |- context [if ?b then _ else _] => destruct b eqn:? end;
    repeat rewrite in_app_iff; cbn; auto.
    + apply (mem_b_In _ reflects_string) in Heqb0. exact Heqb0.
    + left. apply (mem_b_In _ reflects_string) in Heqb0. exact Heqb0.
  - unfold assigned. cbn [m_columns]. unfold add_column at 1.
    destruct (mem_b String.eqb "iid" _) eqn:E.
    + apply (mem_b_In _ reflects_string) in E. exact E.
    + apply in_app_iff. simpl. auto.
Qed.

Lemma assigned_contig m tu ti tx : wf_mem m -> col_type m "user" = Ok tu -> col_type m "item" = Ok ti ->
  col_type m "interaction" = Ok tx -> tx <> DObj -> rows_of m <> [] ->
  contig (assigned m) (n_distinct "user" m) (n_distinct "item" m).
Proof.
  intros W Tu Ti Tx Nx NE.
  assert (Au := col_type_assoc m "user" tu ltac:(discriminate) Tu).
  assert (Ai := col_type_assoc m "item" ti ltac:(discriminate) Ti).
  assert (Ax := col_type_assoc m "interaction" tx ltac:(discriminate) Tx).
  assert (Hr : exists r0, In r0 (rows_of m)) by (destruct (rows_of m) as [|r0 rs]; [contradiction|exists r0; simpl; auto]).
  destruct Hr as [r0 Hr0].
  destruct (wf_cell m r0 "user" tu W Hr0 Au) as [u0 [Eu0 _]].
  destruct (wf_cell m r0 "item" ti W Hr0 Ai) as [i0 [Ei0 _]].
  constructor.
  - reflexivity.
  - eapply distinct_pos; eauto.
  - eapply distinct_pos; eauto.
  - apply assigned_has_cols.
  - apply assigned_has_cols.
  - exists DInt. unfold col_type. rewrite assigned_types. cbn [String.eqb].
    rewrite (assoc_set_other _ reflects_string) by discriminate.
    rewrite (assoc_set_same _ reflects_string). reflexivity.
  - exists DInt. unfold col_type. rewrite assigned_types. 
    rewrite (assoc_set_same _ reflects_string). reflexivity.
  - intros r' Hr'. rewrite assigned_rows in Hr'. apply in_map_iff in Hr'. destruct Hr' as [r [<- Hr]].
    destruct (wf_cell m r "user" tu W Hr Au) as [u [Eu _]].
    destruct (wf_cell m r "item" ti W Hr Ai) as [i [Ei _]].
    destruct (wf_cell m r "interaction" tx W Hr Ax) as [x [Ex Tyx]].
    exists (code_of (distinct_col "user" (rows_of m)) u), (code_of (distinct_col "item" (rows_of m)) i).
    rewrite !n_distinct_length.
    split; [apply coded_row_uid; auto|]. split; [apply code_range, distinct_col_In; eauto|].
    split; [apply coded_row_iid; auto|]. split; [apply code_range, distinct_col_In; eauto|].
    exists x. split; [rewrite coded_row_other by discriminate; auto|]. eapply type_num; eauto.
  - intros k Hk. rewrite n_distinct_length in Hk.
    destruct (code_onto _ k (distinct_col_NoDup "user" (rows_of m)) Hk) as [v [I E]].
    apply distinct_col_In in I. destruct I as [r [Hr Ev]]. exists (coded_row m r).
    split; [rewrite assigned_rows; apply in_map; auto|]. rewrite (coded_row_uid m r v Ev), E. reflexivity.
  - intros k Hk. rewrite n_distinct_length in Hk.
    destruct (code_onto _ k (distinct_col_NoDup "item" (rows_of m)) Hk) as [v [I E]].
    apply distinct_col_In in I. destruct I as [r [Hr Ev]]. exists (coded_row m r).
    split; [rewrite assigned_rows; apply in_map; auto|]. rewrite (coded_row_iid m r v Ev), E. reflexivity.
  - intros k Hk. rewrite n_distinct_length in Hk. rewrite uid_to_user_assigned.
    assert (LE : (0 <=? k) = true) by (apply Z.leb_le; lia). rewrite LE.
    destruct (nth_error (distinct_col "user" (rows_of m)) (Z.to_nat k)) as [v|] eqn:E; [eauto|].
    apply nth_error_None in E. lia.
  - intros k Hk. rewrite n_distinct_length in Hk. rewrite iid_to_item_assigned.
    assert (LE : (0 <=? k) = true) by (apply Z.leb_le; lia). rewrite LE.
    destruct (nth_error (distinct_col "item" (rows_of m)) (Z.to_nat k)) as [v|] eqn:E; [eauto|].
    apply nth_error_None in E. lia.
Qed.

Lemma vec_after_assign m tu ti tx : wf_mem m -> col_type m "user" = Ok tu -> col_type m "item" = Ok ti ->
  col_type m "interaction" = Ok tx -> tx <> DObj -> rows_of m <> [] -> m_cache m = None ->
  exists ma, assign_internal_ids m = Ok ma /\
    (forall u, 0 <= u < Z.of_nat (n_distinct "user" m) ->
       exists vec m', user_vec ma u = (Ok vec, m') /\ user_vec_spec (rows_of ma) (n_distinct "item" m) u vec) /\
    (forall i, 0 <= i < Z.of_nat (n_distinct "item" m) ->
       exists vec m', item_vec ma i = (Ok vec, m') /\ item_vec_spec (rows_of ma) (n_distinct "user" m) i vec).
Proof.
  intros W Tu Ti Tx Nx NE Hc. exists (assigned m). split; [eapply assign_ok; eauto|].
  assert (C := assigned_contig m tu ti tx W Tu Ti Tx Nx NE). split.
  - intros u Hu. eapply user_vec_fresh; eauto.
  - intros u Hu. eapply item_vec_fresh; eauto.
Qed.




Definition cache_ok (m : mem) (n p : nat) : Prop :=
  m_cache m = None \/
  exists mx, m_cache m = Some mx /\ m_tcache m = Some (mx_transpose mx) /\ mx_rows mx = n /\ mx_cols mx = p /\
    forall u i, 0 <= u < Z.of_nat n -> mx_at mx u i = pair_sum u i (rows_of m).

Lemma user_vec_cached m n p u : contig m n p -> (2 <= n)%nat -> cache_ok m n p -> 0 <= u < Z.of_nat n ->
  exists vec, fst (user_vec m u) = Ok vec /\ user_vec_spec (rows_of m) p u vec.
Proof.
  intros C N2 K Hu. destruct K as [K|[mx [K1 [K2 K3]]]].
  - destruct (user_vec_fresh m n p u C K Hu) as [vec [m' [E S]]]. exists vec. rewrite E. auto.
  - unfold user_vec. rewrite (cg_ids _ _ _ C). cbn [negb].
    destruct (cg_uinv _ _ _ C u Hu) as [v E]. rewrite E, K1.
    destruct K3 as [K3 [K4 K5]]. assert (L : Nat.leb (mx_rows mx) 1 = false) by (apply Nat.leb_gt; lia).
    rewrite L. destruct (mx_row_user m n p mx u (conj K3 (conj K4 K5)) Hu) as [vec [Ev Sv]].
    exists vec. simpl. auto.
Qed.
Lemma item_vec_cached m n p u : contig m n p -> (2 <= n)%nat -> cache_ok m n p -> 0 <= u < Z.of_nat p ->
  exists vec, fst (item_vec m u) = Ok vec /\ item_vec_spec (rows_of m) n u vec.
Proof.
  intros C N2 K Hu. destruct K as [K|[mx [K1 [K2 K3]]]].
  - destruct (item_vec_fresh m n p u C K Hu) as [vec [m' [E S]]]. exists vec. rewrite E. auto.
  - unfold item_vec. rewrite (cg_ids _ _ _ C). cbn [negb].
    destruct (cg_iinv _ _ _ C u Hu) as [v E]. rewrite E, K1.
    destruct K3 as [K3 [K4 K5]]. assert (L : Nat.leb (mx_rows mx) 1 = false) by (apply Nat.leb_gt; lia).
    rewrite L, K2. destruct (mx_row_item m n p mx u (conj K3 (conj K4 K5)) Hu) as [vec [Ev Sv]].
    exists vec. simpl. auto.
Qed.

Lemma contig_set_caches m n p c t : contig m n p -> contig (set_caches m c t) n p.
Proof. intros [A1 A2 A3 A4 A5 A6 A7 A8 A9 A10 A11 A12]. constructor; auto. Qed.

Lemma user_vec_state m n p u : contig m n p -> (2 <= n)%nat -> cache_ok m n p ->
  contig (snd (user_vec m u)) n p /\ cache_ok (snd (user_vec m u)) n p /\ rows_of (snd (user_vec m u)) = rows_of m.
Proof.
  intros C N2 K. unfold user_vec. rewrite (cg_ids _ _ _ C). cbn [negb].
  destruct (uid_to_user m u) as [[v|]|e]; simpl; auto.
  destruct (m_cache m) as [mx|] eqn:Hc.
  - destruct K as [K|[mx' [K1 [K2 [K3 K4]]]]]; [congruence|].
    assert (mx' = mx) by congruence. subst mx'.
    assert (L : Nat.leb (mx_rows mx) 1 = false) by (apply Nat.leb_gt; lia). rewrite L. simpl.
    split; auto. split; auto. right. exists mx. auto.
  - destruct (build_matrix_ok m n p C) as [mx [Eb S]]. rewrite Eb. simpl.
    split; [apply contig_set_caches; auto|]. split; [|reflexivity].
    right. exists mx. split; [reflexivity|]. split; [reflexivity|]. exact S.
Qed.
Lemma item_vec_state m n p u : contig m n p -> (2 <= n)%nat -> cache_ok m n p ->
  contig (snd (item_vec m u)) n p /\ cache_ok (snd (item_vec m u)) n p /\ rows_of (snd (item_vec m u)) = rows_of m.
Proof.
  intros C N2 K. unfold item_vec. rewrite (cg_ids _ _ _ C). cbn [negb].
  destruct (iid_to_item m u) as [[v|]|e]; simpl; auto.
  destruct (m_cache m) as [mx|] eqn:Hc.
  - destruct K as [K|[mx' [K1 [K2 [K3 K4]]]]]; [congruence|].
    assert (mx' = mx) by congruence. subst mx'.
    assert (L : Nat.leb (mx_rows mx) 1 = false) by (apply Nat.leb_gt; lia). rewrite L, K2. simpl.
    split; auto. split; auto. right. exists mx. auto.
  - destruct (build_matrix_ok m n p C) as [mx [Eb S]]. rewrite Eb. simpl.
    split; [apply contig_set_caches; auto|]. split; [|reflexivity].
    right. exists mx. split; [reflexivity|]. split; [reflexivity|]. exact S.
Qed.

(** ** apply: the rows afterwards *)
Lemma apply_row_cells c f r r' : apply_row c f r = Ok r' ->
  exists v v', cell r c = Some v /\ f v = Ok v' /\ r' = set_cell c v' r.
Proof.
  unfold apply_row. destruct (cell r c) as [v|]; [|discriminate].
  destruct (f v) as [v'|] eqn:E; cbn [bind]; [|discriminate]. intros H. injection H as <-. eauto.
Qed.

Lemma set_cell_twice c v w r : set_cell c v (set_cell c w r) = set_cell c v r.
Proof.
  unfold set_cell. simpl. f_equal. induction (r_cells r) as [|[k x] l IH]; simpl.
  - rewrite String.eqb_refl. reflexivity.
  - destruct (String.eqb c k) eqn:E; simpl; rewrite E; [reflexivity|]. rewrite IH. reflexivity.
Qed.

Lemma upcast_num t v : num_of v <> None -> num_of (upcast t v) <> None.
Proof. destruct t, v; simpl; auto; discriminate. Qed.

(** rows after a successful elementwise application; [t] is the new dtype *)
Definition applied_rows (c : string) (t : dtype) (rs : list row) : list row :=
  map (fun r => match cell r c with Some v => set_cell c (upcast t v) r | None => r end) rs.
Definition new_type (c : string) (rs : list row) : dtype :=
  common_type (map (fun r => match cell r c with Some v => type_of v | None => DObj end) rs).

Lemma apply_col_cases m c f :
  snd (apply_col m c f) = m /\ (exists e, fst (apply_col m c f) = Err e) \/
  exists rs, mapM (apply_row c f) (rows_of m) = Ok rs /\ ~ In c read_only /\ In c (m_columns m) /\
    let m' := set_df m (mkFrame (assoc_set String.eqb c (new_type c rs) (f_types (m_df m)))
                                (applied_rows c (new_type c rs) rs)) in
    ((c <> "interaction" \/ m_cache m = None) /\ apply_col m c f = (Ok tt, m') \/
     c = "interaction" /\ m_cache m <> None /\
     apply_col m c f = match build_matrix (set_caches m' None None) with
                       | Ok (mx, tmx) => (Ok tt, set_caches m' (Some mx) (Some tmx))
                       | Err _ => (Err GenericException, set_caches m' None None)
                       end).
Proof.
  unfold apply_col, validate_column.
  destruct (col_in m c) eqn:C; [|left; split; [reflexivity|eexists; reflexivity]].
  destruct (mem_b String.eqb c read_only) eqn:R; [left; split; [reflexivity|eexists; reflexivity]|].
  apply (mem_b_false _ reflects_string) in R.
  destruct (rows_of m) as [|r0 rs0] eqn:E; [left; split; [reflexivity|eexists; reflexivity]|].
  destruct (col_type m c); [|left; split; [reflexivity|eexists; reflexivity]].
  destruct (mapM (apply_row c f) (r0 :: rs0)) as [rs|] eqn:M; [|left; split; [reflexivity|eexists; reflexivity]].
  right. exists rs. split; [reflexivity|]. split; [exact R|]. split; [apply col_in_iff; auto|].
  cbv zeta. destruct (String.eqb c "interaction") eqn:I.
  - apply String.eqb_eq in I. subst c. cbn [m_cache set_df]. destruct (m_cache m) eqn:K.
    + right. split; auto. split; [discriminate|]. reflexivity.
    + left. split; auto.
  - left. split; [left; apply String.eqb_neq; auto|]. reflexivity.
Qed.

Lemma apply_col_ok m c f rs : In c (m_columns m) -> ~ In c read_only -> rows_of m <> [] ->
  (exists ty, col_type m c = Ok ty) -> mapM (apply_row c f) (rows_of m) = Ok rs ->
    let m' := set_df m (mkFrame (assoc_set String.eqb c (new_type c rs) (f_types (m_df m)))
                                (applied_rows c (new_type c rs) rs)) in
    ((c <> "interaction" \/ m_cache m = None) /\ apply_col m c f = (Ok tt, m') \/
     c = "interaction" /\ m_cache m <> None /\
     apply_col m c f = match build_matrix (set_caches m' None None) with
                       | Ok (mx, tmx) => (Ok tt, set_caches m' (Some mx) (Some tmx))
                       | Err _ => (Err GenericException, set_caches m' None None)
                       end).
Proof.
  intros Hc HR NE [ty T] M. unfold apply_col, validate_column.
  apply col_in_iff in Hc. rewrite Hc. apply (mem_b_false _ reflects_string) in HR. rewrite HR.
  destruct (rows_of m) as [|r0 rs0]; [contradiction|]. rewrite T, M.
  cbv zeta. destruct (String.eqb c "interaction") eqn:I.
  - apply String.eqb_eq in I. subst c. cbn [m_cache set_df]. destruct (m_cache m) eqn:K.
    + right. split; auto. split; [discriminate|]. reflexivity.
    + left. split; auto.
  - left. split; [left; apply String.eqb_neq; auto|]. reflexivity.
Qed.

Lemma mapM_In {A B} (f : A -> res B) l bs b : mapM f l = Ok bs -> In b bs -> exists a, In a l /\ f a = Ok b.
Proof.
  intros H. apply mapM_inv in H. induction H; simpl; [tauto|].
  intros [<-|Hb]; [eauto|]. destruct (IHForall2 Hb) as [a [H1 H2]]. eauto.
Qed.
Lemma mapM_In_fwd {A B} (f : A -> res B) l bs a : mapM f l = Ok bs -> In a l -> exists b, In b bs /\ f a = Ok b.
Proof.
  intros H. apply mapM_inv in H. induction H; simpl; [tauto|].
  intros [<-|Hb]; [eauto|]. destruct (IHForall2 Hb) as [b [H1 H2]]. eauto.
Qed.

Lemma applied_row_eq c f t r r' : apply_row c f r = Ok r' ->
  exists v v', cell r c = Some v /\ f v = Ok v' /\
   (match cell r' c with Some w => set_cell c (upcast t w) r' | None => r' end) = set_cell c (upcast t v') r.
Proof.
  intros H. destruct (apply_row_cells c f r r' H) as [v [v' [E1 [E2 ->]]]].
  exists v, v'. split; auto. split; auto. rewrite cell_set_same. apply set_cell_twice.
Qed.

Lemma contig_applied m n p f rs : contig m n p -> 
  (forall v v', f v = Ok v' -> num_of v' <> None) ->
  mapM (apply_row "interaction" f) (rows_of m) = Ok rs -> forall ty t,
  contig (set_df m (mkFrame (assoc_set String.eqb "interaction" ty (f_types (m_df m))) (applied_rows "interaction" t rs))) n p.
Proof.
  intros C Hf M ty t.
  assert (B : forall r', In r' (applied_rows "interaction" t rs) -> exists r v v', In r (rows_of m) /\
     cell r "interaction" = Some v /\ f v = Ok v' /\ r' = set_cell "interaction" (upcast t v') r).
  { intros r' Hr'. apply in_map_iff in Hr'. destruct Hr' as [r1 [E H1]].
    destruct (mapM_In _ _ _ _ M H1) as [r [Hr Ha]].
    destruct (applied_row_eq _ _ t _ _ Ha) as [v [v' [E1 [E2 E3]]]]. exists r, v, v'. repeat split; auto. congruence. }
  assert (F : forall r, In r (rows_of m) -> exists v, In (set_cell "interaction" v r) (applied_rows "interaction" t rs)).
  { intros r Hr. destruct (mapM_In_fwd _ _ _ _ M Hr) as [r1 [H1 Ha]].
    destruct (applied_row_eq _ _ t _ _ Ha) as [v [v' [E1 [E2 E3]]]]. exists (upcast t v').
    apply in_map_iff. exists r1. auto. }
  destruct C as [A1 A2 A3 A4 A5 A6 A7 A8 A9 A10 A11 A12]. constructor; auto.
  - destruct A6 as [x X]. exists x. unfold col_type in *. cbn [m_df set_df f_types].
    rewrite (assoc_set_other _ reflects_string) by discriminate. exact X.
  - destruct A7 as [x X]. exists x. unfold col_type in *. cbn [m_df set_df f_types].
    rewrite (assoc_set_other _ reflects_string) by discriminate. exact X.
  - intros r' Hr'. destruct (B r' Hr') as [r [v [v' [Hr [E1 [E2 ->]]]]]].
    destruct (A8 r Hr) as [u [i [P1 [P2 [P3 [P4 _]]]]]]. exists u, i.
    rewrite !cell_set_other by discriminate. repeat split; auto; try lia.
    exists (upcast t v'). split; [apply cell_set_same|]. apply upcast_num. eauto.
  - intros u Hu. destruct (A9 u Hu) as [r [Hr E]]. destruct (F r Hr) as [v Hv]. exists (set_cell "interaction" v r).
    split; auto. rewrite cell_set_other by discriminate. auto.
  - intros u Hu. destruct (A10 u Hu) as [r [Hr E]]. destruct (F r Hr) as [v Hv]. exists (set_cell "interaction" v r).
    split; auto. rewrite cell_set_other by discriminate. auto.
Qed.

Lemma apply_state m n p f : contig m n p -> (forall v v', f v = Ok v' -> num_of v' <> None) -> cache_ok m n p ->
  contig (snd (apply_col m "interaction" f)) n p /\ cache_ok (snd (apply_col m "interaction" f)) n p.
Proof.
  intros C Hf K. destruct (apply_col_cases m "interaction" f) as [[E _]|[rs [M [_ [_ H]]]]].
  - rewrite E. auto.
  - cbv zeta in H.
    assert (C' := contig_applied m n p f rs C Hf M (new_type "interaction" rs) (new_type "interaction" rs)).
    destruct H as [[[X|X] E]|[_ [X E]]]; [congruence| |].
    + rewrite E. simpl. split; auto. left. exact X.
    + rewrite E. destruct (build_matrix_ok _ n p (contig_set_caches _ n p None None C')) as [mx [Eb S]].
      rewrite Eb. cbn [snd]. split; [apply contig_set_caches; auto|].
      right. exists mx. split; [reflexivity|]. split; [reflexivity|]. exact S.
Qed.

Lemma vrun_inv os m n p : contig m n p -> (2 <= n)%nat -> cache_ok m n p -> Forall vop_ok os ->
  contig (vrun m os) n p /\ cache_ok (vrun m os) n p.
Proof.
  revert m; induction os as [|o os IH]; intros m C N K F; simpl; auto.
  inversion F; subst. apply IH; auto.
  - destruct o; simpl; [apply user_vec_state; auto|apply item_vec_state; auto|apply apply_state; auto].
  - destruct o; simpl; [apply user_vec_state; auto|apply item_vec_state; auto|apply apply_state; auto].
Qed.

Lemma vec_current m tu ti tx os : wf_mem m -> col_type m "user" = Ok tu -> col_type m "item" = Ok ti ->
  col_type m "interaction" = Ok tx -> tx <> DObj -> rows_of m <> [] -> m_cache m = None ->
  (2 <= n_distinct "user" m)%nat -> Forall vop_ok os ->
  exists ma, assign_internal_ids m = Ok ma /\
    (forall u, 0 <= u < Z.of_nat (n_distinct "user" m) ->
       exists vec, fst (user_vec (vrun ma os) u) = Ok vec /\
                   user_vec_spec (rows_of (vrun ma os)) (n_distinct "item" m) u vec) /\
    (forall i, 0 <= i < Z.of_nat (n_distinct "item" m) ->
       exists vec, fst (item_vec (vrun ma os) i) = Ok vec /\
                   item_vec_spec (rows_of (vrun ma os)) (n_distinct "user" m) i vec).
Proof.
  intros W Tu Ti Tx Nx NE Hc N2 F. exists (assigned m). split; [eapply assign_ok; eauto|].
  assert (C := assigned_contig m tu ti tx W Tu Ti Tx Nx NE).
  destruct (vrun_inv os _ _ _ C N2 (or_introl Hc) F) as [C' K'].
  split; intros; [apply (user_vec_cached _ _ _ _ C' N2 K')|apply (item_vec_cached _ _ _ _ C' N2 K')]; auto.
Qed.

(** ** C13 *)
Lemma apply_spec m c f t : wf_mem m -> In c (m_columns m) -> ~ In c read_only -> rows_of m <> [] ->
  (forall r v, In r (rows_of m) -> cell r c = Some v -> exists v', f v = Ok v' /\ type_of v' = t) ->
  let m' := snd (apply_col m c f) in
  m_columns m' = m_columns m /\
  Forall2 (fun r r' => r_rid r' = r_rid r /\ (forall d, d <> c -> cell r' d = cell r d) /\
             exists v v', cell r c = Some v /\ f v = Ok v' /\ cell r' c = Some v')
    (rows_of m) (rows_of m') /\
  (c <> "interaction" \/ m_cache m = None -> fst (apply_col m c f) = Ok tt).
Proof.
  intros W Hc HR NE Hf m'.
  assert (Nr : c <> "rid") by (intros ->; apply HR; simpl; auto).
  assert (MM : exists rs, mapM (apply_row c f) (rows_of m) = Ok rs).
  { destruct (mapM (apply_row c f) (rows_of m)) as [rs|e] eqn:E; [eauto|].
    apply mapM_err_in in E. destruct E as [r [Hr E]]. exfalso.
    destruct (col_type_ok m c W Hc) as [ty T].
    destruct (wf_cell m r c ty W Hr (col_type_assoc m c ty Nr T)) as [v [E1 _]].
    unfold apply_row in E. rewrite E1 in E. destruct (Hf r v Hr E1) as [v' [E2 _]]. rewrite E2 in E. discriminate. }
  destruct MM as [rs M].
  assert (TY : new_type c rs = t).
  { assert (A : forall r, In r rs -> match cell r c with Some v => type_of v | None => DObj end = t).
    { intros r1 H1. destruct (mapM_In _ _ _ _ M H1) as [r [Hr Ha]].
      destruct (apply_row_cells _ _ _ _ Ha) as [v [v' [E1 [E2 ->]]]]. rewrite cell_set_same.
      destruct (Hf r v Hr E1) as [w [W1 W2]]. congruence. }
    assert (L := mapM_length _ _ _ M). unfold new_type.
    assert (B : forall x, In x (map (fun r => match cell r c with Some v => type_of v | None => DObj end) rs) -> x = t).
    { intros x Hx. apply in_map_iff in Hx. destruct Hx as [r [<- Hr]]. auto. }
    destruct rs as [|r1 rs]; [destruct (rows_of m); [contradiction|discriminate]|].
    set (ts := map _ _) in *. assert (I : In t ts) by (rewrite <- (A r1 (or_introl eq_refl)); simpl; auto).
    clearbody ts. unfold common_type.
    assert (EX : forall d, existsb (dtype_eqb d) ts = dtype_eqb d t).
    { intros d. apply eq_true_iff_eq. rewrite existsb_exists. split.
      - intros [x [H1 H2]]. rewrite (B x H1) in H2. exact H2.
      - intros H. exists t. auto. }
    rewrite !EX. destruct t; reflexivity. }
  assert (UP : forall v, type_of v = t -> upcast t v = v).
  { intros v <-. destruct v; reflexivity. }
  assert (FF : Forall2 (fun r r' => r_rid r' = r_rid r /\ (forall d, d <> c -> cell r' d = cell r d) /\
             exists v v', cell r c = Some v /\ f v = Ok v' /\ cell r' c = Some v') (rows_of m) (applied_rows c (new_type c rs) rs)).
  { rewrite TY. apply Forall2_map_r.
    assert (G : Forall2 (fun r r1 => In r (rows_of m) /\ apply_row c f r = Ok r1) (rows_of m) rs).
    { apply mapM_inv in M. clear - M. 
      assert (X : forall l, (forall x, In x l -> In x (rows_of m)) -> forall rs, Forall2 (fun a b => apply_row c f a = Ok b) l rs ->
         Forall2 (fun r r1 => In r (rows_of m) /\ apply_row c f r = Ok r1) l rs).
      { intros l Hl rs' H. induction H; constructor; simpl in *; auto. }
      apply X; auto. }
    eapply Forall2_impl; [|exact G]. intros r r1 [Hr Ha].
    destruct (applied_row_eq c f t r r1 Ha) as [v [v' [E1 [E2 E3]]]]. rewrite E3.
    destruct (Hf r v Hr E1) as [w [W1 W2]]. assert (w = v') by congruence. subst w.
    rewrite (UP v' W2). split; [reflexivity|]. split; [intros; apply cell_set_other; auto|].
    exists v, v'. split; auto. split; auto. apply cell_set_same. }
  assert (CT : exists ty, col_type m c = Ok ty) by (apply col_type_ok; auto).
  assert (H := apply_col_ok m c f rs Hc HR NE CT M). cbv zeta in H.
  destruct H as [[X E]|[X1 [X2 E]]]; unfold m'; rewrite E.
  - simpl. split; auto.
  - destruct (build_matrix _) as [[mx tmx]|]; simpl; (split; [reflexivity|]; split; [exact FF|]).
    + intros _; reflexivity.
    + intros [Y|Y]; congruence.
Qed.
