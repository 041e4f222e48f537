(** Proofs about internal ids. *)
From Coq Require Import String Ascii.
From Coq Require Import List ZArith QArith Qcanon Bool Lia Permutation.
From Verif Require Import Py PyFacts MemModel MemSpec MemFacts MemFacts2.
Import ListNotations.
Open Scope string_scope.
Open Scope Z_scope.

(** ** cells after column updates *)
Lemma cell_set_same c v r : cell (set_cell c v r) c = Some v.
Proof. unfold cell, set_cell. simpl. apply assoc_set_same, reflects_string. Qed.
Lemma cell_set_other c d v r : d <> c -> cell (set_cell c v r) d = cell r d.
Proof. intros. unfold cell, set_cell. simpl. apply assoc_set_other; auto using reflects_string. Qed.

Lemma code_row_rid cats a b r : r_rid (code_row cats a b r) = r_rid r.
Proof. unfold code_row. destruct (cell r a); reflexivity. Qed.

Lemma cell_code_other cats raw int r c : c <> int -> cell (code_row cats raw int r) c = cell r c.
Proof. intros N. unfold code_row. destruct (cell r raw); auto. apply cell_set_other; auto. Qed.

Lemma cell_code_same cats raw int r v : cell r raw = Some v ->
  cell (code_row cats raw int r) int = Some (VInt (code_of cats v)).
Proof. intros H. unfold code_row. rewrite H. apply cell_set_same. Qed.

Lemma distinct_col_ext c rs f : (forall r, In r rs -> cell (f r) c = cell r c) ->
  distinct_col c (map f rs) = distinct_col c rs.
Proof.
  intros H. unfold distinct_col. f_equal. induction rs as [|r rs IH]; simpl; auto.
  rewrite H by (simpl; auto). rewrite IH; auto. intros x Hx. apply H. simpl; auto.
Qed.

Lemma distinct_column c rs : distinct_col c rs = dedup value_eqb (column c rs).
Proof. reflexivity. Qed.

Lemma distinct_col_In c rs v : In v (distinct_col c rs) <-> exists r, In r rs /\ cell r c = Some v.
Proof.
  unfold distinct_col. rewrite (dedup_In _ reflects_value), in_flat_map. split.
  - intros [r [H1 H2]]. exists r. split; auto. destruct (cell r c); simpl in H2; intuition congruence.
  - intros [r [H1 H2]]. exists r. rewrite H2. simpl; auto.
Qed.

Lemma distinct_col_NoDup c rs : NoDup (distinct_col c rs).
Proof. apply dedup_NoDup, reflects_value. Qed.

(** ** mappings *)
Lemma Zseq_length n : length (Zseq n) = n.
Proof. unfold Zseq. rewrite map_length, seq_length. reflexivity. Qed.

Lemma Zseq_In n z : In z (Zseq n) <-> 0 <= z < Z.of_nat n.
Proof.
  unfold Zseq. rewrite in_map_iff. split.
  - intros [k [<- H]]. apply in_seq in H. lia.
  - intros H. exists (Z.to_nat z). split; [lia|]. apply in_seq. lia.
Qed.

Lemma assoc_mapping cats k v :
  assoc value_eqb v (combine cats (map Z.of_nat (seq k (length cats)))) =
  option_map (fun n => Z.of_nat (k + n)) (index_of value_eqb v cats).
Proof.
  revert k; induction cats as [|c cats IH]; intros k; simpl; auto.
  destruct (value_eqb v c); simpl.
  - f_equal. lia.
  - rewrite IH. destruct (index_of value_eqb v cats); simpl; auto. f_equal. lia.
Qed.

Lemma assoc_mapping_inv (cats : list value) k z : 0 <= z ->
  assoc Z.eqb (Z.of_nat k + z) (combine (map Z.of_nat (seq k (length cats))) cats) =
  nth_error cats (Z.to_nat z).
Proof.
  revert k z; induction cats as [|c cats IH]; intros k z Hz; simpl.
  - destruct (Z.to_nat z); reflexivity.
  - destruct (Z.of_nat k + z =? Z.of_nat k) eqn:E.
    + apply Z.eqb_eq in E. assert (z = 0) by lia. subst. reflexivity.
    + apply Z.eqb_neq in E. assert (z > 0) by lia.
      replace (Z.of_nat k + z) with (Z.of_nat (S k) + (z - 1)) by lia.
      rewrite IH by lia. replace (Z.to_nat z) with (S (Z.to_nat (z - 1))) by lia. reflexivity.
Qed.

Lemma mapping_lookup cats v : assoc value_eqb v (mapping_of cats) =
  option_map Z.of_nat (index_of value_eqb v cats).
Proof. unfold mapping_of, Zseq. rewrite assoc_mapping. reflexivity. Qed.

Lemma mapping_inv_lookup cats z : assoc Z.eqb z (mapping_inv_of cats) =
  if 0 <=? z then nth_error cats (Z.to_nat z) else None.
Proof.
  unfold mapping_inv_of, Zseq. destruct (0 <=? z) eqn:E.
  - apply Z.leb_le in E. apply (assoc_mapping_inv cats 0 z E).
  - apply Z.leb_gt in E. apply (assoc_None _ reflects_Z). intros H.
    apply in_map_iff in H. destruct H as [[a b] [H1 H2]]. simpl in H1. subst a.
    apply in_combine_l in H2. apply in_map_iff in H2. destruct H2 as [n [H2 _]]. lia.
Qed.

Lemma assoc_val_value v l : (forall k w, In (k, w) l -> type_of k = type_of v) ->
  @assoc value Z val_eqb v l = assoc value_eqb v l.
Proof.
  induction l as [|[k w] l IH]; simpl; auto. intros H.
  assert (E : val_eqb v k = value_eqb v k).
  { specialize (H k w (or_introl eq_refl)). destruct v, k; simpl in H; try discriminate; reflexivity. }
  rewrite E, IH; [reflexivity|]. intros k' w' Hin. eapply H; eauto.
Qed.

Lemma mapping_types cats t : (forall v, In v cats -> type_of v = t) ->
  forall k w, In (k, w) (mapping_of cats) -> type_of k = t.
Proof. intros H k w Hin. apply in_combine_l in Hin. auto. Qed.

(** ** Position in dedup *)
Lemma dedup_acc_app {A} (eqb : A -> A -> bool) l1 l2 : forall seen,
  dedup_acc eqb seen (l1 ++ l2) = (dedup_acc eqb seen l1 ++ dedup_acc eqb (rev (dedup_acc eqb seen l1) ++ seen) l2)%list.
Proof.
  induction l1 as [|x l1 IH]; intros seen; simpl; auto.
  destruct (mem_b eqb x seen); auto. simpl. rewrite IH. f_equal. f_equal. f_equal.
  rewrite <- app_assoc. reflexivity.
Qed.

Lemma index_of_app {A} (eqb : A -> A -> bool) : reflects eqb -> forall x l1 l2,
  ~ In x l1 -> index_of eqb x (l1 ++ x :: l2) = Some (length l1).
Proof.
  intros R x l1 l2; induction l1 as [|y l1 IH]; simpl; intros H.
  - rewrite (reflects_refl _ R). reflexivity.
  - assert (E : eqb x y = false).
    { apply (reflects_false _ R). intros ->. apply H; auto. }
    rewrite E, IH by tauto. reflexivity.
Qed.

Lemma index_of_dedup_first {A} (eqb : A -> A -> bool) : reflects eqb -> forall x l1 l2,
  ~ In x l1 -> index_of eqb x (dedup eqb (l1 ++ x :: l2)) = Some (length (dedup eqb l1)).
Proof.
  intros R x l1 l2 H. unfold dedup. rewrite dedup_acc_app. simpl.
  assert (E : mem_b eqb x (rev (dedup_acc eqb [] l1) ++ []) = false).
  { apply (mem_b_false _ R). rewrite app_nil_r, <- in_rev. intros I.
    apply (dedup_acc_In _ R) in I. tauto. }
  rewrite E. apply index_of_app; auto. intros I. apply (dedup_acc_In _ R) in I. tauto.
Qed.

Lemma dedup_length_nodup l : length (dedup value_eqb l) = length (nodup value_eq_dec l).
Proof.
  apply Permutation_length. apply NoDup_Permutation.
  - apply dedup_NoDup, reflects_value.
  - apply NoDup_nodup.
  - intros x. rewrite (dedup_In _ reflects_value), nodup_In. tauto.
Qed.

(** ** assign_internal_ids *)
Definition assigned (m : mem) : mem :=
  let users := distinct_col "user" (rows_of m) in
  let items := distinct_col "item" (rows_of m) in
  mkMem (add_column (set_columns m (add_column m "uid")) "iid")
        (assign_frame "item" "iid" (assign_frame "user" "uid" (m_df m))) true
        (mapping_of users) (mapping_inv_of users) (mapping_of items) (mapping_inv_of items)
        (m_cache m) (m_tcache m).

Lemma assign_ok m tu ti : col_type m "user" = Ok tu -> col_type m "item" = Ok ti ->
  assign_internal_ids m = Ok (assigned m).
Proof. intros H1 H2. unfold assign_internal_ids. rewrite H1, H2. reflexivity. Qed.

Definition coded_row (m : mem) (r : row) : row :=
  code_row (distinct_col "item" (rows_of m)) "item" "iid"
    (code_row (distinct_col "user" (rows_of m)) "user" "uid" r).

Lemma assigned_rows m : rows_of (assigned m) = map (coded_row m) (rows_of m).
Proof.
  unfold rows_of at 1. simpl. rewrite map_map. apply map_ext. intros r. unfold coded_row.
  rewrite distinct_col_ext; [reflexivity|]. intros x _. apply cell_code_other. discriminate.
Qed.

Lemma coded_row_other m r c : c <> "uid" -> c <> "iid" -> cell (coded_row m r) c = cell r c.
Proof. intros. unfold coded_row. rewrite !cell_code_other; auto. Qed.
Lemma coded_row_uid m r u : cell r "user" = Some u ->
  cell (coded_row m r) "uid" = Some (VInt (code_of (distinct_col "user" (rows_of m)) u)).
Proof.
  intros H. unfold coded_row. rewrite cell_code_other by discriminate. apply cell_code_same; auto.
Qed.
Lemma coded_row_iid m r i : cell r "item" = Some i ->
  cell (coded_row m r) "iid" = Some (VInt (code_of (distinct_col "item" (rows_of m)) i)).
Proof.
  intros H. unfold coded_row. apply cell_code_same. rewrite cell_code_other by discriminate. auto.
Qed.
Lemma coded_row_rid m r : r_rid (coded_row m r) = r_rid r.
Proof. unfold coded_row. rewrite !code_row_rid. reflexivity. Qed.

Lemma code_of_index cats v n : index_of value_eqb v cats = Some n -> code_of cats v = Z.of_nat n.
Proof. unfold code_of. intros ->. reflexivity. Qed.

(** Lookup of raw ids of the column type. *)
Lemma to_internal_lookup t cats v : t <> DFloat -> type_of v = t ->
  (forall w, In w cats -> type_of w = t) ->
  to_internal true (Ok t) (mapping_of cats) v = Ok (option_map Z.of_nat (index_of value_eqb v cats)).
Proof.
  intros Nt Tv Tc. unfold to_internal. simpl.
  destruct t; try congruence.
  - destruct v; try discriminate. rewrite assoc_val_value, mapping_lookup; auto.
    intros k w Hin. rewrite (mapping_types cats DInt Tc k w Hin). auto.
  - destruct v; try discriminate. simpl str_of_value. rewrite assoc_val_value, mapping_lookup; auto.
    intros k w Hin. rewrite (mapping_types cats DObj Tc k w Hin). auto.
Qed.

Lemma col_type_assigned m c : c <> "uid" -> c <> "iid" -> col_type (assigned m) c = col_type m c.
Proof.
  intros H1 H2. unfold col_type. destruct (String.eqb c "rid"); auto. simpl.
  rewrite !assoc_set_other; auto using reflects_string.
Qed.

(** the column [raw] of the frame, all of one type *)
Lemma distinct_types m c t : wf_mem m -> assoc String.eqb c (f_types (m_df m)) = Some t ->
  forall v, In v (distinct_col c (rows_of m)) -> type_of v = t.
Proof.
  intros W H v Hin. apply distinct_col_In in Hin. destruct Hin as [r [H1 H2]].
  destruct (wf_cell m r c t W H1 H) as [w [E T]]. congruence.
Qed.

Lemma user_to_uid_assigned m t v : wf_mem m -> col_type m "user" = Ok t -> t <> DFloat -> type_of v = t ->
  user_to_uid (assigned m) v = Ok (option_map Z.of_nat (index_of value_eqb v (distinct_col "user" (rows_of m)))).
Proof.
  intros W T N Tv. unfold user_to_uid. rewrite col_type_assigned by discriminate. rewrite T.
  apply (to_internal_lookup t); auto. apply distinct_types; auto.
  unfold col_type in T. simpl in T. destruct (assoc String.eqb "user" (f_types (m_df m))); congruence.
Qed.
Lemma item_to_iid_assigned m t v : wf_mem m -> col_type m "item" = Ok t -> t <> DFloat -> type_of v = t ->
  item_to_iid (assigned m) v = Ok (option_map Z.of_nat (index_of value_eqb v (distinct_col "item" (rows_of m)))).
Proof.
  intros W T N Tv. unfold item_to_iid. rewrite col_type_assigned by discriminate. rewrite T.
  apply (to_internal_lookup t); auto. apply distinct_types; auto.
  unfold col_type in T. simpl in T. destruct (assoc String.eqb "item" (f_types (m_df m))); congruence.
Qed.

Lemma uid_to_user_assigned m k : uid_to_user (assigned m) k =
  Ok (if 0 <=? k then nth_error (distinct_col "user" (rows_of m)) (Z.to_nat k) else None).
Proof. unfold uid_to_user. simpl. rewrite mapping_inv_lookup. reflexivity. Qed.
Lemma iid_to_item_assigned m k : iid_to_item (assigned m) k =
  Ok (if 0 <=? k then nth_error (distinct_col "item" (rows_of m)) (Z.to_nat k) else None).
Proof. unfold iid_to_item. simpl. rewrite mapping_inv_lookup. reflexivity. Qed.

(** ** remove after assign *)
Lemma filter_id {A} (f : A -> bool) l : (forall x, In x l -> f x = true) -> filter f l = l.
Proof.
  induction l as [|x l IH]; simpl; auto. intros H. rewrite H by auto. rewrite IH; auto.
Qed.

Lemma assoc_set_fresh_keys {B} (l : list (string * B)) c v : ~ In c (map fst l) ->
  assoc_set String.eqb c v l = (l ++ [(c, v)])%list.
Proof. apply assoc_set_keys_new, reflects_string. Qed.

Lemma cell_In r c v : cell r c = Some v -> In c (map fst (r_cells r)).
Proof.
  intros H. unfold cell in H. apply (assoc_In _ reflects_string) in H.
  apply in_map_iff. exists (c, v). auto.
Qed.

Lemma keys_not_id l (p : string * value) : ~ In "uid" (map fst l) -> ~ In "iid" (map fst l) -> In p l ->
  negb (mem_b String.eqb (fst p) ["uid"; "iid"]) = true.
Proof.
  intros H1 H2 Hp. rewrite negb_true_iff, (mem_b_false _ reflects_string).
  intros [E|[E|[]]]; [apply H1|apply H2]; apply in_map_iff; exists p; auto.
Qed.

Lemma drop_set_cell P c v l : (forall w, P (c, w) = false) -> ~ In c (map fst l) ->
  filter P (assoc_set String.eqb c v l) = @filter (string * value) P l.
Proof.
  intros HP N. rewrite assoc_set_fresh_keys by auto. rewrite filter_app. simpl. rewrite HP. apply app_nil_r.
Qed.

Lemma set_cell_keys c v r d : In d (map fst (r_cells (set_cell c v r))) -> d = c \/ In d (map fst (r_cells r)).
Proof.
  unfold set_cell. simpl. induction (r_cells r) as [|[k w] l IH]; simpl.
  - intros [H|[]]; auto.
  - destruct (String.eqb c k) eqn:E; simpl.
    + intros [H|H]; auto.
    + intros [H|H]; auto. destruct (IH H); auto.
Qed.

Lemma drop_coded_row m r : ~ In "uid" (map fst (r_cells r)) -> ~ In "iid" (map fst (r_cells r)) ->
  drop_cells ["uid"; "iid"] (coded_row m r) = r.
Proof.
  intros Hu Hi. unfold drop_cells. rewrite coded_row_rid.
  set (P := fun p : string * value => negb (mem_b String.eqb (fst p) ["uid"; "iid"])).
  assert (B : filter P (r_cells r) = r_cells r).
  { apply filter_id. intros p Hp. eapply keys_not_id; eauto. }
  assert (Pu : forall w : value, P ("uid", w) = false) by reflexivity.
  assert (Pi : forall w : value, P ("iid", w) = false) by reflexivity.
  clearbody P.
  assert (G : filter P (r_cells (coded_row m r)) = r_cells r).
  2: { rewrite G. destruct r; reflexivity. }
  unfold coded_row.
  set (r1 := code_row _ "user" "uid" r).
  assert (K1 : filter P (r_cells r1) = r_cells r /\ ~ In "iid" (map fst (r_cells r1))).
  { unfold r1, code_row. destruct (cell r "user"); [|split; auto]. split.
    - unfold set_cell. cbn [r_cells]. rewrite drop_set_cell; [exact B|exact Pu|exact Hu].
    - intros X. apply set_cell_keys in X. destruct X as [X|X]; [discriminate|auto]. }
  destruct K1 as [K1 K2]. unfold code_row. destruct (cell r1 "item"); auto.
  unfold set_cell. cbn [r_cells]. rewrite drop_set_cell; [exact K1|exact Pi|exact K2].
Qed.
