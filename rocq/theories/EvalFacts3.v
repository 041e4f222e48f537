(** Proofs about the evaluation processes: selections, pairs, relevancies. *)
From Coq Require Import String Ascii DecimalString.
From Coq Require Import List ZArith QArith Qcanon Reals Bool Lia Permutation.
From Verif Require Import Py PyFacts MemModel MemSpec MemFacts MemFacts2 MemFacts4 MemFacts5 MemFacts7 SplitModel SplitFacts
  SampModel EvalModel EvalSpec EvalFacts EvalFacts2.
From Verif Require RankFacts SplitFacts2.
Import ListNotations.
Open Scope string_scope.
Open Scope Z_scope.

(** ** literals for item ids *)
Lemma num_Z z : this (Qc_of_Z z) = inject_Z z.
Proof. change (Qred (inject_Z z) = inject_Z z). apply Qred_identity. simpl. apply Z.gcd_1_r. Qed.

Lemma digits_zero a : forall n, digits_from n (a ++ "0") = 10 * digits_from n a.
Proof.
  induction a as [|x a IH]; intros n; cbn [append digits_from]; [|apply IH].
  change (digit "0") with (Some 0). cbv iota. lia.
Qed.

Lemma dec_num neg a p : digits_from 0 a = Zpos p -> lit_num (LDec neg a "0") = Some (Qc_of_Z (if neg then Zneg p else Zpos p)).
Proof.
  intros E. unfold lit_num. rewrite digits_zero, E. f_equal. unfold Qc_of_Z. apply Qc_is_canon.
  cbn [this Q2Qc]. rewrite !Qred_correct. destruct neg; unfold Qeq; simpl; lia.
Qed.

Lemma dec_lit z : exists l, str_of_Z z ++ ".0" = lit_text l /\ (exists n a b, l = LDec n a b /\ all_digits a = true /\ all_digits b = true /\ a ++ b <> "") /\
  lit_num l = Some (Qc_of_Z z).
Proof.
  unfold str_of_Z, NilZero.string_of_int. destruct z as [|p|p].
  - exists (LDec false "0" "0"). split; [reflexivity|]. split.
    + exists false, "0", "0". repeat split; discriminate.
    + vm_compute. f_equal. apply Qc_is_canon. reflexivity.
  - cbn [Z.to_int]. rewrite string_of_uint_zero by apply pos_uint_nonnil. destruct (pos_str p) as [D [N E]].
    exists (LDec false (NilEmpty.string_of_uint (Pos.to_uint p)) "0"). split; [reflexivity|]. split.
    + exists false, (NilEmpty.string_of_uint (Pos.to_uint p)), "0". repeat split; auto. destruct (NilEmpty.string_of_uint _); discriminate.
    + apply (dec_num false); auto.
  - cbn [Z.to_int]. rewrite string_of_uint_zero by apply pos_uint_nonnil. destruct (pos_str p) as [D [N E]].
    exists (LDec true (NilEmpty.string_of_uint (Pos.to_uint p)) "0"). split; [reflexivity|]. split.
    + exists true, (NilEmpty.string_of_uint (Pos.to_uint p)), "0". repeat split; auto. destruct (NilEmpty.string_of_uint _); discriminate.
    + apply (dec_num true); auto.
Qed.

Lemma item_lit v z : same_value v (VInt z) -> Z.abs z <= 2 ^ 53 ->
  exists l, str_of_value v = lit_text l /\ lit_ok "item" DInt l /\ lit_num l = Some (Qc_of_Z z).
Proof.
  intros S Z0. assert (N : ~ In "item" ["iid"; "uid"; "rid"]) by (simpl; intuition discriminate).
  destruct v as [x|q|s]; cbn [same_value num_of] in S; [| |contradiction].
  - assert (x = z) by (apply Qc_of_Z_inj; congruence). subst. exists (LInt z). split; [reflexivity|]. split; [|reflexivity].
    apply lo_int; auto. discriminate.
  - assert (q = Qc_of_Z z) by congruence. subst q. cbn [str_of_value]. unfold str_of_flt. rewrite num_Z. cbn [Qden Qnum inject_Z].
    destruct (dec_lit z) as (l & E & (n & a & b & -> & Da & Db & Nz) & L). rewrite E. exists (LDec n a b). split; auto. split; auto.
    apply lo_dec; auto. discriminate.
Qed.

(** ** selections *)
Definition sub (m : mem) (p : row -> bool) : mem := set_rows (mem_copy m) (filter p (rows_of m)).
Lemma sub_rows m p : rows_of (sub m p) = filter p (rows_of m).
Proof. reflexivity. Qed.

Lemma int_sub m p : int_data m -> int_data (sub m p).
Proof.
  intros [W I C U T V S]. constructor; auto.
  - destruct W as [[A1 A2 A3 A4] B D]. constructor; auto. constructor; auto.
    + intros r H. apply filter_In in H. apply A3. tauto.
    + intros r c t H. apply filter_In in H. apply A4. tauto.
  - intros c Hc r z Hr. apply (S c Hc). apply filter_In in Hr. tauto.
Qed.

Section Sel.
Variable m : mem.
Hypothesis D : int_data m.

Lemma type_assoc c : c = "user" \/ c = "item" -> assoc String.eqb c (f_types (m_df m)) = Some DInt.
Proof.
  intros [-> | ->]; apply col_type_assoc; try discriminate; apply D.
Qed.
Lemma row_item r : In r (rows_of m) -> exists z, cell r "item" = Some (VInt z) /\ Z.abs z <= 2 ^ 53.
Proof.
  intros Hr. destruct (wf_cell m r "item" DInt (in_wf m D) Hr (type_assoc "item" (or_intror eq_refl))) as [v [E T]].
  destruct v as [z| |]; try discriminate. exists z. split; auto. apply (in_small m D "item" ltac:(simpl; auto) r); auto.
Qed.
Lemma row_user r : In r (rows_of m) -> exists z, cell r "user" = Some (VInt z) /\ Z.abs z <= 2 ^ 53.
Proof.
  intros Hr. destruct (wf_cell m r "user" DInt (in_wf m D) Hr (type_assoc "user" (or_introl eq_refl))) as [v [E T]].
  destruct v as [z| |]; try discriminate. exists z. split; auto. apply (in_small m D "user" ltac:(simpl; auto) r); auto.
Qed.
Lemma row_inter r : In r (rows_of m) -> exists v, cell r "interaction" = Some v /\ num_of v = Some (interaction_of r) /\
  (forall z, v = VInt z -> Z.abs z <= 2 ^ 53).
Proof.
  intros Hr. destruct (in_value m D) as [ty [T N]].
  destruct (wf_cell m r "interaction" ty (in_wf m D) Hr (col_type_assoc m "interaction" ty ltac:(discriminate) T)) as [v [E Ty]].
  exists v. split; auto. unfold interaction_of. rewrite E. split.
  - destruct v; auto. exfalso. apply N. rewrite <- Ty. reflexivity.
  - intros z ->. apply (in_small m D "interaction" ltac:(simpl; auto) r); auto.
Qed.

Lemma select1 c : cond_ok m c -> direct m c -> select m (cond_text c) = Ok (sub m (sat1 c)).
Proof.
  intros H1 H2. destruct (select_exact m [c] (in_wf m D) (in_ids m D) ltac:(discriminate)) as [H _]; auto.
  cbn [query_text] in H. rewrite H. unfold sub. do 2 f_equal. apply filter_ext. intros r. unfold sat. cbn [forallb]. apply andb_true_r.
Qed.

Lemma user_cond u : Z.abs u <= 2 ^ 53 -> cond_ok m (mkCond "user" Eq (LInt u)) /\ direct m (mkCond "user" Eq (LInt u)).
Proof.
  intros Hu. split.
  - unfold cond_ok. cbn [sc_col sc_lit]. split; [apply (in_cols m D); simpl; auto|].
    split; [repeat split; discriminate|]. split; [apply (in_small m D); simpl; auto|]. exists DInt. split; [apply D|]. apply lo_int; auto; [simpl; intuition discriminate|discriminate].
  - intros _ _. apply type_assoc; auto.
Qed.
Lemma thr_cond o t : threshold_ok t -> cond_ok m (mkCond "interaction" o t) /\ direct m (mkCond "interaction" o t).
Proof.
  intros [ty [Ty L]]. destruct (in_value m D) as [ty' [T N]]. split.
  - unfold cond_ok. cbn [sc_col sc_lit]. split; [apply (in_cols m D); simpl; auto|].
    split; [repeat split; discriminate|]. split; [apply (in_small m D); simpl; auto|]. exists ty'. split; auto.
    assert (Hin : ~ In "interaction" ["iid"; "uid"; "rid"]) by (simpl; intuition discriminate).
    inversion L; subst; try contradiction; first [apply lo_int; auto; fail | apply lo_dec; auto; fail].
  - intros _ H. simpl in H. intuition discriminate.
Qed.

Lemma select_user_ok u : Z.abs u <= 2 ^ 53 -> select_user m (VInt u) = Ok (sub m (user_is u)).
Proof. intros Hu. unfold select_user, sub. cbn [str_of_value]. apply select_user_exact; auto; [apply D|apply D|apply (in_cols m D); simpl; auto|apply D|apply (in_small m D); simpl; auto]. Qed.
Lemma select_liked t : threshold_ok t -> select m ("interaction >= " ++ lit_text t) = Ok (sub m (liked t)).
Proof. intros T. destruct (thr_cond Ge t T) as [A B]. exact (select1 _ A B). Qed.
Lemma select_disliked t : threshold_ok t -> select m ("interaction < " ++ lit_text t) = Ok (sub m (disliked t)).
Proof. intros T. destruct (thr_cond Lt t T) as [A B]. exact (select1 _ A B). Qed.

Lemma user_sat u r : In r (rows_of m) -> sat1 (mkCond "user" Eq (LInt u)) r = user_is u r.
Proof.
  intros Hr. destruct (row_user r Hr) as [z [E _]]. unfold sat1, user_is, row_val. cbn [sc_col sc_op sc_lit].
  change (String.eqb "user" "rid") with false. cbn iota. rewrite E. cbn [lit_num op_holds].
  rewrite Qc_of_Z_compare. rewrite Z.eqb_compare. destruct (z ?= u); reflexivity.
Qed.

Lemma select_user_liked u t : Z.abs u <= 2 ^ 53 -> threshold_ok t ->
  select m ("user == " ++ str_of_Z u ++ ", interaction >= " ++ lit_text t) = Ok (sub m (fun r => user_is u r && liked t r)).
Proof.
  intros Hu T. destruct (user_cond u Hu) as [A1 B1]. destruct (thr_cond Ge t T) as [A2 B2].
  destruct (select_exact m [mkCond "user" Eq (LInt u); mkCond "interaction" Ge t] (in_wf m D) (in_ids m D) ltac:(discriminate)) as [H _]; auto.
  assert (Q : query_text [mkCond "user" Eq (LInt u); mkCond "interaction" Ge t] = "user == " ++ str_of_Z u ++ ", interaction >= " ++ lit_text t).
  { cbn [query_text]. unfold cond_text. cbn [sc_col sc_op sc_lit op_text lit_text].
    change ("user" ++ " " ++ "==" ++ " " ++ str_of_Z u) with ("user == " ++ str_of_Z u).
    rewrite append_assoc. reflexivity. }
  rewrite Q in H. rewrite H. unfold sub. do 2 f_equal. apply filter_ext_in. intros r Hr. unfold sat. cbn [forallb].
  rewrite user_sat by auto. rewrite andb_true_r. reflexivity.
Qed.

Lemma select_item v z : same_value v (VInt z) -> Z.abs z <= 2 ^ 53 ->
  select m ("item == " ++ str_of_value v) = Ok (sub m (fun r => val_eqb (item_of r) v)).
Proof.
  intros S Hz. destruct (item_lit v z S Hz) as [l [E [L N]]]. rewrite E.
  assert (A : cond_ok m (mkCond "item" Eq l)).
  { unfold cond_ok. cbn [sc_col sc_lit]. split; [apply (in_cols m D); simpl; auto|].
    split; [repeat split; discriminate|]. split; [apply (in_small m D); simpl; auto|]. exists DInt. split; [apply D|auto]. }
  assert (B : direct m (mkCond "item" Eq l)) by (intros _ _; apply type_assoc; auto).
  assert (H := select1 _ A B). unfold cond_text in H. cbn [sc_col sc_op sc_lit op_text] in H.
  change ("item" ++ " " ++ "==" ++ " " ++ lit_text l) with ("item == " ++ lit_text l) in H. rewrite H. unfold sub. do 2 f_equal.
  apply filter_ext_in. intros r Hr. destruct (row_item r Hr) as [x [Ex _]].
  unfold sat1, item_of, row_val. cbn [sc_col sc_op sc_lit]. change (String.eqb "item" "rid") with false. cbn iota. rewrite Ex, N. cbn [op_holds].
  rewrite Qc_of_Z_compare. apply eq_true_iff_eq. rewrite RankFacts.val_eqb_same. split.
  - destruct (x ?= z) eqn:C; try discriminate. apply Z.compare_eq in C. subst. auto.
  - intros S'. assert (x = z) by (eapply RankFacts.same_value_int_inj; eauto). subst. rewrite Z.compare_refl. reflexivity.
Qed.

(** ** reading pairs *)
Lemma num_upcast t v q : num_of v = Some q -> (forall z, v = VInt z -> Z.abs z <= 2 ^ 53) -> num_of (upcast t v) = Some q.
Proof. intros H S. destruct t, v; auto. cbn [upcast num_of]. rewrite f64_exact by auto. exact H. Qed.

Lemma val_item r : In r (rows_of m) -> row_val_or "item" r = item_of r.
Proof. intros Hr. unfold item_of. destruct (row_item r Hr) as [z [E _]]. unfold row_val_or, row_val. rewrite E. reflexivity. Qed.
Lemma val_inter t r : In r (rows_of m) -> num_of (upcast t (row_val_or "interaction" r)) = Some (interaction_of r).
Proof.
  intros Hr. destruct (row_inter r Hr) as [v [E [N S]]]. unfold row_val_or, row_val.
  change (String.eqb "interaction" "rid") with false. cbn iota. rewrite E. apply num_upcast; auto.
Qed.
Lemma item_same t r : In r (rows_of m) -> same_value (upcast t (item_of r)) (item_of r).
Proof.
  intros Hr. apply same_upcast. intros z. unfold item_of. destruct (row_item r Hr) as [x [E S]]. rewrite E. intros H. injection H as <-. auto.
Qed.

Lemma item_pairs_ok : exists t, item_pairs m = Ok (map (fun r => (upcast t (item_of r), interaction_of r)) (rows_of m)).
Proof.
  unfold item_pairs. destruct (values_map m ["item"; "interaction"] (in_wf m D)) as [t E].
  { intros c Hc. apply (in_cols m D). simpl in *. tauto. }
  exists t. rewrite E. cbn [bind]. rewrite mapM_map. apply mapM_Ok. intros r Hr. unfold rec_of. cbn [map].
  change (String.eqb "interaction" "rid") with false. change (String.eqb "item" "rid") with false. cbn iota.
  rewrite val_inter, val_item by auto. reflexivity.
Qed.
Lemma item_list_ok : exists t, item_list m = Ok (map (fun r => upcast t (item_of r)) (rows_of m)).
Proof.
  unfold item_list. destruct (values_map m ["item"] (in_wf m D)) as [t E].
  { intros c Hc. apply (in_cols m D). simpl in *. tauto. }
  exists t. rewrite E. cbn [bind]. rewrite mapM_map. apply mapM_Ok. intros r Hr. unfold rec_of. cbn [map].
  change (String.eqb "item" "rid") with false. cbn iota. rewrite val_item by auto. reflexivity.
Qed.
Lemma distinct_items : exists vs, distinct_values m "item" = Ok vs /\ NoDup vs /\
  (forall v, In v vs <-> In v (map item_of (rows_of m))) /\ (forall v, In v vs -> exists z, v = VInt z).
Proof.
  destruct (distinct_values_ok m "item" DInt (in_wf m D) ltac:(discriminate) (in_cols m D "item" ltac:(simpl; auto)) (in_item m D)) as [vs [E [N [I T]]]].
  exists vs. split; auto. split; auto. split.
  - intros v. rewrite I, in_map_iff. split.
    + intros [r [Hr Ev]]. exists r. split; auto. unfold item_of. rewrite Ev. reflexivity.
    + intros [r [<- Hr]]. exists r. split; auto. unfold item_of. destruct (row_item r Hr) as [z [Ez _]]. rewrite Ez. auto.
  - intros v Hv. specialize (T v Hv). destruct v; try discriminate. eauto.
Qed.

(** ** relevancies *)
Lemma find_filter {A} (p : A -> bool) l : hd_error (filter p l) = find p l.
Proof. induction l as [|x l IH]; auto. cbn [filter find]. destruct (p x); auto. Qed.

Lemma relevancy_ok v z : same_value v (VInt z) -> Z.abs z <= 2 ^ 53 ->
  relevancy m v = Ok (this (match find (fun r => val_eqb (item_of r) v) (rows_of m) with Some r => interaction_of r | None => 0%Qc end)).
Proof.
  intros S Hz. unfold relevancy. assert (Q := select_item v z S Hz). set (m' := sub m _) in Q.
  assert (W : wf_mem m') by (apply in_wf, int_sub; auto).
  destruct (values_map m' ["interaction"] W) as [t E].
  { intros c Hc. apply (in_cols m D). simpl in *. tauto. }
  rewrite (select_one_first _ _ _ _ _ Q E). cbn [bind]. rewrite <- find_filter.
  change (filter (fun r => val_eqb (item_of r) v) (rows_of m)) with (rows_of m').
  destruct (rows_of m') as [|r rs] eqn:R; cbn [map hd_error]; auto.
  unfold rec_of. cbn [map]. change (String.eqb "interaction" "rid") with false. cbn iota.
  rewrite val_inter; auto. assert (Hr : In r (rows_of m')) by (rewrite R; simpl; auto). apply filter_In in Hr. tauto.
Qed.
End Sel.

Lemma dedup_acc_incl {A} (eqb : A -> A -> bool) x l : forall seen, In x (dedup_acc eqb seen l) -> In x l.
Proof.
  induction l as [|y l IH]; intros seen; auto. cbn [dedup_acc]. destruct (mem_b eqb y seen); simpl; intros H; [eauto|].
  destruct H as [->|H]; eauto.
Qed.
Lemma dedup_acc_cover {A} (eqb : A -> A -> bool) (Hr : forall x, eqb x x = true) x l : forall seen, In x l ->
  exists y, eqb x y = true /\ (In y (dedup_acc eqb seen l) \/ In y seen).
Proof.
  induction l as [|z l IH]; intros seen H; [destruct H|]. cbn [dedup_acc]. destruct (mem_b eqb z seen) eqn:E.
  - destruct H as [->|H]; [|auto]. apply RankFacts.mem_b_exists in E. destruct E as [y [Hy E]]. eauto.
  - destruct H as [->|H].
    + exists x. split; auto. left. simpl; auto.
    + destruct (IH (z :: seen) H) as [y [E' [Y|[->|Y]]]]; exists y; split; auto; left; simpl; auto.
Qed.

Lemma relevancies_user m u items : int_data m -> Forall int_id items ->
  exists rels, relevancies (sub m (user_is u)) items = Ok rels /\ relevancies_ok u m items rels.
Proof.
  intros D F. assert (D' := int_sub m (user_is u) D). unfold relevancies.
  set (g := fun i => (i, this (relevance u m i))).
  exists (map g (dedup val_eqb items)). split.
  - apply mapM_Ok. intros i Hi. apply dedup_acc_incl in Hi. rewrite Forall_forall in F. destruct (F i Hi) as [z [S Hz]].
    rewrite (relevancy_ok _ D' i z S Hz). cbn [bind]. reflexivity.
  - split.
    + intros i q H. apply in_map_iff in H. destruct H as [j [E H]]. injection E as <- <-. split; [|reflexivity].
      eapply dedup_acc_incl; eauto.
    + intros i Hi. destruct (dedup_acc_cover val_eqb val_eqb_refl i items [] Hi) as [y [E [Y|[]]]].
      exists y, (this (relevance u m y)). split; auto. apply in_map_iff. exists y. split; auto.
Qed.

(** ** the singled out item *)
Lemma max_by_spec {T} (key : T -> Qc) l : forall b, In (max_by key b l) (b :: l) /\
  forall x, In x (b :: l) -> (key x <= key (max_by key b l))%Qc.
Proof.
  induction l as [|y l IH]; intros b; cbn [max_by].
  - split; [simpl; auto|]. intros x [->|[]]. apply Qcle_refl.
  - destruct (Qcltb (key b) (key y)) eqn:E.
    + destruct (IH y) as [A B]. split; [simpl in *; tauto|]. intros x [->|[->|H]].
      * eapply Qcle_trans; [apply Qclt_le_weak, Qcltb_true; exact E|]. apply B. simpl; auto.
      * apply B. simpl; auto.
      * apply B. simpl; auto.
    + destruct (IH b) as [A B]. split; [simpl in *; tauto|]. intros x [->|[->|H]].
      * apply B. simpl; auto.
      * eapply Qcle_trans; [apply Qcltb_false; exact E|]. apply B. simpl; auto.
      * apply B. simpl; auto.
Qed.

Lemma best_item_ok m t P : int_data m -> (forall r, In r P -> In r (rows_of m)) ->
  best_ok P (best_item (map (fun r => (upcast t (item_of r), interaction_of r)) P)).
Proof.
  intros D H. destruct P as [|r P]; cbn [map best_item best_ok]; auto.
  set (f := fun r => (upcast t (item_of r), interaction_of r)).
  change ((upcast t (item_of r), interaction_of r)) with (f r).
  destruct (max_by_spec (fun q : value * Qc => (- snd q)%Qc) (map f P) (f r)) as [A B].
  set (x := max_by _ _ _) in *. change (f r :: map f P) with (map f (r :: P)) in A, B.
  apply in_map_iff in A. destruct A as [r0 [E I]]. exists r0. split; auto. rewrite <- E. cbn [f fst]. split.
  - apply (item_same m D). auto.
  - intros r' Hr'. assert (L := B (f r') (in_map f _ _ Hr')). rewrite <- E in L. cbn [f snd] in L.
    apply Qcopp_le_compat in L. rewrite !Qcopp_involutive in L. exact L.
Qed.
