(** Proofs about the similarity functions: each function. *)
From Coq Require Import List ZArith QArith Qcanon Qreals Reals Bool Sorted Lia Lra Psatz.
From Verif Require Import Py PyFacts SimModel SimSpec SimFacts.
Import ListNotations.
Open Scope R_scope.

Lemma Rlt_or_zero x : 0 <= x -> x <> 0 -> 0 < x.
Proof. lra. Qed.
Lemma INR_len {A} (l : list A) : l <> [] -> 0 < INR (length l).
Proof. intros H. apply lt_0_INR. destruct l; [congruence|simpl; lia]. Qed.

Lemma Some_inj {A} (x y : A) : Some x = Some y -> x = y.
Proof. congruence. Qed.

(** ** cosine on common columns *)
Lemma dot_squares l : dot l <> 0 -> 0 < square1 l /\ 0 < square2 l.
Proof.
  intros H. pose proof (square1_nonneg l). pose proof (square2_nonneg l). split; apply Rlt_or_zero; auto; intros E; apply H.
  - apply dot_zero1; auto.
  - apply dot_zero2; auto.
Qed.
Lemma cosine_cf_merge a b v : cosine_cf a b = Some v <-> exists r, v = Num r /\ dot (merge a b) <> 0 /\ is_cosine (merge a b) r.
Proof.
  unfold cosine_cf. rewrite numerator_dot. destruct (Req_b (dot (merge a b)) 0) eqn:E.
  - apply Req_b_true in E. split; [discriminate|]. intros [r [_ [N _]]]. congruence.
  - apply Req_b_false in E. destruct (dot_squares _ E) as [P1 P2]. split.
    + intros H. injection H as <-. eexists. split; [reflexivity|]. split; auto. apply cos_of_spec; auto.
    + intros [r [-> [_ C]]]. apply (cos_of_spec _ P1 P2) in C. subst. reflexivity.
Qed.
Lemma cosine_cf_value a b v : sorted_row a -> sorted_row b ->
  (cosine_cf a b = Some v <-> exists r, v = Num r /\ dot (common a b) <> 0 /\ is_cosine (common a b) r).
Proof. intros Sa Sb. rewrite cosine_cf_merge, merge_common by auto. reflexivity. Qed.
Lemma merge_self_eq a p : In p (merge a a) -> fst p = snd p.
Proof. rewrite merge_self. intros H. apply in_map_iff in H. destruct H as [q [<- _]]. reflexivity. Qed.
Lemma square1_In_pos l : (exists p, In p l /\ fst p <> 0) -> 0 < square1 l.
Proof. intros H. apply square1_pos in H. pose proof (square1_nonneg l). lra. Qed.

Lemma cosine_cf_self a b v : cosine_cf a b = Some v -> cosine_cf a a = Some (Num 1).
Proof.
  intros H. apply cosine_cf_merge in H. destruct H as [r [_ [N [P _]]]]. apply cosine_cf_merge. exists 1. split; auto.
  assert (P' : 0 < square1 (merge a a)).
  { apply square1_In_pos. assert (X : square1 (merge a b) <> 0) by lra. apply square1_pos in X. destruct X as [p [Hp Np]].
    apply merge_In in Hp. destruct Hp as [c [Hc _]]. exists (fst p, fst p). split; auto. rewrite merge_self.
    apply in_map_iff. exists (c, fst p). auto. }
  split; [|apply cosine_self; auto; apply merge_self_eq].
  assert (E : dot (merge a a) = square1 (merge a a)).
  { apply total_map_ext. intros p Hp. rewrite (merge_self_eq a p Hp). reflexivity. }
  lra.
Qed.
Lemma cosine_cf_sym a b : cosine_cf a b = cosine_cf b a.
Proof. unfold cosine_cf. rewrite (merge_sym a b), !numerator_dot, dot_swap, cos_of_swap. reflexivity. Qed.
Lemma cosine_cf_good : good_similarity (fun _ => True) (-1) cosine_cf.
Proof.
  split.
  - intros a b r _ _ H. apply cosine_cf_merge in H. destruct H as [r' [E [_ C]]]. injection E as <-. eapply cosine_range; eauto.
  - intros; apply cosine_cf_sym.
  - intros a b r _ _ H. exists 1. split; [eapply cosine_cf_self; eauto|].
    apply cosine_cf_merge in H. destruct H as [r' [E [_ C]]]. injection E as <-. apply cosine_range in C. lra.
  - intros a b _ _ D r H. apply cosine_cf_merge in H. destruct H as [_ [_ [N _]]]. rewrite merge_disjoint in N by auto.
    apply N. reflexivity.
Qed.

(** ** Pearson *)
Lemma is_avg_iff l m : l <> [] -> (is_avg l m <-> Rsum l / INR (length l) = m).
Proof.
  intros N. rewrite Rsum_total. assert (P := INR_len l N). unfold is_avg. split.
  - intros [_ E]. rewrite <- E. field. lra.
  - intros <-. split; auto. field. lra.
Qed.
Lemma map_nil {A B} (f : A -> B) l : l <> [] -> map f l <> [].
Proof. destruct l; simpl; congruence. Qed.
Lemma centre_shifted l : l <> [] -> forall m1 m2, is_avg (map fst l) m1 -> is_avg (map snd l) m2 -> centre l = shifted l m1 m2.
Proof.
  intros N m1 m2 H1 H2. apply is_avg_iff in H1; [|apply map_nil; auto]. apply is_avg_iff in H2; [|apply map_nil; auto].
  rewrite map_length in H1, H2. unfold centre, shifted. cbv zeta. rewrite H1, H2. reflexivity.
Qed.
Lemma avg_exists l : l <> [] -> exists m, is_avg l m.
Proof. intros N. eexists. apply is_avg_iff; auto. Qed.

Lemma pearson_eq a b : pearson a b =
  if (length (merge a b) =? 0)%nat then None else
  if (Req_b (denominator_i (centre (merge a b))) 0 || Req_b (denominator_j (centre (merge a b))) 0)%bool then None
  else Some (Num (cos_of (centre (merge a b)))).
Proof. unfold pearson. destruct (merge a b); reflexivity. Qed.

Lemma pearson_merge a b v : pearson a b = Some v <-> exists r m1 m2, v = Num r /\
  is_avg (map fst (merge a b)) m1 /\ is_avg (map snd (merge a b)) m2 /\ is_cosine (shifted (merge a b) m1 m2) r.
Proof.
  rewrite pearson_eq. set (l := merge a b). clearbody l. destruct (length l =? 0)%nat eqn:Z.
  - apply Nat.eqb_eq in Z. apply length_zero_iff_nil in Z. subst l. split; [discriminate|].
    intros [r [m1 [m2 [_ [[H _] _]]]]]. exfalso. apply H. reflexivity.
  - apply Nat.eqb_neq in Z. assert (N : l <> []) by (intros ->; apply Z; reflexivity).
    destruct (avg_exists (map fst l)) as [m1 A1]; [apply map_nil; auto|].
    destruct (avg_exists (map snd l)) as [m2 A2]; [apply map_nil; auto|].
    rewrite (centre_shifted l N m1 m2 A1 A2), denominator_i_square, denominator_j_square.
    assert (U : forall m1' m2', is_avg (map fst l) m1' -> is_avg (map snd l) m2' -> m1' = m1 /\ m2' = m2).
    { intros m1' m2' B1 B2. apply is_avg_iff in A1, A2, B1, B2; try (apply map_nil; auto). subst. auto. }
    pose proof (square1_nonneg (shifted l m1 m2)) as P1. pose proof (square2_nonneg (shifted l m1 m2)) as P2.
    destruct (Req_b (square1 (shifted l m1 m2)) 0) eqn:E1; [|destruct (Req_b (square2 (shifted l m1 m2)) 0) eqn:E2]; cbn [orb].
    + apply Req_b_true in E1. split; [discriminate|]. intros [r [n1 [n2 [_ [B1 [B2 [C _]]]]]]].
      destruct (U n1 n2 B1 B2) as [-> ->]. lra.
    + apply Req_b_true in E2. split; [discriminate|]. intros [r [n1 [n2 [_ [B1 [B2 [_ [C _]]]]]]]].
      destruct (U n1 n2 B1 B2) as [-> ->]. lra.
    + apply Req_b_false in E1. apply Req_b_false in E2.
      assert (Q1 : 0 < square1 (shifted l m1 m2)) by lra. assert (Q2 : 0 < square2 (shifted l m1 m2)) by lra. split.
      * intros H. injection H as <-. exists (cos_of (shifted l m1 m2)), m1, m2. repeat (split; auto). apply cos_of_spec; auto.
      * intros [r [n1 [n2 [-> [B1 [B2 C]]]]]]. destruct (U n1 n2 B1 B2) as [-> ->]. apply (cos_of_spec _ Q1 Q2) in C. subst. reflexivity.
Qed.
Lemma pearson_value a b v : sorted_row a -> sorted_row b ->
  (pearson a b = Some v <-> exists r m1 m2, v = Num r /\ is_avg (map fst (common a b)) m1 /\
    is_avg (map snd (common a b)) m2 /\ is_cosine (shifted (common a b) m1 m2) r).
Proof. intros Sa Sb. rewrite pearson_merge, merge_common by auto. reflexivity. Qed.

Lemma shifted_swap l m1 m2 : shifted (map swap l) m2 m1 = map swap (shifted l m1 m2).
Proof. unfold shifted. rewrite !map_map. reflexivity. Qed.
Lemma pearson_sym_dir a b v : pearson a b = Some v -> pearson b a = Some v.
Proof.
  rewrite !pearson_merge. intros [r [m1 [m2 [-> [A1 [A2 C]]]]]]. exists r, m2, m1. split; auto.
  rewrite (merge_sym a b), !map_map. split; [exact A2|]. split; [exact A1|]. rewrite shifted_swap. apply is_cosine_swap. exact C.
Qed.
Lemma pearson_sym a b : pearson a b = pearson b a.
Proof.
  destruct (pearson a b) as [v|] eqn:E; [symmetry; apply pearson_sym_dir; auto|].
  destruct (pearson b a) as [w|] eqn:F; auto. apply pearson_sym_dir in F. congruence.
Qed.
Lemma not_const (l : list (R * R)) m : (exists p, In p l /\ fst p - m <> 0) -> forall k, is_avg (map fst l) m -> exists p, In p l /\ fst p - k <> 0.
Proof.
  intros [p [Hp Np]] k [_ E]. destruct (Req_EM_T (fst p - k) 0) as [Z|Z]; [|eauto].
  (* if all values were k, the mean would be k = fst p *)
  assert (X : (exists q, In q l /\ fst q - k <> 0) \/ forall q, In q l -> fst q - k = 0).
  { clear. induction l as [|q l IH]; [right; simpl; tauto|]. destruct (Req_EM_T (fst q - k) 0).
    - destruct IH as [[q' [H1 H2]]|IH]; [left; exists q'; simpl; auto|]. right. intros q' [<-|H]; auto.
    - left. exists q. simpl; auto. }
  destruct X as [X|X]; auto. exfalso. apply Np.
  assert (T : total (map fst l) = k * INR (length l)).
  { clear -X. induction l as [|q l IH]; [simpl; lra|]. cbn [map total length]. rewrite S_INR, IH by (intros; apply X; simpl; auto).
    assert (fst q - k = 0) by (apply X; simpl; auto). lra. }
  rewrite map_length, T in E. assert (0 < INR (length l)) by (apply INR_len; intros ->; contradiction).
  assert (m = k) by nra. lra.
Qed.
Lemma pearson_self a b v : pearson a b = Some v -> pearson a a = Some (Num 1).
Proof.
  intros H. apply pearson_merge in H. destruct H as [r [m1 [m2 [_ [A1 [_ [P _]]]]]]].
  assert (X : exists p, In p (merge a b) /\ fst p - m1 <> 0).
  { assert (Y : square1 (shifted (merge a b) m1 m2) <> 0) by lra. apply square1_pos in Y. destruct Y as [q [Hq Nq]].
    apply in_map_iff in Hq. destruct Hq as [p [<- Hp]]. eauto. }
  assert (Na : merge a a <> []).
  { destruct X as [p [Hp _]]. apply merge_In in Hp. destruct Hp as [c [Hc _]]. rewrite merge_self. destruct a; simpl in *; [contradiction|discriminate]. }
  destruct (avg_exists (map fst (merge a a))) as [k A]; [apply map_nil; auto|].
  apply pearson_merge. exists 1, k, k. split; auto. split; auto.
  assert (E : map snd (merge a a) = map fst (merge a a)).
  { apply map_ext_in. intros p Hp. symmetry. apply (merge_self_eq a p Hp). }
  split; [rewrite E; auto|]. apply cosine_self.
  - intros p Hp. apply in_map_iff in Hp. destruct Hp as [q [<- Hq]]. simpl. rewrite (merge_self_eq a q Hq). reflexivity.
  - apply square1_In_pos. destruct (not_const _ _ X k A1) as [p [Hp Np]]. apply merge_In in Hp. destruct Hp as [c [Hc _]].
    exists (fst p - k, fst p - k). split; auto. apply in_map_iff. exists (fst p, fst p). split; auto.
    rewrite merge_self. apply in_map_iff. exists (c, fst p). auto.
Qed.
Lemma pearson_good : good_similarity (fun _ => True) (-1) pearson.
Proof.
  split.
  - intros a b r _ _ H. apply pearson_merge in H. destruct H as [r' [m1 [m2 [E [_ [_ C]]]]]]. injection E as <-. eapply cosine_range; eauto.
  - intros; apply pearson_sym.
  - intros a b r _ _ H. exists 1. split; [eapply pearson_self; eauto|].
    apply pearson_merge in H. destruct H as [r' [m1 [m2 [E [_ [_ C]]]]]]. injection E as <-. apply cosine_range in C. lra.
  - intros a b _ _ D r. unfold pearson. rewrite merge_disjoint by auto. discriminate.
Qed.

(** ** mean squared difference *)
Lemma msd_merge d a b v : d <> 0 -> (msd_pair d a b = Some v <-> exists r, v = Num r /\ merge a b <> [] /\
  (1 - r) * (d * d * INR (length (merge a b))) = total (map (fun p : R * R => (fst p - snd p) * (fst p - snd p)) (merge a b))).
Proof.
  intros Hd. unfold msd_pair. set (l := merge a b). clearbody l.
  assert (S : total (map (fun p : R * R => ((fst p - snd p) / d) ^ 2) l) * (d * d) = total (map (fun p : R * R => (fst p - snd p) * (fst p - snd p)) l)).
  { induction l as [|p l IH]; [simpl; lra|]. cbn [map total]. rewrite <- IH. field. auto. }
  assert (Zd : Req_b d 0 = false) by (apply Req_b_false; auto).
  destruct l as [|p l]; [split; [discriminate|intros [r [_ [H _]]]; congruence]|].
  assert (P := INR_len (p :: l) ltac:(discriminate)). rewrite Zd, Rsum_total. split.
  - intros H. apply Some_inj in H. subst v.
    eexists. split; [reflexivity|]. split; [discriminate|]. rewrite <- S. clear S.
    set (t := total _). set (n := INR _) in *. field. lra.
  - intros [r [-> [_ E]]]. do 2 f_equal. rewrite <- S in E.
    set (t := total (map (fun p0 : R * R => ((fst p0 - snd p0) / d) ^ 2) (p :: l))) in *. set (n := INR (length (p :: l))) in *.
    assert (D : d * d <> 0) by nra. assert (X : (1 - r) * n = t) by nra.
    rewrite <- X. field. lra.
Qed.
Lemma msd_value d a b v : d <> 0 -> sorted_row a -> sorted_row b ->
  (msd_pair d a b = Some v <-> exists r, v = Num r /\ common a b <> [] /\
  (1 - r) * (d * d * INR (length (common a b))) = total (map (fun p : R * R => (fst p - snd p) * (fst p - snd p)) (common a b))).
Proof. intros Hd Sa Sb. rewrite msd_merge, merge_common by auto. reflexivity. Qed.
Lemma msd_eq d a b : msd_pair d a b = if (length (merge a b) =? 0)%nat then None else if Req_b d 0 then Some Nan
  else Some (Num (1 - total (map (fun p : R * R => ((fst p - snd p) / d) ^ 2) (merge a b)) / INR (length (merge a b)))).
Proof. unfold msd_pair. destruct (merge a b) as [|p l]; [reflexivity|]. rewrite Rsum_total. reflexivity. Qed.
Lemma msd_sym d a b : msd_pair d a b = msd_pair d b a.
Proof.
  rewrite !msd_eq, (merge_sym a b), map_length, map_map. destruct (length (merge a b) =? 0)%nat; auto. destruct (Req_b d 0); auto.
  do 4 f_equal. apply total_map_ext. intros q _. unfold swap. simpl. unfold Rdiv. ring.
Qed.
Lemma msd_self d a b r : d <> 0 -> msd_pair d a b = Some (Num r) -> msd_pair d a a = Some (Num 1).
Proof.
  intros Hd H. apply msd_merge in H; auto. destruct H as [r' [_ [N _]]]. apply msd_merge; auto. exists 1. split; auto. split.
  - rewrite merge_self. destruct a; [destruct b; exact N|discriminate].
  - rewrite (total_map_ext _ (fun _ => 0)).
    + replace (total (map (fun _ : R * R => 0) (merge a a))) with 0; [lra|]. clear. induction (merge a a); simpl; lra.
    + intros p Hp. rewrite (merge_self_eq a p Hp). ring.
Qed.
Definition within (lo hi : R) (a : srow) : Prop := forall p, In p a -> lo <= snd p <= hi.
Lemma msd_range lo hi a b r : lo < hi -> within lo hi a -> within lo hi b -> msd_pair (hi - lo) a b = Some (Num r) -> 0 <= r <= 1.
Proof.
  intros L Wa Wb H. apply msd_merge in H; [|lra]. destruct H as [r' [E [N H]]]. injection E as <-.
  assert (B : 0 <= total (map (fun p : R * R => (fst p - snd p) * (fst p - snd p)) (merge a b)) <=
              (hi - lo) * (hi - lo) * INR (length (merge a b))).
  { assert (W : forall p, In p (merge a b) -> 0 <= (fst p - snd p) * (fst p - snd p) <= (hi - lo) * (hi - lo)).
    { intros p Hp. apply merge_In in Hp. destruct Hp as [c [H1 H2]]. apply Wa in H1. apply Wb in H2. simpl in H1, H2.
      split; [apply Rle_0_sqr|]. destruct (Rle_dec (fst p) (snd p)).
      - replace ((fst p - snd p) * (fst p - snd p)) with ((snd p - fst p) * (snd p - fst p)) by ring. apply Rmult_le_compat; lra.
      - apply Rmult_le_compat; lra. }
    clear H N. induction (merge a b) as [|p l IH]; [simpl; lra|]. cbn [map total length]. rewrite S_INR.
    assert (W1 := W p (or_introl eq_refl)). assert (IH' := IH (fun q Hq => W q (or_intror Hq))). lra. }
  assert (P := INR_len _ N). set (n := INR (length (merge a b))) in *. set (t := total _) in *.
  assert (Q : 0 < (hi - lo) * (hi - lo) * n) by (apply Rmult_lt_0_compat; nra).
  assert (0 <= 1 - r) by (apply Rmult_le_reg_r with ((hi - lo) * (hi - lo) * n); lra).
  assert (1 - r <= 1) by (apply Rmult_le_reg_r with ((hi - lo) * (hi - lo) * n); lra). lra.
Qed.
Lemma msd_good lo hi : lo < hi -> good_similarity (within lo hi) 0 (msd_pair (hi - lo)).
Proof.
  intros L. split.
  - intros a b r Wa Wb H. apply (msd_range lo hi a b r); auto.
  - intros; apply msd_sym.
  - intros a b r Wa Wb H. exists 1. split; [eapply msd_self; eauto; lra|]. apply (msd_range lo hi) in H; auto. lra.
  - intros a b _ _ D r. unfold msd_pair. rewrite merge_disjoint by auto. discriminate.
Qed.

(** ** Jaccard *)
Lemma jaccard_iter_merge a b v : jaccard_iter a b = Some v <-> exists r, v = Num r /\ merge a b <> [] /\
  r * (INR (length a) + INR (length b) - INR (length (merge a b))) = INR (length (merge a b)).
Proof.
  unfold jaccard_iter. assert (L := merge_length a b). destruct (length (merge a b)) as [|c] eqn:E.
  - apply length_zero_iff_nil in E. split; [discriminate|]. intros [r [_ [N _]]]. congruence.
  - assert (Ne : merge a b <> []) by (intros X; rewrite X in E; discriminate).
    assert (D : INR (length a + length b - S c) = INR (length a) + INR (length b) - INR (S c)).
    { rewrite minus_INR, plus_INR by lia. reflexivity. }
    assert (P : 0 < INR (length a + length b - S c)) by (apply lt_0_INR; lia). split.
    + intros H. apply Some_inj in H. subst v. eexists. split; [reflexivity|]. split; auto. rewrite D. rewrite D in P. set (n := INR (S c)) in *. field. lra.
    + intros [r [-> [_ H]]]. do 2 f_equal. rewrite D in *. rewrite <- H at 1. set (n := INR (S c)) in *. field. lra.
Qed.
Lemma jaccard_iter_value a b v : sorted_row a -> sorted_row b ->
  (jaccard_iter a b = Some v <-> exists r, v = Num r /\ common a b <> [] /\
  r * (INR (length a) + INR (length b) - INR (length (common a b))) = INR (length (common a b))).
Proof. intros Sa Sb. rewrite jaccard_iter_merge, merge_common by auto. reflexivity. Qed.
Lemma jaccard_iter_sym a b : jaccard_iter a b = jaccard_iter b a.
Proof. unfold jaccard_iter. rewrite (merge_sym a b), map_length, (Nat.add_comm (length b)). reflexivity. Qed.
Lemma jaccard_iter_self a b v : jaccard_iter a b = Some v -> jaccard_iter a a = Some (Num 1).
Proof.
  intros H. apply jaccard_iter_merge in H. destruct H as [r [_ [N _]]]. apply jaccard_iter_merge. exists 1. split; auto.
  rewrite merge_self, map_length. split; [|lra]. destruct a; [destruct b; exact N|discriminate].
Qed.
Lemma jaccard_iter_range a b r : jaccard_iter a b = Some (Num r) -> 0 <= r <= 1.
Proof.
  intros H. apply jaccard_iter_merge in H. destruct H as [r' [E [N H]]]. injection E as <-.
  assert (P := INR_len _ N). destruct (merge_length a b) as [L1 L2]. apply le_INR in L1, L2.
  set (c := INR (length (merge a b))) in *. set (x := INR (length a)) in *. set (y := INR (length b)) in *.
  split; [apply Rmult_le_reg_r with (x + y - c); lra|apply Rmult_le_reg_r with (x + y - c); lra].
Qed.
Lemma jaccard_iter_good : good_similarity (fun _ => True) 0 jaccard_iter.
Proof.
  split.
  - intros a b r _ _ H. eapply jaccard_iter_range; eauto.
  - intros; apply jaccard_iter_sym.
  - intros a b r _ _ H. exists 1. split; [eapply jaccard_iter_self; eauto|]. apply jaccard_iter_range in H. lra.
  - intros a b _ _ D r. unfold jaccard_iter. rewrite merge_disjoint by auto. discriminate.
Qed.

Lemma jaccard_matrix_iter a b r : jaccard_matrix a b = Some (Num r) <-> jaccard_iter (nonzero a) (nonzero b) = Some (Num r).
Proof.
  unfold jaccard_matrix, jaccard_iter. assert (L := merge_length (nonzero a) (nonzero b)).
  destruct (length (merge (nonzero a) (nonzero b))) as [|c] eqn:E.
  - destruct (length (nonzero a) + length (nonzero b) - 0)%nat; split; discriminate.
  - destruct (length (nonzero a) + length (nonzero b) - S c)%nat eqn:D; [lia|]. reflexivity.
Qed.
Lemma jaccard_matrix_nan a b : jaccard_matrix a b = Some Nan <-> nonzero a = [] /\ nonzero b = [].
Proof.
  unfold jaccard_matrix. assert (L := merge_length (nonzero a) (nonzero b)).
  destruct (length (nonzero a) + length (nonzero b) - length (merge (nonzero a) (nonzero b)))%nat eqn:D.
  - split; auto. intros _. split; apply length_zero_iff_nil; lia.
  - split.
    + destruct (length (merge (nonzero a) (nonzero b))); discriminate.
    + intros [E1 E2]. rewrite E1, E2 in D. simpl in D. discriminate.
Qed.
Lemma jaccard_matrix_sym a b : jaccard_matrix a b = jaccard_matrix b a.
Proof. unfold jaccard_matrix. rewrite (merge_sym (nonzero a)), map_length, (Nat.add_comm (length (nonzero b))). reflexivity. Qed.
Lemma filter_sorted (f : Z * R -> bool) a : sorted_row a -> sorted_row (filter f a).
Proof.
  unfold sorted_row. induction 1 as [|p a S IH F]; simpl; [constructor|]. destruct (f p); auto. constructor; auto.
  apply Forall_forall. intros q Hq. apply filter_In in Hq. rewrite Forall_forall in F. apply F. tauto.
Qed.
Lemma jaccard_matrix_good : good_similarity (fun _ => True) 0 jaccard_matrix.
Proof.
  split.
  - intros a b r _ _ H. apply jaccard_matrix_iter in H. eapply jaccard_iter_range; eauto.
  - intros; apply jaccard_matrix_sym.
  - intros a b r _ _ H. apply jaccard_matrix_iter in H. exists 1. split.
    + apply jaccard_matrix_iter. eapply jaccard_iter_self; eauto.
    + apply jaccard_iter_range in H. lra.
  - intros a b _ _ D r H. apply jaccard_matrix_iter in H. unfold jaccard_iter in H. rewrite merge_disjoint in H; [discriminate|].
    intros p q Hp Hq. apply filter_In in Hp, Hq. apply D; tauto.
Qed.
Lemma jaccard_versions a b : (forall p, In p a -> snd p <> 0) -> (forall p, In p b -> snd p <> 0) -> a <> [] \/ b <> [] ->
  jaccard_matrix a b = jaccard_iter a b.
Proof.
  intros Ha Hb N.
  assert (F : forall l, (forall p, In p l -> snd p <> 0) -> nonzero l = l).
  { intros l H. unfold nonzero. induction l as [|p l IH]; auto. simpl. assert (X : Req_b (snd p) 0 = false) by (apply Req_b_false; apply H; simpl; auto).
    rewrite X. simpl. rewrite IH; auto. intros; apply H; simpl; auto. }
  unfold jaccard_matrix, jaccard_iter. rewrite !F by auto. assert (L := merge_length a b).
  destruct (length a + length b - length (merge a b))%nat eqn:D.
  - exfalso. destruct N as [N|N]; apply N, length_zero_iff_nil; lia.
  - destruct (length (merge a b)) as [|c]; auto.
Qed.

(** ** cosine *)
Definition len (a : srow) : R := if Req_b (square a) 0 then 1 else sqrt (square a).
Lemma norm_square a : norm a = sqrt (square a).
Proof. unfold norm, square. rewrite Rsum_total. f_equal. apply total_map_ext. intros; ring. Qed.
Lemma len_pos a : 0 < len a.
Proof.
  unfold len. destruct (Req_b (square a) 0) eqn:E; [lra|]. apply Req_b_false in E. apply sqrt_lt_R0. pose proof (square_nonneg a). lra.
Qed.
Lemma normalise_eq a : normalise a = map (fun p => (fst p, snd p / len a)) a.
Proof.
  unfold normalise, len. rewrite norm_square. pose proof (square_nonneg a) as P.
  destruct (Req_b (square a) 0) eqn:E.
  - apply Req_b_true in E. rewrite E, sqrt_0. assert (X : Req_b 0 0 = true) by (apply Req_b_true; auto). rewrite X.
    rewrite <- (map_id a) at 1. apply map_ext. intros [c x]. simpl. f_equal. field.
  - apply Req_b_false in E. assert (X : Req_b (sqrt (square a)) 0 = false).
    { apply Req_b_false. apply Rgt_not_eq, sqrt_lt_R0. lra. }
    rewrite X. reflexivity.
Qed.
Lemma merge_scale k1 k2 a : forall b, merge (map (fun p => (fst p, snd p / k1)) a) (map (fun p => (fst p, snd p / k2)) b) =
  map (fun p => (fst p / k1, snd p / k2)) (merge a b).
Proof.
  induction a as [|[i x] a IH]; intros b; auto. induction b as [|[j y] b IHb]; auto. cbn [map fst snd merge].
  destruct (Z.ltb_spec j i); [exact IHb|]. destruct (Z.ltb_spec i j); [apply (IH ((j, y) :: b))|]. cbn [map fst snd]. rewrite IH. reflexivity.
Qed.
Lemma dot_scale k1 k2 l : k1 <> 0 -> k2 <> 0 -> dot (map (fun p => (fst p / k1, snd p / k2)) l) = dot l / (k1 * k2).
Proof.
  intros H1 H2. unfold dot. induction l as [|p l IH]; cbn [map total fst snd]; [field; auto|].
  rewrite IH. field. auto.
Qed.
Lemma cosine_eq a b : cosine a b = if (length (merge a b) =? 0)%nat then None else Some (Num (dot (merge a b) / (len a * len b))).
Proof.
  unfold cosine. rewrite !normalise_eq, merge_scale. pose proof (len_pos a). pose proof (len_pos b).
  rewrite <- (dot_scale (len a) (len b) (merge a b)) by lra. destruct (merge a b) as [|p l]; auto.
  cbn [map length Nat.eqb]. rewrite numerator_dot. reflexivity.
Qed.
Lemma square1_merge a : forall b, square1 (merge a b) <= square a.
Proof.
  unfold square1, square. induction a as [|[i x] a IH]; intros b; [simpl; lra|].
  induction b as [|[j y] b IHb].
  - cbn [merge map total fst snd]. pose proof (square_nonneg a) as P. unfold square in P. nra.
  - cbn [merge]. destruct (Z.ltb_spec j i); [exact IHb|]. destruct (Z.ltb_spec i j).
    + specialize (IH ((j, y) :: b)). cbn [map total snd]. nra.
    + specialize (IH b). cbn [map total fst snd]. lra.
Qed.
Lemma square2_merge a b : square2 (merge a b) <= square b.
Proof. rewrite <- square1_swap, <- merge_sym. apply square1_merge. Qed.
Lemma len_square a : square a <> 0 -> len a * len a = square a.
Proof.
  intros H. unfold len. apply Req_b_false in H. rewrite H. apply sqrt_sqrt. apply square_nonneg.
Qed.
Lemma dot_bound a b : - (len a * len b) <= dot (merge a b) <= len a * len b.
Proof.
  pose proof (cauchy_schwarz (merge a b)) as C. pose proof (square1_merge a b) as A. pose proof (square2_merge a b) as B.
  pose proof (square1_nonneg (merge a b)) as A0. pose proof (square2_nonneg (merge a b)) as B0.
  pose proof (len_pos a) as La. pose proof (len_pos b) as Lb.
  destruct (Req_EM_T (square a) 0) as [Za|Za]; [|destruct (Req_EM_T (square b) 0) as [Zb|Zb]].
  - assert (dot (merge a b) = 0) by (apply dot_zero1; lra). assert (0 < len a * len b) by (apply Rmult_lt_0_compat; auto). lra.
  - assert (dot (merge a b) = 0) by (apply dot_zero2; lra). assert (0 < len a * len b) by (apply Rmult_lt_0_compat; auto). lra.
  - assert (D : dot (merge a b) * dot (merge a b) <= (len a * len b) * (len a * len b)).
    { replace ((len a * len b) * (len a * len b)) with ((len a * len a) * (len b * len b)) by ring.
      rewrite !len_square by auto. eapply Rle_trans; [exact C|]. apply Rmult_le_compat; auto. }
    assert (P : 0 < len a * len b) by (apply Rmult_lt_0_compat; auto).
    set (k := len a * len b) in *. set (t := dot (merge a b)) in *. split; nra.
Qed.
Lemma cosine_range' a b r : cosine a b = Some (Num r) -> -1 <= r <= 1.
Proof.
  rewrite cosine_eq. destruct (length (merge a b) =? 0)%nat; [discriminate|]. intros H. injection H as <-.
  pose proof (dot_bound a b) as B. assert (P : 0 < len a * len b) by (apply Rmult_lt_0_compat; apply len_pos).
  split; apply Rmult_le_reg_r with (len a * len b); auto; unfold Rdiv; rewrite Rmult_assoc, Rinv_l by lra; lra.
Qed.
Lemma cosine_sym a b : cosine a b = cosine b a.
Proof. rewrite !cosine_eq, (merge_sym a b), map_length, dot_swap, (Rmult_comm (len b)). reflexivity. Qed.
Lemma cosine_merge a b v : cosine a b = Some v <-> exists r, v = Num r /\ merge a b <> [] /\
  ((square a = 0 \/ square b = 0) /\ r = 0 \/
   0 < square a /\ 0 < square b /\ r * (sqrt (square a) * sqrt (square b)) = dot (merge a b)).
Proof.
  rewrite cosine_eq. destruct (length (merge a b) =? 0)%nat eqn:E.
  - apply Nat.eqb_eq, length_zero_iff_nil in E. split; [discriminate|]. intros [r [_ [N _]]]. congruence.
  - assert (N : merge a b <> []) by (intros X; rewrite X in E; discriminate). clear E.
    assert (X : forall r, dot (merge a b) / (len a * len b) = r <->
      ((square a = 0 \/ square b = 0) /\ r = 0 \/
       0 < square a /\ 0 < square b /\ r * (sqrt (square a) * sqrt (square b)) = dot (merge a b))).
    { intros r. pose proof (square_nonneg a) as Pa. pose proof (square_nonneg b) as Pb.
      pose proof (square1_merge a b) as A. pose proof (square2_merge a b) as B.
      pose proof (square1_nonneg (merge a b)) as A0. pose proof (square2_nonneg (merge a b)) as B0.
      destruct (Req_EM_T (square a) 0) as [Za|Za]; [|destruct (Req_EM_T (square b) 0) as [Zb|Zb]].
      - assert (D : dot (merge a b) = 0) by (apply dot_zero1; lra). rewrite D. unfold Rdiv. rewrite Rmult_0_l. split; [left; auto|].
        intros [[_ H]|[H _]]; lra.
      - assert (D : dot (merge a b) = 0) by (apply dot_zero2; lra). rewrite D. unfold Rdiv. rewrite Rmult_0_l. split; [left; auto|].
        intros [[_ H]|[_ [H _]]]; lra.
      - assert (Ea : len a = sqrt (square a)) by (unfold len; apply Req_b_false in Za; rewrite Za; auto).
        assert (Eb : len b = sqrt (square b)) by (unfold len; apply Req_b_false in Zb; rewrite Zb; auto).
        pose proof (len_pos a) as La. pose proof (len_pos b) as Lb. rewrite <- Ea, <- Eb. split.
        + intros <-. right. split; [lra|]. split; [lra|]. field. lra.
        + intros [[H _]|[_ [_ H]]]; [tauto|]. rewrite <- H. field. lra. }
    split.
    + intros H. injection H as <-. eexists. split; [reflexivity|]. split; auto. apply X. reflexivity.
    + intros [r [-> [_ H]]]. apply X in H. rewrite H. reflexivity.
Qed.
Lemma cosine_value a b v : sorted_row a -> sorted_row b ->
  (cosine a b = Some v <-> exists r, v = Num r /\ common a b <> [] /\
  ((square a = 0 \/ square b = 0) /\ r = 0 \/
   0 < square a /\ 0 < square b /\ r * (sqrt (square a) * sqrt (square b)) = dot (common a b))).
Proof. intros Sa Sb. rewrite cosine_merge, merge_common by auto. reflexivity. Qed.
Lemma dot_self a : dot (merge a a) = square a.
Proof. rewrite merge_self. unfold dot, square. rewrite map_map. reflexivity. Qed.
Lemma cosine_self_value a : a <> [] -> square a <> 0 -> cosine a a = Some (Num 1).
Proof.
  intros N H. apply cosine_merge. exists 1. split; auto. split.
  - rewrite merge_self. destruct a; [congruence|discriminate].
  - right. pose proof (square_nonneg a). split; [lra|]. split; [lra|]. rewrite dot_self, sqrt_sqrt; lra.
Qed.
Lemma cosine_good : good_similarity (fun _ => True) (-1) cosine.
Proof.
  split.
  - intros a b r _ _ H. eapply cosine_range'; eauto.
  - intros; apply cosine_sym.
  - intros a b r _ _ H. assert (Na : a <> []).
    { intros ->. rewrite cosine_eq in H. simpl in H. discriminate. }
    destruct (Req_EM_T (square a) 0) as [Z|Z].
    + exists 0. apply cosine_merge in H. destruct H as [r' [E [_ [[_ X]|[X _]]]]]; [|lra]. injection E as <-. subst. split; [|lra].
      apply cosine_merge. exists 0. split; auto. split; [rewrite merge_self; destruct a; [congruence|discriminate]|]. left. auto.
    + exists 1. split; [apply cosine_self_value; auto|]. apply cosine_range' in H. lra.
  - intros a b _ _ D r. rewrite cosine_eq, merge_disjoint by auto. discriminate.
Qed.

(** ** adjusted cosine *)
Lemma subtract_mean_cols a p : In p (subtract_mean a) -> exists q, In q a /\ fst q = fst p.
Proof.
  unfold subtract_mean, nonzero. intros H. apply filter_In in H. destruct H as [H _]. apply in_map_iff in H.
  destruct H as [q [<- Hq]]. eauto.
Qed.
Lemma adjusted_good : good_similarity (fun _ => True) (-1) adjusted_cosine.
Proof.
  unfold adjusted_cosine. split.
  - intros a b r _ _ H. eapply (gs_range _ _ _ cosine_good); eauto; exact I.
  - intros a b _ _. apply cosine_sym.
  - intros a b r _ _ H. eapply (gs_self _ _ _ cosine_good); eauto; exact I.
  - intros a b _ _ D r. apply (gs_disjoint _ _ _ cosine_good); try exact I.
    intros p q Hp Hq. apply subtract_mean_cols in Hp, Hq. destruct Hp as [p' [Hp <-]], Hq as [q' [Hq <-]]. auto.
Qed.
Lemma square_nonzero_row a : square (nonzero a) = square a.
Proof.
  unfold square, nonzero. induction a as [|[c x] a IH]; auto. cbn [filter snd]. destruct (Req_b x 0) eqn:E; cbn [negb map total snd].
  - apply Req_b_true in E. subst. rewrite IH. ring.
  - rewrite IH. reflexivity.
Qed.
Lemma value_at_nonzero b c : sorted_row b -> value_at (nonzero b) c =
  match value_at b c with Some y => if Req_b y 0 then None else Some y | None => None end.
Proof.
  induction 1 as [|[j y] b S IH F]; auto. unfold nonzero. cbn [filter snd]. fold (nonzero b).
  assert (V : forall l, value_at ((j, y) :: l) c = if Z.eqb j c then Some y else value_at l c).
  { intros l. unfold value_at. cbn [find fst]. destruct (Z.eqb j c); reflexivity. }
  rewrite V. destruct (Z.eqb_spec j c) as [->|N].
  - destruct (Req_b y 0) eqn:E; cbn [negb].
    + apply value_at_none. intros q Hq. apply filter_In in Hq. rewrite Forall_forall in F. destruct Hq as [Hq _].
      specialize (F q Hq). simpl in F. lia.
    + unfold value_at. cbn [find fst snd]. rewrite Z.eqb_refl. reflexivity.
  - destruct (Req_b y 0); cbn [negb]; [exact IH|]. rewrite V. destruct (Z.eqb_spec j c); [contradiction|]. exact IH.
Qed.
Lemma common_nonzero a b : sorted_row b -> common (nonzero a) (nonzero b) =
  filter (fun p => (negb (Req_b (fst p) 0) && negb (Req_b (snd p) 0))%bool) (common a b).
Proof.
  intros Sb. unfold common. induction a as [|[i x] a IH]; auto.
  assert (E : nonzero ((i, x) :: a) = if Req_b x 0 then nonzero a else (i, x) :: nonzero a).
  { unfold nonzero. cbn [filter snd]. destruct (Req_b x 0); reflexivity. }
  rewrite E. cbn [flat_map fst snd]. rewrite filter_app. rewrite <- IH.
  destruct (Req_b x 0) eqn:Ex; cbn [negb].
  - destruct (value_at b i) as [y|]; cbn [filter fst snd]; rewrite ?Ex; reflexivity.
  - cbn [flat_map fst snd]. rewrite (value_at_nonzero b i Sb). destruct (value_at b i) as [y|]; [|reflexivity].
    cbn [filter fst snd]. rewrite Ex. cbn [negb andb]. destruct (Req_b y 0); reflexivity.
Qed.
Lemma dot_filter l : dot (filter (fun p => (negb (Req_b (fst p) 0) && negb (Req_b (snd p) 0))%bool) l) = dot l.
Proof.
  unfold dot. induction l as [|[x y] l IH]; auto. cbn [filter fst snd].
  destruct (Req_b x 0) eqn:Ex; [|destruct (Req_b y 0) eqn:Ey]; cbn [negb andb map total fst snd]; rewrite ?IH; auto.
  - apply Req_b_true in Ex. subst. ring.
  - apply Req_b_true in Ey. subst. ring.
Qed.
Lemma minus_sorted a m : sorted_row a -> sorted_row (minus a m).
Proof.
  unfold sorted_row, minus. induction 1 as [|p a S IH F]; simpl; constructor; auto.
  apply Forall_forall. intros q Hq. apply in_map_iff in Hq. destruct Hq as [q' [<- Hq]]. rewrite Forall_forall in F. apply F in Hq. exact Hq.
Qed.
Lemma value_at_minus b m c : value_at (minus b m) c = match value_at b c with Some y => Some (y - m) | None => None end.
Proof.
  unfold value_at, minus. induction b as [|[j y] b IH]; auto. cbn [map find fst snd]. destruct (Z.eqb j c); auto.
Qed.
Lemma common_minus a b m1 m2 : common (minus a m1) (minus b m2) = shifted (common a b) m1 m2.
Proof.
  unfold common, shifted. induction a as [|[i x] a IH]; auto.
  change (minus ((i, x) :: a) m1) with ((i, x - m1) :: minus a m1). cbn [map flat_map fst snd].
  rewrite value_at_minus, map_app, <- IH. destruct (value_at b i) as [y|]; reflexivity.
Qed.
Lemma adjusted_value a b v : sorted_row a -> sorted_row b -> a <> [] -> b <> [] ->
  (adjusted_cosine a b = Some v <-> exists r m1 m2, v = Num r /\ is_avg (map snd a) m1 /\ is_avg (map snd b) m2 /\
     (exists p, In p (common a b) /\ fst p <> m1 /\ snd p <> m2) /\
     r * (sqrt (square (minus a m1)) * sqrt (square (minus b m2))) = dot (shifted (common a b) m1 m2)).
Proof.
  intros Sa Sb Na Nb.
  destruct (avg_exists (map snd a)) as [m1 A1]; [apply map_nil; auto|].
  destruct (avg_exists (map snd b)) as [m2 A2]; [apply map_nil; auto|].
  assert (U : forall n1 n2, is_avg (map snd a) n1 -> is_avg (map snd b) n2 -> n1 = m1 /\ n2 = m2).
  { intros n1 n2 B1 B2. apply is_avg_iff in A1, A2, B1, B2; try (apply map_nil; auto). subst. auto. }
  assert (E1 : subtract_mean a = nonzero (minus a m1)).
  { apply is_avg_iff in A1; [|apply map_nil; auto]. rewrite map_length in A1. unfold subtract_mean, minus. rewrite A1. reflexivity. }
  assert (E2 : subtract_mean b = nonzero (minus b m2)).
  { apply is_avg_iff in A2; [|apply map_nil; auto]. rewrite map_length in A2. unfold subtract_mean, minus. rewrite A2. reflexivity. }
  unfold adjusted_cosine. rewrite E1, E2.
  assert (S1 := minus_sorted a m1 Sa). assert (S2 := minus_sorted b m2 Sb).
  rewrite cosine_value by (apply filter_sorted; auto).
  rewrite !square_nonzero_row, common_nonzero, dot_filter, common_minus by auto.
  set (l := shifted (common a b) m1 m2).
  assert (NE : filter (fun p => (negb (Req_b (fst p) 0) && negb (Req_b (snd p) 0))%bool) l <> [] <->
               exists p, In p (common a b) /\ fst p <> m1 /\ snd p <> m2).
  { split.
    - intros H. destruct (filter _ l) as [|q k] eqn:F; [congruence|]. assert (Hq : In q (q :: k)) by (left; auto). rewrite <- F in Hq.
      apply filter_In in Hq. destruct Hq as [Hq B]. apply andb_true_iff in B. rewrite !negb_true_iff, !Req_b_false in B.
      unfold l, shifted in Hq. apply in_map_iff in Hq. destruct Hq as [p [<- Hp]]. exists p. simpl in B. destruct B as [B1 B2]. split; auto. split; intros X; [apply B1|apply B2]; lra.
    - intros [p [Hp [N1 N2]]] F.
      assert (X : In (fst p - m1, snd p - m2) (filter (fun p => (negb (Req_b (fst p) 0) && negb (Req_b (snd p) 0))%bool) l)).
      { apply filter_In. split; [apply in_map_iff; exists p; auto|]. apply andb_true_iff. rewrite !negb_true_iff, !Req_b_false. simpl. split; intros X; [apply N1|apply N2]; lra. }
      rewrite F in X. contradiction. }
  assert (PS : (exists p, In p (common a b) /\ fst p <> m1 /\ snd p <> m2) -> 0 < square (minus a m1) /\ 0 < square (minus b m2)).
  { intros [p [Hp [N1 N2]]].
    assert (Q : forall (c : srow) (m x : R), In x (map snd c) -> x <> m -> 0 < square (minus c m)).
    { clear. intros c m x H N. unfold square, minus. induction c as [|q c IH]; [contradiction|].
      cbn [map total snd]. pose proof (square_nonneg (minus c m)) as P0. unfold square, minus in P0.
      pose proof (Rle_0_sqr (snd q - m)) as P1. unfold Rsqr in P1. destruct H as [<-|H]; [|specialize (IH H); lra].
      assert (P2 : 0 < Rsqr (snd q - m)) by (apply Rlt_0_sqr; lra). unfold Rsqr in P2. lra. }
    rewrite <- (merge_common a b Sa Sb) in Hp. apply merge_In in Hp. destruct Hp as [c [H1 H2]]. split.
    - apply (Q a m1 (fst p)); auto. apply in_map_iff. exists (c, fst p). auto.
    - apply (Q b m2 (snd p)); auto. apply in_map_iff. exists (c, snd p). auto. }
  split.
  - intros [r [-> [N C]]]. apply NE in N. destruct (PS N) as [P1 P2]. exists r, m1, m2. repeat (split; auto).
    destruct C as [[[X|X] _]|[_ [_ X]]]; [lra|lra|exact X].
  - intros [r [n1 [n2 [-> [B1 [B2 [N C]]]]]]]. destruct (U n1 n2 B1 B2) as [-> ->]. destruct (PS N) as [P1 P2].
    exists r. split; auto. split; [apply NE; auto|]. right. auto.
Qed.
