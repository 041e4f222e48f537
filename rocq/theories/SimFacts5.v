(** The similarity functions do not look at the order of the interactions. *)
From Coq Require Import List ZArith QArith Qcanon Qreals Reals Bool Permutation Lia.
From Verif Require Import Py MemModel SimModel.
Import ListNotations.
Open Scope R_scope.

Lemma fold_Rplus l : forall a, fold_left Rplus l a = a + fold_left Rplus l 0.
Proof. induction l as [|x l IH]; intro a; cbn [fold_left]; [ring|]. rewrite (IH (a + x)), (IH (0 + x)). ring. Qed.
Lemma Rsum_perm l l' : Permutation l l' -> Rsum l = Rsum l'.
Proof.
  unfold Rsum. induction 1; cbn [fold_left]; auto.
  - rewrite (fold_Rplus l), (fold_Rplus l'). congruence.
  - rewrite (fold_Rplus l (0 + y + x)), (fold_Rplus l (0 + x + y)). ring.
  - congruence.
Qed.
Lemma fold_max l : forall a, fold_left Nat.max l a = Nat.max a (fold_left Nat.max l 0%nat).
Proof. induction l as [|x l IH]; intro a; cbn [fold_left]; [lia|]. rewrite (IH (Nat.max a x)), (IH (Nat.max 0 x)). lia. Qed.
Lemma max_index_perm l l' : Permutation l l' -> max_index l = max_index l'.
Proof.
  unfold max_index. induction 1; cbn [map fold_left]; auto.
  - rewrite (fold_max _ (Nat.max 0 _)), (fold_max (map Z.to_nat l') (Nat.max 0 _)). congruence.
  - rewrite (fold_max _ (Nat.max (Nat.max 0 (Z.to_nat y)) _)), (fold_max _ (Nat.max (Nat.max 0 (Z.to_nat x)) _)). lia.
  - congruence.
Qed.
Lemma filter_permutation {A} (f : A -> bool) l l' : Permutation l l' -> Permutation (filter f l) (filter f l').
Proof.
  induction 1; cbn [filter]; [constructor|destruct (f x); [constructor|]; auto|destruct (f x), (f y); try apply Permutation_refl; apply perm_swap|eapply Permutation_trans; eauto].
Qed.
Lemma stored_perm es es' a c : Permutation es es' -> stored es a c = stored es' a c.
Proof.
  intro P. unfold stored. apply eq_true_iff_eq. rewrite !existsb_exists. split; intros (x & H & K); exists x; (split; [|exact K]).
  - eapply Permutation_in; eauto.
  - eapply Permutation_in; [apply Permutation_sym; exact P|exact H].
Qed.
Lemma stored_sum_perm es es' a c : Permutation es es' -> stored_sum es a c = stored_sum es' a c.
Proof. intro P. unfold stored_sum. apply Rsum_perm, Permutation_map, filter_permutation, P. Qed.
Lemma csr_cols_perm es es' : Permutation es es' -> csr_cols es = csr_cols es'.
Proof. intro P. unfold csr_cols. f_equal. apply max_index_perm, Permutation_map, P. Qed.
Lemma csr_row_perm es es' a : Permutation es es' -> csr_row es a = csr_row es' a.
Proof.
  intro P. unfold csr_row. rewrite (csr_cols_perm _ _ P). apply flat_map_ext. intro c. rewrite (stored_perm _ _ a c P), (stored_sum_perm _ _ a c P). reflexivity.
Qed.
Lemma csr_perm es es' : Permutation es es' -> csr es = csr es'.
Proof.
  intro P. assert (M : max_index (map (fun e => fst (fst e)) es) = max_index (map (fun e => fst (fst e)) es')) by (apply max_index_perm, Permutation_map, P).
  assert (R : forall l, map (csr_row es) l = map (csr_row es') l) by (intro l; apply map_ext; intro a; apply csr_row_perm, P).
  destruct es as [|e es]; [apply Permutation_nil in P; subst; reflexivity|].
  destruct es' as [|e' es']; [apply Permutation_sym, Permutation_nil in P; discriminate|]. unfold csr. rewrite M, R. reflexivity.
Qed.
Lemma sim_matrix_perm k es es' : Permutation es es' -> sim_matrix_of k es = sim_matrix_of k es'.
Proof. intro P. unfold sim_matrix_of. rewrite (csr_perm _ _ P), (csr_cols_perm _ _ P). reflexivity. Qed.
