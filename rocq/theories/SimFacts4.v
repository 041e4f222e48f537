(** Proofs about the similarity functions: the entries of the result. *)
From Coq Require Import List ZArith QArith Qcanon Qreals Reals Bool Sorted Lia Lra Psatz.
From Verif Require Import Py PyFacts MemModel MemFacts3 MemFacts6 SimModel SimSpec SimFacts SimFacts2 SimFacts3.
Import ListNotations.
Open Scope R_scope.

Lemma sorted_same a b : sorted_row a -> sorted_row b -> (forall p, In p a <-> In p b) -> a = b.
Proof.
  unfold sorted_row. intros Sa. revert b. induction Sa as [|p a Sa IH Fa]; intros b Sb H.
  - destruct b as [|q b]; auto. exfalso. apply (proj2 (H q)). left; auto.
  - destruct Sb as [|q b Sb Fb]; [exfalso; apply (proj1 (H p)); left; auto|].
    rewrite Forall_forall in Fa, Fb.
    assert (E : p = q).
    { destruct (proj1 (H p) (or_introl eq_refl)) as [E|Hp]; auto. destruct (proj2 (H q) (or_introl eq_refl)) as [E|Hq]; auto.
      apply Fa in Hq. apply Fb in Hp. lia. }
    subst q. f_equal. apply IH; auto. intros r. split; intros Hr.
    + destruct (proj1 (H r) (or_intror Hr)) as [E|]; auto. subst r. apply Fa in Hr. lia.
    + destruct (proj2 (H r) (or_intror Hr)) as [E|]; auto. subst r. apply Fb in Hr. lia.
Qed.
Lemma csr_row_profile es u : indices es -> profile es u (csr_row es u).
Proof.
  intros I. split; [apply csr_row_sorted|]. intros c y. rewrite csr_row_In. cbn [fst snd]. rewrite stored_sum_total. fold (interaction_sum es u c).
  unfold interacts. split; [tauto|]. intros [[x H] E]. split; [|split; eauto]. apply I in H. simpl in H. tauto.
Qed.
Lemma profile_row es u a : indices es -> profile es u a -> a = csr_row es u.
Proof.
  intros I [S P]. destruct (csr_row_profile es u I) as [S' P']. apply sorted_same; auto. intros [c y]. rewrite P, P'. reflexivity.
Qed.
Lemma profile_sorted es u a : profile es u a -> sorted_row a.
Proof. intros [S _]. exact S. Qed.
Lemma profile_nonempty es u a : present es u -> profile es u a -> a <> [].
Proof.
  intros [c H] [_ P] ->. apply (proj2 (P c (interaction_sum es u c))). auto.
Qed.
Lemma profile_exists es u : indices es -> exists a, profile es u a.
Proof. intros I. exists (csr_row es u). apply csr_row_profile. auto. Qed.

(** the function applied to a pair of rows *)
Definition diff es rows := extreme Rmax rows (csr_cols es) - extreme Rmin rows (csr_cols es).
Definition pair_fn (k : metric) (es : list (Z * Z * Qc)) (rows : list srow) : srow -> srow -> option num :=
  match k with
  | AdjustedCosine => adjusted_cosine
  | Cosine => cosine
  | CosineCf => cosine_cf
  | Jaccard true => jaccard_matrix
  | Jaccard false => jaccard_iter
  | Msd => msd_pair (diff es rows)
  | Pearson => pearson
  end.
Lemma adjusted_sym a b : adjusted_cosine a b = adjusted_cosine b a.
Proof. apply cosine_sym. Qed.
Lemma pair_fn_sym k es rows a b : pair_fn k es rows a b = pair_fn k es rows b a.
Proof.
  destruct k as [| | |[]| |]; simpl; auto using adjusted_sym, cosine_sym, cosine_cf_sym, jaccard_matrix_sym, jaccard_iter_sym, msd_sym, pearson_sym.
Qed.
Lemma sim_matrix_rows k es coo : sim_matrix_of k es = Ok coo ->
  exists rows, csr es = Ok rows /\ matrix_of (pair_fn k es rows) rows coo.
Proof.
  unfold sim_matrix_of. destruct (csr es) as [rows|e]; cbn [bind]; [|discriminate]. intros H. exists rows. split; auto.
  destruct k as [| | |[]| |]; simpl.
  - apply product_matrix_of; auto.
  - apply product_matrix_of; auto.
  - apply loop_matrix_of; auto. apply cosine_cf_sym.
  - apply product_matrix_of; auto.
  - apply loop_matrix_of; auto. apply jaccard_iter_sym.
  - apply loop_matrix_of; auto. apply msd_sym.
  - apply loop_matrix_of; auto. apply pearson_sym.
Qed.

Lemma sim_entry k es coo : indices es -> sim_matrix_of k es = Ok coo -> exists rows, csr es = Ok rows /\
  forall u v a b s, present es u -> present es v -> profile es u a -> profile es v b ->
  (In (u, v, s) coo <-> pair_fn k es rows a b = Some s).
Proof.
  intros I H. destruct (sim_matrix_rows k es coo H) as [rows [C [_ M]]]. exists rows. split; auto.
  intros u v a b s [c [x Hu]] [d [y Hv]] Pa Pb. apply profile_row in Pa, Pb; auto. subst a b. rewrite M. split.
  - intros [a [b [Ha [Hb [Na [Nb E]]]]]]. rewrite (csr_has es rows u c x) in Na; auto. rewrite (csr_has es rows v d y) in Nb; auto. congruence.
  - intros E. exists (csr_row es u), (csr_row es v). assert (Iu := I _ Hu). assert (Iv := I _ Hv). simpl in Iu, Iv.
    repeat split; try tauto.
    + apply (csr_has es rows u c x); tauto.
    + apply (csr_has es rows v d y); tauto.
Qed.

(** ** the spread of the matrix *)
Lemma max_index_reached l : l <> [] -> (forall z, In z l -> (0 <= z)%Z) -> exists z, In z l /\ max_index l = Z.to_nat z.
Proof.
  unfold max_index. assert (G : forall k n, fold_left Nat.max k n = n \/ In (fold_left Nat.max k n) k).
  { induction k as [|x k IH]; intros n; simpl; auto. destruct (IH (Nat.max n x)) as [H|H]; auto. rewrite H.
    destruct (Nat.max_spec n x) as [[_ ->]|[_ ->]]; auto. }
  intros N P. destruct (G (map Z.to_nat l) 0%nat) as [H|H].
  - rewrite H. destruct l as [|z l]; [congruence|]. exists z. split; [left; auto|].
    assert (L : (Z.to_nat z <= max_index (z :: l))%nat) by (apply max_index_le; left; auto). unfold max_index in L. rewrite H in L. lia.
  - apply in_map_iff in H. destruct H as [z [E H]]. eauto.
Qed.
Lemma position_iff es u c : es <> [] -> indices es -> (position es u c <->
  (0 <= u <= Z.of_nat (max_index (map (fun e => fst (fst e)) es)))%Z /\ (0 <= c < Z.of_nat (csr_cols es))%Z).
Proof.
  intros N I. unfold position, csr_cols. set (l1 := map (fun e => fst (fst e)) es). set (l2 := map (fun e => snd (fst e)) es).
  assert (N1 : l1 <> []) by (apply map_nil; auto). assert (N2 : l2 <> []) by (apply map_nil; auto).
  assert (P1 : forall z, In z l1 -> (0 <= z)%Z) by (intros z H; apply in_map_iff in H; destruct H as [e [<- H]]; apply I in H; tauto).
  assert (P2 : forall z, In z l2 -> (0 <= z)%Z) by (intros z H; apply in_map_iff in H; destruct H as [e [<- H]]; apply I in H; tauto).
  destruct (max_index_reached l1 N1 P1) as [z1 [H1 M1]]. destruct (max_index_reached l2 N2 P2) as [z2 [H2 M2]].
  pose proof (P1 _ H1). pose proof (P2 _ H2). split.
  - intros [Hu [Hc [[e [He Le]] [e' [He' Le']]]]].
    assert (L1 := max_index_le l1 (fst (fst e)) (in_map _ _ _ He)). assert (L2 := max_index_le l2 (snd (fst e')) (in_map _ _ _ He')). lia.
  - intros [[Hu Hu'] [Hc Hc']]. split; auto. split; auto. split.
    + apply in_map_iff in H1. destruct H1 as [e [E1 He]]. exists e. split; auto. lia.
    + apply in_map_iff in H2. destruct H2 as [e [E2 He]]. exists e. split; auto. lia.
Qed.
Lemma interaction_sum_none es u c : ~ interacts es u c -> interaction_sum es u c = 0.
Proof.
  intros N. unfold interaction_sum. induction es as [|[[u' c'] x] es IH]; auto. cbn [filter fst snd].
  destruct (Z.eqb_spec u' u) as [->|E]; cbn [andb]; [destruct (Z.eqb_spec c' c) as [->|E]|]; cbn [andb].
  - exfalso. apply N. exists x. left. reflexivity.
  - apply IH. intros [y H]. apply N. exists y. right. auto.
  - apply IH. intros [y H]. apply N. exists y. right. auto.
Qed.
Lemma interacts_dec es u c : interacts es u c \/ ~ interacts es u c.
Proof. destruct (stored es u c) eqn:E; [left; apply stored_iff; auto|right; intros H; apply stored_iff in H; congruence]. Qed.
Lemma row_length_le es u : (length (csr_row es u) <= csr_cols es)%nat /\
  (length (csr_row es u) = csr_cols es <-> forall c, (0 <= c < Z.of_nat (csr_cols es))%Z -> interacts es u c).
Proof.
  assert (G : forall l : list Z, let r := flat_map (fun c => if stored es u c then [(c, stored_sum es u c)] else []) l in
    (length r <= length l)%nat /\ (length r = length l <-> forall c, In c l -> interacts es u c)).
  { induction l as [|c l [L IH]]; cbv zeta in *; cbn [flat_map length].
    - split; auto. split; auto. intros _ c [].
    - rewrite app_length. destruct (stored es u c) eqn:E; cbn [length]; (split; [lia|]); split; intros H.
      + intros d [<-|Hd]; [apply stored_iff; auto|]. apply IH; auto; lia.
      + cbn [Nat.add]. f_equal. apply IH. intros d Hd. apply H. right; auto.
      + lia.
      + exfalso. assert (X := H c (or_introl eq_refl)). apply stored_iff in X. congruence. }
  specialize (G (Zseq (csr_cols es))). cbv zeta in G. rewrite Zseq_length in G. fold (csr_row es u) in G. destruct G as [G1 G2].
  split; auto. rewrite G2. split; intros H c Hc; apply H; apply Zseq_In; auto.
Qed.
Lemma values_length es rows : csr es = Ok rows -> es <> [] -> indices es ->
  (length (values_of rows) = length rows * csr_cols es)%nat <-> forall u c, position es u c -> interacts es u c.
Proof.
  intros C N I. apply csr_rows in C. destruct C as [_ ->].
  set (n := max_index (map (fun e => fst (fst e)) es)).
  assert (P : (forall u c, position es u c -> interacts es u c) <->
              forall u, In u (Zseq (S n)) -> forall c, (0 <= c < Z.of_nat (csr_cols es))%Z -> interacts es u c).
  { split.
    - intros H u Hu c Hc. apply H. apply position_iff; auto. apply Zseq_In in Hu. fold n. lia.
    - intros H u c Hp. apply position_iff in Hp; auto. fold n in Hp. apply H; [apply Zseq_In; lia|tauto]. }
  rewrite P. clear P. unfold values_of. rewrite !map_length, Zseq_length.
  replace (S n) with (length (Zseq (S n))) at 2 by apply Zseq_length.
  assert (G : forall l, (length (concat (map (csr_row es) l)) <= length l * csr_cols es)%nat /\
     (length (concat (map (csr_row es) l)) = (length l * csr_cols es)%nat <->
      forall u, In u l -> forall c, (0 <= c < Z.of_nat (csr_cols es))%Z -> interacts es u c)).
  { induction l as [|u l [L IH]].
    - simpl. split; auto. split; auto. intros _ u [].
    - destruct (row_length_le es u) as [L' R']. cbn [map concat length Nat.mul]. rewrite app_length. split; [lia|]. split.
      + intros H v [<-|Hv]; [apply R'; lia|apply IH; auto; lia].
      + intros H. f_equal; [apply R'; apply H; left; auto|apply IH; intros v Hv; apply H; right; auto]. }
  apply G.
Qed.
Lemma fold_Rmax_In l : forall x, In (fold_left Rmax l x) (x :: l).
Proof.
  induction l as [|y l IH]; intros x; [left; auto|]. cbn [fold_left]. destruct (IH (Rmax x y)) as [E|H]; [|right; right; auto].
  rewrite <- E. unfold Rmax. destruct (Rle_dec x y); simpl; auto.
Qed.
Lemma fold_Rmin_In l : forall x, In (fold_left Rmin l x) (x :: l).
Proof.
  induction l as [|y l IH]; intros x; [left; auto|]. cbn [fold_left]. destruct (IH (Rmin x y)) as [E|H]; [|right; right; auto].
  rewrite <- E. unfold Rmin. destruct (Rle_dec x y); simpl; auto.
Qed.
Lemma values_In es rows x : csr es = Ok rows -> es <> [] -> indices es ->
  (In x (values_of rows) <-> exists u c, position es u c /\ interacts es u c /\ x = interaction_sum es u c).
Proof.
  intros C N I. unfold values_of. rewrite in_map_iff. split.
  - intros [p [<- H]]. apply in_concat in H. destruct H as [a [Ha Hp]]. assert (E := C). apply csr_rows in E. destruct E as [_ E].
    rewrite E in Ha. apply in_map_iff in Ha. destruct Ha as [u [<- Hu]]. apply Zseq_In in Hu. apply csr_row_In in Hp.
    rewrite stored_sum_total in Hp. exists u, (fst p). fold (interacts es u (fst p)) in Hp. split; [|tauto].
    apply position_iff; auto. split; [lia|]. split; [tauto|]. destruct Hp as [_ [[y Hy] _]]. unfold csr_cols.
    assert (L := max_index_le (map (fun e => snd (fst e)) es) (fst p)).
    assert (Z.to_nat (fst p) <= max_index (map (fun e => snd (fst e)) es))%nat by (apply L; apply in_map_iff; exists (u, fst p, y); auto). lia.
  - intros [u [c [P [[y Hy] ->]]]]. exists (c, interaction_sum es u c). split; auto. apply in_concat. exists (csr_row es u). split.
    + eapply nth_error_In. eapply csr_has; eauto. apply I in Hy. tauto.
    + destruct (csr_row_profile es u I) as [_ Pr]. apply Pr. split; auto. exists y. auto.
Qed.
Lemma extreme_pick pick (Ppick : forall x y, pick x y = x \/ pick x y = y) (le : R -> R -> Prop)
  (Hf : forall l x, In (fold_left pick l x) (x :: l)) (Hb : forall l x y, In y (x :: l) -> le y (fold_left pick l x))
  (Hl : forall x y, le x (pick x y)) (Hr : forall x y, le y (pick x y)) (Ht : forall x y z, le x y -> le y z -> le x z) es rows :
  csr es = Ok rows -> es <> [] -> indices es ->
  (forall u c, position es u c -> le (interaction_sum es u c) (extreme pick rows (csr_cols es))) /\
  (exists u c, position es u c /\ interaction_sum es u c = extreme pick rows (csr_cols es)).
Proof.
  intros C N I. assert (V := values_In es rows). assert (L := values_length es rows C N I).
  assert (X : values_of rows <> []).
  { destruct es as [|[[u c] x] es'] eqn:E; [congruence|]. rewrite <- E in *. intros Z.
    assert (Hin : In (interaction_sum es u c) (values_of rows)).
    { apply V; auto. exists u, c. assert (Hu : interacts es u c) by (exists x; subst; left; auto). split; [|auto]. destruct Hu as [y Hy].
      assert (Iu := I _ Hy). simpl in Iu. split; [tauto|]. split; [tauto|]. split; exists (u, c, y); split; auto; simpl; lia. }
    rewrite Z in Hin. contradiction. }
  unfold extreme. destruct (values_of rows) as [|x l] eqn:E; [congruence|]. rewrite <- E. rewrite <- E in L.
  assert (Hx : In (fold_left pick l x) (values_of rows)) by (rewrite E; apply Hf).
  assert (Vf := proj1 (V _ C N I) (Hf l x)). clear V. assert (V := fun x => values_In es rows x C N I).
  destruct (length (values_of rows) =? length rows * csr_cols es)%nat eqn:Q.
  - apply Nat.eqb_eq in Q. assert (A := proj1 L Q). split.
    + intros u c P. apply Hb. rewrite <- E. apply V. exists u, c. auto.
    + destruct Vf as [u [c [P [_ F]]]]. exists u, c. auto.
  - apply Nat.eqb_neq in Q.
    assert (A : exists u c, position es u c /\ ~ interacts es u c).
    { destruct (forallb (fun u => forallb (fun c => stored es u c) (Zseq (csr_cols es)))
                  (Zseq (S (max_index (map (fun e => fst (fst e)) es))))) eqn:B.
      - exfalso. apply Q, L. intros u c P. apply position_iff in P; auto. rewrite forallb_forall in B.
        specialize (B u ltac:(apply Zseq_In; lia)). rewrite forallb_forall in B. specialize (B c ltac:(apply Zseq_In; lia)).
        apply stored_iff. auto.
      - assert (D : exists u, In u (Zseq (S (max_index (map (fun e => fst (fst e)) es)))) /\ forallb (fun c => stored es u c) (Zseq (csr_cols es)) = false).
        { clear -B. induction (Zseq (S _)) as [|u k IH]; [discriminate|]. simpl in B. apply andb_false_iff in B. destruct B as [B|B].
          - exists u. simpl; auto.
          - destruct (IH B) as [v [Hv Ev]]. exists v. simpl; auto. }
        destruct D as [u [Hu D]].
        assert (D' : exists c, In c (Zseq (csr_cols es)) /\ stored es u c = false).
        { clear -D. induction (Zseq (csr_cols es)) as [|c k IH]; [discriminate|]. simpl in D. apply andb_false_iff in D. destruct D as [D|D].
          - exists c. simpl; auto.
          - destruct (IH D) as [v [Hv Ev]]. exists v. simpl; auto. }
        destruct D' as [c [Hc D']]. exists u, c. apply Zseq_In in Hu, Hc. split; [apply position_iff; auto; lia|].
        intros H. apply stored_iff in H. congruence. }
    destruct A as [u0 [c0 [P0 N0]]]. split.
    + intros u c P. destruct (interacts_dec es u c) as [H|H].
      * apply Ht with (fold_left pick l x); [|apply Hl]. apply Hb. rewrite <- E. apply V. exists u, c. auto.
      * rewrite interaction_sum_none by auto. apply Hr.
    + destruct (Ppick (fold_left pick l x) 0) as [->| ->].
      * destruct Vf as [u [c [P [_ F]]]]. exists u, c. auto.
      * exists u0, c0. split; auto. apply interaction_sum_none. auto.
Qed.
Lemma diff_spread es rows : csr es = Ok rows -> es <> [] -> indices es -> is_spread es (diff es rows).
Proof.
  intros C N I.
  assert (X1 := extreme_pick Rmax (fun x y => ltac:(unfold Rmax; destruct (Rle_dec x y); auto)) Rle fold_Rmax_In
    ltac:(intros l x y [<-|H]; [apply (proj1 (fold_Rmax l x))|apply (proj2 (fold_Rmax l x)); auto]) Rmax_l Rmax_r Rle_trans es rows C N I).
  assert (X2 := extreme_pick Rmin (fun x y => ltac:(unfold Rmin; destruct (Rle_dec x y); auto)) Rge fold_Rmin_In
    ltac:(intros l x y [<-|H]; apply Rle_ge; [apply (proj1 (fold_Rmin l x))|apply (proj2 (fold_Rmin l x)); auto])
    ltac:(intros x y; apply Rle_ge, Rmin_l) ltac:(intros x y; apply Rle_ge, Rmin_r) Rge_trans es rows C N I).
  destruct X1 as [A [u [c [P E]]]]. destruct X2 as [A' [u' [c' [P' E']]]].
  unfold diff. split.
  - intros v d v' d' Q Q'. apply A in Q. apply A' in Q'. lra.
  - exists u, c, u', c'. split; auto. split; auto. lra.
Qed.
Lemma spread_unique es d d' : is_spread es d -> is_spread es d' -> d = d'.
Proof.
  intros [A [u [c [u' [c' [P [P' E]]]]]]] [B [v [e [v' [e' [Q [Q' F]]]]]]].
  assert (X := A v e v' e' Q Q'). assert (Y := B u c u' c' P P'). lra.
Qed.

(** ** entries in terms of profiles *)
Section Value.
Variable es : list (Z * Z * Qc).
Hypothesis I : indices es.
Variables u v : Z.
Hypothesis Pu : present es u.
Hypothesis Pv : present es v.
Variables a b : srow.
Hypothesis Ha : profile es u a.
Hypothesis Hb : profile es v b.
Variable coo : list (Z * Z * num).
Variable s : num.

Lemma entry_cosine_cf : sim_matrix_of CosineCf es = Ok coo ->
  (In (u, v, s) coo <-> exists r, s = Num r /\ dot (common a b) <> 0 /\ is_cosine (common a b) r).
Proof.
  intros H. destruct (sim_entry _ _ _ I H) as [rows [_ E]]. rewrite (E u v a b) by auto. apply cosine_cf_value; eapply profile_sorted; eauto.
Qed.
Lemma entry_pearson : sim_matrix_of Pearson es = Ok coo ->
  (In (u, v, s) coo <-> exists r m1 m2, s = Num r /\ is_avg (map fst (common a b)) m1 /\
    is_avg (map snd (common a b)) m2 /\ is_cosine (shifted (common a b) m1 m2) r).
Proof.
  intros H. destruct (sim_entry _ _ _ I H) as [rows [_ E]]. rewrite (E u v a b) by auto. apply pearson_value; eapply profile_sorted; eauto.
Qed.
Lemma entry_cosine : sim_matrix_of Cosine es = Ok coo ->
  (In (u, v, s) coo <-> exists r, s = Num r /\ common a b <> [] /\
    ((square a = 0 \/ square b = 0) /\ r = 0 \/
     0 < square a /\ 0 < square b /\ r * (sqrt (square a) * sqrt (square b)) = dot (common a b))).
Proof.
  intros H. destruct (sim_entry _ _ _ I H) as [rows [_ E]]. rewrite (E u v a b) by auto. apply cosine_value; eapply profile_sorted; eauto.
Qed.
Lemma entry_adjusted : sim_matrix_of AdjustedCosine es = Ok coo ->
  (In (u, v, s) coo <-> exists r m1 m2, s = Num r /\ is_avg (map snd a) m1 /\ is_avg (map snd b) m2 /\
     (exists p, In p (common a b) /\ fst p <> m1 /\ snd p <> m2) /\
     r * (sqrt (square (minus a m1)) * sqrt (square (minus b m2))) = dot (shifted (common a b) m1 m2)).
Proof.
  intros H. destruct (sim_entry _ _ _ I H) as [rows [_ E]]. rewrite (E u v a b) by auto.
  apply adjusted_value; eauto using profile_sorted; [exact (profile_nonempty es u a Pu Ha)|exact (profile_nonempty es v b Pv Hb)].
Qed.
Lemma entry_jaccard_iter : sim_matrix_of (Jaccard false) es = Ok coo ->
  (In (u, v, s) coo <-> exists r, s = Num r /\ common a b <> [] /\
     r * (INR (length a) + INR (length b) - INR (length (common a b))) = INR (length (common a b))).
Proof.
  intros H. destruct (sim_entry _ _ _ I H) as [rows [_ E]]. rewrite (E u v a b) by auto.
  apply jaccard_iter_value; eauto using profile_sorted.
Qed.
Lemma entry_jaccard_matrix : (forall p, In p a -> snd p <> 0) -> (forall p, In p b -> snd p <> 0) ->
  sim_matrix_of (Jaccard true) es = Ok coo ->
  (In (u, v, s) coo <-> exists r, s = Num r /\ common a b <> [] /\
     r * (INR (length a) + INR (length b) - INR (length (common a b))) = INR (length (common a b))).
Proof.
  intros Za Zb H. destruct (sim_entry _ _ _ I H) as [rows [_ E]]. rewrite (E u v a b) by auto. simpl.
  rewrite jaccard_versions; auto.
  - apply jaccard_iter_value; eauto using profile_sorted.
  - left. exact (profile_nonempty es u a Pu Ha).
Qed.
Lemma entry_msd d : is_spread es d -> sim_matrix_of Msd es = Ok coo ->
  (d <> 0 -> (In (u, v, s) coo <-> exists r, s = Num r /\ common a b <> [] /\
     (1 - r) * (d * d * INR (length (common a b))) = total (map (fun p => (fst p - snd p) * (fst p - snd p)) (common a b)))) /\
  (d = 0 -> (In (u, v, s) coo <-> s = Nan /\ common a b <> [])).
Proof.
  intros Sp H. destruct (sim_entry _ _ _ I H) as [rows [C E]].
  assert (N : es <> []) by (apply csr_rows in C; tauto).
  rewrite (spread_unique es d (diff es rows) Sp (diff_spread es rows C N I)). split.
  - intros Hd. rewrite (E u v a b) by auto. apply msd_value; eauto using profile_sorted.
  - intros Hd. rewrite (E u v a b) by auto. simpl. rewrite msd_eq, Hd, merge_common by eauto using profile_sorted.
    destruct (Req_b 0 0) eqn:Z; [|apply Req_b_false in Z; lra].
    destruct (common a b); simpl; split; try (intros X; discriminate).
    + intros [_ X]. congruence.
    + intros X. injection X as <-. split; auto. discriminate.
    + intros [-> _]. reflexivity.
Qed.
End Value.

(** ** what holds for all of them *)
Lemma pair_fn_good k es rows : csr es = Ok rows ->
  good_similarity (fun a => In a rows) (lowest k) (pair_fn k es rows).
Proof.
  intros C.
  assert (W : forall P lo f, good_similarity (fun _ => True) lo f -> good_similarity P lo f).
  { intros P lo f [G1 G2 G3 G4]. split; eauto. }
  destruct k as [| | |[]| |]; simpl.
  - apply W, adjusted_good.
  - apply W, cosine_good.
  - apply W, cosine_cf_good.
  - apply W, jaccard_matrix_good.
  - apply W, jaccard_iter_good.
  - destruct (Req_EM_T (diff es rows) 0) as [Z|Z].
    + assert (N : forall a b r, msd_pair (diff es rows) a b <> Some (Num r)).
      { intros a b r. rewrite msd_eq, Z. destruct (Req_b 0 0) eqn:Y; [|apply Req_b_false in Y; lra].
        destruct (length (merge a b) =? 0)%nat; discriminate. }
      split; intros; try (exfalso; eapply N; eassumption); auto. apply msd_sym.
    + destruct (Rlt_dec (extreme Rmin rows (csr_cols es)) (extreme Rmax rows (csr_cols es))) as [L|L].
      * destruct (msd_good _ _ L) as [G1 G2 G3 G4].
        assert (X := extreme_within rows (csr_cols es)). split; intros a b; intros; eauto.
      * (* no values at all *)
        assert (N : forall a, In a rows -> a = []).
        { intros a Ha. destruct a as [|p a]; auto. exfalso. apply L.
          pose proof (extreme_le rows (csr_cols es) (p :: a) p Ha (or_introl eq_refl)). unfold diff in Z. lra. }
        split; intros a b; intros; rewrite (N a) in * by auto; try discriminate; rewrite (N b) in * by auto; auto.
  - apply W, pearson_good.
Qed.

Lemma value_at_In' b c : sorted_row b -> forall p, In p b -> fst p = c -> value_at b c = Some (snd p).
Proof.
  induction 1 as [|q b S IH F]; intros p Hp E; [contradiction|]. unfold value_at. cbn [find].
  destruct (Z.eqb_spec (fst q) c).
  - destruct Hp as [->|Hp]; auto. rewrite Forall_forall in F. apply F in Hp. lia.
  - destruct Hp as [->|Hp]; [contradiction|]. apply (IH p Hp E).
Qed.

Lemma matrix_good k es coo : indices es -> sim_matrix_of k es = Ok coo ->
  NoDup (map fst coo) /\
  (forall i j s, In (i, j, s) coo <-> In (j, i, s) coo) /\
  (forall i j r, In (i, j, Num r) coo -> lowest k <= r <= 1) /\
  (forall i j r, In (i, j, Num r) coo -> exists r', In (i, i, Num r') coo /\ r <= r') /\
  (forall i j r, In (i, j, Num r) coo -> exists c, interacts es i c /\ interacts es j c).
Proof.
  intros I H. destruct (sim_matrix_rows k es coo H) as [rows [C [N M]]].
  destruct (pair_fn_good k es rows C) as [G1 G2 G3 G4]. split; auto. split; [|split; [|split]].
  - assert (D : forall i j s, In (i, j, s) coo -> In (j, i, s) coo).
    { intros i j s. rewrite !M. intros [a [b [Hi [Hj [Ha [Hb E]]]]]]. exists b, a. rewrite pair_fn_sym. tauto. }
    intros i j s. split; apply D.
  - intros i j r X. apply M in X. destruct X as [a [b [Hi [Hj [Ha [Hb E]]]]]]. apply (G1 a b r (nth_error_In _ _ Ha) (nth_error_In _ _ Hb) E).
  - intros i j r X. apply M in X. destruct X as [a [b [Hi [Hj [Ha [Hb E]]]]]].
    destruct (G3 a b r (nth_error_In _ _ Ha) (nth_error_In _ _ Hb) E) as [r' [E' L]]. exists r'. split; auto. apply M. exists a, a. tauto.
  - intros i j r X. apply M in X. destruct X as [a [b [Hi [Hj [Ha [Hb E]]]]]].
    assert (Dj : ~ disjoint a b) by (intros D; apply (G4 a b (nth_error_In _ _ Ha) (nth_error_In _ _ Hb) D r E)).
    assert (Ea := csr_nth es rows _ a C Ha). assert (Eb := csr_nth es rows _ b C Hb). rewrite Z2Nat.id in Ea, Eb by auto.
    assert (X : exists p q, In p a /\ In q b /\ fst p = fst q).
    { clear -Dj. destruct (existsb (fun p => existsb (fun q => Z.eqb (fst p) (fst q)) b) a) eqn:E.
      - apply existsb_exists in E. destruct E as [p [Hp E]]. apply existsb_exists in E. destruct E as [q [Hq E]]. apply Z.eqb_eq in E. eauto.
      - exfalso. apply Dj. intros p q Hp Hq Eq. assert (T : existsb (fun p => existsb (fun q => Z.eqb (fst p) (fst q)) b) a = true).
        { apply existsb_exists. exists p. split; auto. apply existsb_exists. exists q. split; auto. apply Z.eqb_eq. auto. }
        congruence. }
    destruct X as [p [q [Hp [Hq Eq]]]]. subst a b. apply csr_row_In in Hp, Hq. exists (fst p). split; [exact (proj1 (proj2 Hp))|].
    rewrite Eq. exact (proj1 (proj2 Hq)).
Qed.

(** ** no numbers *)
Lemma cosine_not_nan a b : cosine a b <> Some Nan.
Proof. rewrite cosine_eq. destruct (_ =? _)%nat; discriminate. Qed.
Lemma nan_cases k es coo i j : indices es -> sim_matrix_of k es = Ok coo -> In (i, j, Nan) coo ->
  k = Msd /\ is_spread es 0 \/
  k = Jaccard true /\ (forall c, interacts es i c -> interaction_sum es i c = 0) /\ (forall c, interacts es j c -> interaction_sum es j c = 0).
Proof.
  intros I H X. destruct (sim_matrix_rows k es coo H) as [rows [C [_ M]]]. apply M in X. destruct X as [a [b [Hi [Hj [Ha [Hb E]]]]]].
  assert (Ea := csr_nth es rows _ a C Ha). assert (Eb := csr_nth es rows _ b C Hb). rewrite Z2Nat.id in Ea, Eb by auto.
  destruct k as [| | |[]| |]; simpl in E.
  - exfalso. eapply cosine_not_nan; eauto.
  - exfalso. eapply cosine_not_nan; eauto.
  - exfalso. apply cosine_cf_merge in E. destruct E as [r [E _]]. discriminate.
  - right. split; auto. apply jaccard_matrix_nan in E. destruct E as [Na Nb].
    assert (Z : forall u c, nonzero (csr_row es u) = [] -> interacts es u c -> interaction_sum es u c = 0).
    { intros u c N Hc. destruct (csr_row_profile es u I) as [_ P]. assert (Hin := proj2 (P c _) (conj Hc eq_refl)).
      destruct (Req_EM_T (interaction_sum es u c) 0) as [|Nz]; auto. exfalso.
      assert (Y : In (c, interaction_sum es u c) (nonzero (csr_row es u))).
      { apply filter_In. split; auto. simpl. apply negb_true_iff. apply Req_b_false. auto. }
      rewrite N in Y. contradiction. }
    subst a b. split; intros c; apply Z; auto.
  - exfalso. apply jaccard_iter_merge in E. destruct E as [r [E _]]. discriminate.
  - left. split; auto. rewrite msd_eq in E. destruct (length _ =? 0)%nat; [discriminate|].
    destruct (Req_b (diff es rows) 0) eqn:Z; [|discriminate]. apply Req_b_true in Z. rewrite <- Z. apply diff_spread; auto.
    apply csr_rows in C. tauto.
  - exfalso. apply pearson_merge in E. destruct E as [r [m1 [m2 [E _]]]]. discriminate.
Qed.

(** ** when a matrix is returned *)
Lemma profile_row_In es rows u : csr es = Ok rows -> indices es -> present es u -> In (csr_row es u) rows.
Proof. intros C I [c [x H]]. eapply nth_error_In. eapply csr_has; eauto. apply I in H. tauto. Qed.
Lemma row_present es rows a p : csr es = Ok rows -> In a rows -> In p a ->
  exists u, a = csr_row es u /\ interacts es u (fst p) /\ snd p = interaction_sum es u (fst p).
Proof.
  intros C Ha Hp. apply In_nth_error in Ha. destruct Ha as [i Hi]. apply (csr_nth es) in Hi; auto. exists (Z.of_nat i). split; auto.
  subst a. apply csr_row_In in Hp. rewrite stored_sum_total in Hp. unfold interacts. tauto.
Qed.
Lemma product_returns f rows : exists coo, product_matrix f rows = Ok coo.
Proof. eexists. reflexivity. Qed.
Lemma loop_returns f rows : (forall a b, f a b = f b a) ->
  ((exists coo, loop_matrix f rows = Ok coo) <-> exists a b, In a rows /\ In b rows /\ f a b <> None).
Proof.
  intros Sym. split.
  - intros [coo H]. assert (M := loop_matrix_of f rows coo Sym H). unfold loop_matrix in H.
    destruct (loop_entries f rows) as [|[[i j] s] l]; [discriminate|]. injection H as <-. destruct M as [_ M].
    destruct (proj1 (M i j s) (or_introl eq_refl)) as [a [b [_ [_ [Ha [Hb E]]]]]]. exists a, b. split; [eapply nth_error_In; eauto|].
    split; [eapply nth_error_In; eauto|congruence].
  - intros [a [b [Ha [Hb N]]]]. destruct (loop_matrix f rows) as [coo|e] eqn:E; [eauto|]. exfalso.
    assert (X : e = ValueError) by (unfold loop_matrix in E; destruct (loop_entries f rows); congruence). subst e.
    apply N. apply (proj1 (loop_matrix_err f rows Sym) E); auto.
Qed.
Lemma err_value k es e : sim_matrix_of k es = Err e -> e = ValueError.
Proof.
  unfold sim_matrix_of. destruct (csr es) as [rows|e'] eqn:C; cbn [bind].
  - destruct k as [| | |[]| |]; unfold product_matrix, loop_matrix; try discriminate; destruct (loop_entries _ rows); congruence.
  - unfold csr in C. destruct es; congruence.
Qed.
Lemma csr_some es : es <> [] -> exists rows, csr es = Ok rows.
Proof. destruct es; [congruence|]. intros _. eexists. reflexivity. Qed.

Lemma returns_iff k es : indices es -> es <> [] ->
  ((exists coo, sim_matrix_of k es = Ok coo) <->
   match k with
   | CosineCf => exists u c, interacts es u c /\ interaction_sum es u c <> 0
   | Pearson => exists u c c', interacts es u c /\ interacts es u c' /\ interaction_sum es u c <> interaction_sum es u c'
   | _ => True
   end).
Proof.
  intros I N. destruct (csr_some es N) as [rows C]. unfold sim_matrix_of. rewrite C. cbn [bind].
  assert (F : exists a, In a rows /\ a <> []).
  { destruct es as [|[[u c] x] es']; [congruence|]. exists (csr_row ((u, c, x) :: es') u). split.
    - eapply profile_row_In; eauto. exists c, x. left; auto.
    - apply (profile_nonempty ((u, c, x) :: es') u); [exists c, x; left; auto|apply csr_row_profile; auto]. }
  destruct k as [| | |[]| |].
  - split; auto. intros _. apply product_returns.
  - split; auto. intros _. apply product_returns.
  - rewrite loop_returns by apply cosine_cf_sym. split.
    + intros [a [b [Ha [Hb X]]]]. destruct (cosine_cf a b) as [v|] eqn:E; [|congruence].
      apply cosine_cf_merge in E. destruct E as [r [_ [_ [P _]]]].
      assert (Y : square1 (merge a b) <> 0) by lra. apply square1_pos in Y. destruct Y as [p [Hp Np]].
      apply merge_In in Hp. destruct Hp as [c [H1 _]]. destruct (row_present es rows a _ C Ha H1) as [u [_ [Hu Eu]]].
      simpl in Hu, Eu. exists u, c. split; auto. congruence.
    + intros [u [c [Hu Nz]]]. exists (csr_row es u), (csr_row es u). assert (Pu : present es u) by (exists c; auto).
      assert (R := profile_row_In es rows u C I Pu). split; auto. split; auto.
      assert (Hp := proj2 (proj2 (csr_row_profile es u I) c (interaction_sum es u c)) (conj Hu eq_refl)).
      set (a := csr_row es u) in *.
      assert (S : 0 < square1 (merge a a)).
      { apply square1_In_pos. exists (interaction_sum es u c, interaction_sum es u c). split; auto.
        rewrite merge_self. apply in_map_iff. exists (c, interaction_sum es u c). auto. }
      assert (X : cosine_cf a a = Some (Num 1)); [|congruence]. apply cosine_cf_merge. exists 1. split; auto.
      split; [|apply cosine_self; auto; apply merge_self_eq].
      assert (E : dot (merge a a) = square1 (merge a a)).
      { apply total_map_ext. intros p Hp'. rewrite (merge_self_eq a p Hp'). reflexivity. }
      lra.
  - split; auto. intros _. apply product_returns.
  - split; auto. intros _. apply loop_returns; [apply jaccard_iter_sym|]. destruct F as [a [Ha Na]]. exists a, a. split; auto. split; auto.
    unfold jaccard_iter. rewrite merge_self, map_length. destruct a; [congruence|discriminate].
  - split; auto. intros _. apply loop_returns; [apply msd_sym|]. destruct F as [a [Ha Na]]. exists a, a. split; auto. split; auto.
    rewrite msd_eq. rewrite merge_self, map_length. destruct a; [congruence|]. cbn [length Nat.eqb]. destruct (Req_b _ 0); discriminate.
  - rewrite loop_returns by apply pearson_sym. split.
    + intros [a [b [Ha [Hb X]]]]. destruct (pearson a b) as [v|] eqn:E; [|congruence].
      apply pearson_merge in E. destruct E as [r [m1 [m2 [_ [A1 [_ [P _]]]]]]].
      assert (Y : square1 (shifted (merge a b) m1 m2) <> 0) by lra. apply square1_pos in Y. destruct Y as [q [Hq Nq]].
      apply in_map_iff in Hq. destruct Hq as [p [<- Hp]]. simpl in Nq.
      destruct (not_const (merge a b) m1 (ex_intro _ p (conj Hp Nq)) (fst p) A1) as [p' [Hp' Np']].
      apply merge_In in Hp, Hp'. destruct Hp as [c [H1 _]], Hp' as [c' [H1' _]].
      destruct (row_present es rows a _ C Ha H1) as [u [Eu [Hu Su]]]. destruct (row_present es rows a _ C Ha H1') as [u' [Eu' [Hu' Su']]].
      simpl in Hu, Su, Hu', Su'. exists u, c, c'. split; auto. rewrite Eu in H1'. apply csr_row_In in H1'. simpl in H1'.
      rewrite stored_sum_total in H1'. fold (interaction_sum es u c') in H1'. split; [unfold interacts; tauto|]. intros Q. lra.
    + intros [u [c [c' [Hu [Hu' Nz]]]]]. exists (csr_row es u), (csr_row es u). assert (Pu : present es u) by (exists c; auto).
      assert (R := profile_row_In es rows u C I Pu). split; auto. split; auto.
      assert (Hp := proj2 (proj2 (csr_row_profile es u I) c (interaction_sum es u c)) (conj Hu eq_refl)).
      assert (Hp' := proj2 (proj2 (csr_row_profile es u I) c' (interaction_sum es u c')) (conj Hu' eq_refl)).
      set (a := csr_row es u) in *. set (x := interaction_sum es u c) in *. set (x' := interaction_sum es u c') in *.
      assert (Na : merge a a <> []) by (rewrite merge_self; destruct a; [contradiction|discriminate]).
      destruct (avg_exists (map fst (merge a a))) as [m A]; [apply map_nil; auto|].
      assert (X : pearson a a = Some (Num 1)); [|congruence]. apply pearson_merge. exists 1, m, m. split; auto. split; auto.
      assert (E : map snd (merge a a) = map fst (merge a a)).
      { apply map_ext_in. intros p Hq. symmetry. apply (merge_self_eq a p Hq). }
      split; [rewrite E; auto|]. apply cosine_self.
      * intros p Hq. apply in_map_iff in Hq. destruct Hq as [q [<- Hq]]. simpl. rewrite (merge_self_eq a q Hq). reflexivity.
      * apply square1_In_pos. assert (B : forall d y, In (d, y) a -> y - m <> 0 -> exists p, In p (shifted (merge a a) m m) /\ fst p <> 0).
        { intros d y Hy Ny. exists (y - m, y - m). split; auto. apply in_map_iff. exists (y, y). split; auto. rewrite merge_self.
          apply in_map_iff. exists (d, y). auto. }
        destruct (Req_EM_T (x - m) 0) as [Z|Z]; [apply (B c' x')|apply (B c x)]; auto. lra.
Qed.
