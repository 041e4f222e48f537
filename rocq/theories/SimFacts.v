(** Proofs about the similarity functions: sums, common columns, bounds. *)
From Coq Require Import List ZArith QArith Qcanon Qreals Reals Bool Sorted Lia Lra Psatz.
From Verif Require Import Py PyFacts SimModel SimSpec.
Import ListNotations.
Open Scope R_scope.

Lemma fold_Rplus l : forall a, fold_left Rplus l a = a + total l.
Proof. induction l as [|x l IH]; intros a; simpl; [lra|]. rewrite IH. lra. Qed.
Lemma Rsum_total l : Rsum l = total l.
Proof. unfold Rsum. rewrite fold_Rplus. lra. Qed.
Lemma Req_b_true x y : Req_b x y = true <-> x = y.
Proof. unfold Req_b. destruct (Req_EM_T x y); split; congruence. Qed.
Lemma Req_b_false x y : Req_b x y = false <-> x <> y.
Proof. unfold Req_b. destruct (Req_EM_T x y); split; congruence. Qed.
Lemma total_map_ext {A} (f g : A -> R) l : (forall x, In x l -> f x = g x) -> total (map f l) = total (map g l).
Proof. induction l as [|x l IH]; intros H; simpl; auto. rewrite H by (simpl; auto). rewrite IH; auto. intros; apply H; simpl; auto. Qed.
Lemma numerator_dot l : numerator l = dot l.
Proof. unfold numerator, dot. apply Rsum_total. Qed.
Lemma denominator_i_square l : denominator_i l = square1 l.
Proof. unfold denominator_i, square1. rewrite Rsum_total. apply total_map_ext. intros; ring. Qed.
Lemma denominator_j_square l : denominator_j l = square2 l.
Proof. unfold denominator_j, square2. rewrite Rsum_total. apply total_map_ext. intros; ring. Qed.

Lemma flat_map_ext_in {A B} (f g : A -> list B) l : (forall x, In x l -> f x = g x) -> flat_map f l = flat_map g l.
Proof. induction l as [|x l IH]; intros H; simpl; auto. rewrite H by (simpl; auto). rewrite IH; auto. intros; apply H; simpl; auto. Qed.

(** ** common columns *)
Lemma value_at_none b c : (forall q, In q b -> fst q <> c) -> value_at b c = None.
Proof.
  intros H. unfold value_at. destruct (find (fun p => Z.eqb (fst p) c) b) as [q|] eqn:E; auto.
  apply find_some in E. destruct E as [E1 E2]. apply Z.eqb_eq in E2. destruct (H q E1 E2).
Qed.
Lemma merge_common a : forall b, sorted_row a -> sorted_row b -> merge a b = common a b.
Proof.
  induction a as [|[i x] a IH]; intros b Sa; [reflexivity|].
  inversion Sa as [|p l Sa' Fa]; subst. induction b as [|[j y] b IHb]; intros Sb.
  - cbn [merge]. unfold common. cbn [flat_map fst snd value_at find]. symmetry. clear. induction a; simpl; auto.
  - inversion Sb as [|p l Sb' Fb]; subst. cbn [merge]. destruct (Z.ltb_spec j i) as [L|L].
    + change (merge ((i, x) :: a) b = common ((i, x) :: a) ((j, y) :: b)). rewrite IHb by auto.
      unfold common. apply flat_map_ext_in. intros p Hp.
      assert (j < fst p)%Z.
      { destruct Hp as [<-|Hp]; [exact L|]. rewrite Forall_forall in Fa. specialize (Fa p Hp). simpl in Fa. lia. }
      unfold value_at. cbn [find fst]. destruct (Z.eqb_spec j (fst p)); [lia|reflexivity].
    + destruct (Z.ltb_spec i j) as [L2|L2].
      * rewrite IH by auto. unfold common at 2. cbn [flat_map fst]. rewrite value_at_none; [reflexivity|].
        intros q [<-|Hq]; simpl; [lia|]. rewrite Forall_forall in Fb. specialize (Fb q Hq). simpl in Fb. lia.
      * assert (i = j) by lia. subst j. rewrite IH by auto. unfold common at 2. cbn [flat_map fst].
        unfold value_at at 1. cbn [find fst snd]. rewrite Z.eqb_refl. cbn [app snd]. f_equal.
        unfold common. apply flat_map_ext_in. intros p Hp.
        rewrite Forall_forall in Fa. specialize (Fa p Hp). simpl in Fa.
        unfold value_at. cbn [find fst]. destruct (Z.eqb_spec i (fst p)); [lia|reflexivity].
Qed.

Definition swap (p : R * R) : R * R := (snd p, fst p).
Lemma merge_sym a : forall b, merge b a = map swap (merge a b).
Proof.
  induction a as [|[i x] a IH]; intros b.
  - destruct b as [|[j y] b]; reflexivity.
  - induction b as [|[j y] b IHb]; [reflexivity|]. cbn [merge].
    destruct (Z.ltb_spec j i), (Z.ltb_spec i j); try lia.
    + exact IHb.
    + rewrite <- IH. reflexivity.
    + rewrite IH. reflexivity.
Qed.
Lemma merge_self a : merge a a = map (fun p => (snd p, snd p)) a.
Proof. induction a as [|[i x] a IH]; auto. cbn [merge]. rewrite Z.ltb_irrefl, IH. reflexivity. Qed.
Lemma merge_disjoint a : forall b, disjoint a b -> merge a b = [].
Proof.
  induction a as [|[i x] a IH]; intros b D; auto. induction b as [|[j y] b IHb]; auto. cbn [merge].
  assert (N : i <> j) by (apply (D (i, x) (j, y)); simpl; auto).
  assert (D1 : disjoint ((i, x) :: a) b) by (intros p q Hp Hq; apply D; simpl; auto).
  assert (D2 : disjoint a ((j, y) :: b)) by (intros p q Hp Hq; apply D; simpl; auto).
  destruct (Z.ltb_spec j i); [exact (IHb D1)|]. destruct (Z.ltb_spec i j); [exact (IH _ D2)|lia].
Qed.
Lemma merge_length a : forall b, (length (merge a b) <= length a /\ length (merge a b) <= length b)%nat.
Proof.
  induction a as [|[i x] a IH]; intros b; [simpl; lia|]. induction b as [|[j y] b IHb]; [simpl; lia|]. cbn [merge].
  destruct (Z.ltb_spec j i); [cbn [length merge] in *; lia|]. destruct (Z.ltb_spec i j).
  - specialize (IH ((j, y) :: b)). cbn [length] in *. lia.
  - specialize (IH b). cbn [length] in *. lia.
Qed.
Lemma merge_In a : forall b p, In p (merge a b) -> exists c, In (c, fst p) a /\ In (c, snd p) b.
Proof.
  induction a as [|[i x] a IH]; intros b p; [simpl; tauto|]. induction b as [|[j y] b IHb]; [simpl; tauto|]. cbn [merge].
  destruct (Z.ltb_spec j i); [intros H1; destruct (IHb H1) as [c [A B]]; exists c; simpl in *; tauto|].
  destruct (Z.ltb_spec i j).
  - intros H1. destruct (IH _ _ H1) as [c [A B]]. exists c. simpl in *; tauto.
  - intros [<-|H1]; [exists i; split; left; auto; f_equal; lia|]. destruct (IH _ _ H1) as [c [A B]]. exists c. simpl in *; tauto.
Qed.

(** ** sums *)
Lemma dot_swap l : dot (map swap l) = dot l.
Proof. unfold dot. rewrite map_map. apply total_map_ext. intros; unfold swap; simpl; ring. Qed.
Lemma square1_swap l : square1 (map swap l) = square2 l.
Proof. unfold square1, square2. rewrite map_map. reflexivity. Qed.
Lemma square2_swap l : square2 (map swap l) = square1 l.
Proof. unfold square1, square2. rewrite map_map. reflexivity. Qed.
Lemma total_nonneg {A} (f : A -> R) l : (forall x, 0 <= f x) -> 0 <= total (map f l).
Proof. intros H. induction l as [|x l IH]; simpl; [lra|]. specialize (H x). lra. Qed.
Lemma square1_nonneg l : 0 <= square1 l.
Proof. apply total_nonneg. intros; nra. Qed.
Lemma square2_nonneg l : 0 <= square2 l.
Proof. apply total_nonneg. intros; nra. Qed.
Lemma square_nonneg l : 0 <= square l.
Proof. apply total_nonneg. intros; nra. Qed.

Lemma cs_step S A B x y : 0 <= A -> 0 <= B -> S * S <= A * B ->
  (x * y + S) * (x * y + S) <= (x * x + A) * (y * y + B).
Proof.
  intros HA HB H. assert (K : 2 * (S * (x * y)) <= A * (y * y) + B * (x * x)).
  { destruct (Rle_dec (2 * (S * (x * y))) (A * (y * y) + B * (x * x))) as [L|L]; auto. exfalso. apply Rnot_le_lt in L.
    set (P := A * (y * y)) in *. set (Q := B * (x * x)) in *.
    assert (HP : 0 <= P) by (unfold P; apply Rmult_le_pos; nra). assert (HQ : 0 <= Q) by (unfold Q; apply Rmult_le_pos; nra).
    assert (E : (S * (x * y)) * (S * (x * y)) <= P * Q).
    { replace ((S * (x * y)) * (S * (x * y))) with (S * S * ((x * y) * (x * y))) by ring.
      replace (P * Q) with (A * B * ((x * y) * (x * y))) by (unfold P, Q; ring). apply Rmult_le_compat_r; nra. }
    assert (L2 : (P + Q) * (P + Q) < 2 * (S * (x * y)) * (2 * (S * (x * y)))) by (apply Rmult_le_0_lt_compat; lra).
    set (w := S * (x * y)) in *. clearbody w P Q. pose proof (Rle_0_sqr (P - Q)) as G. unfold Rsqr in G. lra. }
  replace ((x * y + S) * (x * y + S)) with (x * x * (y * y) + 2 * (S * (x * y)) + S * S) by ring.
  replace ((x * x + A) * (y * y + B)) with (x * x * (y * y) + (A * (y * y) + B * (x * x)) + A * B) by ring. lra.
Qed.
Lemma cauchy_schwarz l : dot l * dot l <= square1 l * square2 l.
Proof.
  unfold dot, square1, square2. induction l as [|[x y] l IH]; simpl; [lra|].
  apply cs_step; auto; apply total_nonneg; intros; nra.
Qed.
Lemma dot_zero1 l : square1 l = 0 -> dot l = 0.
Proof. intros E. pose proof (cauchy_schwarz l) as C. rewrite E in C. nra. Qed.
Lemma dot_zero2 l : square2 l = 0 -> dot l = 0.
Proof. intros E. pose proof (cauchy_schwarz l) as C. rewrite E in C. nra. Qed.

Lemma cos_of_spec l : 0 < square1 l -> 0 < square2 l -> forall s, cos_of l = s <-> is_cosine l s.
Proof.
  intros H1 H2 s. unfold cos_of, is_cosine. rewrite numerator_dot, denominator_i_square, denominator_j_square.
  assert (P : 0 < sqrt (square1 l) * sqrt (square2 l)) by (apply Rmult_lt_0_compat; apply sqrt_lt_R0; auto).
  split.
  - intros <-. repeat split; auto. field. split; apply Rgt_not_eq, sqrt_lt_R0; auto.
  - intros [_ [_ E]]. rewrite <- E. field. split; apply Rgt_not_eq, sqrt_lt_R0; auto.
Qed.
Lemma cosine_range l s : is_cosine l s -> -1 <= s <= 1.
Proof.
  intros [H1 [H2 E]]. set (d := sqrt (square1 l) * sqrt (square2 l)) in *.
  assert (P : 0 < d) by (apply Rmult_lt_0_compat; apply sqrt_lt_R0; auto).
  assert (D : d * d = square1 l * square2 l).
  { unfold d. replace (sqrt (square1 l) * sqrt (square2 l) * (sqrt (square1 l) * sqrt (square2 l)))
      with ((sqrt (square1 l) * sqrt (square1 l)) * (sqrt (square2 l) * sqrt (square2 l))) by ring.
    rewrite !sqrt_sqrt by lra. reflexivity. }
  pose proof (cauchy_schwarz l) as C. rewrite <- E, <- D in C.
  assert (X : s * s <= 1).
  { destruct (Rle_dec (s * s) 1) as [Y|Y]; auto. exfalso. apply Rnot_le_lt in Y.
    assert (0 < d * d) by nra. nra. }
  nra.
Qed.
Lemma is_cosine_unique l s s' : is_cosine l s -> is_cosine l s' -> s = s'.
Proof. intros H H'. destruct H as [H1 [H2 E]]. apply (cos_of_spec l H1 H2) in H'. assert (H : is_cosine l s) by (split; auto). apply (cos_of_spec l H1 H2) in H. congruence. Qed.
Lemma is_cosine_swap l s : is_cosine l s -> is_cosine (map swap l) s.
Proof.
  intros [H1 [H2 E]]. unfold is_cosine. rewrite square1_swap, square2_swap, dot_swap. repeat split; auto. rewrite <- E. ring.
Qed.
Lemma cos_of_swap l : cos_of (map swap l) = cos_of l.
Proof.
  unfold cos_of. rewrite !numerator_dot, !denominator_i_square, !denominator_j_square.
  rewrite square1_swap, square2_swap, dot_swap, (Rmult_comm (sqrt (square2 l))). reflexivity.
Qed.
Lemma cosine_self l : (forall p, In p l -> fst p = snd p) -> 0 < square1 l -> is_cosine l 1.
Proof.
  intros H P. assert (E2 : square2 l = square1 l) by (apply total_map_ext; intros; rewrite H; auto).
  assert (E : dot l = square1 l) by (apply total_map_ext; intros; rewrite H; auto).
  unfold is_cosine. rewrite E2, E. repeat split; auto. rewrite sqrt_sqrt; lra.
Qed.
Lemma square1_pos l : square1 l <> 0 <-> exists p, In p l /\ fst p <> 0.
Proof.
  unfold square1. induction l as [|[x y] l IH]; simpl.
  - split; [lra|]. intros [p [[] _]].
  - assert (N : 0 <= total (map (fun p => fst p * fst p) l)) by (apply total_nonneg; intros; nra).
    split.
    + intros H. destruct (Req_EM_T x 0) as [->|Hx]; [|exists (x, y); auto].
      assert (H' : total (map (fun p => fst p * fst p) l) <> 0) by lra. apply (proj1 IH) in H'. destruct H' as [p [Hp Np]]. exists p. auto.
    + intros [p [[<-|Hp] Np]].
      * simpl in Np. assert (0 < x * x) by nra. lra.
      * assert (H' : total (map (fun p => fst p * fst p) l) <> 0) by (apply IH; eauto). nra.
Qed.
Lemma square2_pos l : square2 l <> 0 <-> exists p, In p l /\ snd p <> 0.
Proof.
  rewrite <- square1_swap, square1_pos. split; intros [p [H N]].
  - apply in_map_iff in H. destruct H as [q [<- Hq]]. exists q. auto.
  - exists (swap p). split; auto. apply in_map. auto.
Qed.
