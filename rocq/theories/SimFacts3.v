(** Proofs about the similarity functions: the sparse matrices. *)
From Coq Require Import List ZArith QArith Qcanon Qreals Reals Bool Sorted Lia Lra Psatz.
From Verif Require Import Py PyFacts MemModel MemFacts3 MemFacts6 SimModel SimSpec SimFacts SimFacts2.
Import ListNotations.
Open Scope R_scope.

(** ** the result matrices *)
Lemma NoDup_flat_map {A B} (f : A -> list B) l : NoDup l -> (forall x, In x l -> NoDup (f x)) ->
  (forall x y z, In x l -> In y l -> In z (f x) -> In z (f y) -> x = y) -> NoDup (flat_map f l).
Proof.
  induction 1 as [|x l N D IH]; simpl; intros H1 H2; [constructor|].
  assert (Hr : NoDup (flat_map f l)) by (apply IH; [intros; apply H1; auto|intros y z w Hy Hz; apply H2; auto]).
  assert (Hx : NoDup (f x)) by (apply H1; auto).
  assert (Dj : forall z, In z (f x) -> ~ In z (flat_map f l)).
  { intros z Hz Hl. apply in_flat_map in Hl. destruct Hl as [y [Hy Hzy]]. apply N.
    assert (E : x = y) by (apply (H2 x y z); auto). rewrite E. exact Hy. }
  clear -Hr Hx Dj. induction (f x) as [|z k IH]; auto. inversion Hx; subst. simpl. constructor.
  - rewrite in_app_iff. intros [H|H]; [contradiction|]. apply (Dj z); simpl; auto.
  - apply IH; auto. intros w Hw. apply Dj. simpl; auto.
Qed.
Lemma map_flat_map {A B C} (g : B -> C) (f : A -> list B) l : map g (flat_map f l) = flat_map (fun x => map g (f x)) l.
Proof. induction l as [|x l IH]; auto. simpl. rewrite map_app, IH. reflexivity. Qed.

Section Matrix.
Variable f : srow -> srow -> option num.
Variable rows : list srow.
Definition at_ (i j : nat) : option num := f (nth i rows []) (nth j rows []).

Lemma nth_rows i a : nth_error rows i = Some a <-> (i < length rows)%nat /\ nth i rows [] = a.
Proof.
  split.
  - intros H. split; [apply nth_error_Some; congruence|apply nth_error_nth; auto].
  - intros [H <-]. apply nth_error_nth'. auto.
Qed.
Lemma matrix_of_intro (coo : list (Z * Z * num)) : NoDup (map fst coo) ->
  (forall e, In e coo <-> exists i j s, (i < length rows)%nat /\ (j < length rows)%nat /\ at_ i j = Some s /\ e = (Z.of_nat i, Z.of_nat j, s)) ->
  matrix_of f rows coo.
Proof.
  intros N H. split; auto. intros i j s. rewrite H. split.
  - intros [i' [j' [s' [Hi [Hj [E1 E2]]]]]]. injection E2 as -> -> ->. exists (nth i' rows []), (nth j' rows []).
    rewrite !Nat2Z.id, !nth_rows. repeat split; auto; lia.
  - intros [a [b [Hi [Hj [Ha [Hb E]]]]]]. apply nth_rows in Ha, Hb. destruct Ha as [La <-], Hb as [Lb <-].
    exists (Z.to_nat i), (Z.to_nat j), s. repeat split; auto. rewrite !Z2Nat.id by lia. reflexivity.
Qed.

Lemma product_matrix_of coo : product_matrix f rows = Ok coo -> matrix_of f rows coo.
Proof.
  unfold product_matrix. cbv zeta. intros H. injection H as <-. apply matrix_of_intro.
  - rewrite map_flat_map. apply NoDup_flat_map; [apply seq_NoDup| |].
    + intros i _. rewrite map_flat_map. apply NoDup_flat_map; [apply seq_NoDup| |].
      * intros j _. destruct (f _ _); simpl; repeat constructor; simpl; tauto.
      * intros j j' z _ _ H1 H2. destruct (f (nth i rows []) (nth j rows [])), (f (nth i rows []) (nth j' rows [])); simpl in *; try tauto.
        destruct H1 as [<-|[]], H2 as [H2|[]]. injection H2 as H2. lia.
    + intros i i' z _ _ H1 H2. apply in_map_iff in H1, H2. destruct H1 as [p [<- H1]], H2 as [q [E H2]].
      apply in_flat_map in H1, H2. destruct H1 as [j [_ H1]], H2 as [j' [_ H2]].
      destruct (f (nth i rows []) (nth j rows [])), (f (nth i' rows []) (nth j' rows [])); simpl in *; try tauto.
      destruct H1 as [<-|[]], H2 as [<-|[]]. simpl in E. injection E as E _. lia.
  - intros e. rewrite in_flat_map. split.
    + intros [i [Hi H]]. apply in_flat_map in H. destruct H as [j [Hj H]]. apply in_seq in Hi, Hj.
      fold (at_ i j) in H. destruct (at_ i j) as [s|] eqn:E; [|contradiction]. destruct H as [<-|[]]. exists i, j, s. repeat split; auto; lia.
    + intros [i [j [s [Hi [Hj [E ->]]]]]]. exists i. split; [apply in_seq; lia|]. apply in_flat_map. exists j. split; [apply in_seq; lia|].
      fold (at_ i j). rewrite E. left. reflexivity.
Qed.

Definition loop_cell (i j : nat) : list (Z * Z * num) :=
  match at_ i j with
  | None => []
  | Some s => if (i =? j)%nat then [(Z.of_nat i, Z.of_nat j, s)]
              else [(Z.of_nat i, Z.of_nat j, s); (Z.of_nat j, Z.of_nat i, s)]
  end.
Lemma loop_cell_In i j e : In e (loop_cell i j) <-> exists s, at_ i j = Some s /\ (e = (Z.of_nat i, Z.of_nat j, s) \/ e = (Z.of_nat j, Z.of_nat i, s)).
Proof.
  unfold loop_cell. destruct (at_ i j) as [s|]; [|split; [contradiction|intros [s [H _]]; discriminate]].
  destruct (Nat.eqb_spec i j) as [->|N]; simpl; split.
  - intros [<-|[]]. eauto.
  - intros [s' [E [->| ->]]]; injection E as ->; auto.
  - intros [<-|[<-|[]]]; eauto.
  - intros [s' [E [->| ->]]]; injection E as ->; auto.
Qed.
Lemma loop_cell_key i j z : In z (map fst (loop_cell i j)) -> z = (Z.of_nat i, Z.of_nat j) \/ z = (Z.of_nat j, Z.of_nat i).
Proof. intros H. apply in_map_iff in H. destruct H as [p [<- H]]. apply loop_cell_In in H. destruct H as [s [_ [->| ->]]]; auto. Qed.

Lemma loop_entries_of (Sym : forall i j, at_ i j = at_ j i) : matrix_of f rows (loop_entries f rows).
Proof.
  unfold loop_entries. cbv zeta. set (n := length rows).
  change (matrix_of f rows (flat_map (fun i => flat_map (loop_cell i) (seq i (n - i))) (seq 0 n))).
  apply matrix_of_intro.
  - rewrite map_flat_map. apply NoDup_flat_map; [apply seq_NoDup| |].
    + intros i Hi. rewrite map_flat_map. apply NoDup_flat_map; [apply seq_NoDup| |].
      * intros j _. unfold loop_cell. destruct (at_ i j); simpl; [|constructor].
        destruct (Nat.eqb_spec i j); simpl; repeat constructor; simpl; try tauto. intros [H|[]]. injection H as H _. lia.
      * intros j j' z Hj Hj' H1 H2. apply in_seq in Hj, Hj'. apply loop_cell_key in H1, H2.
        destruct H1 as [->| ->], H2 as [E|E]; injection E; lia.
    + intros i i' z Hi Hi' H1 H2. rewrite map_flat_map in H1, H2. apply in_flat_map in H1, H2.
      destruct H1 as [j [Hj H1]], H2 as [j' [Hj' H2]]. apply in_seq in Hj, Hj', Hi, Hi'. apply loop_cell_key in H1, H2.
      destruct H1 as [->| ->], H2 as [E|E]; injection E; lia.
  - intros e. rewrite in_flat_map. split.
    + intros [i [Hi H]]. apply in_flat_map in H. destruct H as [j [Hj H]]. apply in_seq in Hi, Hj. apply loop_cell_In in H.
      destruct H as [s [E [->| ->]]]; [exists i, j, s|exists j, i, s]; repeat split; auto; try (fold n; lia). rewrite Sym. auto.
    + intros [i [j [s [Hi [Hj [E ->]]]]]]. fold n in Hi, Hj. destruct (Nat.le_ge_cases i j).
      * exists i. split; [apply in_seq; lia|]. apply in_flat_map. exists j. split; [apply in_seq; lia|]. apply loop_cell_In. eauto.
      * exists j. split; [apply in_seq; lia|]. apply in_flat_map. exists i. split; [apply in_seq; lia|]. apply loop_cell_In.
        exists s. rewrite Sym. auto.
Qed.
Lemma loop_matrix_of coo : (forall a b, f a b = f b a) -> loop_matrix f rows = Ok coo -> matrix_of f rows coo.
Proof.
  intros Sym H. assert (L := loop_entries_of (fun i j => Sym _ _)). unfold loop_matrix in H.
  destruct (loop_entries f rows); [discriminate|]. injection H as <-. exact L.
Qed.
Lemma loop_matrix_err : (forall a b, f a b = f b a) ->
  (loop_matrix f rows = Err ValueError <-> forall a b, In a rows -> In b rows -> f a b = None).
Proof.
  intros Sym. assert (L := loop_entries_of (fun i j => Sym _ _)). destruct L as [_ L]. unfold loop_matrix. split.
  - intros H a b Ha Hb. destruct (loop_entries f rows); [|discriminate]. destruct (f a b) as [s|] eqn:E; auto. exfalso.
    apply In_nth_error in Ha, Hb. destruct Ha as [i Hi], Hb as [j Hj].
    apply (proj2 (L (Z.of_nat i) (Z.of_nat j) s)). exists a, b. rewrite !Nat2Z.id. repeat split; auto; lia.
  - intros H. destruct (loop_entries f rows) as [|[[i j] s] l]; auto. exfalso.
    destruct (proj1 (L i j s) (or_introl eq_refl)) as [a [b [_ [_ [Ha [Hb E]]]]]]. apply nth_error_In in Ha, Hb. rewrite H in E by auto. discriminate.
Qed.
End Matrix.

(** ** the interaction matrix *)
Lemma max_index_le l z : In z l -> (Z.to_nat z <= max_index l)%nat.
Proof.
  unfold max_index. assert (G : forall k n, (n <= fold_left Nat.max k n)%nat /\ forall x, In x k -> (x <= fold_left Nat.max k n)%nat).
  { induction k as [|x k IH]; intros n; simpl; [split; [lia|tauto]|]. destruct (IH (Nat.max n x)) as [H1 H2]. split; [lia|].
    intros y [<-|H]; [lia|auto]. }
  intros H. apply G. apply in_map. auto.
Qed.
Lemma stored_iff es a c : stored es a c = true <-> exists x, In (a, c, x) es.
Proof.
  unfold stored. rewrite existsb_exists. split.
  - intros [[[u i] x] [H E]]. apply andb_true_iff in E. simpl in E. rewrite !Z.eqb_eq in E. destruct E as [-> ->]. eauto.
  - intros [x H]. exists (a, c, x). split; auto. simpl. rewrite !Z.eqb_refl. reflexivity.
Qed.
Lemma csr_row_In es a p : In p (csr_row es a) <-> (0 <= fst p)%Z /\ (exists x, In (a, fst p, x) es) /\ snd p = stored_sum es a (fst p).
Proof.
  unfold csr_row. rewrite in_flat_map. split.
  - intros [c [Hc H]]. apply Zseq_In in Hc. destruct (stored es a c) eqn:E; [|contradiction]. destruct H as [<-|[]]. simpl.
    apply stored_iff in E. repeat split; auto; lia.
  - intros [H0 [H1 H2]]. exists (fst p). split.
    + apply Zseq_In. destruct H1 as [x H1]. unfold csr_cols.
      assert (L := max_index_le (map (fun e => snd (fst e)) es) (fst p)).
      assert (Z.to_nat (fst p) <= max_index (map (fun e => snd (fst e)) es))%nat.
      { apply L. apply in_map_iff. exists (a, fst p, x). auto. }
      lia.
    + apply stored_iff in H1. rewrite H1. left. destruct p; simpl in *; congruence.
Qed.
Lemma csr_row_sorted es a : sorted_row (csr_row es a).
Proof.
  unfold csr_row, Zseq. generalize 0%nat. induction (csr_cols es) as [|n IH]; intros k; simpl; [constructor|].
  assert (F : Forall (fun q : Z * R => (Z.of_nat k < fst q)%Z)
     (flat_map (fun c : Z => if stored es a c then [(c, stored_sum es a c)] else []) (map Z.of_nat (seq (S k) n)))).
  { apply Forall_forall. intros q Hq. apply in_flat_map in Hq. destruct Hq as [c [Hc Hq]]. apply in_map_iff in Hc.
    destruct Hc as [j [<- Hj]]. apply in_seq in Hj. destruct (stored es a (Z.of_nat j)); [|contradiction]. destruct Hq as [<-|[]]. simpl. lia. }
  destruct (stored es a (Z.of_nat k)); simpl; [|apply IH]. constructor; [apply IH|exact F].
Qed.
Lemma stored_sum_total es a c :
  stored_sum es a c = total (map (fun e => Q2R (this (snd e))) (filter (fun e => (Z.eqb (fst (fst e)) a && Z.eqb (snd (fst e)) c)%bool) es)).
Proof. apply Rsum_total. Qed.
Lemma csr_rows es rows : csr es = Ok rows -> es <> [] /\
  rows = map (csr_row es) (Zseq (S (max_index (map (fun e => fst (fst e)) es)))).
Proof. unfold csr. destruct es; [discriminate|]. intros H. injection H as <-. split; [discriminate|reflexivity]. Qed.
Lemma csr_nth es rows i a : csr es = Ok rows -> nth_error rows i = Some a -> a = csr_row es (Z.of_nat i).
Proof.
  intros C H. apply csr_rows in C. destruct C as [_ ->]. rewrite nth_error_map in H. unfold Zseq in H. rewrite nth_error_map in H.
  destruct (nth_error (seq 0 _) i) eqn:E; [|discriminate]. simpl in H. injection H as <-. f_equal. f_equal.
  assert (L := nth_error_Some (seq 0 (S (max_index (map (fun e => fst (fst e)) es)))) i). rewrite E in L.
  assert (Hi : (i < length (seq 0 (S (max_index (map (fun e => fst (fst e)) es)))))%nat) by (apply L; discriminate).
  rewrite seq_length in Hi. apply (nth_error_nth _ _ 0%nat) in E. rewrite seq_nth in E by auto. lia.
Qed.
Lemma csr_has es rows u i x : csr es = Ok rows -> In (u, i, x) es -> (0 <= u)%Z ->
  nth_error rows (Z.to_nat u) = Some (csr_row es u).
Proof.
  intros C H P. apply csr_rows in C. destruct C as [_ ->]. rewrite nth_error_map, nth_error_Zseq; [reflexivity|].
  assert (L := max_index_le (map (fun e => fst (fst e)) es) u).
  assert (Z.to_nat u <= max_index (map (fun e => fst (fst e)) es))%nat by (apply L; apply in_map_iff; exists (u, i, x); auto). lia.
Qed.
Lemma csr_sorted es rows a : csr es = Ok rows -> In a rows -> sorted_row a.
Proof. intros C H. apply csr_rows in C. destruct C as [_ ->]. apply in_map_iff in H. destruct H as [z [<- _]]. apply csr_row_sorted. Qed.

(** ** the largest and the smallest value *)
Lemma fold_Rmax l : forall x, x <= fold_left Rmax l x /\ forall y, In y l -> y <= fold_left Rmax l x.
Proof.
  induction l as [|z l IH]; intros x; simpl; [split; [lra|tauto]|]. destruct (IH (Rmax x z)) as [H1 H2].
  pose proof (Rmax_l x z). pose proof (Rmax_r x z). split; [lra|]. intros y [<-|H']; [lra|auto].
Qed.
Lemma fold_Rmin l : forall x, fold_left Rmin l x <= x /\ forall y, In y l -> fold_left Rmin l x <= y.
Proof.
  induction l as [|z l IH]; intros x; simpl; [split; [lra|tauto]|]. destruct (IH (Rmin x z)) as [H1 H2].
  pose proof (Rmin_l x z). pose proof (Rmin_r x z). split; [lra|]. intros y [<-|H']; [lra|auto].
Qed.
Lemma extreme_within rows cols a : In a rows -> within (extreme Rmin rows cols) (extreme Rmax rows cols) a.
Proof.
  intros Ha p Hp. assert (V : In (snd p) (values_of rows)).
  { unfold values_of. apply in_map. apply in_concat. eauto. }
  unfold extreme. destruct (values_of rows) as [|x l]; [contradiction|].
  destruct (fold_Rmax l x) as [A1 A2]. destruct (fold_Rmin l x) as [B1 B2].
  assert (B : fold_left Rmin l x <= snd p <= fold_left Rmax l x) by (destruct V as [<-|V]; split; auto).
  destruct (_ =? _)%nat; [exact B|]. pose proof (Rmax_l (fold_left Rmax l x) 0). pose proof (Rmin_l (fold_left Rmin l x) 0). lra.
Qed.
Lemma extreme_le rows cols a p : In a rows -> In p a -> extreme Rmin rows cols <= extreme Rmax rows cols.
Proof. intros Ha Hp. pose proof (extreme_within rows cols a Ha p Hp). lra. Qed.
