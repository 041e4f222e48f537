(** Moving a relevant recommendation up: the metrics over rationals. *)
From Coq Require Import String.
From Coq Require Import List ZArith QArith Qcanon Bool Permutation Lia Lqa.
From Verif Require Import Py PyFacts MetricModel MetricSpec MetricFacts MetricFacts2 MetricFacts3 MoveSpec.
Import ListNotations.
Open Scope nat_scope.

Lemma first_k_swap {A} k (l1 : list A) x y l2 :
  first_k k (l1 ++ x :: y :: l2) = first_k k (l1 ++ y :: x :: l2) \/
  (first_k k (l1 ++ x :: y :: l2) = l1 ++ [x] /\ first_k k (l1 ++ y :: x :: l2) = l1 ++ [y]) \/
  exists t, first_k k (l1 ++ x :: y :: l2) = l1 ++ x :: y :: t /\ first_k k (l1 ++ y :: x :: l2) = l1 ++ y :: x :: t.
Proof.
  destruct k as [n|]; simpl; [|eauto]. rewrite !firstn_app.
  destruct (n - length l1) as [|[|m]] eqn:E; simpl.
  - auto.
  - right. left. rewrite firstn_all2 by lia. auto.
  - right. right. exists (firstn m l2). rewrite firstn_all2 by lia. auto.
Qed.

Lemma moved_up_incl better l l' : moved_up better l l' -> Permutation l l'.
Proof.
  induction 1; auto. rewrite <- IHmoved_up. apply Permutation_app_head. constructor.
Qed.

(** a relation between results that is a preorder and holds for one exchange
    holds for any number of them *)
Lemma no_worse_trans {A} (le : A -> A -> Prop) a b c : (forall x y z, le x y -> le y z -> le x z) ->
  no_worse le a b -> no_worse le b c -> no_worse le a c.
Proof. intros T H1 H2 v E. destruct (H1 v E) as (w & E2 & L). destruct (H2 w E2) as (u & E3 & L2). eauto. Qed.
Lemma no_worse_refl {A} (le : A -> A -> Prop) a : (forall x, le x x) -> no_worse le a a.
Proof. intros R v E. eauto. Qed.
Lemma moved_ind {A} (le : A -> A -> Prop) (better : value -> value -> Prop) (m : list value -> res A) :
  (forall x, le x x) -> (forall x y z, le x y -> le y z -> le x z) ->
  (forall l1 x y l2, better y x -> no_worse le (m (l1 ++ x :: y :: l2)) (m (l1 ++ y :: x :: l2))) ->
  forall l l', moved_up better l l' -> no_worse le (m l) (m l').
Proof.
  intros R T H l l' M. induction M; [apply no_worse_refl; auto|]. eapply no_worse_trans; eauto.
Qed.

Lemma nil_or {A} (l : list A) : l = [] \/ l <> [].
Proof. destruct l; [left; auto|right; discriminate]. Qed.

Section Q.
Variable rel : list value.
Let c (l : list value) : nat := n_common val_eqb l rel.

Lemma mem_relevant x : mem_b val_eqb x rel = true <-> is_relevant rel x.
Proof.
  rewrite (mem_key val_eqb id_key val_key), in_map_iff. unfold is_relevant, same_id. split.
  - intros (y & E & H). eauto.
  - intros (y & H & E). eauto.
Qed.
Lemma mem_irrelevant x : ~ is_relevant rel x -> mem_b val_eqb x rel = false.
Proof. intros H. destruct (mem_b val_eqb x rel) eqn:E; auto. apply mem_relevant in E. tauto. Qed.
Lemma c_perm a b : Permutation a b -> c a = c b.
Proof.
  intros P. apply Nat.le_antisymm; apply (n_common_mono val_eqb id_key val_key); intros v Hv.
  - eapply Permutation_in; eauto.
  - eapply Permutation_in; [apply Permutation_sym|]; eauto.
Qed.
Lemma c_swap k l1 x y l2 : more_relevant rel y x ->
  c (first_k k (l1 ++ x :: y :: l2)) <= c (first_k k (l1 ++ y :: x :: l2)) /\
  length (first_k k (l1 ++ x :: y :: l2)) = length (first_k k (l1 ++ y :: x :: l2)).
Proof.
  intros [Y X]. destruct (first_k_swap k l1 x y l2) as [->|[[-> ->]|(t & -> & ->)]]; auto.
  - split; [|rewrite !app_length; auto]. unfold c. rewrite !(n_common_snoc val_eqb id_key val_key).
    rewrite (mem_irrelevant x X). simpl. lia.
  - split; [|rewrite !app_length; auto]. apply Nat.eq_le_incl. apply c_perm. apply Permutation_app_head. constructor.
Qed.

Lemma recall_moved k l l' : moved_up (more_relevant rel) l l' ->
  no_worse Qle (recall l (karg k) (Some rel)) (recall l' (karg k) (Some rel)).
Proof.
  apply (moved_ind Qle (more_relevant rel) (fun l => recall l (karg k) (Some rel))); [apply Qle_refl|apply Qle_trans|].
  intros l1 x y l2 B v. destruct (nil_or rel) as [N|N]; [unfold recall; rewrite N; discriminate|].
  rewrite !recall_eq by auto. intros E. injection E as <-.
  eexists. split; [reflexivity|]. apply ratio_mono; [apply length_pos; auto|apply c_swap; auto].
Qed.
Lemma precision_moved k l l' : moved_up (more_relevant rel) l l' ->
  no_worse Qle (precision l (karg k) (Some rel)) (precision l' (karg k) (Some rel)).
Proof.
  apply (moved_ind Qle (more_relevant rel) (fun l => precision l (karg k) (Some rel))); [apply Qle_refl|apply Qle_trans|].
  intros l1 x y l2 B v. destruct (c_swap k l1 x y l2 B) as [C L].
  destruct (first_k k (l1 ++ x :: y :: l2)) as [|a t] eqn:ET.
  - unfold precision. rewrite trunc_karg, ET. simpl. rewrite nat_div_zero. discriminate.
  - assert (N : first_k k (l1 ++ x :: y :: l2) <> []) by congruence.
    assert (N' : first_k k (l1 ++ y :: x :: l2) <> []) by (intros Z; rewrite Z in L; discriminate).
    rewrite <- ET in *. rewrite !precision_eq by auto. intros E. injection E as <-.
    eexists. split; [reflexivity|]. rewrite <- L. apply ratio_mono; auto. apply length_pos; auto.
Qed.
Lemma hit_moved k l l' : one_kind (l ++ rel) -> moved_up (more_relevant rel) l l' ->
  no_worse Qle (hit_ratio l (karg k) (Some rel)) (hit_ratio l' (karg k) (Some rel)).
Proof.
  intros K M. induction M as [l|l1 x y l2 l' B M IH]; [apply no_worse_refl; apply Qle_refl|].
  assert (K' : one_kind ((l1 ++ y :: x :: l2) ++ rel)).
  { eapply one_kind_incl; [|exact K]. intros v. rewrite !in_app_iff. simpl. tauto. }
  eapply no_worse_trans; [apply Qle_trans| |apply IH; auto].
  destruct (nil_or rel) as [N|N]; intros v; [unfold hit_ratio; rewrite N; discriminate|]. rewrite !hit_eq by auto. intros E. injection E as <-.
  eexists. split; [reflexivity|].
  rewrite !kind_common.
  - apply ratio_mono; [|apply c_swap; auto]. apply dedup_pos. intros Z. apply map_eq_nil in Z. tauto.
  - eapply one_kind_incl; [|exact K']. intros v. rewrite !in_app_iff. intros [H|H]; auto. left. apply in_app_iff. eapply first_k_incl; eauto.
  - eapply one_kind_incl; [|exact K]. intros v. rewrite !in_app_iff. intros [H|H]; auto. left. apply in_app_iff. eapply first_k_incl; eauto.
Qed.

Lemma f_mono b p r p' r' : (0 <= b -> 0 < p -> 0 < r -> p <= p' -> r <= r' ->
  (1 + b) * p * r / (b * p + r) <= (1 + b) * p' * r' / (b * p' + r'))%Q.
Proof.
  intros B P R Lp Lr. assert (D : (0 < b * p + r)%Q) by nra. assert (D' : (0 < b * p' + r')%Q) by nra.
  apply Qle_shift_div_l; auto.
  setoid_replace ((1 + b) * p * r / (b * p + r) * (b * p' + r'))%Q
    with (((1 + b) * p * r * (b * p' + r')) / (b * p + r))%Q by (field; lra).
  apply Qle_shift_div_r; auto.
  assert (E1 : (p * r * r' <= p' * r * r')%Q).
  { apply Qmult_le_compat_r; [apply Qmult_le_compat_r; lra|lra]. }
  assert (E2 : (b * p * p' * r <= b * p * p' * r')%Q).
  { setoid_replace (b * p * p' * r)%Q with (r * (b * p * p'))%Q by ring.
    setoid_replace (b * p * p' * r')%Q with (r' * (b * p * p'))%Q by ring.
    apply Qmult_le_compat_r; auto. assert (0 <= b * p)%Q by nra. nra. }
  assert (E3 : (p * r * (b * p' + r') <= p' * r' * (b * p + r))%Q) by lra.
  setoid_replace ((1 + b) * p * r * (b * p' + r'))%Q with (p * r * (b * p' + r') * (1 + b))%Q by ring.
  setoid_replace ((1 + b) * p' * r' * (b * p + r))%Q with (p' * r' * (b * p + r) * (1 + b))%Q by ring.
  apply Qmult_le_compat_r; auto. lra.
Qed.
Lemma f_moved beta k l l' : moved_up (more_relevant rel) l l' ->
  no_worse Qle (f_score beta l (karg k) (Some rel)) (f_score beta l' (karg k) (Some rel)).
Proof.
  intros M v. unfold f_score.
  destruct (precision l (karg k) (Some rel)) as [p|] eqn:EP; [|discriminate].
  destruct (recall l (karg k) (Some rel)) as [r|] eqn:ER; [|discriminate]. cbn [bind].
  destruct (precision_moved k l l' M p EP) as (p' & -> & Lp).
  destruct (recall_moved k l l' M r ER) as (r' & -> & Lr). cbn [bind].
  assert (F : (0 < p /\ 0 < r)%Q \/ (p == 0 /\ r == 0)%Q).
  { assert (NR : rel <> []). { intros Z. rewrite Z in ER. discriminate. }
    assert (NP : first_k k l <> []).
    { intros Z. unfold precision in EP. rewrite trunc_karg, Z in EP. simpl in EP. rewrite nat_div_zero in EP. discriminate. }
    rewrite precision_eq in EP by auto. rewrite recall_eq in ER by auto. injection EP as <-. injection ER as <-.
    apply length_pos in NR. apply length_pos in NP.
    destruct (n_common val_eqb (first_k k l) rel) as [|n] eqn:EC.
    - right. split; apply ratio_zero; auto.
    - left. assert (G : forall m, 0 < m -> (0 < qn (S n) / qn m)%Q).
      { intros m Hm. pose proof (qn_pos m Hm). pose proof (qn_pos (S n) (Nat.lt_0_succ n)).
        apply Qlt_shift_div_l; lra. }
      split; apply G; auto. }
  unfold qdiv. destruct (Qeq_bool (beta * beta * p + r) 0) eqn:D; [discriminate|].
  intros E. injection E as <-. assert (B : (0 <= beta * beta)%Q) by nra. destruct F as [[P R]|[P R]].
  - assert (D' : (0 < beta * beta * p' + r')%Q) by nra.
    destruct (Qeq_bool (beta * beta * p' + r') 0) eqn:E'; [apply Qeq_bool_iff in E'; lra|].
    eexists. split; [reflexivity|]. apply f_mono; auto.
  - exfalso. apply Qeq_bool_neq in D. apply D. rewrite P, R. ring.
Qed.

(** ** average precision *)
Definition ap_term (done : list value) (r : value) : Q :=
  if mem_b val_eqb r rel && negb (mem_b val_eqb r done) then (qn (S (c done)) / qn (S (length done)))%Q else 0%Q.
Fixpoint ap_val (done todo : list value) : Q :=
  match todo with [] => 0%Q | r :: t => (ap_term done r + ap_val (done ++ [r]) t)%Q end.
Lemma ap_sum_val todo : forall done, ap_sum (done ++ todo) rel (S (length done)) todo = Ok (ap_val done todo).
Proof.
  induction todo as [|r t IH]; intros done; [reflexivity|]. cbn [ap_sum ap_val].
  rewrite take_app. specialize (IH (done ++ [r])). rewrite <- app_assoc in IH. cbn [app] in IH.
  rewrite app_length in IH. cbn [length] in IH. rewrite Nat.add_1_r in IH. rewrite IH.
  unfold ap_term. destruct (mem_b val_eqb r rel && negb (mem_b val_eqb r done)) eqn:E; [|reflexivity].
  change (Some (Z.of_nat (S (length done)))) with (karg (Some (S (length done)))).
  assert (F : first_k (Some (S (length done))) (done ++ r :: t) = done ++ [r]).
  { cbn [first_k]. replace (done ++ r :: t) with ((done ++ [r]) ++ t) by (rewrite <- app_assoc; reflexivity).
    replace (S (length done)) with (length (done ++ [r])) by (rewrite app_length; simpl; lia). apply firstn_app_len. }
  rewrite precision_eq by (rewrite F; destruct done; discriminate). rewrite F.
  rewrite (n_common_snoc val_eqb id_key val_key), E, app_length. cbn [length bind]. rewrite !Nat.add_1_r. reflexivity.
Qed.
Lemma ap_term_nonneg done r : (0 <= ap_term done r)%Q.
Proof.
  unfold ap_term. destruct (_ && _); [|lra]. apply Qle_shift_div_l; [apply qn_pos; lia|]. rewrite Qmult_0_l. apply qn_nonneg.
Qed.
Lemma mem_perm r a b : Permutation a b -> mem_b val_eqb r a = mem_b val_eqb r b.
Proof.
  intros P. apply eq_true_iff_eq. rewrite !(mem_key val_eqb id_key val_key).
  split; apply Permutation_in; apply Permutation_map; auto. apply Permutation_sym; auto.
Qed.
Lemma ap_val_perm t : forall a b, Permutation a b -> ap_val a t = ap_val b t.
Proof.
  induction t as [|r t IH]; intros a b P; [reflexivity|]. cbn [ap_val].
  rewrite (IH (a ++ [r]) (b ++ [r])) by (apply Permutation_app_tail; auto).
  unfold ap_term. rewrite (mem_perm r a b P), (c_perm a b P), (Permutation_length P). reflexivity.
Qed.
Lemma ap_val_app l1 : forall done t t', (ap_val (done ++ l1) t <= ap_val (done ++ l1) t')%Q ->
  (ap_val done (l1 ++ t) <= ap_val done (l1 ++ t'))%Q.
Proof.
  induction l1 as [|a l1 IH]; intros done t t' H; [rewrite !app_nil_r in H; exact H|]. cbn [app ap_val].
  apply Qplus_le_compat; [lra|]. apply IH. rewrite <- app_assoc. exact H.
Qed.
Lemma ap_term_irr done x : ~ is_relevant rel x -> ap_term done x = 0%Q.
Proof. intros X. unfold ap_term. rewrite (mem_irrelevant x X). reflexivity. Qed.
Lemma mem_other done x y : is_relevant rel y -> ~ is_relevant rel x -> mem_b val_eqb y (done ++ [x]) = mem_b val_eqb y done.
Proof.
  intros Y X. apply eq_true_iff_eq. rewrite !(mem_key val_eqb id_key val_key), map_app, in_app_iff. simpl.
  split; [|tauto]. intros [H|[H|[]]]; auto. exfalso. apply X. destruct Y as (z & Hz & E). exists z. split; auto.
  unfold same_id in *. congruence.
Qed.
Lemma ap_term_later done x y : is_relevant rel y -> ~ is_relevant rel x -> (ap_term (done ++ [x]) y <= ap_term done y)%Q.
Proof.
  intros Y X. unfold ap_term. rewrite (mem_other done x y Y X). destruct (_ && _); [|lra].
  assert (C : c (done ++ [x]) = c done).
  { unfold c. rewrite (n_common_snoc val_eqb id_key val_key), (mem_irrelevant x X). simpl. lia. }
  rewrite C, app_length. simpl length. rewrite Nat.add_1_r. apply Qle_shift_div_l; [apply qn_pos; lia|].
  set (a := qn (S (c done))). set (n := qn (S (length done))). set (m := qn (S (S (length done)))).
  assert (A : (0 <= a)%Q) by apply qn_nonneg. assert (M : (0 < m)%Q) by (apply qn_pos; lia).
  assert (NM : (n <= m)%Q) by (apply qn_le; lia).
  setoid_replace (a / m * n)%Q with (a * n / m)%Q by (field; lra). apply Qle_shift_div_r; auto. nra.
Qed.
Lemma ap_moved k l l' : moved_up (more_relevant rel) l l' ->
  no_worse Qle (average_precision l (karg k) (Some rel)) (average_precision l' (karg k) (Some rel)).
Proof.
  apply (moved_ind Qle (more_relevant rel) (fun l => average_precision l (karg k) (Some rel))); [apply Qle_refl|apply Qle_trans|].
  intros l1 x y l2 [Y X] v. unfold average_precision. rewrite !trunc_karg.
  pose proof (ap_sum_val (first_k k (l1 ++ x :: y :: l2)) []) as E1. pose proof (ap_sum_val (first_k k (l1 ++ y :: x :: l2)) []) as E2.
  cbn [app length] in E1, E2. rewrite E1, E2. cbn [bind]. clear E1 E2.
  assert (L : (ap_val [] (first_k k (l1 ++ x :: y :: l2)) <= ap_val [] (first_k k (l1 ++ y :: x :: l2)))%Q).
  { destruct (first_k_swap k l1 x y l2) as [->|[[-> ->]|(t & -> & ->)]]; [apply Qle_refl| |];
      apply ap_val_app; cbn [app ap_val].
    - rewrite (ap_term_irr l1 x X). pose proof (ap_term_nonneg l1 y). lra.
    - rewrite (ap_term_irr l1 x X), (ap_term_irr (l1 ++ [y]) x X). pose proof (ap_term_later l1 x y Y X).
      rewrite (ap_val_perm t ((l1 ++ [x]) ++ [y]) ((l1 ++ [y]) ++ [x])); [lra|].
      rewrite <- !app_assoc. apply Permutation_app_head. constructor. }
  revert L. generalize (ap_val [] (first_k k (l1 ++ x :: y :: l2))) (ap_val [] (first_k k (l1 ++ y :: x :: l2))).
  intros s s' L. unfold qdiv.
  assert (D : forall n : nat, (if Qeq_bool (qn n) 0 then Err ZeroDivisionError else Ok (s / qn n)%Q) = Ok v ->
    exists v', (if Qeq_bool (qn n) 0 then Err ZeroDivisionError else Ok (s' / qn n)%Q) = Ok v' /\ (v <= v')%Q).
  { intros [|n]; [discriminate|]. pose proof (qn_pos (S n) (Nat.lt_0_succ n)) as P.
    destruct (Qeq_bool (qn (S n)) 0); [discriminate|]. intros E. injection E as <-. eexists. split; [reflexivity|].
    unfold Qdiv. apply Qmult_le_compat_r; auto. apply Qinv_le_0_compat. lra. }
  destruct k as [n|]; cbn [karg option_map]; [|apply D]. rewrite <- Nat2Z.inj_min. apply D.
Qed.
End Q.

(** ** reciprocal rank *)
Lemma index_app x a b : index_of val_eqb x (a ++ b) =
  match index_of val_eqb x a with Some p => Some p | None => option_map (Nat.add (length a)) (index_of val_eqb x b) end.
Proof.
  induction a as [|z a IH]; simpl; [destruct (index_of val_eqb x b); reflexivity|].
  destruct (val_eqb x z); auto. rewrite IH. destruct (index_of val_eqb x a); auto.
  destruct (index_of val_eqb x b); auto.
Qed.
Lemma rr_index r l k : reciprocal_rank l (karg k) (Some r) =
  match index_of val_eqb r (first_k k l) with Some p => nat_div 1 (p + 1) | None => Ok 0%Q end.
Proof.
  unfold reciprocal_rank. rewrite trunc_karg. induction (first_k k l) as [|z t IH]; [reflexivity|]. simpl.
  destruct (val_eqb r z); [reflexivity|]. simpl. destruct (index_of val_eqb r t) eqn:E.
  - destruct (mem_b val_eqb r t) eqn:M; auto. exfalso. clear IH.
    revert n E M. induction t as [|w t IH]; intros n; simpl; [discriminate|].
    destruct (val_eqb r w); simpl; [discriminate|]. destruct (index_of val_eqb r t); [|discriminate]. eauto.
  - exact IH.
Qed.
Lemma rr_moved r k l l' : moved_up (more_relevant [r]) l l' ->
  no_worse Qle (reciprocal_rank l (karg k) (Some r)) (reciprocal_rank l' (karg k) (Some r)).
Proof.
  apply (moved_ind Qle (more_relevant [r]) (fun l => reciprocal_rank l (karg k) (Some r))); [apply Qle_refl|apply Qle_trans|].
  intros l1 x y l2 [Y X] v. rewrite !rr_index.
  assert (Ey : val_eqb r y = true).
  { apply val_key. destruct Y as (z & [<-|[]] & E). symmetry. exact E. }
  assert (Ex : val_eqb r x = false).
  { apply val_key_false. intros C. apply X. exists r. split; [left; auto|]. symmetry. exact C. }
  destruct (first_k_swap k l1 x y l2) as [->|[[-> ->]|(t & -> & ->)]].
  - intros E. exists v. split; auto. apply Qle_refl.
  - rewrite !index_app. destruct (index_of val_eqb r l1); [intros E; exists v; split; auto; apply Qle_refl|].
    simpl. rewrite Ex, Ey. simpl. intros E. injection E as <-. rewrite nat_div_ok by lia. eexists. split; [reflexivity|].
    apply Qle_shift_div_l; [apply qn_pos; lia|]. rewrite Qmult_0_l. apply qn_nonneg.
  - rewrite !index_app. destruct (index_of val_eqb r l1); [intros E; exists v; split; auto; apply Qle_refl|].
    simpl. rewrite Ex, Ey. simpl. rewrite !nat_div_ok by lia. intros E. injection E as <-. eexists. split; [reflexivity|].
    assert (P : (0 < qn (length l1 + 1 + 1))%Q) by (apply qn_pos; lia).
    assert (P' : (0 < qn (length l1 + 0 + 1))%Q) by (apply qn_pos; lia).
    assert (L : (qn (length l1 + 0 + 1) <= qn (length l1 + 1 + 1))%Q) by (apply qn_le; lia).
    apply Qle_shift_div_l; auto.
    setoid_replace (qn 1 / qn (length l1 + 1 + 1) * qn (length l1 + 0 + 1))%Q
      with (qn (length l1 + 0 + 1) / qn (length l1 + 1 + 1))%Q by (change (qn 1) with 1%Q; field; lra).
    apply Qle_shift_div_r; auto. change (qn 1) with 1%Q. lra.
Qed.

(** ** longer moves *)
Lemma moved_trans better a b d : moved_up better a b -> moved_up better b d -> moved_up better a d.
Proof. induction 1; auto. intros. econstructor; eauto. Qed.
Lemma moved_cons better z a b : moved_up better a b -> moved_up better (z :: a) (z :: b).
Proof.
  induction 1 as [|l1 x y l2 l' B M IH]; [constructor|]. exact (moved_one better (z :: l1) x y l2 (z :: l') B IH).
Qed.
Lemma moved_pre (better : value -> value -> Prop) l a b : moved_up better a b -> moved_up better (l ++ a) (l ++ b).
Proof. intros M. induction l; simpl; auto. apply moved_cons; auto. Qed.
Lemma moved_jump (better : value -> value -> Prop) y mid l2 : (forall x, In x mid -> better y x) ->
  moved_up better (mid ++ y :: l2) (y :: mid ++ l2).
Proof.
  induction mid as [|x mid IH]; intros H; [constructor|]. simpl.
  eapply moved_trans; [apply moved_cons, IH; intros; apply H; right; auto|].
  apply (moved_one better [] x y (mid ++ l2)); [apply H; left; auto|constructor].
Qed.
Lemma moved_sink (better : value -> value -> Prop) x r l2 : (forall y, In y r -> better y x) ->
  moved_up better (x :: r ++ l2) (r ++ x :: l2).
Proof.
  induction r as [|y r IH]; intros H; [constructor|]. simpl.
  apply (moved_one better [] x y (r ++ l2)); [apply H; left; auto|]. simpl. apply moved_cons, IH. intros. apply H. right; auto.
Qed.
Lemma moved_first (rel good bad : list value) l : (forall y, In y good -> is_relevant rel y) ->
  (forall x, In x bad -> ~ is_relevant rel x) -> merge good bad l -> moved_up (more_relevant rel) l (good ++ bad).
Proof.
  intros G B M. induction M as [|y good bad l M IH|x good bad l M IH].
  - constructor.
  - simpl. apply moved_cons, IH; auto. intros; apply G; right; auto.
  - eapply moved_trans; [apply moved_cons, IH; auto; intros; apply B; right; auto|].
    apply moved_sink. intros y Hy. split; [apply G; auto|apply B; left; auto].
Qed.
