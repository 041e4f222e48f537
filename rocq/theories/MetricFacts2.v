(** Hit ratio, reciprocal rank, recall, precision, F-score. *)
From Coq Require Import String.
From Coq Require Import List ZArith QArith Qcanon Bool Permutation Sorted Lia Lqa.
From Verif Require Import Py PyFacts MetricModel MetricSpec MetricFacts.
Import ListNotations.
Open Scope nat_scope.

Lemma id_key_norm x : id_key x = val_norm x.
Proof. destruct x; reflexivity. Qed.
Lemma val_key x y : val_eqb x y = true <-> id_key x = id_key y.
Proof. rewrite !id_key_norm. apply val_eqb_norm. Qed.
Lemma val_key_false x y : val_eqb x y = false <-> ~ same_id x y.
Proof. unfold same_id. rewrite <- val_key. destruct (val_eqb x y); intuition congruence. Qed.
Lemma str_key (x y : string) : String.eqb x y = true <-> (fun s => s) x = (fun s => s) y.
Proof. apply String.eqb_eq. Qed.

Lemma trunc_karg {A} k (l : list A) : py_trunc (karg k) l = first_k k l.
Proof.
  destruct k as [n|]; simpl; auto. rewrite py_take_nonneg by lia. rewrite Nat2Z.id. reflexivity.
Qed.
Lemma first_k_incl {A} k (l : list A) : incl (first_k k l) l.
Proof. destruct k; simpl; [|apply incl_refl]. intros x. apply firstn_incl. Qed.
Lemma firstn_le_incl {A} n m (l : list A) : n <= m -> incl (firstn n l) (firstn m l).
Proof.
  intros H x Hx. assert (E : firstn n l = firstn n (firstn m l)) by (rewrite firstn_firstn; f_equal; lia).
  rewrite E in Hx. eapply firstn_incl; eauto.
Qed.
Lemma first_k_mono {A} k k' (l : list A) : k_le k k' -> incl (first_k k l) (first_k k' l).
Proof.
  destruct k as [n|], k' as [m|]; simpl; intros H; try tauto.
  - apply firstn_le_incl; auto.
  - intros x. apply firstn_incl.
  - apply incl_refl.
Qed.
Lemma first_k_idem {A} k (l : list A) : first_k k (first_k k l) = first_k k l.
Proof. destruct k; simpl; auto. rewrite firstn_firstn, Nat.min_id. reflexivity. Qed.

Definition qn (n : nat) : Q := inject_Z (Z.of_nat n).
Lemma qn_le a b : a <= b -> (qn a <= qn b)%Q.
Proof. intros H. unfold qn. rewrite <- Zle_Qle. lia. Qed.
Lemma qn_le_inv a b : (qn a <= qn b)%Q -> a <= b.
Proof. unfold qn. rewrite <- Zle_Qle. lia. Qed.
Lemma qn_pos a : 0 < a -> (0 < qn a)%Q.
Proof. intros H. unfold qn. change 0%Q with (inject_Z 0). rewrite <- Zlt_Qlt. lia. Qed.
Lemma qn_nonneg a : (0 <= qn a)%Q.
Proof. apply (qn_le 0 a). lia. Qed.
Lemma qn_eq a b : (qn a == qn b)%Q <-> a = b.
Proof. unfold qn. rewrite inject_Z_injective. lia. Qed.
Lemma qn_add a b : (qn (a + b) == qn a + qn b)%Q.
Proof. unfold qn. rewrite Nat2Z.inj_add, inject_Z_plus. reflexivity. Qed.

Lemma nat_div_ok a b : 0 < b -> nat_div a b = Ok (qn a / qn b)%Q.
Proof.
  intros H. unfold nat_div, qdiv. fold (qn a) (qn b). destruct (Qeq_bool (qn b) 0) eqn:E; auto.
  apply Qeq_bool_iff in E. pose proof (qn_pos b H). lra.
Qed.
Lemma nat_div_zero a : nat_div a 0 = Err ZeroDivisionError.
Proof. reflexivity. Qed.
Lemma ratio_range a b : 0 < b -> a <= b -> (0 <= qn a / qn b /\ qn a / qn b <= 1)%Q.
Proof.
  intros P H. pose proof (qn_pos b P). pose proof (qn_nonneg a). pose proof (qn_le a b H). split.
  - apply Qle_shift_div_l; lra.
  - apply Qle_shift_div_r; lra.
Qed.
Lemma ratio_zero a b : 0 < b -> (qn a / qn b == 0)%Q <-> a = 0.
Proof.
  intros P. pose proof (qn_pos b P). split.
  - intros E. apply qn_eq. change (qn 0) with 0%Q.
    assert (D : (qn a == (qn a / qn b) * qn b)%Q) by (field; lra). rewrite D, E. lra.
  - intros ->. change (qn 0) with 0%Q. field. lra.
Qed.
Lemma ratio_one a b : 0 < b -> (qn a / qn b == 1)%Q <-> a = b.
Proof.
  intros P. pose proof (qn_pos b P). split.
  - intros E. apply qn_eq.
    assert (D : (qn a == (qn a / qn b) * qn b)%Q) by (field; lra). rewrite D, E. lra.
  - intros ->. field. lra.
Qed.
Lemma ratio_mono a a' b : 0 < b -> a <= a' -> (qn a / qn b <= qn a' / qn b)%Q.
Proof.
  intros P H. pose proof (qn_pos b P). pose proof (qn_le _ _ H). apply Qle_shift_div_l; auto.
  assert (D : (qn a / qn b * qn b == qn a)%Q) by (field; lra). rewrite D. auto.
Qed.

(** ** str(id) is injective on ids of one kind *)
Lemma str_inj_kind l x y : one_kind l -> In x l -> In y l -> (str_of_value x = str_of_value y <-> same_id x y).
Proof.
  intros [H|H] Hx Hy; destruct (H _ Hx) as [a ->]; destruct (H _ Hy) as [b ->]; unfold same_id; simpl.
  - split.
    + intros E. apply str_of_Z_inj in E. congruence.
    + intros E. assert (a = b) as ->; auto.
      assert (V : val_eqb (VInt a) (VInt b) = true) by (apply val_key; exact E). simpl in V.
      apply Z.eqb_eq in V. exact V.
  - split; congruence.
Qed.

Lemma dedup_incl {A} eqb (l : list A) : incl (dedup eqb l) l.
Proof.
  unfold dedup. generalize (@nil A) as seen. induction l as [|x l IH]; intros seen z; simpl; auto.
  destruct (mem_b eqb x seen); simpl; intros H; [right; eapply IH; eauto|]. destruct H; auto. right; eapply IH; eauto.
Qed.
Lemma length_pos {A} (l : list A) : l <> [] -> 0 < length l.
Proof. destruct l; simpl; [tauto|lia]. Qed.
Lemma dedup_pos {A} eqb (l : list A) : l <> [] -> 0 < length (dedup eqb l).
Proof. destruct l as [|x l]; [tauto|]. unfold dedup. simpl. lia. Qed.

(** ** closed forms *)
Lemma recall_eq recs k rel : rel <> [] ->
  recall recs (karg k) (Some rel) = Ok (qn (n_common val_eqb (first_k k recs) rel) / qn (length rel))%Q.
Proof. intros H. unfold recall. rewrite trunc_karg. apply nat_div_ok. apply length_pos; auto. Qed.
Lemma precision_eq recs k rel : first_k k recs <> [] ->
  precision recs (karg k) (Some rel) = Ok (qn (n_common val_eqb (first_k k recs) rel) / qn (length (first_k k recs)))%Q.
Proof. intros H. unfold precision. rewrite trunc_karg. apply nat_div_ok. apply length_pos; auto. Qed.
Lemma hit_eq recs k rel : rel <> [] ->
  hit_ratio recs (karg k) (Some rel) =
  Ok (qn (n_common String.eqb (map str_of_value (first_k k recs)) (map str_of_value rel)) /
      qn (length (dedup String.eqb (map str_of_value rel))))%Q.
Proof.
  intros H. unfold hit_ratio. rewrite trunc_karg. apply nat_div_ok. apply dedup_pos. destruct rel; simpl; congruence.
Qed.

Lemma no_common a rel : n_common val_eqb a rel = 0 <-> forall x, In x a -> ~ is_relevant rel x.
Proof.
  rewrite (n_common_zero val_eqb id_key val_key). unfold is_relevant, same_id. split.
  - intros H x Hx (y & Hy & E). exact (H x y Hx Hy E).
  - intros H x y Hx Hy E. apply (H x Hx). eauto.
Qed.
Lemma no_common_str a rel : n_common String.eqb (map str_of_value a) (map str_of_value rel) = 0 <->
  forall x y, In x a -> In y rel -> str_of_value x <> str_of_value y.
Proof.
  rewrite (n_common_zero String.eqb (fun s => s) str_key). split.
  - intros H x y Hx Hy E. apply (H (str_of_value x) (str_of_value y)); auto using in_map.
  - intros H x y Hx Hy E. apply in_map_iff in Hx, Hy. destruct Hx as (u & <- & Hu). destruct Hy as (v & <- & Hv).
    exact (H u v Hu Hv E).
Qed.

(** ** C25 *)
Lemma recall_range recs k rel : rel <> [] -> returns (recall recs (karg k) (Some rel)) (fun q =>
  (0 <= q /\ q <= 1)%Q /\ ((q == 0)%Q <-> forall x, In x (first_k k recs) -> ~ is_relevant rel x)).
Proof.
  intros H. eexists. split; [apply recall_eq; auto|]. pose proof (length_pos _ H) as P. split.
  - apply ratio_range; auto. apply (n_common_le_r val_eqb id_key val_key).
  - rewrite ratio_zero by auto. apply no_common.
Qed.
Lemma precision_range recs k rel : first_k k recs <> [] -> returns (precision recs (karg k) (Some rel)) (fun q =>
  (0 <= q /\ q <= 1)%Q /\ ((q == 0)%Q <-> forall x, In x (first_k k recs) -> ~ is_relevant rel x)).
Proof.
  intros H. eexists. split; [apply precision_eq; auto|]. pose proof (length_pos _ H) as P. split.
  - apply ratio_range; auto. apply (n_common_le_l val_eqb id_key val_key).
  - rewrite ratio_zero by auto. apply no_common.
Qed.
Lemma hit_range recs k rel : rel <> [] -> returns (hit_ratio recs (karg k) (Some rel)) (fun q =>
  (0 <= q /\ q <= 1)%Q /\
  ((q == 0)%Q <-> forall x y, In x (first_k k recs) -> In y rel -> str_of_value x <> str_of_value y)).
Proof.
  intros H. eexists. split; [apply hit_eq; auto|].
  assert (P : 0 < length (dedup String.eqb (map str_of_value rel))) by (apply dedup_pos; destruct rel; simpl; congruence).
  split.
  - apply ratio_range; auto. apply (n_common_le_set String.eqb (fun s => s) str_key).
  - rewrite ratio_zero by auto. apply no_common_str.
Qed.
Lemma hit_zero_kind recs k rel q : rel <> [] -> one_kind (recs ++ rel) ->
  hit_ratio recs (karg k) (Some rel) = Ok q ->
  ((q == 0)%Q <-> forall x, In x (first_k k recs) -> ~ is_relevant rel x).
Proof.
  intros H K E. destruct (hit_range recs k rel H) as (q' & E' & _ & Z). rewrite E in E'. injection E' as <-.
  rewrite Z. split.
  - intros S x Hx (y & Hy & C). apply (S x y Hx Hy). apply (str_inj_kind _ x y K); auto; apply in_app_iff; auto.
    left. apply (first_k_incl k recs); auto.
  - intros S x y Hx Hy C. apply (S x Hx). exists y. split; auto.
    apply (str_inj_kind _ x y K); auto; apply in_app_iff; auto. left. apply (first_k_incl k recs); auto.
Qed.

Lemma recall_mono recs k k' rel : rel <> [] -> k_le k k' -> exists q q',
  recall recs (karg k) (Some rel) = Ok q /\ recall recs (karg k') (Some rel) = Ok q' /\ (q <= q')%Q.
Proof.
  intros H L. do 2 eexists. split; [apply recall_eq; auto|]. split; [apply recall_eq; auto|].
  apply ratio_mono; [apply length_pos; auto|]. apply (n_common_mono val_eqb id_key val_key). apply first_k_mono; auto.
Qed.
Lemma hit_mono recs k k' rel : rel <> [] -> k_le k k' -> exists q q',
  hit_ratio recs (karg k) (Some rel) = Ok q /\ hit_ratio recs (karg k') (Some rel) = Ok q' /\ (q <= q')%Q.
Proof.
  intros H L. do 2 eexists. split; [apply hit_eq; auto|]. split; [apply hit_eq; auto|].
  apply ratio_mono; [apply dedup_pos; destruct rel; simpl; congruence|].
  apply (n_common_mono String.eqb (fun s => s) str_key).
  intros s Hs. apply in_map_iff in Hs. destruct Hs as (x & <- & Hx). apply in_map. eapply first_k_mono; eauto.
Qed.

(** two encodings of the same set have equally many common elements *)
Lemma kind_common recs rel : one_kind (recs ++ rel) ->
  n_common String.eqb (map str_of_value recs) (map str_of_value rel) = n_common val_eqb recs rel.
Proof.
  intros K.
  assert (S : forall x y, In x (recs ++ rel) -> In y (recs ++ rel) ->
              String.eqb (str_of_value x) (str_of_value y) = val_eqb x y).
  { intros x y Hx Hy. apply eq_true_iff_eq. rewrite String.eqb_eq, val_key. apply (str_inj_kind _ x y K); auto. }
  assert (M : forall x l, In x (recs ++ rel) -> incl l (recs ++ rel) ->
              mem_b String.eqb (str_of_value x) (map str_of_value l) = mem_b val_eqb x l).
  { intros x l Hx. induction l as [|y l IH]; intros I; simpl; auto.
    rewrite S, IH; auto. - intros z Hz; apply I; simpl; auto. - apply I; simpl; auto. }
  assert (D : forall l, incl l (recs ++ rel) ->
              dedup String.eqb (map str_of_value l) = map str_of_value (dedup val_eqb l)).
  { induction l as [|r l IH] using rev_ind; intros I; auto.
    rewrite map_app. simpl. rewrite (dedup_snoc String.eqb (fun s => s) str_key), (dedup_snoc val_eqb id_key val_key).
    rewrite IH by (intros z Hz; apply I; apply in_app_iff; auto).
    rewrite M; [|apply I; apply in_app_iff; simpl; auto|intros z Hz; apply I; apply in_app_iff; auto].
    rewrite map_app. destruct (mem_b val_eqb r l); reflexivity. }
  unfold n_common. rewrite !D by (intros z Hz; apply in_app_iff; auto).
  assert (Il : incl (dedup val_eqb recs) (recs ++ rel)).
  { intros z Hz. apply in_app_iff. left. eapply dedup_incl; eauto. }
  assert (Ir : incl (dedup val_eqb rel) (recs ++ rel)).
  { intros z Hz. apply in_app_iff. right. eapply dedup_incl; eauto. }
  revert Il. induction (dedup val_eqb recs) as [|x l IH]; intros Il; simpl; auto.
  rewrite M by (auto; apply Il; simpl; auto).
  assert (T : incl l (recs ++ rel)) by (intros z Hz; apply Il; simpl; auto). specialize (IH T).
  destruct (mem_b val_eqb x (dedup val_eqb rel)); simpl; rewrite IH; reflexivity.
Qed.
Lemma kind_dedup rel : one_kind rel -> distinct rel -> length (dedup String.eqb (map str_of_value rel)) = length rel.
Proof.
  intros K D. rewrite (dedup_distinct String.eqb (fun s => s) str_key); [apply map_length|].
  rewrite map_id. unfold distinct in D.
  assert (G : forall l, incl l rel -> NoDup (map id_key l) -> NoDup (map str_of_value l)).
  { induction l as [|x l IH]; intros I N; simpl in *; [constructor|]. inversion N; subst. constructor.
    - intros C. apply H1. apply in_map_iff in C. destruct C as (y & E & Hy). apply in_map_iff. exists y. split; auto.
      apply (str_inj_kind _ y x K); auto; apply I; simpl; auto.
    - apply IH; auto. intros z Hz. apply I. simpl; auto. }
  apply G; auto. apply incl_refl.
Qed.
Lemma one_kind_incl l l' : incl l l' -> one_kind l' -> one_kind l.
Proof. intros I [H|H]; [left|right]; intros v Hv; apply H; auto. Qed.
Lemma hit_is_recall recs k rel : rel <> [] -> one_kind (recs ++ rel) -> distinct rel ->
  hit_ratio recs (karg k) (Some rel) = recall recs (karg k) (Some rel).
Proof.
  intros H K D. rewrite hit_eq, recall_eq by auto.
  rewrite kind_common; [rewrite kind_dedup; auto|].
  - eapply one_kind_incl; [|exact K]. intros z Hz. apply in_app_iff; auto.
  - eapply one_kind_incl; [|exact K]. intros z Hz. apply in_app_iff in Hz. apply in_app_iff. destruct Hz; auto.
    left. apply (first_k_incl k recs); auto.
Qed.

(** ** C26 *)
Lemma recall_full recs k rel : rel <> [] -> distinct rel ->
  (forall y, In y rel -> exists x, In x (first_k k recs) /\ same_id x y) ->
  returns (recall recs (karg k) (Some rel)) (fun q => (q == 1)%Q).
Proof.
  intros H D A. eexists. split; [apply recall_eq; auto|]. apply ratio_one; [apply length_pos; auto|].
  rewrite (n_common_all val_eqb id_key val_key) by auto. apply (dedup_distinct val_eqb id_key val_key). exact D.
Qed.
(** with repetitions the number of distinct relevant items is compared to the list's length *)
Lemma recall_full_gen recs k rel : rel <> [] ->
  (forall y, In y rel -> exists x, In x (first_k k recs) /\ same_id x y) ->
  returns (recall recs (karg k) (Some rel)) (fun q => (q == qn (length (dedup val_eqb rel)) / qn (length rel))%Q).
Proof.
  intros H A. eexists. split; [apply recall_eq; auto|].
  rewrite (n_common_all val_eqb id_key val_key) by auto. reflexivity.
Qed.
Lemma hit_full recs k rel : rel <> [] ->
  (forall y, In y rel -> exists x, In x (first_k k recs) /\ str_of_value x = str_of_value y) ->
  returns (hit_ratio recs (karg k) (Some rel)) (fun q => (q == 1)%Q).
Proof.
  intros H A. eexists. split; [apply hit_eq; auto|]. apply ratio_one; [apply dedup_pos; destruct rel; simpl; congruence|].
  apply (n_common_all String.eqb (fun s => s) str_key).
  intros s Hs. apply in_map_iff in Hs. destruct Hs as (y & <- & Hy). destruct (A y Hy) as (x & Hx & E).
  exists (str_of_value x). split; auto. apply in_map; auto.
Qed.
Lemma n_common_left_all a b : distinct a -> (forall x, In x a -> is_relevant b x) -> n_common val_eqb a b = length a.
Proof.
  intros D A. destruct (common_spec val_eqb id_key val_key a b) as (N & L & I). rewrite <- L, <- (map_length id_key a).
  apply Permutation_length. apply NoDup_Permutation; auto. intros v. rewrite I. split; [tauto|]. intros Hv. split; auto.
  apply in_map_iff in Hv. destruct Hv as (x & <- & Hx). destruct (A x Hx) as (y & Hy & E).
  unfold same_id in E. rewrite E. apply in_map; auto.
Qed.
Lemma n_common_left_all_inv a b : n_common val_eqb a b = length a -> distinct a /\ forall x, In x a -> is_relevant b x.
Proof.
  intros E. destruct (common_spec val_eqb id_key val_key a b) as (N & L & I).
  assert (Inc : incl (common val_eqb id_key a b) (map id_key a)) by (intros v Hv; apply I in Hv; tauto).
  assert (Len : length (map id_key a) <= length (common val_eqb id_key a b)) by (rewrite map_length, L, E; lia).
  pose proof (NoDup_length_incl N Len Inc) as R. split.
  - unfold distinct. apply (NoDup_incl_NoDup (l:=common val_eqb id_key a b)); auto.
  - intros x Hx. assert (H : In (id_key x) (common val_eqb id_key a b)) by (apply R; apply in_map; auto).
    apply I in H. destruct H as [_ H]. apply in_map_iff in H. destruct H as (y & Ey & Hy). exists y. split; auto.
    unfold same_id. congruence.
Qed.
Lemma precision_full recs k rel : first_k k recs <> [] ->
  (distinct (first_k k recs) /\ forall x, In x (first_k k recs) -> is_relevant rel x) <->
  returns (precision recs (karg k) (Some rel)) (fun q => (q == 1)%Q).
Proof.
  intros H. unfold returns. rewrite precision_eq by auto. split.
  - intros [D A]. eexists. split; [reflexivity|]. apply ratio_one; [apply length_pos; auto|].
    apply n_common_left_all; auto.
  - intros (q & E & One). injection E as <-. apply ratio_one in One; [|apply length_pos; auto].
    apply n_common_left_all_inv; auto.
Qed.

(** ** C27 *)
Lemma f_between beta recs k rel : rel <> [] -> (exists x, In x (first_k k recs) /\ is_relevant rel x) ->
  exists p r f, precision recs (karg k) (Some rel) = Ok p /\ recall recs (karg k) (Some rel) = Ok r /\
    f_score beta recs (karg k) (Some rel) = Ok f /\
    (0 < p /\ 0 < r /\ (p <= r -> p <= f /\ f <= r) /\ (r <= p -> r <= f /\ f <= p) /\ (p == r -> f == p))%Q.
Proof.
  intros H (x & Hx & Rx). assert (NE : first_k k recs <> []) by (intros C; rewrite C in Hx; destruct Hx).
  destruct (recall_range recs k rel H) as (r & Er & [R0 R1] & Zr).
  destruct (precision_range recs k rel NE) as (p & Ep & [P0 P1] & Zp).
  assert (Pp : (0 < p)%Q). { destruct (Qlt_le_dec 0 p); auto. exfalso. assert (Z : (p == 0)%Q) by lra. apply (proj1 Zp Z x Hx Rx). }
  assert (Pr : (0 < r)%Q). { destruct (Qlt_le_dec 0 r); auto. exfalso. assert (Z : (r == 0)%Q) by lra. apply (proj1 Zr Z x Hx Rx). }
  assert (B : (0 <= beta * beta)%Q) by nra.
  assert (Dn : (0 < beta * beta * p + r)%Q) by nra.
  exists p, r, ((1 + beta * beta) * p * r / (beta * beta * p + r))%Q.
  split; auto. split; auto. split.
  - unfold f_score. rewrite Ep, Er. cbn [bind]. unfold qdiv.
    destruct (Qeq_bool (beta * beta * p + r) 0) eqn:E; auto. apply Qeq_bool_iff in E. lra.
  - set (b := (beta * beta)%Q) in *. split; [auto|split; [auto|split; [|split]]].
    + intros L. split; [apply Qle_shift_div_l|apply Qle_shift_div_r]; auto.
      * assert (0 <= b * (r - p))%Q by (apply Qmult_le_0_compat; lra). nra.
      * assert (0 <= b * (r - p))%Q by (apply Qmult_le_0_compat; lra). nra.
    + intros L. split; [apply Qle_shift_div_l|apply Qle_shift_div_r]; auto.
      * assert (0 <= b * (p - r))%Q by (apply Qmult_le_0_compat; lra). nra.
      * assert (0 <= b * (p - r))%Q by (apply Qmult_le_0_compat; lra). nra.
    + intros E. assert (N : ~ (b * p + r == 0)%Q) by lra. rewrite <- E. field. lra.
Qed.

(** ** C28 *)
Lemma index_first x l p : index_of val_eqb x l = Some p <-> first_at x l p.
Proof.
  revert p; induction l as [|y l IH]; intros p; simpl.
  - split; [discriminate|]. intros [(z & E & _) _]. destruct p; discriminate.
  - destruct (val_eqb x y) eqn:E.
    + split.
      * intros I. injection I as <-. split; [exists y; split; auto; apply val_key; auto|intros; lia].
      * intros [_ F]. destruct p; auto. exfalso. apply (F 0 y); auto; [lia|]. apply val_key; auto.
    + apply val_key_false in E. destruct (index_of val_eqb x l) as [n|] eqn:En.
      * destruct (proj1 (IH n) eq_refl) as [(z & Ez & Sz) Fz]. split.
        -- intros I. injection I as <-. split; [exists z; auto|].
           intros q w Lq. destruct q; simpl; intros Ew; [injection Ew as <-; auto|]. apply (Fz q); auto. lia.
        -- intros [(w & Ew & Sw) Fw]. destruct p; simpl in Ew; [injection Ew as <-; contradiction|].
           f_equal. assert (FA : first_at x l p).
           { split; [eauto|]. intros q u Lq Eu. apply (Fw (S q) u); auto. lia. }
           apply IH in FA. congruence.
      * split; [discriminate|]. intros [(w & Ew & Sw) Fw]. destruct p; simpl in Ew; [injection Ew as <-; contradiction|].
        assert (FA : first_at x l p).
        { split; [eauto|]. intros q u Lq Eu. apply (Fw (S q) u); auto. lia. }
        apply IH in FA. discriminate.
Qed.
Lemma rr_found recs k x p : first_at x (first_k k recs) p ->
  returns (reciprocal_rank recs (karg k) (Some x)) (fun q => (q == 1 / inject_Z (Z.of_nat (p + 1)))%Q).
Proof.
  intros F. unfold reciprocal_rank. rewrite trunc_karg.
  assert (M : mem_b val_eqb x (first_k k recs) = true).
  { apply (mem_key val_eqb id_key val_key). destruct F as [(y & E & S) _]. unfold same_id in S. rewrite S.
    apply in_map. eapply nth_error_In; eauto. }
  cbn zeta. rewrite M. apply index_first in F. rewrite F. exists (qn 1 / qn (p + 1))%Q. split; [apply nat_div_ok; lia|reflexivity].
Qed.
Lemma rr_missing recs k x : (forall y, In y (first_k k recs) -> ~ same_id x y) ->
  reciprocal_rank recs (karg k) (Some x) = Ok 0%Q.
Proof.
  intros H. unfold reciprocal_rank. rewrite trunc_karg.
  assert (M : mem_b val_eqb x (first_k k recs) = false).
  { apply (mem_key_false val_eqb id_key val_key). intros I. apply in_map_iff in I. destruct I as (y & E & Hy).
    apply (H y Hy). unfold same_id. auto. }
  cbn zeta. rewrite M. reflexivity.
Qed.

(** ** C31 *)
Lemma trunc_trunc {A} k (l : list A) : py_trunc (karg k) (py_trunc (karg k) l) = py_trunc (karg k) l.
Proof. rewrite !trunc_karg. apply first_k_idem. Qed.
