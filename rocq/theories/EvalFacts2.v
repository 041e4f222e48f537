(** Proofs about the evaluation processes: what is computed for one user. *)
From Coq Require Import String Ascii DecimalString.
From Coq Require Import List ZArith QArith Qcanon Reals Bool Lia Permutation.
From Verif Require Import Py PyFacts MemModel MemSpec MemFacts MemFacts2 MemFacts4 MemFacts5 MemFacts7 SplitModel SplitFacts
  SampModel EvalModel EvalSpec EvalFacts.
From Verif Require RankFacts SplitFacts2.
Import ListNotations.
Open Scope string_scope.
Open Scope Z_scope.

(** ** positions *)
Lemma at_map {A B} (f : A -> B) l ps : at_positions (map f l) ps = map f (at_positions l ps).
Proof.
  unfold at_positions. rewrite map_flat_map. apply flat_map_ext. intros p. rewrite nth_error_map.
  destruct (nth_error l p); reflexivity.
Qed.
Lemma at_app {A} (l : list A) a b : at_positions l (a ++ b) = (at_positions l a ++ at_positions l b)%list.
Proof. unfold at_positions. apply flat_map_app. Qed.
Lemma at_all {A} (l : list A) : at_positions l (seq 0 (length l)) = l.
Proof.
  induction l as [|x l IH]; auto. cbn [length seq]. unfold at_positions. cbn [flat_map nth_error app]. f_equal.
  rewrite <- seq_shift. rewrite flat_map_map. exact IH.
Qed.
Lemma at_perm {A} (l : list A) ps : Permutation ps (seq 0 (length l)) -> Permutation (at_positions l ps) l.
Proof. intros P. rewrite <- (at_all l) at 2. apply Permutation_flat_map. auto. Qed.
Lemma at_length {A} (l : list A) ps : (forall p, In p ps -> (p < length l)%nat) -> length (at_positions l ps) = length ps.
Proof.
  induction ps as [|p ps IH]; intros H; auto. unfold at_positions. cbn [flat_map]. rewrite app_length.
  fold (at_positions l ps). rewrite IH by (intros; apply H; simpl; auto).
  destruct (nth_error l p) eqn:E; auto. apply nth_error_None in E. specialize (H p (or_introl eq_refl)). lia.
Qed.
Lemma NoDup_app_intro {A} (a b : list A) : NoDup a -> NoDup b -> (forall x, In x a -> ~ In x b) -> NoDup (a ++ b).
Proof.
  intros Na Nb D. induction a as [|x a IH]; auto. inversion Na; subst. cbn [app]. constructor.
  - rewrite in_app_iff. intros [H|H]; [contradiction|]. apply (D x); simpl; auto.
  - apply IH; auto. intros y Hy. apply D. simpl; auto.
Qed.
Lemma nodup_rest ps n : NoDup ps -> (forall p, In p ps -> (p < n)%nat) -> exists qs, Permutation (ps ++ qs) (seq 0 n).
Proof.
  intros N H. exists (filter (fun q => negb (existsb (Nat.eqb q) ps)) (seq 0 n)).
  apply NoDup_Permutation.
  - apply NoDup_app_intro; auto.
    + apply NoDup_filter, seq_NoDup.
    + intros x Hx Hf. apply filter_In in Hf. destruct Hf as [_ Hf]. apply negb_true_iff in Hf.
      assert (T : existsb (Nat.eqb x) ps = true) by (apply existsb_exists; exists x; split; [auto|apply Nat.eqb_refl]). congruence.
  - apply seq_NoDup.
  - intros x. rewrite in_app_iff, filter_In, in_seq. split.
    + intros [A|[A _]]; [specialize (H x A); lia|auto].
    + intros A. destruct (existsb (Nat.eqb x) ps) eqn:E.
      * left. apply existsb_exists in E. destruct E as (y & Y & E). apply Nat.eqb_eq in E. subst. auto.
      * right. split; auto.
Qed.
Lemma at_chosen {A} (l : list A) ps n : length ps = n -> NoDup ps -> (forall p, In p ps -> (p < length l)%nat) ->
  length (at_positions l ps) = n /\ exists rest, Permutation l (at_positions l ps ++ rest).
Proof.
  intros L N H. split; [rewrite at_length; auto|]. destruct (nodup_rest ps (length l) N H) as [qs P].
  exists (at_positions l qs). rewrite <- at_app. symmetry. apply at_perm. auto.
Qed.

(** ** order of first appearance *)
Definition without (seen l : list value) : list value := filter (fun v => negb (mem_b value_eqb v seen)) l.
Lemma remove_filter v l : remove value_eq_dec v l = filter (fun x => negb (value_eqb x v)) l.
Proof.
  induction l as [|x l IH]; auto. cbn [remove filter]. destruct (value_eq_dec v x) as [->|N].
  - rewrite (proj2 (reflects_value x x) eq_refl). exact IH.
  - assert (E : value_eqb x v = false) by (apply (reflects_false _ reflects_value); congruence). rewrite E. cbn [negb]. congruence.
Qed.
Lemma filter_filter {A} (p q : A -> bool) l : filter p (filter q l) = filter (fun x => q x && p x) l.
Proof. induction l as [|x l IH]; auto. cbn [filter]. destruct (q x) eqn:E; cbn [filter andb]; rewrite IH; auto. Qed.
Lemma dedup_appearing l : forall seen, dedup_acc value_eqb seen l = without seen (appearing l).
Proof.
  induction l as [|v l IH]; intros seen; auto. cbn [dedup_acc appearing]. unfold without at 1. cbn [filter].
  rewrite remove_filter, filter_filter. destruct (mem_b value_eqb v seen) eqn:E; cbn [negb].
  - rewrite IH. unfold without. apply filter_ext. intros x. destruct (value_eqb x v) eqn:X; auto. cbn [negb andb].
    apply reflects_value in X. subst. rewrite E. reflexivity.
  - f_equal. rewrite IH. unfold without. apply filter_ext. intros x. cbn [mem_b existsb]. rewrite negb_orb. reflexivity.
Qed.
Lemma dedup_is_appearing l : dedup value_eqb l = appearing l.
Proof.
  unfold dedup. rewrite dedup_appearing. unfold without. cbn [mem_b existsb negb].
  induction (appearing l); cbn [filter]; congruence.
Qed.
Lemma dedup_acc_inj {A B} (ea : A -> A -> bool) (eb : B -> B -> bool) (f : A -> B) :
  (forall x y, eb (f x) (f y) = ea x y) -> forall l seen, dedup_acc eb (map f seen) (map f l) = map f (dedup_acc ea seen l).
Proof.
  intros H. assert (M : forall x seen, mem_b eb (f x) (map f seen) = mem_b ea x seen).
  { intros x seen. unfold mem_b. induction seen as [|s seen IH]; auto. cbn [map existsb]. rewrite IH, H. reflexivity. }
  induction l as [|x l IH]; intros seen; auto. cbn [map dedup_acc]. rewrite M. destruct (mem_b ea x seen); auto.
  cbn [map]. rewrite <- IH. reflexivity.
Qed.

Lemma distinct_appearing m c t : wf_mem m -> c <> "rid" -> In c (m_columns m) -> col_type m c = Ok t ->
  distinct_values m c = Ok (appearing (column c (rows_of m))).
Proof.
  intros W N H T. unfold distinct_values.
  rewrite (unique_ok m [c]) by (auto; simpl; intuition congruence).
  cbn [bind]. set (u := set_columns _ _).
  assert (A := col_type_assoc m c t N T).
  assert (Ec : String.eqb c "rid" = false) by (apply String.eqb_neq; auto).
  assert (TC : mapM (col_type u) (df_columns (m_columns u)) = Ok [t]).
  { subst u. unfold df_columns. cbn. rewrite Ec. cbn. unfold col_type. rewrite Ec. cbn. rewrite A. cbn.
    rewrite (String.eqb_refl c). reflexivity. }
  set (ds := drop_duplicates [c] (rows_of m)).
  assert (Hc : forall r, In r (rows_of m) -> exists v, cell r c = Some v /\ type_of v = t).
  { intros r Hr. apply (wf_cell m r c t W Hr A). }
  assert (Hd : forall r, In r ds -> In r (rows_of m)) by (intros; eapply drop_duplicates_incl; eauto).
  assert (V : values u (Some [c]) = Ok (map (fun r => [row_val_or c r]) ds)).
  { unfold values, handle_columns.
    assert (F : forallb (col_in u) [c] = true).
    { subst u. unfold col_in. cbn. rewrite String.eqb_refl. reflexivity. }
    rewrite F. cbn [bind]. rewrite TC. cbn [bind].
    change (rows_of u) with (map (project_row [c]) ds). rewrite mapM_map. apply mapM_Ok. intros r Hr.
    destruct (Hc r (Hd r Hr)) as [v [E Ty]]. unfold row_record. cbn [mapM].
    unfold row_value. rewrite Ec. rewrite project_cell by (first [left; reflexivity | constructor; [simpl; tauto|constructor]]).
    rewrite E. cbn [bind]. rewrite upcast_own by auto. unfold row_val_or, row_val. rewrite Ec, E. reflexivity. }
  rewrite V. cbn [bind]. rewrite mapM_map.
  rewrite (mapM_Ok _ (row_val_or c)) by reflexivity. f_equal. rewrite <- dedup_is_appearing.
  assert (K := drop_duplicates_keys [c] (rows_of m)). fold ds in K.
  set (f := fun v : value => [Some v]).
  assert (M : forall rs, (forall r, In r rs -> In r (rows_of m)) -> map (row_key [c]) rs = map f (map (row_val_or c) rs)).
  { intros rs Hrs. rewrite map_map. apply map_ext_in. intros r Hr. destruct (Hc r (Hrs r Hr)) as [v [E _]].
    unfold row_key, f, row_val_or, row_val. cbn [map]. rewrite E, Ec. reflexivity. }
  rewrite (M ds), (M (rows_of m)) in K by auto. unfold dedup in K at 1.
  change (@nil (list (option value))) with (map f []) in K. rewrite (dedup_acc_inj value_eqb) in K.
  - assert (J : forall a b : list value, map f a = map f b -> a = b).
    { induction a as [|x a IH]; intros [|y b] Z; try discriminate; auto. injection Z as -> Z. f_equal. auto. }
    apply J in K. rewrite K. unfold dedup. f_equal.
    assert (Z : forall rs, (forall r, In r rs -> In r (rows_of m)) -> map (row_val_or c) rs = column c rs).
    { induction rs as [|r rs IH]; intros Hrs; auto. unfold column. cbn [map flat_map]. fold (column c rs).
      destruct (Hc r (Hrs r (or_introl eq_refl))) as [v [E _]]. rewrite E. cbn [app]. rewrite <- IH by (intros; apply Hrs; simpl; auto).
      unfold row_val_or at 1, row_val. rewrite Ec, E. reflexivity. }
    apply Z. auto.
  - intros x y. apply eq_true_iff_eq. rewrite (MemFacts2.reflects_key _ _), (reflects_value _ _). unfold f. split; [congruence|intros ->; reflexivity].
Qed.
