(** Proofs about the set based ranking metrics. *)
From Coq Require Import String.
From Coq Require Import List ZArith QArith Qcanon Bool Permutation Sorted Lia Lqa.
From Verif Require Import Py PyFacts MetricModel MetricSpec.
Import ListNotations.
Open Scope nat_scope.

(** ** Sets of ids, by key *)
Section Keyed.
Context {A K : Type} (eqb : A -> A -> bool) (key : A -> K).
Hypothesis Hk : forall x y, eqb x y = true <-> key x = key y.

Lemma mem_key x l : mem_b eqb x l = true <-> In (key x) (map key l).
Proof.
  induction l as [|y l IH]; simpl; [split; [discriminate|tauto]|].
  rewrite orb_true_iff, IH, Hk. split; intros [H|H]; auto.
Qed.
Lemma mem_key_false x l : mem_b eqb x l = false <-> ~ In (key x) (map key l).
Proof. rewrite <- mem_key. destruct (mem_b eqb x l); intuition congruence. Qed.

Lemma dedup_acc_app seen l r : dedup_acc eqb seen (l ++ [r]) =
  dedup_acc eqb seen l ++ (if mem_b eqb r (seen ++ l) then [] else [r]).
Proof.
  revert seen; induction l as [|x l IH]; intros seen; simpl.
  - rewrite app_nil_r. destruct (mem_b eqb r seen); reflexivity.
  - assert (M : forall a b, (forall v, In v (map key a) <-> In v (map key b)) -> mem_b eqb r a = mem_b eqb r b).
    { intros a b H. apply eq_true_iff_eq. rewrite !mem_key. apply H. }
    destruct (mem_b eqb x seen) eqn:E.
    + rewrite IH. f_equal. rewrite (M (seen ++ l) (seen ++ x :: l)); auto.
      intros v. rewrite !map_app, !in_app_iff. simpl. apply mem_key in E. intuition (subst; auto).
    + rewrite IH. simpl. f_equal. f_equal.
      assert (Q : mem_b eqb r (x :: seen ++ l) = mem_b eqb r (seen ++ x :: l)).
      { apply M. intros v. simpl. rewrite !map_app, !in_app_iff. simpl. intuition. }
      simpl in Q. rewrite Q. reflexivity.
Qed.
Lemma dedup_snoc l r : dedup eqb (l ++ [r]) = dedup eqb l ++ (if mem_b eqb r l then [] else [r]).
Proof. apply dedup_acc_app. Qed.

Lemma dedup_keys l : NoDup (map key (dedup eqb l)) /\ forall v, In v (map key (dedup eqb l)) <-> In v (map key l).
Proof.
  induction l as [|r l [N I]] using rev_ind; [split; [constructor|simpl; tauto]|].
  rewrite dedup_snoc. destruct (mem_b eqb r l) eqn:E.
  - rewrite app_nil_r. split; auto. intros v. rewrite map_app, in_app_iff, I. simpl.
    apply mem_key in E. intuition (subst; auto).
  - apply mem_key_false in E. rewrite !map_app. simpl. split.
    + rewrite <- (rev_involutive (map key (dedup eqb l) ++ [key r])). apply NoDup_rev. rewrite rev_app_distr. simpl.
      constructor; [rewrite <- in_rev, I; exact E|]. apply NoDup_rev. exact N.
    + intros v. rewrite !in_app_iff, I. tauto.
Qed.

(** the common elements, as a duplicate free list of keys *)
Definition common (a b : list A) : list K := map key (filter (fun x => mem_b eqb x (dedup eqb b)) (dedup eqb a)).
Lemma common_spec a b : NoDup (common a b) /\ length (common a b) = n_common eqb a b /\
  forall v, In v (common a b) <-> In v (map key a) /\ In v (map key b).
Proof.
  destruct (dedup_keys a) as [Na Ia]. destruct (dedup_keys b) as [Nb Ib]. unfold common. split; [|split].
  - clear - Na. induction (dedup eqb a) as [|x l IH]; simpl; [constructor|]. inversion Na; subst.
    destruct (mem_b eqb x (dedup eqb b)); simpl; auto. constructor; auto.
    intros I. apply H1. apply in_map_iff in I. destruct I as (y & <- & I). apply filter_In in I. apply in_map. tauto.
  - apply map_length.
  - intros v. rewrite in_map_iff. split.
    + intros (x & <- & I). apply filter_In in I. destruct I as [I M]. apply mem_key in M. split.
      * apply Ia. apply in_map. exact I.
      * apply Ib. exact M.
    + intros [I1 I2]. apply Ia in I1. apply Ib in I2. apply in_map_iff in I1. destruct I1 as (x & <- & I1).
      exists x. split; auto. apply filter_In. split; auto. apply mem_key. exact I2.
Qed.

Lemma n_common_le_l a b : n_common eqb a b <= length a.
Proof.
  destruct (common_spec a b) as (N & L & I). rewrite <- L, <- (map_length key a). apply NoDup_incl_length; auto.
  intros v Hv. apply I in Hv. tauto.
Qed.
Lemma n_common_le_r a b : n_common eqb a b <= length b.
Proof.
  destruct (common_spec a b) as (N & L & I). rewrite <- L, <- (map_length key b). apply NoDup_incl_length; auto.
  intros v Hv. apply I in Hv. tauto.
Qed.
Lemma n_common_le_set a b : n_common eqb a b <= length (dedup eqb b).
Proof.
  destruct (common_spec a b) as (N & L & I). rewrite <- L, <- (map_length key (dedup eqb b)). apply NoDup_incl_length; auto.
  intros v Hv. apply I in Hv. apply dedup_keys. tauto.
Qed.
Lemma n_common_zero a b : n_common eqb a b = 0 <-> forall x y, In x a -> In y b -> key x <> key y.
Proof.
  destruct (common_spec a b) as (N & L & I). rewrite <- L. split.
  - intros E x y Hx Hy C. apply length_zero_iff_nil in E.
    assert (H : In (key x) (common a b)). { apply I. split; [apply in_map; auto|rewrite C; apply in_map; auto]. }
    rewrite E in H. destruct H.
  - intros H. destruct (common a b) as [|v l]; auto. exfalso.
    destruct (proj1 (I v)) as [I1 I2]; [simpl; auto|]. apply in_map_iff in I1, I2.
    destruct I1 as (x & <- & Hx). destruct I2 as (y & E & Hy). apply (H x y Hx Hy). congruence.
Qed.
Lemma n_common_mono a a' b : incl a a' -> n_common eqb a b <= n_common eqb a' b.
Proof.
  intros H. destruct (common_spec a b) as (N & L & I). destruct (common_spec a' b) as (N' & L' & I').
  rewrite <- L, <- L'. apply NoDup_incl_length; auto. intros v Hv. apply I'. apply I in Hv. destruct Hv as [Hv1 Hv2].
  split; auto. apply in_map_iff in Hv1. destruct Hv1 as (x & <- & Hx). apply in_map. apply H; auto.
Qed.
(** everything in [b] is in [a] *)
Lemma n_common_all a b : (forall y, In y b -> exists x, In x a /\ key x = key y) -> n_common eqb a b = length (dedup eqb b).
Proof.
  intros H. destruct (common_spec a b) as (N & L & I). destruct (dedup_keys b) as [Nb Ib].
  rewrite <- L, <- (map_length key (dedup eqb b)). apply Permutation_length. apply NoDup_Permutation; auto.
  intros v. rewrite I, Ib. split; [tauto|]. intros Hv. split; auto. apply in_map_iff in Hv. destruct Hv as (y & <- & Hy).
  destruct (H y Hy) as (x & Hx & E). rewrite <- E. apply in_map; auto.
Qed.
Lemma dedup_distinct l : NoDup (map key l) -> length (dedup eqb l) = length l.
Proof.
  intros N. destruct (dedup_keys l) as [N' I]. rewrite <- (map_length key l), <- (map_length key (dedup eqb l)).
  apply Permutation_length. apply NoDup_Permutation; auto.
Qed.
Lemma n_common_snoc a b r : n_common eqb (a ++ [r]) b =
  n_common eqb a b + (if mem_b eqb r b && negb (mem_b eqb r a) then 1 else 0).
Proof.
  unfold n_common. rewrite dedup_snoc. destruct (mem_b eqb r a) eqn:E; simpl.
  - rewrite app_nil_r, andb_false_r. lia.
  - rewrite andb_true_r. rewrite filter_app, app_length. f_equal. simpl.
    assert (M : mem_b eqb r (dedup eqb b) = mem_b eqb r b).
    { apply eq_true_iff_eq. rewrite !mem_key. apply dedup_keys. }
    rewrite M. destruct (mem_b eqb r b); reflexivity.
Qed.
End Keyed.
