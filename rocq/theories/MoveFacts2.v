(** Moving a better rated recommendation up: DCG and NDCG. *)
From Coq Require Import String.
From Coq Require Import List ZArith QArith Qcanon Qreals Reals Bool Permutation Sorted Lia Lra.
From Verif Require Import Py PyFacts MetricModel MetricSpec MetricFacts MetricFacts2 MetricFacts4 MoveSpec MoveFacts.
Import ListNotations.
Open Scope R_scope.

Lemma rel_of_assoc rels x q : dict rels -> rel_of rels x q -> assoc val_eqb x rels = Some q.
Proof.
  intros D (y & Hy & E). rewrite <- (assoc_own rels D y q Hy). clear D Hy.
  induction rels as [|[z p] rels IH]; simpl; auto.
  assert (V : val_eqb x z = val_eqb y z).
  { apply eq_true_iff_eq. rewrite !val_key. unfold same_id in E. rewrite E. tauto. }
  rewrite V, IH. reflexivity.
Qed.
Lemma dcg_from_app s rels a : forall i b, dcg_from s rels i (a ++ b) =
  (u <- dcg_from s rels i a ;; v <- dcg_from s rels (i + length a) b ;; Ok (u + v)).
Proof.
  induction a as [|x a IH]; intros i b; simpl.
  - rewrite Nat.add_0_r. destruct (dcg_from s rels i b); simpl; auto. rewrite Rplus_0_l. reflexivity.
  - destruct (assoc val_eqb x rels); [|reflexivity]. rewrite IH. rewrite Nat.add_succ_r. simpl.
    destruct (dcg_from s rels (S i) a); simpl; auto. destruct (dcg_from s rels (S (i + length a)) b); simpl; auto.
    rewrite Rplus_assoc. reflexivity.
Qed.
Lemma ok_inj {A} (a b : A) : Ok a = Ok b -> a = b.
Proof. congruence. Qed.
Lemma dcg_moved s rels k l l' : dict rels -> moved_up (rated_higher rels) l l' ->
  no_worse Rle (dcg s l (karg k) (Some rels)) (dcg s l' (karg k) (Some rels)).
Proof.
  intros D. apply (moved_ind Rle (rated_higher rels) (fun l => dcg s l (karg k) (Some rels))); [intros; lra|intros; lra|].
  intros l1 x y l2 (q & p & Hq & Hp & L) v. unfold dcg. rewrite !trunc_karg.
  apply (rel_of_assoc rels _ _ D) in Hq. apply (rel_of_assoc rels _ _ D) in Hp.
  apply (gain_mono s) in L.
  destruct (first_k_swap k l1 x y l2) as [->|[[-> ->]|(t & -> & ->)]]; [intros E; exists v; split; auto; lra| |];
    rewrite !dcg_from_app; destruct (dcg_from s rels 0 l1) as [u|]; try discriminate; cbn [bind dcg_from];
    rewrite ?Hq, ?Hp; cbn [bind].
  - intros E. apply ok_inj in E. subst v. eexists. split; [reflexivity|]. set (i := (0 + length l1)%nat).
    pose proof (disc_pos i) as P. unfold disc in P. unfold Rdiv.
    apply Rplus_le_compat_l, Rplus_le_compat_r, Rmult_le_compat_r; lra.
  - destruct (dcg_from s rels (S (S (0 + length l1))) t) as [w|]; [|discriminate]. cbn [bind].
    intros E. apply ok_inj in E. subst v. eexists. split; [reflexivity|]. set (i := (0 + length l1)%nat).
    pose proof (disc_decr i) as P. unfold disc in P. unfold Rdiv.
    set (d := / log2 (2 + INR i)) in *. set (d' := / log2 (2 + INR (S i))) in *.
    clearbody d d'. clear - L P.
    assert (0 <= (gain s q - gain s p) * (d - d')).
    { apply Rmult_le_pos; lra. } lra.
Qed.
Lemma best_nonneg_dcg s rels k : dict rels -> (forall y q, In (y, q) rels -> (0 <= q)%Q) ->
  exists b, dcg s (best_order rels) (karg k) (Some rels) = Ok b /\ 0 <= b.
Proof.
  intros D N. rewrite (dcg_wsum s rels (best_order rels) _ k (best_looked rels D)). eexists. split; [reflexivity|].
  apply wsum_nonneg. pose proof (best_nonneg s rels N) as B. destruct k; simpl; auto. apply Forall_firstn; auto.
Qed.
Lemma ndcg_moved s rels k l l' : dict rels -> (forall y q, In (y, q) rels -> (0 <= q)%Q) ->
  moved_up (rated_higher rels) l l' ->
  no_worse Rle (ndcg s l (karg k) (Some rels)) (ndcg s l' (karg k) (Some rels)).
Proof.
  intros D N M v. unfold ndcg. destruct (best_nonneg_dcg s rels k D N) as (b & -> & B).
  destruct (dcg s l (karg k) (Some rels)) as [c|] eqn:E; [|discriminate].
  destruct (dcg_moved s rels k l l' D M c E) as (c' & -> & L). cbn [bind].
  destruct (Req_EM_T b 0) as [|Z]; [discriminate|]. intros F. injection F as <-. eexists. split; [reflexivity|].
  unfold Rdiv. apply Rmult_le_compat_r; auto. left. apply Rinv_0_lt_compat. lra.
Qed.
