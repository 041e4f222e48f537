(** Lemmas about the training vectors of CDAE, the training targets of DMF, and
    (over the reals) its predictions and the cross entropy. *)
From Coq Require Import String Ascii.
From Coq Require Import List ZArith QArith Qcanon Bool Lia.
From Verif Require SplitFacts3.
From Verif Require Import Py PyFacts MemModel MemSpec MemFacts MemFacts2 KnnModel KnnSpec TrainModel TrainFacts3 SampModel SampSpec SampFacts NetModel NetFacts.
Import ListNotations.
Open Scope string_scope.
Open Scope Z_scope.

(** ** CDAE *)
Lemma desired_nth thr vec n : nth_error (desired_vector thr vec) n =
  option_map (fun x => if Qcltb x thr then 0 else 1) (nth_error vec n).
Proof. unfold desired_vector. rewrite nth_error_map. reflexivity. Qed.

Lemma desired_sum thr rs p u vec i : user_vec_spec rs p u vec -> 0 <= i < Z.of_nat p ->
  exists x, nth_error (desired_vector thr vec) (Z.to_nat i) = Some x /\
    (x = 1 /\ (thr <= pair_sum u i rs)%Qc \/ x = 0 /\ (pair_sum u i rs < thr)%Qc).
Proof.
  intros [_ H] Hi. rewrite desired_nth, (H i Hi). cbn [option_map]. eexists. split; [reflexivity|].
  destruct (Qcltb (pair_sum u i rs) thr) eqn:E.
  - right. split; auto. apply SplitFacts3.Qcltb_iff. auto.
  - left. split; auto. apply Qcnot_lt_le. intros L. apply SplitFacts3.Qcltb_iff in L. congruence.
Qed.

Lemma pair_sum_single u i rs : (forall r r' a b c, rs = (a ++ r :: b ++ r' :: c)%list -> has_pair u i r = true -> has_pair u i r' = true -> False) ->
  (pair_sum u i rs = 0%Qc /\ forall r, In r rs -> has_pair u i r = false) \/
  exists r, In r rs /\ has_pair u i r = true /\ pair_sum u i rs = interaction_of r /\ forall r', In r' rs -> has_pair u i r' = true -> r' = r.
Proof.
  unfold pair_sum. induction rs as [|x rs IH]; intros H.
  - left. split; [reflexivity|intros r []].
  - cbn [filter]. destruct (has_pair u i x) eqn:E.
    + right. exists x. split; [left; auto|]. split; auto.
      assert (N : forall r, In r rs -> has_pair u i r = false).
      { intros r Hr. destruct (has_pair u i r) eqn:F; auto. exfalso. apply in_split in Hr. destruct Hr as [b [c ->]].
        exact (H x r [] b c eq_refl E F). }
      assert (F : filter (has_pair u i) rs = []).
      { clear -N. induction rs as [|y rs IH]; auto. cbn [filter]. rewrite N by (left; auto). apply IH. intros; apply N; right; auto. }
      rewrite F. cbn [map fold_right]. split; [ring|]. intros r' [<-|I'] E'; auto. rewrite N in E' by auto. discriminate.
    + destruct IH as [[A B]|[r [A [B [C D]]]]].
      * intros r r' a b c -> . intros. eapply (H r r' (x :: a) b c); eauto.
      * left. split; auto. intros r [<-|I]; auto.
      * right. exists r. split; [right; auto|]. split; auto. split; auto. intros r' [<-|I] F; [congruence|auto].
Qed.

Lemma corrupted_ok q : q <> 1%Qc -> forall v draws, length draws = length v ->
  exists l, corrupted q draws v = Ok l /\ length l = length v /\
    forall i x u, nth_error v i = Some x -> nth_error draws i = Some u ->
      exists y, nth_error l i = Some y /\
        ((u < q)%Qc /\ y = 0%Qc \/ (q <= u)%Qc /\ (y * (1 - q))%Qc = Qc_of_Z x).
Proof.
  intros Q. assert (Q' : (1 - q)%Qc <> 0%Qc).
  { intros E. apply Q. apply (f_equal (fun z => z + q)%Qc) in E. ring_simplify in E. auto. }
  induction v as [|x v IH]; intros [|u draws] L; try discriminate.
  - exists []. split; auto. split; auto. intros [|i]; discriminate.
  - cbn [length] in L. destruct (IH draws ltac:(lia)) as (l & E1 & E2 & E3). cbn [corrupted].
    assert (B : Qc_eq_bool (1 - q) 0 = false) by (destruct (Qc_eq_bool (1 - q) 0) eqn:W; auto; apply Qc_eq_bool_correct in W; contradiction).
    rewrite B. destruct (Qcltb u q) eqn:W; cbn [bind]; rewrite E1; cbn [bind]; eexists; (split; [reflexivity|]);
      (split; [cbn [length]; lia|]); intros [|i] x' u' A1 A2; cbn [nth_error] in *; try (apply (E3 i x' u'); auto);
      injection A1 as <-; injection A2 as <-; (eexists; split; [reflexivity|]).
    + left. split; auto. apply SplitFacts3.Qcltb_iff. auto.
    + right. split; [apply Qcnot_lt_le; intros G; apply SplitFacts3.Qcltb_iff in G; congruence|]. field. auto.
Qed.
Lemma corrupted_one v : forall draws, length draws = length v -> Forall (fun u => (u < 1)%Qc) draws ->
  corrupted 1%Qc draws v = Ok (repeat 0%Qc (length v)).
Proof.
  induction v as [|x v IH]; intros [|u draws] L F; try discriminate; auto.
  inversion F as [|? ? Hu F']; subst. cbn [corrupted length repeat]. apply SplitFacts3.Qcltb_iff in Hu. rewrite Hu. cbn [bind].
  cbn [length] in L. rewrite IH by (auto; lia). reflexivity.
Qed.

(** ** Training targets of DMF *)
Lemma num_value_same v y : same_value v y -> num_of y <> None -> num_value v = Ok (num y).
Proof.
  intros S N. assert (E : num_of v = num_of y) by (destruct v, y; cbn [same_value num_of] in *; congruence || contradiction || auto).
  unfold num_value, num. rewrite E. destruct (num_of y); [reflexivity|contradiction].
Qed.

Section Targets.
Variables (m : mem) (t : option slit) (lo hi : Qc).
Hypotheses (C : coded m) (R : interaction_range m = Ok (lo, hi)) (LH : (lo < hi)%Qc).

Lemma range_covers r y : In r (rows_of m) -> cell r "interaction" = Some y ->
  num_of y <> None /\ (lo <= num y <= hi)%Qc.
Proof.
  intros I E. assert (N := cd_num m C). destruct N as [Ci [Nv _]].
  destruct (Nv r I) as (v & q & E1 & E2). rewrite E in E1. injection E1 as <-.
  assert (NE : rows_of m <> []) by (intros X; rewrite X in I; contradiction).
  split; [congruence|].
  destruct (interaction_type m C NE) as (tx & Tx & Nx).
  destruct (interaction_range_ok m tx (cd_wf m C) Ci Tx Nx NE) as (lo' & hi' & R' & _ & B & _).
  rewrite R in R'. injection R' as <- <-. apply (B r y I). unfold row_val. cbn. exact E.
Qed.

Lemma target_positive x : positive m t x ->
  exists q, dmf_target (lo, hi) true x = Ok q /\ (0 <= q <= 1)%Qc.
Proof.
  intros (r & u & i & v & y & I & _ & _ & _ & E & S & ->). destruct (range_covers r y I E) as [N B].
  unfold dmf_target. cbn [snd]. rewrite (num_value_same v y S N). cbn [bind].
  destruct (standardize_range lo hi (num y) LH B) as [q [E1 [E2 _]]]. exists q. auto.
Qed.
Lemma target_negative x : negative m x ->
  exists q, dmf_target (lo, hi) true x = Ok q /\ ((0 <= q <= 1)%Qc <-> (lo <= 0)%Qc /\ (0 <= hi)%Qc) /\ ((0 < lo)%Qc -> (q < 0)%Qc).
Proof.
  intros (u & i & _ & _ & ->). unfold dmf_target. cbn [snd]. change (num_value (VInt 0)) with (@Ok Qc (Qc_of_Z 0)). cbn [bind].
  change (Qc_of_Z 0) with 0%Qc.
  assert (D : (0 < hi - lo)%Qc) by (apply (Qclt_minus_iff lo hi); auto).
  assert (D0 : (hi - lo)%Qc <> 0%Qc) by (intros E; rewrite E in D; discriminate).
  assert (S : standardize (lo, hi) 0%Qc = Ok ((0 - lo) / (hi - lo))%Qc).
  { unfold standardize. cbn [fst snd]. destruct (Qc_eq_bool hi lo) eqn:W; auto. apply Qc_eq_bool_correct in W. subst.
    exfalso. apply D0. ring. }
  rewrite S. eexists. split; [reflexivity|].
  set (q := ((0 - lo) / (hi - lo))%Qc). assert (Q : (q * (hi - lo))%Qc = (0 - lo)%Qc) by (unfold q; field; auto).
  assert (NEG : (q < 0)%Qc <-> (0 < lo)%Qc).
  { split; intros H.
    - assert (X : (q * (hi - lo) < 0 * (hi - lo))%Qc) by (apply Qcmult_lt_compat_r; auto). rewrite Q in X.
      replace (0 * (hi - lo))%Qc with 0%Qc in X by ring. apply Qclt_minus_iff in X. replace (0 + - (0 - lo))%Qc with lo in X by ring. auto.
    - apply Qcnot_le_lt. intros G. assert (X : (0 * (hi - lo) <= q * (hi - lo))%Qc) by (apply Qcmult_le_compat_r; auto; apply Qclt_le_weak; auto).
      rewrite Q in X. replace (0 * (hi - lo))%Qc with 0%Qc in X by ring. apply Qcle_minus_iff in X.
      apply (Qclt_not_le _ _ H X). }
  assert (BIG : (1 < q)%Qc <-> (hi < 0)%Qc).
  { split; intros H.
    - assert (X : (1 * (hi - lo) < q * (hi - lo))%Qc) by (apply Qcmult_lt_compat_r; auto). rewrite Q in X.
      apply Qclt_minus_iff in X. apply Qclt_minus_iff. replace (0 + - hi)%Qc with (0 - lo + - (1 * (hi - lo)))%Qc by ring. auto.
    - apply Qcnot_le_lt. intros G. assert (X : (q * (hi - lo) <= 1 * (hi - lo))%Qc) by (apply Qcmult_le_compat_r; auto; apply Qclt_le_weak; auto).
      rewrite Q in X. apply Qcle_minus_iff in X. replace (1 * (hi - lo) + - (0 - lo))%Qc with hi in X by ring.
      apply (Qclt_not_le _ _ H X). }
  split; [|apply NEG]. split.
  - intros [A B]. split; apply Qcnot_lt_le; intros G.
    + apply NEG in G. apply (Qclt_not_le _ _ G A).
    + apply BIG in G. apply (Qclt_not_le _ _ G B).
  - intros [A B]. split; apply Qcnot_lt_le; intros G.
    + apply NEG in G. apply (Qclt_not_le _ _ G A).
    + apply BIG in G. apply (Qclt_not_le _ _ G B).
Qed.
End Targets.

(** ** Predictions of DMF *)
From Coq Require Import Reals Lra.
Open Scope R_scope.

Lemma sumR_sq_nonneg x : 0 <= sumR (map (fun b => b * b) x).
Proof. unfold sumR. induction x as [|a x IH]; cbn [map fold_right]; [lra|]. nra. Qed.
Lemma sumR_scale s x : sumR (map (fun b => b * b) (map (fun a => a / s) x)) = sumR (map (fun b => b * b) x) / (s * s) \/ s = 0.
Proof.
  destruct (Req_dec s 0) as [->|N]; [right; auto|left]. unfold sumR. induction x as [|a x IH]; cbn [map fold_right].
  - field. auto.
  - rewrite IH. field. auto.
Qed.
Lemma normalised x : sumR (map (fun b => b * b) (l2_normalize x)) <= 1.
Proof.
  unfold l2_normalize. set (n := sumR (map (fun b => b * b) x)). set (k := Rmax n (/ 1000000000000)).
  assert (K : 0 < k) by (unfold k; apply Rlt_le_trans with (/ 1000000000000); [lra|apply Rmax_r]).
  assert (S : 0 < sqrt k) by (apply sqrt_lt_R0; auto).
  destruct (sumR_scale (sqrt k) x) as [E|E]; [|lra]. rewrite E, sqrt_sqrt by lra. fold n.
  apply Rmult_le_reg_r with k; auto. unfold Rdiv. rewrite Rmult_assoc, Rinv_l by lra.
  assert (n <= k) by apply Rmax_l. lra.
Qed.
Lemma dot_bound : forall x y, sumR (map (fun p => fst p * snd p) (combine x y)) <=
  (sumR (map (fun b => b * b) x) + sumR (map (fun b => b * b) y)) / 2.
Proof.
  induction x as [|a x IH]; intros y.
  - cbn [combine map]. assert (H := sumR_sq_nonneg y). unfold sumR in *. cbn [fold_right]. lra.
  - destruct y as [|b y].
    + cbn [combine map]. assert (H := sumR_sq_nonneg (a :: x)). unfold sumR in *. cbn [fold_right] in *. cbn [map fold_right] in *. lra.
    + cbn [combine map fst snd]. specialize (IH y). unfold sumR in *. cbn [fold_right].
      assert (P : 0 <= (a - b) * (a - b)) by (apply Rle_0_sqr). nra.
Qed.
Lemma score_range u v : / 1000000 <= dmf_score u v <= 1.
Proof.
  unfold dmf_score. split; [apply Rmax_l|]. apply Rmax_lub; [lra|].
  eapply Rle_trans; [apply dot_bound|]. assert (A := normalised u). assert (B := normalised v). lra.
Qed.
Lemma prediction_range lo hi u v : lo <= hi -> lo <= dmf_prediction lo hi u v <= hi.
Proof. intros H. unfold dmf_prediction. destruct (score_range u v) as [A B]. split; nra. Qed.

(** ** Cross entropy *)
Lemma ce_half t : cross_entropy t (1 / 2) = ln 2.
Proof.
  unfold cross_entropy, clip, bce_eps.
  rewrite Rmax_left by lra. rewrite Rmin_left by lra.
  replace (1 - 1 / 2) with (/ 2) by field. replace (1 / 2) with (/ 2) by field. rewrite ln_Rinv by lra. ring.
Qed.
Lemma ce_right : 0 < cross_entropy 1 1.
Proof.
  unfold cross_entropy, clip, bce_eps. rewrite Rmax_left by lra. rewrite Rmin_right by lra.
  assert (ln (1 - / 10000000) < 0) by (rewrite <- ln_1; apply ln_increasing; lra). lra.
Qed.
Lemma ce_right0 : 0 < cross_entropy 0 0.
Proof.
  unfold cross_entropy, clip, bce_eps. rewrite Rmax_right by lra. rewrite Rmin_left by lra.
  assert (ln (1 - / 10000000) < 0) by (rewrite <- ln_1; apply ln_increasing; lra). lra.
Qed.
Lemma ce_wrong : 2 * ln 2 < cross_entropy 0 1 /\ 2 * ln 2 < cross_entropy 1 0.
Proof.
  assert (L : 2 * ln 2 = ln 4) by (replace 4 with (2 * 2) by ring; rewrite ln_mult by lra; ring).
  assert (G : ln 4 < - ln (/ 10000000)).
  { rewrite ln_Rinv by lra. rewrite Ropp_involutive. apply ln_increasing; lra. }
  unfold cross_entropy, clip, bce_eps. split.
  - rewrite Rmax_left by lra. rewrite Rmin_right by lra. replace (1 - (1 - / 10000000)) with (/ 10000000) by ring. lra.
  - rewrite Rmax_right by lra. rewrite Rmin_left by lra. lra.
Qed.
