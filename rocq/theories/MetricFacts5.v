(** Regression metrics. *)
From Coq Require Import List ZArith QArith Reals Bool Lia Lra.
From Verif Require Import Py MetricModel MetricSpec MetricFacts4.
Import ListNotations.
Open Scope R_scope.

Lemma checked_ok f a b : length a = length b -> a <> [] -> checked f a b = Ok (mean (map f (combine a b))).
Proof.
  intros L N. unfold checked. rewrite L, Nat.eqb_refl. simpl. destruct b; [|reflexivity].
  destruct a; [congruence|discriminate].
Qed.
Lemma checked_bad f a b : length a <> length b \/ a = [] -> checked f a b = Err ValueError.
Proof.
  intros H. unfold checked. destruct (Nat.eqb (length a) (length b)) eqn:E; simpl; auto.
  apply Nat.eqb_eq in E. destruct H as [H| ->]; [congruence|]. reflexivity.
Qed.
Lemma INR_pos {A} (l : list A) : l <> [] -> 0 < INR (length l).
Proof. intros H. apply lt_0_INR. destruct l; [congruence|simpl; lia]. Qed.

Lemma mean_nonneg l : l <> [] -> Forall (fun x => 0 <= x) l -> 0 <= mean l.
Proof.
  intros N F. unfold mean. apply Rmult_le_pos; [apply sum_nonneg; auto|].
  left. apply Rinv_0_lt_compat, INR_pos; auto.
Qed.
Lemma sum_zero l : Forall (fun x => 0 <= x) l -> (sum l = 0 <-> Forall (fun x => x = 0) l).
Proof.
  induction 1 as [|x l Hx Hl IH]; [split; auto|]. unfold sum in *. simpl.
  pose proof (sum_nonneg l Hl) as S. unfold sum in S. split.
  - intros E. constructor; [lra|]. apply IH. lra.
  - intros E. inversion E; subst. apply IH in H2. lra.
Qed.
Lemma mean_zero l : l <> [] -> Forall (fun x => 0 <= x) l -> (mean l = 0 <-> Forall (fun x => x = 0) l).
Proof.
  intros N F. rewrite <- sum_zero by auto. unfold mean. fold (sum l). pose proof (INR_pos l N) as P.
  pose proof (Rinv_0_lt_compat _ P). unfold Rdiv. split; [|intros ->; lra].
  intros E. apply Rmult_integral in E. destruct E; auto. lra.
Qed.

Definition sq (p : R * R) : R := Rsqr (fst p - snd p).
Definition ad (p : R * R) : R := Rabs (fst p - snd p).
Lemma sq_nonneg l : Forall (fun x => 0 <= x) (map sq l).
Proof. induction l; simpl; constructor; auto. apply Rle_0_sqr. Qed.
Lemma ad_nonneg l : Forall (fun x => 0 <= x) (map ad l).
Proof. induction l; simpl; constructor; auto. apply Rabs_pos. Qed.
Lemma combine_nil (a b : list R) : length a = length b -> a <> [] -> combine a b <> [].
Proof. destruct a, b; simpl; intros; congruence. Qed.
Lemma map_nil {A B} (f : A -> B) l : l <> [] -> map f l <> [].
Proof. destruct l; simpl; congruence. Qed.
Lemma all_equal (f : R * R -> R) (a b : list R) : (forall p, f p = 0 <-> fst p = snd p) -> length a = length b ->
  (Forall (fun x => x = 0) (map f (combine a b)) <-> a = b).
Proof.
  intros Hf. revert b; induction a as [|x a IH]; intros [|y b] L; simpl in *; try discriminate; [split; auto|].
  split.
  - intros F. inversion F; subst. apply Hf in H1. simpl in H1. f_equal; auto. apply IH; auto.
  - intros E. injection E as -> ->. constructor; [apply Hf; auto|]. apply IH; auto.
Qed.
Lemma sq_zero p : sq p = 0 <-> fst p = snd p.
Proof.
  unfold sq. split; [intros E; apply Rsqr_0_uniq in E; lra|]. intros ->.
  replace (snd p - snd p) with 0 by lra. apply Rsqr_0.
Qed.
Lemma ad_zero p : ad p = 0 <-> fst p = snd p.
Proof.
  unfold ad. split; intros E.
  - destruct (Req_dec (fst p - snd p) 0); [lra|]. apply Rabs_no_R0 in H. contradiction.
  - rewrite E. replace (snd p - snd p) with 0 by lra. apply Rabs_R0.
Qed.
Lemma sym_map (f : R * R -> R) (a b : list R) : (forall x y, f (x, y) = f (y, x)) -> map f (combine a b) = map f (combine b a).
Proof. intros H. revert b; induction a; intros [|y b]; simpl; auto. rewrite H. f_equal; auto. Qed.
Lemma sq_sym x y : sq (x, y) = sq (y, x).
Proof. unfold sq. simpl. apply Rsqr_neg_minus. Qed.
Lemma ad_sym x y : ad (x, y) = ad (y, x).
Proof. unfold ad. simpl. apply Rabs_minus_sym. Qed.

(** mean(d)^2 <= mean(d^2) *)
Lemma cauchy l : (sum (map ad l)) * (sum (map ad l)) <= INR (length l) * sum (map sq l).
Proof.
  induction l as [|p l IH]; [simpl; lra|].
  change (length (p :: l)) with (S (length l)). rewrite S_INR. cbn [map]. unfold sum in *. cbn [fold_right].
  set (A := fold_right Rplus 0 (map ad l)) in *. set (B := fold_right Rplus 0 (map sq l)) in *.
  assert (E : sq p = ad p * ad p) by (unfold sq, ad; rewrite Rsqr_abs; reflexivity). rewrite E.
  set (x := ad p). set (n := INR (length l)) in *. assert (N : 0 <= n) by apply pos_INR.
  (* 2 A x <= n x^2 + B *)
  assert (C : 2 * A * x <= n * (x * x) + B).
  { destruct (Req_dec n 0) as [Z|Z].
    - assert (L0 : length l = 0%nat) by (apply INR_eq; exact Z).
      apply length_zero_iff_nil in L0. unfold A, B. rewrite L0. simpl. rewrite Z. lra.
    - assert (Pn : 0 < n) by lra.
      assert (H : 0 <= (n * x - A) * (n * x - A)) by apply Rle_0_sqr.
      apply (Rmult_le_reg_l n); auto. nra. }
  nra.
Qed.
Lemma mae_le_rmse l : l <> [] -> mean (map ad l) <= sqrt (mean (map sq l)).
Proof.
  intros N. apply Rsqr_incr_0_var; [|apply sqrt_pos].
  rewrite Rsqr_sqrt by (apply mean_nonneg; [apply map_nil; auto|apply sq_nonneg]).
  unfold mean. rewrite !map_length. pose proof (INR_pos l N) as P. pose proof (cauchy l) as C.
  fold (sum (map ad l)). fold (sum (map sq l)). set (n := INR (length l)) in *. set (A := sum (map ad l)) in *.
  set (B := sum (map sq l)) in *. unfold Rsqr, Rdiv.
  assert (I : 0 < / n) by (apply Rinv_0_lt_compat; auto).
  assert (E : n * / n = 1) by (apply Rinv_r; lra).
  apply (Rmult_le_reg_l (n * n)); [nra|].
  replace (n * n * (A * / n * (A * / n))) with (A * A) by (field; lra).
  replace (n * n * (B * / n)) with (n * B) by (field; lra). exact C.
Qed.

Lemma reg_values a b : length a = length b -> a <> [] ->
  exists m r d, mse a b = Ok m /\ rmse a b = Ok r /\ mae a b = Ok d /\
    0 <= m /\ 0 <= r /\ 0 <= d /\ (m = 0 <-> a = b) /\ (r = 0 <-> a = b) /\ (d = 0 <-> a = b) /\ d <= r /\ r * r = m.
Proof.
  intros L N. set (l := combine a b). assert (Nl : l <> []) by (apply combine_nil; auto).
  assert (M0 : 0 <= mean (map sq l)) by (apply mean_nonneg; [apply map_nil; auto|apply sq_nonneg]).
  assert (D0 : 0 <= mean (map ad l)) by (apply mean_nonneg; [apply map_nil; auto|apply ad_nonneg]).
  assert (Zm : mean (map sq l) = 0 <-> a = b).
  { rewrite mean_zero by (auto using map_nil, sq_nonneg). apply all_equal; auto. apply sq_zero. }
  assert (Zd : mean (map ad l) = 0 <-> a = b).
  { rewrite mean_zero by (auto using map_nil, ad_nonneg). apply all_equal; auto. apply ad_zero. }
  exists (mean (map sq l)), (sqrt (mean (map sq l))), (mean (map ad l)).
  assert (Em : mse a b = Ok (mean (map sq l))) by (apply checked_ok; auto).
  assert (Ed : mae a b = Ok (mean (map ad l))) by (apply checked_ok; auto).
  split; auto. split; [unfold rmse; rewrite Em; reflexivity|]. split; auto. split; auto. split; [apply sqrt_pos|].
  split; auto. split; auto. split; [|split; [auto|split]].
  - rewrite <- Zm. split; [apply sqrt_eq_0; auto|intros ->; apply sqrt_0].
  - apply mae_le_rmse; auto.
  - apply sqrt_sqrt; auto.
Qed.
Lemma checked_sym f a b : (forall x y, f (x, y) = f (y, x)) -> checked f a b = checked f b a.
Proof.
  intros H. unfold checked. rewrite (Nat.eqb_sym (length b)). destruct (Nat.eqb (length a) (length b)) eqn:E; simpl; auto.
  apply Nat.eqb_eq in E. rewrite E. rewrite (sym_map f a b H). reflexivity.
Qed.
Lemma reg_sym a b : mse a b = mse b a /\ rmse a b = rmse b a /\ mae a b = mae b a.
Proof.
  assert (M : mse a b = mse b a) by (apply checked_sym; exact sq_sym).
  split; auto. split; [unfold rmse; rewrite M; reflexivity|]. apply checked_sym. exact ad_sym.
Qed.
Lemma reg_bad a b : length a <> length b \/ a = [] ->
  mse a b = Err ValueError /\ rmse a b = Err ValueError /\ mae a b = Err ValueError.
Proof.
  intros H. unfold rmse, mse, mae. rewrite !checked_bad by auto. auto.
Qed.
