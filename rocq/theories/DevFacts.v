(** Proofs about regression metrics: parts, distances, scales. *)
From Coq Require Import List ZArith QArith Reals Bool Lia Lra Psatz.
From Verif Require Import Py MetricModel MetricSpec MetricFacts4 MetricFacts5 EvalModel EvalFacts DevSpec.
Import ListNotations.
Open Scope R_scope.

Lemma combine_both {A B} (a : list A) (b : list B) a' b' : length a = length b ->
  combine (a ++ a') (b ++ b') = combine a b ++ combine a' b'.
Proof. revert b. induction a as [|x a IH]; intros [|y b] L; try discriminate; simpl; auto. f_equal. auto. Qed.
Lemma sum_app l l' : sum (l ++ l') = sum l + sum l'.
Proof. unfold sum. induction l as [|x l IH]; simpl; [lra|]. rewrite IH. lra. Qed.
Lemma mean_app l l' : l <> [] -> l' <> [] ->
  mean (l ++ l') = (INR (length l) * mean l + INR (length l') * mean l') / (INR (length l) + INR (length l')).
Proof.
  intros N N'. pose proof (INR_pos l N). pose proof (INR_pos l' N'). unfold mean.
  change (fold_right Rplus 0 (l ++ l')) with (sum (l ++ l')). rewrite sum_app, app_length, plus_INR. unfold sum. field. lra.
Qed.
Lemma checked_inv f a b x : checked f a b = Ok x -> length a = length b /\ a <> [] /\ x = mean (map f (combine a b)).
Proof.
  unfold checked. destruct (Nat.eqb (length a) (length b)) eqn:E; simpl; [|discriminate]. apply Nat.eqb_eq in E.
  destruct a as [|y a]; simpl; [discriminate|]. intros H. split; auto. split; [discriminate|].
  enough (X : Ok x = Ok (mean (map f (combine (y :: a) b)))) by congruence. symmetry. exact H.
Qed.
Lemma checked_parts f a b a' b' x y : checked f a b = Ok x -> checked f a' b' = Ok y ->
  checked f (a ++ a') (b ++ b') =
    Ok ((INR (length a) * x + INR (length a') * y) / (INR (length a) + INR (length a'))).
Proof.
  intros E E'. apply checked_inv in E, E'. destruct E as (L & N & ->), E' as (L' & N' & ->).
  rewrite checked_ok.
  - f_equal. rewrite combine_both, map_app by auto.
    rewrite mean_app by (apply map_nil, combine_nil; auto). rewrite !map_length, !combine_length, <- L, <- L', !Nat.min_id. reflexivity.
  - rewrite !app_length. lia.
  - destruct a; [congruence|discriminate].
Qed.
Lemma weighted_between n n' x y : 0 < n -> 0 < n' -> between x y ((n * x + n' * y) / (n + n')).
Proof.
  intros H H'. unfold between. assert (P : 0 < n + n') by lra. split.
  - apply (Rmult_le_reg_r (n + n')); auto. unfold Rdiv. rewrite Rmult_assoc, Rinv_l, Rmult_1_r by lra.
    pose proof (Rmin_l x y). pose proof (Rmin_r x y). nra.
  - apply (Rmult_le_reg_r (n + n')); auto. unfold Rdiv. rewrite Rmult_assoc, Rinv_l, Rmult_1_r by lra.
    pose proof (Rmax_l x y). pose proof (Rmax_r x y). nra.
Qed.
Lemma between_mono (f : R -> R) x y z : (forall a b, a <= b -> f a <= f b) -> between x y z -> between (f x) (f y) (f z).
Proof.
  intros M [A B]. unfold between in *. destruct (Rle_dec x y) as [L|L].
  - rewrite Rmin_left in A by auto. rewrite Rmax_right in B by auto.
    rewrite Rmin_left, Rmax_right by auto. auto.
  - assert (L' : y <= x) by lra. rewrite Rmin_right in A by auto. rewrite Rmax_left in B by auto.
    rewrite Rmin_right, Rmax_left by auto. auto.
Qed.
Lemma checked_between f a b a' b' x y : checked f a b = Ok x -> checked f a' b' = Ok y ->
  exists z, checked f (a ++ a') (b ++ b') = Ok z /\ between x y z.
Proof.
  intros E E'. eexists. split; [apply checked_parts; eauto|]. apply checked_inv in E, E'.
  apply weighted_between; apply INR_pos; tauto.
Qed.
Lemma mse_averaging s : averaging (mkPM s mse).
Proof. intros a b a' b' x y. apply checked_between. Qed.
Lemma mae_averaging s : averaging (mkPM s mae).
Proof. intros a b a' b' x y. apply checked_between. Qed.
Lemma rmse_averaging s : averaging (mkPM s rmse).
Proof.
  intros a b a' b' x y. cbn [pm_call]. unfold rmse.
  destruct (mse a b) as [p|] eqn:E; cbn [bind]; [|discriminate].
  destruct (mse a' b') as [q|] eqn:E'; cbn [bind]; [|discriminate].
  intros H H'. destruct (checked_between _ _ _ _ _ _ _ E E') as (z & Ez & B). fold mse in Ez. rewrite Ez. cbn [bind].
  exists (sqrt z). split; auto. injection H as <-. injection H' as <-.
  apply (between_mono sqrt); auto. intros u v L. apply sqrt_le_1_alt; auto.
Qed.
Lemma rmse_parts a b a' b' x y : rmse a b = Ok x -> rmse a' b' = Ok y ->
  rmse (a ++ a') (b ++ b') =
    Ok (sqrt ((INR (length a) * (x * x) + INR (length a') * (y * y)) / (INR (length a) + INR (length a')))).
Proof.
  unfold rmse. destruct (mse a b) as [p|] eqn:E; cbn [bind]; [|discriminate].
  destruct (mse a' b') as [q|] eqn:E'; cbn [bind]; [|discriminate]. intros H H'.
  assert (Hx : sqrt p = x) by congruence. assert (Hy : sqrt q = y) by congruence. clear H H'. subst.
  pose proof (checked_parts _ _ _ _ _ _ _ E E') as F. fold mse in F. rewrite F. cbn [bind].
  assert (G : forall a b p, mse a b = Ok p -> 0 <= p).
  { intros u v w H. apply checked_inv in H. destruct H as (L & N & ->). apply mean_nonneg; [apply map_nil, combine_nil; auto|apply sq_nonneg]. }
  rewrite !sqrt_sqrt by eauto. reflexivity.
Qed.

(** ** rounding *)
Lemma nearest_mono x y : x <= y -> (nearest x <= nearest y)%Z.
Proof.
  intros H. destruct (Z_le_gt_dec (nearest x) (nearest y)) as [L|L]; auto.
  destruct (nearest_bounds x) as [A B]. destruct (nearest_bounds y) as [A' B'].
  assert (G : (nearest y + 1 <= nearest x)%Z) by lia. apply IZR_le in G. rewrite plus_IZR in G.
  assert (x = y) by lra. subst. lia.
Qed.
Lemma round4_mono x y : x <= y -> round4 x <= round4 y.
Proof.
  intros H. unfold round4. assert (N : (nearest (x * 10000) <= nearest (y * 10000))%Z) by (apply nearest_mono; lra).
  apply IZR_le in N. lra.
Qed.

(** ** triangle inequalities *)
Lemma mae_triangle a b c : length a = length b -> length b = length c -> a <> [] ->
  exists x y z, mae a b = Ok x /\ mae b c = Ok y /\ mae a c = Ok z /\ z <= x + y.
Proof.
  intros L L' N. assert (Nb : b <> []) by (destruct a, b; try discriminate; congruence).
  unfold mae. rewrite !checked_ok by (auto; congruence). do 3 eexists. do 3 (split; [reflexivity|]).
  unfold mean. rewrite !map_length, !combine_length, <- L', <- L, !Nat.min_id.
  pose proof (INR_pos a N) as P. rewrite <- Rdiv_plus_distr. apply Rmult_le_compat_r; [left; apply Rinv_0_lt_compat; auto|].
  clear N Nb P. revert b c L L'. induction a as [|x a IH]; intros [|y b] [|z c] L L'; try discriminate; simpl; [lra|].
  injection L as L. injection L' as L'. specialize (IH b c L L').
  pose proof (Rabs_triang (x - y) (y - z)) as T. replace (x - y + (y - z)) with (x - z) in T by lra. lra.
Qed.

Definition sum2 (l : list (R * R)) (f : R * R -> R) : R := fold_right Rplus 0 (map f l).
Lemma sum2_pos l f : (forall p, 0 <= f p) -> 0 <= sum2 l f.
Proof. intros H. induction l as [|p l IH]; unfold sum2 in *; simpl; [lra|]. pose proof (H p). lra. Qed.
Lemma schwarz l : sum2 l (fun p => fst p * snd p) <= sqrt (sum2 l (fun p => fst p * fst p)) * sqrt (sum2 l (fun p => snd p * snd p)).
Proof.
  enough (X : sum2 l (fun p => fst p * snd p) * sum2 l (fun p => fst p * snd p) <=
              sum2 l (fun p => fst p * fst p) * sum2 l (fun p => snd p * snd p)).
  { rewrite <- sqrt_mult by (apply sum2_pos; intros; cbv beta; nra).
    eapply Rle_trans; [apply Rle_abs|]. rewrite <- sqrt_Rsqr_abs. apply sqrt_le_1_alt. exact X. }
  induction l as [|[x y] l IH]; unfold sum2 in *; cbn [map fold_right fst snd]; [lra|].
  assert (Hu := sum2_pos l (fun p => fst p * fst p) ltac:(intros p; cbv beta; nra)). unfold sum2 in Hu.
  assert (Hv := sum2_pos l (fun p => snd p * snd p) ltac:(intros p; cbv beta; nra)). unfold sum2 in Hv.
  set (D := fold_right Rplus 0 (map (fun p => fst p * snd p) l)) in *.
  set (U := fold_right Rplus 0 (map (fun p => fst p * fst p) l)) in *.
  set (V := fold_right Rplus 0 (map (fun p => snd p * snd p) l)) in *. clearbody D U V.
  assert (Q : 2 * D * (x * y) <= U * (y * y) + V * (x * x)).
  { pose proof (sqrt_sqrt U Hu) as Eu. pose proof (sqrt_sqrt V Hv) as Ev. pose proof (sqrt_pos U). pose proof (sqrt_pos V).
    set (p := sqrt U) in *. set (q := sqrt V) in *. clearbody p q.
    assert (B : Rabs D <= p * q).
    { apply Rsqr_incr_0_var; [|nra]. rewrite <- Rsqr_abs. unfold Rsqr. nra. }
    assert (S1 : 2 * D * (x * y) <= 2 * (p * q) * Rabs (x * y)).
    { pose proof (Rle_abs (D * (x * y))) as A. rewrite Rabs_mult in A. pose proof (Rabs_pos (x * y)). nra. }
    assert (S2 : 2 * (p * q) * Rabs (x * y) <= U * (y * y) + V * (x * x)).
    { rewrite Rabs_mult. replace (y * y) with (Rabs y * Rabs y) by (rewrite <- Rabs_mult; apply Rabs_pos_eq; nra).
      replace (x * x) with (Rabs x * Rabs x) by (rewrite <- Rabs_mult; apply Rabs_pos_eq; nra).
      rewrite <- Eu, <- Ev. pose proof (Rle_0_sqr (p * Rabs y - q * Rabs x)) as Z. unfold Rsqr in Z. nra. }
    lra. }
  nra.
Qed.
Lemma minkowski l : sqrt (sum2 l (fun p => (fst p + snd p) * (fst p + snd p))) <=
  sqrt (sum2 l (fun p => fst p * fst p)) + sqrt (sum2 l (fun p => snd p * snd p)).
Proof.
  assert (Hu := sum2_pos l (fun p => fst p * fst p) ltac:(intros p; cbv beta; nra)).
  assert (Hv := sum2_pos l (fun p => snd p * snd p) ltac:(intros p; cbv beta; nra)).
  pose proof (sqrt_pos (sum2 l (fun p => fst p * fst p))). pose proof (sqrt_pos (sum2 l (fun p => snd p * snd p))).
  apply Rsqr_incr_0_var; [|lra].
  rewrite Rsqr_sqrt by (apply sum2_pos; intros p; apply Rle_0_sqr).
  replace (sum2 l (fun p => (fst p + snd p) * (fst p + snd p)))
    with (sum2 l (fun p => fst p * fst p) + 2 * sum2 l (fun p => fst p * snd p) + sum2 l (fun p => snd p * snd p)).
  - pose proof (schwarz l). pose proof (sqrt_sqrt _ Hu). pose proof (sqrt_sqrt _ Hv). unfold Rsqr. nra.
  - clear. unfold sum2. induction l as [|p l IH]; simpl; [lra|]. nra.
Qed.
Lemma rmse_triangle a b c : length a = length b -> length b = length c -> a <> [] ->
  exists x y z, rmse a b = Ok x /\ rmse b c = Ok y /\ rmse a c = Ok z /\ z <= x + y.
Proof.
  intros L L' N. assert (Nb : b <> []) by (destruct a, b; try discriminate; congruence).
  unfold rmse, mse. rewrite !checked_ok by (auto; congruence). cbn [bind]. do 3 eexists. do 3 (split; [reflexivity|]).
  unfold mean. rewrite !map_length, !combine_length, <- L', <- L, !Nat.min_id.
  pose proof (INR_pos a N) as P. rewrite !sqrt_div_alt by auto. rewrite <- Rdiv_plus_distr.
  apply Rmult_le_compat_r; [left; apply Rinv_0_lt_compat, sqrt_lt_R0; auto|].
  set (l := combine (map (fun p => fst p - snd p) (combine a b)) (map (fun p => fst p - snd p) (combine b c))).
  assert (E : fold_right Rplus 0 (map (fun p => Rsqr (fst p - snd p)) (combine a c)) = sum2 l (fun p => (fst p + snd p) * (fst p + snd p)) /\
              fold_right Rplus 0 (map (fun p => Rsqr (fst p - snd p)) (combine a b)) = sum2 l (fun p => fst p * fst p) /\
              fold_right Rplus 0 (map (fun p => Rsqr (fst p - snd p)) (combine b c)) = sum2 l (fun p => snd p * snd p)).
  { subst l. clear N Nb P. revert b c L L'. induction a as [|x a IH]; intros [|y b] [|z c] L L'; try discriminate; [repeat split|].
    injection L as L. injection L' as L'. destruct (IH b c L L') as (E1 & E2 & E3). unfold sum2 in *.
    cbn [combine map fold_right fst snd]. rewrite E1, E2, E3. unfold Rsqr. repeat split; lra. }
  destruct E as (-> & -> & ->). apply minkowski.
Qed.

(** ** scale and origin *)
Lemma checked_map f g (h : R -> R) (a b : list R) x : (forall p, f (g (fst p), g (snd p)) = h (f p)) ->
  (forall l, l <> [] -> mean (map h l) = h (mean l)) ->
  checked f a b = Ok x -> checked f (map g a) (map g b) = Ok (h x).
Proof.
  intros F M E. apply checked_inv in E. destruct E as (L & N & ->). rewrite checked_ok.
  - f_equal. rewrite <- M by (apply map_nil, combine_nil; auto). f_equal. clear N M. revert b L.
    induction a as [|y a IH]; intros [|z b] L; try discriminate; simpl; auto. f_equal; [apply (F (y, z))|]. apply IH; auto.
  - rewrite !map_length. auto.
  - apply map_nil; auto.
Qed.
Lemma mean_scale k l : l <> [] -> mean (map (fun x => k * x) l) = k * mean l.
Proof.
  intros N. unfold mean. rewrite map_length. unfold Rdiv. rewrite <- Rmult_assoc. f_equal. clear N.
  induction l as [|x l IH]; simpl; [lra|]. rewrite IH. lra.
Qed.
Lemma mean_id l : l <> [] -> mean (map (fun x => x) l) = mean l.
Proof. intros _. rewrite map_id. reflexivity. Qed.
Lemma scaled k a b x r d : mse a b = Ok x -> rmse a b = Ok r -> mae a b = Ok d ->
  mse (map (Rmult k) a) (map (Rmult k) b) = Ok (k * k * x) /\
  rmse (map (Rmult k) a) (map (Rmult k) b) = Ok (Rabs k * r) /\
  mae (map (Rmult k) a) (map (Rmult k) b) = Ok (Rabs k * d).
Proof.
  intros E R D.
  assert (Em : mse (map (Rmult k) a) (map (Rmult k) b) = Ok (k * k * x)).
  { apply (checked_map _ _ (fun y => k * k * y)); auto; [intros p; cbn; unfold Rsqr; ring|intros; apply mean_scale; auto]. }
  split; auto. split.
  - unfold rmse in *. rewrite Em, E in *. cbn [bind] in *. assert (Hr : sqrt x = r) by congruence. rewrite <- Hr.
    apply checked_inv in E. destruct E as (L & N & ->).
    rewrite sqrt_mult; [|nra|apply mean_nonneg; [apply map_nil, combine_nil; auto|apply sq_nonneg]].
    f_equal. f_equal. apply sqrt_Rsqr_abs.
  - apply (checked_map _ _ (fun y => Rabs k * y)); auto; [|intros; apply mean_scale; auto].
    intros p. cbn. rewrite <- Rabs_mult. f_equal. ring.
Qed.
Lemma shifted k a b x r d : mse a b = Ok x -> rmse a b = Ok r -> mae a b = Ok d ->
  mse (map (Rplus k) a) (map (Rplus k) b) = Ok x /\
  rmse (map (Rplus k) a) (map (Rplus k) b) = Ok r /\
  mae (map (Rplus k) a) (map (Rplus k) b) = Ok d.
Proof.
  intros E R D.
  assert (Em : mse (map (Rplus k) a) (map (Rplus k) b) = Ok x).
  { apply (checked_map _ _ (fun y => y)); auto; [intros p; cbn; f_equal; ring|apply mean_id]. }
  split; auto. split.
  - unfold rmse in *. rewrite Em, E in *. exact R.
  - apply (checked_map _ _ (fun y => y)); auto; [|apply mean_id]. intros p. cbn. f_equal. ring.
Qed.

(** ** predicting the same value for all *)
Lemma constant_predictions a c v : a <> [] -> v = sum a / INR (length a) ->
  exists x, mse a (map (fun _ => v) a) = Ok x /\ mse a (map (fun _ => c) a) = Ok (x + Rsqr (c - v)).
Proof.
  intros N Ev. pose proof (INR_pos a N) as P. unfold mse. rewrite !checked_ok by (auto; rewrite map_length; auto).
  eexists. split; [reflexivity|]. f_equal. unfold mean. rewrite !map_length, !combine_length, !map_length, !Nat.min_id.
  assert (F : forall w, fold_right Rplus 0 (map (fun p => Rsqr (fst p - snd p)) (combine a (map (fun _ => w) a))) =
            sum (map Rsqr a) - 2 * w * sum a + INR (length a) * (w * w)).
  { intros w. clear. unfold sum. induction a as [|x a IH]; [simpl; lra|]. cbn [map combine fold_right fst snd].
    rewrite IH. cbn [length]. rewrite S_INR. unfold Rsqr. lra. }
  rewrite !F. assert (E : sum a = v * INR (length a)) by (rewrite Ev; field; lra). rewrite E. unfold Rsqr. field. lra.
Qed.
