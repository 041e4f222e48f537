(** Lemmas about losses, shapes and batches of the neural recommenders. *)
From Coq Require Import String Ascii.
From Coq Require Import List ZArith QArith Qcanon Bool Lia.
From Verif Require Import Py PyFacts MemModel MemSpec KnnModel TrainModel SampModel NetModel.
Import ListNotations.
Open Scope nat_scope.

(** ** Losses *)
Definition zip {A B C} (f : A -> B -> C) (l : list A) (l' : list B) : list C :=
  map (fun p => f (fst p) (snd p)) (combine l l').

Lemma map_nth_seq {A C} (d : A) (g : A -> C) l : map (fun i => g (nth i l d)) (seq 0 (length l)) = map g l.
Proof.
  induction l as [|x l IH]; auto. cbn [length seq map]. f_equal. rewrite <- seq_shift, map_map. exact IH.
Qed.
Lemma flat_map_nth_seq {A C} (d : A) (g : A -> list C) l : flat_map (fun i => g (nth i l d)) (seq 0 (length l)) = flat_map g l.
Proof. rewrite !flat_map_concat_map, map_nth_seq. reflexivity. Qed.
Lemma flat_map_ext_in {A B} (f g : A -> list B) l : (forall x, In x l -> f x = g x) -> flat_map f l = flat_map g l.
Proof. intros H. rewrite !flat_map_concat_map. f_equal. apply map_ext_in. exact H. Qed.
Lemma zip_nth {A B C} (f : A -> B -> C) d d' l : forall l', length l = length l' ->
  map (fun i => f (nth i l d) (nth i l' d')) (seq 0 (length l)) = zip f l l'.
Proof.
  unfold zip. induction l as [|x l IH]; intros [|y l'] H; try discriminate; auto.
  cbn [length seq map combine]. f_equal. rewrite <- seq_shift, map_map. apply IH. cbn in H. lia.
Qed.

Lemma flat_map_map {A B C} (f : B -> list C) (g : A -> B) l : flat_map f (map g l) = flat_map (fun x => f (g x)) l.
Proof. rewrite !flat_map_concat_map, map_map. reflexivity. Qed.
Lemma map_flat_map {A B C} (f : B -> C) (g : A -> list B) l : map f (flat_map g l) = flat_map (fun x => map f (g x)) l.
Proof. induction l as [|x l IH]; auto. cbn. rewrite map_app, IH. reflexivity. Qed.

Lemma indices1 n : indices [n] = map (fun i => [i]) (seq 0 n).
Proof. cbn [indices]. rewrite flat_map_concat_map. induction (seq 0 n); auto. cbn in *. f_equal. exact IHl. Qed.

Lemma entries1 {A} n (g : list nat -> A) : entries (mkT [n] g) = map (fun i => g [i]) (seq 0 n).
Proof. unfold entries. cbn [t_at t_shape]. rewrite indices1, map_map. reflexivity. Qed.
Lemma entries2 {A} m n (g : list nat -> A) :
  entries (mkT [m; n] g) = flat_map (fun a => map (fun i => g [a; i]) (seq 0 n)) (seq 0 m).
Proof.
  unfold entries. cbn [t_at t_shape]. change (indices [m; n]) with (flat_map (fun a => map (cons a) (indices [n])) (seq 0 m)).
  rewrite map_flat_map. apply flat_map_ext. intros a. rewrite indices1, !map_map. reflexivity.
Qed.
Lemma entries3 {A} l m n (g : list nat -> A) :
  entries (mkT [l; m; n] g) = flat_map (fun a => flat_map (fun b => map (fun i => g [a; b; i]) (seq 0 n)) (seq 0 m)) (seq 0 l).
Proof.
  unfold entries. cbn [t_at t_shape].
  change (indices [l; m; n]) with (flat_map (fun a => map (cons a) (indices [m; n])) (seq 0 l)).
  rewrite map_flat_map. apply flat_map_ext. intros a. rewrite map_map.
  change (indices [m; n]) with (flat_map (fun a => map (cons a) (indices [n])) (seq 0 m)).
  rewrite map_flat_map. apply flat_map_ext. intros b. rewrite indices1, !map_map. reflexivity.
Qed.

Lemma stretch_in (a i : nat) : i < a -> (if a =? 1 then 0 else i) = i.
Proof. destruct (a =? 1) eqn:E; auto. apply Nat.eqb_eq in E. lia. Qed.

Section Losses.
Context {T A : Type} (f : T -> T -> A) (d : T).

Lemma dmf_losses_ok desired predictions : length desired = length predictions ->
  dmf_losses f d desired predictions = Some (zip f desired predictions).
Proof.
  intros H. unfold dmf_losses, losses, elementwise, vector. cbn [t_shape t_at rev app broadcast stretch].
  rewrite H, Nat.eqb_refl. cbn [option_map rev app]. f_equal. rewrite entries1, <- H.
  rewrite <- (zip_nth f d d) by auto. apply map_ext_in. intros i Hi. apply in_seq in Hi.
  cbn [rev app stretch]. rewrite !stretch_in by lia. reflexivity.
Qed.

Lemma caser_losses_ok n desired predictions : length desired = length predictions ->
  (forall l, In l desired -> length l = n) -> (forall l, In l predictions -> length l = n) ->
  caser_losses f d n desired predictions = Some (concat (zip (zip f) desired predictions)).
Proof.
  intros H D P. unfold caser_losses, losses, elementwise, matrix. cbn [t_shape t_at rev app broadcast].
  rewrite H, !Nat.eqb_refl. cbn [option_map rev app]. f_equal. rewrite entries2, <- H.
  rewrite <- (zip_nth (zip f) [] []) by auto. rewrite <- flat_map_concat_map. apply flat_map_ext_in.
  intros a Ha. apply in_seq in Ha.
  assert (L1 : length (nth a desired []) = n) by (apply D, nth_In; lia).
  assert (L2 : length (nth a predictions []) = n) by (apply P, nth_In; lia).
  rewrite <- (zip_nth f d d) by lia. rewrite L1. apply map_ext_in. intros i Hi. apply in_seq in Hi.
  cbn [rev app stretch]. rewrite !stretch_in by lia. reflexivity.
Qed.

(** every reconstruction against every desired vector *)
Lemma cdae_losses_ok n desired predictions : length desired = length predictions ->
  (forall l, In l desired -> length l = n) -> (forall l, In l predictions -> length l = n) ->
  cdae_losses f d n desired predictions = Some (flat_map (fun p => flat_map (fun t => zip f t p) desired) predictions).
Proof.
  intros H D P. unfold cdae_losses, losses, elementwise, matrix, stacked. cbn [t_shape t_at rev app].
  assert (B : broadcast [n; length desired] [n; 1; length predictions] = Some [n; length desired; length predictions]).
  { cbn [broadcast]. destruct (length desired =? 1); cbn; rewrite (Nat.eqb_refl n); reflexivity. }
  rewrite B. cbn [option_map rev app]. f_equal. rewrite entries3.
  rewrite <- (flat_map_nth_seq [] (fun p => flat_map (fun t => zip f t p) desired)).
  apply flat_map_ext_in. intros a Ha. apply in_seq in Ha.
  rewrite <- (flat_map_nth_seq [] (fun t => zip f t (nth a predictions []))).
  apply flat_map_ext_in. intros b Hb. apply in_seq in Hb.
  assert (L1 : length (nth b desired []) = n) by (apply D, nth_In; lia).
  assert (L2 : length (nth a predictions []) = n) by (apply P, nth_In; lia).
  rewrite <- (zip_nth f d d) by lia. rewrite L1. apply map_ext_in. intros i Hi. apply in_seq in Hi.
  cbn [rev app stretch]. rewrite !stretch_in by lia. reflexivity.
Qed.
End Losses.

(** ** Sums *)
Open Scope Qc_scope.
Lemma Qcsum_cons x l : Qcsum (x :: l) = x + Qcsum l.
Proof.
  unfold Qcsum. cbn [fold_left]. assert (G : forall l a, fold_left Qcplus l a = a + fold_left Qcplus l 0).
  { induction l0 as [|y l0 IH]; intros a; cbn [fold_left]; [ring|]. rewrite IH, (IH (0 + y)). ring. }
  rewrite G. ring.
Qed.
Lemma Qcsum_nil : Qcsum [] = 0. Proof. reflexivity. Qed.
Lemma Qcsum_app l l' : Qcsum (l ++ l') = Qcsum l + Qcsum l'.
Proof. induction l as [|x l IH]; [rewrite Qcsum_nil; cbn [app]; ring|]. cbn [app]. rewrite !Qcsum_cons, IH. ring. Qed.
Lemma Qc_of_Z_nat_S n : Qc_of_Z (Z.of_nat (S n)) = 1 + Qc_of_Z (Z.of_nat n).
Proof.
  unfold Qc_of_Z. apply Qc_is_canon. cbn [this Q2Qc Qcplus]. rewrite !Qred_correct.
  rewrite Nat2Z.inj_succ. unfold Z.succ. rewrite Z.add_comm. rewrite inject_Z_plus. reflexivity.
Qed.
Lemma Qc_nat_nonneg n : 0 <= Qc_of_Z (Z.of_nat n).
Proof. unfold Qc_of_Z, Qcle. cbn [this Q2Qc]. rewrite !Qred_correct. unfold Qle. cbn. lia. Qed.
Lemma Qc_nat_pos n : (0 < n)%nat -> 0 < Qc_of_Z (Z.of_nat n).
Proof. intros H. unfold Qc_of_Z, Qclt. cbn [this Q2Qc]. rewrite !Qred_correct. unfold Qlt. cbn. lia. Qed.

Lemma sq_nonneg (x : Qc) : 0 <= x * x.
Proof.
  destruct (Qclt_le_dec x 0) as [H|H].
  - replace (x * x) with ((- x) * (- x)) by ring. apply Qcle_trans with (0 * (- x)); [replace (0 * - x) with 0 by ring; apply Qcle_refl|].
    apply Qcmult_le_compat_r.
    + apply Qcle_trans with (0 + 0); [discriminate|]. apply Qclt_le_weak in H. apply Qcopp_le_compat in H. replace (- 0) with 0 in H by reflexivity. replace (0 + 0) with 0 by ring. exact H.
    + apply Qclt_le_weak in H. apply Qcopp_le_compat in H. replace (- 0) with 0 in H by reflexivity. exact H.
  - apply Qcle_trans with (0 * x); [replace (0 * x) with 0 by ring; apply Qcle_refl|]. apply Qcmult_le_compat_r; auto.
Qed.

(** sum over a column of targets of the squared errors of one prediction *)
Lemma sum_sq p ts : Qcsum (map (fun t => sq_err t p) ts) =
  Qc_of_Z (Z.of_nat (length ts)) * p * p - (1 + 1) * p * Qcsum ts + Qcsum (map (fun t => t * t) ts).
Proof.
  induction ts as [|t ts IH].
  - cbn [map length]. rewrite !Qcsum_nil. change (Qc_of_Z (Z.of_nat 0)) with 0. ring.
  - cbn [map length]. rewrite !Qcsum_cons, IH, Qc_of_Z_nat_S. unfold sq_err. ring.
Qed.
Lemma sum_sq_min p ts : ts <> [] ->
  Qcsum (map (fun t => sq_err t (mean_of ts)) ts) <= Qcsum (map (fun t => sq_err t p) ts).
Proof.
  intros N. rewrite !sum_sq. unfold mean_of. set (s := Qcsum ts). set (q := Qcsum (map (fun t => t * t) ts)).
  assert (P : 0 < Qc_of_Z (Z.of_nat (length ts))) by (apply Qc_nat_pos; destruct ts; [contradiction|cbn; lia]).
  set (n := Qc_of_Z (Z.of_nat (length ts))) in *.
  assert (N0 : n <> 0) by (intros E; rewrite E in P; discriminate).
  assert (E : n * p * p - (1 + 1) * p * s + q - (n * (s / n) * (s / n) - (1 + 1) * (s / n) * s + q) =
              n * ((p - s / n) * (p - s / n))) by (field; auto).
  assert (G : 0 <= n * ((p - s / n) * (p - s / n))).
  { apply Qcle_trans with (0 * ((p - s / n) * (p - s / n))); [replace (0 * ((p - s / n) * (p - s / n))) with 0 by ring; apply Qcle_refl|].
    apply Qcmult_le_compat_r; [apply Qclt_le_weak; auto|apply sq_nonneg]. }
  rewrite <- E in G. apply Qcle_minus_iff. exact G.
Qed.

(** ** What minimises the loss of CDAE *)
Lemma Qcsum_flat_map {A} (f : A -> list Qc) l : Qcsum (flat_map f l) = Qcsum (map (fun x => Qcsum (f x)) l).
Proof. induction l as [|x l IH]; auto. cbn [flat_map map]. rewrite Qcsum_app, Qcsum_cons, IH. reflexivity. Qed.
Lemma Qcsum_plus {A} (f g : A -> Qc) l : Qcsum (map (fun x => f x + g x) l) = Qcsum (map f l) + Qcsum (map g l).
Proof. induction l as [|x l IH]; cbn [map]; [rewrite !Qcsum_nil; ring|]. rewrite !Qcsum_cons, IH. ring. Qed.
Lemma Qcsum_zero {A} (l : list A) : Qcsum (map (fun _ => 0) l) = 0.
Proof. induction l as [|x l IH]; [reflexivity|]. cbn [map]. rewrite Qcsum_cons, IH. ring. Qed.
Lemma Qcsum_swap {A B} (g : A -> B -> Qc) l l' :
  Qcsum (map (fun x => Qcsum (map (g x) l')) l) = Qcsum (map (fun y => Qcsum (map (fun x => g x y) l)) l').
Proof.
  induction l as [|x l IH]; cbn [map].
  - rewrite Qcsum_nil. symmetry. apply Qcsum_zero.
  - rewrite Qcsum_cons, IH. rewrite <- Qcsum_plus. f_equal. apply map_ext. intros y. rewrite Qcsum_cons. reflexivity.
Qed.
Lemma Qcsum_le {A} (f g : A -> Qc) l : (forall x, In x l -> f x <= g x) -> Qcsum (map f l) <= Qcsum (map g l).
Proof.
  induction l as [|x l IH]; intros H; cbn [map]; [rewrite Qcsum_nil; apply Qcle_refl|].
  rewrite !Qcsum_cons. apply Qcplus_le_compat; [apply H; left; auto|apply IH; intros; apply H; right; auto].
Qed.

(** the average of the vectors *)
Definition mean_vector (n : nat) (l : list (list Qc)) : list Qc :=
  map (fun i => mean_of (map (fun t => nth i t 0) l)) (seq 0 n).
Lemma mean_vector_length n l : length (mean_vector n l) = n.
Proof. unfold mean_vector. rewrite map_length, seq_length. reflexivity. Qed.
Lemma mean_vector_nth n l i : (i < n)%nat -> nth i (mean_vector n l) 0 = mean_of (map (fun t => nth i t 0) l).
Proof.
  intros H. unfold mean_vector. rewrite nth_indep with (d' := mean_of (map (fun t => nth 0 t 0) l)).
  - rewrite (map_nth (fun i => mean_of (map (fun t => nth i t 0) l))), seq_nth by auto. reflexivity.
  - rewrite map_length, seq_length. auto.
Qed.

Lemma row_sum n ts p : (forall t, In t ts -> length t = n) -> length p = n ->
  Qcsum (flat_map (fun t => zip sq_err t p) ts) =
  Qcsum (map (fun i => Qcsum (map (fun t => sq_err t (nth i p 0)) (map (fun t => nth i t 0) ts))) (seq 0 n)).
Proof.
  intros H P. rewrite Qcsum_flat_map.
  rewrite (map_ext_in _ (fun t => Qcsum (map (fun i => sq_err (nth i t 0) (nth i p 0)) (seq 0 n)))).
  - rewrite Qcsum_swap. f_equal. apply map_ext. intros i. rewrite map_map. reflexivity.
  - intros t Ht. rewrite <- (zip_nth sq_err 0 0) by (rewrite H; auto). rewrite H by auto. reflexivity.
Qed.

Lemma row_min n ts p : ts <> [] -> (forall t, In t ts -> length t = n) -> length p = n ->
  Qcsum (flat_map (fun t => zip sq_err t (mean_vector n ts)) ts) <= Qcsum (flat_map (fun t => zip sq_err t p) ts).
Proof.
  intros N H P. rewrite !(row_sum n) by (auto using mean_vector_length). apply Qcsum_le. intros i Hi. apply in_seq in Hi.
  rewrite mean_vector_nth by lia. apply sum_sq_min. destruct ts; [contradiction|discriminate].
Qed.

Lemma flat_map_length_const {A B} (f : A -> list B) k l : (forall x, In x l -> length (f x) = k) ->
  length (flat_map f l) = (length l * k)%nat.
Proof.
  induction l as [|x l IH]; intros H; auto. cbn [flat_map length]. rewrite app_length, H by (left; auto).
  rewrite IH by (intros; apply H; right; auto). lia.
Qed.
Lemma zip_length {A B C} (f : A -> B -> C) l l' : length l = length l' -> length (zip f l l') = length l.
Proof. intros H. unfold zip. rewrite map_length, combine_length. lia. Qed.

Lemma div_le (a b : Qc) (n : nat) : a <= b -> a / Qc_of_Z (Z.of_nat n) <= b / Qc_of_Z (Z.of_nat n).
Proof.
  intros H. unfold Qcdiv. apply Qcmult_le_compat_r; auto.
  destruct n as [|n]; [vm_compute; discriminate|].
  assert (P := Qc_nat_pos (S n) ltac:(lia)).
  unfold Qcle, Qclt in *. cbn [this Q2Qc Qcinv] in *. rewrite ?Qred_correct in *.
  apply Qlt_le_weak. apply Qinv_lt_0_compat. exact P.
Qed.

Definition loss_of (l : option (list Qc)) : option Qc := option_map mean_of l.

Lemma cdae_mean_best n desired predictions : desired <> [] -> length desired = length predictions ->
  (forall l, In l desired -> length l = n) -> (forall l, In l predictions -> length l = n) ->
  exists best other,
    loss_of (cdae_losses sq_err 0 n desired (repeat (mean_vector n desired) (length predictions))) = Some best /\
    loss_of (cdae_losses sq_err 0 n desired predictions) = Some other /\ best <= other.
Proof.
  intros N H D P.
  rewrite cdae_losses_ok; [|rewrite repeat_length; auto|auto|intros l Hl; apply repeat_spec in Hl; subst; apply mean_vector_length].
  rewrite cdae_losses_ok by auto. cbn [loss_of option_map]. eexists _, _. split; [reflexivity|]. split; [reflexivity|].
  unfold mean_of.
  assert (L : forall ps, (forall l, In l ps -> length l = n) ->
     length (flat_map (fun p => flat_map (fun t => zip sq_err t p) desired) ps) = (length ps * (length desired * n))%nat).
  { intros ps Hp. apply flat_map_length_const. intros p I. apply flat_map_length_const. intros t J.
    rewrite zip_length; [auto|rewrite D, Hp; auto]. }
  rewrite !L by (auto; intros l Hl; apply repeat_spec in Hl; subst; apply mean_vector_length).
  rewrite repeat_length. apply div_le. rewrite !Qcsum_flat_map.
  clear H L. induction predictions as [|p ps IH]; cbn [length repeat map]; [apply Qcle_refl|].
  rewrite !Qcsum_cons. apply Qcplus_le_compat.
  - apply row_min; auto. apply P. left; auto.
  - apply IH. intros l Hl. apply P. right. auto.
Qed.

(** one user (or users with the same vector): the errors of the own vector *)
Lemma Qcsum_repeat x n : Qcsum (repeat x n) = Qc_of_Z (Z.of_nat n) * x.
Proof.
  induction n as [|n IH]; cbn [repeat]; [rewrite Qcsum_nil; change (Qc_of_Z (Z.of_nat 0)) with 0; ring|].
  rewrite Qcsum_cons, IH, Qc_of_Z_nat_S. ring.
Qed.
Lemma Qc_of_Z_nat_mul a b : Qc_of_Z (Z.of_nat (a * b)) = Qc_of_Z (Z.of_nat a) * Qc_of_Z (Z.of_nat b).
Proof.
  unfold Qc_of_Z. apply Qc_is_canon. cbn [this Q2Qc Qcmult]. rewrite !Qred_correct.
  rewrite Nat2Z.inj_mul, inject_Z_mult. reflexivity.
Qed.
Lemma combine_repeat {A B} (t : A) (ps : list B) : combine (repeat t (length ps)) ps = map (fun p => (t, p)) ps.
Proof. induction ps as [|p ps IH]; auto. cbn [length repeat combine map]. rewrite IH. reflexivity. Qed.

Lemma map_repeat {A B} (f : A -> B) x n : map f (repeat x n) = repeat (f x) n.
Proof. induction n as [|n IH]; auto. cbn [repeat map]. rewrite IH. reflexivity. Qed.

Lemma cdae_same f t predictions : t <> [] -> predictions <> [] ->
  (forall l, In l predictions -> length l = length t) ->
  loss_of (cdae_losses f 0 (length t) (repeat t (length predictions)) predictions) =
  Some (mean_of (concat (zip (zip f) (repeat t (length predictions)) predictions))).
Proof.
  intros N N' P. set (B := length predictions).
  rewrite cdae_losses_ok; [|apply repeat_length|intros l Hl; apply repeat_spec in Hl; subst; auto|auto].
  cbn [loss_of option_map]. f_equal. unfold mean_of.
  assert (B0 : (0 < B)%nat) by (unfold B; destruct predictions; [contradiction|cbn; lia]).
  assert (E2 : concat (zip (zip f) (repeat t B) predictions) = flat_map (fun p => zip f t p) predictions).
  { unfold zip at 1, B. rewrite combine_repeat, map_map, flat_map_concat_map. reflexivity. }
  rewrite E2.
  assert (L1 : length (flat_map (fun p => zip f t p) predictions) = (B * length t)%nat).
  { apply flat_map_length_const. intros p I. apply zip_length. symmetry. auto. }
  assert (L2 : length (flat_map (fun p => flat_map (fun t0 => zip f t0 p) (repeat t B)) predictions) = (B * (B * length t))%nat).
  { apply flat_map_length_const. intros p I. rewrite (flat_map_length_const _ (length t)); [rewrite repeat_length; auto|].
    intros t0 J. apply repeat_spec in J. subst. apply zip_length. symmetry. auto. }
  rewrite L1, L2, !Qcsum_flat_map.
  assert (E : map (fun p => Qcsum (flat_map (fun t0 => zip f t0 p) (repeat t B))) predictions =
              map (fun p => Qc_of_Z (Z.of_nat B) * Qcsum (zip f t p)) predictions).
  { apply map_ext. intros p. rewrite Qcsum_flat_map, map_repeat, Qcsum_repeat. reflexivity. }
  rewrite E. clear E.
  assert (S : forall c (g : list Qc -> Qc) l, Qcsum (map (fun p => c * g p) l) = c * Qcsum (map g l)).
  { intros c g l. induction l as [|x l IH]; cbn [map]; [rewrite Qcsum_nil; ring|]. rewrite !Qcsum_cons, IH. ring. }
  rewrite S. rewrite (Qc_of_Z_nat_mul B (B * length t)).
  assert (P1 := Qc_nat_pos B B0).
  assert (P2 := Qc_nat_pos (B * length t) ltac:(destruct t; [contradiction|cbn; lia])).
  field. split; intros E; [rewrite E in P2|rewrite E in P1]; discriminate.
Qed.
