(** Proofs about shrinkage: sign, size, monotonicity and limit. *)
From Coq Require Import String Ascii.
From Coq Require Import List ZArith QArith Qcanon Qround Bool Lia Lqa.
From Verif Require Import Py PyFacts MemModel MemFacts4 RankModel RankSpec RankFacts KnnModel KnnSpec KnnFacts KnnFacts2.
Import ListNotations.
Open Scope Z_scope.

(** ** from Qc to Q *)
Lemma this_plus x y : (this (x + y) == this x + this y)%Q.
Proof. apply Qred_correct. Qed.
Lemma this_mult x y : (this (x * y) == this x * this y)%Q.
Proof. apply Qred_correct. Qed.
Lemma this_opp x : (this (- x) == - this x)%Q.
Proof. apply Qred_correct. Qed.
Lemma this_minus x y : (this (x - y) == this x - this y)%Q.
Proof. unfold Qcminus. rewrite this_plus, this_opp. reflexivity. Qed.
Lemma this_Z n : (this (Qc_of_Z n) == inject_Z n)%Q.
Proof. apply Qred_correct. Qed.
Lemma Qc_eq x y : x = y <-> (this x == this y)%Q.
Proof. split; [intros ->; reflexivity|apply Qc_is_canon]. Qed.
Ltac qc := unfold Qcle, Qclt in *; rewrite ?Qc_eq in *; repeat (progress rewrite ?this_mult, ?this_minus, ?this_opp, ?this_plus in *);
  change (this 0%Qc) with 0%Q in *; change (this 1%Qc) with 1%Q in *.

(** the factor by which a similarity is multiplied *)
Lemma shrink_factor h co s : (0 <= h)%Qc -> exists f, shrink (Some h) co s = Ok (s * f)%Qc /\
  (f * (Qc_of_Z (Z.of_nat co) + h + tiny) = Qc_of_Z (Z.of_nat co))%Qc.
Proof.
  intros H. unfold shrink. set (n := Qc_of_Z (Z.of_nat co)). set (d := (n + h + tiny)%Qc).
  assert (D : (0 < d)%Qc).
  { unfold d. assert (N : (0 <= n)%Qc) by (apply Qc_of_Z_nonneg; lia). assert (Ty : (0 < tiny)%Qc) by reflexivity.
    clearbody n. qc. lra. }
  destruct (Qc_eq_bool d 0) eqn:E.
  { apply Qc_eq_bool_correct in E. rewrite E in D. inversion D. }
  eexists. split; [reflexivity|]. field. intros E'. rewrite E' in D. inversion D.
Qed.

Lemma q_range (f n h e : Q) : (0 <= n -> 0 <= h -> 0 < e -> f * (n + h + e) == n -> 0 <= f /\ f < 1 /\ (0 < n -> 0 < f))%Q.
Proof.
  intros N H E F. assert (D : (0 < n + h + e)%Q) by lra. split; [|split].
  - destruct (Qlt_le_dec f 0); auto. nra.
  - destruct (Qlt_le_dec f 1); auto. nra.
  - intros P. destruct (Qlt_le_dec 0 f); auto. nra.
Qed.
Definition mag (x : Qc) : Qc := if Qcltb x 0 then (- x)%Qc else x.

Section Shrink.
Variable h : Qc.
Hypothesis Hh : (0 <= h)%Qc.

Lemma factor_range f co : (f * (Qc_of_Z (Z.of_nat co) + h + tiny) = Qc_of_Z (Z.of_nat co))%Qc ->
  (0 <= f)%Qc /\ (f < 1)%Qc /\ ((0 < co)%nat -> (0 < f)%Qc).
Proof.
  intros E. assert (N : (0 <= Qc_of_Z (Z.of_nat co))%Qc) by (apply Qc_of_Z_nonneg; lia).
  assert (Ty : (0 < tiny)%Qc) by reflexivity.
  assert (NP : (0 < co)%nat -> (0 < Qc_of_Z (Z.of_nat co))%Qc) by (intros; apply Qc_of_Z_pos; lia).
  set (n := Qc_of_Z (Z.of_nat co)) in *. clearbody n. generalize dependent tiny. intros e E Ty.
  qc. destruct (q_range (this f) (this n) (this h) (this e)) as [A [B C]]; auto.
Qed.

Lemma shrink_toward_zero co s : exists s', shrink (Some h) co s = Ok s' /\
  ((0 <= s)%Qc -> (0 <= s')%Qc /\ (s' <= s)%Qc) /\ ((s <= 0)%Qc -> (s <= s')%Qc /\ (s' <= 0)%Qc) /\
  ((0 < co)%nat -> (0 < s)%Qc -> (0 < s')%Qc /\ (s' < s)%Qc) /\
  ((0 < co)%nat -> (s < 0)%Qc -> (s < s')%Qc /\ (s' < 0)%Qc).
Proof.
  destruct (shrink_factor h co s Hh) as [f [E F]]. exists (s * f)%Qc. split; auto.
  destruct (factor_range f co F) as [F0 [F1 FP]]. clear E F. destruct f as [f Cf], s as [s Cs]. qc. cbn [this] in *.
  split; [|split; [|split]]; intros; try specialize (FP H); split; nra.
Qed.

Lemma shrink_monotone co co' s a b : (co <= co')%nat -> shrink (Some h) co s = Ok a -> shrink (Some h) co' s = Ok b ->
  ((0 <= s)%Qc -> (a <= b)%Qc) /\ ((s <= 0)%Qc -> (b <= a)%Qc).
Proof.
  intros L A B. destruct (shrink_factor h co s Hh) as [f [E F]]. destruct (shrink_factor h co' s Hh) as [g [E' G]].
  rewrite E in A. rewrite E' in B. assert (a = (s * f)%Qc) by congruence. assert (b = (s * g)%Qc) by congruence. subst a b. clear A B E E'.
  destruct (factor_range f co F) as [F0 [F1 _]]. destruct (factor_range g co' G) as [G0 [G1 _]].
  assert (N : (0 <= Qc_of_Z (Z.of_nat co))%Qc) by (apply Qc_of_Z_nonneg; lia).
  assert (N' : (Qc_of_Z (Z.of_nat co) <= Qc_of_Z (Z.of_nat co'))%Qc) by (apply (proj1 (Qc_of_Z_le _ _)); lia).
  assert (Ty : (0 < tiny)%Qc) by reflexivity.
  set (n := Qc_of_Z (Z.of_nat co)) in *. set (n' := Qc_of_Z (Z.of_nat co')) in *. clearbody n n'.
  generalize dependent tiny. intros e F G Ty.
  assert (FG : (f <= g)%Qc).
  { qc. set (h' := this h) in *. clearbody h'.
    destruct f as [f Cf], g as [g Cg], n as [n Cn], n' as [n' Cn'], e as [e Ce]. cbn [this] in *.
    destruct (Qlt_le_dec g f) as [X|X]; auto. exfalso.
    assert (f * (h' + e) == n * (1 - f))%Q by lra. assert (g * (h' + e) == n' * (1 - g))%Q by lra.
    assert (n * (1 - f) <= n' * (1 - g))%Q by nra. nra. }
  destruct f as [f Cf], g as [g Cg], s as [s Cs]. qc. cbn [this] in *. split; intros; nra.
Qed.

Lemma shrink_limit s eps : (0 < eps)%Qc -> exists n0, forall co s', (n0 <= co)%nat -> shrink (Some h) co s = Ok s' ->
  (- eps <= s - s')%Qc /\ (s - s' <= eps)%Qc.
Proof.
  intros He. set (q := (mag s * (h + tiny) / eps)%Qc).
  exists (Z.to_nat (Qceiling (this q))). intros co s' L E.
  destruct (shrink_factor h co s Hh) as [f [E' F]]. assert (s' = (s * f)%Qc) by congruence. subst s'. clear E E'.
  destruct (factor_range f co F) as [F0 [F1 _]].
  assert (Ty : (0 < tiny)%Qc) by reflexivity.
  assert (Q : (q * eps = mag s * (h + tiny))%Qc).
  { unfold q. field. intros X. rewrite X in He. inversion He. }
  assert (NQ : (q <= Qc_of_Z (Z.of_nat co))%Qc).
  { unfold Qcle. rewrite this_Z. eapply Qle_trans; [apply Qle_ceiling|]. rewrite <- Zle_Qle. lia. }
  assert (MP : (0 <= mag s)%Qc /\ (s <= mag s)%Qc /\ (- mag s <= s)%Qc).
  { unfold mag. destruct (Qcltb s 0) eqn:X.
    - apply Qcltb_true in X. clear -X. qc. lra.
    - apply Qcltb_false in X. clear -X. qc. lra. }
  assert (N : (0 <= Qc_of_Z (Z.of_nat co))%Qc) by (apply Qc_of_Z_nonneg; lia).
  set (n := Qc_of_Z (Z.of_nat co)) in *. set (a := mag s) in *. clearbody n a q. clear L. generalize dependent tiny. intros e F Ty Q.
  destruct MP as [M0 [M1 M2]].
  qc. set (h' := this h) in *. clearbody h'. destruct f as [f Cf], n as [n Cn], e as [e Ce], s as [s Cs], a as [a Ca], q as [q Cq], eps as [eps Ceps]. cbn [this] in *.
  assert (X : ((1 - f) * (n + h' + e) == h' + e)%Q) by lra.
  assert (Y : (a * (1 - f) * (n + h' + e) <= eps * (n + h' + e))%Q) by nra.
  assert (Z1 : (a * (1 - f) <= eps)%Q) by nra.
  split; nra.
Qed.
End Shrink.
