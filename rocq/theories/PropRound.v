(** Property C49, rounding: which number is taken half way between two. *)
From Coq Require Import List ZArith Reals Bool Lia Lra.
From Verif Require Import EvalModel EvalFacts DevFacts.
Open Scope R_scope.

Lemma int_part_half z : Int_part (IZR z + 1/2) = z.
Proof.
  destruct (base_Int_part (IZR z + 1/2)) as [A B]. set (f := Int_part (IZR z + 1/2)) in *. clearbody f.
  assert (L1 : IZR f < IZR (z + 1)) by (rewrite plus_IZR; lra). assert (L2 : IZR (z - 1) < IZR f) by (rewrite minus_IZR; lra).
  apply lt_IZR in L1. apply lt_IZR in L2. lia.
Qed.
(** ties go to the even one of the two neighbours *)
Theorem C49_ties : forall z, round4 ((IZR z + 1/2) / 10000) = IZR (2 * ((z + 1) / 2)) / 10000.
Proof.
  intros z. unfold round4. replace ((IZR z + 1/2) / 10000 * 10000) with (IZR z + 1/2) by lra. do 2 f_equal.
  unfold nearest. rewrite int_part_half. replace (IZR z + 1/2 - IZR z) with (1/2) by lra.
  destruct (Rlt_dec (1/2) (1/2)); [lra|]. destruct (Z.even z) eqn:E.
  - apply Z.even_spec in E. destruct E as [y ->]. rewrite Z.add_comm, Z.mul_comm, Z.div_add by lia. change (1 / 2)%Z with 0%Z. lia.
  - rewrite <- Z.negb_odd in E. apply negb_false_iff, Z.odd_spec in E. destruct E as [y ->].
    replace (2 * y + 1 + 1)%Z with ((y + 1) * 2)%Z by lia. rewrite Z.div_mul by lia. lia.
Qed.
Print Assumptions C49_ties.
(** rounding does not change the order of two results *)
Theorem C49_rounding_order : forall x y, x <= y -> round4 x <= round4 y.
Proof. exact round4_mono. Qed.
Print Assumptions C49_rounding_order.
(** 0.00005 is rounded to 0, 0.00015 to 0.0002 *)
Example C49_ties_example : round4 ((0 + 1/2) / 10000) = 0 / 10000 /\ round4 ((1 + 1/2) / 10000) = 2 / 10000.
Proof. split; [exact (C49_ties 0)|exact (C49_ties 1)]. Qed.
