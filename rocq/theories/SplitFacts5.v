(** Which generator draws the test records of a user (leave_k_out). *)
From Coq Require Import String Ascii.
From Coq Require Import List ZArith QArith Qcanon Bool Lia Permutation.
From Verif Require Import Py PyFacts MemModel MemSpec MemFacts MemFacts2 MemFacts3 MemFacts4 MemFacts5 MemFacts6 MemFacts7 Conc ConcFacts SplitModel SplitSpec SplitFacts SplitFacts2.
Import ListNotations.
Open Scope string_scope.
Open Scope Z_scope.

Lemma seeded_nth seed us i v : nth_error us i = Some v -> In (seed + 1 + Z.of_nat i, v) (seeded seed us).
Proof.
  unfold seeded. intros H.
  assert (L : (i < length us)%nat) by (apply nth_error_Some; congruence).
  assert (G : forall (xs : list Z) (ys : list value) j x y,
    nth_error xs j = Some x -> nth_error ys j = Some y -> In (x, y) (combine xs ys)).
  { induction xs as [|x0 xs IH]; intros ys j x y H1 H2; [destruct j; discriminate|].
    destruct ys as [|y0 ys]; [destruct j; discriminate|]. destruct j as [|j]; simpl in *.
    - left. congruence.
    - right. eapply IH; eauto. }
  apply (G _ _ i); auto. apply (map_nth_error (fun i => seed + 1 + Z.of_nat i)).
  rewrite (nth_error_nth' _ 0%nat) by (rewrite seq_length; auto). rewrite seq_nth by auto. reflexivity.
Qed.

Lemma lko_user_sample fmul sample a m sched t train test :
  sample_ok sample -> int_users m -> a_last a = false ->
  leave_k_out fmul sample a m sched t = Done train test ->
  exists us, NoDup us /\ (forall v, In v us <-> exists r, In r (rows_of m) /\ cell r "user" = Some v) /\
  forall i z, nth_error us i = Some (VInt z) ->
    let n := user_count z m in let k := lko_count fmul (a_k a) n in
    a_min a <= n -> 0 < k < n ->
    forall r, In r (rows_of m) -> cell r "user" = Some (VInt z) ->
      (In r (rows_of test) <->
       In (r_rid r) (sample (a_seed a + 1 + Z.of_nat i)
                            (map r_rid (filter (user_is z) (rows_of m))) (Z.to_nat k))).
Proof.
  intros Hs U Hl H. assert (HL : a_last a = true -> In (a_label a) (m_columns m)) by congruence.
  destruct (lko_done fmul sample a m U HL _ _ _ _ H) as (ps & l0 & l1 & N & K & (us & D & P) & E1 & E2 & L0 & L1).
  destruct (distinct_values_ok m "user" DInt (iu_wf _ U) ltac:(discriminate) (iu_col _ U) (iu_type _ U))
    as (vs & E & ND & I & T). rewrite D in E. injection E as <-.
  exists us. split; auto. split; auto. intros i z Hi n k Hn Hk r Hr Hc.
  pose proof (seeded_nth (a_seed a) us i _ Hi) as Hp. rewrite <- P in Hp.
  set (p := (a_seed a + 1 + Z.of_nat i, VInt z)) in *.
  assert (Zk : zkey p = z) by reflexivity.
  assert (O : forall x, In x ps -> own m zkey x (test_of fmul sample a m x)).
  { intros x _. destruct (test_of_spec fmul sample Hs a m U HL x) as (rest & Q & _).
    exact (proj2 (sample_own fmul sample a m U x rest Q)). }
  assert (M := own_only m ps zkey U N (test_of fmul sample a m) l1 O L1 p r Hp Hr).
  assert (Eu : user_is (zkey p) r = true) by (apply user_is_iff; auto).
  specialize (M Eu).
  assert (TT : test_of fmul sample a m p = sample (a_seed a + 1 + Z.of_nat i)
                 (map r_rid (filter (user_is z) (rows_of m))) (Z.to_nat k)).
  { unfold test_of, kk. rewrite Zk. fold n. fold k.
    destruct (n <? a_min a) eqn:C1; [apply Z.ltb_lt in C1; lia|].
    assert (C2 : (k <? n) = true) by (apply Z.ltb_lt; lia). assert (C3 : (0 <? k) = true) by (apply Z.ltb_lt; lia).
    rewrite C2, C3, Hl. reflexivity. }
  rewrite TT in M. rewrite <- M. subst test. destruct (drop_spec m l1) as (Ed & _). rewrite Ed. 
  cbn [rows_of]. split.
  - intros X. apply filter_In in X. destruct X as [_ X]. apply listed_iff in X. exact X.
  - intros X. apply filter_In. split; auto. apply listed_iff. exact X.
Qed.
