(** Facts about the first sample of a sampler with a seed. *)
From Coq Require Import String Ascii.
From Coq Require Import List ZArith QArith Qcanon Bool Lia.
From Verif Require Import Py MemModel MemSpec KnnSpec SampModel SampSpec SampFacts TwistModel TwistSpec.
From Verif Require MemFacts4.
Import ListNotations.
Open Scope string_scope.
Open Scope Z_scope.
Open Scope list_scope.

Notation zq := Qc_of_Z.
Lemma zq_le : forall a b, a <= b -> (zq a <= zq b)%Qc.
Proof.
  intros a b H. unfold Qcle, Qc_of_Z, Q2Qc, this. rewrite !Qred_correct. unfold Qle. cbn. lia.
Qed.
Lemma zq_le_inv : forall a b, (zq a <= zq b)%Qc -> a <= b.
Proof.
  intros a b H. unfold Qcle, Qc_of_Z, Q2Qc, this in H. rewrite !Qred_correct in H. unfold Qle in H. cbn in H. lia.
Qed.
Lemma zq_mul : forall a b, zq (a * b) = (zq a * zq b)%Qc.
Proof.
  intros. apply Qc_is_canon. unfold Qc_of_Z, Qcmult, Q2Qc, this. rewrite !Qred_correct. unfold Qeq. cbn. lia.
Qed.

Lemma bits_of_word : forall k w0 w1, 1 <= k <= 27 -> 0 <= w0 < 2 ^ 32 -> 0 <= w1 < 2 ^ 32 ->
  (zq (getrandbits k w0) <= zq (2 ^ k) * random01 w0 w1)%Qc.
Proof.
  intros k w0 w1 K W0 W1. unfold getrandbits.
  assert (E : w0 / 2 ^ (32 - k) = w0 / 2 ^ 5 / 2 ^ (27 - k)).
  { rewrite Z.div_div by (try apply Z.pow_nonzero; try apply Z.pow_pos_nonneg; lia).
    rewrite <- Z.pow_add_r by lia. do 2 f_equal. lia. }
  rewrite E. set (a := w0 / 2 ^ 5). set (u := a / 2 ^ (27 - k)).
  assert (A : u * 2 ^ (27 - k) <= a).
  { unfold u. rewrite Z.mul_comm. apply Z.mul_div_le. apply Z.pow_pos_nonneg; lia. }
  assert (B : 0 <= w1 / 2 ^ 6) by (apply Z.div_pos; lia).
  assert (P : 0 < 2 ^ k) by (apply Z.pow_pos_nonneg; lia).
  assert (S : u * 2 ^ 53 <= 2 ^ k * (a * 2 ^ 26 + w1 / 2 ^ 6)).
  { replace (2 ^ 53) with (2 ^ (27 - k) * (2 ^ k * 2 ^ 26)).
    2:{ rewrite <- !Z.pow_add_r by lia. f_equal. lia. }
    nia. }
  unfold Qcle, Qc_of_Z, random01, Qcmult, Q2Qc, this. rewrite !Qred_correct. fold a.
  unfold Qle, Qmult, inject_Z, Qnum, Qden. change (Z.pos (1 * 2 ^ 53)) with (2 ^ 53). lia.
Qed.

Lemma bit_length_bounds : forall n, 1 <= n -> 1 <= bit_length n /\ 2 ^ (bit_length n - 1) <= n < 2 ^ bit_length n.
Proof.
  intros n H. unfold bit_length. destruct (n =? 0) eqn:E; [lia|].
  destruct (Z.log2_spec n) as [A B]; [lia|]. pose proof (Z.log2_nonneg n).
  replace (Z.log2 n + 1 - 1) with (Z.log2 n) by lia. rewrite <- Z.add_1_r in B. lia.
Qed.
Lemma bit_length_small : forall n, 1 <= n <= 2 ^ 26 -> bit_length n <= 27.
Proof.
  intros n H. destruct (bit_length_bounds n) as (A & B & _); [lia|].
  destruct (Z.le_gt_cases (bit_length n) 27) as [|G]; [assumption|].
  assert (2 ^ 27 <= 2 ^ (bit_length n - 1)) by (apply Z.pow_le_mono_r; lia). lia.
Qed.

Lemma randbelow_below : forall fuel n w k v k', randbelow fuel n w k = Some (v, k') -> v < n.
Proof.
  induction fuel as [|fuel IH]; intros n w k v k' H; cbn [randbelow] in H; [discriminate|].
  destruct (getrandbits (bit_length n) (w k) <? n) eqn:E; [|eauto].
  injection H as <- <-. now apply Z.ltb_lt.
Qed.
Lemma randbelow_nonneg : forall fuel n w k v k', words w -> randbelow fuel n w k = Some (v, k') -> 0 <= v.
Proof.
  induction fuel as [|fuel IH]; intros n w k v k' W H; cbn [randbelow] in H; [discriminate|].
  destruct (getrandbits (bit_length n) (w k) <? n) eqn:E; [|eauto].
  injection H as <- <-. unfold getrandbits. specialize (W k).
  destruct (Z.le_gt_cases 0 (32 - bit_length n)) as [G|G].
  - apply Z.div_pos; [lia|]. apply Z.pow_pos_nonneg; lia.
  - rewrite Z.pow_neg_r by lia. now rewrite Zdiv_0_r.
Qed.

(** A draw that asks for a positive sample leaves a small first user. *)
Lemma first_user_small : forall w n fuel v k neg, words w -> 1 <= n <= 2 ^ 26 -> (1 <= neg)%Qc ->
  ((neg + 1) * random01 (w 0%nat) (w 1%nat) <= 1)%Qc -> randbelow fuel n w 0 = Some (v, k) ->
  ((neg + 1) * zq v <= zq (2 ^ bit_length n))%Qc.
Proof.
  intros w n fuel v k neg W N G L H.
  destruct (bit_length_bounds n) as (B1 & B2 & B3); [lia|]. pose proof (bit_length_small n N) as B4.
  set (b := bit_length n) in *.
  pose proof (bits_of_word b (w 0%nat) (w 1%nat) ltac:(lia) (W 0%nat) (W 1%nat)) as X.
  set (v0 := getrandbits b (w 0%nat)) in *. set (x := random01 (w 0%nat) (w 1%nat)) in *.
  assert (P0 : (0 <= neg + 1)%Qc).
  { apply Qcle_trans with (1 + 1)%Qc; [now vm_compute|]. apply Qcplus_le_compat; [exact G|apply Qcle_refl]. }
  assert (Y : ((neg + 1) * zq v0 <= zq (2 ^ b))%Qc).
  { apply Qcle_trans with (zq (2 ^ b) * ((neg + 1) * x))%Qc.
    - rewrite (Qcmult_comm (neg + 1) (zq v0)).
      replace (zq (2 ^ b) * ((neg + 1) * x))%Qc with ((zq (2 ^ b) * x) * (neg + 1))%Qc by ring.
      now apply Qcmult_le_compat_r.
    - replace (zq (2 ^ b)) with (1 * zq (2 ^ b))%Qc at 2 by ring.
      rewrite (Qcmult_comm (zq (2 ^ b))). apply Qcmult_le_compat_r; [exact L|].
      apply (zq_le 0). apply Z.pow_nonneg. lia. }
  destruct fuel as [|fuel]; [discriminate|]. pose proof (randbelow_below _ _ _ _ _ _ H) as V.
  pose proof (randbelow_nonneg _ _ _ _ _ _ W H) as V0.
  cbn [randbelow] in H. fold b in H. fold v0 in H.
  destruct (v0 <? n) eqn:E; [injection H as <- _; exact Y|].
  apply Z.ltb_ge in E.
  apply Qcle_trans with ((neg + 1) * zq v0)%Qc; [|exact Y].
  rewrite !(Qcmult_comm (neg + 1)). apply Qcmult_le_compat_r; [|exact P0]. apply zq_le. lia.
Qed.

Lemma first_positive : forall m t f neg d mu w n fuel x l st, coded m -> rows_of m <> [] ->
  f_rows f = filter (above t) (rows_of m) -> max_id m "uid" = Ok mu ->
  (forall u, 0 <= u <= mu -> exists r, In r (rows_of m) /\ above t r = true /\ cell r "uid" = Some (VInt u)) ->
  words w -> seeded w mu d -> mu < 2 ^ 26 -> (1 <= neg)%Qc ->
  ~ label_negative neg (dr_label d 0%nat) ->
  sample (S n) fuel (mkPoint m neg (thr_text t) f) d pst0 = Some (Ok (x :: l), st) ->
  exists u, fst (fst x) = Some u /\ ((neg + 1) * zq u <= zq (2 ^ bit_length (mu + 1)))%Qc.
Proof.
  intros m t f neg d mu w n fuel x l st C N F M A W (Sl & fu & v & k & Sr & Sp) Mu G L H.
  destruct (max_id_ok m C "uid" (or_introl eq_refl) N) as (z & Ez & Z0 & _). rewrite M in Ez. injection Ez as <-.
  assert (V : 0 <= v <= mu).
  { pose proof (randbelow_below _ _ _ _ _ _ Sr). pose proof (randbelow_nonneg _ _ _ _ _ _ W Sr). lia. }
  assert (B : ((neg + 1) * zq v <= zq (2 ^ bit_length (mu + 1)))%Qc).
  { eapply first_user_small; [exact W|lia|exact G| |exact Sr].
    rewrite <- Sl. apply Qcnot_lt_le. exact L. }
  cbn [sample ps_k pst0] in H.
  assert (I : is_null (mkPoint m neg (thr_text t) f) d 0 = false).
  { destruct (is_null _ d 0) eqn:E; [|reflexivity]. apply is_null_iff in E. contradiction. }
  rewrite I in H. unfold sample_positive in H. cbn [pt_m pt_pos ps_pos ps_null ps_k] in H.
  unfold pos_next in H.
  destruct (A v V) as (r & Hr & Ar & Er).
  assert (Fr : In r (f_rows f)) by (rewrite F; apply filter_In; auto).
  destruct (f_rows f) as [|r0 rs] eqn:Ef; [contradiction|]. rewrite M in H.
  destruct fuel as [|fuel]; [discriminate|].
  unfold pst0 in H. cbn [ps_pos pos_loop] in H. cbv beta iota in H. rewrite (randint_hit (dr_pos d) 0 mu v V Sp) in H.
  assert (K : forall r', In r' (r0 :: rs) -> In r' (rows_of m)).
  { intros r' Hr'. rewrite F in Hr'. apply filter_In in Hr'. tauto. }
  destruct (filter (id_is "uid" v) (r0 :: rs)) as [|r1 rs1] eqn:Eu.
  { assert (Bad : In r []) by (rewrite <- Eu; apply filter_In; split; [exact Fr|]; apply id_is_iff; eauto). contradiction. }
  destruct (randint_ok (dr_pos d) 1 0 (Z.of_nat (length (r1 :: rs1)) - 1)) as (i & Ei & Bi); [cbn [length]; lia|].
  rewrite Ei in H. cbn [bind] in H.
  destruct (nth_error (r1 :: rs1) (Z.to_nat i)) as [r'|] eqn:En; [|discriminate].
  assert (Hr' : In r' (rows_of m) /\ cell r' "uid" = Some (VInt v)).
  { apply nth_error_In in En. rewrite <- Eu in En. apply filter_In in En. destruct En as [En1 En2].
    split; [now apply K|]. destruct (coded_ids m C r' (K r' En1)) as (a & ? & Ea & _).
    apply (id_is_iff "uid" v r'); eauto. }
  destruct Hr' as [Hr' Ev].
  destruct (read_triple_ok m C r' Hr') as (u' & i' & y & y' & Rt & Ru & _). rewrite Rt in H. cbn [bind] in H.
  destruct (sample n (S fuel) _ d _) as [[[l'|e] st']|]; try discriminate.
  injection H as <- _ _. exists v. split; [|exact B]. cbn. congruence.
Qed.

(** Any positive record comes first for some draws. *)
Lemma any_first : forall m t f neg r, coded m -> In r (rows_of m) -> above t r = true ->
  f_rows f = filter (above t) (rows_of m) ->
  exists d x st y u i v, (forall k, 0 <= dr_label d k /\ dr_label d k < 1)%Qc /\
    sample 1 1 (mkPoint m neg (thr_text t) f) d pst0 = Some (Ok [x], st) /\
    x = (Some u, Some i, Some v) /\ cell r "uid" = Some (VInt u) /\ cell r "iid" = Some (VInt i) /\
    cell r "interaction" = Some y /\ same_value v y.
Proof.
  intros m t f neg r C Hr Ar F.
  assert (N : rows_of m <> []) by (intro E; rewrite E in Hr; contradiction).
  destruct (max_id_ok m C "uid" (or_introl eq_refl) N) as (mu & M & Z0 & _ & Mx).
  destruct (read_triple_ok m C r Hr) as (u & i & v & y & Rt & Ru & Ri & Ry & Sv).
  assert (Fr : In r (filter (id_is "uid" u) (f_rows f))).
  { apply filter_In. split; [rewrite F; apply filter_In; auto|]. apply id_is_iff; eauto. }
  destruct (In_nth_error _ _ Fr) as (j & Ej).
  assert (Bu : 0 <= u <= mu).
  { destruct (coded_ids m C r Hr) as (a & ? & Ea & _ & Ba & _). split; [|eauto]. assert (a = u) by congruence. lia. }
  set (d := mkDraws (fun _ => 0%Qc) (fun _ => O) (fun k => match k with O => Z.to_nat u | _ => j end)).
  exists d, (Some u, Some i, Some v). eexists. exists y, u, i, v.
  split; [intro k; split; vm_compute; congruence|]. split; [|auto].
  cbn [sample ps_k pst0].
  assert (I : is_null (mkPoint m neg (thr_text t) f) d 0 = false).
  { unfold is_null. cbn [dr_label d]. destruct (Qcgtb _ _) eqn:E; [|reflexivity].
    unfold Qcgtb in E. apply MemFacts4.Qcltb_true in E.
    replace (0 + (pt_neg (mkPoint m neg (thr_text t) f) + 1 - 0) * 0)%Qc with 0%Qc in E by ring.
    vm_compute in E. discriminate. }
  rewrite I. unfold sample_positive, pos_next. cbn [pt_m pt_pos ps_pos ps_null ps_k].
  destruct (f_rows f) as [|r0 rs] eqn:Ef; [contradiction|]. rewrite M.
  unfold pst0. cbn [ps_pos pos_loop]. cbv beta iota. rewrite (randint_hit (dr_pos d) 0 mu u Bu eq_refl).
  destruct (filter (id_is "uid" u) (r0 :: rs)) as [|r1 rs1] eqn:Eu; [contradiction|].
  assert (J : (j < length (r1 :: rs1))%nat) by (apply nth_error_Some; congruence).
  rewrite (randint_hit (dr_pos d) 1 (Z.of_nat (length (r1 :: rs1)) - 1) (Z.of_nat j)); [|lia|cbn; now rewrite Nat2Z.id].
  cbn [bind]. rewrite Nat2Z.id, Ej. cbn [bind]. rewrite Rt. reflexivity.
Qed.
