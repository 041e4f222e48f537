(** Average precision. *)
From Coq Require Import String.
From Coq Require Import List ZArith QArith Qcanon Bool Permutation Sorted Lia Lqa.
From Verif Require Import Py PyFacts MetricModel MetricSpec MetricFacts MetricFacts2.
Import ListNotations.
Open Scope nat_scope.

Section AP.
Variables (T rel : list value).
Let c (l : list value) : nat := n_common val_eqb l rel.

Lemma c_le_len l : c l <= length l.
Proof. apply (n_common_le_l val_eqb id_key val_key). Qed.
Lemma c_le_rel l : c l <= length rel.
Proof. apply (n_common_le_r val_eqb id_key val_key). Qed.

Lemma take_app {A} (done todo : list A) : py_take (Z.of_nat (S (length done)) - 1) (done ++ todo) = done.
Proof.
  rewrite py_take_nonneg by lia. replace (Z.to_nat (Z.of_nat (S (length done)) - 1)) with (length done) by lia.
  rewrite firstn_app, firstn_all, Nat.sub_diag. simpl. apply app_nil_r.
Qed.
Lemma firstn_app_len {A} (done todo : list A) : firstn (length done) (done ++ todo) = done.
Proof. rewrite firstn_app, firstn_all, Nat.sub_diag. simpl. apply app_nil_r. Qed.

Lemma ap_sum_spec todo : forall done, T = done ++ todo ->
  exists s, ap_sum T rel (S (length done)) todo = Ok s /\
    (0 <= s)%Q /\ (s <= qn (c T) - qn (c done))%Q /\
    ((s == qn (c T) - qn (c done))%Q <->
     forall p, length done <= p < length T -> c (firstn (S p) T) <> c (firstn p T) -> c (firstn (S p) T) = S p).
Proof.
  induction todo as [|r todo IH]; intros done E.
  - rewrite app_nil_r in E. exists 0%Q. simpl. split; auto. rewrite E. split; [lra|]. split; [lra|].
    split; [intros _ p Hp; lia|intros _; lra].
  - assert (E' : T = (done ++ [r]) ++ todo) by (rewrite <- app_assoc; exact E).
    destruct (IH _ E') as (s & Es & S0 & S1 & Seq).
    assert (Ln : length (done ++ [r]) = S (length done)) by (rewrite app_length; simpl; lia).
    rewrite Ln in Es, Seq.
    assert (F0 : firstn (length done) T = done) by (rewrite E; apply firstn_app_len).
    assert (F1 : firstn (S (length done)) T = done ++ [r]) by (rewrite E', <- Ln; apply firstn_app_len).
    assert (LT : length done < length T) by (rewrite E, app_length; simpl; lia).
    assert (Cs : c (done ++ [r]) = c done + (if mem_b val_eqb r rel && negb (mem_b val_eqb r done) then 1 else 0))
      by apply (n_common_snoc val_eqb id_key val_key).
    cbn [ap_sum]. rewrite Es.
    replace (py_take (Z.of_nat (S (length done)) - 1) T) with done by (rewrite E, take_app; reflexivity).
    destruct (mem_b val_eqb r rel && negb (mem_b val_eqb r done)) eqn:B.
    + assert (NE : first_k (Some (S (length done))) T <> []).
      { unfold first_k. rewrite F1. destruct done; discriminate. }
      pose proof (precision_eq T (Some (S (length done))) rel NE) as P. cbn [karg option_map first_k] in P.
      rewrite P, F1. cbn [bind]. fold (c (done ++ [r])). rewrite Ln.
      set (x := (qn (c (done ++ [r])) / qn (S (length done)))%Q).
      assert (Px : (0 <= x /\ x <= 1)%Q) by (apply ratio_range; [lia|rewrite <- Ln; apply c_le_len]).
      assert (Ex : (x == 1)%Q <-> c (done ++ [r]) = S (length done)) by (apply ratio_one; lia).
      assert (Qc : (qn (c (done ++ [r])) == qn (c done) + 1)%Q) by (rewrite Cs, qn_add; reflexivity).
      exists (x + s)%Q. split; [reflexivity|]. split; [lra|]. split; [lra|]. split.
      * intros Q p Hp Hh. assert (X1 : (x == 1)%Q) by lra. assert (X2 : (s == qn (c T) - qn (c (done ++ [r])))%Q) by lra.
        destruct (Nat.eq_dec p (length done)) as [->|N].
        -- rewrite F1. apply Ex. exact X1.
        -- apply (proj1 Seq X2); auto. lia.
      * intros A. assert (X1 : (x == 1)%Q).
        { apply Ex. rewrite <- F1. apply A; [lia|]. rewrite F1, F0. lia. }
        assert (X2 : (s == qn (c T) - qn (c (done ++ [r])))%Q). { apply Seq. intros p Hp. apply A. lia. }
        lra.
    + cbn [bind]. assert (Qc : c (done ++ [r]) = c done) by lia. rewrite Qc in S1, Seq.
      exists (0 + s)%Q. split; [reflexivity|]. split; [lra|]. split; [lra|].
      assert (Z : (0 + s == s)%Q) by lra. rewrite Z, Seq. split.
      * intros A p Hp Hh. destruct (Nat.eq_dec p (length done)) as [->|N].
        -- exfalso. apply Hh. rewrite F1, F0. exact Qc.
        -- apply A; auto. lia.
      * intros A p Hp. apply A. lia.
Qed.

Lemma step p : p < length T -> c (firstn (S p) T) = c (firstn p T) \/ c (firstn (S p) T) = S (c (firstn p T)).
Proof.
  intros H. destruct (nth_error T p) as [r|] eqn:E; [|apply nth_error_None in E; lia].
  assert (F : firstn (S p) T = firstn p T ++ [r]).
  { clear H. revert p E. induction T as [|x l IH]; intros [|p] E; try discriminate; simpl in *.
    - injection E as ->. reflexivity.
    - f_equal. apply IH. exact E. }
  rewrite F. unfold c. rewrite (n_common_snoc val_eqb id_key val_key).
  destruct (mem_b val_eqb r rel && negb (mem_b val_eqb r (firstn p T))); lia.
Qed.
Lemma c_mono p q : p <= q -> c (firstn p T) <= c (firstn q T).
Proof. intros H. apply (n_common_mono val_eqb id_key val_key). apply firstn_le_incl; auto. Qed.

Lemma perfect_prefix :
  (forall p, p < length T -> c (firstn (S p) T) <> c (firstn p T) -> c (firstn (S p) T) = S p) ->
  c (firstn (c T) T) = c T.
Proof.
  intros A. assert (G : forall p, p <= length T -> exists m, m <= p /\ c (firstn m T) = m /\ c (firstn p T) = m).
  { induction p as [|p IH]; intros H; [exists 0; simpl; auto|]. destruct IH as (m & L & Em & Ep); [lia|].
    destruct (Nat.eq_dec (c (firstn (S p) T)) (c (firstn p T))) as [Q|Q].
    - exists m. split; [lia|split; auto; congruence].
    - exists (S p). split; [lia|]. split; apply A; auto; lia. }
  destruct (G (length T)) as (m & L & Em & Ep); auto. rewrite firstn_all in Ep. congruence.
Qed.
Lemma prefix_perfect M : c (firstn M T) = M -> c T = M -> M <= length T ->
  forall p, p < length T -> c (firstn (S p) T) <> c (firstn p T) -> c (firstn (S p) T) = S p.
Proof.
  intros EM ET L p Hp Hh. destruct (le_lt_dec M p) as [G|G].
  - exfalso. apply Hh. pose proof (c_mono M p G). pose proof (c_mono M (S p)). pose proof (c_mono p (length T)).
    pose proof (c_mono (S p) (length T)). rewrite firstn_all in *. lia.
  - assert (I : forall q, q <= M -> c (firstn q T) = q).
    { intros q Hq.
      assert (Lq : forall d, q + d <= M -> c (firstn (q + d) T) <= c (firstn q T) + d).
      { induction d as [|d IH]; intros Hd; [rewrite Nat.add_0_r; lia|].
        replace (q + S d) with (S (q + d)) in * by lia.
        destruct (step (q + d)); [lia| |]; specialize (IH ltac:(lia)); lia. }
      specialize (Lq (M - q) ltac:(lia)). replace (q + (M - q)) with M in Lq by lia.
      pose proof (c_le_len (firstn q T)). rewrite firstn_length in H. lia. }
    apply I. lia.
Qed.
End AP.

Lemma ap_spec recs k rel : rel <> [] -> k <> Some 0 ->
  returns (average_precision recs (karg k) (Some rel)) (fun q =>
    (0 <= q /\ q <= 1)%Q /\
    ((q == 1)%Q <->
     cap k (length rel) <= length recs /\ distinct (firstn (cap k (length rel)) recs) /\
     forall x, In x (firstn (cap k (length rel)) recs) -> is_relevant rel x)).
Proof.
  intros H K. pose proof (length_pos _ H) as PR. set (M := cap k (length rel)). set (T := first_k k recs).
  assert (PM : 0 < M) by (unfold M, cap; destruct k as [[|n]|]; try congruence; lia).
  destruct (ap_sum_spec T rel T [] eq_refl) as (s & Es & S0 & S1 & Seq).
  change (length (@nil value)) with 0 in *.
  assert (C0 : n_common val_eqb [] rel = 0) by reflexivity. rewrite C0 in *. change (qn 0) with 0%Q in *.
  set (cT := n_common val_eqb T rel) in *.
  assert (CM : cT <= M).
  { assert (H0 : cT <= length T) by apply c_le_len. assert (H1 : cT <= length rel) by apply c_le_rel. unfold M, cap.
    assert (H2 : length T = match k with None => length recs | Some n => Nat.min n (length recs) end)
      by (unfold T, first_k; destruct k; auto; apply firstn_length).
    destruct k as [n|]; lia. }
  assert (TM : length T >= M <-> M <= length recs).
  { unfold T, first_k, M, cap. destruct k as [n|]; [rewrite firstn_length; lia|lia]. }
  assert (FM : firstn M T = firstn M recs).
  { unfold T, first_k, M, cap. destruct k as [n|]; auto. rewrite firstn_firstn. f_equal. lia. }
  pose proof (qn_pos M PM) as QM. pose proof (qn_le _ _ CM) as QC.
  exists (s / qn M)%Q. split; [|split; [split|]].
  - unfold average_precision. rewrite trunc_karg. fold T. cbn zeta. rewrite Es. cbn [bind].
    assert (D : qdiv s (qn M) = Ok (s / qn M)%Q).
    { unfold qdiv. destruct (Qeq_bool (qn M) 0) eqn:E; auto. apply Qeq_bool_iff in E. lra. }
    rewrite <- D. destruct k as [n|]; simpl karg.
    + f_equal. unfold qn. f_equal. unfold M, cap. rewrite Nat2Z.inj_min. reflexivity.
    + reflexivity.
  - apply Qle_shift_div_l; lra.
  - apply Qle_shift_div_r; lra.
  - rewrite <- FM, <- TM. split.
    + intros One. assert (SM : (s == qn M)%Q).
      { assert (D : (s == s / qn M * qn M)%Q) by (field; lra). rewrite D, One. lra. }
      assert (EM : cT = M). { apply Nat.le_antisymm; auto. apply qn_le_inv. lra. }
      assert (A : (s == qn cT - 0)%Q) by (rewrite EM; lra).
      assert (LT : length T >= M) by (assert (cT <= length T) by apply c_le_len; lia).
      pose proof (perfect_prefix T rel) as P. fold cT in P.
      assert (Q : n_common val_eqb (firstn cT T) rel = cT). { apply P. intros p Hp. apply (proj1 Seq A). lia. }
      rewrite EM in Q. split; auto. apply n_common_left_all_inv. rewrite Q, firstn_length. lia.
    + intros (L & D & R). assert (Q : n_common val_eqb (firstn M T) rel = M).
      { rewrite n_common_left_all by auto. rewrite firstn_length. lia. }
      assert (EM : cT = M).
      { apply Nat.le_antisymm; auto. rewrite <- Q. unfold cT. apply (n_common_mono val_eqb id_key val_key).
        intros z. apply firstn_incl. }
      assert (SM : (s == qn cT - 0)%Q).
      { apply Seq. intros p Hp. apply (prefix_perfect T rel M); auto; lia. }
      rewrite SM, EM. field. lra.
Qed.
