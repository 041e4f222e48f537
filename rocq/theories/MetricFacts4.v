(** DCG and NDCG. *)
From Coq Require Import String.
From Coq Require Import List ZArith QArith Qcanon Qreals Reals Bool Permutation Sorted Lia Lra.
From Verif Require Import Py PyFacts MetricModel MetricSpec MetricFacts MetricFacts2.
Import ListNotations.
Open Scope R_scope.

(** ** discounts *)
Definition disc (i : nat) : R := / log2 (2 + INR i).
Lemma log2_pos i : 0 < log2 (2 + INR i).
Proof.
  unfold log2. assert (0 < ln 2) by (rewrite <- ln_1; apply ln_increasing; lra).
  assert (0 <= INR i) by apply pos_INR.
  assert (0 < ln (2 + INR i)) by (rewrite <- ln_1; apply ln_increasing; lra).
  apply Rmult_lt_0_compat; auto. apply Rinv_0_lt_compat; auto.
Qed.
Lemma disc_pos i : 0 < disc i.
Proof. apply Rinv_0_lt_compat, log2_pos. Qed.
Lemma disc_decr i : disc (S i) <= disc i.
Proof.
  apply Rinv_le_contravar; [apply log2_pos|]. unfold log2.
  assert (0 < ln 2) by (rewrite <- ln_1; apply ln_increasing; lra).
  assert (0 <= INR i) by apply pos_INR.
  apply Rmult_le_compat_r; [left; apply Rinv_0_lt_compat; auto|].
  left. apply ln_increasing; [lra|]. rewrite S_INR. lra.
Qed.

(** ** weighted sums *)
Fixpoint wsum (i : nat) (l : list R) : R := match l with [] => 0 | x :: l' => x * disc i + wsum (S i) l' end.
Definition sum (l : list R) : R := fold_right Rplus 0 l.

Lemma sum_perm l l' : Permutation l l' -> sum l = sum l'.
Proof. unfold sum. induction 1; simpl; lra. Qed.
Lemma sum_nonneg l : Forall (fun x => 0 <= x) l -> 0 <= sum l.
Proof. unfold sum. induction 1; simpl; lra. Qed.
Lemma Forall_firstn {A} (P : A -> Prop) n l : Forall P l -> Forall P (firstn n l).
Proof. rewrite !Forall_forall. intros H x Hx. apply H. eapply firstn_incl; eauto. Qed.

Lemma abel n : forall a b A B i, (length a <= n)%nat -> (length b <= n)%nat ->
  (forall m, A + sum (firstn m a) <= B + sum (firstn m b)) ->
  disc i * A + wsum i a <= disc i * B + wsum i b.
Proof.
  induction n as [|n IH]; intros a b A B i La Lb H.
  - destruct a; [|simpl in La; lia]. destruct b; [|simpl in Lb; lia]. simpl.
    specialize (H 0%nat). simpl in H. pose proof (disc_pos i). nra.
  - pose proof (disc_pos i). pose proof (disc_decr i). pose proof (disc_pos (S i)).
    destruct a as [|x a], b as [|y b]; simpl in La, Lb.
    + specialize (H 0%nat). simpl in *. nra.
    + pose proof (H 1%nat) as HH. simpl in HH.
      assert (I : disc (S i) * A + wsum (S i) [] <= disc (S i) * (B + y) + wsum (S i) b).
      { apply IH; simpl; try lia. intros m. specialize (H (S m)). simpl in H. rewrite firstn_nil. simpl in *. lra. }
      simpl in *. nra.
    + pose proof (H 1%nat) as HH. simpl in HH.
      assert (I : disc (S i) * (A + x) + wsum (S i) a <= disc (S i) * B + wsum (S i) []).
      { apply IH; simpl; try lia. intros m. specialize (H (S m)). simpl in H. rewrite firstn_nil. simpl in *. lra. }
      simpl in *. nra.
    + pose proof (H 1%nat) as HH. simpl in HH.
      assert (I : disc (S i) * (A + x) + wsum (S i) a <= disc (S i) * (B + y) + wsum (S i) b).
      { apply IH; try lia. intros m. specialize (H (S m)). simpl in H. simpl in *. lra. }
      simpl in *. nra.
Qed.
Lemma wsum_dom a b i : (forall m, sum (firstn m a) <= sum (firstn m b)) -> wsum i a <= wsum i b.
Proof.
  intros H. pose proof (abel (Nat.max (length a) (length b)) a b 0 0 i) as P.
  assert (disc i * 0 + wsum i a <= disc i * 0 + wsum i b); [|lra]. apply P; try lia. intros m. specialize (H m). lra.
Qed.
Lemma wsum_nonneg l : forall i, Forall (fun x => 0 <= x) l -> 0 <= wsum i l.
Proof.
  induction l as [|x l IH]; intros i H; simpl; [lra|]. inversion H; subst. pose proof (disc_pos i).
  specialize (IH (S i) H3). nra.
Qed.

(** the largest sum of at most [m] elements of a decreasing list is that of its first [m] *)
Lemma top_sum S : forall P rest m, StronglySorted Rge S -> Forall (fun x => 0 <= x) S ->
  Permutation (P ++ rest) S -> (length P <= m)%nat -> sum P <= sum (firstn m S).
Proof.
  induction S as [|s S IH]; intros P rest m So No Pe L.
  - apply Permutation_sym, Permutation_nil in Pe. apply app_eq_nil in Pe. destruct Pe as [-> _]. simpl. rewrite firstn_nil. simpl. lra.
  - inversion So as [|? ? So' Sa]; subst. inversion No as [|? ? No1 No']; subst. destruct m as [|m].
    + destruct P; [|simpl in L; lia]. simpl. lra.
    + assert (Hs : In s (P ++ rest)). { eapply Permutation_in; [apply Permutation_sym; exact Pe|simpl; auto]. }
      apply in_app_iff in Hs. destruct Hs as [Hs|Hs]; apply in_split in Hs; destruct Hs as (l1 & l2 & E); subst.
      * assert (Q : Permutation ((l1 ++ l2) ++ rest) S).
        { apply (Permutation_cons_inv (a:=s)). rewrite <- Pe. change (s :: (l1 ++ l2) ++ rest) with ((s :: l1 ++ l2) ++ rest).
          apply Permutation_app_tail. apply Permutation_middle. }
        rewrite (sum_perm (l1 ++ s :: l2) (s :: l1 ++ l2)) by (apply Permutation_sym, Permutation_middle).
        specialize (IH (l1 ++ l2) rest m So' No' Q). rewrite app_length in L, IH. simpl in *.
        assert (sum (l1 ++ l2) <= sum (firstn m S)) by (apply IH; lia). unfold sum in *. simpl. lra.
      * assert (Q : Permutation (P ++ l1 ++ l2) S).
        { apply (Permutation_cons_inv (a:=s)). rewrite <- Pe. rewrite !app_assoc. apply Permutation_middle. }
        destruct P as [|p P].
        -- simpl sum at 1. apply sum_nonneg. apply Forall_firstn. auto.
        -- assert (Hp : In p S) by (eapply Permutation_in; [exact Q|simpl; auto]).
           rewrite Forall_forall in Sa. specialize (Sa p Hp).
           assert (Q' : Permutation (P ++ p :: l1 ++ l2) S).
           { rewrite <- Q. simpl. apply Permutation_sym, Permutation_middle. }
           specialize (IH P (p :: l1 ++ l2) m So' No' Q'). simpl in *.
           assert (sum P <= sum (firstn m S)) by (apply IH; lia). unfold sum in *. simpl. lra.
Qed.
Lemma firstn_prefix {A} m (l : list A) : exists r, l = firstn m l ++ r.
Proof. exists (skipn m l). symmetry. apply firstn_skipn. Qed.
Lemma first_k_min {A} k m (l : list A) : firstn m (first_k k l) = firstn (cap k m) l.
Proof. destruct k as [n|]; simpl; auto. rewrite firstn_firstn. f_equal; lia. Qed.

Lemma best_wsum S l rest k i : StronglySorted Rge S -> Forall (fun x => 0 <= x) S -> Permutation (l ++ rest) S ->
  wsum i (first_k k l) <= wsum i (first_k k S).
Proof.
  intros So No Pe. apply wsum_dom. intros m. rewrite !first_k_min.
  destruct (firstn_prefix (cap k m) l) as [r E].
  apply (top_sum S (firstn (cap k m) l) (r ++ rest)); auto; [|rewrite firstn_length; lia].
  rewrite app_assoc, <- E. exact Pe.
Qed.
Lemma sorted_unique : forall l l', StronglySorted Rge l -> StronglySorted Rge l' -> Permutation l l' -> l = l'.
Proof.
  induction l as [|x l IH]; intros l' S1 S2 P.
  - apply Permutation_nil in P. auto.
  - destruct l' as [|y l']; [apply Permutation_sym, Permutation_nil in P; discriminate|].
    inversion S1 as [|? ? S1' A1]; subst. inversion S2 as [|? ? S2' A2]; subst. rewrite Forall_forall in A1, A2.
    assert (x = y).
    { assert (Hx : In x (y :: l')) by (eapply Permutation_in; [exact P|simpl; auto]).
      assert (Hy : In y (x :: l)) by (eapply Permutation_in; [apply Permutation_sym; exact P|simpl; auto]).
      destruct Hx as [->|Hx]; auto. destruct Hy as [->|Hy]; auto.
      specialize (A1 _ Hy). specialize (A2 _ Hx). lra. }
    subst. f_equal. apply IH; auto. eapply Permutation_cons_inv; eauto.
Qed.

(** ** gains *)
Lemma gain_mono s p q : (p <= q)%Q -> gain s p <= gain s q.
Proof.
  intros H. apply Qle_Rle in H. unfold gain. destruct s; auto.
  assert (Rpower 2 (Q2R p) <= Rpower 2 (Q2R q)) by (apply Rle_Rpower; lra). lra.
Qed.
Lemma gain_zero s : gain s 0 = 0.
Proof.
  unfold gain. assert (Z : Q2R 0 = 0) by (unfold Q2R; simpl; lra). rewrite Z. destruct s; auto.
  rewrite Rpower_O by lra. lra.
Qed.
Lemma gain_nonneg s q : (0 <= q)%Q -> 0 <= gain s q.
Proof. intros H. rewrite <- (gain_zero s). apply gain_mono; auto. Qed.
Lemma gain_pos s q : (0 < q)%Q -> 0 < gain s q.
Proof.
  intros H. apply Qlt_Rlt in H. assert (Z : Q2R 0 = 0) by (unfold Q2R; simpl; lra). rewrite Z in H.
  unfold gain. destruct s; auto. assert (Rpower 2 0 < Rpower 2 (Q2R q)) by (apply Rpower_lt; lra).
  rewrite Rpower_O in H0 by lra. lra.
Qed.

(** ** lookups *)
Definition looked (rels : list (value * Q)) : list value -> list Q -> Prop :=
  Forall2 (fun x q => assoc val_eqb x rels = Some q).
Lemma dcg_from_wsum s rels l : forall qs i, looked rels l qs -> dcg_from s rels i l = Ok (wsum i (map (gain s) qs)).
Proof.
  induction l as [|x l IH]; intros qs i H; inversion H; subst; simpl; auto.
  rewrite H2. rewrite (IH l' (S i) H4). cbn [bind]. reflexivity.
Qed.
Lemma looked_first_k rels k l qs : looked rels l qs -> looked rels (first_k k l) (first_k k qs).
Proof.
  intros H. destruct k as [n|]; simpl; auto. revert n. induction H; intros [|n]; simpl; constructor; auto. apply IHForall2.
Qed.
Lemma map_first_k {A B} (f : A -> B) k l : map f (first_k k l) = first_k k (map f l).
Proof. destruct k; simpl; auto. symmetry. apply firstn_map. Qed.
Lemma dcg_wsum s rels l qs k : looked rels l qs -> dcg s l (karg k) (Some rels) = Ok (wsum 0 (first_k k (map (gain s) qs))).
Proof.
  intros H. unfold dcg. rewrite trunc_karg. rewrite (dcg_from_wsum s rels _ (first_k k qs)) by (apply looked_first_k; auto).
  rewrite map_first_k. reflexivity.
Qed.
Lemma assoc_split x (rels : list (value * Q)) q : assoc val_eqb x rels = Some q ->
  exists r1 y r2, rels = r1 ++ (y, q) :: r2 /\ same_id x y.
Proof.
  induction rels as [|[y p] rels IH]; simpl; [discriminate|]. destruct (val_eqb x y) eqn:E; intros H.
  - injection H as ->. exists [], y, rels. split; auto. apply val_key; auto.
  - destruct (IH H) as (r1 & z & r2 & -> & S). exists ((y, p) :: r1), z, r2. auto.
Qed.
Lemma assoc_skip x (r1 : list (value * Q)) y q r2 : ~ same_id x y -> assoc val_eqb x (r1 ++ (y, q) :: r2) = assoc val_eqb x (r1 ++ r2).
Proof.
  intros N. apply val_key_false in N. induction r1 as [|[z p] r1 IH]; simpl; [rewrite N; auto|].
  destruct (val_eqb x z); auto.
Qed.
Lemma assoc_own rels : dict rels -> forall y q, In (y, q) rels -> assoc val_eqb y rels = Some q.
Proof.
  unfold dict, distinct. induction rels as [|[z p] rels IH]; simpl; [tauto|]. intros N y q [E|H].
  - injection E as -> ->. assert (V : val_eqb y y = true) by (apply val_key; auto). rewrite V. auto.
  - inversion N; subst. destruct (val_eqb y z) eqn:E; [|auto]. exfalso. apply val_key in E. apply H2.
    rewrite <- E. apply in_map. apply in_map_iff. exists (y, q). auto.
Qed.
Lemma looked_split l : forall rels qs, looked rels l qs -> distinct l -> dict rels ->
  exists m rest, Permutation rels (m ++ rest) /\ map snd m = qs /\
    (forall y q, In (y, q) rest -> forall x, In x l -> ~ same_id x y).
Proof.
  unfold distinct. induction l as [|x l IH]; intros rels qs H D K; inversion H; subst.
  - exists [], rels. split; auto.
  - inversion D; subst. destruct (assoc_split _ _ _ H2) as (r1 & z & r2 & -> & S).
    assert (H' : looked (r1 ++ r2) l l').
    { clear - H4 H3 S. unfold looked in *. induction H4; constructor.
      - rewrite assoc_skip in H; auto. intros C. apply H3. simpl. left. unfold same_id in *. congruence.
      - apply IHForall2. intros C. apply H3. simpl. auto. }
    assert (K' : dict (r1 ++ r2)).
    { unfold dict, distinct in *. rewrite map_map in *. rewrite map_app in *. simpl in K. eapply NoDup_remove_1; eauto. }
    destruct (IH _ _ H' H5 K') as (m & rest & P & E & N).
    exists ((z, y) :: m), rest. split; [|split].
    + simpl. rewrite <- P. apply Permutation_sym, Permutation_middle.
    + simpl. congruence.
    + intros w q Hw v [->|Hv]; [|eapply N; eauto]. intros C.
      assert (Hz : In (w, q) (r1 ++ r2)). { eapply Permutation_in; [apply Permutation_sym; exact P|apply in_app_iff; auto]. }
      unfold dict, distinct in K. rewrite map_map, map_app in K. simpl in K. apply NoDup_remove_2 in K. apply K.
      rewrite <- map_app. apply in_map_iff. exists (w, q). split; auto. simpl. unfold same_id in *. congruence.
Qed.
Lemma looked_exists rels l : dict rels -> (forall x, In x l -> exists q, rel_of rels x q) -> exists qs, looked rels l qs.
Proof.
  intros K. induction l as [|x l IH]; intros H; [exists []; constructor|].
  destruct IH as [qs Hq]; [intros; apply H; simpl; auto|]. destruct (H x) as (q & y & Hy & S); [simpl; auto|].
  exists (q :: qs). constructor; auto.
  assert (A : assoc val_eqb x rels = assoc val_eqb y rels).
  { clear - S. induction rels as [|[z p] rels IH]; simpl; auto. assert (E : val_eqb x z = val_eqb y z).
    { apply eq_true_iff_eq. rewrite !val_key. unfold same_id in S. rewrite S. tauto. }
    rewrite E, IH. reflexivity. }
  rewrite A. apply assoc_own; auto.
Qed.
Lemma looked_rel rels l qs : looked rels l qs -> Forall2 (rel_of rels) l qs.
Proof.
  induction 1; constructor; auto. destruct (assoc_split _ _ _ H) as (r1 & z & r2 & -> & S).
  exists z. split; auto. apply in_app_iff. simpl; auto.
Qed.
Lemma best_looked rels : dict rels ->
  looked rels (best_order rels) (map snd (sort_by (fun a b => Qle_bool (snd b) (snd a)) rels)).
Proof.
  intros K. unfold best_order. set (le := fun a b : value * Q => Qle_bool (snd b) (snd a)).
  assert (I : forall l, incl l rels -> looked rels (map fst l) (map snd l)).
  { induction l as [|[y q] l IH]; intros I; [constructor|]. simpl. constructor.
    - apply assoc_own; auto. apply I. simpl; auto.
    - apply IH. intros z Hz. apply I. simpl; auto. }
  apply I. intros z Hz. eapply Permutation_in; [|exact Hz]. apply Permutation_sym, sort_by_perm.
Qed.
Lemma best_sorted s (rels : list (value * Q)) : StronglySorted Rge (map (gain s) (map snd (sort_by (fun a b => Qle_bool (snd b) (snd a)) rels))).
Proof.
  set (le := fun a b : value * Q => Qle_bool (snd b) (snd a)).
  assert (So : StronglySorted (fun a b => le a b = true) (sort_by le rels)).
  { apply sort_by_sorted; unfold le.
    - intros a b. rewrite !Qle_bool_iff. destruct (Qlt_le_dec (snd b) (snd a)); [left; apply Qlt_le_weak; auto|right; auto].
    - intros a b c. rewrite !Qle_bool_iff. intros. eapply Qle_trans; eauto. }
  induction So as [|a l So IH Fa]; simpl; constructor; auto.
  rewrite Forall_forall in *. intros z Hz. apply in_map_iff in Hz. destruct Hz as (q & <- & Hq).
  apply in_map_iff in Hq. destruct Hq as (b & <- & Hb). specialize (Fa b Hb). unfold le in Fa. apply Qle_bool_iff in Fa.
  apply Rle_ge. apply gain_mono. exact Fa.
Qed.

(** ** NDCG *)
Section NDCG.
Variables (s : bool) (rels : list (value * Q)) (recs : list value) (k : option nat).
Hypothesis K : dict rels.
Hypothesis Nn : forall y q, In (y, q) rels -> (0 <= q)%Q.
Hypothesis Pos : exists y q, In (y, q) rels /\ (0 < q)%Q.
Hypothesis Dr : distinct recs.
Hypothesis In_r : forall x, In x recs -> exists q, rel_of rels x q.
Hypothesis Kp : k <> Some O.

Let sorted := sort_by (fun a b : value * Q => Qle_bool (snd b) (snd a)) rels.
Let best := map (gain s) (map snd sorted).

Lemma best_nonneg : Forall (fun x => 0 <= x) best.
Proof.
  apply Forall_forall. intros g Hg. unfold best in Hg. apply in_map_iff in Hg. destruct Hg as (q & <- & Hq).
  apply in_map_iff in Hq. destruct Hq as ([y q'] & <- & Hy). apply gain_nonneg. simpl.
  eapply Nn. eapply Permutation_in; [apply Permutation_sym, sort_by_perm|exact Hy].
Qed.
Lemma best_perm qs rest (m : list (value * Q)) : Permutation rels (m ++ rest) -> map snd m = qs ->
  Permutation (map (gain s) qs ++ map (gain s) (map snd rest)) best.
Proof.
  intros P <-. unfold best. rewrite <- map_app, <- map_app. apply Permutation_map, Permutation_map.
  rewrite <- P. apply sort_by_perm.
Qed.
Lemma best_pos : 0 < wsum 0 (first_k k best).
Proof.
  destruct Pos as (y & q & Hy & Hq). pose proof (best_sorted s rels) as So. fold sorted in So. fold best in So.
  assert (Hin : In (gain s q) best).
  { unfold best. apply in_map. apply in_map_iff. exists (y, q). split; auto.
    eapply Permutation_in; [apply sort_by_perm|exact Hy]. }
  pose proof best_nonneg as NN. destruct best as [|g l]; [destruct Hin|].
  assert (G : 0 < g).
  { pose proof (gain_pos s q Hq). inversion So as [|? ? _ Fa]; subst. rewrite Forall_forall in Fa.
    destruct Hin as [->|Hin]; auto. specialize (Fa _ Hin). lra. }
  assert (F : exists l', first_k k (g :: l) = g :: l' /\ Forall (fun x => 0 <= x) l').
  { inversion NN; subst. destruct k as [[|n]|]; [congruence| |]; simpl; eexists; split; eauto. apply Forall_firstn; auto. }
  destruct F as (l' & -> & Fl). simpl. pose proof (disc_pos 0). pose proof (wsum_nonneg l' 1 Fl). nra.
Qed.

Lemma ndcg_eq : exists qs, looked rels recs qs /\
  ndcg s recs (karg k) (Some rels) = Ok (wsum 0 (first_k k (map (gain s) qs)) / wsum 0 (first_k k best)).
Proof.
  destruct (looked_exists rels recs K In_r) as [qs L]. exists qs. split; auto.
  unfold ndcg. rewrite (dcg_wsum s rels recs qs k L).
  rewrite (dcg_wsum s rels (best_order rels) _ k (best_looked rels K)). cbn [bind]. fold sorted. fold best.
  pose proof best_pos. destruct (Req_EM_T (wsum 0 (first_k k best)) 0); [lra|reflexivity].
Qed.
Lemma ndcg_range : returns (ndcg s recs (karg k) (Some rels)) (fun x => 0 <= x <= 1).
Proof.
  destruct ndcg_eq as (qs & L & E). eexists. split; [exact E|]. pose proof best_pos as BP.
  destruct (looked_split _ _ _ L Dr K) as (m & rest & P & Em & _).
  pose proof (best_perm _ _ _ P Em) as Pb.
  assert (NQ : Forall (fun x => 0 <= x) (map (gain s) qs)).
  { apply Forall_forall. intros g Hg. pose proof best_nonneg as NN. rewrite Forall_forall in NN. apply NN.
    eapply Permutation_in; [exact Pb|]. apply in_app_iff. auto. }
  assert (W0 : 0 <= wsum 0 (first_k k (map (gain s) qs))).
  { apply wsum_nonneg. destruct k; simpl; auto. apply Forall_firstn; auto. }
  assert (W1 : wsum 0 (first_k k (map (gain s) qs)) <= wsum 0 (first_k k best)).
  { eapply best_wsum; eauto; [apply best_sorted|apply best_nonneg]. }
  assert (IV := Rinv_0_lt_compat _ BP). split.
  - unfold Rdiv. nra.
  - apply (Rmult_le_reg_r (wsum 0 (first_k k best))); auto. unfold Rdiv. rewrite Rmult_assoc, Rinv_l by lra. lra.
Qed.

Lemma sorted_app (l l' : list R) : StronglySorted Rge l -> StronglySorted Rge l' ->
  (forall x y, In x l -> In y l' -> x >= y) -> StronglySorted Rge (l ++ l').
Proof.
  intros S1 S2 H. induction S1 as [|x l S1 IH F]; simpl; auto. constructor.
  - apply IH. intros. apply H; simpl; auto.
  - rewrite Forall_forall in *. intros y Hy. apply in_app_iff in Hy. destruct Hy; auto. apply H; simpl; auto.
Qed.
Lemma ndcg_ideal : by_relevancy rels recs -> (cap k (length rels) <= length recs)%nat ->
  (forall x y p q, In x recs -> In y (map fst rels) -> (forall z, In z recs -> ~ same_id z y) ->
     rel_of rels x p -> rel_of rels y q -> (q <= p)%Q) ->
  ndcg s recs (karg k) (Some rels) = Ok 1.
Proof.
  intros By Ln Out. destruct ndcg_eq as (qs & L & E). rewrite E. pose proof best_pos as BP.
  destruct (looked_split _ _ _ L Dr K) as (m & rest & P & Em & Nr).
  pose proof (looked_rel _ _ _ L) as LR.
  set (rest' := sort_by (fun a b : value * Q => Qle_bool (snd b) (snd a)) rest).
  assert (Pr : Permutation rest rest') by apply sort_by_perm.
  assert (P' : Permutation rels (m ++ rest')) by (rewrite P; apply Permutation_app_head; auto).
  pose proof (best_perm _ _ _ P' Em) as Pb.
  assert (So : StronglySorted Rge (map (gain s) qs ++ map (gain s) (map snd rest'))).
  { apply sorted_app.
    - clear - LR By. induction LR as [|x q l qs R1 R IH]; [constructor|]. inversion By; subst. simpl. constructor; auto.
      apply Forall_forall. intros g Hg. apply in_map_iff in Hg. destruct Hg as (q' & <- & Hq').
      rewrite Forall_forall in H2.
      assert (Ex : exists x', In x' l /\ rel_of rels x' q').
      { clear - R Hq'. induction R; [destruct Hq'|]. destruct Hq' as [<-|H']; [exists x; simpl; auto|].
        destruct (IHR H') as (z & Hz & Rz). exists z. simpl; auto. }
      destruct Ex as (x' & Hx' & Rx'). apply Rle_ge, gain_mono. apply (H2 x' Hx'); auto.
    - apply best_sorted.
    - intros g g' Hg Hg'. apply in_map_iff in Hg, Hg'. destruct Hg as (p & <- & Hp). destruct Hg' as (q & <- & Hq).
      apply in_map_iff in Hq. destruct Hq as ([y q'] & <- & Hy). simpl.
      assert (Hy' : In (y, q') rest) by (eapply Permutation_in; [apply Permutation_sym; exact Pr|exact Hy]).
      assert (Hyr : In (y, q') rels). { eapply Permutation_in; [apply Permutation_sym; exact P|]. apply in_app_iff; auto. }
      assert (Ex : exists x', In x' recs /\ rel_of rels x' p).
      { clear - LR Hp. induction LR; [destruct Hp|]. destruct Hp as [<-|H']; [exists x; simpl; auto|].
        destruct (IHLR H') as (z & Hz & Rz). exists z. simpl; auto. }
      destruct Ex as (x & Hx & Rx). apply Rle_ge, gain_mono. apply (Out x y); auto.
      + apply in_map_iff. exists (y, q'). auto.
      + intros z Hz. eapply Nr; eauto.
      + exists y. split; auto. reflexivity. }
  assert (Eq : map (gain s) qs ++ map (gain s) (map snd rest') = best).
  { apply sorted_unique; auto. apply best_sorted. }
  assert (Lq : length (map (gain s) qs) = length recs).
  { rewrite map_length. clear - L. induction L; simpl; auto. }
  assert (Lb : length best = length rels).
  { unfold best. rewrite !map_length. symmetry. apply Permutation_length, sort_by_perm. }
  assert (F : first_k k (map (gain s) qs) = first_k k best).
  { rewrite <- Eq. destruct k as [n|]; simpl in Ln |- *.
    - rewrite firstn_app. destruct (le_lt_dec n (length recs)) as [G|G].
      + replace (n - length (map (gain s) qs))%nat with 0%nat by lia. simpl. rewrite app_nil_r. reflexivity.
      + assert (length (map (gain s) (map snd rest')) = 0%nat) as Z.
        { rewrite <- Eq in Lb. rewrite app_length in Lb. lia. }
        apply length_zero_iff_nil in Z. rewrite Z, firstn_nil, app_nil_r. reflexivity.
    - assert (length (map (gain s) (map snd rest')) = 0%nat) as Z.
      { rewrite <- Eq in Lb. rewrite app_length in Lb. lia. }
      apply length_zero_iff_nil in Z. rewrite Z, app_nil_r. reflexivity. }
  rewrite F. f_equal. unfold Rdiv. apply Rinv_r. lra.
Qed.
End NDCG.

(** with [k = 0] there is nothing to normalise by *)
Lemma ndcg_zero s rels recs : ndcg s recs (karg (Some O)) (Some rels) = Err ZeroDivisionError.
Proof.
  unfold ndcg, dcg. rewrite !trunc_karg. simpl. destruct (Req_EM_T 0 0) as [_|N]; [reflexivity|]. exfalso. apply N. reflexivity.
Qed.
