(** Proofs about regression metrics: evaluations of parts of the test data. *)
From Coq Require Import String Ascii.
From Coq Require Import List ZArith QArith Qcanon Reals Bool Lia Permutation.
From Verif Require Import Py PyFacts MemModel MemSpec RankModel MetricModel EvalModel EvalSpec EvalFacts EvalFacts5 PartSpec DevSpec DevFacts.
From Verif Require PartFacts RecDbSpec4.
Import ListNotations.
Open Scope string_scope.
Open Scope Z_scope.
Open Scope list_scope.

Lemma pe_data_part m m1 : wf_mem m1 -> pe_data m -> incl (rows_of m1) (rows_of m) -> m_columns m1 = m_columns m ->
  f_types (m_df m1) = f_types (m_df m) -> pe_data m1.
Proof.
  intros W [_ C (t & T & N) S] I E F. constructor; auto.
  - intros c H. rewrite E. auto.
  - exists t. rewrite (PartFacts.part_type m m1) by auto. auto.
  - intros c H r z Hr. apply (S c H). apply I. auto.
Qed.
Lemma scored_app md skip cn l l' : scored_pairs md skip cn (l ++ l') = scored_pairs md skip cn l ++ scored_pairs md skip cn l'.
Proof. apply flat_map_app. Qed.
Lemma scored_perm md skip cn l l' : Permutation l l' -> Permutation (scored_pairs md skip cn l) (scored_pairs md skip cn l').
Proof. apply Permutation_flat_map. Qed.

Lemma orderless_pairs pm l l' : RecDbSpec4.orderless pm -> Permutation l l' ->
  pm_call pm (true_values l) (predictions l) = pm_call pm (true_values l') (predictions l').
Proof.
  intros O P. specialize (O (map (fun p => (R_of (snd p), R_of (fst p))) l) (map (fun p => (R_of (snd p), R_of (fst p))) l') (Permutation_map _ P)).
  rewrite !map_map in O. exact O.
Qed.
Lemma ok_rows md m a r : p_n a = None -> predictive_evaluation md m a = Ok r -> rows_of m <> [].
Proof.
  intros N E H. unfold predictive_evaluation in E. rewrite N in E. assert (L : mem_len m = 0%nat) by (unfold mem_len; rewrite H; reflexivity). rewrite L in E. discriminate.
Qed.
Lemma evaluation_parts md m m1 m2 a r1 r2 :
  pe_data m -> blind md (p_skip a) m -> predicts md (p_skip a) m -> p_n a = None -> NoDup (map pm_name (p_metrics a)) ->
  (forall pm, In pm (p_metrics a) -> averaging pm /\ RecDbSpec4.orderless pm) -> parts m m1 m2 ->
  predictive_evaluation md m1 a = Ok r1 -> predictive_evaluation md m2 a = Ok r2 ->
  exists r, predictive_evaluation md m a = Ok r /\ map fst r = map pm_name (p_metrics a) /\
    forall s x, In (s, x) r -> exists x1 x2, In (s, x1) r1 /\ In (s, x2) r2 /\ between x1 x2 x.
Proof.
  intros D B P Hn N A Q E1 E2.
  destruct (PartFacts.parts_wf _ _ _ (pd_wf _ D) Q) as [W1 W2]. pose proof (PartFacts.parts_In _ _ _ Q) as I.
  assert (I1 : incl (rows_of m1) (rows_of m)) by (intros r H; apply I; auto).
  assert (I2 : incl (rows_of m2) (rows_of m)) by (intros r H; apply I; auto).
  destruct Q as [Qr [Qc1 Qc2] [Qt1 Qt2]].
  assert (D1 : pe_data m1) by (apply (pe_data_part m); auto). assert (D2 : pe_data m2) by (apply (pe_data_part m); auto).
  assert (G : forall m', incl (rows_of m') (rows_of m) -> blind md (p_skip a) m' /\ predicts md (p_skip a) m').
  { intros m' J. split; [intros r u i u' i' H; apply (B r u i u' i'), J, H|intros r u i H; apply (P r u i), J, H]. }
  destruct (G m1 I1) as [B1 P1]. destruct (G m2 I2) as [B2 P2].
  pose proof (ok_rows _ _ _ _ Hn E1) as N1. pose proof (ok_rows _ _ _ _ Hn E2) as N2.
  assert (N0 : rows_of m <> []).
  { intros H. rewrite H in Qr. apply Permutation_nil, app_eq_nil in Qr. tauto. }
  pose proof (predictive_ok md m a D B P) as T. pose proof (predictive_ok md m1 a D1 B1 P1) as T1. pose proof (predictive_ok md m2 a D2 B2 P2) as T2.
  unfold scored in T, T1, T2. rewrite Hn in T, T1, T2. specialize (T N0 N). specialize (T1 N1 N). specialize (T2 N2 N). cbn [first_pairs] in T, T1, T2. cbv zeta in T, T1, T2.
  set (l := scored_pairs md (p_skip a) (p_count_none a) (rows_of m)) in *.
  set (l1 := scored_pairs md (p_skip a) (p_count_none a) (rows_of m1)) in *.
  set (l2 := scored_pairs md (p_skip a) (p_count_none a) (rows_of m2)) in *.
  assert (Pl : Permutation l (l1 ++ l2)).
  { unfold l, l1, l2. rewrite <- scored_app. apply scored_perm. auto. }
  clearbody l l1 l2. destruct T as [Tf Te]. destruct T1 as [F1 _]. destruct T2 as [F2 _]. specialize (F1 _ E1). specialize (F2 _ E2).
  assert (K : forall pm, In pm (p_metrics a) -> exists z x y, pm_call pm (true_values l) (predictions l) = Ok z /\
            In (pm_name pm, round4 x) r1 /\ In (pm_name pm, round4 y) r2 /\ between x y z).
  { intros pm H. destruct (A pm H) as [Av Or].
    assert (X : forall r' l', Forall2 (fun m kv => fst kv = pm_name m /\ exists x, pm_call m (true_values l') (predictions l') = Ok x /\ snd kv = round4 x) (p_metrics a) r' ->
              exists x, pm_call pm (true_values l') (predictions l') = Ok x /\ In (pm_name pm, round4 x) r').
    { intros r' l' F. clear -F H. induction F as [|pm' [s v] ms r' [Es (x & Ex & Ev)] F IH]; [destruct H|]. simpl in *. subst.
      destruct H as [->|H]; [exists x; auto|]. destruct (IH H) as (y & Ey & Iy). exists y. auto. }
    destruct (X r1 l1 F1) as (x & Ex & Ix). destruct (X r2 l2 F2) as (y & Ey & Iy).
    destruct (Av _ _ _ _ _ _ Ex Ey) as (z & Ez & Bz). exists z, x, y. split; auto.
    rewrite (orderless_pairs pm l (l1 ++ l2)) by auto. unfold true_values, predictions in *. rewrite !map_app. exact Ez. }
  destruct Te as [r E].
  { intros pm H. destruct (K pm H) as (z & _ & _ & Ez & _). eauto. }
  exists r. split; auto. specialize (Tf _ E). clear -Tf K. split.
  - clear K. induction Tf as [|pm kv ms r [Es _] F IH]; simpl; congruence.
  - intros s x Hx.
    assert (X : exists pm, In pm (p_metrics a) /\ s = pm_name pm /\ exists v, pm_call pm (true_values l) (predictions l) = Ok v /\ x = round4 v).
    { clear K. induction Tf as [|pm kv ms r [Es (v & Ev & Es')] F IH]; [destruct Hx|]. destruct Hx as [->|Hx].
      - exists pm. simpl in *. split; auto. split; auto. eauto.
      - destruct (IH Hx) as (pm' & Hp & R). exists pm'. split; simpl; auto. }
    destruct X as (pm & Hp & -> & v & Ev & ->). destruct (K pm Hp) as (z & x1 & x2 & Ez & H1 & H2 & Bt).
    exists (round4 x1), (round4 x2). split; auto. split; auto. assert (z = v) by congruence. subst.
    apply (between_mono round4); auto. apply round4_mono.
Qed.
