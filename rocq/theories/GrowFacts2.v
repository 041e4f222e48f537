(** Proofs about values of a metric at different k: DCG. *)
From Coq Require Import String Ascii.
From Coq Require Import List ZArith QArith Qcanon Qreals Reals Bool Lia Lra Permutation.
From Verif Require Import Py PyFacts MemModel MemSpec Conc RankModel MetricModel SplitModel SampModel EvalModel EvalSpec EvalFacts EvalFacts4 EvalFacts5 GrowSpec GrowFacts.
From Verif Require DevFacts MetricFacts4 AskFacts.
Import ListNotations.
Open Scope string_scope.
Open Scope Z_scope.
Open Scope list_scope.

(** every recommendation has a relevancy, and none is negative *)
Definition rated (c : case) : Prop :=
  (forall i, In i (c_recs c) -> exists j q, In (j, q) (c_rels c) /\ val_eqb i j = true) /\
  (forall j q, In (j, q) (c_rels c) -> (0 <= q)%Q).
Lemma assoc_cover i (rels : list (value * Q)) : (exists j q, In (j, q) rels /\ val_eqb i j = true) ->
  exists j q, assoc val_eqb i rels = Some q /\ In (j, q) rels.
Proof.
  intros (j & q & H & E). induction rels as [|[y w] rels IH]; [destruct H|]. cbn [assoc]. destruct (val_eqb i y) eqn:V.
  - exists y, w. simpl. auto.
  - destruct H as [H|H]; [congruence|]. destruct (IH H) as (j' & q' & -> & H'). exists j', q'. simpl. auto.
Qed.
Lemma dcg_grow s rels l l' : (forall i, In i (l ++ l') -> exists j q, In (j, q) rels /\ val_eqb i j = true) ->
  (forall j q, In (j, q) rels -> (0 <= q)%Q) ->
  forall n, exists x y, dcg_from s rels n l = Ok x /\ dcg_from s rels n (l ++ l') = Ok y /\ (x <= y)%R.
Proof.
  intros C N.
  assert (T : forall i n, In i (l ++ l') -> exists q, assoc val_eqb i rels = Some q /\ (0 <= gain s q / log2 (2 + INR n))%R).
  { intros i n H. destruct (assoc_cover i rels (C i H)) as (j & q & E & J). exists q. split; auto.
    apply Rmult_le_pos; [apply MetricFacts4.gain_nonneg, (N j q J)|left; apply Rinv_0_lt_compat, MetricFacts4.log2_pos]. }
  clear C N. induction l as [|x l IH].
  - cbn [app] in *. induction l' as [|y l' IH]; intros n; [exists 0%R, 0%R; repeat split; lra|].
    destruct (IH (fun i m H => T i m (or_intror H)) (S n)) as (x' & y' & E & E' & L). cbn in E. injection E as <-.
    destruct (T y n (or_introl eq_refl)) as (q & A & P). exists 0%R. eexists. split; [reflexivity|]. cbn [app dcg_from] in *. rewrite A, E'.
    cbn [bind]. split; [reflexivity|]. lra.
  - intros n. destruct (IH (fun i m H => T i m (or_intror H)) (S n)) as (x' & y' & E & E' & L).
    destruct (T x n (or_introl eq_refl)) as (q & A & P). cbn [app dcg_from] in *. rewrite A, E, E'. cbn [bind].
    do 2 eexists. split; [reflexivity|]. split; [reflexivity|]. lra.
Qed.
Lemma dcg_case s c k k' : rated c -> 0 < k <= k' ->
  exists x y, mc_call (DCG s) c k = Ok x /\ mc_call (DCG s) c k' = Ok y /\ (x <= y)%R.
Proof.
  intros [C N] H. cbn [DCG mc_call]. unfold dcg.
  assert (E : exists rest, py_trunc (Some k') (c_recs c) = py_trunc (Some k) (c_recs c) ++ rest).
  { rewrite <- (AskFacts.trunc_first k k' (c_recs c) H). unfold py_trunc, py_take. destruct (Z.leb_spec 0 k), (Z.leb_spec 0 k'); try lia.
    exists (skipn (Z.to_nat k) (firstn (Z.to_nat k') (c_recs c))). rewrite firstn_skipn. reflexivity. }
  destruct E as [rest E]. rewrite E. apply dcg_grow; auto. intros i Hi. apply C. rewrite <- E in Hi.
  unfold py_trunc, py_take in Hi. destruct (Z.leb_spec 0 k'); [|lia]. rewrite <- (firstn_skipn (Z.to_nat k')). apply in_or_app. auto.
Qed.
Lemma table_dcg s ms ks cs k k' : NoDup (map mc_name ms) -> NoDup ks -> In (DCG s) ms -> In k ks -> In k' ks -> 0 < k <= k' ->
  Forall rated cs -> grown (DCG s) k k' (table ms ks cs).
Proof.
  intros N1 N2 M K K' H F. eexists. eexists. split; [apply table_value; auto|]. split; [apply table_value; auto|].
  apply DevFacts.round4_mono, average_grow. unfold metric_values. induction F as [|c cs C F IH]; cbn [flat_map]; [constructor|].
  destruct (dcg_case s c k k' C H) as (x & y & -> & -> & L). constructor; auto.
Qed.
Lemma relevance_nonneg u m i : (forall r, In r (rows_of m) -> (0 <= interaction_of r)%Qc) -> (0 <= this (relevance u m i))%Q.
Proof.
  intros H. unfold relevance. destruct (find _ _) as [r|] eqn:E; [|apply Qle_refl]. apply find_some in E. destruct E as [E _].
  apply filter_In in E. apply (H r). apply E.
Qed.
Lemma rated_ok u mt items c : relevancies_ok u mt items (c_rels c) -> incl (c_recs c) items ->
  (forall r, In r (rows_of mt) -> (0 <= interaction_of r)%Qc) -> rated c.
Proof.
  intros [R C] I H. split; [intros i Hi; apply C, I, Hi|]. intros j q J. destruct (R j q J) as [_ ->]. apply relevance_nonneg; auto.
Qed.
Lemma evaluated_In xs c : In c (evaluated_cases xs) -> In (Ok (Some c)) xs.
Proof.
  unfold evaluated_cases. intros H. apply in_flat_map in H. destruct H as ([[c'|]|e] & I & H); try (destruct H; fail).
  destruct H as [<-|[]]. auto.
Qed.
Lemma outcome_In {A B} (R : A -> B -> Prop) us xs x : Forall2 R us xs -> In x xs -> exists u, In u us /\ R u x.
Proof.
  induction 1 as [|u y us xs H F IH]; [intros []|]. intros [->|I]; [exists u; simpl; auto|]. destruct (IH I) as (v & V & W). exists v. simpl. auto.
Qed.
Lemma recommendation_dcg md mt a t rngs sched t0 r s k k' :
  int_data mt -> threshold_ok t -> r_thr a = lit_text t -> (forall s, rng_ok (rngs s)) -> int_recs md ->
  (forall x, In x (rows_of mt) -> (0 <= interaction_of x)%Qc) ->
  recommendation_evaluation md mt a rngs sched t0 = EDone r ->
  NoDup (map mc_name (r_metrics a)) -> NoDup (r_k a) -> In (DCG s) (r_metrics a) -> In k (r_k a) -> In k' (r_k a) -> k <= k' ->
  grown (DCG s) k k' r.
Proof.
  intros D T ET Hg Hi P E N1 N2 M K K' L. destruct (recommendation_table _ _ _ _ _ _ _ E) as [C _].
  destruct (recommendation_result md mt a rngs t D T ET Hg Hi sched t0 r E) as (cs & F & ->).
  apply table_dcg; auto; [split; auto; apply (AskFacts.rc_positive a C k K)|]. apply Forall_forall. intros c Hc. apply evaluated_In in Hc.
  destruct (outcome_In _ _ _ _ F Hc) as (u & _ & z & _ & Q & n & _ & _ & _ & _ & _ & _ & R).
  eapply rated_ok; eauto. intros i H. apply in_or_app. auto.
Qed.
Lemma ranking_dcg fmul md train_ev mt a t rngs fuel sched t0 r s k k' :
  int_data mt -> (e_gen a = true -> train_ev = false -> int_data (md_ds md)) -> threshold_ok t -> e_thr a = lit_text t ->
  (forall s, rng_ok (rngs s)) -> mul_nonneg fmul -> Z.of_nat (md_items md) <= 2 ^ 53 ->
  (forall x, In x (rows_of mt) -> (0 <= interaction_of x)%Qc) ->
  (forall u items novelty recs, md_rank md u items novelty = Ok recs -> incl recs items) ->
  ranking_evaluation fmul fuel md train_ev mt a rngs sched t0 = EDone r ->
  NoDup (map mc_name (e_metrics a)) -> NoDup (e_k a) -> In (DCG s) (e_metrics a) -> In k (e_k a) -> In k' (e_k a) -> k <= k' ->
  grown (DCG s) k k' r.
Proof.
  intros D Dtr T ET Hg Hf Hn P I E N1 N2 M K K' L. destruct (ranking_table _ _ _ _ _ _ _ _ _ _ E) as [C _].
  destruct (ranking_result fmul md train_ev mt a t rngs D Dtr T ET Hg Hf Hn fuel sched t0 r E) as (cs & F & _ & ->).
  apply table_dcg; auto; [split; auto; apply (re_positive a C k K)|]. apply Forall_forall. intros c Hc. apply evaluated_In in Hc.
  destruct (outcome_In _ _ _ _ F Hc) as (u & _ & z & _ & R). destruct R as (Pp & Ng & G & all & sh & R).
  destruct R as (_ & _ & R). 
  assert (X : exists u', md_rank md u' sh (e_novelty a) = Ok (c_recs c)) by (decompose [and] R; eauto).
  destruct X as [u' X]. eapply (rated_ok z mt sh); [tauto|apply (I _ _ _ _ X)|auto].
Qed.
