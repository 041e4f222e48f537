(** Proofs about ranking: what rank, recommend and predict return (C38 to C40). *)
From Coq Require Import String Ascii.
From Coq Require Import List ZArith QArith Qcanon Bool Lia Permutation Sorted.
From Verif Require Import Py PyFacts MemModel MemSpec MemFacts MemFacts2 MemFacts3 MemFacts4 MemFacts5 MemFacts6 MemFacts7.
From Verif Require Import RankModel RankSpec RankFacts.
Import ListNotations.
Open Scope string_scope.
Open Scope Z_scope.

(** ** the n largest pairs *)
Lemma scored_geb_iff x y : scored_geb x y = true <-> (fst y < fst x)%Qc \/ (fst y = fst x /\ snd y <= snd x).
Proof.
  unfold scored_geb. destruct (Qcltb (fst y) (fst x)) eqn:E1.
  - apply Qcltb_true in E1. intuition.
  - apply Qcltb_false in E1. destruct (Qcltb (fst x) (fst y)) eqn:E2.
    + apply Qcltb_true in E2. split; [discriminate|]. intros [H|[H _]].
      * exfalso. apply (Qclt_not_le _ _ H). exact E1.
      * rewrite H in E2. exfalso. apply (Qclt_not_eq _ _ E2). reflexivity.
    + apply Qcltb_false in E2. assert (fst x = fst y) by (apply Qcle_antisym; auto).
      rewrite Z.leb_le. split; [intros; right; auto|]. intros [H1|[_ H1]]; auto.
      rewrite H in H1. exfalso. apply (Qclt_not_eq _ _ H1). reflexivity.
Qed.
Lemma scored_geb_total x y : scored_geb x y = true \/ scored_geb y x = true.
Proof.
  rewrite !scored_geb_iff. destruct (Qc_dec (fst x) (fst y)) as [[H|H]|H]; auto.
  rewrite H. destruct (Z.le_ge_cases (snd x) (snd y)); auto.
Qed.
Lemma scored_geb_trans x y z : scored_geb x y = true -> scored_geb y z = true -> scored_geb x z = true.
Proof.
  rewrite !scored_geb_iff. intros [H|[H H']] [K|[K K']].
  - left. eapply Qclt_trans; eauto.
  - left. rewrite K. auto.
  - left. rewrite <- H. auto.
  - right. split; [congruence|lia].
Qed.
Lemma scored_geb_le x y : scored_geb x y = true -> (fst y <= fst x)%Qc.
Proof. rewrite scored_geb_iff. intros [H|[-> _]]; [apply Qclt_le_weak; auto|apply Qcle_refl]. Qed.

Lemma top_best n (ps : list scored) :
  best_of (fun i => In i (map snd ps)) (fun i s => In (s, i) ps) (Z.to_nat n) (top n ps).
Proof.
  destruct (nlargest_spec scored_geb scored_geb_total scored_geb_trans (Z.to_nat n) ps) as [rest [P [L [S D]]]].
  fold (top n ps) in *. constructor.
  - etransitivity; [apply Nat.eq_le_incl, L|apply Nat.le_min_l].
  - eapply StronglySorted_impl; [|exact S]. intros x y. apply scored_geb_le.
  - intros s i H. assert (In (s, i) ps).
    { eapply Permutation_in; [apply Permutation_sym, P|]. apply in_app_iff; auto. }
    split; auto. apply in_map_iff. exists (s, i). auto.
  - intros s i _ H. apply (Permutation_in _ P) in H. apply in_app_iff in H. destruct H as [H|H]; auto.
    right. split.
    + apply Permutation_length in P. rewrite app_length in P. destruct rest; [contradiction|]. simpl in P.
      etransitivity; [exact L|]. apply Nat.min_l. lia.
    + intros s' i' H'. exact (scored_geb_le _ _ (D _ _ H' H)).
Qed.

(** the pairs of equal multisets have the same n largest *)
Lemma geb_antisym x y : scored_geb x y = true -> scored_geb y x = true -> x = y.
Proof.
  rewrite !scored_geb_iff. destruct x as [a i], y as [b j]. simpl. intros [H|[-> H]] [K|[K K']].
  - exfalso. apply (Qclt_not_le _ _ H). apply Qclt_le_weak. auto.
  - subst. exfalso. apply (Qclt_not_eq _ _ H). reflexivity.
  - exfalso. apply (Qclt_not_eq _ _ K). reflexivity.
  - f_equal. lia.
Qed.
Lemma sorted_unique (l l' : list scored) : StronglySorted (fun x y => scored_geb x y = true) l ->
  StronglySorted (fun x y => scored_geb x y = true) l' -> Permutation l l' -> l = l'.
Proof.
  intros S. revert l'. induction S as [|x l S IH F]; intros l' S' P.
  - apply Permutation_nil in P. auto.
  - destruct S' as [|y l' S' F']; [apply Permutation_sym, Permutation_nil in P; discriminate|].
    assert (x = y).
    { assert (Hx : In x (y :: l')) by (eapply Permutation_in; [exact P|simpl; auto]).
      assert (Hy : In y (x :: l)) by (eapply Permutation_in; [apply Permutation_sym, P|simpl; auto]).
      destruct Hx as [->|Hx]; auto. destruct Hy as [->|Hy]; auto.
      rewrite Forall_forall in F, F'. apply geb_antisym; auto. }
    subst. f_equal. apply IH; auto. apply Permutation_cons_inv in P. auto.
Qed.
Lemma top_perm n l l' : Permutation l l' -> top n l = top n l'.
Proof.
  intros P. unfold top, nlargest. f_equal. apply sorted_unique.
  - apply (sort_by_sorted scored_geb); auto using scored_geb_total. apply scored_geb_trans.
  - apply (sort_by_sorted scored_geb); auto using scored_geb_total. apply scored_geb_trans.
  - rewrite <- !sort_by_perm. exact P.
Qed.

Lemma best_of_ext {A} (c c' : A -> Prop) (s s' : A -> Qc -> Prop) n out :
  (forall i x, c i /\ s i x <-> c' i /\ s' i x) -> best_of c s n out -> best_of c' s' n out.
Proof.
  intros E [A1 A2 A3 A4]. constructor; auto.
  - intros x i H. apply E. auto.
  - intros x i H1 H2. destruct (proj2 (E i x) (conj H1 H2)). auto.
Qed.

(** ** _rank *)
Definition impl_ok (m : mem) (impl : rank_impl) (score : Z -> Z -> Qc -> Prop) (nov : bool) : Prop :=
  forall u iids n l, impl u iids n nov = Ok l ->
    best_of (fun i => In i iids /\ (nov = true -> ~ pair_in m u i)) (score u) (Z.to_nat n) l.

Lemma mapM_Forall2 {A B} (f : A -> res B) l l' : mapM f l = Ok l' <-> Forall2 (fun x y => f x = Ok y) l l'.
Proof.
  revert l'. induction l as [|x l IH]; intros l'; simpl.
  - split; [intros H; injection H as <-; constructor|]. intros H. inversion H. reflexivity.
  - destruct (f x) as [y|] eqn:E; cbn [bind].
    + destruct (mapM f l) as [ys|] eqn:M; cbn [bind].
      * split.
        -- intros H. injection H as <-. constructor; auto. apply IH. reflexivity.
        -- intros H. inversion H; subst. assert (Ok ys = Ok l'0) by (apply IH; auto). congruence.
      * split; [discriminate|]. intros H. inversion H; subst. assert (Err e = Ok l'0) by (apply IH; auto). discriminate.
    + split; [discriminate|]. intros H. inversion H; subst. congruence.
Qed.

Lemma Forall2_in_l {A B} (P : A -> B -> Prop) l l' x : Forall2 P l l' -> In x l -> exists y, In y l' /\ P x y.
Proof. induction 1; simpl; [tauto|]. intros [->|H1]; [eauto|]. destruct (IHForall2 H1) as [y' [? ?]]. eauto. Qed.
Lemma Forall2_in_r {A B} (P : A -> B -> Prop) l l' y : Forall2 P l l' -> In y l' -> exists x, In x l /\ P x y.
Proof. induction 1; simpl; [tauto|]. intros [->|H1]; [eauto|]. destruct (IHForall2 H1) as [x' [? ?]]. eauto. Qed.
Lemma Forall2_len {A B} (P : A -> B -> Prop) l l' : Forall2 P l l' -> length l = length l'.
Proof. induction 1; simpl; auto. Qed.

Lemma pred_list_In f u iids ps : pred_list f u iids = Ok ps ->
  forall s i, In (s, i) ps <-> In i iids /\ f (Some u) (Some i) = Ok (Some s).
Proof.
  unfold pred_list. destruct (mapM _ iids) as [l|] eqn:M; cbn [bind]; [|discriminate].
  intros H. injection H as <-. apply mapM_Forall2 in M. intros s i. rewrite in_flat_map. split.
  - intros [[p j] [H1 H2]]. destruct (Forall2_in_r _ _ _ _ M H1) as [k [Hk E]].
    destruct (f (Some u) (Some k)) as [p'|] eqn:F; cbn [bind] in E; [|discriminate]. injection E as -> ->.
    simpl in H2. destruct p as [s'|]; simpl in H2; [|contradiction]. destruct H2 as [H2|[]].
    injection H2 as -> ->. auto.
  - intros [H1 H2]. destruct (Forall2_in_l _ _ _ _ M H1) as [y [Hy E]]. rewrite H2 in E. cbn [bind] in E.
    injection E as <-. exists (Some s, i). split; auto. simpl. auto.
Qed.

Section TrainedRank.
Variables (m0 m : mem) (tu ti : dtype).
Hypothesis T : trained_on m0 m tu ti.

Lemma set_minus_In u rated iids i : rated_iids m u = Ok rated ->
  (In i (set_minus iids rated) <-> In i iids /\ ~ pair_in m u i).
Proof.
  intros R. destruct (rated_spec m0 m tu ti T u) as [l [R' S]]. rewrite R in R'. injection R' as <-.
  unfold set_minus. rewrite filter_In, (dedup_In _ reflects_Z), negb_true_iff, <- S.
  destruct (mem_b val_eqb (VInt i) rated); intuition congruence.
Qed.

Lemma rank_abc_ok f nov : impl_ok m (rank_abc f m) (fun u i s => f (Some u) (Some i) = Ok (Some s)) nov.
Proof.
  intros u iids n l. unfold rank_abc. destruct nov.
  - destruct (rated_iids m u) as [rated|] eqn:R; cbn [bind]; [|discriminate].
    destruct (pred_list f u (set_minus iids rated)) as [ps|] eqn:P; cbn [bind]; [|discriminate].
    intros H. injection H as <-. eapply best_of_ext; [|apply top_best].
    intros i s. rewrite (pred_list_In _ _ _ _ P), (set_minus_In u rated iids i R). split; [tauto|].
    intros [[H1 H2] H3]. split; [|tauto]. apply in_map_iff. exists (s, i). split; auto.
    apply (pred_list_In _ _ _ _ P). rewrite (set_minus_In u rated iids i R). tauto.
  - cbn [bind]. destruct (pred_list f u iids) as [ps|] eqn:P; cbn [bind]; [|discriminate].
    intros H. injection H as <-. eapply best_of_ext; [|apply top_best].
    intros i s. rewrite (pred_list_In _ _ _ _ P). split; [intros [_ [H1 H2]]; repeat split; auto; discriminate|].
    intros [[H1 _] H3]. split; [|tauto]. apply in_map_iff. exists (s, i). split; auto.
    apply (pred_list_In _ _ _ _ P). tauto.
Qed.

(** ** from internal to raw ids *)
Lemma with_items_best candI scoreI candR scoreR n l out :
  (forall i v, iid_to_item m i = Ok (Some v) -> (candI i <-> candR v)) ->
  (forall i v s, iid_to_item m i = Ok (Some v) -> candI i -> (scoreI i s <-> scoreR v s)) ->
  (forall i, candI i -> exists v, iid_to_item m i = Ok (Some v)) ->
  (forall v, candR v -> exists i, iid_to_item m i = Ok (Some v)) ->
  best_of candI scoreI n l -> with_items m l = Ok out ->
  exists out', items_named out out' /\ best_of candR scoreR n out'.
Proof.
  intros HC HS HI HR [B1 B2 B3 B4] H. unfold with_items in H. apply mapM_Forall2 in H.
  assert (X : exists out', items_named out out' /\
    Forall2 (fun p q => fst p = fst q /\ iid_to_item m (snd p) = Ok (Some (snd q))) l out').
  { assert (G : forall s i, In (s, i) l -> exists v, iid_to_item m i = Ok (Some v)).
    { intros s i Hi. apply HI. eapply B3; eauto. }
    clear -H G. induction H as [|[s i] [s' w] l out E F IH].
    - exists []. split; [reflexivity|constructor].
    - destruct IH as [out' [N F']]; [intros; eapply G; simpl; eauto|].
      destruct (G s i (or_introl eq_refl)) as [v Ev]. simpl in E. rewrite Ev in E. cbn [bind] in E.
      injection E as <- <-. exists ((s, v) :: out'). split; [unfold items_named in *; simpl; congruence|].
      constructor; auto. }
  destruct X as [out' [N F]]. exists out'. split; auto. constructor.
  - rewrite <- (Forall2_len _ _ _ F). auto.
  - clear -B2 F. induction F as [|p q l out' [E _] F IH]; [constructor|].
    inversion B2 as [|? ? S1 S2]; subst. constructor; auto. rewrite Forall_forall in *. intros y Hy.
    destruct (Forall2_in_r _ _ _ _ F Hy) as [x [Hx [Ex _]]]. rewrite <- Ex, <- E. auto.
  - intros s v Hs. destruct (Forall2_in_r _ _ _ _ F Hs) as [[s' i] [Hi [E1 E2]]]. simpl in *. subst.
    destruct (B3 _ _ Hi) as [C S]. split; [eapply HC; eauto|eapply HS; eauto].
  - intros s v Cv Sv. destruct (HR v Cv) as [i Ei].
    assert (Ci : candI i) by (eapply HC; eauto). assert (Si : scoreI i s) by (eapply HS; eauto).
    destruct (B4 s i Ci Si) as [Hin|[L D]].
    + left. destruct (Forall2_in_l _ _ _ _ F Hin) as [[s' w] [Hw [E1 E2]]]. simpl in *. subst.
      rewrite Ei in E2. injection E2 as <-. auto.
    + right. rewrite <- (Forall2_len _ _ _ F). split; auto. intros s' v' Hin.
      destruct (Forall2_in_r _ _ _ _ F Hin) as [[s2 i2] [Hi2 [E1 E2]]]. simpl in *. subst. eauto.
Qed.

(** the requested items and their internal ids *)
Definition known_b (v : value) : bool :=
  if in_dec value_eq_dec v (column "item" (rows_of m0)) then true else false.
Lemma known_b_iff v : known_b v = true <-> known_item m0 v.
Proof. unfold known_b, known_item. destruct (in_dec _ _ _); intuition discriminate. Qed.

Lemma known_iids_ok skip items iids : Forall (fun v => type_of v = ti) items -> known_iids m skip items = Ok iids ->
  Forall2 (fun v i => item_to_iid m v = Ok (Some i)) (filter known_b items) iids.
Proof.
  intros Y. revert iids. induction Y as [|v items Yv Y IH]; simpl; intros iids H.
  - injection H as <-. constructor.
  - destruct (known_b v) eqn:K.
    + apply known_b_iff in K. destruct (known_item_iid m0 m tu ti T v K) as [_ [k [E _]]]. rewrite E in H. cbn [bind] in H.
      destruct (known_iids m skip items) as [is|]; cbn [bind] in H; [|discriminate]. injection H as <-.
      constructor; auto.
    + assert (N : ~ known_item m0 v) by (rewrite <- known_b_iff; congruence).
      rewrite (unknown_item_iid m0 m tu ti T v Yv N) in H. cbn [bind] in H. destruct skip; [auto|discriminate].
Qed.

Lemma known_iids_total items : Forall (fun v => type_of v = ti) items -> exists iids, known_iids m true items = Ok iids.
Proof.
  induction 1 as [|v items Yv Y [iids IH]]; simpl; [eauto|].
  destruct (in_dec value_eq_dec v (column "item" (rows_of m0))) as [K|K].
  - destruct (known_item_iid m0 m tu ti T v K) as [_ [k [E _]]]. rewrite E. cbn [bind]. rewrite IH. cbn [bind]. eauto.
  - rewrite (unknown_item_iid m0 m tu ti T v Yv K). cbn [bind]. eauto.
Qed.

Lemma rank_best impl score nov fitted user items skip n out :
  impl_ok m impl score nov -> type_of user = tu -> Forall (fun v => type_of v = ti) items ->
  rank impl fitted m user items nov skip n = Ok out ->
  exists out', items_named out out' /\
    best_of (candidate m0 user nov (fun v => In v items))
      (fun v s => exists u i, user_to_uid m user = Ok (Some u) /\ item_to_iid m v = Ok (Some i) /\ score u i s)
      (match n with Some k => Z.to_nat k | None => count_known m0 items end) out'.
Proof.
  intros I Yu Yi. unfold rank. destruct (negb fitted); [discriminate|].
  destruct (user_to_uid m user) as [[u|]|] eqn:U; cbn [bind]; try discriminate.
  destruct (known_iids m skip items) as [iids|] eqn:K; cbn [bind]; [|discriminate].
  set (n' := match n with Some k => k | None => Z.of_nat (length iids) end).
  destruct (negb (n' <=? Z.of_nat (length iids))); [discriminate|].
  destruct (impl u iids n' nov) as [l|] eqn:L; cbn [bind]; [|discriminate]. intros W.
  assert (F := known_iids_ok skip items iids Yi K). apply I in L.
  assert (En : Z.to_nat n' = match n with Some k => Z.to_nat k | None => count_known m0 items end).
  { unfold n'. destruct n; auto. rewrite Nat2Z.id. unfold count_known. fold known_b. symmetry. apply (Forall2_len _ _ _ F). }
  rewrite En in L.
  assert (MEM : forall i v, iid_to_item m i = Ok (Some v) -> (In i iids <-> In v items)).
  { intros i v E. destruct (iid_to_item_known m0 m tu ti T i v E) as [Kv Yv]. split.
    - intros Hi. destruct (Forall2_in_r _ _ _ _ F Hi) as [w [Hw Ew]]. apply filter_In in Hw. destruct Hw as [Hw Kw].
      assert (Yw : type_of w = ti) by (rewrite Forall_forall in Yi; auto).
      apply (item_iid m0 m tu ti T w i Yw) in Ew. rewrite E in Ew. injection Ew as <-. auto.
    - intros Hv. assert (Hf : In v (filter known_b items)) by (apply filter_In; rewrite known_b_iff; auto).
      destruct (Forall2_in_l _ _ _ _ F Hf) as [j [Hj Ej]]. apply (item_iid m0 m tu ti T v i Yv) in E. congruence. }
  eapply with_items_best; [| | | |exact L|exact W].
  - intros i v E. unfold candidate. rewrite (MEM i v E).
    assert (P := pair_interacted m0 m tu ti T user v u i Yu U E).
    assert (Kv := proj1 (iid_to_item_known m0 m tu ti T i v E)). intuition.
  - intros i v s E _. assert (Yv := proj2 (iid_to_item_known m0 m tu ti T i v E)).
    apply (item_iid m0 m tu ti T v i Yv) in E. split.
    + intros S. exists u, i. auto.
    + intros [u' [i' [Hu [Hi S]]]]. congruence.
  - intros i [Hi _]. destruct (Forall2_in_r _ _ _ _ F Hi) as [w [Hw Ew]]. apply filter_In in Hw. destruct Hw as [Hw _].
    assert (Yw : type_of w = ti) by (rewrite Forall_forall in Yi; auto). exists w. apply (item_iid m0 m tu ti T w i Yw). auto.
  - intros v [_ [Kv _]]. destruct (known_item_iid m0 m tu ti T v Kv) as [Yv [k [E _]]]. exists k.
    apply (item_iid m0 m tu ti T v k Yv). auto.
Qed.

(** what a recommender returns for a user *)
Lemma n_items_count ni : count_unique m (Some ["iid"]) = Ok ni -> ni = n_distinct "item" m0.
Proof.
  rewrite count_unique_one.
  - intros H. injection H as <-. apply keys_count.
    + intros r Hr.
      destruct (trained_row m0 m tu ti T r Hr) as [r0 [u [i [a [b [_ [_ [_ [_ [Y [_ [I [_ [E _]]]]]]]]]]]]]].
      exists b. split; auto. apply (item_iid m0 m tu ti T i b Y) in I. eapply iid_range; eauto.
    + intros k Hk. destruct (iid_in_range m0 m tu ti T k Hk) as [v E].
      destruct (iid_to_item_known m0 m tu ti T k v E) as [K Y].
      unfold known_item, column in K. apply in_flat_map in K. destruct K as [r0 [H0 C]].
      destruct (cell r0 "item") as [w|] eqn:Ew; simpl in C; [|contradiction]. destruct C as [->|[]].
      destruct (trained_row_back m0 m tu ti T r0 H0) as [r [Hr [_ [_ FI]]]].
      destruct (FI v Ew) as [k' [E1 E2]]. exists r. split; auto.
      apply (item_iid m0 m tu ti T v k Y) in E. congruence.
  - apply (trained_cols m0 m tu ti T).
  - discriminate.
  - eapply col_type_ok; [apply (trained_wf m0 m tu ti T)|apply (trained_cols m0 m tu ti T)].
Qed.

Lemma threshold_best {A} (c : A -> Prop) (s : A -> Qc -> Prop) n t l :
  best_of c s n l -> best_of c (fun i x => s i x /\ (t <= x)%Qc) n (filter (fun x => negb (Qcltb (fst x) t)) l).
Proof.
  intros [A1 A2 A3 A4].
  assert (G : forall x : Qc, negb (Qcltb x t) = true <-> (t <= x)%Qc).
  { intros x. rewrite negb_true_iff. split; [apply Qcltb_false|]. intros H.
    destruct (Qcltb x t) eqn:E; auto. apply Qcltb_true in E. exfalso. apply (Qclt_not_le _ _ E). auto. }
  constructor.
  - etransitivity; [|exact A1]. clear. induction l as [|x l IH]; simpl; auto. destruct (negb _); simpl; lia.
  - clear -A2. induction A2 as [|x l S IH F]; simpl; [constructor|]. destruct (negb _); auto.
    constructor; auto. rewrite Forall_forall in *. intros y Hy. apply filter_In in Hy. apply F. tauto.
  - intros x i H. apply filter_In in H. destruct H as [H1 H2]. apply A3 in H1. simpl in H2. apply G in H2. tauto.
  - intros x i Ci [Si Ti]. destruct (A4 x i Ci Si) as [H|[L D]].
    + left. apply filter_In. split; auto. simpl. apply G. auto.
    + right. split.
      * rewrite <- L. f_equal. apply filter_id. intros [x' i'] H. simpl. apply G. eapply Qcle_trans; [exact Ti|]. eauto.
      * intros x' i' H. apply filter_In in H. destruct H as [H _]. eauto.
Qed.

Lemma recommend_best impl score nov fitted ni user n thr out :
  impl_ok m impl score nov -> type_of user = tu -> count_unique m (Some ["iid"]) = Ok ni ->
  recommend impl fitted m ni user n nov thr = Ok out ->
  exists out', items_named out out' /\
    best_of (candidate m0 user nov (fun _ => True))
      (fun v s => (exists u i, user_to_uid m user = Ok (Some u) /\ item_to_iid m v = Ok (Some i) /\ score u i s) /\
                  (forall t, thr = Some t -> (t <= s)%Qc))
      (match n with Some k => Z.to_nat k | None => ni end) out'.
Proof.
  intros I Yu N. apply n_items_count in N. unfold recommend. destruct (negb fitted); [discriminate|].
  destruct (user_to_uid m user) as [[u|]|] eqn:U; cbn [bind]; try discriminate.
  set (n' := match n with Some k => k | None => Z.of_nat ni end). unfold recommend_int.
  destruct (impl u (Zseq ni) n' nov) as [l|] eqn:L; cbn [bind]; [|discriminate]. intros W. apply I in L.
  assert (En : Z.to_nat n' = match n with Some k => Z.to_nat k | None => ni end).
  { unfold n'. destruct n; auto. apply Nat2Z.id. }
  rewrite En in L.
  assert (L' : best_of (fun i => In i (Zseq ni) /\ (nov = true -> ~ pair_in m u i))
    (fun i s => score u i s /\ (forall t, thr = Some t -> (t <= s)%Qc)) (match n with Some k => Z.to_nat k | None => ni end)
    (match thr with None => l | Some t => filter (fun x => negb (Qcltb (fst x) t)) l end)).
  { destruct thr as [t|].
    - eapply best_of_ext; [|apply threshold_best, L]. intros i x. simpl. split.
      + intros [H1 [H2 H3]]. repeat split; try tauto. congruence.
      + intros [H1 [H2 H3]]. repeat split; try tauto. auto.
    - eapply best_of_ext; [|exact L]. intros i x. simpl. split; [|tauto]. intros [H1 H2]. repeat split; try tauto. discriminate. }
  eapply with_items_best; [| | | |exact L'|exact W].
  - intros i v E. unfold candidate.
    assert (P := pair_interacted m0 m tu ti T user v u i Yu U E).
    assert (Kv := proj1 (iid_to_item_known m0 m tu ti T i v E)).
    assert (R := iid_range m0 m tu ti T i v E). rewrite Zseq_In, N. intuition.
  - intros i v s E _. assert (Yv := proj2 (iid_to_item_known m0 m tu ti T i v E)).
    apply (item_iid m0 m tu ti T v i Yv) in E. split.
    + intros [S S2]. split; auto. exists u, i. auto.
    + intros [[u' [i' [Hu [Hi S]]]] S2]. split; auto. congruence.
  - intros i [Hi _]. apply Zseq_In in Hi. rewrite N in Hi. apply (iid_in_range m0 m tu ti T i Hi).
  - intros v [_ [Kv _]]. destruct (known_item_iid m0 m tu ti T v Kv) as [Yv [k [E _]]]. exists k.
    apply (item_iid m0 m tu ti T v k Yv). auto.
Qed.

(** ** predict *)
Lemma predict_iff {A} (f : option Z -> option Z -> res (option A)) user v s :
  predict f true m user v false = Ok (Some s) <->
  exists u i, user_to_uid m user = Ok (Some u) /\ item_to_iid m v = Ok (Some i) /\ f (Some u) (Some i) = Ok (Some s).
Proof.
  unfold predict. cbn [negb]. split.
  - destruct (user_to_uid m user) as [[u|]|]; cbn [bind]; try discriminate.
    destruct (item_to_iid m v) as [[i|]|]; cbn [bind]; try discriminate.
    destruct (f (Some u) (Some i)) as [[x|]|] eqn:F; cbn [bind]; try discriminate.
    intros H. injection H as <-. exists u, i. auto.
  - intros [u [i [-> [-> F]]]]. cbn [bind]. rewrite F. reflexivity.
Qed.

(** ** CDAE and Caser *)
Lemma picked_In v ni cands s i :
  In (s, i) (picked v ni cands) <-> In i cands /\ 0 <= i < Z.of_nat ni /\ nth_error v (Z.to_nat i) = Some s.
Proof.
  unfold picked. rewrite filter_In. cbn [snd]. rewrite (mem_b_In _ reflects_Z).
  assert (G : forall (v : list Qc) ni k, In (s, i) (combine v (map Z.of_nat (seq k ni))) <->
     Z.of_nat k <= i < Z.of_nat (k + ni) /\ nth_error v (Z.to_nat i - k) = Some s).
  { clear. induction v as [|x v IH]; intros ni k; simpl.
    - split; [tauto|]. intros [_ H]. destruct (Z.to_nat i - k)%nat; discriminate.
    - destruct ni as [|ni]; simpl.
      + split; [tauto|]. lia.
      + rewrite IH. split.
        * intros [H|[H1 H2]].
          -- injection H as -> <-. split; [lia|]. replace (Z.to_nat (Z.of_nat k) - k)%nat with 0%nat by lia. reflexivity.
          -- split; [lia|]. replace (Z.to_nat i - k)%nat with (S (Z.to_nat i - S k)) by lia. exact H2.
        * intros [H1 H2]. destruct (Z.eq_dec i (Z.of_nat k)) as [->|D].
          -- left. replace (Z.to_nat (Z.of_nat k) - k)%nat with 0%nat in H2 by lia. injection H2 as ->. reflexivity.
          -- right. split; [lia|]. replace (Z.to_nat i - k)%nat with (S (Z.to_nat i - S k)) in H2 by lia. exact H2. }
  unfold Zseq. rewrite G. replace (Z.to_nat i - 0)%nat with (Z.to_nat i) by lia. simpl. intuition.
Qed.

Definition vec_score (vec : Z -> res (list Qc)) (ni : nat) (u i : Z) (s : Qc) : Prop :=
  0 <= i < Z.of_nat ni /\ exists v, vec u = Ok v /\ nth_error v (Z.to_nat i) = Some s.

Lemma picked_best v ni cands n (c : Z -> Prop) vec u : vec u = Ok v -> (forall i, In i cands <-> c i) ->
  best_of c (vec_score vec ni u) (Z.to_nat n) (top n (picked v ni cands)).
Proof.
  intros V H. eapply best_of_ext; [|apply top_best]. intros i s. unfold vec_score. rewrite picked_In. split.
  - intros [_ [H1 [H2 H3]]]. split; [apply H; auto|]. split; auto. exists v. auto.
  - intros [H1 [H2 [v' [V' H3]]]]. rewrite V in V'. injection V' as <-. apply H in H1. split; auto.
    apply in_map_iff. exists (s, i). split; auto. apply picked_In. auto.
Qed.

Lemma user_rows_ok u : exists mu, select m ("uid == " ++ str_of_Z u) = Ok mu /\ wf_mem mu /\ id_types mu /\
  m_columns mu = m_columns m /\ rows_of mu = filter (int_is "uid" u) (rows_of m).
Proof.
  destruct (trained_cols m0 m tu ti T) as [Cu Ci].
  assert (S := select_int_exact m "uid" u (trained_wf _ _ _ _ T) (trained_id_types _ _ _ _ T) ltac:(simpl; auto) Cu
     (trained_small _ _ _ _ T "uid" (or_introl eq_refl))).
  change ("uid" ++ " == " ++ str_of_Z u) with ("uid == " ++ str_of_Z u) in S.
  eexists. split; [exact S|]. split; [eapply wf_select; [apply (trained_wf _ _ _ _ T)|exact S]|].
  split; [exact (trained_id_types _ _ _ _ T)|]. split; reflexivity.
Qed.

Lemma cdae_candidates_ok u iids nov cands : cdae_candidates m u iids nov = Ok cands ->
  forall i, In i cands <-> In i iids /\ (nov = true -> ~ pair_in m u i).
Proof.
  unfold cdae_candidates. destruct nov.
  - destruct (user_rows_ok u) as [mu [S [Wu [Iu [Cu Ru]]]]]. rewrite S. cbn [bind].
    destruct (mem_len mu <? length iids)%nat.
    + destruct (values mu (Some ["iid"])) as [vs|] eqn:V; cbn [bind]; [|discriminate].
      intros H. injection H as <-. intros i. rewrite (set_minus_In u); [tauto|].
      unfold rated_iids. rewrite S. cbn [bind]. rewrite V. reflexivity.
    + destruct (mapM _ iids) as [bs|] eqn:M; cbn [bind]; [|discriminate].
      intros H. injection H as <-. intros i. rewrite (dedup_In _ reflects_Z), in_map_iff.
      apply mapM_Forall2 in M.
      assert (Q : forall i b, (b <- exists_q mu ("iid == " ++ str_of_Z i) ;; Ok (i, b)) = Ok b ->
        fst b = i /\ (snd b = true <-> pair_in m u i)).
      { clear - T Wu Iu Cu Ru. intros i b.
        assert (S := select_int_exact mu "iid" i Wu Iu ltac:(simpl; auto)
           ltac:(rewrite Cu; apply (trained_cols m0 m tu ti T))
           ltac:(intros r z Hr E; rewrite Ru in Hr; apply filter_In in Hr; destruct Hr as [Hr _];
                 exact (trained_small _ _ _ _ T "iid" (or_intror eq_refl) r z Hr E))).
        change ("iid" ++ " == " ++ str_of_Z i) with ("iid == " ++ str_of_Z i) in S.
        rewrite (exists_iff mu _ _ Wu S). cbn [bind]. intros H. injection H as <-. split; [reflexivity|]. cbn [snd].
        unfold mem_len. change (rows_of (set_rows (mem_copy mu) (filter (int_is "iid" i) (rows_of mu))))
          with (filter (int_is "iid" i) (rows_of mu)).
        rewrite negb_true_iff, Nat.eqb_neq, Ru. split.
        - intros N. destruct (filter (int_is "iid" i) (filter (int_is "uid" u) (rows_of m))) as [|r l] eqn:E; [simpl in N; lia|].
          assert (H : In r (r :: l)) by (simpl; auto). rewrite <- E in H.
          apply filter_In in H. destruct H as [H H2]. apply filter_In in H. destruct H as [H H1].
          exists r. split; auto. unfold int_is in *.
          destruct (cell r "uid") as [[z| |]|]; try discriminate. destruct (cell r "iid") as [[z'| |]|]; try discriminate.
          apply Z.eqb_eq in H1, H2. subst. auto.
        - intros [r [Hr [E1 E2]]].
          assert (H : In r (filter (int_is "iid" i) (filter (int_is "uid" u) (rows_of m)))).
          { apply filter_In. split; [apply filter_In; split; auto|]; unfold int_is; rewrite ?E1, ?E2; apply Z.eqb_refl. }
          destruct (filter (int_is "iid" i) (filter (int_is "uid" u) (rows_of m))); [contradiction|]. simpl. lia. }
      split.
      * intros [[j b] [E H]]. cbn [fst] in E. subst j. apply filter_In in H. destruct H as [H1 H2]. cbn [snd] in H2.
        destruct (Forall2_in_r _ _ _ _ M H1) as [k [Hk Ek]]. apply Q in Ek. destruct Ek as [Ek E2]. cbn [fst snd] in *. subst k.
        split; auto. intros _ P. apply E2 in P. rewrite P in H2. discriminate.
      * intros [Hi P]. destruct (Forall2_in_l _ _ _ _ M Hi) as [[j b] [Hb E]]. apply Q in E. destruct E as [E1 E2].
        cbn [fst snd] in *. subst j. exists (i, b). split; auto. apply filter_In. split; auto. cbn [snd].
        destruct b; auto. exfalso. apply P; auto. apply E2. auto.
  - intros H. injection H as <-. intros i. rewrite (dedup_In _ reflects_Z). split; [|tauto]. intros Hi. split; auto. discriminate.
Qed.

Lemma rank_cdae_ok vec ni nov : impl_ok m (rank_cdae vec m ni) (vec_score vec ni) nov.
Proof.
  intros u iids n l. unfold rank_cdae. destruct (vec u) as [v|] eqn:V; cbn [bind]; [|discriminate].
  destruct (cdae_candidates m u iids nov) as [cands|] eqn:C; cbn [bind]; [|discriminate].
  intros H. injection H as <-. apply picked_best; auto. apply cdae_candidates_ok; auto.
Qed.

Lemma rank_caser_ok vec ni : impl_ok m (rank_caser vec m ni) (vec_score vec ni) true.
Proof.
  intros u iids n l. unfold rank_caser. destruct (rated_spec m0 m tu ti T u) as [rated [R S]]. rewrite R. cbn [bind].
  destruct (vec u) as [v|] eqn:V; cbn [bind]; [|discriminate].
  intros H. injection H as <-. apply picked_best; auto. intros i. rewrite filter_In, negb_true_iff, <- S.
  destruct (mem_b val_eqb (VInt i) rated); intuition congruence.
Qed.

Lemma cdae_score vec ni user v s : count_unique m (Some ["iid"]) = Ok ni -> known_item m0 v ->
  (exists u i, user_to_uid m user = Ok (Some u) /\ item_to_iid m v = Ok (Some i) /\ vec_score vec ni u i s) <->
  predict (predict_cdae vec) true m user v false = Ok (Some (inl s)).
Proof.
  intros N K. apply n_items_count in N. rewrite predict_iff. split.
  - intros [u [i [U [I [R [w [V E]]]]]]]. exists u, i. split; auto. split; auto. simpl. rewrite V. cbn [bind]. rewrite E. auto.
  - intros [u [i [U [I F]]]]. exists u, i. split; auto. split; auto. split.
    + destruct (known_item_iid m0 m tu ti T v K) as [_ [k [E B]]]. rewrite E in I. injection I as <-. rewrite N. auto.
    + simpl in F. destruct (vec u) as [w|]; cbn [bind] in F; [|discriminate]. exists w. split; auto.
      destruct (nth_error w (Z.to_nat i)) as [x|]; [congruence|discriminate].
Qed.
End TrainedRank.
