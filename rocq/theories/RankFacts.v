(** Proofs about ranking: data sets with internal ids, and the n largest. *)
From Coq Require Import String Ascii.
From Coq Require Import List ZArith QArith Qcanon Bool Lia Permutation Sorted.
From Verif Require Import Py PyFacts MemModel MemSpec MemFacts MemFacts2 MemFacts3 MemFacts4 MemFacts5 MemFacts6 MemFacts7.
From Verif Require Import RankModel RankSpec.
Import ListNotations.
Open Scope string_scope.
Open Scope Z_scope.

(** ** the data set after assign_internal_ids is well formed *)
Lemma keys_set {A B} (l : list (string * A)) (l' : list (string * B)) c a b :
  map fst l = map fst l' -> map fst (assoc_set String.eqb c a l) = map fst (assoc_set String.eqb c b l').
Proof.
  revert l'. induction l as [|[k x] l IH]; intros [|[k' x'] l']; simpl; intros E; try discriminate; auto.
  injection E as -> E. destruct (String.eqb c k'); simpl; [congruence|]. f_equal. auto.
Qed.

Lemma assoc_set_In_ne {B} (l : list (string * B)) c v k x : NoDup (map fst l) ->
  In (k, x) (assoc_set String.eqb c v l) -> (k = c /\ x = v) \/ (k <> c /\ In (k, x) l).
Proof.
  induction l as [|[k' x'] l IH]; simpl; [intuition congruence|]. intros N.
  inversion N as [|? ? N1 N2]; subst.
  destruct (String.eqb c k') eqn:E; simpl.
  - apply String.eqb_eq in E. subst. intros [H|H]; [injection H as <- <-; left; auto|]. right. split; auto.
    intros ->. apply N1. apply in_map_iff. exists (k', x). auto.
  - apply String.eqb_neq in E. intros [H|H].
    + injection H as <- <-. right. split; auto.
    + destruct (IH N2 H); intuition.
Qed.

Lemma keys_set_In {B} (l : list (string * B)) c v k :
  In k (map fst (assoc_set String.eqb c v l)) <-> k = c \/ In k (map fst l).
Proof.
  destruct (in_dec string_dec c (map fst l)) as [H|H].
  - rewrite (assoc_set_keys _ reflects_string) by auto. intuition. subst; auto.
  - rewrite assoc_set_fresh_keys by auto. rewrite map_app, in_app_iff. simpl. intuition.
Qed.

Lemma wf_assign_frame raw int f : int <> "rid" -> raw <> int -> In raw (map fst (f_types f)) ->
  wf_frame f -> wf_frame (assign_frame raw int f).
Proof.
  intros Ni Nr Hr [A1 A2 A3 A4].
  assert (HC : forall r, In r (f_rows f) -> exists v, cell r raw = Some v).
  { intros r H. apply in_map_iff in Hr. destruct Hr as [[c t] [E Hc]]. simpl in E. subst.
    destruct (A4 r raw t H Hc) as [v [E _]]. eauto. }
  constructor.
  - simpl. apply assoc_set_keys_NoDup; auto.
  - simpl. rewrite keys_set_In. intuition.
  - simpl. intros r' H. apply in_map_iff in H. destruct H as [r [<- H]].
    destruct (HC r H) as [v E]. unfold code_row. rewrite E. simpl. apply keys_set. auto.
  - simpl. intros r' c t H Hc. apply in_map_iff in H. destruct H as [r [<- H]].
    destruct (HC r H) as [v E]. apply assoc_set_In_ne in Hc; auto. destruct Hc as [[-> ->]|[N Hc]].
    + rewrite (cell_code_same _ _ _ _ _ E). eexists. split; reflexivity.
    + rewrite cell_code_other by auto. apply A4; auto.
Qed.

Lemma add_column_In m c d : In d (add_column m c) <-> d = c \/ In d (m_columns m).
Proof.
  unfold add_column. destruct (mem_b String.eqb c (m_columns m)) eqn:E.
  - apply (mem_b_In _ reflects_string) in E. intuition. subst; auto.
  - rewrite in_app_iff. simpl. intuition.
Qed.
Lemma add_column_NoDup m c : NoDup (m_columns m) -> NoDup (add_column m c).
Proof.
  intros N. unfold add_column. destruct (mem_b String.eqb c (m_columns m)) eqn:E; auto.
  apply (mem_b_false _ reflects_string) in E. apply (Permutation_NoDup (Permutation_cons_append (m_columns m) c)).
  constructor; auto.
Qed.

Lemma col_type_in m c t : c <> "rid" -> col_type m c = Ok t -> In c (map fst (f_types (m_df m))).
Proof.
  intros N H. apply col_type_assoc in H; auto. apply (assoc_In _ reflects_string) in H.
  apply in_map_iff. exists (c, t). auto.
Qed.

Lemma wf_assigned m tu ti : wf_mem m -> col_type m "user" = Ok tu -> col_type m "item" = Ok ti -> wf_mem (assigned m).
Proof.
  intros W Tu Ti. constructor.
  - unfold assigned. cbn [m_df]. apply wf_assign_frame; try discriminate.
    + simpl. rewrite keys_set_In. right. eapply col_type_in; eauto. discriminate.
    + apply wf_assign_frame; try discriminate.
      * eapply col_type_in; eauto. discriminate.
      * apply (wf_df _ W).
  - unfold assigned. cbn [m_columns]. apply add_column_NoDup. unfold set_columns. cbn [m_columns].
    apply add_column_NoDup, (wf_cols_nodup _ W).
  - intros c. rewrite assigned_types. unfold assigned. cbn [m_columns]. rewrite add_column_In.
    unfold set_columns. cbn [m_columns]. rewrite add_column_In, (wf_cols _ W), !keys_set_In. tauto.
Qed.

Lemma id_types_assigned m : id_types (assigned m).
Proof.
  intros c t H. rewrite assigned_types. simpl in H. destruct H as [<-|[<-|[]]].
  - rewrite (assoc_set_other _ reflects_string) by discriminate. rewrite (assoc_set_same _ reflects_string). congruence.
  - rewrite (assoc_set_same _ reflects_string). congruence.
Qed.

(** ** selecting by internal id *)
Definition int_is (c : string) (k : Z) (r : row) : bool :=
  match cell r c with Some (VInt z) => z =? k | _ => false end.

Lemma select_int_exact m c k : wf_mem m -> id_types m -> In c ["uid"; "iid"] -> In c (m_columns m) -> small_col m c ->
  select m (c ++ " == " ++ str_of_Z k) = Ok (set_rows (mem_copy m) (filter (int_is c k) (rows_of m))).
Proof.
  intros W I Hc Hin S.
  assert (Nr : c <> "rid") by (simpl in Hc; intuition congruence).
  destruct (col_type_ok m c W Hin) as [t T].
  assert (A : assoc String.eqb c (f_types (m_df m)) = Some t) by (apply col_type_assoc; auto).
  assert (t = DInt) by (eapply I; eauto). subst t.
  destruct (select_exact m [mkCond c Eq (LInt k)]) as [H _]; auto.
  - discriminate.
  - constructor; auto. split; auto. cbn [sc_col sc_lit]. split; [split|].
    + intros ->. simpl in Hc. intuition discriminate.
    + simpl in Hc. destruct Hc as [<-|[<-|[]]]; simpl; unfold plain_char; repeat split; discriminate.
    + split; auto. exists DInt. split; auto. apply lo_id. simpl in *. intuition.
  - constructor; auto. intros _ Hu. cbn [sc_col] in Hu. simpl in *. intuition congruence.
  - replace (query_text [mkCond c Eq (LInt k)]) with (c ++ " == " ++ str_of_Z k) in H by reflexivity.
    rewrite H. f_equal. f_equal. apply filter_ext_in. intros r Hr.
    destruct (wf_cell m r c DInt W Hr A) as [v [E1 E2]]. destruct v; try discriminate.
    unfold sat, sat1, int_is. cbn [forallb sc_col sc_lit sc_op lit_num]. unfold row_val.
    destruct (String.eqb c "rid") eqn:Er; [apply String.eqb_eq in Er; congruence|].
    rewrite E1. cbn. rewrite andb_true_r, Qc_of_Z_compare, Z.eqb_compare. destruct (z ?= k); reflexivity.
Qed.

(** ** the trained data set *)
Section Trained.
Variables (m0 m : mem) (tu ti : dtype).
Hypothesis T : trained_on m0 m tu ti.

Lemma trained_assigned : m = assigned m0.
Proof.
  destruct T as [W Tu Ti _ _ A _]. rewrite (assign_ok m0 tu ti Tu Ti) in A. congruence.
Qed.
Lemma trained_wf : wf_mem m.
Proof. rewrite trained_assigned. destruct T. eapply wf_assigned; eauto. Qed.
Lemma trained_id_types : id_types m.
Proof. rewrite trained_assigned. apply id_types_assigned. Qed.
Lemma trained_cols : In "uid" (m_columns m) /\ In "iid" (m_columns m).
Proof. rewrite trained_assigned. apply assigned_has_cols. Qed.

Lemma dedup_acc_length {A} (eqb : A -> A -> bool) l : forall seen, (length (dedup_acc eqb seen l) <= length l)%nat.
Proof.
  induction l as [|x l IH]; intros seen; simpl; auto.
  destruct (mem_b eqb x seen); simpl; [specialize (IH seen)|specialize (IH (x :: seen))]; lia.
Qed.
Lemma column_length c rs : (length (column c rs) <= length rs)%nat.
Proof.
  unfold column. induction rs as [|r rs IH]; simpl; auto. rewrite app_length. destruct (cell r c); simpl; lia.
Qed.
Lemma distinct_col_length c rs : (length (distinct_col c rs) <= length rs)%nat.
Proof. rewrite distinct_column. unfold dedup. etransitivity; [apply dedup_acc_length|apply column_length]. Qed.

Lemma trained_row r : In r (rows_of m) -> exists r0 u i uid iid,
  In r0 (rows_of m0) /\ cell r0 "user" = Some u /\ cell r0 "item" = Some i /\ type_of u = tu /\ type_of i = ti /\
  user_to_uid m u = Ok (Some uid) /\ item_to_iid m i = Ok (Some iid) /\
  cell r "uid" = Some (VInt uid) /\ cell r "iid" = Some (VInt iid) /\
  0 <= uid < Z.of_nat (length (rows_of m0)) /\ 0 <= iid < Z.of_nat (length (rows_of m0)) /\
  cell r "interaction" = cell r0 "interaction".
Proof.
  intros H. destruct T as [W Tu Ti Nu Ni _ _]. rewrite trained_assigned in *.
  rewrite assigned_rows in H. apply in_map_iff in H. destruct H as [r0 [<- H]].
  assert (Au := col_type_assoc m0 "user" tu ltac:(discriminate) Tu).
  assert (Ai := col_type_assoc m0 "item" ti ltac:(discriminate) Ti).
  destruct (wf_cell m0 r0 "user" tu W H Au) as [u [Eu Yu]].
  destruct (wf_cell m0 r0 "item" ti W H Ai) as [i [Ei Yi]].
  assert (Iu : In u (distinct_col "user" (rows_of m0))) by (apply distinct_col_In; eauto).
  assert (Ii : In i (distinct_col "item" (rows_of m0))) by (apply distinct_col_In; eauto).
  destruct (index_of_In _ reflects_value _ _ Iu) as [a Xa].
  destruct (index_of_In _ reflects_value _ _ Ii) as [b Xb].
  exists r0, u, i, (Z.of_nat a), (Z.of_nat b).
  assert (La : (a < length (distinct_col "user" (rows_of m0)))%nat).
  { apply (index_of_Some _ reflects_value) in Xa. tauto. }
  assert (Lb : (b < length (distinct_col "item" (rows_of m0)))%nat).
  { apply (index_of_Some _ reflects_value) in Xb. tauto. }
  assert (Ua := distinct_col_length "user" (rows_of m0)).
  assert (Ub := distinct_col_length "item" (rows_of m0)).
  repeat match goal with |- _ /\ _ => split end; auto; try lia.
  - rewrite (user_to_uid_assigned m0 tu), Xa; auto.
  - rewrite (item_to_iid_assigned m0 ti), Xb; auto.
  - rewrite (coded_row_uid m0 r0 u Eu), (code_of_index _ _ _ Xa). reflexivity.
  - rewrite (coded_row_iid m0 r0 i Ei), (code_of_index _ _ _ Xb). reflexivity.
  - apply coded_row_other; discriminate.
Qed.

Lemma trained_row_back r0 : In r0 (rows_of m0) -> exists r, In r (rows_of m) /\
  (forall c, c <> "uid" -> c <> "iid" -> cell r c = cell r0 c) /\
  (forall u, cell r0 "user" = Some u -> exists uid, user_to_uid m u = Ok (Some uid) /\ cell r "uid" = Some (VInt uid)) /\
  (forall i, cell r0 "item" = Some i -> exists iid, item_to_iid m i = Ok (Some iid) /\ cell r "iid" = Some (VInt iid)).
Proof.
  intros H. destruct T as [W Tu Ti Nu Ni _ _]. rewrite trained_assigned in *.
  exists (coded_row m0 r0). split; [rewrite assigned_rows; apply in_map; auto|].
  split; [intros; apply coded_row_other; auto|].
  assert (Au := col_type_assoc m0 "user" tu ltac:(discriminate) Tu).
  assert (Ai := col_type_assoc m0 "item" ti ltac:(discriminate) Ti).
  split.
  - intros u Eu. destruct (wf_cell m0 r0 "user" tu W H Au) as [u' [Eu' Yu]].
    assert (Iu : In u (distinct_col "user" (rows_of m0))) by (apply distinct_col_In; eauto).
    destruct (index_of_In _ reflects_value _ _ Iu) as [a Xa]. exists (Z.of_nat a). split.
    + rewrite (user_to_uid_assigned m0 tu), Xa; auto. congruence.
    + rewrite (coded_row_uid m0 r0 u Eu), (code_of_index _ _ _ Xa). reflexivity.
  - intros u Eu. destruct (wf_cell m0 r0 "item" ti W H Ai) as [u' [Eu' Yu]].
    assert (Iu : In u (distinct_col "item" (rows_of m0))) by (apply distinct_col_In; eauto).
    destruct (index_of_In _ reflects_value _ _ Iu) as [a Xa]. exists (Z.of_nat a). split.
    + rewrite (item_to_iid_assigned m0 ti), Xa; auto. congruence.
    + rewrite (coded_row_iid m0 r0 u Eu), (code_of_index _ _ _ Xa). reflexivity.
Qed.

Lemma trained_small c : c = "uid" \/ c = "iid" -> small_col m c.
Proof.
  intros Hc r z Hr E. destruct (trained_row r Hr) as [r0 [u [i [a [b [_ [_ [_ [_ [_ [_ [_ [E1 [E2 [B1 [B2 _]]]]]]]]]]]]]]]].
  assert (S := tr_small _ _ _ _ T). destruct Hc as [-> | ->]; rewrite ?E1, ?E2 in E; injection E as <-; lia.
Qed.

(** items and their internal ids *)
Lemma item_iid v k : type_of v = ti -> (item_to_iid m v = Ok (Some k) <-> iid_to_item m k = Ok (Some v)).
Proof.
  intros Y. destruct T as [W Tu Ti Nu Ni A _].
  destruct (assign_spec m0 tu ti W Tu Ti Nu Ni) as [m' [A' [_ [N _]]]]. rewrite A in A'. injection A' as <-.
  apply (nb_inverse _ _ _ _ N); auto.
Qed.
Lemma user_uid v k : type_of v = tu -> (user_to_uid m v = Ok (Some k) <-> uid_to_user m k = Ok (Some v)).
Proof.
  intros Y. destruct T as [W Tu Ti Nu Ni A _].
  destruct (assign_spec m0 tu ti W Tu Ti Nu Ni) as [m' [A' [N _]]]. rewrite A in A'. injection A' as <-.
  apply (nb_inverse _ _ _ _ N); auto.
Qed.
Lemma user_uid_inj v w k : type_of v = tu -> type_of w = tu ->
  user_to_uid m v = Ok (Some k) -> user_to_uid m w = Ok (Some k) -> v = w.
Proof. intros Yv Yw Hv Hw. apply user_uid in Hv; auto. apply user_uid in Hw; auto. congruence. Qed.
Lemma item_iid_inj v w k : type_of v = ti -> type_of w = ti ->
  item_to_iid m v = Ok (Some k) -> item_to_iid m w = Ok (Some k) -> v = w.
Proof. intros Yv Yw Hv Hw. apply item_iid in Hv; auto. apply item_iid in Hw; auto. congruence. Qed.

Lemma iid_to_item_known k v : iid_to_item m k = Ok (Some v) -> known_item m0 v /\ type_of v = ti.
Proof.
  rewrite trained_assigned, iid_to_item_assigned. destruct (0 <=? k); [|discriminate].
  intros H. injection H as H. apply nth_error_In in H. split.
  - unfold known_item. rewrite distinct_column in H. apply (proj1 (dedup_In _ reflects_value _ _)) in H. exact H.
  - destruct T as [W Tu Ti _ _ _ _]. eapply distinct_types; eauto. apply col_type_assoc; [discriminate|]. exact Ti.
Qed.
Lemma known_item_iid v : known_item m0 v -> type_of v = ti /\
  exists k, item_to_iid m v = Ok (Some k) /\ 0 <= k < Z.of_nat (n_distinct "item" m0).
Proof.
  unfold known_item. intros H. apply (proj2 (dedup_In _ reflects_value _ _)) in H. rewrite <- distinct_column in H.
  destruct T as [W Tu Ti Nu Ni _ _].
  assert (Y : type_of v = ti).
  { eapply distinct_types; eauto. apply col_type_assoc; [discriminate|]. exact Ti. }
  split; auto. rewrite trained_assigned.
  destruct (index_of_In _ reflects_value _ _ H) as [a Xa]. exists (Z.of_nat a). split.
  - rewrite (item_to_iid_assigned m0 ti), Xa; auto.
  - rewrite n_distinct_length.
    apply (index_of_Some _ reflects_value) in Xa. lia.
Qed.
Lemma known_user_uid v : known_user m0 v -> type_of v = tu /\ exists k, user_to_uid m v = Ok (Some k).
Proof.
  unfold known_user. intros H. apply (proj2 (dedup_In _ reflects_value _ _)) in H. rewrite <- distinct_column in H.
  destruct T as [W Tu Ti Nu Ni _ _].
  assert (Y : type_of v = tu).
  { eapply distinct_types; eauto. apply col_type_assoc; [discriminate|]. exact Tu. }
  split; auto. rewrite trained_assigned.
  destruct (index_of_In _ reflects_value _ _ H) as [a Xa]. exists (Z.of_nat a).
  rewrite (user_to_uid_assigned m0 tu), Xa; auto.
Qed.
Lemma unknown_item_iid v : type_of v = ti -> ~ known_item m0 v -> item_to_iid m v = Ok None.
Proof.
  intros Y N. destruct T as [W Tu Ti Nu Ni A _].
  destruct (assign_spec m0 tu ti W Tu Ti Nu Ni) as [m' [A' [_ [Nb _]]]]. rewrite A in A'. injection A' as <-.
  apply (nb_unknown_raw _ _ _ _ Nb); auto.
Qed.
Lemma unknown_user_uid v : type_of v = tu -> ~ known_user m0 v -> user_to_uid m v = Ok None.
Proof.
  intros Y N. destruct T as [W Tu Ti Nu Ni A _].
  destruct (assign_spec m0 tu ti W Tu Ti Nu Ni) as [m' [A' [Nb _]]]. rewrite A in A'. injection A' as <-.
  apply (nb_unknown_raw _ _ _ _ Nb); auto.
Qed.
Lemma iid_in_range k : 0 <= k < Z.of_nat (n_distinct "item" m0) -> exists v, iid_to_item m k = Ok (Some v).
Proof.
  intros H. destruct T as [W Tu Ti Nu Ni A _].
  destruct (assign_spec m0 tu ti W Tu Ti Nu Ni) as [m' [A' [_ [Nb _]]]]. rewrite A in A'. injection A' as <-.
  apply (nb_onto _ _ _ _ Nb) in H. destruct H as [v [H _]]. eauto.
Qed.
Lemma iid_range k v : iid_to_item m k = Ok (Some v) -> 0 <= k < Z.of_nat (n_distinct "item" m0).
Proof.
  intros H. destruct T as [W Tu Ti Nu Ni A _].
  destruct (assign_spec m0 tu ti W Tu Ti Nu Ni) as [m' [A' [_ [Nb _]]]]. rewrite A in A'. injection A' as <-.
  apply (nb_onto _ _ _ _ Nb). exists v. split; auto. apply iid_to_item_known in H. apply H.
Qed.

(** rows by internal id = interactions by raw id *)
Definition pair_in (u i : Z) : Prop :=
  exists r, In r (rows_of m) /\ cell r "uid" = Some (VInt u) /\ cell r "iid" = Some (VInt i).

Lemma pair_interacted user v u i : type_of user = tu -> user_to_uid m user = Ok (Some u) ->
  iid_to_item m i = Ok (Some v) -> (pair_in u i <-> interacted m0 user v).
Proof.
  intros Yu Hu Hi. assert (Yi : type_of v = ti) by (eapply iid_to_item_known; eauto).
  apply item_iid in Hi; auto. split.
  - intros [r [Hr [E1 E2]]].
    destruct (trained_row r Hr) as [r0 [u' [i' [a [b [H0 [C1 [C2 [Y1 [Y2 [U [I [E3 [E4 _]]]]]]]]]]]]]].
    rewrite E1 in E3. injection E3 as <-. rewrite E2 in E4. injection E4 as <-.
    exists r0. split; auto. rewrite C1, C2. split; f_equal.
    + eapply user_uid_inj; eauto.
    + eapply item_iid_inj; eauto.
  - intros [r0 [H0 [E1 E2]]]. destruct (trained_row_back r0 H0) as [r [Hr [_ [FU FI]]]].
    exists r. split; auto. destruct (FU user E1) as [a [A1 A2]]. destruct (FI v E2) as [b [B1 B2]].
    rewrite A2, B2. split; congruence.
Qed.

Lemma concat_singletons (l : list (list value)) rs (c : string) :
  Forall2 (fun r v => Forall2 (fun c x => exists y, row_val r c = Some y /\ same_value x y) [c] v) rs l ->
  Forall2 (fun r x => exists y, row_val r c = Some y /\ same_value x y) rs (concat l).
Proof.
  induction 1 as [|r v rs l H F IH]; simpl; [constructor|].
  inversion H as [|? x ? l' E F1]; subst. inversion F1; subst. simpl. constructor; auto.
Qed.

Lemma mem_b_exists {A} (eqb : A -> A -> bool) x l : mem_b eqb x l = true <-> exists y, In y l /\ eqb x y = true.
Proof.
  induction l as [|y l IH]; simpl; [split; [discriminate|intros [y [[] _]]]|].
  rewrite orb_true_iff, IH. split.
  - intros [H|[z [H1 H2]]]; [exists y; auto|exists z; auto].
  - intros [z [[->|H1] H2]]; [auto|right; exists z; auto].
Qed.

Lemma some_num a b : Some (Qc_of_Z a) = Some (Qc_of_Z b) -> a = b.
Proof.
  intros H. assert (E : Qc_of_Z a = Qc_of_Z b) by congruence. clear H.
  assert (X := Qc_of_Z_compare a b). rewrite E in X. assert (Y := Qc_of_Z_compare b b). rewrite X in Y.
  rewrite Z.compare_refl in Y. apply Z.compare_eq. exact Y.
Qed.

Lemma val_eqb_same i x : val_eqb (VInt i) x = true <-> same_value x (VInt i).
Proof.
  unfold val_eqb, same_value. destruct x as [z|q|s]; cbn [num_of]; split; intros H; try discriminate; try contradiction.
  - apply Z.eqb_eq in H. subst. reflexivity.
  - apply Z.eqb_eq. symmetry. apply some_num. exact H.
  - f_equal. apply Qc_eq_bool_correct in H. auto.
  - assert (q = Qc_of_Z i) by congruence. subst. unfold Qc_eq_bool.
    destruct (Qc_eq_dec (Qc_of_Z i) (Qc_of_Z i)); congruence.
Qed.

Lemma same_value_int_inj x i j : same_value x (VInt i) -> same_value x (VInt j) -> i = j.
Proof.
  unfold same_value. destruct x as [z|q|s]; cbn [num_of]; try contradiction; intros H1 H2; apply some_num; congruence.
Qed.

Lemma rated_spec u : exists l, rated_iids m u = Ok l /\
  forall i, mem_b val_eqb (VInt i) l = true <-> pair_in u i.
Proof.
  destruct trained_cols as [Cu Ci].
  assert (S := select_int_exact m "uid" u trained_wf trained_id_types ltac:(simpl; auto) Cu (trained_small "uid" (or_introl eq_refl))).
  change ("uid" ++ " == " ++ str_of_Z u) with ("uid == " ++ str_of_Z u) in S.
  unfold rated_iids. rewrite S. cbn [bind].
  set (mu := set_rows (mem_copy m) (filter (int_is "uid" u) (rows_of m))).
  assert (R : rows_of mu = filter (int_is "uid" u) (rows_of m)) by reflexivity.
  destruct (values_ok mu ["iid"]) as [vs [V [_ F]]].
  - eapply wf_select; [apply trained_wf|exact S].
  - intros c [<-|[]]. exact Ci.
  - intros c [<-|[]] r z Hr E. rewrite R in Hr. apply filter_In in Hr. destruct Hr as [Hr _].
    exact (trained_small "iid" (or_intror eq_refl) r z Hr E).
  - rewrite V. cbn [bind]. exists (concat vs). split; auto.
    apply concat_singletons in F. rewrite R in F.
    intros i. transitivity (exists r x, In r (filter (int_is "uid" u) (rows_of m)) /\ row_val r "iid" = Some x /\ same_value x (VInt i)).
    + clear -F. assert (G : forall A B (P : A -> B -> Prop) l l', Forall2 P l l' -> forall y, In y l' -> exists x, In x l /\ P x y).
      { induction 1; simpl; [tauto|]. intros z [->|Hz]; [eauto|]. destruct (IHForall2 z Hz) as [x' [? ?]]. eauto. }
      assert (G' : forall A B (P : A -> B -> Prop) l l', Forall2 P l l' -> forall x, In x l -> exists y, In y l' /\ P x y).
      { induction 1; simpl; [tauto|]. intros z [->|Hz]; [eauto|]. destruct (IHForall2 z Hz) as [x' [? ?]]. eauto. }
      assert (SV : forall a b c, same_value a b -> same_value a (VInt c) -> same_value b (VInt c)).
      { intros a b c. unfold same_value. destruct a, b; try tauto; try congruence; intros; subst; tauto. }
      assert (SV' : forall a b c, same_value a b -> same_value b (VInt c) -> same_value a (VInt c)).
      { intros a b c. unfold same_value. destruct a, b; try tauto; try congruence. }
      split.
      * intros H. assert (X := proj1 (mem_b_exists val_eqb (VInt i) (concat vs)) H).
        destruct X as [x [Hx E]]. apply val_eqb_same in E. destruct (G _ _ _ _ _ F x Hx) as [r [Hr [y [Ey S]]]].
        exists r, y. split; auto. split; auto. eapply SV; eauto.
      * intros [r [y [Hr [Ey S]]]]. destruct (G' _ _ _ _ _ F r Hr) as [x [Hx [y' [Ey' S']]]].
        rewrite Ey in Ey'. injection Ey' as <-.
        assert (E : val_eqb (VInt i) x = true) by (apply val_eqb_same; eapply SV'; eauto).
        apply mem_b_exists. eauto.
    + split.
      * intros [r [x [Hr [E S1]]]]. apply filter_In in Hr. destruct Hr as [Hr Hu]. exists r. split; auto.
        destruct (trained_row r Hr) as [r0 [u' [i' [a [b [H0 [C1 [C2 [Y1 [Y2 [U [I [E3 [E4 _]]]]]]]]]]]]]].
        unfold int_is in Hu. rewrite E3 in Hu. apply Z.eqb_eq in Hu. subst. split; auto.
        unfold row_val in E. cbn in E. rewrite E4 in E |- *. injection E as <-. f_equal. f_equal.
        simpl in S1. apply (same_value_int_inj (VInt b)); auto. reflexivity.
      * intros [r [Hr [E1 E2]]]. exists r, (VInt i). split; [|split].
        -- apply filter_In. split; auto. unfold int_is. rewrite E1. apply Z.eqb_refl.
        -- exact E2.
        -- reflexivity.
Qed.
End Trained.
