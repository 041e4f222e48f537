(** Proofs about the list sampler: what a sample consists of. *)
From Coq Require Import String Ascii.
From Coq Require Import List ZArith QArith Qcanon Qround Bool Lia Permutation Sorted.
From Verif Require Import Py PyFacts MemModel MemSpec MemFacts MemFacts2 MemFacts3 MemFacts4 MemFacts5 MemFacts6 MemFacts7.
From Verif Require Import RankFacts RankFacts2 KnnModel KnnSpec KnnFacts KnnFacts2 SplitModel SplitSpec SplitFacts SampModel SampSpec SampFacts SampFacts2.
Import ListNotations.
Open Scope string_scope.
Open Scope Z_scope.

Section Sample.
Variables (m : mem) (a : ls_args) (t : option slit) (pick : nat -> list value -> nat -> list value) (s : nat -> nat).
Hypothesis C : coded m.
Hypothesis K : config_ok m a t.
Hypothesis Pk : sampler_ok pick.

Lemma common_int ts : (forall x, In x ts -> x = DInt) -> common_type ts = DInt.
Proof.
  intros H. unfold common_type.
  assert (X : forall d, d <> DInt -> existsb (dtype_eqb d) ts = false).
  { intros d Nd. destruct (existsb (dtype_eqb d) ts) eqn:E; auto. apply existsb_exists in E. destruct E as [x [Hx E]].
    apply H in Hx. subst. destruct d; try discriminate. congruence. }
  rewrite !X by discriminate. reflexivity.
Qed.

Lemma unique_groups_ok : exists gs, (ug <- unique m (Some (l_groups a)) ;; values ug (Some (l_groups a))) = Ok gs /\
  (rows_of m <> [] -> gs <> []) /\
  forall g, In g gs -> exists r, In r (rows_of m) /\ g = map VInt (ids_of a r).
Proof.
  assert (H := group_col m a t K). assert (N := co_some _ _ _ K). assert (D := co_nodup _ _ _ K).
  rewrite (unique_ok m (l_groups a)); [|apply (cd_wf m C)|auto|intros X; apply H in X; tauto|intros c X; apply H in X; tauto].
  cbn [bind]. set (u := set_columns _ _).
  set (ds := drop_duplicates (l_groups a) (rows_of m)).
  assert (Ec : forall c, In c (l_groups a) -> String.eqb c "rid" = false).
  { intros c Hc. apply String.eqb_neq. apply H in Hc. tauto. }
  assert (TC : mapM (col_type u) (df_columns (m_columns u)) = Ok (map (fun _ => DInt) (l_groups a))).
  { subst u. cbn [m_columns set_columns]. unfold df_columns. rewrite filter_app. cbn [filter]. cbn.
    rewrite app_nil_r. rewrite df_columns_id; [|intros X; apply H in X; tauto].
    apply mapM_Ok. intros c Hc. unfold col_type. rewrite (Ec c Hc). cbn [m_df set_columns set_df f_types].
    assert (A : assoc String.eqb c (f_types (m_df m)) = Some DInt) by (apply col_type_assoc; apply H in Hc; tauto).
    assert (X : assoc String.eqb c (project_types (l_groups a) (f_types (m_df m))) = Some DInt).
    { clear - A Hc. unfold project_types. induction (l_groups a) as [|d l IH]; [contradiction|].
      cbn [flat_map]. destruct (String.eqb c d) eqn:E.
      - apply String.eqb_eq in E. subst. rewrite A. cbn [app assoc]. rewrite String.eqb_refl. reflexivity.
      - destruct Hc as [->|Hc]; [rewrite String.eqb_refl in E; discriminate|].
        destruct (assoc String.eqb d (f_types (m_df m))); cbn [app assoc]; rewrite ?E; auto. }
    rewrite X. reflexivity. }
  exists (map (fun r => map VInt (ids_of a r)) ds). split.
  - unfold values, handle_columns.
    assert (F : forallb (col_in u) (l_groups a) = true).
    { apply forallb_forall. intros c Hc. apply col_in_iff. subst u. cbn [m_columns set_columns]. apply in_or_app. auto. }
    rewrite F. cbn [bind]. rewrite TC. cbn [bind]. rewrite common_int.
    2:{ intros x Hx. apply in_map_iff in Hx. destruct Hx as [? [<- _]]. reflexivity. }
    change (rows_of u) with (map (project_row (l_groups a)) ds). rewrite mapM_map. apply mapM_Ok. intros r Hr.
    assert (Hr' : In r (rows_of m)) by (eapply drop_duplicates_incl; eauto).
    unfold row_record. unfold ids_of. rewrite map_map. apply mapM_Ok. intros c Hc. unfold row_value.
    rewrite (Ec c Hc), project_cell by auto.
    destruct (int_cell m C c r) as [z [E _]]; auto; try (apply H in Hc; tauto). rewrite E. reflexivity.
  - split.
    + intros Nr Z. apply map_eq_nil in Z. unfold ds, drop_duplicates in Z. destruct (rows_of m); [contradiction|discriminate].
    + intros g Hg. apply in_map_iff in Hg. destruct Hg as [r [<- Hr]]. exists r. split; auto. eapply drop_duplicates_incl; eauto.
Qed.

Lemma distinct_negs : exists ns, distinct_values m (l_negcol a) = Ok ns /\ NoDup ns /\
  (forall v, In v ns <-> exists r, In r (rows_of m) /\ cell r (l_negcol a) = Some v) /\
  (forall v, In v ns -> exists z, v = VInt z).
Proof.
  destruct (co_negcol _ _ _ K) as [N [I T]].
  destruct (distinct_values_ok m (l_negcol a) DInt (cd_wf m C) N I T) as [ns [E [D [X Y]]]].
  exists ns. split; auto. split; auto. split; auto. intros v Hv. apply Y in Hv. destruct v; try discriminate. eauto.
Qed.

Lemma dedup_ints ns : NoDup ns -> (forall v, In v ns -> exists z, v = VInt z) -> dedup val_eqb ns = ns.
Proof.
  intros D I. unfold dedup. assert (H : forall seen, (forall v, In v seen -> exists z, v = VInt z) -> (forall v, In v seen -> In v ns -> False) ->
    dedup_acc val_eqb seen ns = ns); [|apply H; simpl; tauto].
  induction ns as [|v ns IH]; intros seen S Dj; auto. cbn [dedup_acc]. inversion D as [|? ? D1 D2]; subst.
  assert (M : mem_b val_eqb v seen = false).
  { destruct (mem_b val_eqb v seen) eqn:E; auto. exfalso.
    destruct (I v (or_introl eq_refl)) as [z ->]. clear - E S Dj. induction seen as [|w seen IH]; [discriminate|].
    cbn [mem_b] in E. apply orb_true_iff in E. destruct E as [E|E].
    - destruct (S w (or_introl eq_refl)) as [z' ->]. cbn [val_eqb] in E. apply Z.eqb_eq in E. subst.
      apply (Dj (VInt z')); simpl; auto.
    - apply IH; auto; [intros; apply S; simpl; auto|intros; eapply Dj; simpl; eauto]. }
  rewrite M. f_equal. apply IH; auto.
  - intros; apply I; simpl; auto.
  - intros w [<-|Hw]; [apply I; simpl; auto|auto].
  - intros w [<-|Hw] X; auto. apply (Dj w Hw). simpl; auto.
Qed.

Lemma init_ok ls : ls_init m a = Ok ls -> ls_check m a = true /\ ls_m ls = m /\ ls_a ls = a /\
  (rows_of m <> [] -> ls_uniq ls <> []) /\
  (forall g, In g (ls_uniq ls) -> exists r, In r (rows_of m) /\ g = map VInt (ids_of a r)) /\
  NoDup (ls_negs ls) /\
  (forall v, In v (ls_negs ls) <-> exists r, In r (rows_of m) /\ cell r (l_negcol a) = Some v) /\
  (forall v, In v (ls_negs ls) -> exists z, v = VInt z).
Proof.
  unfold ls_init. destruct (ls_check m a); [|discriminate]. cbn [negb].
  destruct unique_groups_ok as [gs [E [Gn G]]]. destruct (unique m (Some (l_groups a))) as [ug|]; cbn [bind] in *; [|discriminate].
  rewrite E. cbn [bind]. destruct distinct_negs as [ns [-> [D [X Y]]]]. cbn [bind].
  intros H. injection H as <-. cbn [ls_m ls_a ls_uniq ls_negs]. rewrite dedup_ints; auto 9.
Qed.

(** the eligible ids *)
Lemma eligible_ok ls all rs : ls_a ls = a -> Forall2 (shows m) rs all -> (forall r, In r rs -> In r (rows_of m)) ->
  (forall v, In v (ls_negs ls) -> exists z, v = VInt z) ->
  exists el, eligible ls all = Ok el /\ (NoDup (ls_negs ls) -> NoDup el) /\ forall v, In v el <-> In v (ls_negs ls) /\ ~ In v (column (l_negcol a) rs).
Proof.
  intros Ea F Hin Y. unfold eligible. rewrite Ea. destruct (co_negcol _ _ _ K) as [N [I T]].
  assert (X : exists ids, mapM (fun r => field r (l_negcol a)) all = Ok ids /\
    Forall2 (fun r x => exists z, cell r (l_negcol a) = Some (VInt z) /\ same_value x (VInt z)) rs ids).
  { clear Y. revert Hin. induction F as [|r rec rs all S F IH]; intros Hin; [exists []; split; [reflexivity|constructor]|].
    destruct IH as [ids [E G]]; [intros; apply Hin; simpl; auto|].
    destruct (shows_field m r rec (l_negcol a) S I) as [x [y [E1 [E2 E3]]]].
    rewrite row_val_other in E2 by auto.
    destruct (int_cell m C (l_negcol a) r N T (Hin r (or_introl eq_refl))) as [z [E4 _]].
    assert (y = VInt z) by congruence. subst y.
    exists (x :: ids). cbn [mapM]. unfold field at 1. rewrite E1. cbn [bind]. rewrite E. cbn [bind]. split; auto.
    constructor; eauto. }
  destruct X as [ids [E G]]. rewrite E. cbn [bind]. eexists. split; [reflexivity|]. split; [apply NoDup_filter|]. intros v. rewrite filter_In.
  split; intros [H1 H2]; split; auto.
  - intros Hc. apply negb_true_iff in H2. destruct (Y v H1) as [z ->]. clear - G H2 Hc.
    unfold column in Hc. induction G as [|r x rs ids [z' [E1 E2]] G IH]; [contradiction|].
    cbn [flat_map] in Hc. rewrite E1 in Hc. cbn [mem_b] in H2. apply orb_false_iff in H2. destruct H2 as [H2 H3].
    destruct Hc as [Hc|Hc]; auto. injection Hc as ->. clear - E2 H2. destruct x; simpl in *; try contradiction.
    + apply some_num in E2. subst. rewrite Z.eqb_refl in H2. discriminate.
    + assert (q = Qc_of_Z z) by congruence. subst.
      assert (X : Qc_eq_bool (Qc_of_Z z) (Qc_of_Z z) = true) by (apply Qc_eq_bool_iff; reflexivity). congruence.
  - apply negb_true_iff. destruct (mem_b val_eqb v ids) eqn:M; auto. exfalso. apply H2. clear H2.
    destruct (Y v H1) as [z ->]. clear - G M. unfold column.
    induction G as [|r x rs ids [z' [E1 E2]] G IH]; [discriminate|]. cbn [flat_map]. rewrite E1. cbn [mem_b] in M.
    apply orb_true_iff in M. destruct M as [M|M]; [|right; auto]. left. f_equal.
    destruct x; simpl in *; try contradiction.
    + apply some_num in E2. apply Z.eqb_eq in M. congruence.
    + assert (Eq : q = Qc_of_Z z') by congruence. rewrite Eq in M. apply Qc_eq_bool_iff in M.
      apply some_num. cbn [num_of]. congruence.
Qed.

Lemma skipn_skip {A} i j (l : list A) : skipn i (skipn j l) = skipn (i + j) l.
Proof.
  revert l. induction j as [|j IH]; intros l; [rewrite Nat.add_0_r; reflexivity|]. rewrite Nat.add_succ_r.
  destruct l as [|x l]; [rewrite !skipn_nil; reflexivity|]. cbn [skipn]. apply IH.
Qed.

Lemma slice_split {A} i n (l : list A) : 0 <= i -> 0 <= n -> i + n <= Z.of_nat (length l) ->
  l = (firstn (Z.to_nat i) l ++ slice i (i + n) l ++ skipn (Z.to_nat (i + n)) l)%list /\
  Z.of_nat (length (slice i (i + n) l)) = n.
Proof.
  intros H1 H2 H3. unfold slice. replace (i + n - i) with n by lia. split.
  - rewrite <- (firstn_skipn (Z.to_nat i) l) at 1. f_equal.
    rewrite <- (firstn_skipn (Z.to_nat n) (skipn (Z.to_nat i) l)) at 1. f_equal.
    rewrite skipn_skip. f_equal. lia.
  - rewrite firstn_length, skipn_length. lia.
Qed.

Lemma check_inv : ls_check m a = true ->
  (match l_targets a with Some n => 0 < n | None => True end) /\
  (match l_sort a with Some c => In c (m_columns m) | None => True end) /\
  (match l_max a with Some x => l_min a <= x | None => True end).
Proof.
  unfold ls_check. rewrite !andb_true_iff. intros [[[_ A] B] D]. split; [|split].
  - destruct (l_targets a); auto. apply andb_true_iff in A. destruct A as [A _]. apply Z.ltb_lt. auto.
  - destruct (l_sort a); auto. apply col_in_iff. auto.
  - destruct (l_max a); auto. apply Z.leb_le. auto.
Qed.

Lemma F2_slice {A B} (R : A -> B -> Prop) i j l l' : Forall2 R l l' -> Forall2 R (slice i j l) (slice i j l').
Proof. intros F. unfold slice. apply F2_firstn, F2_skipn, F. Qed.

Lemma attempt_ok ls k g : 0 <= l_min a -> ls_init m a = Ok ls -> attempt pick s ls k = Ok (Some g) -> sample_ok m a t g.
Proof.
  intros M0 I. destruct (init_ok ls I) as [Ck [Em [Ea [_ [G [Nn [Nv Ni]]]]]]]. destruct (check_inv Ck) as [Ct [Cs Cx]].
  unfold attempt. rewrite Ea. destruct (choice s k (ls_uniq ls)) as [g0|] eqn:Ch; cbn [bind]; [|discriminate].
  assert (Hg : In g0 (ls_uniq ls)).
  { unfold choice in Ch. destruct (nth_error (ls_uniq ls) _) eqn:E; [|discriminate]. injection Ch as <-. eapply nth_error_In; eauto. }
  destruct (G g0 Hg) as [r [Hr ->]].
  destruct (group_rows_ok m a t C K ls r Em Ea Hr) as [mp [-> [W [Cl [R S]]]]]. cbn [bind].
  destruct (records_ok m mp W S Cl) as [recs [V F]].
  assert (L : mem_len mp = length (rows_of mp)) by reflexivity.
  destruct ((Z.of_nat (mem_len mp) <? l_min a) || _) eqn:B; [discriminate|]. apply orb_false_iff in B. destruct B as [B1 B2].
  apply Z.ltb_ge in B1. rewrite V. cbn [bind].
  assert (F' := sorted_records m a mp recs F Cs).
  set (rs := match l_sort a with None => rows_of mp | Some c => sort_by (row_leb c) (rows_of mp) end) in *.
  set (all := sort_records a recs) in *.
  assert (Hm : forall x, In x (rows_of mp) -> In x (rows_of m)).
  { intros x Hx. rewrite R in Hx. apply filter_In in Hx. tauto. }
  assert (O : in_order (l_sort a) (rows_of mp) rs) by (apply (sort_rows_order m a C); auto).
  assert (Len : length rs = length (rows_of mp)).
  { unfold rs. destruct (l_sort a); auto. symmetry. apply Permutation_length, sort_by_perm. }
  assert (Hrs : forall x, In x rs -> In x (rows_of m)).
  { intros x Hx. apply Hm. unfold rs in Hx. destruct (l_sort a); auto.
    eapply Permutation_in; [apply Permutation_sym, sort_by_perm|exact Hx]. }
  assert (Len' : length all = length rs) by (symmetry; eapply Forall2_len; eauto).
  assert (Sq : sequence m a t rs).
  { exists (map VInt (ids_of a r)), r. split; auto. split; [apply (ids_row m a t C K); auto|]. rewrite R in O. exact O. }
  destruct (padding s a (Z.of_nat (mem_len mp)) (k + 1)) as [p|] eqn:Pd; cbn [bind]; [|discriminate].
  assert (Pad : match p with
    | None => match l_max a with Some mx => Z.of_nat (length rs) <= mx | None => True end
    | Some p => exists mx, l_max a = Some mx /\ mx < Z.of_nat (length rs) /\
                0 <= p <= match l_targets a with None => Z.of_nat (length rs) - mx | Some t => Z.of_nat (length rs) - mx - t end
    end).
  { rewrite Len, <- L. unfold padding in Pd. destruct (l_max a) as [mx|]; [|injection Pd as <-; auto].
    destruct (mx <? Z.of_nat (mem_len mp)) eqn:Q; [|injection Pd as <-; apply Z.ltb_ge in Q; auto]. apply Z.ltb_lt in Q.
    destruct (randint s (k + 1) 0 _) as [p'|] eqn:Rd; cbn [bind] in Pd; [|discriminate]. injection Pd as <-.
    exists mx. split; auto. split; auto. unfold randint in Rd.
    match type of Rd with (if ?b <? 0 then _ else _) = _ => destruct (b <? 0) eqn:Z0; [discriminate|]; apply Z.ltb_ge in Z0;
      destruct (randint_ok s (k + 1) 0 b Z0) as [p2 [E2 B3]]; unfold randint in E2 end.
    rewrite (proj2 (Z.ltb_ge _ _) Z0) in E2. rewrite Rd in E2. injection E2 as ->. exact B3. }
  clear Pd. unfold sample_ok. destruct (l_targets a) as [n|] eqn:Tg.
  - apply Z.ltb_ge in B2.
    destruct (eligible_ok ls all rs Ea F' Hrs Ni) as [el [-> [NE El]]]. cbn [bind].
    match goal with |- (let '(tg, pos') := ?e in _) = _ -> _ => destruct e as [tg pos'] eqn:Etp end.
    destruct (Z.of_nat (length el) <? _) eqn:B4; [discriminate|]. apply Z.ltb_ge in B4.
    destruct (l_neg a * Z.of_nat (length tg) <? 0) eqn:B5; [discriminate|]. apply Z.ltb_ge in B5.
    intros H. injection H as <-. exists rs. split; auto.
    assert (Dn : unobserved_ids m (l_negcol a) rs (l_neg a * Z.of_nat (length tg)) (pick (k + 2) el (Z.to_nat (l_neg a * Z.of_nat (length tg))))).
    { destruct (Pk (k + 2)%nat el (Z.to_nat (l_neg a * Z.of_nat (length tg))) (NE Nn) ltac:(lia)) as [P1 [P2 P3]].
      split; [lia|]. split; auto. intros v Hv. apply P3 in Hv. apply El in Hv. destruct Hv as [Hv1 Hv2]. split; auto.
      apply Nv in Hv1. destruct Hv1 as [r' [Hr' Er']]. unfold column. apply in_flat_map. exists r'. rewrite Er'. simpl. auto. }
    split; auto. split; [lia|].
    destruct p as [p|].
    + destruct Pad as [mx [Emx [Lt Pb]]]. rewrite Emx in *. injection Etp as <- <-.
      destruct (slice_split p mx rs ltac:(lia) ltac:(lia) ltac:(lia)) as [Sp1 Sl1].
      destruct (slice_split (p + mx) n rs ltac:(lia) ltac:(lia) ltac:(lia)) as [Sp2 Sl2].
      assert (J : rs = (firstn (Z.to_nat p) rs ++ slice p (p + mx) rs ++ slice (p + mx) (p + mx + n) rs ++ skipn (Z.to_nat (p + mx + n)) rs)%list).
      { rewrite Sp1 at 1. do 2 f_equal. unfold slice. replace (p + mx + n - (p + mx)) with n by lia.
        rewrite <- (firstn_skipn (Z.to_nat n) (skipn (Z.to_nat (p + mx)) rs)) at 1. f_equal.
        rewrite skipn_skip. f_equal. lia. }
      exists (firstn (Z.to_nat p) rs), (slice p (p + mx) rs), (slice (p + mx) (p + mx + n) rs), (skipn (Z.to_nat (p + mx + n)) rs).
      assert (X1 := F2_slice (shows m) p (p + mx) _ _ F'). assert (X2 := F2_slice (shows m) (p + mx) (p + mx + n) _ _ F').
      split; [exact J|]. split; [exact X1|]. split; [exact X2|].
      unfold full. rewrite Emx. apply Z.ltb_lt in Lt. rewrite Lt.
      apply Forall2_len in X1. apply Forall2_len in X2. split; [f_equal; lia|lia].
    + assert (Etp' : (skipn (Z.to_nat n) all, firstn (Z.to_nat n) all) = (tg, pos')) by (destruct (l_max a); exact Etp).
      injection Etp' as <- <-.
      exists [], (firstn (Z.to_nat n) rs), (skipn (Z.to_nat n) rs), [].
      split; [cbn [app]; rewrite app_nil_r, firstn_skipn; reflexivity|].
      split; [apply F2_firstn; auto|]. split; [apply F2_skipn; auto|].
      assert (Fl : full a rs = false).
      { unfold full. destruct (l_max a); auto. apply Z.ltb_ge. auto. }
      rewrite Fl. rewrite firstn_length, skipn_length. lia.
  - intros H. injection H as <-. exists rs. split; auto. destruct p as [p|].
    + destruct Pad as [mx [Emx [Lt Pb]]]. rewrite Emx in *.
      destruct (slice_split p mx rs ltac:(lia) ltac:(lia) ltac:(lia)) as [Sp1 Sl1].
      exists (firstn (Z.to_nat p) rs), (slice p (p + mx) rs), (skipn (Z.to_nat (p + mx)) rs).
      assert (X1 := F2_slice (shows m) p (p + mx) _ _ F').
      split; [exact Sp1|]. split; [exact X1|]. apply Forall2_len in X1. lia.
    + exists [], rs, []. rewrite app_nil_r. split; auto.
      destruct (l_max a); (split; [exact F'|lia]).
Qed.

Lemma sample_groups_ok ls : 0 <= l_min a -> ls_init m a = Ok ls -> forall n k l, sample_groups pick s n ls k = Ok l ->
  length l = n /\ Forall (sample_ok m a t) l.
Proof.
  intros M I n. induction n as [|n IH]; intros k l; cbn [sample_groups].
  - intros H. injection H as <-. auto.
  - destruct (tries pick s 20 ls k) as [[g k']|] eqn:E; cbn [bind]; [|discriminate].
    destruct (sample_groups pick s n ls k') as [l'|] eqn:E'; cbn [bind]; [|discriminate]. intros H. injection H as <-.
    destruct (IH _ _ E') as [L F]. split; [simpl; congruence|]. constructor; auto. clear - M I E C K Pk.
    revert k k' E. generalize 20%nat. induction n as [|n IH]; intros k k'; cbn [tries];
    destruct (attempt pick s ls k) as [[g'|]|] eqn:A; cbn [bind]; try discriminate;
    try (intros H; injection H as <- <-; eapply attempt_ok; eauto; fail). apply IH.
Qed.

(** Only running out of tries can fail, for sizes that leave room for the targets. *)
Definition room : Prop := match l_max a, l_targets a with Some mx, Some _ => mx <= l_min a | _, _ => True end.

Lemma attempt_total ls k : 0 <= l_min a -> 0 <= l_neg a -> room -> rows_of m <> [] -> ls_init m a = Ok ls ->
  exists x, attempt pick s ls k = Ok x.
Proof.
  intros M0 Ng Rm Nr I. destruct (init_ok ls I) as [Ck [Em [Ea [Gn [G [Nn [Nv Ni]]]]]]]. destruct (check_inv Ck) as [Ct [Cs Cx]].
  unfold attempt. rewrite Ea.
  assert (Ch : exists g0, choice s k (ls_uniq ls) = Ok g0 /\ In g0 (ls_uniq ls)).
  { unfold choice. destruct (nth_error (ls_uniq ls) (s k mod length (ls_uniq ls))) as [g0|] eqn:E.
    - exists g0. split; auto. eapply nth_error_In; eauto.
    - apply nth_error_None in E. specialize (Gn Nr). destruct (ls_uniq ls) as [|g1 gs]; [contradiction|].
      assert (B := Nat.mod_upper_bound (s k) (length (g1 :: gs)) ltac:(discriminate)). lia. }
  destruct Ch as [g0 [-> Hg]]. cbn [bind]. destruct (G g0 Hg) as [r [Hr ->]].
  destruct (group_rows_ok m a t C K ls r Em Ea Hr) as [mp [-> [W [Cl [R S]]]]]. cbn [bind].
  destruct (records_ok m mp W S Cl) as [recs [V F]].
  destruct ((Z.of_nat (mem_len mp) <? l_min a) || _) eqn:B; [eauto|]. apply orb_false_iff in B. destruct B as [B1 B2].
  apply Z.ltb_ge in B1. rewrite V. cbn [bind].
  assert (F' := sorted_records m a mp recs F Cs).
  set (rs := match l_sort a with None => rows_of mp | Some c => sort_by (row_leb c) (rows_of mp) end) in *.
  set (all := sort_records a recs) in *.
  assert (Hrs : forall x, In x rs -> In x (rows_of m)).
  { intros x Hx. assert (Hx' : In x (rows_of mp)).
    { unfold rs in Hx. destruct (l_sort a); auto. eapply Permutation_in; [apply Permutation_sym, sort_by_perm|exact Hx]. }
    rewrite R in Hx'. apply filter_In in Hx'. tauto. }
  assert (Pd : exists p, padding s a (Z.of_nat (mem_len mp)) (k + 1) = Ok p).
  { unfold padding, room in *. destruct (l_max a) as [mx|]; [|eauto].
    destruct (mx <? Z.of_nat (mem_len mp)) eqn:Q; [|eauto]. apply Z.ltb_lt in Q.
    match goal with |- context [randint s (k + 1) 0 ?b] => destruct (randint_ok s (k + 1) 0 b) as [p [-> _]] end.
    - destruct (l_targets a) as [n|]; [|lia]. apply Z.ltb_ge in B2. lia.
    - cbn [bind]. eauto. }
  destruct Pd as [p ->]. cbn [bind]. destruct (l_targets a) as [n|]; [|eauto].
  destruct (eligible_ok ls all rs Ea F' Hrs Ni) as [el [-> _]]. cbn [bind].
  match goal with |- context [let '(tg, pos') := ?e in _] => destruct e as [tg pos'] end.
  destruct (Z.of_nat (length el) <? _); [eauto|].
  destruct (l_neg a * Z.of_nat (length tg) <? 0) eqn:B5; [apply Z.ltb_lt in B5; nia|]. eauto.
Qed.

Lemma sample_groups_only ls : 0 <= l_min a -> 0 <= l_neg a -> room -> rows_of m <> [] -> ls_init m a = Ok ls ->
  forall n k, (exists l, sample_groups pick s n ls k = Ok l) \/ sample_groups pick s n ls k = Err GenericException.
Proof.
  intros M0 Ng Rm Nr I n. induction n as [|n IH]; intros k; cbn [sample_groups]; [eauto|].
  assert (T : (exists x, tries pick s 20 ls k = Ok x) \/ tries pick s 20 ls k = Err GenericException).
  { clear IH. revert k. generalize 20%nat. intros l. induction l as [|l IH]; intros k; cbn [tries];
    destruct (attempt_total ls k M0 Ng Rm Nr I) as [[g|] ->]; cbn [bind]; eauto. }
  destruct T as [[[g k'] ->]| ->]; cbn [bind]; auto.
  destruct (IH k') as [[l ->]| ->]; cbn [bind]; eauto.
Qed.
End Sample.
