(** Proofs about the pair generators and the point sampler. *)
From Coq Require Import String Ascii.
From Coq Require Import List ZArith QArith Qcanon Qround Bool Lia Lqa Permutation Sorted.
From Verif Require Import Py PyFacts MemModel MemSpec MemFacts MemFacts2 MemFacts3 MemFacts4 MemFacts5 MemFacts6 MemFacts7.
From Verif Require Import RankModel RankSpec RankFacts RankFacts2 KnnModel KnnSpec KnnFacts KnnFacts2 SplitModel SampModel SampSpec.
Import ListNotations.
Open Scope string_scope.
Open Scope Z_scope.

Lemma randint_ok s k a b : a <= b -> exists z, randint s k a b = Ok z /\ a <= z <= b.
Proof.
  intros H. unfold randint. destruct (b <? a) eqn:E; [apply Z.ltb_lt in E; lia|].
  eexists. split; [reflexivity|]. assert (B := Z.mod_pos_bound (Z.of_nat (s k)) (b - a + 1) ltac:(lia)). lia.
Qed.
Lemma randint_hit s k b z : 0 <= z <= b -> s k = Z.to_nat z -> randint s k 0 b = Ok z.
Proof.
  intros H E. unfold randint. destruct (b <? 0) eqn:L; [apply Z.ltb_lt in L; lia|]. rewrite E.
  rewrite Z2Nat.id by lia. rewrite Z.mod_small by lia. reflexivity.
Qed.

Lemma id_is_iff c z r : (exists x, cell r c = Some (VInt x)) -> (id_is c z r = true <-> cell r c = Some (VInt z)).
Proof.
  intros [x E]. unfold id_is. rewrite E. cbn [val_eqb]. rewrite Z.eqb_eq. split; congruence.
Qed.

Lemma filter_every {A} (f : A -> bool) l : (forall x, f x = true) -> filter f l = l.
Proof. intros H. induction l as [|x l IH]; cbn [filter]; [reflexivity|]. rewrite H, IH. reflexivity. Qed.

Section Coded.
Variable m : mem.
Hypothesis C : coded m.

Lemma coded_ids r : In r (rows_of m) -> exists u i, cell r "uid" = Some (VInt u) /\ cell r "iid" = Some (VInt i) /\
  0 <= u <= 2 ^ 53 /\ 0 <= i <= 2 ^ 53.
Proof. apply (cd_rows m C). Qed.

Lemma id_type c : c = "uid" \/ c = "iid" -> col_type m c = Ok DInt /\ In c (m_columns m).
Proof.
  intros H. assert (I : In c (m_columns m)) by (destruct H as [-> | ->]; [apply (cd_uid m C)|apply (cd_iid m C)]).
  split; auto. destruct (col_type_ok m c (cd_wf m C) I) as [t T]. rewrite T. f_equal.
  apply (cd_types m C c); [destruct H as [-> | ->]; simpl; auto|].
  apply col_type_assoc; auto. destruct H as [-> | ->]; discriminate.
Qed.

Lemma max_id_ok c : c = "uid" \/ c = "iid" -> rows_of m <> [] ->
  exists z, max_id m c = Ok z /\ 0 <= z /\ (exists r, In r (rows_of m) /\ cell r c = Some (VInt z)) /\
    forall r x, In r (rows_of m) -> cell r c = Some (VInt x) -> x <= z.
Proof.
  intros Hc N. destruct (id_type c Hc) as [T I].
  destruct (max_spec m c DInt (cd_wf m C) I T ltac:(discriminate) N) as [v [r [E [Hr [V B]]]]].
  assert (Hn : c <> "rid") by (destruct Hc as [-> | ->]; discriminate).
  rewrite row_val_other in V by auto.
  destruct (coded_ids r Hr) as [u [i [E1 [E2 [B1 B2]]]]].
  assert (X : exists z, v = VInt z /\ 0 <= z).
  { destruct Hc as [-> | ->]; [exists u|exists i]; split; try lia; congruence. }
  destruct X as [z [-> Z0]]. exists z. unfold max_id. rewrite E. cbn [bind]. split; auto. split; auto.
  split; [eauto|]. intros r' x Hr' Ex. specialize (B r' (VInt x) Hr'). rewrite row_val_other in B by auto.
  specialize (B Ex). unfold num in B. cbn [num_of] in B. unfold Qcle in B.
  rewrite !this_of_Z in B. rewrite <- Zle_Qle in B. exact B.
Qed.

Lemma has_pair_ids u i r : In r (rows_of m) -> (id_is "uid" u r && id_is "iid" i r = true <-> has_pair u i r = true).
Proof.
  intros Hr. destruct (coded_ids r Hr) as [a [b [E1 [E2 _]]]]. unfold id_is, has_pair. rewrite E1, E2.
  cbn [val_eqb]. tauto.
Qed.

Lemma observed_pair_iff u i : observed_pair m u i = true <-> observed m u i.
Proof.
  unfold observed_pair, observed. rewrite existsb_exists. split; intros [r [H E]]; exists r; split; auto; apply has_pair_ids; auto.
Qed.

Lemma ranges mu mi : max_id m "uid" = Ok mu -> max_id m "iid" = Ok mi -> rows_of m <> [] ->
  forall u i, 0 <= u <= mu /\ 0 <= i <= mi <-> in_range m u i.
Proof.
  intros U I N u i.
  destruct (max_id_ok "uid" (or_introl eq_refl) N) as [z [E [Z0 [[r [Hr Er]] B]]]]. rewrite E in U. injection U as ->.
  destruct (max_id_ok "iid" (or_intror eq_refl) N) as [z' [E' [Z0' [[r' [Hr' Er']] B']]]]. rewrite E' in I. injection I as ->.
  unfold in_range. split.
  - intros [H1 H2]. split; [lia|]. split; [lia|]. split; [exists r, mu|exists r', mi]; intuition lia.
  - intros [H1 [H2 [[r1 [z1 [I1 [C1 L1]]]] [r2 [z2 [I2 [C2 L2]]]]]]].
    specialize (B r1 z1 I1 C1). specialize (B' r2 z2 I2 C2). lia.
Qed.

(** *** The null pair generator *)
Lemma null_loop_sound fuel mu mi s k x k' : 0 <= mu -> 0 <= mi ->
  null_loop fuel m mu mi s k = Some (x, k') ->
  exists u i, x = Ok (u, i) /\ 0 <= u <= mu /\ 0 <= i <= mi /\ observed_pair m u i = false.
Proof.
  intros Hu Hi. revert k. induction fuel as [|fuel IH]; intros k; cbn [null_loop]; [discriminate|].
  destruct (randint_ok s k 0 mu Hu) as [u [-> Bu]]. cbn [bind].
  destruct (randint_ok s (S k) 0 mi Hi) as [i [-> Bi]]. cbn [bind].
  destruct (observed_pair m u i) eqn:O; [apply IH|]. intros H. injection H as <- <-. exists u, i. auto.
Qed.

Lemma existing_none t : existing_pairs m t = None.
Proof.
  unfold existing_pairs, select_by_frame. destruct t as [t|]; auto.
  destruct (apply_query m ("interaction < " ++ t)); reflexivity.
Qed.

Lemma rows_nonempty : Nat.eqb (mem_len m) 0 = false <-> rows_of m <> [].
Proof.
  unfold mem_len. destruct (rows_of m); simpl; split; congruence.
Qed.

Lemma null_next_eq fuel t s g : rows_of m <> [] -> g <> Dead ->
  exists mu mi, max_id m "uid" = Ok mu /\ max_id m "iid" = Ok mi /\ 0 <= mu /\ 0 <= mi /\
  null_next fuel m t s g =
    match null_loop fuel m mu mi s (match g with At k => k | _ => O end) with
    | None => None
    | Some (Err e, _) => Some (Err e, Dead)
    | Some (Ok p, k) => Some (Ok (Some p), At k)
    end.
Proof.
  intros N G. destruct (max_id_ok "uid" (or_introl eq_refl) N) as [mu [E [Z0 _]]].
  destruct (max_id_ok "iid" (or_intror eq_refl) N) as [mi [E' [Z0' _]]]. exists mu, mi.
  split; auto. split; auto. split; auto. split; auto.
  unfold null_next. rewrite (cd_on m C), (proj2 rows_nonempty N), existing_none, E, E'. cbn [negb orb].
  destruct g; auto. contradiction.
Qed.

Lemma null_next_sound fuel t s g x g' : rows_of m <> [] -> g <> Dead -> null_next fuel m t s g = Some (x, g') ->
  g' <> Dead /\ exists u i, x = Ok (Some (u, i)) /\ in_range m u i /\ ~ observed m u i.
Proof.
  intros N G. destruct (null_next_eq fuel t s g N G) as [mu [mi [E [E' [U [I ->]]]]]].
  destruct (null_loop fuel m mu mi s _) as [[y k]|] eqn:L; [|discriminate].
  destruct (null_loop_sound _ _ _ _ _ _ _ U I L) as [u [i [-> [Bu [Bi O]]]]].
  intros H. injection H as <- <-. split; [discriminate|]. exists u, i. split; auto. split.
  - apply (ranges mu mi E E' N). auto.
  - intros X. apply observed_pair_iff in X. congruence.
Qed.

Lemma null_take_sound n fuel t s g x : rows_of m <> [] -> g <> Dead -> null_take n fuel m t s g = Some x ->
  exists l, x = Ok l /\ length l = n /\ Forall (fun p => in_range m (fst p) (snd p) /\ ~ observed m (fst p) (snd p)) l.
Proof.
  intros N. revert g x. induction n as [|n IH]; intros g x G; cbn [null_take].
  - intros H. injection H as <-. exists []. auto.
  - destruct (null_next fuel m t s g) as [[y g']|] eqn:E; [|discriminate].
    destruct (null_next_sound _ _ _ _ _ _ N G E) as [G' [u [i [-> [R O]]]]].
    destruct (null_take n fuel m t s g') as [z|] eqn:T; [|discriminate].
    destruct (IH g' z G' T) as [l [-> [L F]]]. intros H. injection H as <-.
    exists ((u, i) :: l). split; auto. split; [simpl; congruence|]. constructor; auto.
Qed.

Lemma null_loop_more fuel mu mi s k x : null_loop fuel m mu mi s k = Some x -> null_loop (S fuel) m mu mi s k = Some x.
Proof.
  revert k. induction fuel as [|fuel IH]; intros k; [discriminate|]. intros H.
  assert (E : null_loop (S fuel) m mu mi s k = Some x) by exact H.
  cbn [null_loop] in E |- *. destruct (bind (randint s k 0 mu) _) as [[u i]|]; auto.
  destruct (observed_pair m u i); auto. apply IH in E. cbn [null_loop] in E. exact E.
Qed.

(** it returns when an unobserved pair is drawn *)
Lemma null_loop_hit mu mi s u i j : forall k, 0 <= u <= mu -> 0 <= i <= mi -> observed_pair m u i = false ->
  s (k + 2 * j)%nat = Z.to_nat u -> s (S (k + 2 * j)) = Z.to_nat i -> null_loop (S j) m mu mi s k <> None.
Proof.
  induction j as [|j IH]; intros k Bu Bi O Eu Ei.
  - rewrite Nat.add_0_r in Eu, Ei. cbn [null_loop]. rewrite (randint_hit s k mu u Bu Eu). cbn [bind].
    rewrite (randint_hit s (S k) mi i Bi Ei). cbn [bind]. rewrite O. discriminate.
  - assert (H : null_loop (S j) m mu mi s (S (S k)) <> None).
    { apply IH; auto; [rewrite <- Eu|rewrite <- Ei]; f_equal; lia. }
    remember (S j) as f. cbn [null_loop]. destruct (bind (randint s k 0 mu) _) as [[u' i']|]; [|discriminate].
    destruct (observed_pair m u' i'); [exact H|discriminate].
Qed.

Lemma null_next_hit t s g u i j k : rows_of m <> [] -> g <> Dead -> k = (match g with At k => k | _ => O end) ->
  in_range m u i -> ~ observed m u i -> s (k + 2 * j)%nat = Z.to_nat u -> s (S (k + 2 * j)) = Z.to_nat i ->
  null_next (S j) m t s g <> None.
Proof.
  intros N G -> R O Eu Ei. destruct (null_next_eq (S j) t s g N G) as [mu [mi [E [E' [U [I ->]]]]]].
  apply (ranges mu mi E E' N) in R. destruct R as [R1 R2].
  assert (H : observed_pair m u i = false).
  { destruct (observed_pair m u i) eqn:X; auto. apply observed_pair_iff in X. contradiction. }
  pose proof (null_loop_hit mu mi s u i j _ R1 R2 H Eu Ei) as L.
  destruct (null_loop (S j) m mu mi s _) as [[[p|e] k']|]; congruence.
Qed.

(** it never returns when every pair has a row *)
Lemma null_next_full fuel t s g : rows_of m <> [] -> g <> Dead -> (forall u i, in_range m u i -> observed m u i) ->
  null_next fuel m t s g = None.
Proof.
  intros N G F. destruct (null_next fuel m t s g) as [[x g']|] eqn:E; auto.
  destruct (null_next_sound _ _ _ _ _ _ N G E) as [_ [u [i [_ [R O]]]]]. contradiction (O (F u i R)).
Qed.

(** *** The generator of positive rows *)
Lemma pos_loop_sound fuel mu rows s k x k' : 0 <= mu -> pos_loop fuel mu rows s k = Some (x, k') ->
  exists r, x = Ok r /\ In r rows.
Proof.
  intros Hu. revert k. induction fuel as [|fuel IH]; intros k; cbn [pos_loop]; [discriminate|].
  destruct (randint_ok s k 0 mu Hu) as [u [-> Bu]].
  destruct (filter (id_is "uid" u) rows) as [|r0 rs] eqn:F; [apply IH|].
  assert (L : 0 <= Z.of_nat (length (r0 :: rs)) - 1) by (cbn [length]; lia).
  destruct (randint_ok s (S k) 0 _ L) as [j [-> Bj]]. cbn [bind]. intros H. injection H as <- <-.
  destruct (nth_error (r0 :: rs) (Z.to_nat j)) as [r|] eqn:E.
  - exists r. split; auto. apply nth_error_In in E. rewrite <- F in E. apply filter_In in E. tauto.
  - apply nth_error_None in E. lia.
Qed.

Lemma pos_next_sound fuel f s g x g' : rows_of m <> [] -> f_rows f <> [] -> g <> Dead ->
  pos_next fuel m f s g = Some (x, g') -> g' <> Dead /\ exists r, x = Ok (Some r) /\ In r (f_rows f).
Proof.
  intros N N' G. destruct (max_id_ok "uid" (or_introl eq_refl) N) as [mu [E [Z0 _]]].
  unfold pos_next. rewrite E. destruct (f_rows f) as [|r0 rs] eqn:F; [contradiction|].
  destruct g as [|k|]; [| |contradiction];
  (destruct (pos_loop fuel mu (r0 :: rs) s _) as [[y k']|] eqn:L; [|discriminate];
   destruct (pos_loop_sound _ _ _ _ _ _ _ Z0 L) as [r [-> Hr]]; intros H; injection H as <- <-;
   split; [discriminate|]; exists r; auto).
Qed.

Lemma pos_loop_hit mu rows s r u j : forall k, 0 <= u <= mu -> In r rows -> cell r "uid" = Some (VInt u) ->
  s (k + j)%nat = Z.to_nat u -> (forall j', (j' < j)%nat -> exists u', randint s (k + j') 0 mu = Ok u' /\ filter (id_is "uid" u') rows = []) ->
  pos_loop (S j) mu rows s k <> None.
Proof.
  induction j as [|j IH]; intros k Bu Hr E Eu F.
  - rewrite Nat.add_0_r in Eu. cbn [pos_loop]. rewrite (randint_hit s k mu u Bu Eu).
    assert (I : In r (filter (id_is "uid" u) rows)).
    { apply filter_In. split; auto. apply id_is_iff; eauto. }
    destruct (filter (id_is "uid" u) rows); [contradiction|discriminate].
  - assert (H : pos_loop (S j) mu rows s (S k) <> None).
    { apply IH; auto; [rewrite <- Eu; f_equal; lia|]. intros j' Hj. destruct (F (S j') ltac:(lia)) as [u' X].
      exists u'. rewrite Nat.add_succ_l, <- Nat.add_succ_r. exact X. }
    remember (S j) as fl. cbn [pos_loop]. destruct (randint s k 0 mu); [|discriminate].
    destruct (filter (id_is "uid" a) rows); [exact H|discriminate].
Qed.

(** the record of a row *)
Lemma assoc_combine_map {A} (f : A -> value) (l : list (string * A)) c :
  assoc String.eqb c (combine (map fst l) (map (fun p => f (snd p)) l)) = option_map f (assoc String.eqb c l).
Proof.
  induction l as [|[k v] l IH]; auto. cbn [map combine fst snd assoc].
  destruct (String.eqb c k); auto.
Qed.

Lemma record_field r c v : In r (rows_of m) -> c <> "rid" -> cell r c = Some v -> small_col m c ->
  exists x, field (random_record m r) c = Ok x /\ same_value x v.
Proof.
  intros Hr Hn E S. unfold random_record, field, df_columns. rewrite (cd_order m C).
  rewrite <- (wf_keys _ (wf_df _ (cd_wf m C)) r Hr).
  rewrite (assoc_combine_map (upcast (common_type (map snd (f_types (m_df m)))))).
  assert (E' : assoc String.eqb c (r_cells r) = Some v) by exact E. rewrite E'. cbn [option_map].
  eexists. split; [reflexivity|]. apply same_upcast. intros z ->. apply (S r z Hr E).
Qed.

Lemma id_small c : c = "uid" \/ c = "iid" -> small_col m c.
Proof.
  intros H r z Hr E. destruct (coded_ids r Hr) as [u [i [E1 [E2 [B1 B2]]]]].
  destruct H as [-> | ->]; [assert (z = u) by congruence|assert (z = i) by congruence]; subst; lia.
Qed.

Lemma read_triple_ok r : In r (rows_of m) -> exists u i v y,
  read_triple (random_record m r) = Ok (u, i, v) /\ cell r "uid" = Some (VInt u) /\ cell r "iid" = Some (VInt i) /\
  cell r "interaction" = Some y /\ same_value v y.
Proof.
  intros Hr. destruct (coded_ids r Hr) as [u [i [E1 [E2 _]]]]. destruct (cd_num m C) as [_ [Nx S]].
  destruct (Nx r Hr) as [y [q [E3 _]]]. exists u, i.
  destruct (record_field r "uid" _ Hr ltac:(discriminate) E1 (id_small _ (or_introl eq_refl))) as [xu [Fu Su]].
  destruct (record_field r "iid" _ Hr ltac:(discriminate) E2 (id_small _ (or_intror eq_refl))) as [xi [Fi Si]].
  destruct (record_field r "interaction" _ Hr ltac:(discriminate) E3 S) as [v [Fv Sv]].
  exists v, y. unfold read_triple. rewrite Fu. cbn [bind]. rewrite (int_value_same _ _ Su). cbn [bind].
  rewrite Fi. cbn [bind]. rewrite (int_value_same _ _ Si). cbn [bind]. rewrite Fv. cbn [bind]. auto.
Qed.

(** *** The threshold query *)
Lemma interaction_type : rows_of m <> [] -> exists t, col_type m "interaction" = Ok t /\ t <> DObj.
Proof.
  intros N. destruct (cd_num m C) as [I [Nx S]].
  destruct (col_type_ok m "interaction" (cd_wf m C) I) as [t T]. exists t. split; auto.
  destruct (rows_of m) as [|r rs] eqn:R; [contradiction|].
  assert (Hr : In r (rows_of m)) by (rewrite R; simpl; auto).
  destruct (Nx r (or_introl eq_refl)) as [v [q [E Q]]].
  destruct (wf_cell m r "interaction" t (cd_wf m C) Hr (col_type_assoc m "interaction" t ltac:(discriminate) T)) as [v' [E' Ty]].
  assert (v' = v) by congruence. subst v'. intros X. rewrite X in Ty. destruct v; discriminate.
Qed.

Lemma thr_cond o l : rows_of m <> [] -> thr_ok (Some l) ->
  cond_ok m (mkCond "interaction" o l) /\ direct m (mkCond "interaction" o l).
Proof.
  intros N [ty [Ty L]]. destruct (cd_num m C) as [I [Nx S]]. destruct (interaction_type N) as [t [T Nt]]. split.
  - unfold cond_ok. cbn [sc_col sc_lit]. split; auto. split; [repeat split; discriminate|]. split; auto.
    exists t. split; auto.
    assert (Hin : ~ In "interaction" ["iid"; "uid"; "rid"]) by (simpl; intuition discriminate).
    inversion L; subst; try contradiction; first [apply lo_int; auto; fail | apply lo_dec; auto; fail].
  - intros _ H. simpl in H. intuition discriminate.
Qed.

Lemma above_filter t : rows_of m <> [] -> thr_ok t ->
  match thr_text t with
  | None => filter (above t) (rows_of m) = rows_of m
  | Some x => apply_query m ("interaction >= " ++ x) = Ok (mkFrame (f_types (m_df m)) (filter (above t) (rows_of m)))
  end.
Proof.
  intros N H. destruct t as [l|]; cbn [thr_text option_map above].
  - destruct (thr_cond Ge l N H) as [A B].
    assert (Q := apply_query_conds m [mkCond "interaction" Ge l] (cd_wf m C) (cd_types m C) ltac:(discriminate)
      ltac:(constructor; auto) ltac:(constructor; auto)).
    change (query_text [mkCond "interaction" Ge l]) with ("interaction >= " ++ lit_text l) in Q. rewrite Q. do 2 f_equal.
    apply filter_ext. intros r. unfold sat. cbn [forallb]. apply andb_true_r.
  - apply filter_every. reflexivity.
Qed.

Lemma point_init_ok neg t : rows_of m <> [] -> thr_ok t -> exists f, point_init m neg (thr_text t) = Ok (mkPoint m neg (thr_text t) f) /\
  f_rows f = filter (above t) (rows_of m).
Proof.
  intros N H. unfold point_init. rewrite (cd_on m C), (proj2 rows_nonempty N). cbn [negb].
  assert (A := above_filter t N H). destruct t as [l|]; cbn [thr_text option_map] in *.
  - rewrite A. cbn [bind]. eexists. split; reflexivity.
  - eexists. split; [reflexivity|]. symmetry. exact A.
Qed.

(** *** The sampler *)
Lemma is_null_iff p d k : is_null p d k = true <-> label_negative (pt_neg p) (dr_label d k).
Proof.
  unfold is_null, Qcgtb, label_negative. 
  assert (E : (0 + (pt_neg p + 1 - 0) * dr_label d k = (pt_neg p + 1) * dr_label d k)%Qc) by ring. rewrite E.
  split; [apply Qcltb_true|apply Qcltb_lt].
Qed.

Section Point.
Variables (neg : Qc) (t : option slit) (f : frame) (d : draws).
Hypothesis N : rows_of m <> [].
Hypothesis F : f_rows f = filter (above t) (rows_of m).
Hypothesis P : exists r, In r (rows_of m) /\ above t r = true.
Let p := mkPoint m neg (thr_text t) f.

Lemma f_some : f_rows f <> [].
Proof.
  destruct P as [r [Hr A]]. rewrite F. intros E. assert (I : In r (filter (above t) (rows_of m))) by (apply filter_In; auto).
  rewrite E in I. exact I.
Qed.

Definition live (st : pstate) : Prop := ps_null st <> Dead /\ ps_pos st <> Dead.

Lemma sample_one_ok fuel st x st' : live st ->
  (if is_null p d (ps_k st) then sample_negative fuel p d (mkPst (S (ps_k st)) (ps_null st) (ps_pos st))
   else sample_positive fuel p d (mkPst (S (ps_k st)) (ps_null st) (ps_pos st))) = Some (x, st') ->
  live st' /\ ps_k st' = S (ps_k st) /\ exists y, x = Ok y /\ labelled m neg t (dr_label d (ps_k st)) y.
Proof.
  intros [L1 L2]. assert (B := is_null_iff p d (ps_k st)). destruct (is_null p d (ps_k st)).
  - unfold sample_negative. cbn [ps_k ps_null ps_pos pt_m pt_thr].
    destruct (null_next fuel (pt_m p) (pt_thr p) (dr_null d) (ps_null st)) as [[y g]|] eqn:E; [|discriminate].
    destruct (null_next_sound _ _ _ _ _ _ N L1 E) as [G [u [i [-> [R O]]]]]. intros H. injection H as <- <-.
    split; [split; auto|]. split; auto. eexists. split; [reflexivity|]. split.
    + intros _. exists u, i. auto.
    + intros X. exfalso. apply X. apply B. reflexivity.
  - unfold sample_positive. cbn [ps_k ps_null ps_pos pt_m pt_pos].
    destruct (pos_next fuel (pt_m p) (pt_pos p) (dr_pos d) (ps_pos st)) as [[y g]|] eqn:E; [|discriminate].
    destruct (pos_next_sound _ _ _ _ _ _ N f_some L2 E) as [G [r [-> Hr]]]. intros H. injection H as <- <-.
    change (pt_pos p) with f in Hr. rewrite F in Hr. apply filter_In in Hr. destruct Hr as [Hr A].
    split; [split; auto|]. split; auto.
    destruct (read_triple_ok r Hr) as [u [i [v [y [-> [E1 [E2 [E3 S]]]]]]]]. cbn [bind].
    eexists. split; [reflexivity|]. split.
    + intros X. apply B in X. discriminate.
    + intros _. exists r, u, i, v, y. auto 8.
Qed.

Lemma sample_call n fuel : forall st x st', live st -> sample n fuel p d st = Some (x, st') ->
  live st' /\ ps_k st' = (ps_k st + n)%nat /\
  exists l, x = Ok l /\ Forall2 (labelled m neg t) (segment (dr_label d) (ps_k st) n) l.
Proof.
  induction n as [|n IH]; intros st x st' L; cbn [sample].
  - intros H. injection H as <- <-. split; auto. split; [lia|]. exists []. split; auto. constructor.
  - match goal with |- match ?e with _ => _ end = _ -> _ => destruct e as [[y st1]|] eqn:E end; [|discriminate].
    destruct (sample_one_ok _ _ _ _ L E) as [L1 [K [z [-> Z]]]].
    destruct (sample n fuel p d st1) as [[w st2]|] eqn:E2; [|discriminate].
    destruct (IH _ _ _ L1 E2) as [L2 [K2 [l [-> G]]]]. intros H. injection H as <- <-.
    split; auto. split; [lia|]. eexists. split; [reflexivity|]. unfold segment. cbn [seq map]. constructor; auto.
    rewrite K in G. exact G.
Qed.

Lemma samples_ok ns fuel : forall st outs, live st -> samples ns fuel p d st = Some outs ->
  calls_ok m neg t (dr_label d) (ps_k st) ns outs.
Proof.
  induction ns as [|n ns IH]; intros st outs L; cbn [samples].
  - intros H. injection H as <-. exact I.
  - destruct (sample n fuel p d st) as [[x st1]|] eqn:E; [|discriminate].
    destruct (sample_call _ _ _ _ _ L E) as [L1 [K [l [-> G]]]].
    destruct (samples ns fuel p d st1) as [o|] eqn:E2; [|discriminate]. intros H. injection H as <-.
    cbn [calls_ok]. split; [eauto|]. rewrite <- K. eapply IH; eauto.
Qed.
End Point.
End Coded.

Lemma point_sampler m neg t p ns fuel d outs : coded m -> thr_ok t -> point_init m neg (thr_text t) = Ok p ->
  (exists r, In r (rows_of m) /\ above t r = true) -> samples ns fuel p d pst0 = Some outs ->
  calls_ok m neg t (dr_label d) 0 ns outs.
Proof.
  intros C T E P S.
  assert (N : rows_of m <> []) by (destruct P as [r [Hr _]]; intros Z; rewrite Z in Hr; exact Hr).
  destruct (point_init_ok m C neg t N T) as [f [E' F]]. rewrite E in E'. injection E' as ->.
  apply (samples_ok m C neg t f d N F P ns fuel pst0 outs); [split; discriminate|exact S].
Qed.

Lemma no_negatives neg t m (x : Qc) y : (neg <= 0)%Qc -> (0 <= x)%Qc /\ (x < 1)%Qc -> labelled m neg t x y -> positive m t y.
Proof.
  intros H [X0 X1] [_ L]. apply L. unfold label_negative. intros G.
  assert (K : ((neg + 1) * x <= 1)%Qc); [|exact (Qclt_not_le _ _ G K)].
  unfold Qcle, Qclt in *. revert H X0 X1. clear. cbn [this].
  assert (E : Qeq (this ((neg + 1) * x)%Qc) ((this neg + 1) * this x)%Q).
  { unfold Qcmult, Qcplus. cbn [this Q2Qc]. rewrite !Qred_correct. reflexivity. }
  rewrite E. change (this 0%Qc) with 0%Q. change (this 1%Qc) with 1%Q. intros. nra.
Qed.

(** data sets as the trainers see them *)
Lemma fst_assoc_set {A} k (v : A) l : map fst (assoc_set String.eqb k v l) =
  if mem_b String.eqb k (map fst l) then map fst l else (map fst l ++ [k])%list.
Proof.
  induction l as [|[k' v'] l IH]; auto. cbn [assoc_set map fst mem_b existsb].
  destruct (String.eqb k k') eqn:E; cbn [map fst].
  - reflexivity.
  - rewrite IH. cbn [orb]. destruct (mem_b String.eqb k (map fst l)); reflexivity.
Qed.

Definition ordered (cols names : list string) : Prop := filter (fun c => negb (String.eqb c "rid")) cols = names.

Lemma ordered_add cols names c : c <> "rid" -> ordered cols names ->
  ordered (if mem_b String.eqb c cols then cols else (cols ++ [c])%list)
          (if mem_b String.eqb c names then names else (names ++ [c])%list).
Proof.
  unfold ordered. intros N O. assert (Ec : String.eqb c "rid" = false) by (apply String.eqb_neq; auto).
  assert (E : mem_b String.eqb c cols = mem_b String.eqb c names).
  { rewrite <- O. clear O. induction cols as [|x cols IH]; auto. cbn [mem_b filter].
    destruct (String.eqb x "rid") eqn:X; cbn [negb].
    - apply String.eqb_eq in X. subst. rewrite Ec. exact IH.
    - cbn [mem_b]. rewrite IH. reflexivity. }
  rewrite E. destruct (mem_b String.eqb c names); auto. rewrite filter_app, O. cbn [filter]. rewrite Ec. reflexivity.
Qed.

Lemma trained_coded m0 m tu ti : trained_on m0 m tu ti -> numeric m0 ->
  filter (fun c => negb (String.eqb c "rid")) (m_columns m0) = map fst (f_types (m_df m0)) -> coded m.
Proof.
  intros T Nm O. destruct (trained_cols m0 m tu ti T) as [Cu Ci]. constructor; auto.
  - apply (trained_wf m0 m tu ti T).
  - apply (trained_id_types m0 m tu ti T).
  - rewrite (trained_assigned m0 m tu ti T). reflexivity.
  - intros r Hr. destruct (trained_row m0 m tu ti T r Hr) as [r0 [u [i [a [b [_ [_ [_ [_ [_ [_ [_ [E1 [E2 [B1 [B2 _]]]]]]]]]]]]]]]].
    assert (S := tr_small _ _ _ _ T). exists a, b. split; auto. split; auto. lia.
  - split; [apply (has_interaction m0 m tu ti T Nm)|]. split; [|apply (small_interaction m0 m tu ti T Nm)].
    intros r Hr. destruct (good m0 m tu ti T Nm r Hr) as [_ [_ [v [E Q]]]]. eauto.
  - rewrite (trained_assigned m0 m tu ti T). unfold assigned. cbn [m_columns m_df assign_frame f_types].
    rewrite !fst_assoc_set. unfold add_column. cbn [m_columns set_columns].
    change (filter (fun c => negb (String.eqb c "rid")) ?x = ?y) with (ordered x y).
    apply ordered_add; [discriminate|]. apply ordered_add; [discriminate|]. exact O.
Qed.
