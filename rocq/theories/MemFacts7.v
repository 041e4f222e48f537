(** Final lemmas for the properties of the in-memory data set (C13 to C15), and
    preservation of well-formedness by every operation. *)
From Coq Require Import String Ascii.
From Coq Require Import List ZArith QArith Qcanon Bool Lia Permutation Sorted.
From Verif Require Import Py PyFacts MemModel MemSpec MemFacts MemFacts2 MemFacts3 MemFacts4 MemFacts5 MemFacts6.
Import ListNotations.
Open Scope string_scope.
Open Scope Z_scope.

(** ** C13, the remaining parts *)
Lemma apply_reserved m c f : In c read_only ->
  exists e, apply_col m c f = (Err e, m).
Proof.
  intros R. unfold apply_col, validate_column. destruct (col_in m c); [|eauto].
  apply (mem_b_In _ reflects_string) in R. rewrite R. eauto.
Qed.

Lemma apply_raises m c f r v e : In r (rows_of m) -> cell r c = Some v -> f v = Err e ->
  exists e', apply_col m c f = (Err e', m).
Proof.
  intros Hr Hc Hf. unfold apply_col, validate_column. destruct (col_in m c); [|eauto].
  destruct (mem_b String.eqb c read_only); [eauto|].
  destruct (rows_of m) as [|r0 rs0] eqn:E; [eauto|]. rewrite <- E in *.
  destruct (col_type m c); [|eauto].
  destruct (mapM (apply_row c f) (rows_of m)) as [rs|] eqn:M; [|eauto].
  destruct (mapM_In_fwd _ _ _ _ M Hr) as [r1 [_ H1]]. unfold apply_row in H1. rewrite Hc, Hf in H1. discriminate.
Qed.

Lemma assoc_set_twice {B} c (v w : B) l :
  assoc_set String.eqb c v (assoc_set String.eqb c w l) = assoc_set String.eqb c v l.
Proof.
  induction l as [|[k x] l IH]; simpl.
  - rewrite String.eqb_refl. reflexivity.
  - destruct (String.eqb c k) eqn:E; simpl; rewrite E; [reflexivity|]. rewrite IH. reflexivity.
Qed.

Lemma mapM_apply_compose c f g rs1 : forall rs, mapM (apply_row c f) rs = Ok rs1 ->
  mapM (apply_row c g) rs1 = mapM (apply_row c (fun v => w <- f v ;; g w)) rs.
Proof.
  induction rs1 as [|r1 rs1 IH]; intros rs M.
  - apply mapM_length in M. destruct rs; [reflexivity|discriminate].
  - destruct rs as [|r rs]; [discriminate|]. simpl in M.
    destruct (apply_row c f r) as [x|] eqn:A; cbn [bind] in M; [|discriminate].
    destruct (mapM (apply_row c f) rs) as [xs|] eqn:B; cbn [bind] in M; [|discriminate].
    injection M as -> ->. simpl. rewrite (IH rs B).
    destruct (apply_row_cells _ _ _ _ A) as [v [v' [E1 [E2 ->]]]].
    unfold apply_row at 1 3. rewrite cell_set_same, E1, E2. cbn [bind].
    destruct (g v'); cbn [bind]; [|reflexivity]. rewrite set_cell_twice. reflexivity.
Qed.

Lemma uniform_type c rs t : rs <> [] -> (forall r, In r rs -> exists v, cell r c = Some v /\ type_of v = t) ->
  new_type c rs = t.
Proof.
  intros N A. unfold new_type.
  assert (B : forall x, In x (map (fun r => match cell r c with Some v => type_of v | None => DObj end) rs) -> x = t).
  { intros x Hx. apply in_map_iff in Hx. destruct Hx as [r [<- Hr]]. destruct (A r Hr) as [v [-> E]]. exact E. }
  destruct rs as [|r1 rs]; [contradiction|].
  set (ts := map _ _) in *. 
  assert (I : In t ts).
  { destruct (A r1 (or_introl eq_refl)) as [v [E1 E2]]. unfold ts. simpl. rewrite E1. auto. }
  clearbody ts. unfold common_type.
  assert (EX : forall d, existsb (dtype_eqb d) ts = dtype_eqb d t).
  { intros d. apply eq_true_iff_eq. rewrite existsb_exists. split.
    - intros [x [H1 H2]]. rewrite (B x H1) in H2. exact H2.
    - intros H. exists t. auto. }
  rewrite !EX. destruct t; reflexivity.
Qed.

Lemma applied_rows_uniform c f t rs0 rs : mapM (apply_row c f) rs0 = Ok rs ->
  (forall r, In r rs -> exists v, cell r c = Some v /\ type_of v = t) -> applied_rows c t rs = rs.
Proof.
  intros M A. unfold applied_rows. rewrite <- (map_id rs) at 2. apply map_ext_in. intros r Hr.
  destruct (A r Hr) as [v [E T]]. rewrite E.
  destruct (mapM_In _ _ _ _ M Hr) as [r0 [_ H0]].
  destruct (apply_row_cells _ _ _ _ H0) as [w [w' [E1 [E2 E3]]]]. subst r.
  rewrite cell_set_same in E. injection E as <-.
  assert (U : upcast t w' = w') by (rewrite <- T; destruct w'; reflexivity). rewrite U. apply set_cell_twice.
Qed.

Lemma apply_compose m c f g t : rows_of m <> [] ->
  fst (apply_col m c f) = Ok tt ->
  (forall r v w, In r (rows_of m) -> cell r c = Some v -> f v = Ok w -> type_of w = t) ->
  (forall r v w, In r (rows_of m) -> cell r c = Some v -> f v = Ok w -> exists x, g w = Ok x) ->
  apply_col (snd (apply_col m c f)) c g = apply_col m c (fun v => w <- f v ;; g w).
Proof.
  intros NE F T G.
  destruct (apply_col_cases m c f) as [[_ [e E]]|[rs [M [HR [Hc H]]]]]; [congruence|].
  assert (CT : exists ty, col_type m c = Ok ty).
  { destruct (col_type m c) eqn:E; [eauto|]. exfalso. revert F. unfold apply_col, validate_column.
    apply col_in_iff in Hc. rewrite Hc. apply (mem_b_false _ reflects_string) in HR. rewrite HR, E.
    destruct (rows_of m); discriminate. }
  assert (A : forall r, In r rs -> exists v, cell r c = Some v /\ type_of v = t).
  { intros r1 H1. destruct (mapM_In _ _ _ _ M H1) as [r [Hr Ha]].
    destruct (apply_row_cells _ _ _ _ Ha) as [v [v' [E1 [E2 ->]]]]. rewrite cell_set_same. eauto. }
  assert (NE' : rs <> []).
  { intros ->. apply mapM_length in M. destruct (rows_of m); [contradiction|discriminate]. }
  assert (TY := uniform_type c rs t NE' A).
  assert (AR := applied_rows_uniform c f t _ _ M A).
  assert (M2 : exists rs2, mapM (apply_row c g) rs = Ok rs2).
  { destruct (mapM (apply_row c g) rs) as [rs2|e] eqn:E; [eauto|].
    apply mapM_err_in in E. destruct E as [r1 [H1 E]].
    destruct (mapM_In _ _ _ _ M H1) as [r [Hr Ha]].
    destruct (apply_row_cells _ _ _ _ Ha) as [v [v' [E1 [E2 ->]]]].
    unfold apply_row in E. rewrite cell_set_same in E. destruct (G r v v' Hr E1 E2) as [x X].
    rewrite X in E. discriminate. }
  destruct M2 as [rs2 M2].
  assert (M3 := mapM_apply_compose c f g rs _ M). rewrite M2 in M3. symmetry in M3.
  assert (R := apply_col_ok m c _ rs2 Hc HR NE CT M3). cbv zeta in R, H. rewrite TY, AR in H.
  set (m1 := set_df m (mkFrame (assoc_set String.eqb c t (f_types (m_df m))) rs)) in *.
  set (m2 := set_df m (mkFrame (assoc_set String.eqb c (new_type c rs2) (f_types (m_df m)))
                               (applied_rows c (new_type c rs2) rs2))) in *.
  assert (N : c <> "rid") by (intros ->; apply HR; simpl; auto).
  assert (CT1 : forall x y, exists ty, col_type (set_caches m1 x y) c = Ok ty).
  { intros x y. exists t. unfold col_type, m1. cbn. apply String.eqb_neq in N. rewrite N.
    rewrite (assoc_set_same _ reflects_string). reflexivity. }
  assert (EQ : forall x y, mkFrame (assoc_set String.eqb c (new_type c rs2) (f_types (m_df (set_caches m1 x y))))
                 (applied_rows c (new_type c rs2) rs2) = m_df m2).
  { intros x y. unfold m1, m2. cbn. rewrite assoc_set_twice. reflexivity. }
  assert (SC : m1 = set_caches m1 (m_cache m) (m_tcache m)) by (unfold m1; destruct m; reflexivity).
  destruct H as [[X E]|[X1 [X2 E]]].
  - rewrite E. cbn [snd]. rewrite SC.
    assert (R1 := apply_col_ok (set_caches m1 (m_cache m) (m_tcache m)) c g rs2 Hc HR NE' (CT1 _ _) M2).
    cbv zeta in R1. rewrite EQ in R1.
    destruct R as [[Y R]|[Y1 [Y2 R]]]; [|destruct X; congruence].
    destruct R1 as [[Z R1]|[Z1 [Z2 R1]]]; [|destruct X; cbn in Z2; congruence].
    rewrite R, R1. reflexivity.
  - rewrite E in F |- *. destruct (build_matrix (set_caches m1 None None)) as [[mx tmx]|] eqn:B; [|discriminate].
    cbn [snd].
    assert (R1 := apply_col_ok (set_caches m1 (Some mx) (Some tmx)) c g rs2 Hc HR NE' (CT1 _ _) M2).
    cbv zeta in R1. rewrite EQ in R1.
    destruct R as [[Y R]|[Y1 [Y2 R]]]; [destruct Y; congruence|].
    destruct R1 as [[Z R1]|[Z1 [Z2 R1]]]; [destruct Z; [congruence|discriminate]|].
    rewrite R, R1. reflexivity.
Qed.

(** ** C14 *)
Lemma query_mask_select m q m' : select m q = Ok m' -> exists f, apply_query m q = Ok f /\ f_rows f = rows_of m' /\
  m_columns m' = m_columns m /\ f_types (m_df m') = f_types (m_df m).
Proof.
  unfold select, apply_query. rewrite query_mask_copy. 
  destruct (query_mask m q) as [k|]; cbn [bind]; [|discriminate]. intros H. injection H as <-.
  eexists. split; [reflexivity|]. repeat split; reflexivity.
Qed.

Lemma handle_columns_eq m m' cs : m_columns m' = m_columns m -> handle_columns m' cs = handle_columns m cs.
Proof. intros E. unfold handle_columns, col_in. rewrite E. reflexivity. Qed.

Lemma col_type_eq m m' c : f_types (m_df m') = f_types (m_df m) -> col_type m' c = col_type m c.
Proof. intros E. unfold col_type. rewrite E. reflexivity. Qed.

Lemma select_one_first m q cs m' vs : select m q = Ok m' -> values m' cs = Ok vs ->
  select_one m q cs = Ok (hd_error vs).
Proof.
  intros S V. destruct (query_mask_select m q m' S) as [f [E1 [E2 [E3 E4]]]].
  unfold values in V. unfold select_one. rewrite (handle_columns_eq m m' cs E3) in V.
  destruct (handle_columns m cs) as [cols|]; cbn [bind] in *; [|discriminate].
  rewrite E1. cbn [bind]. rewrite E2, <- E3.
  rewrite (mapM_ext_in (col_type m') (col_type m)) in V by (intros; apply col_type_eq; auto).
  destruct (mapM (col_type m) (df_columns (m_columns m'))) as [ts|] eqn:T; cbn [bind] in V; [|discriminate].
  destruct (rows_of m') as [|r rs]; simpl in V.
  - injection V as <-. reflexivity.
  - cbn [bind]. destruct (row_record (common_type ts) cols r) as [v|]; cbn [bind] in *; [|discriminate].
    destruct (mapM (row_record (common_type ts) cols) rs) as [vs'|]; cbn [bind] in V; [|discriminate].
    injection V as <-. reflexivity.
Qed.

Lemma wf_select m q m' : wf_mem m -> select m q = Ok m' -> wf_mem m'.
Proof.
  unfold select, apply_query. intros W.
  destruct (query_mask (mem_copy m) q) as [k|]; cbn [bind]; [|discriminate]. intros H. injection H as <-.
  destruct W as [[A1 A2 A3 A4] B C]. constructor; auto. constructor; auto.
  - intros r Hr. apply A3. unfold mask_filter in Hr. cbn in Hr. apply in_map_iff in Hr. destruct Hr as [[b r'] [<- H]].
    apply filter_In in H. destruct H as [H _]. apply in_combine_r in H. exact H.
  - intros r c t Hr. apply A4. unfold mask_filter in Hr. cbn in Hr. apply in_map_iff in Hr. destruct Hr as [[b r'] [<- H]].
    apply filter_In in H. destruct H as [H _]. apply in_combine_r in H. exact H.
Qed.

Lemma same_upcast t v : (forall z, v = VInt z -> Z.abs z <= 2 ^ 53) -> same_value (upcast t v) v.
Proof.
  intros H. destruct t, v; simpl; auto.
  rewrite f64_exact; auto.
Qed.

Lemma row_record_ok m t cs r : wf_mem m -> In r (rows_of m) -> (forall c, In c cs -> In c (m_columns m)) ->
  (forall c, In c cs -> small_col m c) ->
  exists v, row_record t cs r = Ok v /\ Forall2 (fun c x => exists y, row_val r c = Some y /\ same_value x y) cs v.
Proof.
  intros W Hr Hc Hs. induction cs as [|c cs IH]; [exists []; split; [reflexivity|constructor]|].
  destruct IH as [v [E F]]; [intros; apply Hc; simpl; auto|intros; apply Hs; simpl; auto|].
  unfold row_record in *. simpl. destruct (col_type_ok m c W (Hc c (or_introl eq_refl))) as [ty T].
  destruct (wf_row_val m c ty r W T Hr) as [x [Ex Tx]].
  assert (RV : row_value c r = Ok x).
  { unfold row_value. unfold row_val in Ex. destruct (String.eqb c "rid"); [congruence|]. rewrite Ex. reflexivity. }
  rewrite RV. cbn [bind]. rewrite E. cbn [bind]. eexists. split; [reflexivity|]. constructor; auto.
  exists x. split; auto. destruct (String.eqb c "rid") eqn:R.
  - destruct x; simpl; auto.
  - apply same_upcast. intros z ->. apply (Hs c (or_introl eq_refl) r z Hr).
    unfold row_val in Ex. rewrite R in Ex. exact Ex.
Qed.

Lemma values_ok m cs : wf_mem m -> (forall c, In c cs -> In c (m_columns m)) ->
  (forall c, In c cs -> small_col m c) ->
  exists vs, values m (Some cs) = Ok vs /\ values_dict m (Some cs) = Ok (map (combine cs) vs) /\
    Forall2 (fun r v => Forall2 (fun c x => exists y, row_val r c = Some y /\ same_value x y) cs v) (rows_of m) vs.
Proof.
  intros W Hc Hs.
  destruct (col_types_ok m (df_columns (m_columns m)) W) as [ts T].
  { intros c H. apply filter_In in H. tauto. }
  assert (V : exists vs, mapM (row_record (common_type ts) cs) (rows_of m) = Ok vs /\
    Forall2 (fun r v => Forall2 (fun c x => exists y, row_val r c = Some y /\ same_value x y) cs v) (rows_of m) vs).
  { assert (H : forall l, (forall r, In r l -> In r (rows_of m)) -> exists vs,
        mapM (row_record (common_type ts) cs) l = Ok vs /\
        Forall2 (fun r v => Forall2 (fun c x => exists y, row_val r c = Some y /\ same_value x y) cs v) l vs).
    { induction l as [|r l IH]; intros HL; [exists []; split; [reflexivity|constructor]|].
      destruct IH as [vs [E F]]; [intros; apply HL; simpl; auto|].
      destruct (row_record_ok m (common_type ts) cs r W (HL r (or_introl eq_refl)) Hc Hs) as [v [E1 F1]].
      exists (v :: vs). simpl. rewrite E1. cbn [bind]. rewrite E. split; [reflexivity|constructor; auto]. }
    apply H; auto. }
  destruct V as [vs [V F]]. exists vs.
  assert (EV : values m (Some cs) = Ok vs).
  { unfold values, handle_columns. rewrite (forallb_col_in m cs Hc). cbn [bind]. rewrite T. cbn [bind]. exact V. }
  split; [exact EV|]. split; [|exact F].
  unfold values_dict. rewrite EV. unfold handle_columns. rewrite (forallb_col_in m cs Hc). reflexivity.
Qed.

Lemma row_record_total m t cs r : wf_mem m -> In r (rows_of m) -> (forall c, In c cs -> In c (m_columns m)) ->
  exists v, row_record t cs r = Ok v.
Proof.
  intros W Hr Hc. induction cs as [|c cs IH]; [exists []; reflexivity|].
  destruct IH as [v E]; [intros; apply Hc; simpl; auto|].
  unfold row_record in *. simpl. destruct (col_type_ok m c W (Hc c (or_introl eq_refl))) as [ty T].
  destruct (wf_row_val m c ty r W T Hr) as [x [Ex Tx]].
  assert (RV : row_value c r = Ok x).
  { unfold row_value. unfold row_val in Ex. destruct (String.eqb c "rid"); [congruence|]. rewrite Ex. reflexivity. }
  rewrite RV. cbn [bind]. rewrite E. cbn [bind]. eauto.
Qed.

Lemma exists_iff m q m' : wf_mem m -> select m q = Ok m' ->
  exists_q m q = Ok (negb (Nat.eqb (mem_len m') 0)).
Proof.
  intros W S. destruct (query_mask_select m q m' S) as [f [E1 [E2 [E3 E4]]]].
  assert (W' := wf_select m q m' W S).
  unfold exists_q, select_one. cbn [handle_columns bind]. rewrite E1. cbn [bind]. rewrite E2.
  unfold mem_len. destruct (rows_of m') as [|r rs] eqn:R; [reflexivity|].
  destruct (col_types_ok m (df_columns (m_columns m)) W) as [ts T].
  { intros c H. apply filter_In in H. tauto. }
  rewrite T. cbn [bind].
  destruct (row_record_total m' (common_type ts) (m_columns m) r W') as [v V].
  { rewrite R. simpl; auto. } { intros c H. rewrite E3. exact H. }
  rewrite V. reflexivity.
Qed.


Lemma remove_first_filter c l : NoDup l -> remove_first String.eqb c l = filter (fun d => negb (String.eqb c d)) l.
Proof.
  induction l as [|d l IH]; simpl; auto. intros N. inversion N; subst.
  destruct (String.eqb c d) eqn:E; simpl.
  - apply String.eqb_eq in E. subst d. symmetry. apply filter_id. intros x Hx.
    apply negb_true_iff, String.eqb_neq. intros ->. contradiction.
  - rewrite IH; auto.
Qed.

Lemma filter_filter {A} (f g : A -> bool) l : filter f (filter g l) = filter (fun x => g x && f x) l.
Proof. induction l as [|x l IH]; simpl; auto. destruct (g x); simpl; rewrite IH; reflexivity. Qed.

Lemma save_columns_eq m cs : NoDup (m_columns m) -> save_columns m cs = filter not_id (m_columns m).
Proof.
  intros N. unfold save_columns. rewrite (remove_first_filter "rid") by auto.
  rewrite (remove_first_filter "uid") by (apply NoDup_filter; auto).
  rewrite (remove_first_filter "iid") by (apply NoDup_filter, NoDup_filter; auto).
  rewrite !filter_filter. apply filter_ext. intros c. unfold not_id. simpl mem_b.
  rewrite (String.eqb_sym c "rid"), (String.eqb_sym c "uid"), (String.eqb_sym c "iid").
  destruct (String.eqb "rid" c), (String.eqb "uid" c), (String.eqb "iid" c); reflexivity.
Qed.

Lemma save_ok m columns : wf_mem m -> exists lines, save_lines m columns = Ok lines /\
  Forall2 (fun r line => Forall2 (fun c x => row_val r c = Some x) (filter not_id (m_columns m)) line)
          (rows_of m) lines.
Proof.
  intros W. unfold save_lines. rewrite save_columns_eq by apply (wf_cols_nodup _ W).
  set (cs := filter not_id (m_columns m)).
  assert (Hcs : forall c, In c cs -> In c (m_columns m)) by (intros c H; apply filter_In in H; tauto).
  assert (H : forall l, (forall r, In r l -> In r (rows_of m)) -> exists lines,
      mapM (fun r => mapM (fun c => row_value c r) cs) l = Ok lines /\
      Forall2 (fun r line => Forall2 (fun c x => row_val r c = Some x) cs line) l lines).
  { induction l as [|r l IH]; intros HL; [exists []; split; [reflexivity|constructor]|].
    destruct IH as [ls [E F]]; [intros; apply HL; simpl; auto|].
    assert (L : exists line, mapM (fun c => row_value c r) cs = Ok line /\ Forall2 (fun c x => row_val r c = Some x) cs line).
    { clear E F. clearbody cs. induction cs as [|c cs' IHc]; [exists []; split; [reflexivity|constructor]|].
      destruct IHc as [line [E F]]; [intros; apply Hcs; simpl; auto|].
      destruct (col_type_ok m c W (Hcs c (or_introl eq_refl))) as [ty T].
      destruct (wf_row_val m c ty r W T (HL r (or_introl eq_refl))) as [x [Ex Tx]].
      assert (RV : row_value c r = Ok x).
      { unfold row_value. unfold row_val in Ex. destruct (String.eqb c "rid"); [congruence|]. rewrite Ex. reflexivity. }
      exists (x :: line). simpl. rewrite RV. cbn [bind]. rewrite E. split; [reflexivity|constructor; auto]. }
    destruct L as [line [E1 F1]]. exists (line :: ls). simpl. rewrite E1. cbn [bind]. rewrite E.
    split; [reflexivity|constructor; auto]. }
  apply H; auto.
Qed.

(** ** C02, the text "q1, q2" *)
Lemma query_mask_space m q : query_mask m (String " " q) = query_mask m q.
Proof.
  unfold query_mask. simpl split_on. change (Ascii.eqb " " ",") with false. cbv iota.
  destruct (split_on "," q) as [|w ws] eqn:E; [|reflexivity].
  exfalso. destruct q as [|a q]; simpl in E; [discriminate|].
  destruct (Ascii.eqb a ","); [discriminate|]. destruct (split_on "," q); discriminate.
Qed.

Lemma select_space m q : select m (String " " q) = select m q.
Proof. rewrite !select_mask, query_mask_space. reflexivity. Qed.

Lemma queries_compose m q1 q2 m1 m2 : select m q1 = Ok m1 -> select m q2 = Ok m2 ->
  exists m12, select m1 q2 = Ok m12 /\ select m2 q1 = Ok m12 /\ select m (q1 ++ ", " ++ q2) = Ok m12.
Proof.
  intros H1 H2. destruct (select_commute m q1 q2 m1 m2 H1 H2) as [a [A1 A2]].
  rewrite <- (select_space m q2) in H2.
  destruct (select_compose m q1 (String " " q2) m1 m2 H1 H2) as [b [B1 B2]].
  rewrite select_space in B1. exists a. split; auto. split; auto. rewrite A1 in B1. injection B1 as ->. exact B2.
Qed.

(** ** C04 *)
Definition listed (ids : list Z) (r : row) : bool := if in_dec Z.eq_dec (r_rid r) ids then true else false.
Lemma mem_listed ids r : mem_b Z.eqb (r_rid r) ids = listed ids r.
Proof.
  unfold listed. destruct (in_dec Z.eq_dec (r_rid r) ids) as [H|H].
  - apply (mem_b_In _ reflects_Z). exact H.
  - apply (mem_b_false _ reflects_Z). exact H.
Qed.
Lemma drop_spec m ids :
  drop m ids true = set_rows (mem_copy m) (filter (listed ids) (rows_of m)) /\
  drop m ids false = set_rows (mem_copy m) (filter (fun r => negb (listed ids r)) (rows_of m)) /\
  drop_inplace m ids true = set_rows m (filter (listed ids) (rows_of m)) /\
  drop_inplace m ids false = set_rows m (filter (fun r => negb (listed ids r)) (rows_of m)) /\
  Permutation (rows_of m) (rows_of (drop m ids true) ++ rows_of (drop m ids false)).
Proof.
  assert (A : forall rs, drop_rows ids true rs = filter (listed ids) rs).
  { intros rs. apply filter_ext. intros r. apply mem_listed. }
  assert (B : forall rs, drop_rows ids false rs = filter (fun r => negb (listed ids r)) rs).
  { intros rs. apply filter_ext. intros r. rewrite mem_listed. reflexivity. }
  unfold drop, drop_inplace. rewrite !A, !B. repeat split. 
  cbn. change (Permutation (rows_of m) (filter (listed ids) (rows_of m) ++ filter (fun r => negb (listed ids r)) (rows_of m))).
  rewrite <- A, <- B. apply drop_partition.
Qed.

(** ** C08 *)
Lemma remove_undoes m tu ti : wf_mem m -> ~ In "uid" (m_columns m) -> ~ In "iid" (m_columns m) ->
  col_type m "user" = Ok tu -> col_type m "item" = Ok ti ->
  exists ma mr, assign_internal_ids m = Ok ma /\ remove_internal_ids ma = Ok mr /\
    m_columns mr = m_columns m /\ m_df mr = m_df m /\ m_ids mr = false /\
    (forall v, user_to_uid mr v = Err AssertionError /\ item_to_iid mr v = Err AssertionError) /\
    (forall k, uid_to_user mr k = Err AssertionError /\ iid_to_item mr k = Err AssertionError) /\
    assign_internal_ids ma = Ok ma.
Proof.
  intros W A B Tu Ti. destruct (remove_assigned m W A B) as [mr [E [E1 [E2 E3]]]].
  exists (assigned m), mr. split; [eapply assign_ok; eauto|]. split; auto. split; auto. split; auto. split; auto.
  unfold user_to_uid, item_to_iid, uid_to_user, iid_to_item, to_internal. rewrite E3. cbn [negb].
  split; [auto|]. split; [auto|]. eapply assign_twice; eauto.
Qed.
