(** Conditions on raw id columns of text, which data sets in memory answer with
    the internal ids. *)
From Coq Require Import String Ascii.
From Coq Require Import List ZArith QArith Qcanon Bool Permutation Sorted Lia.
From Verif Require Import Py PyFacts MemModel MemSpec MemFacts MemFacts2 MemFacts3 MemFacts4 MemFacts5 MemFacts6 DbModel DbSpec TwinSpec.
Import ListNotations.
Open Scope string_scope.
Open Scope Z_scope.
Open Scope list_scope.

(** The column [id] holds the numbers that [mp] gives the cells of [raw]. *)
Definition coded (m : mem) (raw id : string) (mp : list (value * Z)) : Prop :=
  exists cats, mp = mapping_of cats /\
    (forall t v, In raw (m_columns m) -> col_type m raw = Ok t -> In v cats -> type_of v = t) /\
    (In raw (m_columns m) -> In id (m_columns m) -> forall r, In r (rows_of m) ->
       exists v, cell r raw = Some v /\ In v cats /\ cell r id = Some (VInt (code_of cats v))).
Definition codes (m : mem) : Prop :=
  m_ids m = true -> coded m "user" "uid" (m_umap m) /\ coded m "item" "iid" (m_imap m).

Lemma coded_mono m m' raw id mp : coded m raw id mp -> incl (m_columns m') (m_columns m) ->
  (In raw (m_columns m') -> col_type m' raw = col_type m raw) ->
  (forall r', In r' (rows_of m') -> exists r, In r (rows_of m) /\
     (In raw (m_columns m') -> cell r' raw = cell r raw) /\ (In id (m_columns m') -> cell r' id = cell r id)) ->
  coded m' raw id mp.
Proof.
  intros (cats & E & Ty & R) I Ct H. exists cats. split; [exact E|]. split.
  - intros t v Hr Ht. apply Ty; [apply I; exact Hr|]. rewrite <- Ct; auto.
  - intros Hr Hi r' Hr'. destruct (H r' Hr') as (r & Hin & E1 & E2). rewrite (E1 Hr), (E2 Hi). apply R; auto.
Qed.

Lemma raw_literal c : In (sc_col c) ["user"; "item"] -> lit_ok (sc_col c) DObj (sc_lit c) -> exists s, sc_lit c = LText s.
Proof.
  intros Raw L. inversion L as [z X|z X X1|n a b X X1|s X X1 X2]; subst; [|congruence|congruence|eauto].
  exfalso. cbn [In] in X, Raw. destruct Raw as [R|[R|[]]]; rewrite <- R in X; intuition discriminate.
Qed.

Lemma segment_mask_coded m c : wf_mem m -> id_types m -> codes m -> cond_ok m c -> raw_fits m c ->
  segment_mask m (cond_text c) = Ok (map (sat1 c) (rows_of m)).
Proof.
  intros W I Cd Hc Rf. destruct (m_ids m) eqn:Mi.
  2:{ apply segment_mask_cond; auto. intro X. congruence. }
  destruct (in_dec string_dec (sc_col c) ["user"; "item"]) as [Raw|NRaw].
  2:{ apply segment_mask_cond; auto. intros _ X. contradiction. }
  assert (Nrid : sc_col c <> "rid") by (intro X; rewrite X in Raw; cbn [In] in Raw; intuition discriminate).
  destruct (Rf Mi Raw) as [Ti|(To & Ho & Ii)].
  { apply segment_mask_cond; auto. intros _ _. apply col_type_assoc; auto. }
  destruct Hc as [Hin [Pc [S [t [T L]]]]]. rewrite To in T. injection T as <-. destruct (raw_literal c Raw L) as [s Es].
  unfold segment_mask, cond_text. rewrite parse_segment_cond by (auto; eapply lit_plain; eauto). cbn [bind].
  rewrite (proj2 (col_in_iff m (sc_col c)) Hin). cbn [negb]. rewrite To. cbn [bind]. rewrite (parse_value_ok _ _ _ L). cbn [bind].
  destruct (Cd Mi) as [Cu Ci].
  assert (K : exists mp, coded m (sc_col c) (internal (sc_col c)) mp /\
     redirect m (sc_col c) DObj (lit_value (sc_col c) (sc_lit c)) =
       (u <- to_internal true (Ok DObj) mp (lit_value (sc_col c) (sc_lit c)) ;; Ok (internal (sc_col c), match u with Some z => Some (VInt z) | None => None end))).
  { cbn [In] in Raw. destruct Raw as [R|[R|[]]]; rewrite <- R in *.
    - exists (m_umap m). split; [exact Cu|]. unfold redirect, user_to_uid. rewrite Mi, To. reflexivity.
    - exists (m_imap m). split; [exact Ci|]. unfold redirect, item_to_iid. rewrite Mi, To. reflexivity. }
  destruct K as (mp & (cats & -> & Ty & R) & ->). rewrite Es. cbn [lit_value].
  rewrite (to_internal_lookup DObj cats (VStr s)); [|discriminate|reflexivity|intros w Hw; apply (Ty DObj w Hin To Hw)]. cbn [bind].
  destruct (col_type_ok m (internal (sc_col c)) W Ii) as [ti Ti]. rewrite Ti. cbn [bind].
  rewrite (mapM_Ok _ (fun r => VInt (code_of cats (row_val_or (sc_col c) r)))).
  2:{ intros r Hr. destruct (R Hin Ii r Hr) as (v & Ev & _ & Ei). rewrite (row_val_or_cell r _ _ Nrid Ev). apply row_value_val, row_val_cell; [|exact Ei].
      unfold internal. destruct (String.eqb (sc_col c) "user"); discriminate. }
  cbn [bind]. rewrite cmp_of_str_text, mapM_map. apply mapM_Ok. intros r Hr.
  destruct (R Hin Ii r Hr) as (v & Ev & Iv & _). pose proof (Ty DObj v Hin To Iv) as Tv. destruct v as [z|q|x]; try discriminate.
  rewrite (row_val_or_cell r _ _ Nrid Ev). rewrite code_cmp by auto. f_equal. unfold sat1. rewrite Es, (row_val_cell r _ _ Nrid Ev). reflexivity.
Qed.

Lemma segments_mask_coded m cs : wf_mem m -> id_types m -> codes m -> Forall (cond_ok m) cs -> Forall (raw_fits m) cs -> forall acc,
  segments_mask m (map acc (rows_of m)) (map (fun d => String " " (cond_text d)) cs)
  = Ok (map (fun r => acc r && sat cs r)%bool (rows_of m)).
Proof.
  intros W I Cd. induction cs as [|c cs IH]; intros F D acc; cbn [map segments_mask].
  - f_equal. apply map_ext. intros r. cbn. rewrite andb_true_r. reflexivity.
  - inversion F; inversion D; subst. rewrite segment_mask_space, segment_mask_coded by auto.
    cbn [bind]. rewrite mask_and_map, IH by auto. f_equal. apply map_ext. intros r.
    unfold sat. cbn [forallb]. rewrite andb_assoc. reflexivity.
Qed.
Lemma apply_query_coded m cs : wf_mem m -> id_types m -> codes m -> cs <> [] -> queried m cs ->
  apply_query m (query_text cs) = Ok (mkFrame (f_types (m_df m)) (filter (sat cs) (rows_of m))).
Proof.
  intros W I Cd N [F D]. unfold apply_query, query_mask. destruct cs as [|c cs]; [contradiction|]. rewrite (split_query m) by auto.
  inversion F; inversion D; subst. rewrite segment_mask_coded by auto. cbn [bind].
  rewrite segments_mask_coded by auto. cbn [bind]. rewrite mask_filter_map. reflexivity.
Qed.
Lemma codes_copy m : codes m -> codes (mem_copy m).
Proof. exact (fun x => x). Qed.
Lemma select_coded m cs : wf_mem m -> id_types m -> codes m -> cs <> [] -> queried m cs ->
  MemModel.select m (query_text cs) = Ok (set_rows (mem_copy m) (filter (sat cs) (rows_of m))) /\
  select_inplace m (query_text cs) = Ok (set_rows m (filter (sat cs) (rows_of m))).
Proof.
  intros W I Cd N Q. split.
  - unfold MemModel.select. rewrite (apply_query_coded (mem_copy m) cs); [reflexivity|apply wf_copy; exact W|exact I|exact Cd|exact N|exact Q].
  - unfold select_inplace. rewrite apply_query_coded; auto.
Qed.

(** ** What the operations do to them *)
Lemma codes_filter m f : codes m -> codes (set_rows m (filter f (rows_of m))).
Proof.
  intros C Hi. destruct (C Hi) as [Cu Ci]. split.
  - apply (coded_mono m); [exact Cu|apply incl_refl|reflexivity|]. intros r Hr. apply filter_In in Hr. exists r. split; [apply Hr|auto].
  - apply (coded_mono m); [exact Ci|apply incl_refl|reflexivity|]. intros r Hr. apply filter_In in Hr. exists r. split; [apply Hr|auto].
Qed.
Lemma codes_unique m us : codes m -> incl us (m_columns m) -> NoDup us ->
  (forall c, In c us -> assoc String.eqb c (project_types us (f_types (m_df m))) = assoc String.eqb c (f_types (m_df m))) ->
  codes (set_columns (set_df m (mkFrame (project_types us (f_types (m_df m))) (map (project_row us) (drop_duplicates us (rows_of m))))) (us ++ ["rid"])).
Proof.
  intros C I Nd A Hi. destruct (C Hi) as [Cu Ci].
  assert (G : forall raw id mp, raw <> "rid" -> id <> "rid" -> coded m raw id mp ->
    coded (set_columns (set_df m (mkFrame (project_types us (f_types (m_df m))) (map (project_row us) (drop_duplicates us (rows_of m))))) (us ++ ["rid"])) raw id mp).
  { intros raw id mp N1 N2 Cm.
    assert (Hu : forall c, c <> "rid" -> In c (us ++ ["rid"]) -> In c us).
    { intros c N H. apply in_app_or in H. destruct H as [H|[H|[]]]; [exact H|congruence]. }
    destruct Cm as (cats & E & Ty & R). exists cats. split; [exact E|]. cbn [m_columns set_columns]. split.
    - intros t v Hr Ht. pose proof (Hu raw N1 Hr) as Hr'. apply Ty; [apply I; exact Hr'|]. rewrite <- Ht. unfold col_type. cbn [m_df set_columns set_df f_types].
      rewrite (A raw Hr'). reflexivity.
    - intros Hr Hd r Hin. pose proof (Hu raw N1 Hr) as Hr'. pose proof (Hu id N2 Hd) as Hd'. unfold rows_of in Hin. cbn [m_df set_columns set_df f_rows] in Hin.
      apply in_map_iff in Hin. destruct Hin as (r0 & <- & H0). apply drop_duplicates_incl in H0.
      rewrite !project_cell by assumption. apply R; [apply I; exact Hr'|apply I; exact Hd'|exact H0]. }
  split; apply G; try discriminate; assumption.
Qed.
Lemma codes_off m : m_ids m = false -> codes m.
Proof. intros H X. congruence. Qed.
Lemma codes_assigned m : wf_mem m -> In "user" (m_columns m) -> In "item" (m_columns m) -> codes (MemFacts3.assigned m).
Proof.
  intros W Iu Ii _.
  destruct (col_type_ok m "user" W Iu) as [tu Tu]. destruct (col_type_ok m "item" W Ii) as [ti Ti].
  assert (Au := col_type_assoc m "user" tu ltac:(discriminate) Tu). assert (Ai := col_type_assoc m "item" ti ltac:(discriminate) Ti).
  split; [exists (distinct_col "user" (rows_of m))|exists (distinct_col "item" (rows_of m))]; (split; [reflexivity|split]).
  - intros t v _ Ht Hv. rewrite col_type_assigned, Tu in Ht by discriminate. injection Ht as <-. apply (distinct_types m "user" tu W Au v Hv).
  - intros _ _ r Hr. rewrite assigned_rows in Hr. apply in_map_iff in Hr. destruct Hr as (r0 & <- & H0).
    destruct (wf_cell m r0 "user" tu W H0 Au) as (v & Ev & _). exists v. rewrite coded_row_other by discriminate. split; [exact Ev|].
    split; [apply distinct_col_In; eauto|apply coded_row_uid; exact Ev].
  - intros t v _ Ht Hv. rewrite col_type_assigned, Ti in Ht by discriminate. injection Ht as <-. apply (distinct_types m "item" ti W Ai v Hv).
  - intros _ _ r Hr. rewrite assigned_rows in Hr. apply in_map_iff in Hr. destruct Hr as (r0 & <- & H0).
    destruct (wf_cell m r0 "item" ti W H0 Ai) as (v & Ev & _). exists v. rewrite coded_row_other by discriminate. split; [exact Ev|].
    split; [apply distinct_col_In; eauto|apply coded_row_iid; exact Ev].
Qed.
Lemma codes_remove m m' : remove_internal_ids m = Ok m' -> codes m'.
Proof.
  intros E. apply codes_off. unfold remove_internal_ids in E. destruct (mem_b String.eqb "uid" (m_columns m)); [|injection E as <-; reflexivity].
  destruct (col_type m "uid"); [|discriminate]. destruct (col_type m "iid"); [|discriminate]. cbn [bind] in E.
  destruct (negb (mem_b String.eqb "iid" (m_columns m))); [discriminate|]. injection E as <-. reflexivity.
Qed.
Lemma codes_apply m c f m' : m_cache m = None -> codes m -> MemModel.apply_col m c f = (Ok tt, m') -> codes m'.
Proof.
  intros Ca C E. destruct (apply_col_cases m c f) as [(_ & e & X)|(rs & M & Nr & Ic & [(_ & A)|(_ & Nc & _)])]; [rewrite E in X; discriminate| |congruence].
  rewrite A in E. injection E as <-. clear A. intro Hi. destruct (C Hi) as [Cu Ci].
  assert (Ro : forall raw, In raw ["user"; "item"; "uid"; "iid"] -> raw <> c).
  { intros raw H ->. apply Nr. unfold read_only. cbn [In] in *. intuition. }
  assert (G : forall raw id mp, In raw ["user"; "item"; "uid"; "iid"] -> In id ["user"; "item"; "uid"; "iid"] -> coded m raw id mp ->
     coded (set_df m (mkFrame (assoc_set String.eqb c (new_type c rs) (f_types (m_df m))) (applied_rows c (new_type c rs) rs))) raw id mp).
  { intros raw id mp Hr Hd Cm. apply (coded_mono m); [exact Cm|apply incl_refl| |].
    - intros _. unfold col_type. cbn [m_df set_df f_types]. rewrite (assoc_set_other _ reflects_string) by (apply Ro; exact Hr). reflexivity.
    - intros r' Hr'. unfold rows_of in Hr'. cbn [m_df set_df f_rows] in Hr'. unfold applied_rows in Hr'. apply in_map_iff in Hr'.
      destruct Hr' as (r1 & <- & H1). destruct (mapM_In _ _ _ _ M H1) as (r & Hin & Ha). exists r. split; [exact Hin|].
      destruct (applied_row_eq c f (new_type c rs) r r1 Ha) as (v & v' & _ & _ & ->).
      split; intros _; apply cell_set_other; apply Ro; assumption. }
  split; apply G; auto; cbn [In]; tauto.
Qed.
