(** The operations of DbSpec on data sets with the same data: unique, internal
    ids, apply and new data sets. *)
From Coq Require Import String Ascii.
From Coq Require Import List ZArith QArith Qcanon Bool Permutation Sorted Lia.
From Verif Require Import Py PyFacts MemModel MemSpec MemFacts MemFacts2 MemFacts3 MemFacts4 MemFacts5 MemFacts6 RankFacts
  DbModel DbSpec DbFacts12 DbFacts16 TwinSpec TwinFacts.
Import ListNotations.
Open Scope string_scope.
Open Scope Z_scope.
Open Scope list_scope.

(** A data set in memory of the rows [f r] for the rows [r] of [m]. *)
Lemma twin_map d m d' m' f g : twin d m -> wf_mem m' -> m_cache m' = None -> d_cols d' = m_columns m' -> d_ids d' = m_ids m' ->
  (exists ts, d_types d' = Some ts /\ forall c t, In c (m_columns m') -> col_type m' c = Ok t -> assoc String.eqb c ts = Some t) ->
  id_types m' -> d_rows d' = map g (d_rows d) -> rows_of m' = map f (rows_of m) ->
  (forall r, In r (rows_of m) -> g (as_trow (m_columns m) r) = as_trow (m_columns m') (f r) /\ r_rid (f r) = r_rid r) ->
  twin d' m'.
Proof.
  intros [W Ca Co Id Ty It Ro Or] W' Ca' Co' Id' Ty' It' Dr Mr H. constructor; auto.
  - rewrite Dr, Mr, map_map. eapply Permutation_trans; [apply Permutation_map, Ro|]. rewrite map_map.
    rewrite (map_ext_in _ (fun r => as_trow (m_columns m') (f r))); [apply Permutation_refl|]. intros r Hr. apply H. exact Hr.
  - rewrite Mr, map_map. rewrite (map_ext_in _ r_rid); [exact Or|]. intros r Hr. apply H. exact Hr.
Qed.

(** ** unique *)
Lemma unique_inplace_ok m cs : wf_mem m -> cs <> [] -> ~ In "rid" cs -> incl cs (m_columns m) ->
  unique_inplace m (Some cs) = Ok (set_columns (set_df m
     (mkFrame (project_types cs (f_types (m_df m))) (map (project_row cs) (drop_duplicates cs (rows_of m)))))
     (cs ++ ["rid"])).
Proof.
  intros W N R H. unfold unique_inplace, MemModel.handle_columns.
  rewrite (forallb_col_in m) by auto. cbn [bind].
  assert (E : mem_b String.eqb "rid" cs = false) by (apply (mem_b_false _ reflects_string); auto).
  rewrite E.
  assert (D : df_columns (cs ++ ["rid"]) = cs).
  { unfold df_columns. rewrite filter_app. simpl. rewrite app_nil_r. apply df_columns_id; auto. }
  rewrite D. destruct cs as [|c cs]; [contradiction|].
  destruct (col_types_ok m (c :: cs) W) as [ts Ts]; auto.
  rewrite Ts. cbn [bind]. reflexivity.
Qed.
Lemma project_types_keys us ts : incl us (map fst ts) -> map fst (project_types us ts) = us.
Proof.
  unfold project_types. induction us as [|c us IH]; intro I; cbn [flat_map]; [auto|]. rewrite map_app, IH by (intros x Hx; apply I; right; exact Hx).
  destruct (assoc String.eqb c ts) eqn:E; [auto|]. exfalso. apply (assoc_None _ reflects_string) in E. apply E. apply I. left. auto.
Qed.
Lemma project_types_assoc us ts c : In c us -> assoc String.eqb c (project_types us ts) = assoc String.eqb c ts.
Proof.
  unfold project_types. induction us as [|a us IH]; intro I; [contradiction|]. cbn [flat_map].
  destruct (String.eqb_spec c a) as [<-|N].
  - destruct (assoc String.eqb c ts) eqn:E; cbn [app assoc]; [rewrite String.eqb_refl; auto|].
    clear IH I. induction us as [|b us IH]; [auto|]. cbn [flat_map]. destruct (assoc String.eqb b ts) eqn:Eb; [|exact IH].
    cbn [app assoc]. destruct (String.eqb_spec c b) as [<-|]; [congruence|exact IH].
  - destruct I as [I|I]; [congruence|]. destruct (assoc String.eqb a ts) eqn:E; cbn [app assoc]; [|apply IH; exact I].
    destruct (String.eqb_spec c a); [congruence|]. apply IH. exact I.
Qed.
Lemma project_row_keys us r : (forall c, In c us -> cell r c <> None) -> map fst (r_cells (project_row us r)) = us.
Proof.
  unfold project_row. cbn [r_cells]. induction us as [|c us IH]; intro I; cbn [flat_map]; [auto|].
  rewrite map_app, IH by (intros x Hx; apply I; right; exact Hx).
  destruct (cell r c) eqn:E; [auto|]. exfalso. apply (I c (or_introl eq_refl)). exact E.
Qed.

Section Unique.
Variables (d : ds) (m : mem) (us : list string).
Hypothesis T : twin d m.
Hypothesis Nu : NoDup us.
Hypothesis Nr : ~ In "rid" us.
Hypothesis Iu : incl us (m_columns m).

Lemma us_types c : In c us -> exists t, assoc String.eqb c (f_types (m_df m)) = Some t /\ col_type m c = Ok t.
Proof.
  intro H. assert (N : c <> "rid") by (intros ->; contradiction). destruct (col_type_ok m c (tw_wf _ _ T) (Iu c H)) as [t Ht].
  exists t. split; [apply col_type_assoc; auto|auto].
Qed.
Lemma us_keys : incl us (map fst (f_types (m_df m))).
Proof.
  intros c H. destruct (us_types c H) as (t & A & _). apply (assoc_In _ reflects_string) in A. apply in_map_iff. exists (c, t). auto.
Qed.
Lemma twin_unique : twin (mkDs (plus_rid us) (d_types d) (d_ids d) (map (proj (plus_rid us)) (filter (first_of_group us (d_rows d)) (d_rows d))))
  (set_columns (set_df m (mkFrame (project_types us (f_types (m_df m))) (map (project_row us) (drop_duplicates us (rows_of m))))) (us ++ ["rid"])).
Proof.
  assert (Pr : plus_rid us = us ++ ["rid"]).
  { unfold plus_rid. destruct (existsb (String.eqb "rid") us) eqn:E; [|auto]. apply existsb_exists in E. destruct E as (x & Hx & Ex).
    apply String.eqb_eq in Ex. subst x. contradiction. }
  rewrite Pr. set (fg := first_of_group us (d_rows d)).
  assert (Fp : forall r, fg r = first_of_group us (map (as_trow (m_columns m)) (rows_of m)) r).
  { intro r. unfold fg, first_of_group. f_equal. pose proof (tw_rows _ _ T) as P. apply eq_true_iff_eq. rewrite !existsb_exists.
    split; intros (x & Hx & Ex); exists x; (split; [|exact Ex]); [apply (Permutation_in x P Hx)|apply (Permutation_in x (Permutation_sym P) Hx)]. }
  pose proof (twin_filter d m T fg (fun r => fg (as_trow (m_columns m) r)) (fun r _ => eq_refl)) as Tf.
  assert (Df : drop_duplicates us (rows_of m) = filter (fun r => fg (as_trow (m_columns m) r)) (rows_of m)).
  { rewrite (firsts_filter d m T us Iu Nr). apply filter_ext. intro r. symmetry. apply Fp. }
  assert (Cn : forall r c, In r (rows_of m) -> In c us -> cell r c <> None).
  { intros r c Hr Hc. destruct (us_types c Hc) as (t & A & _). destruct (wf_cell m r c t (tw_wf _ _ T) Hr A) as (v & E & _). congruence. }
  eapply twin_map; [exact Tf| | | | | | | | |].
  - constructor; [constructor| |]; cbn [m_df set_df set_columns f_types f_rows m_columns].
    + rewrite project_types_keys by apply us_keys. exact Nu.
    + rewrite project_types_keys by apply us_keys. exact Nr.
    + intros r Hr. apply in_map_iff in Hr. destruct Hr as (r0 & <- & Hr0). rewrite project_types_keys by apply us_keys. apply project_row_keys.
      intros c Hc. apply Cn; [|exact Hc]. apply drop_duplicates_incl in Hr0. exact Hr0.
    + intros r c t Hr Hc. apply in_map_iff in Hr. destruct Hr as (r0 & <- & Hr0). apply drop_duplicates_incl in Hr0.
      assert (Hu : In c us). { apply (in_map fst) in Hc. rewrite project_types_keys in Hc by apply us_keys. exact Hc. }
      assert (A : assoc String.eqb c (f_types (m_df m)) = Some t).
      { rewrite <- (project_types_assoc us _ c Hu). apply (assoc_NoDup _ reflects_string); [|exact Hc].
        rewrite project_types_keys by apply us_keys. exact Nu. }
      destruct (wf_cell m r0 c t (tw_wf _ _ T) Hr0 A) as (v & E & Tv). exists v. split; [rewrite project_cell; auto|exact Tv].
    + apply (Permutation_NoDup (Permutation_cons_append us "rid")). constructor; auto.
    + intro c. rewrite project_types_keys by apply us_keys. rewrite in_app_iff. cbn [In]. intuition.
  - cbn [m_cache set_columns set_df]. apply (tw_cache _ _ T).
  - reflexivity.
  - cbn [d_ids m_ids set_columns set_df]. apply (tw_ids _ _ T).
  - destruct (tw_types _ _ T) as (ts & Ts & Ty). exists ts. split; [exact Ts|]. cbn [m_columns set_columns set_df]. intros c t Hc Ht.
    apply in_app_or in Hc. destruct Hc as [Hc|[<-|[]]].
    + destruct (us_types c Hc) as (t' & A & B). apply Ty; [apply Iu; exact Hc|]. rewrite B. f_equal.
      unfold col_type in Ht. destruct (String.eqb_spec c "rid"); [subst; contradiction|].
      cbn [m_df set_columns set_df f_types] in Ht. rewrite project_types_assoc in Ht by exact Hc. rewrite A in Ht. congruence.
    + apply Ty; [apply wf_rid, (tw_wf _ _ T)|exact Ht].
  - intros c t Hc A. cbn [m_df set_columns set_df f_types] in A.
    assert (Hu : In c us). { apply (assoc_In _ reflects_string) in A. apply (in_map fst) in A. rewrite project_types_keys in A by apply us_keys. exact A. }
    rewrite project_types_assoc in A by exact Hu. apply (tw_idtypes _ _ T c t Hc A).
  - cbn [d_rows]. reflexivity.
  - unfold rows_of at 1. cbn [m_df set_columns set_df f_rows]. rewrite Df. reflexivity.
  - intros r Hr. cbn [m_columns set_columns set_df set_rows]. unfold rows_of, set_rows in Hr. cbn [m_df set_df f_rows] in Hr.
    split; [|reflexivity]. rewrite proj_as.
    2:{ intros c Hc. apply in_app_or in Hc. destruct Hc as [Hc|[<-|[]]]; [apply Iu; exact Hc|apply wf_rid, (tw_wf _ _ T)]. }
    unfold as_trow. apply map_ext_in. intros c Hc. f_equal. unfold row_val. destruct (String.eqb_spec c "rid"); [auto|].
    apply in_app_or in Hc. destruct Hc as [Hc|[<-|[]]]; [|congruence]. symmetry. apply project_cell; auto.
Qed.
End Unique.
