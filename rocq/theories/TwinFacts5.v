(** Reads of data sets with the same data, and programs run on both kinds of data
    sets. *)
From Coq Require Import String Ascii.
From Coq Require Import List ZArith QArith Qcanon Bool Permutation Sorted Lia.
From Verif Require Import Py PyFacts MemModel MemSpec MemFacts MemFacts2 MemFacts3 MemFacts4 MemFacts5 MemFacts6 MemFacts7 RankFacts
  DbModel DbSpec DbFacts12 DbFacts13 DbFacts14 DbFacts15 DbFacts16 TwinSpec TwinFacts TwinFacts2 TwinFacts3 TwinFacts4 TwinQuery.
Import ListNotations.
Open Scope string_scope.
Open Scope Z_scope.
Open Scope list_scope.

Lemma same_value_sym a b : same_value a b -> same_value b a.
Proof. destruct a, b; cbn [same_value]; auto. Qed.
Lemma same_value_refl a : same_value a a.
Proof. destruct a; cbn [same_value]; auto. Qed.

Section Reads.
Variables (d : ds) (m : mem).
Hypothesis T : twin d m.
Hypothesis Cd : codes m.
Local Notation cs := (m_columns m).

Lemma asked_same columns : asked d columns = match columns with Some l => l | None => cs end.
Proof. unfold asked. rewrite (tw_cols _ _ T). auto. Qed.

Lemma row_same us r v : incl us cs -> Forall2 (fun c x => exists y, row_val r c = Some y /\ same_value x y) us v ->
  Forall2 same_cell (cells us (as_trow cs r)) (map (@Some value) v).
Proof.
  intros I F. rewrite (cells_as us cs r I). induction F as [|c x us v (y & Ey & S) F IH]; cbn [map]; constructor.
  - rewrite Ey. cbn [same_cell]. apply same_value_sym. exact S.
  - apply IH. intros a Ha. apply I. right. exact Ha.
Qed.

Lemma twin_values columns rows : small m -> (match columns with Some l => incl l cs | None => True end) ->
  Permutation rows (map (cells (asked d columns)) (d_rows d)) ->
  exists vs, MemModel.values m columns = Ok vs /\ alike (ARows rows) (ARows (cells_of vs)).
Proof.
  intros Sm Ic P. rewrite asked_same in P. set (us := match columns with Some l => l | None => cs end) in *.
  assert (Iu : incl us cs) by (unfold us; destruct columns; [exact Ic|apply incl_refl]).
  destruct (values_ok m us (tw_wf _ _ T) Iu (fun c _ => Sm c)) as (vs & V & _ & F).
  assert (V' : MemModel.values m columns = Ok vs).
  { rewrite <- V. unfold us. destruct columns; [auto|]. unfold MemModel.values, MemModel.handle_columns.
    rewrite (forallb_col_in m cs) by auto. reflexivity. }
  exists vs. split; [exact V'|]. cbn [alike].
  assert (P2 : Permutation rows (map (cells us) (map (as_trow cs) (rows_of m)))).
  { eapply Permutation_trans; [exact P|]. apply Permutation_map. apply (tw_rows _ _ T). }
  assert (G : Forall2 (Forall2 same_cell) (map (cells us) (map (as_trow cs) (rows_of m))) (cells_of vs)).
  { unfold cells_of. rewrite map_map. clear - F Iu. induction F as [|r v l vs H F IH]; cbn [map]; constructor; [|exact IH].
    apply row_same; auto. }
  clear - P2 G. apply Permutation_sym in P2.
  revert G. generalize (cells_of vs). induction P2 as [|x l l' P IH|x y l|l l' l'' P1 IH1 P2 IH2]; intros z G.
  - exists z. inversion G; subst. auto.
  - inversion G as [|? b ? z' H1 H2]; subst. destruct (IH z' H2) as (y' & Py & Fy). exists (b :: y'). split; [constructor; exact Py|constructor; auto].
  - inversion G as [|? b ? z1 H1 G1]; subst. inversion G1 as [|? b2 ? z2 H2 G2]; subst. exists (b2 :: b :: z2). split; [apply perm_swap|constructor; auto].
  - destruct (IH1 z G) as (y & Py & Fy). destruct (IH2 y Fy) as (y2 & Py2 & Fy2). exists y2. split; [eapply Permutation_trans; eauto|auto].
Qed.

Lemma twin_select_one cds columns row : cds <> [] -> queried m cds -> small m ->
  (match columns with Some l => incl l cs | None => True end) -> (length (filter (sat cds) (rows_of m)) <= 1)%nat ->
  match row with
  | None => forall r, In r (d_rows d) -> forallb (holds r) cds = false
  | Some v => exists r, In r (d_rows d) /\ forallb (holds r) cds = true /\ v = cells (asked d columns) r
  end ->
  exists o, MemModel.select_one m (query_text cds) columns = Ok o /\ alike (ARow row) (ARow (option_map (map (@Some value)) o)).
Proof.
  intros Nc Q Sm Ic L R. pose proof (proj1 Q) as Q1. rewrite asked_same in R. set (us := match columns with Some l => l | None => cs end) in *.
  assert (Iu : incl us cs) by (unfold us; destruct columns; [exact Ic|apply incl_refl]).
  unfold MemModel.select_one.
  assert (Hc : MemModel.handle_columns m columns = Ok us).
  { unfold MemModel.handle_columns, us. destruct columns as [l|]; [|auto]. rewrite (forallb_col_in m l) by exact Ic. auto. }
  rewrite Hc. cbn [bind]. rewrite (apply_query_coded m cds (tw_wf _ _ T) (tw_idtypes _ _ T) Cd Nc Q). cbn [bind f_rows].
  destruct (filter (sat cds) (rows_of m)) as [|r0 rest] eqn:F.
  - exists None. split; [reflexivity|]. cbn [option_map]. destruct row as [v|]; [|exact Logic.I]. destruct R as (x & Hx & Hs & _).
    apply (twin_row d m T) in Hx. destruct Hx as (r & Hr & ->). rewrite (holds_sats d m T cds r Q1 Hr) in Hs.
    assert (X : In r (filter (sat cds) (rows_of m))) by (apply filter_In; auto). rewrite F in X. contradiction.
  - assert (H0 : In r0 (rows_of m) /\ sat cds r0 = true). { apply filter_In. rewrite F. left. auto. }
    destruct H0 as [H0 H1]. destruct (col_types_ok m (df_columns cs) (tw_wf _ _ T)) as [ts Ts]. { intros c Hin. apply filter_In in Hin. tauto. }
    rewrite Ts. cbn [bind].
    destruct (row_record_ok m (common_type ts) us r0 (tw_wf _ _ T) H0 Iu (fun c _ => Sm c)) as (v0 & E0 & F0). rewrite E0. cbn [bind].
    exists (Some v0). split; [reflexivity|]. cbn [option_map]. destruct row as [v|].
    + destruct R as (x & Hx & Hs & ->). apply (twin_row d m T) in Hx. destruct Hx as (r & Hr & ->).
      rewrite (holds_sats d m T cds r Q1 Hr) in Hs.
      assert (X : In r (filter (sat cds) (rows_of m))) by (apply filter_In; auto). rewrite F in X.
      destruct rest as [|r1 rest]; [|cbn [length] in L; lia]. destruct X as [<-|[]]. cbn [alike]. apply row_same; auto.
    + exfalso. specialize (R (as_trow cs r0)). rewrite (holds_sats d m T cds r0 Q1 H0), H1 in R.
      assert (X : In (as_trow cs r0) (d_rows d)) by (apply (twin_row d m T); eauto). specialize (R X). discriminate.
Qed.

Lemma twin_count us : incl us cs -> ~ In "rid" us -> us <> [] ->
  MemModel.count_unique m (Some us) = Ok (length (nodup cells_dec (map (cells us) (d_rows d)))).
Proof.
  intros I N Ne. unfold MemModel.count_unique. rewrite (unique_ok m us (tw_wf _ _ T) Ne N I). cbn [bind]. f_equal.
  unfold mem_len, rows_of at 1. cbn [m_df set_columns set_df f_rows]. rewrite map_length.
  rewrite <- (map_length (row_key us)), drop_duplicates_keys.
  rewrite (nodup_perm_length cells_dec _ _ (Permutation_map (cells us) (tw_rows _ _ T))). rewrite map_map.
  rewrite (map_ext (fun r => cells us (as_trow cs r)) (row_key us)).
  - apply Permutation_length, NoDup_Permutation; [apply dedup_NoDup, reflects_key|apply NoDup_nodup|].
    intro x. rewrite (dedup_In _ reflects_key), nodup_In. tauto.
  - intro r. rewrite (cells_as us cs r I). unfold row_key. apply map_ext_in. intros c Hc. unfold row_val.
    destruct (String.eqb_spec c "rid"); [subst; contradiction|auto].
Qed.

Lemma key_num v t : type_of v = t -> t <> DObj -> key_of v = inl (num v).
Proof. destruct v; cbn [type_of]; intros <- N; [reflexivity|reflexivity|congruence]. Qed.
Lemma num_same v v' t : type_of v = t -> type_of v' = t -> t <> DObj -> num v = num v' -> same_value v v'.
Proof. destruct v, v'; cbn [type_of]; intros <- E N; try discriminate; try congruence; unfold num; cbn [num_of same_value]; congruence. Qed.

Lemma twin_max c t v : In c cs -> col_type m c = Ok t -> t <> DObj -> rows_of m <> [] ->
  extreme Datatypes.Gt c (d_rows d) v -> exists v', mem_max m c = Ok v' /\ same_cell v v'.
Proof.
  intros Ic Ht Nt Ne X. pose proof (tw_wf _ _ T) as W. destruct (max_spec m c t W Ic Ht Nt Ne) as (v' & r' & E & Hr' & Er' & Mx).
  exists (Some v'). split; [exact E|].
  assert (Tv : forall r y, In r (rows_of m) -> row_val r c = Some y -> type_of y = t).
  { intros r y Hr Ey. destruct (wf_row_val m c t r W Ht Hr) as (z & Ez & Tz). congruence. }
  destruct v as [v|]; unfold extreme in X.
  - destruct X as ((row & Hrow & Erow) & Bx). apply (twin_row d m T) in Hrow. destruct Hrow as (r & Hr & ->). rewrite (tcell_as cs r c Ic) in Erow.
    cbn [same_cell]. apply (num_same v v' t); [exact (Tv r v Hr Erow)|exact (Tv r' v' Hr' Er')|exact Nt|].
    apply Qcle_antisym; [apply (Mx r v Hr Erow)|].
    specialize (Bx (as_trow cs r') v'). rewrite (tcell_as cs r' c Ic) in Bx.
    specialize (Bx ltac:(apply (twin_row d m T); eauto) Er'). rewrite (key_num v t (Tv r v Hr Erow) Nt), (key_num v' t (Tv r' v' Hr' Er') Nt) in Bx. cbn [key_compare] in Bx.
    apply Qcle_alt. exact Bx.
  - exfalso. specialize (X (as_trow cs r') ltac:(apply (twin_row d m T); eauto)). rewrite (tcell_as cs r' c Ic) in X. congruence.
Qed.
Lemma twin_min c t v : In c cs -> col_type m c = Ok t -> t <> DObj -> rows_of m <> [] ->
  extreme Datatypes.Lt c (d_rows d) v -> exists v', mem_min m c = Ok v' /\ same_cell v v'.
Proof.
  intros Ic Ht Nt Ne X. pose proof (tw_wf _ _ T) as W. destruct (min_spec m c t W Ic Ht Nt Ne) as (v' & r' & E & Hr' & Er' & Mx).
  exists (Some v'). split; [exact E|].
  assert (Tv : forall r y, In r (rows_of m) -> row_val r c = Some y -> type_of y = t).
  { intros r y Hr Ey. destruct (wf_row_val m c t r W Ht Hr) as (z & Ez & Tz). congruence. }
  destruct v as [v|]; unfold extreme in X.
  - destruct X as ((row & Hrow & Erow) & Bx). apply (twin_row d m T) in Hrow. destruct Hrow as (r & Hr & ->). rewrite (tcell_as cs r c Ic) in Erow.
    cbn [same_cell]. apply (num_same v v' t); [exact (Tv r v Hr Erow)|exact (Tv r' v' Hr' Er')|exact Nt|].
    apply Qcle_antisym; [|apply (Mx r v Hr Erow)].
    specialize (Bx (as_trow cs r') v'). rewrite (tcell_as cs r' c Ic) in Bx.
    specialize (Bx ltac:(apply (twin_row d m T); eauto) Er'). rewrite (key_num v t (Tv r v Hr Erow) Nt), (key_num v' t (Tv r' v' Hr' Er') Nt) in Bx. cbn [key_compare] in Bx.
    apply Qcge_alt. exact Bx.
  - exfalso. specialize (X (as_trow cs r') ltac:(apply (twin_row d m T); eauto)). rewrite (tcell_as cs r' c Ic) in X. congruence.
Qed.
End Reads.

(** ** One call *)
Definition pair_ok (d : option ds) (m : option mem) : Prop :=
  match d, m with None, None => True | Some d, Some m => twin d m /\ codes m | _, _ => False end.
Definition twins (b : book) (mb : mbook) : Prop := forall i, pair_ok (b i) (mb i).

Lemma twins_note b mb i d m : twins b mb -> pair_ok d m -> twins (note b i d) (mnote mb i m).
Proof. intros H P j. unfold note, mnote. destruct (Nat.eqb j i); auto. Qed.
Lemma twins_some b mb i d : twins b mb -> b i = Some d -> exists m, mb i = Some m /\ twin d m /\ codes m.
Proof. intros H E. specialize (H i). rewrite E in H. cbn [pair_ok] in H. destruct (mb i) as [m|]; [eauto|contradiction]. Qed.
Lemma twins_mem b mb i m : twins b mb -> mb i = Some m -> exists d, b i = Some d /\ twin d m /\ codes m.
Proof. intros H E. specialize (H i). rewrite E in H. destruct (b i) as [d|]; [eauto|contradiction]. Qed.

Lemma amap_out {A} (f : A -> out) (p : M A) w w' a : amap f p w = (w', Ok a) -> exists x, a = f x.
Proof.
  unfold amap, andthen, ret. destruct (p w) as [w1 [x|e]]; intro H; [|discriminate]. injection H as _ <-. eauto.
Qed.

Section Step.
Variable inode : string -> nat.

(** The result of a call with an argument [copy]. *)
Lemma placed_twins b mb i (cp : bool) j d' r : twins b mb -> (if cp then True else j = i) ->
  (exists m', r = Ok m' /\ twin d' m' /\ codes m') ->
  exists mb' a', placed mb j i cp r = (mb', Ok a') /\ alike (ADs j) a' /\
    twins (result b i cp (Ok (ADs j)) d') mb'.
Proof.
  intros H J (m' & -> & T). unfold placed, result. destruct cp.
  - eexists. eexists. split; [reflexivity|]. split; [reflexivity|]. apply twins_note; auto.
  - subst j. eexists. eexists. split; [reflexivity|]. split; [reflexivity|]. apply twins_note; auto.
Qed.

Lemma twin_step ord w b mb o w' a : (forall l, Permutation (ord l) l) -> Inv inode w b -> twins b mb -> safe inode w b o -> fits mb o ->
  exec inode ord o w = (w', Ok a) ->
  exists mb' a', mem_exec mb (name_of a) o = (mb', Ok a') /\ alike a a' /\ twins (effect inode w b o (Ok a)) mb'.
Proof.
  intros P I Tw Sf Ft E. pose proof (answer_of inode w b ord o w' (Ok a) I P Sf E) as [Ra Fr].
  destruct o; cbn [safe DbSpec.safe fits exec subject fresh_result] in *.
  - (* create *) destruct (amap_out _ _ _ _ _ E) as [j ->]. cbn [mem_exec name_of effect]. eexists. eexists. split; [reflexivity|]. split; [reflexivity|].
    apply twins_note; [exact Tw|]. cbn [pair_ok]. destruct Sf as (_ & Nd & Hid & Hrid). destruct Ft as (F1 & F2 & F3 & F4 & F5).
    split; [apply twin_create; assumption|apply codes_off; reflexivity].
  - contradiction.
  - (* copy *) destruct (amap_out _ _ _ _ _ E) as [j ->]. destruct (b i) as [d|] eqn:Hb; [|contradiction].
    destruct (twins_some _ _ _ _ Tw Hb) as (m & Hm & T & Cd). cbn [mem_exec name_of effect]. rewrite Hm, Hb.
    apply (placed_twins b mb i true); [exact Tw|exact Logic.I|]. exists (mem_copy m). split; [reflexivity|]. split; [apply twin_same_copy; exact T|exact Cd].
  - (* select *) destruct (amap_out _ _ _ _ _ E) as [j ->]. destruct Sf as (d & Hb & Nc & _ & _). destruct (twins_some _ _ _ _ Tw Hb) as (m & Hm & T & Cd).
    destruct Ft as (m0 & Hm0 & Q1 & Q2). rewrite Hm in Hm0. injection Hm0 as <-. cbn [mem_exec name_of effect]. rewrite Hm, Hb.
    apply placed_twins; [exact Tw| |].
    + destruct cp; [exact Logic.I|]. specialize (Fr j eq_refl). congruence.
    + destruct (select_coded m cs (tw_wf _ _ T) (tw_idtypes _ _ T) Cd Nc (conj Q1 Q2)) as [S1 S2]. destruct cp.
      * eexists. split; [exact S1|]. split; [|apply (codes_filter (mem_copy m) _ Cd)]. change (rows_of m) with (rows_of (mem_copy m)). apply (twin_filter d (mem_copy m) (twin_same_copy d m T)).
        intros r Hr. change (rows_of (mem_copy m)) with (rows_of m) in Hr. change (m_columns (mem_copy m)) with (m_columns m).
        apply (holds_sats d m T); auto.
      * eexists. split; [exact S2|]. split; [|apply (codes_filter m _ Cd)]. apply (twin_filter d m T). intros r Hr. apply (holds_sats d m T); auto.
  - (* drop *) destruct (amap_out _ _ _ _ _ E) as [j ->]. destruct (b i) as [d|] eqn:Hb; [|contradiction].
    destruct (twins_some _ _ _ _ Tw Hb) as (m & Hm & T & Cd). cbn [mem_exec name_of effect]. rewrite Hm, Hb.
    apply placed_twins; [exact Tw| |].
    + destruct cp; [exact Logic.I|]. specialize (Fr j eq_refl). congruence.
    + eexists. split; [reflexivity|]. split; [|destruct cp; apply (codes_filter _ _ Cd)]. destruct cp.
      * apply (twin_filter d (mem_copy m) (twin_same_copy d m T)). intros r Hr. rewrite (listed_mem d (mem_copy m) (twin_same_copy d m T)). reflexivity.
      * apply (twin_filter d m T). intros r Hr. rewrite (listed_mem d m T). reflexivity.
  - (* unique *) destruct (amap_out _ _ _ _ _ E) as [[j k] ->]. cbn [fst] in *. destruct Sf as (d & Hb & Nd & Nn).
    destruct (twins_some _ _ _ _ Tw Hb) as (m & Hm & T & Cd). destruct Ft as (m0 & us & Hm0 & -> & Iu & Nr). rewrite Hm in Hm0. injection Hm0 as <-.
    cbn [asked] in Nd, Nn. cbn [mem_exec name_of effect]. rewrite Hm, Hb. cbn [asked].
    assert (Fb : forallb (fun c => existsb (String.eqb c) (d_cols d)) us = true).
    { apply forallb_forall. intros c Hc. apply existsb_exists. exists c. split; [rewrite (tw_cols _ _ T); apply Iu; exact Hc|apply String.eqb_refl]. }
    rewrite Fb. apply placed_twins; [exact Tw| |].
    + destruct cp; [exact Logic.I|]. specialize (Fr j eq_refl). congruence.
    + destruct cp.
      * eexists. split; [apply (unique_ok m us (tw_wf _ _ T) Nn Nr Iu)|].
        split; [apply (twin_unique d (mem_copy m) us (twin_same_copy d m T) Nd Nr Iu)|].
        apply (codes_unique (mem_copy m) us Cd Iu Nd). intros c Hc. apply project_types_assoc. exact Hc.
      * eexists. split; [apply (unique_inplace_ok m us (tw_wf _ _ T) Nn Nr Iu)|]. split; [apply (twin_unique d m us T Nd Nr Iu)|].
        apply (codes_unique m us Cd Iu Nd). intros c Hc. apply project_types_assoc. exact Hc.
  - (* assign *) destruct (amap_out _ _ _ _ _ E) as [j ->]. destruct Sf as (_ & _ & d & Hb & _ & Iui & _).
    destruct (twins_some _ _ _ _ Tw Hb) as (m & Hm & T & Cd). rewrite (tw_cols _ _ T) in Iui.
    assert (Iu : In "user" (m_columns m)) by (apply Iui; left; auto). assert (Ii : In "item" (m_columns m)) by (apply Iui; right; left; auto).
    destruct (col_type_ok m "user" (tw_wf _ _ T) Iu) as [tu Tu]. destruct (col_type_ok m "item" (tw_wf _ _ T) Ii) as [ti Ti].
    cbn [mem_exec name_of effect]. rewrite Hm, Hb, (assign_ok m tu ti Tu Ti). eexists. eexists. split; [reflexivity|]. split; [exact Logic.I|].
    apply twins_note; [exact Tw|]. split; [apply (twin_assign d m T tu ti Tu Ti Iu Ii)|apply (codes_assigned m (tw_wf _ _ T) Iu Ii)].
  - (* remove *) destruct (amap_out _ _ _ _ _ E) as [j ->]. destruct Sf as (d & l & Hb & Hui & _).
    destruct (twins_some _ _ _ _ Tw Hb) as (m & Hm & T & Cd). rewrite (tw_cols _ _ T) in Hui. destruct (twin_remove d m T Hui) as (m' & Em & Tm).
    cbn [mem_exec name_of effect]. rewrite Hm, Hb, Em. eexists. eexists. split; [reflexivity|]. split; [exact Logic.I|]. apply twins_note; [exact Tw|].
    split; [exact Tm|apply (codes_remove m m' Em)].
  - (* apply *) destruct (amap_out _ _ _ _ _ E) as [j ->]. destruct Sf as (_ & d & Hb & Hty). destruct (twins_some _ _ _ _ Tw Hb) as (m & Hm & T & Cd).
    destruct Ft as (m0 & Hm0 & Ic & Nr & Ne & Hf). rewrite Hm in Hm0. injection Hm0 as <-.
    destruct (twin_apply d m T c f Ic Nr Ne Hf Hty) as (m' & Em & Tm). cbn [mem_exec name_of effect]. rewrite Hm, Hb, Em.
    assert (X : (negb (existsb (String.eqb c) (d_cols d)) || existsb (String.eqb c) ["rid"; "uid"; "iid"; "user"; "item"])%bool = false).
    { apply orb_false_iff. split.
      - apply negb_false_iff. apply existsb_exists. exists c. split; [rewrite (tw_cols _ _ T); exact Ic|apply String.eqb_refl].
      - apply not_true_is_false. intro X. apply existsb_exists in X. destruct X as (x & Hx & Ex). apply String.eqb_eq in Ex. subst x. apply Nr. exact Hx. }
    rewrite X. eexists. eexists. split; [reflexivity|]. split; [exact Logic.I|]. apply twins_note; [exact Tw|].
    split; [exact Tm|apply (codes_apply m c f m' (tw_cache _ _ T) Cd Em)].
  - contradiction.
  - (* close *) destruct (amap_out _ _ _ _ _ E) as [j ->]. cbn [mem_exec name_of effect]. eexists. eexists. split; [reflexivity|]. split; [exact Logic.I|].
    apply twins_note; [exact Tw|exact Logic.I].
  - (* values *) destruct Ft as (m & Hm & Sm & Ic). destruct (twins_mem _ _ _ _ Tw Hm) as (d & Hb & T & Cd).
    destruct (Ra i d eq_refl Hb) as (rows & -> & Pr). destruct (twin_values d m T columns rows Sm Ic Pr) as (vs & V & A).
    cbn [mem_exec name_of effect]. rewrite Hm, V. cbn [answer]. eexists. eexists. split; [reflexivity|]. split; [exact A|exact Tw].
  - (* generator *) destruct Ft as (m & Hm & Sm & Ic). destruct (twins_mem _ _ _ _ Tw Hm) as (d & Hb & T & Cd).
    destruct (Ra i d eq_refl Hb) as (rows & -> & Pr). destruct (twin_values d m T columns rows Sm Ic Pr) as (vs & V & A).
    cbn [mem_exec name_of effect]. rewrite Hm, V. cbn [answer]. eexists. eexists. split; [reflexivity|]. split; [exact A|exact Tw].
  - (* close generator *) destruct (amap_out _ _ _ _ _ E) as [j ->]. cbn [mem_exec name_of effect]. eexists. eexists. split; [reflexivity|]. split; [exact Logic.I|exact Tw].
  - (* select_one *) destruct Sf as (d & Hb & Nc & _ & _). destruct Ft as (m & Hm & Q & Sm & Ic & L). destruct (twins_some _ _ _ _ Tw Hb) as (m0 & Hm0 & T & Cd).
    rewrite Hm in Hm0. injection Hm0 as <-. destruct (Ra i d eq_refl Hb) as (row & -> & R).
    destruct (twin_select_one d m T Cd cs columns row Nc Q Sm Ic L R) as (x & V & A).
    cbn [mem_exec name_of effect]. rewrite Hm, V. cbn [answer]. eexists. eexists. split; [reflexivity|]. split; [exact A|exact Tw].
  - (* len *) destruct (b i) as [d|] eqn:Hb; [|contradiction]. destruct (twins_some _ _ _ _ Tw Hb) as (m & Hm & T & Cd).
    specialize (Ra i d eq_refl Hb). cbn [right_answer] in Ra. subst a. cbn [mem_exec name_of effect]. rewrite Hm.
    eexists. eexists. split; [reflexivity|]. split; [|exact Tw]. cbn [alike]. apply (twin_length d m T).
  - (* count_unique *) destruct Sf as (d & Hb & Nd & Nn). destruct Ft as (m & us & Hm & -> & Iu & Nr). destruct (twins_some _ _ _ _ Tw Hb) as (m0 & Hm0 & T & Cd).
    rewrite Hm in Hm0. injection Hm0 as <-. specialize (Ra i d eq_refl Hb). cbn [right_answer asked] in *. subst a.
    cbn [mem_exec name_of effect]. rewrite Hm, (twin_count d m T us Iu Nr Nn). eexists. eexists. split; [reflexivity|]. split; [reflexivity|exact Tw].
  - (* max *) destruct Ft as (m & t & Hm & Ic & Ht & Nt & Ne). destruct (twins_mem _ _ _ _ Tw Hm) as (d & Hb & T & Cd).
    destruct (Ra i d eq_refl Hb) as (v & -> & X). destruct (twin_max d m T c t v Ic Ht Nt Ne X) as (v' & V & S).
    cbn [mem_exec name_of effect]. rewrite Hm, V. eexists. eexists. split; [reflexivity|]. split; [exact S|exact Tw].
  - (* min *) destruct Ft as (m & t & Hm & Ic & Ht & Nt & Ne). destruct (twins_mem _ _ _ _ Tw Hm) as (d & Hb & T & Cd).
    destruct (Ra i d eq_refl Hb) as (v & -> & X). destruct (twin_min d m T c t v Ic Ht Nt Ne X) as (v' & V & S).
    cbn [mem_exec name_of effect]. rewrite Hm, V. eexists. eexists. split; [reflexivity|]. split; [exact S|exact Tw].
Qed.

(** ** Programs *)
Lemma both_inv w b mb : both inode w b mb -> Inv inode w b /\ twins b mb.
Proof.
  induction 1 as [fs F|w b mb ord o w' a H [I Tw] P Sf Ft E].
  - split; [apply Inv_start; exact F|]. intro i. exact Logic.I.
  - destruct (twin_step ord w b mb o w' a P I Tw Sf Ft E) as (mb' & a' & Em & _ & Tw'). rewrite Em. cbn [fst]. split; [|exact Tw'].
    apply (step inode ord w b o w' (Ok a) P I Sf E).
Qed.
Lemma both_answers w b mb ord o w' a : both inode w b mb -> (forall l, Permutation (ord l) l) -> safe inode w b o -> fits mb o ->
  exec inode ord o w = (w', Ok a) -> exists mb' a', mem_exec mb (name_of a) o = (mb', Ok a') /\ alike a a'.
Proof.
  intros H P Sf Ft E. destruct (both_inv w b mb H) as [I Tw].
  destruct (twin_step ord w b mb o w' a P I Tw Sf Ft E) as (mb' & a' & Em & A & _). eauto.
Qed.
End Step.
