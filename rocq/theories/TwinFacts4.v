(** Removing internal ids, apply and new data sets, on data sets with the same data. *)
From Coq Require Import String Ascii.
From Coq Require Import List ZArith QArith Qcanon Bool Permutation Sorted Lia.
From Verif Require Import Py PyFacts MemModel MemSpec MemFacts MemFacts2 MemFacts3 MemFacts4 MemFacts5 MemFacts6 RankFacts
  DbModel DbSpec DbFacts12 DbFacts16 TwinSpec TwinFacts TwinFacts2 TwinFacts3.
Import ListNotations.
Open Scope string_scope.
Open Scope Z_scope.
Open Scope list_scope.

(** ** remove_internal_ids *)
Definition is_id (c : string) : bool := mem_b String.eqb c ["uid"; "iid"].
Lemma without_is_id cs : without_ids cs = filter (fun c => negb (is_id c)) cs.
Proof. unfold without_ids, is_id. apply filter_ext. intro c. cbn [mem_b]. rewrite orb_false_r. auto. Qed.
Lemma remove_first_none c l : ~ In c l -> remove_first String.eqb c l = l.
Proof.
  induction l as [|x l IH]; intro H; cbn [remove_first]; [auto|]. destruct (String.eqb_spec c x) as [->|]; [exfalso; apply H; left; auto|].
  rewrite IH; auto. intro X. apply H. right. auto.
Qed.
Lemma remove_first_filter c l : NoDup l -> remove_first String.eqb c l = filter (fun x => negb (String.eqb x c)) l.
Proof.
  induction 1 as [|x l N D IH]; cbn [remove_first filter]; [auto|]. destruct (String.eqb_spec c x) as [<-|Ne].
  - rewrite String.eqb_refl. cbn [negb]. symmetry. apply filter_id. intros y Hy. apply negb_true_iff, String.eqb_neq. intros ->. contradiction.
  - destruct (String.eqb_spec x c); [congruence|]. cbn [negb]. rewrite IH. auto.
Qed.
Lemma filter_filter {A} (f g : A -> bool) l : filter f (filter g l) = filter (fun x => g x && f x) l.
Proof. induction l as [|a l IH]; cbn [filter]; [auto|]. destruct (g a); cbn [filter andb]; destruct (f a); rewrite IH; auto. Qed.
Lemma remove_both l : NoDup l -> remove_first String.eqb "iid" (remove_first String.eqb "uid" l) = without_ids l.
Proof.
  intro N. rewrite (remove_first_filter "uid" l N). rewrite remove_first_filter by (apply NoDup_filter; exact N).
  rewrite filter_filter. unfold without_ids. apply filter_ext. intro c. rewrite negb_orb. auto.
Qed.
Lemma assoc_filter {B} (p : string -> bool) (l : list (string * B)) c :
  p c = true -> assoc String.eqb c (filter (fun q => p (fst q)) l) = assoc String.eqb c l.
Proof.
  intro H. induction l as [|[k v] l IH]; cbn [filter assoc fst]; [auto|]. destruct (String.eqb_spec c k) as [<-|N].
  - rewrite H. cbn [assoc]. rewrite String.eqb_refl. auto.
  - destruct (p k); [cbn [assoc]; destruct (String.eqb_spec c k); [congruence|]; exact IH|exact IH].
Qed.
Lemma map_fst_filter {B} (p : string -> bool) (l : list (string * B)) :
  map fst (filter (fun q => p (fst q)) l) = filter p (map fst l).
Proof. induction l as [|[k v] l IH]; cbn [filter map fst]; [auto|]. destruct (p k); cbn [map fst]; rewrite IH; auto. Qed.

Section Ops.
Variables (d : ds) (m : mem).
Hypothesis T : twin d m.
Local Notation cs := (m_columns m).

Lemma twin_remove : (In "uid" cs <-> In "iid" cs) ->
  exists m', remove_internal_ids m = Ok m' /\
    twin (mkDs (without_ids (d_cols d)) (d_types d) false (map (proj (without_ids (d_cols d))) (d_rows d))) m'.
Proof.
  intro Hi. pose proof (tw_wf _ _ T) as W. pose proof (tw_idtypes _ _ T) as It. rewrite (tw_cols _ _ T). unfold remove_internal_ids.
  destruct (mem_b String.eqb "uid" cs) eqn:U.
  - assert (Iu : In "uid" cs) by (apply (mem_b_In _ reflects_string); exact U). pose proof (proj1 Hi Iu) as Ii.
    destruct (col_type_ok m "uid" W Iu) as [tu Tu]. destruct (col_type_ok m "iid" W Ii) as [ti Ti]. rewrite Tu, Ti. cbn [bind].
    rewrite (proj2 (mem_b_In _ reflects_string "iid" cs) Ii). cbn [negb]. eexists. split; [reflexivity|].
    assert (Ct : forall c, In c (without_ids cs) -> is_id c = false).
    { intros c H. rewrite without_is_id in H. apply filter_In in H. destruct H as [_ H]. apply negb_true_iff in H. exact H. }
    eapply twin_map; [exact T| | | | | | | | |].
    + constructor; [constructor| |]; cbn [m_df m_columns set_df set_columns f_types f_rows].
      * change (fun p : string * dtype => negb (mem_b String.eqb (fst p) ["uid"; "iid"])) with (fun p : string * dtype => negb (is_id (fst p))).
        rewrite (map_fst_filter (fun c => negb (is_id c))). apply NoDup_filter. apply (wf_names _ (wf_df _ W)).
      * change (fun p : string * dtype => negb (mem_b String.eqb (fst p) ["uid"; "iid"])) with (fun p : string * dtype => negb (is_id (fst p))).
        rewrite (map_fst_filter (fun c => negb (is_id c))). intro H. apply filter_In in H. apply (wf_norid _ (wf_df _ W)). apply H.
      * intros r Hr. apply in_map_iff in Hr. destruct Hr as (r0 & <- & Hr0). unfold drop_cells. cbn [r_cells].
        change (fun p : string * value => negb (mem_b String.eqb (fst p) ["uid"; "iid"])) with (fun p : string * value => negb (is_id (fst p))).
        change (fun p : string * dtype => negb (mem_b String.eqb (fst p) ["uid"; "iid"])) with (fun p : string * dtype => negb (is_id (fst p))).
        rewrite !(map_fst_filter (fun c => negb (is_id c))). f_equal. apply (wf_keys _ (wf_df _ W)). exact Hr0.
      * intros r c t Hr Hc. apply in_map_iff in Hr. destruct Hr as (r0 & <- & Hr0). apply filter_In in Hc. destruct Hc as [Hc Hn]. cbn [fst] in Hn.
        destruct (wf_typed _ (wf_df _ W) r0 c t Hr0 Hc) as (v & Ev & Tv). exists v. split; [|exact Tv]. unfold cell, drop_cells. cbn [r_cells].
        rewrite (assoc_filter (fun c => negb (mem_b String.eqb c ["uid"; "iid"]))) by exact Hn. exact Ev.
      * rewrite remove_both by apply (wf_cols_nodup _ W). unfold without_ids. apply NoDup_filter, (wf_cols_nodup _ W).
      * intro c. rewrite remove_both by apply (wf_cols_nodup _ W). rewrite without_is_id.
        change (fun p : string * dtype => negb (mem_b String.eqb (fst p) ["uid"; "iid"])) with (fun p : string * dtype => negb (is_id (fst p))).
        rewrite (map_fst_filter (fun c => negb (is_id c))), !filter_In, (wf_cols _ W). split; [tauto|]. intros [->|H]; [|tauto].
        split; [auto|reflexivity].
    + cbn [m_cache set_df set_columns]. apply (tw_cache _ _ T).
    + cbn [d_cols m_columns set_columns set_df]. rewrite remove_both by apply (wf_cols_nodup _ W). reflexivity.
    + reflexivity.
    + destruct (tw_types _ _ T) as (ts & Ts & Ty). exists ts. split; [exact Ts|]. cbn [m_columns set_columns set_df].
      rewrite remove_both by apply (wf_cols_nodup _ W). intros c t Hc Ht. apply Ty.
      * unfold without_ids in Hc. apply filter_In in Hc. apply Hc.
      * unfold col_type in *. destruct (String.eqb c "rid"); [exact Ht|]. cbn [m_df set_columns set_df f_types] in Ht.
        rewrite (assoc_filter (fun c => negb (mem_b String.eqb c ["uid"; "iid"]))) in Ht; [exact Ht|]. apply negb_true_iff. apply Ct; auto.
    + intros c t Hc A. cbn [m_df set_columns set_df f_types] in A. exfalso. apply (assoc_In _ reflects_string) in A. apply filter_In in A.
      destruct A as [_ A]. cbn [fst] in A. apply negb_true_iff in A. apply (mem_b_false _ reflects_string) in A. contradiction.
    + cbn [d_rows]. reflexivity.
    + unfold rows_of at 1. cbn [m_df set_columns set_df f_rows]. reflexivity.
    + intros r Hr. split; [|reflexivity]. cbn [m_columns set_columns set_df]. rewrite remove_both by apply (wf_cols_nodup _ W).
      rewrite proj_as. 2:{ intros c Hc. unfold without_ids in Hc. apply filter_In in Hc. apply Hc. }
      unfold as_trow. apply map_ext_in. intros c Hc. f_equal. unfold row_val. destruct (String.eqb c "rid"); [reflexivity|].
      unfold cell, drop_cells. cbn [r_cells]. rewrite (assoc_filter (fun c => negb (mem_b String.eqb c ["uid"; "iid"]))); [reflexivity|].
      apply negb_true_iff. apply Ct; auto.
  - assert (Nu : ~ In "uid" cs) by (apply (mem_b_false _ reflects_string); exact U). assert (Ni : ~ In "iid" cs) by tauto.
    assert (Ew : without_ids cs = cs).
    { unfold without_ids. apply filter_id. intros c Hc. apply negb_true_iff, orb_false_iff. split; apply String.eqb_neq; intros ->; contradiction. }
    rewrite Ew. eexists. split; [reflexivity|].
    eapply (twin_map d m _ _ (fun r => r)); [exact T| | | | | | | | |].
    + destruct W as [W1 W2 W3]. constructor; assumption.
    + apply (tw_cache _ _ T).
    + reflexivity.
    + reflexivity.
    + exact (tw_types _ _ T).
    + exact It.
    + cbn [d_rows]. reflexivity.
    + symmetry. apply map_id.
    + intros r Hr. split; [|reflexivity]. cbn [m_columns]. apply proj_as. apply incl_refl.
Qed.

(** ** apply *)
Definition applied (c : string) (f : value -> res value) (r : row) : row :=
  match cell r c with
  | Some v => match f v with Ok v' => set_cell c v' r | Err _ => r end
  | None => r
  end.

Lemma common_one t ts : ts <> [] -> (forall x, In x ts -> x = t) -> common_type ts = t.
Proof.
  intros N H. assert (I : In t ts). { destruct ts as [|x ts]; [contradiction|]. rewrite <- (H x (or_introl eq_refl)) at 1. left. auto. }
  assert (EX : forall d, existsb (dtype_eqb d) ts = dtype_eqb d t).
  { intros e. apply eq_true_iff_eq. rewrite existsb_exists. split; [intros (x & H1 & H2); rewrite (H x H1) in H2; exact H2|intro X; exists t; auto]. }
  unfold common_type. rewrite !EX. destruct t; reflexivity.
Qed.

Lemma twin_apply c f : In c cs -> ~ In c read_only -> rows_of m <> [] ->
  (forall r v, In r (rows_of m) -> cell r c = Some v -> exists v', f v = Ok v') ->
  (forall row v v', In row (d_rows d) -> tcell row c = Some v -> f v = Ok v' -> type_of v' = result_type f c (d_rows d)) ->
  exists m', MemModel.apply_col m c f = (Ok tt, m') /\
    twin (mkDs (d_cols d) (option_map (type_as c (result_type f c (d_rows d))) (d_types d)) (d_ids d) (map (mapped f c) (d_rows d))) m'.
Proof.
  intros Ic Nr Ne Hf Hd. pose proof (tw_wf _ _ T) as W. set (t := result_type f c (d_rows d)) in *.
  assert (Nrid : c <> "rid") by (intros ->; apply Nr; left; auto).
  destruct (col_type_ok m c W Ic) as [ty Ty]. pose proof (col_type_assoc m c ty Nrid Ty) as Ay.
  assert (Hv : forall r, In r (rows_of m) -> exists v v', cell r c = Some v /\ f v = Ok v' /\ type_of v' = t).
  { intros r Hr. destruct (wf_cell m r c ty W Hr Ay) as (v & Ev & _). destruct (Hf r v Hr Ev) as [v' Fv]. exists v, v'. split; [exact Ev|]. split; [exact Fv|].
    apply (Hd (as_trow cs r) v v'); [|rewrite (tcell_as cs r c Ic)|exact Fv].
    - apply (twin_row d m T). exists r. auto.
    - unfold row_val. destruct (String.eqb_spec c "rid"); [contradiction|exact Ev]. }
  assert (M : mapM (apply_row c f) (rows_of m) = Ok (map (applied c f) (rows_of m))).
  { apply mapM_Ok. intros r Hr. destruct (Hv r Hr) as (v & v' & Ev & Fv & _). unfold apply_row, applied. rewrite Ev, Fv. reflexivity. }
  assert (Ac : forall r, In r (rows_of m) -> exists v', cell (applied c f r) c = Some v' /\ type_of v' = t).
  { intros r Hr. destruct (Hv r Hr) as (v & v' & Ev & Fv & Tv). exists v'. unfold applied. rewrite Ev, Fv. split; [apply cell_set_same|exact Tv]. }
  assert (Nt : new_type c (map (applied c f) (rows_of m)) = t).
  { unfold new_type. rewrite map_map. apply common_one.
    - destruct (rows_of m); [contradiction|discriminate].
    - intros x Hx. apply in_map_iff in Hx. destruct Hx as (r & <- & Hr). destruct (Ac r Hr) as (v' & E & Tv). rewrite E. exact Tv. }
  assert (Ar : applied_rows c t (map (applied c f) (rows_of m)) = map (applied c f) (rows_of m)).
  { unfold applied_rows. rewrite map_map. apply map_ext_in. intros r Hr. destruct (Hv r Hr) as (v & v' & Ev & Fv & Tv).
    unfold applied. rewrite Ev, Fv, cell_set_same. replace (upcast t v') with v' by (subst t; rewrite <- Tv; destruct v'; reflexivity).
    apply set_cell_twice. }
  pose proof (apply_col_ok m c f _ Ic Nr Ne (ex_intro _ ty Ty) M) as A. cbv zeta in A. rewrite Nt, Ar in A.
  destruct A as [[_ A]|(_ & C & _)]; [|rewrite (tw_cache _ _ T) in C; contradiction].
  eexists. split; [exact A|].
  assert (Kt : In c (map fst (f_types (m_df m)))). { apply (assoc_In _ reflects_string) in Ay. apply in_map_iff. exists (c, ty). auto. }
  assert (Keys : forall B (x : B) l, In c (map fst l) -> map fst (assoc_set String.eqb c x l) = map fst l).
  { intros B x l H. apply (assoc_set_keys _ reflects_string). exact H. }
  assert (Co : forall r a, a <> c -> cell (applied c f r) a = cell r a).
  { intros r a N. unfold applied. destruct (cell r c) as [v|]; [|auto]. destruct (f v); [|auto]. apply cell_set_other. exact N. }
  assert (Rr : forall r, r_rid (applied c f r) = r_rid r).
  { intro r. unfold applied. destruct (cell r c) as [v|]; [|auto]. destruct (f v); auto. }
  eapply twin_map; [exact T| | | | | | | | |].
  - constructor; [constructor| |]; cbn [m_df m_columns set_df f_types f_rows]; rewrite ?Keys by exact Kt.
    + apply (wf_names _ (wf_df _ W)).
    + apply (wf_norid _ (wf_df _ W)).
    + intros r Hr. apply in_map_iff in Hr. destruct Hr as (r0 & <- & Hr0). pose proof (wf_keys _ (wf_df _ W) r0 Hr0) as K0.
      destruct (Hv r0 Hr0) as (v & v' & Ev & Fv & _). unfold applied. rewrite Ev, Fv. unfold set_cell. cbn [r_cells].
      rewrite Keys; [exact K0|rewrite K0; exact Kt].
    + intros r a t' Hr Ha. apply in_map_iff in Hr. destruct Hr as (r0 & <- & Hr0). apply (assoc_NoDup _ reflects_string) in Ha.
      2:{ rewrite Keys by exact Kt. apply (wf_names _ (wf_df _ W)). }
      destruct (string_dec a c) as [->|N].
      * rewrite (assoc_set_same _ reflects_string) in Ha. injection Ha as <-. apply Ac. exact Hr0.
      * rewrite (assoc_set_other _ reflects_string) in Ha by exact N. rewrite Co by exact N. apply (wf_cell m r0 a t' W Hr0 Ha).
    + apply (wf_cols_nodup _ W).
    + apply (wf_cols _ W).
  - apply (tw_cache _ _ T).
  - apply (tw_cols _ _ T).
  - apply (tw_ids _ _ T).
  - destruct (tw_types _ _ T) as (ts & Ts & Tyy). cbn [d_types]. rewrite Ts. cbn [option_map]. eexists. split; [reflexivity|].
    cbn [m_columns set_df]. intros a t' Ha Ht'. unfold type_as. unfold col_type in Ht'. destruct (String.eqb_spec a "rid") as [->|Nd].
    + injection Ht' as <-. rewrite (assoc_set_other _ reflects_string) by congruence. apply Tyy; auto.
    + cbn [m_df set_df f_types] in Ht'. destruct (string_dec a c) as [->|N].
      * rewrite (assoc_set_same _ reflects_string) in Ht'. injection Ht' as <-. apply (assoc_set_same _ reflects_string).
      * rewrite (assoc_set_other _ reflects_string) in Ht' by exact N. rewrite (assoc_set_other _ reflects_string) by exact N.
        apply Tyy; [exact Ha|]. unfold col_type. destruct (String.eqb_spec a "rid"); [contradiction|exact Ht'].
  - intros a t' Ha A'. cbn [m_df set_df f_types] in A'. destruct (string_dec a c) as [->|N].
    + exfalso. apply Nr. unfold read_only. cbn [In] in *. tauto.
    + rewrite (assoc_set_other _ reflects_string) in A' by exact N. apply (tw_idtypes _ _ T a t' Ha A').
  - cbn [d_rows]. reflexivity.
  - unfold rows_of at 1. cbn [m_df set_df f_rows]. reflexivity.
  - intros r Hr. split; [|apply Rr]. cbn [m_columns set_df]. unfold mapped, as_trow. rewrite map_map. apply map_ext_in. intros a Ha. cbn [fst snd].
    destruct (String.eqb_spec a c) as [->|N].
    + destruct (Hv r Hr) as (v & v' & Ev & Fv & _). unfold row_val. destruct (String.eqb_spec c "rid"); [contradiction|].
      rewrite Ev, Fv. unfold applied. rewrite Ev, Fv, cell_set_same. reflexivity.
    + f_equal. unfold row_val. rewrite Rr, Co by exact N. reflexivity.
Qed.
End Ops.

(** ** New data sets *)
Lemma twin_create cols types rows : NoDup cols ->
  (forall c t, In c ["rid"; "uid"; "iid"] -> assoc String.eqb c types = Some t -> t = DInt) ->
  (forall row, In row rows -> exists z, tcell row "rid" = Some (VInt z)) ->
  In "rid" cols -> incl (df_columns cols) (map fst types) -> assoc String.eqb "rid" types = Some DInt ->
  StronglySorted Z.lt (map rid_of rows) ->
  (forall row c t, In row rows -> In c (df_columns cols) -> assoc String.eqb c types = Some t -> exists v, tcell row c = Some v /\ type_of v = t) ->
  twin (imported cols types rows) (memory_of cols types rows).
Proof.
  intros Nd Hid Hrid Irid Itypes Trid So Hc. set (us := df_columns cols).
  assert (Iu : forall c, In c us <-> In c cols /\ c <> "rid").
  { intro c. unfold us, df_columns. rewrite filter_In, negb_true_iff, String.eqb_neq. tauto. }
  assert (Nu : NoDup us) by (apply NoDup_filter; exact Nd).
  assert (Rr : forall row c, In c us -> cell (memory_row cols row) c = tcell row c).
  { intros row c Ic. unfold memory_row, cell. cbn [r_cells]. fold us. clear - Ic Nu.
    induction us as [|a l IH]; [contradiction|]. cbn [flat_map]. inversion Nu as [|? ? Na Nl]; subst. destruct (string_dec c a) as [->|N].
    - destruct (tcell row a) as [v|] eqn:E; cbn [app assoc]; [rewrite String.eqb_refl; auto|]. clear IH Ic Nu.
      induction l as [|b l IH]; [auto|]. cbn [flat_map]. inversion Nl; subst. assert (b <> a) by (intros ->; apply Na; left; auto).
      destruct (tcell row b); cbn [app assoc]; [destruct (String.eqb_spec a b); [congruence|]|]; apply IH; auto; intro; apply Na; right; auto.
    - destruct Ic as [Ic|Ic]; [congruence|]. destruct (tcell row a); cbn [app assoc]; [destruct (String.eqb_spec c a); [congruence|]|]; apply IH; auto. }
  assert (Tc : forall c, In c us -> exists t, assoc String.eqb c types = Some t).
  { intros c Ic. destruct (assoc String.eqb c types) as [t|] eqn:E; [eauto|]. exfalso. apply (assoc_None _ reflects_string) in E. apply E. apply Itypes. exact Ic. }
  assert (Kt : map fst (project_types us types) = us) by (apply project_types_keys; exact Itypes).
  constructor.
  - constructor; [constructor| |]; cbn [memory_of m_df m_columns f_types f_rows]; fold us; rewrite ?Kt.
    + exact Nu.
    + intro H. apply Iu in H. tauto.
    + intros r Hr. apply in_map_iff in Hr. destruct Hr as (row & <- & Hrow). unfold memory_row. cbn [r_cells]. fold us.
      assert (H : forall l, incl l us -> map fst (flat_map (fun c => match tcell row c with Some v => [(c, v)] | None => [] end) l) = l).
      { induction l as [|c l IH]; intro Il; cbn [flat_map]; [auto|]. rewrite map_app, IH by (intros x Hx; apply Il; right; exact Hx).
        destruct (Tc c (Il c (or_introl eq_refl))) as [t Ht]. destruct (Hc row c t Hrow (Il c (or_introl eq_refl)) Ht) as (v & -> & _). reflexivity. }
      apply H. apply incl_refl.
    + intros r c t Hr Hct. apply in_map_iff in Hr. destruct Hr as (row & <- & Hrow).
      assert (Ic : In c us). { apply (in_map fst) in Hct. rewrite Kt in Hct. exact Hct. }
      rewrite Rr by exact Ic. apply (Hc row c t Hrow Ic). rewrite <- (project_types_assoc us types c Ic).
      apply (assoc_NoDup _ reflects_string); [rewrite Kt; exact Nu|exact Hct].
    + exact Nd.
    + intro c. rewrite Iu. destruct (string_dec c "rid") as [->|]; tauto.
  - reflexivity.
  - reflexivity.
  - reflexivity.
  - exists types. split; [reflexivity|]. cbn [memory_of m_columns]. intros c t Ic Ht. unfold col_type in Ht.
    destruct (String.eqb_spec c "rid") as [->|N]; [congruence|]. cbn [memory_of m_df f_types] in Ht. fold us in Ht.
    rewrite project_types_assoc in Ht by (apply Iu; auto). destruct (assoc String.eqb c types); congruence.
  - intros c t Ic A. cbn [memory_of m_df f_types] in A. fold us in A.
    assert (H : In c us). { apply (assoc_In _ reflects_string) in A. apply (in_map fst) in A. rewrite Kt in A. exact A. }
    rewrite project_types_assoc in A by exact H. apply (Hid c t); [right; exact Ic|exact A].
  - cbn [imported d_rows memory_of m_columns rows_of m_df f_rows]. unfold rows_of. cbn [memory_of m_df f_rows]. rewrite map_map.
    match goal with |- Permutation ?a ?b => assert (E : a = b); [|rewrite E; apply Permutation_refl] end. apply map_ext_in. intros row Hrow. unfold as_trow. apply map_ext_in. intros c Ic. f_equal.
    unfold row_val. destruct (String.eqb_spec c "rid") as [->|N].
    + rewrite Trid. destruct (Hrid row Hrow) as [z Hz]. cbn [existsb String.eqb Ascii.eqb Bool.eqb orb]. rewrite Hz. cbn [option_map affine].
      unfold memory_row. cbn [r_rid]. unfold rid_of. rewrite Hz. reflexivity.
    + assert (Hu : In c us) by (apply Iu; auto). rewrite (Rr row c Hu). destruct (Tc c Hu) as [t Ht]. rewrite Ht.
      destruct (Hc row c t Hrow Hu Ht) as (v & Ev & Tv). rewrite Ev. cbn [option_map]. f_equal.
      assert (E : (if existsb (String.eqb c) ["rid"; "uid"; "iid"] then DInt else t) = t).
      { destruct (existsb (String.eqb c) ["rid"; "uid"; "iid"]) eqn:X; [|auto]. apply existsb_exists in X. destruct X as (x & Hx & Ex).
        apply String.eqb_eq in Ex. subst x. symmetry. apply (Hid c t Hx Ht). }
      rewrite E, <- Tv. apply affine_same.
  - unfold rows_of. cbn [memory_of m_df f_rows]. rewrite map_map. exact So.
Qed.
