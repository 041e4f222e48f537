(** Internal ids, apply and new data sets, on data sets with the same data. *)
From Coq Require Import String Ascii.
From Coq Require Import List ZArith QArith Qcanon Bool Permutation Sorted Lia.
From Verif Require Import Py PyFacts MemModel MemSpec MemFacts MemFacts2 MemFacts3 MemFacts4 MemFacts5 MemFacts6 RankFacts
  DbModel DbSpec DbFacts12 DbFacts16 TwinSpec TwinFacts TwinFacts2.
Import ListNotations.
Open Scope string_scope.
Open Scope Z_scope.
Open Scope list_scope.

(** ** Internal ids *)
Lemma none_filter {A} (p : A -> bool) l : (forall x, In x l -> p x = false) -> filter p l = [].
Proof. induction l as [|a l IH]; intro H; cbn [filter]; [auto|]. rewrite (H a (or_introl eq_refl)). apply IH. intros x Hx. apply H. right. exact Hx. Qed.
Lemma first_split {A} (p : A -> bool) l : existsb p l = true ->
  exists pre a post, l = pre ++ a :: post /\ p a = true /\ forall b, In b pre -> p b = false.
Proof.
  induction l as [|a l IH]; cbn [existsb]; [discriminate|]. destruct (p a) eqn:E; intro H.
  - exists [], a, l. cbn. split; [auto|]. split; [auto|tauto].
  - cbn [orb] in H. destruct (IH H) as (pre & b & post & -> & Hb & Hp). exists (a :: pre), b, post. split; [auto|]. split; [auto|].
    intros x [<-|Hx]; auto.
Qed.
Lemma column_map c l : (forall r, In r l -> cell r c <> None) -> map (@Some value) (column c l) = map (fun r => cell r c) l.
Proof.
  unfold column. induction l as [|r l IH]; intro H; cbn [flat_map map]; [auto|]. rewrite map_app, IH by (intros x Hx; apply H; right; exact Hx).
  destruct (cell r c) eqn:E; [auto|]. exfalso. apply (H r); [left; auto|auto].
Qed.
Lemma nodup_Some_length l : length (nodup opt_value_dec (map (@Some value) l)) = length (nodup value_eq_dec l).
Proof.
  induction l as [|v l IH]; [auto|]. cbn [map nodup].
  destruct (in_dec opt_value_dec (Some v) (map Some l)) as [I|I]; destruct (in_dec value_eq_dec v l) as [J|J]; auto.
  - exfalso. apply in_map_iff in I. destruct I as (x & E & Hx). injection E as ->. contradiction.
  - exfalso. apply I. apply in_map. auto.
  - cbn [length]. rewrite IH. auto.
Qed.

Section Ids.
Variables (d : ds) (m : mem).
Hypothesis T : twin d m.
Local Notation cs := (m_columns m).

Lemma rank_code c v r : In c cs -> c <> "rid" -> In r (rows_of m) -> cell r c = Some v ->
  rank c (d_rows d) (Some v) = code_of (distinct_col c (rows_of m)) v.
Proof.
  intros Ic Nc Hr Hv. rewrite (rank_perm c _ _ (Some v) (tw_rows _ _ T)).
  assert (V : forall x, row_val x c = cell x c) by (intro x; unfold row_val; destruct (String.eqb_spec c "rid"); [contradiction|auto]).
  destruct (first_split (fun x => value_eqb v (match cell x c with Some y => y | None => VInt 0 end) && (if cell x c then true else false))
     (rows_of m)) as (pre & a & post & E & Ha & Hp).
  { apply existsb_exists. exists r. split; [exact Hr|]. rewrite Hv. apply andb_true_iff. split; [apply reflects_value; auto|auto]. }
  assert (Ca : cell a c = Some v).
  { apply andb_true_iff in Ha. destruct Ha as [H1 H2]. destruct (cell a c); [|discriminate]. apply reflects_value in H1. congruence. }
  assert (Cp : forall x, In x pre -> cell x c <> Some v).
  { intros x Hx Ex. specialize (Hp x Hx). cbv beta in Hp. rewrite Ex in Hp. rewrite andb_true_r in Hp.
    apply (reflects_false _ reflects_value) in Hp. congruence. }
  assert (Nn : forall x, In x (rows_of m) -> cell x c <> None).
  { intros x Hx. destruct (col_type_ok m c (tw_wf _ _ T) Ic) as [t Ht].
    destruct (wf_cell m x c t (tw_wf _ _ T) Hx (col_type_assoc m c t Nc Ht)) as (y & Ey & _). congruence. }
  pose proof (tw_order _ _ T) as S. rewrite SS_map, E in S. destruct (SS_app _ _ _ _ S) as [S1 S2].
  assert (F : filter (before_all c (Some v) (map (as_trow cs) (rows_of m))) (map (as_trow cs) (rows_of m)) = map (as_trow cs) pre).
  { rewrite filter_map_comm. f_equal.
    assert (B : forall x, before_all c (Some v) (map (as_trow cs) (rows_of m)) (as_trow cs x) = true <->
                          forall y, In y (rows_of m) -> cell y c = Some v -> r_rid x < r_rid y).
    { intro x. unfold before_all. rewrite forallb_forall. split.
      - intros H y Hy Ey. specialize (H (as_trow cs y) (in_map _ _ _ Hy)). unfold cell_is in H. rewrite (tcell_as cs y c Ic), V in H.
        rewrite !rid_as in H by (apply (twin_rid d m T)). destruct (opt_value_dec (cell y c) (Some v)) as [_|N]; [|congruence].
        cbn [negb orb] in H. apply Z.ltb_lt. exact H.
      - intros H z Hz. apply in_map_iff in Hz. destruct Hz as (y & <- & Hy). unfold cell_is. rewrite (tcell_as cs y c Ic), V.
        rewrite !rid_as by (apply (twin_rid d m T)). destruct (opt_value_dec (cell y c) (Some v)) as [Ey|N]; [|auto].
        cbn [negb orb]. apply Z.ltb_lt. apply H; auto. }
    transitivity (filter (fun x => before_all c (Some v) (map (as_trow cs) (rows_of m)) (as_trow cs x)) (pre ++ a :: post)); [f_equal; exact E|].
    rewrite filter_app. cbn [filter].
    assert (Ba : forall x, x = a \/ In x post -> before_all c (Some v) (map (as_trow cs) (rows_of m)) (as_trow cs x) = false).
    { intros x Hx. apply not_true_is_false. intro H. apply B with (y := a) in H; [|rewrite E; apply in_or_app; right; left; auto|exact Ca].
      destruct Hx as [->|Hx]; [lia|]. specialize (S2 x Hx). lia. }
    rewrite (Ba a (or_introl eq_refl)).
    rewrite (none_filter _ post) by (intros x Hx; apply Ba; right; exact Hx). rewrite app_nil_r.
    apply filter_id. intros x Hx. apply B. intros y Hy Ey. rewrite E in Hy. apply in_app_or in Hy.
    destruct Hy as [Hy|Hy]; [exfalso; exact (Cp y Hy Ey)|]. destruct Hy as [<-|Hy]; [apply S1; exact Hx|].
    specialize (S1 x Hx). specialize (S2 y Hy). lia. }
  unfold rank. rewrite F, map_map.
  rewrite (map_ext (fun x => tcell (as_trow cs x) c) (fun x => cell x c)) by (intro x; rewrite (tcell_as cs x c Ic); apply V).
  rewrite <- column_map by (intros x Hx; apply Nn; rewrite E; apply in_or_app; left; exact Hx). rewrite nodup_Some_length.
  symmetry. rewrite distinct_column, E, column_app. cbn [column flat_map]. change (flat_map _ (a :: post)) with (column c (a :: post)).
  unfold column at 2. cbn [flat_map]. rewrite Ca. cbn [app]. erewrite code_of_index; [|apply (index_of_dedup_first _ reflects_value)].
  - rewrite dedup_length_nodup. auto.
  - intro H. unfold column in H. apply in_flat_map in H. destruct H as (x & Hx & Hin). destruct (cell x c) eqn:Ex; [|destruct Hin].
    destruct Hin as [->|[]]. exact (Cp x Hx Ex).
Qed.

Lemma twin_assign tu ti : col_type m "user" = Ok tu -> col_type m "item" = Ok ti -> In "user" cs -> In "item" cs ->
  twin (DbSpec.assigned d) (MemFacts3.assigned m).
Proof.
  intros Tu Ti Iu Ii. pose proof (tw_wf _ _ T) as W.
  assert (Cols : plus "iid" (plus "uid" (d_cols d)) = m_columns (MemFacts3.assigned m)).
  { unfold MemFacts3.assigned. cbn [m_columns]. rewrite (tw_cols _ _ T), <- !plus_eq. unfold add_column, add_col. cbn [m_columns set_columns]. reflexivity. }
  assert (In_cols : forall c, In c (m_columns (MemFacts3.assigned m)) <-> c = "iid" \/ c = "uid" \/ In c cs).
  { intro c. unfold MemFacts3.assigned. cbn [m_columns]. rewrite add_column_In. cbn [m_columns set_columns]. rewrite add_column_In. tauto. }
  eapply twin_map; [exact T| | | | | | | | |].
  - apply (wf_assigned m tu ti W Tu Ti).
  - apply (tw_cache _ _ T).
  - exact Cols.
  - reflexivity.
  - destruct (tw_types _ _ T) as (ts & Ts & Ty). cbn [DbSpec.assigned d_types]. rewrite Ts. cbn [option_map]. eexists. split; [reflexivity|].
    intros c t Hc Ht. unfold type_as. destruct (string_dec c "iid") as [->|N1].
    + rewrite (assoc_set_same _ reflects_string). unfold col_type in Ht. cbn [String.eqb Ascii.eqb Bool.eqb] in Ht. rewrite assigned_types in Ht.
      rewrite (assoc_set_same _ reflects_string) in Ht. injection Ht as <-. auto.
    + rewrite (assoc_set_other _ reflects_string) by auto. destruct (string_dec c "uid") as [->|N2].
      * rewrite (assoc_set_same _ reflects_string). unfold col_type in Ht. cbn [String.eqb Ascii.eqb Bool.eqb] in Ht. rewrite assigned_types in Ht.
        rewrite (assoc_set_other _ reflects_string) in Ht by discriminate. rewrite (assoc_set_same _ reflects_string) in Ht. injection Ht as <-. auto.
      * rewrite (assoc_set_other _ reflects_string) by auto. rewrite col_type_assigned in Ht by auto. apply Ty; [|exact Ht].
        apply In_cols in Hc. tauto.
  - apply id_types_assigned.
  - cbn [DbSpec.assigned d_rows]. reflexivity.
  - apply assigned_rows.
  - intros r Hr. split; [|apply coded_row_rid]. rewrite Cols. unfold with_ids.
    change (as_trow (m_columns (MemFacts3.assigned m)) (coded_row m r)) with
      (map (fun c => (c, row_val (coded_row m r) c)) (m_columns (MemFacts3.assigned m))). apply map_ext_in. intros c Hc. f_equal.
    assert (Vr : forall a t, col_type m a = Ok t -> In a cs -> a <> "rid" -> exists v, cell r a = Some v /\ tcell (as_trow cs r) a = Some v).
    { intros a t Ta Ia Na. destruct (wf_cell m r a t W Hr (col_type_assoc m a t Na Ta)) as (v & Ev & _). exists v. split; [exact Ev|].
      rewrite (tcell_as cs r a Ia). unfold row_val. destruct (String.eqb_spec a "rid"); [contradiction|auto]. }
    destruct (String.eqb_spec c "uid") as [->|N1].
    + destruct (Vr "user" tu Tu Iu ltac:(discriminate)) as (v & Ev & ->). rewrite (rank_code "user" v r Iu ltac:(discriminate) Hr Ev).
      unfold row_val. cbn [String.eqb Ascii.eqb Bool.eqb]. symmetry. apply coded_row_uid. exact Ev.
    + destruct (String.eqb_spec c "iid") as [->|N2].
      * destruct (Vr "item" ti Ti Ii ltac:(discriminate)) as (v & Ev & ->). rewrite (rank_code "item" v r Ii ltac:(discriminate) Hr Ev).
        unfold row_val. cbn [String.eqb Ascii.eqb Bool.eqb]. symmetry. apply coded_row_iid. exact Ev.
      * apply In_cols in Hc. destruct Hc as [->|[->|Hc]]; [congruence|congruence|].
        rewrite (tcell_as cs r c Hc). unfold row_val. rewrite coded_row_rid. destruct (String.eqb c "rid"); [auto|]. symmetry. apply coded_row_other; auto.
Qed.
End Ids.
