(** The numbers of users and items, asked of both kinds of data sets. *)
From Coq Require Import String Ascii.
From Coq Require Import List ZArith QArith Qcanon Bool Permutation Sorted Lia.
From Verif Require Import Py PyFacts MemModel MemSpec MemFacts MemFacts2 MemFacts3 MemFacts4 MemFacts5 MemFacts6 RankFacts
  DbModel DbSpec DbFacts8 DbFacts12 DbFacts13 DbFacts15 DbFacts16 TwinSpec TwinFacts TwinFacts2 TwinFacts3 TwinFacts4 TwinQuery TwinFacts5.
Import ListNotations.
Open Scope string_scope.
Open Scope Z_scope.
Open Scope list_scope.

Lemma index_none {A} (eqb : A -> A -> bool) x l : (forall y, In y l -> eqb x y = false) -> index_of eqb x l = None.
Proof.
  induction l as [|a l IH]; intro H; cbn [index_of]; [auto|]. rewrite (H a (or_introl eq_refl)), IH; [auto|]. intros y Hy. apply H. right. exact Hy.
Qed.
Lemma index_some {A} (eqb : A -> A -> bool) x l : (exists y, In y l /\ eqb x y = true) -> exists n, index_of eqb x l = Some n.
Proof.
  intros (y & Hy & E). induction l as [|a l IH]; cbn [index_of]; [destruct Hy|]. destruct (eqb x a) eqn:X; [eauto|].
  destruct Hy as [<-|Hy]; [congruence|]. destruct (IH Hy) as [n ->]. cbn. eauto.
Qed.

Section Lookups.
Variables (d : ds) (m : mem).
Hypothesis T : twin d m.
Local Notation cs := (m_columns m).

Lemma row_back c r : In r (d_rows d) -> In c cs -> c <> "rid" -> exists r0, In r0 (rows_of m) /\ tcell r c = cell r0 c.
Proof.
  intros Hr Ic Nc. apply (Permutation_in _ (tw_rows _ _ T)) in Hr. apply in_map_iff in Hr. destruct Hr as (r0 & <- & Hr0).
  exists r0. split; [exact Hr0|]. rewrite (tcell_as cs r0 c Ic). unfold row_val. destruct (String.eqb_spec c "rid"); [contradiction|auto].
Qed.
Lemma row_there c r0 : In r0 (rows_of m) -> In c cs -> c <> "rid" -> exists r, In r (d_rows d) /\ tcell r c = cell r0 c.
Proof.
  intros Hr Ic Nc. exists (as_trow cs r0). split.
  - apply (Permutation_in _ (Permutation_sym (tw_rows _ _ T))). apply in_map. exact Hr.
  - rewrite (tcell_as cs r0 c Ic). unfold row_val. destruct (String.eqb_spec c "rid"); [contradiction|auto].
Qed.

Lemma lookup_raw c v : In c cs -> c <> "rid" ->
  (if existsb (cell_is c (Some v)) (d_rows d) then Some (VInt (rank c (d_rows d) (Some v))) else None) =
  option_map VInt (option_map Z.of_nat (index_of value_eqb v (distinct_col c (rows_of m)))).
Proof.
  intros Ic Nc. destruct (existsb (cell_is c (Some v)) (d_rows d)) eqn:E.
  - apply existsb_exists in E. destruct E as (r & Hr & X). unfold cell_is in X. destruct (opt_value_dec (tcell r c) (Some v)) as [X'|]; [|discriminate].
    destruct (row_back c r Hr Ic Nc) as (r0 & Hr0 & E0). rewrite E0 in X'. rewrite (rank_code d m T c v r0 Ic Nc Hr0 X').
    destruct (index_some value_eqb v (distinct_col c (rows_of m))) as [n Hn].
    + exists v. split; [apply distinct_col_In; eauto|apply reflects_value; auto].
    + rewrite Hn. cbn [option_map]. rewrite (code_of_index _ _ _ Hn). auto.
  - rewrite index_none; [auto|]. intros y Hy. apply distinct_col_In in Hy. destruct Hy as (r0 & Hr0 & Ey).
    destruct (row_there c r0 Hr0 Ic Nc) as (r & Hr & Er). apply not_true_is_false. intro X. apply reflects_value in X. subst y.
    assert (existsb (cell_is c (Some v)) (d_rows d) = true); [|congruence]. apply existsb_exists. exists r. split; [exact Hr|].
    unfold cell_is. destruct (opt_value_dec (tcell r c) (Some v)); [auto|congruence].
Qed.

Lemma lookup_id c z : In c cs -> c <> "rid" ->
  (exists row v, In row (d_rows d) /\ tcell row c = Some v /\ rank c (d_rows d) (Some v) = z /\
     (if 0 <=? z then nth_error (distinct_col c (rows_of m)) (Z.to_nat z) else None) = Some v) \/
  ((forall row, In row (d_rows d) -> rank c (d_rows d) (tcell row c) <> z) /\
   (if 0 <=? z then nth_error (distinct_col c (rows_of m)) (Z.to_nat z) else None) = None).
Proof.
  intros Ic Nc. destruct (if 0 <=? z then nth_error (distinct_col c (rows_of m)) (Z.to_nat z) else None) as [v|] eqn:E.
  - left. destruct (Z.leb_spec 0 z) as [L|L]; [|discriminate].
    assert (Hin : In v (distinct_col c (rows_of m))) by (eapply nth_error_In; eauto). apply distinct_col_In in Hin. destruct Hin as (r0 & Hr0 & Ev).
    destruct (row_there c r0 Hr0 Ic Nc) as (r & Hr & Er). exists r, v. split; [exact Hr|]. split; [congruence|]. split; [|auto].
    rewrite (rank_code d m T c v r0 Ic Nc Hr0 Ev).
    assert (X : index_of value_eqb v (distinct_col c (rows_of m)) = Some (Z.to_nat z)).
    { apply (PyFacts.index_of_nth _ reflects_value); [apply (dedup_NoDup _ reflects_value)|exact E]. }
    rewrite (code_of_index _ _ _ X). lia.
  - right. split; [|auto]. intros row Hr X. destruct (row_back c row Hr Ic Nc) as (r0 & Hr0 & E0).
    destruct (cell r0 c) as [v|] eqn:Ev.
    + rewrite E0 in X. rewrite (rank_code d m T c v r0 Ic Nc Hr0 Ev) in X.
      destruct (index_some value_eqb v (distinct_col c (rows_of m))) as [n Hn].
      { exists v. split; [apply distinct_col_In; eauto|apply reflects_value; auto]. }
      rewrite (code_of_index _ _ _ Hn) in X. subst z. destruct (Z.leb_spec 0 (Z.of_nat n)); [|lia].
      rewrite Nat2Z.id in E. apply index_of_nth in Hn. destruct Hn as (y & Hy & _). congruence.
    + destruct (col_type_ok m c (tw_wf _ _ T) Ic) as [t Ht].
      destruct (wf_cell m r0 c t (tw_wf _ _ T) Hr0 (col_type_assoc m c t Nc Ht)) as (y & Ey & _). congruence.
Qed.
End Lookups.

Section Both.
Variable inode : string -> nat.

(** raw ids of the type of the column, text or integer *)
Definition raw_id (m : mem) (c : string) (v : value) : Prop := exists t, col_type m c = Ok t /\ t <> DFloat /\ type_of v = t.

Lemma both_lookups w b mb ord i w' m : both inode w b mb -> (forall l, Permutation (ord l) l) -> safe inode w b (OAssign i) ->
  exec inode ord (OAssign i) w = (w', Ok AUnit) -> mb i = Some m ->
  exists m', assign_internal_ids m = Ok m' /\
    (forall v, raw_id m "user" v -> exists o, db_user_to_uid inode i v w' = (w', Ok (option_map VInt o)) /\ user_to_uid m' v = Ok o) /\
    (forall v, raw_id m "item" v -> exists o, db_item_to_iid inode i v w' = (w', Ok (option_map VInt o)) /\ item_to_iid m' v = Ok o) /\
    (forall z, exists o, db_uid_to_user inode i z w' = (w', Ok o) /\ uid_to_user m' z = Ok o) /\
    (forall z, exists o, db_iid_to_item inode i z w' = (w', Ok o) /\ iid_to_item m' z = Ok o).
Proof.
  intros Bo P Sf E Hm. destruct (both_inv inode w b mb Bo) as [I Tw]. destruct (twins_mem _ _ _ _ Tw Hm) as (d & Hb & T & Cd).
  pose proof Sf as (_ & _ & d0 & Hb0 & _ & Iui & _). rewrite Hb in Hb0. injection Hb0 as <-. rewrite (tw_cols _ _ T) in Iui.
  assert (Iu : In "user" (m_columns m)) by (apply Iui; left; auto). assert (Ii : In "item" (m_columns m)) by (apply Iui; right; left; auto).
  destruct (col_type_ok m "user" (tw_wf _ _ T) Iu) as [tu Tu]. destruct (col_type_ok m "item" (tw_wf _ _ T) Ii) as [ti Ti].
  exists (MemFacts3.assigned m). split; [apply (assign_ok m tu ti Tu Ti)|].
  destruct (tw_types _ _ T) as (ts & Ts & Ty).
  assert (Fc : forall t v, type_of v = t -> fits_column t v) by (intros t [z|q|s] <-; cbn; eauto).
  destruct (lookups inode ord w b i d w' "user" "uid" P I Sf Hb E (or_introl (conj eq_refl eq_refl))) as (U1 & U2 & U3).
  destruct (lookups inode ord w b i d w' "item" "iid" P I Sf Hb E (or_intror (conj eq_refl eq_refl))) as (I1 & I2 & I3).
  split; [|split; [|split]].
  - intros v (t & Ht & Nt & Tv). eexists. split; [|apply (user_to_uid_assigned m t v (tw_wf _ _ T) Ht Nt Tv)].
    unfold db_user_to_uid. rewrite (U1 ts t v Ts (Ty _ _ Iu Ht) (Fc _ _ Tv)). rewrite (lookup_raw d m T "user" v Iu ltac:(discriminate)). auto.
  - intros v (t & Ht & Nt & Tv). eexists. split; [|apply (item_to_iid_assigned m t v (tw_wf _ _ T) Ht Nt Tv)].
    unfold db_item_to_iid. rewrite (I1 ts t v Ts (Ty _ _ Ii Ht) (Fc _ _ Tv)). rewrite (lookup_raw d m T "item" v Ii ltac:(discriminate)). auto.
  - intro z. eexists. split; [|apply uid_to_user_assigned].
    destruct (lookup_id d m T "user" z Iu ltac:(discriminate)) as [(row & v & Hr & Ev & Rk & ->)|[H ->]].
    + subst z. unfold db_uid_to_user. apply (U2 row v Hr Ev).
    + apply U3. exact H.
  - intro z. eexists. split; [|apply iid_to_item_assigned].
    destruct (lookup_id d m T "item" z Ii ltac:(discriminate)) as [(row & v & Hr & Ev & Rk & ->)|[H ->]].
    + subst z. unfold db_iid_to_item. apply (I2 row v Hr Ev).
    + apply I3. exact H.
Qed.
End Both.
