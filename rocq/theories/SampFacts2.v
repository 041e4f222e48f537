(** Proofs about the list sampler. *)
From Coq Require Import String Ascii.
From Coq Require Import List ZArith QArith Qcanon Qround Bool Lia Permutation Sorted.
From Verif Require Import Py PyFacts MemModel MemSpec MemFacts MemFacts2 MemFacts3 MemFacts4 MemFacts5 MemFacts6 MemFacts7.
From Verif Require Import RankFacts RankFacts2 KnnModel KnnSpec KnnFacts KnnFacts2 SplitModel SplitSpec SplitFacts SampModel SampSpec SampFacts.
Import ListNotations.
Open Scope string_scope.
Open Scope Z_scope.

(** ** Sorting *)
Lemma string_le_total a b : string_ltb b a = true -> string_ltb a b = false.
Proof.
  revert b; induction a as [|x a IH]; intros [|y b]; cbn [string_ltb]; auto; try discriminate.
  destruct (nat_of_ascii y <? nat_of_ascii x)%nat eqn:E1; destruct (nat_of_ascii x <? nat_of_ascii y)%nat eqn:E2; auto;
  rewrite ?Nat.ltb_lt, ?Nat.ltb_ge in *; try lia; auto; intros H; try discriminate.
Qed.
Lemma string_le_trans a b c : string_ltb b a = false -> string_ltb c b = false -> string_ltb c a = false.
Proof.
  revert b c; induction a as [|x a IH]; intros [|y b] [|z c]; cbn [string_ltb]; auto; try discriminate.
  destruct (nat_of_ascii y <? nat_of_ascii x)%nat eqn:E1; destruct (nat_of_ascii x <? nat_of_ascii y)%nat eqn:E2;
  destruct (nat_of_ascii z <? nat_of_ascii y)%nat eqn:E3; destruct (nat_of_ascii y <? nat_of_ascii z)%nat eqn:E4;
  destruct (nat_of_ascii z <? nat_of_ascii x)%nat eqn:E5; destruct (nat_of_ascii x <? nat_of_ascii z)%nat eqn:E6;
  rewrite ?Nat.ltb_lt, ?Nat.ltb_ge in *; try lia; intros; try discriminate; eauto.
Qed.

Definition kleb (x y : value) : bool := match val_ltb y x with Some true => false | _ => true end.
Definition is_str (v : value) : bool := match v with VStr _ => true | _ => false end.

Lemma kleb_total x y : is_str x = is_str y -> kleb x y = true \/ kleb y x = true.
Proof.
  intros H. unfold kleb. destruct x as [a|a|a], y as [b|b|b]; try discriminate; cbn [val_ltb num_of];
  try (match goal with |- context [Qcltb ?p ?q] => destruct (Qcltb p q) eqn:E1; destruct (Qcltb q p) eqn:E2; auto;
    apply Qcltb_true in E1; apply Qcltb_true in E2; exfalso; apply (Qclt_not_le _ _ E1); apply Qclt_le_weak; exact E2 end).
  destruct (string_ltb b a) eqn:E; auto. rewrite (string_le_total a b E). auto.
Qed.
Lemma kleb_trans x y z : is_str x = is_str y -> is_str y = is_str z -> kleb x y = true -> kleb y z = true -> kleb x z = true.
Proof.
  intros H H'. unfold kleb.
  assert (Q : forall p q r, Qcltb q p = false -> Qcltb r q = false -> Qcltb r p = false).
  { intros p q r A B. apply Qcltb_false in A. apply Qcltb_false in B. destruct (Qcltb r p) eqn:E; auto.
    apply Qcltb_true in E. exfalso. apply (Qclt_not_le _ _ E). eapply Qcle_trans; eauto. }
  destruct x as [a|a|a], y as [b|b|b]; try discriminate; destruct z as [c|c|c]; try discriminate; cbn [val_ltb num_of];
  try (match goal with |- context [Qcltb ?q ?p] => destruct (Qcltb q p) eqn:E1; try discriminate;
    match goal with |- context [Qcltb ?r q] => destruct (Qcltb r q) eqn:E2; try discriminate; rewrite (Q p q r E1 E2); auto end end).
  destruct (string_ltb b a) eqn:E1; try discriminate. destruct (string_ltb c b) eqn:E2; try discriminate.
  rewrite (string_le_trans a b c E1 E2). auto.
Qed.

Section SortOn.
  Context {A : Type} (leb : A -> A -> bool) (P : A -> Prop).
  Hypothesis leb_total : forall x y, P x -> P y -> leb x y = true \/ leb y x = true.
  Hypothesis leb_trans : forall x y z, P x -> P y -> P z -> leb x y = true -> leb y z = true -> leb x z = true.

  Lemma insert_on_sorted x l : P x -> Forall P l ->
    StronglySorted (le_rel leb) l -> StronglySorted (le_rel leb) (insert_by leb x l).
  Proof.
    induction l as [|y l IH]; intros Px F S; cbn [insert_by].
    - repeat constructor.
    - inversion S as [|? ? S1 S2]; subst. inversion F as [|? ? Py F']; subst. destruct (leb x y) eqn:E.
      + constructor; auto. constructor; auto.
        rewrite Forall_forall in *. intros a Ha. eapply (leb_trans x y a); auto. apply S2. auto.
      + constructor; auto.
        assert (G : le_rel leb y x) by (destruct (leb_total x y); auto; congruence).
        apply Forall_forall. intros z Hz.
        apply (Permutation_in _ (Permutation_sym (insert_by_perm leb x l))) in Hz.
        destruct Hz as [<-|Hz]; auto. rewrite Forall_forall in S2. auto.
  Qed.
  Lemma sort_on_sorted l : Forall P l -> StronglySorted (le_rel leb) (sort_by leb l).
  Proof.
    induction l as [|x l IH]; intros F; cbn [sort_by]; [constructor|]. inversion F; subst.
    apply insert_on_sorted; auto. rewrite Forall_forall in *. intros y Hy. apply H2.
    eapply Permutation_in; [apply Permutation_sym, sort_by_perm|exact Hy].
  Qed.
End SortOn.

Lemma insert_stable {A} (leb : A -> A -> bool) (C : A -> bool) x l :
  (forall y, In y l -> C x = true -> C y = true -> leb x y = true) ->
  filter C (insert_by leb x l) = filter C (x :: l).
Proof.
  induction l as [|y l IH]; intros H; cbn [insert_by]; auto.
  destruct (leb x y) eqn:E; auto. cbn [filter] in *. rewrite IH by (intros; apply H; simpl; auto).
  destruct (C x) eqn:Cx; auto. destruct (C y) eqn:Cy; auto.
  rewrite (H y (or_introl eq_refl) eq_refl Cy) in E. discriminate.
Qed.
Lemma sort_stable {A} (leb : A -> A -> bool) (C : A -> bool) l :
  (forall x y, In x l -> In y l -> C x = true -> C y = true -> leb x y = true) ->
  filter C (sort_by leb l) = filter C l.
Proof.
  induction l as [|x l IH]; intros H; cbn [sort_by]; auto. rewrite insert_stable.
  - cbn [filter]. rewrite IH; auto. intros; apply H; simpl; auto.
  - intros y Hy. apply H; simpl; auto. right.
    eapply Permutation_in; [apply Permutation_sym, sort_by_perm|exact Hy].
Qed.

Lemma insert_F2 {A B} (R : A -> B -> Prop) la lb a b l l' :
  (forall x y x' y', R x x' -> R y y' -> la x y = lb x' y') -> R a b -> Forall2 R l l' ->
  Forall2 R (insert_by la a l) (insert_by lb b l').
Proof.
  intros H Rab F. induction F as [|x x' l l' Rx F IH]; cbn [insert_by]; [repeat constructor; auto|].
  rewrite (H a x b x' Rab Rx). destruct (lb b x'); repeat constructor; auto.
Qed.
Lemma sort_F2 {A B} (R : A -> B -> Prop) la lb l l' :
  (forall x y x' y', R x x' -> R y y' -> la x y = lb x' y') -> Forall2 R l l' ->
  Forall2 R (sort_by la l) (sort_by lb l').
Proof. intros H F. induction F; cbn [sort_by]; [constructor|]. apply insert_F2; auto. Qed.

Lemma F2_firstn {A B} (R : A -> B -> Prop) n l l' : Forall2 R l l' -> Forall2 R (firstn n l) (firstn n l').
Proof. intros F. revert n. induction F; intros [|n]; cbn [firstn]; constructor; auto. Qed.
Lemma F2_skipn {A B} (R : A -> B -> Prop) n l l' : Forall2 R l l' -> Forall2 R (skipn n l) (skipn n l').
Proof. intros F. revert n. induction F; intros [|n]; cbn [skipn]; auto. Qed.

(** ** Group queries *)
Definition gcond (p : string * Z) : scond := mkCond (fst p) Eq (LInt (snd p)).

Lemma split_concat ss : ss <> [] -> Forall (str_no ",") ss -> split_on "," (String.concat "," ss) = ss.
Proof.
  induction ss as [|s ss IH]; intros N F; [contradiction|]. inversion F as [|? ? H1 H2]; subst.
  destruct ss as [|s' ss].
  - cbn [String.concat]. apply split_on_no; auto.
  - change (String.concat "," (s :: s' :: ss)) with (s ++ String "," (String.concat "," (s' :: ss))).
    rewrite split_on_app by auto. f_equal. apply IH; auto. discriminate.
Qed.

Lemma segments_plain m cs acc : wf_mem m -> id_types m -> Forall (cond_ok m) cs -> Forall (direct m) cs ->
  segments_mask m (map acc (rows_of m)) (map cond_text cs) = Ok (map (fun r => acc r && sat cs r)%bool (rows_of m)).
Proof.
  intros W I. revert acc. induction cs as [|c cs IH]; intros acc F D; cbn [map segments_mask].
  - f_equal. apply map_ext. intros r. simpl. rewrite andb_true_r. reflexivity.
  - inversion F; inversion D; subst. rewrite segment_mask_cond by auto.
    cbn [bind]. rewrite mask_and_map, IH by auto. f_equal. apply map_ext. intros r.
    unfold sat. cbn [forallb]. rewrite andb_assoc. reflexivity.
Qed.

Lemma select_concat m cs : wf_mem m -> id_types m -> cs <> [] -> Forall (cond_ok m) cs -> Forall (direct m) cs ->
  select m (String.concat "," (map cond_text cs)) = Ok (set_rows (mem_copy m) (filter (sat cs) (rows_of m))).
Proof.
  intros W I N F D. unfold select, apply_query, query_mask.
  assert (E : split_on "," (String.concat "," (map cond_text cs)) = map cond_text cs).
  { apply split_concat; [destruct cs; [contradiction|discriminate]|].
    apply Forall_forall. intros s Hs. apply in_map_iff in Hs. destruct Hs as [c [<- Hc]].
    apply (cond_text_no_comma m). rewrite Forall_forall in F. auto. }
  rewrite E. destruct cs as [|c cs]; [contradiction|]. cbn [map].
  inversion F as [|? ? F1 F2]; inversion D as [|? ? D1 D2]; subst.
  rewrite (segment_mask_cond (mem_copy m)); auto using wf_copy. cbn [bind].
  rewrite (segments_plain (mem_copy m)); auto using wf_copy. cbn [bind].
  change (rows_of (mem_copy m)) with (rows_of m). rewrite mask_filter_map. reflexivity.
Qed.

Lemma group_query_text cols zs : length cols = length zs ->
  group_query cols (map VInt zs) = String.concat "," (map cond_text (map gcond (combine cols zs))).
Proof.
  intros _. unfold group_query. f_equal. rewrite map_map. revert zs. induction cols as [|c cols IH]; intros [|z zs]; auto.
  cbn [combine map fst snd]. rewrite IH. reflexivity.
Qed.

Section Config.
Variables (m : mem) (a : ls_args) (t : option slit).
Hypothesis C : coded m.
Hypothesis K : config_ok m a t.

Lemma int_cell c r : c <> "rid" -> col_type m c = Ok DInt -> In r (rows_of m) -> exists z, cell r c = Some (VInt z) /\ row_val r c = Some (VInt z).
Proof.
  intros N T Hr. destruct (wf_cell m r c DInt (cd_wf m C) Hr (col_type_assoc m c DInt N T)) as [v [E Ty]].
  destruct v; try discriminate. exists z. rewrite row_val_other by auto. auto.
Qed.

Lemma group_col c : In c (l_groups a) -> In c (m_columns m) /\ c <> "rid" /\ plain c /\ col_type m c = Ok DInt.
Proof. apply (co_int _ _ _ K). Qed.

Lemma gcond_ok c z r : In c (l_groups a) -> In r (rows_of m) -> cell r c = Some (VInt z) ->
  cond_ok m (gcond (c, z)) /\ direct m (gcond (c, z)).
Proof.
  intros Hc Hr E. destruct (group_col c Hc) as [I [N [P T]]]. split.
  - unfold cond_ok, gcond. cbn [sc_col sc_lit fst snd]. split; auto. split; auto. split; [apply (co_small _ _ _ K)|].
    exists DInt. split; auto. destruct (in_dec string_dec c ["iid"; "uid"; "rid"]) as [J|J].
    + apply lo_id. auto.
    + apply lo_int; auto; [discriminate|]. apply (co_small _ _ _ K c r z Hr E).
  - intros _ _. unfold gcond. cbn [sc_col fst]. apply col_type_assoc; auto.
Qed.

Lemma sat_group cols zs r : (forall c, In c cols -> exists z, row_val r c = Some (VInt z)) ->
  sat (map gcond (combine cols zs)) r = in_group cols (map VInt zs) r.
Proof.
  revert zs. induction cols as [|c cols IH]; intros [|z zs] H; auto.
  unfold sat, in_group. cbn [combine map forallb fst snd]. f_equal.
  - unfold sat1, gcond. cbn [sc_col sc_lit sc_op fst snd lit_num]. destruct (H c (or_introl eq_refl)) as [x E]. rewrite E.
    rewrite Qc_of_Z_compare. cbn [val_eqb op_holds]. rewrite Z.eqb_compare. destruct (x ?= z); reflexivity.
  - apply IH. intros; apply H; simpl; auto.
Qed.

(** the group of a row *)
Definition ids_of (r : row) : list Z := map (fun c => match cell r c with Some (VInt z) => z | _ => 0 end) (l_groups a).

Lemma ids_row r : In r (rows_of m) -> Forall2 (fun c v => row_val r c = Some v) (l_groups a) (map VInt (ids_of r)).
Proof.
  intros Hr. unfold ids_of. rewrite map_map. assert (H := group_col). induction (l_groups a) as [|c cols IH]; cbn [map]; constructor.
  - destruct (H c (or_introl eq_refl)) as [_ [N [_ T]]]. destruct (int_cell c r N T Hr) as [z [E1 E2]]. rewrite E1. exact E2.
  - apply IH. intros; apply H; simpl; auto.
Qed.

Lemma select_group r : In r (rows_of m) ->
  select m (group_query (l_groups a) (map VInt (ids_of r))) =
  Ok (set_rows (mem_copy m) (filter (in_group (l_groups a) (map VInt (ids_of r))) (rows_of m))).
Proof.
  intros Hr. rewrite group_query_text by (unfold ids_of; rewrite map_length; reflexivity).
  assert (FD : Forall (cond_ok m) (map gcond (combine (l_groups a) (ids_of r))) /\ Forall (direct m) (map gcond (combine (l_groups a) (ids_of r)))).
  { split; apply Forall_forall; intros c H; apply in_map_iff in H; destruct H as [[c' z] [<- H]];
    unfold ids_of in H; assert (H' := H); apply in_combine_l in H;
    destruct (group_col c' H) as [_ [N [_ T]]]; destruct (int_cell c' r N T Hr) as [z' [E _]];
    (assert (z = z'); [|subst; apply (gcond_ok c' z' r H Hr E)]);
    clear - H' E; induction (l_groups a) as [|x l IH]; cbn [map combine] in H'; try contradiction;
    destruct H' as [X|X]; auto; injection X as -> <-; rewrite E; reflexivity. }
  destruct FD as [F D]. rewrite (select_concat m); auto.
  - do 2 f_equal. apply filter_ext_in. intros r' Hr'. apply sat_group. intros c Hc.
    destruct (group_col c Hc) as [_ [N [_ T]]]. destruct (int_cell c r' N T Hr') as [z [_ E]]. eauto.
  - apply (cd_wf m C).
  - apply (cd_types m C).
  - assert (N := co_some _ _ _ K). unfold ids_of. destruct (l_groups a); [contradiction|discriminate].
Qed.

(** a part of the data set *)
Lemma coded_filter f : coded (set_rows (mem_copy m) (filter f (rows_of m))).
Proof.
  destruct C as [[[A1 A2 A3 A4] B1 B2] T O U I R [Nm1 [Nm2 Nm3]] Or]. constructor; auto.
  - constructor; auto. constructor; auto.
    + intros r Hr. cbn in Hr. apply filter_In in Hr. apply A3. tauto.
    + intros r c ty Hr. cbn in Hr. apply filter_In in Hr. apply A4. tauto.
  - intros r Hr. cbn in Hr. apply filter_In in Hr. apply R. tauto.
  - split; auto. split.
    + intros r Hr. cbn in Hr. apply filter_In in Hr. apply Nm2. tauto.
    + intros r z Hr. cbn in Hr. apply filter_In in Hr. apply Nm3. tauto.
Qed.

Definition members (r : row) : list row :=
  filter (fun x => in_group (l_groups a) (map VInt (ids_of r)) x && above t x) (rows_of m).

Lemma filter_filter_andb {A} (f g : A -> bool) l : filter g (filter f l) = filter (fun x => f x && g x) l.
Proof. induction l as [|x l IH]; cbn [filter]; auto. destruct (f x); cbn [filter andb]; rewrite IH; reflexivity. Qed.

Lemma self_in_group r : In r (rows_of m) -> in_group (l_groups a) (map VInt (ids_of r)) r = true.
Proof.
  intros Hr. unfold in_group. apply forallb_forall. intros [c v] H. cbn [fst snd].
  assert (F := ids_row r Hr). clear - F H. induction F as [|x y l l' E F IH]; [contradiction|].
  destruct H as [X|X]; auto. injection X as -> ->. rewrite E. destruct v; cbn [val_eqb].
  - apply Z.eqb_refl.
  - cbn [num_of]. apply Qc_eq_bool_iff. reflexivity.
  - apply String.eqb_refl.
Qed.

Lemma group_rows_ok ls r : ls_m ls = m -> ls_a ls = a -> In r (rows_of m) ->
  exists mp, group_rows ls (map VInt (ids_of r)) = Ok mp /\ wf_mem mp /\ m_columns mp = m_columns m /\
    rows_of mp = members r /\ (forall c, small_col mp c).
Proof.
  intros Em Ea Hr. unfold group_rows, members. rewrite Em, Ea, (select_group r Hr). cbn [bind].
  set (f := in_group (l_groups a) (map VInt (ids_of r))).
  assert (Cg := coded_filter f). set (mg := set_rows (mem_copy m) (filter f (rows_of m))) in *.
  assert (Ng : rows_of mg <> []).
  { intros E. assert (H : In r (rows_of mg)) by (apply filter_In; split; [auto|apply self_in_group; auto]).
    rewrite E in H. exact H. }
  assert (S : forall g, (forall c, small_col (set_rows (mem_copy mg) (filter g (rows_of mg))) c)).
  { intros g c r' z Hr'. cbn in Hr'. apply filter_In in Hr'. destruct Hr' as [Hr' _]. apply filter_In in Hr'.
    apply (co_small _ _ _ K). tauto. }
  rewrite (co_text _ _ _ K). assert (A := above_filter mg Cg t Ng (co_thr _ _ _ K)). destruct t as [l|]; cbn [thr_text option_map] in *.
  - unfold select.
    assert (Q : apply_query (mem_copy mg) ("interaction >= " ++ lit_text l) = apply_query mg ("interaction >= " ++ lit_text l)) by reflexivity.
    rewrite Q, A. cbn [bind]. eexists. split; [reflexivity|]. split; [|split; [reflexivity|split]].
    + apply (wf_select mg ("interaction >= " ++ lit_text l)); [apply (cd_wf _ Cg)|]. unfold select. rewrite Q, A. reflexivity.
    + apply filter_filter_andb.
    + apply (S (above (Some l))).
  - exists mg. split; auto. split; [apply (cd_wf _ Cg)|]. split; auto. split.
    + unfold mg. cbn. apply filter_ext. intros x. cbn [above]. rewrite andb_true_r. reflexivity.
    + intros c r' z Hr'. cbn in Hr'. apply filter_In in Hr'. apply (co_small _ _ _ K). tauto.
Qed.

(** reading whole records *)
Lemma values_none mp : values_dict mp None = values_dict mp (Some (m_columns mp)) \/ exists c, In c (m_columns mp) /\ col_in mp c = false.
Proof.
  destruct (forallb (col_in mp) (m_columns mp)) eqn:E.
  - left. unfold values_dict, values, handle_columns. rewrite E. reflexivity.
  - right. rewrite <- not_true_iff_false, forallb_forall in E.
    destruct (existsb (fun c => negb (col_in mp c)) (m_columns mp)) eqn:X.
    + apply existsb_exists in X. destruct X as [c [H N]]. exists c. split; auto. apply negb_true_iff. auto.
    + exfalso. apply E. intros c Hc. destruct (col_in mp c) eqn:Y; auto.
      assert (existsb (fun c => negb (col_in mp c)) (m_columns mp) = true); [|congruence].
      apply existsb_exists. exists c. rewrite Y. auto.
Qed.

Lemma records_ok mp : wf_mem mp -> (forall c, small_col mp c) -> m_columns mp = m_columns m ->
  exists recs, values_dict mp None = Ok recs /\ Forall2 (shows m) (rows_of mp) recs.
Proof.
  intros W S E. destruct (values_none mp) as [V|[c [H N]]].
  2:{ apply col_in_iff in H. congruence. }
  destruct (values_ok mp (m_columns mp) W) as [vs [_ [D F]]]; auto.
  rewrite V, D. eexists. split; [reflexivity|]. apply Forall2_map_r.
  eapply Forall2_impl; [|exact F]. intros r v H. cbv beta in H. unfold shows. rewrite <- E.
  clear - H. induction H as [|c x l l' X F IH]; [split; [reflexivity|constructor]|].
  destruct IH as [I1 I2]. cbn [combine map fst]. split; [congruence|]. constructor; auto.
Qed.

(** a field of a record *)
Lemma shows_field r rec c : shows m r rec -> In c (m_columns m) ->
  exists x y, assoc String.eqb c rec = Some x /\ row_val r c = Some y /\ same_value x y.
Proof.
  intros [E F] H. rewrite <- E in H. clear E. induction F as [|[k v] rec X F IH]; [contradiction|].
  cbn [map fst] in H. cbn [assoc]. destruct (String.eqb c k) eqn:Q.
  - apply String.eqb_eq in Q. subst. destruct X as [y [X1 X2]]. exists v, y. auto.
  - apply IH. destruct H as [->|H]; auto. rewrite String.eqb_refl in Q. discriminate.
Qed.

Lemma same_is_str x y : same_value x y -> is_str x = is_str y.
Proof. destruct x, y; simpl; tauto. Qed.
Lemma same_ltb x y x' y' : same_value x x' -> same_value y y' -> val_ltb x y = val_ltb x' y'.
Proof.
  unfold same_value. destruct x, y, x', y'; try tauto; intros H H'; subst; auto;
  cbn [val_ltb]; try rewrite H; try rewrite H'; auto.
Qed.

Definition row_leb (c : string) (r r' : row) : bool :=
  match row_val r c, row_val r' c with Some x, Some y => kleb x y | _, _ => true end.

Lemma rec_row_leb c r r' rec rec' : In c (m_columns m) -> shows m r rec -> shows m r' rec' ->
  row_leb c r r' = rec_leb c rec rec'.
Proof.
  intros I S S'. destruct (shows_field r rec c S I) as [x [y [E1 [E2 E3]]]].
  destruct (shows_field r' rec' c S' I) as [x' [y' [E1' [E2' E3']]]].
  unfold row_leb, rec_leb, kleb. rewrite E1, E2, E1', E2', (same_ltb _ _ _ _ E3' E3). reflexivity.
Qed.

(** rows of the data have keys of one kind *)
Lemma one_kind_col c l : In c (m_columns m) -> (forall r, In r l -> In r (rows_of m)) ->
  exists b, forall r, In r l -> exists v, row_val r c = Some v /\ is_str v = b.
Proof.
  intros I H. destruct (col_type_ok m c (cd_wf m C) I) as [ty T]. exists (dtype_eqb ty DObj).
  intros r Hr. destruct (wf_row_val m c ty r (cd_wf m C) T (H r Hr)) as [v [E Ty]]. exists v. split; auto.
  rewrite <- Ty. destruct v; reflexivity.
Qed.

Lemma val_eqb_same x y z : val_eqb x z = true -> val_eqb y z = true -> val_ltb y x <> Some true.
Proof.
  intros A B E.
  assert (Q : forall p q r, Qc_eq_bool p r = true -> Qc_eq_bool q r = true -> Qcltb q p <> true).
  { intros p q r X Y Z. apply Qc_eq_bool_iff in X. apply Qc_eq_bool_iff in Y. subst. apply Qcltb_true in Z.
    apply (Qclt_not_le _ _ Z). apply Qcle_refl. }
  assert (Q' : forall i j, i =? j = true -> Qc_eq_bool (Qc_of_Z i) (Qc_of_Z j) = true).
  { intros i j X. apply Z.eqb_eq in X. subst. apply Qc_eq_bool_iff. reflexivity. }
  destruct x, y, z; cbn [val_eqb val_ltb num_of] in *; try discriminate;
  try (injection E as E; revert E; eapply Q; eauto; fail).
  apply String.eqb_eq in A. apply String.eqb_eq in B. subst. injection E as E.
  assert (F := string_le_total s1 s1 E). congruence.
Qed.

Lemma sort_rows_order l : (forall r, In r l -> In r (rows_of m)) ->
  match l_sort a with Some c => In c (m_columns m) | None => True end ->
  in_order (l_sort a) l (match l_sort a with None => l | Some c => sort_by (row_leb c) l end).
Proof.
  intros H I. unfold in_order. destruct (l_sort a) as [c|]; auto. split; [apply sort_by_perm|].
  destruct (one_kind_col c l I H) as [b B].
  assert (F : Forall (fun r => exists v, row_val r c = Some v /\ is_str v = b) l) by (apply Forall_forall; auto).
  split.
  - eapply StronglySorted_impl; [|apply (sort_on_sorted (row_leb c) (fun r => exists v, row_val r c = Some v /\ is_str v = b)); auto].
    + intros r r' L x y E E'. unfold le_rel, row_leb in L. rewrite E, E' in L. unfold kleb in L.
      unfold val_le. intros Z. rewrite Z in L. discriminate.
    + intros x y [v [E1 E2]] [v' [E1' E2']]. unfold row_leb. rewrite E1, E1'. apply kleb_total. congruence.
    + intros x y z [v [E1 E2]] [v' [E1' E2']] [v'' [E1'' E2'']]. unfold row_leb. rewrite E1, E1', E1''.
      apply kleb_trans; congruence.
  - intros v. apply sort_stable. intros x y Hx Hy. unfold sort_key, row_leb.
    destruct (row_val x c) as [p|]; [|discriminate]. destruct (row_val y c) as [q|]; [|discriminate].
    intros A B'. unfold kleb. assert (Z := val_eqb_same p q v A B'). destruct (val_ltb q p) as [[|]|]; auto.
Qed.

Lemma sorted_records mp recs : Forall2 (shows m) (rows_of mp) recs ->
  match l_sort a with Some c => In c (m_columns m) | None => True end ->
  Forall2 (shows m) (match l_sort a with None => rows_of mp | Some c => sort_by (row_leb c) (rows_of mp) end) (sort_records a recs).
Proof.
  intros F I. unfold sort_records. destruct (l_sort a) as [c|]; auto. apply sort_F2; auto.
  intros x y x' y' S S'. apply rec_row_leb; auto.
Qed.
End Config.
