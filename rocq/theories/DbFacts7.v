(** Reads, and creating and loading data sets. *)
From Coq Require Import String Ascii.
From Coq Require Import List ZArith QArith Qcanon Bool Lia Permutation.
From Verif Require Import Py PyFacts MemModel DbModel DbFacts DbFacts2 DbFacts3 DbFacts4 DbFacts5 DbFacts6.
Import ListNotations.
Open Scope string_scope.
Open Scope Z_scope.

Section Ops.
Variable inode : string -> nat.
Notation tables := (tables inode).
Notation set_tables := (set_tables inode).
Notation Base := (Base inode).
Notation settledw := (settledw inode).
Notation unchanged := (unchanged inode).
Notation quiet := (quiet inode).
Notation same := (same inode).
Notation works := (works inode).
Notation has := (has inode).
Notation keeps := (keeps inode).

(** ** Reads *)
Lemma fits_zip ts x q rows : fits ts x q rows -> map (zip_row x) rows = map (proj (i_cols x)) rows.
Proof.
  intros (_ & E & _ & _ & [ext Ext] & _). apply map_ext_in. intros row Hr.
  unfold src_of in E. cbn [eval] in E. destruct (eval ts (q_from q)) as [[fcs frows]|]; [|discriminate].
  destruct (_ && _)%bool; [|discriminate]. assert (rows = map (proj (q_cols q)) (filter (fun r => forallb (wholds (is_tab (q_from q)) fcs frows r) (q_where q)) frows)) by congruence.
  subst rows. apply in_map_iff in Hr. destruct Hr as [r0 [<- _]]. unfold zip_row. rewrite Ext, combine_proj_prefix.
  symmetry. apply proj_proj. apply incl_appl, incl_refl.
Qed.

Lemma forallb_nil_true {A B} (f : B -> A -> bool) l : filter (fun r => forallb (f r) []) l = l.
Proof. induction l as [|a l IH]; [auto|]. cbn [filter forallb]. f_equal. exact IH. Qed.

Lemma read_spec w i x : Base w -> settledw w i -> w_inst w i = Some x ->
  exists rows, fits (tables w (i_path x)) x (new_state x []) rows /\
    map (zip_row x) rows = den (tables w (i_path x)) x /\ state_rows inode i w = (w, Ok rows).
Proof.
  intros B S H. destruct (table_i inode w i x B H) as (tb & T & Wf).
  destruct (select_fits inode (tables w (i_path x)) x tb [] Wf T (b_inst inode w B i x H) (S x H)) as (rows & F & D).
  { intros c []. } { intros c []. }
  exists rows. split; [auto|]. rewrite (fits_zip _ _ _ _ F), D. split; [apply forallb_nil_true|].
  unfold state_rows. rewrite (andthen_ok _ _ _ _ _ (self_ok i w x H)). pose proof F as (_ & E & _).
  unfold query, andthen. rewrite E. auto.
Qed.

Lemma assoc_proj c cs r : In c cs -> assoc String.eqb c (proj cs r) = Some (tcell r c).
Proof.
  induction cs as [|d cs IH]; [intros []|]. intros H. cbn [proj map assoc]. destruct (String.eqb_spec c d) as [->|N]; [auto|].
  apply IH. destruct H; [congruence|auto].
Qed.
Lemma assoc_filter_key c ds (r : trow) : In c ds -> assoc String.eqb c (filter (fun p => in_cols (fst p) ds) r) = assoc String.eqb c r.
Proof.
  intro I. induction r as [|[d v] r IH]; [auto|]. cbn [filter fst assoc]. destruct (in_cols d ds) eqn:E.
  - cbn [assoc]. rewrite IH. auto.
  - destruct (String.eqb_spec c d) as [->|N]; [|auto]. apply in_cols_false in E. contradiction.
Qed.
Lemma list_record_proj x cs r : incl cs (i_cols x) -> zip_row x r = proj (i_cols x) r ->
  list_record x cs r = Ok (map (tcell r) cs).
Proof.
  intros I Z. unfold list_record, record_of. rewrite Z.
  assert (G : forall l, incl l cs -> mapM (fun c => match assoc String.eqb c (filter (fun p => in_cols (fst p) cs) (proj (i_cols x) r)) with
                          | Some v => Ok v | None => Err KeyError end) l = Ok (map (tcell r) l)).
  { induction l as [|c l IH]; intro J; [auto|]. cbn [mapM map].
    rewrite assoc_filter_key by (apply J; left; auto). rewrite assoc_proj by (apply I, J; left; auto).
    cbn [bind]. rewrite IH by (intros d Hd; apply J; right; auto). auto. }
  apply G, incl_refl.
Qed.
Lemma mapM_all {A B} (f : A -> res B) (g : A -> B) l : (forall a, In a l -> f a = Ok (g a)) -> mapM f l = Ok (map g l).
Proof.
  induction l as [|a l IH]; intro H; [auto|]. cbn [mapM map]. rewrite H by (left; auto). cbn [bind].
  rewrite IH by (intros; apply H; right; auto). auto.
Qed.
Definition columns_of (x : inst) (columns : option (list string)) : list string :=
  match columns with Some l => l | None => i_cols x end.
Lemma handle_ok x columns : incl (columns_of x columns) (i_cols x) -> handle_columns x columns = Ok (columns_of x columns).
Proof.
  intro I. unfold handle_columns. fold (columns_of x columns). apply subset_b_incl in I. unfold subset_b in I. rewrite I. auto.
Qed.
Lemma handle_bad x columns : ~ incl (columns_of x columns) (i_cols x) -> handle_columns x columns = Err AssertionError.
Proof.
  intro I. unfold handle_columns. fold (columns_of x columns).
  destruct (forallb (fun c => in_cols c (i_cols x)) (columns_of x columns)) eqn:E; [|auto]. exfalso. apply I.
  apply (proj1 (subset_b_incl (columns_of x columns) (i_cols x))). exact E.
Qed.
Lemma face_cols x x' columns : face x x' -> columns_of x' columns = columns_of x columns.
Proof. intros (_ & E & _). unfold columns_of. rewrite E. auto. Qed.

(** A read first counts as an interaction; the data set itself stays the same. *)
Lemma reading {A} (k : M A) w i x w' r : Base w -> settledw w i -> w_inst w i = Some x ->
  (_ <~ record_interaction inode i ;; k) w = (w', r) ->
  exists w2 y, (forall j, works w w2 j) /\ keeps w w2 i /\ w_inst w2 i = Some y /\ face x y /\ w_open w2 = w_open w /\
    incl (tabcols (tables w2 (i_path y)) y) (tabcols (tables w (i_path x)) x) /\
    den (tables w2 (i_path y)) y = den (tables w (i_path x)) x /\
    (k w2 = (w', r) \/ w' = w2 /\ (exists e, r = Err e) /\ ~ readable x).
Proof.
  intros B S H E. destruct (record_interaction inode i w) as [w2 r2] eqn:Er.
  destruct (record_spec inode w i x w2 r2 B S H Er) as [Q C].
  destruct (qu_self _ _ _ _ Q x H) as (y & Hy & F & Nm & St & D).
  exists w2, y. split; [intro j; eapply quiet_works_any; eauto|]. split; [eapply quiet_keeps; eauto|].
  split; [auto|]. split; [auto|]. split; [apply (qu_open _ _ _ _ Q)|]. split; [auto|]. split; [auto|]. destruct r2 as [[]|e].
  - left. rewrite (andthen_ok _ _ _ _ _ Er) in E. auto.
  - right. rewrite (andthen_err _ _ _ _ _ Er) in E. injection E as <- <-. split; [auto|]. split; [eauto|].
    intro Cb. specialize (C Cb). discriminate.
Qed.

Lemma set_open_unchanged w n j : unchanged w (set_open w n) j.
Proof. split; auto. Qed.
Lemma Base_open w n : Base w -> Base (set_open w n).
Proof. intros [B1 B2 B3 B4 B5 B6 B7 B8 B9]. constructor; auto. Qed.
Lemma open_works w n j : Base w -> works w (set_open w n) j.
Proof. intro B. apply unchanged_works; [auto|apply Base_open; auto|intros; apply set_open_unchanged]. Qed.
Lemma open_keeps w n i : Base w -> settledw w i -> keeps w (set_open w n) i.
Proof. intros B S. split; [apply unchanged_same; auto; apply set_open_unchanged|exact S]. Qed.
Lemma keeps_trans w1 w2 w3 i : keeps w1 w2 i -> keeps w2 w3 i -> keeps w1 w3 i.
Proof. intros [A1 A2] [B1 B2]. split; [eapply same_trans; eauto|auto]. Qed.
Lemma keeps_refl w i : settledw w i -> keeps w w i.
Proof. intro S. split; [apply same_refl|auto]. Qed.

Definition permuting (ord : list trow -> list trow) : Prop := forall l, Permutation (ord l) l.

Theorem values_spec ord w i x columns lo w' r : permuting ord -> Base w -> settledw w i -> w_inst w i = Some x ->
  values inode ord i columns lo w = (w', r) ->
  (forall j, works w w' j) /\ keeps w w' i /\ (lo = false -> w_open w' = w_open w) /\
  (forall vs, r = Ok vs -> incl (columns_of x columns) (i_cols x) /\
     Permutation vs (map (fun row => map (tcell row) (columns_of x columns)) (den (tables w (i_path x)) x))) /\
  (readable x -> incl (columns_of x columns) (i_cols x) -> exists vs, r = Ok vs).
Proof.
  intros P B S H E. unfold values in E.
  destruct (reading _ w i x w' r B S H E) as (w2 & y & W & K & Hy & F & Op & Nm & D & [E2|(-> & [e ->] & Nb)]).
  2:{ split; [auto|]. split; [auto|]. split; [auto|]. split; [discriminate|]. tauto. }
  rewrite (andthen_ok _ _ _ _ _ (self_ok i w2 y Hy)) in E2.
  assert (Fc : columns_of y columns = columns_of x columns) by (apply face_cols; auto).
  assert (Ec : i_cols y = i_cols x) by (destruct F as (_ & ? & _); auto).
  destruct (forallb (fun c => in_cols c (i_cols x)) (columns_of x columns)) eqn:I.
  - apply (proj1 (subset_b_incl _ _)) in I.
    rewrite (andthen_ok _ _ w2 w2 (columns_of x columns)) in E2 by (unfold lift; rewrite handle_ok, Fc; [auto|rewrite Fc, Ec; auto]).
    destruct (read_spec w2 i y (wk_base _ _ _ _ (W i)) (proj2 K) Hy) as (rows & Ft & Z & Sr).
    rewrite (andthen_ok _ _ _ _ _ Sr) in E2.
    set (w3 := if lo then set_open w2 (Datatypes.S (w_open w2)) else w2).
    rewrite (andthen_ok _ _ w2 w3 tt) in E2 by reflexivity. unfold lift in E2.
    assert (Zr : forall row, In row rows -> zip_row y row = proj (i_cols y) row).
    { pose proof (fits_zip _ _ _ _ Ft) as X. clear - X. induction rows as [|a rows IH]; [intros ? []|].
      cbn [map] in X. injection X as X1 X2. intros row [<-|Hr]; auto. }
    rewrite (mapM_all _ (fun row => map (tcell row) (columns_of x columns))) in E2.
    2:{ intros row Hr. apply list_record_proj; [rewrite Ec; auto|]. apply Zr. eapply Permutation_in; [apply P|auto]. }
    injection E2 as <- <-.
    assert (W3 : forall j, works w w3 j).
    { intro j. unfold w3. destruct lo; [|auto]. eapply works_trans; [apply W|apply open_works; apply (wk_base _ _ _ _ (W i))]. }
    assert (K3 : keeps w w3 i).
    { unfold w3. destruct lo; [|auto]. eapply keeps_trans; [exact K|]. apply open_keeps; [apply (wk_base _ _ _ _ (W i))|apply K]. }
    split; [auto|]. split; [auto|]. split; [intros ->; auto|]. split; [|eauto].
    intros vs X. injection X as <-. split; [auto|].
    rewrite <- D, <- Z, map_map. eapply Permutation_trans; [apply Permutation_map; apply P|].
    apply Permutation_refl'. apply map_ext_in. intros row Hr. rewrite Zr by auto. apply map_ext_in. intros c Hc.
    symmetry. apply tcell_proj. rewrite Ec. apply I. auto.
  - assert (I' : ~ incl (columns_of x columns) (i_cols x)).
    { intro X. apply (proj2 (subset_b_incl _ _)) in X. unfold subset_b in X. congruence. }
    unfold lift, andthen in E2. rewrite handle_bad in E2 by (rewrite Fc, Ec; auto). injection E2 as <- <-.
    split; [auto|]. split; [auto|]. split; [auto|]. split; [discriminate|]. intros _ X. contradiction.
Qed.

Lemma no_column_incl cols cs c : incl cs cols -> no_column cols c -> no_column cs c.
Proof.
  intros I N. destruct c as [col op [z|q|t]| | |]; auto. cbn [no_column] in *. destruct N as [N1 N2]. split; auto.
Qed.

Theorem select_one_spec ord w i x q columns w' r : permuting ord -> Base w -> settledw w i -> w_inst w i = Some x ->
  select_one inode ord i q columns w = (w', r) ->
  (forall conds, parse_query x q = Ok conds -> unambiguous inode w x conds) ->
  (forall j, works w w' j) /\ keeps w w' i /\
  (forall o, r = Ok o -> exists conds, parse_query x q = Ok conds /\ incl (columns_of x columns) (i_cols x) /\
     match o with
     | None => filter (fun row => forallb (cond_true row) conds) (den (tables w (i_path x)) x) = []
     | Some v => exists row, In row (den (tables w (i_path x)) x) /\ forallb (cond_true row) conds = true /\
                   v = map (tcell row) (columns_of x columns)
     end) /\
  (readable x -> incl (columns_of x columns) (i_cols x) -> (exists conds, parse_query x q = Ok conds) -> exists o, r = Ok o).
Proof.
  intros P B S H E Un. unfold select_one in E.
  destruct (reading _ w i x w' r B S H E) as (w2 & y & W & K & Hy & F & Op & Nm & D & [E2|(-> & [e ->] & Nb)]).
  2:{ split; [auto|]. split; [auto|]. split; [discriminate|]. tauto. }
  rewrite (andthen_ok _ _ _ _ _ (self_ok i w2 y Hy)) in E2.
  assert (Fc : columns_of y columns = columns_of x columns) by (apply face_cols; auto).
  assert (Ec : i_cols y = i_cols x /\ i_types y = i_types x) by (destruct F as (_ & ? & ? & _); auto). destruct Ec as [Ec Ety].
  rewrite (parse_query_eq x y) in E2 by auto. destruct (parse_query x q) as [conds|e] eqn:Ep.
  2:{ unfold lift, andthen in E2. injection E2 as <- <-. split; [auto|]. split; [auto|]. split; [discriminate|]. intros _ _ [? ?]. discriminate. }
  rewrite (andthen_ok _ _ w2 w2 conds) in E2 by reflexivity.
  destruct (forallb (fun c => in_cols c (i_cols x)) (columns_of x columns)) eqn:I.
  - apply (proj1 (subset_b_incl _ _)) in I.
    rewrite (andthen_ok _ _ w2 w2 (columns_of x columns)) in E2 by (unfold lift; rewrite handle_ok, Fc; [auto|rewrite Fc, Ec; auto]).
    pose proof (wk_base _ _ _ _ (W i)) as B2. destruct (table_i inode w2 i y B2 Hy) as (tb & T & Wf).
    destruct (select_fits inode (tables w2 (i_path y)) y tb conds Wf T (b_inst inode w2 B2 i y Hy) (proj2 K y Hy)) as (rows & Ft & Dr).
    { intros c Hc. rewrite Ec. eapply parse_query_plain; eauto. }
    { intros c Hc. destruct (table_i inode w i x B H) as (tb0 & T0 & _). unfold tabcols in Nm. rewrite T, T0 in Nm.
      apply (no_column_incl (tb_cols tb0)); [exact Nm|]. exact (Un conds eq_refl tb0 c T0 Hc). }
    pose proof Ft as (_ & Ev & _).
    rewrite (andthen_ok _ _ w2 w2 (q_cols (new_state y conds), rows)) in E2 by (unfold query; rewrite Ev; auto).
    cbn [snd] in E2. rewrite D, Ec in Dr.
    pose proof (P rows) as Pr. destruct (ord rows) as [|row l].
    + apply Permutation_nil in Pr. subst rows. injection E2 as <- <-. split; [auto|]. split; [auto|]. split; [|eauto].
      intros o X. injection X as <-. exists conds. auto.
    + assert (Hr : In row rows) by (eapply Permutation_in; [exact Pr|left; auto]).
      assert (Zr : zip_row y row = proj (i_cols y) row).
      { pose proof (fits_zip _ _ _ _ Ft) as X. revert Hr X. clear. induction rows as [|a rows IH]; [intros []|].
        intros [->|Hr] X; cbn [map] in X; injection X as X1 X2; auto. }
      unfold lift, andthen in E2. rewrite list_record_proj in E2; [|rewrite Ec; auto|auto]. injection E2 as <- <-.
      split; [auto|]. split; [auto|]. split; [|eauto]. intros o X. injection X as <-. exists conds. split; [auto|]. split; [auto|].
      exists (proj (i_cols x) row).
      assert (Hf : In (proj (i_cols x) row) (filter (fun row => forallb (cond_true row) conds) (den (tables w (i_path x)) x)))
        by (rewrite <- Dr; apply in_map; auto).
      apply filter_In in Hf. destruct Hf as [H1 H2]. split; [auto|]. split; [auto|]. apply map_ext_in. intros c Hc.
      symmetry. apply tcell_proj. apply I. auto.
  - assert (I' : ~ incl (columns_of x columns) (i_cols x)).
    { intro X. apply (proj2 (subset_b_incl _ _)) in X. unfold subset_b in X. congruence. }
    unfold lift, andthen in E2. rewrite handle_bad in E2 by (rewrite Fc, Ec; auto). injection E2 as <- <-.
    split; [auto|]. split; [auto|]. split; [discriminate|]. intros _ X. contradiction.
Qed.

Theorem len_spec w i x : Base w -> w_inst w i = Some x ->
  ds_len i w = (w, Ok (length (den (tables w (i_path x)) x))).
Proof.
  intros B H. unfold ds_len. rewrite (andthen_ok _ _ _ _ _ (self_ok i w x H)). unfold ret.
  rewrite (den_length inode w i x); auto.
Qed.

(** Reading columns directly from the source. *)
Lemma source_cols w i y cs : Base w -> settledw w i -> w_inst w i = Some y -> cs <> [] -> incl cs (i_cols y) ->
  exists rows, eval (tables w (i_path y)) (SSub cs (curr_source y) []) = Ok (cs, rows) /\
    forall c, In c cs -> map (fun r => tcell r c) rows = map (fun r => tcell r c) (den (tables w (i_path y)) y) /\
    map (fun r => map (tcell r) cs) rows = map (fun r => map (tcell r) cs) (den (tables w (i_path y)) y).
Proof.
  intros B S H Ne I. destruct (b_inst inode w B i y H) as (tb & ds & rows & T & Bs & E & R & L).
  pose proof (settled_incl _ _ _ _ (S y H) E) as J.
  exists (map (proj cs) rows). split.
  - apply eval_sub_nil with (fcs := ds); auto. eapply incl_tran; eauto.
  - intros c Hc. unfold den. rewrite E, !map_map. split.
    + apply map_ext. intro r. rewrite !tcell_proj; auto.
    + apply map_ext. intro r. apply map_ext_in. intros d Hd. rewrite !tcell_proj; auto.
Qed.

Theorem count_unique_spec w i x columns w' r : Base w -> settledw w i -> w_inst w i = Some x ->
  columns_of x columns <> [] -> count_unique inode i columns w = (w', r) ->
  (forall j, works w w' j) /\ keeps w w' i /\
  (forall n, r = Ok n -> incl (columns_of x columns) (i_cols x) /\
     n = length (dedup (list_eqb cell_eqb) (map (fun row => map (tcell row) (columns_of x columns)) (den (tables w (i_path x)) x)))) /\
  (readable x -> incl (columns_of x columns) (i_cols x) -> exists n, r = Ok n).
Proof.
  intros B S H Ne E. unfold count_unique in E.
  destruct (reading _ w i x w' r B S H E) as (w2 & y & W & K & Hy & F & Op & Nm & D & [E2|(-> & [e ->] & Nb)]).
  2:{ split; [auto|]. split; [auto|]. split; [discriminate|]. tauto. }
  rewrite (andthen_ok _ _ _ _ _ (self_ok i w2 y Hy)) in E2.
  assert (Fc : columns_of y columns = columns_of x columns) by (apply face_cols; auto).
  assert (Ec : i_cols y = i_cols x) by (destruct F as (_ & ? & _); auto).
  destruct (forallb (fun c => in_cols c (i_cols x)) (columns_of x columns)) eqn:I.
  - apply (proj1 (subset_b_incl _ _)) in I.
    rewrite (andthen_ok _ _ w2 w2 (columns_of x columns)) in E2 by (unfold lift; rewrite handle_ok, Fc; [auto|rewrite Fc, Ec; auto]).
    destruct (source_cols w2 i y (columns_of x columns) (wk_base _ _ _ _ (W i)) (proj2 K) Hy Ne) as (rows & Ev & Cc); [rewrite Ec; auto|].
    rewrite (andthen_ok _ _ w2 w2 (columns_of x columns, rows)) in E2 by (unfold query; rewrite Ev; auto).
    injection E2 as <- <-. split; [auto|]. split; [auto|]. split; [|eauto].
    intros n X. injection X as <-. split; [auto|]. cbn [snd]. unfold distinct_rows.
    destruct (columns_of x columns) as [|c cs] eqn:Ecs; [congruence|].
    destruct (Cc c (or_introl eq_refl)) as [_ ->]. rewrite D. auto.
  - assert (I' : ~ incl (columns_of x columns) (i_cols x)).
    { intro X. apply (proj2 (subset_b_incl _ _)) in X. unfold subset_b in X. congruence. }
    unfold lift, andthen in E2. rewrite handle_bad in E2 by (rewrite Fc, Ec; auto). injection E2 as <- <-.
    split; [auto|]. split; [auto|]. split; [discriminate|]. intros _ X. contradiction.
Qed.

Theorem extremum_spec better w i x c w' r : Base w -> settledw w i -> w_inst w i = Some x ->
  extremum inode better i c w = (w', r) ->
  (forall j, works w w' j) /\ keeps w w' i /\
  (forall o, r = Ok o -> In c (i_cols x) /\
     o = best better None (map (fun row => tcell row c) (den (tables w (i_path x)) x))) /\
  (readable x -> In c (i_cols x) -> exists o, r = Ok o).
Proof.
  intros B S H E. unfold extremum in E.
  destruct (reading _ w i x w' r B S H E) as (w2 & y & W & K & Hy & F & Op & Nm & D & [E2|(-> & [e ->] & Nb)]).
  2:{ split; [auto|]. split; [auto|]. split; [discriminate|]. tauto. }
  rewrite (andthen_ok _ _ _ _ _ (self_ok i w2 y Hy)) in E2.
  assert (Ec : i_cols y = i_cols x) by (destruct F as (_ & ? & _); auto).
  unfold handle_columns in E2. cbn [forallb] in E2. rewrite andb_true_r, Ec in E2.
  destruct (in_cols c (i_cols x)) eqn:I.
  - apply in_cols_In in I. rewrite (andthen_ok _ _ w2 w2 [c]) in E2 by reflexivity.
    destruct (source_cols w2 i y [c] (wk_base _ _ _ _ (W i)) (proj2 K) Hy) as (rows & Ev & Cc); [discriminate|rewrite Ec; intros d [<-|[]]; auto|].
    rewrite (andthen_ok _ _ w2 w2 ([c], rows)) in E2 by (unfold query; rewrite Ev; auto).
    injection E2 as <- <-. split; [auto|]. split; [auto|]. split; [|eauto].
    intros o X. injection X as <-. split; [auto|]. cbn [snd]. destruct (Cc c (or_introl eq_refl)) as [-> _]. rewrite D. auto.
  - unfold lift, andthen in E2. injection E2 as <- <-. split; [auto|]. split; [auto|]. split; [discriminate|].
    intros _ X. apply in_cols_In in X. congruence.
Qed.

(** ** Creating and loading *)
Lemma Base_new_file w p f : Base w -> (forall i x, w_inst w i = Some x -> inode (i_path x) <> inode p) ->
  (forall t tb, f t = Some tb -> wf_table tb) -> (forall k, (w_fresh w <= k)%nat -> f (tname k) = None) ->
  Base (set_tables w p f) /\ forall j, unchanged w (set_tables w p f) j.
Proof.
  intros B Nl Wf Fr.
  assert (T : forall i x, w_inst w i = Some x -> tables (set_tables w p f) (i_path x) = tables w (i_path x)).
  { intros i x H. rewrite tables_set. destruct (Nat.eqb_spec (inode (i_path x)) (inode p)) as [E|E]; [|auto].
    exfalso. eapply Nl; eauto. }
  destruct B as [B1 B2 B3 B4 B5 B6 B7 B8 B9]. split.
  - constructor; auto.
    + intros n g t tb Hn Ht. cbn in Hn. unfold upd_nat in Hn. destruct (Nat.eqb n (inode p)); [injection Hn as <-; eauto|eauto].
    + intros i x H. rewrite (T i x H). exact (B2 i x H).
    + intros n g k Hn Hk. cbn in Hn. unfold upd_nat in Hn. destruct (Nat.eqb n (inode p)); [injection Hn as <-; eauto|eauto].
  - intro j. split; [auto|]. intros x H. rewrite (T j x H). auto.
Qed.

Lemma register_works w x : Base w -> src_ok (tables w (i_path x)) x -> settled (tables w (i_path x)) x ->
  (forall j y, w_inst w j = Some y -> inode (i_path y) = inode (i_path x) -> i_path y = i_path x) ->
  works w (reg_world w x) (w_next w) /\ settledw (reg_world w x) (w_next w) /\
  has (reg_world w x) (w_next w) (i_cols x) (i_types x) (i_ids x) (den (tables w (i_path x)) x).
Proof.
  intros B So St Al. destruct (Base_register inode w x B So Al) as [B' U].
  split; [apply unchanged_works; auto|]. split.
  - intros y Hy. rewrite reg_inst_new in Hy. injection Hy as <-. exact St.
  - exists x. rewrite reg_inst_new. do 4 (split; [auto|]). split; [reflexivity|].
    destruct So as (tb & ds & rows & T & Bs & E & R & L). unfold den. rewrite E, map_length. auto.
Qed.

Theorem load_spec w p w' r : Base w ->
  (forall j y, w_inst w j = Some y -> inode (i_path y) = inode p -> i_path y = p) ->
  load inode p w = (w', r) ->
  match tables w p main_table with
  | None => w' = w /\ r = Err (match w_file w (inode p) with None => FileNotFoundError | _ => OperationalError end)
  | Some tb =>
      let cs := filter (fun c => negb (in_cols c ["uid"; "iid"])) (tb_cols tb) in
      r = Ok (w_next w) /\ works w w' (w_next w) /\ settledw w' (w_next w) /\
      has w' (w_next w) cs None false (map (proj cs) (tb_rows tb))
  end.
Proof.
  intros B Al E. unfold load, open_db in E.
  destruct (w_file w (inode p)) as [f|] eqn:Hf.
  2:{ assert (T : tables w p main_table = None) by (unfold DbModel.tables; rewrite Hf; auto). rewrite T.
      unfold andthen, file_exists in E. rewrite Hf in E. injection E as <- <-. auto. }
  destruct (tables w p main_table) as [tb|] eqn:T.
  2:{ unfold andthen, file_exists in E. rewrite Hf in E. cbn [eval] in E. rewrite T in E. injection E as <- <-. auto. }
  intro cs.
  assert (Eo : open_db inode p main_table w = (w, Ok (cs, length (tb_rows tb)))).
  { unfold open_db, andthen, file_exists. rewrite Hf. cbn [eval]. rewrite T. reflexivity. }
  unfold open_db in Eo. rewrite (andthen_ok _ _ _ _ _ Eo) in E. cbn [fst snd] in E. rewrite register_eq in E. injection E as <- <-.
  pose proof (Base_tables_wf inode w p main_table tb B T) as W.
  set (x := mkInst p main_table cs None None (length (tb_rows tb)) (length (tb_rows tb)) 0 0 false []).
  assert (Rc : In "rid" (tb_cols tb)) by (apply wt_rid_in; auto).
  assert (So : src_ok (tables w (i_path x)) x).
  { exists tb, (tb_cols tb), (tb_rows tb). split; [auto|]. split; [auto|]. split; [cbn [curr_source x i_state eval i_table i_path]; rewrite T; auto|]. auto. }
  assert (St : settled (tables w (i_path x)) x).
  { split; [apply NoDup_filter; apply wt_nodup; auto|]. split; [apply filter_In; split; auto|]. exists tb. split; [auto|].
    split; [discriminate|]. cbn. intros c Hc. apply filter_In in Hc. tauto. }
  destruct (register_works w x B So St Al) as (W1 & W2 & W3). split; [auto|]. split; [auto|]. split; [auto|].
  assert (De : den (tables w (i_path x)) x = map (proj cs) (tb_rows tb)).
  { unfold den, curr_source. cbn [x i_state eval i_table i_path i_cols]. rewrite T. auto. }
  rewrite De in W3. exact W3.
Qed.

Theorem create_spec w p cols types rows w' r : Base w ->
  (forall j y, w_inst w j = Some y -> inode (i_path y) <> inode p) ->
  NoDup cols -> (forall c t, In c id_cols -> assoc String.eqb c types = Some t -> t = DInt) ->
  (forall row, In row rows -> exists z, tcell row "rid" = Some (VInt z)) ->
  create inode p cols types rows w = (w', r) ->
  (forall e, r = Err e -> w' = w) /\
  (forall j, r = Ok j -> j = w_next w /\ works w w' j /\ settledw w' j /\
     exists tys, build_types (mkInst p main_table cols (Some types) None (length rows) (length rows) 0 0 false []) = Ok tys /\
     has w' j cols (Some types) false (map (fun row => proj cols (store tys row)) rows)) /\
  (incl required cols -> (forall c, In c cols -> ~ In c id_cols -> exists t, assoc String.eqb c types = Some t) ->
     NoDup (map rid_of rows) -> exists j, r = Ok j).
Proof.
  intros B Nl ND Ty Rr E. unfold create in E.
  set (x := mkInst p main_table cols (Some types) None (length rows) (length rows) 0 0 false []) in *.
  destruct (build_types x) as [tys|e] eqn:Eb.
  2:{ unfold lift, andthen in E. injection E as <- <-. split; [auto|]. split; [discriminate|]. intros R A _.
      destruct (build_types_some x types eq_refl R A) as [? ?]. congruence. }
  rewrite (andthen_ok _ _ w w tys) in E by reflexivity.
  destruct (build_types_ok x tys ND Eb) as (N1 & N2 & N3 & N4 & N5 & ts & Hts & N6). injection Hts as <-.
  destruct (fill tys rows) as [tb|e] eqn:Ef.
  2:{ unfold lift, andthen in E. injection E as <- <-. split; [auto|]. split; [discriminate|]. intros R A Nd.
      destruct (fill_ok tys rows N1 (N2 "rid" (or_introl eq_refl)) Rr Nd) as [? ?]. congruence. }
  rewrite (andthen_ok _ _ w w tb) in E by reflexivity.
  destruct (fill_wf tys rows tb N1 N2 Rr Ef) as (Wf & Et & Er).
  set (f := upd_str no_tables main_table (Some tb)) in *.
  destruct (Base_new_file w p f B Nl) as [B1 U1].
  { intros t tb' X. unfold f, upd_str in X. destruct (String.eqb t main_table); [congruence|discriminate]. }
  { intros k _. unfold f. rewrite upd_str_other; [auto|]. apply tname_main. }
  set (w1 := set_tables w p f) in *.
  rewrite (andthen_ok _ _ w w1 tt) in E by reflexivity. rewrite register_eq in E. injection E as <- <-.
  assert (T1 : tables w1 p = f) by apply tables_set_same.
  assert (T2 : tables w1 p main_table = Some tb) by (rewrite T1; unfold f; apply upd_str_same).
  assert (Cc : forall c, In c cols -> In c (tb_cols tb)) by (intros c Hc; unfold tb_cols; rewrite Et; apply N4; auto).
  assert (So : src_ok (tables w1 (i_path x)) x).
  { exists tb, (tb_cols tb), (tb_rows tb). split; [auto|]. split; [auto|].
    split; [cbn [curr_source x i_state eval i_table i_path]; rewrite T2; auto|]. split; [apply wt_rid_in; auto|]. rewrite Er, map_length. auto. }
  assert (St : settled (tables w1 (i_path x)) x).
  { split; [exact ND|]. split; [apply N3; left; auto|]. exists tb. split; [auto|]. split.
    - intros types' c t X Hc Ha. injection X as <-. rewrite Et. destruct (in_dec string_dec c id_cols) as [Hi|Hi].
      + rewrite (N2 c Hi). f_equal. symmetry. eapply Ty; eauto.
      + destruct (key_assoc c tys) as [t' Ht']; [apply N4; auto|]. rewrite Ht'. f_equal.
        pose proof (N6 c t' Hi Ht'). congruence.
    - exact Cc. }
  destruct (register_works w1 x B1 So St) as (W1 & W2 & W3).
  { intros j y Hy Ei. exfalso. exact (Nl j y Hy Ei). }
  change (w_next w1) with (w_next w) in *.
  split; [discriminate|]. split; [|eauto]. intros j X. injection X as <-. split; [auto|].
  split; [eapply works_trans; [apply unchanged_works; [exact B|exact B1|intros; apply U1]|exact W1]|]. split; [exact W2|].
  exists tys. split; [auto|].
  assert (De : den (tables w1 (i_path x)) x = map (fun row => proj cols (store tys row)) rows).
  { unfold den, curr_source. cbn [x i_state eval i_table i_path i_cols]. rewrite T2, Er, map_map. auto. }
  rewrite De in W3. exact W3.
Qed.
End Ops.
