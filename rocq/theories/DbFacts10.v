(** [apply] as a whole, and saving to a database file. *)
From Coq Require Import String Ascii.
From Coq Require Import List ZArith QArith Qcanon Bool Lia Permutation.
From Verif Require Import Py PyFacts MemModel DbModel DbFacts DbFacts2 DbFacts3 DbFacts4 DbFacts5 DbFacts6 DbFacts7 DbFacts8 DbFacts9.
Import ListNotations.
Open Scope string_scope.
Open Scope Z_scope.

Section Ops.
Variable inode : string -> nat.
Notation tables := (tables inode).
Notation set_tables := (set_tables inode).
Notation Base := (Base inode).
Notation settledw := (settledw inode).
Notation unchanged := (unchanged inode).
Notation quiet := (quiet inode).
Notation same := (same inode).
Notation works := (works inode).
Notation has := (has inode).
Notation keeps := (keeps inode).

Lemma assoc_set_same {B} k (v : B) l : assoc String.eqb k l = Some v -> assoc_set String.eqb k v l = l.
Proof.
  induction l as [|[d u] l IH]; [discriminate|]. cbn [assoc assoc_set]. destruct (String.eqb_spec k d) as [->|N].
  - intro H. injection H as ->. auto.
  - intro H. rewrite IH; auto.
Qed.
Lemma upto_none f c t rows : map (upto f c t []) rows = rows.
Proof. unfold upto. cbn [mem_b existsb]. apply map_id. Qed.

Definition reserved : list string := ["rid"; "uid"; "iid"; "user"; "item"].
Lemma reserved_ids c : ~ In c reserved -> ~ In c id_cols /\ c <> "rid".
Proof. intro N. split; [intros [<-|[<-|[<-|[]]]]|intros ->]; apply N; cbn; auto 6. Qed.

Lemma dtype_eqb_eq a b : dtype_eqb a b = true -> a = b.
Proof. destruct a, b; cbn; intro; auto; discriminate. Qed.

Theorem apply_spec ord f c w i x w' r : permuting ord -> Base w -> settledw w i -> w_inst w i = Some x -> w_open w = 0%nat ->
  apply_col inode ord i c f w = (w', r) ->
  let rows := den (tables w (i_path x)) x in
  works w w' i /\
  (exists rows' ts', has w' i (i_cols x) ts' (i_ids x) rows' /\
    (forall e, r = Err e -> exists t, mixed f c t rows rows') /\
    (r = Ok tt -> settledw w' i /\ In c (i_cols x) /\ ~ In c reserved /\ all_ok f c rows /\
       exists ts row v, i_types x = Some ts /\ In row rows /\ call f (tcell row c) = Ok v /\
         ts' = Some (assoc_set String.eqb c (type_of v) ts) /\
         Permutation rows' (map (changed f c (type_of v)) rows))) /\
  (can_build x -> In c (i_cols x) -> ~ In c reserved -> rows <> [] -> all_ok f c rows -> r = Ok tt).
Proof.
  intros P B S H Op E rows.
  assert (Stay : has w i (i_cols x) (i_types x) (i_ids x) rows) by (apply has_self; auto).
  assert (Mx : forall t, mixed f c t rows rows) by (intro t; exists []; rewrite upto_none; apply Permutation_refl).
  unfold apply_col in E. rewrite (andthen_ok _ _ _ _ _ (self_ok i w x H)) in E.
  destruct (in_cols c (i_cols x)) eqn:Ic; cbn [negb] in E.
  2:{ injection E as <- <-. split; [apply works_refl; auto|]. split.
      - exists rows, (i_types x). split; [auto|]. split; [intros; exists DInt; auto|discriminate].
      - intros _ Hc. apply in_cols_false in Ic. contradiction. }
  apply in_cols_In in Ic.
  change (["rid"; "uid"; "iid"; "user"; "item"]) with reserved in E.
  destruct (in_cols c reserved) eqn:Ir.
  { injection E as <- <-. split; [apply works_refl; auto|]. split.
      - exists rows, (i_types x). split; [auto|]. split; [intros; exists DInt; auto|discriminate].
      - intros _ _ Hc. apply in_cols_In in Ir. contradiction. }
  apply in_cols_false in Ir. destruct (reserved_ids c Ir) as [Nid Nrid].
  unfold guarded in E.
  match type of E with context [match ?m w with _ => _ end] => destruct (m w) as [w3 r3] eqn:E3 end.
  assert (Ew : w' = w3 /\ (r = Ok tt <-> r3 = Ok tt)).
  { destruct r3 as [[]|e]; injection E as <- <-; split; auto; split; intro; try discriminate; auto. }
  destruct Ew as [-> Er]. clear E.
  destruct (reading inode _ w i x w3 r3 B S H E3) as (w2 & y & W & K & Hy & F & Op2 & Nm & D & [E2|(-> & [e ->] & Nb)]).
  2:{ split; [apply W|]. split.
      - exists rows, (i_types x). split; [apply (has_same inode w); [apply K|auto]|]. split; [intros; exists DInt; auto|].
        intro X. apply Er in X. discriminate.
      - intros Cb. exfalso. apply Nb. left. auto. }
  clear E3. pose proof (wk_base _ _ _ _ (W i)) as B2. pose proof (proj2 K) as S2.
  assert (Stay2 : has w2 i (i_cols x) (i_types x) (i_ids x) rows) by (apply (has_same inode w); [apply K|auto]).
  pose proof (can_build_face x y F) as CB.
  destruct F as (F1 & F2 & F3 & F4 & F5 & F6).
  rewrite (andthen_ok _ _ _ _ _ (self_ok i w2 y Hy)) in E2.
  destruct (read_spec inode w2 i y B2 S2 Hy) as (rr & Ft & Z & Sr). rewrite (andthen_ok _ _ _ _ _ Sr) in E2.
  fold rows in D. rewrite D in Z.
  destruct (ord rr) as [|r0 ro] eqn:Eord.
  { unfold lift, andthen in E2. injection E2 as <- <-. split; [apply W|]. split.
    - exists rows, (i_types x). split; [auto|]. split; [intros; exists DInt; auto|]. intro X. apply Er in X. discriminate.
    - intros _ _ _ Ne _. exfalso. apply Ne. pose proof (P rr) as X. rewrite Eord in X. apply Permutation_nil in X. subst rr. auto. }
  set (row0 := zip_row y r0) in *.
  assert (H0 : In row0 rows).
  { rewrite <- Z. apply in_map. apply (Permutation_in _ (P rr)). rewrite Eord. left. auto. }
  assert (Hcy : In c (i_cols y)) by (rewrite F2; auto).
  assert (Pk : pick_cell row0 c = Ok (tcell row0 c)).
  { destruct (table_i inode w2 i y B2 Hy) as (tb & T & Wf).
    destruct (den_shape _ _ _ Wf T (b_inst inode w2 B2 i y Hy) (S2 y Hy)) as (Pf & ds & Ev & I1 & I2 & Len & Dn).
    rewrite D in Dn. rewrite Dn in H0. apply in_map_iff in H0. destruct H0 as [q [<- _]]. unfold pick_cell.
    rewrite assoc_proj, tcell_proj by auto. auto. }
  rewrite Pk in E2. cbn [bind] in E2.
  destruct (call f (tcell row0 c)) as [v|e] eqn:Ev.
  2:{ unfold lift, andthen in E2. injection E2 as <- <-. split; [apply W|]. split.
    - exists rows, (i_types x). split; [auto|]. split; [intros; exists DInt; auto|]. intro X. apply Er in X. discriminate.
    - intros _ _ _ _ Al. destruct (Al row0 H0) as [v X]. congruence. }
  rewrite (andthen_ok _ _ w2 w2 v) in E2 by reflexivity.
  destruct (i_types y) as [ts|] eqn:Ety.
  2:{ injection E2 as <- <-. split; [apply W|]. split.
    - exists rows, (i_types x). split; [auto|]. split; [intros; exists DInt; auto|]. intro X. apply Er in X. discriminate.
    - intros [_ (ts0 & X & _)]. congruence. }
  destruct (assoc String.eqb c ts) as [t|] eqn:Ea.
  2:{ injection E2 as <- <-. split; [apply W|]. split.
    - exists rows, (i_types x). split; [auto|]. split; [intros; exists DInt; auto|]. intro X. apply Er in X. discriminate.
    - intros [_ (ts0 & X & Y)]. assert (ts0 = ts) by congruence. subst ts0. destruct (Y c Ic Nid) as [t Z0]. congruence. }
  destruct (dtype_eqb (type_of v) t) eqn:Et.
  - apply dtype_eqb_eq in Et. subst t.
    destruct (apply_same_spec inode ord f c (type_of v) w2 i y ts w3 r3 P B2 S2 Hy) as (W3 & S3 & rows' & Hh & Hm & Ho & Hs); auto; try congruence.
    rewrite D in *. split; [eapply works_trans; [apply W|exact W3]|]. split.
    + exists rows', (i_types x). rewrite F2, Ety, F3, F5 in Hh. split; [auto|]. split; [intros; eauto|].
      intro X. apply Er in X. destruct (Ho X) as [-> Al]. split; [auto|]. split; [auto|]. split; [auto|]. split; [auto|].
      exists ts, row0, v. split; [congruence|]. split; [auto|]. split; [auto|]. split; [rewrite assoc_set_same; congruence|apply Permutation_refl].
    + intros Cb _ _ _ Al. apply Er. auto.
  - destruct (apply_retyped_spec inode ord f c (type_of v) w2 i y ts w3 r3 P B2 S2 Hy) as (W3 & rows' & ts' & Hh & Hf & Ho & Hs); auto.
    rewrite D in *. split; [eapply works_trans; [apply W|exact W3]|]. split.
    + exists rows', ts'. rewrite F2, F5 in Hh. split; [auto|]. split.
      { intros e X. exists DInt. destruct r3 as [[]|e3]; [assert (r = Ok tt) by (apply Er; auto); congruence|].
        rewrite (Hf e3 eq_refl). auto. }
      intro X. apply Er in X. destruct (Ho X) as (S3 & -> & Pm & Al). split; [auto|]. split; [auto|]. split; [auto|]. split; [auto|].
      exists ts, row0, v. split; [congruence|]. auto 6.
    + intros Cb _ _ _ Al. apply Er. auto.
Qed.

(** ** Reads only write to the data set's own file. *)
Definition elsewhere (w w' : world) (p : string) : Prop := forall n, n <> inode p -> w_file w' n = w_file w n.
Lemma elsewhere_tables w p ts : elsewhere w (set_tables w p ts) p.
Proof. intros n N. cbn. apply upd_nat_other. auto. Qed.
Lemma elsewhere_trans w1 w2 w3 p : elsewhere w1 w2 p -> elsewhere w2 w3 p -> elsewhere w1 w3 p.
Proof. intros A B n N. rewrite (B n N). auto. Qed.
Lemma optimize_files w i x sk w' r : w_inst w i = Some x -> optimize inode i sk w = (w', r) -> elsewhere w w' (i_path x).
Proof.
  intros H E. unfold optimize in E. rewrite (andthen_ok _ _ _ _ _ (self_ok i w x H)) in E. cbv zeta in E.
  set (y := set_counts x (i_n x) (i_before x) 0 0) in E.
  set (w1 := set_insts w (upd_nat (w_inst w) i (Some y))) in *.
  rewrite (andthen_ok _ _ w w1 tt) in E by reflexivity.
  rewrite (andthen_ok _ _ w1 w1 (w_open w)) in E by reflexivity.
  assert (G : forall st : option sel, (if Nat.ltb 0 (w_open w) then ret tt else
    users <~ (fun w => (w, match w_tabs w (i_path y) (i_table y) with Some l => Ok l | None => Err KeyError end)) ;;
    if Nat.eqb (length users) 1 then
      _ <~ match st with
           | Some q =>
               keep <~ query inode y (SSub ["rid"] (src_of q) []) ;;
               let rids := map rid_of (snd keep) in
               modify (fun w => match tables w (i_path y) (i_table y) with
                                | Some tb => set_tables w (i_path y)
                                    (upd_str (tables w (i_path y)) (i_table y)
                                       (Some (mkTable (tb_types tb)
                                                (filter (fun r => mem_b Z.eqb (rid_of r) rids) (tb_rows tb)))))
                                | None => w
                                end)
           | None => ret tt
           end ;;
      put i (set_state y None)
    else
      name <~ fresh_name ;;
      types <~ lift (build_types y) ;;
      rows <~ query inode y (SSub (i_cols y) (curr_source y) []) ;;
      tb <~ lift (fill types (snd rows)) ;;
      move_to inode i y name tb) w1 = (w', r) -> elsewhere w w' (i_path x)).
  { clear E. intros st E. destruct (Nat.ltb 0 (w_open w)); [injection E as <- _; intros n N; auto|].
    unfold andthen at 1 in E. destruct (w_tabs w1 (i_path y) (i_table y)) as [l|]; [|injection E as <- _; intros n N; auto].
    destruct (Nat.eqb (length l) 1).
    - destruct st as [q|]; [|injection E as <- _; intros n N; auto].
      unfold andthen, query, modify, put in E. destruct (eval _ _) as [[a b]|]; [|injection E as <- _; intros n N; auto].
      cbv zeta in E. destruct (tables w1 (i_path y) (i_table y)) as [tb|]; injection E as <- _; intros n N; auto.
      exact (elsewhere_tables w1 (i_path x) _ n N).
    - unfold fresh_name, andthen at 1 in E. unfold lift, andthen at 1 in E. destruct (build_types y); [|injection E as <- _; intros n N; auto].
      unfold query, andthen at 1 in E. destruct (eval _ _) as [[ea eb]|]; [|injection E as <- _; intros n N; auto].
      unfold andthen at 1 in E. destruct (fill _ _) as [tb|]; [|injection E as <- _; intros n N; auto].
      unfold move_to, modify, put, andthen in E. cbv beta iota zeta in E.
      match type of E with context [w_tabs ?v ?a ?b] => destruct (w_tabs v a b) as [m|] end;
        [destruct (mem_b Nat.eqb i m)|]; injection E as <- _; intros n N; exact (elsewhere_tables w1 (i_path x) _ n N). }
  change (i_state y) with (i_state x) in E. destruct (i_state x) as [q|]; [exact (G (Some q) E)|].
  destruct sk; [injection E as <- _; intros n N; auto|exact (G None E)].
Qed.
Lemma record_files w i x w' r : w_inst w i = Some x -> record_interaction inode i w = (w', r) -> elsewhere w w' (i_path x).
Proof.
  intros H E. unfold record_interaction in E. rewrite (andthen_ok _ _ _ _ _ (self_ok i w x H)) in E.
  set (y := set_counts x (i_n x) (i_before x) (i_queries x) (Datatypes.S (i_direct x))) in E.
  set (w1 := set_insts w (upd_nat (w_inst w) i (Some y))) in *.
  rewrite (andthen_ok _ _ w w1 tt) in E by reflexivity.
  rewrite (andthen_ok _ _ w1 w1 (w_open w)) in E by reflexivity.
  destruct (_ && _)%bool; [|injection E as <- _; intros n N; auto].
  apply (optimize_files w1 i y true w' r) in E; [exact E|]. cbn. apply upd_nat_same.
Qed.
Lemma values_files ord w i x columns w' r : w_inst w i = Some x -> values inode ord i columns false w = (w', r) ->
  elsewhere w w' (i_path x).
Proof.
  intros H E. unfold values in E. destruct (record_interaction inode i w) as [w2 r2] eqn:Er.
  pose proof (record_files w i x w2 r2 H Er) as F. assert (G : w' = w2); [|subst; auto].
  unfold andthen at 1 in E. rewrite Er in E. destruct r2 as [[]|e]; [|congruence].
  unfold andthen, self in E. destruct (w_inst w2 i) as [y|] eqn:Hy; [|congruence].
  unfold lift in E. destruct (handle_columns y columns); [|congruence].
  unfold state_rows, andthen, self in E. rewrite Hy in E. unfold query in E. destruct (eval _ _); [|congruence].
  unfold ret, modify in E. congruence.
Qed.

(** ** save *)
Definition data_cols (x : inst) : list string := remove_first String.eqb "rid" (i_cols x).

Lemma data_cols_filter x : NoDup (i_cols x) -> data_cols x = filter (fun c => negb (String.eqb c "rid")) (i_cols x).
Proof. apply remove_first_filter. Qed.
Lemma in_data_cols x c : NoDup (i_cols x) -> (In c (data_cols x) <-> In c (i_cols x) /\ c <> "rid").
Proof.
  intro N. rewrite data_cols_filter, filter_In, negb_true_iff by auto. destruct (String.eqb_spec c "rid"); intuition congruence.
Qed.

Lemma renumber_length rows cs : length (renumber rows cs) = length rows.
Proof. unfold renumber. rewrite map_length, combine_length, map_length, seq_length. lia. Qed.
Lemma combine_tcell cs (r : trow) d c : In c cs -> tcell (combine cs (map (tcell r) cs) ++ d)%list c = tcell r c.
Proof.
  induction cs as [|a cs IH]; [intros []|]. intros H. cbn [map combine app]. rewrite tcell_cons.
  destruct (String.eqb_spec c a) as [->|N]; [auto|]. apply IH. destruct H; [congruence|auto].
Qed.
Lemma combine_tcell_none cs (l : list (option value)) d c : ~ In c cs -> tcell (combine cs l ++ d)%list c = tcell d c.
Proof.
  revert l. induction cs as [|a cs IH]; intros l N; [auto|]. destruct l as [|v l]; [auto|]. cbn [combine app]. rewrite tcell_cons.
  destruct (String.eqb_spec c a) as [->|E]; [exfalso; apply N; left; auto|]. apply IH. intro X. apply N. right. auto.
Qed.

(** Renumbering keeps the values and counts the record ids from zero. *)
Lemma renumber_spec cs (rows : list trow) : ~ In "rid" cs ->
  let l := renumber (map (fun r => map (tcell r) cs) rows) cs in
  map (proj cs) l = map (proj cs) rows /\
  map rid_of l = map Z.of_nat (seq 0 (length rows)) /\
  (forall r, In r l -> exists z, tcell r "rid" = Some (VInt z)).
Proof.
  intros N l. unfold l, renumber. rewrite map_length. generalize 0%nat as k.
  assert (G : forall k, map (proj cs) (map (fun p => (combine cs (snd p) ++ [("rid", Some (VInt (fst p)))])%list)
                (combine (map Z.of_nat (seq k (length rows))) (map (fun r => map (tcell r) cs) rows))) = map (proj cs) rows /\
      map rid_of (map (fun p => (combine cs (snd p) ++ [("rid", Some (VInt (fst p)))])%list)
                (combine (map Z.of_nat (seq k (length rows))) (map (fun r => map (tcell r) cs) rows))) = map Z.of_nat (seq k (length rows)) /\
      (forall r, In r (map (fun p => (combine cs (snd p) ++ [("rid", Some (VInt (fst p)))])%list)
                (combine (map Z.of_nat (seq k (length rows))) (map (fun r => map (tcell r) cs) rows))) -> exists z, tcell r "rid" = Some (VInt z))).
  { induction rows as [|r rows IH]; intro k; [repeat split; auto; intros r []|].
    cbn [length seq map combine fst snd]. destruct (IH (S k)) as (E1 & E2 & E3).
    assert (Er : forall z, tcell (combine cs (map (tcell r) cs) ++ [("rid", Some (VInt z))])%list "rid" = Some (VInt z)).
    { intro z. rewrite combine_tcell_none by auto. reflexivity. }
    split; [|split].
    - f_equal; [|auto]. apply proj_ext. intros c Hc. apply combine_tcell. auto.
    - f_equal; [|auto]. unfold rid_of. rewrite Er. auto.
    - intros r' [<-|Hr]; eauto. }
  intro k. exact (G k).
Qed.

Theorem save_spec ord w i x path w' r : permuting ord -> Base w -> settledw w i -> w_inst w i = Some x ->
  path <> "" -> (forall j y, w_inst w j = Some y -> inode (i_path y) <> inode path) ->
  save_db inode ord i path w = (w', r) ->
  (forall j, works w w' j) /\ keeps w w' i /\
  (forall e, r = Err e -> forall n, n <> inode (i_path x) -> w_file w' n = w_file w n) /\
  (r = Ok tt -> exists types tb rows, build_types x = Ok types /\
     tables w' path main_table = Some tb /\ tb_types tb = types /\ wf_table tb /\
     Permutation rows (den (tables w (i_path x)) x) /\
     map (proj (data_cols x)) (tb_rows tb) = map (proj (data_cols x)) rows /\
     map rid_of (tb_rows tb) = map Z.of_nat (seq 0 (length rows))) /\
  (can_build x -> r = Ok tt).
Proof.
  intros P B S H Np Nl E. unfold save_db in E. rewrite (andthen_ok _ _ _ _ _ (self_ok i w x H)) in E.
  destruct (String.eqb_spec path "") as [?|_]; [contradiction|]. cbn [andb] in E.
  assert (Nd : w_dbs w path = None).
  { destruct (w_dbs w path) as [l|] eqn:El; [|auto]. destruct (b_dbs inode w B path l El) as (_ & Ne & I).
    destruct l as [|j l]; [contradiction|]. destruct (proj1 (I j)) as (y & Hy & Ey); [left; auto|].
    exfalso. apply (Nl j y Hy). congruence. }
  rewrite (andthen_ok _ _ w w 0%nat) in E by (rewrite Nd; auto).
  assert (Ne : path <> i_path x) by (intro X; apply (Nl i x H); congruence).
  destruct (String.eqb_spec path (i_path x)) as [?|_]; [contradiction|].
  cbn [Nat.ltb Nat.leb] in E.
  destruct (build_types x) as [types|e] eqn:Eb.
  2:{ unfold lift, andthen in E. injection E as <- <-. split; [intro; apply works_refl; auto|]. split; [apply keeps_refl; auto|].
      split; [auto|]. split; [discriminate|]. intros [Rq (ts & Ht & A)]. destruct (build_types_some x ts Ht Rq A) as [? ?]. congruence. }
  rewrite (andthen_ok _ _ w w types) in E by reflexivity.
  destruct (S x H) as (ND & Rid & tb0 & T0 & L & C0). pose proof (Base_tables_wf inode w _ _ _ B T0) as Wf0.
  destruct (build_types_ok x types ND Eb) as (N1 & N2 & N3 & N4 & N5 & ts & Hts & N6).
  fold (data_cols x) in E. set (cs := data_cols x) in *.
  assert (Ics : incl (cs ++ ["rid"]) (i_cols x)).
  { intros c Hc. apply in_app_iff in Hc. destruct Hc as [Hc|[<-|[]]]; [|auto]. apply in_data_cols in Hc; tauto. }
  assert (Nr : ~ In "rid" cs) by (intro X; apply in_data_cols in X; tauto).
  destruct (values inode ord i (Some (cs ++ ["rid"])%list) false w) as [w2 r2] eqn:Ev.
  destruct (values_spec inode ord w i x (Some (cs ++ ["rid"])%list) false w2 r2 P B S H Ev) as (W & K & Op & Vo & Vc).
  assert (Fl : forall n, n <> inode (i_path x) -> w_file w2 n = w_file w n).
  { exact (values_files ord w i x _ w2 r2 H Ev). }
  destruct r2 as [vs|e].
  2:{ rewrite (andthen_err _ _ _ _ _ Ev) in E. injection E as <- <-. split; [auto|]. split; [auto|]. split; [auto|]. split; [discriminate|].
      intro Cb. destruct (Vc (or_introl Cb) Ics) as [vs X]. discriminate. }
  rewrite (andthen_ok _ _ _ _ _ Ev) in E. destruct (Vo vs eq_refl) as [_ Pv]. cbn [columns_of] in Pv.
  set (rows0 := den (tables w (i_path x)) x) in *.
  destruct (Permutation_map_inv _ _ Pv) as (rows & Ers & Pr0). subst vs. pose proof (Permutation_sym Pr0) as Pr.
  assert (Fs : map (fun r => firstn (length cs) r) (map (fun row => map (tcell row) (cs ++ ["rid"])%list) rows) = map (fun r => map (tcell r) cs) rows).
  { rewrite map_map. apply map_ext. intro row. rewrite map_app, firstn_app, map_length, Nat.sub_diag.
    rewrite firstn_all2 by (rewrite map_length; auto). cbn [firstn]. apply app_nil_r. }
  rewrite Fs in E.
  destruct (renumber_spec cs rows Nr) as (R1 & R2 & R3).
  set (l := renumber (map (fun r => map (tcell r) cs) rows) cs) in *.
  assert (NDl : NoDup (map rid_of l)).
  { rewrite R2. apply FinFun.Injective_map_NoDup; [intros a b; lia|apply seq_NoDup]. }
  destruct (fill_ok types l N1 (N2 "rid" (or_introl eq_refl)) R3 NDl) as [tb Ef].
  rewrite (andthen_ok _ _ w2 w2 tb) in E by (unfold lift; rewrite Ef; auto).
  destruct (fill_wf types l tb N1 N2 R3 Ef) as (Wf & Ety & Erow).
  unfold modify in E. injection E as <- <-.
  set (f := upd_str no_tables main_table (Some tb)).
  pose proof (wk_base _ _ _ _ (W i)) as B2.
  assert (Nl2 : forall j y, w_inst w2 j = Some y -> inode (i_path y) <> inode path).
  { intros j y Hy. destruct (w_inst w j) as [y0|] eqn:Hy0.
    - destruct (Nat.eq_dec j i) as [->|Nj].
      + destruct (proj1 K y0 Hy0) as (y1 & Hy1 & (F1 & _) & _). assert (y1 = y) by congruence. subst y1. rewrite F1. eauto.
      + destruct (wk_others _ _ _ _ (W i) j Nj y0 Hy0) as (y1 & Hy1 & (F1 & _) & _). assert (y1 = y) by congruence. subst y1. rewrite F1. eauto.
    - rewrite (wk_none _ _ _ _ (W (Datatypes.S j)) j) in Hy by auto. discriminate. }
  destruct (Base_new_file inode w2 path f B2 Nl2) as [B3 U3].
  { intros t tb1. unfold f, upd_str. destruct (String.eqb t main_table); [|discriminate]. intro X. injection X as <-. auto. }
  { intros k _. unfold f. rewrite upd_str_other by apply tname_main. auto. }
  split; [intro j; eapply works_trans; [apply W|]; apply unchanged_works; auto|].
  split; [eapply keeps_trans; [exact K|]; split; [apply unchanged_same; auto|eapply unchanged_settled; [apply U3|apply K]]|].
  split; [discriminate|]. split; [|auto]. intros _. exists types, tb, rows. split; [auto|].
  split; [rewrite tables_set_same; apply upd_str_same|]. split; [auto|]. split; [auto|]. split; [auto|].
  assert (Rids : forall r, In r l -> rid_of (store types r) = rid_of r).
  { intros r0 Hr. apply rid_store; auto. apply N2. cbn. auto. }
  split.
  - rewrite Erow, map_map, <- R1.
    assert (G : forall a b, In b rows -> proj cs a = proj cs b -> proj cs (store types a) = proj cs a).
    { intros a b Hb Eab. apply proj_ext. intros c Hc. destruct (proj1 (in_data_cols x c ND) Hc) as [Hcx Ncr].
      destruct (key_assoc c types (N4 c Hcx)) as [t Ht]. rewrite (tcell_store _ _ _ t N1 Ht).
      assert (Ec : tcell a c = tcell b c) by (rewrite <- (tcell_proj cs a c), Eab, tcell_proj; auto).
      rewrite Ec. destruct (tcell b c) as [v|] eqn:Eb0; [|auto]. cbn [option_map]. f_equal.
      apply (Permutation_in _ Pr) in Hb. unfold rows0 in Hb.
      destruct (den_shape _ _ _ Wf0 T0 (b_inst inode w B i x H) (S x H)) as (Pf & ds & Ev0 & I1 & I2 & Len & Dn).
      rewrite Dn in Hb. apply in_map_iff in Hb. destruct Hb as [b0 [<- Hb]]. apply filter_In in Hb. rewrite tcell_proj in Eb0 by auto.
      apply (wt_typed _ Wf0 b0 c t v); [tauto| |auto]. destruct (in_dec string_dec c id_cols) as [Hi|Hn].
      - rewrite (N2 c Hi) in Ht. injection Ht as <-. apply (wt_ids _ Wf0); auto.
      - eapply L; eauto. }
    apply map_ext_in. intros a Ha.
    assert (X : In (proj cs a) (map (proj cs) rows)) by (rewrite <- R1; apply in_map; auto).
    apply in_map_iff in X. destruct X as [b [Eb0 Hb]]. apply (G a b); auto.
  - rewrite Erow, map_map. rewrite (map_ext_in (fun r0 => rid_of (store types r0)) rid_of) by auto. exact R2.
Qed.
End Ops.
