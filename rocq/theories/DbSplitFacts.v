(** What calls on database data sets leave alone: the number of open generators
    and the other data set objects. *)
From Coq Require Import String Ascii.
From Coq Require Import List ZArith QArith Qcanon Bool Permutation Sorted Lia.
From Verif Require Import Py PyFacts MemModel MemSpec DbModel DbFacts DbSpec DbFacts2 DbFacts3 DbFacts4
  DbFacts5 DbFacts6 DbFacts7 DbFacts13 DbFacts14 DbFacts15 DbFacts17 DbGenSpec DbGenFacts2 DbSplitModel DbSplitSpec.
Import ListNotations.
Open Scope string_scope.
Open Scope Z_scope.

Section Frame.
Variable inode : string -> nat.

(** only the objects in [l] change *)
Definition mild {A} (l : list nat) (m : M A) : Prop := forall w w' r, m w = (w', r) ->
  w_open w' = w_open w /\ w_next w' = w_next w /\ forall j, ~ In j l -> w_inst w' j = w_inst w j.

Lemma mild_bind {A B} l (m : M A) (f : A -> M B) : mild l m -> (forall a, mild l (f a)) -> mild l (andthen m f).
Proof.
  intros P Q w w' r E. unfold andthen in E. destruct (m w) as [w1 [a|e]] eqn:Em.
  - destruct (P _ _ _ Em) as (A1 & A2 & A3). destruct (Q a _ _ _ E) as (B1 & B2 & B3).
    split; [congruence|]. split; [congruence|]. intros j N. rewrite B3, A3; auto.
  - injection E as <- <-. apply (P _ _ _ Em).
Qed.
Lemma mild_read {A} l (f : world -> res A) : mild l (fun w => (w, f w)).
Proof. intros w w' r E. injection E as <- <-. auto. Qed.
Lemma mild_ret {A} l (a : A) : mild l (ret a).
Proof. apply (mild_read l (fun _ => Ok a)). Qed.
Lemma mild_lift {A} l (a : res A) : mild l (lift a).
Proof. apply (mild_read l (fun _ => a)). Qed.
Lemma mild_self l i : mild l (self i).
Proof. intros w w' r E. unfold self in E. destruct (w_inst w i); injection E as <- <-; auto. Qed.
Lemma mild_query l x s : mild l (query inode x s).
Proof. intros w w' r E. injection E as <- <-. auto. Qed.
Lemma mild_modify l f : (forall w, w_open (f w) = w_open w /\ w_next (f w) = w_next w /\ w_inst (f w) = w_inst w) -> mild l (modify f).
Proof. intros H w w' r E. injection E as <- <-. destruct (H w) as (A & B & C). rewrite C. auto. Qed.
Lemma mild_put l i x : In i l -> mild l (put i x).
Proof.
  intros I w w' r E. injection E as <- <-. split; [auto|]. split; [auto|]. intros j N. cbn.
  apply upd_nat_other. intros ->. contradiction.
Qed.
Lemma mild_fresh l : mild l fresh_name.
Proof. intros w w' r E. injection E as <- <-. auto. Qed.
Lemma mild_if {A} l (c : bool) (m n : M A) : mild l m -> mild l n -> mild l (if c then m else n).
Proof. destruct c; auto. Qed.

Ltac mild := repeat first
  [simple apply mild_bind; [|intro]|simple apply mild_ret|simple apply mild_lift|simple apply mild_self|simple apply mild_query|simple apply mild_put; assumption
  |simple apply mild_fresh|simple apply mild_if|simple apply mild_read].

Lemma mild_move l i x name tb : In i l -> mild l (move_to inode i x name tb).
Proof.
  intro I. unfold move_to. mild.
  - apply mild_modify. intro w. auto.
  - apply mild_modify. intro w. auto.
Qed.
Lemma mild_optimize l i b : In i l -> mild l (optimize inode i b).
Proof.
  intro I. unfold optimize. apply mild_bind; [mild|]. intro x0. cbv zeta. apply mild_bind; [mild|]. intros _.
  apply mild_bind; [mild|]. intro n. set (x := set_counts _ _ _ _ _).
  destruct (i_state x) as [q|]; [destruct b|destruct b; [mild|]].
  1,2: mild; [apply mild_modify; intro w; destruct (tables inode w _ _); auto|apply mild_move; auto].
  mild. apply mild_move. auto.
Qed.
Lemma mild_record l i : In i l -> mild l (record_interaction inode i).
Proof. intro I. unfold record_interaction. mild. apply mild_optimize. auto. Qed.
Lemma mild_update l i q : In i l -> mild l (update_state inode i q).
Proof. intro I. unfold update_state. apply mild_bind; [mild|]. intro x0. cbv zeta. mild. apply mild_optimize. auto. Qed.

Lemma copy_frame i w w' j : copy inode i w = (w', Ok j) ->
  j = w_next w /\ w_open w' = w_open w /\ w_next w' = Datatypes.S j /\ forall k, k <> j -> w_inst w' k = w_inst w k.
Proof.
  unfold copy, andthen, self, open_db, file_exists, ret. intro E. destruct (w_inst w i) as [x|]; [|discriminate].
  unfold andthen in E. destruct (w_file w _); [|discriminate]. destruct (eval _ _) as [[]|]; [|discriminate].
  unfold register in E. injection E as <- <-. cbn. repeat split. intros k N. apply upd_nat_other. auto.
Qed.

(** select, drop and unique with copy *)
Definition framed (i : nat) (w w' : world) (j : nat) : Prop :=
  j = w_next w /\ w_open w' = w_open w /\ w_next w' = Datatypes.S j /\ forall k, k <> i -> k <> j -> w_inst w' k = w_inst w k.
Lemma copy_then {A} (f : nat -> M A) i w w' a : (forall j, mild [i; j] (f j)) ->
  andthen (copy inode i) f w = (w', Ok a) -> exists j w1, copy inode i w = (w1, Ok j) /\ f j w1 = (w', Ok a) /\ framed i w w' j.
Proof.
  intros F E. unfold andthen in E. destruct (copy inode i w) as [w1 [j|e]] eqn:C; [|discriminate].
  destruct (copy_frame _ _ _ _ C) as (-> & C1 & C2 & C3). destruct (F _ _ _ _ E) as (F1 & F2 & F3).
  exists (w_next w), w1. split; [auto|]. split; [auto|]. split; [auto|]. split; [congruence|]. split; [congruence|].
  intros k N1 N2. rewrite F3, C3; auto. intros [?|[?|[]]]; congruence.
Qed.
Lemma mild_sub {A} l l' (m : M A) : incl l l' -> mild l m -> mild l' m.
Proof. intros I H w w' r E. destruct (H _ _ _ E) as (? & ? & H3). repeat split; auto. Qed.
Lemma in1 (i j : nat) : In i [i; j]. Proof. left; auto. Qed.
Lemma in2 (i j : nat) : In j [i; j]. Proof. right; left; auto. Qed.

Lemma select_frame i q w w' j : select inode i q true w = (w', Ok j) -> framed i w w' j.
Proof.
  intro E. unfold select, target, touched in E. apply copy_then in E.
  - destruct E as (j' & w1 & _ & E & F). apply andthen_val in E. destruct E as (? & ? & _ & E).
    apply andthen_val in E. destruct E as (? & ? & _ & E). apply andthen_val in E. destruct E as (? & ? & _ & E).
    apply andthen_val in E. destruct E as (? & ? & _ & E). injection E as _ <-. auto.
  - intro k. pose proof (in1 i k). pose proof (in2 i k). mild; [apply mild_record; auto|apply mild_update; auto].
Qed.
Lemma drop_frame i rids keep w w' j : drop inode i rids true keep w = (w', Ok j) -> framed i w w' j.
Proof.
  intro E. unfold drop, target, touched in E. apply copy_then in E.
  - destruct E as (j' & w1 & _ & E & F). apply andthen_val in E. destruct E as (? & ? & _ & E).
    apply andthen_val in E. destruct E as (? & ? & _ & E).
    apply andthen_val in E. destruct E as (? & ? & _ & E). injection E as _ <-. auto.
  - intro k. pose proof (in1 i k). pose proof (in2 i k). mild; [apply mild_record; auto|apply mild_update; auto].
Qed.
Lemma unique_frame i columns w w' j : unique inode i columns true w = (w', Ok j) -> framed i w w' (fst j).
Proof.
  intro E. unfold unique, target, touched in E. apply andthen_val in E. destruct E as (w1 & x & Es & E).
  apply andthen_val in E. destruct E as (w2 & cs & Hc & E). unfold self in Es. destruct (w_inst w i); [|discriminate].
  injection Es as <- <-. injection Hc as <- _. apply copy_then in E.
  - destruct E as (j' & w3 & _ & E & F). do 6 (apply andthen_val in E; destruct E as (? & ? & _ & E)).
    injection E as _ <-. auto.
  - intro k. pose proof (in1 i k). pose proof (in2 i k). mild; cbv zeta; mild; [apply mild_record; auto|apply mild_update; auto].
Qed.
Lemma values_frame ord i columns lo w w' r : values inode ord i columns lo w = (w', r) ->
  w_next w' = w_next w /\ (forall j, j <> i -> w_inst w' j = w_inst w j) /\
  (forall vs, r = Ok vs -> w_open w' = if lo then Datatypes.S (w_open w) else w_open w) /\ (lo = false -> w_open w' = w_open w).
Proof.
  intro E. unfold values in E. apply andthen_inv in E.
  pose proof (mild_record [i] i (or_introl eq_refl)) as Mr.
  destruct E as [(w1 & [] & E1 & E)|(e & E1 & ->)].
  2:{ destruct (Mr _ _ _ E1) as (H1 & H2 & H3). split; [auto|]. split; [intros j N; apply H3; intros [?|[]]; congruence|]. split; [discriminate|auto]. }
  destruct (Mr _ _ _ E1) as (H1 & H2 & H3).
  assert (G : forall w2, w2 = w1 \/ w2 = (if lo then set_open w1 (Datatypes.S (w_open w1)) else w1) ->
    w_next w2 = w_next w /\ (forall j, j <> i -> w_inst w2 j = w_inst w j) /\ (lo = false -> w_open w2 = w_open w)).
  { intros w2 [->| ->]; (split; [|split]).
    - auto.
    - intros j N. apply H3. intros [?|[]]; congruence.
    - auto.
    - destruct lo; auto.
    - intros j N. destruct lo; cbn; apply H3; intros [?|[]]; congruence.
    - intros ->. auto. }
  assert (K : (exists e, r = Err e) /\ w' = w1 \/ w' = (if lo then set_open w1 (Datatypes.S (w_open w1)) else w1)).
  { unfold andthen, self, lift, state_rows, query, modify, ret in E. destruct (w_inst w1 i) as [x|]; [|injection E as <- <-; eauto].
    destruct (handle_columns x columns); [|injection E as <- <-; eauto].
    unfold andthen, self, query, ret in E. destruct (w_inst w1 i) as [y|]; [|injection E as <- <-; eauto].
    destruct (eval _ _) as [[]|]; [|injection E as <- <-; eauto]. injection E as <- _. auto. }
  destruct K as [[[e ->] ->]| ->].
  - destruct (G w1 (or_introl eq_refl)) as (G1 & G2 & G3). split; [auto|]. split; [auto|]. split; [discriminate|auto].
  - destruct (G _ (or_intror eq_refl)) as (G1 & G2 & G3). split; [auto|]. split; [auto|]. split; [|auto].
    intros _ _. destruct lo; cbn; congruence.
Qed.
Lemma close_frame i w w' r : close inode i w = (w', r) ->
  w_next w' = w_next w /\ w_open w' = w_open w /\ (forall j, j <> i -> w_inst w' j = w_inst w j) /\ (r = Ok tt -> w_inst w' i = None).
Proof.
  intro E. unfold close in E. apply andthen_inv in E. destruct E as [(w1 & x & E1 & E)|(e & E1 & ->)].
  2:{ unfold self in E1. destruct (w_inst w i); [discriminate|]. injection E1 as <- _. repeat split; auto; discriminate. }
  unfold self in E1. destruct (w_inst w i) as [i0|]; [|discriminate]. injection E1 as <- <-.
  unfold close_obj in E. cbv zeta in E. apply andthen_inv in E.
  assert (K1 : forall w1 r1, match w_tabs w (i_path i0) (i_table i0) with
                 | None => (w, Ok tt)
                 | Some l =>
                     if negb (mem_b Nat.eqb i l) then (w, Err KeyError) else
                     match set_remove i l with
                     | [] => let w' := set_tabs w (upd_tab (w_tabs w) (i_path i0) (i_table i0) None) in
                             if Nat.eqb (w_open w) 0 then
                               match tables inode w (i_path i0) (i_table i0) with
                               | Some _ => (set_tables inode w' (i_path i0) (upd_str (tables inode w (i_path i0)) (i_table i0) None), Ok tt)
                               | None => (w', Err OperationalError)
                               end
                             else (w', Ok tt)
                     | l' => (set_tabs w (upd_tab (w_tabs w) (i_path i0) (i_table i0) (Some l')), Ok tt)
                     end
                 end = (w1, r1) -> w_next w1 = w_next w /\ w_open w1 = w_open w /\ w_inst w1 = w_inst w).
  { intros w1 r1. destruct (w_tabs w _ _) as [l|]; [|intro H; injection H as <- <-; auto].
    destruct (negb _); [intro H; injection H as <- <-; auto|]. destruct (set_remove i l); [|intro H; injection H as <- <-; auto].
    cbv zeta. destruct (Nat.eqb _ _); [|intro H; injection H as <- <-; auto].
    destruct (tables inode w _ _); intro H; injection H as <- <-; auto. }
  destruct E as [(w1 & [] & E1 & E)|(e & E1 & ->)].
  2:{ destruct (K1 _ _ E1) as (? & ? & K). rewrite K. repeat split; auto. discriminate. }
  destruct (K1 _ _ E1) as (A1 & A2 & A3). apply andthen_inv in E.
  assert (K2 : forall w2 r1, match w_dbs w1 (i_path i0) with
                 | None => (w1, Ok tt)
                 | Some l =>
                     if negb (mem_b Nat.eqb i l) then (w1, Err KeyError) else
                     match set_remove i l with
                     | [] => let w' := set_dbs w1 (upd_str (w_dbs w1) (i_path i0) None) in
                             if is_temp (i_path i0) then
                               match w_file w1 (inode (i_path i0)) with
                               | Some _ => (set_files w' (upd_nat (w_file w1) (inode (i_path i0)) None), Ok tt)
                               | None => (w', Err FileNotFoundError)
                               end
                             else (w', Ok tt)
                     | l' => (set_dbs w1 (upd_str (w_dbs w1) (i_path i0) (Some l')), Ok tt)
                     end
                 end = (w2, r1) -> w_next w2 = w_next w1 /\ w_open w2 = w_open w1 /\ w_inst w2 = w_inst w1).
  { intros w2 r1. destruct (w_dbs w1 _) as [l|]; [|intro H; injection H as <- <-; auto].
    destruct (negb _); [intro H; injection H as <- <-; auto|]. destruct (set_remove i l); [|intro H; injection H as <- <-; auto].
    cbv zeta. destruct (is_temp _); [|intro H; injection H as <- <-; auto].
    destruct (w_file w1 _); intro H; injection H as <- <-; auto. }
  destruct E as [(w2 & [] & E2 & E)|(e & E2 & ->)].
  2:{ destruct (K2 _ _ E2) as (? & ? & K). rewrite K, A3. repeat split; try congruence. }
  destruct (K2 _ _ E2) as (B1 & B2 & B3). injection E as <- <-. cbn. rewrite B3, A3. split; [congruence|]. split; [congruence|].
  split; [intros j N; apply upd_nat_other; auto|intros _; apply upd_nat_same].
Qed.

(** ** Reads, with the order of the rows *)

Lemma sorted_map {A B} (f : A -> B) (R : B -> B -> Prop) (Q : A -> A -> Prop) l :
  (forall a b, Q a b -> R (f a) (f b)) -> StronglySorted Q l -> StronglySorted R (map f l).
Proof.
  intros H S. induction S as [|a l S IH F]; [constructor|]. cbn [map]. constructor; [auto|].
  apply Forall_forall. intros b Hb. apply in_map_iff in Hb. destruct Hb as (c & <- & Hc). rewrite Forall_forall in F. auto.
Qed.

Lemma values_read ord w b i d columns lo w' vs : permuting ord -> Inv inode w b -> b i = Some d ->
  values inode ord i columns lo w = (w', Ok vs) ->
  exists l, Permutation l (d_rows d) /\ vs = map (cells (asked d columns)) l /\
    (sorting ord -> StronglySorted (fun a b => rid_of a <= rid_of b) l).
Proof.
  intros P I Hb E. destruct (inv_ds _ _ _ I i d Hb) as (S & rows0 & (x & H & Cc & Ct & Ci & D0 & Nn) & P0).
  pose proof (inv_base _ _ _ I) as B. unfold values in E.
  destruct (reading inode _ w i x w' (Ok vs) B S H E) as (w2 & y & W & K & Hy & F & Op & Nm & D & [E2|(_ & [e X] & _)]); [|discriminate].
  rewrite (andthen_ok _ _ _ _ _ (self_ok i w2 y Hy)) in E2.
  assert (Fc : columns_of y columns = columns_of x columns) by (apply face_cols; auto).
  assert (Ec : i_cols y = i_cols x) by (destruct F as (_ & ? & _); auto).
  apply andthen_val in E2. destruct E2 as (w3 & cs & Hc & E2). unfold lift in Hc.
  assert (In1 : incl (columns_of x columns) (i_cols x)).
  { intros c Hcc. destruct (in_dec string_dec c (i_cols x)); [auto|]. exfalso. rewrite handle_bad in Hc; [congruence|].
    rewrite Fc, Ec. intro Q. apply n. auto. }
  rewrite handle_ok in Hc by (rewrite Fc, Ec; auto). injection Hc as <- <-. rewrite Fc in E2.
  destruct (read_spec inode w2 i y (wk_base _ _ _ _ (W i)) (proj2 K) Hy) as (rows & Ft & Z & Sr).
  rewrite (andthen_ok _ _ _ _ _ Sr) in E2.
  apply andthen_val in E2. destruct E2 as (w4 & u & _ & E2). injection E2 as _ E2.
  assert (Zr : forall row, In row rows -> zip_row y row = proj (i_cols y) row).
  { pose proof (fits_zip _ _ _ _ Ft) as X. clear - X. induction rows as [|a rows IH]; [intros ? []|].
    cbn [map] in X. injection X as X1 X2. intros row [<-|Hr]; auto. }
  rewrite (mapM_all _ (fun row => map (tcell row) (columns_of x columns))) in E2.
  2:{ intros row Hr. apply list_record_proj; [rewrite Ec; auto|]. apply Zr. eapply Permutation_in; [apply P|auto]. }
  injection E2 as <-.
  exists (map (proj (i_cols x)) (ord rows)).
  assert (Px : Permutation (map (proj (i_cols x)) (ord rows)) (d_rows d)).
  { eapply Permutation_trans; [apply Permutation_map, P|]. rewrite <- P0, <- D0, <- D, <- Z. apply Permutation_refl'.
    apply map_ext_in. intros row Hr. rewrite Zr by auto. rewrite Ec. auto. }
  split; [auto|]. split.
  - rewrite (asked_columns d x columns) in * by auto. rewrite map_map. apply map_ext_in. intros row Hr. unfold cells. apply map_ext_in. intros c Hcc.
    symmetry. apply tcell_proj. auto.
  - intro So. eapply sorted_map; [|apply So]. intros p q Hpq.
    assert (R : In "rid" (i_cols x)) by (destruct (S x H) as (_ & R & _); auto).
    unfold rid_of. rewrite !tcell_proj by auto. exact Hpq.
Qed.
End Frame.
