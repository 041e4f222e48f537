(** Closing twice, lookups across reads, and what isolation means for reads. *)
From Coq Require Import String Ascii.
From Coq Require Import List ZArith QArith Qcanon Bool Permutation Lia.
From Verif Require Import Py PyFacts MemModel MemSpec DbModel DbFacts DbFacts2 DbFacts3 DbFacts4 DbFacts5 DbFacts7 DbSpec DbFacts12 DbFacts13 DbFacts14 DbFacts15.
Import ListNotations.
Open Scope string_scope.
Open Scope Z_scope.

Section More.
Variable inode : string -> nat.
Notation tables := (tables inode).
Notation Inv := (Inv inode).

Lemma only (l : list nat) i : NoDup l -> (forall j, In j l <-> j = i) -> l = [i].
Proof.
  intros N H. destruct l as [|a l]; [destruct (proj2 (H i) eq_refl)|].
  assert (a = i) by (apply H; left; auto). subst a. destruct l as [|c l]; [auto|].
  assert (c = i) by (apply H; right; left; auto). subst c. inversion N as [|? ? X _]. exfalso. apply X. left. auto.
Qed.
(** The second close of the last data set on a path does nothing. *)
Lemma close_twice w b i x w' : Inv w b -> w_inst w i = Some x -> close inode i w = (w', Ok tt) ->
  (forall j y, j <> i -> w_inst w j = Some y -> i_path y <> i_path x) ->
  exists w'', close_obj inode i x w' = (w'', Ok tt) /\ w_file w'' = w_file w' /\ w_open w'' = w_open w' /\
    forall j, w_inst w'' j = w_inst w' j.
Proof.
  intros I H E Al. pose proof (inv_base _ _ _ I) as B.
  assert (T : w_tabs w' (i_path x) (i_table x) = None /\ w_dbs w' (i_path x) = None /\ w_inst w' i = None).
  { unfold close in E. rewrite (andthen_ok _ _ _ _ _ (self_ok i w x H)) in E. unfold close_obj in E.
    destruct (w_tabs w (i_path x) (i_table x)) as [l|] eqn:El; [|destruct (b_tabs2 inode w B i x H El)].
    destruct (b_tabs inode w B _ _ _ El) as [Nl Il].
    assert (l = [i]); [|subst l].
    { apply only; [auto|]. intro j. rewrite Il. split; [|intros ->; eauto]. intros (y & Hy & Ep & _).
      destruct (Nat.eq_dec j i) as [|N]; [auto|]. destruct (Al j y N Hy Ep). }
    destruct (w_dbs w (i_path x)) as [m|] eqn:Em; [|destruct (b_dbs2 inode w B i x H Em)].
    destruct (b_dbs inode w B _ _ Em) as (Nm & _ & Im).
    assert (m = [i]); [|subst m].
    { apply only; [auto|]. intro j. rewrite Im. split; [|intros ->; eauto]. intros (y & Hy & Ep).
      destruct (Nat.eq_dec j i) as [|N]; [auto|]. destruct (Al j y N Hy Ep). }
    assert (Sr : set_remove i [i] = []) by (unfold set_remove; cbn [filter]; rewrite Nat.eqb_refl; auto).
    assert (Mi : mem_b Nat.eqb i [i] = true) by (cbn; rewrite Nat.eqb_refl; auto).
    apply andthen_inv in E. destruct E as [(w1 & [] & E1 & E)|(e & _ & X)]; [|discriminate].
    rewrite El, Mi in E1. cbn [negb] in E1. rewrite Sr in E1.
    assert (W1 : w_tabs w1 (i_path x) (i_table x) = None /\ w_dbs w1 (i_path x) = Some [i]).
    { destruct (Nat.eqb (w_open w) 0); [destruct (tables w (i_path x) (i_table x))|]; try discriminate; injection E1 as <-;
        cbn [w_tabs w_dbs DbModel.set_tables set_files set_tabs]; unfold upd_tab; rewrite !String.eqb_refl; auto. }
    destruct W1 as [W1 W2].
    apply andthen_inv in E. destruct E as [(w2 & [] & E2 & E)|(e & _ & X)]; [|discriminate].
    rewrite W2, Mi in E2. cbn [negb] in E2. rewrite Sr in E2. injection E as <-. cbn [w_tabs w_dbs w_inst set_insts].
    rewrite upd_nat_same.
    destruct (is_temp (i_path x)); [destruct (w_file w1 (inode (i_path x)))|]; try discriminate; injection E2 as <-;
      cbn [w_tabs w_dbs set_files set_dbs]; unfold upd_str; rewrite String.eqb_refl; auto. }
  destruct T as (T1 & T2 & T3). unfold close_obj, andthen. rewrite T1, T2. eexists. split; [reflexivity|].
  split; [auto|]. split; [auto|]. intro j. cbn [w_inst set_insts]. unfold upd_nat. destruct (Nat.eqb_spec j i) as [->|]; auto.
Qed.

(** A read of a data set at rest only counts the read. *)
Definition is_read (o : op) : bool :=
  match o with
  | OValues _ _ | OGenerator _ _ | OSelectOne _ _ _ | OLen _ | OCountUnique _ _ | OMax _ _ | OMin _ _ => true
  | _ => false
  end.
Definition counted (w w' : world) (i : nat) (x : inst) : Prop :=
  w_file w' = w_file w /\ exists a b c e, w_inst w' i = Some (set_counts x a b c e).
Lemma counted_refl w i x : w_inst w i = Some x -> counted w w i x.
Proof. intro H. split; [auto|]. exists (i_n x), (i_before x), (i_queries x), (i_direct x). rewrite H. destruct x; auto. Qed.
Lemma record_rest w i x w' r : w_inst w i = Some x -> i_state x = None -> record_interaction inode i w = (w', r) ->
  r = Ok tt /\ counted w w' i x.
Proof.
  intros H Sn E. unfold record_interaction in E. rewrite (andthen_ok _ _ _ _ _ (self_ok i w x H)) in E.
  set (y := set_counts x (i_n x) (i_before x) (i_queries x) (Datatypes.S (i_direct x))) in E.
  set (w1 := set_insts w (upd_nat (w_inst w) i (Some y))) in *.
  rewrite (andthen_ok _ _ w w1 tt) in E by reflexivity.
  rewrite (andthen_ok _ _ w1 w1 (w_open w)) in E by reflexivity.
  assert (H1 : w_inst w1 i = Some y) by (cbn; apply upd_nat_same).
  destruct (_ && _)%bool.
  - unfold optimize in E. rewrite (andthen_ok _ _ _ _ _ (self_ok i w1 y H1)) in E. unfold put, modify, andthen, ret in E.
    cbn [i_state set_counts y] in E. rewrite Sn in E. cbn in E. injection E as <- <-. split; [auto|]. split; [auto|].
    cbn [w_inst set_insts w1 y]. rewrite upd_nat_same. repeat eexists.
  - injection E as <- <-. split; [auto|]. split; [auto|]. rewrite H1. unfold y. repeat eexists.
Qed.
Ltac rest H Sn Er :=
  match type of Er with record_interaction _ ?i ?w = _ => destruct (record_rest w i _ _ _ H Sn Er) as [? Cn]; try discriminate end.
Lemma read_rest ord o i w x w' r : is_read o = true -> subject o = Some i -> w_inst w i = Some x -> i_state x = None ->
  exec inode ord o w = (w', r) -> counted w w' i x.
Proof.
  intros Rd Su H Sn E.
  assert (K : forall {A} (k : M A) w' r, andthen (record_interaction inode i) (fun _ => k) w = (w', r) ->
     (forall w1 w2 r2, k w1 = (w2, r2) -> w_file w2 = w_file w1 /\ w_inst w2 = w_inst w1) -> counted w w' i x).
  { intros A k w0 r0 E0 F. destruct (record_interaction inode i w) as [w1 r1] eqn:Er. destruct (record_rest w i x w1 r1 H Sn Er) as [-> [C1 C2]].
    rewrite (andthen_ok _ _ _ _ _ Er) in E0. destruct (F _ _ _ E0) as [F1 F2]. split; [congruence|]. rewrite F2. auto. }
  assert (Q : forall y s w1 w2 r2, query inode y s w1 = (w2, r2) -> w2 = w1) by (unfold query; intros; congruence).
  destruct o; cbn in Rd; try discriminate; injection Su as <-; apply amap_inv in E; destruct E as (r0 & E & _).
  - unfold values in E. eapply K; [exact E|]. clear. intros w1 w2 r2 X. unfold andthen, self, lift, modify, state_rows, query, ret in X.
    destruct (w_inst w1 _) as [y|] eqn:Hy; [|injection X as <- <-; auto]. destruct (handle_columns y _); [|injection X as <- <-; auto].
    unfold self, andthen in X. rewrite Hy in X. destruct (eval _ _); injection X as <- <-; auto.
  - unfold values in E. eapply K; [exact E|]. clear. intros w1 w2 r2 X. unfold andthen, self, lift, modify, state_rows, query, ret in X.
    destruct (w_inst w1 _) as [y|] eqn:Hy; [|injection X as <- <-; auto]. destruct (handle_columns y _); [|injection X as <- <-; auto].
    unfold self, andthen in X. rewrite Hy in X. destruct (eval _ _); injection X as <- <-; auto.
  - unfold select_one in E. eapply K; [exact E|]. clear. intros w1 w2 r2 X. unfold andthen, self, lift, query, ret in X.
    destruct (w_inst w1 _) as [y|] eqn:Hy; [|injection X as <- <-; auto]. destruct (parse_query y _); [|injection X as <- <-; auto].
    destruct (handle_columns y _); [|injection X as <- <-; auto]. destruct (eval _ _) as [rr|]; [|injection X as <- <-; auto].
    destruct (ord (snd rr)); [injection X as <- <-; auto|]. destruct (list_record _ _ _); injection X as <- <-; auto.
  - unfold ds_len, andthen, self, ret in E. rewrite H in E. injection E as <- _. apply counted_refl; auto.
  - unfold count_unique in E. eapply K; [exact E|]. clear. intros w1 w2 r2 X. unfold andthen, self, lift, query, ret in X.
    destruct (w_inst w1 _) as [y|] eqn:Hy; [|injection X as <- <-; auto]. destruct (handle_columns y _); [|injection X as <- <-; auto].
    destruct (eval _ _) as [rr|]; injection X as <- <-; auto.
  - unfold db_max, extremum in E. eapply K; [exact E|]. clear. intros w1 w2 r2 X. unfold andthen, self, lift, query, ret in X.
    destruct (w_inst w1 _) as [y|] eqn:Hy; [|injection X as <- <-; auto]. destruct (handle_columns y _); [|injection X as <- <-; auto].
    destruct (eval _ _) as [rr|]; injection X as <- <-; auto.
  - unfold db_min, extremum in E. eapply K; [exact E|]. clear. intros w1 w2 r2 X. unfold andthen, self, lift, query, ret in X.
    destruct (w_inst w1 _) as [y|] eqn:Hy; [|injection X as <- <-; auto]. destruct (handle_columns y _); [|injection X as <- <-; auto].
    destruct (eval _ _) as [rr|]; injection X as <- <-; auto.
Qed.
(** Lookups of a data set at rest give the same before and after a read, and it stays at rest. *)
Lemma lookups_rest ord o i w w' r : is_read o = true -> subject o = Some i -> at_rest w i -> exec inode ord o w = (w', r) ->
  at_rest w' i /\
  (forall raw id v, snd (raw_to_id inode raw id i v w') = snd (raw_to_id inode raw id i v w)) /\
  (forall raw id z, snd (id_to_raw inode raw id i z w') = snd (id_to_raw inode raw id i z w)).
Proof.
  intros Rd Su (x & H & Sn) E. destruct (read_rest ord o i w x w' r Rd Su H Sn E) as (F & a & b & c & e & H').
  assert (T : tables w' = tables w) by (unfold DbModel.tables; rewrite F; auto).
  assert (L : forall k o v, snd (lookup inode (set_counts x a b c e) k o v w') = snd (lookup inode x k o v w)).
  { intros. unfold lookup, andthen, query, ret, raise. cbn [i_path i_table set_counts]. rewrite T. destruct (eval _ _); [|auto].
    destruct (_ && _)%bool; auto. }
  split; [eexists; split; [exact H'|exact Sn]|]. split; intros; unfold raw_to_id, id_to_raw, andthen, self, lift; rewrite H, H';
    cbn [i_ids i_types set_counts]; destruct (negb (i_ids x)); auto.
  destruct (match i_types x with None => _ | Some _ => _ end); auto.
Qed.

(** A call that does not concern data set [j]. *)
Lemma isolated_reads fs h ord o j d : files_ok fs -> all_safe inode (start fs) no_book (h ++ [(ord, o)])%list ->
  subject o <> Some j ->
  let w := fst (after inode (start fs) no_book h) in
  let w' := fst (after inode (start fs) no_book (h ++ [(ord, o)])%list) in
  snd (after inode (start fs) no_book h) j = Some d ->
  snd (after inode (start fs) no_book (h ++ [(ord, o)])%list) j = Some d /\
  (exists x x', w_inst w j = Some x /\ w_inst w' j = Some x' /\ i_cols x' = i_cols x /\ i_n x' = i_n x /\ i_ids x' = i_ids x) /\
  (forall columns ord1 ord2 rows rows', permuting ord1 -> permuting ord2 ->
     snd (exec inode ord1 (OValues j columns) w) = Ok (ARows rows) ->
     snd (exec inode ord2 (OValues j columns) w') = Ok (ARows rows') -> Permutation rows rows') /\
  (complete d -> forall columns ord', permuting ord' -> incl (asked d columns) (d_cols d) ->
     exists rows, snd (exec inode ord' (OValues j columns) w') = Ok (ARows rows)).
Proof.
  intros Ok S N. cbv zeta. intro Hd. pose proof (isolated inode fs h ord o j d Ok S N) as X.
  destruct (after inode (start fs) no_book h) as [w b]. destruct (after inode (start fs) no_book (h ++ [(ord, o)])%list) as [w' b'].
  cbn [fst snd] in *. destruct (X Hd) as (I & I' & Hd'). split; [auto|].
  assert (A : forall wx bx ordx columns, Inv wx bx -> bx j = Some d -> permuting ordx ->
     answered inode wx bx (OValues j columns) (snd (exec inode ordx (OValues j columns) wx))).
  { intros wx bx ordx columns Ix Hx Px. destruct (exec inode ordx (OValues j columns) wx) as [wy ry] eqn:Ex.
    apply (answer_of inode wx bx ordx _ wy ry Ix Px); [cbn [safe]; congruence|auto]. }
  split.
  { destruct (inv_attributes inode w b j d I Hd) as (x & H1 & H2 & H3 & H4 & _).
    destruct (inv_attributes inode w' b' j d I' Hd') as (x' & H1' & H2' & H3' & H4' & _). exists x, x'. repeat split; congruence. }
  split.
  - intros columns ord1 ord2 rows rows' P1 P2 E1 E2. pose proof (A w b ord1 columns I Hd P1) as A1. pose proof (A w' b' ord2 columns I' Hd' P2) as A2.
    rewrite E1 in A1. rewrite E2 in A2. destruct A1 as [A1 _]. destruct A2 as [A2 _].
    destruct (A1 j d eq_refl Hd) as (r1 & X1 & Q1). destruct (A2 j d eq_refl Hd') as (r2 & X2 & Q2).
    injection X1 as <-. injection X2 as <-. apply (Permutation_trans Q1). apply Permutation_sym. auto.
  - intros Cm columns ord' Po Ic. pose proof (A w' b' ord' columns I' Hd' Po) as A'.
    destruct (snd (exec inode ord' (OValues j columns) w')) as [a|e].
    + destruct A' as [A' _]. destruct (A' j d eq_refl Hd') as (rows & -> & _). eauto.
    + exfalso. apply A'. cbn [must_succeed]. exists d. auto.
Qed.
End More.
