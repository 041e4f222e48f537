(** The invariant of the database world and its preservation by the background
    materialisation of states. *)
From Coq Require Import String Ascii.
From Coq Require Import List ZArith QArith Qcanon Bool Lia Permutation.
From Verif Require Import Py PyFacts MemModel DbModel DbFacts.
Import ListNotations.
Open Scope string_scope.
Open Scope Z_scope.

Section Inv.
Variable inode : string -> nat.
Notation tables := (tables inode).
Notation set_tables := (set_tables inode).

Lemma upd_nat_same {B} (f : nat -> B) k v : upd_nat f k v k = v.
Proof. unfold upd_nat. rewrite Nat.eqb_refl. auto. Qed.
Lemma upd_nat_other {B} (f : nat -> B) k v j : j <> k -> upd_nat f k v j = f j.
Proof. intro H. unfold upd_nat. destruct (Nat.eqb_spec j k); [contradiction|auto]. Qed.
Lemma upd_str_same {B} (f : string -> B) k v : upd_str f k v k = v.
Proof. unfold upd_str. rewrite String.eqb_refl. auto. Qed.
Lemma upd_str_other {B} (f : string -> B) k v j : j <> k -> upd_str f k v j = f j.
Proof. intro H. unfold upd_str. destruct (String.eqb_spec j k); [contradiction|auto]. Qed.
Lemma upd_tab_same f p t v : upd_tab f p t v p t = v.
Proof. unfold upd_tab. rewrite !String.eqb_refl. auto. Qed.
Lemma upd_tab_other f p t v p' t' : ~ (p' = p /\ t' = t) -> upd_tab f p t v p' t' = f p' t'.
Proof.
  intro H. unfold upd_tab. destruct (String.eqb_spec p' p), (String.eqb_spec t' t); cbn [andb]; auto. tauto.
Qed.

Lemma tables_set w p ts p' : tables (set_tables w p ts) p' = if Nat.eqb (inode p') (inode p) then ts else tables w p'.
Proof.
  unfold DbModel.tables, DbModel.set_tables, set_files. cbn [w_file]. unfold upd_nat.
  destruct (Nat.eqb (inode p') (inode p)); auto.
Qed.
Lemma tables_set_same w p ts : tables (set_tables w p ts) p = ts.
Proof. rewrite tables_set, Nat.eqb_refl. auto. Qed.

(** What a data set reads: the rows of its source, on its columns. *)
Definition den (ts : string -> option table) (x : inst) : list trow :=
  match eval ts (curr_source x) with Ok (_, rows) => map (proj (i_cols x)) rows | Err _ => [] end.

Definition src_ok (ts : string -> option table) (x : inst) : Prop :=
  exists tb cs rows, ts (i_table x) = Some tb /\ base (curr_source x) = i_table x /\
    eval ts (curr_source x) = Ok (cs, rows) /\ In "rid" cs /\ length rows = i_n x.

Record Base (w : world) : Prop := {
  b_wf : forall n f t tb, w_file w n = Some f -> f t = Some tb -> wf_table tb;
  b_inst : forall i x, w_inst w i = Some x -> src_ok (tables w (i_path x)) x;
  b_tabs : forall p t l, w_tabs w p t = Some l -> NoDup l /\
     forall i, In i l <-> exists x, w_inst w i = Some x /\ i_path x = p /\ i_table x = t;
  b_tabs2 : forall i x, w_inst w i = Some x -> w_tabs w (i_path x) (i_table x) <> None;
  b_dbs : forall p l, w_dbs w p = Some l -> NoDup l /\ l <> [] /\
     forall i, In i l <-> exists x, w_inst w i = Some x /\ i_path x = p;
  b_dbs2 : forall i x, w_inst w i = Some x -> w_dbs w (i_path x) <> None;
  b_next : forall i, (w_next w <= i)%nat -> w_inst w i = None;
  b_fresh : forall n f k, w_file w n = Some f -> (w_fresh w <= k)%nat -> f (tname k) = None;
  b_alias : forall i x j y, w_inst w i = Some x -> w_inst w j = Some y ->
     inode (i_path x) = inode (i_path y) -> i_path x = i_path y }.

Lemma Base_tables_wf w p t tb : Base w -> tables w p t = Some tb -> wf_table tb.
Proof.
  intros B H. unfold DbModel.tables in H. destruct (w_file w (inode p)) as [f|] eqn:E; [|discriminate].
  eapply b_wf; eauto.
Qed.
Lemma Base_tables_fresh w p k : Base w -> (w_fresh w <= k)%nat -> tables w p (tname k) = None.
Proof.
  intros B H. unfold DbModel.tables. destruct (w_file w (inode p)) as [f|] eqn:E; [|auto]. eapply b_fresh; eauto.
Qed.
Lemma Base_file w i x : Base w -> w_inst w i = Some x -> exists f, w_file w (inode (i_path x)) = Some f.
Proof.
  intros B H. destruct (b_inst w B i x H) as (tb & cs & rows & T & _).
  unfold DbModel.tables in T. destruct (w_file w (inode (i_path x))); [eauto|discriminate].
Qed.

(** A data set whose columns fit its source. *)
Definition settled (ts : string -> option table) (x : inst) : Prop :=
  NoDup (i_cols x) /\ In "rid" (i_cols x) /\
  exists tb, ts (i_table x) = Some tb /\
    (forall types c t, i_types x = Some types -> In c (i_cols x) -> assoc String.eqb c types = Some t ->
       assoc String.eqb c (tb_types tb) = Some t) /\
    match i_state x with
    | None => incl (i_cols x) (tb_cols tb)
    | Some q => exists ext, q_cols q = (i_cols x ++ ext)%list
    end.
Definition settledw (w : world) (i : nat) : Prop :=
  forall x, w_inst w i = Some x -> settled (tables w (i_path x)) x.

(** Nothing about data set [j] changes. *)
Definition unchanged (w w' : world) (j : nat) : Prop :=
  w_inst w' j = w_inst w j /\
  forall x, w_inst w j = Some x -> tables w' (i_path x) (i_table x) = tables w (i_path x) (i_table x).
Lemma unchanged_refl w j : unchanged w w j.
Proof. split; auto. Qed.
Lemma unchanged_trans w1 w2 w3 j : unchanged w1 w2 j -> unchanged w2 w3 j -> unchanged w1 w3 j.
Proof.
  intros [A1 A2] [B1 B2]. split; [congruence|]. intros x H. rewrite B2 by (rewrite A1; auto). auto.
Qed.
Lemma unchanged_settled w w' j : unchanged w w' j -> settledw w j -> settledw w' j.
Proof.
  intros [A B] S x H. rewrite A in H. destruct (S x H) as (N & R & tb & T & L & C).
  split; [auto|]. split; [auto|]. exists tb. rewrite B by auto. auto.
Qed.
Lemma unchanged_den w w' j x : Base w -> unchanged w w' j -> w_inst w j = Some x ->
  den (tables w' (i_path x)) x = den (tables w (i_path x)) x.
Proof.
  intros B [A U] H. unfold den. destruct (b_inst w B j x H) as (tb & cs & rows & T & Bs & _).
  rewrite (eval_ext _ (tables w (i_path x))); auto. rewrite Bs. auto.
Qed.

(** Columns of the source of a settled data set. *)
Lemma settled_incl ts x cs rows : settled ts x -> eval ts (curr_source x) = Ok (cs, rows) -> incl (i_cols x) cs.
Proof.
  intros (N & R & tb & T & L & C) E. apply eval_cols in E. unfold curr_source in E.
  destruct (i_state x) as [q|].
  - cbn [src_of] in E. destruct C as [ext C]. rewrite E. unfold src_of. cbn. rewrite C. apply incl_appl, incl_refl.
  - destruct E as [tb' [T' ->]]. rewrite T' in T. injection T as <-. auto.
Qed.

(** The rows of a settled data set as projections of rows of its table. *)
Lemma den_shape ts x tb : wf_table tb -> ts (i_table x) = Some tb -> src_ok ts x -> settled ts x ->
  exists P cs, eval ts (curr_source x) = Ok (cs, map (proj cs) (filter P (tb_rows tb))) /\ incl (i_cols x) cs /\
    incl cs (tb_cols tb) /\ length (filter P (tb_rows tb)) = i_n x /\
    den ts x = map (proj (i_cols x)) (filter P (tb_rows tb)).
Proof.
  intros W T (tb' & cs & rows & T' & Bs & E & R & L) S. rewrite T in T'. injection T' as <-.
  assert (Tb : ts (base (curr_source x)) = Some tb) by (rewrite Bs; auto).
  destruct (eval_shape ts tb W _ _ _ Tb E) as [I [P ->]]. pose proof (settled_incl _ _ _ _ S E) as J.
  exists P, cs. split; [auto|]. split; [auto|]. split; [auto|]. split; [rewrite <- L, map_length; auto|].
  unfold den. rewrite E, map_map. apply map_ext. intro r. apply proj_proj. auto.
Qed.

(** ** Preservation of the invariant *)

Lemma Base_put w i x x' : Base w -> w_inst w i = Some x -> i_path x' = i_path x -> i_table x' = i_table x ->
  src_ok (tables w (i_path x)) x' -> Base (set_insts w (upd_nat (w_inst w) i (Some x'))).
Proof.
  intros B H Ep Et S.
  assert (G : forall j y, upd_nat (w_inst w) i (Some x') j = Some y ->
              exists y0, w_inst w j = Some y0 /\ i_path y = i_path y0 /\ i_table y = i_table y0 /\
                         src_ok (tables w (i_path y)) y).
  { intros j y. unfold upd_nat. destruct (Nat.eqb_spec j i) as [->|N]; intro Hy.
    - injection Hy as <-. exists x. rewrite Ep. auto.
    - exists y. split; [auto|]. split; [auto|]. split; [auto|]. apply (b_inst w B j). auto. }
  assert (G' : forall j y0, w_inst w j = Some y0 -> exists y, upd_nat (w_inst w) i (Some x') j = Some y /\
                 i_path y = i_path y0 /\ i_table y = i_table y0).
  { intros j y0 Hj. unfold upd_nat. destruct (Nat.eqb_spec j i) as [->|N].
    - exists x'. rewrite H in Hj. injection Hj as <-. auto.
    - exists y0. auto. }
  destruct B as [B1 B2 B3 B4 B5 B6 B7 B8 B9]. constructor; cbn [set_insts w_file w_inst w_dbs w_tabs w_open w_next w_fresh]; auto.
  - intros j y Hj. destruct (G j y Hj) as (y0 & _ & _ & _ & E). exact E.
  - intros p t l Hl. destruct (B3 p t l Hl) as [N M]. split; [auto|]. intro j. rewrite M. split.
    + intros (y0 & Hy & E1 & E2). destruct (G' _ _ Hy) as (y & ? & ? & ?). exists y. split; [auto|]. split; congruence.
    + intros (y & Hy & E1 & E2). destruct (G _ _ Hy) as (y0 & ? & ? & ? & _). exists y0. split; [auto|]. split; congruence.
  - intros j y Hj. destruct (G _ _ Hj) as (y0 & Hy & Ea & Eb & _). rewrite Ea, Eb. eauto.
  - intros p l Hl. destruct (B5 p l Hl) as (N & NE & M). split; [auto|]. split; [auto|]. intro j. rewrite M. split.
    + intros (y0 & Hy & E1). destruct (G' _ _ Hy) as (y & ? & ? & ?). exists y. split; [auto|congruence].
    + intros (y & Hy & E1). destruct (G _ _ Hy) as (y0 & ? & ? & ? & _). exists y0. split; [auto|congruence].
  - intros j y Hj. destruct (G _ _ Hj) as (y0 & Hy & Ea & Eb & _). rewrite Ea. eauto.
  - intros j Hj. unfold upd_nat. destruct (Nat.eqb_spec j i) as [->|N]; auto. rewrite B7 in H by auto. discriminate.
  - intros a ya b yb Ha Hb E. destruct (G _ _ Ha) as (a0 & Ha' & Ea & _). destruct (G _ _ Hb) as (b0 & Hb' & Eb & _).
    rewrite Ea, Eb in *. eapply B9; eauto.
Qed.

Lemma put_unchanged w i x' j : j <> i -> unchanged w (set_insts w (upd_nat (w_inst w) i (Some x'))) j.
Proof.
  intro H. split; [cbn [set_insts w_inst]; apply upd_nat_other; auto|]. intros x Hx. auto.
Qed.

(** Being the only user of a table. *)
Definition sole (w : world) (i : nat) (x : inst) : Prop :=
  forall j y, w_inst w j = Some y -> i_path y = i_path x -> i_table y = i_table x -> j = i.

Lemma sole_users w i x l : Base w -> w_inst w i = Some x -> w_tabs w (i_path x) (i_table x) = Some l ->
  length l = 1%nat -> sole w i x.
Proof.
  intros B H T L j y Hj Ep Et. destruct (b_tabs w B _ _ _ T) as [_ M].
  assert (Hi : In i l) by (apply M; eauto). assert (Hj' : In j l) by (apply M; eauto).
  destruct l as [|a [|b l]]; try discriminate. destruct Hi as [->|[]], Hj' as [->|[]]. auto.
Qed.

(** Tables seen by others when one table of one file is replaced. *)
Lemma other_tables w i x name v j y : Base w -> w_inst w i = Some x -> w_inst w j = Some y ->
  (i_path y = i_path x -> i_table y <> name) ->
  tables (set_tables w (i_path x) (upd_str (tables w (i_path x)) name v)) (i_path y) (i_table y) = tables w (i_path y) (i_table y).
Proof.
  intros B H Hj N. rewrite tables_set. destruct (Nat.eqb_spec (inode (i_path y)) (inode (i_path x))) as [E|E]; [|auto].
  pose proof (b_alias w B _ _ _ _ Hj H E) as P. rewrite P. apply upd_str_other. auto.
Qed.

Lemma src_ok_ext ts ts' x : ts' (i_table x) = ts (i_table x) -> src_ok ts x -> src_ok ts' x.
Proof.
  intros E (tb & cs & rows & T & Bs & Ev & R & L). exists tb, cs, rows. rewrite E. split; [auto|]. split; [auto|].
  split; [|auto]. rewrite (eval_ext _ ts); auto. rewrite Bs. auto.
Qed.

(** The only user of a table changes the table (and its own record). *)
Lemma Base_own_table w i x tb' x' : Base w -> w_inst w i = Some x -> sole w i x -> wf_table tb' ->
  i_path x' = i_path x -> i_table x' = i_table x ->
  src_ok (upd_str (tables w (i_path x)) (i_table x) (Some tb')) x' ->
  let w' := set_tables w (i_path x) (upd_str (tables w (i_path x)) (i_table x) (Some tb')) in
  Base (set_insts w' (upd_nat (w_inst w') i (Some x'))) /\
  forall j, j <> i -> unchanged w (set_insts w' (upd_nat (w_inst w') i (Some x'))) j.
Proof.
  intros B H So W Ep Et S w'.
  destruct (Base_file w i x B H) as [f Hf].
  assert (Tf : tables w (i_path x) = f) by (unfold DbModel.tables; rewrite Hf; auto).
  assert (Ot : forall j y, j <> i -> w_inst w j = Some y -> tables w' (i_path y) (i_table y) = tables w (i_path y) (i_table y)).
  { intros j y N Hj. apply (other_tables w i x _ _ j y); auto. intros E1 E2. apply N. eapply So; eauto. }
  assert (Bw' : Base (set_insts w' (upd_nat (w_inst w') i (Some x')))).
  { assert (G : forall j y, upd_nat (w_inst w) i (Some x') j = Some y ->
              exists y0, w_inst w j = Some y0 /\ i_path y = i_path y0 /\ i_table y = i_table y0 /\
                         src_ok (tables w' (i_path y)) y).
    { intros j y. unfold upd_nat. destruct (Nat.eqb_spec j i) as [->|N]; intro Hy.
      - injection Hy as <-. exists x. split; [auto|]. split; [auto|]. split; [auto|].
        rewrite Ep. unfold w'. rewrite tables_set_same. auto.
      - exists y. split; [auto|]. split; [auto|]. split; [auto|].
        apply (src_ok_ext (tables w (i_path y))); [apply (Ot j); auto|apply (b_inst w B j); auto]. }
    assert (G' : forall j y0, w_inst w j = Some y0 -> exists y, upd_nat (w_inst w) i (Some x') j = Some y /\
                   i_path y = i_path y0 /\ i_table y = i_table y0).
    { intros j y0 Hj. unfold upd_nat. destruct (Nat.eqb_spec j i) as [->|N].
      - exists x'. rewrite H in Hj. injection Hj as <-. auto.
      - exists y0. auto. }
    destruct B as [B1 B2 B3 B4 B5 B6 B7 B8 B9].
    constructor; cbn [set_insts set_files DbModel.set_tables w' w_file w_inst w_dbs w_tabs w_open w_next w_fresh]; auto.
    - intros n f' t tb. unfold upd_nat. destruct (Nat.eqb_spec n (inode (i_path x))) as [->|N]; intros Hn Ht; [|eauto].
      injection Hn as <-. unfold upd_str in Ht. destruct (String.eqb t (i_table x)); [injection Ht as <-; auto|].
      rewrite Tf in Ht. eauto.
    - intros j y Hj. destruct (G j y Hj) as (y0 & _ & _ & _ & E). exact E.
    - intros p t l Hl. destruct (B3 p t l Hl) as [N M]. split; [auto|]. intro j. rewrite M. split.
      + intros (y0 & Hy & E1 & E2). destruct (G' _ _ Hy) as (y & ? & ? & ?). exists y. split; [auto|]. split; congruence.
      + intros (y & Hy & E1 & E2). destruct (G _ _ Hy) as (y0 & ? & ? & ? & _). exists y0. split; [auto|]. split; congruence.
    - intros j y Hj. destruct (G _ _ Hj) as (y0 & Hy & Ea & Eb & _). rewrite Ea, Eb. eauto.
    - intros p l Hl. destruct (B5 p l Hl) as (N & NE & M). split; [auto|]. split; [auto|]. intro j. rewrite M. split.
      + intros (y0 & Hy & E1). destruct (G' _ _ Hy) as (y & ? & ? & ?). exists y. split; [auto|congruence].
      + intros (y & Hy & E1). destruct (G _ _ Hy) as (y0 & ? & ? & ? & _). exists y0. split; [auto|congruence].
    - intros j y Hj. destruct (G _ _ Hj) as (y0 & Hy & Ea & Eb & _). rewrite Ea. eauto.
    - intros j Hj. unfold upd_nat. destruct (Nat.eqb_spec j i) as [->|N]; auto. rewrite B7 in H by auto. discriminate.
    - intros n f' k. unfold upd_nat. destruct (Nat.eqb_spec n (inode (i_path x))) as [->|N]; intros Hn Hk; [|eauto].
      injection Hn as <-. rewrite upd_str_other; [rewrite Tf; eauto|].
      intro E. destruct (B2 i x H) as (tb0 & _ & _ & T0 & _). rewrite <- E, Tf in T0. rewrite (B8 _ _ _ Hf Hk) in T0. discriminate.
    - intros a ya b yb Ha Hb E. destruct (G _ _ Ha) as (a0 & Ha' & Ea & _). destruct (G _ _ Hb) as (b0 & Hb' & Eb & _).
      rewrite Ea, Eb in *. eapply B9; eauto. }
  split; [exact Bw'|]. intros j N. split; [cbn; apply upd_nat_other; auto|]. intros y Hy. exact (Ot j y N Hy).
Qed.

(** A data set moves to a new table. *)
Lemma In_set_remove i l j : In j (set_remove i l) <-> In j l /\ j <> i.
Proof.
  unfold set_remove. rewrite filter_In, negb_true_iff. destruct (Nat.eqb_spec j i); intuition congruence.
Qed.
Definition move_world (w : world) (i : nat) (x : inst) (tb : table) (l : list nat) (x' : inst) : world :=
  let name := tname (w_fresh w) in
  let w1 := set_fresh w (S (w_fresh w)) in
  let w2 := set_tables w1 (i_path x) (upd_str (tables w1 (i_path x)) name (Some tb)) in
  let w3 := set_tabs w2 (upd_tab (upd_tab (w_tabs w2) (i_path x) (i_table x) (Some (set_remove i l)))
                                            (i_path x) name (Some [i])) in
  set_insts w3 (upd_nat (w_inst w3) i (Some x')).
Lemma Base_move w i x tb l x' : Base w -> w_inst w i = Some x -> wf_table tb ->
  w_tabs w (i_path x) (i_table x) = Some l ->
  i_path x' = i_path x -> i_table x' = tname (w_fresh w) ->
  src_ok (upd_str (tables w (i_path x)) (tname (w_fresh w)) (Some tb)) x' ->
  Base (move_world w i x tb l x') /\ (forall j, j <> i -> unchanged w (move_world w i x tb l x') j) /\
  sole (move_world w i x tb l x') i x' /\
  tables (move_world w i x tb l x') (i_path x) = upd_str (tables w (i_path x)) (tname (w_fresh w)) (Some tb).
Proof.
  intros B H W Tl Ep Et Sx. set (name := tname (w_fresh w)) in *.
  destruct (Base_file w i x B H) as [f Hf].
  assert (Tf : tables w (i_path x) = f) by (unfold DbModel.tables; rewrite Hf; auto).
  assert (NN : forall j y, w_inst w j = Some y -> i_table y <> name).
  { intros j y Hj E. destruct (b_inst w B j y Hj) as (tb0 & _ & _ & T0 & _). rewrite E in T0.
    unfold name in T0. rewrite Base_tables_fresh in T0; auto. discriminate. }
  set (w2 := set_tables w (i_path x) (upd_str (tables w (i_path x)) name (Some tb))).
  assert (Ot : forall j y, w_inst w j = Some y -> tables w2 (i_path y) (i_table y) = tables w (i_path y) (i_table y)).
  { intros j y Hj. apply (other_tables w i x _ _ j y); auto. intros _. eauto. }
  assert (Tw : forall p, tables (move_world w i x tb l x') p = tables w2 p) by reflexivity.
  assert (Iw : w_inst (move_world w i x tb l x') = upd_nat (w_inst w) i (Some x')) by reflexivity.
  split; [|split; [|split]].
  - assert (G : forall j y, upd_nat (w_inst w) i (Some x') j = Some y ->
              exists y0, w_inst w j = Some y0 /\ i_path y = i_path y0 /\
                         (if Nat.eqb j i then i_table y = name else y = y0) /\
                         src_ok (tables w2 (i_path y)) y).
    { intros j y. unfold upd_nat. destruct (Nat.eqb_spec j i) as [->|N]; intro Hy.
      - injection Hy as <-. exists x. split; [auto|]. split; [auto|]. split; [auto|].
        rewrite Ep. unfold w2. rewrite tables_set_same. auto.
      - exists y. split; [auto|]. split; [auto|]. split; [auto|].
        apply (src_ok_ext (tables w (i_path y))); [apply (Ot j); auto|apply (b_inst w B j); auto]. }
    destruct B as [B1 B2 B3 B4 B5 B6 B7 B8 B9].
    assert (G2 : forall j y0, w_inst w j = Some y0 -> exists y, upd_nat (w_inst w) i (Some x') j = Some y /\ i_path y = i_path y0).
    { intros j y0 Hj. unfold upd_nat. destruct (Nat.eqb_spec j i) as [->|N].
      - exists x'. rewrite H in Hj. injection Hj as <-. auto.
      - exists y0. auto. }
    unfold move_world. fold name.
    constructor; cbn [set_insts set_files set_tabs set_fresh DbModel.set_tables w_file w_inst w_dbs w_tabs w_open w_next w_fresh]; auto.
    + intros n f' t tb0. unfold upd_nat. destruct (Nat.eqb_spec n (inode (i_path x))) as [->|N]; intros Hn Ht; [|eauto].
      injection Hn as <-. unfold upd_str in Ht. destruct (String.eqb t name); [injection Ht as <-; auto|].
      change (tables (set_fresh w (Datatypes.S (w_fresh w))) (i_path x)) with (tables w (i_path x)) in Ht. rewrite Tf in Ht. eauto.
    + intros j y Hj. destruct (G j y Hj) as (y0 & _ & _ & _ & E). exact E.
    + intros p t m Hm. unfold upd_tab at 1 in Hm.
      destruct (String.eqb_spec p (i_path x)) as [->|Np]; cbn [andb] in Hm.
      * destruct (String.eqb_spec t name) as [->|Nt].
        { injection Hm as <-. split; [repeat constructor; auto|]. intro j. cbn [In]. split.
          - intros [<-|[]]. exists x'. rewrite upd_nat_same. auto.
          - intros (y & Hy & _ & E). destruct (Nat.eq_dec j i) as [->|N]; [auto|].
            rewrite upd_nat_other in Hy by auto. exfalso. eapply NN; eauto. }
        unfold upd_tab in Hm. rewrite String.eqb_refl in Hm. cbn [andb] in Hm.
        destruct (String.eqb_spec t (i_table x)) as [->|Nt'].
        { injection Hm as <-. destruct (B3 _ _ _ Tl) as [ND M]. split; [apply NoDup_filter; auto|].
          intro j. rewrite In_set_remove, M. split.
          - intros [(y & Hy & E1 & E2) N]. exists y. rewrite upd_nat_other by auto. auto.
          - intros (y & Hy & E1 & E2). destruct (Nat.eq_dec j i) as [->|N].
            + rewrite upd_nat_same in Hy. injection Hy as <-. congruence.
            + rewrite upd_nat_other in Hy by auto. split; [eauto|auto]. }
        destruct (B3 _ _ _ Hm) as [ND M]. split; [auto|]. intro j. rewrite M. split.
        { intros (y & Hy & E1 & E2). destruct (Nat.eq_dec j i) as [->|N].
          - congruence.
          - exists y. rewrite upd_nat_other by auto. auto. }
        { intros (y & Hy & E1 & E2). destruct (Nat.eq_dec j i) as [->|N].
          - rewrite upd_nat_same in Hy. injection Hy as <-. congruence.
          - rewrite upd_nat_other in Hy by auto. eauto. }
      * unfold upd_tab in Hm. destruct (String.eqb_spec p (i_path x)); [contradiction|]. cbn [andb] in Hm.
        destruct (B3 _ _ _ Hm) as [ND M]. split; [auto|]. intro j. rewrite M. split.
        { intros (y & Hy & E1 & E2). destruct (Nat.eq_dec j i) as [->|N].
          - congruence.
          - exists y. rewrite upd_nat_other by auto. auto. }
        { intros (y & Hy & E1 & E2). destruct (Nat.eq_dec j i) as [->|N].
          - rewrite upd_nat_same in Hy. injection Hy as <-. congruence.
          - rewrite upd_nat_other in Hy by auto. eauto. }
    + intros j y Hj. destruct (Nat.eq_dec j i) as [->|N].
      * rewrite upd_nat_same in Hj. injection Hj as <-. rewrite Ep, Et, upd_tab_same. discriminate.
      * rewrite upd_nat_other in Hj by auto. unfold upd_tab.
        destruct (_ && _)%bool; [discriminate|]. destruct (_ && _)%bool; [discriminate|]. eauto.
    + intros p m Hm. destruct (B5 p m Hm) as (ND & NE & M). split; [auto|]. split; [auto|]. intro j. rewrite M. split.
      * intros (y0 & Hy & E1). destruct (G2 _ _ Hy) as (y & ? & ?). exists y. split; [auto|congruence].
      * intros (y & Hy & E1). destruct (G _ _ Hy) as (y0 & ? & ? & _). exists y0. split; [auto|congruence].
    + intros j y Hj. destruct (G _ _ Hj) as (y0 & Hy & Ea & _). rewrite Ea. eauto.
    + intros j Hj. unfold upd_nat. destruct (Nat.eqb_spec j i) as [->|N]; auto. rewrite B7 in H by auto. discriminate.
    + intros n f' k. unfold upd_nat. destruct (Nat.eqb_spec n (inode (i_path x))) as [->|N]; intros Hn Hk; [|eapply B8; eauto; lia].
      injection Hn as <-. change (tables (set_fresh w (Datatypes.S (w_fresh w))) (i_path x)) with (tables w (i_path x)).
      rewrite upd_str_other; [rewrite Tf; eapply B8; eauto; lia|].
      intro E. apply tname_inj in E. lia.
    + intros a ya b yb Ha Hb E. destruct (G _ _ Ha) as (a0 & Ha' & Ea & _). destruct (G _ _ Hb) as (b0 & Hb' & Eb & _).
      rewrite Ea, Eb in *. eapply B9; eauto.
  - intros j N. split; [rewrite Iw; apply upd_nat_other; auto|]. intros y Hy. rewrite Tw. exact (Ot j y Hy).
  - intros j y Hj _ E. rewrite Iw in Hj. destruct (Nat.eq_dec j i) as [->|N]; [auto|].
    rewrite upd_nat_other in Hj by auto. exfalso. eapply NN; [exact Hj|]. rewrite E. auto.
  - rewrite Tw. unfold w2. rewrite tables_set_same. auto.
Qed.
End Inv.
