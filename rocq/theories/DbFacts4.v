(** The effect of select, drop, unique and copy on the data sets. *)
From Coq Require Import String Ascii.
From Coq Require Import List ZArith QArith Qcanon Bool Lia Permutation.
From Verif Require Import Py PyFacts MemModel DbModel DbFacts DbFacts2 DbFacts3.
Import ListNotations.
Open Scope string_scope.
Open Scope Z_scope.

Section Ops.
Variable inode : string -> nat.
Notation tables := (tables inode).
Notation set_tables := (set_tables inode).
Notation Base := (Base inode).
Notation settledw := (settledw inode).
Notation unchanged := (unchanged inode).
Notation quiet := (quiet inode).

Lemma can_build_face x x' : face x x' -> can_build x -> can_build x'.
Proof. intros (E1 & E2 & E3 & _) [A (ts & B & C)]. unfold can_build. rewrite E2, E3. eauto. Qed.

(** Nothing to materialise, or everything there to do it. *)
Definition readable (x : inst) : Prop := can_build x \/ i_state x = None.
Lemma record_spec w i x w' r : Base w -> settledw w i -> w_inst w i = Some x ->
  record_interaction inode i w = (w', r) -> quiet i w w' /\ (readable x -> r = Ok tt).
Proof.
  intros B S H E. unfold record_interaction in E. rewrite (andthen_ok _ _ _ _ _ (self_ok i w x H)) in E.
  set (y := set_counts x (i_n x) (i_before x) (i_queries x) (Datatypes.S (i_direct x))) in E.
  set (w1 := set_insts w (upd_nat (w_inst w) i (Some y))) in *.
  rewrite (andthen_ok _ _ w w1 tt) in E by reflexivity.
  rewrite (andthen_ok _ _ w1 w1 (w_open w)) in E by reflexivity.
  assert (Q1 : quiet i w w1) by (apply quiet_put with (x := x); auto; unfold face; auto 10).
  destruct (_ && _)%bool.
  - assert (H1 : w_inst w1 i = Some y) by (cbn; apply upd_nat_same).
    destruct (optimize_spec inode w1 i y true w' r (qu_base _ _ _ _ Q1) (quiet_settled _ _ _ _ x Q1 H) H1 E) as (Q2 & C & _).
    split; [eapply quiet_trans; eauto|]. intros [Cb|Sn]; [apply C; apply (can_build_face x); [unfold face; auto 10|auto]|].
    unfold optimize in E. rewrite (andthen_ok _ _ _ _ _ (self_ok i w1 y H1)) in E. unfold put, modify, andthen, ret in E.
    cbn [i_state set_counts y] in E. rewrite Sn in E. cbn in E. congruence.
  - injection E as <- <-. auto.
Qed.

(** A data set reports the same before and after. *)
Definition same (w w' : world) (j : nat) : Prop :=
  forall x, w_inst w j = Some x -> exists x', w_inst w' j = Some x' /\ face x x' /\
    den (tables w' (i_path x')) x' = den (tables w (i_path x)) x.
Lemma same_refl w j : same w w j.
Proof. intros x H. exists x. split; [auto|]. split; [apply face_refl|auto]. Qed.
Lemma same_trans w1 w2 w3 j : same w1 w2 j -> same w2 w3 j -> same w1 w3 j.
Proof.
  intros A B x H. destruct (A x H) as (y & Hy & F & D). destruct (B y Hy) as (z & Hz & F' & D').
  exists z. split; [auto|]. split; [eapply face_trans; eauto|congruence].
Qed.
Lemma unchanged_same w w' j : Base w -> unchanged w w' j -> same w w' j.
Proof.
  intros B U x H. exists x. pose proof (unchanged_den inode w w' j x B U H) as D. destruct U as [U1 U2].
  split; [congruence|]. split; [apply face_refl|auto].
Qed.
Lemma quiet_same i w w' : Base w -> quiet i w w' -> forall j, same w w' j.
Proof.
  intros B Q j. destruct (Nat.eq_dec j i) as [->|N].
  - intros x H. destruct (qu_self _ _ _ _ Q x H) as (x' & ? & ? & _ & ? & ?). eauto.
  - apply unchanged_same; auto. apply (qu_others _ _ _ _ Q). auto.
Qed.

(** ** Replacing the state *)

(** A query a data set may adopt as its state. *)
Definition fits (ts : string -> option table) (x : inst) (q : sel) (rows : list trow) : Prop :=
  base (src_of q) = i_table x /\ eval ts (src_of q) = Ok (q_cols q, rows) /\
  NoDup (i_cols x) /\ In "rid" (i_cols x) /\ (exists ext, q_cols q = (i_cols x ++ ext)%list) /\
  exists tb, ts (i_table x) = Some tb /\
    (forall types c t, i_types x = Some types -> In c (i_cols x) -> assoc String.eqb c types = Some t ->
       assoc String.eqb c (tb_types tb) = Some t).

Lemma update_state_spec w i x q rows w' r : Base w -> w_inst w i = Some x ->
  fits (tables w (i_path x)) x q rows -> update_state inode i q w = (w', r) ->
  Base w' /\ (forall j, j <> i -> unchanged w w' j) /\ w_open w' = w_open w /\ w_next w' = w_next w /\
  (can_build x -> r = Ok tt) /\
  exists x', w_inst w' i = Some x' /\ i_path x' = i_path x /\ i_cols x' = i_cols x /\ i_types x' = i_types x /\
    i_ids x' = i_ids x /\ i_ucache x' = i_ucache x /\ i_n x' = length rows /\
    settled (tables w' (i_path x')) x' /\ den (tables w' (i_path x')) x' = map (proj (i_cols x)) rows.
Proof.
  intros B H (Bq & Eq & ND & Rid & [ext Ext] & tb & T & L) E. unfold update_state in E.
  rewrite (andthen_ok _ _ _ _ _ (self_ok i w x H)) in E. cbv zeta in E.
  set (y := set_counts x (i_n x) (i_before x) (Datatypes.S (i_queries x)) (i_direct x)) in E.
  set (w1 := set_insts w (upd_nat (w_inst w) i (Some y))) in *.
  rewrite (andthen_ok _ _ w w1 tt) in E by reflexivity.
  rewrite (andthen_ok _ _ w1 w1 (q_cols q, rows)) in E
    by (unfold query; change (tables w1 (i_path y)) with (tables w (i_path x)); rewrite Eq; auto).
  cbn [snd] in E.
  set (z := set_state (set_counts y (length rows) (i_before y) (i_queries y) (i_direct y)) (Some q)) in E.
  set (w2 := set_insts w1 (upd_nat (w_inst w1) i (Some z))) in *.
  rewrite (andthen_ok _ _ w1 w2 tt) in E by reflexivity.
  rewrite (andthen_ok _ _ w2 w2 (w_open w)) in E by reflexivity.
  assert (Sz : forall n1 n2, src_ok (tables w (i_path x)) (set_counts z (length rows) n1 n2 (i_direct z))).
  { intros n1 n2. exists tb, (q_cols q), rows. split; [exact T|]. split; [exact Bq|]. split; [exact Eq|].
    split; [rewrite Ext; apply in_app_iff; auto|auto]. }
  assert (Bz : forall n1 n2, let z' := set_counts z (length rows) n1 n2 (i_direct z) in
     Base (set_insts w (upd_nat (w_inst w) i (Some z')))).
  { intros n1 n2 z'. apply Base_put with (x := x); auto. apply Sz. }
  assert (Ew2 : forall z', w_inst (set_insts w2 (upd_nat (w_inst w2) i (Some z'))) i = Some z') by (intros; cbn; apply upd_nat_same).
  assert (St : forall n1 n2, settled (tables w (i_path x)) (set_counts z (length rows) n1 n2 (i_direct z))).
  { intros n1 n2. split; [exact ND|]. split; [exact Rid|]. exists tb. split; [exact T|]. split; [exact L|]. exists ext. exact Ext. }
  assert (Dz : forall n1 n2, den (tables w (i_path x)) (set_counts z (length rows) n1 n2 (i_direct z)) = map (proj (i_cols x)) rows).
  { intros n1 n2. unfold den. change (curr_source _) with (src_of q). rewrite Eq. auto. }
  (* worlds that differ only in how often record i was written are equal up to extensionality; use Base_put twice instead *)
  assert (B1 : Base w2).
  { apply Base_put with (x := y); auto.
    - destruct (b_inst inode w B i x H) as (tb1 & cs1 & rows1 & X1 & X2 & X3 & X4 & X5).
      apply Base_put with (x := x); auto. exists tb1, cs1, rows1. auto.
    - cbn. apply upd_nat_same.
    - exact (Sz (i_before z) (i_queries z)). }
  assert (U2 : forall j, j <> i -> unchanged w w2 j).
  { intros j N. eapply unchanged_trans; [apply put_unchanged; exact N|]. apply put_unchanged. exact N. }
  assert (S2 : settledw w2 i).
  { intros z' Hz. assert (w_inst w2 i = Some z) by (cbn; apply upd_nat_same). rewrite H0 in Hz. injection Hz as <-.
    exact (St (i_before z) (i_queries z)). }
  assert (H2 : w_inst w2 i = Some z) by (cbn; apply upd_nat_same).
  destruct (worth_it _ _ _ _).
  - set (z' := set_counts z (length rows) (length rows) (i_queries z) (i_direct z)) in E.
    set (w3 := set_insts w2 (upd_nat (w_inst w2) i (Some z'))) in *.
    rewrite (andthen_ok _ _ w2 w3 tt) in E by reflexivity.
    assert (Q3 : quiet i w2 w3) by (apply quiet_put with (x := z); auto; unfold face; auto 10).
    assert (H3 : w_inst w3 i = Some z') by (cbn; apply upd_nat_same).
    destruct (optimize_spec inode w3 i z' true w' r (qu_base _ _ _ _ Q3) (quiet_settled _ _ _ _ z Q3 H2) H3 E) as (Q4 & C & _).
    pose proof (quiet_trans _ _ _ _ _ Q3 Q4) as Q.
    split; [apply (qu_base _ _ _ _ Q)|]. split.
    { intros j N. eapply unchanged_trans; [apply U2; auto|apply (qu_others _ _ _ _ Q); auto]. }
    split; [rewrite (qu_open _ _ _ _ Q); auto|]. split; [rewrite (qu_next _ _ _ _ Q); auto|].
    split; [intro Cb; apply C; exact Cb|].
    destruct (qu_self _ _ _ _ Q z H2) as (x' & Hx & (F1 & F2 & F3 & F4 & F5 & F6) & _ & Sx & Dx).
    exists x'. split; [auto|]. split; [auto|]. split; [auto|]. split; [auto|]. split; [auto|]. split; [auto|].
    split; [auto|]. split; [auto|]. rewrite Dx. exact (Dz (i_before z) (i_queries z)).
  - injection E as <- <-. split; [auto|]. split; [auto|]. split; [auto|]. split; [auto|]. split; [auto|].
    exists z. split; [auto|]. split; [auto|]. split; [auto|]. split; [auto|]. split; [auto|]. split; [auto|].
    split; [auto|]. split; [exact (S2 z H2)|]. exact (Dz (i_before z) (i_queries z)).
Qed.

(** ** Registering a new data set *)
Lemma In_set_add n l j : In j (set_add n l) <-> j = n \/ In j l.
Proof.
  unfold set_add. destruct (mem_b Nat.eqb n l) eqn:E.
  - apply (mem_b_In Nat.eqb reflects_nat) in E. intuition (subst; auto).
  - cbn [In]. intuition auto.
Qed.
Lemma NoDup_set_add n l : NoDup l -> NoDup (set_add n l).
Proof.
  intro N. unfold set_add. destruct (mem_b Nat.eqb n l) eqn:E; [auto|].
  constructor; auto. apply (mem_b_false Nat.eqb reflects_nat). auto.
Qed.
Definition reg_world (w : world) (x : inst) : world := fst (register x w).
Lemma register_eq w x : register x w = (reg_world w x, Ok (w_next w)).
Proof. reflexivity. Qed.
Lemma reg_inst_new w x : w_inst (reg_world w x) (w_next w) = Some x.
Proof. cbn. apply upd_nat_same. Qed.
Lemma reg_inst_old w x j : j <> w_next w -> w_inst (reg_world w x) j = w_inst w j.
Proof. intro N. cbn. apply upd_nat_other. auto. Qed.

Lemma Base_register w x : Base w -> src_ok (tables w (i_path x)) x ->
  (forall j y, w_inst w j = Some y -> inode (i_path y) = inode (i_path x) -> i_path y = i_path x) ->
  Base (reg_world w x) /\ forall j, j <> w_next w -> unchanged w (reg_world w x) j.
Proof.
  intros B S Al. set (n := w_next w).
  assert (Hn : w_inst w n = None) by (apply (b_next inode w B); unfold n; lia).
  split.
  2:{ intros j N. split; [apply reg_inst_old; auto|]. intros y Hy. reflexivity. }
  destruct B as [B1 B2 B3 B4 B5 B6 B7 B8 B9].
  unfold reg_world, register. fold n.
  constructor; cbn [fst set_insts set_files set_tabs set_fresh set_dbs set_next w_file w_inst w_dbs w_tabs w_open w_next w_fresh]; auto.
  - intros j y Hj. unfold upd_nat in Hj. destruct (Nat.eqb_spec j n) as [->|N].
    + injection Hj as <-. exact S.
    + exact (B2 j y Hj).
  - intros p t l Hl. unfold upd_tab in Hl.
    destruct (String.eqb_spec p (i_path x)) as [->|Np], (String.eqb_spec t (i_table x)) as [->|Nt]; cbn [andb] in Hl.
    + unfold registered in Hl. injection Hl as <-.
      assert (O : NoDup (match w_tabs w (i_path x) (i_table x) with Some s => s | None => [] end) /\
                  forall i, In i (match w_tabs w (i_path x) (i_table x) with Some s => s | None => [] end) <->
                            exists y, w_inst w i = Some y /\ i_path y = i_path x /\ i_table y = i_table x).
      { destruct (w_tabs w (i_path x) (i_table x)) as [l|] eqn:E; [exact (B3 _ _ _ E)|].
        split; [constructor|]. intro i. split; [intros []|]. intros (y & Hy & E1 & E2).
        pose proof (B4 i y Hy) as X. rewrite E1, E2 in X. contradiction. }
      destruct O as [O1 O2]. split; [apply NoDup_set_add; auto|]. intro j. rewrite In_set_add, O2. split.
      * intros [->|(y & Hy & E1 & E2)]; [exists x; rewrite upd_nat_same; auto|].
        exists y. rewrite upd_nat_other; [auto|]. intros ->. congruence.
      * intros (y & Hy & E1 & E2). destruct (Nat.eq_dec j n) as [->|N]; [auto|]. rewrite upd_nat_other in Hy by auto. right. eauto.
    + destruct (B3 _ _ _ Hl) as [O1 O2]. split; [auto|]. intro j. rewrite O2. split.
      * intros (y & Hy & E1 & E2). exists y. rewrite upd_nat_other; [auto|]. intros ->. congruence.
      * intros (y & Hy & E1 & E2). destruct (Nat.eq_dec j n) as [->|N]; [|rewrite upd_nat_other in Hy by auto; eauto].
        rewrite upd_nat_same in Hy. injection Hy as <-. congruence.
    + destruct (B3 _ _ _ Hl) as [O1 O2]. split; [auto|]. intro j. rewrite O2. split.
      * intros (y & Hy & E1 & E2). exists y. rewrite upd_nat_other; [auto|]. intros ->. congruence.
      * intros (y & Hy & E1 & E2). destruct (Nat.eq_dec j n) as [->|N]; [|rewrite upd_nat_other in Hy by auto; eauto].
        rewrite upd_nat_same in Hy. injection Hy as <-. congruence.
    + destruct (B3 _ _ _ Hl) as [O1 O2]. split; [auto|]. intro j. rewrite O2. split.
      * intros (y & Hy & E1 & E2). exists y. rewrite upd_nat_other; [auto|]. intros ->. congruence.
      * intros (y & Hy & E1 & E2). destruct (Nat.eq_dec j n) as [->|N]; [|rewrite upd_nat_other in Hy by auto; eauto].
        rewrite upd_nat_same in Hy. injection Hy as <-. congruence.
  - intros j y Hj. unfold upd_tab. destruct (_ && _)%bool eqn:E; [discriminate|].
    unfold upd_nat in Hj. destruct (Nat.eqb_spec j n) as [->|N]; [|exact (B4 j y Hj)].
    injection Hj as <-. rewrite !String.eqb_refl in E. discriminate.
  - intros p l Hl. unfold upd_str in Hl. destruct (String.eqb_spec p (i_path x)) as [->|Np].
    + unfold registered in Hl. injection Hl as <-.
      assert (O : NoDup (match w_dbs w (i_path x) with Some s => s | None => [] end) /\
                  forall i, In i (match w_dbs w (i_path x) with Some s => s | None => [] end) <->
                            exists y, w_inst w i = Some y /\ i_path y = i_path x).
      { destruct (w_dbs w (i_path x)) as [l|] eqn:E; [destruct (B5 _ _ E) as (? & ? & ?); auto|].
        split; [constructor|]. intro i. split; [intros []|]. intros (y & Hy & E1).
        pose proof (B6 i y Hy) as X. rewrite E1 in X. contradiction. }
      destruct O as [O1 O2]. split; [apply NoDup_set_add; auto|]. split.
      { intro Z. pose proof (proj2 (In_set_add n (match w_dbs w (i_path x) with Some s => s | None => [] end) n) (or_introl eq_refl)) as X. rewrite Z in X. destruct X. }
      intro j. rewrite In_set_add, O2. split.
      * intros [->|(y & Hy & E1)]; [exists x; rewrite upd_nat_same; auto|].
        exists y. rewrite upd_nat_other; [auto|]. intros ->. congruence.
      * intros (y & Hy & E1). destruct (Nat.eq_dec j n) as [->|N]; [auto|]. rewrite upd_nat_other in Hy by auto. right. eauto.
    + destruct (B5 _ _ Hl) as (O1 & O3 & O2). split; [auto|]. split; [auto|]. intro j. rewrite O2. split.
      * intros (y & Hy & E1). exists y. rewrite upd_nat_other; [auto|]. intros ->. congruence.
      * intros (y & Hy & E1). destruct (Nat.eq_dec j n) as [->|N]; [|rewrite upd_nat_other in Hy by auto; eauto].
        rewrite upd_nat_same in Hy. injection Hy as <-. congruence.
  - intros j y Hj. unfold upd_str. destruct (String.eqb _ _) eqn:E; [discriminate|].
    unfold upd_nat in Hj. destruct (Nat.eqb_spec j n) as [->|N]; [|exact (B6 j y Hj)].
    injection Hj as <-. rewrite String.eqb_refl in E. discriminate.
  - intros j Hj. rewrite upd_nat_other by (unfold n; lia). apply B7. unfold n in Hj. lia.
  - intros a ya b yb Ha Hb E. unfold upd_nat in Ha, Hb.
    destruct (Nat.eqb_spec a n) as [->|Na], (Nat.eqb_spec b n) as [->|Nb].
    + congruence.
    + injection Ha as <-. symmetry. eapply Al; eauto.
    + injection Hb as <-. eapply Al; eauto.
    + eapply B9; eauto.
Qed.

(** A copy. *)
Definition copy_inst (x : inst) : inst :=
  mkInst (i_path x) (i_table x) (i_cols x) (i_types x) (i_state x) (i_n x) (i_before x) (i_queries x) 0 (i_ids x) [].
Lemma copy_eq w i x : Base w -> w_inst w i = Some x ->
  copy inode i w = (reg_world w (copy_inst x), Ok (w_next w)).
Proof.
  intros B H. unfold copy. rewrite (andthen_ok _ _ _ _ _ (self_ok i w x H)).
  destruct (Base_file inode w i x B H) as [f Hf].
  destruct (b_inst inode w B i x H) as (tb & cs & rows & T & _).
  unfold open_db.
  rewrite (andthen_ok _ _ w w (match tables w (i_path x) main_table with
                            | Some tb => filter (fun c => negb (in_cols c ["uid"; "iid"])) (tb_cols tb)
                            | None => []
                            end, length (tb_rows tb))); [reflexivity|].
  rewrite (andthen_ok _ _ w w tt) by (unfold file_exists; rewrite Hf; auto).
  rewrite (andthen_ok _ _ w w (tb_cols tb, tb_rows tb)) by (cbn [eval]; rewrite T; auto).
  reflexivity.
Qed.
Lemma copy_spec w i x : Base w -> w_inst w i = Some x ->
  let w' := reg_world w (copy_inst x) in
  Base w' /\ (forall j, j <> w_next w -> unchanged w w' j) /\ w_inst w' (w_next w) = Some (copy_inst x) /\
  w_open w' = w_open w /\ w_next w' = S (w_next w) /\ tables w' (i_path x) = tables w (i_path x) /\
  den (tables w' (i_path x)) (copy_inst x) = den (tables w (i_path x)) x /\ i <> w_next w /\
  (settledw w i -> settledw w' (w_next w)).
Proof.
  intros B H w'.
  assert (So : src_ok (tables w (i_path (copy_inst x))) (copy_inst x)).
  { destruct (b_inst inode w B i x H) as (tb & cs & rows & T). exists tb, cs, rows. exact T. }
  destruct (Base_register w (copy_inst x) B So) as [B' U].
  { intros j y Hy E. exact (b_alias inode w B j y i x Hy H E). }
  assert (Hn : i <> w_next w).
  { intros Ei. pose proof (b_next inode w B i) as X. rewrite H in X. discriminate X. lia. }
  split; [exact B'|]. split; [exact U|]. split; [apply reg_inst_new|]. do 5 (split; [auto|]).
  intros S y Hy. unfold w' in Hy. rewrite reg_inst_new in Hy. injection Hy as <-. exact (S x H).
Qed.

(** ** The effect of a condition on the rows a data set reads *)
Lemma fits_filter ts x tb (P : trow -> bool) cs rows q : wf_table tb -> ts (i_table x) = Some tb ->
  src_ok ts x -> settled ts x -> eval ts (curr_source x) = Ok (cs, rows) ->
  base (src_of q) = i_table x ->
  (exists ext, q_cols q = (i_cols x ++ ext)%list) -> incl (q_cols q) cs ->
  eval ts (src_of q) = Ok (q_cols q, map (proj (q_cols q)) (filter P rows)) ->
  (forall r, P (proj (i_cols x) r) = P r) ->
  fits ts x q (map (proj (q_cols q)) (filter P rows)) /\
  map (proj (i_cols x)) (map (proj (q_cols q)) (filter P rows)) = filter P (den ts x).
Proof.
  intros W T So St E Bq Ext I Eq HP. destruct St as (ND & Rid & tb' & T' & L & _).
  split.
  - split; [auto|]. split; [auto|]. split; [auto|]. split; [auto|]. split; [auto|]. exists tb'. auto.
  - unfold den. rewrite E, filter_map, map_map.
    rewrite (filter_ext (fun r => P (proj (i_cols x) r)) P HP).
    destruct Ext as [ext Ext]. apply map_ext. intro r. apply proj_proj. rewrite Ext. apply incl_appl, incl_refl.
Qed.

(** drop and keep *)
Lemma drop_fits ts x rids keep : src_ok ts x -> settled ts x ->
  (forall tb, ts (i_table x) = Some tb -> wf_table tb) ->
  let P := fun r => if keep : bool then mem_b Z.eqb (rid_of r) rids else negb (mem_b Z.eqb (rid_of r) rids) in
  exists rows, fits ts x (mkSel (i_cols x) (curr_source x) [if keep then WIn rids else WNotIn rids]) rows /\
  map (proj (i_cols x)) rows = filter P (den ts x).
Proof.
  intros So St W P. pose proof So as (tb & cs & rows & T & Bs & E & R & L).
  pose proof (settled_incl _ _ _ _ St E) as I. pose proof St as (ND & Rid & _).
  eexists. eapply (fits_filter ts x tb P cs rows); eauto.
  - exists []. cbn [q_cols]. rewrite app_nil_r. auto.
  - unfold src_of. cbn [q_cols q_from q_where eval]. rewrite E.
    assert (G : (negb (is_nil (i_cols x)) && subset_b (i_cols x) cs &&
                 forallb (wcond_ok cs) [if keep then WIn rids else WNotIn rids])%bool = true).
    { rewrite (proj2 (subset_b_incl _ _) I). cbn [forallb]. rewrite andb_true_r.
      assert (wcond_ok cs (if keep then WIn rids else WNotIn rids) = true) as ->
        by (destruct keep; cbn [wcond_ok]; apply in_cols_In; auto).
      destruct (i_cols x); [destruct Rid|auto]. }
    rewrite G. f_equal. f_equal. f_equal. apply filter_ext. intro r. cbn [forallb]. rewrite andb_true_r.
    unfold P. destruct keep; auto.
  - intro r. unfold P. rewrite rid_proj; auto.
Qed.

(** select: conditions on the columns of the data set *)
Definition plain_cond (cs : list string) (c : wcond) : Prop :=
  match c with WCmp col _ _ => In col cs | _ => False end.
Definition cond_true (r : trow) (c : wcond) : bool :=
  match c with WCmp col op v => sql_cmp op (tcell r col) (Some v) | _ => false end.
(** no text literal that SQLite would take for a column *)
Definition no_column (cols : list string) (c : wcond) : Prop :=
  match c with
  | WCmp _ _ (VStr s) => (forall d, In d cols -> ci_eqb s d = false) /\
                         existsb (ci_eqb s) ["rowid"; "oid"; "_rowid_"] = false
  | _ => True
  end.
Lemma operand_plain istab cols cs r c op v : incl cs cols -> no_column cols (WCmp c op v) -> operand istab cs r v = Some v.
Proof.
  intros I N. destruct v as [z|q|s]; auto. cbn [operand no_column] in *. destruct N as [N1 N2]. unfold resolve.
  destruct (find (ci_eqb s) cs) as [d|] eqn:F.
  - apply find_some in F. rewrite N1 in F by (apply I; tauto). destruct F; discriminate.
  - rewrite N2, andb_false_r. auto.
Qed.
Lemma wholds_true istab cols fcs rows r c : incl fcs cols -> plain_cond fcs c -> no_column cols c ->
  wholds istab fcs rows r c = cond_true r c.
Proof.
  intros I P N. destruct c as [col op v| | |]; try contradiction. cbn [wholds cond_true].
  rewrite (operand_plain istab cols fcs r col op v); auto.
Qed.
Lemma cond_true_proj cs r c : plain_cond cs c -> cond_true (proj cs r) c = cond_true r c.
Proof. intro P. destruct c; try contradiction. cbn [cond_true plain_cond] in *. rewrite tcell_proj; auto. Qed.
Lemma forallb_ext_in {A} (f g : A -> bool) l : (forall x, In x l -> f x = g x) -> forallb f l = forallb g l.
Proof.
  induction l as [|a l IH]; intro H; [auto|]. cbn [forallb]. rewrite H by (left; auto).
  rewrite IH; [auto|]. intros. apply H. right. auto.
Qed.

Lemma select_fits ts x tb conds : wf_table tb -> ts (i_table x) = Some tb -> src_ok ts x -> settled ts x ->
  (forall c, In c conds -> plain_cond (i_cols x) c) -> (forall c, In c conds -> no_column (tb_cols tb) c) ->
  exists rows, fits ts x (new_state x conds) rows /\
  map (proj (i_cols x)) rows = filter (fun r => forallb (cond_true r) conds) (den ts x).
Proof.
  intros W T So St Pc Nc. pose proof So as (tb' & cs & rows & T' & Bs & E & R & L). rewrite T in T'. injection T' as <-.
  pose proof (settled_incl _ _ _ _ St E) as I. pose proof St as (ND & Rid & tb0 & T0 & Lk & C).
  rewrite T in T0. injection T0 as <-.
  assert (PP : forall r, forallb (cond_true (proj (i_cols x) r)) conds = forallb (cond_true r) conds).
  { intro r. apply forallb_ext_in. intros c Hc. apply cond_true_proj. auto. }
  assert (Icol : forall fcs, incl (i_cols x) fcs -> forallb (wcond_ok fcs) conds = true).
  { intros fcs If. apply forallb_forall. intros c Hc. specialize (Pc c Hc). destruct c; try contradiction.
    cbn [wcond_ok]. apply in_cols_In. apply If. exact Pc. }
  unfold new_state, curr_source in *. destruct (i_state x) as [q|] eqn:Hs.
  - destruct C as [ext Ext].
    assert (Iq : incl (i_cols x) (q_cols q)) by (rewrite Ext; apply incl_appl, incl_refl).
    unfold src_of in E. cbn [eval] in E. destruct (eval ts (q_from q)) as [[fcs frows]|] eqn:Ef; [|discriminate].
    destruct (negb (is_nil (q_cols q)) && subset_b (q_cols q) fcs && forallb (wcond_ok fcs) (q_where q))%bool eqn:G; [|discriminate].
    injection E as <- <-. apply andb_true_iff in G. destruct G as [G1 G2].
    pose proof G1 as G3. apply andb_true_iff in G3. destruct G3 as [_ G3]. apply subset_b_incl in G3.
    assert (Tf : ts (base (q_from q)) = Some tb) by (cbn [src_of base] in Bs; rewrite Bs; auto).
    destruct (eval_shape ts tb W _ _ _ Tf Ef) as [If _].
    set (Q := mkSel (q_cols q) (q_from q) (q_where q ++ conds)%list).
    assert (EQ : eval ts (src_of Q) = Ok (q_cols q, map (proj (q_cols q))
              (filter (fun r => forallb (cond_true r) conds)
                 (map (proj (q_cols q)) (filter (fun r => forallb (wholds (is_tab (q_from q)) fcs frows r) (q_where q)) frows))))).
    { unfold src_of, Q. cbn [q_cols q_from q_where eval]. rewrite Ef, forallb_app, G2, Icol by (eapply incl_tran; eauto).
      cbn [andb]. rewrite andb_true_r, G1. f_equal. f_equal.
      rewrite filter_map, filter_filter, map_map. rewrite (map_ext (fun r => proj (q_cols q) (proj (q_cols q) r)) (proj (q_cols q))) by (intro r; apply proj_proj, incl_refl).
      f_equal. apply filter_ext. intro r. rewrite forallb_app. f_equal. apply forallb_ext_in. intros c Hc.
      rewrite (wholds_true _ (tb_cols tb)); auto.
      - symmetry. apply cond_true_proj. specialize (Pc c Hc). destruct c; auto. cbn in *. apply Iq. auto.
      - specialize (Pc c Hc). destruct c; auto. cbn in *. apply G3, Iq. auto. }
    eexists. eapply (fits_filter ts x tb (fun r => forallb (cond_true r) conds) (q_cols q) _ Q); eauto.
    + unfold curr_source. rewrite Hs. unfold src_of. cbn [eval]. rewrite Ef, G1, G2. auto.
    + apply incl_refl.
  - cbn [eval] in E. rewrite T in E. injection E as <- <-.
    set (Q := mkSel (i_cols x) (STab (i_table x)) conds).
    assert (EQ : eval ts (src_of Q) = Ok (i_cols x, map (proj (i_cols x)) (filter (fun r => forallb (cond_true r) conds) (tb_rows tb)))).
    { unfold src_of, Q. cbn [q_cols q_from q_where eval]. rewrite T, Icol by auto.
      rewrite (proj2 (subset_b_incl _ _) I), !andb_true_r.
      assert (negb (is_nil (i_cols x)) = true) as -> by (destruct (i_cols x); [destruct Rid|auto]).
      f_equal. f_equal. f_equal. apply filter_ext. intro r. apply forallb_ext_in. intros c Hc.
      apply (wholds_true _ (tb_cols tb)); auto; [apply incl_refl|]. specialize (Pc c Hc). destruct c; auto. cbn in *. apply I. auto. }
    eexists. eapply (fits_filter ts x tb (fun r => forallb (cond_true r) conds) (tb_cols tb) _ Q); eauto.
    + unfold curr_source. rewrite Hs. cbn [eval]. rewrite T. auto.
    + exists []. cbn [q_cols Q]. rewrite app_nil_r. auto.
Qed.

(** unique *)
Definition with_rid (cs : list string) : list string := if in_cols "rid" cs then cs else (cs ++ ["rid"])%list.
Lemma with_rid_in cs : In "rid" (with_rid cs).
Proof. unfold with_rid. destruct (in_cols "rid" cs) eqn:E; [apply in_cols_In; auto|apply in_app_iff; right; left; auto]. Qed.
Lemma with_rid_nodup cs : NoDup cs -> NoDup (with_rid cs).
Proof.
  intro N. unfold with_rid. destruct (in_cols "rid" cs) eqn:E; [auto|]. apply in_cols_false in E.
  apply NoDup_app_intro; auto; [repeat constructor; auto|]. intros c Hc [<-|[]]. auto.
Qed.
Lemma with_rid_incl cs ds : incl cs ds -> In "rid" ds -> incl (with_rid cs) ds.
Proof.
  intros I R. unfold with_rid. destruct (in_cols "rid" cs); [auto|]. apply incl_app; auto. intros c [<-|[]]. auto.
Qed.
Lemma same_group_proj cs ds a b : incl cs ds -> same_group cs (proj ds a) (proj ds b) = same_group cs a b.
Proof. intro I. apply forallb_ext_in. intros c Hc. rewrite !tcell_proj; auto. Qed.
Lemma group_mins_proj cs ds rows : incl cs ds -> In "rid" ds -> group_mins cs (map (proj ds) rows) = group_mins cs rows.
Proof.
  intros I R. unfold group_mins. rewrite map_map. apply map_ext. intro r. unfold min_rid.
  rewrite rid_proj by auto. f_equal. rewrite filter_map, map_map.
  rewrite (filter_ext (fun x => same_group cs (proj ds r) (proj ds x)) (same_group cs r)) by (intro; apply same_group_proj; auto).
  apply map_ext. intro. apply rid_proj. auto.
Qed.
Lemma unique_fits ts x cs : src_ok ts x -> settled ts x -> cs <> [] -> NoDup cs -> incl cs (i_cols x) ->
  let y := set_cols x (with_rid cs) in
  exists rows, fits ts y (mkSel (with_rid cs) (curr_source x) [WMin cs]) rows /\
  map (proj (with_rid cs)) rows =
  map (proj (with_rid cs)) (filter (fun r => mem_b Z.eqb (rid_of r) (group_mins cs (den ts x))) (den ts x)).
Proof.
  intros So St Ne Nd Ic y. pose proof So as (tb & ds & rows & T & Bs & E & R & L).
  pose proof (settled_incl _ _ _ _ St E) as I. pose proof St as (ND & Rid & tb0 & T0 & Lk & _).
  set (P := fun r => mem_b Z.eqb (rid_of r) (group_mins cs rows)).
  exists (map (proj (with_rid cs)) (filter P rows)). split.
  - split; [exact Bs|]. split.
    + unfold src_of. cbn [q_cols q_from q_where eval]. rewrite E.
      assert (G : (negb (is_nil (with_rid cs)) && subset_b (with_rid cs) ds && forallb (wcond_ok ds) [WMin cs])%bool = true).
      { rewrite (proj2 (subset_b_incl (with_rid cs) ds)) by (apply with_rid_incl; auto; eapply incl_tran; eauto).
        cbn [forallb wcond_ok]. rewrite (proj2 (subset_b_incl cs ds)) by (eapply incl_tran; eauto).
        rewrite (proj2 (in_cols_In _ _) R). pose proof (with_rid_in cs) as X. destruct (with_rid cs); [destruct X|].
        destruct cs; [congruence|auto]. }
      rewrite G. f_equal. f_equal. f_equal. apply filter_ext. intro r. cbn [forallb wholds]. rewrite andb_true_r. auto.
    + split; [apply with_rid_nodup; auto|]. split; [apply with_rid_in|]. split; [exists []; cbn [q_cols y set_cols i_cols]; rewrite app_nil_r; auto|].
      exists tb0. split; [exact T0|]. cbn [y set_cols i_types i_cols]. intros types c t Ht Hc. apply Lk; auto.
      apply (with_rid_incl cs (i_cols x) Ic Rid). auto.
  - unfold den. rewrite E, group_mins_proj, filter_map, !map_map by auto.
    rewrite (filter_ext (fun x0 => mem_b Z.eqb (rid_of (proj (i_cols x) x0)) (group_mins cs rows)) P)
      by (intro r; unfold P; rewrite rid_proj; auto).
    apply map_ext. intro r. rewrite !proj_proj; auto; [apply with_rid_incl; auto|apply incl_refl].
Qed.
End Ops.
