(** What materialising a state and replacing a state do to the data sets. *)
From Coq Require Import String Ascii.
From Coq Require Import List ZArith QArith Qcanon Bool Lia Permutation.
From Verif Require Import Py PyFacts MemModel DbModel DbFacts DbFacts2.
Import ListNotations.
Open Scope string_scope.
Open Scope Z_scope.

Lemma andthen_inv {A B} (m : M A) (f : A -> M B) w w' r : andthen m f w = (w', r) ->
  (exists w1 a, m w = (w1, Ok a) /\ f a w1 = (w', r)) \/ (exists e, m w = (w', Err e) /\ r = Err e).
Proof.
  unfold andthen. destruct (m w) as [w1 [a|e]]; intro H; [left; eauto|right]. injection H as <- <-. eauto.
Qed.
Lemma andthen_ok {A B} (m : M A) (f : A -> M B) w w1 a : m w = (w1, Ok a) -> andthen m f w = f a w1.
Proof. unfold andthen. intros ->. auto. Qed.
Lemma andthen_err {A B} (m : M A) (f : A -> M B) w w1 e : m w = (w1, Err e) -> andthen m f w = (w1, Err e).
Proof. unfold andthen. intros ->. auto. Qed.
Lemma self_ok i w x : w_inst w i = Some x -> self i w = (w, Ok x).
Proof. unfold self. intros ->. auto. Qed.

Section Opt.
Variable inode : string -> nat.
Notation tables := (tables inode).
Notation set_tables := (set_tables inode).
Notation Base := (Base inode).
Notation settledw := (settledw inode).
Notation unchanged := (unchanged inode).
Notation optimize := (optimize inode).

(** Two records of one data set that look the same from outside. *)
Definition face (x x' : inst) : Prop :=
  i_path x' = i_path x /\ i_cols x' = i_cols x /\ i_types x' = i_types x /\ i_n x' = i_n x /\
  i_ids x' = i_ids x /\ i_ucache x' = i_ucache x.
Lemma face_refl x : face x x.
Proof. unfold face. auto 10. Qed.
Lemma face_trans x y z : face x y -> face y z -> face x z.
Proof. unfold face. intuition congruence. Qed.

(** The columns of the table a data set reads from. *)
Definition tabcols (ts : string -> option table) (x : inst) : list string :=
  match ts (i_table x) with Some tb => tb_cols tb | None => [] end.

(** A step that no data set notices. *)
Record quiet (i : nat) (w w' : world) : Prop := {
  qu_base : Base w';
  qu_others : forall j, j <> i -> unchanged w w' j;
  qu_open : w_open w' = w_open w;
  qu_next : w_next w' = w_next w;
  qu_self : forall x, w_inst w i = Some x -> exists x', w_inst w' i = Some x' /\ face x x' /\
     incl (tabcols (tables w' (i_path x')) x') (tabcols (tables w (i_path x)) x) /\
     settled (tables w' (i_path x')) x' /\ den (tables w' (i_path x')) x' = den (tables w (i_path x)) x }.

Lemma quiet_refl i w : Base w -> settledw w i -> quiet i w w.
Proof.
  intros B S. constructor; auto.
  - intros. apply unchanged_refl.
  - intros x H. exists x. split; [auto|]. split; [apply face_refl|]. split; [apply incl_refl|]. split; [apply S; auto|auto].
Qed.
Lemma quiet_trans i w1 w2 w3 : quiet i w1 w2 -> quiet i w2 w3 -> quiet i w1 w3.
Proof.
  intros Q R. constructor.
  - apply (qu_base _ _ _ R).
  - intros j N. eapply unchanged_trans; [apply (qu_others _ _ _ Q); auto|apply (qu_others _ _ _ R); auto].
  - rewrite (qu_open _ _ _ R). apply (qu_open _ _ _ Q).
  - rewrite (qu_next _ _ _ R). apply (qu_next _ _ _ Q).
  - intros x H. destruct (qu_self _ _ _ Q x H) as (y & Hy & F & N & S & D).
    destruct (qu_self _ _ _ R y Hy) as (z & Hz & F' & N' & S' & D'). exists z.
    split; [auto|]. split; [eapply face_trans; eauto|]. split; [eapply incl_tran; eauto|]. split; [auto|congruence].
Qed.
Lemma quiet_settled i w w' x : quiet i w w' -> w_inst w i = Some x -> settledw w' i.
Proof.
  intros Q H y Hy. destruct (qu_self _ _ _ Q x H) as (x' & Hx & _ & _ & S & _). rewrite Hx in Hy. injection Hy as <-. auto.
Qed.

(** Only counters (and nothing the source depends on) change. *)
Lemma quiet_put i w x x' : Base w -> settledw w i -> w_inst w i = Some x -> face x x' ->
  i_table x' = i_table x -> i_state x' = i_state x ->
  quiet i w (set_insts w (upd_nat (w_inst w) i (Some x'))).
Proof.
  intros B S H (E1 & E2 & E3 & E4 & E5 & E6) Et Es.
  assert (C : curr_source x' = curr_source x) by (unfold curr_source; rewrite Es, Et; auto).
  constructor; auto.
  - eapply Base_put; eauto. destruct (b_inst inode w B i x H) as (tb & cs & rows & T & Bs & Ev & R & L).
    exists tb, cs, rows. rewrite Et, C, E4. auto.
  - intros j N. apply put_unchanged. auto.
  - intros y Hy. rewrite H in Hy. injection Hy as <-. exists x'. cbn [set_insts w_inst].
    rewrite upd_nat_same. split; [auto|]. split; [unfold face; auto 10|].
    change (tables (set_insts w (upd_nat (w_inst w) i (Some x'))) (i_path x')) with (tables w (i_path x')).
    rewrite E1. split; [unfold tabcols; rewrite Et; apply incl_refl|]. split.
    + destruct (S x H) as (N & R & tb & T & L & Cc). unfold settled. rewrite Et, E2, Es, E3. eauto 10.
    + unfold den. rewrite C, E2. auto.
Qed.

(** Rows of a well-formed table have integer record ids, also after projection. *)
Lemma proj_rid_int tb cs r : wf_table tb -> In r (tb_rows tb) -> In "rid" cs ->
  exists z, tcell (proj cs r) "rid" = Some (VInt z).
Proof. intros W H R. destruct (wt_rid _ W r H) as [z E]. exists z. rewrite tcell_proj; auto. Qed.
Lemma map_rid_proj cs (l : list trow) : In "rid" cs -> map rid_of (map (proj cs) l) = map rid_of l.
Proof. intro R. rewrite map_map. apply map_ext. intro r. apply rid_proj. auto. Qed.

(** Copying typed cells into columns of the same types changes nothing. *)
Lemma store_typed tb types x ts r : wf_table tb -> In r (tb_rows tb) -> NoDup (map fst types) ->
  (forall c, In c id_cols -> assoc String.eqb c types = Some DInt) ->
  (forall c, In c (i_cols x) -> In c (map fst types)) ->
  i_types x = Some ts ->
  (forall c t, ~ In c id_cols -> assoc String.eqb c types = Some t -> assoc String.eqb c ts = Some t) ->
  (forall types c t, i_types x = Some types -> In c (i_cols x) -> assoc String.eqb c types = Some t ->
       assoc String.eqb c (tb_types tb) = Some t) ->
  proj (i_cols x) (store types (proj (i_cols x) r)) = proj (i_cols x) r.
Proof.
  intros W Hr ND I Inc Ht A L. apply proj_ext. intros c Hc. destruct (key_assoc c types (Inc c Hc)) as [t Hta].
  rewrite (tcell_store _ _ _ t); auto. rewrite tcell_proj by auto.
  destruct (tcell r c) as [v|] eqn:E; [|auto]. cbn [option_map]. f_equal.
  eapply wt_typed; eauto. destruct (in_dec string_dec c id_cols) as [Hi|Hn].
  - rewrite (I c Hi) in Hta. injection Hta as <-. apply wt_ids; auto.
  - eapply L; eauto.
Qed.

(** Building the reduced table of lines 833-839. *)
Lemma migrate w i x types tb l : Base w -> settledw w i -> w_inst w i = Some x ->
  w_tabs w (i_path x) (i_table x) = Some l -> build_types x = Ok types ->
  fill types (den (tables w (i_path x)) x) = Ok tb ->
  let x' := set_state (set_table x (tname (w_fresh w))) None in
  quiet i w (move_world inode w i x tb l x') /\ sole (move_world inode w i x tb l x') i x'.
Proof.
  intros B S H Tl Bt Fl x'. pose proof (S x H) as Sx.
  destruct Sx as (ND & Rid & tb0 & T0 & L & _). pose proof (Base_tables_wf _ _ _ _ _ B T0) as W0.
  destruct (den_shape _ _ _ W0 T0 (b_inst inode w B i x H) (S x H)) as (P & cs & Ev & I1 & I2 & Len & D).
  destruct (build_types_ok x types ND Bt) as (N1 & N2 & N3 & N4 & N5 & ts & Hts & N6).
  destruct (fill_wf types (den (tables w (i_path x)) x) tb N1 N2) as (W & Ety & Er); auto.
  { intros r Hr. rewrite D in Hr. apply in_map_iff in Hr. destruct Hr as [r0 [<- Hr]]. apply filter_In in Hr.
    eapply proj_rid_int; eauto. tauto. }
  assert (Ec : tb_cols tb = map fst types) by (unfold tb_cols; rewrite Ety; auto).
  assert (Dx : map (proj (i_cols x)) (tb_rows tb) = den (tables w (i_path x)) x).
  { rewrite Er, D, !map_map. apply map_ext_in. intros r Hr. apply filter_In in Hr.
    apply (store_typed tb0 types x ts r W0 (proj1 Hr) N1 N2 N4 Hts N6 L). }
  assert (So : src_ok (upd_str (tables w (i_path x)) (tname (w_fresh w)) (Some tb)) x').
  { exists tb, (tb_cols tb), (tb_rows tb). cbn [x' set_state set_table i_table curr_source i_state base eval i_n].
    rewrite upd_str_same. split; [auto|]. split; [auto|]. split; [auto|]. split; [apply wt_rid_in; auto|].
    rewrite <- Len, Er, map_length, D, map_length. auto. }
  destruct (Base_move inode w i x tb l x' B H W Tl eq_refl eq_refl So) as (Bm & Um & Sm & Tm).
  split; [|exact Sm]. constructor; auto. intros y Hy. rewrite H in Hy. injection Hy as <-.
  exists x'. split; [cbn; apply upd_nat_same|]. split; [unfold face; auto 10|].
  change (i_path x') with (i_path x). rewrite Tm. split.
  { unfold tabcols. cbn [x' set_state set_table i_table]. rewrite upd_str_same, T0, Ec. intros c Hc.
    destruct (N5 c Hc) as [Hi|Hi]; [apply assoc_In_key with (v := DInt); apply (wt_ids _ W0); auto|apply I2, I1; auto]. }
  split.
  - split; [exact ND|]. split; [exact Rid|]. exists tb. cbn [x' set_state set_table i_table i_types i_cols i_state].
    rewrite upd_str_same. split; [auto|]. split.
    + intros types0 c t Ht Hc Ha. rewrite Hts in Ht. injection Ht as <-. rewrite Ety.
      destruct (in_dec string_dec c id_cols) as [Hi|Hn].
      * rewrite (N2 c Hi). specialize (L _ c t Hts Hc Ha). rewrite (wt_ids _ W0 c Hi) in L. auto.
      * destruct (key_assoc c types (N4 c Hc)) as [t' Ht']. rewrite Ht'. rewrite (N6 c t' Hn Ht') in Ha. auto.
    + rewrite Ec. exact N4.
  - rewrite <- Dx. unfold den. cbn [x' set_state set_table i_table curr_source i_state i_cols eval].
    rewrite upd_str_same. auto.
Qed.

(** The sole user removes the rows outside its state (lines 828-830). *)
Lemma shrink w i x q tb : Base w -> settledw w i -> w_inst w i = Some x -> sole w i x -> i_state x = Some q ->
  tables w (i_path x) (i_table x) = Some tb ->
  exists fcs frows, eval (tables w (i_path x)) (SSub ["rid"] (src_of q) []) = Ok (fcs, frows) /\
  let tb' := mkTable (tb_types tb) (filter (fun r => mem_b Z.eqb (rid_of r) (map rid_of frows)) (tb_rows tb)) in
  let w1 := set_tables w (i_path x) (upd_str (tables w (i_path x)) (i_table x) (Some tb')) in
  let x' := set_state x None in
  quiet i w (set_insts w1 (upd_nat (w_inst w1) i (Some x'))) /\
  sole (set_insts w1 (upd_nat (w_inst w1) i (Some x'))) i x'.
Proof.
  intros B S H So Hq T. pose proof (Base_tables_wf _ _ _ _ _ B T) as W.
  destruct (S x H) as (ND & Rid & tb0 & T0 & L & _). rewrite T in T0. injection T0 as <-.
  destruct (den_shape _ _ _ W T (b_inst inode w B i x H) (S x H)) as (P & cs & Ev & I1 & I2 & Len & D).
  unfold curr_source in Ev. rewrite Hq in Ev.
  assert (Er : eval (tables w (i_path x)) (SSub ["rid"] (src_of q) []) =
               Ok (["rid"], map (proj ["rid"]) (map (proj cs) (filter P (tb_rows tb))))).
  { apply eval_sub_nil with (fcs := cs); auto; [discriminate|]. intros c [<-|[]]. auto. }
  exists ["rid"], (map (proj ["rid"]) (map (proj cs) (filter P (tb_rows tb)))). split; [exact Er|].
  intros tb' w1 x'.
  assert (Rows : tb_rows tb' = filter P (tb_rows tb)).
  { unfold tb'. cbn [tb_rows]. rewrite !map_rid_proj by (cbn; auto). apply filter_by_rids. apply (wt_uniq _ W). }
  assert (W' : wf_table tb').
  { constructor; unfold tb_cols; change (tb_types tb') with (tb_types tb).
    - apply (wt_nodup _ W).
    - apply (wt_ids _ W).
    - intros r Hr. rewrite Rows in Hr. apply filter_In in Hr. apply (wt_keys _ W). tauto.
    - intros r Hr. rewrite Rows in Hr. apply filter_In in Hr. apply (wt_rid _ W). tauto.
    - rewrite Rows. apply NoDup_map_filter, (wt_uniq _ W).
    - intros r c t v Hr. rewrite Rows in Hr. apply filter_In in Hr. apply (wt_typed _ W). tauto. }
  assert (Sx : src_ok (upd_str (tables w (i_path x)) (i_table x) (Some tb')) x').
  { exists tb', (tb_cols tb'), (tb_rows tb'). cbn [x' set_state i_table curr_source i_state base eval i_n].
    rewrite upd_str_same. split; [auto|]. split; [auto|]. split; [auto|]. split; [apply wt_rid_in; auto|].
    rewrite Rows. auto. }
  destruct (Base_own_table inode w i x tb' x' B H So W' eq_refl eq_refl Sx) as (Bm & Um). fold w1 in Bm, Um.
  split.
  - constructor; auto. intros y Hy. rewrite H in Hy. injection Hy as <-.
    exists x'. split; [cbn; apply upd_nat_same|]. split; [unfold face; auto 10|].
    change (tables (set_insts w1 (upd_nat (w_inst w1) i (Some x'))) (i_path x')) with (tables w1 (i_path x)).
    unfold w1. rewrite tables_set_same. split.
    { unfold tabcols. cbn [x' set_state i_table]. rewrite upd_str_same, T. apply incl_refl. }
    split.
    + split; [exact ND|]. split; [exact Rid|]. exists tb'. cbn [x' set_state i_table i_types i_cols i_state].
      rewrite upd_str_same. split; [auto|]. split; [exact L|].
      intros c Hc. apply I2, I1, Hc.
    + rewrite D. unfold den. cbn [x' set_state i_table curr_source i_state i_cols eval].
      rewrite upd_str_same, Rows. auto.
  - intros j y Hj Ep Et. cbn [set_insts w_inst w1] in Hj. destruct (Nat.eq_dec j i) as [->|N]; [auto|].
    rewrite upd_nat_other in Hj by auto. eapply So; eauto.
Qed.

(** What [optimize] leaves behind when it returns. *)
Definition can_build (x : inst) : Prop :=
  incl required (i_cols x) /\ exists ts, i_types x = Some ts /\
  forall c, In c (i_cols x) -> ~ In c id_cols -> exists t, assoc String.eqb c ts = Some t.

Lemma Base_fresh w : Base w -> Base (set_fresh w (S (w_fresh w))).
Proof.
  intros [B1 B2 B3 B4 B5 B6 B7 B8 B9]. constructor; auto. cbn [set_fresh w_file w_fresh]. intros. eapply B8; eauto. lia.
Qed.
Lemma quiet_fresh i w : Base w -> settledw w i -> quiet i w (set_fresh w (S (w_fresh w))).
Proof.
  intros B S. constructor; auto; [apply Base_fresh; auto|intros; split; auto|].
  intros x H. exists x. split; [auto|]. split; [apply face_refl|]. split; [apply incl_refl|]. split; [apply S; auto|auto].
Qed.

Lemma optimize_spec w i x sk w' r : Base w -> settledw w i -> w_inst w i = Some x -> optimize i sk w = (w', r) ->
  quiet i w w' /\
  (can_build x -> r = Ok tt) /\
  (r = Ok tt -> w_open w = 0%nat -> exists x', w_inst w' i = Some x' /\ i_state x' = None /\
                                     (~ (i_state x = None /\ sk = true) -> sole w' i x')) /\
  (i_state x = None -> sk = true -> r = Ok tt /\ w_file w' = w_file w /\
     exists x', w_inst w' i = Some x' /\ i_state x' = None /\ i_table x' = i_table x) /\
  (forall x', w_inst w' i = Some x' -> i_before x' = i_before x).
Proof.
  intros B S H E. unfold DbModel.optimize in E. rewrite (andthen_ok _ _ _ _ _ (self_ok i w x H)) in E.
  set (y := set_counts x (i_n x) (i_before x) 0 0) in E. cbv zeta in E.
  set (w1 := set_insts w (upd_nat (w_inst w) i (Some y))) in *.
  rewrite (andthen_ok _ _ w w1 tt) in E by reflexivity.
  rewrite (andthen_ok _ _ w1 w1 (w_open w)) in E by reflexivity.
  assert (Q1 : quiet i w w1) by (apply quiet_put with (x := x); auto; unfold face; auto 10).
  pose proof (qu_base _ _ _ Q1) as B1. assert (H1 : w_inst w1 i = Some y) by (cbn; apply upd_nat_same).
  pose proof (quiet_settled _ _ _ x Q1 H) as S1.
  assert (Early : i_state x = None -> sk = true -> (w1, Ok tt) = (w', r) ->
          quiet i w w' /\ (can_build x -> r = Ok tt) /\
          (r = Ok tt -> w_open w = 0%nat -> exists x', w_inst w' i = Some x' /\ i_state x' = None /\ (~ (i_state x = None /\ sk = true) -> sole w' i x')) /\
          (i_state x = None -> sk = true -> r = Ok tt /\ w_file w' = w_file w /\
             exists x', w_inst w' i = Some x' /\ i_state x' = None /\ i_table x' = i_table x) /\
          (forall x', w_inst w' i = Some x' -> i_before x' = i_before x)).
  { intros Hs Hk Eq. injection Eq as <- <-. split; [auto|]. split; [auto|]. split.
    - intros _ _. exists y. split; [auto|]. split; [exact Hs|tauto].
    - split; [|intros x' Hx; rewrite H1 in Hx; injection Hx as <-; auto].
      intros _ _. split; [auto|]. split; [auto|]. exists y. auto. }
  assert (Late : (i_state x = None /\ sk = true) \/
          (~ (i_state x = None /\ sk = true) /\
           (if Nat.ltb 0 (w_open w) then ret tt else
    andthen (fun w => (w, match w_tabs w (i_path y) (i_table y) with Some l => Ok l | None => Err KeyError end)) (fun users =>
    if Nat.eqb (length users) 1 then
      andthen (match i_state y with
           | Some q =>
               keep <~ query inode y (SSub ["rid"] (src_of q) []) ;;
               let rids := map rid_of (snd keep) in
               modify (fun w => match tables w (i_path y) (i_table y) with
                                | Some tb => set_tables w (i_path y)
                                    (upd_str (tables w (i_path y)) (i_table y)
                                       (Some (mkTable (tb_types tb)
                                                (filter (fun r => mem_b Z.eqb (rid_of r) rids) (tb_rows tb)))))
                                | None => w
                                end)
           | None => ret tt
           end) (fun _ =>
      put i (set_state y None))
    else
      name <~ fresh_name ;;
      types <~ lift (build_types y) ;;
      rows <~ query inode y (SSub (i_cols y) (curr_source y) []) ;;
      tb <~ lift (fill types (snd rows)) ;;
      move_to inode i y name tb)) w1 = (w', r))).
  { destruct (i_state x) as [q|] eqn:Hs.
    - right. split; [intros [? ?]; discriminate|]. assert (Hy : i_state y = Some q) by exact Hs. rewrite Hy in E |- *. destruct sk; exact E.
    - destruct sk; [left; auto|]. right. split; [intros [_ ?]; discriminate|]. assert (Hy : i_state y = None) by exact Hs.
      rewrite Hy in E |- *. exact E. }
  destruct Late as [[Hs Hk]|[NE E']].
  { apply Early; auto. assert (Hy : i_state y = None) by exact Hs. rewrite Hy, Hk in E. exact E. }
  clear E Early. rename E' into E.
  destruct (Nat.ltb_spec 0 (w_open w)) as [Ho|Ho].
  { injection E as <- <-. split; [auto|]. split; [auto|]. split; [intros; lia|]. split; [tauto|].
    intros x' Hx. rewrite H1 in Hx. injection Hx as <-. auto. }
  destruct (w_tabs w1 (i_path y) (i_table y)) as [l|] eqn:Tl; [|exfalso; exact (b_tabs2 inode _ B1 i y H1 Tl)].
  rewrite (andthen_ok _ _ w1 w1 l) in E by (rewrite Tl; auto).
  destruct (Nat.eqb_spec (length l) 1) as [L1|L1].
  - pose proof (sole_users inode w1 i y l B1 H1 Tl L1) as So.
    destruct (i_state y) as [q|] eqn:Hq.
    + destruct (S1 y H1) as (_ & _ & tb & T & _).
      destruct (shrink w1 i y q tb B1 S1 H1 So Hq T) as (fcs & frows & Er & Q2 & So2).
      set (tb' := mkTable (tb_types tb) (filter (fun r => mem_b Z.eqb (rid_of r) (map rid_of frows)) (tb_rows tb))) in *.
      set (w2 := set_tables w1 (i_path y) (upd_str (tables w1 (i_path y)) (i_table y) (Some tb'))) in *.
      rewrite (andthen_ok _ _ w1 w2 tt) in E.
      2:{ rewrite (andthen_ok _ _ w1 w1 (fcs, frows)) by (unfold query; rewrite Er; auto).
          cbn [snd]. unfold modify. rewrite T. auto. }
      unfold put, modify in E. injection E as <- <-.
      split; [eapply quiet_trans; eauto|]. split; [auto|]. split; [|split; [tauto|]].
      * intros _ _. exists (set_state y None). split; [cbn; apply upd_nat_same|]. split; [auto|]. intros _. exact So2.
      * intros x' Hx. cbn [set_insts w_inst] in Hx. rewrite upd_nat_same in Hx. injection Hx as <-. auto.
    + rewrite (andthen_ok _ _ w1 w1 tt) in E by reflexivity. unfold put, modify in E. injection E as <- <-.
      assert (Q2 : quiet i w1 (set_insts w1 (upd_nat (w_inst w1) i (Some (set_state y None))))).
      { apply quiet_put with (x := y); auto. unfold face; auto 10. }
      split; [eapply quiet_trans; eauto|]. split; [auto|]. split; [|split; [tauto|]].
      * intros _ _. exists (set_state y None). split; [cbn; apply upd_nat_same|]. split; [auto|]. intros _ j z Hz Ep Et.
        cbn [set_insts w_inst] in Hz. destruct (Nat.eq_dec j i) as [->|N]; [auto|]. rewrite upd_nat_other in Hz by auto.
        eapply So; eauto.
      * intros x' Hx. cbn [set_insts w_inst] in Hx. rewrite upd_nat_same in Hx. injection Hx as <-. auto.
  - rewrite (andthen_ok _ _ w1 (set_fresh w1 (Datatypes.S (w_fresh w1))) (tname (w_fresh w1))) in E by reflexivity.
    pose proof (quiet_fresh i w1 B1 S1) as Qf. pose proof (quiet_trans _ _ _ _ Q1 Qf) as Q1f.
    assert (Bef : forall w2, w_inst w2 = w_inst w1 -> forall x', w_inst w2 i = Some x' -> i_before x' = i_before x).
    { intros w2 Ew x' Hx. rewrite Ew, H1 in Hx. injection Hx as <-. auto. }
    destruct (build_types y) as [types|e] eqn:Bt.
    2:{ rewrite (andthen_err _ _ _ (set_fresh w1 (Datatypes.S (w_fresh w1))) e) in E by (unfold lift; auto). injection E as <- <-.
        split; [exact Q1f|]. split.
        - intros [C1 [ts [C2 C3]]]. destruct (build_types_some y ts C2 C1 C3) as [ty Ht]. congruence.
        - split; [intros; discriminate|]. split; [tauto|]. apply Bef. auto. }
    rewrite (andthen_ok _ _ _ (set_fresh w1 (Datatypes.S (w_fresh w1))) types) in E by (unfold lift; auto).
    destruct (S1 y H1) as (ND & Rid & tb0 & T & L & _).
    pose proof (Base_tables_wf _ _ _ _ _ B1 T) as W.
    destruct (den_shape _ _ _ W T (b_inst inode w1 B1 i y H1) (S1 y H1)) as (P & cs & Ev & I1 & I2 & Len & D).
    assert (Nn : i_cols y <> []) by (intro Z; rewrite Z in Rid; destruct Rid).
    pose proof (eval_sub_nil (tables w1 (i_path y)) (i_cols y) (curr_source y) _ _ Ev Nn I1) as Es.
    rewrite (andthen_ok _ _ _ (set_fresh w1 (Datatypes.S (w_fresh w1))) (i_cols y, den (tables w1 (i_path y)) y)) in E.
    2:{ unfold query. change (tables (set_fresh w1 (Datatypes.S (w_fresh w1))) (i_path y)) with (tables w1 (i_path y)).
        rewrite Es. unfold den. rewrite Ev. auto. }
    cbn [snd] in E. destruct (build_types_ok y types ND Bt) as (N1 & N2 & _).
    destruct (fill_ok types (den (tables w1 (i_path y)) y) N1) as [tb Fl].
    { apply N2. left. auto. }
    { intros r0 Hr. rewrite D in Hr. apply in_map_iff in Hr. destruct Hr as [r1 [<- Hr]]. apply filter_In in Hr.
      eapply proj_rid_int; eauto. tauto. }
    { rewrite D, map_rid_proj by auto. apply NoDup_map_filter, (wt_uniq _ W). }
    rewrite (andthen_ok _ _ _ (set_fresh w1 (Datatypes.S (w_fresh w1))) tb) in E by (unfold lift; rewrite Fl; auto).
    destruct (migrate w1 i y types tb l B1 S1 H1 Tl Bt Fl) as [Q2 So2].
    assert (Hl : mem_b Nat.eqb i l = true).
    { apply (mem_b_In Nat.eqb reflects_nat). apply (b_tabs inode w1 B1 _ _ _ Tl). eauto. }
    unfold move_to in E. rewrite (andthen_ok _ _ _ _ tt) in E by reflexivity.
    match type of E with andthen _ _ ?ww = _ =>
      rewrite (andthen_ok _ _ ww ww l) in E
        by (change (w_tabs ww (i_path y) (i_table y)) with (w_tabs w1 (i_path y) (i_table y)); rewrite Tl, Hl; auto)
    end.
    rewrite (andthen_ok _ _ _ _ tt) in E by reflexivity.
    unfold put, modify in E. injection E as <- <-.
    split; [eapply quiet_trans; [exact Q1|exact Q2]|]. split; [auto|]. split; [|split; [tauto|]].
    * intros _ _. exists (set_state (set_table y (tname (w_fresh w1))) None).
      split; [cbn; apply upd_nat_same|]. split; [auto|]. intros _. exact So2.
    * intros x' Hx. cbn in Hx. rewrite upd_nat_same in Hx. injection Hx as <-. auto.
Qed.
End Opt.
