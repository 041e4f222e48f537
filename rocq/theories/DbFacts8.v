(** Internal ids: assigning and removing them. *)
From Coq Require Import String Ascii.
From Coq Require Import List ZArith QArith Qcanon Bool Lia Permutation.
From Verif Require Import Py PyFacts MemModel DbModel DbFacts DbFacts2 DbFacts3 DbFacts4 DbFacts5 DbFacts6 DbFacts7.
Import ListNotations.
Open Scope string_scope.
Open Scope Z_scope.

(** ** Sources that do not depend on some columns *)
Section Free.
Variable ns : list string.
Hypothesis Nrid : ~ In "rid" ns.
Definition cond_free (c : wcond) : Prop :=
  match c with
  | WCmp col _ v => ~ In col ns /\ match v with VStr s => forall n, In n ns -> ci_eqb s n = false | _ => True end
  | WIn _ | WNotIn _ => True
  | WMin l => forall c, In c l -> ~ In c ns
  end.
Fixpoint src_free (s : src) : Prop :=
  match s with STab _ => True | SSub _ f w => src_free f /\ forall c, In c w -> cond_free c end.
(** rows that agree elsewhere *)
Definition agree (r r' : trow) : Prop := forall c, ~ In c ns -> tcell r c = tcell r' c.

Lemma agree_rid r r' : agree r r' -> rid_of r = rid_of r'.
Proof. intro A. unfold rid_of. rewrite (A "rid") by auto. auto. Qed.
Lemma agree_proj cs r r' : agree r r' -> agree (proj cs r) (proj cs r').
Proof.
  intros A c N. destruct (in_dec string_dec c cs) as [I|I].
  - rewrite !tcell_proj by auto. apply A. auto.
  - rewrite !tcell_proj_none by auto. auto.
Qed.
Lemma agree_group cs a a' b b' : (forall c, In c cs -> ~ In c ns) -> agree a a' -> agree b b' ->
  same_group cs a b = same_group cs a' b'.
Proof.
  intros F A B. apply forallb_ext_in. intros c Hc. rewrite (A c), (B c) by auto. auto.
Qed.
Lemma Forall2_filter {A} (R : A -> A -> Prop) (f g : A -> bool) l l' :
  (forall a b, R a b -> f a = g b) -> Forall2 R l l' -> Forall2 R (filter f l) (filter g l').
Proof.
  intros E H. induction H as [|a b l l' Hab H IH]; [constructor|]. cbn [filter]. rewrite (E a b Hab).
  destruct (g b); [constructor; auto|auto].
Qed.
Lemma Forall2_map_eq {A B} (R : A -> A -> Prop) (f g : A -> B) l l' :
  (forall a b, R a b -> f a = g b) -> Forall2 R l l' -> map f l = map g l'.
Proof. intros E H. induction H as [|a b l l' Hab H IH]; [auto|]. cbn [map]. rewrite (E a b Hab), IH. auto. Qed.
Lemma Forall2_len {A B} (R : A -> B -> Prop) l l' : Forall2 R l l' -> List.length l = List.length l'.
Proof. intro H. induction H; cbn; auto. Qed.
Lemma agree_mins cs l l' : (forall c, In c cs -> ~ In c ns) -> Forall2 agree l l' -> group_mins cs l = group_mins cs l'.
Proof.
  intros F H. unfold group_mins. eapply Forall2_map_eq; [|exact H]. intros a b Hab. unfold min_rid.
  rewrite (agree_rid a b Hab). f_equal. eapply Forall2_map_eq; [apply agree_rid|].
  apply Forall2_filter; auto. intros c d Hcd. apply agree_group; auto.
Qed.
Lemma agree_holds istab cs l l' r r' c : cond_free c -> Forall2 agree l l' -> agree r r' ->
  wholds istab cs l r c = wholds istab cs l' r' c.
Proof.
  intros F H A. destruct c as [col op v|z|z|g]; cbn [wholds cond_free] in *.
  - destruct F as [F1 F2]. rewrite (A col) by auto. f_equal. destruct v as [z|q|s]; auto. cbn [operand].
    unfold resolve. destruct (find (ci_eqb s) cs) as [d|] eqn:Fd.
    + apply find_some in Fd. apply A. intro X. rewrite (F2 d X) in Fd. destruct Fd; discriminate.
    + destruct (istab && _)%bool; [|auto]. apply A. auto.
  - rewrite (agree_rid r r' A). auto.
  - rewrite (agree_rid r r' A). auto.
  - rewrite (agree_rid r r' A), (agree_mins g l l'); auto.
Qed.
Lemma eval_agree ts ts' tb tb' s : src_free s -> ts (base s) = Some tb -> ts' (base s) = Some tb' ->
  tb_cols tb' = tb_cols tb -> Forall2 agree (tb_rows tb) (tb_rows tb') ->
  forall cs rows, eval ts s = Ok (cs, rows) -> exists rows', eval ts' s = Ok (cs, rows') /\ Forall2 agree rows rows'.
Proof.
  intros F T T' Ec H. induction s as [t|cs f IH w]; cbn [base src_free eval] in *; intros ds rows E.
  - rewrite T in E. injection E as <- <-. rewrite T', Ec. eauto.
  - destruct F as [F1 F2]. destruct (eval ts f) as [[fcs frows]|]; [|discriminate].
    destruct (IH F1 T T' fcs frows eq_refl) as (frows' & E' & A). rewrite E'.
    destruct (_ && _)%bool; [|discriminate]. injection E as <- <-. eexists. split; [reflexivity|].
    assert (G : Forall2 agree (filter (fun r => forallb (wholds (is_tab f) fcs frows r) w) frows)
                              (filter (fun r => forallb (wholds (is_tab f) fcs frows' r) w) frows')).
    { apply Forall2_filter; auto. intros a b Hab. apply forallb_ext_in. intros c Hc. apply agree_holds; auto. }
    induction G; cbn [map]; constructor; auto. apply agree_proj. auto.
Qed.
Lemma den_agree ts ts' tb tb' x : src_free (curr_source x) -> (forall c, In c (i_cols x) -> ~ In c ns) ->
  src_ok ts x -> ts (i_table x) = Some tb -> ts' (i_table x) = Some tb' ->
  tb_cols tb' = tb_cols tb -> Forall2 agree (tb_rows tb) (tb_rows tb') ->
  den ts' x = den ts x /\ src_ok ts' x.
Proof.
  intros F Fc (tb0 & cs & rows & T & Bs & E & R & L) T1 T2 Ec H.
  destruct (eval_agree ts ts' tb tb' (curr_source x) F) with (cs := cs) (rows := rows) as (rows' & E' & A); auto;
    try (rewrite Bs; auto).
  split.
  - unfold den. rewrite E, E'. symmetry. eapply Forall2_map_eq; [|exact A]. intros a b Hab. apply proj_ext. intros c Hc.
    apply Hab. auto.
  - exists tb', cs, rows'. split; [auto|]. split; [auto|]. split; [auto|]. split; [auto|]. rewrite <- L. symmetry.
    eapply Forall2_len; eauto.
Qed.
End Free.

Section Ops.
Variable inode : string -> nat.
Notation tables := (tables inode).
Notation set_tables := (set_tables inode).
Notation Base := (Base inode).
Notation settledw := (settledw inode).
Notation unchanged := (unchanged inode).
Notation quiet := (quiet inode).
Notation same := (same inode).
Notation works := (works inode).
Notation has := (has inode).
Notation keeps := (keeps inode).

(** ** Replacing a table in place *)
Definition repl (w : world) (p t : string) (tb : table) : world := set_tables w p (upd_str (tables w p) t (Some tb)).
Lemma repl_same w p t tb : tables (repl w p t tb) p t = Some tb.
Proof. unfold repl. rewrite tables_set_same. apply upd_str_same. Qed.
Lemma repl_other w p t tb p' t' : ~ (inode p' = inode p /\ t' = t) -> tables (repl w p t tb) p' t' = tables w p' t'.
Proof.
  intro N. unfold repl. rewrite tables_set. destruct (Nat.eqb_spec (inode p') (inode p)) as [E|E]; [|auto].
  rewrite upd_str_other by tauto. unfold DbModel.tables. rewrite E. auto.
Qed.
Lemma Base_repl w p t tb0 tb : Base w -> tables w p t = Some tb0 -> wf_table tb ->
  (forall j y, w_inst w j = Some y -> inode (i_path y) = inode p -> i_table y = t -> src_ok (tables (repl w p t tb) (i_path y)) y) ->
  Base (repl w p t tb).
Proof.
  intros B T W S. destruct (w_file w (inode p)) as [f|] eqn:Hf; [|unfold DbModel.tables in T; rewrite Hf in T; discriminate].
  assert (Tf : tables w p = f) by (unfold DbModel.tables; rewrite Hf; auto).
  assert (S' : forall j y, w_inst w j = Some y -> src_ok (tables (repl w p t tb) (i_path y)) y).
  { intros j y Hy. destruct (Nat.eq_dec (inode (i_path y)) (inode p)) as [E|E]; [destruct (string_dec (i_table y) t) as [E'|E']|].
    - eapply S; eauto.
    - apply src_ok_ext with (ts := tables w (i_path y)); [apply repl_other; tauto|exact (b_inst inode w B j y Hy)].
    - apply src_ok_ext with (ts := tables w (i_path y)); [apply repl_other; tauto|exact (b_inst inode w B j y Hy)]. }
  destruct B as [B1 B2 B3 B4 B5 B6 B7 B8 B9]. constructor; auto.
  - intros n g u tb' Hn Hu. cbn in Hn. unfold upd_nat in Hn. destruct (Nat.eqb_spec n (inode p)) as [->|N]; [|eauto].
    injection Hn as <-. unfold upd_str in Hu. destruct (String.eqb u t); [congruence|]. rewrite Tf in Hu. eauto.
  - intros n g k Hn Hk. cbn in Hn, Hk. unfold upd_nat in Hn. destruct (Nat.eqb_spec n (inode p)) as [->|N]; [|eauto].
    injection Hn as <-. rewrite upd_str_other; [rewrite Tf; eauto|]. intro E. rewrite <- E, Tf, (B8 _ _ _ Hf Hk) in T. discriminate.
Qed.

(** ** Numbering *)
Definition idn : list string := ["uid"; "iid"].
Lemma idn_rid : ~ In "rid" idn.
Proof. intros [H|[H|[]]]; discriminate. Qed.
Lemma tcell_set c v d : forall r, tcell (set_tcell c v r) d = if (String.eqb d c && mem_b String.eqb c (map fst r))%bool then v else tcell r d.
Proof.
  induction r as [|[k u] r IH]; [cbn; rewrite andb_false_r; auto|].
  change (set_tcell c v ((k, u) :: r)) with ((if String.eqb k c then (c, v) else (k, u)) :: set_tcell c v r).
  cbn [map fst mem_b existsb]. destruct (String.eqb_spec k c) as [Ek|N].
  - rewrite !tcell_cons. subst k. rewrite String.eqb_refl. cbn [orb]. rewrite andb_true_r.
    destruct (String.eqb_spec d c) as [Ed|Nd]; [auto|]. rewrite IH. destruct (String.eqb_spec d c); [congruence|auto].
  - rewrite !tcell_cons, IH. destruct (String.eqb_spec c k) as [E|E]; [congruence|]. cbn [orb].
    destruct (String.eqb_spec d k) as [Ed|Nd]; [|auto]. destruct (String.eqb_spec d c); [congruence|auto].
Qed.
Lemma set_tcell_keys c v r : map fst (set_tcell c v r) = map fst r.
Proof.
  unfold set_tcell. rewrite map_map. apply map_ext. intros [k u]. cbn [fst]. destruct (String.eqb_spec k c); auto.
Qed.
Lemma number_row_keys raw id ids r : map fst (number_row raw id ids r) = map fst r.
Proof.
  unfold number_row. destruct (tcell r raw); [|auto]. destruct (index_of _ _ _); [apply set_tcell_keys|auto].
Qed.
Lemma number_row_other raw id ids r c : c <> id -> tcell (number_row raw id ids r) c = tcell r c.
Proof.
  intro N. unfold number_row. destruct (tcell r raw); [|auto]. destruct (index_of _ _ _); [|auto].
  rewrite tcell_set. destruct (String.eqb_spec c id); [congruence|auto].
Qed.
Lemma number_row_id raw id ids r v : In id (map fst r) -> tcell (number_row raw id ids r) id = Some v ->
  tcell r id = Some v \/ exists n, v = VInt (Z.of_nat n).
Proof.
  intros I. unfold number_row. destruct (tcell r raw); [|auto]. destruct (index_of _ _ _) as [n|]; [|auto].
  rewrite tcell_set, String.eqb_refl. rewrite (proj2 (mem_b_In String.eqb reflects_string id _) I). cbn [andb].
  intro E. injection E as <-. eauto.
Qed.
Lemma number_table_wf raw id tb : In id idn -> wf_table tb -> wf_table (number_table raw id tb).
Proof.
  intros Hid W. assert (Nr : id <> "rid") by (intros ->; destruct (idn_rid Hid)).
  assert (Di : assoc String.eqb id (tb_types tb) = Some DInt) by (apply (wt_ids _ W); destruct Hid as [<-|[<-|[]]]; cbn; auto).
  assert (Rr : forall r, rid_of (number_row raw id (distinct_raw raw (tb_rows tb)) r) = rid_of r).
  { intro r. unfold rid_of. rewrite number_row_other by auto. auto. }
  constructor; unfold tb_cols; cbn [number_table tb_types tb_rows].
  - apply (wt_nodup _ W).
  - apply (wt_ids _ W).
  - intros r Hr. apply in_map_iff in Hr. destruct Hr as [r0 [<- Hr]]. rewrite number_row_keys. apply (wt_keys _ W); auto.
  - intros r Hr. apply in_map_iff in Hr. destruct Hr as [r0 [<- Hr]]. rewrite number_row_other by auto. apply (wt_rid _ W); auto.
  - unfold number_rows. rewrite map_map. erewrite map_ext; [|apply Rr]. apply (wt_uniq _ W).
  - intros r c t v Hr Ht Hv. apply in_map_iff in Hr. destruct Hr as [r0 [<- Hr]].
    destruct (string_dec c id) as [->|N].
    + rewrite Di in Ht. injection Ht as <-. apply number_row_id in Hv.
      * destruct Hv as [Hv|[n ->]]; [eapply (wt_typed _ W); eauto|auto].
      * rewrite (wt_keys _ W) by auto. apply assoc_In_key with (v := DInt). auto.
    + rewrite number_row_other in Hv by auto. eapply (wt_typed _ W); eauto.
Qed.
Lemma number_agree raw id tb : In id idn ->
  Forall2 (agree idn) (tb_rows tb) (tb_rows (number_table raw id tb)).
Proof.
  intro Hid. cbn [number_table tb_rows]. unfold number_rows. generalize (distinct_raw raw (tb_rows tb)). intro ids.
  induction (tb_rows tb) as [|r l IH]; [constructor|]. cbn [map]. constructor; [|auto].
  intros c N. symmetry. apply number_row_other. intros ->. auto.
Qed.

(** Other data sets reading the same table do not use the internal ids. *)
Definition free_of_ids (y : inst) : Prop :=
  src_free idn (curr_source y) /\ forall c, In c (i_cols y) -> ~ In c idn.
Definition others_free (w : world) (i : nat) (x : inst) : Prop :=
  forall j y, j <> i -> w_inst w j = Some y -> i_path y = i_path x -> i_table y = i_table x -> free_of_ids y.

Lemma add_col_in c cs d : In d (add_col c cs) <-> d = c \/ In d cs.
Proof.
  unfold add_col. destruct (in_cols c cs) eqn:E.
  - apply in_cols_In in E. intuition (subst; auto).
  - rewrite in_app_iff. cbn [In]. intuition auto.
Qed.
Lemma add_col_nodup c cs : NoDup cs -> NoDup (add_col c cs).
Proof.
  intro N. unfold add_col. destruct (in_cols c cs) eqn:E; [auto|]. apply in_cols_false in E.
  apply NoDup_app_intro; auto; [repeat constructor; auto|]. intros d Hd [<-|[]]. auto.
Qed.
Lemma assoc_set_get {B} k (v : B) l d : assoc String.eqb d (assoc_set String.eqb k v l) = if String.eqb d k then Some v else assoc String.eqb d l.
Proof.
  induction l as [|[c u] l IH].
  - cbn [assoc_set assoc]. destruct (String.eqb d k); auto.
  - cbn [assoc_set]. destruct (String.eqb_spec k c) as [->|N]; cbn [assoc].
    + destruct (String.eqb d c); auto.
    + rewrite IH. destruct (String.eqb_spec d c) as [->|Nd]; [|auto]. destruct (String.eqb_spec c k); [congruence|auto].
Qed.

Lemma assign_one_spec raw id w i x ts tb w' r : Base w -> settledw w i -> w_inst w i = Some x ->
  i_state x = None -> i_types x = Some ts -> tables w (i_path x) (i_table x) = Some tb ->
  In id idn -> In raw (i_cols x) -> others_free w i x ->
  assign_one inode raw id i w = (w', r) ->
  let x' := set_types (set_cols x (add_col id (i_cols x))) (Some (assoc_set String.eqb id DInt ts)) in
  r = Ok tt /\ works w w' i /\ settledw w' i /\ w_inst w' i = Some x' /\ others_free w' i x' /\
  tables w' (i_path x) (i_table x) = Some (number_table raw id tb).
Proof.
  intros B S H Hs Ht T Hid Hraw Of E x'. unfold assign_one in E. rewrite (andthen_ok _ _ _ _ _ (self_ok i w x H)) in E.
  set (x1 := set_cols x (add_col id (i_cols x))) in *.
  set (w1 := set_insts w (upd_nat (w_inst w) i (Some x1))) in *.
  rewrite (andthen_ok _ _ w w1 tt) in E by reflexivity.
  change (i_types x1) with (i_types x) in E. rewrite Ht in E. fold x' in E.
  set (w2 := set_insts w1 (upd_nat (w_inst w1) i (Some x'))) in *.
  rewrite (andthen_ok _ _ w1 w2 tt) in E by reflexivity.
  pose proof (Base_tables_wf inode w _ _ _ B T) as W.
  destruct (S x H) as (ND & Rid & tb0 & T0 & L & I). rewrite T in T0. injection T0 as <-. rewrite Hs in I.
  assert (Iid : In id (tb_cols tb)).
  { apply assoc_In_key with (v := DInt). apply (wt_ids _ W). destruct Hid as [<-|[<-|[]]]; cbn; auto. }
  assert (Ev : eval (tables w (i_path x)) (SSub [raw; "rid"; id] (STab (i_table x)) []) = Ok ([raw; "rid"; id], map (proj [raw; "rid"; id]) (tb_rows tb))).
  { apply eval_sub_nil with (fcs := tb_cols tb); [cbn [eval]; rewrite T; auto|discriminate|].
    intros c [<-|[<-|[<-|[]]]]; [auto|apply wt_rid_in; auto|auto]. }
  rewrite (andthen_ok _ _ w2 w2 ([raw; "rid"; id], map (proj [raw; "rid"; id]) (tb_rows tb))) in E.
  2:{ unfold query. change (tables w2 (i_path x1)) with (tables w (i_path x)). change (i_table x1) with (i_table x). rewrite Ev. auto. }
  unfold modify in E. change (tables w2 (i_path x1)) with (tables w (i_path x)) in E. change (i_table x1) with (i_table x) in E.
  rewrite T in E. change (i_path x1) with (i_path x) in E.
  set (tb' := number_table raw id tb) in *.
  injection E as <- <-.
  assert (So : src_ok (tables w (i_path x)) x').
  { destruct (b_inst inode w B i x H) as (tb1 & cs & rows & Z). exists tb1, cs, rows. exact Z. }
  assert (B2 : Base w2).
  { apply Base_put with (x := x1); auto.
    - apply Base_put with (x := x); auto.
    - cbn. apply upd_nat_same. }
  assert (H2 : w_inst w2 i = Some x') by (cbn; apply upd_nat_same).
  assert (O2 : forall j, j <> i -> w_inst w2 j = w_inst w j) by (intros; cbn; rewrite !upd_nat_other; auto).
  assert (W' : wf_table tb') by (apply number_table_wf; auto).
  change (set_tables w2 (i_path x) (upd_str (tables w (i_path x)) (i_table x) (Some tb'))) with (repl w2 (i_path x) (i_table x) tb').
  set (w3 := repl w2 (i_path x) (i_table x) tb').
  assert (T3 : tables w3 (i_path x) (i_table x) = Some tb') by apply repl_same.
  assert (Al : forall j y, w_inst w j = Some y -> inode (i_path y) = inode (i_path x) -> i_path y = i_path x)
    by (intros j y Hy Ei; exact (b_alias inode w B j y i x Hy H Ei)).
  assert (Ag : forall j y, j <> i -> w_inst w j = Some y -> i_path y = i_path x -> i_table y = i_table x ->
     den (tables w3 (i_path y)) y = den (tables w (i_path y)) y /\ src_ok (tables w3 (i_path y)) y).
  { intros j y N Hy Ep Et. destruct (Of j y N Hy Ep Et) as [F1 F2].
    apply (den_agree idn idn_rid (tables w (i_path y)) (tables w3 (i_path y)) tb tb' y F1 F2 (b_inst inode w B j y Hy)).
    - rewrite Ep, Et. auto.
    - rewrite Ep, Et. auto.
    - reflexivity.
    - apply number_agree. auto. }
  assert (Sx : src_ok (tables w3 (i_path x')) x').
  { exists tb', (tb_cols tb'), (tb_rows tb'). split; [exact T3|]. unfold curr_source. change (i_state x') with (i_state x). rewrite Hs.
    split; [auto|]. split; [cbn [eval]; change (i_path x') with (i_path x); change (i_table x') with (i_table x); rewrite T3; auto|].
    split; [apply wt_rid_in; auto|]. cbn [tb' number_table tb_rows]. unfold number_rows. rewrite map_length.
    destruct (b_inst inode w B i x H) as (tb1 & cs & rows & X1 & X2 & X3 & X4 & X5). unfold curr_source in X3. rewrite Hs in X3. cbn [eval] in X3.
    rewrite T in X3. injection X3 as <- <-. exact X5. }
  assert (B3 : Base w3).
  { apply Base_repl with (tb0 := tb); auto. intros j y Hy Ei Et. fold w3. destruct (Nat.eq_dec j i) as [->|N].
    - rewrite H2 in Hy. injection Hy as <-. exact Sx.
    - rewrite O2 in Hy by auto. eapply Ag; eauto. }
  assert (Tu : forall p t, ~ (inode p = inode (i_path x) /\ t = i_table x) -> tables w3 p t = tables w p t).
  { intros p t N. unfold w3. rewrite repl_other by auto. auto. }
  split; [auto|]. split; [|split; [|split; [exact H2|split; [|exact T3]]]].
  - constructor.
    + exact B3.
    + intros j N Sj y Hy. change (w_inst w3) with (w_inst w2) in Hy. rewrite O2 in Hy by auto.
      destruct (Sj y Hy) as (Y1 & Y2 & tby & Ty & Y3 & Y4). split; [auto|]. split; [auto|].
      destruct (Nat.eq_dec (inode (i_path y)) (inode (i_path x))) as [Ei|Ei]; [destruct (string_dec (i_table y) (i_table x)) as [Et|Et]|].
      * pose proof (Al j y Hy Ei) as Ep. rewrite Ep, Et in Ty |- *. rewrite T in Ty. injection Ty as <-. exists tb'. auto.
      * exists tby. rewrite Tu by tauto. auto.
      * exists tby. rewrite Tu by tauto. auto.
    + intros j N y Hy. exists y. change (w_inst w3) with (w_inst w2). rewrite O2 by auto. split; [auto|]. split; [apply face_refl|].
      destruct (Nat.eq_dec (inode (i_path y)) (inode (i_path x))) as [Ei|Ei]; [destruct (string_dec (i_table y) (i_table x)) as [Et|Et]|].
      * eapply Ag; eauto.
      * unfold den. rewrite (eval_ext (tables w3 (i_path y)) (tables w (i_path y))); [auto|].
        destruct (b_inst inode w B j y Hy) as (_ & _ & _ & _ & Bs & _). rewrite Bs. apply Tu. tauto.
      * unfold den. rewrite (eval_ext (tables w3 (i_path y)) (tables w (i_path y))); [auto|].
        destruct (b_inst inode w B j y Hy) as (_ & _ & _ & _ & Bs & _). rewrite Bs. apply Tu. tauto.
    + intros j N Hj. change (w_inst w3) with (w_inst w2). rewrite O2; auto.
  - intros y Hy. change (w_inst w3) with (w_inst w2) in Hy. rewrite H2 in Hy. injection Hy as <-.
    split; [apply add_col_nodup; exact ND|]. split; [apply add_col_in; right; exact Rid|]. exists tb'. split; [exact T3|].
    change (i_state x') with (i_state x). rewrite Hs. split.
    + intros types c t Hty Hc Ha. cbn [x' set_types i_types] in Hty. injection Hty as <-. rewrite assoc_set_get in Ha.
      cbn [tb' number_table tb_types]. destruct (String.eqb_spec c id) as [->|N].
      * injection Ha as <-. apply (wt_ids _ W). destruct Hid as [<-|[<-|[]]]; cbn; auto.
      * apply (L ts c t); auto. cbn [x' x1 set_types set_cols i_cols] in Hc. apply add_col_in in Hc. destruct Hc; [congruence|auto].
    + intros c Hc. cbn [x' x1 set_types set_cols i_cols] in Hc. apply add_col_in in Hc. unfold tb_cols. cbn [tb' number_table tb_types].
      destruct Hc as [->|Hc]; [exact Iid|apply I; auto].
  - intros j y N Hy Ep Et. change (w_inst w3) with (w_inst w2) in Hy. rewrite O2 in Hy by auto. eapply Of; eauto.
Qed.

(** What assign_internal_ids leaves in the rows. *)
Definition id_cols_of (cs : list string) : list string := add_col "iid" (add_col "uid" cs).
Definition id_types_of (ts : list (string * dtype)) := assoc_set String.eqb "iid" DInt (assoc_set String.eqb "uid" DInt ts).
Definition numbered (rows : list trow) : list trow := number_rows "item" "iid" (number_rows "user" "uid" rows).

Lemma in_idn_req c : In c idn -> c <> "user" /\ c <> "item".
Proof. intros [<-|[<-|[]]]; split; discriminate. Qed.

Theorem assign_spec w i x ts w' r : Base w -> settledw w i -> w_inst w i = Some x -> w_open w = 0%nat ->
  i_types x = Some ts -> In "user" (i_cols x) -> In "item" (i_cols x) ->
  (i_state x = None -> others_free w i x) ->
  assign_ids inode i w = (w', r) ->
  works w w' i /\ settledw w' i /\
  (can_build x -> r = Ok tt) /\
  (forall e, r = Err e -> same w w' i) /\
  (r = Ok tt -> exists rows, den (tables w (i_path x)) x = map (proj (i_cols x)) rows /\
      (forall row, In row rows -> exists z, tcell row "rid" = Some (VInt z)) /\
      (forall row, In row rows -> In "uid" (map fst row) /\ In "iid" (map fst row)) /\
      NoDup (map rid_of rows) /\
      has w' i (id_cols_of (i_cols x)) (Some (id_types_of ts)) true (map (proj (id_cols_of (i_cols x))) (numbered rows))) /\
  (r = Ok tt -> exists y, w_inst w' i = Some y /\ i_state y = None).
Proof.
  intros B S H Op Ht Hu Hi Of E. unfold assign_ids in E.
  destruct (optimize inode i true w) as [w1 r1] eqn:Eo.
  destruct (optimize_spec inode w i x true w1 r1 B S H Eo) as (Q & C & Ok1 & Ok2 & _).
  pose proof (quiet_works_any inode w w1 i x i H B Q) as W1. pose proof (qu_base _ _ _ _ Q) as B1.
  pose proof (quiet_keeps inode w w1 i x H B Q) as K1.
  destruct r1 as [[]|e].
  2:{ rewrite (andthen_err _ _ _ _ _ Eo) in E. injection E as <- <-. split; [auto|]. split; [apply K1|].
      split; [intro Cb; specialize (C Cb); discriminate|]. split; [intros _ _; apply K1|]. split; discriminate. }
  rewrite (andthen_ok _ _ _ _ _ Eo) in E.
  destruct (Ok1 eq_refl Op) as (y & Hy & Sy & Soy).
  destruct (qu_self _ _ _ _ Q x H) as (y' & Hy' & F & Nm & St & D). rewrite Hy in Hy'. injection Hy' as <-.
  destruct F as (F1 & F2 & F3 & F4 & F5 & F6).
  assert (Of1 : others_free w1 i y).
  { destruct (i_state x) as [q|] eqn:Hq.
    - intros j z N Hz Ep Et. exfalso. apply N. apply (Soy ltac:(intros [? ?]; discriminate) j z Hz Ep Et).
    - destruct (Ok2 eq_refl eq_refl) as (_ & _ & z & Hz & _ & Etz). rewrite Hy in Hz. injection Hz as <-.
      intros j z N Hz Ep Et. destruct (qu_others _ _ _ _ Q j N) as [Ej _]. rewrite Ej in Hz.
      apply (Of eq_refl j z N Hz); congruence. }
  destruct (table_i inode w1 i y B1 Hy) as (tb & T & Wf).
  destruct (assign_one inode "user" "uid" i w1) as [w2 r2] eqn:E2.
  destruct (assign_one_spec "user" "uid" w1 i y ts tb w2 r2 B1 (proj2 K1) Hy Sy) as (-> & W2 & S2 & H2 & Of2 & T2); auto;
    try (rewrite ?F2, ?F3; auto; fail); [cbn; auto|].
  rewrite (andthen_ok _ _ _ _ _ E2) in E.
  set (y2 := set_types (set_cols y (add_col "uid" (i_cols y))) (Some (assoc_set String.eqb "uid" DInt ts))) in *.
  destruct (assign_one inode "item" "iid" i w2) as [w3 r3] eqn:E3.
  destruct (assign_one_spec "item" "iid" w2 i y2 (assoc_set String.eqb "uid" DInt ts) (number_table "user" "uid" tb) w3 r3
     (wk_base _ _ _ _ W2) S2 H2) as (-> & W3 & S3 & H3 & Of3 & T3); auto;
    [cbn; auto|cbn [y2 set_types set_cols i_cols]; apply add_col_in; right; rewrite F2; auto|].
  rewrite (andthen_ok _ _ _ _ _ E3) in E.
  set (y3 := set_types (set_cols y2 (add_col "iid" (i_cols y2))) (Some (assoc_set String.eqb "iid" DInt (assoc_set String.eqb "uid" DInt ts)))) in *.
  rewrite (andthen_ok _ _ _ _ _ (self_ok i w3 y3 H3)) in E.
  set (w4 := set_insts w3 (upd_nat (w_inst w3) i (Some (set_ids y3 true)))) in *.
  unfold put, modify in E. injection E as <- <-. fold w4.
  pose proof (wk_base _ _ _ _ W3) as B3.
  assert (W4 : works w3 w4 i).
  { apply put_works with (x := y3); auto. destruct (b_inst inode w3 B3 i y3 H3) as (t & c & rr & Z). exists t, c, rr. exact Z. }
  assert (H4 : w_inst w4 i = Some (set_ids y3 true)) by (cbn; apply upd_nat_same).
  split; [eapply works_trans; [exact W1|]; eapply works_trans; [exact W2|]; eapply works_trans; [exact W3|exact W4]|].
  split; [intros z Hz; rewrite H4 in Hz; injection Hz as <-; exact (S3 y3 H3)|].
  split; [auto|]. split; [discriminate|]. split.
  2:{ intros _. exists (set_ids y3 true). split; [auto|]. exact Sy. }
  intros _. exists (tb_rows tb). split.
  { rewrite <- D. unfold den, curr_source. rewrite Sy, F2. cbn [eval]. rewrite T. auto. }
  split; [apply (wt_rid _ Wf)|].
  split; [intros row Hr; rewrite (wt_keys _ Wf row Hr); split;
          eapply assoc_In_key; apply (wt_ids _ Wf); cbn; auto|].
  split; [apply (wt_uniq _ Wf)|].
  exists (set_ids y3 true). split; [auto|]. split; [cbn; rewrite F2; auto|]. split; [auto|]. split; [auto|].
  assert (D4 : den (tables w4 (i_path y)) (set_ids y3 true) = map (proj (id_cols_of (i_cols x))) (numbered (tb_rows tb))).
  { unfold den, curr_source. change (i_state (set_ids y3 true)) with (i_state y). rewrite Sy. cbn [eval].
    change (tables w4 (i_path y)) with (tables w3 (i_path y)). change (i_table (set_ids y3 true)) with (i_table y).
    change (i_path y2) with (i_path y) in T3. change (i_table y2) with (i_table y) in T3. rewrite T3.
    change (i_cols (set_ids y3 true)) with (id_cols_of (i_cols y)). rewrite F2. reflexivity. }
  split; [exact D4|]. change (i_n (set_ids y3 true)) with (i_n y).
  rewrite !map_length. unfold numbered, number_rows. rewrite !map_length.
  rewrite <- (den_length inode w1 i y B1 Hy). unfold den, curr_source. rewrite Sy. cbn [eval]. rewrite T, map_length. auto.
Qed.
End Ops.
