(** The calls of the evaluation tasks on data sets in a database that show the rows
    of data sets in memory. *)
From Coq Require Import String Ascii.
From Coq Require Import List ZArith QArith Qcanon Bool Permutation Sorted Lia.
From Verif Require Import Py PyFacts MemModel MemSpec MemFacts MemFacts2 MemFacts4 MemFacts5 MemFacts7 SplitModel RankModel KnnModel FitModel
  EvalModel EvalSpec EvalFacts2 EvalFacts3 DbModel DbFacts DbSpec DbFacts2 DbFacts3 DbFacts4
  DbFacts5 DbFacts6 DbFacts7 DbFacts8 DbFacts9 DbFacts10 DbFacts11 DbFacts12 DbFacts13 DbFacts14 DbFacts15 DbFacts17 DbFacts18 SampModel DbGenModel DbGenSpec DbGenFacts DbGenFacts2
  DbSplitModel DbSplitSpec DbSplitFacts DbSplitFacts2 DbSplitFacts3 DbSplitFacts6 TwinSpec TwinFacts TwinFacts2 KnnFacts RecDbModel RecDbModel2 RecDbModel3 RecDbModel5
  RecDbFacts RecDbFacts2 RecDbFacts9 RecDbSpec5 RecDbFacts11.
From Verif Require RankFacts.
Import ListNotations.
Open Scope string_scope.
Open Scope Z_scope.
Open Scope list_scope.
Notation interaction_of := MemSpec.interaction_of.

Section Calls.
Variable inode : string -> nat.
Notation reaches := (reaches inode).

(** ** Other data sets *)
Lemma select_other i n q w w' j : n <> i -> calm w i -> w_next w <> i -> select inode n q true w = (w', Ok j) -> calm w' i.
Proof.
  intros N C Nx E. destruct (select_frame _ _ _ _ _ _ E) as (-> & _ & _ & U). apply (calm_inst w); [apply U; auto|exact C].
Qed.
Lemma unique_other i n cs w w' r : n <> i -> calm w i -> w_next w <> i -> unique inode n cs true w = (w', Ok r) -> calm w' i.
Proof.
  intros N C Nx E. destruct (unique_frame _ _ _ _ _ _ E) as (-> & _ & _ & U). apply (calm_inst w); [apply U; auto|exact C].
Qed.
Lemma next_free w b i x : reaches w b -> w_inst w i = Some x -> w_next w <> i.
Proof.
  intros R H. destruct (copy_spec inode w i x (inv_base _ _ _ (reaches_inv _ _ _ R)) H) as (_ & _ & _ & _ & _ & _ & _ & N & _). auto.
Qed.
Lemma stays_small w n c d : small_world w -> stays_query w n c d.
Proof.
  intros H x Hx. specialize (H n x Hx). unfold worth_it.
  destruct (Nat.ltb 0 (length (firsts_of c d))) eqn:L; [|rewrite andb_false_r; auto]. apply Nat.ltb_lt in L.
  rewrite (proj2 (Z.leb_gt 5000 _)) by lia. rewrite andb_false_r. auto.
Qed.

(** ** The first row *)
Lemma one_first ord w b i d cs columns w' v : permuting ord -> sorting ord -> Inv inode w b -> b i = Some d -> query_fits inode w i d cs ->
  select_one inode ord i (query_text cs) columns w = (w', Ok (Some v)) ->
  exists row, In row (d_rows d) /\ forallb (holds row) cs = true /\ v = cells (asked d columns) row /\
    forall row', In row' (d_rows d) -> forallb (holds row') cs = true -> rid_of row <= rid_of row'.
Proof.
  intros P So I Hb Qf E. pose proof (inv_ds _ _ _ I i d Hb) as Sh. pose proof (inv_base _ _ _ I) as B. pose proof (proj1 Sh) as S.
  destruct (shows_inst inode w i d Sh) as (x & H & C & T & Di & Px).
  destruct (query_facts inode w i d x cs Sh H C T Qf) as (ts & Ts & Pq & Un & Ct). set (conds := map (wcond_of ts) cs) in *.
  unfold select_one in E.
  destruct (reading inode _ w i x w' _ B S H E) as (w2 & y & W & K & Hy & F & Op & Nm & D & [E2|(_ & [e X] & _)]); [|discriminate].
  rewrite (andthen_ok _ _ _ _ _ (self_ok i w2 y Hy)) in E2.
  assert (Fc : columns_of y columns = columns_of x columns) by (apply face_cols; auto).
  assert (Ec : i_cols y = i_cols x /\ i_types y = i_types x) by (destruct F as (_ & ? & ? & _); auto). destruct Ec as [Ec Ety].
  rewrite (parse_query_eq x y) in E2 by auto. rewrite Pq in E2.
  rewrite (andthen_ok _ _ w2 w2 conds) in E2 by reflexivity.
  destruct (forallb (fun c => in_cols c (i_cols x)) (columns_of x columns)) eqn:Ix.
  2:{ assert (I' : ~ incl (columns_of x columns) (i_cols x)).
      { intro X. apply (proj2 (subset_b_incl _ _)) in X. unfold subset_b in X. congruence. }
      unfold lift, andthen in E2. rewrite handle_bad in E2 by (rewrite Fc, Ec; auto). discriminate. }
  apply (proj1 (subset_b_incl _ _)) in Ix.
  rewrite (andthen_ok _ _ w2 w2 (columns_of x columns)) in E2 by (unfold lift; rewrite handle_ok, Fc; [auto|rewrite Fc, Ec; auto]).
  pose proof (wk_base _ _ _ _ (W i)) as B2. destruct (table_i inode w2 i y B2 Hy) as (tb & Tb & Wf).
  destruct (select_fits inode (tables inode w2 (i_path y)) y tb conds Wf Tb (b_inst inode w2 B2 i y Hy) (proj2 K y Hy)) as (rows & Ft & Dr).
  { intros c Hc. rewrite Ec. eapply parse_query_plain; eauto. }
  { intros c Hc. destruct (table_i inode w i x B H) as (tb0 & T0 & _). unfold tabcols in Nm. rewrite Tb, T0 in Nm.
    apply (no_column_incl (tb_cols tb0)); [exact Nm|]. exact (Un conds Pq tb0 c T0 Hc). }
  pose proof Ft as (_ & Ev & _).
  rewrite (andthen_ok _ _ w2 w2 (q_cols (new_state y conds), rows)) in E2 by (unfold query; rewrite Ev; auto).
  cbn [snd] in E2. rewrite D, Ec in Dr.
  pose proof (P rows) as Pr. pose proof (So rows) as Sr. destruct (ord rows) as [|row l]; [discriminate|].
  assert (Hr : In row rows) by (eapply Permutation_in; [exact Pr|left; auto]).
  assert (Zr : zip_row y row = proj (i_cols y) row).
  { pose proof (fits_zip _ _ _ _ Ft) as X. revert Hr X. clear. induction rows as [|a rows IH]; [intros []|].
    intros [->|Hr] X; cbn [map] in X; injection X as X1 X2; auto. }
  unfold lift, andthen in E2. rewrite list_record_proj in E2; [|rewrite Ec; auto|auto]. injection E2 as <- <-.
  assert (Hf : In (proj (i_cols x) row) (filter (fun row => forallb (cond_true row) conds) (den (tables inode w (i_path x)) x)))
    by (rewrite <- Dr; apply in_map; auto).
  apply filter_In in Hf. destruct Hf as [H1 H2]. rewrite Ct in H2.
  exists (proj (i_cols x) row). split; [exact (Permutation_in _ Px H1)|]. split; [auto|]. split.
  - rewrite (asked_columns d x columns) in * by auto. unfold cells. apply map_ext_in. intros c Hc. symmetry. apply tcell_proj. apply Ix. auto.
  - assert (Ri : In "rid" (i_cols x)) by (destruct (S x H) as (_ & R & _); auto).
    intros row' Hr' Hh'. apply (Permutation_in _ (Permutation_sym Px)) in Hr'. rewrite <- Ct in Hh'.
    assert (Hf' : In row' (map (proj (i_cols x)) rows)) by (rewrite Dr; apply filter_In; auto).
    apply in_map_iff in Hf'. destruct Hf' as (row0 & <- & H0). unfold rid_of. rewrite !tcell_proj by auto.
    apply (Permutation_in _ (Permutation_sym Pr)) in H0. inversion Sr as [|? ? _ Fr]; subst. destruct H0 as [<-|H0]; [apply Z.le_refl|].
    rewrite Forall_forall in Fr. exact (Fr row0 H0).
Qed.

(** ** Conditions in memory and in the database *)
Definition numeric (c : scond) : Prop := match sc_lit c with LText _ => False | _ => True end.
Lemma fits_cond d m c : twin d m -> cond_ok m c -> numeric c -> ~ In (sc_col c) ["iid"; "uid"; "rid"] -> cond_fits d c.
Proof.
  intros Tw (Ic & Pc & _ & t & Ht & L) Nc Ni. split; [rewrite (tw_cols _ _ Tw); exact Ic|]. split; [exact Pc|].
  destruct (tw_types _ _ Tw) as (ts & Ts & H). exists ts, t. split; [auto|]. split; [apply H; auto|].
  unfold numeric in Nc. revert L Nc. generalize (sc_lit c). intros l L Nc. destruct L as [z X|z _ X Y|n a b _ X Y Z0 W|s _ X Y]; cbn [lit_fits].
  - contradiction.
  - destruct t; [exact Logic.I|exact Y|congruence].
  - destruct t; [exact (conj Y (conj Z0 W))|exact (conj Y (conj Z0 W))|congruence].
  - contradiction.
Qed.
Lemma conds_fit d m w n cs : twin d m -> cs <> [] -> Forall (cond_ok m) cs -> Forall numeric cs -> (forall c, In c cs -> ~ In (sc_col c) ["iid"; "uid"; "rid"]) ->
  query_fits inode w n d cs.
Proof.
  intros Tw Ne Co Nu Ni. split; [auto|]. rewrite Forall_forall in Co, Nu. split; apply Forall_forall; intros c Hc.
  - apply (fits_cond d m); auto.
  - specialize (Nu c Hc). unfold numeric in Nu. unfold no_name. destruct (sc_lit c); auto. contradiction.
Qed.
Lemma twin_restricted d m cs p : twin d m -> Forall (cond_ok m) cs -> (forall r, In r (rows_of m) -> sat cs r = p r) -> twin (restricted d cs) (sub m p).
Proof.
  intros Tw Co Hp. unfold restricted, sub. apply (twin_filter d (mem_copy m) (twin_same_copy d m Tw)).
  intros r Hr. change (m_columns (mem_copy m)) with (m_columns m). rewrite (holds_sats d m Tw cs r Co Hr). apply Hp. exact Hr.
Qed.
End Calls.

(** ** The distinct values of a column *)
Lemma firsts_appearing m c t : wf_mem m -> c <> "rid" -> In c (m_columns m) -> col_type m c = Ok t ->
  map (row_val_or c) (drop_duplicates [c] (rows_of m)) = appearing (column c (rows_of m)).
Proof.
  intros W N H T. assert (A := col_type_assoc m c t N T). assert (Ec : String.eqb c "rid" = false) by (apply String.eqb_neq; auto).
  set (ds := drop_duplicates [c] (rows_of m)).
  assert (Hc : forall r, In r (rows_of m) -> exists v, cell r c = Some v /\ type_of v = t) by (intros r Hr; apply (wf_cell m r c t W Hr A)).
  assert (Hd : forall r, In r ds -> In r (rows_of m)) by (intros; eapply drop_duplicates_incl; eauto).
  rewrite <- dedup_is_appearing. assert (K := drop_duplicates_keys [c] (rows_of m)). fold ds in K.
  set (f := fun v : value => [Some v]).
  assert (M : forall rs, (forall r, In r rs -> In r (rows_of m)) -> map (row_key [c]) rs = map f (map (row_val_or c) rs)).
  { intros rs Hrs. rewrite map_map. apply map_ext_in. intros r Hr. destruct (Hc r (Hrs r Hr)) as [v [E _]].
    unfold row_key, f, row_val_or, row_val. cbn [map]. rewrite E, Ec. reflexivity. }
  rewrite (M ds), (M (rows_of m)) in K by auto. unfold dedup in K at 1.
  change (@nil (list (option value))) with (map f []) in K. rewrite (dedup_acc_inj value_eqb) in K.
  - assert (J : forall a b : list value, map f a = map f b -> a = b).
    { induction a as [|x a IH]; intros [|y b] Z; try discriminate; auto. injection Z as -> Z. f_equal. auto. }
    apply J in K. rewrite K. unfold dedup. f_equal.
    assert (Z : forall rs, (forall r, In r rs -> In r (rows_of m)) -> map (row_val_or c) rs = column c rs).
    { induction rs as [|r rs IH]; intros Hrs; auto. unfold column. cbn [map flat_map]. fold (column c rs).
      destruct (Hc r (Hrs r (or_introl eq_refl))) as [v [E _]]. rewrite E. cbn [app]. rewrite <- IH by (intros; apply Hrs; simpl; auto).
      unfold row_val_or at 1, row_val. rewrite Ec, E. reflexivity. }
    apply Z. auto.
  - intros x y. apply eq_true_iff_eq. rewrite (MemFacts2.reflects_key _ _), (reflects_value _ _). unfold f. split; [congruence|intros ->; reflexivity].
Qed.

(** ** Rows by record id *)
Lemma order_twin d m l : twin d m -> Permutation l (d_rows d) -> StronglySorted (fun a b => rid_of a <= rid_of b) l ->
  l = map (as_trow (m_columns m)) (rows_of m).
Proof.
  intros Tw Pl Sl. pose proof (Permutation_trans Pl (tw_rows _ _ Tw)) as Q. destruct (Permutation_map_inv _ _ Q) as (rs & -> & Prs).
  set (q := as_trow (m_columns m)) in *.
  assert (Rid : forall r, rid_of (q r) = r_rid r) by (intro r; apply rid_as, (twin_rid d m Tw)).
  f_equal. apply (sorted_same (fun a b => r_rid a <= r_rid b)).
  - clear - Sl Rid. induction rs as [|r rs IH]; [constructor|]. cbn [map] in Sl. inversion Sl as [|? ? S1 S2]; subst. constructor; [auto|].
    rewrite Forall_forall in *. intros x Hx. specialize (S2 _ (in_map q _ _ Hx)). rewrite !Rid in S2. exact S2.
  - pose proof (tw_order _ _ Tw) as O. clear - O. induction (rows_of m) as [|r l IH]; [constructor|]. cbn [map] in O. inversion O as [|? ? S1 S2]; subst. constructor; [auto|].
    rewrite Forall_forall in *. intros x Hx. specialize (S2 _ (in_map r_rid _ _ Hx)). lia.
  - apply Permutation_sym; exact Prs.
  - intros x y Hx Hy L1 L2. apply (Permutation_in _ (Permutation_sym Prs)) in Hx, Hy. assert (Er : r_rid x = r_rid y) by lia.
    pose proof (sorted_nodup _ (tw_order _ _ Tw)) as N. clear - N Er Hx Hy. induction (rows_of m) as [|a l IH]; [contradiction|].
    cbn [map] in N. inversion N as [|? ? Na Nl]; subst. destruct Hx as [->|Hx], Hy as [->|Hy]; auto.
    + destruct Na. rewrite Er. apply in_map. exact Hy.
    + destruct Na. rewrite <- Er. apply in_map. exact Hx.
Qed.

Section Reads.
Variable inode : string -> nat.
Variable ords : nat -> list trow -> list trow.
Hypothesis Po : forall k, permuting (ords k).
Hypothesis So : forall k, sorting (ords k).
Variables (i : nat) (d : ds).
Local Notation fine := (fine inode i d).
Local Notation runs := (runs inode i d).
Local Notation gives := (gives inode i d).

(** a program with the result [r], in worlds without large data sets *)
Definition sure {A} (b : book) (p : P A) (r : res A) : Prop :=
  forall s, fine (snd s) b -> small_world (snd s) -> exists s' b', p s = (s', r) /\ fine (snd s') b' /\ small_world (snd s') /\ extends b b'.
Lemma sure_gives {A} b (p : P A) r : gives b p r -> pkeeps p -> sure b p r.
Proof.
  intros G K s F S. destruct (G s F) as (s' & r' & b' & E & F' & X & ->). exists s', b'. split; [auto|]. split; [auto|]. split; [|auto].
  specialize (K s S). rewrite E in K. exact K.
Qed.

Section One.
Variables (n : nat) (dn : ds) (m : mem).
Hypothesis Tw : twin dn m.
Hypothesis Cn : complete dn.
Hypothesis D : int_data m.

Lemma cell_there c r : In c ["user"; "item"; "interaction"] -> In r (rows_of m) -> tcell (as_trow (m_columns m) r) c = cell r c /\ cell r c <> None.
Proof.
  intros Hc Hr. pose proof (EvalSpec.in_cols m D c Hc) as Ic. rewrite tcell_as by exact Ic.
  assert (N : String.eqb c "rid" = false) by (destruct Hc as [<-|[<-|[<-|[]]]]; reflexivity). unfold row_val. rewrite N. split; [auto|].
  destruct Hc as [<-|[<-|[<-|[]]]]; [destruct (row_user m D r Hr) as (z & -> & _)|destruct (row_item m D r Hr) as (z & -> & _)|destruct (row_inter m D r Hr) as (z & -> & _)]; discriminate.
Qed.
Lemma row_there row : In row (d_rows dn) -> exists r, In r (rows_of m) /\ row = as_trow (m_columns m) r.
Proof. apply (twin_row dn m Tw). Qed.
Definition shown (c : string) (r : row) : value := match cell r c with Some v => v | None => VInt 0 end.
Lemma values_gives b us : b n = Some dn -> incl us ["user"; "item"; "interaction"] ->
  gives b (db_values inode ords n us) (Ok (map (fun r => map (fun c => shown c r) us) (rows_of m))).
Proof.
  intros Hb Iu. eapply runs_weaken; [apply (values_in_order inode ords Po i d b n dn us Hb Cn)|].
  - intros c Hc. rewrite (tw_cols _ _ Tw). apply (EvalSpec.in_cols m D). auto.
  - intros row Hr c Hc. destruct (row_there row Hr) as (r & Hr' & ->). destruct (cell_there c r (Iu c Hc) Hr') as [-> ?]. auto.
  - cbn beta. intros b' r (X & l & Pl & Sl & ->). split; [auto|]. rewrite (order_twin dn m l Tw Pl (Sl So)). rewrite map_map. f_equal.
    apply map_ext_in. intros r Hr. apply map_ext_in. intros c Hc. destruct (cell_there c r (Iu c Hc) Hr) as [-> _]. reflexivity.
Qed.
Lemma pairs_gives b : b n = Some dn -> gives b (db_pairs inode ords n) (Ok (map (fun r => (item_of r, interaction_of r)) (rows_of m))).
Proof.
  intro Hb. unfold db_pairs.
  replace (Ok (map (fun r => (item_of r, interaction_of r)) (rows_of m)))
    with (vs <- Ok (map (fun r => map (fun c => shown c r) ["item"; "interaction"]) (rows_of m)) ;;
          mapM (fun v => match v with [i; x] => match num_of x with Some q => Ok (i, q) | None => Err TypeError end | _ => Err TypeError end) vs).
  - apply gives_bind; [apply values_gives; [exact Hb|intros c Hc; right; exact Hc]|]. intros b' a _ _. apply gives_ret.
  - cbn [bind]. rewrite mapM_map. apply mapM_Ok. intros r Hr. cbn [map]. destruct (row_inter m D r Hr) as (v & Ev & Nv & _).
    replace (shown "interaction" r) with v by (unfold shown; rewrite Ev; reflexivity). rewrite Nv. reflexivity.
Qed.
Lemma items_gives b : b n = Some dn -> gives b (db_items inode ords n) (Ok (map item_of (rows_of m))).
Proof.
  intro Hb. unfold db_items.
  replace (Ok (map item_of (rows_of m))) with (vs <- Ok (map (fun r => map (fun c => shown c r) ["item"]) (rows_of m)) ;;
          mapM (fun v => match v with [i] => Ok i | _ => Err TypeError end) vs).
  - apply gives_bind; [apply values_gives; [exact Hb|intros c [<-|[]]; cbn; auto]|]. intros b' a _ _. apply gives_ret.
  - cbn [bind]. rewrite mapM_map. apply mapM_Ok. intros r Hr. reflexivity.
Qed.
Lemma len_gives b : b n = Some dn -> gives b (db (ds_len n)) (Ok (length (rows_of m))).
Proof. intro Hb. rewrite <- (twin_length dn m Tw). apply (len_runs inode i d b n dn Hb). Qed.

Lemma first_found rs p r0 : StronglySorted Z.lt (map r_rid rs) -> In r0 rs -> p r0 = true -> (forall r, In r rs -> p r = true -> r_rid r0 <= r_rid r) ->
  find p rs = Some r0.
Proof.
  induction rs as [|r rs IH]; intros S Hr Hp L; [contradiction|]. cbn [map] in S. inversion S as [|? ? S1 S2]; subst. cbn [find].
  destruct (p r) eqn:E.
  - destruct Hr as [->|Hr]; [auto|]. specialize (L r (or_introl eq_refl) E). rewrite Forall_forall in S2. specialize (S2 _ (in_map r_rid _ _ Hr)). lia.
  - destruct Hr as [->|Hr]; [congruence|]. apply IH; auto. intros; apply L; auto. right; auto.
Qed.
Lemma item_cond z : Z.abs z <= 2 ^ 53 -> cond_ok m (mkCond "item" Eq (LInt z)).
Proof.
  intro Hz. split; [apply (EvalSpec.in_cols m D); cbn; auto|]. split; [repeat split; discriminate|]. split; [apply (in_small m D); cbn; auto|].
  exists DInt. split; [apply D|]. apply lo_int; [cbn; intuition discriminate|discriminate|exact Hz].
Qed.
Lemma item_sat z r : In r (rows_of m) -> sat1 (mkCond "item" Eq (LInt z)) r = val_eqb (item_of r) (VInt z).
Proof.
  intro Hr. destruct (row_item m D r Hr) as (x & Ex & _). unfold sat1, item_of, row_val. cbn [sc_col sc_op sc_lit]. change (String.eqb "item" "rid") with false. cbn iota.
  rewrite Ex. cbn [lit_num op_holds]. rewrite Qc_of_Z_compare. apply eq_true_iff_eq. rewrite RankFacts.val_eqb_same. split.
  - destruct (x ?= z) eqn:C; try discriminate. apply Z.compare_eq in C. subst. intros _. reflexivity.
  - intros S'. assert (x = z) by (cbn [same_value num_of] in S'; apply Qc_of_Z_inj; congruence). subst. rewrite Z.compare_refl. reflexivity.
Qed.
Lemma relevancy_gives b z : b n = Some dn -> Z.abs z <= 2 ^ 53 -> gives b (db_relevancy inode ords n (VInt z)) (relevancy m (VInt z)).
Proof.
  intros Hb Hz. set (cd := mkCond "item" Eq (LInt z)). rewrite (relevancy_ok m D (VInt z) z eq_refl Hz).
  set (p := fun r => val_eqb (item_of r) (VInt z)). set (q := match find p (rows_of m) with Some r => interaction_of r | None => 0%Qc end).
  unfold db_relevancy. change ("item == " ++ str_of_value (VInt z))%string with (query_text [cd]).
  assert (Hh : forall r, In r (rows_of m) -> forallb (holds (as_trow (m_columns m) r)) [cd] = p r).
  { intros r Hr. rewrite (holds_sats dn m Tw [cd] r (Forall_cons _ (item_cond z Hz) (Forall_nil _)) Hr).
    unfold sat. cbn [forallb]. rewrite andb_true_r. apply item_sat. exact Hr. }
  assert (G : runs b (db_one inode ords n (query_text [cd]) ["interaction"]) (fun b' r => extends b b' /\ exists o, r = Ok o /\
     match o with None => find p (rows_of m) = None | Some l => exists r v, l = [v] /\ num_of v = Some (interaction_of r) /\ find p (rows_of m) = Some r end)).
  { intros s F.
    assert (Qf : forall w, query_fits inode w n dn [cd]).
    { intro w. apply (conds_fit inode dn m w n [cd] Tw); [discriminate|constructor; [apply item_cond; exact Hz|constructor]|constructor; [exact Logic.I|constructor]|].
      intros c [<-|[]]. cbn. intuition discriminate. }
    destruct (read_step inode i d (ords (fst s)) (OSelectOne n [cd] (Some ["interaction"])) n dn (snd s) b) as (w' & a & E & F' & A); auto.
    - intros b0 H0. split; [exists dn; auto|]. exists dn. split; [auto|]. split; [left; apply Cn|]. cbn [asked]. intros ? [<-|[]]. rewrite (tw_cols _ _ Tw). apply (EvalSpec.in_cols m D). cbn. auto.
    - cbn [exec] in E. apply amap_inv in E. destruct E as ([o|e] & E & Er); [|discriminate]. injection Er as ->.
      destruct A as (row & X & A). injection X as <-. cbn [asked] in A.
      destruct o as [l|].
      + destruct F as ((b0 & Eb & R) & _). assert (Hb0 : b0 n = Some dn) by (rewrite Eb; exact Hb).
        destruct (one_first inode (ords (fst s)) (snd s) b0 n dn [cd] (Some ["interaction"]) w' l (Po _) (So _) (reaches_inv _ _ _ R) Hb0 (Qf _) E) as (row & Hr & Hc & -> & Lr).
        cbn [asked] in *. destruct (row_there row Hr) as (r & Hr' & ->). rewrite Hh in Hc by exact Hr'.
        destruct (cell_there "interaction" r ltac:(cbn; auto) Hr') as [Ec _]. destruct (row_inter m D r Hr') as (v & Ev & Nv & _).
        eexists. eexists. exists b. split; [unfold db_one, pbind, dbo; rewrite E; unfold pret; cbn [cells map mapM]; rewrite Ec, Ev; cbn [filled bind]; reflexivity|].
        split; [exact F'|]. split; [apply extends_refl|]. eexists. split; [reflexivity|]. exists r, v. split; [auto|]. split; [exact Nv|].
        apply first_found; [apply (tw_order _ _ Tw)|exact Hr'|exact Hc|]. intros r' Hr2 Hp.
        assert (Rd : forall x, rid_of (as_trow (m_columns m) x) = r_rid x) by (intro x; apply rid_as, (twin_rid dn m Tw)).
        rewrite <- !Rd. apply Lr; [apply (twin_row dn m Tw); eauto|]. rewrite Hh; auto.
      + eexists. eexists. exists b. split; [unfold db_one, pbind, dbo; rewrite E; unfold pret; reflexivity|].
        split; [exact F'|]. split; [apply extends_refl|]. eexists. split; [reflexivity|]. cbn beta iota.
        destruct (find p (rows_of m)) as [r|] eqn:Ef; [|auto]. apply find_some in Ef. destruct Ef as [Hr Hp]. rewrite <- Hh in Hp by exact Hr.
        rewrite A in Hp; [discriminate|]. apply (twin_row dn m Tw). eauto. }
  eapply (gives_then inode i d b _ _ _ _ G); [intros e (o & X & _); discriminate|]. intros b1 o _ (o' & E & K). injection E as <-.
  apply runs_ret. split; [apply extends_refl|]. subst q. destruct o as [l|].
  - destruct K as (r & v & -> & Nv & ->). rewrite Nv. reflexivity.
  - rewrite K. reflexivity.
Qed.

(** ** New data sets *)
Lemma select_sure b cs s : b n = Some dn -> cs <> [] -> Forall (cond_ok m) cs -> Forall numeric cs -> (forall c, In c cs -> ~ In (sc_col c) ["iid"; "uid"; "rid"]) ->
  fine (snd s) b -> small_world (snd s) ->
  exists s' j, db (select inode n (query_text cs) true) s = (s', Ok j) /\ b j = None /\ fine (snd s') (note b j (Some (restricted dn cs))) /\ small_world (snd s').
Proof.
  intros Hb Ne Co Nu Ni ((b0 & Eb & R) & Hi & C) Sm. assert (Hb0 : b0 n = Some dn) by (rewrite Eb; auto).
  assert (Po1 : permuting (fun l => l)) by (intro; auto).
  assert (Sf : safe inode (snd s) b0 (OSelect n cs true)) by (exists dn; split; [auto|]; apply (conds_fit inode dn m); auto).
  destruct (exec inode (fun l => l) (OSelect n cs true) (snd s)) as [w' r] eqn:E.
  pose proof (answer_of inode _ _ _ _ _ _ (reaches_inv _ _ _ R) Po1 Sf E) as A.
  pose proof (Calls inode _ _ _ _ _ _ R Po1 Sf E) as R'.
  destruct r as [a|e]; [|destruct A; exists dn; split; [auto|apply Cn]].
  destruct A as (_ & j & -> & Fr). cbn [effect] in R'. rewrite Hb0 in R'. cbn [result] in R'.
  cbn [exec] in E. apply amap_inv in E. destruct E as ([j'|e] & E & Er); [|discriminate]. injection Er as <-.
  assert (Ni2 : i <> j). { intros ->. rewrite Eb in Fr. congruence. }
  exists (fst s, w'), j. split; [unfold db; rewrite E; reflexivity|]. split; [rewrite <- Eb; auto|]. split; [split; [|split]|].
  - exists (note b0 j (Some (restricted dn cs))). split; [|exact R']. intro x. unfold note. destruct (Nat.eqb x j); auto.
  - rewrite note_other; auto.
  - destruct (Nat.eq_dec n i) as [->|Nn].
    + eapply select_calm; [apply (inv_base _ _ _ (reaches_inv _ _ _ R))|exact C|exact E].
    + eapply select_other; [exact Nn|exact C| |exact E]. destruct C as (x & Hx & _). eapply next_free; eauto.
  - exact (keeps_select inode n _ true _ _ _ Sm E).
Qed.
Lemma unique_sure b c w : b n = Some dn -> In c ["user"; "item"] -> fine w b -> small_world w ->
  exists w' j, unique inode n (Some [c]) true w = (w', Ok (j, Some [c; "rid"])) /\ b j = None /\ fine w' (note b j (Some (col_ds dn c))) /\ small_world w' /\
    exists z, w_inst w' j = Some z /\ i_direct z = 0%nat.
Proof.
  intros Hb Hc ((b0 & Eb & R) & Hi & C) Sm. assert (Hb0 : b0 n = Some dn) by (rewrite Eb; auto).
  assert (Hc3 : In c ["user"; "item"; "interaction"]) by (destruct Hc as [<-|[<-|[]]]; cbn; auto).
  assert (Ic : In c (d_cols dn)) by (rewrite (tw_cols _ _ Tw); apply (EvalSpec.in_cols m D); exact Hc3).
  assert (Nc : c <> "rid") by (intros ->; destruct Hc as [?|[?|[]]]; discriminate).
  destruct (unique_ready inode w b0 n dn c R Hb0 Cn Ic Nc (stays_small w n c dn Sm)) as (w' & j & E & _ & z & Hz & Dz).
  destruct (unique_call inode w b0 n dn c w' _ R Hb0 Ic Nc E) as (Fr & R' & _). cbn [fst] in *.
  assert (Ni : i <> j). { intros ->. rewrite Eb in Fr. congruence. }
  exists w', j. split; [exact E|]. split; [rewrite <- Eb; auto|]. split; [split; [|split]|].
  - exists (note b0 j (Some (col_ds dn c))). split; [|exact R']. intro x. unfold note. destruct (Nat.eqb x j); auto.
  - rewrite note_other; auto.
  - destruct (Nat.eq_dec n i) as [->|Nn].
    + eapply unique_calm; [apply (inv_base _ _ _ (reaches_inv _ _ _ R))|exact C|exact E].
    + eapply unique_other; [exact Nn|exact C| |exact E]. destruct C as (x & Hx & _). eapply next_free; eauto.
  - split; [exact (keeps_unique inode n _ true _ _ _ Sm E)|eauto].
Qed.
(** reading the column; the data set may have too few columns to be written again *)
Lemma column_sure b j c lo ord w z : b j = Some (col_ds dn c) -> j <> i -> In c ["user"; "item"] -> permuting ord -> sorting ord -> fine w b -> small_world w ->
  w_inst w j = Some z -> (i_direct z < 3)%nat ->
  exists w', values inode ord j (Some [c]) lo w = (w', Ok (map (fun v => [Some v]) (appearing (column c (rows_of m))))) /\ fine w' b /\ small_world w'.
Proof.
  intros Hb Nj Hc P0 S0 ((b0 & Eb & R) & Hi & C) Sm Hz Dz. assert (Hb0 : b0 j = Some (col_ds dn c)) by (rewrite Eb; auto).
  assert (Hc3 : In c ["user"; "item"; "interaction"]) by (destruct Hc as [<-|[<-|[]]]; cbn; auto).
  assert (Ic : In c (m_columns m)) by (apply (EvalSpec.in_cols m D); exact Hc3).
  assert (Nc : c <> "rid") by (intros ->; destruct Hc as [?|[?|[]]]; discriminate).
  assert (Ec : String.eqb c "rid" = false) by (apply String.eqb_neq; auto).
  assert (Tc : col_type m c = Ok DInt) by (destruct Hc as [<-|[<-|[]]]; apply D).
  destruct (values_few inode ord w b0 j (col_ds dn c) z [c] lo P0 R Hb0 Hz Dz) as (w' & vs & E); [intros ? [<-|[]]; left; auto|].
  assert (Tu : twin (col_ds dn c) (set_columns (set_df m (mkFrame (project_types [c] (f_types (m_df m))) (map (project_row [c]) (drop_duplicates [c] (rows_of m))))) ([c] ++ ["rid"]))).
  { pose proof (twin_unique dn m [c] Tw) as H. unfold plus_rid in H. cbn [existsb] in H. rewrite (proj2 (String.eqb_neq "rid" c)) in H by congruence. cbn [orb] in H. apply H.
    - constructor; [intros []|constructor].
    - intros [?|[]]; congruence.
    - intros x [<-|[]]; exact Ic. }
  destruct (values_read inode ord w b0 j (col_ds dn c) (Some [c]) lo w' vs P0 (reaches_inv _ _ _ R) Hb0 E) as (l & Pl & -> & Sl). cbn [asked] in *.
  rewrite (order_twin _ _ l Tu Pl (Sl S0)) in E. exists w'.
  assert (Ev : map (cells [c]) (map (as_trow ([c] ++ ["rid"])) (map (project_row [c]) (drop_duplicates [c] (rows_of m)))) = map (fun v => [Some v]) (appearing (column c (rows_of m)))).
  { rewrite <- (firsts_appearing m c DInt (in_wf m D) Nc Ic Tc). rewrite !map_map. apply map_ext_in. intros r Hr. apply drop_duplicates_incl in Hr.
    unfold cells. cbn [map]. rewrite tcell_as by (left; auto). unfold row_val. rewrite Ec. rewrite project_cell by (first [left; reflexivity|constructor; [intros []|constructor]]).
    destruct (cell_there c r Hc3 Hr) as [_ Nn]. unfold row_val_or, row_val. rewrite Ec. destruct (cell r c); [reflexivity|contradiction]. }
  split; [rewrite E; f_equal; f_equal; exact Ev|].
  assert (X : exec inode ord (if lo then OGenerator j (Some [c]) else OValues j (Some [c])) w = (w', Ok (ARows (map (cells [c]) (map (as_trow ([c] ++ ["rid"])) (map (project_row [c]) (drop_duplicates [c] (rows_of m)))))))).
  { destruct lo; cbn [exec]; unfold amap, andthen; rewrite E; reflexivity. }
  assert (Sf : safe inode w b0 (if lo then OGenerator j (Some [c]) else OValues j (Some [c]))) by (destruct lo; cbn; congruence).
  split; [split; [|split]|].
  - exists b0. split; [auto|]. pose proof (Calls inode _ _ _ _ _ _ R P0 Sf X) as R'. destruct lo; exact R'.
  - exact Hi.
  - eapply (read_other inode ord (if lo then OGenerator j (Some [c]) else OValues j (Some [c])) i j); [destruct lo; auto|destruct lo; auto|exact Nj|exact C|exact X].
  - exact (keeps_values inode ord j _ lo _ _ _ Sm E).
Qed.
Lemma appearing_ints c : In c ["user"; "item"] -> forall v, In v (appearing (column c (rows_of m))) -> exists z, v = VInt z /\ Z.abs z <= 2 ^ 53.
Proof.
  intros Hc v Hv.
  assert (I : In v (column c (rows_of m))).
  { revert Hv. generalize (column c (rows_of m)). intro l. induction l as [|x l IH]; [auto|]. cbn [appearing]. intros [->|H]; [left; auto|]. apply in_remove in H. right. apply IH, H. }
  unfold column in I. apply in_flat_map in I. destruct I as (r & Hr & Hv2).
  destruct Hc as [<-|[<-|[]]]; [destruct (row_user m D r Hr) as (z & E & B)|destruct (row_item m D r Hr) as (z & E & B)]; rewrite E in Hv2; destruct Hv2 as [<-|[]]; eauto.
Qed.
Lemma appearing_nodup l : NoDup (appearing l).
Proof.
  induction l as [|x l IH]; cbn [appearing]; constructor; [apply remove_In|].
  clear - IH. induction (appearing l) as [|y l' IH']; [constructor|]. inversion IH; subst. cbn [remove]. destruct (value_eq_dec x y); [auto|]. constructor; [|auto].
  intro H. apply in_remove in H. tauto.
Qed.
Lemma dedup_ints l : NoDup l -> (forall v, In v l -> exists z, v = VInt z) -> dedup val_eqb l = l.
Proof.
  intros N H. unfold dedup. assert (G : forall seen, (forall v, In v seen -> exists z, v = VInt z) -> (forall v, In v l -> ~ In v seen) -> dedup_acc val_eqb seen l = l).
  { induction l as [|x l IH]; intros seen Hs Hd; [auto|]. cbn [dedup_acc]. inversion N as [|? ? N1 N2]; subst.
    destruct (mem_b val_eqb x seen) eqn:E.
    - exfalso. apply RankFacts.mem_b_exists in E. destruct E as (y & Hy & Ey). destruct (H x (or_introl eq_refl)) as (a & ->). destruct (Hs y Hy) as (b & ->).
      apply RankFacts.val_eqb_same in Ey. cbn [same_value num_of] in Ey. assert (a = b) by (apply Qc_of_Z_inj; congruence). subst. apply (Hd (VInt b)); [left; auto|exact Hy].
    - f_equal. apply IH; auto.
      + intros v Hv. apply H. right; auto.
      + intros v [<-|Hv]; [apply H; left; auto|auto].
      + intros v Hv [<-|Hv2]; [contradiction|]. apply (Hd v); [right; auto|auto]. }
  apply G; [intros v []|intros v _ []].
Qed.
Lemma filled_column vs : mapM (mapM filled) (map (fun v => [Some v]) vs) = Ok (map (fun v => [v]) vs).
Proof. induction vs as [|v vs IH]; [auto|]. cbn [map mapM]. cbn [mapM filled bind]. rewrite IH. reflexivity. Qed.
Lemma singles vs : mapM (fun v : list value => match v with [i] => Ok i | _ => Err TypeError end) (map (fun v => [v]) vs) = Ok vs.
Proof. induction vs as [|v vs IH]; [auto|]. cbn [map mapM bind]. rewrite IH. reflexivity. Qed.
Lemma distinct_sure b : b n = Some dn -> sure b (db_distinct inode ords n) (distinct_values m "item").
Proof.
  intros Hb s F Sm. rewrite (distinct_appearing m "item" DInt (in_wf m D) ltac:(discriminate) (EvalSpec.in_cols m D "item" ltac:(cbn; auto)) (in_item m D)).
  set (vs := appearing (column "item" (rows_of m))).
  destruct (unique_sure b "item" (snd s) Hb ltac:(cbn; auto) F Sm) as (w1 & j & E1 & Fr & F1 & Sm1 & z & Hz & Dz).
  assert (Nj : j <> i). { intros ->. destruct F as (_ & X & _). congruence. }
  destruct (column_sure (note b j (Some (col_ds dn "item"))) j "item" false (ords (fst s)) w1 z (note_same _ _ _) Nj ltac:(cbn; auto) (Po _) (So _) F1 Sm1 Hz ltac:(lia)) as (w2 & E2 & F2 & Sm2).
  fold vs in E2.
  destruct (close_runs inode i d _ j _ (note_same b j (Some (col_ds dn "item"))) Nj (Datatypes.S (fst s), w2) F2) as (s3 & r3 & b3 & E3 & F3 & -> & ->).
  exists s3, (note (note b j (Some (col_ds dn "item"))) j None). split; [|split; [|split]].
  - unfold db_distinct, pbind, db at 1. rewrite E1. cbn [fst]. unfold db_items, pbind, db_values, pbind, dbo. cbn [fst snd]. rewrite E2. unfold pret.
    rewrite filled_column. rewrite singles. rewrite E3. f_equal. f_equal. apply dedup_ints; [apply appearing_nodup|].
    intros v Hv. destruct (appearing_ints "item" ltac:(cbn; auto) v Hv) as (x & -> & _). eauto.
  - exact F3.
  - pose proof (pkeeps_close inode j (Datatypes.S (fst s), w2) Sm2) as K. rewrite E3 in K. exact K.
  - intros x Hx. unfold note. destruct (Nat.eqb_spec x j) as [->|]; [congruence|auto].
Qed.
(** the users *)
Lemma users_sure b k s : b n = Some dn -> fine (snd s) b -> small_world (snd s) -> exists s' j us,
  db_test_users inode ords n k s = (s', Ok (j, us)) /\ b j = None /\ j <> i /\ fine (snd s') (note b j (Some (col_ds dn "user"))) /\ small_world (snd s') /\
  (match k with Some k => 0 < k | None => True end -> test_users m k = Ok us) /\ forall u, In u us -> exists z, u = VInt z /\ Z.abs z <= 2 ^ 53.
Proof.
  intros Hb F Sm. set (vs := appearing (column "user" (rows_of m))).
  destruct (unique_sure b "user" (snd s) Hb ltac:(cbn; auto) F Sm) as (w1 & j & E1 & Fr & F1 & Sm1 & z & Hz & Dz).
  assert (Nj : j <> i). { intros ->. destruct F as (_ & X & _). congruence. }
  destruct (column_sure (note b j (Some (col_ds dn "user"))) j "user" true (ords (fst s)) w1 z (note_same _ _ _) Nj ltac:(cbn; auto) (Po _) (So _) F1 Sm1 Hz ltac:(lia)) as (w2 & E2 & F2 & Sm2).
  fold vs in E2.
  destruct (len_runs inode i d _ j _ (note_same b j (Some (col_ds dn "user"))) (fst s, w1) F1) as (s3 & r3 & b3 & E3 & F3 & _ & ->).
  assert (E3' : ds_len j w1 = (w1, Ok (length (d_rows (col_ds dn "user"))))).
  { unfold db in E3. cbn [fst snd] in E3. unfold ds_len, andthen, self, ret in E3 |- *. rewrite Hz in E3 |- *. apply (f_equal snd) in E3. cbn [snd] in E3. rewrite E3. reflexivity. }
  assert (Ln : length (d_rows (col_ds dn "user")) = length vs).
  { pose proof (firsts_appearing m "user" DInt (in_wf m D) ltac:(discriminate) (EvalSpec.in_cols m D "user" ltac:(cbn; auto)) (in_user m D)) as Fa.
    assert (Tu : twin (col_ds dn "user") (set_columns (set_df m (mkFrame (project_types ["user"] (f_types (m_df m))) (map (project_row ["user"]) (drop_duplicates ["user"] (rows_of m))))) (["user"] ++ ["rid"]))).
    { apply (twin_unique dn m ["user"] Tw); [constructor; [intros []|constructor]|intros [?|[]]; discriminate|intros x [<-|[]]; apply (EvalSpec.in_cols m D); cbn; auto]. }
    rewrite (twin_length _ _ Tu). subst vs. rewrite <- Fa. unfold rows_of, set_columns, set_df. cbn. rewrite !map_length. reflexivity. }
  set (q := Z.to_nat (match k with None => Z.of_nat (length vs) | Some k => Z.min k (Z.of_nat (length vs)) end)).
  exists (Datatypes.S (fst s), w2), j, (firstn q vs). split; [|split; [exact Fr|split; [exact Nj|split; [exact F2|split; [exact Sm2|split]]]]].
  - unfold db_test_users, pbind, db at 1. rewrite E1. cbn [fst snd]. unfold db, dbo. cbn [fst snd]. rewrite E3'. cbn [fst snd]. rewrite E2. unfold pret.
    assert (Em : mapM (fun row : list (option value) => v <- mapM filled row;; match v with [x] => Ok x | _ => Err TypeError end) (map (fun v => [Some v]) vs) = Ok vs).
    { clear. induction vs as [|v vs IH]; [auto|]. cbn [map mapM]. cbn [mapM filled bind]. rewrite IH. reflexivity. }
    rewrite Em. rewrite Ln. reflexivity.
  - intro Hk. unfold test_users. rewrite (distinct_appearing m "user" DInt (in_wf m D) ltac:(discriminate) (EvalSpec.in_cols m D "user" ltac:(cbn; auto)) (in_user m D)).
    fold vs. cbn [bind]. f_equal. subst q. destruct k as [k|].
    + destruct (Z.min_spec k (Z.of_nat (length vs))) as [[L ->]|[L ->]]; [auto|]. rewrite Nat2Z.id. rewrite !firstn_all2 by lia. auto.
    + rewrite Nat2Z.id, firstn_all. auto.
  - intros u Hu. apply (appearing_ints "user"); [cbn; auto|]. fold vs. rewrite <- (firstn_skipn q vs). apply in_or_app. left. exact Hu.
Qed.
End One.
End Reads.
