(** Splits on database data sets: when they raise, and when they do not return. *)
From Coq Require Import String Ascii.
From Coq Require Import List ZArith QArith Qcanon Qround Bool Permutation Sorted Lia.
From Verif Require Import Py PyFacts MemModel MemSpec SplitModel SplitSpec
  DbModel DbFacts DbFacts2 DbFacts3 DbFacts4 DbFacts5 DbFacts7 DbFacts12 DbFacts13 DbFacts14 DbFacts17 DbSpec SampModel DbGenModel DbGenSpec DbGenFacts2
  DbSplitModel DbSplitSpec DbSplitFacts DbSplitFacts2 DbSplitFacts3 DbSplitFacts4 DbSplitFacts5 DbSplitFacts6 DbSplitFacts8 DbSplitFacts9.
Import ListNotations.
Open Scope string_scope.
Open Scope Z_scope.
Open Scope list_scope.

(** ** The distinct values of a column of a large data set *)
Section Raises.
Variable inode : string -> nat.
Notation reaches := (reaches inode).

Lemma unique_end_raises {A} (a : A) w j y c l : Base inode w -> w_inst w j = Some (set_cols y [c]) ->
  settled (tables inode w (i_path y)) y -> In c (i_cols y) -> c <> "rid" ->
  w_tabs w (i_path y) (i_table y) = Some l -> length l <> 1%nat ->
  worth_it (length (firsts [c] (den (tables inode w (i_path y)) y))) (i_before y) (Datatypes.S (i_queries y)) (w_open w) = true ->
  exists w', (y' <~ self j ;;
   _ <~ put j (set_cols y' [c; "rid"]) ;;
   _ <~ update_state inode j (mkSel [c; "rid"] (curr_source y') [WMin [c]]) ;; ret a) w = (w', Err AssertionError).
Proof.
  intros B H S I Nc Tl Ll Wi. rewrite (andthen_ok _ _ _ _ _ (self_ok j w _ H)).
  set (z := set_cols (set_cols y [c]) [c; "rid"]).
  set (w1 := set_insts w (upd_nat (w_inst w) j (Some z))) in *.
  rewrite (andthen_ok _ _ w w1 tt) by reflexivity.
  pose proof (b_inst inode w B j _ H) as So.
  assert (H1 : w_inst w1 j = Some z) by (cbn; apply upd_nat_same).
  assert (So' : src_ok (tables inode w (i_path y)) y) by (destruct So as (tb & ds & rows & T); exists tb, ds, rows; exact T).
  assert (ND : NoDup [c]) by (constructor; [intros []|constructor]).
  assert (Ic : incl [c] (i_cols y)) by (intros ? [<-|[]]; auto).
  destruct (unique_fits (tables inode w (i_path y)) y [c] So' S ltac:(discriminate) ND Ic) as (rows & F & Dr).
  assert (Wc : with_rid [c] = [c; "rid"]).
  { unfold with_rid, in_cols. cbn [mem_b]. rewrite (proj2 (String.eqb_neq _ _)) by congruence. auto. }
  rewrite Wc in F. destruct F as (Bq & Eq & _).
  assert (Ln : length rows = length (firsts [c] (den (tables inode w (i_path y)) y))).
  { apply (f_equal (@length _)) in Dr. rewrite !map_length in Dr. exact Dr. }
  rewrite <- Ln in Wi.
  assert (Op : w_open w = 0%nat).
  { unfold worth_it in Wi. rewrite !andb_true_iff in Wi. destruct Wi as [_ Wi]. apply Nat.eqb_eq in Wi. auto. }
  unfold update_state at 1.
  set (z2 := set_counts z (i_n z) (i_before z) (Datatypes.S (i_queries z)) (i_direct z)).
  set (w2 := set_insts w1 (upd_nat (w_inst w1) j (Some z2))).
  set (q := mkSel [c; "rid"] (curr_source (set_cols y [c])) [WMin [c]]) in *.
  set (z3 := set_state (set_counts z2 (length rows) (i_before z2) (i_queries z2) (i_direct z2)) (Some q)).
  set (w3 := set_insts w2 (upd_nat (w_inst w2) j (Some z3))).
  set (z4 := set_counts z3 (length rows) (length rows) (i_queries z3) (i_direct z3)).
  set (w4 := set_insts w3 (upd_nat (w_inst w3) j (Some z4))).
  set (z5 := set_counts z4 (i_n z4) (i_before z4) 0 0).
  set (w5 := set_insts w4 (upd_nat (w_inst w4) j (Some z5))).
  exists (set_fresh w5 (Datatypes.S (w_fresh w5))).
  assert (H4 : w_inst w4 j = Some z4) by (cbn; apply upd_nat_same).
  assert (Opt : optimize inode j true w4 = (set_fresh w5 (Datatypes.S (w_fresh w5)), Err AssertionError)).
  { unfold optimize. rewrite (andthen_ok _ _ _ _ _ (self_ok j w4 _ H4)). cbv zeta.
    rewrite (andthen_ok _ _ w4 w5 tt) by reflexivity.
    rewrite (andthen_ok _ _ w5 w5 (w_open w)) by reflexivity.
    change (i_state (set_counts z4 (i_n z4) (i_before z4) 0 0)) with (Some q). cbv iota. rewrite Op. cbn [Nat.ltb Nat.leb].
    rewrite (andthen_ok _ _ w5 w5 l).
    2:{ change (w_tabs w5) with (w_tabs w). change (i_path (set_counts z4 (i_n z4) (i_before z4) 0 0)) with (i_path y).
        change (i_table (set_counts z4 (i_n z4) (i_before z4) 0 0)) with (i_table y). rewrite Tl. auto. }
    rewrite (proj2 (Nat.eqb_neq (length l) 1) Ll).
    rewrite (andthen_ok _ _ w5 (set_fresh w5 (Datatypes.S (w_fresh w5))) (tname (w_fresh w5))) by reflexivity.
    assert (Bt : build_types (set_counts z4 (i_n z4) (i_before z4) 0 0) = Err AssertionError).
    { unfold build_types. change (i_cols (set_counts z4 (i_n z4) (i_before z4) 0 0)) with [c; "rid"].
      assert (X : forallb (fun c0 => in_cols c0 [c; "rid"]) required = false); [|rewrite X; auto].
      unfold required, in_cols. cbn [forallb mem_b].
      destruct (String.eqb_spec "user" c) as [<-|N1]; [reflexivity|].
      replace (String.eqb "user" "rid") with false by reflexivity.
      rewrite !orb_false_r. cbn [orb andb]. destruct (String.eqb "rid" c || String.eqb "rid" "rid")%bool; reflexivity. }
    rewrite Bt. reflexivity. }
  assert (U : update_state inode j q w1 = (set_fresh w5 (Datatypes.S (w_fresh w5)), Err AssertionError)).
  { unfold update_state. rewrite (andthen_ok _ _ _ _ _ (self_ok j w1 _ H1)). cbv zeta.
    rewrite (andthen_ok _ _ w1 w2 tt) by reflexivity.
    rewrite (andthen_ok _ _ w2 w2 ([c; "rid"], rows)).
    2:{ unfold query. change (tables inode w2 (i_path (set_counts z (i_n z) (i_before z) (Datatypes.S (i_queries z)) (i_direct z))))
          with (tables inode w (i_path y)). change (src_of q) with (src_of (mkSel [c; "rid"] (curr_source y) [WMin [c]])). rewrite Eq. auto. }
    cbn [snd]. rewrite (andthen_ok _ _ w2 w3 tt) by reflexivity.
    rewrite (andthen_ok _ _ w3 w3 (w_open w)) by reflexivity.
    change (i_before (set_state _ _)) with (i_before y). change (i_queries (set_state _ _)) with (Datatypes.S (i_queries y)).
    rewrite Wi. rewrite (andthen_ok _ _ w3 w4 tt) by reflexivity. exact Opt. }
  change (andthen (update_state inode j q) (fun _ => ret a) w1 = (set_fresh w5 (Datatypes.S (w_fresh w5)), Err AssertionError)).
  unfold andthen. rewrite U. reflexivity.
Qed.
(** more than 5000 rows would go and fewer than 80 % would stay, after two selections *)
Definition too_large (w : world) (i : nat) (c : string) (d : ds) : Prop :=
  exists x, w_inst w i = Some x /\ (i_direct x < 3)%nat /\
    worth_it (length (firsts_of c d)) (i_before x) (Datatypes.S (i_queries x)) (w_open w) = true.
Lemma unique_raises w b i d c : reaches w b -> b i = Some d -> In c (d_cols d) -> c <> "rid" -> too_large w i c d ->
  exists w', unique inode i (Some [c]) true w = (w', Err AssertionError).
Proof.
  intros R Hb Hc Nc (x & H & L3 & Wi). pose proof (reaches_inv _ _ _ R) as Iv. pose proof (inv_base _ _ _ Iv) as B.
  pose proof (inv_ds _ _ _ Iv i d Hb) as Sh. destruct (shows_inst inode w i d Sh) as (x' & H' & C & T & Di & P).
  assert (x' = x) by congruence. subst x'. clear H'.
  pose proof (proj1 Sh) as S.
  destruct (den_good inode w i x B S H) as (Ty & Nr & Ks & _).
  assert (Lf : length (firsts [c] (den (tables inode w (i_path x)) x)) = length (firsts_of c d)).
  { rewrite firsts_spec; [|apply (typed_incl _ (i_cols x)); [auto|rewrite C; intros ? [<-|[]]; auto]|auto].
    apply Permutation_length. apply first_of_group_perm; auto. }
  rewrite <- Lf in Wi.
  unfold unique. rewrite (andthen_ok _ _ _ _ _ (self_ok i w x H)).
  assert (Ic : incl [c] (i_cols x)) by (intros ? [<-|[]]; rewrite C; auto).
  assert (Hk : handle_columns x (Some [c]) = Ok [c]) by (apply (handle_ok x (Some [c])); exact Ic).
  rewrite (andthen_ok _ _ w w [c]) by (unfold lift; rewrite Hk; auto). cbn [target touched].
  rewrite (andthen_ok _ _ _ _ _ (copy_eq inode w i x B H)).
  destruct (copy_spec inode w i x B H) as (B1 & U & Hn & Op & Nx & Tb & Dn & Nei & Sn).
  set (j := w_next w) in *. set (w1 := reg_world w (copy_inst x)) in *.
  assert (H1 : w_inst w1 i = Some x) by (destruct (U i Nei) as [-> _]; auto).
  assert (S1 : settledw inode w1 i) by (eapply unchanged_settled; [apply U; auto|auto]).
  rewrite (andthen_ok _ _ _ _ _ (self_ok j w1 _ Hn)).
  set (z := set_cols (copy_inst x) [c]).
  set (w2 := set_insts w1 (upd_nat (w_inst w1) j (Some z))) in *.
  rewrite (andthen_ok _ _ w1 w2 tt) by reflexivity.
  assert (W2 : works inode w1 w2 j).
  { apply put_works with (x := copy_inst x); auto. destruct (b_inst inode w1 B1 j _ Hn) as (tb & ds & rows & Q). exists tb, ds, rows. exact Q. }
  pose proof (wk_base _ _ _ _ W2) as B2.
  assert (U2 : unchanged inode w1 w2 i) by (apply put_unchanged; auto).
  assert (H2 : w_inst w2 i = Some x) by (destruct U2 as [-> _]; auto).
  assert (S2 : settledw inode w2 i) by (eapply unchanged_settled; eauto).
  assert (Hz : w_inst w2 j = Some z) by (cbn; apply upd_nat_same).
  set (w3 := set_insts w2 (upd_nat (w_inst w2) i (Some (set_counts x (i_n x) (i_before x) (i_queries x) (Datatypes.S (i_direct x)))))).
  assert (Er : record_interaction inode i w2 = (w3, Ok tt)).
  { unfold record_interaction. rewrite (andthen_ok _ _ _ _ _ (self_ok i w2 x H2)).
    rewrite (andthen_ok _ _ w2 w3 tt) by reflexivity.
    rewrite (andthen_ok _ _ _ _ (w_open w3)) by reflexivity.
    rewrite (proj2 (Nat.leb_gt 4 (Datatypes.S (i_direct x)))) by lia. reflexivity. }
  destruct (record_spec inode w2 i x w3 _ B2 S2 H2 Er) as [Q _].
  rewrite (andthen_ok _ _ _ _ _ Er).
  assert (U3 : unchanged inode w2 w3 j) by (apply (qu_others _ _ _ _ Q); auto).
  assert (H3 : w_inst w3 j = Some (set_cols (copy_inst x) [c])) by (destruct U3 as [-> _]; auto).
  assert (Tj : tables inode w3 (i_path x) (i_table x) = tables inode w (i_path x) (i_table x)).
  { destruct U3 as [_ U3]. exact (U3 z Hz). }
  assert (Sj : settled (tables inode w3 (i_path (copy_inst x))) (copy_inst x)).
  { destruct (S x H) as (N & Rr & tb & Tt & X). split; [exact N|]. split; [exact Rr|]. exists tb. split; [|exact X].
    cbn [copy_inst i_path i_table]. rewrite Tj. exact Tt. }
  assert (De : den (tables inode w3 (i_path (copy_inst x))) (copy_inst x) = den (tables inode w (i_path x)) x).
  { unfold den. change (curr_source (copy_inst x)) with (curr_source x). change (i_path (copy_inst x)) with (i_path x).
    rewrite (eval_ext (tables inode w3 (i_path x)) (tables inode w (i_path x))); [auto|].
    destruct (b_inst inode w B i x H) as (tb & ds & rows & Tt & Bs & _). rewrite Bs. auto. }
  assert (Oq : w_open w3 = w_open w) by (rewrite (qu_open _ _ _ _ Q); auto).
  assert (Wc : (if in_cols "rid" [c] then [c] else ([c] ++ ["rid"])%list) = [c; "rid"]).
  { unfold in_cols. cbn [mem_b]. rewrite (proj2 (String.eqb_neq _ _)) by congruence. auto. }
  pose proof (qu_base _ _ _ _ Q) as B3.
  destruct (w_tabs w3 (i_path x) (i_table x)) as [l|] eqn:El; [|exfalso; exact (b_tabs2 inode w3 B3 j _ H3 El)].
  assert (Ll : length l <> 1%nat).
  { destruct (b_tabs inode w3 B3 _ _ _ El) as [_ M].
    assert (A1 : In j l) by (apply M; exists z; auto).
    assert (A2 : In i l) by (apply M; eexists; split; [cbn; apply upd_nat_same|auto]).
    intro K. destruct l as [|e [|]]; try discriminate. destruct A1 as [->|[]]. destruct A2 as [->|[]]. congruence. }
  destruct (unique_end_raises (j, Some [c; "rid"]) w3 j (copy_inst x) c l B3 H3 Sj) as (w' & E); auto.
  - apply Ic. left. auto.
  - exists w'. cbv zeta. rewrite Wc. exact E.
Qed.
Theorem lko_raises fmul sample a w b i d ord0 sched ords t : reaches w b -> b i = Some d -> complete d -> too_large w i "user" d ->
  lko_args_ok a = true -> exists w', db_leave_k_out inode fmul sample a i ord0 sched ords t w = (w', DbRaised AssertionError).
Proof.
  intros R Hb Cm Tl Ha. destruct (unique_raises w b i d "user" R Hb) as [w' E]; [apply Cm; cbn; auto|discriminate|auto|].
  exists w'. rewrite lko_unfold, Ha. unfold user_prelude, andthen at 1. rewrite E. auto.
Qed.
Theorem ms_raises fmul su si a w b i d ord0 ord1 sched ords t : reaches w b -> b i = Some d -> complete d -> too_large w i "user" d ->
  ms_args_ok a = true -> exists w', db_matrix_split inode fmul su si a i ord0 ord1 sched ords t w = (w', DbRaised AssertionError).
Proof.
  intros R Hb Cm Tl Ha. destruct (unique_raises w b i d "user" R Hb) as [w' E]; [apply Cm; cbn; auto|discriminate|auto|].
  exists w'. rewrite ms_unfold, Ha. unfold ms_prelude, col_prelude, andthen at 1 2. rewrite E. auto.
Qed.
End Raises.

(** ** Users that are not numbers *)
Section Text.
Variable inode : string -> nat.
Definition no_query (u : option value) : Prop := forall y, exists e, parse_query y (String.append "user == " (user_text u)) = Err e.
Lemma select_fails i u w : no_query u -> exists w' e, select inode i (String.append "user == " (user_text u)) true w = (w', Err e).
Proof.
  intro N. unfold select. unfold andthen at 1. destruct (target inode i true w) as [w1 [j|e]]; [|eauto].
  unfold andthen at 1. destruct (touched inode i true w1) as [w2 [[]|e]]; [|eauto].
  unfold andthen at 1. destruct (self j w2) as [w3 [y|e]]; [|eauto].
  unfold andthen at 1, lift. destruct (N y) as [e ->]. eauto.
Qed.
(** a task of such a user fails *)
Definition lost (t : task) : Prop := match t with Waiting _ u => no_query u | Failed => True | _ => False end.
Lemma lost_step pl i ord t w : lost t -> exists w', task_step inode pl i ord t w = (w', Failed, [], [], 0%nat).
Proof.
  destruct t; cbn [lost]; intro L; try contradiction; [|exists w; auto].
  cbn [task_step]. destruct (select_fails i u w L) as (w' & e & E). exists w'. change (String.append "user == " (user_text u)) with ("user == " ++ user_text u)%string in E. rewrite E. auto.
Qed.
Lemma set_nth_all {A} (P : A -> Prop) k t l : Forall P l -> P t -> Forall P (Conc.set_nth k t l).
Proof.
  intros F H. revert k. induction F as [|a l Ha F IH]; intros [|k]; cbn; auto.
Qed.
Lemma set_nth_len {A} k (t : A) l : length (Conc.set_nth k t l) = length l.
Proof. revert k. induction l as [|a l IH]; intros [|k]; cbn; auto. Qed.
Theorem never_returns pl i temps sched ords g0 : Forall lost (g_tasks g0) -> g_tasks g0 <> [] -> g_done g0 = 0%nat ->
  (g_main g0 = Polling \/ g_main g0 = Submitting) ->
  forall t, let g := prog_run inode pl i temps true sched ords t g0 in
    Forall lost (g_tasks g) /\ g_tasks g <> [] /\ g_done g = 0%nat /\ (g_main g = Polling \/ g_main g = Submitting).
Proof.
  intros L0 N0 D0 M0 t. cbv zeta. induction t as [|t IH]; cbn [prog_run]; [auto|].
  set (g := prog_run _ _ _ _ _ _ _ _ _) in *. clearbody g. destruct IH as (L & N & D & M). unfold prog_step. destruct (sched t) as [k|].
  - destruct (nth_error (g_tasks g) k) as [tk|] eqn:E; [|auto].
    assert (Lt : lost tk) by (rewrite Forall_forall in L; apply L; eapply nth_error_In; eauto).
    destruct (lost_step pl i (ords t) tk (g_world g) Lt) as [w' Es].
    destruct (g_main g) eqn:Em; try (destruct M; discriminate); rewrite Es; cbn [g_tasks g_done g_main];
      (split; [apply set_nth_all; [auto|exact Logic.I]|]);
      (split; [intro Z; apply (f_equal (@length _)) in Z; unfold set_nth_task in Z; rewrite set_nth_len in Z; destruct (g_tasks g); [congruence|discriminate]|]);
      (split; [lia|auto]).
  - unfold main_step. destruct M as [Em|Em]; rewrite Em.
    + rewrite D, (proj2 (Nat.leb_gt (length (g_tasks g)) 0)); [auto|]. destruct (g_tasks g); [congruence|cbn; lia].
    + cbn [g_tasks g_done g_main]. auto.
Qed.
Theorem lko_hangs fmul sample a i ord0 w w1 uj us : lko_args_ok a = true -> a_verbose a = true ->
  user_prelude inode ord0 i w = (w1, Ok (uj, us)) -> us <> [] -> Forall no_query us ->
  forall sched ords t, exists w', db_leave_k_out inode fmul sample a i ord0 sched ords t w = (w', DbRunning).
Proof.
  intros Ha Hv E Ne F sched ords t. rewrite lko_unfold, Ha, E, Hv. unfold outcome_of.
  destruct (never_returns (lko_plan fmul sample a) i [uj] sched ords (mkProg w1 (numbered_from (a_seed a) us) [] [] 0 Submitting)) with (t := t)
    as (_ & _ & _ & M); cbn [g_tasks g_done g_main]; auto.
  - unfold numbered_from. apply Forall_forall. intros x Hx. apply in_map_iff in Hx. destruct Hx as ([k u] & <- & Hp). cbn [lost fst snd].
    rewrite Forall_forall in F. apply F. eapply in_combine_r; eauto.
  - unfold numbered_from. destruct us; [congruence|discriminate].
  - eexists. destruct M as [-> | ->]; reflexivity.
Qed.
Theorem ms_hangs fmul su si a i ord0 ord1 w w1 uj ij us tu ti : ms_args_ok a = true -> b_verbose a = true ->
  ms_prelude inode fmul su si a i ord0 ord1 w = (w1, Ok (uj, ij, us, tu, ti)) -> us <> [] -> Forall no_query us ->
  forall sched ords t, exists w', db_matrix_split inode fmul su si a i ord0 ord1 sched ords t w = (w', DbRunning).
Proof.
  intros Ha Hv E Ne F sched ords t. rewrite ms_unfold, Ha, E, Hv. unfold outcome_of.
  destruct (never_returns (ms_plan (b_min a) tu ti) i [uj; ij] sched ords (mkProg w1 (map (Waiting 0) us) [] [] 0 Polling)) with (t := t)
    as (_ & _ & _ & M); cbn [g_tasks g_done g_main]; auto.
  - apply Forall_forall. intros x Hx. apply in_map_iff in Hx. destruct Hx as (u & <- & Hp). cbn [lost]. rewrite Forall_forall in F. auto.
  - destruct us; [congruence|discriminate].
  - eexists. destruct M as [-> | ->]; reflexivity.
Qed.
End Text.
