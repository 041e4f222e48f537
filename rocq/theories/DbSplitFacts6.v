(** Splits on database data sets: when the distinct values of a column can be read. *)
From Coq Require Import String Ascii.
From Coq Require Import List ZArith QArith Qcanon Qround Bool Permutation Sorted Lia.
From Verif Require Import Py PyFacts MemModel MemSpec SplitModel SplitSpec
  DbModel DbFacts DbFacts2 DbFacts3 DbFacts4 DbFacts5 DbFacts7 DbFacts12 DbFacts13 DbFacts14 DbFacts17 DbSpec SampModel DbGenModel DbGenSpec DbGenFacts2
  DbSplitModel DbSplitSpec DbSplitFacts DbSplitFacts2 DbSplitFacts3 DbSplitFacts4 DbSplitFacts5.
Import ListNotations.
Open Scope string_scope.
Open Scope Z_scope.
Open Scope list_scope.

(** The number of distinct values, as update_state counts them. *)
Definition firsts_of (c : string) (d : ds) : list trow := filter (first_of_group [c] (d_rows d)) (d_rows d).
(** The data set of the distinct values of column [c] of data set [i] stays a
    query: update_state does not give it a table of its own. *)
Definition stays_query (w : world) (i : nat) (c : string) (d : ds) : Prop :=
  forall x, w_inst w i = Some x -> worth_it (length (firsts_of c d)) (i_before x) (Datatypes.S (i_queries x)) (w_open w) = false.

Section Ready.
Variable inode : string -> nat.
Notation reaches := (reaches inode).
Notation Inv := (Inv inode).

Lemma unique_end_lazy {A} (a : A) w j y cs : Base inode w -> w_inst w j = Some (set_cols y cs) ->
  settled (tables inode w (i_path y)) y -> NoDup cs -> cs <> [] -> incl cs (i_cols y) ->
  worth_it (length (firsts cs (den (tables inode w (i_path y)) y))) (i_before y) (Datatypes.S (i_queries y)) (w_open w) = false ->
  exists w', (y' <~ self j ;;
   _ <~ put j (set_cols y' (with_rid cs)) ;;
   _ <~ update_state inode j (mkSel (with_rid cs) (curr_source y') [WMin cs]) ;; ret a) w = (w', Ok a) /\
   w_open w' = w_open w /\ exists z, w_inst w' j = Some z /\ i_direct z = i_direct y.
Proof.
  intros B H S ND Ne I Wi. rewrite (andthen_ok _ _ _ _ _ (self_ok j w _ H)).
  set (z := set_cols (set_cols y cs) (with_rid cs)).
  set (w1 := set_insts w (upd_nat (w_inst w) j (Some z))) in *.
  rewrite (andthen_ok _ _ w w1 tt) by reflexivity.
  pose proof (b_inst inode w B j _ H) as So.
  assert (H1 : w_inst w1 j = Some z) by (cbn; apply upd_nat_same).
  assert (So' : src_ok (tables inode w (i_path y)) y) by (destruct So as (tb & ds & rows & T); exists tb, ds, rows; exact T).
  destruct (unique_fits (tables inode w (i_path y)) y cs So' S Ne ND I) as (rows & F & Dr).
  destruct F as (Bq & Eq & _).
  assert (Ln : length rows = length (firsts cs (den (tables inode w (i_path y)) y))).
  { apply (f_equal (@length _)) in Dr. rewrite !map_length in Dr. exact Dr. }
  rewrite <- Ln in Wi.
  unfold update_state at 1.
  set (z2 := set_counts z (i_n z) (i_before z) (Datatypes.S (i_queries z)) (i_direct z)).
  set (w2 := set_insts w1 (upd_nat (w_inst w1) j (Some z2))).
  set (q := mkSel (with_rid cs) (curr_source (set_cols y cs)) [WMin cs]) in *.
  set (z3 := set_state (set_counts z2 (length rows) (i_before z2) (i_queries z2) (i_direct z2)) (Some q)).
  set (w3 := set_insts w2 (upd_nat (w_inst w2) j (Some z3))).
  exists w3. split.
  - assert (U : (x0 <~ self j;;
       (let x := set_counts x0 (i_n x0) (i_before x0) (Datatypes.S (i_queries x0)) (i_direct x0) in
        _ <~ put j x;;
        (r <~ query inode x (src_of q);;
         (let n := length (snd r) in
          let y0 := set_state (set_counts x n (i_before x) (i_queries x) (i_direct x)) (Some q) in
          _ <~ put j y0;;
          (n_open <~ (fun w0 : world => (w0, Ok (w_open w0)));;
           (if worth_it n (i_before y0) (i_queries y0) n_open
            then _ <~ put j (set_counts y0 n n (i_queries y0) (i_direct y0));; optimize inode j true
            else ret tt)))))) w1 = (w3, Ok tt)).
    { rewrite (andthen_ok _ _ _ _ _ (self_ok j w1 _ H1)). cbv zeta.
      rewrite (andthen_ok _ _ w1 w2 tt) by reflexivity.
      rewrite (andthen_ok _ _ w2 w2 (with_rid cs, rows)).
      2:{ unfold query. change (tables inode w2 (i_path (set_counts z (i_n z) (i_before z) (Datatypes.S (i_queries z)) (i_direct z))))
            with (tables inode w (i_path y)). change (src_of q) with (src_of (mkSel (with_rid cs) (curr_source y) [WMin cs])). rewrite Eq. auto. }
      cbn [snd]. rewrite (andthen_ok _ _ w2 w3 tt) by reflexivity.
      rewrite (andthen_ok _ _ w3 w3 (w_open w)) by reflexivity.
      change (i_before (set_state _ _)) with (i_before y). change (i_queries (set_state _ _)) with (Datatypes.S (i_queries y)).
      rewrite Wi. reflexivity. }
    rewrite (andthen_ok _ _ _ _ _ U). reflexivity.
  - split; [reflexivity|]. exists z3. split; [cbn; apply upd_nat_same|reflexivity].
Qed.

Lemma unique_ready w b i d c : reaches w b -> b i = Some d -> complete d -> In c (d_cols d) -> c <> "rid" -> stays_query w i c d ->
  exists w' j, unique inode i (Some [c]) true w = (w', Ok (j, Some [c; "rid"])) /\ w_open w' = w_open w /\
    exists z, w_inst w' j = Some z /\ i_direct z = 0%nat.
Proof.
  intros R Hb Cm Hc Nc Wi. pose proof (reaches_inv _ _ _ R) as Iv. pose proof (inv_base _ _ _ Iv) as B.
  pose proof (inv_ds _ _ _ Iv i d Hb) as Sh. destruct (shows_inst inode w i d Sh) as (x & H & C & T & Di & P).
  pose proof (proj1 Sh) as S. specialize (Wi x H).
  destruct (den_good inode w i x B S H) as (Ty & Nr & Ks & _).
  assert (Lf : length (firsts [c] (den (tables inode w (i_path x)) x)) = length (firsts_of c d)).
  { rewrite firsts_spec; [|apply (typed_incl _ (i_cols x)); [auto|rewrite C; intros ? [<-|[]]; auto]|auto].
    apply Permutation_length. apply first_of_group_perm; auto. }
  rewrite <- Lf in Wi.
  unfold unique. rewrite (andthen_ok _ _ _ _ _ (self_ok i w x H)).
  assert (Ic : incl [c] (i_cols x)) by (intros ? [<-|[]]; rewrite C; auto).
  assert (Hk : handle_columns x (Some [c]) = Ok [c]) by (apply (handle_ok x (Some [c])); exact Ic).
  rewrite (andthen_ok _ _ w w [c]) by (unfold lift; rewrite Hk; auto). cbn [target touched].
  rewrite (andthen_ok _ _ _ _ _ (copy_eq inode w i x B H)).
  destruct (copy_spec inode w i x B H) as (B1 & U & Hn & Op & Nx & Tb & Dn & Nei & Sn).
  set (j := w_next w) in *. set (w1 := reg_world w (copy_inst x)) in *.
  assert (H1 : w_inst w1 i = Some x) by (destruct (U i Nei) as [-> _]; auto).
  assert (S1 : settledw inode w1 i) by (eapply unchanged_settled; [apply U; auto|auto]).
  rewrite (andthen_ok _ _ _ _ _ (self_ok j w1 _ Hn)).
  set (z := set_cols (copy_inst x) [c]).
  set (w2 := set_insts w1 (upd_nat (w_inst w1) j (Some z))) in *.
  rewrite (andthen_ok _ _ w1 w2 tt) by reflexivity.
  assert (W2 : works inode w1 w2 j).
  { apply put_works with (x := copy_inst x); auto. destruct (b_inst inode w1 B1 j _ Hn) as (tb & ds & rows & Q). exists tb, ds, rows. exact Q. }
  pose proof (wk_base _ _ _ _ W2) as B2.
  assert (U2 : unchanged inode w1 w2 i) by (apply put_unchanged; auto).
  assert (H2 : w_inst w2 i = Some x) by (destruct U2 as [-> _]; auto).
  assert (S2 : settledw inode w2 i) by (eapply unchanged_settled; eauto).
  assert (Hz : w_inst w2 j = Some z) by (cbn; apply upd_nat_same).
  destruct (record_interaction inode i w2) as [w3 r3] eqn:Er.
  destruct (record_spec inode w2 i x w3 r3 B2 S2 H2 Er) as [Q Cr].
  assert (Rd : readable x) by (left; apply (complete_build d); auto).
  specialize (Cr Rd). subst r3. rewrite (andthen_ok _ _ _ _ _ Er).
  assert (U3 : unchanged inode w2 w3 j) by (apply (qu_others _ _ _ _ Q); auto).
  assert (H3 : w_inst w3 j = Some (set_cols (copy_inst x) [c])) by (destruct U3 as [-> _]; auto).
  assert (Tj : tables inode w3 (i_path x) (i_table x) = tables inode w (i_path x) (i_table x)).
  { destruct U3 as [_ U3]. exact (U3 z Hz). }
  assert (Sj : settled (tables inode w3 (i_path (copy_inst x))) (copy_inst x)).
  { destruct (S x H) as (N & Rr & tb & Tt & X). split; [exact N|]. split; [exact Rr|]. exists tb. split; [|exact X].
    cbn [copy_inst i_path i_table]. rewrite Tj. exact Tt. }
  assert (De : den (tables inode w3 (i_path (copy_inst x))) (copy_inst x) = den (tables inode w (i_path x)) x).
  { unfold den. change (curr_source (copy_inst x)) with (curr_source x). change (i_path (copy_inst x)) with (i_path x).
    rewrite (eval_ext (tables inode w3 (i_path x)) (tables inode w (i_path x))); [auto|].
    destruct (b_inst inode w B i x H) as (tb & ds & rows & Tt & Bs & _). rewrite Bs. auto. }
  assert (Oq : w_open w3 = w_open w) by (rewrite (qu_open _ _ _ _ Q); auto).
  assert (Er2 : (if in_cols "rid" [c] then [c] else ([c] ++ ["rid"])%list) = with_rid [c]) by reflexivity.
  assert (Wc : with_rid [c] = [c; "rid"]).
  { unfold with_rid, in_cols. cbn [mem_b]. rewrite (proj2 (String.eqb_neq _ _)) by congruence. auto. }
  destruct (unique_end_lazy (j, Some [c; "rid"]) w3 j (copy_inst x) [c] (qu_base _ _ _ _ Q) H3 Sj) as (w' & E & Ow & zz & Hzz & Dz).
  - constructor; [intros []|constructor].
  - discriminate.
  - exact Ic.
  - rewrite De, Oq. exact Wi.
  - exists w', j. split; [|split; [congruence|eauto]].
    rewrite Wc in E. cbv zeta. rewrite Er2, Wc. exact E.
Qed.
Lemma record_few w i x : w_inst w i = Some x -> (i_direct x < 3)%nat -> exists w', record_interaction inode i w = (w', Ok tt).
Proof.
  intros H L. unfold record_interaction. rewrite (andthen_ok _ _ _ _ _ (self_ok i w x H)).
  eexists. rewrite (andthen_ok _ _ w (set_insts w (upd_nat (w_inst w) i (Some (set_counts x (i_n x) (i_before x) (i_queries x) (Datatypes.S (i_direct x)))))) tt) by reflexivity.
  rewrite (andthen_ok _ _ _ _ (w_open w)) by reflexivity.
  rewrite (proj2 (Nat.leb_gt 4 (Datatypes.S (i_direct x)))) by lia. reflexivity.
Qed.
Lemma values_few ord w b i d x cols lo : permuting ord -> reaches w b -> b i = Some d -> w_inst w i = Some x -> (i_direct x < 3)%nat ->
  incl cols (d_cols d) -> exists w' vs, values inode ord i (Some cols) lo w = (w', Ok vs).
Proof.
  intros Po R Hb H L Ic. pose proof (reaches_inv _ _ _ R) as Iv. pose proof (inv_base _ _ _ Iv) as B.
  pose proof (inv_ds _ _ _ Iv i d Hb) as Sh. destruct (shows_inst inode w i d Sh) as (x0 & H0 & C & T & Di & P).
  assert (x0 = x) by congruence. subst x0. pose proof (proj1 Sh) as S.
  destruct (record_few w i x H L) as [w1 Er]. destruct (record_spec inode w i x w1 _ B S H Er) as [Q _].
  destruct (qu_self _ _ _ _ Q x H) as (y & Hy & F & _ & Sy & _).
  assert (Ec : i_cols y = i_cols x) by (destruct F as (_ & ? & _); auto).
  assert (Ic' : incl cols (i_cols y)) by (rewrite Ec, C; auto).
  unfold values. rewrite (andthen_ok _ _ _ _ _ Er). rewrite (andthen_ok _ _ _ _ _ (self_ok i w1 y Hy)).
  assert (Hk : handle_columns y (Some cols) = Ok cols) by (apply (handle_ok y (Some cols)); exact Ic').
  rewrite (andthen_ok _ _ w1 w1 cols) by (unfold lift; rewrite Hk; auto).
  assert (Sw : settledw inode w1 i) by (intros y' Hy'; assert (y' = y) by congruence; subst; auto).
  destruct (read_spec inode w1 i y (qu_base _ _ _ _ Q) Sw Hy) as (rows & Ft & _ & Sr).
  rewrite (andthen_ok _ _ _ _ _ Sr).
  set (w3 := if lo then set_open w1 (Datatypes.S (w_open w1)) else w1).
  rewrite (andthen_ok _ _ w1 w3 tt) by reflexivity. unfold lift.
  assert (Zr : forall row, In row rows -> zip_row y row = proj (i_cols y) row).
  { pose proof (fits_zip _ _ _ _ Ft) as X. clear - X. induction rows as [|a rows IH]; [intros ? []|].
    cbn [map] in X. injection X as X1 X2. intros row [<-|Hr]; auto. }
  rewrite (mapM_all _ (fun row => map (tcell row) cols)); [eauto|].
  intros row Hr. apply list_record_proj; [auto|]. apply Zr. eapply Permutation_in; [apply Po|auto].
Qed.
(** Reading the distinct values of a column. *)
Lemma column_ready ord lo w b i d c : reaches w b -> b i = Some d -> complete d -> In c (d_cols d) -> c <> "rid" -> permuting ord -> stays_query w i c d ->
  exists w1 uj vs, (u <~ unique inode i (Some [c]) true ;;
   rows <~ values inode ord (fst u) (Some [c]) lo ;;
   us <~ lift (mapM one_cell rows) ;; ret (fst u, us)) w = (w1, Ok (uj, vs)).
Proof.
  intros R Hb Cm Hc Nc Po Wi. destruct (unique_ready w b i d c R Hb Cm Hc Nc Wi) as (w1 & j & E1 & _ & z & Hz & Dz).
  destruct (unique_call inode w b i d c w1 _ R Hb Hc Nc E1) as (Fr & R1 & _). cbn [fst] in *.
  destruct (values_few ord w1 _ j (col_ds d c) z [c] lo Po R1 (note_same _ _ _) Hz) as (w2 & vs & E2); [lia| |].
  { intros ? [<-|[]]. left. auto. }
  destruct (book_rows inode _ _ _ _ R Hb) as (N & _).
  destruct (read_column inode ord w1 _ j d c lo w2 vs Po R1 (note_same _ _ _) N E2) as (l & _ & Em & _).
  exists w2, j, (map (fun r => tcell r c) l).
  rewrite (andthen_ok _ _ _ _ _ E1). cbn [fst]. rewrite (andthen_ok _ _ _ _ _ E2).
  unfold lift, andthen. rewrite Em. reflexivity.
Qed.
End Ready.
