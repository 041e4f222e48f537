(** Every call on database data sets has the effect and the answer the
    specification gives it. *)
From Coq Require Import String Ascii.
From Coq Require Import List ZArith QArith Qcanon Bool Permutation Lia.
From Verif Require Import Py PyFacts MemModel MemSpec DbModel DbFacts DbSpec DbFacts2 DbFacts3 DbFacts4
  DbFacts5 DbFacts6 DbFacts7 DbFacts8 DbFacts9 DbFacts10 DbFacts11 DbFacts12.
Import ListNotations.
Open Scope string_scope.
Open Scope Z_scope.

Section Step.
Variable inode : string -> nat.
Notation tables := (tables inode).
Notation Base := (Base inode).
Notation settledw := (settledw inode).
Notation same := (same inode).
Notation works := (works inode).
Notation has := (has inode).
Notation keeps := (keeps inode).
Notation exec := (exec inode).
Notation effect := (effect inode).
Notation safe := (safe inode).
Notation answered := (answered inode).

(** A data set of the program shows the data set of the specification. *)
Definition shows (w : world) (i : nat) (d : ds) : Prop :=
  settledw w i /\ exists rows, has w i (d_cols d) (d_types d) (d_ids d) rows /\ Permutation rows (d_rows d).
Record Inv (w : world) (b : book) : Prop := {
  inv_base : Base w;
  inv_ds : forall i d, b i = Some d -> shows w i d }.

Lemma note_same b i d : note b i d i = d.
Proof. unfold note. rewrite Nat.eqb_refl. auto. Qed.
Lemma note_other b i d j : j <> i -> note b i d j = b j.
Proof. intro N. unfold note. rewrite (proj2 (Nat.eqb_neq j i) N). auto. Qed.

Lemma shows_inst w i d : shows w i d -> exists x, w_inst w i = Some x /\ i_cols x = d_cols d /\ i_types x = d_types d /\
  i_ids x = d_ids d /\ Permutation (den (tables w (i_path x)) x) (d_rows d).
Proof.
  intros (S & rows & (x & H & C & T & I & D & N) & P). exists x. rewrite D. auto.
Qed.
Lemma Inv_fresh w b : Inv w b -> b (w_next w) = None.
Proof.
  intros [B D]. destruct (b (w_next w)) as [d|] eqn:E; [|auto].
  destruct (shows_inst w _ d (D _ d E)) as (x & H & _). rewrite (b_next inode w B (w_next w)) in H by auto. discriminate.
Qed.
Lemma same_shows w w' l d : same w w' l -> settledw w' l -> shows w l d -> shows w' l d.
Proof.
  intros Sm St (S & rows & H & P). split; [auto|]. exists rows. split; [|auto]. eapply has_same; eauto.
Qed.
Lemma Inv_step w b w' b' j : Inv w b -> works w w' j -> (forall l, l <> j -> b' l = b l) ->
  (forall d, b' j = Some d -> shows w' j d) -> Inv w' b'.
Proof.
  intros [B D] W E S. constructor; [apply W|]. intros l d Hl. destruct (Nat.eq_dec l j) as [->|N]; [auto|].
  rewrite E in Hl by auto. specialize (D l d Hl). apply (same_shows w); [apply (wk_others _ _ _ _ W); auto| |auto].
  apply (wk_settled _ _ _ _ W); [auto|]. apply D.
Qed.
Lemma Inv_read w b w' : Inv w b -> (forall j, works w w' j) -> Inv w' b.
Proof.
  intros I W. apply (Inv_step w b w' b (w_next w)); auto. intros d E. rewrite (Inv_fresh w b I) in E. discriminate.
Qed.

(** What is known of the rows of a data set. *)
Lemma den_good w i x : Base w -> settledw w i -> w_inst w i = Some x ->
  let rows := den (tables w (i_path x)) x in
  typed (i_cols x) rows /\ NoDup (map rid_of rows) /\ (forall row, In row rows -> map fst row = i_cols x) /\
  NoDup (i_cols x) /\ In "rid" (i_cols x) /\ (forall row, In row rows -> exists z, tcell row "rid" = Some (VInt z)).
Proof.
  intros B S H rows. destruct (table_i inode w i x B H) as (tb & T & Wf).
  destruct (den_shape (tables w (i_path x)) x tb Wf T (b_inst inode w B i x H) (S x H)) as (P & cs & E & I1 & I2 & L & D).
  fold rows in D. pose proof (S x H) as (N & R & _).
  assert (Iw : incl (i_cols x) (tb_cols tb)) by (intros c Hc; auto).
  split; [|split; [|split; [|split; [auto|split; [auto|]]]]].
  - intros c Hc. assert (K : In c (map fst (tb_types tb))) by (apply Iw; auto).
    destruct (assoc String.eqb c (tb_types tb)) as [t|] eqn:A.
    2:{ apply (assoc_None _ reflects_string) in A. contradiction. }
    exists t. intros row v Hr Hv. rewrite D in Hr. apply in_map_iff in Hr. destruct Hr as (r & <- & Hr).
    apply filter_In in Hr. rewrite tcell_proj in Hv by auto. eapply (wt_typed _ Wf); eauto; apply Hr.
  - rewrite D, map_rid_proj by auto. pose proof (wt_uniq _ Wf) as U. revert U. generalize (tb_rows tb). clear.
    intros l. induction l as [|r l IH]; cbn [filter map]; intro U; [auto|]. inversion U as [|? ? U1 U2]; subst.
    destruct (P r); [|auto]. cbn [map]. constructor; [|auto]. intro K. apply U1. apply in_map_iff in K.
    destruct K as (s & E & Hs). apply filter_In in Hs. rewrite <- E. apply in_map. tauto.
  - intros row Hr. rewrite D in Hr. apply in_map_iff in Hr. destruct Hr as (r & <- & Hr). unfold proj. rewrite map_map. apply map_id.
  - intros row Hr. rewrite D in Hr. apply in_map_iff in Hr. destruct Hr as (r & <- & Hr). apply filter_In in Hr.
    destruct (wt_rid _ Wf r (proj1 Hr)) as [z Hz]. exists z. rewrite tcell_proj; auto.
Qed.
Lemma typed_perm cs l l' : Permutation l l' -> typed cs l -> typed cs l'.
Proof.
  intros P T c Hc. destruct (T c Hc) as [t Ht]. exists t. intros row v Hr. apply Ht.
  exact (Permutation_in row (Permutation_sym P) Hr).
Qed.
Lemma complete_build d x : i_cols x = d_cols d -> i_types x = d_types d -> complete d -> can_build x.
Proof. intros C T (I & ts & E & H). split; [rewrite C; exact I|]. exists ts. rewrite T, C. split; auto. Qed.
Lemma incl_forallb cs ds : forallb (fun c => existsb (String.eqb c) ds) cs = true <-> incl cs ds.
Proof.
  rewrite forallb_forall. split; intros H c Hc.
  - specialize (H c Hc). rewrite <- mem_existsb in H. apply in_cols_In. auto.
  - rewrite <- mem_existsb. apply in_cols_In. auto.
Qed.

Lemma amap_inv {A} (f : A -> out) (m : M A) w w' r : amap f m w = (w', r) ->
  exists r0, m w = (w', r0) /\ r = match r0 with Ok a => Ok (f a) | Err e => Err e end.
Proof.
  unfold amap, andthen, ret. destruct (m w) as [w1 [a|e]]; intro H; injection H as <- <-; eexists; split; reflexivity.
Qed.
Definition good (w : world) (b : book) (o : op) (w' : world) (r : res out) : Prop :=
  Inv w' (effect w b o r) /\ answered w b o r.

(** A call whose result goes to [tgt w i cp]. *)
Lemma result_good w b i d cp w' (r : res nat) d' : Inv w b -> b i = Some d ->
  works w w' (tgt w i cp) -> (forall j, r = Ok j -> j = tgt w i cp) ->
  (r = Ok (tgt w i cp) \/ cp = false -> shows w' (tgt w i cp) d') ->
  Inv w' (result b i cp (match r with Ok a => Ok (ADs a) | Err e => Err e end) d').
Proof.
  intros I Hb W Rj Sh. unfold result. destruct cp; cbn [tgt] in *.
  - destruct r as [j|e].
    + rewrite (Rj j eq_refl) in *. apply (Inv_step w b w' _ (w_next w)); auto.
      * intros l N. apply note_other. auto.
      * intros d0 E. rewrite note_same in E. injection E as <-. auto.
    + apply (Inv_step w b w' _ (w_next w)); auto. intros d0 E. rewrite (Inv_fresh w b I) in E. discriminate.
  - apply (Inv_step w b w' _ i); auto.
    + intros l N. apply note_other. auto.
    + intros d0 E. rewrite note_same in E. injection E as <-. auto.
Qed.
Lemma fresh_answer w b (r : res nat) j : Inv w b -> (forall j', r = Ok j' -> j' = w_next w) -> r = Ok j ->
  exists j', ADs j = ADs j' /\ b j' = None.
Proof. intros I H E. exists j. split; [auto|]. rewrite (H j E). apply Inv_fresh. auto. Qed.

Lemma step_copy ord w b i w' r : Inv w b -> safe w b (OCopy i) -> exec ord (OCopy i) w = (w', r) -> good w b (OCopy i) w' r.
Proof.
  intros I Sf E. cbn [safe DbSpec.safe] in Sf. destruct (b i) as [d|] eqn:Hb; [clear Sf|contradiction].
  apply amap_inv in E. destruct E as (r0 & E & ->). pose proof (inv_ds _ _ I i d Hb) as Sh.
  destruct (shows_inst w i d Sh) as (x & H & C & T & Di & P).
  destruct (copy_op inode w i x w' r0 (inv_base _ _ I) (proj1 Sh) H E) as (-> & W & St & Hs).
  split.
  - cbn [effect DbSpec.effect]. rewrite Hb. apply (result_good w b i d true w' (Ok (w_next w))); auto.
    + intros j K. injection K as <-. auto.
    + intros _. split; [auto|]. exists (den (tables w (i_path x)) x). rewrite C, T, Di in Hs. auto.
  - split; [cbn; auto|]. cbn [fresh_result]. apply (fresh_answer w b (Ok (w_next w))); auto. intros j K. injection K as <-. auto.
Qed.

Lemma query_facts w i d x cs : shows w i d -> w_inst w i = Some x -> i_cols x = d_cols d -> i_types x = d_types d ->
  query_fits inode w i d cs -> exists ts, d_types d = Some ts /\ parse_query x (query_text cs) = Ok (map (wcond_of ts) cs) /\
    (forall conds, parse_query x (query_text cs) = Ok conds -> unambiguous inode w x conds) /\
    forall row, forallb (cond_true row) (map (wcond_of ts) cs) = forallb (holds row) cs.
Proof.
  intros Sh H C T (N & F & U).
  assert (Ts : exists ts, d_types d = Some ts).
  { destruct cs as [|c cs]; [contradiction|]. inversion F as [|? ? (_ & _ & ts & t & E & _) _]; subst. eauto. }
  destruct Ts as [ts Ts]. exists ts. pose proof (parse_query_ok x d cs ts C T Ts N F) as Pq.
  split; [auto|]. split; [auto|]. split.
  - intros conds E tb c Ht Hc. rewrite Pq in E. injection E as <-. apply in_map_iff in Hc. destruct Hc as (sc & <- & Hsc).
    rewrite Forall_forall in F, U. specialize (U sc Hsc). specialize (F sc Hsc). destruct F as (_ & _ & ts' & t & E & A & L).
    rewrite Ts in E. injection E as <-. unfold wcond_of. rewrite A. cbn [no_column].
    unfold no_name in U. rewrite H in U. destruct (sc_lit sc) as [z|ng a bb|s]; cbn [lit_value_of].
    + destruct t; auto.
    + destruct (lit_num (LDec ng a bb)); auto.
    + destruct U as [U1 U2]. split; [|auto]. intros n Hn. eapply U1; eauto.
  - intro row. clear Pq N U. induction F as [|c cs Fc F IH]; cbn [map forallb]; [auto|].
    rewrite IH, (cond_true_holds d ts c row Ts Fc). auto.
Qed.

Lemma step_select ord w b i cs cp w' r : Inv w b -> safe w b (OSelect i cs cp) ->
  exec ord (OSelect i cs cp) w = (w', r) -> good w b (OSelect i cs cp) w' r.
Proof.
  intros I Sf E. cbn [safe DbSpec.safe] in Sf. destruct Sf as (d & Hb & Qf).
  apply amap_inv in E. destruct E as (r0 & E & ->). pose proof (inv_ds _ _ I i d Hb) as Sh.
  destruct (shows_inst w i d Sh) as (x & H & C & T & Di & P).
  destruct (query_facts w i d x cs Sh H C T Qf) as (ts & Ts & Pq & Ua & Ct).
  destruct (select_spec inode w i x (query_text cs) cp w' r0 (inv_base _ _ I) (proj1 Sh) H E Ua) as (W & St & _ & Rj & Hs).
  destruct (Hs _ Pq) as [Cb Hs']. split.
  - cbn [effect DbSpec.effect]. rewrite Hb. apply (result_good w b i d cp w' r0); auto. intro K. specialize (Hs' K).
    split; [auto|]. eexists. split; [rewrite <- C, <- T, <- Di; exact Hs'|]. cbn [d_rows].
    rewrite (filter_ext _ (fun row => forallb (holds row) cs)) by (intro; apply Ct). apply filter_perm. auto.
  - destruct r0 as [j|e]; cbn [answered DbSpec.answered].
    + split; [cbn; auto|]. cbn [fresh_result]. destruct cp.
      * apply (fresh_answer w b (Ok j)); auto.
      * intros k K. injection K as <-. cbn [subject]. rewrite (Rj j eq_refl). auto.
    + cbn [must_succeed]. intros (d' & Hd & Cm). rewrite Hb in Hd. injection Hd as <-.
      specialize (Cb (complete_build d x C T Cm)). discriminate.
Qed.

Lemma step_drop ord w b i rids cp keep w' r : Inv w b -> safe w b (ODrop i rids cp keep) ->
  exec ord (ODrop i rids cp keep) w = (w', r) -> good w b (ODrop i rids cp keep) w' r.
Proof.
  intros I Sf E. cbn [safe DbSpec.safe] in Sf. destruct (b i) as [d|] eqn:Hb; [clear Sf|contradiction].
  apply amap_inv in E. destruct E as (r0 & E & ->). pose proof (inv_ds _ _ I i d Hb) as Sh.
  destruct (shows_inst w i d Sh) as (x & H & C & T & Di & P).
  destruct (drop_spec inode w i x rids cp keep w' r0 (inv_base _ _ I) (proj1 Sh) H E) as (W & St & Cb & Rj & Hs).
  split.
  - cbn [effect DbSpec.effect]. rewrite Hb. apply (result_good w b i d cp w' r0); auto. intro K. specialize (Hs K).
    split; [auto|]. eexists. split; [rewrite <- C, <- T, <- Di; exact Hs|]. cbn [d_rows].
    rewrite (filter_ext _ (fun row => if keep then listed rids row else negb (listed rids row))) by (intro; apply listed_eq).
    apply filter_perm. auto.
  - destruct r0 as [j|e]; cbn [answered DbSpec.answered].
    + split; [cbn; auto|]. cbn [fresh_result]. destruct cp.
      * apply (fresh_answer w b (Ok j)); auto.
      * intros k K. injection K as <-. cbn [subject]. rewrite (Rj j eq_refl). auto.
    + cbn [must_succeed]. intros (d' & Hd & Cm). rewrite Hb in Hd. injection Hd as <-.
      specialize (Cb (complete_build d x C T Cm)). discriminate.
Qed.

Lemma step_unique ord w b i columns cp w' r : Inv w b -> safe w b (OUnique i columns cp) ->
  exec ord (OUnique i columns cp) w = (w', r) -> good w b (OUnique i columns cp) w' r.
Proof.
  intros I Sf E. cbn [safe DbSpec.safe] in Sf. destruct Sf as (d & Hb & Nd & Nn).
  apply amap_inv in E. destruct E as (r0 & E & ->). pose proof (inv_ds _ _ I i d Hb) as Sh.
  destruct (shows_inst w i d Sh) as (x & H & C & T & Di & P).
  assert (Ca : match columns with Some l => l | None => i_cols x end = asked d columns) by (unfold asked; rewrite C; auto).
  destruct (den_good w i x (inv_base _ _ I) (proj1 Sh) H) as (Ty & Nr & Ks & _).
  pose proof (unique_spec inode w i x columns cp w' r0 (inv_base _ _ I) (proj1 Sh) H E) as X. cbv zeta in X. rewrite Ca, C in X.
  destruct (X Nd Nn) as (W & St & Bad & Good). clear X. cbn [effect DbSpec.effect answered DbSpec.answered good].
  unfold good. cbn [effect DbSpec.effect]. rewrite Hb.
  destruct (forallb (fun c => existsb (String.eqb c) (d_cols d)) (asked d columns)) eqn:Fa.
  - apply incl_forallb in Fa. destruct (Good Fa) as (G1 & G2 & G3). split.
    + set (r1 := match r0 with Ok a => Ok (fst a) | Err e => Err e end).
      replace (match r0 with Ok a => Ok (ADs (fst a)) | Err e => Err e end) with
        (match r1 with Ok a => Ok (ADs a) | Err e => Err e end) by (unfold r1; destruct r0; auto).
      apply (result_good w b i d cp w' r1); auto.
      * intros j K. unfold r1 in K. destruct r0 as [a|e]; [|discriminate]. injection K as <-.
        destruct (G1 a eq_refl) as [-> _]. auto.
      * intro K. assert (K' : (exists a, r0 = Ok a) \/ cp = false).
        { destruct K as [K|K]; [|auto]. unfold r1 in K. destruct r0 as [a|e]; [eauto|discriminate]. }
        specialize (G3 K'). rewrite T, Di, plus_rid_eq in G3. split.
        { destruct K' as [[a ->]|K']; [apply (G1 a eq_refl)|apply St; auto]. }
        eexists. split; [exact G3|]. cbn [d_rows]. apply Permutation_map.
        rewrite firsts_spec; [apply first_of_group_perm; auto| |auto].
        apply (typed_incl _ (i_cols x)); [auto|rewrite C; auto].
    + destruct r0 as [a|e].
      * destruct (G1 a eq_refl) as [-> _]. split; [cbn; auto|]. cbn [fresh_result fst]. destruct cp; cbn [tgt].
        -- exists (w_next w). split; [auto|]. apply Inv_fresh. auto.
        -- intros k K. injection K as <-. auto.
      * cbn [answered DbSpec.answered must_succeed]. intros (d' & Hd & Cm & Ic & Rq). rewrite Hb in Hd. injection Hd as <-.
        rewrite <- plus_rid_eq in Rq. destruct (G2 (complete_build d x C T Cm) Rq) as [a K]. discriminate.
  - assert (Nf : ~ incl (asked d columns) (d_cols d)) by (intro K; apply incl_forallb in K; congruence).
    destruct (Bad Nf) as [-> ->]. split; [auto|]. cbn [answered DbSpec.answered must_succeed].
    intros (d' & Hd & Cm & Ic & Rq). rewrite Hb in Hd. injection Hd as <-. contradiction.
Qed.
End Step.
