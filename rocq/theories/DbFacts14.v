(** The remaining calls on database data sets, and whole histories. *)
From Coq Require Import String Ascii.
From Coq Require Import List ZArith QArith Qcanon Bool Permutation Lia.
From Verif Require Import Py PyFacts MemModel MemSpec DbModel DbFacts DbSpec DbFacts2 DbFacts3 DbFacts4
  DbFacts5 DbFacts6 DbFacts7 DbFacts8 DbFacts9 DbFacts10 DbFacts11 DbFacts12 DbFacts13.
Import ListNotations.
Open Scope string_scope.
Open Scope Z_scope.

Section Steps.
Variable inode : string -> nat.
Notation tables := (tables inode).
Notation Base := (Base inode).
Notation settledw := (settledw inode).
Notation same := (same inode).
Notation works := (works inode).
Notation has := (has inode).
Notation keeps := (keeps inode).
Notation exec := (exec inode).
Notation effect := (effect inode).
Notation safe := (safe inode).
Notation answered := (answered inode).
Notation Inv := (Inv inode).
Notation good := (good inode).

(** ** Reads *)
Lemma asked_columns d x columns : i_cols x = d_cols d -> columns_of x columns = asked d columns.
Proof. intro C. unfold columns_of, asked. rewrite C. auto. Qed.

Lemma rest_build w i d x : w_inst w i = Some x -> i_cols x = d_cols d -> i_types x = d_types d ->
  complete d \/ at_rest w i -> readable x.
Proof.
  intros H C T [Cm|(y & Hy & Sn)]; [left; apply (complete_build d x C T Cm)|]. right. congruence.
Qed.
Lemma step_values ord w b i columns w' r lo : permuting ord -> Inv w b -> b i <> None ->
  amap ARows (values inode ord i columns lo) w = (w', r) ->
  good w b (if lo then OGenerator i columns else OValues i columns) w' r.
Proof.
  intros Po I Sf E. destruct (b i) as [d|] eqn:Hb; [clear Sf|contradiction].
  apply amap_inv in E. destruct E as (r0 & E & ->). pose proof (inv_ds _ _ _ I i d Hb) as Sh.
  destruct (shows_inst inode w i d Sh) as (x & H & C & T & Di & P).
  destruct (values_spec inode ord w i x columns lo w' r0 Po (inv_base _ _ _ I) (proj1 Sh) H E) as (W & K & _ & Vo & Vc).
  rewrite (asked_columns d x columns C), C in *. split.
  - destruct lo; cbn [effect DbSpec.effect]; apply (Inv_read inode w b); auto.
  - destruct r0 as [vs|e].
    + assert (Ra : exists rows, ARows vs = ARows rows /\ Permutation rows (map (cells (asked d columns)) (d_rows d))).
      { exists vs. split; [auto|]. apply (Permutation_trans (proj2 (Vo vs eq_refl))). apply Permutation_map. auto. }
      destruct lo; cbn [answered DbSpec.answered fresh_result]; (split; [|discriminate]);
        intros i' d' K1 K2; injection K1 as <-; rewrite Hb in K2; injection K2 as <-; exact Ra.
    + assert (Ne : ~ exists d', b i = Some d' /\ (complete d' \/ at_rest w i) /\ incl (asked d' columns) (d_cols d')).
      { intros (d' & K1 & Cm & Ic). rewrite Hb in K1. injection K1 as <-.
        destruct (Vc (rest_build w i d x H C T Cm) Ic). discriminate. }
      destruct lo; exact Ne.
Qed.

Lemma step_select_one ord w b i cs columns w' r : permuting ord -> Inv w b -> safe w b (OSelectOne i cs columns) ->
  exec ord (OSelectOne i cs columns) w = (w', r) -> good w b (OSelectOne i cs columns) w' r.
Proof.
  intros Po I Sf E. cbn [safe DbSpec.safe] in Sf. destruct Sf as (d & Hb & Qf).
  apply amap_inv in E. destruct E as (r0 & E & ->). pose proof (inv_ds _ _ _ I i d Hb) as Sh.
  destruct (shows_inst inode w i d Sh) as (x & H & C & T & Di & P).
  destruct (query_facts inode w i d x cs Sh H C T Qf) as (ts & Ts & Pq & Ua & Ct).
  destruct (select_one_spec inode ord w i x (query_text cs) columns w' r0 Po (inv_base _ _ _ I) (proj1 Sh) H E Ua) as (W & K & Vo & Vc).
  rewrite (asked_columns d x columns C), C in *. split.
  - cbn [effect DbSpec.effect]. apply (Inv_read inode w b); auto.
  - destruct r0 as [o|e]; cbn [answered DbSpec.answered fresh_result].
    + split; [|discriminate]. intros i' d' K1 K2. injection K1 as <-. rewrite Hb in K2. injection K2 as <-.
      destruct (Vo o eq_refl) as (conds & Eq & Ic & Ho). rewrite Pq in Eq. injection Eq as <-.
      cbn [right_answer]. exists o. split; [auto|]. destruct o as [v|].
      * destruct Ho as (row & Hr & Hc & ->). exists row. rewrite Ct in Hc. split; [exact (Permutation_in row P Hr)|auto].
      * intros row Hr. apply Permutation_sym in P. pose proof (Permutation_in row P Hr) as Hr'.
        destruct (forallb (holds row) cs) eqn:F; [|auto]. exfalso. rewrite <- Ct in F.
        assert (X : In row (filter (fun row => forallb (cond_true row) (map (wcond_of ts) cs)) (den (tables w (i_path x)) x)))
          by (apply filter_In; auto). rewrite Ho in X. contradiction.
    + cbn [must_succeed DbSpec.must_succeed]. intros (d' & K1 & Cm & Ic). rewrite Hb in K1. injection K1 as <-.
      destruct (Vc (rest_build w i d x H C T Cm) Ic) as [o X]; [eauto|discriminate].
Qed.

Lemma step_len ord w b i w' r : Inv w b -> safe w b (OLen i) -> exec ord (OLen i) w = (w', r) -> good w b (OLen i) w' r.
Proof.
  intros I Sf E. cbn [safe DbSpec.safe] in Sf. destruct (b i) as [d|] eqn:Hb; [clear Sf|contradiction].
  apply amap_inv in E. destruct E as (r0 & E & ->). pose proof (inv_ds _ _ _ I i d Hb) as Sh.
  destruct (shows_inst inode w i d Sh) as (x & H & C & T & Di & P).
  rewrite (len_spec inode w i x (inv_base _ _ _ I) H) in E. injection E as <- <-. split; [auto|].
  cbn [answered DbSpec.answered fresh_result]. split; [|discriminate]. intros i' d' K1 K2. injection K1 as <-.
  rewrite Hb in K2. injection K2 as <-. cbn [right_answer]. f_equal. apply Permutation_length. auto.
Qed.

Lemma step_count ord w b i columns w' r : Inv w b -> safe w b (OCountUnique i columns) ->
  exec ord (OCountUnique i columns) w = (w', r) -> good w b (OCountUnique i columns) w' r.
Proof.
  intros I Sf E. cbn [safe DbSpec.safe] in Sf. destruct Sf as (d & Hb & Nd & Nn).
  apply amap_inv in E. destruct E as (r0 & E & ->). pose proof (inv_ds _ _ _ I i d Hb) as Sh.
  destruct (shows_inst inode w i d Sh) as (x & H & C & T & Di & P).
  pose proof (asked_columns d x columns C) as Ac. pose proof Nn as Nn'. rewrite <- Ac in Nn'.
  destruct (den_good inode w i x (inv_base _ _ _ I) (proj1 Sh) H) as (Ty & _).
  destruct (count_unique_spec inode w i x columns w' r0 (inv_base _ _ _ I) (proj1 Sh) H Nn' E) as (W & K & Vo & Vc).
  rewrite Ac, C in *. split.
  - cbn [effect DbSpec.effect]. apply (Inv_read inode w b); auto.
  - destruct r0 as [n|e]; cbn [answered DbSpec.answered fresh_result].
    + split; [|discriminate]. intros i' d' K1 K2. injection K1 as <-. rewrite Hb in K2. injection K2 as <-.
      destruct (Vo n eq_refl) as [Ic ->]. cbn [right_answer]. f_equal. rewrite distinct_count.
      * apply nodup_perm_length. apply Permutation_map. auto.
      * apply (typed_incl _ (d_cols d)); auto.
    + cbn [must_succeed DbSpec.must_succeed]. intros (d' & K1 & Cm & Ic). rewrite Hb in K1. injection K1 as <-.
      destruct (Vc (rest_build w i d x H C T Cm) Ic). discriminate.
Qed.

Lemma step_extremum better dir w b i c w' r o : Inv w b -> b i <> None -> (dir = Datatypes.Lt \/ dir = Datatypes.Gt) ->
  (forall a b, better a b = true <-> key_compare (key_of a) (key_of b) = dir) ->
  amap AVal (extremum inode better i c) w = (w', r) ->
  (o = OMax i c /\ dir = Datatypes.Gt \/ o = OMin i c /\ dir = Datatypes.Lt) -> good w b o w' r.
Proof.
  intros I Sf Hd Bt E Ho. destruct (b i) as [d|] eqn:Hb; [clear Sf|contradiction].
  apply amap_inv in E. destruct E as (r0 & E & ->). pose proof (inv_ds _ _ _ I i d Hb) as Sh.
  destruct (shows_inst inode w i d Sh) as (x & H & C & T & Di & P).
  destruct (extremum_spec inode better w i x c w' r0 (inv_base _ _ _ I) (proj1 Sh) H E) as (W & K & Vo & Vc).
  rewrite C in *. split.
  - replace (effect w b o _) with b by (destruct Ho as [[-> _]|[-> _]]; auto). apply (Inv_read inode w b); auto.
  - destruct r0 as [v|e].
    + destruct (Vo v eq_refl) as [Ic ->].
      assert (Ex : extreme dir c (d_rows d) (best better None (map (fun row => tcell row c) (den (tables w (i_path x)) x)))).
      { apply (extreme_perm dir c _ _ _ P). apply extreme_best; auto. }
      destruct Ho as [[-> ->]|[-> ->]]; cbn [answered DbSpec.answered fresh_result]; (split; [|discriminate]);
        intros i' d' K1 K2; injection K1 as <-; rewrite Hb in K2; injection K2 as <-; cbn [right_answer]; eauto.
    + assert (Ne : ~ exists d', b i = Some d' /\ (complete d' \/ at_rest w i) /\ In c (d_cols d')).
      { intros (d' & K1 & Cm & Ic). rewrite Hb in K1. injection K1 as <-.
        destruct (Vc (rest_build w i d x H C T Cm) Ic). discriminate. }
      destruct Ho as [[-> ->]|[-> ->]]; exact Ne.
Qed.

(** ** New data sets *)
Lemma step_load ord w b p w' r : Inv w b -> safe w b (OLoad p) -> exec ord (OLoad p) w = (w', r) -> good w b (OLoad p) w' r.
Proof.
  intros I Sf E. cbn [safe DbSpec.safe] in Sf. apply amap_inv in E. destruct E as (r0 & E & ->).
  pose proof (load_spec inode w p w' r0 (inv_base _ _ _ I) Sf E) as X. unfold good. cbn [effect DbSpec.effect].
  destruct (tables w p main_table) as [tb|] eqn:Et.
  - cbv zeta in X. set (cs := filter _ (tb_cols tb)) in X. destruct X as (-> & W & St & Hs).
    assert (Ec : cs = without_ids (tb_cols tb)) by (rewrite <- without_ids_eq; auto). split.
    + apply (Inv_step inode w b w' _ (w_next w)); auto; [intros l N; apply note_other; auto|].
      intros d K. rewrite note_same in K. injection K as <-. split; [auto|]. exists (map (proj cs) (tb_rows tb)).
      unfold stored. rewrite Et, <- Ec. cbn [d_cols d_types d_ids d_rows]. auto.
    + cbn [answered DbSpec.answered fresh_result]. split; [discriminate|]. apply (fresh_answer inode w b (Ok (w_next w))); auto.
      intros j K. injection K as <-. auto.
  - destruct X as [-> ->]. split; [auto|]. cbn [answered DbSpec.answered must_succeed DbSpec.must_succeed].
    intro K. apply K. exact Et.
Qed.

Lemma assoc_map_fst (f : string * dtype -> option value) types c t : NoDup (map fst types) -> assoc String.eqb c types = Some t ->
  assoc String.eqb c (map (fun ct => (fst ct, f ct)) types) = Some (f (c, t)).
Proof.
  intros N A. induction types as [|[a s] types IH]; cbn [assoc map fst] in *; [discriminate|].
  inversion N as [|? ? N1 N2]; subst. destruct (String.eqb_spec c a) as [->|X].
  - injection A as ->. auto.
  - apply IH; auto.
Qed.
Lemma stored_rows cols types tys rows p n : NoDup cols ->
  (forall c t, In c id_cols -> assoc String.eqb c types = Some t -> t = DInt) ->
  build_types (mkInst p main_table cols (Some types) None n n 0 0 false []) = Ok tys ->
  map (fun row => proj cols (store tys row)) rows = d_rows (imported cols types rows).
Proof.
  intros N Ty Eb. destruct (build_types_ok (mkInst p main_table cols (Some types) None n n 0 0 false []) tys N Eb) as (N1 & N2 & N3 & N4 & N5 & ts & Hts & N6).
  cbn [i_types i_cols] in *. injection Hts as <-. cbn [imported d_rows]. apply map_ext. intro row.
  unfold proj. apply map_ext_in. intros c Hc. f_equal. unfold store at 1. unfold tcell at 1.
  specialize (N4 c Hc). destruct (assoc String.eqb c tys) as [t|] eqn:A.
  2:{ apply (assoc_None _ reflects_string) in A. contradiction. }
  rewrite (assoc_map_fst (fun ct => option_map (affine (snd ct)) (tcell row (fst ct))) tys c t N1 A). cbn [fst snd].
  f_equal. f_equal. destruct (in_dec string_dec c id_cols) as [Ii|Ii].
  - rewrite (N2 c Ii) in A. injection A as <-. destruct (assoc String.eqb c types) as [t'|] eqn:A'; [|auto].
    rewrite (Ty c t' Ii A'). destruct (existsb _ _); auto.
  - rewrite (N6 c t Ii A). replace (existsb (String.eqb c) ["rid"; "uid"; "iid"]) with false; [auto|].
    symmetry. destruct (existsb (String.eqb c) ["rid"; "uid"; "iid"]) eqn:X; [|auto]. exfalso. apply Ii.
    apply existsb_exists in X. destruct X as (a & Ha & Ea). apply String.eqb_eq in Ea. subst a. exact Ha.
Qed.

Lemma step_create ord w b p cols types rows w' r : Inv w b -> safe w b (OCreate p cols types rows) ->
  exec ord (OCreate p cols types rows) w = (w', r) -> good w b (OCreate p cols types rows) w' r.
Proof.
  intros I Sf E. cbn [safe DbSpec.safe] in Sf. destruct Sf as (Un & Nd & Ty & Rr).
  apply amap_inv in E. destruct E as (r0 & E & ->). unfold good. cbn [effect DbSpec.effect].
  destruct (create_spec inode w p cols types rows w' r0 (inv_base _ _ _ I) Un Nd Ty Rr E) as (Er & Go & Cb).
  destruct r0 as [j|e].
  - destruct (Go j eq_refl) as (-> & W & St & tys & Eb & Hs). rewrite (stored_rows cols types tys rows p _ Nd Ty Eb) in Hs. split.
    + apply (Inv_step inode w b w' _ (w_next w)); auto; [intros l N; apply note_other; auto|].
      intros d K. rewrite note_same in K. injection K as <-. split; [auto|]. eexists. split; [exact Hs|]. auto.
    + cbn [answered DbSpec.answered fresh_result]. split; [discriminate|]. apply (fresh_answer inode w b (Ok (w_next w))); auto.
      intros j K. injection K as <-. auto.
  - rewrite (Er e eq_refl) in *. split; [auto|]. cbn [answered DbSpec.answered must_succeed DbSpec.must_succeed].
    intros ((Rq & ts & Et & Ht) & Nr). cbn [d_cols d_types imported] in *. injection Et as <-.
    destruct (Cb Rq Ht Nr) as [j K]. discriminate.
Qed.

(** ** Changes in place *)
Lemma mentions_free s : mentions ["uid"; "iid"] s = false -> src_free idn s.
Proof.
  induction s as [t|cs f IH conds]; cbn [mentions src_free]; [auto|]. intro H. apply orb_false_iff in H. destruct H as [H1 H2].
  split; [auto|]. intros c Hc.
  assert (Fc : forall n, existsb (String.eqb n) ["uid"; "iid"] = false -> ~ In n idn).
  { intros n X K. apply in_cols_In in K. rewrite mem_existsb in K. unfold idn in K. congruence. }
  assert (X : forall c, In c conds -> match c with
     | WCmp col _ v => (existsb (String.eqb col) ["uid"; "iid"] ||
                        match v with VStr t => existsb (fun n => ci_eqb t n) ["uid"; "iid"] | _ => false end)%bool
     | WMin l => existsb (fun c => existsb (String.eqb c) ["uid"; "iid"]) l
     | _ => false end = false).
  { intros c0 Hc0. destruct (match c0 with WCmp _ _ _ => _ | _ => _ end) eqn:Y; [|auto]. exfalso.
    revert H2. apply not_false_iff_true. apply existsb_exists. exists c0. split; auto. }
  specialize (X c Hc). destruct c as [col o v|z|z|l]; cbn [cond_free]; auto.
  - apply orb_false_iff in X. destruct X as [X1 X2]. split; [auto|]. destruct v as [z|q|s]; auto.
    intros n Hn. destruct (ci_eqb s n) eqn:Y; [|auto]. exfalso. revert X2. apply not_false_iff_true. apply existsb_exists. eauto.
  - intros n Hn. apply Fc. destruct (existsb (String.eqb n) ["uid"; "iid"]) eqn:Y; [|auto]. exfalso.
    revert X. apply not_false_iff_true. apply existsb_exists. eauto.
Qed.

Lemma step_assign ord w b i w' r : Inv w b -> safe w b (OAssign i) -> exec ord (OAssign i) w = (w', r) -> good w b (OAssign i) w' r.
Proof.
  intros I Sf E. cbn [safe DbSpec.safe] in Sf. destruct Sf as (Op & Ns & d & Hb & Nt & Iu & Nu & Ni).
  apply amap_inv in E. destruct E as (r0 & E & ->). pose proof (inv_ds _ _ _ I i d Hb) as Sh.
  destruct (shows_inst inode w i d Sh) as (x & H & C & T & Di & P).
  destruct (d_types d) as [ts|] eqn:Ts; [clear Nt|contradiction].
  assert (Of : i_state x = None -> others_free w i x).
  { intros Sn j y N Hy Ep Et. destruct (Ns x H Sn j y N Hy Ep Et) as (M & U1 & U2). split; [apply mentions_free; auto|].
    intros c Hc [<-|[<-|[]]]; auto. }
  assert (Hu : In "user" (i_cols x)) by (rewrite C; apply Iu; cbn; auto).
  assert (Hi : In "item" (i_cols x)) by (rewrite C; apply Iu; cbn; auto).
  destruct (assign_spec inode w i x ts w' r0 (inv_base _ _ _ I) (proj1 Sh) H Op T Hu Hi Of E) as (W & St & Cb & Er & Go & _).
  destruct (den_good inode w i x (inv_base _ _ _ I) (proj1 Sh) H) as (Ty & Nr & Ks & Nc & Ir & _).
  unfold good. cbn [effect DbSpec.effect]. destruct r0 as [[]|e].
  - split; [|cbn [answered DbSpec.answered fresh_result right_answer]; split; [auto|discriminate]].
    rewrite Hb. apply (Inv_step inode w b w' _ i); auto; [intros l N; apply note_other; auto|].
    intros d' K. rewrite note_same in K. injection K as <-. split; [auto|].
    destruct (Go eq_refl) as (rows & Ed & Rr & Ku & Nr' & Hs).
    exists (map (proj (id_cols_of (i_cols x))) (numbered rows)). cbn [assigned d_cols d_types d_ids d_rows].
    rewrite Ts. cbn [option_map]. rewrite <- C, <- !plus_eq. split; [exact Hs|].
    rewrite (numbered_ids (i_cols x) rows _ Ed); auto.
    + rewrite <- !plus_eq. erewrite map_ext; [apply Permutation_map; exact P|]. intro row. apply with_ids_perm. auto.
    + intros c [<-|[<-|[<-|[]]]]; auto.
    + intros row Hr. apply Nu. exact (Permutation_in row P Hr).
    + intros row Hr. apply Ni. exact (Permutation_in row P Hr).
  - split.
    + apply (Inv_step inode w b w' b i); auto. intros d' K. rewrite Hb in K. injection K as <-.
      apply (same_shows inode w); auto. apply (Er e eq_refl).
    + cbn [answered DbSpec.answered must_succeed DbSpec.must_succeed]. intros (d' & K1 & Cm). rewrite Hb in K1. injection K1 as <-.
      assert (X : can_build x) by (apply (complete_build d x); congruence). specialize (Cb X). discriminate.
Qed.

Lemma step_remove ord w b i w' r : Inv w b -> safe w b (ORemove i) -> exec ord (ORemove i) w = (w', r) -> good w b (ORemove i) w' r.
Proof.
  intros I Sf E. cbn [safe DbSpec.safe] in Sf. destruct Sf as (d & l & Hb & Bo & El).
  apply amap_inv in E. destruct E as (r0 & E & ->). pose proof (inv_ds _ _ _ I i d Hb) as Sh.
  destruct (shows_inst inode w i d Sh) as (x & H & C & T & Di & P).
  rewrite <- C in Bo, El. rewrite <- without_ids_eq in El.
  destruct (remove_spec inode w i x w' r0 (inv_base _ _ _ I) (proj1 Sh) H Bo (or_intror (ex_intro _ l El)) E) as (-> & W & St & Hs).
  unfold good. cbn [effect DbSpec.effect]. rewrite Hb. split.
  - apply (Inv_step inode w b w' _ i); auto; [intros k N; apply note_other; auto|].
    intros d' K. rewrite note_same in K. injection K as <-. split; [auto|]. eexists. cbn [d_cols d_types d_ids d_rows].
    rewrite <- C, <- T, <- without_ids_eq. split; [exact Hs|]. apply Permutation_map. auto.
  - cbn [answered DbSpec.answered fresh_result right_answer]. split; [auto|discriminate].
Qed.

Lemma apply_bad_column ord i c f w x : w_inst w i = Some x ->
  (negb (existsb (String.eqb c) (i_cols x)) || existsb (String.eqb c) ["rid"; "uid"; "iid"; "user"; "item"])%bool = true ->
  exists e, apply_col inode ord i c f w = (w, Err e).
Proof.
  intros H Bd. unfold apply_col. rewrite (andthen_ok _ _ _ _ _ (self_ok i w x H)). rewrite !mem_existsb.
  destruct (existsb (String.eqb c) (i_cols x)); cbn [negb orb] in *; [|eexists; reflexivity].
  rewrite Bd. eexists; reflexivity.
Qed.

Lemma step_apply ord w b i c f w' r : permuting ord -> Inv w b -> safe w b (OApply i c f) ->
  exec ord (OApply i c f) w = (w', r) -> good w b (OApply i c f) w' r.
Proof.
  intros Po I Sf E. cbn [safe DbSpec.safe] in Sf. destruct Sf as (Op & d & Hb & Ut).
  apply amap_inv in E. destruct E as (r0 & E & ->). pose proof (inv_ds _ _ _ I i d Hb) as Sh.
  destruct (shows_inst inode w i d Sh) as (x & H & C & T & Di & P).
  unfold good. cbn [effect DbSpec.effect]. rewrite Hb.
  destruct (negb (existsb (String.eqb c) (d_cols d)) || existsb (String.eqb c) ["rid"; "uid"; "iid"; "user"; "item"])%bool eqn:Bd.
  - rewrite <- C in Bd. destruct (apply_bad_column ord i c f w x H Bd) as [e Ea]. rewrite Ea in E. injection E as <- <-.
    split; [auto|]. cbn [answered DbSpec.answered must_succeed DbSpec.must_succeed].
    intros (d' & K1 & Cm & Ic & Nc & _). rewrite Hb in K1. injection K1 as <-. apply orb_true_iff in Bd.
    rewrite <- C in Ic. destruct Bd as [Bd|Bd].
    + apply negb_true_iff in Bd. rewrite <- mem_existsb in Bd. apply in_cols_In in Ic. congruence.
    + rewrite <- mem_existsb in Bd. apply in_cols_In in Bd. contradiction.
  - pose proof (apply_spec inode ord f c w i x w' r0 Po (inv_base _ _ _ I) (proj1 Sh) H Op E) as X. cbv zeta in X.
    destruct X as (W & (rows' & ts' & Hs & Er & Go) & Cb).
    destruct (den_good inode w i x (inv_base _ _ _ I) (proj1 Sh) H) as (Ty & Nr & Ks & Nc & Ir & _).
    destruct r0 as [[]|e].
    + split; [|cbn [answered DbSpec.answered fresh_result right_answer]; split; [auto|discriminate]].
      destruct (Go eq_refl) as (St & Ic & Nres & Ao & ts & row & v & Ht & Hr & Cv & -> & Pm).
      apply (Inv_step inode w b w' _ i); auto; [intros k N; apply note_other; auto|].
      intros d' K. rewrite note_same in K. injection K as <-. split; [auto|]. exists rows'. cbn [d_cols d_types d_ids d_rows].
      assert (Rt : type_of v = result_type f c (d_rows d)).
      { destruct (tcell row c) as [u|] eqn:Tc; cbn [call] in Cv; [|discriminate].
        exact (Ut row u v (Permutation_in row P Hr) Tc Cv). }
      rewrite <- T, Ht. cbn [option_map]. rewrite <- C, <- Di, <- Rt. split; [exact Hs|].
      apply (Permutation_trans Pm). rewrite (map_ext_in _ (mapped f c)); [apply Permutation_map; auto|].
      intros rw Hrw. destruct (Ao rw Hrw) as [u Hu]. destruct (tcell rw c) as [z|] eqn:Tc; cbn [call] in Hu; [|discriminate].
      apply changed_mapped; [rewrite Ks; auto|]. exists z, u. rewrite Rt. split; [auto|]. split; [auto|].
      exact (Ut rw z u (Permutation_in rw P Hrw) Tc Hu).
    + split.
      * apply (Inv_step inode w b w' _ i); auto; [intros k N; apply note_other; auto|].
        intros d' K. rewrite note_same in K. discriminate.
      * cbn [answered DbSpec.answered must_succeed DbSpec.must_succeed].
        intros (d' & K1 & Cm & Ic & Nres & Ne & Df). rewrite Hb in K1. injection K1 as <-. rewrite <- C in Ic.
        assert (X : Err e = Ok tt :> res unit); [|discriminate]. apply Cb; auto.
        -- apply (complete_build d x); auto.
        -- intro Z. rewrite Z in P. apply Permutation_nil in P. contradiction.
        -- intros rw Hrw. destruct (Df rw (Permutation_in rw P Hrw)) as (u & u' & -> & Fu). exists u'. exact Fu.
Qed.

Lemma step_save ord w b i p w' r : permuting ord -> Inv w b -> safe w b (OSave i p) -> exec ord (OSave i p) w = (w', r) ->
  good w b (OSave i p) w' r.
Proof.
  intros Po I Sf E. cbn [safe DbSpec.safe] in Sf. destruct Sf as (Sb & Np & Un). destruct (b i) as [d|] eqn:Hb; [clear Sb|contradiction].
  apply amap_inv in E. destruct E as (r0 & E & ->). pose proof (inv_ds _ _ _ I i d Hb) as Sh.
  destruct (shows_inst inode w i d Sh) as (x & H & C & T & Di & P).
  destruct (save_spec inode ord w i x p w' r0 Po (inv_base _ _ _ I) (proj1 Sh) H Np Un E) as (W & K & _ & _ & Cb).
  split; [apply (Inv_read inode w b); auto|]. destruct r0 as [[]|e]; cbn [answered DbSpec.answered fresh_result right_answer].
  - split; [auto|discriminate].
  - cbn [must_succeed DbSpec.must_succeed]. intros (d' & K1 & Cm). rewrite Hb in K1. injection K1 as <-.
    specialize (Cb (complete_build d x C T Cm)). discriminate.
Qed.

Lemma step_close ord w b i w' r : Inv w b -> safe w b (OClose i) -> exec ord (OClose i) w = (w', r) -> good w b (OClose i) w' r.
Proof.
  intros I Sf E. cbn [safe DbSpec.safe] in Sf. destruct (w_inst w i) as [x|] eqn:H; [clear Sf|contradiction].
  apply amap_inv in E. destruct E as (r0 & E & ->).
  destruct (close_spec inode w i x w' r0 (inv_base _ _ _ I) H E) as (-> & W & _). unfold good. cbn [effect DbSpec.effect]. split.
  - apply (Inv_step inode w b w' _ i); auto; [intros k N; apply note_other; auto|].
    intros d' K. rewrite note_same in K. discriminate.
  - cbn [answered DbSpec.answered fresh_result right_answer]. split; [auto|discriminate].
Qed.

Lemma step_close_generator ord w b w' r : Inv w b -> exec ord OCloseGenerator w = (w', r) -> good w b OCloseGenerator w' r.
Proof.
  intros I E. apply amap_inv in E. destruct E as (r0 & E & ->). unfold close_generator, modify in E. injection E as <- <-.
  split; [|cbn [answered DbSpec.answered fresh_result right_answer]; split; [auto|discriminate]].
  cbn [effect DbSpec.effect]. apply (Inv_read inode w b); auto. intro j. apply open_works. apply I.
Qed.

(** ** Histories *)
Theorem step ord w b o w' r : permuting ord -> Inv w b -> safe w b o -> exec ord o w = (w', r) -> good w b o w' r.
Proof.
  intros Po I Sf E. destruct o.
  - apply (step_create ord); auto.
  - apply (step_load ord); auto.
  - apply (step_copy inode ord); auto.
  - apply (step_select inode ord); auto.
  - apply (step_drop inode ord); auto.
  - apply (step_unique inode ord); auto.
  - apply (step_assign ord); auto.
  - apply (step_remove ord); auto.
  - apply (step_apply ord); auto.
  - apply (step_save ord); auto.
  - apply (step_close ord); auto.
  - apply (step_values ord w b i columns w' r false); auto.
  - apply (step_values ord w b i columns w' r true); auto.
  - apply (step_close_generator ord); auto.
  - apply (step_select_one ord); auto.
  - apply (step_len ord); auto.
  - apply (step_count ord); auto.
  - apply (step_extremum (fun a b => sql_ltb b a) Datatypes.Gt w b i c w' r); auto. apply max_better.
  - apply (step_extremum sql_ltb Datatypes.Lt w b i c w' r); auto. apply min_better.
Qed.

Theorem histories h : forall w b, Inv w b -> all_safe inode w b h ->
  all_answered inode w b h /\ Inv (fst (after inode w b h)) (snd (after inode w b h)).
Proof.
  induction h as [|[ord o] h IH]; intros w b I Sf; cbn [all_safe all_answered after] in *; [split; auto|].
  destruct Sf as (Po & Sf & Rest). destruct (exec ord o w) as [w' r] eqn:E.
  destruct (step ord w b o w' r Po I Sf E) as [I' A]. destruct (IH w' _ I' Rest) as [IH1 IH2]. auto.
Qed.
End Steps.
