(** The list sampler on a data set in a database: every group has one record. *)
From Coq Require Import String Ascii.
From Coq Require Import List ZArith QArith Qcanon Bool Permutation Lia.
From Verif Require Import Py PyFacts MemModel MemSpec MemFacts KnnModel FitModel SampModel SampSpec SampFacts2 NetModel MetricFacts2
  DbModel DbFacts DbSpec DbFacts2 DbFacts3 DbFacts4 DbFacts5 DbFacts6 DbFacts7 DbFacts8 DbFacts11 DbFacts12 DbFacts13 DbFacts14 DbFacts15 DbFacts17 DbFacts18 DbGenModel DbGenSpec DbGenFacts DbGenFacts2
  DbSplitModel DbSplitSpec DbSplitFacts DbSplitFacts2 DbSplitFacts3 RecDbModel RecDbFacts RecDbFacts2 RecDbModel6 RecDbSpec6.
Import ListNotations.
Open Scope string_scope.
Open Scope Z_scope.
Open Scope list_scope.

(** ** Texts of queries *)
Lemma parse_stripped x q q' : map strip (split_on "," q) = map strip (split_on "," q') -> parse_query x q = parse_query x q'.
Proof.
  unfold parse_query. generalize (split_on "," q) (split_on "," q'). intros l l'. revert l'.
  induction l as [|s l IH]; intros [|s' l'] H; try discriminate; [reflexivity|]. injection H as H1 H2. cbn [mapM].
  rewrite (IH l' H2). replace (parse_cond x s) with (parse_cond x s') by (unfold parse_cond; rewrite H1; reflexivity). reflexivity.
Qed.
Lemma parse_concat x d cs : cs <> [] -> Forall (cond_fits d) cs ->
  parse_query x (String.concat "," (map cond_text cs)) = parse_query x (query_text cs).
Proof.
  intros N F. apply parse_stripped. rewrite split_concat.
  - destruct cs as [|c cs]; [contradiction|]. rewrite (split_conds d) by auto. cbn [map]. f_equal. rewrite !map_map. apply map_ext.
    intro e. rewrite strip_space. reflexivity.
  - destruct cs; [contradiction|discriminate].
  - apply Forall_forall. intros s Hs. apply in_map_iff in Hs. destruct Hs as (c & <- & Hc). rewrite Forall_forall in F. eapply cond_comma; eauto.
Qed.
Lemma select_same inode i q q' cp w : (forall x, parse_query x q = parse_query x q') -> DbModel.select inode i q cp w = DbModel.select inode i q' cp w.
Proof.
  intro H. unfold DbModel.select, andthen. destruct (target inode i cp w) as [w1 [j|e]]; [|reflexivity].
  destruct (touched inode i cp w1) as [w2 [u|e]]; [|reflexivity]. destruct (self j w2) as [w3 [y|e]]; [|reflexivity]. rewrite H. reflexivity.
Qed.

(** ** Programs that may raise at any call *)
Section Steps.
Variable inode : string -> nat.
Notation reaches := (reaches inode).
Variable ords : nat -> list trow -> list trow.
Hypothesis Po : forall k, permuting (ords k).

Definition now (b : book) (w : world) : Prop := exists b0, (forall j, b0 j = b j) /\ reaches w b0.
Definition does {A} (b : book) (p : P A) (Q : book -> res A -> Prop) : Prop :=
  forall s s' r, now b (snd s) -> p s = (s', r) -> exists b', now b' (snd s') /\ Q b' r.

Lemma does_bind {A B} b (p : P A) (f : A -> P B) Q R : does b p Q -> (forall b' a, Q b' (Ok a) -> does b' (f a) R) ->
  (forall b' e, Q b' (Err e) -> R b' (Err e)) -> does b (pbind p f) R.
Proof.
  intros Hp Hf He s s' r N E. unfold pbind in E. destruct (p s) as [s1 [a|e]] eqn:Ep.
  - destruct (Hp _ _ _ N Ep) as (b1 & N1 & Q1). exact (Hf b1 a Q1 _ _ _ N1 E).
  - injection E as <- <-. destruct (Hp _ _ _ N Ep) as (b1 & N1 & Q1). exists b1. auto.
Qed.
Lemma does_weaken {A} b (p : P A) (Q R : book -> res A -> Prop) : does b p Q -> (forall b' r, Q b' r -> R b' r) -> does b p R.
Proof. intros H W s s' r N E. destruct (H _ _ _ N E) as (b1 & N1 & Q1). eauto. Qed.
Lemma does_ret {A} b (r : res A) (Q : book -> res A -> Prop) : Q b r -> does b (pret r) Q.
Proof. intros H s s' r' N E. injection E as <- <-. eauto. Qed.

(** a call: the data sets afterwards, and its answer *)
Lemma step ord o w b w' r : permuting ord -> now b w -> exec inode ord o w = (w', r) ->
  (forall b0, (forall j, b0 j = b j) -> safe inode w b0 o) -> exists b0, (forall j, b0 j = b j) /\ reaches w' (effect inode w b0 o r) /\ answered inode w b0 o r.
Proof.
  intros P0 (b0 & Eb & R) E Sf. exists b0. split; [auto|]. split.
  - exact (Calls inode _ _ _ _ _ _ R P0 (Sf b0 Eb) E).
  - exact (answer_of inode _ _ _ _ _ _ (reaches_inv _ _ _ R) P0 (Sf b0 Eb) E).
Qed.
Lemma now_note b b0 w j d : (forall k, b0 k = b k) -> reaches w (note b0 j d) -> now (note b j d) w.
Proof. intros Eb R. exists (note b0 j d). split; [|exact R]. intro k. unfold note. destruct (Nat.eqb k j); auto. Qed.

Lemma self_does b i d : b i = Some d -> does b (db (self i)) (fun b' r => b' = b /\ forall x, r = Ok x -> i_cols x = d_cols d).
Proof.
  intros Hb s s' r N E. pose proof N as (b0 & Eb & R). assert (Hb0 : b0 i = Some d) by (rewrite Eb; auto).
  destruct (shows_inst inode _ i d (inv_ds _ _ _ (reaches_inv _ _ _ R) i d Hb0)) as (x & H & C & _).
  unfold db, self, get in E. rewrite H in E. injection E as <- <-. exists b. split; [exact N|]. split; [auto|]. intros y Hy. congruence.
Qed.
Lemma len_does b i d : b i = Some d -> does b (db (ds_len i)) (fun b' r => b' = b /\ r = Ok (length (d_rows d))).
Proof.
  intros Hb s s' r N E. pose proof N as (b0 & Eb & R). assert (Hb0 : b0 i = Some d) by (rewrite Eb; auto).
  unfold db in E. rewrite (len_call inode _ _ _ _ R Hb0) in E. injection E as <- <-. exists b. auto.
Qed.
Lemma cells_does b i d columns : b i = Some d -> does b (db_cells inode ords i columns)
  (fun b' r => b' = b /\ forall vs, r = Ok vs -> Permutation vs (map (cells (asked d columns)) (d_rows d))).
Proof.
  intros Hb s s' r N E. unfold db_cells, dbo in E. destruct (values inode (ords (fst s)) i columns false (snd s)) as [w1 r1] eqn:Ev. injection E as <- <-.
  assert (Ex : exec inode (ords (fst s)) (OValues i columns) (snd s) = (w1, match r1 with Ok a => Ok (ARows a) | Err e => Err e end)).
  { cbn [exec]. unfold amap, andthen. rewrite Ev. destruct r1; reflexivity. }
  destruct (step _ _ _ b _ _ (Po (fst s)) N Ex) as (b0 & Eb & R & A).
  - intros b0 Eb. cbn. rewrite Eb. congruence.
  - exists b. split; [exists b0; auto|]. split; [auto|]. intros vs ->. destruct A as [A _].
    destruct (A i d eq_refl) as (rows & X & Pm); [rewrite Eb; auto|]. injection X as <-. exact Pm.
Qed.
Lemma close_does b j d : b j = Some d -> does b (db (close inode j)) (fun b' r => b' = note b j None).
Proof.
  intros Hb s s' r N E. unfold db in E. destruct (close inode j (snd s)) as [w1 r1] eqn:Ev. injection E as <- <-.
  assert (Ex : exec inode (fun l => l) (OClose j) (snd s) = (w1, match r1 with Ok a => Ok AUnit | Err e => Err e end)).
  { cbn [exec]. unfold amap, andthen. rewrite Ev. destruct r1; reflexivity. }
  destruct (step (fun l => l) _ _ b _ _ (fun l => Permutation_refl l) N Ex) as (b0 & Eb & R & _).
  - intros b0 Eb. destruct N as (b1 & Eb1 & R1). assert (H1 : b1 j = Some d) by (rewrite Eb1; auto).
    destruct (shows_inst inode _ j d (inv_ds _ _ _ (reaches_inv _ _ _ R1) j d H1)) as (x & H & _). cbn. congruence.
  - eexists. split; [|reflexivity]. eapply now_note; eauto.
Qed.
Lemma select_does b i d q cs : b i = Some d -> cs <> [] -> Forall (cond_fits d) cs -> (forall c x, In c cs -> sc_lit c <> LText x) ->
  (forall x, parse_query x q = parse_query x (query_text cs)) ->
  does b (db (DbModel.select inode i q true)) (fun b' r => match r with
    | Ok j => b j = None /\ b' = note b j (Some (restricted d cs))
    | Err _ => b' = b end).
Proof.
  intros Hb Ne Fc Nt Pq s s' r N E. unfold db in E. rewrite (select_same inode i q (query_text cs)) in E by exact Pq.
  destruct (DbModel.select inode i (query_text cs) true (snd s)) as [w1 r1] eqn:Ev. injection E as <- <-.
  assert (Ex : exec inode (fun l => l) (OSelect i cs true) (snd s) = (w1, match r1 with Ok a => Ok (ADs a) | Err e => Err e end)).
  { cbn [exec]. unfold amap, andthen. rewrite Ev. destruct r1; reflexivity. }
  destruct (step (fun l => l) _ _ b _ _ (fun l => Permutation_refl l) N Ex) as (b0 & Eb & R & A).
  - intros b0 Eb. exists d. split; [rewrite Eb; auto|]. split; [auto|]. split; [auto|]. apply Forall_forall. intros c Hc.
    unfold no_name. specialize (Nt c). destruct (sc_lit c); try exact Logic.I. destruct (Nt s0 Hc eq_refl).
  - assert (Hb0 : b0 i = Some d) by (rewrite Eb; auto). destruct r1 as [j|e].
    + destruct A as (_ & j' & Ej & Fr). injection Ej as <-. cbn [effect] in R. rewrite Hb0 in R. cbn [result] in R.
      eexists. split; [eapply now_note; [exact Eb|exact R]|]. split; [rewrite <- Eb; auto|reflexivity].
    + cbn [effect] in R. rewrite Hb0 in R. cbn [result] in R. exists b. split; [exists b0; auto|auto].
Qed.
Definition distinct_ds (d : ds) (cs : list string) : ds :=
  mkDs (plus_rid cs) (d_types d) (d_ids d) (map (proj (plus_rid cs)) (filter (first_of_group cs (d_rows d)) (d_rows d))).
Lemma unique_list i cs cp w w' j o : DbModel.unique inode i (Some cs) cp w = (w', Ok (j, o)) -> o = Some (plus_rid cs) /\
  exists x, w_inst w i = Some x /\ incl cs (i_cols x).
Proof.
  unfold DbModel.unique, andthen, ret, lift. destruct (self i w) as [w1 [x|e]] eqn:Ex; [|discriminate].
  unfold DbModel.handle_columns. destruct (forallb _ cs) eqn:Ef; [|discriminate].
  destruct (target inode i cp w1) as [w2 [k|e]]; [|discriminate]. destruct (self k w2) as [w3 [y|e]]; [|discriminate].
  destruct (put k _ w3) as [w4 [u|e]]; [|discriminate]. destruct (touched inode i cp w4) as [w5 [u'|e]]; [|discriminate].
  destruct (self k w5) as [w6 [y'|e]]; [|discriminate]. destruct (put k _ w6) as [w7 [u''|e]]; [|discriminate].
  destruct (update_state inode k _ w7) as [w8 [u3|e]]; [|discriminate]. intro H. injection H as _ _ <-. split.
  - cbn [option_map]. rewrite <- plus_rid_eq. reflexivity.
  - unfold self in Ex. destruct (w_inst w i) as [z|]; [|discriminate]. injection Ex as _ <-. exists z. split; [auto|].
    intros c Hc. rewrite forallb_forall in Ef. apply in_cols_In. auto.
Qed.
Lemma unique_does b i d cs : b i = Some d -> NoDup cs -> cs <> [] ->
  does b (db (DbModel.unique inode i (Some cs) true)) (fun b' r => match r with
    | Ok (j, o) => b j = None /\ incl cs (d_cols d) /\ b' = note b j (Some (distinct_ds d cs)) /\ o = Some (plus_rid cs)
    | Err _ => b' = b end).
Proof.
  intros Hb Nd Ne s s' r N E. unfold db in E.
  destruct (DbModel.unique inode i (Some cs) true (snd s)) as [w1 r1] eqn:Ev. injection E as <- <-.
  assert (Ex : exec inode (fun l => l) (OUnique i (Some cs) true) (snd s) = (w1, match r1 with Ok a => Ok (ADs (fst a)) | Err e => Err e end)).
  { cbn [exec]. unfold amap, andthen. rewrite Ev. destruct r1; reflexivity. }
  destruct (step (fun l => l) _ _ b _ _ (fun l => Permutation_refl l) N Ex) as (b0 & Eb & R & A).
  - intros b0 Eb. exists d. split; [rewrite Eb; auto|]. cbn [asked]. auto.
  - assert (Hb0 : b0 i = Some d) by (rewrite Eb; auto). cbn [effect] in R. rewrite Hb0 in R. cbn [asked] in R.
    destruct r1 as [[j o]|e].
    + cbn [fst] in *. destruct A as (_ & j' & Ej & Fr). injection Ej as <-. rewrite Eb in Fr.
      destruct (unique_list _ _ _ _ _ _ _ Ev) as (-> & x & Hx & I).
      destruct N as (b1 & Eb1 & R1). assert (H1 : b1 i = Some d) by (rewrite Eb1; auto).
      destruct (shows_inst inode _ i d (inv_ds _ _ _ (reaches_inv _ _ _ R1) i d H1)) as (y & Hy & C & _).
      rewrite Hx in Hy. injection Hy as <-. rewrite C in I.
      replace (forallb _ cs) with true in R.
      * cbn [result] in R. eexists. split; [eapply now_note; [exact Eb|exact R]|]. auto.
      * symmetry. apply forallb_forall. intros c Hc. apply existsb_exists. exists c. split; [auto|apply String.eqb_refl].
    + exists b. split; [|auto]. destruct (forallb _ cs); cbn [result] in R; exists b0; auto.
Qed.
Lemma closes b l : NoDup l -> (forall j, In j l -> b j <> None) -> does b (close_these inode l) (fun b' _ => forall k, ~ In k l -> b' k = b k).
Proof.
  revert b. induction l as [|j l IH]; intros b Nd Hl; cbn [close_these].
  - apply does_ret. auto.
  - inversion Nd as [|? ? Nj Nl]; subst. destruct (b j) as [d|] eqn:Hj; [|destruct (Hl j); [left; auto|auto]].
    eapply does_bind; [eapply close_does; eauto| |].
    + intros b1 [] ->. eapply does_weaken; [apply IH; auto|].
      * intros k Hk. rewrite note_other; [apply Hl; right; auto|]. intros ->. contradiction.
      * cbn beta. intros b2 _ X k Hk. rewrite X by (intro; apply Hk; right; auto). apply note_other. intros ->. apply Hk. left. auto.
    + intros b1 e -> k Hk. apply note_other. intros ->. apply Hk. left. auto.
Qed.

(** ** The sampler *)
Section Sampler.
Variables (i : nat) (d : ds) (a : ls_args) (t : option slit).
Hypothesis G : int_groups d (l_groups a).
Hypothesis Th : thr_fits d a t.
Local Notation cs := (plus_rid (l_groups a)).

Record lists (ls : db_lsampler) : Prop := {
  li_ds : dl_ds ls = i;
  li_args : dl_args ls = with_groups a cs;
  li_groups : forall g, In g (dl_uniq ls) -> exists row, In row (d_rows d) /\ g = cells cs row;
  li_negs : forall v, In v (dl_negs ls) -> exists row, In row (d_rows d) /\ v = tcell row (l_negcol a) }.

Lemma in_plus c : In c cs <-> c = "rid" \/ In c (l_groups a).
Proof.
  unfold plus_rid. destruct (existsb (String.eqb "rid") (l_groups a)) eqn:E.
  - apply existsb_exists in E. destruct E as (x & Hx & Ex). apply String.eqb_eq in Ex. subst x. intuition congruence.
  - rewrite in_app_iff. cbn. intuition congruence.
Qed.
Lemma distinct_cells c rows us : incl us (plus_rid c) -> Permutation rows (map (cells us) (d_rows (distinct_ds d c))) ->
  forall g, In g rows -> exists row, In row (d_rows d) /\ g = cells us row.
Proof.
  intros I Pm g Hg. apply (Permutation_in _ Pm) in Hg. apply in_map_iff in Hg. destruct Hg as (r' & <- & Hr). cbn [distinct_ds d_rows] in Hr.
  apply in_map_iff in Hr. destruct Hr as (row & <- & Hr). apply filter_In in Hr. exists row. split; [apply Hr|].
  unfold cells. apply map_ext_in. intros x Hx. apply tcell_proj. auto.
Qed.

Lemma init_does b : b i = Some d -> does b (db_ls_init inode ords i a) (fun b' r => extends b b' /\ forall ls, r = Ok ls -> lists ls).
Proof.
  intros Hb. unfold db_ls_init. eapply does_bind; [apply (self_does b i d Hb)| |].
  2:{ intros b1 e [-> _]. split; [apply extends_refl|discriminate]. }
  intros b1 x [-> _]. destruct (negb (db_ls_check x a)); [apply does_ret; split; [apply extends_refl|discriminate]|].
  eapply does_bind; [apply (unique_does b i d (l_groups a) Hb (ig_nodup _ _ G) (ig_some _ _ G))| |].
  2:{ intros b1 e ->. split; [apply extends_refl|discriminate]. }
  intros b1 [j o] (Hj & I & -> & ->). cbn [fst snd].
  set (b1 := note b j (Some (distinct_ds d (l_groups a)))).
  assert (X1 : extends b b1) by (intros k Hk; apply note_other; congruence).
  eapply does_bind; [apply (cells_does b1 j (distinct_ds d (l_groups a)) (Some cs) (note_same _ _ _))| |].
  2:{ intros b2 e [-> _]. split; [exact X1|discriminate]. }
  intros b2 gs [-> Pg]. specialize (Pg gs eq_refl).
  eapply does_bind; [apply (close_does b1 j _ (note_same _ _ _))| |].
  2:{ intros b2 e ->. split; [|discriminate]. intros k Hk. rewrite note_other by congruence. apply X1; auto. }
  intros b2 [] ->. set (b2 := note b1 j None). assert (X2 : extends b b2) by (intros k Hk; unfold b2; rewrite note_other by congruence; apply X1; auto).
  assert (Hb2 : b2 i = Some d) by (rewrite X2; [auto|congruence]).
  eapply does_bind; [apply (unique_does b2 i d [l_negcol a] Hb2); [constructor; [auto|constructor]|discriminate]| |].
  2:{ intros b3 e ->. split; [exact X2|discriminate]. }
  intros b3 [j2 o2] (Hj2 & I2 & -> & ->). cbn [fst snd]. set (b3 := note b2 j2 _).
  assert (N2 : b j2 = None).
  { destruct (b j2) eqn:E; [|auto]. rewrite X2 in Hj2 by congruence. congruence. }
  assert (X3 : extends b b3) by (intros k Hk; unfold b3; rewrite note_other by congruence; apply X2; auto).
  eapply does_bind; [apply (cells_does b3 j2 _ (Some [l_negcol a]) (note_same _ _ _))| |].
  2:{ intros b4 e [-> _]. split; [exact X3|discriminate]. }
  intros b4 ns [-> Pn].
  eapply does_bind; [apply (close_does b3 j2 _ (note_same _ _ _))| |].
  2:{ intros b4 e ->. split; [|discriminate]. intros k Hk. rewrite note_other by congruence. apply X3; auto. }
  intros b4 [] ->. apply does_ret. split; [intros k Hk; rewrite note_other by congruence; apply X3; auto|].
  intros ls E. injection E as <-. split; cbn [dl_ds dl_args dl_uniq dl_negs]; [auto|auto| |].
  - apply (distinct_cells (l_groups a) gs cs); [apply incl_refl|exact Pg].
  - intros v Hv. apply MetricFacts2.dedup_incl in Hv. apply in_concat in Hv. destruct Hv as (g & Hg & Hv).
    destruct (distinct_cells [l_negcol a] ns [l_negcol a]) with (g := g) as (row & Hr & ->).
    + intros c [<-|[]]. unfold plus_rid. destruct (existsb _ _); [left|apply in_or_app; left; left]; reflexivity.
    + exact (Pn ns eq_refl).
    + exact Hg.
    + destruct Hv as [<-|[]]. exists row. auto.
Qed.

(** *** One group *)
Definition conds (row : trow) : list scond := map (fun c => is_id c (zcell c row)) cs.
Lemma group_text row : In row (d_rows d) -> (forall r, In r (d_rows d) -> tcell r "rid" = Some (VInt (rid_of r))) ->
  cell_query cs (cells cs row) = String.concat "," (map cond_text (conds row)).
Proof.
  intros Hr Rid. unfold cell_query, conds. f_equal. rewrite map_map. unfold cells.
  assert (K : forall c, In c cs -> tcell row c = Some (VInt (zcell c row))).
  { intros c Hc. apply in_plus in Hc. destruct Hc as [->|Hc].
    - unfold zcell. rewrite (Rid row Hr). reflexivity.
    - destruct (ig_cells _ _ G row c Hr Hc) as [z Hz]. unfold zcell. rewrite Hz. reflexivity. }
  revert K. generalize cs. intros l K. induction l as [|c l IH]; [reflexivity|]. cbn [map combine fst snd].
  rewrite IH by (intros; apply K; right; auto). f_equal. rewrite K by (left; auto). reflexivity.
Qed.
Lemma plain_rid : plain "rid".
Proof. split; [discriminate|]. cbn. unfold plain_char. repeat split; intro; discriminate. Qed.
Lemma conds_fit row : In "rid" (d_cols d) -> Forall (cond_fits d) (conds row).
Proof.
  intros Ir. apply Forall_forall. intros c Hc. apply in_map_iff in Hc. destruct Hc as (x & <- & Hx). apply in_plus in Hx.
  destruct (ig_types _ _ G) as (ts & Ts & Ty). split; [|split]; cbn [is_id sc_col sc_lit].
  - destruct Hx as [->|Hx]; [auto|apply (ig_cols _ _ G); auto].
  - destruct Hx as [->|Hx]; [apply plain_rid|]. pose proof (ig_plain _ _ G) as Fp. rewrite Forall_forall in Fp. auto.
  - exists ts, DInt. split; [auto|]. split; [|exact Logic.I]. apply Ty. destruct Hx as [->|Hx]; [left|right]; auto.
Qed.
Lemma filter_one {A} (f : A -> Z) (p : A -> bool) k l : NoDup (map f l) -> (forall x, In x l -> p x = true -> f x = k) -> (length (filter p l) <= 1)%nat.
Proof.
  induction l as [|x l IH]; intros Nd H; [cbn; lia|]. cbn [map] in Nd. inversion Nd as [|? ? Nx Nl]; subst. cbn [filter].
  destruct (p x) eqn:Ex; [|apply IH; [auto|intros; apply H; [right|]; auto]]. cbn [length].
  replace (filter p l) with (@nil A); [cbn; lia|]. symmetry. destruct (filter p l) as [|y l'] eqn:E; [auto|]. exfalso.
  assert (Hy : In y (filter p l)) by (rewrite E; left; auto). apply filter_In in Hy. apply Nx. rewrite (H x (or_introl eq_refl) Ex).
  rewrite <- (H y (or_intror (proj1 Hy)) (proj2 Hy)). apply in_map. apply Hy.
Qed.
Lemma filter_shorter {A} (p : A -> bool) l : (length (filter p l) <= length l)%nat.
Proof. induction l as [|x l IH]; cbn [filter length]; [lia|]. destruct (p x); cbn [length]; lia. Qed.
Lemma one_of_group row : NoDup (map rid_of (d_rows d)) -> (forall r, In r (d_rows d) -> tcell r "rid" = Some (VInt (rid_of r))) -> In row (d_rows d) ->
  (length (d_rows (restricted d (conds row))) <= 1)%nat.
Proof.
  intros Nd Rid Hr. cbn [restricted d_rows]. apply (filter_one rid_of _ (rid_of row) _ Nd). intros x Hx E.
  rewrite forallb_forall in E. specialize (E (is_id "rid" (zcell "rid" row))).
  assert (K : In (is_id "rid" (zcell "rid" row)) (conds row)) by (apply in_map_iff; exists "rid"; split; [auto|apply in_plus; auto]).
  specialize (E K). unfold is_id in E. rewrite id_is, (Rid x Hx) in E. unfold zcell in E. rewrite (Rid row Hr) in E. cbn [number_is] in E. lia.
Qed.

(** the data set of the positive records of a group *)
Definition few (dp : ds) : Prop :=
  d_cols dp = d_cols d /\ (length (d_rows dp) <= 1)%nat /\ forall row, In row (d_rows dp) -> In row (d_rows d) /\ reaches_thr t row = true.
Lemma group_steps ls g b : NoDup (map rid_of (d_rows d)) -> In "rid" (d_cols d) ->
  (forall row, In row (d_rows d) -> tcell row "rid" = Some (VInt (rid_of row))) -> lists ls -> In g (dl_uniq ls) -> b i = Some d -> does b (db_group inode ls g) (fun b' r => extends b b' /\
  forall jp l, r = Ok (jp, l) -> exists dp, b' jp = Some dp /\ few dp /\ NoDup l /\ forall j, In j l -> b j = None /\ b' j <> None).
Proof.
  intros Nd Ir Rid L Hg Hb.
  destruct (li_groups ls L g Hg) as (row & Hr & ->). unfold db_group. rewrite (li_ds ls L), (li_args ls L). cbn [with_groups l_groups l_thr].
  assert (Ne : conds row <> []).
  { unfold conds. intro E. apply map_eq_nil in E. assert (X : In "rid" cs) by (apply in_plus; auto). rewrite E in X. contradiction. }
  eapply does_bind; [apply (select_does b i d _ (conds row) Hb Ne (conds_fit row Ir))| |].
  - intros c x Hc. apply in_map_iff in Hc. destruct Hc as (y & <- & _). discriminate.
  - intro x. rewrite group_text by auto. apply (parse_concat x d); [exact Ne|apply conds_fit; auto].
  - intros b1 j [Hj ->]. assert (X1 : extends b (note b j (Some (restricted d (conds row))))) by (intros k Hk; apply note_other; congruence).
    destruct Th as [Et Ft]. destruct t as [l|] eqn:Etl; rewrite Et; cbn [thr_text option_map].
    + destruct Ft as [Ft Nt]. eapply does_bind; [apply (select_does _ j (restricted d (conds row)) _ [mkCond "interaction" Ge l])| |].
      * apply note_same.
      * discriminate.
      * constructor; [exact Ft|constructor].
      * intros c x [<-|[]]. apply Nt.
      * intro x. reflexivity.
      * intros b2 jp [Hjp ->]. apply does_ret.
        assert (Nj : jp <> j) by (intros ->; rewrite note_same in Hjp; discriminate). rewrite note_other in Hjp by auto.
        split.
        -- intros k Hk. rewrite note_other by congruence. apply X1; auto.
        -- intros jp' l' E. injection E as <- <-. eexists. split; [apply note_same|]. split; [|split].
           ++ split; [reflexivity|]. split.
              ** cbn [restricted d_rows]. eapply Nat.le_trans; [apply filter_shorter|]. exact (one_of_group row Nd Rid Hr).
              ** intros x Hx. cbn [restricted d_rows] in Hx. apply filter_In in Hx. destruct Hx as [Hx Ex]. apply filter_In in Hx. split; [apply Hx|].
                 rewrite Etl. cbn [reaches_thr]. cbn [forallb] in Ex. rewrite andb_true_r in Ex. exact Ex.
           ++ constructor; [intros [->|[]]; contradiction|]. constructor; [auto|constructor].
           ++ intros k [<-|[<-|[]]]; (split; [auto|]).
              ** rewrite note_same. discriminate.
              ** rewrite note_other, note_same by auto. discriminate.
      * intros b2 e ->. split; [exact X1|discriminate].
    + apply does_ret. split; [exact X1|]. intros jp l E. injection E as <- <-. eexists. split; [apply note_same|]. split; [|split].
      * split; [reflexivity|]. split; [apply one_of_group; auto|]. intros x Hx. cbn [restricted d_rows] in Hx. apply filter_In in Hx. split; [apply Hx|rewrite Etl; reflexivity].
      * constructor; [auto|constructor].
      * intros k [<-|[]]. split; [auto|]. rewrite note_same. discriminate.
  - intros b1 e ->. split; [apply extends_refl|discriminate].
Qed.

Lemma group_does ls g b : lists ls -> In g (dl_uniq ls) -> b i = Some d -> does b (db_group inode ls g) (fun b' r => extends b b' /\
  forall jp l, r = Ok (jp, l) -> exists dp, b' jp = Some dp /\ few dp /\ NoDup l /\ forall j, In j l -> b j = None /\ b' j <> None).
Proof.
  intros L Hg Hb s s' r N E. pose proof N as (b0 & Eb & R). assert (Hb0 : b0 i = Some d) by (rewrite Eb; auto).
  destruct (book_rows inode _ _ _ _ R Hb0) as (Nd & Ir & Rid & _). exact (group_steps ls g b Nd Ir Rid L Hg Hb s s' r N E).
Qed.

(** *** Samples *)
Variable pick : nat -> list (option value) -> nat -> list (option value).
Variable rnd : nat -> nat.
Lemma sort_one l ls : (length l <= 1)%nat -> forall l', sort_trows (dl_args ls) l = Ok l' -> l' = l.
Proof.
  intros Hl l' H. unfold sort_trows in H. destruct (l_sort (dl_args ls)) as [c|]; [|congruence]. destruct (_ && _); [discriminate|].
  destruct l as [|x [|y l]]; [|reflexivity + (cbn in H; congruence)|cbn in Hl; lia]. cbn in H. congruence.
Qed.
Lemma slice_none {A} p q (l : list A) : q <= p -> slice p q l = [].
Proof. intro H. unfold slice. replace (Z.to_nat (q - p)) with 0%nat by lia. reflexivity. Qed.
Lemma slice_one {A} p q (l : list A) : (length l <= 1)%nat -> slice p q l = [] \/ slice p q l = l.
Proof.
  intro H. destruct l as [|x [|y l]]; [| |cbn in H; lia].
  - left. unfold slice. rewrite skipn_nil. apply firstn_nil.
  - unfold slice. destruct (Z.to_nat p) as [|k]; cbn [skipn].
    + destruct (Z.to_nat (q - p)); cbn [firstn]; [left|right]; auto. rewrite firstn_nil. auto.
    + left. rewrite skipn_nil. apply firstn_nil.
Qed.
Lemma window_one ls k recs g : (length recs <= 1)%nat -> db_window pick rnd ls k (Z.of_nat (length recs)) recs = Ok (Some g) ->
  records g = [] \/ records g = recs.
Proof.
  intros Hl H. unfold db_window in H. destruct (sort_trows (dl_args ls) recs) as [all|] eqn:Es; [|discriminate]. cbn [bind] in H.
  rewrite (sort_one recs ls Hl all Es) in H. clear Es all.
  destruct (padding rnd (dl_args ls) (Z.of_nat (length recs)) (k + 1)) as [p|] eqn:Ep; [|discriminate]. cbn [bind] in H.
  unfold padding in Ep. destruct (l_max (dl_args ls)) as [mx|] eqn:Em.
  - destruct (mx <? Z.of_nat (length recs)) eqn:El.
    + destruct (randint _ _ _ _) as [p'|]; [|discriminate]. cbn [bind] in Ep. injection Ep as <-. apply Z.ltb_lt in El.
      rewrite (slice_none p' (p' + mx) recs) in H by lia. destruct (l_targets (dl_args ls)) as [n|].
      * cbv beta iota zeta in H. do 2 (match type of H with (if ?c then _ else _) = _ => destruct c; [discriminate|] end). injection H as <-. cbn [records app]. apply slice_one. auto.
      * injection H as <-. left. reflexivity.
    + injection Ep as <-. destruct (l_targets (dl_args ls)) as [n|].
      * cbv beta iota zeta in H. do 2 (match type of H with (if ?c then _ else _) = _ => destruct c; [discriminate|] end). injection H as <-. cbn [records]. right. apply firstn_skipn.
      * injection H as <-. right. reflexivity.
  - injection Ep as <-. destruct (l_targets (dl_args ls)) as [n|].
    + cbv beta iota zeta in H. do 2 (match type of H with (if ?c then _ else _) = _ => destruct c; [discriminate|] end). injection H as <-. cbn [records]. right. apply firstn_skipn.
    + injection H as <-. right. reflexivity.
Qed.
(** a sample has at most one record, and no more are asked for *)
Definition lone (g : db_gsample) : Prop := ~ needs_two a /\
  (records g = [] \/ exists row, In row (d_rows d) /\ reaches_thr t row = true /\ records g = [dict_of d row]).
Lemma dicts dp vs : few dp -> Permutation vs (map (cells (d_cols d)) (d_rows dp)) ->
  map (combine (d_cols d)) vs = map (dict_of d) (d_rows dp).
Proof.
  intros (_ & Le & _) Pm. assert (E : vs = map (cells (d_cols d)) (d_rows dp)).
  { destruct (d_rows dp) as [|r [|r' l]]; [| |cbn in Le; lia]; cbn [map] in *.
    - apply Permutation_nil. apply Permutation_sym. exact Pm.
    - apply Permutation_length_1_inv. apply Permutation_sym. exact Pm. }
  rewrite E, map_map. apply map_ext. intro row. unfold dict_of, cells. clear. induction (d_cols d) as [|c l IH]; [auto|]. cbn [map combine]. rewrite IH. reflexivity.
Qed.
Lemma attempt_does ls k b : lists ls -> b i = Some d -> does b (db_attempt inode ords pick rnd ls k)
  (fun b' r => extends b b' /\ forall g, r = Ok (Some g) -> lone g).
Proof.
  intros L Hb. unfold db_attempt. eapply (does_bind b _ _ (fun b' r => b' = b /\ forall g, r = Ok g -> In g (dl_uniq ls))).
  { apply does_ret. split; [auto|]. intros g E. unfold choice in E. destruct (nth_error _ _) as [x|] eqn:En; [|discriminate]. injection E as <-. eapply nth_error_In; eauto. }
  2:{ intros b1 e [-> _]. split; [apply extends_refl|discriminate]. }
  intros b1 g [-> Hg]. specialize (Hg g eq_refl). eapply does_bind; [apply (group_does ls g b L Hg Hb)| |].
  2:{ intros b1 e [X _]. split; [exact X|discriminate]. }
  intros b1 [jp l] [X1 K]. destruct (K jp l eq_refl) as (dp & Hp & F & Nl & Cl). cbn [fst snd].
  assert (Close : forall (o : option db_gsample), (forall g, o = Some g -> lone g) -> does b1 (pbind (close_these inode l) (fun _ => pret (Ok o)))
    (fun b' r => extends b b' /\ forall g, r = Ok (Some g) -> lone g)).
  { intros o Ho. assert (Ex : forall b2, (forall k, ~ In k l -> b2 k = b1 k) -> extends b b2).
    { intros b2 X2 k' Hk. rewrite X2; [apply X1; auto|]. intro H. destruct (Cl k' H). contradiction. }
    eapply does_bind; [apply closes; [exact Nl|intros j Hj; apply Cl; auto]| |].
    - intros b2 [] X2. apply does_ret. split; [auto|]. intros g' E. apply Ho. congruence.
    - intros b2 e X2. split; [auto|discriminate]. }
  eapply does_bind; [apply (len_does b1 jp dp Hp)| |].
  2:{ intros b2 e [_ E]. discriminate. }
  intros b2 n [-> En]. injection En as ->. rewrite (li_args ls L). cbn [with_groups l_min l_targets].
  destruct (_ || _) eqn:Eo; [apply Close; discriminate|].
  apply orb_false_iff in Eo. destruct Eo as [E1 E2]. apply Z.ltb_ge in E1. pose proof F as (Fc & Fl & Fr).
  assert (No : ~ needs_two a).
  { intros [H|(n & Hn & H)]; [lia|]. rewrite Hn in E2. apply Z.ltb_ge in E2. lia. }
  eapply does_bind; [apply (self_does b1 jp dp Hp)| |].
  2:{ intros b2 e [-> _]. split; [exact X1|discriminate]. }
  intros b2 x [-> Cx]. specialize (Cx x eq_refl). rewrite Cx, Fc.
  eapply does_bind; [apply (cells_does b1 jp dp None Hp)| |].
  2:{ intros b2 e [-> _]. split; [exact X1|discriminate]. }
  intros b2 vs [-> Pv]. specialize (Pv vs eq_refl). cbn [asked] in Pv. rewrite Fc in Pv. rewrite (dicts dp vs F Pv).
  eapply (does_bind b1 _ _ (fun b' r => b' = b1 /\ forall o, r = Ok o -> forall g, o = Some g -> lone g)).
  - apply does_ret. split; [auto|]. intros o E g' ->. split; [exact No|].
    rewrite <- (map_length (dict_of d)) in E. assert (Lm : (length (map (dict_of d) (d_rows dp)) <= 1)%nat) by (rewrite map_length; exact Fl).
    destruct (window_one ls k _ g' Lm E) as [H|H]; [left; auto|].
    destruct (d_rows dp) as [|row [|r' rs]]; [left; auto| |cbn in Fl; lia]. right. exists row. destruct (Fr row (or_introl eq_refl)) as [H1 H2]. auto.
  - intros b2 o [-> Ho]. apply Close. apply Ho. auto.
  - intros b2 e [-> _]. split; [exact X1|discriminate].
Qed.
Lemma tries_does ls left : lists ls -> forall k b, b i = Some d -> does b (db_tries inode ords pick rnd left ls k)
  (fun b' r => extends b b' /\ forall x, r = Ok x -> lone (fst x)).
Proof.
  intro L. induction left as [|left IH]; intros k b Hb; cbn [db_tries]; (eapply does_bind; [apply (attempt_does ls k b L Hb)| |]);
    try (intros b1 e [X _]; split; [exact X|discriminate]); intros b1 [g|] [X K].
  - apply does_ret. split; [exact X|]. intros x E. injection E as <-. apply K. auto.
  - apply does_ret. split; [exact X|discriminate].
  - apply does_ret. split; [exact X|]. intros x E. injection E as <-. apply K. auto.
  - eapply does_weaken; [apply IH; rewrite X; [auto|congruence]|]. intros b2 r [X2 K2]. split; [eapply extends_trans; eauto|auto].
Qed.
Lemma samples_does ls n : lists ls -> forall k b, b i = Some d -> does b (db_sample_groups inode ords pick rnd n ls k)
  (fun b' r => extends b b' /\ forall x, r = Ok x -> length (fst x) = n /\ Forall lone (fst x)).
Proof.
  intro L. induction n as [|n IH]; intros k b Hb; cbn [db_sample_groups].
  - apply does_ret. split; [apply extends_refl|]. intros x E. injection E as <-. split; [auto|constructor].
  - eapply does_bind; [apply (tries_does ls 20 L k b Hb)| |]; [|intros b1 e [X _]; split; [exact X|discriminate]].
    intros b1 x [X1 K1]. specialize (K1 x eq_refl). eapply does_bind; [apply (IH (snd x) b1); rewrite X1; [auto|congruence]| |].
    + intros b2 y [X2 K2]. destruct (K2 y eq_refl) as [Ly Fy]. apply does_ret. split; [eapply extends_trans; eauto|]. intros z E. injection E as <-.
      cbn [fst]. split; [cbn; congruence|constructor; auto].
    + intros b2 e [X2 _]. split; [eapply extends_trans; eauto|discriminate].
Qed.
Lemma batches_does ls e n : lists ls -> forall k b, b i = Some d -> does b (db_batches inode ords pick rnd e n ls k)
  (fun b' r => extends b b' /\ forall x, r = Ok x -> length x = e /\ Forall (fun l => length l = n /\ Forall lone l) x).
Proof.
  intro L. induction e as [|e IH]; intros k b Hb; cbn [db_batches].
  - apply does_ret. split; [apply extends_refl|]. intros x E. injection E as <-. split; [auto|constructor].
  - eapply does_bind; [apply (samples_does ls n L k b Hb)| |]; [|intros b1 e' [X _]; split; [exact X|discriminate]].
    intros b1 x [X1 K1]. destruct (K1 x eq_refl) as [L1 F1]. eapply does_bind; [apply (IH (snd x) b1); rewrite X1; [auto|congruence]| |].
    + intros b2 y [X2 K2]. destruct (K2 y eq_refl) as [Ly Fy]. apply does_ret. split; [eapply extends_trans; eauto|]. intros z E. injection E as <-.
      split; [cbn; congruence|constructor; auto].
    + intros b2 e' [X2 _]. split; [eapply extends_trans; eauto|discriminate].
Qed.
End Sampler.

(** ** Caser *)
Lemma plain_uid : plain "uid".
Proof. split; [discriminate|]. cbn. unfold plain_char. repeat split; intro; discriminate. Qed.
Lemma assigned_groups d ts : d_types d = Some ts -> assoc String.eqb "rid" ts = Some DInt -> int_groups (assigned d) ["uid"].
Proof.
  intros Ts Ty. split.
  - discriminate.
  - constructor; [auto|constructor].
  - constructor; [apply plain_uid|constructor].
  - intros c [<-|[]]. cbn [assigned d_cols]. unfold plus. destruct (existsb (String.eqb "uid") (d_cols d)) eqn:E.
    + apply existsb_exists in E. destruct E as (x & Hx & Ex). apply String.eqb_eq in Ex. subst x. destruct (existsb (String.eqb "iid") _); [auto|apply in_or_app; auto].
    + destruct (existsb (String.eqb "iid") _); repeat (apply in_or_app; cbn; auto).
      left. apply in_or_app. cbn. auto.
  - cbn [assigned d_types]. rewrite Ts. cbn [option_map]. eexists. split; [reflexivity|]. unfold type_as.
    intros c [<-|[<-|[]]].
    + rewrite !assoc_set_get. exact Ty.
    + rewrite !assoc_set_get. reflexivity.
  - intros row c Hr [<-|[]]. cbn [assigned d_rows] in Hr. apply in_map_iff in Hr. destruct Hr as (r & <- & _).
    eexists. unfold with_ids, tcell.
    match goal with |- context [assoc String.eqb "uid" (map ?f ?l)] => assert (In "uid" l) as K end.
    { unfold plus. destruct (existsb (String.eqb "uid") (d_cols d)) eqn:E.
      - apply existsb_exists in E. destruct E as (x & Hx & Ex). apply String.eqb_eq in Ex. subst x. destruct (existsb (String.eqb "iid") _); [auto|apply in_or_app; auto].
      - destruct (existsb (String.eqb "iid") _); [apply in_or_app; cbn; auto|]. apply in_or_app. left. apply in_or_app. cbn. auto. }
    revert K. generalize (plus "iid" (plus "uid" (d_cols d))) as l. intros l K. induction l as [|c l IH]; [destruct K|]. cbn [map assoc].
    destruct (String.eqb "uid" c) eqn:E.
    + apply String.eqb_eq in E. subst c. cbn [String.eqb]. reflexivity.
    + apply IH. destruct K as [->|K]; [rewrite String.eqb_refl in E; discriminate|exact K].
Qed.
Lemma reads_does {A} b (o : op) i d (f : A -> out) (m : M A) : (forall w, exec inode (fun l => l) o w = amap f m w) -> is_read o = true -> subject o = Some i ->
  b i = Some d -> (forall w b0, b0 i = Some d -> safe inode w b0 o) -> does b (db m) (fun b' _ => b' = b).
Proof.
  intros Ex Ro Su Hb Sf s s' r N E. unfold db in E. destruct (m (snd s)) as [w1 r1] eqn:Em. injection E as <- <-.
  assert (E1 : exec inode (fun l => l) o (snd s) = (w1, match r1 with Ok a => Ok (f a) | Err e => Err e end)).
  { rewrite Ex. unfold amap, andthen. rewrite Em. destruct r1; reflexivity. }
  destruct (step (fun l => l) _ _ b _ _ (fun l => Permutation_refl l) N E1) as (b0 & Eb & R & _).
  - intros b0 Eb. apply Sf. rewrite Eb. auto.
  - exists b. split; [|auto]. exists b0. split; [auto|]. destruct o; try discriminate; exact R.
Qed.
Lemma statistics_does b i d : b i = Some d -> does b (db_statistics inode i) (fun b' _ => b' = b).
Proof.
  intros Hb. unfold db_statistics.
  assert (Mn : does b (db (db_min inode i "interaction")) (fun b' _ => b' = b)).
  { apply (reads_does b (OMin i "interaction") i d AVal); auto. intros w b0 H. cbn. congruence. }
  assert (Mx : does b (db (db_max inode i "interaction")) (fun b' _ => b' = b)).
  { apply (reads_does b (OMax i "interaction") i d AVal); auto. intros w b0 H. cbn. congruence. }
  assert (Ct : forall c, does b (db (DbModel.count_unique inode i (Some [c]))) (fun b' _ => b' = b)).
  { intro c. apply (reads_does b (OCountUnique i (Some [c])) i d ANum); auto. intros w b0 H. cbn. exists d. split; [auto|]. split; [constructor; [auto|constructor]|discriminate]. }
  eapply does_bind; [exact Mn| |auto]. intros ? lo ->. eapply does_bind; [exact Mx| |auto]. intros ? hi ->.
  eapply does_bind; [apply Ct| |auto]. intros ? nu ->. eapply does_bind; [apply Ct| |auto]. intros ? ni ->.
  eapply does_bind; [apply (len_does b i d Hb)| |intros ? ? [-> _]; auto]. intros ? n [-> _]. apply does_ret. auto.
Qed.
Definition begun (b : book) (i : nat) (d : ds) (b' : book) : Prop := b' = b \/ b' = note b i (Some (assigned d)).
Lemma begin_does b i d cp s s' r : now b (snd s) -> b i = Some d -> safe inode (snd s) b (OAssign i) -> db_begin_fit inode i cp s = (s', r) ->
  exists b', now b' (snd s') /\ begun b i d b' /\ (forall f, r = Ok f -> b' = note b i (Some (assigned d))).
Proof.
  intros N Hb Sf E. unfold db_begin_fit in E. destruct cp.
  { injection E as <- <-. exists b. split; [auto|]. split; [left; auto|discriminate]. }
  unfold pbind at 1, db at 1 in E. destruct (assign_ids inode i (snd s)) as [w1 r1] eqn:Ea.
  assert (E1 : exec inode (fun l => l) (OAssign i) (snd s) = (w1, match r1 with Ok _ => Ok AUnit | Err e => Err e end)).
  { cbn [exec]. unfold amap, andthen. rewrite Ea. destruct r1; reflexivity. }
  destruct (step (fun l => l) _ _ b _ _ (fun l => Permutation_refl l) N E1) as (b0 & Eb & R & _).
  { intros b0 Eb. destruct Sf as (W & S & d' & H & X). cbn. split; [auto|]. split; [auto|]. exists d'. rewrite Eb. auto. }
  assert (Hb0 : b0 i = Some d) by (rewrite Eb; auto). cbn [effect] in R. destruct r1 as [u|e].
  - rewrite Hb0 in R. cbn [fst] in E. pose proof (now_note b b0 w1 i _ Eb R) as N1.
    assert (K : does (note b i (Some (assigned d))) (pbind (db_statistics inode i) (fun f => pbind (pret (log_initial_info f)) (fun _ => pret (Ok f))))
      (fun b' _ => b' = note b i (Some (assigned d)))).
    { eapply does_bind; [apply (statistics_does _ i (assigned d)); apply note_same| |auto]. intros ? f ->.
      eapply (does_bind _ _ _ (fun b' _ => b' = note b i (Some (assigned d)))); [apply does_ret; auto| |auto]. intros ? ? ->. apply does_ret. auto. }
    destruct (K (fst s, w1) s' r N1 E) as (b' & N' & ->). eexists. split; [exact N'|]. split; [right; auto|auto].
  - injection E as <- <-. exists b. split; [|split; [left; auto|discriminate]]. exists b0. split; [auto|]. exact R.
Qed.
Lemma caser_does b i d ts t pick rnd cp L T neg thr sort e n s s' r : now b (snd s) -> b i = Some d -> safe inode (snd s) b (OAssign i) ->
  d_types d = Some ts -> assoc String.eqb "rid" ts = Some DInt -> thr_fits d (caser_args L T neg thr sort) t ->
  db_caser_fit inode ords pick rnd cp L T neg thr sort e n i s = (s', r) ->
  exists b', now b' (snd s') /\ (extends b b' \/ extends (note b i (Some (assigned d))) b') /\
    forall x, r = Ok x -> length x = e /\ Forall (fun l => length l = n /\ Forall (lone (assigned d) (caser_args L T neg thr sort) t) l) x.
Proof.
  intros N Hb Sf Ts Ty Th E. unfold db_caser_fit, pbind at 1 in E. destruct (db_begin_fit inode i cp s) as [s1 r1] eqn:Eb.
  destruct (begin_does b i d cp s s1 r1 N Hb Sf Eb) as (b1 & N1 & Bg & Bo). destruct r1 as [f|e1].
  2:{ injection E as <- <-. exists b1. split; [auto|]. split; [|discriminate]. destruct Bg as [->| ->]; [left|right]; apply extends_refl. }
  specialize (Bo f eq_refl). subst b1. pose proof (assigned_groups d ts Ts Ty) as G.
  set (a := caser_args L T neg thr sort) in *.
  assert (Th' : thr_fits (assigned d) a t).
  { destruct Th as [Et Ft]. split; [auto|]. destruct t as [l|]; [|auto]. destruct Ft as [(I & Pl & ts' & ty & Ts' & A & Fl) Nt]. split; [|auto].
    split; [|split; [auto|]].
    - cbn [sc_col] in *. cbn [assigned d_cols]. unfold plus. destruct (existsb (String.eqb "uid") (d_cols d)); destruct (existsb (String.eqb "iid") _); try (apply in_or_app; left); try (apply in_or_app; left); auto.
    - cbn [assigned d_types]. rewrite Ts'. cbn [option_map]. eexists. exists ty. split; [reflexivity|]. split; [|auto]. unfold type_as. cbn [sc_col] in *.
      rewrite !assoc_set_get. exact A. }
  assert (K : does (note b i (Some (assigned d))) (pbind (db_ls_init inode ords i a) (fun ls => db_batches inode ords pick rnd e n ls 0))
    (fun b' r => extends (note b i (Some (assigned d))) b' /\ forall x, r = Ok x -> length x = e /\ Forall (fun l => length l = n /\ Forall (lone (assigned d) a t) l) x)).
  { eapply does_bind; [apply (init_does i (assigned d) a G); apply note_same| |intros b1 e1 [X _]; split; [exact X|discriminate]].
    intros b1 ls [X1 Hl]. eapply does_weaken; [apply (batches_does i (assigned d) a t G Th' pick rnd ls e n (Hl ls eq_refl)); rewrite X1; [apply note_same|rewrite note_same; discriminate]|].
    intros b2 r2 [X2 H2]. split; [eapply extends_trans; eauto|auto]. }
  destruct (K s1 s' r N1 E) as (b' & N' & X & H). exists b'. split; [auto|]. split; [right; exact X|exact H].
Qed.
End Steps.

(** *** Negatives *)
Lemma pbind_ok {A B} (p : RecDbModel.P A) (f : A -> RecDbModel.P B) s s' v : pbind p f s = (s', Ok v) -> exists s1 a, p s = (s1, Ok a) /\ f a s1 = (s', Ok v).
Proof. unfold pbind. destruct (p s) as [s1 [a|e]]; intro H; [eauto|discriminate]. Qed.
Lemma attempt_from inode ords pick rnd ls k s s' g : db_attempt inode ords pick rnd ls k s = (s', Ok (Some g)) ->
  exists n recs, db_window pick rnd ls k n recs = Ok (Some g).
Proof.
  intro H. unfold db_attempt in H. apply pbind_ok in H. destruct H as (s1 & x & _ & H). apply pbind_ok in H. destruct H as (s2 & h & _ & H).
  apply pbind_ok in H. destruct H as (s3 & len & _ & H). destruct (_ || _).
  - apply pbind_ok in H. destruct H as (s4 & u & _ & H). discriminate.
  - apply pbind_ok in H. destruct H as (s4 & y & _ & H). apply pbind_ok in H. destruct H as (s5 & vs & _ & H).
    apply pbind_ok in H. destruct H as (s6 & o & Ho & H). apply pbind_ok in H. destruct H as (s7 & u & _ & H).
    injection H as _ ->. injection Ho as _ Ho. eauto.
Qed.
Lemma samples_from inode ords pick rnd ls n : forall k s s' l k', db_sample_groups inode ords pick rnd n ls k s = (s', Ok (l, k')) ->
  forall g, In g l -> exists k n recs, db_window pick rnd ls k n recs = Ok (Some g).
Proof.
  assert (T : forall left k s s' x, db_tries inode ords pick rnd left ls k s = (s', Ok x) -> exists k n recs, db_window pick rnd ls k n recs = Ok (Some (fst x))).
  { induction left as [|left IH]; intros k s s' x H; cbn [db_tries] in H; apply pbind_ok in H; destruct H as (s1 & o & Ho & H); (destruct o as [g|];
      [injection H as _ <-; destruct (attempt_from _ _ _ _ _ _ _ _ _ Ho) as (n' & recs & E); cbn [fst]; eauto|]).
    - discriminate.
    - eauto. }
  induction n as [|n IH]; intros k s s' l k' H; cbn [db_sample_groups] in H.
  - injection H as _ <- _. intros g [].
  - apply pbind_ok in H. destruct H as (s1 & x & Hx & H). apply pbind_ok in H. destruct H as (s2 & [l' k1] & Hl & H). injection H as _ <- _.
    intros g [<-|Hg]; [eapply T; eauto|eapply IH; eauto].
Qed.
Lemma sorted_same a l l' x : sort_trows a l = Ok l' -> In x l' -> In x l.
Proof.
  unfold sort_trows. destruct (l_sort a) as [c|]; [|intro H; injection H as <-; auto]. destruct (_ && _); [discriminate|]. intro H. injection H as <-.
  intro Hx. eapply Permutation_in; [apply Permutation_sym, sort_by_perm|exact Hx].
Qed.
Lemma in_slice {A} p q (l : list A) x : In x (slice p q l) -> In x l.
Proof. unfold slice. intro H. apply firstn_incl in H. rewrite <- (firstn_skipn (Z.to_nat p) l). apply in_or_app. right. exact H. Qed.
Lemma mem_b_in {A} (eqb : A -> A -> bool) x y l : In y l -> eqb x y = true -> mem_b eqb x l = true.
Proof. intros H E. induction l as [|z l IH]; [destruct H|]. cbn [mem_b]. destruct H as [->|H]; [rewrite E; reflexivity|rewrite (IH H); apply orb_true_r]. Qed.
Lemma window_negatives pick rnd ls k n recs pos tg negs : (forall k l n, (n <= length l)%nat -> length (pick k l n) = n /\ incl (pick k l n) l) ->
  db_window pick rnd ls k n recs = Ok (Some (DTri pos tg negs)) ->
  Z.of_nat (length negs) = l_neg (dl_args ls) * Z.of_nat (length tg) /\
  forall v, In v negs -> In v (dl_negs ls) /\ forall r, In r (pos ++ tg) -> cell_eqb v (tcell r (l_negcol (dl_args ls))) = false.
Proof.
  intros Pk H. unfold db_window in H. destruct (sort_trows (dl_args ls) recs) as [all|] eqn:Es; [|discriminate]. cbn [bind] in H.
  destruct (padding _ _ _ _) as [p|]; [|discriminate]. cbn [bind] in H. destruct (l_targets (dl_args ls)) as [t|]; [|discriminate].
  assert (K : forall pos' tg', (forall r, In r (pos' ++ tg') -> In r all) ->
    (if Z.of_nat (length (db_eligible ls all)) <? l_neg (dl_args ls) * Z.of_nat (length tg') then Ok None else
     if l_neg (dl_args ls) * Z.of_nat (length tg') <? 0 then Err ValueError else
     Ok (Some (DTri pos' tg' (pick (k + 2)%nat (db_eligible ls all) (Z.to_nat (l_neg (dl_args ls) * Z.of_nat (length tg'))))))) = Ok (Some (DTri pos tg negs)) ->
    Z.of_nat (length negs) = l_neg (dl_args ls) * Z.of_nat (length tg) /\
    forall v, In v negs -> In v (dl_negs ls) /\ forall r, In r (pos ++ tg) -> cell_eqb v (tcell r (l_negcol (dl_args ls))) = false).
  { clear H. intros pos' tg' Hin H. destruct (Z.ltb_spec (Z.of_nat (length (db_eligible ls all))) (l_neg (dl_args ls) * Z.of_nat (length tg'))); [discriminate|].
    destruct (Z.ltb_spec (l_neg (dl_args ls) * Z.of_nat (length tg')) 0); [discriminate|]. injection H as <- <- <-.
    destruct (Pk (k + 2)%nat (db_eligible ls all) (Z.to_nat (l_neg (dl_args ls) * Z.of_nat (length tg')))) as [Ln I]; [lia|].
    split; [rewrite Ln; lia|]. intros v Hv. apply I in Hv. apply filter_In in Hv. destruct Hv as [Hv Nv]. split; [exact Hv|].
    intros r Hr. apply Hin in Hr. apply negb_true_iff in Nv. destruct (cell_eqb v (tcell r (l_negcol (dl_args ls)))) eqn:E; [|reflexivity].
    rewrite <- Nv. symmetry. apply (mem_b_in _ _ (tcell r (l_negcol (dl_args ls)))); [apply in_map_iff; eauto|exact E]. }
  destruct p as [p|]; [destruct (l_max (dl_args ls)) as [mx|]|]; cbv beta iota zeta in H; (eapply K; [|exact H]).
  - intros r Hr. apply in_app_or in Hr. destruct Hr as [Hr|Hr]; eapply in_slice; eauto.
  - intros r Hr. rewrite firstn_skipn in Hr. exact Hr.
  - intros r Hr. rewrite firstn_skipn in Hr. exact Hr.
Qed.
