(** The operations of the database data set, one by one: what they do to the
    data set they work on, and that no other data set notices. *)
From Coq Require Import String Ascii.
From Coq Require Import List ZArith QArith Qcanon Bool Lia Permutation.
From Verif Require Import Py PyFacts MemModel DbModel DbFacts DbFacts2 DbFacts3 DbFacts4.
Import ListNotations.
Open Scope string_scope.
Open Scope Z_scope.

Section Ops.
Variable inode : string -> nat.
Notation tables := (tables inode).
Notation set_tables := (set_tables inode).
Notation Base := (Base inode).
Notation settledw := (settledw inode).
Notation unchanged := (unchanged inode).
Notation quiet := (quiet inode).
Notation same := (same inode).

(** Data set [j] has these columns, types, id flag and rows. *)
Definition has (w : world) (j : nat) (cs : list string) (ts : option (list (string * dtype))) (b : bool)
    (rows : list trow) : Prop :=
  exists y, w_inst w j = Some y /\ i_cols y = cs /\ i_types y = ts /\ i_ids y = b /\
    den (tables w (i_path y)) y = rows /\ i_n y = length rows.

Lemma den_length w i x : Base w -> w_inst w i = Some x -> length (den (tables w (i_path x)) x) = i_n x.
Proof.
  intros B H. destruct (b_inst inode w B i x H) as (tb & cs & rows & T & Bs & E & R & L).
  unfold den. rewrite E, map_length. auto.
Qed.
Lemma has_self w i x : Base w -> w_inst w i = Some x ->
  has w i (i_cols x) (i_types x) (i_ids x) (den (tables w (i_path x)) x).
Proof. intros B H. exists x. rewrite (den_length w i x) by auto. auto 10. Qed.
Lemma has_same w w' j cs ts b rows : same w w' j -> has w j cs ts b rows -> has w' j cs ts b rows.
Proof.
  intros S (y & Hy & E1 & E2 & E3 & E4 & E5). destruct (S y Hy) as (z & Hz & (F1 & F2 & F3 & F4 & F5 & F6) & D).
  exists z. repeat split; congruence.
Qed.

(** A step that works on data set [j] and leaves every other one alone. *)
Record works (w w' : world) (j : nat) : Prop := {
  wk_base : Base w';
  wk_settled : forall l, l <> j -> settledw w l -> settledw w' l;
  wk_others : forall l, l <> j -> same w w' l;
  wk_none : forall l, l <> j -> w_inst w l = None -> w_inst w' l = None }.

Lemma unchanged_works w w' j : Base w -> Base w' -> (forall l, l <> j -> unchanged w w' l) -> works w w' j.
Proof.
  intros B B' U. constructor; auto.
  - intros l N S. eapply unchanged_settled; eauto.
  - intros l N. apply unchanged_same; auto.
  - intros l N H. destruct (U l N) as [-> _]. auto.
Qed.
Lemma quiet_works w w' i : Base w -> quiet i w w' -> works w w' i.
Proof.
  intros B Q. apply unchanged_works; [auto|apply (qu_base _ _ _ _ Q)|apply (qu_others _ _ _ _ Q)].
Qed.
Lemma works_trans w1 w2 w3 j : works w1 w2 j -> works w2 w3 j -> works w1 w3 j.
Proof.
  intros A B. constructor; [apply (wk_base _ _ _ B)| | |].
  - intros l N S. apply (wk_settled _ _ _ B); auto. apply (wk_settled _ _ _ A); auto.
  - intros l N. eapply same_trans; [apply (wk_others _ _ _ A); auto|apply (wk_others _ _ _ B); auto].
  - intros l N H. apply (wk_none _ _ _ B); auto. apply (wk_none _ _ _ A); auto.
Qed.
Lemma works_refl w j : Base w -> works w w j.
Proof. intro G. constructor; auto. intros. apply same_refl. Qed.
(** Data set [i] itself does not notice either. *)
Definition keeps (w w' : world) (i : nat) : Prop := same w w' i /\ settledw w' i.
Lemma quiet_keeps w w' i x : w_inst w i = Some x -> Base w -> quiet i w w' -> keeps w w' i.
Proof. intros H B Q. split; [apply quiet_same with (i := i); auto|eapply quiet_settled; eauto]. Qed.
(** Nobody notices [w -> w2], then [j] is worked on. *)
Lemma works_widen w w' i j : works w w' i -> keeps w w' i -> (w_inst w i = None -> w_inst w' i = None) -> works w w' j.
Proof.
  intros [A1 A2 A3 A4] [K1 K2] K3. constructor; auto.
  - intros l N S. destruct (Nat.eq_dec l i) as [->|Ni]; auto.
  - intros l N. destruct (Nat.eq_dec l i) as [->|Ni]; auto.
  - intros l N. destruct (Nat.eq_dec l i) as [->|Ni]; auto.
Qed.
Lemma quiet_works_any w w' i x j : w_inst w i = Some x -> Base w -> quiet i w w' -> works w w' j.
Proof.
  intros H B Q. apply (works_widen w w' i); [apply quiet_works; auto|eapply quiet_keeps; eauto|congruence].
Qed.

(** The target of an operation: itself, or a copy with the next number. *)
Definition tgt (w : world) (i : nat) (cp : bool) : nat := if cp then w_next w else i.

Lemma begin_spec {A} (k : nat -> M A) w i x cp w' r : Base w -> settledw w i -> w_inst w i = Some x ->
  (j <~ target inode i cp ;; _ <~ touched inode i cp ;; k j) w = (w', r) ->
  exists w2 y, let j := tgt w i cp in
    works w w2 j /\ (cp = false -> w2 = w) /\ w_inst w2 j = Some y /\ settledw w2 j /\
    i_cols y = i_cols x /\ i_types y = i_types x /\ i_ids y = i_ids x /\ i_path y = i_path x /\ i_table y = i_table x /\
    den (tables w2 (i_path y)) y = den (tables w (i_path x)) x /\
    tables w2 (i_path y) (i_table y) = tables w (i_path x) (i_table x) /\
    (k j w2 = (w', r) \/ w' = w2 /\ (exists e, r = Err e) /\ cp = true /\ ~ can_build x).
Proof.
  intros B S H E. destruct cp; cbn [target touched tgt] in *.
  - rewrite (andthen_ok _ _ _ _ _ (copy_eq inode w i x B H)) in E.
    destruct (copy_spec inode w i x B H) as (B1 & U & Hn & Op & Nx & Tb & Dn & Ne & Sn).
    set (w1 := reg_world w (copy_inst x)) in *.
    assert (H1 : w_inst w1 i = Some x) by (destruct (U i Ne) as [-> _]; auto).
    assert (S1 : settledw w1 i) by (eapply unchanged_settled; [apply U; auto|auto]).
    destruct (record_interaction inode i w1) as [w2 r2] eqn:Er.
    destruct (record_spec inode w1 i x w2 r2 B1 S1 H1 Er) as [Q C].
    assert (U2 : unchanged w1 w2 (w_next w)) by (apply (qu_others _ _ _ _ Q); auto).
    exists w2, (copy_inst x).
    split; [eapply works_trans; [apply unchanged_works; eauto|eapply quiet_works_any; eauto]|].
    split; [discriminate|].
    split; [destruct U2 as [-> _]; auto|]. split; [eapply unchanged_settled; [exact U2|auto]|]. do 5 (split; [auto|]).
    split; [rewrite <- Dn; exact (unchanged_den inode w1 w2 (w_next w) (copy_inst x) B1 U2 Hn)|].
    split; [destruct U2 as [_ U2]; exact (U2 _ Hn)|].
    destruct r2 as [[]|e].
    + left. rewrite (andthen_ok _ _ _ _ _ Er) in E. auto.
    + right. rewrite (andthen_err _ _ _ _ _ Er) in E. injection E as <- <-. split; [auto|]. split; [eauto|].
      split; [auto|]. intro Cb. specialize (C (or_introl Cb)). discriminate.
  - exists w, x. split; [apply works_refl; auto|]. split; [auto|]. split; [auto|]. do 8 (split; [auto|]). left. exact E.
Qed.

(** Adopting a fitting query. *)
Lemma adopt_spec w j y q rows w' r : Base w -> w_inst w j = Some y ->
  fits (tables w (i_path y)) y q rows -> update_state inode j q w = (w', r) ->
  works w w' j /\ settledw w' j /\
  has w' j (i_cols y) (i_types y) (i_ids y) (map (proj (i_cols y)) rows) /\ (can_build y -> r = Ok tt).
Proof.
  intros B H F E. destruct (update_state_spec inode w j y q rows w' r B H F E)
    as (B' & U & Op & Nx & C & x' & Hx & P1 & P2 & P3 & P4 & P5 & P6 & St & D).
  split; [apply unchanged_works; auto|]. split; [|split; [|exact C]].
  - intros z Hz. rewrite Hx in Hz. injection Hz as <-. exact St.
  - exists x'. rewrite map_length. auto 10.
Qed.

(** ** drop *)
Definition ridp (rids : list Z) (keep : bool) (r : trow) : bool :=
  if keep then mem_b Z.eqb (rid_of r) rids else negb (mem_b Z.eqb (rid_of r) rids).
Lemma table_i w i x : Base w -> w_inst w i = Some x ->
  exists tb, tables w (i_path x) (i_table x) = Some tb /\ wf_table tb.
Proof.
  intros B H. destruct (b_inst inode w B i x H) as (tb & _ & _ & T & _). exists tb. split; [auto|].
  exact (Base_tables_wf inode w _ _ _ B T).
Qed.

Theorem drop_spec w i x rids cp keep w' r : Base w -> settledw w i -> w_inst w i = Some x ->
  drop inode i rids cp keep w = (w', r) ->
  let j := tgt w i cp in
  works w w' j /\ settledw w' j /\ (can_build x -> r = Ok j) /\
  (forall j', r = Ok j' -> j' = j) /\
  (r = Ok j \/ cp = false -> has w' j (i_cols x) (i_types x) (i_ids x) (filter (ridp rids keep) (den (tables w (i_path x)) x))).
Proof.
  intros B S H E j. unfold drop in E.
  destruct (begin_spec _ w i x cp w' r B S H E)
    as (w2 & y & W2 & _ & Hy & S2 & E1 & E2 & E3 & E4 & E5 & D & Tt & [K|(-> & [e ->] & Ec & Nb)]).
  2:{ split; [exact W2|]. split; [exact S2|]. split; [tauto|]. split; [discriminate|]. subst cp. intros [?|?]; discriminate. }
  fold j in Hy, K, W2, S2. rewrite (andthen_ok _ _ _ _ _ (self_ok j w2 y Hy)) in K.
  pose proof (wk_base _ _ _ W2) as B2.
  destruct (drop_fits (tables w2 (i_path y)) y rids keep) as (rows & F & Dr);
    [exact (b_inst inode w2 B2 j y Hy)|exact (S2 y Hy)|intros tb T; exact (Base_tables_wf inode w2 _ _ _ B2 T)|].
  destruct (update_state inode j (mkSel (i_cols y) (curr_source y) [if keep then WIn rids else WNotIn rids]) w2) as [w3 r3] eqn:Eu.
  destruct (adopt_spec w2 j y _ rows w3 r3 B2 Hy F Eu) as (W3 & S3 & Hh & C).
  assert (Wt : works w w3 j) by (eapply works_trans; eauto).
  rewrite Dr, D, E1, E2, E3 in Hh.
  assert (Cb : can_build x -> can_build y) by (unfold can_build; rewrite E1, E2; auto).
  destruct r3 as [[]|e].
  - rewrite (andthen_ok _ _ _ _ _ Eu) in K. injection K as <- <-. split; [auto|]. split; [auto|]. split; [auto|].
    split; [congruence|]. auto.
  - rewrite (andthen_err _ _ _ _ _ Eu) in K. injection K as <- <-. split; [auto|]. split; [auto|].
    split; [intro X; specialize (C (Cb X)); discriminate|]. split; [discriminate|]. auto.
Qed.

(** ** select *)
Lemma parse_cond_plain x seg c : parse_cond x seg = Ok c -> plain_cond (i_cols x) c.
Proof.
  unfold parse_cond. destruct (split_on " " (strip seg)) as [|c1 [|o [|s [|? ?]]]]; try discriminate.
  destruct (in_cols c1 (i_cols x)) eqn:E; cbn [negb]; [|discriminate]. apply in_cols_In in E.
  destruct (cmp_of_str o); [|discriminate]. destruct (eval_lit s); [|discriminate]. cbn [bind].
  destruct (check_value (i_types x) c1 a); [|discriminate]. cbn [bind]. intro H. injection H as <-. exact E.
Qed.
Lemma parse_query_plain x q conds : parse_query x q = Ok conds -> forall c, In c conds -> plain_cond (i_cols x) c.
Proof.
  unfold parse_query. generalize (split_on "," q). intro l. revert conds. induction l as [|s l IH]; intros conds H.
  - injection H as <-. intros c [].
  - cbn [mapM] in H. destruct (parse_cond x s) as [c|] eqn:E; [|discriminate]. cbn [bind] in H.
    destruct (mapM (parse_cond x) l) as [cs|] eqn:El; [|discriminate]. injection H as <-.
    intros d [<-|Hd]; [eapply parse_cond_plain; eauto|eapply IH; eauto].
Qed.
Lemma parse_cond_eq x y seg : i_cols y = i_cols x -> i_types y = i_types x -> parse_cond y seg = parse_cond x seg.
Proof. intros E1 E2. unfold parse_cond. rewrite E1, E2. auto. Qed.
Lemma mapM_same {A B} (f g : A -> res B) l : (forall a, f a = g a) -> mapM f l = mapM g l.
Proof. intro E. induction l as [|a l IH]; [auto|]. cbn [mapM]. rewrite E, IH. auto. Qed.
Lemma parse_query_eq x y q : i_cols y = i_cols x -> i_types y = i_types x -> parse_query y q = parse_query x q.
Proof. intros E1 E2. unfold parse_query. apply mapM_same. intro s. apply parse_cond_eq; auto. Qed.

(** No text literal of the conditions names a column of the data set's table. *)
Definition unambiguous (w : world) (x : inst) (conds : list wcond) : Prop :=
  forall tb c, tables w (i_path x) (i_table x) = Some tb -> In c conds -> no_column (tb_cols tb) c.

Theorem select_spec w i x q cp w' r : Base w -> settledw w i -> w_inst w i = Some x ->
  select inode i q cp w = (w', r) ->
  let j := tgt w i cp in
  (forall conds, parse_query x q = Ok conds -> unambiguous w x conds) ->
  works w w' j /\ settledw w' j /\
  (forall e, parse_query x q = Err e -> exists e', r = Err e' /\ (cp = false -> w' = w /\ e' = e)) /\
  (forall j', r = Ok j' -> j' = j) /\
  (forall conds, parse_query x q = Ok conds ->
     (can_build x -> r = Ok j) /\
     (r = Ok j \/ cp = false -> has w' j (i_cols x) (i_types x) (i_ids x)
        (filter (fun row => forallb (cond_true row) conds) (den (tables w (i_path x)) x)))).
Proof.
  intros B S H E j Un. unfold select in E.
  destruct (begin_spec _ w i x cp w' r B S H E)
    as (w2 & y & W2 & Id & Hy & S2 & E1 & E2 & E3 & E4 & E5 & D & Tt & [K|(-> & [e ->] & Ec & Nb)]).
  2:{ split; [exact W2|]. split; [exact S2|]. split; [intros e' _; exists e; split; [auto|congruence]|]. split; [discriminate|].
      intros conds _. split; [tauto|]. subst cp. intros [?|?]; discriminate. }
  fold j in Hy, K, W2, S2. rewrite (andthen_ok _ _ _ _ _ (self_ok j w2 y Hy)) in K.
  pose proof (wk_base _ _ _ W2) as B2.
  rewrite (parse_query_eq x y) in K by auto.
  destruct (parse_query x q) as [conds|e] eqn:Ep.
  2:{ unfold lift, andthen in K. injection K as <- <-.
      split; [auto|]. split; [auto|]. split; [|split; discriminate].
      intros e' X. injection X as <-. exists e. auto. }
  rewrite (andthen_ok _ _ w2 w2 conds) in K by reflexivity.
  destruct (table_i w2 j y B2 Hy) as (tb & T & Wf).
  destruct (select_fits inode (tables w2 (i_path y)) y tb conds Wf T) as (rows & F & Dr).
  { exact (b_inst inode w2 B2 j y Hy). }
  { exact (S2 y Hy). }
  { intros c Hc. rewrite E1. eapply parse_query_plain; eauto. }
  { intros c Hc. rewrite Tt in T. exact (Un conds eq_refl tb c T Hc). }
  destruct (update_state inode j (new_state y conds) w2) as [w3 r3] eqn:Eu.
  destruct (adopt_spec w2 j y _ rows w3 r3 B2 Hy F Eu) as (W3 & S3 & Hh & C).
  assert (Wt : works w w3 j) by (eapply works_trans; eauto).
  rewrite Dr, D, E1, E2, E3 in Hh.
  assert (Cb : can_build x -> can_build y) by (unfold can_build; rewrite E1, E2; auto).
  destruct r3 as [[]|e].
  - rewrite (andthen_ok _ _ _ _ _ Eu) in K. injection K as <- <-. split; [auto|]. split; [auto|]. split; [discriminate|].
    split; [congruence|]. intros c X. injection X as <-. auto.
  - rewrite (andthen_err _ _ _ _ _ Eu) in K. injection K as <- <-. split; [auto|]. split; [auto|]. split; [discriminate|].
    split; [discriminate|]. intros c X. injection X as <-.
    split; [intro Y; specialize (C (Cb Y)); discriminate|]. auto.
Qed.

(** ** copy *)
Theorem copy_op w i x w' r : Base w -> settledw w i -> w_inst w i = Some x -> copy inode i w = (w', r) ->
  r = Ok (w_next w) /\ works w w' (w_next w) /\ settledw w' (w_next w) /\
  has w' (w_next w) (i_cols x) (i_types x) (i_ids x) (den (tables w (i_path x)) x).
Proof.
  intros B S H E. rewrite (copy_eq inode w i x B H) in E. injection E as <- <-.
  destruct (copy_spec inode w i x B H) as (B1 & U & Hn & Op & Nx & Tb & Dn & Ne & Sn).
  split; [auto|]. split; [apply unchanged_works; auto|]. split; [auto|].
  exists (copy_inst x). do 4 (split; [auto|]). split; [exact Dn|]. cbn [copy_inst i_n]. symmetry. apply (den_length w i x); auto.
Qed.

(** ** unique *)
Definition firsts (cs : list string) (rows : list trow) : list trow :=
  filter (fun r => mem_b Z.eqb (rid_of r) (group_mins cs rows)) rows.

Lemma put_works w j x x' : Base w -> w_inst w j = Some x -> i_path x' = i_path x -> i_table x' = i_table x ->
  src_ok (tables w (i_path x)) x' -> works w (set_insts w (upd_nat (w_inst w) j (Some x'))) j.
Proof.
  intros B H E1 E2 S. apply unchanged_works; auto.
  - apply Base_put with (x := x); auto.
  - intros l N. apply put_unchanged. auto.
Qed.

Lemma unique_end {A} (a : A) w j y cs w' r : Base w -> w_inst w j = Some (set_cols y cs) ->
  settled (tables w (i_path y)) y -> NoDup cs -> cs <> [] -> incl cs (i_cols y) ->
  (y' <~ self j ;;
   _ <~ put j (set_cols y' (with_rid cs)) ;;
   _ <~ update_state inode j (mkSel (with_rid cs) (curr_source y') [WMin cs]) ;; ret a) w = (w', r) ->
  works w w' j /\ settledw w' j /\
  has w' j (with_rid cs) (i_types y) (i_ids y) (map (proj (with_rid cs)) (firsts cs (den (tables w (i_path y)) y))) /\
  (can_build y -> incl required (with_rid cs) -> r = Ok a) /\ (forall b, r = Ok b -> b = a).
Proof.
  intros B H S ND Ne I E. rewrite (andthen_ok _ _ _ _ _ (self_ok j w _ H)) in E.
  set (z := set_cols (set_cols y cs) (with_rid cs)) in E.
  set (w1 := set_insts w (upd_nat (w_inst w) j (Some z))) in *.
  rewrite (andthen_ok _ _ w w1 tt) in E by reflexivity.
  pose proof (b_inst inode w B j _ H) as So.
  assert (W1 : works w w1 j) by (apply put_works with (x := set_cols y cs); auto; destruct So as (tb & ds & rows & T); exists tb, ds, rows; exact T).
  assert (H1 : w_inst w1 j = Some z) by (cbn; apply upd_nat_same).
  assert (So' : src_ok (tables w (i_path y)) y) by (destruct So as (tb & ds & rows & T); exists tb, ds, rows; exact T).
  destruct (unique_fits (tables w (i_path y)) y cs So' S Ne ND I) as (rows & F & Dr).
  destruct (update_state inode j (mkSel (with_rid cs) (curr_source (set_cols y cs)) [WMin cs]) w1) as [w3 r3] eqn:Eu.
  destruct (adopt_spec w1 j z (mkSel (with_rid cs) (curr_source (set_cols y cs)) [WMin cs]) rows w3 r3 (wk_base _ _ _ W1) H1 F Eu)
    as (W3 & S3 & Hh & C).
  change (i_cols z) with (with_rid cs) in Hh. rewrite Dr in Hh.
  assert (Cb : can_build y -> incl required (with_rid cs) -> can_build z).
  { intros [_ (ts & Ht & Hc)] R. split; [exact R|]. exists ts. split; [exact Ht|]. intros c Hi. apply Hc.
    apply (with_rid_incl cs (i_cols y) I); [apply S|exact Hi]. }
  destruct r3 as [[]|e].
  - rewrite (andthen_ok _ _ _ _ _ Eu) in E. injection E as <- <-. split; [eapply works_trans; eauto|]. split; [auto|].
    split; [exact Hh|]. split; [auto|congruence].
  - rewrite (andthen_err _ _ _ _ _ Eu) in E. injection E as <- <-. split; [eapply works_trans; eauto|]. split; [auto|].
    split; [exact Hh|]. split; [intros X Y; specialize (C (Cb X Y)); discriminate|discriminate].
Qed.

Theorem unique_spec w i x columns cp w' r : Base w -> settledw w i -> w_inst w i = Some x ->
  unique inode i columns cp w = (w', r) ->
  let cs := match columns with Some l => l | None => i_cols x end in
  let j := tgt w i cp in
  NoDup cs -> cs <> [] ->
  works w w' j /\ (cp = false -> settledw w' j) /\
  (~ incl cs (i_cols x) -> w' = w /\ r = Err AssertionError) /\
  (incl cs (i_cols x) ->
     (forall a, r = Ok a -> a = (j, option_map (fun _ => with_rid cs) columns) /\ settledw w' j) /\
     (can_build x -> incl required (with_rid cs) -> exists a, r = Ok a) /\
     ((exists a, r = Ok a) \/ cp = false -> has w' j (with_rid cs) (i_types x) (i_ids x)
        (map (proj (with_rid cs)) (firsts cs (den (tables w (i_path x)) x))))).
Proof.
  intros B S H E cs j ND Ne. unfold unique in E. rewrite (andthen_ok _ _ _ _ _ (self_ok i w x H)) in E.
  unfold handle_columns in E. fold cs in E.
  destruct (forallb (fun c => in_cols c (i_cols x)) cs) eqn:I.
  2:{ unfold lift, andthen in E. injection E as <- <-. split; [apply works_refl; auto|]. split; [intro Ec; unfold j; rewrite Ec; auto|].
      split; [auto|]. intro I'. apply (proj2 (subset_b_incl cs (i_cols x))) in I'. unfold subset_b in I'. congruence. }
  apply (proj1 (subset_b_incl cs (i_cols x))) in I.
  rewrite (andthen_ok _ _ w w cs) in E by reflexivity.
  fold (with_rid cs) in E.
  destruct cp; cbn [target touched tgt] in *.
  - rewrite (andthen_ok _ _ _ _ _ (copy_eq inode w i x B H)) in E.
    destruct (copy_spec inode w i x B H) as (B1 & U & Hn & Op & Nx & Tb & Dn & Nei & Sn).
    set (w1 := reg_world w (copy_inst x)) in *. fold j in E, Nei, Hn, U, Sn.
    assert (H1 : w_inst w1 i = Some x) by (destruct (U i Nei) as [-> _]; auto).
    assert (S1 : settledw w1 i) by (eapply unchanged_settled; [apply U; auto|auto]).
    rewrite (andthen_ok _ _ _ _ _ (self_ok j w1 _ Hn)) in E.
    set (z := set_cols (copy_inst x) cs) in E.
    set (w2 := set_insts w1 (upd_nat (w_inst w1) j (Some z))) in *.
    rewrite (andthen_ok _ _ w1 w2 tt) in E by reflexivity.
    assert (W2 : works w1 w2 j).
    { apply put_works with (x := copy_inst x); auto. destruct (b_inst inode w1 B1 j _ Hn) as (tb & ds & rows & T). exists tb, ds, rows. exact T. }
    pose proof (wk_base _ _ _ W2) as B2.
    assert (U2 : unchanged w1 w2 i) by (apply put_unchanged; auto).
    assert (H2 : w_inst w2 i = Some x) by (destruct U2 as [-> _]; auto).
    assert (S2 : settledw w2 i) by (eapply unchanged_settled; eauto).
    assert (Hz : w_inst w2 j = Some z) by (cbn; apply upd_nat_same).
    destruct (record_interaction inode i w2) as [w3 r3] eqn:Er.
    destruct (record_spec inode w2 i x w3 r3 B2 S2 H2 Er) as [Q C].
    assert (W3 : works w w3 j).
    { apply (works_trans w w1); [apply unchanged_works; auto|]. apply (works_trans w1 w2); [exact W2|]. exact (quiet_works_any w2 w3 i x j H2 B2 Q). }
    assert (U3 : unchanged w2 w3 j) by (apply (qu_others _ _ _ _ Q); auto).
    destruct r3 as [[]|e].
    + rewrite (andthen_ok _ _ _ _ _ Er) in E.
      assert (H3 : w_inst w3 j = Some (set_cols (copy_inst x) cs)) by (destruct U3 as [-> _]; auto).
      assert (Tj : tables w3 (i_path x) (i_table x) = tables w (i_path x) (i_table x)).
      { destruct U3 as [_ U3]. exact (U3 z Hz). }
      assert (Sj : settled (tables w3 (i_path (copy_inst x))) (copy_inst x)).
      { destruct (S x H) as (N & R & tb & T & X). split; [exact N|]. split; [exact R|]. exists tb. split; [|exact X].
        cbn [copy_inst i_path i_table]. rewrite Tj. exact T. }
      destruct (unique_end _ w3 j (copy_inst x) cs w' r (wk_base _ _ _ W3) H3 Sj ND Ne I E) as (W4 & S4 & Hh & Ok1 & Ok2).
      assert (De : den (tables w3 (i_path (copy_inst x))) (copy_inst x) = den (tables w (i_path x)) x).
      { unfold den. change (curr_source (copy_inst x)) with (curr_source x). change (i_path (copy_inst x)) with (i_path x).
        rewrite (eval_ext (tables w3 (i_path x)) (tables w (i_path x))); [auto|].
        destruct (b_inst inode w B i x H) as (tb & ds & rows & T & Bs & _). rewrite Bs. auto. }
      rewrite De in Hh.
      split; [eapply works_trans; eauto|]. split; [discriminate|]. split; [tauto|]. intros _.
      split; [intros a Ha; split; [exact (Ok2 a Ha)|auto]|]. split; [|intros _; exact Hh].
      intros Cb R. eexists. apply Ok1; auto.
    + rewrite (andthen_err _ _ _ _ _ Er) in E. injection E as <- <-. split; [auto|]. split; [discriminate|]. split; [tauto|].
      intros _. split; [discriminate|]. split; [intro Cb; specialize (C (or_introl Cb)); discriminate|]. intros [[a ?]|?]; discriminate.
  - rewrite (andthen_ok _ _ w w i) in E by reflexivity. fold j in E. change i with j in H, S.
    rewrite (andthen_ok _ _ _ _ _ (self_ok j w x H)) in E.
    set (z := set_cols x cs) in E.
    set (w2 := set_insts w (upd_nat (w_inst w) j (Some z))) in *.
    rewrite (andthen_ok _ _ w w2 tt) in E by reflexivity. rewrite (andthen_ok _ _ w2 w2 tt) in E by reflexivity.
    assert (W2 : works w w2 j).
    { apply put_works with (x := x); auto. destruct (b_inst inode w B j _ H) as (tb & ds & rows & T). exists tb, ds, rows. exact T. }
    assert (Hz : w_inst w2 j = Some z) by (cbn; apply upd_nat_same).
    destruct (unique_end _ w2 j x cs w' r (wk_base _ _ _ W2) Hz (S x H) ND Ne I E) as (W4 & S4 & Hh & Ok1 & Ok2).
    split; [eapply works_trans; eauto|]. split; [auto|]. split; [tauto|]. intros _.
    split; [intros a Ha; split; [exact (Ok2 a Ha)|auto]|]. split; [|intros _; exact Hh].
    intros Cb R. eexists. apply Ok1; auto.
Qed.
End Ops.
